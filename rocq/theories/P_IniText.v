(** Property theorems about n_ini files as people write them: C99. *)
From Coq Require Import String Ascii ZArith NArith Arith List Bool Lia Permutation.
From Verif Require Import Base Map Items Grammar ParseLang Fmt Decimal Templates Emit Main Cpp Xml Val Rx CppSem SymLex Ast Store Resolve StoreDefs ResolveProps Prog Header Link EnumSem DecText EnumCall EnumRound XmlSpec XmlRdSimple XmlRead XmlReader XmlCall XmlWriter XmlFile XmlCarry XmlRound XmlProps XmlReadProps XmlThms
  IniSpec IniRead IniReader IniCall IniLines IniFile IniEntry IniWrite IniWriter IniScan IniKeep IniRound IniBack IniThms IniCase IniText IniMean
  MainProps RunProps Pipeline Lexable ConfSpec ConfRead ConfRound P_Main P_Xml P_Ini P_Conf P_Whole P_Serve.
Import ListNotations.
Local Open Scope string_scope.
Local Open Scope list_scope.

(** *** C99.  Files of lines as in IniText.v: sections, items, items of several lines,
    comments, empty lines; no line longer than 79 characters. *)
Definition well_formed (ls : list line) : Prop := (forall l, In l ls -> line_ok l) /\ finished ls.
(** A reader that has read the files [older], the last one first, reads [ls]: the members are
    what the files say; an item that is not in the last file with its section is not in any. *)
Theorem C99_meaning : forall enums ss o ds L, ini_setting enums ss o ds L ->
  forall t os ls older, top_of ss t -> object L t os -> (forall x, In x (ls :: older) -> well_formed x) -> readable L (files_value (ls :: older)) "" (VStruct t os) ->
  exists gs, ini_reads enums ss o L (file_text ls) t os (after_files older) (Some (true, gs)) /\ takes L (files_value (ls :: older)) "" (VStruct t os) (VStruct t gs) /\ object L t gs.
Proof.
  intros enums ss o ds L X t os ls older T O W RD. pose proof (files_values (ls :: older) W) as (_ & V).
  set (k := r_look (after_files (ls :: older))) in *.
  destruct (all_take enums ss o ds L X k (S (vheight (VStruct t os))) (VStruct t os) ltac:(lia) t "" O) as (gs & R & TK).
  { intros ns u fs ms m s old A B C D E F. rewrite V in F. exact (RD ns u fs ms m s old A B C D E F). }
  exists gs. split; [|split].
  - pose proof (reads_any enums ss o ds L X (file_text ls) t os (after_files older) T O) as Q. unfold read_members_of in Q. change (r_look (has_read (file_text ls) (after_files older))) with k in Q. now rewrite R in Q.
  - intros ns u fs ms A B. destruct (TK ns u fs ms A B) as (g & A1 & A2). exists g. split; [exact A1|]. intros m old I S AO. specialize (A2 m old I S AO). now rewrite V in A2.
  - exact (ini_read_fits enums ss o ds L X k (S (vheight (VStruct t os))) (VStruct t os) t "" true (VStruct t gs) ltac:(lia) O R).
Qed.
(** A new reader. *)
Theorem C99_new_reader : forall enums ss o ds L, ini_setting enums ss o ds L ->
  forall t os ls, top_of ss t -> object L t os -> well_formed ls -> readable L (value ls) "" (VStruct t os) ->
  exists gs, ini_reads enums ss o L (file_text ls) t os new_reader (Some (true, gs)) /\ takes L (value ls) "" (VStruct t os) (VStruct t gs) /\ object L t gs.
Proof.
  intros enums ss o ds L X t os ls T O W RD. apply (C99_meaning enums ss o ds L X t os ls [] T O); [|exact RD]. intros x [<-|[]]. exact W.
Qed.
(** Only the values matter, also when some cannot be converted. *)
Theorem C99_values_only : forall enums ss o ds L, ini_setting enums ss o ds L ->
  forall t os ls older ls' older', top_of ss t -> object L t os -> (forall x, In x (ls :: older) -> well_formed x) -> (forall x, In x (ls' :: older') -> well_formed x) ->
  same_values L (files_value (ls :: older)) (files_value (ls' :: older')) "" (VStruct t os) ->
  exists r, ini_reads enums ss o L (file_text ls) t os (after_files older) r /\ ini_reads enums ss o L (file_text ls') t os (after_files older') r.
Proof.
  intros enums ss o ds L X t os ls older ls' older' T O W W' SV. pose proof (files_values (ls :: older) W) as (_ & V). pose proof (files_values (ls' :: older') W') as (_ & V').
  pose proof (reads_any enums ss o ds L X (file_text ls) t os (after_files older) T O) as Q. pose proof (reads_any enums ss o ds L X (file_text ls') t os (after_files older') T O) as Q'.
  unfold read_members_of in Q, Q'. cbn [after_files] in V, V'.
  rewrite (read_same L (r_look (has_read (file_text ls) (after_files older))) (r_look (has_read (file_text ls') (after_files older'))) (S (vheight (VStruct t os))) (VStruct t os) "" ltac:(lia)) in Q.
  - eexists. split; [exact Q|exact Q'].
  - intros ns u fs ms m A B C D. rewrite V, V'. exact (SV ns u fs ms m A B C D).
Qed.
Lemma one_file enums ss o ds L (X : ini_setting enums ss o ds L) t os ls ls' : top_of ss t -> object L t os -> well_formed ls -> well_formed ls' -> same_values L (value ls) (value ls') "" (VStruct t os) ->
  exists r, ini_reads enums ss o L (file_text ls) t os new_reader r /\ ini_reads enums ss o L (file_text ls') t os new_reader r.
Proof.
  intros T O W W' S. apply (C99_values_only enums ss o ds L X t os ls [] ls' [] T O); [now intros x [<-|[]]|now intros x [<-|[]]|exact S].
Qed.
(** Comments and empty lines do not matter, *)
Theorem C99_comments : forall enums ss o ds L, ini_setting enums ss o ds L ->
  forall t os ls ls', top_of ss t -> object L t os -> well_formed ls -> well_formed ls' -> without_notes ls = without_notes ls' ->
  exists r, ini_reads enums ss o L (file_text ls) t os new_reader r /\ ini_reads enums ss o L (file_text ls') t os new_reader r.
Proof.
  intros enums ss o ds L X t os ls ls' T O W W' E. apply (one_file enums ss o ds L X); auto. intros ns u fs ms m _ _ _ _. rewrite <- (value_notes ls), <- (value_notes ls'). now rewrite E.
Qed.
(** nor does the order of sections and of the items in them, *)
Theorem C99_order : forall enums ss o ds L, ini_setting enums ss o ds L ->
  forall t os ps ps', top_of ss t -> object L t os -> orderly ps -> shuffled ps ps' -> well_formed (laid_out ps) -> well_formed (laid_out ps') ->
  exists r, ini_reads enums ss o L (file_text (laid_out ps)) t os new_reader r /\ ini_reads enums ss o L (file_text (laid_out ps')) t os new_reader r.
Proof.
  intros enums ss o ds L X t os ps ps' T O OR SH W W'. apply (one_file enums ss o ds L X); auto. intros ns u fs ms m _ _ _ _. exact (proj2 (value_shuffled ps ps' OR SH) _ _).
Qed.
(** nor do items and sections that belong to no member. *)
Theorem C99_unknown_item : forall enums ss o ds L, ini_setting enums ss o ds L ->
  forall t os a l b, top_of ss t -> object L t os -> well_formed (a ++ l :: b) -> well_formed (a ++ b) -> is_item_line l = true ->
  (forall ns u fs ms m, member_at ns (VStruct t os) = Some (VStruct u fs) -> find_struct (l_defs L) u = Some ms -> In m ms -> is_item L ms m = true -> line_name l <> member_name m) ->
  exists r, ini_reads enums ss o L (file_text (a ++ l :: b)) t os new_reader r /\ ini_reads enums ss o L (file_text (a ++ b)) t os new_reader r.
Proof.
  intros enums ss o ds L X t os a l b T O W W' IL N. apply (one_file enums ss o ds L X); auto. intros ns u fs ms m AT FS I J. apply value_item_added; [exact IL|]. exact (N ns u fs ms m AT FS I J).
Qed.
Theorem C99_unknown_section : forall enums ss o ds L, ini_setting enums ss o ds L ->
  forall t os a q c b r, top_of ss t -> object L t os -> well_formed (a ++ Sec q c :: b ++ r) -> well_formed (a ++ r) -> no_section b -> from_section r ->
  (forall ns u fs, member_at ns (VStruct t os) = Some (VStruct u fs) -> IniKeep.section_of ns <> q) ->
  exists x, ini_reads enums ss o L (file_text (a ++ Sec q c :: b ++ r)) t os new_reader x /\ ini_reads enums ss o L (file_text (a ++ r)) t os new_reader x.
Proof.
  intros enums ss o ds L X t os a q c b r T O W W' NB FR N. apply (one_file enums ss o ds L X); auto. intros ns u fs ms m AT FS I J. apply value_section_added; auto. exact (N ns u fs AT).
Qed.
(** With the functions that a run of stfx leaves on the disk. *)
Theorem C99_programs : forall E ds ins d o w, has_program E B_n_ini ds ins d o w -> header_ok (o_reader o) (o_writer o) ds = true -> class_ok B_n_ini o ->
  exists P, program_in E d o w = Some P /\ forall L, fitting ds L ->
  (forall u ms m, In (DefStruct u ms) ds -> In m ms -> is_scalar L m = true -> member_name m <> "items" /\ member_name m <> "data") ->
  forall t os ls older, top_level ds t -> object L t os -> (forall x, In x (ls :: older) -> well_formed x) ->
  (readable L (files_value (ls :: older)) "" (VStruct t os) ->
   exists gs, ini_loads_any P o L (file_text ls) t os (after_files older) (Some (true, gs)) /\ takes L (files_value (ls :: older)) "" (VStruct t os) (VStruct t gs) /\ object L t gs) /\
  forall ls' older', (forall x, In x (ls' :: older') -> well_formed x) -> same_values L (files_value (ls :: older)) (files_value (ls' :: older')) "" (VStruct t os) ->
  exists r, ini_loads_any P o L (file_text ls) t os (after_files older) r /\ ini_loads_any P o L (file_text ls') t os (after_files older') r.
Proof.
  intros E ds ins d o w H OK NF. destruct (program_of _ _ _ _ _ _ _ H) as (enums & ss & LK & PI & TOP). eexists. split; [exact PI|].
  intros L (D & LL & LF) NM t os ls older T O W.
  assert (X : ini_setting enums ss o ds L).
  { destruct NF as [N1 N2]. constructor; [constructor; auto; discriminate|exact LL|exact LF| |].
    - intros u ms m I J S. destruct (NM u ms m I J S). split; now apply String.eqb_neq.
    - split; apply String.eqb_neq; congruence. }
  split.
  - intros RD. exact (C99_meaning enums ss o ds L X t os ls older (TOP t T) O W RD).
  - intros ls' older' W' S. exact (C99_values_only enums ss o ds L X t os ls older ls' older' (TOP t T) O W W' S).
Qed.

(** An item of several lines at the end of a file is lost. *)
Definition zin_is (s : string) : fields := zout 0 0 0 zdef_in 0 (zin 4 0 1 s 0) 0.
Definition zreads (ls : list line) := ini_reads zen zss (zo false) zL (file_text ls) "outer" znew new_reader.
Lemma zreads_is ls gs : read_members_of zL (r_look (has_read (file_text ls) new_reader)) "outer" znew = Some (true, gs) -> zreads ls (Some (true, gs)).
Proof.
  intros E. unfold zreads. rewrite <- E. exact (reads_any zen zss (zo false) zdefs zL (z_setting false) (file_text ls) "outer" znew new_reader z_top (proj1 (proj2 z_new))).
Qed.
Theorem C99_unfinished_refuted : exists ls, (forall l, In l ls -> line_ok l) /\ value ls "i" "st" = Some (NL ++ " two" ++ NL ++ " lines" ++ NL)%string /\
  zreads ls (Some (true, zin_is "def")) /\ zreads (ls ++ [Blank]) (Some (true, zin_is (NL ++ " two" ++ NL ++ " lines" ++ NL))).
Proof.
  exists [Sec "i" ""; Long "st" ["two"; "lines"]]. split.
  - intros l [<-|[<-|[]]]; cbn; repeat split; try discriminate; try lia; [now left|now destruct H as [<-|[<-|[]]]|destruct H as [<-|[<-|[]]]; cbn; lia].
  - split; [reflexivity|]. split; apply zreads_is; vm_compute; reflexivity.
Qed.
(** A comment of more than 79 characters: its end is read like a line of its own. *)
Definition long_comment : string := "% this comment is a long one, it goes on and on, up to the end of the buffer:  st spilled".
Theorem C99_long_line_refuted : no_nl long_comment = true /\
  ini_reads zen zss (zo false) zL (lines ["[i]"; long_comment]) "outer" znew new_reader (Some (true, zin_is "spilled")) /\
  ini_reads zen zss (zo false) zL (lines ["[i]"]) "outer" znew new_reader (Some (true, zin_is "def")).
Proof.
  split; [reflexivity|]. split.
  - assert (R : read_members_of zL (r_look (has_read (lines ["[i]"; long_comment]) new_reader)) "outer" znew = Some (true, zin_is "spilled")) by (vm_compute; reflexivity).
    rewrite <- R. exact (reads_any zen zss (zo false) zdefs zL (z_setting false) _ "outer" znew new_reader z_top (proj1 (proj2 z_new))).
  - assert (R : read_members_of zL (r_look (has_read (lines ["[i]"]) new_reader)) "outer" znew = Some (true, zin_is "def")) by (vm_compute; reflexivity).
    rewrite <- R. exact (reads_any zen zss (zo false) zdefs zL (z_setting false) _ "outer" znew new_reader z_top (proj1 (proj2 z_new))).
Qed.
Print Assumptions C99_meaning.
Print Assumptions C99_new_reader.
Print Assumptions C99_values_only.
Print Assumptions C99_comments.
Print Assumptions C99_order.
Print Assumptions C99_unknown_item.
Print Assumptions C99_unknown_section.
Print Assumptions C99_programs.
Print Assumptions C99_unfinished_refuted.
Print Assumptions C99_long_line_refuted.

(** *** Cases *)
Definition z_file : list line :=
  [Note " settings"; Blank; Sec "my mid" ""; Item "f" "2" "% comment"; Sec "i" "% more"; Item "x" "1" ""; Item "l" "7" ""; Item "x" "3" ""; Item "unknown" "text" ""; Long "st" ["two"; "lines"]; Note "not the end of it"; Blank;
   Sec "nowhere" ""; Item "x" "no number" ""; Sec "my mid.deep down" ""; Item "k" "b" ""; Item "st" "a word " ""].
Lemma z_file_ok : well_formed z_file.
Proof.
  split.
  - intros l I. cbn in I. repeat (destruct I as [<-|I]; [cbn [line_ok]; repeat match goal with |- _ /\ _ => split end; try reflexivity; try discriminate; try (vm_compute; lia); try (now left);
      try (right; eexists; split; reflexivity); try (intros q Q; repeat (destruct Q as [<-|Q]; [split; [reflexivity|vm_compute; lia]|]); contradiction)|]). contradiction.
  - intros a n t b E. exists (Item "st" "a word " ""). split; [|discriminate]. do 10 (destruct a as [|? a]; [discriminate E || (injection E as _ _ <-; cbn; tauto)|injection E as _ E]).
    do 7 (destruct a as [|? a]; [discriminate E|injection E as _ E]). destruct a; discriminate E.
Qed.
Example C99_case : well_formed z_file /\ readable zL (value z_file) "" (VStruct "outer" znew) /\
  exists gs, zreads z_file (Some (true, gs)) /\ gs = zout 0 0 2 (zin 4 0 1 "a word " 4) 0 (zin 3 7 1 (NL ++ " two" ++ NL ++ " lines" ++ NL) 0) 0.
Proof.
  split; [exact z_file_ok|]. split.
  - intros ns u fs ms m s old AT FS I J AO V. apply ways_all in AT. vm_compute in AT.
    repeat (destruct AT as [AT|AT]; [injection AT as <- <- <-; vm_compute in FS; injection FS as <-; cbn in I;
      repeat (destruct I as [<-|I]; [try discriminate J; try discriminate V; cbn in AO; injection AO as <-; vm_compute in V; injection V as <-; eexists; vm_compute; reflexivity|]); contradiction|]). contradiction.
  - eexists. split; [apply zreads_is; vm_compute; reflexivity|reflexivity].
Qed.
