(** Property theorems about numbers in n_ini files, and about texts that cannot be read: C103. *)
From Coq Require Import String Ascii ZArith NArith Arith List Bool Lia Permutation.
From Verif Require Import Base Map Items Grammar ParseLang Fmt Decimal Templates Emit Main Cpp Xml Val Rx CppSem SymLex Ast Store Resolve StoreDefs ResolveProps Prog Header Link EnumSem DecText EnumCall EnumRound XmlSpec XmlRdSimple XmlRead XmlReader XmlCall XmlWriter XmlFile XmlCarry XmlRound XmlProps XmlReadProps XmlThms
  IniSpec IniRead IniReader IniCall IniLines IniFile IniEntry IniWrite IniWriter IniScan IniKeep IniRound IniBack IniThms IniCase IniText IniMean IniVersions IniCut IniRange NumText IniLocal
  MainProps RunProps Pipeline Lexable ConfSpec ConfRead ConfRound P_Main P_Xml P_Ini P_Conf P_Whole P_Serve P_IniText P_IniVersion P_IniCut P_IniRange.
Import ListNotations.
Local Open Scope string_scope.
Local Open Scope list_scope.

Lemma took_ext L it it' fs gs m : (forall n, it n = it' n) -> took L it fs gs m -> took L it' fs gs m.
Proof. intros E H old A. specialize (H old A). now rewrite <- E. Qed.
Lemma spoiled_ext L it it' l : (forall n, it n = it' n) -> spoiled L it l -> spoiled L it' l.
Proof. intros E (m & r & s & A & B & C). exists m, r, s. now rewrite <- E. Qed.
Lemma local_ext L it it' ms fs gs ok : (forall n, it n = it' n) -> local L it ms fs gs ok -> local L it' ms fs gs ok.
Proof.
  intros E (a & b & H1 & H2 & H3 & H4). exists a, b. split; [exact H1|]. split; [destruct ok; [exact H2|exact (spoiled_ext L it it' b E H2)]|]. split; [|exact H4]. intros m I. exact (took_ext L it it' fs gs m E (H3 m I)).
Qed.
Lemma bad_ext L it it' p v ns : (forall p n, it p n = it' p n) -> bad_above L it p v ns -> bad_above L it' p v ns.
Proof. intros E (a & b & H1 & H2 & u & f & ms & m & s & A1 & A2 & A3 & A4 & A5 & A6). exists a, b. split; [exact H1|]. split; [exact H2|]. exists u, f, ms, m, s. rewrite <- E. auto 12. Qed.

(** *** C103.  [numeral s z] (NumText): [s] is blanks, a sign or none, digits, and anything that
    does not begin with a digit; [z]: the number.  [means L t s v]: as a member of type [t] this is
    [v].  [unreadable L m s] (IniLocal): the text [s] has no meaning for the member [m].
    What becomes of every struct in an object, when the text of some members in the files cannot be
    read.  [bad_above]: such a member is in a struct that this one is in; then the struct is
    unchanged.  [local]: the members of built-in types and then the enums take the values in the
    files, up to the first one that cannot be read. *)
Theorem C103_structs : forall enums ss o ds L, ini_setting enums ss o ds L -> (32 <= l_long L)%Z ->
  forall t os ls older, top_of ss t -> object L t os -> (forall x, In x (ls :: older) -> well_formed x) ->
  let vals := files_value (ls :: older) in
  exists r, ini_reads enums ss o L (file_text ls) t os (after_files older) r /\ forall rv gs, r = Some (rv, gs) ->
  forall ns u f ms, member_at ns (VStruct t os) = Some (VStruct u f) -> find_struct (l_defs L) u = Some ms ->
  bad_above L vals "" (VStruct t os) ns /\ member_at ns (VStruct t gs) = Some (VStruct u f) \/
  ~ bad_above L vals "" (VStruct t os) ns /\ exists g ok, member_at ns (VStruct t gs) = Some (VStruct u g) /\ local L (vals (IniKeep.section_of ns)) ms f g ok.
Proof.
  intros enums ss o ds L X LB t os ls older T O W vals. pose proof (files_values (ls :: older) W) as (_ & V). fold vals in V. set (k := r_look (after_files (ls :: older))) in *.
  eexists. split; [exact (reads_any enums ss o ds L X (file_text ls) t os (after_files older) T O)|]. intros rv gs E ns u f ms AT FS. unfold read_members_of in E. change (r_look (has_read (file_text ls) (after_files older))) with k in E.
  destruct (read_obj L k (VStruct t os) "") as [[rv' w]|] eqn:R; [|discriminate]. destruct (read_obj_struct L _ _ _ _ _ R) as (u' & f' & gs' & [= <- <-] & ->). injection E as <- <-.
  destruct (read_local enums ss o ds L X LB k ns "" _ t rv' _ O R u f AT) as [(B & A)|(B & g & ms' & ok & A & FS' & LO)].
  - left. split; [|exact A]. revert B. apply bad_ext. exact V.
  - assert (ms' = ms) by congruence. subst ms'. right. split; [intros B'; apply B; revert B'; apply bad_ext; intros p n; symmetry; apply V|]. exists g, ok. split; [exact A|]. revert LO. apply local_ext. intros n. apply V.
Qed.
(** A member that is a number: unchanged, or what the text in the files means; this if no text for
    a member of its struct, or of one that this is in, cannot be read. *)
Theorem C103_numbers : forall enums ss o ds L, ini_setting enums ss o ds L -> (32 <= l_long L)%Z ->
  forall t os ls older, top_of ss t -> object L t os -> (forall x, In x (ls :: older) -> well_formed x) ->
  let vals := files_value (ls :: older) in
  exists r, ini_reads enums ss o L (file_text ls) t os (after_files older) r /\ forall rv gs, r = Some (rv, gs) ->
  forall ns u f ms ty n d s, member_at ns (VStruct t os) = Some (VStruct u f) -> find_struct (l_defs L) u = Some ms -> In (MSimple ty n d) ms -> is_number ty = true -> vals (IniKeep.section_of ns) n = Some s ->
  exists g, member_at ns (VStruct t gs) = Some (VStruct u g) /\ (assoc n g = assoc n f \/ exists v, means L ty s v /\ assoc n g = Some v) /\
    (~ bad_above L vals "" (VStruct t os) ns -> ~ bad_at L vals "" (VStruct t os) ns -> exists v, means L ty s v /\ assoc n g = Some v).
Proof.
  intros enums ss o ds L X LB t os ls older T O W vals. destruct (C103_structs enums ss o ds L X LB t os ls older T O W) as (r & R & H). fold vals in H. exists r. split; [exact R|]. intros rv gs E ns u f ms ty n d s AT FS I N VS.
  destruct (H rv gs E ns u f ms AT FS) as [(B & A)|(B & g & ok & A & a & b & SE & OK & TK & UN)]; [exists f; split; [exact A|]; split; [now left|contradiction]|]. clear H. exists g. split; [exact A|].
  destruct (j_parts enums ss o ds L X u f (at_fits enums ss o ds L X _ _ t u f O AT)) as (ms2 & d2 & FS2 & _ & _ & _ & PM). assert (ms2 = ms) by congruence. subst ms2.
  destruct (PM _ I) as (ty' & old & dv & MT & AO & _). cbn [member_name] in AO.
  assert (J : is_item L ms (MSimple ty n d) = true) by (unfold is_item; cbn [is_scalar]; apply existsb_exists; exists (MSimple ty n d); auto).
  assert (IN : In (MSimple ty n d) (a ++ b)) by (rewrite <- SE; now apply items_in). apply in_app_or in IN as [IA|IB].
  - specialize (TK _ IA old AO). cbn [member_name] in TK. rewrite VS in TK. destruct TK as (_ & x & RT & AX). assert (M : means L ty s x).
    { apply (text_means L ty s x LB N). cbn [read_text] in RT. destruct (text_value L ty s); [now injection RT as ->|discriminate]. }
    split; [right|intros _ _]; exists x; auto.
  - split; [left; apply (UN _ I eq_refl); now left|]. intros _ NB. exfalso. destruct ok; [subst b; contradiction|]. apply NB. destruct OK as (m & q & s' & -> & VM & UR).
    assert (IM : In m (section_members L ms)) by (rewrite SE; apply in_or_app; right; now left). apply items_in in IM as [IM JM]. exists u, f, ms, m, s'. auto 12.
Qed.
(** For any file at all, and any reader: a number is what it was, or what a text means that the
    reader can find. *)
Theorem C103_any_file : forall enums ss o ds L, ini_setting enums ss o ds L -> (32 <= l_long L)%Z ->
  forall x t os rd, used rd -> top_of ss t -> object L t os ->
  exists r, ini_reads enums ss o L x t os rd r /\ forall rv gs, r = Some (rv, gs) ->
  forall ns u f ms ty n d, member_at ns (VStruct t os) = Some (VStruct u f) -> find_struct (l_defs L) u = Some ms -> In (MSimple ty n d) ms -> is_number ty = true ->
  exists g, member_at ns (VStruct t gs) = Some (VStruct u g) /\ (assoc n g = assoc n f \/ exists s v, findable n s /\ means L ty s v /\ assoc n g = Some v).
Proof.
  intros enums ss o ds L X LB x t os rd U T O. eexists. split; [exact (reads_any enums ss o ds L X x t os rd T O)|]. intros rv gs E ns u f ms ty n d AT FS I N. unfold read_members_of in E.
  destruct (read_obj L (r_look (has_read x rd)) (VStruct t os) "") as [[rv' w]|] eqn:R; [|discriminate]. destruct (read_obj_struct L _ _ _ _ _ R) as (u' & f' & gs' & [= <- <-] & ->). injection E as <- <-.
  destruct (read_values enums ss o ds L X _ ns "" _ t rv' _ O R u f AT) as (g & ms' & A1 & FS' & A2). assert (ms' = ms) by congruence. subst ms'. exists g. split; [exact A1|].
  destruct (A2 _ I eq_refl) as [EQ|(_ & s & old & w & LK & RT & AW)]; [left; exact EQ|]. right. cbn [member_name] in *. exists s, w. split; [exact (used_found (has_read x rd) (used_again x rd U) _ _ _ LK)|]. split; [|exact AW].
  apply (text_means L ty s w LB N). cbn [read_text] in RT. destruct (text_value L ty s); [now injection RT as ->|discriminate].
Qed.
(** With the functions that a run of stfx leaves on the disk. *)
Theorem C103_programs : forall E ds ins d o w, has_program E B_n_ini ds ins d o w -> header_ok (o_reader o) (o_writer o) ds = true -> class_ok B_n_ini o ->
  exists P, program_in E d o w = Some P /\ forall L, fitting ds L -> (32 <= l_long L)%Z ->
  (forall u ms m, In (DefStruct u ms) ds -> In m ms -> is_scalar L m = true -> member_name m <> "items" /\ member_name m <> "data") ->
  forall t os ls older, top_level ds t -> object L t os -> (forall x, In x (ls :: older) -> well_formed x) ->
  let vals := files_value (ls :: older) in
  exists r, ini_loads_any P o L (file_text ls) t os (after_files older) r /\ forall rv gs, r = Some (rv, gs) ->
  forall ns u f ms ty n d s, member_at ns (VStruct t os) = Some (VStruct u f) -> find_struct (l_defs L) u = Some ms -> In (MSimple ty n d) ms -> is_number ty = true -> vals (IniKeep.section_of ns) n = Some s ->
  exists g, member_at ns (VStruct t gs) = Some (VStruct u g) /\ (assoc n g = assoc n f \/ exists v, means L ty s v /\ assoc n g = Some v) /\
    (~ bad_above L vals "" (VStruct t os) ns -> ~ bad_at L vals "" (VStruct t os) ns -> exists v, means L ty s v /\ assoc n g = Some v).
Proof.
  intros E ds ins d o w H OK NF. destruct (program_of _ _ _ _ _ _ _ H) as (enums & ss & LK & PI & TOP). eexists. split; [exact PI|].
  intros L (D & LL & LF) LB NM t os ls older T O W.
  assert (X : ini_setting enums ss o ds L).
  { destruct NF as [N1 N2]. constructor; [constructor; auto; discriminate|exact LL|exact LF| |].
    - intros u ms m I J S. destruct (NM u ms m I J S). split; now apply String.eqb_neq.
    - split; apply String.eqb_neq; congruence. }
  exact (C103_numbers enums ss o ds L X LB t os ls older (TOP t T) O W).
Qed.

(** Reading succeeds, but the numbers are not those in the file: a short and an unsigned int get
    what is left of the number, and nothing is said about text behind a number. *)
Definition ndefs : list def :=
  [DefStruct "inner" [MSimple short_E "sh" EmptyDefault; MSimple unsigned_int_E "un" EmptyDefault; MSimple int_E "x" EmptyDefault]; DefStruct "outer" [MUser "inner" "i" EmptyDefault]].
Definition nout (s u x : Z) : fields := [("i", VStruct "inner" [("sh", VNum KShort s); ("un", VNum KUInt u); ("x", VNum KInt x)])].
Lemma n_setting : ini_setting (enums_of ndefs) (structs_of ndefs) (zo false) ndefs (lang_of ndefs).
Proof. case_setting ndefs. Qed.
Lemma n_top : top_of (structs_of ndefs) "outer".
Proof. exact (ex_intro _ _ (conj eq_refl eq_refl)) || (vm_compute; eauto 10). Qed.
Theorem C103_other_number_refuted :
  ini_reads (enums_of ndefs) (structs_of ndefs) (zo false) (lang_of ndefs) (file_text [Sec "i" ""; Item "sh" "70000" ""; Item "un" "-1" ""; Item "x" "12abc" ""]) "outer" (nout 0 0 0) new_reader (Some (true, nout 4464 4294967295 12)).
Proof.
  assert (R : read_members_of (lang_of ndefs) (r_look (has_read (file_text [Sec "i" ""; Item "sh" "70000" ""; Item "un" "-1" ""; Item "x" "12abc" ""]) new_reader)) "outer" (nout 0 0 0) = Some (true, nout 4464 4294967295 12)) by (vm_compute; reflexivity).
  rewrite <- R. refine (reads_any (enums_of ndefs) (structs_of ndefs) (zo false) ndefs (lang_of ndefs) n_setting _ "outer" _ new_reader n_top _). vm_compute; reflexivity.
Qed.
(** A text that is no number, in a struct that is not the last one: reading reports success, and
    the member behind it in the struct is not read. *)
Theorem C103_not_reported_refuted : zreads [Sec "my mid.deep down" ""; Item "x" "seven" ""; Item "l" "5" ""; Sec "i" ""; Item "x" "1" ""] (Some (true, zout 0 0 0 zdef_in 0 (zin 1 0 1 "def" 0) 0)).
Proof. apply zreads_is. vm_compute; reflexivity. Qed.
Print Assumptions C103_structs.
Print Assumptions C103_numbers.
Print Assumptions C103_any_file.
Print Assumptions C103_programs.
Print Assumptions C103_other_number_refuted.
Print Assumptions C103_not_reported_refuted.

(** *** Cases *)
Example C103_numeral : numeral "  -042 and more" (-42) /\ numeral "7" 7 /\ ~ (exists z, numeral "seven" z) /\ ~ (exists z, numeral "- 5" z).
Proof. rewrite <- !scan_numeral. split; [reflexivity|]. split; [reflexivity|]. split; intros (z & H); apply scan_numeral in H; discriminate. Qed.
Example C103_means : means zL int_E "12abc" (VNum KInt 12) /\ means zL short_E "70000" (VNum KShort 4464) /\ means zL unsigned_int_E "-1" (VNum KUInt 4294967295) /\ means zL bool_E "5" (VNum KBool 1) /\
  ~ (exists v, means zL int_E "2147483648" v) /\ means zL long_E "2147483648" (VNum KLong 2147483648).
Proof.
  assert (LB : (32 <= l_long zL)%Z) by (vm_compute; discriminate).
  split; [apply text_means; [exact LB|reflexivity|reflexivity]|]. split; [apply text_means; [exact LB|reflexivity|reflexivity]|]. split; [apply text_means; [exact LB|reflexivity|reflexivity]|]. split; [apply text_means; [exact LB|reflexivity|reflexivity]|].
  split; [|apply text_means; [exact LB|reflexivity|reflexivity]]. intros (v & H). apply text_means in H; [discriminate|exact LB|reflexivity].
Qed.
(** The theorems, for the file of [C103_not_reported_refuted]. *)
Example C103_case : let ls := [Sec "my mid.deep down" ""; Item "x" "seven" ""; Item "l" "5" ""; Sec "i" ""; Item "x" "1" ""] in
  (32 <= l_long zL)%Z /\ well_formed ls /\ bad_at zL (files_value [ls]) "" (VStruct "outer" znew) ["my_mid"; "deep_down"] /\ ~ bad_above zL (files_value [ls]) "" (VStruct "outer" znew) ["i"] /\ ~ bad_at zL (files_value [ls]) "" (VStruct "outer" znew) ["i"].
Proof.
  intros ls. split; [vm_compute; discriminate|]. split; [|split; [|split]].
  - split.
    + intros l [<-|[<-|[<-|[<-|[<-|[]]]]]]; cbn; repeat split; try discriminate; try lia; now left.
    + intros a n q b E. exfalso. assert (I : In (Long n q) ls) by (rewrite E; apply in_or_app; right; now left). destruct I as [I|[I|[I|[I|[I|[]]]]]]; discriminate.
  - exists "inner", [("x", VNum KInt 4); ("l", VNum KLong 0); ("bo", VNum KBool 1); ("st", VStr "def"); ("k", VEnum "en" 0)], [MSimple int_E "x" (Default (DInt "4")); MSimple long_E "l" (Default (DInt "0")); MSimple bool_E "bo" (Default DTrue); MSimple std_string_E "st" (Default (DStr """def""")); MUser "en" "k" EmptyDefault], (MSimple int_E "x" (Default (DInt "4"))), "seven".
    split; [reflexivity|]. split; [reflexivity|]. split; [now left|]. split; [reflexivity|]. split; [reflexivity|]. intros (v & z & N & _). apply scan_numeral in N. discriminate.
  - intros (a & b & E & NE & u & f & ms & m & s & A1 & A2 & A3 & A4 & A5 & A6). assert (a = []) by (destruct a as [|x [|y a]]; [reflexivity|injection E as _ E; destruct b; [contradiction|discriminate]|injection E as _ E; discriminate]). subst a.
    cbn [fold_left] in A5. vm_compute in A5. discriminate.
  - intros (u & f & ms & m & s & A1 & A2 & A3 & A4 & A5 & A6). vm_compute in A1. injection A1 as <- <-. vm_compute in A2. injection A2 as <-.
    destruct A3 as [<-|[<-|[<-|[<-|[<-|[]]]]]]; vm_compute in A5; try discriminate. injection A5 as <-. apply A6. exists (VNum KInt 1). apply text_means; [vm_compute; discriminate|reflexivity|reflexivity].
Qed.
