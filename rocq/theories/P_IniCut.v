(** Property theorems about n_ini files that are cut off: C101. *)
From Coq Require Import String Ascii ZArith NArith Arith List Bool Lia Permutation.
From Verif Require Import Base Map Items Grammar ParseLang Fmt Decimal Templates Emit Main Cpp Xml Val Rx CppSem SymLex Ast Store Resolve StoreDefs ResolveProps Prog Header Link EnumSem DecText EnumCall EnumRound XmlSpec XmlRdSimple XmlRead XmlReader XmlCall XmlWriter XmlFile XmlCarry XmlRound XmlProps XmlReadProps XmlThms
  IniSpec IniRead IniReader IniCall IniLines IniFile IniEntry IniWrite IniWriter IniScan IniKeep IniRound IniBack IniThms IniCase IniText IniMean IniVersions IniCut
  MainProps RunProps Pipeline Lexable ConfSpec ConfRead ConfRound P_Main P_Xml P_Ini P_Conf P_Whole P_Serve P_IniText P_IniVersion.
Import ListNotations.
Local Open Scope string_scope.
Local Open Scope list_scope.

Lemma reads_values enums ss o ds M (X : ini_setting enums ss o ds M) t os x vals : top_of ss t -> object M t os -> (forall p n, look (r_look (has_read x new_reader)) p n = vals p n) -> readable M vals "" (VStruct t os) ->
  exists gs, ini_reads enums ss o M x t os new_reader (Some (true, gs)) /\ takes M vals "" (VStruct t os) (VStruct t gs) /\ object M t gs.
Proof.
  intros T O V RD. set (k := r_look (has_read x new_reader)) in *.
  destruct (all_take enums ss o ds M X k (S (vheight (VStruct t os))) (VStruct t os) ltac:(lia) t "" O) as (gs & R & TK).
  { intros ns u fs ms m s old A B C D E F. rewrite V in F. exact (RD ns u fs ms m s old A B C D E F). }
  exists gs. split; [|split].
  - pose proof (reads_any enums ss o ds M X x t os new_reader T O) as Q. unfold read_members_of in Q. fold k in Q. now rewrite R in Q.
  - intros ns u fs ms A B. destruct (TK ns u fs ms A B) as (g & A1 & A2). exists g. split; [exact A1|]. intros m old I S AO. specialize (A2 m old I S AO). now rewrite V in A2.
  - exact (ini_read_fits enums ss o ds M X k (S (vheight (VStruct t os))) (VStruct t os) t "" true (VStruct t gs) ltac:(lia) O R).
Qed.

(** *** C101.  The reader finds what is left of the file: all values are those of the object, but
    that the last one may be cut off. *)
Theorem C101_cut : forall enums ss o ds L enums' ss' o' ds' M, ini_setting enums ss o ds L -> ini_setting enums' ss' o' ds' M -> o_only_read o = false ->
  forall dl t fs, let delta := (negb (o_no_delta o) && dl)%bool in top_of ss t -> object L t fs -> on_lines L delta (VStruct t fs) "" ->
  exists x, ini_writes enums ss o L dl t fs (Some x) /\ forall y z, x = (y ++ z)%string -> exists vals, part_of L delta (VStruct t fs) vals /\
  forall os, top_of ss' t -> object M t os -> readable M vals "" (VStruct t os) ->
  exists gs, ini_reads enums' ss' o' M y t os new_reader (Some (true, gs)) /\ takes M vals "" (VStruct t os) (VStruct t gs) /\ object M t gs.
Proof.
  intros enums ss o ds L enums' ss' o' ds' M X X' OR dl t fs delta T O OL. destruct (written enums ss o ds L X OR dl t fs T O OL) as (x & E & W). fold delta in E.
  exists x. split; [exact W|]. intros y z EX. destruct (written_cut enums ss o ds L X delta t fs x O OL E y z EX) as (vals & LK & PO & _). exists vals. split; [exact PO|]. intros os T' O' RD.
  exact (reads_values enums' ss' o' ds' M X' t os y vals T' O' LK RD).
Qed.
(** If it is cut off at the end of a line then nobody notices: reading succeeds, and every member
    has the value of the whole file or keeps its own. *)
Theorem C101_lines : forall enums ss o ds L enums' ss' o' ds' M, ini_setting enums ss o ds L -> ini_setting enums' ss' o' ds' M -> o_only_read o = false -> same_ini_machine L M ->
  forall dl t fs os, let delta := (negb (o_no_delta o) && dl)%bool in top_of ss t -> top_of ss' t -> object L t fs -> object M t os -> carries_plainly L delta (VStruct t fs) "" -> same_types L M t fs os ->
  exists x, ini_writes enums ss o L dl t fs (Some x) /\ forall y z, x = (y ++ z)%string -> y = "" \/ (exists w, y = (w ++ NL)%string) ->
  exists gs, ini_reads enums' ss' o' M y t os new_reader (Some (true, gs)) /\ object M t gs /\
  forall ns u f ms, member_at ns (VStruct t os) = Some (VStruct u f) -> find_struct (l_defs M) u = Some ms ->
  exists g, member_at ns (VStruct t gs) = Some (VStruct u g) /\ forall m, In m ms -> is_struct_member M m = false ->
    assoc (member_name m) g = assoc (member_name m) f \/ is_item M ms m = true /\ assoc (member_name m) g = value_at L delta (VStruct t fs) ns (member_name m).
Proof.
  intros enums ss o ds L enums' ss' o' ds' M X X' OR SM dl t fs os delta T T' O O' CA SAME.
  pose proof (same_text enums ss o ds L enums' ss' o' ds' M X X' SM delta t fs os O CA SAME) as KEY. pose proof (carries_lines enums ss o ds L X delta _ _ CA) as OL.
  destruct (written enums ss o ds L X OR dl t fs T O OL) as (x & E & W). fold delta in E. exists x. split; [exact W|]. intros y z EX EY.
  destruct (written_cut enums ss o ds L X delta t fs x O OL E y z EX) as (vals & LK & _ & GV & _). specialize (GV EY).
  assert (WI : forall ns u f, member_at ns (VStruct t os) = Some (VStruct u f) -> Forall (fun n => ident n = true) ns) by (intros ns u f AT; exact (way_idents enums' ss' o' ds' M X' ns (VStruct t os) t u f O' AT)).
  assert (RV : forall ns u f ms m s, member_at ns (VStruct t os) = Some (VStruct u f) -> find_struct (l_defs M) u = Some ms -> In m ms -> is_item M ms m = true -> vals (IniKeep.section_of ns) (member_name m) = Some s ->
    exists v, value_at L delta (VStruct t fs) ns (member_name m) = Some v /\ forall a, read_text M m s a = Done v).
  { intros ns u f ms m s AT FS I J VS. pose proof (GV ns (member_name m) s (WI ns u f AT) VS) as G. rewrite gives_value in G. destruct (value_at L delta (VStruct t fs) ns (member_name m)) as [v|] eqn:VA; [|discriminate].
    exists v. split; [reflexivity|]. destruct (KEY ns u f ms m v AT FS I J VA) as (s' & SH & RT). assert (s' = s) by congruence. now subst s'. }
  destruct (reads_values enums' ss' o' ds' M X' t os y vals T' O' LK) as (gs & R & TK & OG).
  { intros ns u f ms m s a AT FS I J A VS. fold (IniKeep.section_of ns) in VS. destruct (RV ns u f ms m s AT FS I J VS) as (v & _ & RT). eauto. }
  exists gs. split; [exact R|]. split; [exact OG|]. intros ns u f ms AT FS. destruct (TK ns u f ms AT FS) as (g & A1 & A2). exists g. split; [exact A1|]. intros m I S.
  destruct (j_parts enums' ss' o' ds' M X' u f (at_fits enums' ss' o' ds' M X' _ _ t u f O' AT)) as (ms2 & d2' & FS2 & _ & _ & _ & PM). assert (ms2 = ms) by congruence. subst ms2.
  destruct (PM m I) as (ty & a & dv' & MT & A & _). specialize (A2 m a I S A). fold (IniKeep.section_of ns) in A2. destruct (is_item M ms m) eqn:J; [|left; now rewrite A].
  destruct (vals (IniKeep.section_of ns) (member_name m)) as [s|] eqn:VS; [|left; now rewrite A]. right. split; [reflexivity|]. destruct (RV ns u f ms m s AT FS I J VS) as (v & -> & RT). destruct A2 as (z' & RZ & AZ). rewrite RT in RZ. now injection RZ as ->.
Qed.
Lemma same_place enums ss o ds L (X : ini_setting enums ss o ds L) : forall ns v w t u f u' f', fits L v (TStruct t) = true -> fits L w (TStruct t) = true ->
  member_at ns v = Some (VStruct u f) -> member_at ns w = Some (VStruct u' f') -> u = u'.
Proof.
  induction ns as [|n ns IH]; intros v w t u f u' f' F F' A A'; cbn [member_at] in A, A'.
  - injection A as ->. injection A' as ->. pose proof (fits_ty L _ _ F) as E. pose proof (fits_ty L _ _ F') as E'. cbn in E, E'. congruence.
  - destruct (fits_as_struct L v t F) as (fs & ->). destruct (fits_as_struct L w t F') as (gs & ->). destruct (assoc n fs) as [x|] eqn:AX; [|discriminate]. destruct (assoc n gs) as [y|] eqn:AY; [|discriminate].
    destruct (j_parts enums ss o ds L X t fs F) as (ms & d & FS & _ & _ & K & PM). destruct (j_parts enums ss o ds L X t gs F') as (ms' & d' & FS' & _ & _ & K' & PM'). assert (ms' = ms) by congruence. subst ms'.
    assert (exists m, In m ms /\ member_name m = n) as (m & I & <-) by (apply assoc_some in AX; apply (in_map fst) in AX; rewrite K in AX; apply in_map_iff in AX as (m & Y1 & Y2); eauto).
    destruct (PM m I) as (ty & x' & _ & MT & E1 & _ & FX & _). destruct (PM' m I) as (ty' & y' & _ & MT' & E2 & _ & FY & _). assert (x' = x) by congruence. assert (y' = y) by congruence. assert (ty' = ty) by congruence. subst x' y' ty'.
    assert (exists q, ty = TStruct q) as (q & ->); [|exact (IH x y q u f u' f' FX FY A A')].
    destruct x as [| | | | | | |q fx| | | | | | | | | | | | | |]; try (destruct ns; discriminate A). pose proof (fits_ty L _ _ FX) as TY. cbn in TY. eauto.
Qed.
Lemma same_header enums ss o ds L : ini_setting enums ss o ds L -> forall t fs os, object L t fs -> object L t os -> same_types L L t fs os.
Proof.
  intros X t fs os O O' ns u f ms m u' f' ms' m' AT FS I S AT' FS' I' J' E. assert (u' = u) by exact (eq_sym (same_place enums ss o ds L X ns _ _ t u f u' f' O O' AT AT')). subst u'. assert (ms' = ms) by congruence. subst ms'.
  destruct (j_parts enums ss o ds L X u f (at_fits enums ss o ds L X _ _ t u f O AT)) as (ms2 & d2' & FS2 & _ & ND & _ & _). assert (ms2 = ms) by congruence. subst ms2.
  assert (m' = m) by (symmetry; exact (j_name_inj ms m m' ND I I' E)). subst m'. destruct m as [st n d|e n d|e n]; [| |discriminate S].
  - exists n, d, d. left. eauto.
  - exists n, d, d. right. eauto.
Qed.
(** With the functions that a run of stfx leaves on the disk. *)
Theorem C101_programs : forall E ds ins d o w, has_program E B_n_ini ds ins d o w -> header_ok (o_reader o) (o_writer o) ds = true -> class_ok B_n_ini o -> o_only_read o = false ->
  exists P, program_in E d o w = Some P /\ forall L, fitting ds L -> (32 <= l_long L)%Z ->
  (forall u ms m, In (DefStruct u ms) ds -> In m ms -> is_scalar L m = true -> member_name m <> "items" /\ member_name m <> "data") ->
  forall dl t fs os, let delta := (negb (o_no_delta o) && dl)%bool in top_level ds t -> object L t fs -> object L t os -> carries_plainly L delta (VStruct t fs) "" ->
  exists x, ini_saves P o L dl t fs x /\ forall y z, x = (y ++ z)%string -> y = "" \/ (exists w, y = (w ++ NL)%string) ->
  exists gs, ini_loads_any P o L y t os new_reader (Some (true, gs)) /\ object L t gs /\
  forall ns u f ms, member_at ns (VStruct t os) = Some (VStruct u f) -> find_struct (l_defs L) u = Some ms ->
  exists g, member_at ns (VStruct t gs) = Some (VStruct u g) /\ forall m, In m ms -> is_struct_member L m = false ->
    assoc (member_name m) g = assoc (member_name m) f \/ is_item L ms m = true /\ assoc (member_name m) g = value_at L delta (VStruct t fs) ns (member_name m).
Proof.
  intros E ds ins d o w H OK NF OR. destruct (program_of _ _ _ _ _ _ _ H) as (enums & ss & LK & PI & TOP). eexists. split; [exact PI|].
  intros L (D & LL & LF) LB NM dl t fs os delta T O O' CA.
  assert (X : ini_setting enums ss o ds L).
  { destruct NF as [N1 N2]. constructor; [constructor; auto; discriminate|exact LL|exact LF| |].
    - intros u ms m I J S. destruct (NM u ms m I J S). split; now apply String.eqb_neq.
    - split; apply String.eqb_neq; congruence. }
  exact (C101_lines enums ss o ds L enums ss o ds L X X OR ltac:(split; [reflexivity|split; [exact LB|split; reflexivity]]) dl t fs os (TOP t T) (TOP t T) O O' CA (same_header enums ss o ds L X t fs os O O')).
Qed.
(** Elsewhere a number can lose its last digits, and reading succeeds. *)
Theorem C101_number_refuted : exists x y z, x = (y ++ z)%string /\
  ini_writes (enums_of ldefs) (structs_of ldefs) (zo false) (lang_of ldefs) false "outer" (lout KLong 4294967299 7) (Some x) /\
  ini_reads (enums_of ldefs) (structs_of ldefs) (zo false) (lang_of ldefs) y "outer" (lout KLong 0 0) new_reader (Some (true, lout KLong 429 0)).
Proof.
  exists (lines [""; "[i]"; "l 4294967299"; "x 7"]), (NL ++ "[i]" ++ NL ++ "l 429")%string, ("4967299" ++ NL ++ "x 7" ++ NL)%string. split; [reflexivity|]. split.
  - assert (W : obj_text (lang_of ldefs) (negb (o_no_delta (zo false)) && false) (VStruct "outer" (lout KLong 4294967299 7)) "" = Some (lines [""; "[i]"; "l 4294967299"; "x 7"])) by (vm_compute; reflexivity).
    rewrite <- W. refine (writes_any (enums_of ldefs) (structs_of ldefs) (zo false) ldefs (lang_of ldefs) l_setting eq_refl false "outer" _ l_top _). vm_compute; reflexivity.
  - assert (R : read_members_of (lang_of ldefs) (r_look (has_read (NL ++ "[i]" ++ NL ++ "l 429") new_reader)) "outer" (lout KLong 0 0) = Some (true, lout KLong 429 0)) by (vm_compute; reflexivity).
    rewrite <- R. refine (reads_any (enums_of ldefs) (structs_of ldefs) (zo false) ldefs (lang_of ldefs) l_setting _ "outer" _ new_reader l_top _). vm_compute; reflexivity.
Qed.
Print Assumptions C101_cut.
Print Assumptions C101_lines.
Print Assumptions C101_programs.
Print Assumptions C101_number_refuted.

(** *** Cases *)
Example C101_case : exists x y z, x = (y ++ z)%string /\ (exists w, y = (w ++ NL)%string) /\ z <> "" /\ carries_plainly zL false (VStruct "outer" zv) "" /\
  ini_writes zen zss (zo false) zL false "outer" zv (Some x) /\ ini_reads zen zss (zo false) zL y "outer" znew new_reader (Some (true, zout 0 0 12 (zin (-5) 4294967299 1 "def" 0) 0 zdef_in 0)).
Proof.
  assert (exists x, obj_text zL (negb (o_no_delta (zo false)) && false) (VStruct "outer" zv) "" = Some x /\ exists y z, x = (y ++ z)%string /\ (exists w, y = (w ++ NL)%string) /\ z <> "" /\
    read_members_of zL (r_look (has_read y new_reader)) "outer" znew = Some (true, zout 0 0 12 (zin (-5) 4294967299 1 "def" 0) 0 zdef_in 0)) as (x & W & y & z & E & EY & NZ & R).
  { eexists. split; [vm_compute; reflexivity|].
    exists (lines ["top 7"; "us 65535"; "e a"; ""; "[my mid]"; "f 12"; ""; "[my mid.deep down]"; "x -5"; "l 4294967299"]), (lines ["bo 0"; "st two words [x]"; "k b"; ""; "[fl]"; "only a"; ""; "[i]"; "x 1"; "l 2"; "bo 1"; "st w"; "k 77"]).
    split; [vm_compute; reflexivity|]. split; [|split; [discriminate|vm_compute; reflexivity]].
    exists ("top 7" ++ NL ++ "us 65535" ++ NL ++ "e a" ++ NL ++ NL ++ "[my mid]" ++ NL ++ "f 12" ++ NL ++ NL ++ "[my mid.deep down]" ++ NL ++ "x -5" ++ NL ++ "l 4294967299")%string. vm_compute; reflexivity. }
  exists x, y, z. split; [exact E|]. split; [exact EY|]. split; [exact NZ|]. split; [apply zv_plainly|]. rewrite <- W, <- R. split.
  - refine (writes_any zen zss (zo false) zdefs zL (z_setting false) eq_refl false "outer" zv z_top _). vm_compute; reflexivity.
  - refine (reads_any zen zss (zo false) zdefs zL (z_setting false) _ "outer" _ new_reader z_top _). vm_compute; reflexivity.
Qed.
