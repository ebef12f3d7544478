(** Property theorems about the strings that come back from n_ini files, and no others: C105. *)
From Coq Require Import String Ascii ZArith NArith Arith List Bool Lia Permutation.
From Verif Require Import Base Map Items Grammar ParseLang Fmt Decimal Templates Emit Main Cpp Xml Val Rx CppSem SymLex Ast Store Resolve StoreDefs ResolveProps Prog Header Link EnumSem DecText EnumCall EnumRound XmlSpec XmlRdSimple XmlRead XmlReader XmlCall XmlWriter XmlFile XmlCarry XmlRound XmlProps XmlReadProps XmlThms
  IniSpec IniRead IniReader IniCall IniLines IniFile IniEntry IniWrite IniWriter IniScan IniBlock IniKeep IniRound IniBack IniThms IniCase IniText IniMean IniVersions IniCut IniRange IniExact
  MainProps RunProps Pipeline Lexable ConfSpec ConfRead ConfRound P_Main P_Xml P_Ini P_Conf P_Whole P_Serve P_IniText P_IniVersion P_IniCut P_IniRange.
Import ListNotations.
Local Open Scope string_scope.
Local Open Scope list_scope.

(** *** C105.  An object is written and read, by a new reader or one that has read any files.  Of
    all its scalars but one, a string [n] in the nested struct at [ns], it is known that they come
    back ([carries_but]: the conditions of C42 for the others).  The string is written, and
    the object that is read into has another one there.  Then the reader gives that member
    the written string if and only if it is one line or several lines as in C42. *)
Theorem C105_exact : forall enums ss o ds L, ini_setting enums ss o ds L -> o_only_read o = false ->
  forall dl t fs os rd, let delta := (negb (o_no_delta o) && dl)%bool in
  (32 <= l_long L)%Z -> used rd -> top_of ss t -> object L t fs -> object L t os ->
  forall ns u f fo ms d n df dv s, ns <> [] -> member_at ns (VStruct t fs) = Some (VStruct u f) -> member_at ns (VStruct t os) = Some (VStruct u fo) ->
  find_struct (l_defs L) u = Some ms -> In (MSimple std_string_E n df) ms -> String.length n <= 77 -> assoc n f = Some (VStr s) -> assoc n fo <> Some (VStr s) ->
  default_fields L u = Some d -> assoc n d = Some dv -> left_out L delta dv (VStr s) = Some false -> carries_but L delta ns n (VStruct t fs) "" ->
  exists x r, ini_writes enums ss o L dl t fs (Some x) /\ ini_reads enums ss o L x t os rd r /\
    ((exists rv gs g, r = Some (rv, gs) /\ member_at ns (VStruct t gs) = Some (VStruct u g) /\ assoc n g = Some (VStr s)) <-> one_line n s \/ several_lines n s).
Proof.
  intros enums ss o ds L X OR dl t fs os rd delta LB U T O OO ns u f fo ms d n df dv s NN AT ATO FS IM LN AF AFO D AD LO CB.
  assert (ID : ident n = true) by exact (j_ident enums ss o ds L X u ms (MSimple std_string_E n df) FS IM).
  pose proof (way_section enums ss o ds L X ns _ t u f NN O AT) as NS. unfold IniKeep.section_of in NS.
  destruct (j_parts enums ss o ds L X u f (at_fits enums ss o ds L X ns _ t u f O AT)) as (ms' & d' & FS' & D' & ND & _ & PM). assert (ms' = ms) by congruence. assert (d' = d) by congruence. subst ms' d'.
  assert (THE : forall m, In m ms -> member_name m = n -> m = MSimple std_string_E n df) by (intros m I N; apply (j_name_inj ms _ _ ND I IM); exact N).
  assert (BACK : one_line n s \/ several_lines n s -> carries L delta (VStruct t fs) "").
  { intros H ns' u' f' ms' d' AT' FSx Dx. destruct (CB ns' u' f' ms' d' AT' FSx Dx) as (C1 & C2 & C3). split; [exact C1|]. split; [exact C2|]. intros m x dv' I S AX' AD'.
    destruct (list_eq_dec string_dec ns' ns) as [->|N1]; [|apply C3; auto; intros [Z _]; congruence]. destruct (string_dec (member_name m) n) as [N2|N2]; [|apply C3; auto; intros [_ Z]; congruence].
    rewrite AT in AT'. injection AT' as <- <-. assert (ms' = ms) by congruence. assert (d' = d) by congruence. subst ms' d'. rewrite N2 in *. assert (x = VStr s) by congruence. assert (dv' = dv) by congruence. subst x dv'.
    right. split; [exact LO|]. destruct H as [H|H]; [left; exact H|right; eauto]. }
  assert (DEF : obj_text L delta (VStruct t fs) "" <> None).
  { apply (obj_text_defined enums ss o ds L X delta (S (vheight (VStruct t fs))) (VStruct t fs) t "" ltac:(lia) O). intros ns' u' f' ms' d' m x dv' AT' FSx Dx I S AX' AD'.
    destruct (j_parts enums ss o ds L X u' f' (at_fits enums ss o ds L X ns' _ t u' f' O AT')) as (ms2 & d2 & FS2 & D2 & _ & _ & PM2). assert (ms2 = ms') by congruence. assert (d2 = d') by congruence. subst ms2 d2.
    destruct (PM2 m I) as (ty & x' & dv2 & MT & A1 & A2 & F1 & F2). assert (x' = x) by congruence. assert (dv2 = dv') by congruence. subst x' dv2.
    apply (proj1 (scalar_line_defined L delta m ty "" dv' x S MT F1 F2)). unfold scalar_line. destruct (CB ns' u' f' ms' d' AT' FSx Dx) as (_ & _ & C3).
    assert (Q : carried L delta (text_keeps L) (member_name m) dv' x -> (let? o := left_out L delta dv' x in if o then Some "" else let? s := shown_text L x in Some (item_line "" s)) <> None).
    { intros [E|[E K]]; rewrite E; [discriminate|]. destruct (keeps_text enums ss o ds L X _ _ K) as (w & -> & _). discriminate. }
    destruct (list_eq_dec string_dec ns' ns) as [->|N1]; [|apply Q, C3; auto; intros [Z _]; congruence]. destruct (string_dec (member_name m) n) as [N2|N2]; [|apply Q, C3; auto; intros [_ Z]; congruence].
    rewrite AT in AT'. injection AT' as <- <-. assert (ms' = ms) by congruence. assert (d' = d) by congruence. subst ms' d'. rewrite N2 in *. assert (x = VStr s) by congruence. assert (dv' = dv) by congruence. subst x dv'.
    rewrite LO. discriminate. }
  destruct (obj_text L delta (VStruct t fs) "") as [x|] eqn:W; [|congruence].
  pose proof (spot_in enums ss o ds L X delta ns _ "" t x n s u f ms d dv (MSimple std_string_E n df) O eq_refl CB W AT FS IM eq_refl eq_refl AF D AD LO NS) as SP.
  assert (OP : opening x) by exact (obj_opening enums ss o ds L X delta _ _ t "" x (le_n _) O W).
  assert (XN : x <> "").
  { destruct SP as (pre & post & -> & _). destruct (ident_cons n ID) as (c & r & -> & _). destruct pre; discriminate. }
  pose proof (spot_read x _ n s rd U ID LN OP XN SP) as EX.
  assert (DEC : {look (r_look (has_read x rd)) (fold_left sub_path ns "") n = Some s} + {look (r_look (has_read x rd)) (fold_left sub_path ns "") n <> Some s}) by (repeat decide equality).
  destruct DEC as [Y|N].
  - apply EX in Y. destruct (round_trip enums ss o ds L X OR dl t fs os rd LB U T O OO (BACK Y)) as (x' & gs & W' & R & B). exists x', (Some (true, gs)). split; [exact W'|]. split; [exact R|]. split; [intros _; exact Y|]. intros _.
    destruct (B ns u f ms d AT FS D) as (o1 & g & _ & AG & V). exists true, gs, g. split; [reflexivity|]. split; [exact AG|].
    assert (SI : existsb is_simple ms = true) by (apply existsb_exists; eexists; split; [exact IM|reflexivity]).
    specialize (V NS SI (MSimple std_string_E n df) (VStr s) dv IM eq_refl AF AD). cbn [member_name] in V. rewrite V. unfold back_value. fold delta. now rewrite LO.
  - pose proof (writes_any enums ss o ds L X OR dl t fs T O) as WR. fold delta in WR. rewrite W in WR.
    exists x. eexists. split; [exact WR|]. split; [exact (reads_any enums ss o ds L X x t os rd T OO)|]. split; [|intros H; apply EX in H; contradiction].
    intros (rv & gs & g & E & AG & AS). exfalso. unfold read_members_of in E.
    destruct (read_obj L (r_look (has_read x rd)) (VStruct t os) "") as [[rv' w]|] eqn:R; [|discriminate]. destruct (read_obj_struct L _ _ _ _ _ R) as (u' & f' & gs' & [= <- <-] & ->). injection E as <- <-.
    destruct (read_values enums ss o ds L X _ ns "" _ t rv' _ OO R u fo ATO) as (g' & ms' & A1 & FS2 & A2). assert (ms' = ms) by congruence. assert (g' = g) by congruence. subst ms' g'.
    destruct (A2 _ IM eq_refl) as [EQ|(_ & s' & old & w & LK & RT & AW)]; cbn [member_name read_text text_value] in *; [congruence|]. injection RT as <-. rewrite AW in AS. injection AS as <-. contradiction.
Qed.
Print Assumptions C105_exact.

(** *** A case: all strings for the member "st" of "i" (IniCase), read into a new object. *)
Lemma with_carries s : carries_but zL false ["i"] "st" (VStruct "outer" (with_text s)) "".
Proof.
  intros ns u fs ms d AT FS D. apply ways_all in AT. cbn in AT.
  repeat (destruct AT as [AT|AT]; [injection AT as <- <- <-; vm_compute in FS; injection FS as <-; vm_compute in D; injection D as <-;
    split; [vm_compute; lia|]; split; [reflexivity|]; intros m x dv I S AX AD NT; cbn in I;
    repeat (destruct I as [<-|I]; [try discriminate S; cbn in AX, AD; injection AX as <-; injection AD as <-;
      first [exfalso; apply NT; split; reflexivity|right; split; [reflexivity|]; left; cbn [line_keeps];
        first [eexists _, _; split; [reflexivity|]; split; [first [left; vm_compute; tauto|right; split; vm_compute; reflexivity]|vm_compute; lia]
              |split; [split; [reflexivity|split; [discriminate|vm_compute; lia]]|vm_compute; reflexivity]
              |split; [reflexivity|split; [discriminate|vm_compute; lia]]|vm_compute; lia]]|]); contradiction|]); contradiction.
Qed.
Theorem C105_case : forall s rd, s <> "def" -> used rd ->
  exists x r, ini_writes zen zss (zo false) zL false "outer" (with_text s) (Some x) /\ ini_reads zen zss (zo false) zL x "outer" znew rd r /\
    ((exists rv gs g, r = Some (rv, gs) /\ member_at ["i"] (VStruct "outer" gs) = Some (VStruct "inner" g) /\ assoc "st" g = Some (VStr s)) <-> one_line "st" s \/ several_lines "st" s).
Proof.
  intros s rd N U.
  assert (D : exists d, default_fields zL "inner" = Some d /\ assoc "st" d = Some (VStr "def")) by (eexists; split; vm_compute; reflexivity). destruct D as (d & D & AD).
  refine (C105_exact zen zss (zo false) zdefs zL (z_setting false) eq_refl false "outer" (with_text s) znew rd ltac:(vm_compute; discriminate) U z_top _ (proj1 (proj2 z_new))
    ["i"] "inner" _ _ _ d "st" (Default (DStr """def""")) (VStr "def") s ltac:(discriminate) eq_refl eq_refl eq_refl _ _ eq_refl _ D AD eq_refl (with_carries s)).
  - vm_compute. reflexivity.
  - right. right. right. now left.
  - cbn. lia.
  - cbn. congruence.
Qed.
(** Strings of both kinds, and some that do not come back. *)
Example C105_strings : one_line "st" "two words" /\ several_lines "st" (NL ++ " a" ++ NL) /\
  ~ (one_line "st" "" \/ several_lines "st" "") /\ ~ (one_line "st" "50% off" \/ several_lines "st" "50% off") /\
  ~ (one_line "st" (NL ++ " a") \/ several_lines "st" (NL ++ " a")) /\ ~ (one_line "st" ("a" ++ NL ++ " b" ++ NL) \/ several_lines "st" ("a" ++ NL ++ " b" ++ NL)).
Proof.
  split; [split; [reflexivity|split; [discriminate|cbn; lia]]|]. split.
  { split; [cbn; lia|]. exists (" a" ++ NL)%string. split; [reflexivity|]. apply (bl_line "a" ""); [reflexivity|cbn; lia|constructor]. }
  split; [intros [(_ & H & _)|(_ & r & H & _)]; [congruence|discriminate]|].
  split; [intros [(H & _)|(_ & r & H & _)]; [discriminate|discriminate]|].
  split; [|intros [(H & _)|(_ & r & H & _)]; [discriminate|discriminate]].
  intros [(H & _)|(_ & r & H & B)]; [discriminate|]. cbn in H. injection H as H. assert (G : forall y, block y -> y = " a" -> False); [|exact (G r B (eq_sym H))]. clear. intros y [|b r W LE B'|b r W LE B'] E.
  - discriminate.
  - cbn [String.append] in E. injection E as E. destruct b as [|c [|c2 b]]; cbn in E; discriminate.
  - cbn [String.append] in E. injection E as E. apply (f_equal String.length) in E. rewrite slength_app, LE in E. cbn in E. lia.
Qed.
Print Assumptions C105_case.
