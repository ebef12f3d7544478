(** Property theorems about the strings that n_ini files can hold: C102. *)
From Coq Require Import String Ascii ZArith NArith Arith List Bool Lia Permutation.
From Verif Require Import Base Map Items Grammar ParseLang Fmt Decimal Templates Emit Main Cpp Xml Val Rx CppSem SymLex Ast Store Resolve StoreDefs ResolveProps Prog Header Link EnumSem DecText EnumCall EnumRound XmlSpec XmlRdSimple XmlRead XmlReader XmlCall XmlWriter XmlFile XmlCarry XmlRound XmlProps XmlReadProps XmlThms
  IniSpec IniRead IniReader IniCall IniLines IniFile IniEntry IniWrite IniWriter IniScan IniBlock IniKeep IniRound IniBack IniThms IniCase IniText IniMean IniVersions IniCut IniRange
  MainProps RunProps Pipeline Lexable ConfSpec ConfRead ConfRound P_Main P_Xml P_Ini P_Conf P_Whole P_Serve P_IniText P_IniVersion P_IniCut.
Import ListNotations.
Local Open Scope string_scope.
Local Open Scope list_scope.

(** *** C102.  [findable n s] (IniRange): [s] has neither percent signs nor characters 0, and it
    is one line that is not empty and fits on a line of 79 characters behind [n] and a space, or
    a newline and lines of up to 79 characters that begin with a space.
    Whatever the file, and whatever the reader has read before: a string keeps the value it had
    or gets a text like that. *)
Theorem C102_range : forall enums ss o ds L, ini_setting enums ss o ds L ->
  forall x t os rd, used rd -> top_of ss t -> object L t os ->
  exists r, ini_reads enums ss o L x t os rd r /\ forall rv gs, r = Some (rv, gs) ->
  forall ns u f ms n d, member_at ns (VStruct t os) = Some (VStruct u f) -> find_struct (l_defs L) u = Some ms -> In (MSimple std_string_E n d) ms ->
  exists g, member_at ns (VStruct t gs) = Some (VStruct u g) /\ (assoc n g = assoc n f \/ exists s, assoc n g = Some (VStr s) /\ findable n s).
Proof.
  intros enums ss o ds L X x t os rd U T O. eexists. split; [exact (reads_any enums ss o ds L X x t os rd T O)|]. intros rv gs E ns u f ms n d AT FS I. unfold read_members_of in E.
  destruct (read_obj L (r_look (has_read x rd)) (VStruct t os) "") as [[rv' w]|] eqn:R; [|discriminate]. destruct (read_obj_struct L _ _ _ _ _ R) as (u' & f' & gs' & [= <- <-] & ->). injection E as <- <-.
  destruct (read_values enums ss o ds L X _ ns "" _ t rv' _ O R u f AT) as (g & ms' & A1 & FS' & A2). assert (ms' = ms) by congruence. subst ms'. exists g. split; [exact A1|].
  destruct (A2 _ I eq_refl) as [EQ|(_ & s & old & w & LK & RT & AW)]; [left; exact EQ|]. right. cbn [member_name read_text text_value] in *. injection RT as <-. exists s. split; [exact AW|].
  exact (used_found (has_read x rd) (used_again x rd U) _ _ _ LK).
Qed.
(** All of these texts can be read, for every string in a nested struct, and without a change
    of anything else. *)
Theorem C102_reached : forall enums ss o ds L, ini_setting enums ss o ds L ->
  forall t os, top_of ss t -> object L t os ->
  forall ns u f ms n d s, ns <> [] -> member_at ns (VStruct t os) = Some (VStruct u f) -> find_struct (l_defs L) u = Some ms -> In (MSimple std_string_E n d) ms ->
  String.length (IniKeep.section_of ns) <= 77 -> String.length n < 79 -> findable n s ->
  exists x gs, ini_reads enums ss o L x t os new_reader (Some (true, gs)) /\ object L t gs /\
  forall ns' u' f' ms', member_at ns' (VStruct t os) = Some (VStruct u' f') -> find_struct (l_defs L) u' = Some ms' ->
  exists g, member_at ns' (VStruct t gs) = Some (VStruct u' g) /\
    forall m, In m ms' -> is_struct_member L m = false ->
      (ns' = ns -> member_name m = n -> assoc n g = Some (VStr s)) /\ (ns' <> ns \/ member_name m <> n -> assoc (member_name m) g = assoc (member_name m) f').
Proof.
  intros enums ss o ds L X t os T O ns u f ms n d s NE AT FS I LP LN FI.
  assert (WI : forall ns u f, member_at ns (VStruct t os) = Some (VStruct u f) -> Forall (fun n => ident n = true) ns) by (intros ns' u' f' AT'; exact (way_idents enums ss o ds L X ns' (VStruct t os) t u' f' O AT')).
  pose proof (WI ns u f AT) as W. pose proof (way_section enums ss o ds L X ns _ t u f NE O AT) as NS.
  assert (OL : on_line (IniKeep.section_of ns) = true).
  { clear - W. unfold IniKeep.section_of. assert (H : forall p, on_line p = true -> on_line (fold_left sub_path ns p) = true); [|apply H; reflexivity].
    induction W as [|n ns N _ IH]; intros p P; [exact P|]. cbn [fold_left]. apply IH. now apply sub_path_line. }
  assert (ID : ident n = true) by exact (j_ident enums ss o ds L X u ms (MSimple std_string_E n d) FS I).
  destruct (can_be_found _ n s OL NS LP ID LN FI) as (x & LK).
  assert (STR : forall u' ms' m, find_struct (l_defs L) u' = Some ms' -> In m ms' -> u' = u -> member_name m = n -> m = MSimple std_string_E n d).
  { intros u' ms' m FS' I' -> NM. assert (ms' = ms) by congruence. subst ms'. destruct (j_parts enums ss o ds L X u f (at_fits enums ss o ds L X _ _ t u f O AT)) as (ms2 & d2 & FS2 & _ & ND & _). assert (ms2 = ms) by congruence. subst ms2.
    apply (j_name_inj ms _ _ ND I' I). exact NM. }
  set (vals := fun p' n' => if (String.eqb p' (IniKeep.section_of ns) && String.eqb n' n)%bool then Some s else None) in LK.
  assert (VA : forall ns' u' f' ms' m, member_at ns' (VStruct t os) = Some (VStruct u' f') -> find_struct (l_defs L) u' = Some ms' -> In m ms' ->
    ns' = ns /\ m = MSimple std_string_E n d /\ vals (IniKeep.section_of ns') (member_name m) = Some s \/ (ns' <> ns \/ member_name m <> n) /\ vals (IniKeep.section_of ns') (member_name m) = None).
  { intros ns' u' f' ms' m AT' FS' I'. unfold vals. destruct (String.eqb_spec (IniKeep.section_of ns') (IniKeep.section_of ns)) as [E|E]; cbn [andb].
    - apply (section_inj _ _ (WI _ _ _ AT') W) in E. subst ns'. rewrite AT in AT'. injection AT' as <- <-. destruct (String.eqb_spec (member_name m) n) as [E|E].
      + left. split; [reflexivity|]. split; [|reflexivity]. exact (STR u ms' m FS' I' eq_refl E).
      + right. auto.
    - right. split; [|reflexivity]. left. congruence. }
  destruct (reads_values enums ss o ds L X t os x vals T O LK) as (gs & R & TK & OG).
  { intros ns' u' f' ms' m s' old A1 A2 A3 A4 A5 A6. fold (IniKeep.section_of ns') in A6. destruct (VA ns' u' f' ms' m A1 A2 A3) as [(_ & -> & _)|(_ & Z)]; [|congruence]. cbn. eauto. }
  exists x, gs. split; [exact R|]. split; [exact OG|]. intros ns' u' f' ms' AT' FS'. destruct (TK ns' u' f' ms' AT' FS') as (g & A1 & A2). exists g. split; [exact A1|]. intros m I' SM.
  destruct (j_parts enums ss o ds L X u' f' (at_fits enums ss o ds L X _ _ t u' f' O AT')) as (ms2 & d2 & FS2 & _ & _ & _ & PM). assert (ms2 = ms') by congruence. subst ms2.
  destruct (PM m I') as (ty & old & dv & MT & A & _). specialize (A2 m old I' SM A). fold (IniKeep.section_of ns') in A2.
  destruct (VA ns' u' f' ms' m AT' FS' I') as [(-> & -> & VS)|(D & VS)].
  - split; [|intros [H|H]; [congruence|cbn in H; congruence]]. intros _ _. assert (IT : is_item L ms' (MSimple std_string_E n d) = true).
    { unfold is_item. cbn [is_scalar]. apply existsb_exists. exists (MSimple std_string_E n d). auto. }
    rewrite IT, VS in A2. destruct A2 as (z & RT & AZ). cbn in RT. injection RT as <-. exact AZ.
  - split; [intros E1 E2; destruct D; congruence|]. intros _. rewrite VS in A2. rewrite A. now destruct (is_item L ms' m).
Qed.
(** So no file at all gives a string another value. *)
Theorem C102_lost : forall enums ss o ds L, ini_setting enums ss o ds L ->
  forall x t os rd, used rd -> top_of ss t -> object L t os ->
  exists r, ini_reads enums ss o L x t os rd r /\ forall rv gs, r = Some (rv, gs) ->
  forall ns u f ms n d s, member_at ns (VStruct t os) = Some (VStruct u f) -> find_struct (l_defs L) u = Some ms -> In (MSimple std_string_E n d) ms ->
  assoc n f <> Some (VStr s) -> s = "" \/ ~ chars plain_char s \/ 79 < String.length n + 1 + String.length s /\ chars not_nl s \/ (exists a b, s = (a ++ NL ++ b)%string /\ a <> "" /\ chars not_nl a) ->
  forall g, member_at ns (VStruct t gs) = Some (VStruct u g) -> assoc n g <> Some (VStr s).
Proof.
  intros enums ss o ds L X x t os rd U T O. destruct (C102_range enums ss o ds L X x t os rd U T O) as (r & R & H). exists r. split; [exact R|]. intros rv gs E ns u f ms n d s AT FS I NV BAD g AG AS.
  destruct (H rv gs E ns u f ms n d AT FS I) as (g' & AG' & Q). assert (g' = g) by congruence. subst g'. destruct Q as [Q|(s' & AS' & PL & FI)]; [congruence|]. assert (s' = s) by congruence. subst s'.
  assert (NLN : forall r, ~ chars not_nl (NL ++ r)) by (intros q Z; apply chars_app in Z as [Z _]; apply chars_cons in Z as [Z _]; discriminate).
  destruct BAD as [->|[B|[[B1 B2]|(a & b & -> & NE & NA)]]].
  - destruct FI as [[Z _]|(q & Z & _)]; [congruence|discriminate].
  - contradiction.
  - destruct FI as [(_ & _ & Z)|(q & -> & _)]; [lia|]. exact (NLN q B2).
  - destruct FI as [(_ & Z & _)|(q & Z & _)].
    + apply chars_app in Z as [_ Z]. apply chars_app in Z as [Z _]. apply chars_cons in Z as [Z _]. discriminate.
    + destruct a as [|c a]; [congruence|]. apply chars_cons in NA as [NA _]. injection Z as -> _. discriminate.
Qed.
(** *** What becomes of other strings that are written *)
Definition z_back (fs gs : fields) : Prop := object zL "outer" fs /\ exists x, ini_writes zen zss (zo false) zL false "outer" fs (Some x) /\ ini_reads zen zss (zo false) zL x "outer" znew new_reader (Some (true, gs)).
Lemma z_back_is fs gs x : fits zL (VStruct "outer" fs) (TStruct "outer") = true -> obj_text zL (negb (o_no_delta (zo false)) && false) (VStruct "outer" fs) "" = Some x ->
  read_members_of zL (r_look (has_read x new_reader)) "outer" znew = Some (true, gs) -> z_back fs gs.
Proof.
  intros F W R. split; [exact F|]. exists x. rewrite <- W, <- R. split.
  - exact (writes_any zen zss (zo false) zdefs zL (z_setting false) eq_refl false "outer" fs z_top F).
  - refine (reads_any zen zss (zo false) zdefs zL (z_setting false) x "outer" znew new_reader z_top _). vm_compute; reflexivity.
Qed.
(** An empty string comes back as a newline, and what is behind a percent sign is gone. *)
Theorem C102_empty_refuted : z_back (zin_is "") (zin_is NL).
Proof. eapply z_back_is; [vm_compute; reflexivity|vm_compute; reflexivity|vm_compute; reflexivity]. Qed.
Theorem C102_percent_refuted : z_back (zin_is "50% of it") (zin_is "50").
Proof. eapply z_back_is; [vm_compute; reflexivity|vm_compute; reflexivity|vm_compute; reflexivity]. Qed.
(** A string of several lines can change other members: here a number in another section. *)
Theorem C102_other_member_refuted : z_back (zin_is ("a" ++ NL ++ "[my mid.deep down]" ++ NL ++ "x 99")) (zout 0 0 0 (zin 99 0 1 "def" 0) 0 (zin 4 0 1 "a" 0) 0).
Proof. eapply z_back_is; [vm_compute; reflexivity|vm_compute; reflexivity|vm_compute; reflexivity]. Qed.
Print Assumptions C102_range.
Print Assumptions C102_reached.
Print Assumptions C102_lost.
Print Assumptions C102_empty_refuted.
Print Assumptions C102_percent_refuted.
Print Assumptions C102_other_member_refuted.

(** *** Cases *)
(** Strings of several lines that come back as C42 says: the second has a line of two pieces. *)
Definition long_piece : string := " 23456789 123456789 123456789 123456789 123456789 123456789 123456789 123456789".
Example C42_several : several_lines "st" (NL ++ " two" ++ NL ++ " lines" ++ NL) /\ several_lines "st" (NL ++ long_piece ++ " and more" ++ NL) /\
  z_back (zin_is (NL ++ long_piece ++ " and more" ++ NL)) (zin_is (NL ++ long_piece ++ " and more" ++ NL)).
Proof.
  split; [|split].
  - split; [vm_compute; lia|]. exists (" two" ++ NL ++ " lines" ++ NL)%string. split; [reflexivity|]. apply (bl_line "two" (" lines" ++ NL)); [reflexivity|vm_compute; lia|]. apply (bl_line "lines" ""); [reflexivity|vm_compute; lia|constructor].
  - split; [vm_compute; lia|]. exists (long_piece ++ " and more" ++ NL)%string. split; [reflexivity|]. apply (bl_full "23456789 123456789 123456789 123456789 123456789 123456789 123456789 123456789" (" and more" ++ NL)); [reflexivity|reflexivity|].
    apply (bl_line "and more" ""); [reflexivity|vm_compute; lia|constructor].
  - eapply z_back_is; [vm_compute; reflexivity|vm_compute; reflexivity|vm_compute; reflexivity].
Qed.
(** Without the last newline it gets one; where a piece does not begin with a space the rest is lost. *)
Theorem C42_unfinished_refuted : z_back (zin_is (NL ++ " two" ++ NL ++ " lines")) (zin_is (NL ++ " two" ++ NL ++ " lines" ++ NL)).
Proof. eapply z_back_is; [vm_compute; reflexivity|vm_compute; reflexivity|vm_compute; reflexivity]. Qed.
Theorem C42_piece_refuted : z_back (zin_is (NL ++ long_piece ++ "0 and more" ++ NL)) (zin_is (NL ++ long_piece)).
Proof. eapply z_back_is; [vm_compute; reflexivity|vm_compute; reflexivity|vm_compute; reflexivity]. Qed.
Print Assumptions C42_unfinished_refuted.
Print Assumptions C42_piece_refuted.
(** A string of several lines that comes back as written. *)
Example C102_lines : z_back (zin_is (NL ++ " two" ++ NL ++ " lines" ++ NL)) (zin_is (NL ++ " two" ++ NL ++ " lines" ++ NL)).
Proof. eapply z_back_is; [vm_compute; reflexivity|vm_compute; reflexivity|vm_compute; reflexivity]. Qed.
Example C102_findable : findable "st" "two words" /\ findable "st" (NL ++ " two" ++ NL ++ " lines") /\ ~ findable "st" "" /\ ~ findable "st" "50%".
Proof.
  split; [|split; [|split]].
  - split; [repeat (apply chars_cons; split; [reflexivity|]); apply chars_nil|]. left. split; [discriminate|]. split; [repeat (apply chars_cons; split; [reflexivity|]); apply chars_nil|]. cbn. lia.
  - split; [repeat (apply chars_cons; split; [reflexivity|]); apply chars_nil|]. right. exists (("" ++ " " ++ "two" ++ NL) ++ " " ++ "lines")%string. split; [reflexivity|].
    apply in_more; [apply in_line; [constructor| |cbn; lia]| |cbn; lia]; repeat (apply chars_cons; split; [reflexivity|]); apply chars_nil.
  - intros [_ [[H _]|(r & H & _)]]; [congruence|discriminate].
  - intros [H _]. do 2 apply chars_cons in H as [_ H]. apply chars_cons in H as [H _]. discriminate.
Qed.
Example C102_case : ini_setting zen zss (zo false) zdefs zL /\ used new_reader /\ top_of zss "outer" /\ object zL "outer" znew /\
  exists u f ms d, member_at ["my_mid"; "deep_down"] (VStruct "outer" znew) = Some (VStruct u f) /\ find_struct (l_defs zL) u = Some ms /\ In (MSimple std_string_E "st" d) ms /\
  String.length (IniKeep.section_of ["my_mid"; "deep_down"]) <= 77 /\ assoc "st" f <> Some (VStr "50%").
Proof.
  split; [exact (z_setting false)|]. split; [constructor|]. split; [exact z_top|]. split; [vm_compute; reflexivity|]. do 4 eexists. split; [reflexivity|]. split; [reflexivity|]. split; [cbn; do 3 right; left; reflexivity|].
  split; [cbn; lia|]. cbn. discriminate.
Qed.
