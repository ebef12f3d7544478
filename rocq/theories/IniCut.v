(** n_ini files that are cut off. *)
From Coq Require Import String Ascii ZArith NArith Arith List Bool Lia Permutation.
From Verif Require Import Base Map Items Grammar Fmt Decimal Templates Emit Cpp Xml Val Rx CppSem SymLex Ast StoreDefs ResolveProps Prog Header Link EnumSem DecText EnumCall EnumRound XmlSpec XmlRdSimple XmlRead XmlReader XmlCall XmlWriter XmlCarry XmlRound XmlThms
  IniSpec IniWrite IniWriter IniRead IniScan IniReader IniCall IniKeep IniRound IniBack IniThms IniText IniMean IniVersions.
Import ListNotations.
Local Open Scope string_scope.
Local Open Scope list_scope.

(** *** Where a text can be cut *)
Lemma split_app : forall a b x y, (a ++ b)%string = (x ++ y)%string -> (exists z, a = (x ++ z)%string /\ y = (z ++ b)%string) \/ exists z, z <> "" /\ x = (a ++ z)%string /\ b = (z ++ y)%string.
Proof.
  induction a as [|c a IH]; intros b x y E.
  - destruct x as [|d x]; [left; exists ""; split; [reflexivity|now symmetry]|]. right. exists (String d x). cbn in *. repeat split; [discriminate|exact E].
  - destruct x as [|d x]; [left; exists (String c a); split; [reflexivity|now symmetry]|]. cbn [String.append] in E. injection E as <- E. destruct (IH b x y E) as [(z & -> & ->)|(z & NZ & -> & ->)]; [left|right]; exists z; auto.
Qed.
Lemma file_cut : forall ls x y, file_text ls = (x ++ y)%string -> exists a b, ls = a ++ b /\
  (x = file_text a \/ exists l b' u w, b = l :: b' /\ line_text l = (u ++ w)%string /\ u <> "" /\ w <> "" /\ x = (file_text a ++ u)%string).
Proof.
  induction ls as [|l ls IH]; intros x y E.
  - exists [], []. split; [reflexivity|]. left. destruct x; [reflexivity|discriminate].
  - cbn [file_text fold_right] in E. fold (file_text ls) in E. destruct (split_app _ _ _ _ E) as [(z & E1 & E2)|(z & NZ & -> & E2)].
    + destruct x as [|c x]; [exists [], (l :: ls); split; [reflexivity|now left]|]. destruct z as [|d z].
      * exists [l], ls. split; [reflexivity|]. left. cbn [file_text fold_right]. now rewrite E1, !sapp_nil_r.
      * exists [], (l :: ls). split; [reflexivity|]. right. exists l, ls, (String c x), (String d z). repeat split; auto; discriminate.
    + destruct (IH z y E2) as (a & b & -> & [->|(l' & b' & u & w & -> & E3 & NU & NW & ->)]).
      * exists (l :: a), b. split; [reflexivity|]. now left.
      * exists (l :: a), (l' :: b'). split; [reflexivity|]. right. exists l', b', u, w. repeat split; auto. cbn [file_text fold_right]. fold (file_text a). now rewrite sapp_assoc.
Qed.

(** *** The beginning of a line *)
Lemma chunks_last u : forall room a, no_nl u = true -> String.length u <= room -> (a <> "" \/ u <> "") -> chunks room a u = [(a ++ u)%string].
Proof.
  induction u as [|c u IH]; intros room a NN LE NE; cbn [chunks].
  - destruct a; [destruct NE; congruence|]. now rewrite sapp_nil_r.
  - unfold no_nl in NN. cbn [all_chars] in NN. apply andb_true_iff in NN as [C NN]. apply negb_true_iff in C. rewrite C. cbn [orb String.length] in *. destruct (Nat.leb_spec room 1).
    + assert (u = "") as -> by (destruct u; [reflexivity|cbn in LE; lia]). cbn [chunks]. reflexivity.
    + rewrite (IH (room - 1) (snoc a c) NN ltac:(lia)); [unfold snoc; now rewrite sapp_assoc|]. left. unfold snoc. now destruct a.
Qed.
Lemma scan_last u s : on_line u = true -> u <> "" -> String.length u <= 79 -> scan_text u s = scan_line u s.
Proof. intros OL NE LE. unfold scan_text. rewrite (chunks_last u 79 "" (on_line_no_nl u OL) LE (or_intror NE)). cbn [fold_left String.append]. now rewrite (on_line_cut u OL). Qed.
Definition no_char (d : ascii) (s : string) : bool := all_chars (fun c => negb (c =? d)%char) s.
Lemma no_bracket s : no_char "]" s = true -> search "\[(.+)\]" s = None.
Proof.
  intros H. unfold search. change (rx_compile "\[(.+)\]") with (Some [RItem (RChar "[") false; ROpen; RItem RAny true; RClose; RItem (RChar "]") false]). cbv beta iota.
  assert (M : forall s, no_char "]" s = true -> rx_match [RItem (RChar "[") false; ROpen; RItem RAny true; RClose; RItem (RChar "]") false] s None [] = None).
  { clear. intros s H. destruct (rx_match _ s None []) as [g|] eqn:E; [|reflexivity]. exfalso. destruct s as [|c s]; [discriminate|]. cbn [rx_match] in E. destruct (rclass_has (RChar "[") c); [|discriminate].
    unfold no_char in H. cbn [all_chars] in H. apply andb_true_iff in H as [_ H].
    change (rx_match (RItem RAny true :: [RClose; RItem (RChar "]") false]) s (Some "") [] = Some g) in E.
    apply plus_found in E as (w & u & -> & E). rewrite all_chars_app in H. apply andb_true_iff in H as [_ H]. cbn [rx_match] in E. destruct u as [|a u]; [discriminate|].
    cbn [all_chars] in H. apply andb_true_iff in H as [H _]. apply negb_true_iff in H. cbn [rclass_has] in E. rewrite H in E. discriminate. }
  induction s as [|c s IH]; unfold rx_search; fold rx_search; rewrite (M _ H); [reflexivity|]. unfold no_char in H. cbn [all_chars] in H. apply andb_true_iff in H as [_ H]. exact (IH H).
Qed.
Lemma no_value n : no_char " " n = true -> search "(\w+) (.+)" (n ++ " ") = None.
Proof.
  unfold search. change (rx_compile "(\w+) (.+)") with (Some [ROpen; RItem RWord true; RClose; RItem (RChar " ") false; ROpen; RItem RAny true; RClose]). cbv beta iota.
  assert (M0 : forall s, no_char " " s = true -> rx_match [ROpen; RItem RWord true; RClose; RItem (RChar " ") false; ROpen; RItem RAny true; RClose] (s ++ " ") None [] = None).
  { clear. intros s H. destruct (rx_match _ (s ++ " ") None []) as [g|] eqn:E; [|reflexivity]. exfalso.
    change (rx_match (RItem RWord true :: [RClose; RItem (RChar " ") false; ROpen; RItem RAny true; RClose]) (s ++ " ") (Some "") [] = Some g) in E.
    apply plus_found in E as (w & u & E1 & E). cbn [rx_match] in E. destruct u as [|a u]; [discriminate|]. cbn [rclass_has] in E. destruct (a =? " ")%char eqn:EA; [|discriminate]. apply Ascii.eqb_eq in EA. subst a.
    assert (u = "") as ->; [|discriminate]. symmetry in E1. destruct (split_app _ _ _ _ E1) as [(z & -> & E2)|(z & NZ & -> & E2)].
    - destruct z as [|a z]; [now injection E2|]. cbn in E2. injection E2 as -> E2. destruct z; discriminate.
    - destruct z as [|a z]; [congruence|]. cbn in E2. injection E2 as <- E2. unfold no_char in H. rewrite all_chars_app in H. apply andb_true_iff in H as [_ H]. discriminate. }
  induction n as [|c n IH]; intros H.
  - reflexivity.
  - cbn [String.append]. unfold rx_search; fold rx_search. change (String c (n ++ " ")) with (String c n ++ " ")%string. rewrite (M0 _ H). apply IH. unfold no_char in *. cbn [all_chars] in H. now apply andb_true_iff in H as [_ H].
Qed.
(** What is found if the last line is only the beginning [u] of the line [l]: all of a section
    line without its end, an item with the beginning of its value, or nothing. *)
Definition rest_of_line (l : line) (c : list line) : Prop :=
  c = [] \/ (exists p, l = Sec p "" /\ c = [l]) \/ exists n v v' w, l = Item n v "" /\ v = (v' ++ w)%string /\ v' <> "" /\ c = [Item n v' ""].
Lemma keeps_look u s : x_key s = "" -> no_char " " u = true \/ (exists n, u = (n ++ " ")%string /\ no_char " " n = true) ->
  (forall c r, u = String c r -> (c =? "[")%char = false /\ (c =? " ")%char = false) -> on_line u = true -> x_look (scan_line u s) = x_look s.
Proof.
  intros K SP ST OL. assert (NI : search "(\w+) (.+)" u = None) by (destruct SP as [SP|(n & -> & SP)]; [now apply no_space_item|now apply no_value]).
  unfold scan_line. rewrite (clean_line u OL). destruct u as [|c r]; [reflexivity|]. destruct (ST c r eq_refl) as (E1 & E2). unfold flush. rewrite K. cbn [String.eqb negb andb]. rewrite E1, E2, NI. destruct (search "(\w+)" (String c r)) as [[|k g]|]; reflexivity.
Qed.
Lemma on_prefix a b : on_line (a ++ b) = true -> on_line a = true.
Proof. unfold on_line. rewrite all_chars_app. intros H. now apply andb_true_iff in H as [H _]. Qed.
Lemma partial_line l u w s : short l -> (forall p c, l = Sec p c -> no_char "]" p = true) -> x_key s = "" -> line_text l = (u ++ w)%string -> u <> "" -> w <> "" ->
  exists c, rest_of_line l c /\ x_look (scan_text u s) = x_look (fold_left step c s).
Proof.
  intros (OK & SH) NB K E NU NW. assert (FL : flushed s = s) by (unfold flushed; rewrite K; reflexivity).
  destruct l as [p c|n v c|n ls|c|]; try contradiction; subst; cbn [line_text line_ok] in *.
  - destruct OK as (OL & NE & _ & LE). specialize (NB p "" eq_refl). destruct u as [|c u]; [congruence|]. cbn [String.append] in E. injection E as <- E.
    destruct (split_app _ _ _ _ E) as [(z & -> & _)|(z & NZ & -> & E2)].
    + exists []. split; [now left|]. cbn [fold_left]. assert (OU : on_line (String "[" u) = true) by exact (on_prefix u z OL).
      rewrite scan_last; [|exact OU|discriminate|rewrite !len_app in LE; cbn in *; lia]. unfold scan_line. rewrite (clean_line _ OU). unfold flush. rewrite K. cbn [String.eqb negb andb Ascii.eqb Bool.eqb].
      rewrite no_bracket; [reflexivity|]. unfold no_char in *. rewrite all_chars_app in NB. apply andb_true_iff in NB as [NB _]. exact NB.
    + exists [Sec p ""]. split; [right; left; eauto|]. destruct z as [|a z]; [congruence|]. cbn [String.append] in E2. injection E2 as <- E2. destruct z as [|a z]; [|cbn in E2; injection E2 as <- E2; destruct z; [cbn in E2; congruence|discriminate]].
      assert (L1 : on_line (String "[" (p ++ "]")) = true) by (cbn [on_line all_chars]; unfold on_line; rewrite all_chars_app; fold (on_line p); now rewrite OL).
      rewrite scan_last; [|exact L1|discriminate|cbn [String.length]; rewrite len_app; cbn in *; lia]. change (String "[" (p ++ "]")) with ("[" ++ p ++ "]" ++ "")%string.
      rewrite (scan_section p "" s OL NE ltac:(left; reflexivity)). reflexivity.
  - destruct OK as (N & OL & NE & _ & LE). cbn [String.length] in LE.
    assert (NS : no_char " " n = true) by (eapply all_chars_imp; [|exact (ident_idc n N)]; intros c C; destruct (idc_start c C) as (_ & -> & _); reflexivity).
    assert (ST : forall x y c r, n = (x ++ y)%string -> x <> "" -> x = String c r -> (c =? "[")%char = false /\ (c =? " ")%char = false).
    { intros x y c r EN _ ->. destruct (ident_cons n N) as (c' & r' & EN' & IC). rewrite EN' in EN. cbn in EN. injection EN as <- _. destruct (idc_start c' IC) as (A & B & _). auto. }
    destruct (split_app _ _ _ _ E) as [(z & EN & _)|(z & NZ & -> & E2)].
    + exists []. split; [now left|]. cbn [fold_left]. pose proof (ident_line n N) as LN. rewrite EN in LN. pose proof (on_prefix _ _ LN) as OU. rewrite EN in LE. rewrite len_app in LE. rewrite scan_last; [|exact OU|exact NU|lia].
      apply keeps_look; auto. 2:{ intros c r EU. exact (ST u z c r EN NU EU). } left. unfold no_char in *. rewrite EN, all_chars_app in NS. now apply andb_true_iff in NS as [NS _].
    + destruct z as [|a z]; [congruence|]. cbn [String.append] in E2. injection E2 as <- E2. destruct z as [|a z].
      * exists []. split; [now left|]. cbn [fold_left]. assert (OU : on_line (n ++ " ") = true) by (unfold on_line; rewrite all_chars_app; fold (on_line n); now rewrite (ident_line n N)).
        rewrite scan_last; [|exact OU|exact NU|rewrite len_app; cbn [String.length]; destruct v; [congruence|]; cbn [String.length] in *; lia].
        apply keeps_look; auto; [right; eauto|]. intros c r EU. destruct (ident_cons n N) as (c' & r' & EN' & IC). rewrite EN' in EU. cbn in EU. injection EU as <- _. destruct (idc_start c' IC) as (A & B & _). auto.
      * assert (EV : exists w', v = (String a z ++ w')%string).
        { destruct (split_app _ _ _ _ E2) as [(w' & -> & _)|(w' & NW' & -> & E3)]; [eauto|]. exfalso. destruct w' as [|b w']; [congruence|]. cbn in E3. injection E3 as <- E3. destruct w'; [cbn in E3; congruence|discriminate]. }
        destruct EV as (w' & ->). exists [Item n (String a z) ""]. split; [right; right; exists n, (String a z ++ w')%string, (String a z), w'; repeat split; auto; discriminate|].
        pose proof (on_prefix _ _ OL) as OV. assert (OU : on_line (n ++ String " " (String a z)) = true) by (change (String " " (String a z)) with (" " ++ String a z)%string; unfold on_line; rewrite !all_chars_app; fold (on_line n) (on_line (String a z)); now rewrite (ident_line n N), OV).
        rewrite len_app in LE. rewrite scan_last; [|exact OU|exact NU|rewrite len_app; cbn [String.length] in *; lia].
        pose proof (scan_item n (String a z) "" s N OV ltac:(discriminate) ltac:(left; reflexivity)) as T. rewrite sapp_nil_r in T. change (n ++ String " " (String a z))%string with (n ++ " " ++ String a z)%string. rewrite T. reflexivity.
  - destruct u as [|a u]; [congruence|]. cbn in E. injection E as <- E. destruct u; [cbn in E; congruence|discriminate].
Qed.
Lemma text_lines_app a u : (forall l, In l a -> line_ok l) -> forall s, scan_text (file_text a ++ u) s = scan_text u (fold_left step a s).
Proof.
  induction a as [|l a IH]; intros H s; [reflexivity|]. cbn [file_text fold_right fold_left]. fold (file_text a). rewrite sapp_assoc, (text_line l _ s (H l (or_introl eq_refl))). apply IH. intros q I. apply H. now right.
Qed.
Lemma rest_short l c : short l -> rest_of_line l c -> Forall short c.
Proof.
  intros SH [->|[(p & -> & ->)|(n & v & v' & w & -> & -> & NE & ->)]]; [constructor|constructor; [exact SH|constructor]|]. constructor; [|constructor]. destruct SH as ((N & OL & _ & _ & LE) & _). split; [|reflexivity].
  cbn [line_ok]. split; [exact N|]. split; [exact (on_prefix _ _ OL)|]. split; [exact NE|]. split; [now left|]. rewrite len_app in LE. cbn [String.length] in *. lia.
Qed.
Lemma no_end l u w t : short l -> line_text l = (u ++ w)%string -> u <> "" -> w <> "" -> forall z, (t ++ u)%string <> (z ++ NL)%string.
Proof.
  intros (OK & SH) E NU NW. assert (exists x, line_text l = (x ++ NL)%string /\ no_nl x = true) as (x & EX & NX).
  { destruct l as [p c|n v c|n ls|c|]; try contradiction; subst; cbn [line_text line_ok] in *.
    - exists ("[" ++ p ++ "]")%string. split; [cbn [String.append]; now rewrite !sapp_assoc|]. destruct OK as (OL & _). unfold no_nl. rewrite !all_chars_app. fold (no_nl p). now rewrite (on_line_no_nl p OL).
    - exists (n ++ " " ++ v)%string. split; [now rewrite !sapp_assoc|]. destruct OK as (N & OL & _). unfold no_nl. rewrite !all_chars_app. fold (no_nl v) (no_nl n). now rewrite (on_line_no_nl v OL), (on_line_no_nl n (ident_line n N)).
    - exists "". split; reflexivity. }
  rewrite EX in E. assert (NN : no_nl u = true).
  { destruct (split_app _ _ _ _ E) as [(z & -> & _)|(z & NZ & -> & E2)].
    - unfold no_nl in *. rewrite all_chars_app in NX. now apply andb_true_iff in NX as [NX _].
    - exfalso. destruct z as [|a z]; [congruence|]. cbn in E2. injection E2 as <- E2. destruct z; [cbn in E2; congruence|discriminate]. }
  intros z F. destruct (split_app _ _ _ _ F) as [(y & _ & E2)|(y & NY & -> & E2)].
  - destruct y as [|a y]; cbn in E2; [subst u; discriminate|]. injection E2 as <- E2. destruct y; [cbn in E2; congruence|discriminate].
  - rewrite E2 in NN. unfold no_nl in NN. rewrite all_chars_app in NN. apply andb_true_iff in NN as [_ NN]. discriminate.
Qed.
Theorem cut_found ls x y : Forall short ls -> (forall p c, In (Sec p c) ls -> no_char "]" p = true) -> file_text ls = (x ++ y)%string ->
  exists a b c, ls = a ++ b /\ (c = [] /\ x = file_text a \/ (forall z, x <> (z ++ NL)%string) /\ x <> "" /\ exists l b', b = l :: b' /\ rest_of_line l c) /\ Forall short (a ++ c) /\ forall p n, look (r_look (has_read x new_reader)) p n = value (a ++ c) p n.
Proof.
  intros SH NB E. destruct (file_cut ls x y E) as (a & b & -> & H). apply Forall_app in SH as [SA SB].
  destruct H as [->|(l & b' & u & w & -> & EL & NU & NW & ->)].
  - exists a, b, []. rewrite app_nil_r. split; [reflexivity|]. split; [now left|]. split; [exact SA|]. intros p n. destruct (short_finished a SA). now apply file_values.
  - inversion SB as [|? ? SL SB']; subst. destruct (short_finished a SA) as (OKA & FA).
    assert (K : x_key (fold_left step a (Scan (r_look new_reader) None (r_key new_reader) (r_val new_reader))) = "") by (apply finished_key; auto).
    assert (NL' : forall p c, l = Sec p c -> no_char "]" p = true) by (intros p c ->; apply (NB p c); apply in_or_app; right; now left).
    destruct (partial_line l u w _ SL NL' K EL NU NW) as (c & RC & LK).
    assert (SC : Forall short (a ++ c)) by (apply Forall_app; split; [exact SA|exact (rest_short l c SL RC)]).
    exists a, (l :: b'), c. split; [reflexivity|]. split; [right; split; [exact (no_end l u w (file_text a) SL EL NU NW)|split; [destruct (file_text a); [exact NU|discriminate]|eauto]]|]. split; [exact SC|]. intros p n. destruct (short_finished _ SC) as (OKC & FC). rewrite <- (file_values (a ++ c) p n OKC FC).
    f_equal. unfold has_read. cbn [r_look]. rewrite (text_lines_app a u OKA), LK, (text_lines _ OKC), fold_left_app. reflexivity.
Qed.

(** *** The values in the part that is left *)
Lemma last_app n a b : last_value n (a ++ b) = match last_value n b with Some x => Some x | None => last_value n a end.
Proof. induction a as [|l a IH]; cbn; [now destruct (last_value n b)|]. destruct l; rewrite ?IH; auto; now destruct (last_value n b). Qed.
Lemma items_none b p : Forall (fun l => is_item_line l = true) b -> last_part p b = None.
Proof. intros H. rewrite <- (app_nil_r b), (part_items b [] p H). reflexivity. Qed.
Lemma items_until b : Forall (fun l => is_item_line l = true) b -> until_section b = b.
Proof. intros H. pose proof (until_items b [] H) as E. now rewrite app_nil_r in E. Qed.
Lemma laid_grows p n s : forall ps l b, orderly ps -> laid_out ps = l ++ b -> value l p n = Some s -> value (laid_out ps) p n = Some s.
Proof.
  induction ps as [|q r IH]; intros l b O E V.
  - destruct l; [discriminate V|discriminate E].
  - destruct l as [|x l]; [discriminate V|]. assert (OR : orderly r) by (destruct O as (N & H); split; [now inversion N|intros z I; apply H; now right]).
    rewrite laid_cons in E. cbn [app] in E. injection E as <- E.
    assert (W : forall bb, last_part p (laid_out r) = Some bb -> last_part p (laid_out (q :: r)) = Some bb).
    { intros bb EB. rewrite (part_laid _ _ O). rewrite (part_laid _ _ OR) in EB. destruct q as [k its]. cbn [assoc]. destruct (String.eqb_spec p k) as [->|]; [|exact EB]. exfalso. destruct O as (N & _). inversion N; subst. apply assoc_some in EB. apply (in_map fst) in EB. contradiction. }
    assert (WQ : last_part (fst q) (laid_out (q :: r)) = Some (snd q)) by (rewrite (part_laid _ _ O); destruct q as [k its]; cbn [assoc fst snd]; now rewrite String.eqb_refl).
    destruct (proj2 O q (or_introl eq_refl)) as (IT & ND). unfold value in V. cbn [last_part] in V.
    assert (SP : (exists z, snd q = l ++ z /\ b = z ++ laid_out r) \/ exists z, l = snd q ++ z /\ laid_out r = z ++ b).
    { destruct (app_eq_app _ _ _ _ E) as (z & [(A & B)|(A & B)]); [left|right]; eauto. }
    destruct SP as [(z & EQ & ->)|(z & -> & ER)].
    + rewrite EQ in IT, ND. apply Forall_app in IT as [IL IZ]. rewrite (items_none l p IL), (items_until l IL) in V. destruct (String.eqb_spec p (fst q)) as [->|]; [|discriminate]. unfold value. rewrite WQ, EQ, last_app.
      destruct (last_value n z) as [s'|] eqn:EZ; [|exact V]. exfalso. destruct (last_in z n IZ s' EZ) as (l1 & I1 & N1). destruct (last_in l n IL s V) as (l2 & I2 & N2). rewrite map_app in ND.
      revert ND. clear -I1 I2 N1 N2. induction l as [|x l IH]; [contradiction|]. cbn [map app]. intros ND. inversion ND as [|? ? NI ND']; subst. destruct I2 as [->|I2]; [|now apply IH]. apply NI. rewrite N2. apply in_or_app. right. now apply in_map.
    + rewrite (part_items (snd q) z p IT) in V. destruct (last_part p z) as [b0|] eqn:LP.
      * assert (VR : value (laid_out r) p n = Some s) by (apply (IH z b OR ER); unfold value; now rewrite LP). unfold value in *. destruct (last_part p (laid_out r)) as [bb|] eqn:EB; [|discriminate]. now rewrite (W bb eq_refl).
      * destruct (String.eqb_spec p (fst q)) as [->|]; [|discriminate]. unfold value. rewrite WQ. rewrite <- V. f_equal. symmetry.
        clear -IT ER. induction IT as [|x t H IT IHt]; [|destruct x; try discriminate H; cbn [app until_section]; now rewrite IHt].
        cbn [app]. destruct z as [|y z]; [reflexivity|]. destruct r as [|q' r]; [discriminate|]. rewrite laid_cons in ER. cbn [app] in ER. injection ER as <- _. reflexivity.
Qed.
Lemma grows a b its ps p n s : without_notes (a ++ b) = its ++ laid_out ps -> Forall (fun l => is_item_line l = true) its -> orderly ps -> value a p n = Some s -> value (a ++ b) p n = Some s.
Proof.
  intros E IT O V. rewrite <- value_notes in V. rewrite <- value_notes, E. rewrite notes_app in E. unfold value at 1. rewrite (part_items its _ p IT). fold (value (laid_out ps) p n).
  destruct (app_eq_app _ _ _ _ E) as (z & [(A & B)|(A & B)]).
  - apply (laid_grows p n s ps z (without_notes b) O B). rewrite A in V. unfold value in V. now rewrite (part_items its z p IT) in V.
  - rewrite A in IT. apply Forall_app in IT as [IA _]. unfold value in V. now rewrite (items_none _ p IA) in V.
Qed.
(** Two files that differ in the last line. *)
Lemma until_snoc a : (exists p c, In (Sec p c) a) /\ (forall y, until_section (a ++ [y]) = until_section a) \/ (forall p c, ~ In (Sec p c) a) /\ forall n v c, until_section (a ++ [Item n v c]) = a ++ [Item n v c].
Proof.
  induction a as [|l a IH]; [right; split; [intros ? ? []|reflexivity]|]. destruct l as [p c|n v c|n t|c|].
  1:{ left. split; [exists p, c; now left|reflexivity]. }
  all: destruct IH as [((p' & c' & I) & H)|(H1 & H2)]; [left; split; [exists p', c'; now right|intros y; cbn [app until_section]; now rewrite H]|right; split; [intros p' c' [E|I]; [discriminate|exact (H1 p' c' I)]|intros n' v' c'; cbn [app until_section]; now rewrite H2]].
Qed.
Lemma last_differs a n v c v' c' : exists q, forall p, last_part p (a ++ [Item n v c]) = last_part p (a ++ [Item n v' c']) \/
  p = q /\ exists b, last_part p (a ++ [Item n v c]) = Some (b ++ [Item n v c]) /\ last_part p (a ++ [Item n v' c']) = Some (b ++ [Item n v' c']).
Proof.
  induction a as [|l a (q & IH)]; [exists ""; intros p; left; reflexivity|]. destruct l as [k d|m t d|m t|d|]; try (exists q; exact IH).
  destruct (until_snoc a) as [(HS & H)|(H1 & H2)].
  - exists q. intros p. cbn [app last_part]. destruct (IH p) as [E|(-> & b & E1 & E2)]; [left; rewrite E, !H; reflexivity|right; split; [reflexivity|]]. exists b. now rewrite E1, E2.
  - exists k. intros p. cbn [app last_part]. assert (NO : forall w d', last_part p (a ++ [Item n w d']) = None).
    { intros w d'. clear -H1. induction a as [|l a IH]; [reflexivity|]. destruct l as [k d|m t d|m t|d|]; try (cbn [app last_part]; apply IH; intros x y I; exact (H1 x y (or_intror I))). exfalso. exact (H1 k d (or_introl eq_refl)). }
    rewrite !NO. destruct (String.eqb_spec p k) as [->|]; [|now left]. right. split; [reflexivity|]. exists a. now rewrite !H2.
Qed.
Lemma value_differs a n v c v' c' : exists q, forall p m s, value (a ++ [Item n v' c']) p m = Some s ->
  exists s0, value (a ++ [Item n v c]) p m = Some s0 /\ (s = s0 \/ p = q /\ m = n /\ s = v' /\ s0 = v).
Proof.
  destruct (last_differs a n v c v' c') as (q & H). exists q. intros p m s V. unfold value in *. destruct (H p) as [->|(-> & b & E1 & E2)]; [eauto|]. rewrite E2 in V. rewrite E1. rewrite last_app in *. cbn [last_value] in *.
  destruct (String.eqb_spec m n) as [->|]; [injection V as <-|]; eauto 8.
Qed.

Lemma under_bracket n : ident n = true -> no_char "]" (underline_to_space n) = true.
Proof.
  intros N. pose proof (ident_idc n N) as H. revert H. clear. induction n as [|c n IH]; intros H; [reflexivity|]. cbn [all_chars] in H. apply andb_true_iff in H as [C H]. unfold no_char in *. cbn [underline_to_space all_chars]. apply andb_true_iff.
  split; [|now apply IH]. destruct (c =? "_")%char; [reflexivity|]. destruct (c =? "]")%char eqn:E; [|reflexivity]. apply Ascii.eqb_eq in E. subst. discriminate.
Qed.
Lemma section_bracket : forall ns p, Forall (fun n => ident n = true) ns -> no_char "]" p = true -> no_char "]" (fold_left sub_path ns p) = true.
Proof.
  induction ns as [|n ns IH]; intros p F H; [exact H|]. inversion F; subst. cbn [fold_left]. apply IH; [assumption|]. unfold sub_path, no_char. rewrite all_chars_app. apply andb_true_iff. split; [|now apply under_bracket].
  unfold dotted. destruct p; [reflexivity|]. rewrite all_chars_app. apply andb_true_iff. split; [exact H|reflexivity].
Qed.
Lemma notes_sec p c ls : In (Sec p c) ls -> In (Sec p "") (without_notes ls).
Proof. induction ls as [|l ls IH]; [intros []|]. intros [->|I]; [now left|]. specialize (IH I). destruct l; cbn [without_notes]; auto; now right. Qed.
Lemma sections_in its ps p : Forall (fun l => is_item_line l = true) its -> orderly ps -> In (Sec p "") (its ++ laid_out ps) -> exists b, In (p, b) ps.
Proof.
  intros IT O I. apply in_app_or in I as [I|I]; [rewrite Forall_forall in IT; apply IT in I; discriminate|]. apply in_flat_map in I as ((q & b) & J & [E|I]); [injection E as <-; eauto|].
  destruct (proj2 O _ J) as (H & _). rewrite Forall_forall in H. apply H in I. discriminate.
Qed.

(** *** Files that generated writers wrote *)
(** All values are those of the object, but that one of them may be cut off. *)
Definition part_of (L : lang) (delta : bool) (v : val) (vals : string -> string -> option string) : Prop :=
  exists q k, forall ns n s, Forall (fun n => ident n = true) ns -> vals (section_of ns) n = Some s ->
  exists s0, gives L delta v ns n = Some s0 /\ (s = s0 \/ section_of ns = q /\ n = k /\ s <> "" /\ exists w, s0 = (s ++ w)%string).
Theorem written_cut enums ss o ds L (X : ini_setting enums ss o ds L) delta u fs t : fits L (VStruct u fs) (TStruct u) = true -> on_lines L delta (VStruct u fs) "" -> obj_text L delta (VStruct u fs) "" = Some t ->
  forall x y, t = (x ++ y)%string -> exists vals, (forall p n, look (r_look (has_read x new_reader)) p n = vals p n) /\ part_of L delta (VStruct u fs) vals /\
  (x = "" \/ (exists z, x = (z ++ NL)%string) -> forall ns n s, Forall (fun n => ident n = true) ns -> vals (section_of ns) n = Some s -> gives L delta (VStruct u fs) ns n = Some s) /\
  (y = "" -> forall ns n, Forall (fun n => ident n = true) ns -> vals (section_of ns) n = gives L delta (VStruct u fs) ns n).
Proof.
  intros F OL T x y E. destruct (file_lines enums ss o ds L X delta u fs t F OL T) as (ls & -> & SH & V & _ & its & ps & WN & IT & O & SE).
  assert (NB : forall p c, In (Sec p c) ls -> no_char "]" p = true).
  { intros p c I. apply notes_sec in I. rewrite WN in I. destruct (sections_in its ps p IT O I) as (b & J). destruct (SE p b J) as (ns & -> & FN). now apply section_bracket. }
  destruct (cut_found ls x y SH NB E) as (a & b & c & EL & HC & SC & LK). exists (value (a ++ c)). split; [exact LK|].
  assert (GR : forall a b p n s, ls = a ++ b -> value a p n = Some s -> value ls p n = Some s).
  { intros a0 b0 p n s ->. exact (grows a0 b0 its ps p n s WN IT O). }
  assert (PR : forall d, ls = (a ++ c) ++ d -> forall ns n s, Forall (fun n => ident n = true) ns -> value (a ++ c) (section_of ns) n = Some s -> gives L delta (VStruct u fs) ns n = Some s).
  { intros d ED ns n s FN VA. rewrite <- (V ns n FN). exact (GR _ d _ _ _ ED VA). }
  split; [|split].
  - destruct HC as [(-> & _)|(_ & _ & l & b' & -> & [->|[(p & EP & ->)|(n & v & v' & w & -> & -> & NE & ->)]])].
    + rewrite app_nil_r in *. exists "", "". intros ns n s FN VA. exists s. split; [exact (PR b EL ns n s FN VA)|now left].
    + rewrite app_nil_r in *. exists "", "". intros ns n s FN VA. exists s. split; [exact (PR (l :: b') EL ns n s FN VA)|now left].
    + exists "", "". intros ns n s FN VA. exists s. split; [|now left]. apply (PR b'); auto. rewrite <- app_assoc. exact EL.
    + destruct (value_differs a n (v' ++ w) "" v' "") as (q & H). exists q, n. intros ns m s FN VA. destruct (H _ _ _ VA) as (s0 & V0 & HS). exists s0. split.
      * rewrite <- (V ns m FN). apply (GR (a ++ [Item n (v' ++ w) ""]) b'); [now rewrite <- app_assoc|exact V0].
      * destruct HS as [->|(-> & -> & -> & ->)]; [now left|right]. eauto.
  - intros HX. destruct HC as [(-> & _)|(NX & NX' & _)]; [|exfalso; destruct HX as [HX|(z & HX)]; [exact (NX' HX)|exact (NX z HX)]]. rewrite app_nil_r in *. exact (PR b EL).
  - intros -> ns n FN. rewrite <- (V ns n FN). rewrite <- LK. rewrite sapp_nil_r in E. subst x. destruct (short_finished ls SH). now apply file_values.
Qed.
