(** Reading back the sections of an object that was written. *)
From Coq Require Import String Ascii ZArith NArith Arith List Bool Lia.
From Verif Require Import Base Map Items Grammar Fmt Decimal Templates Emit Cpp Xml Val Rx CppSem SymLex Ast StoreDefs ResolveProps Prog Header Link EnumSem DecText EnumCall EnumRound XmlSpec XmlRdSimple XmlRead XmlReader XmlCall XmlWriter XmlCarry XmlRound IniSpec IniRead IniReader IniCall IniWrite IniWriter IniScan IniKeep IniRound.
Import ListNotations.
Local Open Scope string_scope.
Local Open Scope list_scope.

(** The value of a scalar member afterwards: that of the written object, but the old one if
    the member was left out. *)
Definition back_value (L : lang) (delta : bool) (d x : val) (old : option val) : option val :=
  match left_out L delta d x with Some true => old | _ => Some x end.
(** [new] has the scalars of [v] in all structs that have a section and a member of a
    built-in type; [old] is the object before. *)
Definition comes_back (L : lang) (delta : bool) (p : string) (v old new : val) : Prop :=
  forall ns u fs ms d, member_at ns v = Some (VStruct u fs) -> find_struct (l_defs L) u = Some ms -> default_fields L u = Some d ->
  exists os gs, member_at ns old = Some (VStruct u os) /\ member_at ns new = Some (VStruct u gs) /\
    (fold_left sub_path ns p <> "" -> existsb is_simple ms = true ->
     forall m x dv, In m ms -> is_scalar L m = true -> assoc (member_name m) fs = Some x -> assoc (member_name m) d = Some dv ->
     assoc (member_name m) gs = back_value L delta dv x (assoc (member_name m) os)).

Section Back.
  Variables (enums : list enum_S) (ss : list struct_S) (o : output_spec) (ds : list def) (L : lang).
  Hypothesis X : ini_setting enums ss o ds L.
  Hypothesis LB : (32 <= l_long L)%Z.
  Variable delta : bool.

  Lemma number_zdec k z : wrap (bits L k) (signed k) z = z -> (0 < bits L k)%Z -> number L k (zdec z) = Some z.
  Proof.
    intros W B. unfold number. rewrite scan_dec_zdec. destruct (signed k).
    - pose proof (wrap_range_s (bits L k) z B) as R. rewrite W in R. assert (((- 2 ^ (bits L k - 1) <=? z) && (z <? 2 ^ (bits L k - 1)))%Z = true) as -> by lia. reflexivity.
    - pose proof (wrap_range_u (bits L k) z ltac:(lia)) as R. rewrite W in R. assert ((Z.abs z <? 2 ^ bits L k)%Z = true) as -> by lia. now rewrite W.
  Qed.
  Lemma wrap_more_u a b z : (0 < a <= b)%Z -> wrap a false z = z -> wrap b false z = z.
  Proof.
    intros AB W. pose proof (wrap_range_u a z ltac:(lia)) as R. rewrite W in R. apply wrap_small. pose proof (Z.pow_le_mono_r 2 a b ltac:(lia) ltac:(lia)). lia.
  Qed.
  Lemma wrap_more_s a b z : (0 < a <= b)%Z -> wrap a true z = z -> wrap b true z = z.
  Proof.
    intros AB W. pose proof (wrap_range_s a z ltac:(lia)) as R. rewrite W in R. apply wrap_signed; [lia|]. pose proof (Z.pow_le_mono_r 2 (a - 1) (b - 1) ltac:(lia) ltac:(lia)). lia.
  Qed.
  Lemma text_read m ty x s old : is_scalar L m = true -> member_type L m = Some ty -> fits L x ty = true -> text_keeps L (member_name m) x -> shown_text L x = Some s ->
    read_text L m s old = Done x.
  Proof.
    intros S MT F KT SH. assert (K : match x with VStr _ => True | _ => line_keeps L (member_name m) x end) by (destruct KT as [K|(y & -> & _)]; [now destruct x|exact I]). clear KT.
    destruct m as [st n df|u n df|u n]; cbn [is_scalar member_type read_text member_name] in *; [| |discriminate].
    - injection MT as <-.
      assert (NUM : forall k, kind_of st = TNum k -> exists z, x = VNum k z /\ to_kind L k z = z /\ s = zdec z).
      { intros k E. rewrite E in F. destruct (fits_num L x k F) as [->|(z & -> & H)]; [destruct K|]. cbn in SH. injection SH as <-. eauto. }
      assert (FLT : forall k, kind_of st = TFlt k -> exists c, x = VFlt k c /\ l_sto L k s = Some c).
      { intros k E. rewrite E in F. destruct (fits_flt L x k F) as [->|(c & ->)]; [destruct K|]. cbn in SH. injection SH as <-. destruct K as [_ K]. eauto. }
      destruct st; cbn [kind_of text_value] in *; unfold read_as;
        try (destruct (NUM _ eq_refl) as (z & -> & E & ->); clear NUM FLT; unfold to_kind in *; cbn [bits signed] in E).
      + assert (R : wrap 32 true z = z) by (destruct (Z.eqb_spec z 0); subst; reflexivity).
        rewrite (number_zdec KInt z R) by reflexivity. now rewrite E.
      + rewrite (number_zdec KInt z E) by reflexivity. cbn [bits signed]. now rewrite E.
      + rewrite (number_zdec KInt z (wrap_more_s 16 32 z ltac:(lia) E)) by reflexivity. cbn [bits signed]. now rewrite E.
      + rewrite (number_zdec KLong z E) by (cbn; lia). cbn [bits signed]. now rewrite E.
      + rewrite (number_zdec KULong z (wrap_more_u 32 (l_long L) z ltac:(lia) E)) by (cbn; lia). cbn [bits signed]. now rewrite E.
      + rewrite (number_zdec KULong z (wrap_more_u 16 (l_long L) z ltac:(lia) E)) by (cbn; lia). cbn [bits signed]. now rewrite E.
      + rewrite (number_zdec KULong z E) by (cbn; lia). cbn [bits signed]. now rewrite E.
      + destruct (FLT _ eq_refl) as (c & -> & ->). reflexivity.
      + destruct (FLT _ eq_refl) as (c & -> & ->). reflexivity.
      + destruct (fits_std L x F) as (y & ->). cbn in SH. now injection SH as <-.
    - rewrite MT in S. destruct ty; try discriminate. assert (n0 = u) as ->.
      { unfold user_type in MT. destruct (find_struct (l_defs L) u); [discriminate|]. destruct (find_enum (l_defs L) u); congruence. }
      destruct (fits_enum L x u F) as [->|(z & ->)]; [destruct K|]. destruct K as (c & es & FE & CH & _). cbn [shown_text] in SH. rewrite FE in SH. injection SH as <-. rewrite FE.
      pose proof FE as FE'. rewrite (i_defs _ _ _ _ _ X) in FE'. apply find_enum_in in FE' as (t & I).
      now rewrite (text_back B_n_ini enums ss o ds L (i_g _ _ _ _ _ X) c u es t I z CH).
  Qed.

  Lemma scalars_back its fs d : forall l os, NoDup (map member_name l) ->
    (forall m, In m l -> is_scalar L m = true /\ exists ty x dv old, member_type L m = Some ty /\ assoc (member_name m) fs = Some x /\ assoc (member_name m) d = Some dv /\ assoc (member_name m) os = Some old /\
       fits L x ty = true /\ carried L delta (text_keeps L) (member_name m) dv x /\ item_of L delta its (member_name m) dv x) ->
    exists gs, read_scalars L its l os = Done gs /\ (forall n, ~ In n (map member_name l) -> assoc n gs = assoc n os) /\
      forall m x dv, In m l -> assoc (member_name m) fs = Some x -> assoc (member_name m) d = Some dv -> assoc (member_name m) gs = back_value L delta dv x (assoc (member_name m) os).
  Proof.
    induction l as [|m l IH]; intros os ND H; cbn [read_scalars].
    - exists os. repeat split; auto. intros m x dv [].
    - cbn [map] in ND. apply NoDup_cons_iff in ND as [N ND]. destruct (H m (or_introl eq_refl)) as (SM & ty & x & dv & old & MT & AX & AD & AO & FX & CA & IT).
      unfold item_of in IT. destruct (left_out L delta dv x) as [[|]|] eqn:LO; [| |contradiction].
      + rewrite IT. destruct (IH os ND (fun m' I => H m' (or_intror I))) as (gs & R & O & B). exists gs. split; [exact R|]. split.
        * intros n Y. apply O. intros Z. apply Y. now right.
        * intros m' x' dv' [<-|I] AX' AD'; [|now apply B]. assert (x' = x) by congruence. assert (dv' = dv) by congruence. subst. unfold back_value. rewrite LO. now apply O.
      + destruct IT as (s & SH & ->). rewrite AO. destruct CA as [CA|[_ LK]]; [congruence|]. rewrite (text_read m ty x s old SM MT FX LK SH).
        assert (OT : forall m', In m' l -> String.eqb (member_name m') (member_name m) = false) by (intros m' I; apply eqb_neq; intros E; apply N; rewrite <- E; now apply in_map).
        destruct (IH (set_assoc (member_name m) x os) ND) as (gs & R & O & B).
        { intros m' I. destruct (H m' (or_intror I)) as (A & ty' & x' & dv' & old' & B1 & B2 & B3 & B4 & B5). split; [exact A|]. exists ty', x', dv', old'. repeat (split; [assumption|]).
          split; [now rewrite assoc_set_other by auto|exact B5]. }
        exists gs. split; [exact R|]. split.
        * intros n Y. rewrite O by (intros Z; apply Y; now right). apply assoc_set_other. apply eqb_neq. intros ->. apply Y. now left.
        * intros m' x' dv' [<-|I] AX' AD'.
          { assert (x' = x) by congruence. assert (dv' = dv) by congruence. subst. unfold back_value. rewrite LO, O by exact N. apply assoc_set_same. }
          rewrite (B m' x' dv' I AX' AD'). unfold back_value. destruct (left_out L delta dv' x') as [[|]|]; [now rewrite assoc_set_other by auto|reflexivity|reflexivity].
  Qed.

  Definition reads_back (k : lookups) (v : val) : Prop := forall u os p, p <> "" -> fits L v (TStruct u) = true -> fits L (VStruct u os) (TStruct u) = true -> carries L delta v p -> sections L delta k v p ->
    exists gs, read_obj L k (VStruct u os) p = Some (true, VStruct u gs) /\ comes_back L delta p v (VStruct u os) (VStruct u gs).
  Lemma structs_back k p fs os : forall l rv gs, NoDup (map member_name l) ->
    (forall m, In m l -> ident (member_name m) = true /\ exists u w f1, assoc (member_name m) fs = Some w /\ fits L w (TStruct u) = true /\ assoc (member_name m) os = Some (VStruct u f1) /\ fits L (VStruct u f1) (TStruct u) = true /\
       reads_back k w /\ carries L delta w (sub_path p (member_name m)) /\ sections L delta k w (sub_path p (member_name m))) ->
    exists gs', read_structs p (map (fun q => (fst q, read_obj L k (snd q))) os) l rv gs = Some ((if l then rv else true), gs') /\
      (forall n, ~ In n (map member_name l) -> assoc n gs' = assoc n gs) /\
      forall m, In m l -> exists w u f1 g1, assoc (member_name m) fs = Some w /\ assoc (member_name m) os = Some (VStruct u f1) /\ assoc (member_name m) gs' = Some (VStruct u g1) /\
        comes_back L delta (sub_path p (member_name m)) w (VStruct u f1) (VStruct u g1).
  Proof.
    induction l as [|m l IH]; intros rv gs ND H; cbn [read_structs].
    - exists gs. repeat split; auto. intros m [].
    - cbn [map] in ND. apply NoDup_cons_iff in ND as [N ND]. destruct (H m (or_introl eq_refl)) as (ID & u & w & f1 & AW & FW & AO & FO & RB & CA & SE).
      rewrite sub_assoc, AO. destruct (RB u f1 (sub_path p (member_name m)) (sub_path_cons _ _ ID) FW FO CA SE) as (g1 & RO & CB). rewrite RO.
      destruct (IH true (set_assoc (member_name m) (VStruct u g1) gs) ND (fun m' I => H m' (or_intror I))) as (gs' & R & O & B). exists gs'. split; [rewrite R; now destruct l|]. split.
      + intros n Y. rewrite O by (intros Z; apply Y; now right). apply assoc_set_other. apply eqb_neq. intros ->. apply Y. now left.
      + intros m' [<-|I]; [|now apply B]. exists w, u, f1, g1. repeat split; auto. rewrite O by exact N. apply assoc_set_same.
  Qed.

  (** A struct at any place. *)
  Lemma object_back f k u fs os p ms d : (forall w, vheight w < f -> reads_back k w) -> vheight (VStruct u fs) < S f ->
    fits L (VStruct u fs) (TStruct u) = true -> fits L (VStruct u os) (TStruct u) = true -> carries L delta (VStruct u fs) p ->
    find_struct (l_defs L) u = Some ms -> default_fields L u = Some d ->
    (p <> "" -> exists its, assoc p (k_under k) = Some its /\ has_items L delta its ms fs d) -> (p = "" -> named k) ->
    (forall m w, In m ms -> is_struct_member L m = true -> assoc (member_name m) fs = Some w -> sections L delta k w (sub_path p (member_name m))) ->
    exists gs, read_obj L k (VStruct u os) p = Some (true, VStruct u gs) /\ comes_back L delta p (VStruct u fs) (VStruct u os) (VStruct u gs).
  Proof.
    intros IH HV F FO CA FS D HI NM SE. destruct (j_parts enums ss o ds L X u fs F) as (ms' & d' & FS' & D' & ND & K & PM).
    assert (ms' = ms) by congruence. assert (d' = d) by congruence. subst ms' d'. clear FS' D'.
    destruct (j_parts enums ss o ds L X u os FO) as (ms' & d' & FS' & D' & _ & KO & PO). assert (ms' = ms) by congruence. assert (d' = d) by congruence. subst ms' d'. clear FS' D'.
    destruct (CA [] u fs ms d eq_refl FS D) as (_ & _ & CS).
    assert (S1 : exists gs, match assoc p (k_under k) with Some its => read_scalars L its (section_members L ms) os | None => Done os end = Done gs /\
      (forall m, In m ms -> is_scalar L m = false -> assoc (member_name m) gs = assoc (member_name m) os) /\
      (p <> "" -> existsb is_simple ms = true -> forall m x dv, In m ms -> is_scalar L m = true -> assoc (member_name m) fs = Some x -> assoc (member_name m) d = Some dv ->
       assoc (member_name m) gs = back_value L delta dv x (assoc (member_name m) os))).
    { destruct (string_dec p "") as [->|NE].
      - rewrite (NM eq_refl). exists os. repeat split; auto. intros Y; congruence.
      - destruct (HI NE) as (its & -> & HA). assert (INS : forall m, In m (section_members L ms) -> In m ms /\ is_scalar L m = true).
        { intros m I. unfold section_members in I. destruct (existsb is_simple ms); [|contradiction]. apply filter_In in I as [I S]. split; [now apply in_order_in|exact S]. }
        destruct (scalars_back its fs d (section_members L ms) os) as (gs & R & O & B).
        { unfold section_members. destruct (existsb is_simple ms); [apply filter_names, in_order_names, ND|constructor]. }
        { intros m I. destruct (INS m I) as [IM SM]. split; [exact SM|]. destruct (PM m IM) as (ty & x & dv & MT & AX & AD & FX & _). destruct (PO m IM) as (ty' & old & dv' & _ & AO & _).
          exists ty, x, dv, old. repeat (split; [assumption|]). split; [eapply CS; eauto|eapply HA; eauto]. }
        exists gs. split; [exact R|]. split.
        + intros m I S. apply O. now apply j_section.
        + intros _ Z m x dv I S AX AD. apply B; auto. unfold section_members. rewrite Z. apply filter_In. split; [now apply in_order_in|exact S]. }
    destruct S1 as (g1 & R1 & O1 & B1). cbn [read_obj]. rewrite FS, R1.
    assert (SK : forall m, In m (filter (is_struct_member L) ms) -> ident (member_name m) = true /\ exists u w f1, assoc (member_name m) fs = Some w /\ fits L w (TStruct u) = true /\ assoc (member_name m) os = Some (VStruct u f1) /\ fits L (VStruct u f1) (TStruct u) = true /\
       reads_back k w /\ carries L delta w (sub_path p (member_name m)) /\ sections L delta k w (sub_path p (member_name m))).
    { intros m I. apply filter_In in I as [I SM]. split; [eapply j_ident; eauto|]. destruct (PM m I) as (ty & w & dv & MT & AW & _ & FW & _). destruct (PO m I) as (ty' & y & dv' & MT' & AO & _ & FY & _).
      assert (ty' = ty) by congruence. subst ty'. destruct (struct_value L m w ty SM MT FW) as (u1 & fw & -> & ->). destruct (fits_as_struct L y u1 FY) as (f1 & ->).
      exists u1, (VStruct u1 fw), f1. repeat (split; [assumption|]). split; [apply IH; pose proof (field_height u fs _ _ AW); lia|]. split; [eapply carries_in; eauto|now apply SE]. }
    destruct (structs_back k p fs os (filter (is_struct_member L) ms) true g1 (filter_names _ _ ND) SK) as (g2 & R2 & O2 & B2).
    rewrite R2. exists g2. split; [now destruct (filter (is_struct_member L) ms)|].
    intros ns u' fs' ms' d' AT FS' D'. destruct ns as [|n ns]; cbn [member_at fold_left] in *.
    - injection AT as <- <-. assert (ms' = ms) by congruence. assert (d' = d) by congruence. subst ms' d'. exists os, g2. repeat split; auto. intros NE Z m x dv I S AX AD.
      rewrite O2; [now apply B1|]. intros Y. apply in_map_iff in Y as (m' & E & Y). apply filter_In in Y as [Y SY]. apply (j_name_inj ms m' m ND Y I) in E. subst. apply struct_no_scalar in SY. congruence.
    - destruct (assoc n fs) as [w|] eqn:AW; [|discriminate].
      assert (exists m, In m ms /\ member_name m = n) as (m & I & <-).
      { apply assoc_some in AW. apply (in_map fst) in AW. rewrite K in AW. apply in_map_iff in AW as (m & Y1 & Y2). eauto. }
      destruct (PM m I) as (ty & w' & dv & MT & AW' & _ & FW & _). assert (w' = w) by congruence. subst w'.
      assert (SM : is_struct_member L m = true).
      { destruct w as [| | | | | | |u3 f3| | | | | | | | | | | | | |]; try (destruct ns; discriminate). pose proof (fits_ty L _ _ FW) as TY. cbn in TY. subst ty. exact (type_struct_member L m u3 MT). }
      destruct (B2 m) as (w' & u1 & f1 & g1' & A1 & A2 & A3 & A4); [now apply filter_In|]. assert (w' = w) by congruence. subst w'. rewrite A2, A3. exact (A4 ns u' fs' ms' d' AT FS' D').
  Qed.
  Lemma all_back k : forall f v, vheight v < f -> reads_back k v.
  Proof.
    induction f as [|f IH]; intros v HV; [lia|]. intros u os p NE F FO CA SE. destruct (fits_as_struct L v u F) as (fs & ->).
    destruct (j_parts enums ss o ds L X u fs F) as (ms & d & FS & D & _). eapply object_back; eauto.
    - intros _. exact (SE [] u fs ms d eq_refl FS D).
    - congruence.
    - intros m w I SM AW ns u' fs' ms' d' AT. apply (SE (member_name m :: ns) u' fs' ms' d'). cbn [member_at]. now rewrite AW.
  Qed.

  (** *** The whole file *)
  Definition opening (t : string) : Prop := match t with EmptyString => True | String c _ => (c =? " ")%char = false /\ (c =? "%")%char = false /\ (c =? ascii_of_nat 0)%char = false end.
  Lemma opening_app a b : opening a -> opening b -> opening (a ++ b).
  Proof. destruct a; auto. Qed.
  Lemma text_opening p d fs : forall l t, (forall m, In m l -> ident (member_name m) = true) -> (forall m w q s, In m l -> assoc (member_name m) fs = Some w -> obj_text L delta w q = Some s -> opening s) ->
    members_text L delta p d (map (fun q => (fst q, (snd q, obj_text L delta (snd q)))) fs) l = Some t -> opening t.
  Proof.
    induction l as [|m l IH]; intros t ID H T; cbn [members_text] in T; [injection T as <-; exact I|].
    destruct (member_text L delta p d _ m) as [a|] eqn:MT; [|discriminate]. destruct (members_text L delta p d _ l) as [b|] eqn:MB; [|discriminate]. injection T as <-.
    apply opening_app; [|apply IH; auto; [intros m' I; apply ID; now right|intros m' w q s I; apply H; now right]].
    unfold member_text in MT. rewrite (sub_assoc (fun v => (v, obj_text L delta v))) in MT. destruct (assoc (member_name m) fs) as [x|] eqn:AX; [|discriminate]. destruct (is_scalar L m).
    - destruct (assoc (member_name m) d) as [dv|]; [|discriminate]. unfold scalar_line in MT. destruct (left_out L delta dv x) as [[|]|]; [injection MT as <-; exact I| |discriminate].
      destruct (shown_text L x) as [s|]; [|discriminate]. injection MT as <-. destruct (ident_cons (member_name m) (ID m (or_introl eq_refl))) as (c & r & -> & IC). unfold item_line. cbn [String.append opening].
      destruct (idc_start c IC) as (_ & E & _). split; [exact E|]. apply idc_line, line_chr_facts in IC as (A & _ & _ & B). auto.
    - destruct (is_struct_member L m); [eapply (H m x); eauto; now left|]. injection MT as <-. exact I.
  Qed.
  Lemma obj_opening : forall f v u p t, vheight v < f -> fits L v (TStruct u) = true -> obj_text L delta v p = Some t -> opening t.
  Proof.
    induction f as [|f IH]; intros v u p t HV F T; [lia|]. destruct (fits_as_struct L v u F) as (fs & ->). cbn [obj_text] in T.
    destruct (j_parts enums ss o ds L X u fs F) as (ms & d & FS & D & ND & K & PM). rewrite FS, D in T. destruct (members_text L delta p d _ (in_order ms)) as [tm|] eqn:TM; [|discriminate]. injection T as <-.
    apply opening_app; [destruct p; [exact I|repeat split]|]. eapply text_opening; [| |exact TM].
    - intros m I. apply (proj1 (in_order_in m ms)) in I. eapply j_ident; eauto.
    - intros m w q s I AW OT. apply (proj1 (in_order_in m ms)) in I. destruct (PM m I) as (ty & w' & dv & MT & AW' & _ & FW & _). assert (w' = w) by congruence. subst w'.
      assert (exists u1 f1, w = VStruct u1 f1) as (u1 & f1 & ->) by (destruct w; try discriminate; eauto). pose proof (fits_ty L _ _ FW) as TY. cbn in TY. subst ty.
      eapply (IH _ u1 q s); eauto. pose proof (field_height u fs _ _ AW). lia.
  Qed.
  Lemma chunks_first : forall s room a l ls, chunks room a s = l :: ls -> exists x, l = (a ++ x)%string.
  Proof.
    induction s as [|c s IH]; intros room a l ls E; cbn [chunks] in E.
    - destruct a; [discriminate|]. injection E as <- _. exists "". now rewrite sapp_nil_r.
    - destruct (_ || _)%bool; [injection E as <- _; unfold snoc; eauto|]. destruct (IH _ _ _ _ E) as (x & ->). unfold snoc. exists (String c x). now rewrite sapp_assoc.
  Qed.
  Lemma scan_flushed t s : opening t -> t <> "" -> scan_text t s = scan_text t (flushed s).
  Proof.
    destruct t as [|c t]; [congruence|]. intros (A & B & C) _. unfold scan_text. destruct (chunks 79 "" (String c t)) as [|l ls] eqn:E.
    { exfalso. cbn [chunks] in E. destruct (_ || _)%bool; [discriminate|]. assert (NE : forall s room a, a <> "" -> chunks room a s <> []).
      { clear. induction s as [|c s IH]; intros room a N; cbn [chunks]; [destruct a; [congruence|discriminate]|]. destruct (_ || _)%bool; [discriminate|]. apply IH. unfold snoc. destruct a; discriminate. }
      revert E. apply NE. discriminate. }
    cbn [fold_left]. f_equal. assert (exists x, l = String c x) as (x & ->).
    { cbn [chunks] in E. destruct (_ || _)%bool; [injection E as <- _; exists ""; reflexivity|]. destruct (chunks_first _ _ _ _ _ E) as (x & ->). cbn. eauto. }
    cbn [cut]. rewrite C. unfold scan_line. cbn [no_comment]. rewrite B. cbv zeta. now rewrite !(flush_is c _ A), flushed_twice.
  Qed.

  Theorem file_back u fs os k key val t : fits L (VStruct u fs) (TStruct u) = true -> fits L (VStruct u os) (TStruct u) = true -> carries L delta (VStruct u fs) "" -> named k ->
    obj_text L delta (VStruct u fs) "" = Some t ->
    exists gs, read_obj L (x_look (scan_text t (Scan k None key val))) (VStruct u os) "" = Some (true, VStruct u gs) /\ comes_back L delta "" (VStruct u fs) (VStruct u os) (VStruct u gs).
  Proof.
    intros F FO CA NM T. pose proof (named_text t (Scan k None key val) NM) as NMT. set (f := S (vheight (VStruct u fs))).
    destruct (j_parts enums ss o ds L X u fs F) as (ms & d & FS & D & ND & K & PM).
    destruct (CA [] u fs ms d eq_refl FS D) as (_ & EF & _). destruct (enums_first_split L (in_order ms) EF) as (A & B & SP & HA & HB).
    pose proof T as T'. cbn [obj_text] in T. rewrite FS, D in T. destruct (members_text L delta "" d _ (in_order ms)) as [tm|] eqn:TM; [|discriminate]. cbn [section_line String.append] in T. injection T as ->.
    assert (C1 : x_cur (flushed (Scan k None key val)) = None) by (unfold flushed; destruct (String.eqb _ _); reflexivity).
    destruct (scan_members enums ss o ds L X delta f u fs "" ms d A B (scan_object enums ss o ds L X delta f) ltac:(unfold f; lia) F eq_refl CA FS D SP HA HB t TM "" (flushed (Scan k None key val)) (flushed_key _) C1 ltac:(congruence))
      as (s' & R1 & R2 & _ & R4 & _).
    rewrite sapp_nil_r in R1. change (scan_text "" s') with s' in R1.
    eapply (object_back f); eauto; [intros w H; eapply all_back; eauto|congruence|].
    intros m w I SM AW. destruct (string_dec t "") as [->|NE].
    - exfalso. clear - X TM I SM AW ND F FS PM. assert (I' : In m (in_order ms)) by now apply in_order_in. revert TM I'. generalize (in_order ms). induction l as [|m' l IH]; intros TM I'; [contradiction|].
      cbn [members_text] in TM. destruct (member_text L delta "" d _ m') as [a|] eqn:MT; [|discriminate]. destruct (members_text L delta "" d _ l) as [b|] eqn:MB; [|discriminate].
      assert (Z : a = "" /\ b = "") by (injection TM; destruct a; [auto|discriminate]). destruct Z as [-> ->]. destruct I' as [->|I']; [|now apply IH].
      unfold member_text in MT. rewrite (sub_assoc (fun v => (v, obj_text L delta v))), AW in MT. rewrite (struct_no_scalar L m SM), SM in MT.
      destruct (PM m I) as (ty & w' & dv & MTY & AW' & _ & FW & _). assert (w' = w) by congruence. subst w'. destruct (struct_value L m w ty SM MTY FW) as (u1 & f1 & -> & ->).
      pose proof (j_ident enums ss o ds L X u ms m FS I) as ID. cbn [obj_text] in MT. destruct (find_struct (l_defs L) u1); [|discriminate]. destruct (default_fields L u1); [|discriminate].
      destruct (members_text L delta _ l1 _ _); [|discriminate]. injection MT as MT. pose proof (sub_path_cons "" (member_name m) ID) as NE. destruct (sub_path "" (member_name m)); [congruence|discriminate].
    - rewrite (scan_flushed t _ (obj_opening f (VStruct u fs) u "" t (Nat.lt_succ_diag_r _) F T') NE), R1. now apply R4.
  Qed.
End Back.
