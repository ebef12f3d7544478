(** Round trips of xml files for objects with empty strings, which are not read back (C39) but
    left as they are in the object that is read into. *)
From Coq Require Import String Ascii ZArith NArith Arith List Bool Lia.
From Verif Require Import Base Map Items Grammar Fmt Decimal Templates Emit Cpp Xml Val CppSem SymLex Ast StoreDefs ResolveProps Prog Header EnumSem DecText EnumCall EnumRound Link
  XmlSpec XmlRdSimple XmlRead XmlReader XmlCall XmlWriter XmlFile XmlCarry XmlRound XmlProps XmlReadProps XmlThms.
Import ListNotations.
Local Open Scope string_scope.
Local Open Scope list_scope.

(** Like [storable] (XmlRound.v), but as an element a blank string is allowed where a new object
    has the same. *)
Definition storable_new (L : lang) (b : form) (delta : bool) (v : val) : Prop := forall m d x, scalar_in L v m d x ->
  (keeps L b x \/ b = Elements /\ exists s, x = VStr s /\ d = VStr s /\ blank (cut s) = true) /\
  (delta = true -> inited d /\ (b = Attributes -> converted m = true -> scalar_eq L x d = Some false)).
Lemma storable_is_new L b delta v : storable L b delta v -> storable_new L b delta v.
Proof. intros H m d x S. destruct (H m d x S). auto. Qed.

Section Blank.
  Variables (bk : backend) (b : form) (enums : list enum_S) (ss : list struct_S) (o : output_spec) (ds : list def) (L : lang).
  Hypothesis X : xml_setting bk b enums ss o ds L.
  Variable delta : bool.
  Lemma string_member m ty s : is_scalar L m = true -> member_type L m = Some ty -> fits L (VStr s) ty = true -> exists n df, m = MSimple std_string_E n df.
  Proof.
    intros S MT F. pose proof (fits_ty L _ _ F) as T. cbn in T. subst ty. destruct m as [st n df|u n df|u n]; cbn [is_scalar member_type] in *; [|rewrite MT in S|]; try discriminate.
    destruct st; try discriminate. eauto.
  Qed.
  Theorem stored_new (LR : lits_fresh L true) v t : obj_type L v t -> storable_new L b delta v -> forall old, fits L old t = true -> fresh L true old ->
    exists v', carry L b delta v old = Some v' /\ alike L delta v v'.
  Proof.
    intros OT. enough (G : storable_new L b delta v -> forall old t, obj_type L v t -> fits L old t = true -> fresh L true old -> exists v', carry L b delta v old = Some v' /\ alike L delta v v')
      by (intros ST old F FR; eapply G; eauto). revert v t OT.
    apply (obj_ind bk b enums ss o ds L X (fun v => storable_new L b delta v -> forall old t, obj_type L v t -> fits L old t = true -> fresh L true old -> exists v', carry L b delta v old = Some v' /\ alike L delta v v')).
    - intros u fs ms d F FS D IH ST old t [FT _] FO FR. pose proof (fits_ty L _ _ FT) as E. cbn in E. subst t. destruct (fits_as_struct L old u FO) as (os & E). subst old.
      destruct (parts bk b enums ss o ds L X u fs F) as (ms1 & d1 & FS1 & D1 & ND & K & M). destruct (parts bk b enums ss o ds L X u os FO) as (ms2 & d2 & FS2 & D2 & _ & K2 & M2).
      assert (ms1 = ms) by congruence. assert (ms2 = ms) by congruence. assert (d1 = d) by congruence. assert (d2 = d) by congruence. subst ms1 ms2 d1 d2. clear FS1 FS2 D1 D2.
      cbn [carry]. rewrite FS, D.
      destruct (carry_members_alike b L delta d (map (fun p => (fst p, (snd p, carry L b delta (snd p)))) fs) ms fs os K K2) as (gs & G1 & G2).
      2: { rewrite G1. exists (VStruct u gs). split; [reflexivity|now apply al_struct]. }
      intros m x old I IX IO. destruct (M m I) as (ty & x' & dv & MT & A1 & A2 & F1 & F2).
      assert (AX : assoc (member_name m) fs = Some x) by (apply Header.assoc_in; [rewrite K; exact ND|exact IX]). assert (x' = x) by congruence. subst x'.
      assert (AO : assoc (member_name m) os = Some old) by (apply Header.assoc_in; [rewrite K2; exact ND|exact IO]).
      destruct (M2 m I) as (ty' & old' & dv' & MT' & A1' & A2' & F1' & _). assert (ty' = ty) by congruence. assert (old' = old) by congruence. subst ty' old'. clear dv' A2' MT' A1'.
      unfold carry_member. rewrite (assoc_map (fun v => (v, carry L b delta v))), AX. cbn [option_map]. destruct (is_scalar L m) eqn:S.
      + rewrite A2. unfold carry_scalar.
        assert (SI : scalar_in L (VStruct u fs) m dv x) by exact (ScalarIn L (VStruct u fs) m dv x u fs ms d (w_here _) FS D I S AX A2).
        destruct (ST m dv x SI) as (KP & DL).
        assert (OLD : inited dv -> old = dv).
        { apply (proj2 FR eq_refl m dv old). exact (ScalarIn L (VStruct u os) m dv old u os ms d (w_here _) FS D I S AO A2). }
        assert (WB : exists s, text_of L b x = Some s /\ read_scalar L b m (shown b s) old = Some x).
        { destruct KP as [KP|(B & s & -> & -> & BL)]; [exact (written_back bk b enums ss o ds L X m ty x old S MT F1 KP)|]. exists (cut s). split; [reflexivity|].
          rewrite (OLD Logic.I). assert (exists n df, m = MSimple std_string_E n df) as (n & df & ->) by (eapply string_member; eauto). unfold shown. rewrite B. rewrite BL. reflexivity. }
        destruct WB as (s & T & RB).
        destruct (left_out L delta dv x) as [[|]|] eqn:LO.
        * unfold left_out in LO. destruct delta eqn:DT; [|discriminate]. destruct (DL eq_refl) as (ID & CV). exists old. split.
          { apply (absent_kept bk b enums ss o ds L X); [exact S|]. intros B. destruct (converted m) eqn:C; [|reflexivity]. rewrite (CV B eq_refl) in LO. discriminate. }
          rewrite (OLD ID).
          rewrite <- DT. apply (eq_alike L delta ty x dv F1 F2 LO DT).
        * rewrite T. exists x. split; [exact RB|apply al_same].
        * exfalso. unfold left_out in LO. destruct delta eqn:DT; [|discriminate]. destruct (DL eq_refl) as (ID & _).
          apply (proj2 (write_scalar_defined L b true m ty (member_name m) dv x S MT F1 F2)).
          { split; [|intros _; exact ID]. destruct KP as [KP|(_ & s' & -> & _)]; [destruct x; cbn in KP |- *; auto|exact Logic.I]. }
          unfold write_scalar, left_out. now rewrite LO.
      + apply (IH m x I S AX) with (t := ty).
        * intros m' d' y SI. apply (ST m' d' y). eapply scalar_in_mono; [|exact SI]. eapply w_field; [exact IX|apply w_here].
        * eapply member_obj; eauto.
        * exact F1'.
        * eapply fresh_within; [|exact FR]. eapply w_field; [exact IO|apply w_here].
    - intros u l IH ST old t [FT _] FO FR. pose proof (fits_ty L _ _ FT) as E. cbn in E. subst t. destruct (fits_as_vec L old u FO) as (l0 & -> & _).
      rewrite (proj1 FR u l0 (w_here _)). cbn [carry].
      assert (C : exists l', carry_items L u (map (carry L b delta) l) = Some l' /\ Forall2 (alike L delta) l l').
      { clear FT FO FR l0. assert (ST' : forall w, In w l -> storable_new L b delta w).
        { intros w I m d x SI. apply (ST m d x). eapply scalar_in_mono; [|exact SI]. eapply w_item; [exact I|apply w_here]. }
        clear ST. induction l as [|w l IHl]; [exists []; split; [reflexivity|constructor]|].
        destruct IHl as (l' & L1 & L2); [intros y I; apply IH; now right|intros y I; apply ST'; now right|].
        destruct (IH w (or_introl eq_refl)) as (FW & IW). destruct (fits_as_struct L w u FW) as (fw & ->). destruct (fits_struct L u fw FW) as (ms & FS & _).
        destruct (r_defaults bk b enums ss o ds L X u ms FS) as (d & D & FD).
        destruct (IW (ST' _ (or_introl eq_refl)) (VStruct u d) (TStruct u) (conj FW I) FD (defaults_fresh bk b enums ss o ds L X true LR u d D)) as (y & Y1 & Y2).
        exists (y :: l'). cbn [map carry_items]. rewrite D, Y1, L1. split; [reflexivity|now constructor]. }
      destruct C as (l' & C1 & C2). rewrite C1. exists (VVec u l'). split; [reflexivity|now apply al_vec].
  Qed.
  Theorem write_read_new u fs os nm : lits_fresh L true -> object L u fs -> storable_new L b delta (VStruct u fs) -> object L u os -> fresh L true (VStruct u os) ->
    exists a k gs, write_val L b delta (VStruct u fs) = Some (a, k) /\ read_struct L b (reload (Elem nm a k)) u os = Some gs /\ alike L delta (VStruct u fs) (VStruct u gs).
  Proof.
    intros LR F ST FO FR. destruct (stored_new LR (VStruct u fs) (TStruct u) (conj F Logic.I) ST (VStruct u os) FO FR) as (v' & C & A).
    assert (W : write_val L b delta (VStruct u fs) <> None).
    { apply (proj2 (writable_iff bk b enums ss o ds L X delta (VStruct u fs) (TStruct u) (conj F Logic.I))). intros m d x SI. destruct (ST m d x SI) as (K & D).
      split; [|intros E; now apply D]. destruct K as [K|(_ & s & -> & _)]; [destruct x; cbn in K |- *; auto|exact Logic.I]. }
    destruct (write_val L b delta (VStruct u fs)) as [[a k]|] eqn:WV; [|congruence].
    pose proof (carry_ok L b delta _ _ (r_ok _ _ _ _ _ _ _ X) (x_long _ _ _ _ _ _ _ X) (x_lits _ _ _ _ _ _ _ X) (S (vheight (VStruct u fs))) u fs os nm a k (Nat.lt_succ_diag_r _) F FO WV) as E.
    rewrite C in E. destruct (read_struct L b (reload (Elem nm a k)) u os) as [gs|] eqn:R; [|discriminate]. injection E as <-. exists a, k, gs. auto.
  Qed.

  (** If everything came back, every scalar did, on top of its default value. *)
  Theorem carry_exact_new (LR : lits_fresh L true) v t : obj_type L v t -> forall old, fits L old t = true -> fresh L true old -> carry L b delta v old = Some v ->
    forall m d x, scalar_in L v m d x -> exists old', (inited d -> old' = d) /\ carry_scalar L b delta m d x old' = Some x.
  Proof.
    intros OT. enough (G : forall t, obj_type L v t -> forall old, fits L old t = true -> fresh L true old -> carry L b delta v old = Some v ->
      forall m d x, scalar_in L v m d x -> exists old', (inited d -> old' = d) /\ carry_scalar L b delta m d x old' = Some x) by (eapply G; eauto). revert v t OT.
    apply (obj_ind bk b enums ss o ds L X (fun v => forall t, obj_type L v t -> forall old, fits L old t = true -> fresh L true old -> carry L b delta v old = Some v ->
      forall m d x, scalar_in L v m d x -> exists old', (inited d -> old' = d) /\ carry_scalar L b delta m d x old' = Some x)).
    - intros u fs ms dd F FS D IH t [FT _] old FO EV CA m d x [u' fs' ms' ds' W SF SD SM SS SX SDV]. pose proof (fits_ty L _ _ FT) as E. cbn in E. subst t.
      destruct (fits_as_struct L old u FO) as (os & E). subst old. destruct (parts bk b enums ss o ds L X u os FO) as (ms2 & d2 & FS2 & D2 & ND & K2 & M2).
      destruct (parts bk b enums ss o ds L X u fs F) as (ms3 & d3 & FS3 & D3 & _ & K & M).
      assert (ms2 = ms) by congruence. assert (d2 = dd) by congruence. assert (ms3 = ms) by congruence. assert (d3 = dd) by congruence. subst ms2 d2 ms3 d3.
      cbn [carry] in CA. rewrite FS, D in CA. destruct (carry_members L b delta dd _ ms os) as [gs|] eqn:C; [|discriminate]. injection CA as ->.
      inversion W as [|? ? n y IY WY|].
      + subst u' fs'. assert (ms' = ms) by congruence. assert (ds' = dd) by congruence. subst ms' ds'.
        destruct (carry_members_assoc L b delta dd _ ms ND os fs m K2 C SM) as (old & y & A1 & A2 & A3). assert (y = x) by congruence. subst y. exists old.
        split; [exact (proj2 EV eq_refl m d old (ScalarIn L (VStruct u os) m d old u os ms dd (w_here _) FS D SM SS A1 SDV))|].
        unfold carry_member in A2. rewrite (assoc_map (fun v => (v, carry L b delta v))), SX in A2. cbn [option_map] in A2. now rewrite SS, SDV in A2.
      + subst. assert (exists m', In m' ms /\ member_name m' = n) as (m' & I' & N').
        { apply (in_map fst) in IY. rewrite K in IY. apply in_map_iff in IY as (m' & E & I'). eauto. }
        assert (A : assoc n fs = Some y) by (apply Header.assoc_in; [rewrite K; exact ND|exact IY]). rewrite <- N' in A.
        destruct (M m' I') as (ty & v & dv & MT & A1 & A2 & F1 & _). assert (v = y) by congruence. subst v.
        destruct (is_scalar L m') eqn:S.
        { exfalso. destruct (scalar_type L m' ty S MT) as [[k ->]|[[k ->]|[->|(? & ? & ? & -> & ?)]]]; pose proof (fits_ty L _ _ F1) as T;
          inversion WY; subst; discriminate T. }
        destruct (carry_members_assoc L b delta dd _ ms ND os fs m' K2 C I') as (old & y' & B1 & B2 & B3). assert (y' = y) by congruence. subst y'.
        unfold carry_member in B2. rewrite (assoc_map (fun v => (v, carry L b delta v))), A in B2. cbn [option_map] in B2. rewrite S in B2.
        destruct (M2 m' I') as (ty' & old' & dv' & MT' & B1' & _ & F1' & _). assert (ty' = ty) by congruence. assert (old' = old) by congruence. subst ty' old'.
        apply (IH m' y I' S A ty (member_obj L m' ty y S MT F1) old F1'); [|exact B2|exact (ScalarIn L y m d x u' fs' ms' ds' WY SF SD SM SS SX SDV)].
        eapply fresh_within; [|exact EV]. eapply w_field; [apply assoc_some; exact B1|apply w_here].
    - intros u l IH t [FT _] old FO EV CA m d x [u' fs' ms' ds' W SF SD SM SS SX SDV]. pose proof (fits_ty L _ _ FT) as E. cbn in E. subst t.
      destruct (fits_as_vec L old u FO) as (l0 & E & _). subst old. rewrite (proj1 EV u l0 (w_here _)) in CA. cbn [carry] in CA. inversion W as [| |? ? y IY WY]. subst.
      destruct (carry_items L u (map (carry L b delta) l)) as [l'|] eqn:C; [|discriminate]. cbn in CA. injection CA as ->.
      assert (DF : exists dd, default_fields L u = Some dd /\ fits L (VStruct u dd) (TStruct u) = true).
      { destruct (IH y IY) as (FY & _). destruct (fits_as_struct L y u FY) as (fy & ->). destruct (fits_struct L u fy FY) as (my & FS & _). exact (r_defaults _ _ _ _ _ _ _ X u my FS). }
      destruct DF as (dd & D & FD).
      assert (CY : carry L b delta y (VStruct u dd) = Some y).
      { clear - IY C D. assert (G : forall k r, carry_items L u (map (carry L b delta) k) = Some r -> Forall2 (fun w w' => carry L b delta w (VStruct u dd) = Some w') k r).
        { induction k as [|w k IHk]; intros r; cbn [map carry_items]; [intros [= <-]; constructor|]. rewrite D. destruct (carry L b delta w (VStruct u dd)) as [w'|] eqn:CW; [|discriminate].
          destruct (carry_items L u (map (carry L b delta) k)) as [r'|]; [|discriminate]. intros [= <-]. constructor; auto. }
        specialize (G l l C). clear C. assert (H : forall k r, Forall2 (fun w w' => carry L b delta w (VStruct u dd) = Some w') k r -> k = r -> In y k -> carry L b delta y (VStruct u dd) = Some y).
        { intros k r FA. induction FA as [|w w' k r E FA IHF]; [intros _ []|]. intros [= <- E'] [->|I]; [exact E|]. now apply IHF. }
        exact (H l l G eq_refl IY). }
      destruct (IH y IY) as (FY & IY'). apply (IY' (TStruct u) (conj FY Logic.I) (VStruct u dd) FD); [|exact CY|exact (ScalarIn L y m d x u' fs' ms' ds' WY SF SD SM SS SX SDV)].
      exact (defaults_fresh bk b enums ss o ds L X true LR u dd D).
  Qed.


  (** Strings that come back, where [d] is the value in a new object. *)
  Definition faithful (d x : val) : Prop :=
    match x with
    | VStr s => if match b with Elements => blank (cut s) | Attributes => false end then d = VStr s else newlines (cut s) = s
    | _ => True
    end.
  Definition keeps_but_string (x : val) : Prop := match x with VStr _ => True | _ => keeps L b x end.
End Blank.
Lemma newlines_chars f : f nl = true -> forall s, all_chars f s = true -> all_chars f (newlines s) = true.
Proof.
  intros N. assert (G : forall n s, (String.length s <= n)%nat -> all_chars f s = true -> all_chars f (newlines s) = true); [|intros s; now apply (G (String.length s))].
  induction n as [|n IH]; intros [|c [|d r]] H A; try reflexivity; cbn [String.length] in H; try lia.
  - cbn [all_chars newlines] in *. destruct (c =? cr)%char; [now rewrite N|exact A].
  - change (newlines (String c (String d r))) with
        (if ((c =? cr) && (d =? nl) || (c =? nl) && (d =? cr))%char%bool then String nl (newlines r)
         else String (if (c =? cr)%char then nl else c) (newlines (String d r))).
    pose proof A as A'. cbn [all_chars] in A'. apply andb_true_iff in A' as [A1 A2]. pose proof A2 as A3. apply andb_true_iff in A3 as [_ A3].
    destruct (_ || _)%bool; cbn [all_chars]; [rewrite N; cbn; apply IH; [lia|exact A3]|].
    assert (all_chars f (newlines (String d r)) = true) as -> by (apply IH; [cbn [String.length]; lia|exact A2]). rewrite andb_true_r. now destruct (c =? cr)%char.
Qed.
Lemma newlines_no_cr : forall s, no_cr (newlines s) = true.
Proof.
  assert (G : forall n s, (String.length s <= n)%nat -> no_cr (newlines s) = true); [|intros s; now apply (G (String.length s))].
  unfold no_cr. induction n as [|n IH]; intros [|c [|d r]] H; try reflexivity; cbn [String.length] in H; try lia.
  - cbn [all_chars newlines]. destruct (c =? cr)%char eqn:E; [reflexivity|now rewrite E].
  - change (newlines (String c (String d r))) with
        (if ((c =? cr) && (d =? nl) || (c =? nl) && (d =? cr))%char%bool then String nl (newlines r)
         else String (if (c =? cr)%char then nl else c) (newlines (String d r))).
    destruct (_ || _)%bool; cbn [all_chars]; [apply IH; lia|]. rewrite (IH (String d r)) by (cbn [String.length]; lia). rewrite andb_true_r. destruct (c =? cr)%char eqn:E; [reflexivity|now rewrite E].
Qed.
Lemma newlines_cut s : newlines (cut s) = s <-> no_nul s = true /\ no_cr s = true.
Proof.
  split.
  - intros E. rewrite <- E. split; [|apply newlines_no_cr]. apply newlines_chars; [reflexivity|apply cut_no_nul].
  - intros [N C]. rewrite (cut_id s N). now apply newlines_id.
Qed.

Section Exact.
  Variables (bk : backend) (b : form) (enums : list enum_S) (ss : list struct_S) (o : output_spec) (ds : list def) (L : lang).
  Hypothesis X : xml_setting bk b enums ss o ds L.
  (** Written in full and read into a new object: everything is back exactly if every string is
      faithful. *)
  Theorem strings_restored u fs os nm : lits_fresh L true -> object L u fs -> (forall m d x, scalar_in L (VStruct u fs) m d x -> keeps_but_string b L x) ->
    object L u os -> fresh L true (VStruct u os) ->
    exists a k, write_val L b false (VStruct u fs) = Some (a, k) /\
      (read_struct L b (reload (Elem nm a k)) u os = Some fs <-> forall m d x, scalar_in L (VStruct u fs) m d x -> faithful b d x).
  Proof.
    intros LR F KB FO FR.
    assert (W : write_val L b false (VStruct u fs) <> None).
    { apply (proj2 (writable_iff bk b enums ss o ds L X false (VStruct u fs) (TStruct u) (conj F I))). intros m d x SI. pose proof (KB m d x SI) as K. split; [destruct x; cbn in K |- *; auto|discriminate]. }
    destruct (write_val L b false (VStruct u fs)) as [[a k]|] eqn:WV; [|congruence]. exists a, k. split; [reflexivity|].
    pose proof (carry_ok L b false _ _ (r_ok _ _ _ _ _ _ _ X) (x_long _ _ _ _ _ _ _ X) (x_lits _ _ _ _ _ _ _ X) (S (vheight (VStruct u fs))) u fs os nm a k (Nat.lt_succ_diag_r _) F FO WV) as E.
    split.
    - intros R. rewrite R in E. cbn [option_map] in E. intros m d x SI.
      destruct (carry_exact_new bk b enums ss o ds L X false LR (VStruct u fs) (TStruct u) (conj F I) (VStruct u os) FO FR (eq_sym E) m d x SI) as (old & OD & C).
      destruct (scalar_long bk b enums ss o ds L X m (TStruct u) (VStruct u fs) d x (conj F I) SI) as (ty & MT & F1 & F2).
      destruct x; try exact I. destruct SI as [? ? ? ? _ _ _ _ SC _ _]. destruct (string_member L m ty s SC MT F1) as (n & df & ->). cbn in MT. injection MT as <-.
      destruct (fits_std L d F2) as (sd & ->). rewrite (OD I) in C. unfold carry_scalar in C. cbn [left_out text_of read_scalar read_simple] in C. unfold shown, faithful in *.
      destruct b; [|destruct (blank (cut s))]; congruence.
    - intros H. assert (ST : storable_new L b false (VStruct u fs)).
      { intros m d x SI. split; [|discriminate]. pose proof (KB m d x SI) as K. pose proof (H m d x SI) as K2. destruct x; try (left; exact K). cbn [faithful] in K2.
        destruct b; [left; apply newlines_cut in K2 as [N C]; repeat split; auto; discriminate|].
        destruct (blank (cut s)) eqn:B; [right; split; [reflexivity|]; exists s; auto|]. left. apply newlines_cut in K2 as [N C]. rewrite (cut_id s N) in B. repeat split; auto. }
      destruct (write_read_new bk b enums ss o ds L X false u fs os nm LR F ST FO FR) as (a' & k' & gs & W' & R & A). rewrite WV in W'. injection W' as <- <-.
      apply alike_full in A. congruence.
  Qed.
End Exact.

Section Files.
  Variables (bk : backend) (b : form) (enums : list enum_S) (ss : list struct_S) (o : output_spec) (ds : list def) (L : lang).
  Hypothesis X : xml_setting bk b enums ss o ds L.
  Hypothesis OR : o_only_read o = false.
  Hypothesis L64 : b = Elements -> l_long L = 64%Z.
  Theorem round_new dl t fs os : let delta := (negb (o_no_delta o) && dl)%bool in lits_fresh L true -> top_of ss t -> object L t fs -> storable_new L b delta (VStruct t fs) ->
    object L t os -> fresh L true (VStruct t os) ->
    exists gs, writes_reads bk enums ss o L dl t fs os (Some gs) /\ alike L delta (VStruct t fs) (VStruct t gs).
  Proof.
    intros delta LR TO F ST FO FR. destruct (write_read_new bk b enums ss o ds L X _ t fs os t LR F ST FO FR) as (at_ & ks & gs & WV & RS & AL).
    exists gs. split; [|exact AL]. rewrite <- RS. now apply (written_then_read bk b enums ss o ds L X OR L64).
  Qed.
  Theorem strings_file dl t fs os : o_no_delta o = true \/ dl = false -> lits_fresh L true -> top_of ss t -> object L t fs ->
    (forall m d x, scalar_in L (VStruct t fs) m d x -> keeps_but_string b L x) -> object L t os -> fresh L true (VStruct t os) ->
    exists r, writes_reads bk enums ss o L dl t fs os r /\ (r = Some fs <-> forall m d x, scalar_in L (VStruct t fs) m d x -> faithful b d x).
  Proof.
    intros DL LR TO F KB FO FR. destruct (strings_restored bk b enums ss o ds L X t fs os t LR F KB FO FR) as (at_ & ks & WV & IFF).
    exists (read_struct L b (reload (Elem t at_ ks)) t os). split; [|exact IFF]. apply (written_then_read bk b enums ss o ds L X OR L64); auto. now rewrite (del_off o dl DL).
  Qed.
End Files.
