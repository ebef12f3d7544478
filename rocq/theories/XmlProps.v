(** What follows for the files of the xml back ends. *)
From Coq Require Import String Ascii ZArith NArith Arith List Bool Lia.
From Verif Require Import Base Map Items Grammar Fmt Decimal Templates Emit Cpp Xml Val CppSem SymLex Ast StoreDefs ResolveProps Prog Header Link EnumSem DecText EnumCall EnumRound XmlSpec XmlRdSimple XmlRead XmlReader XmlCall XmlWrite XmlWriter XmlFile XmlCarry XmlRound.
Import ListNotations.
Local Open Scope string_scope.
Local Open Scope list_scope.

(** *** Every member is read on its own *)
Lemma carry_members_keys L b delta dd csub ms : forall os gs, map fst os = map member_name ms -> carry_members L b delta dd csub ms os = Some gs -> map fst gs = map member_name ms.
Proof.
  induction ms as [|m ms IH]; intros [|[n old] os] gs K; try discriminate; cbn [carry_members]; [now intros [= <-]|].
  destruct (carry_member L b delta dd csub m old); [|discriminate]. destruct (carry_members L b delta dd csub ms os) eqn:R; [|discriminate]. intros [= <-].
  cbn in K |- *. injection K as -> K. now rewrite (IH _ _ K R).
Qed.
Lemma carry_members_assoc L b delta dd csub ms : NoDup (map member_name ms) -> forall os gs m, map fst os = map member_name ms -> carry_members L b delta dd csub ms os = Some gs -> In m ms ->
  exists old y, assoc (member_name m) os = Some old /\ carry_member L b delta dd csub m old = Some y /\ assoc (member_name m) gs = Some y.
Proof.
  induction ms as [|m0 ms IH]; intros ND [|[n old] os] gs m K; cbn [map fst carry_members In] in *; try discriminate; try tauto.
  apply NoDup_cons_iff in ND as [N ND]. injection K as -> K.
  destruct (carry_member L b delta dd csub m0 old) as [v|] eqn:R; [|discriminate]. destruct (carry_members L b delta dd csub ms os) as [gs1|] eqn:RM; [|discriminate].
  intros [= <-] [<-|I].
  - exists old, v. cbn. now rewrite String.eqb_refl.
  - destruct (IH ND _ _ m K RM I) as (o & v' & A1 & A2 & A3). exists o, v'. cbn [assoc].
    destruct (String.eqb_spec (member_name m) (member_name m0)) as [X|]; [|auto]. exfalso. apply N. rewrite <- X. now apply in_map.
Qed.

Section Props.
  Variables (bk : backend) (b : form) (enums : list enum_S) (ss : list struct_S) (o : output_spec) (ds : list def) (L : lang).
  Hypothesis X : xml_setting bk b enums ss o ds L.
  Variable delta : bool.

  (** A member of the object that was written, of a new object and of the one read into. *)
  Lemma scalar_back u fs os nm a k m x d old : fits L (VStruct u fs) (TStruct u) = true -> fits L (VStruct u os) (TStruct u) = true ->
    write_val L b delta (VStruct u fs) = Some (a, k) ->
    forall ms dd, find_struct (l_defs L) u = Some ms -> default_fields L u = Some dd -> In m ms -> is_scalar L m = true ->
    assoc (member_name m) fs = Some x -> assoc (member_name m) dd = Some d -> assoc (member_name m) os = Some old ->
    match read_struct L b (reload (Elem nm a k)) u os with
    | Some gs => exists y, carry_scalar L b delta m d x old = Some y /\ assoc (member_name m) gs = Some y
    | None => True
    end /\ (carry_scalar L b delta m d x old = None -> read_struct L b (reload (Elem nm a k)) u os = None).
  Proof.
    intros F FO W ms dd FS D I S AX AD AO.
    pose proof (carry_ok L b delta _ _ (r_ok _ _ _ _ _ _ _ X) (x_long _ _ _ _ _ _ _ X) (x_lits _ _ _ _ _ _ _ X) (Datatypes.S (vheight (VStruct u fs))) u fs os nm a k (Nat.lt_succ_diag_r _) F FO W) as E.
    cbn [carry] in E. rewrite FS, D in E. destruct (parts bk b enums ss o ds L X u os FO) as (ms' & d' & FS' & _ & ND & K & _). assert (ms' = ms) by congruence. subst ms'.
    assert (G : forall gs, read_struct L b (reload (Elem nm a k)) u os = Some gs -> exists y, carry_scalar L b delta m d x old = Some y /\ assoc (member_name m) gs = Some y).
    { intros gs R. rewrite R in E. destruct (carry_members L b delta dd _ ms os) as [gs'|] eqn:C; [|discriminate]. injection E as <-.
      destruct (carry_members_assoc L b delta dd _ ms ND os gs m K C I) as (old' & y & B1 & B2 & B3). assert (old' = old) by congruence. subst old'.
      unfold carry_member in B2. rewrite (assoc_map (fun v => (v, carry L b delta v))), AX in B2. cbn [option_map] in B2. rewrite S, AD in B2. eauto. }
    destruct (read_struct L b (reload (Elem nm a k)) u os) as [gs|]; split; auto.
    intros C. destruct (G gs eq_refl) as (y & C' & _). congruence.
  Qed.

  Lemma none_members dd csub ms : forall os, map fst os = map member_name ms -> (exists m, In m ms /\ forall old, assoc (member_name m) os = Some old -> carry_member L b delta dd csub m old = None) ->
    NoDup (map member_name ms) -> carry_members L b delta dd csub ms os = None.
  Proof.
    intros os K (m & I & N) ND. destruct (carry_members L b delta dd csub ms os) as [gs|] eqn:C; [|reflexivity].
    destruct (carry_members_assoc L b delta dd csub ms ND os gs m K C I) as (old & y & A1 & A2 & _). rewrite (N old A1) in A2. discriminate.
  Qed.

  (** If some scalar anywhere cannot be read, nothing is. *)
  Theorem carry_none v t : obj_type L v t -> forall m d x, scalar_in L v m d x -> (forall old, carry_scalar L b delta m d x old = None) ->
    forall old, fits L old t = true -> carry L b delta v old = None.
  Proof.
    intros OT. enough (G : forall t m d x, obj_type L v t -> scalar_in L v m d x -> (forall old, carry_scalar L b delta m d x old = None) -> forall old, fits L old t = true -> carry L b delta v old = None)
      by (intros m d x SI H old FO; eapply G; eauto). revert v t OT.
    apply (obj_ind bk b enums ss o ds L X (fun v => forall t m d x, obj_type L v t -> scalar_in L v m d x -> (forall old, carry_scalar L b delta m d x old = None) -> forall old, fits L old t = true -> carry L b delta v old = None)).
    - intros u fs ms dd F FS D IH t m d x [FT _] [u' fs' ms' ds' W SF SD SM SS SX SDV] H old FO. pose proof (fits_ty L _ _ FT) as E. cbn in E. subst t.
      destruct (fits_as_struct L old u FO) as (os & E). subst old. destruct (parts bk b enums ss o ds L X u os FO) as (ms2 & d2 & FS2 & D2 & ND & K2 & M2).
      destruct (parts bk b enums ss o ds L X u fs F) as (ms3 & d3 & FS3 & D3 & _ & K & M).
      assert (ms2 = ms) by congruence. assert (d2 = dd) by congruence. assert (ms3 = ms) by congruence. assert (d3 = dd) by congruence. subst ms2 d2 ms3 d3.
      cbn [carry]. rewrite FS, D. rewrite none_members; [reflexivity|exact K2| |exact ND]. inversion W as [|? ? n y IY WY|].
      + subst u' fs'. assert (ms' = ms) by congruence. assert (ds' = dd) by congruence. subst ms' ds'. exists m. split; [exact SM|]. intros old A.
        unfold carry_member. rewrite (assoc_map (fun v => (v, carry L b delta v))), SX. cbn [option_map]. rewrite SS, SDV. apply H.
      + subst. assert (exists m', In m' ms /\ member_name m' = n) as (m' & I' & N').
        { apply (in_map fst) in IY. rewrite K in IY. apply in_map_iff in IY as (m' & E & I'). eauto. }
        assert (A : assoc n fs = Some y) by (apply Header.assoc_in; [rewrite K; exact ND|exact IY]). rewrite <- N' in A.
        destruct (M m' I') as (ty & v & dv & MT & A1 & A2 & F1 & _). assert (v = y) by congruence. subst v.
        destruct (is_scalar L m') eqn:S.
        { exfalso. destruct (scalar_type L m' ty S MT) as [[k ->]|[[k ->]|[->|(? & ? & ? & -> & ?)]]]; pose proof (fits_ty L _ _ F1) as T;
          inversion WY; subst; discriminate T. }
        exists m'. split; [exact I'|]. intros old A'. unfold carry_member. rewrite (assoc_map (fun v => (v, carry L b delta v))), A. cbn [option_map]. rewrite S.
        destruct (M2 m' I') as (ty' & old' & dv' & MT' & B1 & _ & F1' & _). assert (ty' = ty) by congruence. assert (old' = old) by congruence. subst ty' old'.
        eapply (IH m' y I' S A ty m d x); [eapply member_obj; eauto|exact (ScalarIn L y m d x u' fs' ms' ds' WY SF SD SM SS SX SDV)|exact H|exact F1'].
    - intros u l IH t m d x [FT _] [u' fs' ms' ds' W SF SD SM SS SX SDV] H old FO. pose proof (fits_ty L _ _ FT) as E. cbn in E. subst t.
      destruct (fits_as_vec L old u FO) as (l0 & E & _). subst old. cbn [carry]. inversion W as [| |? ? y IY WY]. subst.
      assert (N : carry_items L u (map (carry L b delta) l) = None); [|now rewrite N].
      assert (CY : forall dd, default_fields L u = Some dd -> fits L (VStruct u dd) (TStruct u) = true -> carry L b delta y (VStruct u dd) = None).
      { intros dd D FD. apply (proj2 (IH y IY) (TStruct u) m d x); [split; [now apply IH|exact Logic.I]|exact (ScalarIn L y m d x u' fs' ms' ds' WY SF SD SM SS SX SDV)|exact H|exact FD]. }
      assert (DF : exists dd, default_fields L u = Some dd /\ fits L (VStruct u dd) (TStruct u) = true).
      { destruct (IH y IY) as (FY & _). destruct (fits_as_struct L y u FY) as (fy & ->). destruct (fits_struct L u fy FY) as (my & FS & _). exact (r_defaults _ _ _ _ _ _ _ X u my FS). }
      destruct DF as (dd & D & FD). specialize (CY dd D FD). clear - IY CY D. induction l as [|w l IHl]; [destruct IY|]. cbn [map carry_items]. rewrite D.
      destruct IY as [->|IY]; [now rewrite CY|]. rewrite (IHl IY). now destruct (carry L b delta w (VStruct u dd)).
  Qed.

  (** If everything came back, every scalar did. *)
  Theorem carry_exact (LR : lits_fresh L delta) v t : obj_type L v t -> forall old, fits L old t = true -> (forall u l, within (VVec u l) old -> l = []) -> carry L b delta v old = Some v ->
    forall m d x, scalar_in L v m d x -> exists old', carry_scalar L b delta m d x old' = Some x.
  Proof.
    intros OT. enough (G : forall t, obj_type L v t -> forall old, fits L old t = true -> (forall u l, within (VVec u l) old -> l = []) -> carry L b delta v old = Some v ->
      forall m d x, scalar_in L v m d x -> exists old', carry_scalar L b delta m d x old' = Some x) by (eapply G; eauto). revert v t OT.
    apply (obj_ind bk b enums ss o ds L X (fun v => forall t, obj_type L v t -> forall old, fits L old t = true -> (forall u l, within (VVec u l) old -> l = []) -> carry L b delta v old = Some v ->
      forall m d x, scalar_in L v m d x -> exists old', carry_scalar L b delta m d x old' = Some x)).
    - intros u fs ms dd F FS D IH t [FT _] old FO EV CA m d x [u' fs' ms' ds' W SF SD SM SS SX SDV]. pose proof (fits_ty L _ _ FT) as E. cbn in E. subst t.
      destruct (fits_as_struct L old u FO) as (os & E). subst old. destruct (parts bk b enums ss o ds L X u os FO) as (ms2 & d2 & FS2 & D2 & ND & K2 & M2).
      destruct (parts bk b enums ss o ds L X u fs F) as (ms3 & d3 & FS3 & D3 & _ & K & M).
      assert (ms2 = ms) by congruence. assert (d2 = dd) by congruence. assert (ms3 = ms) by congruence. assert (d3 = dd) by congruence. subst ms2 d2 ms3 d3.
      cbn [carry] in CA. rewrite FS, D in CA. destruct (carry_members L b delta dd _ ms os) as [gs|] eqn:C; [|discriminate]. injection CA as ->.
      inversion W as [|? ? n y IY WY|].
      + subst u' fs'. assert (ms' = ms) by congruence. assert (ds' = dd) by congruence. subst ms' ds'.
        destruct (carry_members_assoc L b delta dd _ ms ND os fs m K2 C SM) as (old & y & A1 & A2 & A3). assert (y = x) by congruence. subst y. exists old.
        unfold carry_member in A2. rewrite (assoc_map (fun v => (v, carry L b delta v))), SX in A2. cbn [option_map] in A2. now rewrite SS, SDV in A2.
      + subst. assert (exists m', In m' ms /\ member_name m' = n) as (m' & I' & N').
        { apply (in_map fst) in IY. rewrite K in IY. apply in_map_iff in IY as (m' & E & I'). eauto. }
        assert (A : assoc n fs = Some y) by (apply Header.assoc_in; [rewrite K; exact ND|exact IY]). rewrite <- N' in A.
        destruct (M m' I') as (ty & v & dv & MT & A1 & A2 & F1 & _). assert (v = y) by congruence. subst v.
        destruct (is_scalar L m') eqn:S.
        { exfalso. destruct (scalar_type L m' ty S MT) as [[k ->]|[[k ->]|[->|(? & ? & ? & -> & ?)]]]; pose proof (fits_ty L _ _ F1) as T;
          inversion WY; subst; discriminate T. }
        destruct (carry_members_assoc L b delta dd _ ms ND os fs m' K2 C I') as (old & y' & B1 & B2 & B3). assert (y' = y) by congruence. subst y'.
        unfold carry_member in B2. rewrite (assoc_map (fun v => (v, carry L b delta v))), A in B2. cbn [option_map] in B2. rewrite S in B2.
        destruct (M2 m' I') as (ty' & old' & dv' & MT' & B1' & _ & F1' & _). assert (ty' = ty) by congruence. assert (old' = old) by congruence. subst ty' old'.
        apply (IH m' y I' S A ty (member_obj L m' ty y S MT F1) old F1'); [|exact B2|exact (ScalarIn L y m d x u' fs' ms' ds' WY SF SD SM SS SX SDV)].
        intros u0 l0 W0. apply (EV u0 l0). eapply w_field; [apply assoc_some; exact B1|exact W0].
    - intros u l IH t [FT _] old FO EV CA m d x [u' fs' ms' ds' W SF SD SM SS SX SDV]. pose proof (fits_ty L _ _ FT) as E. cbn in E. subst t.
      destruct (fits_as_vec L old u FO) as (l0 & E & _). subst old. rewrite (EV u l0 (w_here _)) in CA. cbn [carry] in CA. inversion W as [| |? ? y IY WY]. subst.
      destruct (carry_items L u (map (carry L b delta) l)) as [l'|] eqn:C; [|discriminate]. cbn in CA. injection CA as ->.
      assert (DF : exists dd, default_fields L u = Some dd /\ fits L (VStruct u dd) (TStruct u) = true).
      { destruct (IH y IY) as (FY & _). destruct (fits_as_struct L y u FY) as (fy & ->). destruct (fits_struct L u fy FY) as (my & FS & _). exact (r_defaults _ _ _ _ _ _ _ X u my FS). }
      destruct DF as (dd & D & FD).
      assert (CY : carry L b delta y (VStruct u dd) = Some y).
      { clear - IY C D. assert (G : forall k r, carry_items L u (map (carry L b delta) k) = Some r -> Forall2 (fun w w' => carry L b delta w (VStruct u dd) = Some w') k r).
        { induction k as [|w k IHk]; intros r; cbn [map carry_items]; [intros [= <-]; constructor|]. rewrite D. destruct (carry L b delta w (VStruct u dd)) as [w'|] eqn:CW; [|discriminate].
          destruct (carry_items L u (map (carry L b delta) k)) as [r'|]; [|discriminate]. intros [= <-]. constructor; auto. }
        specialize (G l l C). clear C. assert (H : forall k r, Forall2 (fun w w' => carry L b delta w (VStruct u dd) = Some w') k r -> k = r -> In y k -> carry L b delta y (VStruct u dd) = Some y).
        { intros k r FA. induction FA as [|w w' k r E FA IHF]; [intros _ []|]. intros [= <- E'] [->|I]; [exact E|]. now apply IHF. }
        exact (H l l G eq_refl IY). }
      destruct (IH y IY) as (FY & IY'). apply (IY' (TStruct u) (conj FY Logic.I) (VStruct u dd) FD); [|exact CY|exact (ScalarIn L y m d x u' fs' ms' ds' WY SF SD SM SS SX SDV)].
      exact (proj1 (defaults_fresh bk b enums ss o ds L X delta LR u dd D)).
  Qed.

  (** *** Files contain what differs from the default values *)
  Lemma found_written dd sub ms : NoDup (map member_name ms) -> forall a k m, write_members L b delta dd sub ms = Some (a, k) -> In m ms ->
    exists am km, write_member L b delta dd sub m = Some (am, km) /\ attr (member_name m) a = attr (member_name m) am /\
      first_named (member_name m) (map (fun x => (x, tt)) k) = first_named (member_name m) (map (fun x => (x, tt)) km).
  Proof.
    induction ms as [|m0 ms IH]; cbn [map]; intros ND a k m; [contradiction|]. apply NoDup_cons_iff in ND as [N ND]. cbn [write_members].
    destruct (write_member L b delta dd sub m0) as [[a0 k0]|] eqn:W; [|discriminate]. destruct (write_members L b delta dd sub ms) as [[ar kr]|] eqn:WS; [|discriminate].
    intros [= <- <-] I. destruct (write_member_names _ _ _ _ _ _ _ _ W) as (N1 & N2). destruct (write_members_in _ _ _ _ _ _ _ _ WS) as (I1 & I2). destruct I as [->|I].
    - exists a0, k0. split; [exact W|]. split.
      + rewrite attr_app. rewrite (attr_none _ ar) by auto. now destruct (attr (member_name m) a0).
      + rewrite !map_app, first_named_app. rewrite (first_named_none (member_name m) (fun _ => tt) kr).
        * now destruct (first_named _ _).
        * intros x J. destruct (I2 x J) as (n & E & I). exists n. split; [exact E|congruence].
    - destruct (IH ND ar kr m eq_refl I) as (am & km & W' & A1 & A2). exists am, km. split; [exact W'|].
      assert (NE : member_name m <> member_name m0) by (intros E; apply N; rewrite <- E; now apply in_map). split.
      + rewrite attr_app, attr_none; [exact A1|]. intros J. apply N1 in J. congruence.
      + rewrite !map_app, first_named_app, (first_named_none (member_name m) (fun _ => tt) k0); [apply A2|].
        intros x J. exists (member_name m0). split; [now apply N2|congruence].
  Qed.
  Theorem written_exactly u fs a k ms dd : fits L (VStruct u fs) (TStruct u) = true -> write_val L b delta (VStruct u fs) = Some (a, k) ->
    find_struct (l_defs L) u = Some ms -> default_fields L u = Some dd ->
    (forall n, In n (map fst a) -> In n (map member_name ms)) /\ (forall y, In y k -> exists n, elem_named n y /\ In n (map member_name ms)) /\
    forall m x d, In m ms -> assoc (member_name m) fs = Some x -> assoc (member_name m) dd = Some d ->
      if is_scalar L m
      then find_item b (member_name m) a (map (fun y => (y, tt)) k) =
           (if (delta && match scalar_eq L x d with Some e => e | None => false end)%bool then Absent else Present (text_of L b x))
      else exists a' k', write_val L b delta x = Some (a', k') /\ first_named (member_name m) (map (fun y => (y, tt)) k) = Some (Elem (member_name m) a' k', tt).
  Proof.
    intros F W FS D. cbn [write_val] in W. rewrite FS, D in W. pose proof (r_distinct _ _ _ _ _ _ _ X u ms FS) as ND.
    destruct (write_members_in _ _ _ _ _ _ _ _ W) as (I1 & I2). split.
    { intros n I. apply I1 in I. apply in_map_iff in I as (m & <- & I). apply in_map. now apply (proj1 (in_order_in m ms)). }
    split.
    { intros y I. destruct (I2 y I) as (n & E & J). exists n. split; [exact E|]. apply in_map_iff in J as (m & <- & J). apply in_map. now apply (proj1 (in_order_in m ms)). }
    intros m x d I AX AD. destruct (found_written dd _ _ (in_order_names ms ND) a k m W (proj2 (in_order_in m ms) I)) as (am & km & WM & AE & KE).
    unfold write_member in WM. rewrite (assoc_map (fun v => (v, write_val L b delta v))), AX in WM. cbn [option_map] in WM. destruct (is_scalar L m).
    - rewrite AD in WM. unfold write_scalar, left_out in WM. unfold find_item. rewrite AE, KE. destruct delta; cbn [andb].
      + destruct (scalar_eq L x d) as [[|]|]; [|destruct (text_of L b x)|]; try discriminate.
        * injection WM as <- <-. now destruct b.
        * destruct b; injection WM as <- <-; cbn; now rewrite String.eqb_refl.
      + destruct (text_of L b x); [|discriminate]. destruct b; injection WM as <- <-; cbn; now rewrite String.eqb_refl.
    - destruct (write_val L b delta x) as [[a' k']|]; [|discriminate]. injection WM as <- <-. exists a', k'. split; [reflexivity|]. rewrite KE. cbn. now rewrite String.eqb_refl.
  Qed.
End Props.

(** *** long and unsigned long *)
Lemma dec_shown b z : shown b (zdec z) = Present (Some (zdec z)).
Proof. unfold shown. rewrite (newlines_id _ (dec_no_cr z)), blank_zdec. now destruct b. Qed.
Section Longs.
  Variable L : lang.
  Hypothesis LB : (32 <= l_long L)%Z.
  Lemma long_of_int z : in_int z = true -> to_kind L KLong z = z.
  Proof.
    intros H. cbn [to_kind bits signed]. apply wrap_signed; [lia|]. assert (P : (2 ^ 31 <= 2 ^ (l_long L - 1))%Z) by (apply Z.pow_le_mono_r; lia). unfold in_int in H. lia.
  Qed.
  Lemma ulong_of_uint z : in_uint z = true -> to_kind L KULong z = z.
  Proof.
    intros H. cbn [to_kind bits signed]. apply wrap_small. assert (P : (2 ^ 32 <= 2 ^ l_long L)%Z) by (apply Z.pow_le_mono_r; lia). unfold in_uint in H. lia.
  Qed.
  Lemma carry_long_a delta n df d z old : left_out L delta d (VNum KLong z) = Some false ->
    carry_scalar L Attributes delta (MSimple long_E n df) d (VNum KLong z) old = Some (VNum KLong (wrap 32 true z)).
  Proof.
    intros LO. unfold carry_scalar. rewrite LO. cbn [text_of read_scalar read_simple]. rewrite dec_shown. cbn [to_kind bits signed read_converted].
    rewrite (to_int_zdec _ (wrap_in_int z)). f_equal. f_equal. exact (long_of_int _ (wrap_in_int z)).
  Qed.
  Lemma carry_long_e delta n df d z old : left_out L delta d (VNum KLong z) = Some false ->
    carry_scalar L Elements delta (MSimple long_E n df) d (VNum KLong z) old = if in_int z then Some (VNum KLong z) else None.
  Proof.
    intros LO. unfold carry_scalar. rewrite LO. cbn [text_of read_scalar read_simple]. rewrite dec_shown. cbn [read_converted].
    destruct (in_int z) eqn:E.
    - rewrite (to_int_zdec _ E). f_equal. f_equal. exact (long_of_int z E).
    - unfold to_int. now rewrite hex_prefix_zdec, scan_dec_zdec, E.
  Qed.
  Lemma carry_ulong b delta n df d z old : left_out L delta d (VNum KULong z) = Some false ->
    carry_scalar L b delta (MSimple unsigned_long_E n df) d (VNum KULong z) old = Some (VNum KULong (wrap 32 false z)).
  Proof.
    intros LO. unfold carry_scalar. rewrite LO. cbn [text_of read_scalar read_simple]. 
    assert (T : zdec (match b with Attributes => to_kind L KUInt z | Elements => to_kind L KUInt z end) = zdec (wrap 32 false z)) by (destruct b; reflexivity).
    rewrite T, dec_shown. cbn [read_converted]. rewrite (to_unsigned_zdec _ (wrap_in_uint z)). f_equal. f_equal. exact (ulong_of_uint _ (wrap_in_uint z)).
  Qed.
  Definition fits32 (x : val) : Prop :=
    match x with VNum KLong z => in_int z = true | VNum KULong z => in_uint z = true | _ => True end.
  Definition keeps_but_long (b : form) (x : val) : Prop :=
    match x with VNum KLong _ | VNum KULong _ => True | _ => keeps L b x end.
End Longs.

Section More.
  Variables (bk : backend) (b : form) (enums : list enum_S) (ss : list struct_S) (o : output_spec) (ds : list def) (L : lang).
  Hypothesis X : xml_setting bk b enums ss o ds L.
  Hypothesis LB : (32 <= l_long L)%Z.
  Lemma scalar_long m t v d x : obj_type L v t -> scalar_in L v m d x ->
    exists ty, member_type L m = Some ty /\ fits L x ty = true /\ fits L d ty = true.
  Proof.
    intros OT. enough (G : forall t, obj_type L v t -> scalar_in L v m d x -> exists ty, member_type L m = Some ty /\ fits L x ty = true /\ fits L d ty = true) by (eapply G; eauto). revert v t OT.
    apply (obj_ind bk b enums ss o ds L X (fun v => forall t, obj_type L v t -> scalar_in L v m d x -> exists ty, member_type L m = Some ty /\ fits L x ty = true /\ fits L d ty = true)).
    - intros u fs ms dd F FS D IH t _ [u' fs' ms' ds' W SF SD SM SS SX SDV]. destruct (parts bk b enums ss o ds L X u fs F) as (ms3 & d3 & FS3 & D3 & ND & K & M).
      assert (ms3 = ms) by congruence. assert (d3 = dd) by congruence. subst ms3 d3. inversion W as [|? ? n y IY WY|].
      + subst u' fs'. assert (ms' = ms) by congruence. assert (ds' = dd) by congruence. subst ms' ds'. destruct (M m SM) as (ty & v & dv & MT & A1 & A2 & F1 & F2).
        assert (v = x) by congruence. assert (dv = d) by congruence. subst v dv. eauto.
      + subst. assert (exists m', In m' ms /\ member_name m' = n) as (m' & I' & N').
        { apply (in_map fst) in IY. rewrite K in IY. apply in_map_iff in IY as (m' & E & I'). eauto. }
        assert (A : assoc n fs = Some y) by (apply Header.assoc_in; [rewrite K; exact ND|exact IY]). rewrite <- N' in A.
        destruct (M m' I') as (ty & v & dv & MT & A1 & A2 & F1 & _). assert (v = y) by congruence. subst v.
        destruct (is_scalar L m') eqn:S.
        { exfalso. destruct (scalar_type L m' ty S MT) as [[k ->]|[[k ->]|[->|(? & ? & ? & -> & ?)]]]; pose proof (fits_ty L _ _ F1) as T;
          inversion WY; subst; discriminate T. }
        apply (IH m' y I' S A ty (member_obj L m' ty y S MT F1)). exact (ScalarIn L y m d x u' fs' ms' ds' WY SF SD SM SS SX SDV).
    - intros u l IH t _ [u' fs' ms' ds' W SF SD SM SS SX SDV]. inversion W as [| |? ? y IY WY]. subst. destruct (IH y IY) as (FY & IY').
      apply (IY' (TStruct u) (conj FY Logic.I)). exact (ScalarIn L y m d x u' fs' ms' ds' WY SF SD SM SS SX SDV).
  Qed.
  Lemma long_member m k : is_scalar L m = true -> member_type L m = Some (TNum k) ->
    match k with KLong => exists n df, m = MSimple long_E n df | KULong => exists n df, m = MSimple unsigned_long_E n df | _ => True end.
  Proof.
    destruct m as [st n df|t n df|t n]; cbn; [|intros S; unfold user_type|discriminate].
    - intros _ [= E]. destruct st; cbn in E; try discriminate; injection E as <-; eauto.
    - destruct (find_struct (l_defs L) t); [discriminate|]. destruct (find_enum (l_defs L) t); discriminate.
  Qed.

  (** Written in full and read into a fresh object: everything is back exactly if all long
      and unsigned long members, at any depth, fit in 32 bits. *)
  Theorem longs_restored u fs os nm : lits_fresh L false -> fits L (VStruct u fs) (TStruct u) = true ->
    (forall m d x, scalar_in L (VStruct u fs) m d x -> keeps_but_long L b x) -> fits L (VStruct u os) (TStruct u) = true -> fresh L false (VStruct u os) ->
    exists a k, write_val L b false (VStruct u fs) = Some (a, k) /\
      (read_struct L b (reload (Elem nm a k)) u os = Some fs <-> forall m d x, scalar_in L (VStruct u fs) m d x -> fits32 x).
  Proof.
    intros LR F KB FO FR.
    assert (W : write_val L b false (VStruct u fs) <> None).
    { apply (proj2 (writable_iff bk b enums ss o ds L X false (VStruct u fs) (TStruct u) (conj F I))). intros m d x SI. pose proof (KB m d x SI) as K. split; [destruct x; cbn in K |- *; auto|discriminate]. }
    destruct (write_val L b false (VStruct u fs)) as [[a k]|] eqn:WV; [|congruence]. exists a, k. split; [reflexivity|].
    pose proof (carry_ok L b false _ _ (r_ok _ _ _ _ _ _ _ X) (x_long _ _ _ _ _ _ _ X) (x_lits _ _ _ _ _ _ _ X) (S (vheight (VStruct u fs))) u fs os nm a k (Nat.lt_succ_diag_r _) F FO WV) as E.
    split.
    - intros R. rewrite R in E. cbn [option_map] in E. intros m d x SI.
      destruct (carry_exact bk b enums ss o ds L X false LR (VStruct u fs) (TStruct u) (conj F I) (VStruct u os) FO (proj1 FR) (eq_sym E) m d x SI) as (old & C).
      destruct (scalar_long m (TStruct u) (VStruct u fs) d x (conj F I) SI) as (ty & MT & F1 & _).
      destruct x as [|kd z| | | | | | | | | | | | | | | | | | | |]; try exact I; destruct kd; try exact I; cbn [fits32].
      all: pose proof (fits_ty L _ _ F1) as T; cbn in T; subst ty; destruct SI as [? ? ? ? _ _ _ _ S _ _]; pose proof (long_member m _ S MT) as (n & df & ->).
      + destruct b.
        * rewrite (carry_long_a L LB false n df d z old eq_refl) in C. injection C as C. now apply in_int_wrap.
        * rewrite (carry_long_e L LB false n df d z old eq_refl) in C. destruct (in_int z); [reflexivity|discriminate].
      + rewrite (carry_ulong L LB b false n df d z old eq_refl) in C. injection C as C. now apply in_uint_wrap.
    - intros H. assert (ST : storable L b false (VStruct u fs)).
      { intros m d x SI. split; [|discriminate]. pose proof (KB m d x SI) as K. pose proof (H m d x SI) as K2. destruct x as [|kd z| | | | | | | | | | | | | | | | | | | |]; try exact K; destruct kd; first [exact K2|exact K]. }
      destruct (write_read bk b enums ss o ds L X false u fs os nm LR F ST FO FR) as (a' & k' & gs & W' & R & A). rewrite WV in W'. injection W' as <- <-.
      apply alike_full in A. congruence.
  Qed.
  (** As elements, a long that does not fit makes the reader's behaviour undefined. *)
  Theorem long_overflows u fs os nm a k m d z : b = Elements -> fits L (VStruct u fs) (TStruct u) = true -> fits L (VStruct u os) (TStruct u) = true ->
    scalar_in L (VStruct u fs) m d (VNum KLong z) -> in_int z = false -> write_val L b false (VStruct u fs) = Some (a, k) ->
    read_struct L b (reload (Elem nm a k)) u os = None.
  Proof.
    intros B F FO SI N WV.
    pose proof (carry_ok L b false _ _ (r_ok _ _ _ _ _ _ _ X) (x_long _ _ _ _ _ _ _ X) (x_lits _ _ _ _ _ _ _ X) (S (vheight (VStruct u fs))) u fs os nm a k (Nat.lt_succ_diag_r _) F FO WV) as E.
    rewrite (carry_none bk b enums ss o ds L X false (VStruct u fs) (TStruct u) (conj F I) m d (VNum KLong z) SI) in E; [|intros old|exact FO].
    - destruct (read_struct L b (reload (Elem nm a k)) u os); [discriminate|reflexivity].
    - destruct (scalar_long m (TStruct u) (VStruct u fs) d _ (conj F I) SI) as (ty & MT & F1 & _). pose proof (fits_ty L _ _ F1) as T; cbn in T; subst ty.
      destruct SI as [? ? ? ? _ _ _ _ S _ _]. pose proof (long_member m _ S MT) as (n & df & ->). rewrite B. rewrite (carry_long_e L LB false n df d z old eq_refl). now rewrite N.
  Qed.
  (** As attributes, a short or long member that is left out makes the reader's behaviour undefined. *)
  Theorem left_out_overwritten u fs os nm a k m d x : b = Attributes -> fits L (VStruct u fs) (TStruct u) = true -> fits L (VStruct u os) (TStruct u) = true ->
    scalar_in L (VStruct u fs) m d x -> converted m = true -> scalar_eq L x d = Some true -> write_val L b true (VStruct u fs) = Some (a, k) ->
    read_struct L b (reload (Elem nm a k)) u os = None.
  Proof.
    intros B F FO SI CV EQ WV.
    pose proof (carry_ok L b true _ _ (r_ok _ _ _ _ _ _ _ X) (x_long _ _ _ _ _ _ _ X) (x_lits _ _ _ _ _ _ _ X) (S (vheight (VStruct u fs))) u fs os nm a k (Nat.lt_succ_diag_r _) F FO WV) as E.
    rewrite (carry_none bk b enums ss o ds L X true (VStruct u fs) (TStruct u) (conj F I) m d x SI) in E; [|intros old|exact FO].
    - destruct (read_struct L b (reload (Elem nm a k)) u os); [discriminate|reflexivity].
    - unfold carry_scalar, left_out. rewrite EQ. destruct m as [st n df|t n df|t n]; try discriminate. cbn [read_scalar]. rewrite B. destruct st; try discriminate; reflexivity.
  Qed.
  (** Strings come back up to the first NUL, with line ends of the xml standard; as elements
      blank strings do not come back. *)
  Theorem string_back u fs os nm a k gs ms n df s old : fits L (VStruct u fs) (TStruct u) = true -> fits L (VStruct u os) (TStruct u) = true ->
    find_struct (l_defs L) u = Some ms -> In (MSimple std_string_E n df) ms -> assoc n fs = Some (VStr s) -> assoc n os = Some old ->
    write_val L b false (VStruct u fs) = Some (a, k) -> read_struct L b (reload (Elem nm a k)) u os = Some gs ->
    assoc n gs = Some (match b with Elements => if blank (cut s) then old else VStr (newlines (cut s)) | Attributes => VStr (newlines (cut s)) end).
  Proof.
    intros F FO FS IM AX AO W R. destruct (parts bk b enums ss o ds L X u fs F) as (ms' & d & FS' & D & _ & _ & M). assert (ms' = ms) by congruence. subst ms'.
    destruct (M _ IM) as (ty & v & dv & _ & _ & AD & _). cbn [member_name] in AD.
    destruct (scalar_back bk b enums ss o ds L X false u fs os nm a k (MSimple std_string_E n df) (VStr s) dv old F FO W ms d FS D IM eq_refl AX AD AO) as [H _].
    rewrite R in H. destruct H as (y & C & A). cbn [member_name] in A. rewrite A. f_equal. unfold carry_scalar in C. cbn [left_out text_of read_scalar read_simple shown] in C. injection C as <-.
    unfold shown. destruct b; [reflexivity|]. now destruct (blank (cut s)).
  Qed.
End More.

(** *** Files *)
Section Files.
  Variables (bk : backend) (b : form) (enums : list enum_S) (ss : list struct_S) (o : output_spec) (ds : list def) (L : lang).
  Hypothesis X : xml_setting bk b enums ss o ds L.
  Hypothesis OR : o_only_read o = false.
  Hypothesis L64 : b = Elements -> l_long L = 64%Z.
  Variables (sr : struct_S) (t : string).
  Hypothesis TOP : In sr (tops ss).
  Hypothesis SN : s_name sr = t.

  Lemma reload_root nm a k : root (kids_of (reload (Elem "" [] [Elem nm a k]))) = Some (reload (Elem nm a k)).
  Proof. reflexivity. Qed.

  (** write_to_file, then read_from_file. *)
  Theorem files_round dl fs os : lits_fresh L (negb (o_no_delta o) && dl) -> fits L (VStruct t fs) (TStruct t) = true ->
    storable L b (negb (o_no_delta o) && dl) (VStruct t fs) -> fits L (VStruct t os) (TStruct t) = true -> fresh L (negb (o_no_delta o) && dl) (VStruct t os) ->
    exists f0 gs, alike L (negb (o_no_delta o) && dl) (VStruct t fs) (VStruct t gs) /\
    forall f wf wf' a n l s a' n' l' s', f0 <= f ->
      file_arg a n s -> get_lv l s = Some (VStruct t fs) -> s_this s = [("m_delta_only", vbool dl)] -> l_writable L (cut n) = true ->
      exists w, call_fun L (prog bk enums ss o) wf f [o_writer o; "write_to_file"] [a; (Some l, VStruct t fs)] s = Ok (vbool true) (set_world s w) /\
      (file_arg a' n' s' -> get_lv l' s' = Some (VStruct t os) -> reader_or_writer (s_this s') -> s_world s' = w -> cut n' = cut n ->
       call_fun L (prog bk enums ss o) wf' f [o_reader o; "read_from_file"] [a'; (Some l', VStruct t os)] s' =
       match put_lv l' (VStruct t gs) s' with Some s2 => Ok (vbool true) s2 | None => Bad end).
  Proof.
    intros LR F ST FO FR. destruct (write_read bk b enums ss o ds L X _ t fs os t LR F ST FO FR) as (at_ & ks & gs & WV & RS & AL).
    destruct (fits_struct L t fs F) as (ms & MS & _).
    exists (S (S (vheight (VStruct t fs) + height (reload (Elem t at_ ks))))), gs. split; [exact AL|].
    intros f wf wf' a n l s a' n' l' s' LE FA GL TH WR. destruct f as [|f]; [lia|].
    pose proof (write_file_ok bk b enums ss o ds L X wf t sr TOP SN ms MS OR L64 dl f a n l fs s FA GL TH F ltac:(lia)) as W.
    unfold write_file_result in W. rewrite WV in W. unfold save in W. rewrite WR in W. eexists. split; [exact W|].
    intros FA' GL' TH' WO CN.
    assert (LD : load L (s_world s') (cut n') = Some (kids_of (reload (Elem "" [] [Elem t at_ ks])))).
    { unfold load. rewrite WO, CN. cbn [w_files]. now rewrite assoc_set_same. }
    pose proof (read_file_ok bk b enums ss o ds L X wf' t sr TOP SN ms MS f a' n' l' os s' FA' GL' TH' FO ltac:(lia)) as R.
    rewrite LD in R. unfold read_file_result in R. rewrite LD, reload_root, RS in R. apply R. intros ks' x E1 E2.
    assert (x = reload (Elem t at_ ks)) as -> by (injection E1 as <-; cbn in E2; injection E2 as <-; reflexivity). lia.
  Qed.
End Files.
