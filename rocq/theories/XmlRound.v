(** Which objects come back unchanged when they are written, saved, loaded and read. *)
From Coq Require Import String Ascii ZArith NArith Arith List Bool Lia.
From Verif Require Import Base Map Items Grammar Fmt Decimal Templates Emit Cpp Xml Val CppSem SymLex Ast StoreDefs ResolveProps Prog Header EnumSem DecText EnumCall EnumRound XmlSpec XmlRdSimple XmlRead XmlReader XmlCall XmlWriter XmlCarry.
Import ListNotations.
Local Open Scope string_scope.
Local Open Scope list_scope.

(** *** Parts of objects *)
Inductive within (w : val) : val -> Prop :=
| w_here : within w w
| w_field u fs n x : In (n, x) fs -> within w x -> within w (VStruct u fs)
| w_item u l x : In x l -> within w x -> within w (VVec u l).

Section Parts.
  Variable L : lang.
  (** [x] is what a struct object inside [v] has as scalar member [m]; [d] is the default
      value of that member in a new object of the struct. *)
  Inductive scalar_in (v : val) (m : member) (d x : val) : Prop :=
  | ScalarIn u fs ms ds : within (VStruct u fs) v -> find_struct (l_defs L) u = Some ms -> default_fields L u = Some ds ->
      In m ms -> is_scalar L m = true -> assoc (member_name m) fs = Some x -> assoc (member_name m) ds = Some d -> scalar_in v m d x.
  Definition inited (v : val) : Prop := match v with VUndef _ => False | _ => True end.
End Parts.

Section Spec.
  Variables (L : lang) (b : form) (delta : bool).
  (** Everything that is to be written, and everything it is compared with, is initialised. *)
  Definition writable (v : val) : Prop := forall m d x, scalar_in L v m d x -> inited x /\ (delta = true -> inited d).

  (** Scalars whose text is read back as the same value. *)
  Definition keeps (v : val) : Prop :=
    match v with
    | VNum KLong z => in_int z = true
    | VNum KULong z => in_uint z = true
    | VNum _ _ => True
    | VFlt k c =>
        let s := l_xprint L k c in
        no_cr s = true /\ l_xread L k s = Some c /\ (b = Elements -> blank s = false)
    | VStr s => no_nul s = true /\ no_cr s = true /\ (b = Elements -> blank s = false)
    | VEnum n z => exists c es, find_enum (l_defs L) n = Some (c, es) /\ can_hold L n es z
    | _ => False
    end.
  Definition converted (m : member) : bool :=
    match m with
    | MSimple (short_E | unsigned_short_E | long_E | unsigned_long_E) _ _ => true
    | _ => false
    end.
  (** As attributes, short and long members must not be left out. *)
  Definition storable (v : val) : Prop := forall m d x, scalar_in L v m d x ->
    keeps x /\ (delta = true -> inited d /\ (b = Attributes -> converted m = true -> scalar_eq L x d = Some false)).
  (** An object to read into: its vectors are empty and, if defaults are not written, its
      scalars have their default values. *)
  Definition fresh (v : val) : Prop :=
    (forall u l, within (VVec u l) v -> l = []) /\
    (delta = true -> forall m d x, scalar_in L v m d x -> inited d -> x = d).
  (** Equal, but for floating point numbers that compare equal, if defaults are not written. *)
  Inductive alike : val -> val -> Prop :=
  | al_same v : alike v v
  | al_flt k x y : delta = true -> l_feq L k x y = true -> alike (VFlt k x) (VFlt k y)
  | al_struct u fs gs : Forall2 (fun p q => fst p = fst q /\ alike (snd p) (snd q)) fs gs -> alike (VStruct u fs) (VStruct u gs)
  | al_vec u l k : Forall2 alike l k -> alike (VVec u l) (VVec u k).
End Spec.

Lemma alike_full L : forall v w, alike L false v w -> v = w.
Proof.
  fix IH 3. intros v w H. destruct H as [v|k x y D|u fs gs F|u l k F]; [reflexivity|discriminate| |].
  - f_equal. revert fs gs F. fix IHF 3. intros fs gs F. destruct F as [|p q fs gs [E A] F]; [reflexivity|]. f_equal; [|now apply IHF].
    destruct p as [n x], q as [n' y]. cbn in E, A. subst n'. f_equal. now apply IH.
  - f_equal. revert l k F. fix IHF 3. intros l k F. destruct F as [|x y l k A F]; [reflexivity|]. f_equal; [now apply IH|now apply IHF].
Qed.

Lemma within_trans a c d : within a c -> within c d -> within a d.
Proof. intros H K. induction K; auto; [eapply w_field; eauto|eapply w_item; eauto]. Qed.
Lemma scalar_in_mono L v w m d x : within v w -> scalar_in L v m d x -> scalar_in L w m d x.
Proof. intros W [u fs ms ds A1 A2 A3 A4 A5 A6 A7]. exact (ScalarIn L w m d x u fs ms ds (within_trans _ _ _ A1 W) A2 A3 A4 A5 A6 A7). Qed.

(** *** Ranges *)
Lemma wrap_range_s n z : (0 < n)%Z -> (- 2 ^ (n - 1) <= wrap n true z < 2 ^ (n - 1))%Z.
Proof.
  intros B. assert (E : (2 ^ n = 2 * 2 ^ (n - 1))%Z) by (rewrite <- Z.pow_succ_r by lia; f_equal; lia).
  assert (P : (0 < 2 ^ (n - 1))%Z) by (apply Z.pow_pos_nonneg; lia). unfold wrap. cbn [andb].
  pose proof (Z.mod_pos_bound z (2 ^ n)%Z ltac:(lia)). destruct (Z.leb_spec (2 ^ (n - 1)) (z mod 2 ^ n)); lia.
Qed.
Lemma wrap_range_u n z : (0 < n)%Z -> (0 <= wrap n false z < 2 ^ n)%Z.
Proof. intros B. unfold wrap. cbn [andb]. apply Z.mod_pos_bound. apply Z.pow_pos_nonneg; lia. Qed.
Lemma wrap_in_int z : in_int (wrap 32 true z) = true.
Proof. pose proof (wrap_range_s 32 z ltac:(lia)) as H. change (32 - 1)%Z with 31%Z in H. unfold in_int. lia. Qed.
Lemma wrap_in_uint z : in_uint (wrap 32 false z) = true.
Proof. pose proof (wrap_range_u 32 z ltac:(lia)) as H. unfold in_uint. lia. Qed.
Lemma in_int_wrap z : in_int z = true <-> wrap 32 true z = z.
Proof.
  split; intros H.
  - apply wrap_signed; [lia|]. change (32 - 1)%Z with 31%Z. unfold in_int in H. lia.
  - rewrite <- H. apply wrap_in_int.
Qed.
Lemma in_uint_wrap z : in_uint z = true <-> wrap 32 false z = z.
Proof.
  split; intros H.
  - apply wrap_small. unfold in_uint in H. lia.
  - rewrite <- H. apply wrap_in_uint.
Qed.
Lemma short_int z : wrap 16 true z = z -> in_int z = true.
Proof. intros H. pose proof (wrap_range_s 16 z ltac:(lia)) as R. rewrite H in R. change (2 ^ (16 - 1))%Z with 32768%Z in R. unfold in_int. lia. Qed.
Lemma ushort_uint z : wrap 16 false z = z -> in_uint z = true.
Proof. intros H. pose proof (wrap_range_u 16 z ltac:(lia)) as R. rewrite H in R. change (2 ^ 16)%Z with 65536%Z in R. unfold in_uint. lia. Qed.

(** *** Scalars of a type *)
Section Scalars.
  Variable L : lang.
  Lemma fits_num v k : fits L v (TNum k) = true -> v = VUndef (TNum k) \/ exists z, v = VNum k z /\ to_kind L k z = z.
  Proof.
    intros F. pose proof (fits_ty L v _ F) as T. destruct v; try discriminate T; cbn in T; [left; congruence|]. right. injection T as ->.
    cbn [fits] in F. apply andb_true_iff in F as [_ F]. apply Z.eqb_eq in F. eauto.
  Qed.
  Lemma fits_flt v k : fits L v (TFlt k) = true -> v = VUndef (TFlt k) \/ exists c, v = VFlt k c.
  Proof. intros F. pose proof (fits_ty L v _ F) as T. destruct v; try discriminate T; cbn in T; [left; congruence|]. right. injection T as ->. eauto. Qed.
  Lemma fits_std v : fits L v TStd = true -> exists s, v = VStr s.
  Proof. intros F. pose proof (fits_ty L v _ F) as T. destruct v; try discriminate T; cbn in T; [subst; discriminate F|]. eauto. Qed.
  Lemma fits_enum v n : fits L v (TEnum n) = true -> v = VUndef (TEnum n) \/ exists z, v = VEnum n z.
  Proof. intros F. pose proof (fits_ty L v _ F) as T. destruct v; try discriminate T; cbn in T; [left; congruence|]. right. injection T as ->. eauto. Qed.

  (** Types of scalar members. *)
  Lemma scalar_type m ty : is_scalar L m = true -> member_type L m = Some ty ->
    (exists k, ty = TNum k) \/ (exists k, ty = TFlt k) \/ ty = TStd \/ exists n c es, ty = TEnum n /\ find_enum (l_defs L) n = Some (c, es).
  Proof.
    destruct m as [st x d|u x d|u x]; cbn [is_scalar member_type]; [|intros H E; rewrite E in H|discriminate].
    - intros _ [= <-]. destruct st; cbn; eauto.
    - destruct ty; try discriminate. unfold user_type in E. destruct (find_struct (l_defs L) u); [discriminate|].
      destruct (find_enum (l_defs L) u) as [[c es]|] eqn:F; [|discriminate]. injection E as <-. eauto 10.
  Qed.

  Lemma write_scalar_defined b delta m ty n d v : is_scalar L m = true -> member_type L m = Some ty -> fits L v ty = true -> fits L d ty = true ->
    write_scalar L b delta n d v <> None <-> inited v /\ (delta = true -> inited d).
  Proof.
    intros S MT FV FD. unfold write_scalar, left_out.
    assert (C : forall s, text_of L b v = Some s -> inited v -> (delta = true -> (inited d <-> scalar_eq L v d <> None)) ->
      (let? o := if delta then scalar_eq L v d else Some false in
       if o then Some ([], []) else let? s := text_of L b v in Some (match b with Attributes => ([(n, s)], []) | Elements => ([], [Elem n [] [Text s]]) end)) <> None
      <-> inited v /\ (delta = true -> inited d)).
    { intros s T I E. rewrite T. destruct delta.
      - specialize (E eq_refl). destruct (scalar_eq L v d) as [[|]|]; intuition discriminate.
      - split; [intros _; split; [exact I|discriminate]|intros _; destruct b; discriminate]. }
    assert (U : forall t, v = VUndef t -> (let? o := if delta then scalar_eq L v d else Some false in
       if o then Some ([], []) else let? s := text_of L b v in Some (match b with Attributes => ([(n, s)], []) | Elements => ([], [Elem n [] [Text s]]) end)) <> None
      <-> inited v /\ (delta = true -> inited d)).
    { intros t ->. cbn. destruct delta; cbn; intuition. }
    destruct (scalar_type m ty S MT) as [[k ->]|[[k ->]|[->|(e & c & es & -> & FE)]]].
    - destruct (fits_num v k FV) as [E|(z & -> & _)]; [exact (U _ E)|]. assert (exists s, text_of L b (VNum k z) = Some s) as (s & T) by (destruct k; eexists; reflexivity). eapply C; [exact T|exact I|].
      intros _. destruct (fits_num d k FD) as [->|(y & -> & _)]; cbn; intuition congruence.
    - destruct (fits_flt v k FV) as [E|(z & ->)]; [exact (U _ E)|]. eapply C; [reflexivity|exact I|].
      intros _. destruct (fits_flt d k FD) as [->|(y & ->)]; cbn; intuition congruence.
    - destruct (fits_std v FV) as (z & ->). eapply C; [reflexivity|exact I|].
      intros _. destruct (fits_std d FD) as (y & ->); cbn; intuition congruence.
    - destruct (fits_enum v e FV) as [E|(z & ->)]; [exact (U _ E)|]. eapply C; [cbn; rewrite FE; reflexivity|exact I|].
      intros _. destruct (fits_enum d e FD) as [->|(y & ->)]; cbn; intuition congruence.
  Qed.
End Scalars.

(** *** Writing is defined *)
Section Round.
  Variables (bk : backend) (b : form) (enums : list enum_S) (ss : list struct_S) (o : output_spec) (ds : list def) (L : lang).
  Hypothesis X : xml_setting bk b enums ss o ds L.
  Variable delta : bool.
  Lemma r_ok : header_ok (o_reader o) (o_writer o) (l_defs L) = true.
  Proof. rewrite (x_defs _ _ _ _ _ _ _ X). exact (x_ok _ _ _ _ _ _ _ X). Qed.
  Lemma r_defaults u ms : find_struct (l_defs L) u = Some ms -> exists d, default_fields L u = Some d /\ fits L (VStruct u d) (TStruct u) = true.
  Proof. exact (defaults L _ _ r_ok (x_long _ _ _ _ _ _ _ X) (x_lits _ _ _ _ _ _ _ X) u ms). Qed.
  Lemma r_distinct u ms : find_struct (l_defs L) u = Some ms -> NoDup (map member_name ms).
  Proof. exact (names_distinct L _ _ r_ok u ms). Qed.

  (** The members of an object and of a new object of its type. *)
  Lemma parts u fs : fits L (VStruct u fs) (TStruct u) = true -> exists ms d, find_struct (l_defs L) u = Some ms /\ default_fields L u = Some d /\
    NoDup (map member_name ms) /\ map fst fs = map member_name ms /\
    forall m, In m ms -> exists ty v dv, member_type L m = Some ty /\ assoc (member_name m) fs = Some v /\ assoc (member_name m) d = Some dv /\
      fits L v ty = true /\ fits L dv ty = true.
  Proof.
    intros F. destruct (fits_struct L u fs F) as (ms & FS & FF). destruct (r_defaults u ms FS) as (d & D & FD).
    destruct (fits_struct L u d FD) as (ms' & FS' & FFD). assert (ms' = ms) by congruence. subst ms'. pose proof (r_distinct u ms FS) as ND.
    exists ms, d. repeat (split; [first [assumption|exact (fields_fit_keys L ms fs FF)]|]). intros m I.
    destruct (fields_fit_member L ms ND fs FF m I) as (v & ty & A1 & A2 & A3). destruct (fields_fit_member L ms ND d FFD m I) as (dv & ty' & B1 & B2 & B3).
    assert (ty' = ty) by congruence. subst ty'. exists ty, v, dv. auto.
  Qed.
  Lemma field_height u fs n v : assoc n fs = Some v -> vheight v < vheight (VStruct u fs).
  Proof.
    intros A. apply assoc_some in A. cbn [vheight]. assert (vheight v <= list_max (map (fun p => vheight (snd p)) fs)); [|lia].
    apply list_max_in. apply in_map_iff. exists (n, v). auto.
  Qed.
  Lemma item_height u l v : In v l -> vheight v <= vheight (VVec u l).
  Proof. intros I. cbn [vheight]. apply list_max_in. now apply in_map. Qed.

  Lemma write_members_defined dd sub ms : write_members L b delta dd sub ms <> None <-> forall m, In m ms -> write_member L b delta dd sub m <> None.
  Proof.
    induction ms as [|m ms IH]; cbn [write_members]; [split; [contradiction|discriminate]|].
    destruct (write_member L b delta dd sub m) as [[a k]|] eqn:W.
    - destruct (write_members L b delta dd sub ms) as [[a' k']|].
      + split; [|discriminate]. intros _ y [<-|I]; [congruence|]. now apply IH.
      + split; [congruence|]. intros H. exfalso. apply (proj2 IH); [|reflexivity]. intros y I. apply H. now right.
    - split; [congruence|]. intros H. exfalso. apply (H m (or_introl eq_refl) W).
  Qed.
  Lemma write_items_defined u l : write_items u (map (write_val L b delta) l) <> None <-> forall w, In w l -> write_val L b delta w <> None.
  Proof.
    induction l as [|w l IH]; cbn [map write_items]; [split; [contradiction|discriminate]|].
    destruct (write_val L b delta w) as [[a k]|] eqn:W.
    - destruct (write_items u (map (write_val L b delta) l)) as [ks|].
      + split; [|discriminate]. intros _ y [<-|I]; [congruence|]. now apply IH.
      + split; [congruence|]. intros H. exfalso. apply (proj2 IH); [|reflexivity]. intros y I. apply H. now right.
    - split; [congruence|]. intros H. exfalso. apply (H w (or_introl eq_refl) W).
  Qed.

  Definition obj_type (v : val) (t : ty) : Prop := fits L v t = true /\ match t with TStruct _ | TVec _ => True | _ => False end.
  Lemma member_obj m ty v : is_scalar L m = false -> member_type L m = Some ty -> fits L v ty = true -> obj_type v ty.
  Proof.
    intros S MT F. split; [exact F|]. destruct m as [st x df|t x df|t x]; cbn in *; [discriminate| |now injection MT as <-].
    rewrite MT in S. unfold user_type in MT. destruct (find_struct (l_defs L) t); [now injection MT as <-|]. destruct (find_enum (l_defs L) t); [|discriminate].
    injection MT as <-. discriminate.
  Qed.

  (** Struct objects and vectors by their nesting. *)
  Lemma obj_ind (P : val -> Prop) :
    (forall u fs ms d, fits L (VStruct u fs) (TStruct u) = true -> find_struct (l_defs L) u = Some ms -> default_fields L u = Some d ->
       (forall m v, In m ms -> is_scalar L m = false -> assoc (member_name m) fs = Some v -> P v) -> P (VStruct u fs)) ->
    (forall u l, (forall w, In w l -> fits L w (TStruct u) = true /\ P w) -> P (VVec u l)) ->
    forall v t, obj_type v t -> P v.
  Proof.
    intros HS HV.
    assert (ST : forall f u fs, vheight (VStruct u fs) < f -> fits L (VStruct u fs) (TStruct u) = true -> P (VStruct u fs)).
    { induction f as [|f IH]; intros u fs H F; [lia|]. destruct (parts u fs F) as (ms & d & FS & D & ND & K & M). eapply HS; eauto.
      intros m v I S A. destruct (M m I) as (ty & v' & dv & MT & A' & _ & FI & _). assert (v' = v) by congruence. subst v'.
      destruct (member_obj m ty v S MT FI) as [_ T]. pose proof (field_height u fs _ v A) as HH. destruct ty; try contradiction.
      - destruct (fits_as_struct L v n FI) as (fs' & ->). apply IH; [lia|exact FI].
      - destruct (fits_as_vec L v n FI) as (l & -> & FL). apply HV. intros w IW. split; [now apply FL|]. destruct (fits_as_struct L w n (FL w IW)) as (fw & ->).
        apply IH; [|now apply FL]. pose proof (item_height n l _ IW). lia. }
    intros v t [F T]. destruct t; try contradiction.
    - destruct (fits_as_struct L v n F) as (fs & ->). eapply ST; [|exact F]. apply Nat.lt_succ_diag_r.
    - destruct (fits_as_vec L v n F) as (l & -> & FL). apply HV. intros w I. split; [now apply FL|]. destruct (fits_as_struct L w n (FL w I)) as (fw & ->).
      eapply ST; [|now apply FL]. apply Nat.lt_succ_diag_r.
  Qed.

  Theorem writable_iff v t : obj_type v t -> write_val L b delta v <> None <-> writable L delta v.
  Proof.
    revert v t. apply obj_ind.
    - intros u fs ms d F FS D IH. cbn [write_val]. rewrite FS, D, write_members_defined.
      destruct (parts u fs F) as (ms' & d' & FS' & D' & ND & K & M). assert (ms' = ms) by congruence. assert (d' = d) by congruence. subst ms' d'.
      assert (W : forall m, In m ms -> exists ty v dv, member_type L m = Some ty /\ assoc (member_name m) fs = Some v /\ assoc (member_name m) d = Some dv /\ fits L v ty = true /\
        write_member L b delta d (map (fun p => (fst p, (snd p, write_val L b delta (snd p)))) fs) m =
        if is_scalar L m then write_scalar L b delta (member_name m) dv v else let? (a, k) := write_val L b delta v in Some ([], [Elem (member_name m) a k])).
      { intros m I. destruct (M m I) as (ty & v & dv & MT & A1 & A2 & F1 & F2). exists ty, v, dv. repeat split; auto.
        unfold write_member. now rewrite (assoc_map (fun v => (v, write_val L b delta v))), A1, A2. }
      split.
      + intros H m e x [u' fs' ms' ds' SI SF SD SM SS SX SDV]. inversion SI as [|? ? n y IY WY|]; subst.
        * assert (ms' = ms) by congruence. assert (ds' = d) by congruence. subst ms' ds'. destruct (M m SM) as (ty & v & dv & MT & A1 & A2 & F1 & F2).
          assert (v = x) by congruence. assert (dv = e) by congruence. subst v dv.
          apply (write_scalar_defined L b delta m ty (member_name m) e x SS MT F1 F2). specialize (H m (proj2 (in_order_in m ms) SM)).
          unfold write_member in H. rewrite (assoc_map (fun v => (v, write_val L b delta v))), A1, A2 in H. cbn [option_map] in H. now rewrite SS in H.
        * assert (exists m', In m' ms /\ member_name m' = n) as (m' & I' & N').
          { apply (in_map fst) in IY. rewrite K in IY. apply in_map_iff in IY as (m' & E & I'). eauto. }
          assert (A : assoc n fs = Some y) by (apply Header.assoc_in; [rewrite K; exact ND|exact IY]). rewrite <- N' in A.
          destruct (W m' I') as (ty & v & dv & MT & A1 & A2 & F1 & E). assert (v = y) by congruence. subst v.
          destruct (is_scalar L m') eqn:S.
          { exfalso. destruct (scalar_type L m' ty S MT) as [[k ->]|[[k ->]|[->|(? & ? & ? & -> & ?)]]]; pose proof (fits_ty L _ _ F1) as T;
            inversion WY; subst; discriminate T. }
          specialize (H m' (proj2 (in_order_in m' ms) I')). rewrite E in H. assert (WR : writable L delta y) by (apply (proj1 (IH m' y I' S A)); intros C; rewrite C in H; congruence).
          exact (WR m e x (ScalarIn L y m e x u' fs' ms' ds' WY SF SD SM SS SX SDV)).
      + intros H m I. apply (proj1 (in_order_in m ms)) in I. destruct (W m I) as (ty & v & dv & MT & A1 & A2 & F1 & ->). destruct (is_scalar L m) eqn:S.
        * destruct (M m I) as (ty' & v' & dv' & MT' & A1' & A2' & F1' & F2'). assert (ty' = ty) by congruence. assert (dv' = dv) by congruence. subst ty' dv'.
          apply (write_scalar_defined L b delta m ty (member_name m) dv v S MT F1 F2'). apply (H m dv v).
          exact (ScalarIn L (VStruct u fs) m dv v u fs ms d (w_here _) FS D I S A1 A2).
        * assert (write_val L b delta v <> None) as NN.
          { apply (proj2 (IH m v I S A1)). intros m' e x SI. apply (H m' e x). eapply scalar_in_mono; [|exact SI]. eapply w_field; [apply assoc_some; exact A1|apply w_here]. }
          destruct (write_val L b delta v) as [[a k]|]; congruence.
    - intros u l IH. cbn [write_val]. assert (E : (let? k := write_items u (map (write_val L b delta) l) in Some (@nil (string * string), k)) <> None <-> write_items u (map (write_val L b delta) l) <> None).
      { destruct (write_items u (map (write_val L b delta) l)); split; congruence. }
      rewrite E, write_items_defined. split.
      + intros H m e x [u' fs' ms' ds' SI SF SD SM SS SX SDV]. inversion SI as [| |? ? y IY WY]; subst.
        pose proof (proj1 (proj2 (IH y IY)) (H y IY)) as WR. exact (WR m e x (ScalarIn L y m e x u' fs' ms' ds' WY SF SD SM SS SX SDV)).
      + intros H w I. apply (proj2 (IH w I)). intros m e x SI. apply (H m e x). eapply scalar_in_mono; [|exact SI]. eapply w_item; [exact I|apply w_here].
  Qed.

  (** *** A scalar that is written comes back *)
  Lemma zdec_shown z : shown b (zdec z) = Present (Some (zdec z)).
  Proof. unfold shown. rewrite (newlines_id _ (dec_no_cr z)), blank_zdec. now destruct b. Qed.
  Lemma bool_shown z : shown b (if (z =? 0)%Z then "false" else "true") = Present (Some (if (z =? 0)%Z then "false" else "true")).
  Proof. unfold shown. destruct (z =? 0)%Z; destruct b; reflexivity. Qed.
  Lemma enum_shown n c es z : find_enum (l_defs L) n = Some (c, es) -> shown b (enum_text (enum_values L 0 es) z) = Present (Some (enum_text (enum_values L 0 es) z)).
  Proof.
    intros E. rewrite (x_defs _ _ _ _ _ _ _ X) in E. apply find_enum_in in E as (t & E). unfold enum_text, shown.
    destruct (name_of (enum_values L 0 es) z) as [x|] eqn:N.
    - apply name_of_in in N. pose proof (value_name bk enums ss o ds L (x_g _ _ _ _ _ _ _ X) c n es t E x z N) as I.
      rewrite (newlines_id _ (ident_no_cr _ I)), (ident_not_blank _ I). now destruct b.
    - rewrite (newlines_id _ (dec_no_cr _)), blank_zdec. now destruct b.
  Qed.

  Lemma written_back m ty x old : is_scalar L m = true -> member_type L m = Some ty -> fits L x ty = true -> keeps L b x ->
    exists s, text_of L b x = Some s /\ read_scalar L b m (shown b s) old = Some x.
  Proof.
    intros S MT F K. pose proof (x_long _ _ _ _ _ _ _ X) as LL. destruct m as [st n df|u n df|u n]; cbn [is_scalar member_type read_scalar] in *; [| |discriminate].
    - injection MT as <-.
      assert (NUM : forall k, kind_of st = TNum k -> exists z, x = VNum k z /\ to_kind L k z = z).
      { intros k E. rewrite E in F. destruct (fits_num L x k F) as [->|H]; [destruct K|exact H]. }
      assert (FLT : forall k, kind_of st = TFlt k -> exists s, text_of L b x = Some s /\ read_float L k (shown b s) old = Some x).
      { intros k E. rewrite E in F. destruct (fits_flt L x k F) as [->|(c & ->)]; [destruct K|]. destruct K as (K1 & K2 & K3). cbn [text_of].
        eexists. split; [reflexivity|]. unfold shown. rewrite (newlines_id _ K1). destruct b; cbn; [now rewrite K2|rewrite (K3 eq_refl); cbn; now rewrite K2]. }
      destruct st; cbn [kind_of] in NUM, FLT, F; try (destruct (NUM _ eq_refl) as (z & -> & E); clear NUM FLT; cbn [read_simple text_of]; cbn [to_kind bits signed] in E).
      + eexists. split; [reflexivity|]. rewrite bool_shown. cbn. rewrite to_bool_text. cbn [to_kind bits signed]. now rewrite E.
      + exists (zdec z). split; [destruct b; reflexivity|]. rewrite zdec_shown. cbn [read_number read_converted]. apply in_int_wrap in E. now rewrite (to_int_zdec z E).
      + assert (T : text_of L b (VNum KShort z) = Some (zdec z)).
        { cbn [text_of]. destruct b; cbn [to_kind bits signed]; [|reflexivity]. now rewrite (proj1 (in_int_wrap z) (short_int z E)). }
        exists (zdec z). split; [exact T|]. rewrite zdec_shown. cbn [read_number read_converted]. rewrite (to_int_zdec z (short_int z E)). cbn [to_kind bits signed]. now rewrite E.
      + assert (T : text_of L b (VNum KLong z) = Some (zdec z)).
        { cbn [text_of]. destruct b; cbn [to_kind bits signed]; [|reflexivity]. now rewrite (proj1 (in_int_wrap z) K). }
        exists (zdec z). split; [exact T|]. rewrite zdec_shown. cbn [read_number read_converted]. rewrite (to_int_zdec z K). cbn [to_kind bits signed]. now rewrite E.
      + exists (zdec z). split; [destruct b; reflexivity|]. rewrite zdec_shown. cbn [read_number read_converted]. apply in_uint_wrap in E. now rewrite (to_unsigned_zdec z E).
      + assert (T : text_of L b (VNum KUShort z) = Some (zdec z)).
        { cbn [text_of]. destruct b; cbn [to_kind bits signed]; [|reflexivity]. now rewrite (proj1 (in_uint_wrap z) (ushort_uint z E)). }
        exists (zdec z). split; [exact T|]. rewrite zdec_shown. cbn [read_number read_converted]. rewrite (to_unsigned_zdec z (ushort_uint z E)). cbn [to_kind bits signed]. now rewrite E.
      + assert (T : text_of L b (VNum KULong z) = Some (zdec z)).
        { cbn [text_of]. destruct b; cbn [to_kind bits signed]; now rewrite (proj1 (in_uint_wrap z) K). }
        exists (zdec z). split; [exact T|]. rewrite zdec_shown. cbn [read_number read_converted]. rewrite (to_unsigned_zdec z K). cbn [to_kind bits signed]. now rewrite E.
      + apply (FLT _ eq_refl).
      + apply (FLT _ eq_refl).
      + destruct (fits_std L x F) as (s & ->). destruct K as (K1 & K2 & K3). cbn [text_of]. exists s. rewrite (cut_id s K1). split; [reflexivity|].
        unfold shown. rewrite (newlines_id _ K2). destruct b; cbn; [reflexivity|now rewrite (K3 eq_refl)].
    - rewrite MT in S. destruct ty; try discriminate. assert (n0 = u) as ->.
      { unfold user_type in MT. destruct (find_struct (l_defs L) u); [discriminate|]. destruct (find_enum (l_defs L) u); congruence. }
      destruct (fits_enum L x u F) as [->|(z & ->)]; [destruct K|]. destruct K as (c & es & FE & CH). cbn [text_of]. rewrite FE.
      eexists. split; [reflexivity|]. rewrite (enum_shown u c es z FE). cbn. rewrite FE.
      pose proof FE as FE'. rewrite (x_defs _ _ _ _ _ _ _ X) in FE'. apply find_enum_in in FE' as (t & I).
      now rewrite (text_back bk enums ss o ds L (x_g _ _ _ _ _ _ _ X) c u es t I z CH).
  Qed.
  Lemma absent_kept m old : is_scalar L m = true -> (b = Attributes -> converted m = false) -> read_scalar L b m Absent old = Some old.
  Proof.
    intros S C. destruct m as [st n df|u n df|u n]; cbn [is_scalar] in S; [|reflexivity|discriminate]. destruct b; destruct st; try reflexivity; discriminate (C eq_refl).
  Qed.
  Lemma eq_alike ty x d : fits L x ty = true -> fits L d ty = true -> scalar_eq L x d = Some true -> delta = true -> alike L delta x d.
  Proof.
    intros F1 F2 E D. pose proof (fits_ty L _ _ F1) as T1. pose proof (fits_ty L _ _ F2) as T2.
    destruct x; try discriminate; destruct d; try discriminate; cbn in E, T1, T2; subst ty; try (injection T2; intros; subst).
    - injection E as E. apply Z.eqb_eq in E. subst. apply al_same.
    - injection E as E. now apply al_flt.
    - injection E as E. apply String.eqb_eq in E. subst. apply al_same.
    - injection E as E. apply Z.eqb_eq in E. subst. apply al_same.
  Qed.

  (** *** New objects can be read into *)
  (** Initialisers of struct members, if there are any, give objects that can be read into. *)
  Definition lits_fresh : Prop := forall n ms m u v,
    In (DefStruct n ms) (l_defs L) -> In m ms -> member_type L m = Some (TStruct u) -> member_dflt m = Default v -> fresh L delta (l_lit L (TStruct u) v).

  Lemma fresh_within v w : within w v -> fresh L delta v -> fresh L delta w.
  Proof.
    intros W [F1 F2]. split; [intros u l I; eapply F1, within_trans; eauto|]. intros D m d x SI. apply (F2 D m d x). eapply scalar_in_mono; eauto.
  Qed.
  Lemma fresh_struct u fs : (forall n x, In (n, x) fs -> fresh L delta x) ->
    (delta = true -> forall ms dd m d x, find_struct (l_defs L) u = Some ms -> default_fields L u = Some dd -> In m ms -> is_scalar L m = true ->
       assoc (member_name m) fs = Some x -> assoc (member_name m) dd = Some d -> inited d -> x = d) -> fresh L delta (VStruct u fs).
  Proof.
    intros H T. split.
    - intros u' l W. inversion W as [|? ? n y I W'|]; subst. exact (proj1 (H n y I) u' l W').
    - intros D m d x [u' fs' ms' ds' W SF SD SM SS SX SDV]. revert D. inversion W as [|? ? n y I W'|]; subst; intros D.
      + eapply T; eauto.
      + apply (proj2 (H n y I) D m d x). exact (ScalarIn L y m d x u' fs' ms' ds' W' SF SD SM SS SX SDV).
  Qed.
  Lemma fresh_leaf v : (forall u fs, v <> VStruct u fs) -> (forall u l, v = VVec u l -> l = []) -> fresh L delta v.
  Proof.
    intros H V. split.
    - intros u l W. inversion W as [|? ? n y I W'|? ? y I W']; subst; [now apply (V u)|exfalso; eapply H; eauto|]. rewrite (V _ _ eq_refl) in I. destruct I.
    - intros _ m d x [u' fs' ms' ds' W SF SD SM SS SX SDV]. inversion W as [|? ? n y I W'|? ? y I W']; subst; [exfalso; eapply H; eauto|exfalso; eapply H; eauto|].
      rewrite (V _ _ eq_refl) in I. destruct I.
  Qed.

  Lemma init_members_in rec zero ms : forall fs, init_members L rec zero ms = Some fs -> map fst fs = map member_name ms /\
    forall n x, In (n, x) fs -> exists m, In m ms /\ member_name m = n /\ init_member L rec zero m = Some x.
  Proof.
    induction ms as [|m ms IH]; intros fs; cbn [init_members].
    - intros [= <-]. split; [reflexivity|contradiction].
    - destruct (init_member L rec zero m) as [v|] eqn:E; [|discriminate]. destruct (init_members L rec zero ms) as [l|]; [|discriminate]. intros [= <-].
      destruct (IH l eq_refl) as (K & H). split; [cbn; now rewrite K|]. intros n x [[= <- <-]|I]; [exists m; cbn; auto|].
      destruct (H n x I) as (m' & A & B & C). exists m'. cbn. auto.
  Qed.
  Lemma same_member ms m m' : NoDup (map member_name ms) -> In m ms -> In m' ms -> member_name m = member_name m' -> m = m'.
  Proof.
    induction ms as [|m0 ms IH]; cbn [map]; intros ND; [contradiction|]. apply NoDup_cons_iff in ND as [N ND].
    intros [->|I] [->|J] E; auto; exfalso; apply N; [rewrite E|rewrite <- E]; now apply in_map.
  Qed.
  Lemma init_scalar f f' zero m x d : is_scalar L m = true -> init_member L (init L f) zero m = Some x -> init_member L (init L f') false m = Some d -> inited d -> x = d.
  Proof.
    intros S. unfold init_member. destruct (member_type L m) as [ty|] eqn:MT; [|discriminate].
    assert (I : forall f z, init L f z ty = match ty with TNum k => Some (if z then VNum k 0 else VUndef ty) | TFlt k => Some (if z then VFlt k (l_zero L k) else VUndef ty)
       | TStd => Some (VStr "") | TEnum n => Some (if z then VEnum n 0 else VUndef ty) | _ => None end).
    { intros g z. destruct (scalar_type L m ty S MT) as [[k ->]|[[k ->]|[->|(? & ? & ? & -> & ?)]]]; destruct g; reflexivity. }
    destruct (member_dflt m); [| |congruence]; rewrite !I; [|congruence].
    destruct zero; [|congruence]. destruct ty; try congruence; intros _ [= <-] [].
  Qed.

  Lemma init_fresh (LR : lits_fresh) f : forall zero n v, init L f zero (TStruct n) = Some v -> fresh L delta v.
  Proof.
    induction f as [|f IH]; intros zero n v; cbn [init]; [discriminate|]. destruct (find_struct (l_defs L) n) as [ms|] eqn:FS; [|discriminate].
    destruct (init_members L (init L f) zero ms) as [fs|] eqn:IM; [|discriminate]. intros [= <-]. destruct (init_members_in _ _ _ _ IM) as (K & H).
    pose proof (r_distinct n ms FS) as ND. apply fresh_struct.
    - intros k x I. destruct (H k x I) as (m & J & N & E). unfold init_member in E. destruct (member_type L m) as [ty|] eqn:MT; [|discriminate].
      assert (DI : In (DefStruct n ms) (l_defs L)) by (apply find_struct_in; exact FS).
      assert (IN : forall z, init L f z ty = Some x -> fresh L delta x).
      { intros z E'. destruct ty as [k'|k'| |k'|k'|k'| | |k']; try (destruct f; cbn in E'; injection E' as <-; (apply fresh_leaf; [intros u' fs'; destruct z; discriminate|intros u' l; destruct z; try discriminate; congruence])).
        eapply IH; eauto. }
      destruct (member_dflt m) as [| |w] eqn:MD; [eapply IN; eauto|eapply IN; eauto|]. injection E as <-.
      pose proof (x_lits _ _ _ _ _ _ _ X n ms m ty w DI J MT MD) as FL. pose proof (fits_ty L _ _ FL) as T.
      destruct ty as [k'|k'| |k'|k'|k'| | |k'];
        try (apply fresh_leaf; [intros u' fs' Q; rewrite Q in T; discriminate|intros u' l Q; rewrite Q in T; discriminate]).
      + eapply LR; eauto.
      + exfalso. destruct m as [st y df|t y df|t y]; cbn in MT, MD; [destruct st; discriminate| |discriminate].
        unfold user_type in MT. destruct (find_struct (l_defs L) t); [discriminate|]. destruct (find_enum (l_defs L) t); discriminate.
    - intros D ms' dd m d x FS' DF M S AX AD ID. assert (ms' = ms) by congruence. subst ms'.
      unfold default_fields in DF. destruct (init L (init_fuel L) false (TStruct n)) as [w|] eqn:IW; [|discriminate]. destruct w; try discriminate. injection DF as ->.
      unfold init_fuel in IW. cbn [init] in IW. rewrite FS in IW. destruct (init_members L (init L (length (l_defs L))) false ms) as [gs|] eqn:IM2; [|discriminate]. injection IW as _ ->.
      destruct (init_members_in _ _ _ _ IM2) as (K2 & H2).
      destruct (H _ _ (assoc_some _ _ _ AX)) as (m1 & I1 & N1 & E1). destruct (H2 _ _ (assoc_some _ _ _ AD)) as (m2 & I2 & N2 & E2).
      rewrite (same_member ms m1 m ND I1 M N1) in E1. rewrite (same_member ms m2 m ND I2 M N2) in E2. eapply init_scalar; eauto.
  Qed.
  Lemma defaults_fresh (LR : lits_fresh) u d : default_fields L u = Some d -> fresh L delta (VStruct u d).
  Proof.
    unfold default_fields. destruct (init L (init_fuel L) false (TStruct u)) as [w|] eqn:IW; [|discriminate]. destruct w; try discriminate. intros [= ->].
    assert (t = u) as <-. { unfold init_fuel in IW. cbn [init] in IW. destruct (find_struct (l_defs L) u); [|discriminate]. destruct (init_members _ _ _ _); [|discriminate]. congruence. }
    eapply init_fresh; eauto.
  Qed.

  (** *** The round trip *)
  Lemma carry_members_alike dd csub ms : forall fs os, map fst fs = map member_name ms -> map fst os = map member_name ms ->
    (forall m x old, In m ms -> In (member_name m, x) fs -> In (member_name m, old) os -> exists y, carry_member L b delta dd csub m old = Some y /\ alike L delta x y) ->
    exists gs, carry_members L b delta dd csub ms os = Some gs /\ Forall2 (fun p q => fst p = fst q /\ alike L delta (snd p) (snd q)) fs gs.
  Proof.
    induction ms as [|m ms IH]; intros [|[n x] fs] [|[n' old] os] K1 K2 H; try discriminate.
    - exists []. split; [reflexivity|constructor].
    - cbn in K1, K2. injection K1 as -> K1. injection K2 as -> K2. destruct (H m x old) as (y & C & A); [now left|now left|now left|].
      destruct (IH fs os K1 K2) as (gs & G1 & G2); [intros m' x' o' I1 I2 I3; apply H; now right|].
      exists ((member_name m, y) :: gs). cbn [carry_members]. rewrite C, G1. split; [reflexivity|]. constructor; [auto|exact G2].
  Qed.

  Theorem stored (LR : lits_fresh) v t : obj_type v t -> storable L b delta v -> forall old, fits L old t = true -> fresh L delta old ->
    exists v', carry L b delta v old = Some v' /\ alike L delta v v'.
  Proof.
    intros OT. enough (G : storable L b delta v -> forall old t, obj_type v t -> fits L old t = true -> fresh L delta old -> exists v', carry L b delta v old = Some v' /\ alike L delta v v')
      by (intros ST old F FR; eapply G; eauto). revert v t OT.
    apply (obj_ind (fun v => storable L b delta v -> forall old t, obj_type v t -> fits L old t = true -> fresh L delta old -> exists v', carry L b delta v old = Some v' /\ alike L delta v v')).
    - intros u fs ms d F FS D IH ST old t [FT _] FO FR. pose proof (fits_ty L _ _ FT) as E. cbn in E. subst t. destruct (fits_as_struct L old u FO) as (os & E). subst old.
      destruct (parts u fs F) as (ms1 & d1 & FS1 & D1 & ND & K & M). destruct (parts u os FO) as (ms2 & d2 & FS2 & D2 & _ & K2 & M2).
      assert (ms1 = ms) by congruence. assert (ms2 = ms) by congruence. assert (d1 = d) by congruence. assert (d2 = d) by congruence. subst ms1 ms2 d1 d2. clear FS1 FS2 D1 D2.
      cbn [carry]. rewrite FS, D.
      destruct (carry_members_alike d (map (fun p => (fst p, (snd p, carry L b delta (snd p)))) fs) ms fs os K K2) as (gs & G1 & G2).
      2: { rewrite G1. exists (VStruct u gs). split; [reflexivity|now apply al_struct]. }
      intros m x old I IX IO. destruct (M m I) as (ty & x' & dv & MT & A1 & A2 & F1 & F2).
      assert (AX : assoc (member_name m) fs = Some x) by (apply Header.assoc_in; [rewrite K; exact ND|exact IX]). assert (x' = x) by congruence. subst x'.
      assert (AO : assoc (member_name m) os = Some old) by (apply Header.assoc_in; [rewrite K2; exact ND|exact IO]).
      destruct (M2 m I) as (ty' & old' & dv' & MT' & A1' & A2' & F1' & _). assert (ty' = ty) by congruence. assert (old' = old) by congruence. subst ty' old'. clear dv' A2' MT' A1'.
      unfold carry_member. rewrite (assoc_map (fun v => (v, carry L b delta v))), AX. cbn [option_map]. destruct (is_scalar L m) eqn:S.
      + rewrite A2. unfold carry_scalar.
        assert (SI : scalar_in L (VStruct u fs) m dv x) by exact (ScalarIn L (VStruct u fs) m dv x u fs ms d (w_here _) FS D I S AX A2).
        destruct (ST m dv x SI) as (KP & DL).
        destruct (written_back m ty x old S MT F1 KP) as (s & T & RB).
        destruct (left_out L delta dv x) as [[|]|] eqn:LO.
        * unfold left_out in LO. destruct delta eqn:DT; [|discriminate]. destruct (DL eq_refl) as (ID & CV). exists old. split.
          { apply absent_kept; [exact S|]. intros B. destruct (converted m) eqn:C; [|reflexivity]. rewrite (CV B eq_refl) in LO. discriminate. }
          assert (old = dv) as ->.
          { apply (proj2 FR eq_refl m dv old); [|exact ID]. exact (ScalarIn L (VStruct u os) m dv old u os ms d (w_here _) FS D I S AO A2). }
          rewrite <- DT. apply (eq_alike ty x dv F1 F2 LO DT).
        * rewrite T. exists x. split; [exact RB|apply al_same].
        * exfalso. unfold left_out in LO. destruct delta eqn:DT; [|discriminate]. destruct (DL eq_refl) as (ID & _).
          apply (proj2 (write_scalar_defined L b true m ty (member_name m) dv x S MT F1 F2)).
          { split; [destruct x; cbn in KP |- *; auto|intros _; exact ID]. }
          unfold write_scalar, left_out. now rewrite LO.
      + apply (IH m x I S AX) with (t := ty).
        * intros m' d' y SI. apply (ST m' d' y). eapply scalar_in_mono; [|exact SI]. eapply w_field; [exact IX|apply w_here].
        * eapply member_obj; eauto.
        * exact F1'.
        * eapply fresh_within; [|exact FR]. eapply w_field; [exact IO|apply w_here].
    - intros u l IH ST old t [FT _] FO FR. pose proof (fits_ty L _ _ FT) as E. cbn in E. subst t. destruct (fits_as_vec L old u FO) as (l0 & -> & _).
      rewrite (proj1 FR u l0 (w_here _)). cbn [carry].
      assert (C : exists l', carry_items L u (map (carry L b delta) l) = Some l' /\ Forall2 (alike L delta) l l').
      { clear FT FO FR l0. assert (ST' : forall w, In w l -> storable L b delta w).
        { intros w I m d x SI. apply (ST m d x). eapply scalar_in_mono; [|exact SI]. eapply w_item; [exact I|apply w_here]. }
        clear ST. induction l as [|w l IHl]; [exists []; split; [reflexivity|constructor]|].
        destruct IHl as (l' & L1 & L2); [intros y I; apply IH; now right|intros y I; apply ST'; now right|].
        destruct (IH w (or_introl eq_refl)) as (FW & IW). destruct (fits_as_struct L w u FW) as (fw & ->). destruct (fits_struct L u fw FW) as (ms & FS & _).
        destruct (r_defaults u ms FS) as (d & D & FD).
        destruct (IW (ST' _ (or_introl eq_refl)) (VStruct u d) (TStruct u) (conj FW I) FD (defaults_fresh LR u d D)) as (y & Y1 & Y2).
        exists (y :: l'). cbn [map carry_items]. rewrite D, Y1, L1. split; [reflexivity|now constructor]. }
      destruct C as (l' & C1 & C2). rewrite C1. exists (VVec u l'). split; [reflexivity|now apply al_vec].
  Qed.

  (** Writing, saving, loading, reading. *)
  Theorem write_read u fs os nm : lits_fresh -> fits L (VStruct u fs) (TStruct u) = true -> storable L b delta (VStruct u fs) ->
    fits L (VStruct u os) (TStruct u) = true -> fresh L delta (VStruct u os) ->
    exists a k gs, write_val L b delta (VStruct u fs) = Some (a, k) /\ read_struct L b (reload (Elem nm a k)) u os = Some gs /\ alike L delta (VStruct u fs) (VStruct u gs).
  Proof.
    intros LR F ST FO FR. destruct (stored LR (VStruct u fs) (TStruct u) (conj F I) ST (VStruct u os) FO FR) as (v' & C & A).
    assert (W : write_val L b delta (VStruct u fs) <> None).
    { apply (proj2 (writable_iff (VStruct u fs) (TStruct u) (conj F I))). intros m d x SI. destruct (ST m d x SI) as (K & D). split; [destruct x; cbn in K |- *; auto|]. intros E. now apply D. }
    destruct (write_val L b delta (VStruct u fs)) as [[a k]|] eqn:WV; [|congruence].
    pose proof (carry_ok L b delta _ _ r_ok (x_long _ _ _ _ _ _ _ X) (x_lits _ _ _ _ _ _ _ X) (S (vheight (VStruct u fs))) u fs os nm a k (Nat.lt_succ_diag_r _) F FO WV) as E.
    rewrite C in E. destruct (read_struct L b (reload (Elem nm a k)) u os) as [gs|] eqn:R; [|discriminate]. injection E as <-. exists a, k, gs. auto.
  Qed.
End Round.
