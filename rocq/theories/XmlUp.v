(** Files written by the program for one version of a header and read by the program for
    another one. *)
From Coq Require Import String Ascii ZArith NArith Arith List Bool Lia.
From Verif Require Import Base Map Items Grammar Fmt Decimal Templates Emit Cpp Xml Val CppSem SymLex Ast StoreDefs ResolveProps Prog Header EnumSem DecText EnumCall EnumRound
  XmlSpec XmlRdSimple XmlRead XmlReader XmlCall XmlWriter XmlCarry XmlRound.
Import ListNotations.
Local Open Scope string_scope.
Local Open Scope list_scope.

(** *** Specification.  [L]: the program that writes, [M]: the program that reads *)
Section Versions.
  Variables (L M : lang) (b : form) (delta : bool).
  (** Both are built for the same machine, with the same library. *)
  Definition same_machine : Prop :=
    l_long L = l_long M /\ (forall k c, l_xprint L k c = l_xprint M k c) /\ (forall k s, l_xread L k s = l_xread M k s).
  (** Members of the two versions that can stand for each other; default values may differ. *)
  Definition same_kind (m m' : member) : Prop :=
    match m, m' with
    | MSimple t _ _, MSimple t' _ _ => t = t'
    | MUser u _ _, MUser u' _ _ => u = u' /\ is_scalar L m = is_scalar M m'
    | MVector u _, MVector u' _ => u = u'
    | _, _ => False
    end.
  (** Members may be added, left out, and declared in another order.  New members of short and
      long types are not possible if scalars are attributes. *)
  Definition compatible : Prop := forall u ms ms', find_struct (l_defs L) u = Some ms -> find_struct (l_defs M) u = Some ms' -> forall m', In m' ms' ->
    (forall m, In m ms -> member_name m = member_name m' -> same_kind m m') /\
    (b = Attributes -> converted m' = true -> In (member_name m') (map member_name ms)).
  (** Enumerators that occur in an object: the second version has them too, with any value; a
      number without enumerator is one that its type has room for. *)
  Definition enums_known (v : val) : Prop := forall m d n z, scalar_in L v m d (VEnum n z) -> forall c es c' es',
    find_enum (l_defs L) n = Some (c, es) -> find_enum (l_defs M) n = Some (c', es') ->
    (forall e, In (e, z) (enum_values L 0 es) -> In e (map en_name es')) /\
    (~ In z (map snd (enum_values L 0 es)) -> enum_holds M n z = true).

  (** [updated v x y]: [v] is in the file, [x] was there, [y] is there then. *)
  Inductive updated : val -> val -> val -> Prop :=
  | up_struct u fs os gs ms ms' dd :
      find_struct (l_defs L) u = Some ms -> find_struct (l_defs M) u = Some ms' -> default_fields L u = Some dd -> map fst gs = map fst os ->
      (forall m' x, In m' ms' -> assoc (member_name m') os = Some x ->
         exists y, assoc (member_name m') gs = Some y /\ updated_member ms fs dd m' x y) ->
      updated (VStruct u fs) (VStruct u os) (VStruct u gs)
  | up_vec u l l0 l' :
      Forall2 (fun v w => exists d, default_fields M u = Some d /\ updated v (VStruct u d) w) l l' ->
      updated (VVec u l) (VVec u l0) (VVec u (l0 ++ l'))
  with updated_member : list member -> list (string * val) -> list (string * val) -> member -> val -> val -> Prop :=
  (** a new member *)
  | um_new ms fs dd m' x : ~ In (member_name m') (map member_name ms) -> updated_member ms fs dd m' x x
  (** not in the file, because it has the default value of the first version *)
  | um_default ms fs dd m m' v d x : In m ms -> member_name m = member_name m' -> is_scalar L m = true ->
      assoc (member_name m) fs = Some v -> assoc (member_name m) dd = Some d -> delta = true -> scalar_eq L v d = Some true -> updated_member ms fs dd m' x x
  | um_simple ms fs dd m m' v d x : In m ms -> member_name m = member_name m' -> is_simple m = true ->
      assoc (member_name m) fs = Some v -> assoc (member_name m) dd = Some d -> (delta = true -> scalar_eq L v d = Some false) -> updated_member ms fs dd m' x v
  (** the enumerator of the same name *)
  | um_enum ms fs dd m m' n z z' d x c es c' es' e : In m ms -> member_name m = member_name m' ->
      assoc (member_name m) fs = Some (VEnum n z) -> assoc (member_name m) dd = Some d -> (delta = true -> scalar_eq L (VEnum n z) d = Some false) ->
      find_enum (l_defs L) n = Some (c, es) -> find_enum (l_defs M) n = Some (c', es') -> In (e, z) (enum_values L 0 es) -> In (e, z') (enum_values M 0 es') ->
      updated_member ms fs dd m' x (VEnum n z')
  | um_number ms fs dd m m' n z d x c es : In m ms -> member_name m = member_name m' ->
      assoc (member_name m) fs = Some (VEnum n z) -> assoc (member_name m) dd = Some d -> (delta = true -> scalar_eq L (VEnum n z) d = Some false) ->
      find_enum (l_defs L) n = Some (c, es) -> ~ In z (map snd (enum_values L 0 es)) -> updated_member ms fs dd m' x (VEnum n z)
  | um_object ms fs dd m m' v x y : In m ms -> member_name m = member_name m' -> is_scalar L m = false -> assoc (member_name m) fs = Some v ->
      updated v x y -> updated_member ms fs dd m' x y.
End Versions.

(** *** Proof *)
Section Proof.
  Variables (bk : backend) (b : form) (enums enums' : list enum_S) (ss ss' : list struct_S) (o o' : output_spec) (ds ds' : list def) (L M : lang) (delta : bool).
  Hypothesis X : xml_setting bk b enums ss o ds L.
  Hypothesis X' : xml_setting bk b enums' ss' o' ds' M.
  Hypothesis SM : same_machine L M.
  Hypothesis CO : compatible L M b.

  Lemma to_kind_same k z : to_kind L k z = to_kind M k z.
  Proof. destruct SM as (E & _). unfold to_kind, bits. destruct k; now rewrite ?E. Qed.
  Lemma read_simple_same t i old : read_simple L b t i old = read_simple M b t i old.
  Proof.
    assert (C : forall k p, read_converted L b k p i old = read_converted M b k p i old).
    { intros k p. unfold read_converted. destruct i as [|[s|]]; try reflexivity. destruct (p s); try reflexivity. now rewrite to_kind_same. }
    assert (F : forall k, read_float L k i old = read_float M k i old).
    { intros k. unfold read_float. destruct i as [|[s|]]; try reflexivity. destruct SM as (_ & _ & E). now rewrite E. }
    destruct t; cbn [read_simple]; auto.
  Qed.

  Lemma enum_updated n z old : (exists c es, find_enum (l_defs L) n = Some (c, es) /\ can_hold L n es z) -> (exists q, find_enum (l_defs M) n = Some q) ->
    (forall c es c' es', find_enum (l_defs L) n = Some (c, es) -> find_enum (l_defs M) n = Some (c', es') ->
      (forall e, In (e, z) (enum_values L 0 es) -> In e (map en_name es')) /\ (~ In z (map snd (enum_values L 0 es)) -> enum_holds M n z = true)) ->
    exists s z' c es, text_of L b (VEnum n z) = Some s /\ read_enum_item M n (shown b s) old = Some (VEnum n z') /\ find_enum (l_defs L) n = Some (c, es) /\
      ((exists c' es' e, find_enum (l_defs M) n = Some (c', es') /\ In (e, z) (enum_values L 0 es) /\ In (e, z') (enum_values M 0 es')) \/
       ~ In z (map snd (enum_values L 0 es)) /\ z' = z).
  Proof.
    intros (c & es & FE & CH) ([c' es'] & FM) KN. destruct (KN c es c' es' FE FM) as (K1 & K2). cbn [text_of]. rewrite FE. exists (enum_text (enum_values L 0 es) z).
    rewrite (enum_shown bk b enums ss o ds L X n c es z FE). cbn [read_enum_item]. rewrite FM.
    pose proof FM as FM'. rewrite (x_defs _ _ _ _ _ _ _ X') in FM'. apply find_enum_in in FM' as (t' & IM).
    pose proof (values_nodup bk enums' ss' o' ds' M (x_g _ _ _ _ _ _ _ X') c' n es' t' IM) as VN.
    unfold enum_text. destruct (name_of (enum_values L 0 es) z) as [e|] eqn:N.
    - apply name_of_in in N. specialize (K1 e N). rewrite <- (enum_values_names M 0 es') in K1. apply in_map_iff in K1 as ([e0 z'] & E & IZ). cbn in E. subst e0.
      exists z', c, es. split; [reflexivity|]. unfold read_enum. rewrite (Header.assoc_in e z' _ VN IZ). split; [reflexivity|]. split; [reflexivity|]. left. exists c', es', e. auto.
    - apply name_of_none in N. exists z, c, es. split; [reflexivity|]. destruct CH as [CH|[IZ _]]; [contradiction|].
      assert (W : wrap 32 true z = z) by now apply in_int_wrap. rewrite W. unfold read_enum. rewrite Header.assoc_none, scan_dec_zdec, IZ, (K2 N); [split; [reflexivity|]; split; [reflexivity|]; now right|].
      intros I. apply in_map_iff in I as ([e w] & E & I). cbn in E. apply (ident_not_zdec e z); [|exact E].
      exact (value_name bk enums' ss' o' ds' M (x_g _ _ _ _ _ _ _ X') c' n es' t' IM e w I).
  Qed.
  (** A scalar member. *)
  Lemma scalar_updated ms fs dd m m' ty v d old a k (sub : list (string * (val * option content))) R : NoDup (map member_name ms) -> In m ms -> member_name m = member_name m' -> same_kind L M m m' ->
    is_scalar L m = true -> member_type L m = Some ty -> fits L v ty = true -> fits L d ty = true -> assoc (member_name m) fs = Some v -> assoc (member_name m) dd = Some d ->
    keeps L b v -> (delta = true -> inited d /\ (b = Attributes -> converted m = true -> scalar_eq L v d = Some false)) ->
    (forall n z, v = VEnum n z -> forall c es c' es', find_enum (l_defs L) n = Some (c, es) -> find_enum (l_defs M) n = Some (c', es') ->
      (forall e, In (e, z) (enum_values L 0 es) -> In e (map en_name es')) /\ (~ In z (map snd (enum_values L 0 es)) -> enum_holds M n z = true)) ->
    write_scalar L b delta (member_name m) d v = Some (a, k) ->
    (forall a', attr (member_name m) a' = attr (member_name m) a -> forall sub' : list (node * reading), first_named (member_name m) sub' = first_named (member_name m) (map (fun x => (x, R x)) (map reload k)) ->
     exists y, read_member M b (map (fun p => (fst p, newlines (snd p))) a') sub' m' old = Some y /\ updated_member L M delta ms fs dd m' old y).
  Proof.
    intros ND I NE SK S MT FV FD AV AD KE DL KN WS a' AE sub' KF.
    assert (S' : is_scalar M m' = true).
    { destruct m as [t x df|u x df|u x], m' as [t' x' df'|u' x' df'|u' x']; cbn [same_kind] in SK; try contradiction; try reflexivity; [|discriminate S]. destruct SK as [_ <-]. exact S. }
    assert (RM : forall i, find_item b (member_name m) (map (fun p => (fst p, newlines (snd p))) a') sub' = i ->
        read_member M b (map (fun p => (fst p, newlines (snd p))) a') sub' m' old = read_scalar M b m' i old).
    { intros i <-. rewrite NE. destruct m' as [st x df|t x df|t x]; cbn [read_member read_scalar member_name is_scalar] in S' |- *; [reflexivity| |discriminate].
      destruct (user_type M t) as [[]|]; try discriminate. reflexivity. }
    unfold write_scalar in WS. destruct (left_out L delta d v) as [[|]|] eqn:LO; [| |discriminate].
    - injection WS as <- <-. unfold left_out in LO. destruct delta eqn:DE; [|discriminate]. exists old. split.
      + rewrite (RM Absent); [|unfold find_item; rewrite attr_newlines, AE, KF; cbn; now destruct b]. apply (absent_kept bk b enums' ss' o' ds' M X'); [exact S'|]. intros EB.
        destruct (converted m') eqn:C; [|reflexivity]. exfalso. destruct (DL eq_refl) as (_ & Q). assert (C' : converted m = true).
        { destruct m as [t x df|u x df|u x], m' as [t' x' df'|u' x' df'|u' x']; cbn [same_kind] in SK; try contradiction; [now subst t'|discriminate C|discriminate C]. }
        specialize (Q EB C'). congruence.
      + eapply um_default; eauto.
    - assert (LD : delta = true -> scalar_eq L v d = Some false) by (intros E; unfold left_out in LO; now rewrite E in LO).
      destruct (text_of L b v) as [s|] eqn:TX; [|discriminate].
      assert (FI : find_item b (member_name m) (map (fun p => (fst p, newlines (snd p))) a') sub' = shown b s).
      { unfold find_item, shown. rewrite attr_newlines, AE, KF. destruct b; injection WS as <- <-; cbn; rewrite String.eqb_refl; cbn; [reflexivity|]. now destruct (blank s). }
      rewrite (RM _ FI). destruct m as [t x df|u x df|u x], m' as [t' x' df'|u' x' df'|u' x']; cbn [same_kind] in SK; try contradiction; [| |discriminate S].
      + subst t'. destruct (written_back bk b enums ss o ds L X _ ty v old S MT FV KE) as (s' & TX' & RS). assert (s' = s) by congruence. subst s'. cbn [read_scalar] in RS |- *.
        rewrite <- read_simple_same, RS. exists v. split; [reflexivity|]. eapply um_simple; eauto.
      + destruct SK as (<- & _). cbn [member_type] in MT. cbn [is_scalar] in S, S'. rewrite MT in S. destruct ty; try discriminate. assert (n = u) as ->.
        { unfold user_type in MT. destruct (find_struct (l_defs L) u); [discriminate|]. destruct (find_enum (l_defs L) u); congruence. }
        destruct (fits_enum L v u FV) as [->|(z & ->)]; [destruct KE|]. cbn [read_scalar].
        destruct (enum_updated u z old KE) as (s' & z' & c & es & TX' & RS & FE & H); [|exact (KN u z eq_refl)|].
        { unfold user_type in S'. destruct (find_struct (l_defs M) u); [discriminate|]. destruct (find_enum (l_defs M) u); [eauto|discriminate]. }
        assert (s' = s) by congruence. subst s'. rewrite RS. exists (VEnum u z'). split; [reflexivity|].
        destruct H as [(c' & es' & e & FM & I1 & I2)|[NZ ->]].
        * eapply um_enum; eauto.
        * eapply um_number; eauto.
  Qed.

  (** Objects. *)
  Definition upgraded (f : nat) : Prop := forall u fs os nm a k, vheight (VStruct u fs) < f ->
    fits L (VStruct u fs) (TStruct u) = true -> fits M (VStruct u os) (TStruct u) = true -> write_val L b delta (VStruct u fs) = Some (a, k) ->
    storable L b delta (VStruct u fs) -> enums_known L M (VStruct u fs) ->
    exists gs, read_struct M b (reload (Elem nm a k)) u os = Some gs /\ updated L M delta (VStruct u fs) (VStruct u os) (VStruct u gs).
  Lemma m_defaults u ms : find_struct (l_defs M) u = Some ms -> exists d, default_fields M u = Some d /\ fits M (VStruct u d) (TStruct u) = true.
  Proof. exact (r_defaults bk b enums' ss' o' ds' M X' u ms). Qed.

  Lemma items_upgraded f u ms : find_struct (l_defs M) u = Some ms -> upgraded f -> forall l k, (forall w, In w l -> fits L w (TStruct u) = true /\ vheight w < f /\ storable L b delta w /\ enums_known L M w) ->
    write_items u (map (write_val L b delta) l) = Some k ->
    no_text k /\ exists l', read_items M u (map (fun x => (x, reading_of M b x)) (map reload k)) = Some l' /\
      Forall2 (fun v w => exists d, default_fields M u = Some d /\ updated L M delta v (VStruct u d) w) l l'.
  Proof.
    intros FS IH. induction l as [|w l IHl]; intros k H; cbn [map write_items].
    - intros [= <-]. split; [intros x []|]. exists []. split; [reflexivity|constructor].
    - destruct (write_val L b delta w) as [[a0 k0]|] eqn:W; [|discriminate]. destruct (write_items u _) as [kr|] eqn:WR; [|discriminate]. intros [= <-].
      destruct (IHl kr) as (NT & l' & E & F2); [intros y I; apply H; now right|reflexivity|]. split.
      { intros x [<-|I]; [exists u; eexists _, _; reflexivity|now apply NT]. }
      destruct (H w (or_introl eq_refl)) as (FW & HW & ST & EK). destruct (fits_as_struct L w u FW) as (fs & ->).
      destruct (m_defaults u ms FS) as (d & D & FD). destruct (IH u fs d u a0 k0 HW FW FD W ST EK) as (gs & RS & UP).
      exists (VStruct u gs :: l'). split; [|constructor; [exists d; auto|exact F2]].
      cbn [map]. assert (RE : exists a' k', reload (Elem u a0 k0) = Elem u a' k') by (eexists _, _; reflexivity).
      destruct RE as (a' & k' & RE). rewrite RE in *. cbn [read_items]. rewrite D. fold (read_struct M b (Elem u a' k') u d). now rewrite RS, E.
  Qed.

  Theorem upgrade_ok f : upgraded f.
  Proof.
    induction f as [|f IH]; intros u fs os nm a k HV FV FO W ST EK; [lia|].
    destruct (parts bk b enums ss o ds L X u fs FV) as (ms & d & FS & D & ND & K & MP).
    destruct (fits_struct M u os FO) as (ms' & FS' & FF'). pose proof (r_distinct bk b enums' ss' o' ds' M X' u ms' FS') as ND'.
    pose proof W as W0. cbn [write_val] in W. rewrite FS, D in W. set (sub := map (fun p => (fst p, (snd p, write_val L b delta (snd p)))) fs) in W.
    rewrite (read_struct_unfold M b _ u os ms' FS').
    destruct (write_members_in _ _ _ _ _ _ _ _ W) as (WA & WK).
    assert (NT : no_text k) by (intros x I; destruct (WK x I) as (n & E & _); eauto).
    rewrite (reload_kids nm a k NT). cbn [attrs_of kids_of].
    assert (MEM : forall m' old ty', In m' ms' -> member_type M m' = Some ty' -> fits M old ty' = true ->
      exists y, read_member M b (map (fun p => (fst p, newlines (snd p))) a) (map (fun x => (x, reading_of M b x)) (map reload k)) m' old = Some y /\
        updated_member L M delta ms fs d m' old y).
    { intros m' old ty' I' MT' FI'. destruct (CO u ms ms' FS FS' m' I') as (C1 & C2).
      destruct (in_dec string_dec (member_name m') (map member_name ms)) as [IN|NI].
      - apply in_map_iff in IN as (m & NE & I). specialize (C1 m I NE). destruct (MP m I) as (ty & v & dv & MT & AV & AD & FI & FID).
        destruct (written_found L b delta d sub (in_order ms) (in_order_names ms ND) a k m W (proj2 (in_order_in m ms) I)) as (am & km & WM & AE & KE).
        unfold write_member in WM. unfold sub in WM. rewrite (assoc_map (fun v => (v, write_val L b delta v))), AV in WM. cbn [option_map] in WM.
        destruct (is_scalar L m) eqn:S.
        + rewrite AD in WM. assert (SI : scalar_in L (VStruct u fs) m dv v) by exact (ScalarIn L (VStruct u fs) m dv v u fs ms d (w_here _) FS D I S AV AD).
          destruct (ST m dv v SI) as (KV & DL).
          refine (scalar_updated ms fs d m m' ty v dv old am km sub (reading_of M b) ND I NE C1 S MT FI FID AV AD KV DL _ WM a AE _ (KE _ (reading_of M b))).
          intros n z E. subst v. exact (EK m dv n z SI).
        + assert (HH : vheight v < f) by (pose proof (field_height u fs _ v AV); lia).
          assert (WI : within v (VStruct u fs)) by (eapply w_field; [apply assoc_some; exact AV|apply w_here]).
          assert (STV : storable L b delta v) by (intros m0 d0 x0 SI; apply (ST m0 d0 x0); eapply scalar_in_mono; eauto).
          assert (EKV : enums_known L M v) by (intros m0 d0 n0 z0 SI; apply (EK m0 d0 n0 z0); eapply scalar_in_mono; eauto).
          destruct (write_val L b delta v) as [[a0 k0]|] eqn:WV; [|discriminate]. injection WM as <- <-.
          specialize (KE _ (reading_of M b)).
          assert (KE' : first_named (member_name m') (map (fun x => (x, reading_of M b x)) (map reload k)) = Some (reload (Elem (member_name m) a0 k0), reading_of M b (reload (Elem (member_name m) a0 k0)))).
          { rewrite <- NE, KE. cbn. now rewrite String.eqb_refl. }
          clear KE. destruct m as [t x df|t x df|t x], m' as [t' x' df'|t' x' df'|t' x']; cbn [same_kind] in C1; try contradiction; [discriminate S| |].
          * destruct C1 as (<- & SS). cbn [member_type] in MT, MT'. cbn [is_scalar] in S, SS. cbn [read_member]. cbn [member_name] in *. rewrite MT' in SS |- *. rewrite MT in S, SS.
            assert (ty = TStruct t). { unfold user_type in MT. destruct (find_struct (l_defs L) t); [congruence|]. destruct (find_enum (l_defs L) t); [|discriminate]. injection MT as <-. discriminate S. }
            assert (ty' = TStruct t). { unfold user_type in MT'. destruct (find_struct (l_defs M) t); [congruence|]. destruct (find_enum (l_defs M) t); [|discriminate]. injection MT' as <-. rewrite S in SS. discriminate SS. }
            subst ty ty'. rewrite KE'. destruct (fits_as_struct L v t FI) as (fs' & ->). destruct (fits_as_struct M old t FI') as (os' & ->).
            destruct (IH t fs' os' x a0 k0 HH FI FI' WV STV EKV) as (gs & RS & UP). unfold read_struct in RS. rewrite RS. exists (VStruct t gs). split; [reflexivity|].
            refine (um_object L M delta ms fs d (MUser t x df) (MUser t x' df') _ _ _ I NE _ AV UP). cbn [is_scalar]. now rewrite MT.
          * subst t'. cbn [member_type] in MT, MT'. injection MT as <-. injection MT' as <-. cbn [read_member member_name] in *. rewrite KE'.
            destruct (fits_as_vec L v t FI) as (l & -> & FL). destruct (fits_as_vec M old t FI') as (l0 & -> & _). cbn [write_val] in WV.
            destruct (write_items t (map (write_val L b delta) l)) as [ks|] eqn:WT; [|discriminate]. injection WV as <- <-.
            assert (exists mt, find_struct (l_defs M) t = Some mt) as (mt & FT).
            { pose proof (r_ok bk b enums' ss' o' ds' M X') as OK. pose proof (proj1 (struct_iff _ _ _ OK u ms') FS') as DI. rewrite (x_defs _ _ _ _ _ _ _ X') in DI.
              pose proof (members_good bk b enums' ss' o' ds' M X' u ms' _ DI I' (o_reader o') (or_introl eq_refl)) as (_ & UT & _). unfold user_type in UT.
              destruct (find_struct (l_defs M) t); [eauto|]. destruct (find_enum (l_defs M) t); discriminate. }
            destruct (items_upgraded f t mt FT IH l ks) as (NT' & l' & E & F2); [|exact WT|].
            { intros w IW. assert (WW : within w (VVec t l)) by (eapply w_item; [exact IW|apply w_here]). split; [now apply FL|]. split; [eapply Nat.le_lt_trans; [|exact HH]; exact (item_height t l w IW)|].
              split; [intros m0 d0 x0 SI; apply (STV m0 d0 x0); eapply scalar_in_mono; eauto|intros m0 d0 n0 z0 SI; apply (EKV m0 d0 n0 z0); eapply scalar_in_mono; eauto]. }
            rewrite (reload_kids x [] ks NT'). cbn [map reading_of as_items]. cbn [map] in E. rewrite E. exists (VVec t (l0 ++ l')). split; [reflexivity|].
            refine (um_object L M delta ms fs d (MVector t x) (MVector t x') _ _ _ I NE eq_refl AV _). now constructor.
      - assert (A0 : attr (member_name m') a = None).
        { apply attr_none. intros J. apply WA in J. apply NI. apply in_map_iff in J as (m0 & E0 & J). apply (proj1 (in_order_in m0 ms)) in J. rewrite <- E0. now apply in_map. }
        assert (K0 : first_named (member_name m') (map (fun x => (x, reading_of M b x)) (map reload k)) = None).
        { apply first_named_none. intros x J. apply in_map_iff in J as (y & <- & J). destruct (WK y J) as (n & (ya & yk & ->) & J'). exists n. split; [eexists _, _; reflexivity|].
          intros ->. apply NI. apply in_map_iff in J' as (m0 & E0 & J'). apply (proj1 (in_order_in m0 ms)) in J'. rewrite <- E0. now apply in_map. }
        exists old. split; [|now apply um_new].
        assert (FA : find_item b (member_name m') (map (fun p => (fst p, newlines (snd p))) a) (map (fun x => (x, reading_of M b x)) (map reload k)) = Absent).
        { unfold find_item. rewrite attr_newlines, A0, K0. now destruct b. }
        destruct m' as [t' x' df'|t' x' df'|t' x']; cbn [read_member member_name] in *.
        + rewrite FA. apply (absent_kept bk b enums' ss' o' ds' M X' (MSimple t' x' df') old eq_refl). intros EB. destruct (converted (MSimple t' x' df')) eqn:C; [|reflexivity]. exfalso. exact (NI (C2 EB eq_refl)).
        + cbn [member_type] in MT'. rewrite MT'. unfold user_type in MT'. destruct (find_struct (l_defs M) t'); [injection MT' as <-; now rewrite K0|].
          destruct (find_enum (l_defs M) t'); [|discriminate]. injection MT' as <-. now rewrite FA.
        + now rewrite K0. }
    assert (G : forall l, incl l ms' -> NoDup (map member_name l) -> forall os, fields_fit M l (map (fun p => (fst p, fits M (snd p))) os) = true ->
      exists gs, read_members M b (map (fun p => (fst p, newlines (snd p))) a) (map (fun x => (x, reading_of M b x)) (map reload k)) l os = Some gs /\ map fst gs = map fst os /\
        forall m' x, In m' l -> assoc (member_name m') os = Some x -> exists y, assoc (member_name m') gs = Some y /\ updated_member L M delta ms fs d m' x y).
    { clear FO FF'. induction l as [|m l IHl]; intros INC NDl [|[n old] q] FF'; cbn [map fields_fit fst snd] in FF'; try discriminate; [exists []; split; [reflexivity|split; [reflexivity|intros ? ? []]]|].
      rewrite !andb_true_iff in FF'. destruct FF' as ((F0 & F1) & F2). apply String.eqb_eq in F0. destruct (member_type M m) as [ty|] eqn:MT; [|discriminate].
      cbn [map] in NDl. apply NoDup_cons_iff in NDl as [N1 N2].
      destruct (MEM m old ty (INC m (or_introl eq_refl)) MT F1) as (y & RM & UM). destruct (IHl (fun x I => INC x (or_intror I)) N2 q F2) as (gs & RS & KS & US).
      exists ((n, y) :: gs). cbn [read_members]. rewrite RM, RS. split; [reflexivity|]. split; [cbn; now rewrite KS|]. intros m' x [<-|J]; cbn [assoc]; subst n.
      - rewrite String.eqb_refl. intros [= <-]. eauto.
      - destruct (String.eqb_spec (member_name m') (member_name m)) as [E|NE]; [exfalso; apply N1; rewrite <- E; now apply in_map|]. intros A. exact (US m' x J A). }
    destruct (G ms' (incl_refl _) ND' os FF') as (gs & RS & KS & US). exists gs. split; [exact RS|]. eapply up_struct; eauto.
  Qed.
End Proof.
