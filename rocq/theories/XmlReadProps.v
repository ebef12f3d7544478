(** What reading an element does to an object: absent, unknown and repeated items, types. *)
From Coq Require Import String Ascii ZArith NArith Arith List Bool Lia.
From Verif Require Import Base Map Items Grammar Fmt Decimal Templates Emit Cpp Xml Val CppSem SymLex Ast StoreDefs ResolveProps Prog Header Link EnumSem DecText EnumCall EnumRound XmlSpec XmlRdSimple XmlRead XmlReader XmlCall XmlWriter XmlCarry XmlRound.
Import ListNotations.
Local Open Scope string_scope.
Local Open Scope list_scope.

(** *** Absent items *)
(** Nothing in element [x] is for member [m]. *)
Definition absent (L : lang) (b : form) (m : member) (x : node) : Prop :=
  match b, is_scalar L m with
  | Attributes, true => ~ In (member_name m) (map fst (attrs_of x))
  | _, _ => forall y, In y (kids_of x) -> ~ elem_named (member_name m) y
  end.
Lemma absent_first {A} n (f : node -> A) l : (forall y, In y l -> ~ elem_named n y) -> first_named n (map (fun x => (x, f x)) l) = None.
Proof.
  induction l as [|y l IH]; intros H; [reflexivity|]. cbn [map]. destruct y as [m a k|s]; cbn [first_named].
  - destruct (String.eqb_spec n m) as [->|]; [|apply IH; intros z I; apply H; now right]. exfalso. apply (H (Elem m a k) (or_introl eq_refl)). eexists _, _; reflexivity.
  - apply IH. intros z I. apply H. now right.
Qed.
Lemma absent_item L b m x {A} (f : node -> A) : absent L b m x -> is_scalar L m = true -> find_item b (member_name m) (attrs_of x) (map (fun y => (y, f y)) (kids_of x)) = Absent.
Proof.
  unfold absent, find_item. intros H S. rewrite S in H. destruct b.
  - now rewrite (attr_none _ _ H).
  - now rewrite (absent_first _ _ _ H).
Qed.
Lemma absent_kid L b m x {A} (f : node -> A) : absent L b m x -> is_scalar L m = false -> first_named (member_name m) (map (fun y => (y, f y)) (kids_of x)) = None.
Proof. unfold absent. intros H S. rewrite S in H. apply absent_first. destruct b; exact H. Qed.

Section Props.
  Variables (bk : backend) (b : form) (enums : list enum_S) (ss : list struct_S) (o : output_spec) (ds : list def) (L : lang).
  Hypothesis X : xml_setting bk b enums ss o ds L.

  Lemma unfold_read x u os ms : find_struct (l_defs L) u = Some ms ->
    read_struct L b x u os = read_members L b (attrs_of x) (map (fun k => (k, reading_of L b k)) (kids_of x)) ms os.
  Proof. apply read_struct_unfold. Qed.

  Theorem absent_unchanged x u os gs ms m : fits L (VStruct u os) (TStruct u) = true -> find_struct (l_defs L) u = Some ms -> In m ms ->
    absent L b m x -> read_struct L b x u os = Some gs -> assoc (member_name m) gs = assoc (member_name m) os.
  Proof.
    intros F FS I AB R. rewrite (unfold_read x u os ms FS) in R. destruct (parts bk b enums ss o ds L X u os F) as (ms' & d & FS' & _ & ND & K & M).
    assert (ms' = ms) by congruence. subst ms'. destruct (read_members_member L b _ _ ms ND os gs m K R I) as (old & v & A1 & A2 & A3). rewrite A1, A3.
    destruct (is_scalar L m) eqn:S.
    - pose proof (absent_item L b m x (reading_of L b) AB S) as FI. destruct m as [st n df|t n df|t n]; cbn [read_member member_name is_scalar] in *; [| |discriminate].
      + rewrite FI in A2. destruct st; cbn in A2; try congruence; destruct b; congruence.
      + destruct (user_type L t) as [[]|]; try discriminate. rewrite FI in A2. cbn in A2. congruence.
    - pose proof (absent_kid L b m x (reading_of L b) AB S) as FI. destruct m as [st n df|t n df|t n]; cbn [read_member member_name is_scalar] in *; [discriminate| |].
      + rewrite FI in A2. destruct (user_type L t) as [[]|]; try discriminate. congruence.
      + rewrite FI in A2. congruence.
  Qed.
  Theorem absent_converted x u os ms m : b = Attributes -> fits L (VStruct u os) (TStruct u) = true -> find_struct (l_defs L) u = Some ms -> In m ms ->
    converted m = true -> absent L b m x -> read_struct L b x u os = None.
  Proof.
    intros B F FS I C AB. rewrite (unfold_read x u os ms FS). destruct (parts bk b enums ss o ds L X u os F) as (ms' & d & FS' & _ & ND & K & M).
    assert (ms' = ms) by congruence. subst ms'.
    destruct (read_members L b (attrs_of x) (map (fun k => (k, reading_of L b k)) (kids_of x)) ms os) as [gs|] eqn:R; [|reflexivity]. exfalso.
    destruct (read_members_member L b _ _ ms ND os gs m K R I) as (old & v & A1 & A2 & A3).
    assert (S : is_scalar L m = true) by (destruct m; [reflexivity|discriminate|discriminate]).
    pose proof (absent_item L b m x (reading_of L b) AB S) as FI. destruct m as [st n df|t n df|t n]; cbn [read_member member_name] in *; try discriminate.
    rewrite FI in A2. rewrite B in A2. destruct st; try discriminate.
  Qed.

  (** *** Unknown attributes and elements *)
  Inductive more_attrs (ns : list string) : list (string * string) -> list (string * string) -> Prop :=
  | ma_nil : more_attrs ns [] []
  | ma_same p a a' : more_attrs ns a a' -> more_attrs ns (p :: a) (p :: a')
  | ma_new n s a a' : ~ In n ns -> more_attrs ns a a' -> more_attrs ns a ((n, s) :: a').
  (** [more u x y]: for a struct [u], element [y] is [x] with further attributes and
      children, here and inside; the name of the element may be another one. *)
  Inductive more : string -> node -> node -> Prop :=
  | mo u ms n n' a a' k k' : find_struct (l_defs L) u = Some ms -> more_attrs (map member_name ms) a a' -> more_kids ms k k' -> more u (Elem n a k) (Elem n' a' k')
  with more_kids : list member -> list node -> list node -> Prop :=
  | mk_nil ms : more_kids ms [] []
  | mk_same ms x k k' : more_kids ms k k' -> more_kids ms (x :: k) (x :: k')
  | mk_new ms y k k' : (forall n, In n (map member_name ms) -> ~ elem_named n y) -> more_kids ms k k' -> more_kids ms k (y :: k')
  | mk_scalar ms m a a' c c' k k' : In m ms -> is_scalar L m = true -> get_text (Elem (member_name m) a c) = get_text (Elem (member_name m) a' c') ->
      more_kids ms k k' -> more_kids ms (Elem (member_name m) a c :: k) (Elem (member_name m) a' c' :: k')
  | mk_struct ms m u a a' c c' k k' : In m ms -> member_type L m = Some (TStruct u) -> more u (Elem (member_name m) a c) (Elem (member_name m) a' c') ->
      more_kids ms k k' -> more_kids ms (Elem (member_name m) a c :: k) (Elem (member_name m) a' c' :: k')
  | mk_vector ms u n a a' c c' k k' : In (MVector u n) ms -> more_items u c c' ->
      more_kids ms k k' -> more_kids ms (Elem n a c :: k) (Elem n a' c' :: k')
  with more_items : string -> list node -> list node -> Prop :=
  | mi_nil u : more_items u [] []
  | mi_text u s k k' : more_items u k k' -> more_items u k (Text s :: k')
  | mi_same u s k k' : more_items u k k' -> more_items u (Text s :: k) (Text s :: k')
  | mi_item u x y k k' : more u x y -> more_items u k k' -> more_items u (x :: k) (y :: k').
  Scheme more_m := Minimality for more Sort Prop
    with more_kids_m := Minimality for more_kids Sort Prop
    with more_items_m := Minimality for more_items Sort Prop.
  Combined Scheme more_all from more_m, more_kids_m, more_items_m.

  Lemma more_attrs_attr ns a a' : more_attrs ns a a' -> forall n, In n ns -> attr n a' = attr n a.
  Proof.
    induction 1 as [|[m s] a a' H IH|m s a a' N H IH]; intros n I; [reflexivity| |]; cbn.
    - now rewrite (IH n I).
    - destruct (String.eqb_spec n m) as [->|]; [contradiction|now apply IH].
  Qed.
  Definition pairs (k : list node) : list (node * reading) := map (fun x => (x, reading_of L b x)) k.
  (** What reading a member looks at. *)
  Definition same_for (ms : list member) (k k' : list node) : Prop := forall m, In m ms ->
    match first_named (member_name m) (pairs k), first_named (member_name m) (pairs k') with
    | None, None => True
    | Some (x, r), Some (y, r') =>
        if is_scalar L m then get_text x = get_text y
        else match m with
             | MUser u _ _ => forall t fs, user_type L u = Some (TStruct t) -> as_struct r u fs = as_struct r' u fs
             | MVector u _ => as_items r u = as_items r' u
             | _ => True
             end
    | _, _ => False
    end.
  Lemma first_same n x k : first_named n (pairs (x :: k)) = match x with Elem m a c => if String.eqb n m then Some (x, reading_of L b x) else first_named n (pairs k) | Text _ => first_named n (pairs k) end.
  Proof. destruct x; reflexivity. Qed.
  Lemma distinct_member u ms m m' : find_struct (l_defs L) u = Some ms -> In m ms -> In m' ms -> member_name m = member_name m' -> m = m'.
  Proof. intros FS. apply same_member. exact (r_distinct _ _ _ _ _ _ _ X u ms FS). Qed.

  Lemma as_struct_read x u fs : as_struct (reading_of L b x) u fs = read_struct L b x u fs.
  Proof. reflexivity. Qed.
  Theorem more_same :
    (forall u x y, more u x y -> forall fs, read_struct L b x u fs = read_struct L b y u fs) /\
    (forall ms k k', more_kids ms k k' -> NoDup (map member_name ms) -> same_for ms k k') /\
    (forall u k k', more_items u k k' -> read_items L u (pairs k) = read_items L u (pairs k')).
  Proof.
    apply more_all.
    - intros u ms n n' a a' k k' FS MA MK SF fs. specialize (SF (r_distinct _ _ _ _ _ _ _ X u ms FS)). rewrite !(unfold_read _ u fs ms FS). cbn [attrs_of kids_of]. fold (pairs k) (pairs k').
      pose proof (more_attrs_attr _ _ _ MA) as AT.
      assert (RM : forall m old, In m ms -> read_member L b a (pairs k) m old = read_member L b a' (pairs k') m old).
      { intros m old I. specialize (SF m I). specialize (AT (member_name m) (in_map _ _ _ I)).
        assert (FI : is_scalar L m = true -> find_item b (member_name m) a (pairs k) = find_item b (member_name m) a' (pairs k')).
        { intros S. unfold find_item. rewrite AT. rewrite S in SF. destruct b; [reflexivity|].
          destruct (first_named (member_name m) (pairs k)) as [[x r]|], (first_named (member_name m) (pairs k')) as [[y r']|]; try contradiction; [now rewrite SF|reflexivity]. }
        destruct m as [st x df|t x df|t x]; cbn [read_member member_name is_scalar] in *.
        - now rewrite (FI eq_refl).
        - destruct (user_type L t) as [ty|] eqn:UT; [|reflexivity]. destruct ty; try reflexivity; [now rewrite (FI eq_refl)|].
          destruct (first_named x (pairs k)) as [[y r]|], (first_named x (pairs k')) as [[y' r']|]; try contradiction; [|reflexivity].
          destruct old; try reflexivity. match goal with |- context [as_struct r t ?f] => now rewrite (SF _ f eq_refl) end.
        - destruct (first_named x (pairs k)) as [[y r]|], (first_named x (pairs k')) as [[y' r']|]; try contradiction; [|reflexivity]. destruct old; try reflexivity. now rewrite SF. }
      clear - RM. revert fs. induction ms as [|m ms IH]; intros [|[nn old] fs]; try reflexivity. cbn [read_members]. rewrite (RM m old (or_introl eq_refl)).
      destruct (read_member L b a' (pairs k') m old); [|reflexivity]. rewrite IH; [reflexivity|]. intros m' old' I. apply RM. now right.
    - intros ms ND m I. exact Logic.I.
    - intros ms x k k' _ IH ND m I. specialize (IH ND m I). rewrite !first_same. destruct x as [n a c|s]; [|exact IH]. destruct (String.eqb (member_name m) n); [|exact IH].
      destruct (is_scalar L m); [reflexivity|]. destruct m; auto.
    - intros ms y k k' N _ IH ND m I. specialize (IH ND m I). rewrite (first_same _ y). destruct y as [n a c|s]; [|exact IH]. destruct (String.eqb_spec (member_name m) n) as [E|]; [|exact IH].
      exfalso. apply (N (member_name m) (in_map _ _ _ I)). rewrite E. eexists _, _; reflexivity.
    - intros ms m0 a a' c c' k k' I0 S GT _ IH ND m I. specialize (IH ND m I). rewrite !first_same. destruct (String.eqb_spec (member_name m) (member_name m0)) as [E|]; [|exact IH].
      rewrite (same_member ms m m0 ND I I0 E). now rewrite S.
    - intros ms m0 u a a' c c' k k' I0 MT _ RS _ IH ND m I. specialize (IH ND m I). rewrite !first_same. destruct (String.eqb_spec (member_name m) (member_name m0)) as [E|]; [|exact IH].
      rewrite (same_member ms m m0 ND I I0 E). destruct m0 as [st x df|t x df|t x]; cbn [member_type is_scalar] in *; [destruct st; discriminate| |discriminate]. rewrite MT.
      assert (u = t) as ->. { unfold user_type in MT. destruct (find_struct (l_defs L) t); [congruence|]. destruct (find_enum (l_defs L) t); discriminate. }
      intros t0 fs _. exact (RS fs).
    - intros ms u n a a' c c' k k' I0 _ RI _ IH ND m I. specialize (IH ND m I). rewrite !first_same. destruct (String.eqb_spec (member_name m) n) as [E|]; [|exact IH].
      rewrite (same_member ms m (MVector u n) ND I I0 E). cbn [is_scalar]. exact RI.
    - reflexivity.
    - intros u s k k' _ IH. exact IH.
    - intros u s k k' _ IH. exact IH.
    - intros u x y k k' M RS _ IH. destruct M as [u ms n n' a a' kk kk' FS MA MK]. cbn [pairs map]. cbn [read_items]. fold (pairs k) (pairs k').
      destruct (default_fields L u) as [d|]; [|reflexivity]. rewrite !as_struct_read, (RS d), IH. reflexivity.
  Qed.

  (** *** Vectors *)
  Definition is_named (n : string) (x : node) : bool := match x with Elem m _ _ => String.eqb n m | Text _ => false end.
  Lemma first_find n k : first_named n (pairs k) = option_map (fun x => (x, reading_of L b x)) (find (is_named n) k).
  Proof. induction k as [|x k IH]; [reflexivity|]. rewrite first_same. cbn [find is_named]. destruct x as [m a c|s]; [|exact IH]. cbn [is_named]. now destruct (String.eqb n m). Qed.
  Lemma items_each u k : forall l, read_items L u (pairs k) = Some l ->
    Forall2 (fun e w => exists d fs, default_fields L u = Some d /\ read_struct L b e u d = Some fs /\ w = VStruct u fs) (filter is_elem k) l.
  Proof.
    induction k as [|x k IH]; intros l; cbn [pairs map].
    - intros [= <-]. constructor.
    - destruct x as [m a c|s]; cbn [read_items filter is_elem]; fold (pairs k); [|apply IH].
      destruct (default_fields L u) as [d|] eqn:D; [|discriminate]. rewrite as_struct_read. destruct (read_struct L b (Elem m a c) u d) as [fs|] eqn:R; [|discriminate].
      destruct (read_items L u (pairs k)) as [l'|]; [|discriminate]. intros [= <-]. constructor; [exists d, fs; auto|now apply IH].
  Qed.
  Lemma vector_read x u os gs ms n t : fits L (VStruct u os) (TStruct u) = true -> find_struct (l_defs L) u = Some ms -> In (MVector t n) ms ->
    read_struct L b x u os = Some gs -> exists l, assoc n os = Some (VVec t l) /\
    match find (is_named n) (kids_of x) with
    | None => assoc n gs = Some (VVec t l)
    | Some c => exists l', read_items L t (pairs (kids_of c)) = Some l' /\ assoc n gs = Some (VVec t (l ++ l'))
    end.
  Proof.
    intros F FS I R. rewrite (unfold_read x u os ms FS) in R. destruct (parts bk b enums ss o ds L X u os F) as (ms' & d & FS' & _ & ND & K & M).
    assert (ms' = ms) by congruence. subst ms'. destruct (read_members_member L b _ _ ms ND os gs _ K R I) as (old & v & A1 & A2 & A3). cbn [member_name] in A1, A3.
    destruct (M _ I) as (ty & old' & dv & MT & B1 & _ & F1 & _). cbn [member_name member_type] in MT, B1. injection MT as <-. assert (old' = old) by congruence. subst old'.
    destruct (fits_as_vec L old t F1) as (l & -> & _). exists l. split; [exact A1|]. cbn [read_member] in A2. fold (pairs (kids_of x)) in A2. rewrite first_find in A2.
    destruct (find (is_named n) (kids_of x)) as [c|]; cbn [option_map] in A2; [|congruence].
    assert (AI : as_items (reading_of L b c) t = read_items L t (pairs (kids_of c))) by (destruct c; reflexivity). rewrite AI in A2.
    destruct (read_items L t (pairs (kids_of c))) as [l'|]; [|discriminate]. exists l'. split; [reflexivity|]. cbn in A2. congruence.
  Qed.
  (** One element per child element, in their order, behind those that were there. *)
  Theorem vector_appends x u os gs ms n t : fits L (VStruct u os) (TStruct u) = true -> find_struct (l_defs L) u = Some ms -> In (MVector t n) ms ->
    read_struct L b x u os = Some gs -> exists l l', assoc n os = Some (VVec t l) /\ assoc n gs = Some (VVec t (l ++ l')) /\
    Forall2 (fun e w => exists d fs, default_fields L t = Some d /\ read_struct L b e t d = Some fs /\ w = VStruct t fs)
      (match find (is_named n) (kids_of x) with Some c => filter is_elem (kids_of c) | None => [] end) l'.
  Proof.
    intros F FS I R. destruct (vector_read x u os gs ms n t F FS I R) as (l & A & B). exists l. destruct (find (is_named n) (kids_of x)) as [c|].
    - destruct B as (l' & RI & B). exists l'. repeat split; auto. now apply items_each.
    - exists []. rewrite app_nil_r. repeat split; auto.
  Qed.

  (** *** Types are kept *)
  Lemma to_int_range s z : to_int s = Value z -> in_int z = true.
  Proof.
    unfold to_int. destruct (hex_prefix s) as [r|].
    - destruct (hex_val 0 true r) as [y|]; [|discriminate]. destruct (in_uint y); [|discriminate]. intros [= <-]. apply wrap_in_int.
    - destruct (scan_dec s) as [y|]; [|discriminate]. destruct (in_int y) eqn:E; [|discriminate]. now intros [= <-].
  Qed.
  Lemma to_unsigned_range s z : to_unsigned s = Value z -> in_uint z = true.
  Proof.
    unfold to_unsigned. destruct (hex_prefix s) as [r|].
    - destruct (hex_val 0 true r) as [y|]; [|discriminate]. destruct (in_uint y) eqn:E; [|discriminate]. now intros [= <-].
    - destruct (scan_dec s) as [y|]; [|discriminate]. destruct (in_uint (Z.abs y)) eqn:E; [|discriminate]. intros [= <-]. apply wrap_in_uint.
  Qed.
  Lemma to_bool_range s z : to_bool s = Value z -> (if (z =? 0)%Z then 0 else 1)%Z = z.
  Proof.
    unfold to_bool. destruct (to_int s) as [|y|]; [|intros [= <-]; now destruct (y =? 0)%Z|discriminate].
    destruct (existsb (String.eqb s) ["true"; "True"; "TRUE"]); [intros [= <-]; reflexivity|].
    destruct (existsb (String.eqb s) ["false"; "False"; "FALSE"]); [intros [= <-]; reflexivity|discriminate].
  Qed.
  Lemma wrap_idem n s z : (0 < n)%Z -> wrap n s (wrap n s z) = wrap n s z.
  Proof.
    intros B. destruct s; [apply wrap_signed; [exact B|now apply wrap_range_s]|apply wrap_small; now apply wrap_range_u].
  Qed.
  Lemma to_kind_idem k z : to_kind L k (to_kind L k z) = to_kind L k z.
  Proof.
    pose proof (x_long _ _ _ _ _ _ _ X) as LL. destruct k; cbn [to_kind]; try (apply wrap_idem; cbn; lia). now destruct (z =? 0)%Z.
  Qed.
  Lemma simple_fits st i old v : fits L old (kind_of st) = true -> read_simple L b st i old = Some v -> fits L v (kind_of st) = true.
  Proof.
    assert (NUM : forall k p, (forall s z, p s = Value z -> to_kind L k z = z) -> fits L old (TNum k) = true -> read_number k p i old = Some v -> fits L v (TNum k) = true).
    { intros k p H F. destruct i as [|[s|]]; cbn [read_number]; try congruence. destruct (p s) as [|z|] eqn:E; try congruence. intros [= <-].
      cbn [fits]. rewrite (H s z E), Z.eqb_refl, ty_eqb_refl by reflexivity. reflexivity. }
    assert (CON : forall k p, fits L old (TNum k) = true -> read_converted L b k p i old = Some v -> fits L v (TNum k) = true).
    { intros k p F. destruct i as [|[s|]]; cbn [read_converted]; try congruence; [destruct b; congruence|]. destruct (p s) as [|z|]; try congruence. intros [= <-].
      cbn [fits]. rewrite to_kind_idem, Z.eqb_refl, ty_eqb_refl by reflexivity. reflexivity. }
    assert (FLT : forall k, fits L old (TFlt k) = true -> read_float L k i old = Some v -> fits L v (TFlt k) = true).
    { intros k F. destruct i as [|[s|]]; cbn [read_float]; try congruence. destruct (l_xread L k s); [|congruence]. intros [= <-]. cbn [fits]. now apply ty_eqb_refl. }
    destruct st; cbn [kind_of read_simple]; intros F; try (apply CON; exact F); try (apply FLT; exact F).
    - apply NUM; [exact to_bool_range|exact F].
    - apply NUM; [|exact F]. intros s z E. apply to_int_range in E. cbn. now apply in_int_wrap.
    - apply NUM; [|exact F]. intros s z E. apply to_unsigned_range in E. cbn [to_kind bits signed]. now apply in_uint_wrap.
    - intros [= <-]. destruct i as [|[s|]]; try exact F. reflexivity.
  Qed.
  Lemma fields_make ms : forall fs, map fst fs = map member_name ms -> (forall m v, In m ms -> In (member_name m, v) fs -> exists ty, member_type L m = Some ty /\ fits L v ty = true) ->
    fields_fit L ms (map (fun p => (fst p, fits L (snd p))) fs) = true.
  Proof.
    induction ms as [|m ms IH]; intros [|[n v] fs] K H; try discriminate; [reflexivity|]. cbn in K. injection K as -> K. cbn [map fst snd fields_fit].
    rewrite String.eqb_refl. destruct (H m v (or_introl eq_refl) (or_introl eq_refl)) as (ty & -> & ->). cbn [andb]. apply IH; [exact K|]. intros m' v' I J. apply (H m' v'); now right.
  Qed.
  Theorem read_fits f : forall x, height x < f -> forall u os gs, fits L (VStruct u os) (TStruct u) = true -> read_struct L b x u os = Some gs -> fits L (VStruct u gs) (TStruct u) = true.
  Proof.
    induction f as [|f IH]; intros x H u os gs F R; [lia|]. destruct (parts bk b enums ss o ds L X u os F) as (ms & d & FS & _ & ND & K & M).
    rewrite (unfold_read x u os ms FS) in R. pose proof (read_members_keys L b _ _ ms os gs K R) as K'. cbn [fits ty_eqb]. rewrite String.eqb_refl, FS. cbn [andb].
    apply fields_make; [congruence|]. intros m v I J. destruct (read_members_member L b _ _ ms ND os gs m K R I) as (old & v' & A1 & A2 & A3).
    assert (v' = v). { rewrite (Header.assoc_in (member_name m) v gs) in A3; [congruence|rewrite K', K; exact ND|exact J]. } subst v'.
    destruct (M m I) as (ty & old' & dv & MT & B1 & _ & F1 & _). assert (old' = old) by congruence. subst old'. exists ty. split; [exact MT|].
    assert (KID : forall y, In y (kids_of x) -> height y < f) by (intros y IY; pose proof (height_kid x y IY); lia).
    fold (pairs (kids_of x)) in A2. destruct m as [st n df|t n df|t n]; cbn [read_member member_type] in *.
    - injection MT as <-. eapply simple_fits; eauto.
    - rewrite MT in A2. destruct ty; try discriminate.
      + assert (n0 = t) as ->. { unfold user_type in MT. destruct (find_struct (l_defs L) t); [discriminate|]. destruct (find_enum (l_defs L) t); congruence. }
        unfold read_enum_item in A2. destruct (find_item b n (attrs_of x) (pairs (kids_of x))) as [|[s|]]; try congruence. destruct (find_enum (l_defs L) t) as [[c es]|]; [|discriminate].
        destruct (read_enum L t (enum_values L 0 es) s); try congruence. injection A2 as <-. cbn. apply String.eqb_refl.
      + assert (n0 = t) as ->. { unfold user_type in MT. destruct (find_struct (l_defs L) t); [congruence|]. destruct (find_enum (l_defs L) t); discriminate. }
        rewrite first_find in A2. destruct (find (is_named n) (kids_of x)) as [c|] eqn:FN; cbn [option_map] in A2; [|congruence].
        destruct (fits_as_struct L old t F1) as (fo & ->). rewrite as_struct_read in A2. destruct (read_struct L b c t fo) as [fn|] eqn:RC; [|discriminate]. injection A2 as <-.
        apply find_some in FN as [IC _]. exact (IH c (KID c IC) t fo fn F1 RC).
    - injection MT as <-. rewrite first_find in A2. destruct (find (is_named n) (kids_of x)) as [c|] eqn:FN; cbn [option_map] in A2; [|congruence].
      destruct (fits_as_vec L old t F1) as (l & -> & FL). apply find_some in FN as [IC _]. 
      assert (AI : as_items (reading_of L b c) t = read_items L t (pairs (kids_of c))) by (destruct c; reflexivity). rewrite AI in A2.
      destruct (read_items L t (pairs (kids_of c))) as [l'|] eqn:RI; [|discriminate]. injection A2 as <-. cbn [fits ty_eqb]. rewrite String.eqb_refl. cbn [andb]. rewrite forallb_app.
      rewrite (proj2 (forallb_forall _ l)) by exact FL. cbn [andb]. apply forallb_forall. intros w IW. pose proof (items_each t (kids_of c) l' RI) as FA.
      assert (G : forall es l, Forall2 (fun e w => exists d fs, default_fields L t = Some d /\ read_struct L b e t d = Some fs /\ w = VStruct t fs) es l -> In w l -> exists e d fs, In e es /\ default_fields L t = Some d /\ read_struct L b e t d = Some fs /\ w = VStruct t fs).
      { clear. intros es l FA. induction FA as [|e y es l (d & fs & H) FA IH]; [intros []|]. intros [<-|I]; [exists e, d, fs; cbn; tauto|]. destruct (IH I) as (e' & d' & fs' & I' & H'). exists e', d', fs'. cbn; tauto. }
      destruct (G _ _ FA IW) as (e & dd & fw & IE & D & RE & ->). apply filter_In in IE as [IE _].
      unfold default_fields in D. destruct (find_struct (l_defs L) t) as [mt|] eqn:FT.
      + destruct (r_defaults _ _ _ _ _ _ _ X t mt FT) as (dd' & D' & FD). unfold default_fields in D'. rewrite D' in D. injection D as ->.
        apply (IH e) with (os := dd); [|exact FD|exact RE]. pose proof (height_kid c e IE). pose proof (KID c IC). lia.
      + unfold init_fuel in D. cbn [init] in D. rewrite FT in D. discriminate.
  Qed.

  (** Whether reading is defined does not depend on the object read into. *)
  Lemma simple_total st i old old' v : read_simple L b st i old = Some v -> exists v', read_simple L b st i old' = Some v'.
  Proof.
    destruct st; cbn [read_simple]; unfold read_number, read_converted, read_float; destruct i as [|[s|]]; try (destruct b); eauto; try discriminate;
    match goal with |- context [match ?p with _ => _ end] => destruct p end; eauto; discriminate.
  Qed.
  Theorem read_total f : forall x, height x < f -> forall u os os' gs, fits L (VStruct u os) (TStruct u) = true -> fits L (VStruct u os') (TStruct u) = true ->
    read_struct L b x u os = Some gs -> exists gs', read_struct L b x u os' = Some gs'.
  Proof.
    induction f as [|f IH]; intros x H u os os' gs F F' R; [lia|]. destruct (parts bk b enums ss o ds L X u os F) as (ms & d & FS & _ & ND & K & M).
    destruct (parts bk b enums ss o ds L X u os' F') as (ms' & d' & FS' & _ & _ & K' & M'). assert (ms' = ms) by congruence. subst ms'.
    rewrite (unfold_read x u os ms FS) in R. rewrite (unfold_read x u os' ms FS).
    destruct (read_members L b (attrs_of x) (map (fun k => (k, reading_of L b k)) (kids_of x)) ms os') as [gs'|] eqn:R'; [eauto|]. exfalso.
    destruct (read_members_none L b _ _ ms ND os' K' R') as (m & old' & I & A' & N). destruct (read_members_member L b _ _ ms ND os gs m K R I) as (old & v & A1 & A2 & A3).
    destruct (M m I) as (ty & o1 & dv & MT & B1 & _ & F1 & _). assert (o1 = old) by congruence. subst o1.
    destruct (M' m I) as (ty' & o1 & dv' & MT' & B1' & _ & F1' & _). assert (o1 = old') by congruence. assert (ty' = ty) by congruence. subst o1 ty'.
    assert (KID : forall y, In y (kids_of x) -> height y < f) by (intros y IY; pose proof (height_kid x y IY); lia).
    fold (pairs (kids_of x)) in A2, N. destruct m as [st n df|t n df|t n]; cbn [read_member member_type] in *.
    - destruct (simple_total st _ old old' v A2). congruence.
    - rewrite MT in A2, N. destruct ty; try discriminate.
      + unfold read_enum_item in A2, N. destruct (find_item b n (attrs_of x) (pairs (kids_of x))) as [|[s|]]; try discriminate. destruct (find_enum (l_defs L) t) as [[c es]|]; [|discriminate].
        destruct (read_enum L t (enum_values L 0 es) s); discriminate.
      + assert (n0 = t) as ->. { unfold user_type in MT. destruct (find_struct (l_defs L) t); [congruence|]. destruct (find_enum (l_defs L) t); discriminate. }
        rewrite first_find in A2, N. destruct (find (is_named n) (kids_of x)) as [c|] eqn:FN; cbn [option_map] in A2, N; [|discriminate].
        destruct (fits_as_struct L old t F1) as (fo & ->). destruct (fits_as_struct L old' t F1') as (fo' & ->). rewrite as_struct_read in A2, N. destruct (read_struct L b c t fo) as [fn|] eqn:RC; [|discriminate].
        apply find_some in FN as [IC _]. destruct (IH c (KID c IC) t fo fo' fn F1 F1' RC) as (fn' & RC'). rewrite RC' in N. discriminate.
    - injection MT as <-. rewrite first_find in A2, N. destruct (find (is_named n) (kids_of x)) as [c|] eqn:FN; cbn [option_map] in A2, N; [|discriminate].
      destruct (fits_as_vec L old t F1) as (l & -> & _). destruct (fits_as_vec L old' t F1') as (l' & -> & _). destruct (as_items (reading_of L b c) t); discriminate.
  Qed.
  (** Reading the same element twice. *)
  Theorem read_twice x u os gs : fits L (VStruct u os) (TStruct u) = true -> read_struct L b x u os = Some gs ->
    exists hs, read_struct L b x u gs = Some hs /\
    forall ms n t, find_struct (l_defs L) u = Some ms -> In (MVector t n) ms ->
    exists l l', assoc n os = Some (VVec t l) /\ assoc n gs = Some (VVec t (l ++ l')) /\ assoc n hs = Some (VVec t (l ++ l' ++ l')).
  Proof.
    intros F R. pose proof (read_fits (S (height x)) x (Nat.lt_succ_diag_r _) u os gs F R) as F2.
    destruct (read_total (S (height x)) x (Nat.lt_succ_diag_r _) u os gs gs F F2 R) as (hs & R2). exists hs. split; [exact R2|].
    intros ms n t FS I. destruct (vector_read x u os gs ms n t F FS I R) as (l & A & B). destruct (vector_read x u gs hs ms n t F2 FS I R2) as (l2 & A2 & B2).
    exists l. destruct (find (is_named n) (kids_of x)) as [c|].
    - destruct B as (l' & RI & B). destruct B2 as (l'' & RI2 & B2). exists l'. assert (l'' = l') by congruence. assert (l2 = l ++ l') by congruence. subst. rewrite <- app_assoc in B2. auto.
    - exists []. assert (l2 = l) by congruence. subst. rewrite !app_nil_r. auto.
  Qed.
End Props.
