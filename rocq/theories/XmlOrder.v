(** The order of attributes and elements in xml files. *)
From Coq Require Import String Ascii ZArith NArith Arith List Bool Lia Permutation.
From Verif Require Import Base Map Items Grammar Fmt Decimal Templates Emit Cpp Xml Val CppSem SymLex Ast StoreDefs ResolveProps Prog Header Link EnumSem DecText EnumCall EnumRound
  XmlSpec XmlRdSimple XmlRead XmlReader XmlCall XmlWriter XmlCarry XmlRound XmlReadProps.
Import ListNotations.
Local Open Scope string_scope.
Local Open Scope list_scope.

(** *** Specification *)
(** The elements with a name in [ns] are the same; those of one name keep their order. *)
Definition in_any_order (ns : list string) (k k' : list node) : Prop := forall n, In n ns -> filter (is_named n) k' = filter (is_named n) k.
Section Spec.
  Variable L : lang.
  (** [moved u x y]: for a struct [u], element [y] is [x] with attributes and children in
      another order, here and inside; but the elements of a vector keep their order. *)
  Inductive moved : string -> node -> node -> Prop :=
  | mv u ms n a a' k k1 k' : find_struct (l_defs L) u = Some ms -> NoDup (map fst a) -> Permutation a a' -> moved_kids ms k k1 -> in_any_order (map member_name ms) k1 k' ->
      moved u (Elem n a k) (Elem n a' k')
  with moved_kids : list member -> list node -> list node -> Prop :=
  | mvk_nil ms : moved_kids ms [] []
  | mvk_same ms x k k' : moved_kids ms k k' -> moved_kids ms (x :: k) (x :: k')
  | mvk_struct ms m u x y k k' : In m ms -> member_type L m = Some (TStruct u) -> elem_named (member_name m) x -> moved u x y ->
      moved_kids ms k k' -> moved_kids ms (x :: k) (y :: k')
  | mvk_vector ms u n a c c' k k' : In (MVector u n) ms -> moved_items u c c' ->
      moved_kids ms k k' -> moved_kids ms (Elem n a c :: k) (Elem n a c' :: k')
  with moved_items : string -> list node -> list node -> Prop :=
  | mvi_nil u : moved_items u [] []
  | mvi_same u x k k' : moved_items u k k' -> moved_items u (x :: k) (x :: k')
  | mvi_item u x y k k' : moved u x y -> moved_items u k k' -> moved_items u (x :: k) (y :: k').
  Scheme moved_m := Minimality for moved Sort Prop
    with moved_kids_m := Minimality for moved_kids Sort Prop
    with moved_items_m := Minimality for moved_items Sort Prop.
  Combined Scheme moved_all from moved_m, moved_kids_m, moved_items_m.
End Spec.

(** Elements that occur once can be in any order. *)
Definition elem_name (x : node) : list string := match x with Elem n _ _ => [n] | Text _ => [] end.
Lemma one_named n k : NoDup (flat_map elem_name k) -> forall x, In x k -> is_named n x = true -> filter (is_named n) k = [x].
Proof.
  induction k as [|y k IH]; intros ND x I E; [destruct I|]. assert (NDk : NoDup (flat_map elem_name k)) by (cbn in ND; destruct y; cbn in ND; [now apply NoDup_cons_iff in ND|exact ND]).
  cbn [filter]. destruct I as [->|I].
  - rewrite E. f_equal. destruct x as [m a c|]; [|discriminate]. cbn [is_named] in E. apply String.eqb_eq in E. subst m. cbn in ND. apply NoDup_cons_iff in ND as [N _].
    clear IH NDk. induction k as [|y k IH]; [reflexivity|]. cbn [filter]. destruct y as [m a' c'|s]; cbn [is_named]; [|apply IH; exact N].
    destruct (String.eqb_spec n m) as [->|]; [|apply IH; intros J; apply N; now right]. exfalso. apply N. now left.
  - rewrite (IH NDk x I E). destruct (is_named n y) eqn:EY; [|reflexivity]. exfalso. destruct y as [m a c|]; [|discriminate]. destruct x as [m' a' c'|]; [|discriminate].
    cbn in E, EY. apply String.eqb_eq in E, EY. subst m m'. cbn in ND. apply NoDup_cons_iff in ND as [N _]. apply N. apply in_flat_map. exists (Elem n a' c'). split; [exact I|now left].
Qed.
Lemma permuted ns k k' : Permutation k k' -> NoDup (flat_map elem_name k) -> in_any_order ns k k'.
Proof.
  intros P ND n _. assert (ND' : NoDup (flat_map elem_name k')).
  { eapply Permutation_NoDup; [|exact ND]. clear - P. induction P; cbn; auto using Permutation_app_head; [|eapply Permutation_trans; eauto].
    rewrite !app_assoc. apply Permutation_app_tail. apply Permutation_app_comm. }
  destruct (existsb (is_named n) k) eqn:EX.
  - apply existsb_exists in EX as (x & I & E). now rewrite (one_named n k ND x I E), (one_named n k' ND' x (Permutation_in _ P I) E).
  - assert (H : forall l, (forall x, In x l -> In x k) -> filter (is_named n) l = []).
    { induction l as [|x l IH]; intros H; [reflexivity|]. cbn. destruct (is_named n x) eqn:E; [|apply IH; intros z J; apply H; now right].
      assert (existsb (is_named n) k = true) by (apply existsb_exists; exists x; split; [apply H; now left|exact E]). congruence. }
    rewrite !H; auto. intros x I. exact (Permutation_in _ (Permutation_sym P) I).
Qed.

(** *** Proof *)
Lemma attr_permuted a a' : Permutation a a' -> NoDup (map fst a) -> forall n, attr n a' = attr n a.
Proof.
  induction 1 as [|[m s] a a' P IH|[m s] [m' s'] a|a a1 a' P1 IH1 P2 IH2]; intros ND n; cbn in *.
  - reflexivity.
  - apply NoDup_cons_iff in ND as [_ ND]. now rewrite (IH ND).
  - destruct (String.eqb_spec n m) as [E|], (String.eqb_spec n m') as [E'|]; try reflexivity. apply NoDup_cons_iff in ND as [N _]. exfalso. apply N. left. congruence.
  - rewrite IH2, IH1; auto. eapply Permutation_NoDup; [|exact ND]. now apply Permutation_map.
Qed.
Lemma find_filter {A} (p : A -> bool) l : find p l = match filter p l with x :: _ => Some x | [] => None end.
Proof. induction l as [|x l IH]; [reflexivity|]. cbn. now destruct (p x). Qed.
Section Proof.
  Variables (bk : backend) (b : form) (enums : list enum_S) (ss : list struct_S) (o : output_spec) (ds : list def) (L : lang).
  Hypothesis X : xml_setting bk b enums ss o ds L.
  Notation pairs := (pairs b L).

  Lemma members_same ms a a' k k' fs : (forall n, In n (map member_name ms) -> attr n a' = attr n a) -> same_for b L ms k k' ->
    read_members L b a (pairs k) ms fs = read_members L b a' (pairs k') ms fs.
  Proof.
    intros AT SF.
    assert (RM : forall m old, In m ms -> read_member L b a (pairs k) m old = read_member L b a' (pairs k') m old).
    { intros m old I. specialize (SF m I). specialize (AT (member_name m) (in_map _ _ _ I)).
      assert (FI : is_scalar L m = true -> find_item b (member_name m) a (pairs k) = find_item b (member_name m) a' (pairs k')).
      { intros S. unfold find_item. rewrite AT. rewrite S in SF. destruct b; [reflexivity|].
        destruct (first_named (member_name m) (XmlReadProps.pairs _ _ k)) as [[x r]|], (first_named (member_name m) (XmlReadProps.pairs _ _ k')) as [[y r']|]; try contradiction; [now rewrite SF|reflexivity]. }
      destruct m as [st x df|t x df|t x]; cbn [read_member member_name is_scalar] in *.
      - now rewrite (FI eq_refl).
      - destruct (user_type L t) as [ty|] eqn:UT; [|reflexivity]. destruct ty; try reflexivity; [now rewrite (FI eq_refl)|].
        destruct (first_named x (pairs k)) as [[y r]|], (first_named x (pairs k')) as [[y' r']|]; try contradiction; [|reflexivity].
        destruct old; try reflexivity. match goal with |- context [as_struct r t ?f] => now rewrite (SF _ f eq_refl) end.
      - destruct (first_named x (pairs k)) as [[y r]|], (first_named x (pairs k')) as [[y' r']|]; try contradiction; [|reflexivity]. destruct old; try reflexivity. now rewrite SF. }
    clear - RM. revert fs. induction ms as [|m ms IH]; intros [|[nn old] fs]; try reflexivity. cbn [read_members]. rewrite (RM m old (or_introl eq_refl)).
    destruct (read_member L b a' (pairs k') m old); [|reflexivity]. rewrite IH; [reflexivity|]. intros m' old' I. apply RM. now right.
  Qed.
  Lemma any_order_first ms k k' : in_any_order (map member_name ms) k k' -> forall m, In m ms -> first_named (member_name m) (pairs k') = first_named (member_name m) (pairs k).
  Proof.
    intros H m I. rewrite !(first_find b L), !find_filter. now rewrite (H (member_name m) (in_map _ _ _ I)).
  Qed.
  Theorem moved_same :
    (forall u x y, moved L u x y -> (forall fs, read_struct L b x u fs = read_struct L b y u fs) /\ exists n a k a' k', x = Elem n a k /\ y = Elem n a' k') /\
    (forall ms k k', moved_kids L ms k k' -> NoDup (map member_name ms) -> same_for b L ms k k') /\
    (forall u k k', moved_items L u k k' -> read_items L u (pairs k) = read_items L u (pairs k')).
  Proof.
    apply moved_all.
    - intros u ms n a a' k k1 k' FS ND P _ SF AO. split; [|do 5 eexists; split; reflexivity]. intros fs. specialize (SF (r_distinct _ _ _ _ _ _ _ X u ms FS)).
      rewrite !(read_struct_unfold L b _ u fs ms FS). cbn [attrs_of kids_of]. fold (pairs k) (pairs k'). apply members_same.
      + intros m _. exact (attr_permuted a a' P ND m).
      + intros m I. specialize (SF m I). now rewrite (any_order_first ms k1 k' AO m I).
    - intros ms ND m I. exact Logic.I.
    - intros ms x k k' _ IH ND m I. specialize (IH ND m I). rewrite !first_same. destruct x as [n a c|s]; [|exact IH]. destruct (String.eqb (member_name m) n); [|exact IH].
      destruct (is_scalar L m); [reflexivity|]. destruct m; auto.
    - intros ms m0 u x y k k' I0 MT (xa & xk & EN) _ (RS & n & a & c & a' & c' & E1 & E2) _ IH ND m I. specialize (IH ND m I). rewrite E1 in EN. injection EN as -> _ _. subst x y. rewrite !first_same.
      destruct (String.eqb_spec (member_name m) (member_name m0)) as [E|]; [|exact IH].
      rewrite (same_member ms m m0 ND I I0 E). destruct m0 as [st z df|t z df|t z]; cbn [member_type is_scalar] in *; [destruct st; discriminate| |discriminate]. rewrite MT.
      assert (u = t) as ->. { unfold user_type in MT. destruct (find_struct (l_defs L) t); [congruence|]. destruct (find_enum (l_defs L) t); discriminate. }
      intros t0 fs _. exact (RS fs).
    - intros ms u n a c c' k k' I0 _ RI _ IH ND m I. specialize (IH ND m I). rewrite !first_same. destruct (String.eqb_spec (member_name m) n) as [E|]; [|exact IH].
      rewrite (same_member ms m (MVector u n) ND I I0 E). cbn [is_scalar]. exact RI.
    - reflexivity.
    - intros u x k k' _ IH. cbn [XmlReadProps.pairs map]. fold (pairs k) (pairs k'). destruct x; cbn [read_items]; [|exact IH]. now rewrite IH.
    - intros u x y k k' _ (RS & n & a & c & a' & c' & -> & ->) _ IH. cbn [XmlReadProps.pairs map read_items]. fold (pairs k) (pairs k').
      destruct (default_fields L u) as [d|]; [|reflexivity]. rewrite !as_struct_read, (RS d), IH. reflexivity.
  Qed.
End Proof.
