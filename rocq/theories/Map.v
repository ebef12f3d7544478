(** std::map<std::string, A>: a list sorted by key.  std::string's operator<
    compares bytes as unsigned char, which is [String.compare]. *)
From Coq Require Import String Ascii NArith Arith List Bool Lia Sorted.
Import ListNotations.

Definition slt (a b : string) : Prop := String.compare a b = Lt.

Lemma compare_refl a : String.compare a a = Eq.
Proof. induction a as [|c a IH]; cbn; auto. unfold Ascii.compare. rewrite N.compare_refl. auto. Qed.

Lemma ascii_compare_lt_trans a b c :
  Ascii.compare a b = Lt -> Ascii.compare b c = Lt -> Ascii.compare a c = Lt.
Proof. unfold Ascii.compare. rewrite !N.compare_lt_iff. lia. Qed.

Lemma slt_trans a b c : slt a b -> slt b c -> slt a c.
Proof.
  unfold slt. revert b c; induction a as [|x a IH]; intros [|y b] [|z c]; cbn; try discriminate; auto.
  destruct (Ascii.compare x y) eqn:E1; destruct (Ascii.compare y z) eqn:E2; try discriminate;
    intros H1 H2.
  - apply Ascii.compare_eq_iff in E1, E2; subst.
    assert (Ascii.compare z z = Eq) as -> by (unfold Ascii.compare; apply N.compare_refl). eauto.
  - apply Ascii.compare_eq_iff in E1; subst. rewrite E2. auto.
  - apply Ascii.compare_eq_iff in E2; subst. rewrite E1. auto.
  - rewrite (ascii_compare_lt_trans _ _ _ E1 E2). auto.
Qed.

Lemma slt_irrefl a : ~ slt a a.
Proof. unfold slt. rewrite compare_refl. discriminate. Qed.

Lemma compare_gt a b : String.compare a b = Gt -> slt b a.
Proof. unfold slt. intros H. rewrite String.compare_antisym, H. reflexivity. Qed.

Lemma slt_neq a b : slt a b -> a <> b.
Proof. intros H ->. apply (slt_irrefl _ H). Qed.

Section Map.
Context {A : Type}.
Definition smap := list (string * A).

Definition ltk (p q : string * A) : Prop := slt (fst p) (fst q).
Definition sorted (m : smap) : Prop := StronglySorted ltk m.

(** map::find *)
Fixpoint mfind (k : string) (m : smap) : option A :=
  match m with
  | [] => None
  | (k', a) :: m' => if String.eqb k k' then Some a else mfind k m'
  end.

(** m[k] = a *)
Fixpoint mset (k : string) (a : A) (m : smap) : smap :=
  match m with
  | [] => [(k, a)]
  | (k', a') :: m' =>
      match String.compare k k' with
      | Lt => (k, a) :: m
      | Eq => (k, a) :: m'
      | Gt => (k', a') :: mset k a m'
      end
  end.

(** Change of the mapped value of an existing key through a pointer or iterator. *)
Fixpoint mupd (k : string) (f : A -> A) (m : smap) : smap :=
  match m with
  | [] => []
  | (k', a) :: m' => if String.eqb k k' then (k', f a) :: m' else (k', a) :: mupd k f m'
  end.

Definition mkeys (m : smap) : list string := map fst m.

Lemma mfind_in k m a : mfind k m = Some a -> In (k, a) m.
Proof.
  induction m as [|[k' a'] m IH]; cbn; [discriminate|].
  destruct (String.eqb_spec k k'); [intros [= ->]; subst; auto | auto].
Qed.

Lemma mfind_none k m : mfind k m = None <-> ~ In k (mkeys m).
Proof.
  induction m as [|[k' a'] m IH]; cbn; [tauto|].
  destruct (String.eqb_spec k k'); [subst; split; [discriminate|tauto] |].
  rewrite IH. firstorder.
Qed.

Lemma mfind_some k m : In k (mkeys m) <-> exists a, mfind k m = Some a.
Proof.
  destruct (mfind k m) eqn:E; split; eauto.
  - intros _. unfold mkeys. apply mfind_in in E. apply (in_map fst) in E. auto.
  - intros H. apply mfind_none in E. tauto.
  - intros [a H]; discriminate.
Qed.

Lemma sorted_lt k a m : sorted ((k, a) :: m) -> forall k', In k' (mkeys m) -> slt k k'.
Proof.
  intros H k' Hin. inversion H as [|? ? _ Hf]; subst. rewrite Forall_forall in Hf.
  unfold mkeys in Hin. apply in_map_iff in Hin as ((k2 & a2) & <- & Hin). apply (Hf _ Hin).
Qed.

Lemma mfind_lt k m : sorted m -> (forall k', In k' (mkeys m) -> slt k k') -> mfind k m = None.
Proof. intros _ H. apply mfind_none. intros Hin. apply (slt_irrefl k), H, Hin. Qed.

Lemma mset_keys k a m k' : In k' (mkeys (mset k a m)) <-> k' = k \/ In k' (mkeys m).
Proof.
  induction m as [|[k2 a2] m IH]; cbn; [intuition|].
  destruct (String.compare k k2) eqn:E; cbn.
  - apply String.compare_eq_iff in E; subst. intuition.
  - intuition.
  - rewrite IH. intuition.
Qed.

Lemma mset_sorted k a m : sorted m -> sorted (mset k a m).
Proof.
  induction m as [|[k2 a2] m IH]; cbn; intros Hs.
  - constructor; constructor.
  - pose proof (sorted_lt _ _ _ Hs) as Hlt. inversion Hs as [|? ? Hs' Hf]; subst.
    destruct (String.compare k k2) eqn:E.
    + apply String.compare_eq_iff in E; subst. constructor; auto.
    + constructor; auto. constructor; auto. rewrite Forall_forall in *. intros [k3 a3] Hin.
      apply (slt_trans _ k2); [exact E|]. apply (Hf _ Hin).
    + constructor; [apply IH; auto|]. rewrite Forall_forall. intros [k3 a3] Hin.
      unfold ltk; cbn. apply (in_map fst) in Hin. cbn in Hin. apply mset_keys in Hin as [->|Hin].
      * apply compare_gt; auto.
      * apply Hlt; auto.
Qed.

Lemma mfind_mset k a m k' : sorted m ->
  mfind k' (mset k a m) = if String.eqb k' k then Some a else mfind k' m.
Proof.
  induction m as [|[k2 a2] m IH]; cbn; intros Hs; [reflexivity|].
  pose proof (sorted_lt _ _ _ Hs) as Hlt. inversion Hs as [|? ? Hs' Hf]; subst.
  destruct (String.compare k k2) eqn:E; cbn.
  - apply String.compare_eq_iff in E; subst. destruct (String.eqb k' k2); auto.
  - reflexivity.
  - rewrite IH by auto. destruct (String.eqb_spec k' k2); [|reflexivity]. subst.
    destruct (String.eqb_spec k2 k); [|reflexivity]. subst. rewrite compare_refl in E; discriminate.
Qed.

Lemma mupd_keys k f m : mkeys (mupd k f m) = mkeys m.
Proof.
  induction m as [|[k' a] m IH]; cbn; auto. destruct (String.eqb k k'); cbn; auto. f_equal; auto.
Qed.

Lemma sorted_keys (m m' : smap) : mkeys m = mkeys m' -> sorted m -> sorted m'.
Proof.
  revert m'; induction m as [|[k a] m IH]; intros [|[k' a'] m'] E Hs; try discriminate; auto.
  cbn in E. injection E as <- E. pose proof (sorted_lt _ _ _ Hs) as Hlt.
  inversion Hs; subst. constructor; [eapply IH; eauto|]. rewrite Forall_forall. intros [k2 a2] Hin.
  apply Hlt. unfold mkeys. rewrite E. apply (in_map fst) in Hin. exact Hin.
Qed.

Lemma mupd_sorted k f m : sorted m -> sorted (mupd k f m).
Proof. apply sorted_keys. rewrite mupd_keys. reflexivity. Qed.

Lemma mfind_mupd k f m k' :
  mfind k' (mupd k f m) = if String.eqb k' k then option_map f (mfind k' m) else mfind k' m.
Proof.
  induction m as [|[k2 a] m IH]; cbn.
  - destruct (String.eqb k' k); auto.
  - destruct (String.eqb_spec k k2); cbn.
    + subst. destruct (String.eqb_spec k' k2); auto.
    + rewrite IH. destruct (String.eqb_spec k' k2); auto. subst.
      destruct (String.eqb_spec k2 k); congruence.
Qed.

(** Two sorted maps with the same lookups are equal. *)
Lemma sorted_ext (m m' : smap) : sorted m -> sorted m' ->
  (forall k, mfind k m = mfind k m') -> m = m'.
Proof.
  revert m'; induction m as [|[k a] m IH]; intros m' Hs Hs' H.
  - destruct m' as [|[k' a'] m']; auto. specialize (H k'). cbn in H.
    rewrite String.eqb_refl in H. discriminate.
  - destruct m' as [|[k' a'] m']; [specialize (H k); cbn in H; rewrite String.eqb_refl in H; discriminate|].
    pose proof (sorted_lt _ _ _ Hs) as Hlt. pose proof (sorted_lt _ _ _ Hs') as Hlt'.
    assert (k = k').
    { pose proof (H k) as H1. pose proof (H k') as H2. cbn in H1, H2.
      rewrite String.eqb_refl in H1, H2.
      destruct (String.eqb_spec k k') as [|n]; auto. destruct (String.eqb_spec k' k) as [|n']; auto.
      symmetry in H1.
      assert (Hk : In k (mkeys m')) by (apply mfind_some; eauto).
      assert (Hk' : In k' (mkeys m)) by (apply mfind_some; eauto).
      exfalso. apply (slt_irrefl k). eapply slt_trans; eauto. }
    subst k'. pose proof (H k) as Hk. cbn in Hk. rewrite String.eqb_refl in Hk. injection Hk as ->.
    f_equal. inversion Hs; inversion Hs'; subst. apply IH; auto.
    intros k2. specialize (H k2). cbn in H. destruct (String.eqb_spec k2 k); auto. subst.
    rewrite !mfind_lt; auto.
Qed.
End Map.
Arguments smap : clear implicits.

Example map_ex : mkeys (mset "b" 1 (mset "B" 2 (mset "a_" 3 (mset "ab" 4 []))))%string
  = ["B"; "a_"; "ab"; "b"]%string.
Proof. reflexivity. Qed.
