(** Regular expressions over bytes: declarative language, nullability and
    derivatives.  Pure specification library: nothing in this file models stfx
    code; it gives the meaning of the patterns of struct_lex.l. *)
From Coq Require Import NArith List Bool Ascii Lia.
Import ListNotations.
Local Open Scope N_scope.

(** A set of bytes: union of inclusive ranges, possibly complemented. *)
Record bset := BSet { bs_neg : bool; bs_ranges : list (N * N) }.

Definition in_ranges (rs : list (N * N)) (n : N) : bool :=
  existsb (fun r => (fst r <=? n) && (n <=? snd r)) rs.

Definition bset_mem (s : bset) (c : ascii) : bool :=
  xorb (bs_neg s) (in_ranges (bs_ranges s) (N_of_ascii c)).

Inductive re : Type :=
| Void : re
| Eps : re
| Chr : bset -> re
| Alt : re -> re -> re
| Seq : re -> re -> re
| Star : re -> re.

(** [lang r s]: the byte string [s] is matched by [r]. *)
Inductive lang : re -> list ascii -> Prop :=
| L_eps : lang Eps []
| L_chr : forall s c, bset_mem s c = true -> lang (Chr s) [c]
| L_altl : forall a b s, lang a s -> lang (Alt a b) s
| L_altr : forall a b s, lang b s -> lang (Alt a b) s
| L_seq : forall a b s t, lang a s -> lang b t -> lang (Seq a b) (s ++ t)
| L_star0 : forall a, lang (Star a) []
| L_star1 : forall a s t, lang a s -> lang (Star a) t -> lang (Star a) (s ++ t).

(** Decidable equality of syntax. *)
Fixpoint ranges_eqb (a b : list (N * N)) : bool :=
  match a, b with
  | [], [] => true
  | (x, y) :: a', (x', y') :: b' => (x =? x') && (y =? y') && ranges_eqb a' b'
  | _, _ => false
  end.

Definition bset_eqb (a b : bset) : bool :=
  Bool.eqb (bs_neg a) (bs_neg b) && ranges_eqb (bs_ranges a) (bs_ranges b).

Fixpoint re_eqb (a b : re) : bool :=
  match a, b with
  | Void, Void => true
  | Eps, Eps => true
  | Chr s, Chr t => bset_eqb s t
  | Alt a1 a2, Alt b1 b2 => re_eqb a1 b1 && re_eqb a2 b2
  | Seq a1 a2, Seq b1 b2 => re_eqb a1 b1 && re_eqb a2 b2
  | Star a1, Star b1 => re_eqb a1 b1
  | _, _ => false
  end.

Lemma ranges_eqb_eq a b : ranges_eqb a b = true -> a = b.
Proof.
  revert b; induction a as [|[x y] a IH]; destruct b as [|[x' y'] b]; cbn; try discriminate; auto.
  rewrite !andb_true_iff; intros [[H1 H2] H3].
  apply N.eqb_eq in H1, H2. f_equal; [congruence | auto].
Qed.

Lemma bset_eqb_eq a b : bset_eqb a b = true -> a = b.
Proof.
  destruct a as [n r], b as [n' r']; unfold bset_eqb; cbn.
  rewrite andb_true_iff; intros [H1 H2].
  apply eqb_prop in H1. apply ranges_eqb_eq in H2. congruence.
Qed.

Lemma re_eqb_eq a b : re_eqb a b = true -> a = b.
Proof.
  revert b; induction a as [| |t|a1 IH1 a2 IH2|a1 IH1 a2 IH2|a1 IH1];
    intros [| |t'|b1 b2|b1 b2|b1]; cbn; try discriminate; auto;
    try (rewrite andb_true_iff; intros [H1 H2]; f_equal; auto).
  - intros H; f_equal; apply bset_eqb_eq; auto.
  - intros H; f_equal; auto.
Qed.

Fixpoint nullable (r : re) : bool :=
  match r with
  | Void => false | Eps => true | Chr _ => false
  | Alt a b => nullable a || nullable b
  | Seq a b => nullable a && nullable b
  | Star _ => true
  end.

(** Smart constructors. *)
Fixpoint alt_mem (x r : re) : bool :=
  re_eqb x r || match r with Alt a b => alt_mem x a || re_eqb x b | _ => false end.

(* [add_alt a b]: add the (flattened) alternatives of [b] to [a], dropping duplicates *)
Definition alt1 (a x : re) : re :=
  match a, x with
  | _, Void => a
  | Void, _ => x
  | _, _ => if alt_mem x a then a else Alt a x
  end.

Fixpoint alt (a b : re) : re :=
  match b with
  | Alt b1 b2 => alt (alt a b1) b2
  | _ => alt1 a b
  end.

Definition seq (a b : re) : re :=
  match a, b with
  | Void, _ => Void
  | _, Void => Void
  | Eps, _ => b
  | _, _ => Seq a b
  end.

Fixpoint deriv (c : ascii) (r : re) : re :=
  match r with
  | Void => Void
  | Eps => Void
  | Chr s => if bset_mem s c then Eps else Void
  | Alt a b => alt (deriv c a) (deriv c b)
  | Seq a b =>
      if nullable a then alt (seq (deriv c a) b) (deriv c b)
      else seq (deriv c a) b
  | Star a => seq (deriv c a) (Star a)
  end.

(** ** Correctness *)

Lemma lang_void s : ~ lang Void s.
Proof. inversion 1. Qed.

Lemma lang_alt a b s : lang (Alt a b) s <-> lang a s \/ lang b s.
Proof.
  split; [inversion 1; subst; auto | intros [H|H]; [apply L_altl | apply L_altr]; auto].
Qed.

Lemma lang_seq a b s : lang (Seq a b) s <-> exists u v, s = u ++ v /\ lang a u /\ lang b v.
Proof.
  split; [inversion 1; subst; eauto 6 | intros (u & v & -> & H1 & H2); apply L_seq; auto].
Qed.

Lemma lang_eps s : lang Eps s <-> s = [].
Proof. split; [inversion 1; auto | intros ->; constructor]. Qed.

Lemma nullable_lang r : nullable r = true <-> lang r [].
Proof.
  induction r; cbn.
  - split; [discriminate | inversion 1].
  - split; constructor.
  - split; [discriminate | inversion 1].
  - rewrite orb_true_iff, lang_alt. tauto.
  - rewrite andb_true_iff, lang_seq. split.
    + intros [H1 H2]. exists [], []. repeat split; tauto.
    + intros (u & v & Huv & H1 & H2). symmetry in Huv. apply app_eq_nil in Huv as [-> ->]. tauto.
  - split; constructor.
Qed.

Lemma alt_mem_lang x r s : alt_mem x r = true -> lang x s -> lang r s.
Proof.
  induction r; cbn [alt_mem]; rewrite ?orb_true_iff; intros H Hx;
    repeat match goal with
           | H : _ \/ _ |- _ => destruct H as [H|H]
           | H : re_eqb _ _ = true |- _ => apply re_eqb_eq in H; subst
           end; auto; try discriminate.
  - apply L_altl; auto.
  - apply L_altr; auto.
Qed.

Lemma alt1_lang a x s : lang (alt1 a x) s <-> lang a s \/ lang x s.
Proof.
  assert (H0 : forall s, lang Void s <-> False) by (intros; split; [apply lang_void | tauto]).
  assert (Hg : forall a x, lang (if alt_mem x a then a else Alt a x) s <-> lang a s \/ lang x s).
  { intros a' x'. destruct (alt_mem x' a') eqn:E.
    - pose proof (alt_mem_lang x' a' s E). tauto.
    - apply lang_alt. }
  unfold alt1. destruct x; try (destruct a); rewrite ?H0; try tauto; apply Hg.
Qed.

Lemma alt_lang a b s : lang (alt a b) s <-> lang a s \/ lang b s.
Proof.
  revert a; induction b; intros a; cbn [alt]; try apply alt1_lang.
  rewrite IHb2, IHb1, lang_alt. tauto.
Qed.

Lemma seq_lang a b s : lang (seq a b) s <-> lang (Seq a b) s.
Proof.
  assert (HV1 : forall b, lang (Seq Void b) s <-> False).
  { intros b'; rewrite lang_seq; split; [intros (u & v & _ & H & _); inversion H | tauto]. }
  assert (HV2 : forall a, lang (Seq a Void) s <-> False).
  { intros a'; rewrite lang_seq; split; [intros (u & v & _ & _ & H); inversion H | tauto]. }
  assert (HE : forall b, lang (Seq Eps b) s <-> lang b s).
  { intros b'; rewrite lang_seq; split.
    - intros (u & v & -> & H1 & H2). apply lang_eps in H1; subst; auto.
    - intros H; exists [], s; repeat split; auto; constructor. }
  assert (HVoid : lang Void s <-> False) by (split; [apply lang_void | tauto]).
  unfold seq.
  destruct a, b; rewrite ?HV1, ?HV2, ?HE, ?HVoid; tauto.
Qed.

Lemma lang_star_cons a c s :
  lang (Star a) (c :: s) -> exists u v, s = u ++ v /\ lang a (c :: u) /\ lang (Star a) v.
Proof.
  intros H. remember (Star a) as r eqn:Er. remember (c :: s) as t eqn:Et.
  revert a c s Er Et. induction H; intros; try discriminate.
  injection Er as ->. destruct s as [|c' s].
  - cbn in Et. apply IHlang2; auto.
  - cbn in Et. injection Et as -> <-. exists s, t. auto.
Qed.

Theorem deriv_lang c r s : lang (deriv c r) s <-> lang r (c :: s).
Proof.
  revert s; induction r; intros s; cbn [deriv].
  - split; inversion 1.
  - split; inversion 1.
  - destruct (bset_mem b c) eqn:E.
    + rewrite lang_eps; split; [intros ->; constructor; auto | inversion 1; auto].
    + split; [inversion 1 | inversion 1; subst; congruence].
  - rewrite alt_lang, IHr1, IHr2, lang_alt. tauto.
  - assert (Hd : lang (seq (deriv c r1) r2) s <->
                 exists u v, s = u ++ v /\ lang r1 (c :: u) /\ lang r2 v).
    { rewrite seq_lang, lang_seq. split; intros (u & v & H1 & H2 & H3); exists u, v;
        repeat split; auto; apply IHr1; auto. }
    assert (Hs : lang (Seq r1 r2) (c :: s) <->
                 (exists u v, s = u ++ v /\ lang r1 (c :: u) /\ lang r2 v)
                 \/ (lang r1 [] /\ lang r2 (c :: s))).
    { rewrite lang_seq. split.
      - intros (u & v & Huv & H1 & H2). destruct u as [|c' u].
        + cbn in Huv; subst. right; auto.
        + cbn in Huv. injection Huv as <- ->. left; eauto.
      - intros [(u & v & -> & H1 & H2) | [H1 H2]].
        + exists (c :: u), v; auto.
        + exists [], (c :: s); auto. }
    rewrite Hs. destruct (nullable r1) eqn:E.
    + rewrite alt_lang, Hd, IHr2. apply nullable_lang in E. tauto.
    + rewrite Hd. split; [tauto|]. intros [H|[H _]]; auto.
      apply nullable_lang in H; congruence.
  - rewrite seq_lang, lang_seq. split.
    + intros (u & v & -> & H1 & H2). apply IHr in H1.
      change (c :: u ++ v) with ((c :: u) ++ v). constructor; auto.
    + intros H. apply lang_star_cons in H as (u & v & -> & H1 & H2).
      exists u, v. repeat split; auto. apply IHr; auto.
Qed.

(** Two bytes that no byte set of [r] separates have the same derivative. *)
Fixpoint sets_of (r : re) : list bset :=
  match r with
  | Void | Eps => []
  | Chr s => [s]
  | Alt a b | Seq a b => sets_of a ++ sets_of b
  | Star a => sets_of a
  end.

Lemma deriv_same c d r :
  (forall s, In s (sets_of r) -> bset_mem s c = bset_mem s d) -> deriv c r = deriv d r.
Proof.
  induction r; cbn [deriv sets_of]; intros H; auto.
  - rewrite (H b); cbn; auto.
  - rewrite IHr1, IHr2; auto; intros; apply H; apply in_or_app; auto.
  - rewrite IHr1, IHr2; auto; intros; apply H; apply in_or_app; auto.
  - rewrite IHr; auto.
Qed.
