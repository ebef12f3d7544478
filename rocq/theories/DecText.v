(** Numbers as text: what is printed in base 10 is read back. *)
From Coq Require Import String Ascii ZArith NArith Arith List Bool Lia.
From Verif Require Import Base Fmt Decimal Cpp Xml Val CppSem SymLex.
Import ListNotations.
Local Open Scope string_scope.
Local Open Scope list_scope.

Definition is_digit (c : ascii) : bool := let n := nat_of_ascii c in ((48 <=? n) && (n <=? 57))%nat.

Lemma digit_code d : (d < 10)%N -> nat_of_ascii (digit_char d) = (48 + N.to_nat d)%nat.
Proof. intros H. unfold digit_char, nat_of_ascii. rewrite N_ascii_embedding by lia. lia. Qed.
Lemma digit_is d : (d < 10)%N -> is_digit (digit_char d) = true.
Proof. intros H. unfold is_digit. rewrite digit_code by auto. apply andb_true_intro. split; apply Nat.leb_le; lia. Qed.

Lemma digits_val_step a any d s : (d < 10)%N ->
  digits_val a any (String (digit_char d) s) = digits_val (a * 10 + Z.of_N d) true s.
Proof.
  intros H. cbn [digits_val]. rewrite (digit_code d H).
  assert (((48 <=? 48 + N.to_nat d) && (48 + N.to_nat d <=? 57))%nat = true) as ->
    by (apply andb_true_intro; split; apply Nat.leb_le; lia).
  f_equal. lia.
Qed.
Lemma dec_aux_digits f : forall n acc, (n < 10 ^ N.of_nat f)%N -> (0 < f)%nat ->
  exists k : nat, forall a any, digits_val a any (dec_aux f n acc) = digits_val (a * 10 ^ Z.of_nat k + Z.of_N n) true acc.
Proof.
  induction f as [|f IH]; intros n acc H P; [lia|]. cbn [dec_aux].
  assert (D : (n mod 10 < 10)%N) by (apply N.mod_lt; lia).
  destruct (N.eqb_spec (n / 10) 0) as [E|E].
  - exists 1%nat. intros a any. rewrite digits_val_step by auto. f_equal.
    pose proof (N.div_mod n 10 ltac:(lia)). rewrite Z.pow_1_r. lia.
  - assert (H10 : (n / 10 < 10 ^ N.of_nat f)%N).
    { apply N.div_lt_upper_bound; [lia|]. rewrite <- N.pow_succ_r'. now rewrite <- Nat2N.inj_succ. }
    destruct f as [|f]; [exfalso; change (10 ^ N.of_nat 0)%N with 1%N in H10; apply E; now apply N.lt_1_r|].
    destruct (IH (n / 10)%N (String (digit_char (n mod 10)) acc) H10 ltac:(lia)) as [k K].
    exists (S k). intros a any. rewrite K, digits_val_step by auto. f_equal.
    pose proof (N.div_mod n 10 ltac:(lia)) as M. rewrite Nat2Z.inj_succ, Z.pow_succ_r by lia. lia.
Qed.
Lemma log_bound n : (n < 10 ^ N.of_nat (S (N.to_nat (N.log2 n))))%N.
Proof.
  rewrite Nat2N.inj_succ, N2Nat.id. destruct n as [|p]; [reflexivity|].
  pose proof (N.log2_spec (N.pos p) ltac:(lia)) as [_ H].
  eapply N.lt_le_trans; [exact H|]. apply N.pow_le_mono_l. lia.
Qed.
Lemma digits_val_dec n : forall any, digits_val 0 any (dec n) = Some (Z.of_N n).
Proof.
  intros any. unfold dec. destruct (dec_aux_digits _ n "" (log_bound n) ltac:(lia)) as [k K].
  rewrite K. cbn. reflexivity.
Qed.

(** Only digits, at least one. *)
Lemma dec_aux_all f : forall n acc, all_chars is_digit acc = true -> all_chars is_digit (dec_aux f n acc) = true.
Proof.
  induction f as [|f IH]; intros n acc H; [exact H|]. cbn [dec_aux].
  assert (D : (n mod 10 < 10)%N) by (apply N.mod_lt; lia).
  assert (G : all_chars is_digit (String (digit_char (n mod 10)) acc) = true) by (cbn [all_chars]; now rewrite (digit_is _ D), H).
  destruct (n / 10 =? 0)%N; auto.
Qed.
Lemma dec_all n : all_chars is_digit (dec n) = true.
Proof. now apply dec_aux_all. Qed.
Lemma dec_nonempty n : exists c s, dec n = String c s.
Proof.
  unfold dec. cbn [dec_aux]. destruct (n / 10 =? 0)%N; [eauto|].
  assert (G : forall f m c s, exists c' s', dec_aux f m (String c s) = String c' s').
  { induction f as [|f IH]; intros m c s; cbn [dec_aux]; [eauto|]. destruct (m / 10 =? 0)%N; [eauto | apply IH]. }
  apply G.
Qed.
Definition dec_chr (c : ascii) : bool := (is_digit c || (c =? "-")%char)%bool.
Lemma all_chars_impl (p q : ascii -> bool) s : (forall c, p c = true -> q c = true) -> all_chars p s = true -> all_chars q s = true.
Proof. intros H. induction s; cbn; [auto|]. rewrite !andb_true_iff. intuition. Qed.
Lemma zdec_all z : all_chars dec_chr (zdec z) = true.
Proof.
  assert (G : forall n, all_chars dec_chr (dec n) = true).
  { intros n. apply (all_chars_impl is_digit); [|apply dec_all]. intros c H. unfold dec_chr. now rewrite H. }
  destruct z; cbn [zdec]; try apply G.
Qed.
Lemma zdec_nonempty z : exists c s, zdec z = String c s.
Proof. destruct z; cbn [zdec]; [apply dec_nonempty | apply dec_nonempty | eauto]. Qed.

(** Characters a number is made of. *)
Lemma digit_cases (P : ascii -> Prop) : (forall d, (d < 10)%nat -> P (ascii_of_nat (48 + d))) ->
  forall c, is_digit c = true -> P c.
Proof.
  intros H c. unfold is_digit. rewrite andb_true_iff, !Nat.leb_le. intros [A B].
  rewrite <- (ascii_nat_embedding c). replace (nat_of_ascii c) with (48 + (nat_of_ascii c - 48))%nat by lia. apply H. lia.
Qed.
Lemma dec_chr_cases (P : ascii -> Prop) : P "-"%char -> (forall d, (d < 10)%nat -> P (ascii_of_nat (48 + d))) ->
  forall c, dec_chr c = true -> P c.
Proof.
  intros H0 H c. unfold dec_chr. rewrite orb_true_iff. intros [D|D]; [now apply (digit_cases P)|].
  apply Ascii.eqb_eq in D. now subst.
Qed.
Ltac ten d := do 10 (destruct d as [|d]; [reflexivity|]); exfalso; lia.
Lemma dec_chr_space c : dec_chr c = true -> is_space c = false.
Proof. apply (dec_chr_cases (fun c => is_space c = false)); [reflexivity|]. intros d H. ten d. Qed.
Lemma skip_space_none c s : is_space c = false -> skip_space (String c s) = String c s.
Proof. intros H. cbn [skip_space]. now rewrite H. Qed.
Lemma skip_space_zdec z : skip_space (zdec z) = zdec z.
Proof.
  destruct (zdec_nonempty z) as (c & s & E). pose proof (zdec_all z) as A. rewrite E in *.
  cbn [all_chars] in A. apply andb_prop in A as [A _]. apply skip_space_none, dec_chr_space, A.
Qed.
Lemma blank_zdec z : blank (zdec z) = false.
Proof. unfold blank. rewrite skip_space_zdec. destruct (zdec_nonempty z) as (c & s & ->). reflexivity. Qed.

Lemma digit_sign c : is_digit c = true -> (c =? "-")%char = false /\ (c =? "+")%char = false.
Proof. apply (digit_cases (fun c => (c =? "-")%char = false /\ (c =? "+")%char = false)). intros d H. do 10 (destruct d as [|d]; [split; reflexivity|]); exfalso; lia. Qed.
Lemma scan_dec_zdec z : scan_dec (zdec z) = Some z.
Proof.
  unfold scan_dec. rewrite skip_space_zdec.
  assert (G : forall n, match dec n with
    | String c r => if (c =? "-")%char then option_map Z.opp (digits_val 0 false r)
                    else if (c =? "+")%char then digits_val 0 false r else digits_val 0 false (String c r)
    | EmptyString => None end = Some (Z.of_N n)).
  { intros n. destruct (dec_nonempty n) as (c & s & E). pose proof (dec_all n) as A. pose proof (digits_val_dec n false) as D.
    rewrite E in *. cbn [all_chars] in A. apply andb_prop in A as [A _]. destruct (digit_sign c A) as [-> ->]. exact D. }
  destruct z as [|p|p]; cbn [zdec]; [exact (G 0%N) | exact (G (Npos p)) |].
  cbn [Ascii.eqb]. change (("-" =? "-")%char) with true. cbn iota. now rewrite digits_val_dec.
Qed.
Lemma hex_prefix_zdec z : hex_prefix (zdec z) = None.
Proof.
  unfold hex_prefix. rewrite skip_space_zdec.
  destruct (zdec_nonempty z) as (c & s & E). pose proof (zdec_all z) as A. rewrite E in *.
  cbn [all_chars] in A. apply andb_prop in A as [A1 A2].
  assert (G : forall c2 r, s = String c2 r -> ((c2 =? "x") || (c2 =? "X"))%char%bool = false).
  { intros c2 r ->. cbn [all_chars] in A2. apply andb_prop in A2 as [A2 _]. clear E. revert c2 A2.
    apply (dec_chr_cases (fun c2 => ((c2 =? "x") || (c2 =? "X"))%char%bool = false)); [reflexivity|]. intros d H. ten d. }
  destruct s as [|c2 r]; [now repeat (destruct c as [[] [] [] [] [] [] [] []]; try reflexivity)|].
  specialize (G c2 r eq_refl). rewrite G. now destruct c as [[] [] [] [] [] [] [] []].
Qed.

(** *** The conversions of tinyxml2 and of the standard library *)
Lemma to_int_zdec z : in_int z = true -> to_int (zdec z) = Value z.
Proof. intros H. unfold to_int. now rewrite hex_prefix_zdec, scan_dec_zdec, H. Qed.
Lemma wrap_small b z : (0 <= z < 2 ^ b)%Z -> wrap b false z = z.
Proof. intros H. unfold wrap. cbn [andb]. now apply Z.mod_small. Qed.
Lemma wrap_signed b z : (0 < b)%Z -> (- 2 ^ (b - 1) <= z < 2 ^ (b - 1))%Z -> wrap b true z = z.
Proof.
  intros B H. unfold wrap. cbn [andb].
  assert (E : (2 ^ b = 2 * 2 ^ (b - 1))%Z) by (rewrite <- Z.pow_succ_r by lia; f_equal; lia).
  assert (P : (0 < 2 ^ (b - 1))%Z) by (apply Z.pow_pos_nonneg; lia).
  destruct (Z.leb_spec 0 z).
  - rewrite Z.mod_small by lia. destruct (Z.leb_spec (2 ^ (b - 1)) z); lia.
  - assert (M : (z mod 2 ^ b = z + 2 ^ b)%Z).
    { symmetry. apply (Z.mod_unique z (2 ^ b) (-1)); lia. }
    rewrite M. destruct (Z.leb_spec (2 ^ (b - 1)) (z + 2 ^ b)); lia.
Qed.
Lemma to_unsigned_zdec z : in_uint z = true -> to_unsigned (zdec z) = Value z.
Proof.
  intros H. unfold to_unsigned. rewrite hex_prefix_zdec, scan_dec_zdec.
  assert (R : (0 <= z < 2 ^ 32)%Z) by (unfold in_uint in H; lia).
  rewrite Z.abs_eq by lia. rewrite H. f_equal. now apply wrap_small.
Qed.
Lemma to_bool_text z : to_bool (if (z =? 0)%Z then "false" else "true") = Value (if (z =? 0)%Z then 0 else 1).
Proof. destruct (z =? 0)%Z; reflexivity. Qed.

(** *** Texts that are passed on unchanged *)
Definition no_nul (s : string) : bool := all_chars (fun c => negb (c =? ascii_of_nat 0)%char) s.
Definition no_cr (s : string) : bool := all_chars (fun c => negb (c =? cr)%char) s.
Lemma cut_id s : no_nul s = true -> cut s = s.
Proof.
  unfold no_nul. induction s as [|c s IH]; cbn [all_chars cut]; [auto|]. rewrite andb_true_iff, negb_true_iff. intros [-> H].
  now rewrite IH.
Qed.
Lemma cut_no_nul s : no_nul (cut s) = true.
Proof. unfold no_nul. induction s as [|c s IH]; cbn [cut]; [reflexivity|]. destruct (c =? ascii_of_nat 0)%char eqn:E; [reflexivity|]. cbn [all_chars]. now rewrite E, IH. Qed.
Lemma newlines_id s : no_cr s = true -> newlines s = s.
Proof.
  assert (G : forall n s, (String.length s <= n)%nat -> no_cr s = true -> newlines s = s).
  { unfold no_cr. induction n as [|n IH]; intros [|c [|d r]] L H; try reflexivity; cbn [String.length] in L; try lia.
    - cbn [all_chars] in H. rewrite !andb_true_iff, !negb_true_iff in H. destruct H as [H _]. cbn [newlines]. now rewrite H.
    - cbn [all_chars] in H. rewrite !andb_true_iff, !negb_true_iff in H. destruct H as (H1 & H2 & H3).
      change (newlines (String c (String d r))) with
        (if ((c =? cr) && (d =? nl) || (c =? nl) && (d =? cr))%char%bool then String nl (newlines r)
         else String (if (c =? cr)%char then nl else c) (newlines (String d r))).
      rewrite H1, H2, andb_false_r. cbn [andb orb]. f_equal.
      apply (IH (String d r)); [cbn [String.length]; lia|]. cbn [all_chars]. now rewrite H2, H3. }
  apply (G (String.length s)). lia.
Qed.
Lemma dec_no_nul z : no_nul (zdec z) = true.
Proof.
  apply (all_chars_impl dec_chr); [|apply zdec_all]. apply (dec_chr_cases (fun c => negb (c =? ascii_of_nat 0)%char = true)); [reflexivity|]. intros d H. ten d.
Qed.
Lemma dec_no_cr z : no_cr (zdec z) = true.
Proof.
  apply (all_chars_impl dec_chr); [|apply zdec_all]. apply (dec_chr_cases (fun c => negb (c =? cr)%char = true)); [reflexivity|]. intros d H. ten d.
Qed.

(** Names. *)
Lemma ident_all s : ident s = true -> all_chars is_idc s = true.
Proof. exact (ident_idc s). Qed.
Lemma idc_cases (p : ascii -> bool) :
  (forall n, (n < 256)%nat -> is_idc (ascii_of_nat n) = true -> p (ascii_of_nat n) = true) -> forall c, is_idc c = true -> p c = true.
Proof. intros H c. rewrite <- (ascii_nat_embedding c). apply H. apply nat_ascii_bounded. Qed.
Lemma ident_no_nul s : ident s = true -> no_nul s = true.
Proof.
  intros H. apply ident_all in H. apply (all_chars_impl is_idc); [|exact H]. intros c.
  destruct c as [[] [] [] [] [] [] [] []]; (reflexivity || discriminate).
Qed.
Lemma ident_no_cr s : ident s = true -> no_cr s = true.
Proof.
  intros H. apply ident_all in H. apply (all_chars_impl is_idc); [|exact H]. intros c.
  destruct c as [[] [] [] [] [] [] [] []]; (reflexivity || discriminate).
Qed.
Lemma ident_first s : ident s = true -> exists c r, s = String c r /\ dec_chr c = false /\ is_space c = false.
Proof.
  destruct s as [|c r]; [discriminate|]. cbn [ident]. intros H. apply andb_prop in H as [H _]. exists c, r. split; [reflexivity|].
  destruct c as [[] [] [] [] [] [] [] []]; (split; reflexivity) || discriminate.
Qed.
Lemma ident_not_zdec s z : ident s = true -> s <> zdec z.
Proof.
  intros H ->. apply ident_first in H as (c & r & E & D & _). pose proof (zdec_all z) as A. rewrite E in A.
  cbn [all_chars] in A. apply andb_prop in A as [A _]. congruence.
Qed.
Lemma ident_not_blank s : ident s = true -> blank s = false.
Proof. intros H. apply ident_first in H as (c & r & -> & _ & S). unfold blank. now rewrite skip_space_none. Qed.
