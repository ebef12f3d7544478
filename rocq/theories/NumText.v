(** Numbers as people write them, and what std::stoi, std::stol and std::stoul make of them
    (process_items_ini.cpp 317-347). *)
From Coq Require Import String Ascii ZArith NArith Arith List Bool Lia.
From Verif Require Import Base Map Items Grammar Fmt Decimal Templates Emit Cpp Xml Val Rx CppSem SymLex Ast StoreDefs ResolveProps Prog Header Link EnumSem DecText EnumCall EnumRound XmlSpec IniSpec IniRange.
Import ListNotations.
Local Open Scope string_scope.
Local Open Scope list_scope.

(** *** Texts that begin with a number *)
Definition digit (c : ascii) : Z := Z.of_nat (nat_of_ascii c) - 48.
Definition digit_at (c : ascii) : bool := ((0 <=? digit c) && (digit c <=? 9))%Z.
(** Blanks, tabs and line ends. *)
Definition blank (c : ascii) : bool := existsb (Ascii.eqb c) [" "; ascii_of_nat 9; ascii_of_nat 10; ascii_of_nat 11; ascii_of_nat 12; ascii_of_nat 13]%char.
Fixpoint positional (d : string) : Z :=
  match d with
  | "" => 0
  | String c r => digit c * 10 ^ Z.of_nat (String.length r) + positional r
  end%Z.
Definition no_digit_first (r : string) : Prop := match r with String c _ => digit_at c = false | "" => True end.
Inductive sign : string -> Z -> Prop := plus0 : sign "" 1 | plus1 : sign "+" 1 | minus : sign "-" (-1).
(** Blanks, a sign perhaps, digits; what is behind them does not matter. *)
Definition numeral (s : string) (z : Z) : Prop :=
  exists b g f d r, s = (b ++ g ++ d ++ r)%string /\ chars blank b /\ sign g f /\ d <> "" /\ chars digit_at d /\ no_digit_first r /\ z = (f * positional d)%Z.

Lemma blank_space c : blank c = is_space c.
Proof. destruct c as [[] [] [] [] [] [] [] []]; reflexivity. Qed.
Lemma digit_test c : ((48 <=? nat_of_ascii c) && (nat_of_ascii c <=? 57))%nat = digit_at c.
Proof. destruct c as [[] [] [] [] [] [] [] []]; reflexivity. Qed.
Lemma digit_val c : digit_at c = true -> Z.of_nat (nat_of_ascii c - 48) = digit c.
Proof. unfold digit_at, digit. intros H. apply andb_true_iff in H as [H _]. apply Z.leb_le in H. lia. Qed.
Lemma skip_blanks b s : chars blank b -> skip_space (b ++ s) = skip_space s.
Proof. induction b as [|c b IH]; intros H; [reflexivity|]. apply chars_cons in H as [C H]. cbn [String.append skip_space]. rewrite <- blank_space, C. auto. Qed.
Lemma skip_split s : exists b, s = (b ++ skip_space s)%string /\ chars blank b.
Proof.
  induction s as [|c s (b & E & H)]; [exists ""; split; [reflexivity|apply chars_nil]|]. cbn [skip_space]. destruct (is_space c) eqn:C.
  - exists (String c b). split; [cbn; congruence|]. apply chars_cons. now rewrite blank_space.
  - exists "". split; [reflexivity|apply chars_nil].
Qed.
Lemma digits_run d : forall a any r, chars digit_at d -> no_digit_first r -> (any = true \/ d <> "") -> digits_val a any (d ++ r) = Some (a * 10 ^ Z.of_nat (String.length d) + positional d)%Z.
Proof.
  induction d as [|c d IH]; intros a any r H N A.
  - destruct A as [->|A]; [|congruence]. cbn [String.append String.length positional]. rewrite Z.add_0_r, Z.mul_1_r. destruct r as [|c r]; [reflexivity|]. cbn [digits_val no_digit_first] in *. rewrite digit_test, N. reflexivity.
  - apply chars_cons in H as [C H]. cbn [String.append digits_val]. rewrite digit_test, C, (digit_val c C). rewrite (IH _ true r H N (or_introl eq_refl)). cbn [positional String.length]. f_equal.
    rewrite Nat2Z.inj_succ, Z.pow_succ_r by lia. ring.
Qed.
Lemma digits_split s : forall a any z, digits_val a any s = Some z -> exists d r, s = (d ++ r)%string /\ chars digit_at d /\ no_digit_first r /\ (any = true \/ d <> "").
Proof.
  induction s as [|c s IH]; intros a any z H.
  - exists "", "". split; [reflexivity|]. split; [apply chars_nil|]. split; [exact Logic.I|]. left. cbn in H. now destruct any.
  - cbn [digits_val] in H. rewrite digit_test in H. destruct (digit_at c) eqn:C.
    + apply IH in H as (d & r & -> & D & N & _). exists (String c d), r. split; [reflexivity|]. split; [now apply chars_cons|]. split; [exact N|]. right. discriminate.
    + exists "", (String c s). split; [reflexivity|]. split; [apply chars_nil|]. split; [exact C|]. left. now destruct any.
Qed.
Lemma digit_no_sign c : digit_at c = true -> (c =? "-")%char = false /\ (c =? "+")%char = false /\ is_space c = false.
Proof. destruct c as [[] [] [] [] [] [] [] []]; vm_compute; auto. Qed.
Theorem scan_numeral s z : scan_dec s = Some z <-> numeral s z.
Proof.
  split.
  - intros H. unfold scan_dec in H. destruct (skip_split s) as (b & E & B). destruct (skip_space s) as [|c r]; [discriminate|].
    assert (G : forall g f q y, String c r = (g ++ q)%string -> sign g f -> digits_val 0 false q = Some y -> z = (f * y)%Z -> numeral s z).
    { intros g f q y E1 S D Z. destruct (digits_split q 0 false y D) as (d & t & -> & DD & N & [?|NE]); [discriminate|]. rewrite (digits_run d 0 false t DD N (or_intror NE)) in D. injection D as <-.
      exists b, g, f, d, t. rewrite E, E1. repeat split; auto. }
    destruct (c =? "-")%char eqn:C1; [|destruct (c =? "+")%char eqn:C2].
    + apply Ascii.eqb_eq in C1. subst c. destruct (digits_val 0 false r) as [y|] eqn:D; [|discriminate]. injection H as <-. apply (G "-" (-1)%Z r y); [reflexivity|constructor|exact D|lia].
    + apply Ascii.eqb_eq in C2. subst c. apply (G "+" 1%Z r z); [reflexivity|constructor|exact H|lia].
    + apply (G "" 1%Z (String c r) z); [reflexivity|constructor|exact H|lia].
  - intros (b & g & f & d & r & -> & B & S & NE & D & N & ->). unfold scan_dec. rewrite (skip_blanks b _ B). pose proof (digits_run d 0 false r D N (or_intror NE)) as R. cbn [Z.mul Z.add] in R.
    destruct d as [|c d]; [congruence|]. apply chars_cons in D as [C D]. destruct (digit_no_sign c C) as (C1 & C2 & C3). destruct S.
    + cbn [String.append skip_space] in *. rewrite C3, C1, C2, R. f_equal; lia.
    + change (skip_space ("+" ++ String c d ++ r)) with (String "+" (String c d ++ r)). cbn [Ascii.eqb Bool.eqb]. rewrite R. f_equal; lia.
    + change (skip_space ("-" ++ String c d ++ r)) with (String "-" (String c d ++ r)). cbn [Ascii.eqb Bool.eqb]. rewrite R. cbn [option_map]. f_equal; lia.
Qed.
Lemma numeral_one s z z' : numeral s z -> numeral s z' -> z = z'.
Proof. rewrite <- !scan_numeral. congruence. Qed.

(** *** Numbers in the types of members *)
(** What is left of [z] in [b] bits. *)
Definition in_bits (b : Z) (z w : Z) : Prop := exists k, z = (w + k * 2 ^ b)%Z.
Section Means.
  Variable L : lang.
  (** The text [s] means the value [v] for a member of the type [t]. *)
  Definition means (t : simple_type) (s : string) (v : val) : Prop :=
    exists z, numeral s z /\
    let int := (- 2 ^ 31 <= z < 2 ^ 31)%Z in
    let ulong := (- 2 ^ l_long L < z < 2 ^ l_long L)%Z in
    match t with
    | bool_E => int /\ v = VNum KBool (if Z.eq_dec z 0 then 0 else 1)%Z
    | int_E => int /\ v = VNum KInt z
    | short_E => int /\ exists w, v = VNum KShort w /\ (- 2 ^ 15 <= w < 2 ^ 15)%Z /\ in_bits 16 z w
    | long_E => (- 2 ^ (l_long L - 1) <= z < 2 ^ (l_long L - 1))%Z /\ v = VNum KLong z
    | unsigned_int_E => ulong /\ exists w, v = VNum KUInt w /\ (0 <= w < 2 ^ 32)%Z /\ in_bits 32 z w
    | unsigned_short_E => ulong /\ exists w, v = VNum KUShort w /\ (0 <= w < 2 ^ 16)%Z /\ in_bits 16 z w
    | unsigned_long_E => ulong /\ exists w, v = VNum KULong w /\ (0 <= w < 2 ^ l_long L)%Z /\ in_bits (l_long L) z w
    | _ => False
    end.
  Definition is_number (t : simple_type) : bool := match t with float_E | double_E | std_string_E => false | _ => true end.

  Lemma wrap_u b z w : (0 < b)%Z -> (wrap b false z = w <-> (0 <= w < 2 ^ b)%Z /\ in_bits b z w).
  Proof.
    intros B. unfold wrap. cbn [andb]. assert (P : (0 < 2 ^ b)%Z) by (apply Z.pow_pos_nonneg; lia). split.
    - intros <-. split; [apply Z.mod_pos_bound; exact P|]. exists (z / 2 ^ b)%Z. pose proof (Z.div_mod z (2 ^ b) ltac:(lia)). lia.
    - intros (R & k & ->). rewrite Z.mod_add by lia. now apply Z.mod_small.
  Qed.
  Lemma wrap_s b z w : (0 < b)%Z -> (wrap b true z = w <-> (- 2 ^ (b - 1) <= w < 2 ^ (b - 1))%Z /\ in_bits b z w).
  Proof.
    intros B. assert (P : (0 < 2 ^ (b - 1))%Z) by (apply Z.pow_pos_nonneg; lia). assert (D : (2 ^ b = 2 * 2 ^ (b - 1))%Z) by (rewrite <- Z.pow_succ_r by lia; f_equal; lia).
    unfold wrap. cbn [andb]. assert (M : forall w, in_bits b z w -> in_bits b z (z mod 2 ^ b)%Z /\ exists q, (z mod 2 ^ b = w + q * 2 ^ b)%Z).
    { intros w0 (k & ->). split.
      - exists ((w0 + k * 2 ^ b) / 2 ^ b)%Z. pose proof (Z.div_mod (w0 + k * 2 ^ b) (2 ^ b) ltac:(lia)). lia.
      - exists (k - (w0 + k * 2 ^ b) / 2 ^ b)%Z. pose proof (Z.div_mod (w0 + k * 2 ^ b) (2 ^ b) ltac:(lia)). lia. }
    pose proof (Z.mod_pos_bound z (2 ^ b) ltac:(lia)) as MB. pose proof (Z.div_mod z (2 ^ b) ltac:(lia)) as DM. destruct (Z.leb_spec (2 ^ (b - 1)) (z mod 2 ^ b)) as [Q|Q].
    - split.
      + intros <-. split; [lia|]. exists (z / 2 ^ b + 1)%Z. lia.
      + intros (R & I). destruct (M w I) as (_ & q & E). assert (q = 1)%Z by nia. subst q. lia.
    - split.
      + intros <-. split; [lia|]. exists (z / 2 ^ b)%Z. lia.
      + intros (R & I). destruct (M w I) as (_ & q & E). assert (q = 0)%Z by nia. subst q. lia.
  Qed.
  Lemma wrap_in b z : (0 < b)%Z -> (- 2 ^ (b - 1) <= z < 2 ^ (b - 1))%Z -> wrap b true z = z.
  Proof. intros B R. apply wrap_s; [exact B|]. split; [exact R|]. exists 0%Z. lia. Qed.

  Theorem text_means t s v : (32 <= l_long L)%Z -> is_number t = true -> (text_value L t s = Some v <-> means t s v).
  Proof.
    intros LB IN. unfold means.
    assert (INT : forall z, number L KInt s = Some z <-> numeral s z /\ (- 2 ^ 31 <= z < 2 ^ 31)%Z).
    { intros z. unfold number. cbn [signed bits]. rewrite <- scan_numeral. destruct (scan_dec s) as [y|]; [|split; [discriminate|intros [? _]; discriminate]]. change (32 - 1)%Z with 31%Z.
      destruct (_ && _)%bool eqn:E; [apply andb_true_iff in E as [E1 E2]; apply Z.leb_le in E1; apply Z.ltb_lt in E2|apply andb_false_iff in E as [E|E]; [apply Z.leb_gt in E|apply Z.ltb_ge in E]].
      - split; [intros [= <-]; auto|intros [[= <-] _]; reflexivity].
      - split; [discriminate|intros [[= <-] ?]; lia].
      - split; [discriminate|intros [[= <-] ?]; lia]. }
    assert (LONG : forall z, number L KLong s = Some z <-> numeral s z /\ (- 2 ^ (l_long L - 1) <= z < 2 ^ (l_long L - 1))%Z).
    { intros z. unfold number. cbn [signed bits]. rewrite <- scan_numeral. destruct (scan_dec s) as [y|]; [|split; [discriminate|intros [? _]; discriminate]].
      destruct (_ && _)%bool eqn:E; [apply andb_true_iff in E as [E1 E2]; apply Z.leb_le in E1; apply Z.ltb_lt in E2|apply andb_false_iff in E as [E|E]; [apply Z.leb_gt in E|apply Z.ltb_ge in E]].
      - split; [intros [= <-]; auto|intros [[= <-] _]; reflexivity].
      - split; [discriminate|intros [[= <-] ?]; lia].
      - split; [discriminate|intros [[= <-] ?]; lia]. }
    assert (UL : forall y, number L KULong s = Some y <-> exists z, numeral s z /\ (- 2 ^ l_long L < z < 2 ^ l_long L)%Z /\ y = wrap (l_long L) false z).
    { intros y. unfold number. cbn [signed bits]. destruct (scan_dec s) as [z|] eqn:SD.
      - apply scan_numeral in SD. destruct (Z.ltb_spec (Z.abs z) (2 ^ l_long L)) as [E|E].
        + split; [intros [= <-]; exists z; repeat split; auto; lia|intros (z' & N & _ & ->)]. now rewrite (numeral_one s z z' SD N).
        + split; [discriminate|intros (z' & N & R & _)]. rewrite (numeral_one s z' z N SD) in R. lia.
      - split; [discriminate|]. intros (z & N & _). apply scan_numeral in N. congruence. }
    assert (UB : forall b z w, (0 < b <= l_long L)%Z -> wrap b false (wrap (l_long L) false z) = w <-> (0 <= w < 2 ^ b)%Z /\ in_bits b z w).
    { intros b z w B. rewrite <- (wrap_u b z w) by lia. assert (E : wrap b false (wrap (l_long L) false z) = wrap b false z); [|now rewrite E].
      unfold wrap. cbn [andb]. replace (2 ^ l_long L)%Z with (2 ^ b * 2 ^ (l_long L - b))%Z by (rewrite <- Z.pow_add_r by lia; f_equal; lia).
      assert (0 < 2 ^ b)%Z by (apply Z.pow_pos_nonneg; lia). assert (0 < 2 ^ (l_long L - b))%Z by (apply Z.pow_pos_nonneg; lia).
      rewrite Z.rem_mul_r by lia. rewrite Z.mul_comm, Z.mod_add by lia. apply Z.mod_mod. lia. }
    assert (SI : forall (R : Z -> Prop) k k' (Q : Z -> val -> Prop), (forall z, number L k s = Some z <-> numeral s z /\ R z) -> (forall z, R z -> (VNum k' (to_kind L k' z) = v <-> Q z v)) ->
      (let? z := number L k s in Some (VNum k' (to_kind L k' z))) = Some v <-> exists z, numeral s z /\ R z /\ Q z v).
    { intros R k k' Q N V. split.
      - destruct (number L k s) as [z|] eqn:E; [|discriminate]. intros [= EV]. destruct (proj1 (N z) eq_refl) as [E1 E2]. exists z. split; [exact E1|]. split; [exact E2|]. now apply V.
      - intros (z & N1 & N2 & N3). assert (number L k s = Some z) as -> by (apply N; auto). f_equal. now apply V. }
    assert (SU : forall b k', (0 < b <= l_long L)%Z -> (forall y, to_kind L k' y = wrap b false y) ->
      (let? z := number L KULong s in Some (VNum k' (to_kind L k' z))) = Some v <-> exists z, numeral s z /\ (- 2 ^ l_long L < z < 2 ^ l_long L)%Z /\ exists w, v = VNum k' w /\ (0 <= w < 2 ^ b)%Z /\ in_bits b z w).
    { intros b k' B TK. split.
      - destruct (number L KULong s) as [y|] eqn:E; [|discriminate]. intros [= EV]. destruct (proj1 (UL y) eq_refl) as (z & N1 & N2 & ->). exists z. split; [exact N1|]. split; [exact N2|]. eexists. split; [symmetry; exact EV|]. rewrite TK. now apply UB.
      - intros (z & N1 & N2 & w & -> & N3). assert (number L KULong s = Some (wrap (l_long L) false z)) as -> by (apply UL; eauto). do 2 f_equal. rewrite TK. now apply UB. }
    destruct t; try discriminate; cbn [text_value]; unfold read_as.
    - apply (SI (fun z => - 2 ^ 31 <= z < 2 ^ 31)%Z KInt KBool (fun z v => v = VNum KBool (if Z.eq_dec z 0 then 0 else 1)%Z) INT). intros z _. cbn [to_kind]. destruct (Z.eqb_spec z 0), (Z.eq_dec z 0); try contradiction; split; congruence.
    - apply (SI (fun z => - 2 ^ 31 <= z < 2 ^ 31)%Z KInt KInt (fun z v => v = VNum KInt z) INT). intros z R. cbn [to_kind bits signed]. rewrite wrap_in by (try exact R; lia). split; congruence.
    - apply (SI (fun z => - 2 ^ 31 <= z < 2 ^ 31)%Z KInt KShort (fun z v => exists w, v = VNum KShort w /\ (- 2 ^ 15 <= w < 2 ^ 15)%Z /\ in_bits 16 z w) INT). intros z R. cbn [to_kind bits signed]. split.
      + intros <-. eexists. split; [reflexivity|]. now apply (wrap_s 16).
      + intros (w & -> & Q). f_equal. now apply (wrap_s 16).
    - apply (SI (fun z => - 2 ^ (l_long L - 1) <= z < 2 ^ (l_long L - 1))%Z KLong KLong (fun z v => v = VNum KLong z) LONG). intros z R. cbn [to_kind bits signed]. rewrite wrap_in by (try exact R; lia). split; congruence.
    - apply (SU 32%Z KUInt); [lia|reflexivity].
    - apply (SU 16%Z KUShort); [lia|reflexivity].
    - apply (SU (l_long L) KULong); [lia|reflexivity].
  Qed.
  (** Every number has at most one meaning. *)
  Lemma means_one t s v v' : (32 <= l_long L)%Z -> is_number t = true -> means t s v -> means t s v' -> v = v'.
  Proof. intros LB N A B. apply (text_means t s v LB N) in A. apply (text_means t s v' LB N) in B. congruence. Qed.
End Means.
