(** What the texts in xml files mean for the members of a struct, and for which files reading
    has undefined behaviour. *)
From Coq Require Import String Ascii ZArith NArith Arith List Bool Lia.
From Verif Require Import Base Map Items Grammar Fmt Decimal Templates Emit Cpp Xml Val Rx CppSem SymLex Ast StoreDefs ResolveProps Prog Header Link EnumSem DecText EnumCall EnumRound XmlSpec XmlRdSimple XmlRead XmlReader XmlCall XmlWriter XmlFile XmlCarry XmlRound XmlProps XmlReadProps XmlThms
  IniSpec IniKeep IniRange NumText.
Import ListNotations.
Local Open Scope string_scope.
Local Open Scope list_scope.

(** *** Hexadecimal numbers *)
Fixpoint place (i : Z) (c : ascii) (s : string) : option Z :=
  match s with "" => None | String d r => if (c =? d)%char then Some i else place (i + 1) c r end.
Definition hexv (c : ascii) : option Z :=
  match place 0 c "0123456789abcdef" with Some i => Some i | None => place 0 c "0123456789ABCDEF" end.
Definition hex_at (c : ascii) : bool := match hexv c with Some _ => true | None => false end.
Fixpoint positional16 (d : string) : Z :=
  match d with
  | "" => 0
  | String c r => match hexv c with Some v => v | None => 0 end * 16 ^ Z.of_nat (String.length r) + positional16 r
  end%Z.
Definition no_hex_first (r : string) : Prop := match r with String c _ => hex_at c = false | "" => True end.
(** Blanks, 0x or 0X, hexadecimal digits; what is behind them does not matter. *)
Definition hexnum (s : string) (z : Z) : Prop :=
  exists b x d r, s = (b ++ "0" ++ x ++ d ++ r)%string /\ chars NumText.blank b /\ (x = "x" \/ x = "X") /\ chars hex_at d /\ no_hex_first r /\ z = positional16 d.
Definition no_hex (s : string) : Prop := ~ exists z, hexnum s z.

Lemma hexv_is c : hexv c = hex_digit c.
Proof. destruct c as [[] [] [] [] [] [] [] []]; reflexivity. Qed.
Lemma hex_run d : forall a r, chars hex_at d -> no_hex_first r -> hex_val a true (d ++ r) = Some (a * 16 ^ Z.of_nat (String.length d) + positional16 d)%Z.
Proof.
  induction d as [|c d IH]; intros a r H N.
  - cbn [String.append String.length positional16]. rewrite Z.add_0_r, Z.mul_1_r. destruct r as [|c r]; [reflexivity|]. cbn [hex_val no_hex_first] in *. unfold hex_at in N. rewrite hexv_is in N. destruct (hex_digit c); [discriminate|reflexivity].
  - apply chars_cons in H as [C H]. cbn [String.append hex_val]. unfold hex_at in C. cbn [positional16 String.length]. rewrite hexv_is in *. destruct (hex_digit c) as [v|]; [|discriminate]. rewrite (IH _ r H N). f_equal.
    rewrite Nat2Z.inj_succ, Z.pow_succ_r by lia. ring.
Qed.
Lemma hex_split s : exists d r, s = (d ++ r)%string /\ chars hex_at d /\ no_hex_first r.
Proof.
  induction s as [|c s (d & r & E & D & N)]; [exists "", ""; split; [reflexivity|]; split; [apply chars_nil|exact Logic.I]|]. destruct (hex_at c) eqn:C.
  - exists (String c d), r. split; [now rewrite E|]. split; [now apply chars_cons|exact N].
  - exists "", (String c s). split; [reflexivity|]. split; [apply chars_nil|exact C].
Qed.
Lemma hex_prefixed s z : hexnum s z <-> exists q, hex_prefix s = Some q /\ hex_val 0 true q = Some z.
Proof.
  split.
  - intros (b & x & d & r & -> & B & XX & D & N & ->). exists (d ++ r)%string. split; [|rewrite (hex_run d 0 r D N); f_equal; lia].
    unfold hex_prefix. rewrite (skip_blanks b _ B). destruct XX as [->| ->]; reflexivity.
  - intros (q & H & V). unfold hex_prefix in H. destruct (skip_split s) as (b & E & B). destruct (skip_space s) as [|c [|x r]]; try discriminate.
    { exfalso. destruct c as [[] [] [] [] [] [] [] []]; discriminate. }
    assert (c = "0"%char /\ (x = "x" \/ x = "X")%char /\ q = r) as (-> & XX & ->).
    { destruct c as [[] [] [] [] [] [] [] []]; try discriminate. destruct (x =? "x")%char eqn:X1; [apply Ascii.eqb_eq in X1; subst; injection H as <-; auto|]. destruct (x =? "X")%char eqn:X2; [apply Ascii.eqb_eq in X2; subst; injection H as <-; auto|discriminate]. }
    destruct (hex_split r) as (d & t & -> & D & N). rewrite (hex_run d 0 t D N) in V. injection V as <-. exists b, (String x ""), d, t. split; [exact E|]. split; [exact B|]. split; [destruct XX as [->| ->]; auto|]. split; [exact D|]. split; [exact N|]. lia.
Qed.
Lemma hex_some s q : hex_prefix s = Some q -> exists z, hex_val 0 true q = Some z.
Proof. intros _. destruct (hex_split q) as (d & r & -> & D & N). rewrite (hex_run d 0 r D N). eauto. Qed.
Lemma hex_none s : hex_prefix s = None <-> no_hex s.
Proof.
  split.
  - intros H (z & Z). apply hex_prefixed in Z as (q & Q & _). congruence.
  - intros N. destruct (hex_prefix s) as [q|] eqn:Q; [|reflexivity]. exfalso. destruct (hex_some s q Q) as (z & V). apply N. exists z. apply hex_prefixed. eauto.
Qed.
Lemma hexnum_one s z z' : hexnum s z -> hexnum s z' -> z = z'.
Proof. rewrite !hex_prefixed. intros (q & A & B) (q' & A' & B'). congruence. Qed.
Lemma hex_pos d : (0 <= positional16 d)%Z.
Proof.
  induction d as [|c d IH]; [cbn; lia|]. cbn [positional16]. assert (0 <= match hexv c with Some v => v | None => 0 end)%Z by (destruct c as [[] [] [] [] [] [] [] []]; vm_compute; discriminate).
  pose proof (Z.pow_nonneg 16 (Z.of_nat (String.length d)) ltac:(lia)). nia.
Qed.

(** *** Numbers in files.  A hexadecimal number has 32 bits; a decimal one must be one of the
    type, but for signs of unsigned numbers. *)
Definition no_number (s : string) : Prop := no_hex s /\ ~ exists z, numeral s z.
Definition int_text (s : string) (w : Z) : Prop :=
  (- 2 ^ 31 <= w < 2 ^ 31)%Z /\ ((exists h, hexnum s h /\ (h < 2 ^ 32)%Z /\ in_bits 32 h w) \/ no_hex s /\ numeral s w).
Definition uint_text (s : string) (w : Z) : Prop :=
  (0 <= w < 2 ^ 32)%Z /\ (hexnum s w \/ no_hex s /\ exists z, numeral s z /\ (- 2 ^ 32 < z < 2 ^ 32)%Z /\ in_bits 32 z w).
Definition not_int (s : string) : Prop := (exists h, hexnum s h /\ (2 ^ 32 <= h)%Z) \/ no_hex s /\ exists z, numeral s z /\ ~ (- 2 ^ 31 <= z < 2 ^ 31)%Z.
Definition not_uint (s : string) : Prop := (exists h, hexnum s h /\ (2 ^ 32 <= h)%Z) \/ no_hex s /\ exists z, numeral s z /\ ~ (- 2 ^ 32 < z < 2 ^ 32)%Z.

Lemma in_int_is z : in_int z = true <-> (- 2 ^ 31 <= z < 2 ^ 31)%Z.
Proof. unfold in_int. rewrite andb_true_iff, Z.leb_le, Z.ltb_lt. reflexivity. Qed.
Lemma in_uint_is z : in_uint z = true <-> (0 <= z < 2 ^ 32)%Z.
Proof. unfold in_uint. rewrite andb_true_iff, Z.leb_le, Z.ltb_lt. reflexivity. Qed.
Lemma hexnum_pos s z : hexnum s z -> (0 <= z)%Z.
Proof. intros (b & x & d & r & _ & _ & _ & _ & _ & ->). apply hex_pos. Qed.
Theorem to_int_is s : match to_int s with Value w => int_text s w | Overflow => not_int s | NoValue => no_number s end.
Proof.
  unfold to_int. destruct (hex_prefix s) as [q|] eqn:Q.
  - destruct (hex_some s q Q) as (z & V). rewrite V. assert (H : hexnum s z) by (apply hex_prefixed; eauto). pose proof (hexnum_pos s z H). destruct (in_uint z) eqn:U.
    + apply in_uint_is in U. destruct (proj1 (wrap_s 32 z _ ltac:(lia)) eq_refl) as (R & B). split; [exact R|]. left. exists z. split; [exact H|]. split; [lia|exact B].
    + left. exists z. split; [exact H|]. destruct (Z_lt_ge_dec z (2 ^ 32)) as [A|A]; [|lia]. rewrite (proj2 (in_uint_is z)) in U by lia. discriminate.
  - apply hex_none in Q. destruct (scan_dec s) as [z|] eqn:D.
    + apply scan_numeral in D. destruct (in_int z) eqn:R.
      * apply in_int_is in R. split; [exact R|]. right. auto.
      * right. split; [exact Q|]. exists z. split; [exact D|]. rewrite <- in_int_is. congruence.
    + split; [exact Q|]. intros (z & H). apply scan_numeral in H. congruence.
Qed.
Theorem to_unsigned_is s : match to_unsigned s with Value w => uint_text s w | Overflow => not_uint s | NoValue => no_number s end.
Proof.
  unfold to_unsigned. destruct (hex_prefix s) as [q|] eqn:Q.
  - destruct (hex_some s q Q) as (z & V). rewrite V. assert (H : hexnum s z) by (apply hex_prefixed; eauto). pose proof (hexnum_pos s z H). destruct (in_uint z) eqn:U.
    + apply in_uint_is in U. split; [exact U|]. now left.
    + left. exists z. split; [exact H|]. destruct (Z_lt_ge_dec z (2 ^ 32)) as [A|A]; [|lia]. rewrite (proj2 (in_uint_is z)) in U by lia. discriminate.
  - apply hex_none in Q. destruct (scan_dec s) as [z|] eqn:D.
    + apply scan_numeral in D. destruct (in_uint (Z.abs z)) eqn:R.
      * apply in_uint_is in R. destruct (proj1 (wrap_u 32 z _ ltac:(lia)) eq_refl) as (R2 & B). split; [exact R2|]. right. split; [exact Q|]. exists z. split; [exact D|]. split; [lia|exact B].
      * right. split; [exact Q|]. exists z. split; [exact D|]. intros A. rewrite (proj2 (in_uint_is _)) in R by lia. discriminate.
    + split; [exact Q|]. intros (z & H). apply scan_numeral in H. congruence.
Qed.
Lemma bits_one b z w w' lo : (0 <= b)%Z -> in_bits b z w -> in_bits b z w' -> (lo <= w < lo + 2 ^ b)%Z -> (lo <= w' < lo + 2 ^ b)%Z -> w = w'.
Proof. intros B (k & ->) (k' & E) R R'. pose proof (Z.pow_pos_nonneg 2 b ltac:(lia) B). assert (k = k') by nia. nia. Qed.
(** The three cases exclude each other, and the number is unique. *)
Lemma int_text_one s w w' : int_text s w -> int_text s w' -> w = w'.
Proof.
  intros (R & H) (R' & H'). destruct H as [(h & A & B & C)|(N & A)], H' as [(h' & A' & B' & C')|(N' & A')].
  - rewrite (hexnum_one s h' h A' A) in *. apply (bits_one 32 h w w' (- 2 ^ 31)); auto; lia.
  - exfalso. apply N'. eauto.
  - exfalso. apply N. eauto.
  - exact (numeral_one s w w' A A').
Qed.
Lemma uint_text_one s w w' : uint_text s w -> uint_text s w' -> w = w'.
Proof.
  intros (R & H) (R' & H'). destruct H as [A|(N & z & A & B & C)], H' as [A'|(N' & z' & A' & B' & C')].
  - exact (hexnum_one s w w' A A').
  - exfalso. apply N'. eauto.
  - exfalso. apply N. eauto.
  - rewrite (numeral_one s z' z A' A) in *. apply (bits_one 32 z w w' 0); auto; lia.
Qed.
Lemma int_text_not s w : int_text s w -> ~ not_int s /\ ~ no_number s.
Proof.
  intros (R & [(h & A & B & C)|(N & A)]); split.
  - intros [(h' & A' & B')|(N' & _)]; [rewrite (hexnum_one s h' h A' A) in *; lia|apply N'; eauto].
  - intros (N & _). apply N. eauto.
  - intros [(h' & A' & _)|(_ & z & A' & B')]; [apply N; eauto|]. rewrite (numeral_one s z w A' A) in *. auto.
  - intros (_ & M). apply M. eauto.
Qed.
Lemma uint_text_not s w : uint_text s w -> ~ not_uint s /\ ~ no_number s.
Proof.
  intros (R & [A|(N & z & A & B & C)]); split.
  - intros [(h' & A' & B')|(N' & _)]; [rewrite (hexnum_one s h' w A' A) in *; lia|apply N'; eauto].
  - intros (N & _). apply N. eauto.
  - intros [(h' & A' & _)|(_ & z' & A' & B')]; [apply N; eauto|]. rewrite (numeral_one s z' z A' A) in *. auto.
  - intros (_ & M). apply M. eauto.
Qed.
Lemma no_number_not s : no_number s -> ~ not_int s /\ ~ not_uint s.
Proof. intros (A & B). split; (intros [(h & H & _)|(_ & z & H & _)]; [apply A; eauto|apply B; eauto]). Qed.
Theorem to_int_value s w : to_int s = Value w <-> int_text s w.
Proof. pose proof (to_int_is s) as H. split; [intros E; now rewrite E in H|]. intros I. destruct (to_int s); [now destruct (int_text_not s w I)|f_equal; eapply int_text_one; eauto|now destruct (int_text_not s w I)]. Qed.
Theorem to_unsigned_value s w : to_unsigned s = Value w <-> uint_text s w.
Proof. pose proof (to_unsigned_is s) as H. split; [intros E; now rewrite E in H|]. intros I. destruct (to_unsigned s); [now destruct (uint_text_not s w I)|f_equal; eapply uint_text_one; eauto|now destruct (uint_text_not s w I)]. Qed.
Theorem to_int_over s : to_int s = Overflow <-> not_int s.
Proof.
  pose proof (to_int_is s) as H. split; [intros E; now rewrite E in H|]. intros N. destruct (to_int s); [now destruct (no_number_not s H)|now destruct (int_text_not s z H)|reflexivity].
Qed.
Theorem to_unsigned_over s : to_unsigned s = Overflow <-> not_uint s.
Proof.
  pose proof (to_unsigned_is s) as H. split; [intros E; now rewrite E in H|]. intros N. destruct (to_unsigned s); [now destruct (no_number_not s H)|now destruct (uint_text_not s z H)|reflexivity].
Qed.
Theorem to_int_none s : to_int s = NoValue <-> no_number s.
Proof.
  pose proof (to_int_is s) as H. split; [intros E; now rewrite E in H|]. intros N. destruct (to_int s); [reflexivity|now destruct (int_text_not s z H)|now destruct (no_number_not s N)].
Qed.

(** *** Members.  [xmeans m s v]: as the text of the member [m], [s] means [v]. *)
Section Members.
  Variables (L : lang) (b : form).
  Definition xmeans (m : member) (s : string) (v : val) : Prop :=
    match m with
    | MSimple bool_E _ _ =>
        (exists w, int_text s w /\ v = VNum KBool (if Z.eq_dec w 0 then 0 else 1)%Z) \/
        no_number s /\ (In s ["true"; "True"; "TRUE"] /\ v = VNum KBool 1 \/ In s ["false"; "False"; "FALSE"] /\ v = VNum KBool 0)
    | MSimple int_E _ _ => exists w, int_text s w /\ v = VNum KInt w
    | MSimple unsigned_int_E _ _ => exists w, uint_text s w /\ v = VNum KUInt w
    | MSimple short_E _ _ => exists z w, int_text s z /\ v = VNum KShort w /\ (- 2 ^ 15 <= w < 2 ^ 15)%Z /\ in_bits 16 z w
    | MSimple unsigned_short_E _ _ => exists z w, uint_text s z /\ v = VNum KUShort w /\ (0 <= w < 2 ^ 16)%Z /\ in_bits 16 z w
    | MSimple long_E _ _ => exists w, int_text s w /\ v = VNum KLong w
    | MSimple unsigned_long_E _ _ => exists w, uint_text s w /\ v = VNum KULong w
    | MSimple float_E _ _ => exists c, l_xread L KFloat s = Some c /\ v = VFlt KFloat c
    | MSimple double_E _ _ => exists c, l_xread L KDouble s = Some c /\ v = VFlt KDouble c
    | MSimple std_string_E _ _ => v = VStr s
    | MUser u _ _ => exists c es, find_enum (l_defs L) u = Some (c, es) /\ exists z, v = VEnum u z /\
        (assoc s (enum_values L 0 es) = Some z \/ assoc s (enum_values L 0 es) = None /\ numeral s z /\ (- 2 ^ 31 <= z < 2 ^ 31)%Z /\ enum_holds L u z = true)
    | MVector _ _ => False
    end.
  (** Reading the item has undefined behaviour. *)
  Definition faulty (m : member) (i : item) : Prop :=
    match i with
    | Absent => b = Attributes /\ converted m = true
    | Present None => converted m = true
    | Present (Some s) =>
        match m with
        | MSimple (bool_E | int_E) _ _ => not_int s
        | MSimple unsigned_int_E _ _ => not_uint s
        | MUser u _ _ => exists c es z, find_enum (l_defs L) u = Some (c, es) /\ assoc s (enum_values L 0 es) = None /\ numeral s z /\ (- 2 ^ 31 <= z < 2 ^ 31)%Z /\ enum_holds L u z = false
        | _ => converted m = true /\ ~ exists v, xmeans m s v
        end
    end.
  (** What the member is after reading. *)
  Definition takes (m : member) (i : item) (old new : val) : Prop :=
    match i with
    | Present (Some s) => xmeans m s new \/ (~ exists v, xmeans m s v) /\ new = old
    | _ => new = old
    end.

  Hypothesis LB : (32 <= l_long L)%Z.
  Lemma long_kind z : (- 2 ^ 31 <= z < 2 ^ 31)%Z -> to_kind L KLong z = z.
  Proof. intros R. cbn [to_kind bits signed]. apply wrap_in; [lia|]. pose proof (Z.pow_le_mono_r 2 31 (l_long L - 1) ltac:(lia) ltac:(lia)). lia. Qed.
  Lemma ulong_kind z : (0 <= z < 2 ^ 32)%Z -> to_kind L KULong z = z.
  Proof. intros R. cbn [to_kind bits signed]. apply wrap_u; [lia|]. pose proof (Z.pow_le_mono_r 2 32 (l_long L) ltac:(lia) ltac:(lia)). split; [lia|]. exists 0%Z. lia. Qed.
  Lemma read_kind_int m s k old : (forall v, xmeans m s v <-> exists z w, int_text s z /\ v = VNum k w /\ to_kind L k z = w) ->
    match read_converted L b k to_int (Present (Some s)) old with None => ~ exists v, xmeans m s v | Some v => xmeans m s v end.
  Proof.
    intros H. cbn [read_converted]. pose proof (to_int_is s) as T. destruct (to_int s) as [|z|].
    - intros (v & V). apply H in V as (z & w & A & _). now destruct (int_text_not s z A).
    - apply H. exists z, (to_kind L k z). auto.
    - intros (v & V). apply H in V as (z & w & A & _). now destruct (int_text_not s z A).
  Qed.
  Lemma read_kind_uint m s k old : (forall v, xmeans m s v <-> exists z w, uint_text s z /\ v = VNum k w /\ to_kind L k z = w) ->
    match read_converted L b k to_unsigned (Present (Some s)) old with None => ~ exists v, xmeans m s v | Some v => xmeans m s v end.
  Proof.
    intros H. cbn [read_converted]. pose proof (to_unsigned_is s) as T. destruct (to_unsigned s) as [|z|].
    - intros (v & V). apply H in V as (z & w & A & _). now destruct (uint_text_not s z A).
    - apply H. exists z, (to_kind L k z). auto.
    - intros (v & V). apply H in V as (z & w & A & _). now destruct (uint_text_not s z A).
  Qed.
  Lemma short_is n d s v : xmeans (MSimple short_E n d) s v <-> exists z w, int_text s z /\ v = VNum KShort w /\ to_kind L KShort z = w.
  Proof. cbn [xmeans]. split; intros (z & w & A & B & C); exists z, w; (split; [exact A|split; [exact B|]]); cbn [to_kind bits signed] in *; (apply wrap_s in C || apply wrap_s); auto; lia. Qed.
  Lemma ushort_is n d s v : xmeans (MSimple unsigned_short_E n d) s v <-> exists z w, uint_text s z /\ v = VNum KUShort w /\ to_kind L KUShort z = w.
  Proof. cbn [xmeans]. split; intros (z & w & A & B & C); exists z, w; (split; [exact A|split; [exact B|]]); cbn [to_kind bits signed] in *; (apply wrap_u in C || apply wrap_u); auto; lia. Qed.
  Lemma long_is n d s v : xmeans (MSimple long_E n d) s v <-> exists z w, int_text s z /\ v = VNum KLong w /\ to_kind L KLong z = w.
  Proof. cbn [xmeans]. split; [intros (w & A & B)|intros (z & w & A & B & C)]; [exists w, w|exists z]; pose proof A as (R & _); rewrite long_kind in * by exact R; subst; auto. Qed.
  Lemma ulong_is n d s v : xmeans (MSimple unsigned_long_E n d) s v <-> exists z w, uint_text s z /\ v = VNum KULong w /\ to_kind L KULong z = w.
  Proof. cbn [xmeans]. split; [intros (w & A & B)|intros (z & w & A & B & C)]; [exists w, w|exists z]; pose proof A as (R & _); rewrite ulong_kind in * by exact R; subst; auto. Qed.
  Lemma kinds_of_word s : existsb (String.eqb s) ["true"; "True"; "TRUE"] = true -> existsb (String.eqb s) ["false"; "False"; "FALSE"] = false.
  Proof. cbn. rewrite !orb_false_r, !orb_true_iff. rewrite !String.eqb_eq. intros [->|[->| ->]]; reflexivity. Qed.
  Lemma exists_in s l : existsb (String.eqb s) l = true <-> In s l.
  Proof. rewrite existsb_exists. split; [intros (x & I & E); apply String.eqb_eq in E; now subst|intros I; exists s; split; [exact I|apply String.eqb_refl]]. Qed.

  Theorem simple_reads t n d i old : match read_simple L b t i old with
    | None => faulty (MSimple t n d) i
    | Some new => takes (MSimple t n d) i old new /\ ~ faulty (MSimple t n d) i
    end.
  Proof.
    assert (CV : forall k p m, converted m = true -> (forall s, match read_converted L b k p (Present (Some s)) old with None => ~ exists v, xmeans m s v | Some v => xmeans m s v end) ->
      match read_converted L b k p i old with None => faulty m i | Some new => takes m i old new /\ ~ faulty m i end).
    { intros k p m C H. assert (CS : forall s, faulty m (Present (Some s)) <-> ~ exists v, xmeans m s v) by (intros s; destruct m as [[]| |]; try discriminate; cbn [faulty]; tauto).
      destruct i as [|[s|]].
      - cbn [read_converted]. destruct b eqn:B; cbn [faulty takes]; [auto|]. split; [reflexivity|]. intros [H' _]. congruence.
      - specialize (H s). destruct (read_converted L b k p (Present (Some s)) old); [|now apply CS]. split; [now left|]. rewrite CS. intros N. apply N. eauto.
      - exact C. }
    assert (FL : forall k m, converted m = false -> (forall s v, xmeans m s v <-> exists c, l_xread L k s = Some c /\ v = VFlt k c) -> (forall s, ~ faulty m (Present (Some s))) ->
      match read_float L k i old with None => faulty m i | Some new => takes m i old new /\ ~ faulty m i end).
    { intros k m C H F. destruct i as [|[s|]].
      - cbn [read_float faulty takes]. split; [reflexivity|]. intros [_ ?]; congruence.
      - cbn [read_float takes]. destruct (l_xread L k s) as [c|] eqn:E; (split; [|apply F]); [left; apply H; eauto|]. right. split; [|reflexivity]. intros (v & V). apply H in V as (c & V & _). congruence.
      - cbn [read_float faulty takes]. split; [reflexivity|congruence]. }
    destruct t; cbn [read_simple].
    - (* bool *) destruct i as [|[s|]]; cbn [read_number faulty takes converted]; [split; [reflexivity|intros [_ H]; discriminate H]| |split; [reflexivity|intros H; discriminate H]].
      unfold to_bool. pose proof (to_int_is s) as T. destruct (to_int s) as [|z|]; [| |exact T].
      + destruct (existsb (String.eqb s) ["true"; "True"; "TRUE"]) eqn:E1; [|destruct (existsb (String.eqb s) ["false"; "False"; "FALSE"]) eqn:E2]; (split; [|now destruct (no_number_not s T)]).
        * left. cbn [xmeans]. right. split; [exact T|]. left. split; [now apply exists_in|reflexivity].
        * left. cbn [xmeans]. right. split; [exact T|]. right. split; [now apply exists_in|reflexivity].
        * right. split; [|reflexivity]. cbn [xmeans]. intros (v & [(w & A & _)|(_ & [(A & _)|(A & _)])]); [now destruct (int_text_not s w A)| |]; apply exists_in in A; congruence.
      + split; [|now destruct (int_text_not s z T)]. left. cbn [xmeans]. left. exists z. split; [exact T|]. destruct (Z.eqb_spec z 0), (Z.eq_dec z 0); congruence || contradiction.
    - (* int *) destruct i as [|[s|]]; cbn [read_number faulty takes converted]; [split; [reflexivity|intros [_ H]; discriminate H]| |split; [reflexivity|intros H; discriminate H]].
      pose proof (to_int_is s) as T. destruct (to_int s) as [|z|]; [| |exact T].
      + split; [|now destruct (no_number_not s T)]. right. split; [|reflexivity]. intros (v & w & A & _). now destruct (int_text_not s w A).
      + split; [|now destruct (int_text_not s z T)]. left. exists z. auto.
    - apply CV; [reflexivity|]. intros s. apply read_kind_int. apply short_is.
    - apply CV; [reflexivity|]. intros s. apply read_kind_int. apply long_is.
    - (* unsigned int *) destruct i as [|[s|]]; cbn [read_number faulty takes converted]; [split; [reflexivity|intros [_ H]; discriminate H]| |split; [reflexivity|intros H; discriminate H]].
      pose proof (to_unsigned_is s) as T. destruct (to_unsigned s) as [|z|]; [| |exact T].
      + split; [|now destruct (no_number_not s T)]. right. split; [|reflexivity]. intros (v & w & A & _). now destruct (uint_text_not s w A).
      + split; [|now destruct (uint_text_not s z T)]. left. exists z. auto.
    - apply CV; [reflexivity|]. intros s. apply read_kind_uint. apply ushort_is.
    - apply CV; [reflexivity|]. intros s. apply read_kind_uint. apply ulong_is.
    - apply FL; [reflexivity|reflexivity|]. cbn. intros s [H _]. discriminate H.
    - apply FL; [reflexivity|reflexivity|]. cbn. intros s [H _]. discriminate H.
    - destruct i as [|[s|]]; cbn [faulty takes converted].
      + split; [reflexivity|]. intros [_ H]. discriminate H.
      + split; [now left|]. intros [H _]. discriminate H.
      + split; [reflexivity|]. intros H. discriminate H.
  Qed.
  Theorem enum_reads u n d c es i old : find_enum (l_defs L) u = Some (c, es) -> match read_enum_item L u i old with
    | None => faulty (MUser u n d) i
    | Some new => takes (MUser u n d) i old new /\ ~ faulty (MUser u n d) i
    end.
  Proof.
    intros FE. destruct i as [|[s|]]; cbn [read_enum_item faulty takes converted]; [split; [reflexivity|intros [_ H]; discriminate H]| |split; [reflexivity|intros H; discriminate H]]. rewrite FE. cbn [xmeans]. unfold read_enum.
    destruct (assoc s (enum_values L 0 es)) as [z|] eqn:A.
    - split.
      + left. exists c, es. split; [exact FE|]. exists z. auto.
      + intros (c' & es' & z' & E & N & _). assert (es' = es) by congruence. subst es'. congruence.
    - destruct (scan_dec s) as [z|] eqn:S; [apply scan_numeral in S|].
      + destruct (in_int z) eqn:R; [destruct (enum_holds L u z) eqn:EH|].
        * apply in_int_is in R. split.
          { left. exists c, es. split; [exact FE|]. exists z. auto 8. }
          intros (c' & es' & z' & _ & _ & N & _ & H). rewrite (numeral_one s z' z N S) in H. congruence.
        * apply in_int_is in R. exists c, es, z. auto.
        * assert (NR : ~ (- 2 ^ 31 <= z < 2 ^ 31)%Z) by (rewrite <- in_int_is; congruence). split.
          { right. split; [|reflexivity]. intros (v & c' & es' & E & z' & _ & [A'|(_ & N & R' & _)]); [assert (es' = es) by congruence; subst es'; congruence|]. rewrite (numeral_one s z' z N S) in R'. contradiction. }
          intros (c' & es' & z' & _ & _ & N & R' & _). rewrite (numeral_one s z' z N S) in R'. contradiction.
      + split.
        * right. split; [|reflexivity]. intros (v & c' & es' & E & z' & _ & [A'|(_ & N & _)]); [assert (es' = es) by congruence; subst es'; congruence|]. apply scan_numeral in N. congruence.
        * intros (c' & es' & z' & _ & _ & N & _). apply scan_numeral in N. congruence.
  Qed.
End Members.

(** *** Elements *)
Definition kid (n : string) (x : node) : option node := find (is_named n) (kids_of x).
(** The item of a name in an element: an attribute, or the text of the first child of this name. *)
Definition item_in (b : form) (n : string) (x : node) : item :=
  match b with
  | Attributes => match attr n (attrs_of x) with Some s => Present (Some s) | None => Absent end
  | Elements => match kid n x with Some c => Present (get_text c) | None => Absent end
  end.
Fixpoint elem_at (ns : list string) (x : node) : option node :=
  match ns with [] => Some x | n :: r => let? c := kid n x in elem_at r c end.

Section Elements.
  Variables (bk : backend) (b : form) (enums : list enum_S) (ss : list struct_S) (o : output_spec) (ds : list def) (L : lang).
  Hypothesis X : xml_setting bk b enums ss o ds L.
  Hypothesis LB : (32 <= l_long L)%Z.
  (** The element [x] as an object of the struct [u]: some item in it is faulty. *)
  Inductive broken : string -> node -> Prop :=
  | br_scalar u ms m x : find_struct (l_defs L) u = Some ms -> In m ms -> is_scalar L m = true -> faulty L b m (item_in b (member_name m) x) -> broken u x
  | br_struct u ms t n d x c : find_struct (l_defs L) u = Some ms -> In (MUser t n d) ms -> user_type L t = Some (TStruct t) -> kid n x = Some c -> broken t c -> broken u x
  | br_items u ms t n x c e : find_struct (l_defs L) u = Some ms -> In (MVector t n) ms -> kid n x = Some c -> In e (kids_of c) -> is_elem e = true -> broken t e -> broken u x.

  Lemma item_found n x : find_item b n (attrs_of x) (pairs b L (kids_of x)) = item_in b n x.
  Proof. unfold find_item, item_in. destruct b; [reflexivity|]. rewrite first_find. unfold kid. now destruct (find (is_named n) (kids_of x)). Qed.
  Lemma vector_struct u ms t n : find_struct (l_defs L) u = Some ms -> In (MVector t n) ms -> exists mt, find_struct (l_defs L) t = Some mt.
  Proof.
    rewrite (x_defs bk b enums ss o ds L X). intros FS I. apply find_struct_in in FS. destruct (struct_parts _ _ ds (x_ok bk b enums ss o ds L X) u ms FS) as (_ & k & r & E & M). specialize (M _ I). unfold member_ok in M. apply andb_true_iff in M as [_ M].
    destruct (find_struct ds t); [eauto|discriminate].
  Qed.
  Lemma scalar_reads a k m old : is_scalar L m = true -> match read_member L b a k m old with
    | None => faulty L b m (find_item b (member_name m) a k)
    | Some new => takes L m (find_item b (member_name m) a k) old new /\ ~ faulty L b m (find_item b (member_name m) a k)
    end.
  Proof.
    intros S. destruct m as [t n d|u n d|u n]; cbn [read_member member_name is_scalar] in *; [apply (simple_reads L b LB)| |discriminate].
    destruct (user_type L u) as [[]|] eqn:UT; try discriminate. unfold user_type in UT. destruct (find_struct (l_defs L) u); [discriminate|]. destruct (find_enum (l_defs L) u) as [[c es]|] eqn:FE; [|discriminate].
    exact (enum_reads L b u n d c es _ old FE).
  Qed.
  Lemma items_broken t d ks : default_fields L t = Some d -> (read_items L t (pairs b L ks) = None <-> exists e, In e ks /\ is_elem e = true /\ read_struct L b e t d = None).
  Proof.
    intros D. induction ks as [|x ks IH]; [cbn; split; [discriminate|intros (e & [] & _)]|]. cbn [pairs map]. destruct x as [m a c|s]; cbn [read_items]; fold (pairs b L ks).
    - rewrite D, as_struct_read. destruct (read_struct L b (Elem m a c) t d) as [fs|] eqn:R.
      + destruct (read_items L t (pairs b L ks)) as [l|].
        * split; [discriminate|]. intros (e & [<-|I] & E & N); [congruence|]. exfalso. assert (G : Some l = None) by (apply IH; eauto). discriminate G.
        * split; [intros _|reflexivity]. destruct (proj1 IH eq_refl) as (e & I & H). exists e. split; [now right|exact H].
      + split; [intros _; exists (Elem m a c); split; [now left|auto]|reflexivity].
    - rewrite IH. split; intros (e & I & E & N); [exists e; split; [now right|auto]|]. destruct I as [<-|I]; [discriminate|]. eauto.
  Qed.
  Theorem read_defined f : forall x, height x < f -> forall u os, fits L (VStruct u os) (TStruct u) = true -> (read_struct L b x u os = None <-> broken u x).
  Proof.
    induction f as [|f IH]; intros x H u os F; [lia|]. destruct (parts bk b enums ss o ds L X u os F) as (ms & d & FS & _ & ND & K & M).
    assert (KID : forall y, In y (kids_of x) -> height y < f) by (intros y IY; pose proof (height_kid x y IY); lia).
    rewrite (unfold_read b L x u os ms FS). fold (pairs b L (kids_of x)).
    assert (MB : forall m old, In m ms -> assoc (member_name m) os = Some old -> read_member L b (attrs_of x) (pairs b L (kids_of x)) m old = None <->
      (is_scalar L m = true /\ faulty L b m (item_in b (member_name m) x) \/
       (exists t n d c, m = MUser t n d /\ user_type L t = Some (TStruct t) /\ kid n x = Some c /\ broken t c) \/
       exists t n c e, m = MVector t n /\ kid n x = Some c /\ In e (kids_of c) /\ is_elem e = true /\ broken t e)).
    { intros m old I A. destruct (M m I) as (ty & old' & dv & MT & A' & _ & FO & _). assert (old' = old) by congruence. subst old'. destruct (is_scalar L m) eqn:S.
      - pose proof (scalar_reads (attrs_of x) (pairs b L (kids_of x)) m old S) as R. rewrite item_found in R. destruct (read_member L b (attrs_of x) (pairs b L (kids_of x)) m old) as [new|].
        + split; [discriminate|]. intros [(_ & G)|[(t & n & d0 & c & -> & UT & _)|(t & n & c & e & -> & _)]]; [now destruct R| |discriminate S]. cbn [is_scalar] in S. rewrite UT in S. discriminate S.
        + split; [auto|reflexivity].
      - destruct m as [t n d0|t n d0|t n]; cbn [read_member member_name is_scalar member_type] in *; [discriminate| |].
        + rewrite MT in *. destruct ty; try discriminate; try (unfold user_type in MT; destruct (find_struct (l_defs L) t); [discriminate|]; destruct (find_enum (l_defs L) t); discriminate).
          assert (n0 = t) as ->. { unfold user_type in MT. destruct (find_struct (l_defs L) t); [congruence|]. destruct (find_enum (l_defs L) t); discriminate. }
          rewrite first_find. fold (kid n x). destruct (kid n x) as [c|] eqn:FN; cbn [option_map].
          * destruct (fits_as_struct L old t FO) as (fo & ->). rewrite as_struct_read. pose proof FN as FN'. apply find_some in FN as [IC _]. pose proof (IH c (KID c IC) t fo FO) as HC.
            destruct (read_struct L b c t fo) as [fn|]; cbn [option_map]; (split; [intros E|intros E]).
            -- discriminate E.
            -- exfalso. destruct E as [(? & _)|[(t' & n' & d' & c' & [= <- <- <-] & _ & K' & B)|(t' & n' & c' & e' & E & _)]]; try discriminate. rewrite FN' in K'. injection K' as <-. apply HC in B. discriminate B.
            -- right. left. exists t, n, d0, c. split; [reflexivity|]. split; [exact MT|]. split; [exact FN'|]. now apply HC.
            -- reflexivity.
          * split; [discriminate|]. intros [(? & _)|[(t' & n' & d' & c' & [= <- <- <-] & _ & K' & B)|(t' & n' & c' & e' & E & _)]]; try discriminate. rewrite FN in K'. discriminate K'.
        + rewrite first_find. fold (kid n x). injection MT as <-. destruct (kid n x) as [c|] eqn:FN; cbn [option_map].
          * destruct (fits_as_vec L old t FO) as (l & -> & _). pose proof FN as FN'. apply find_some in FN as [IC _].
            assert (AI : as_items (reading_of L b c) t = read_items L t (pairs b L (kids_of c))) by (destruct c; reflexivity). rewrite AI.
            destruct (vector_struct u ms t n FS I) as (mt & FT). destruct (r_defaults _ _ _ _ _ _ _ X t mt FT) as (dd & D & FD).
            assert (HE : forall e, In e (kids_of c) -> (read_struct L b e t dd = None <-> broken t e)). { intros e IE. apply IH; [|exact FD]. pose proof (height_kid c e IE). pose proof (KID c IC). lia. }
            pose proof (items_broken t dd (kids_of c) D) as IB. destruct (read_items L t (pairs b L (kids_of c))) as [l'|]; cbn [option_map].
            -- split; [discriminate|]. intros [(? & _)|[(t' & n' & d' & c' & E & _)|(t' & n' & c' & e' & [= <- <-] & K' & IE & EE & B)]]; try discriminate. rewrite FN' in K'. injection K' as <-. exfalso.
               assert (G : Some l' = None) by (apply IB; exists e'; split; [exact IE|]; split; [exact EE|]; now apply HE). discriminate G.
            -- split; [intros _|reflexivity]. destruct (proj1 IB eq_refl) as (e & IE & EE & R). right. right. exists t, n, c, e. split; [reflexivity|]. split; [exact FN'|]. split; [exact IE|]. split; [exact EE|]. now apply HE.
          * split; [discriminate|]. intros [(? & _)|[(t' & n' & d' & c' & E & _)|(t' & n' & c' & e' & [= <- <-] & K' & _)]]; try discriminate. rewrite FN in K'. discriminate K'. }
    split.
    - intros R. destruct (read_members_none L b _ _ ms ND os K R) as (m & old & I & A & N). apply (MB m old I A) in N as [(S & G)|[(t & n & d0 & c & -> & UT & KC & B)|(t & n & c & e & -> & KC & IE & EE & B)]].
      + exact (br_scalar u ms m x FS I S G).
      + exact (br_struct u ms t n d0 x c FS I UT KC B).
      + exact (br_items u ms t n x c e FS I KC IE EE B).
    - intros B. destruct (read_members L b (attrs_of x) (pairs b L (kids_of x)) ms os) as [gs|] eqn:R; [|reflexivity]. exfalso.
      assert (G : forall m, In m ms -> ~ (is_scalar L m = true /\ faulty L b m (item_in b (member_name m) x) \/
       (exists t n d c, m = MUser t n d /\ user_type L t = Some (TStruct t) /\ kid n x = Some c /\ broken t c) \/
       exists t n c e, m = MVector t n /\ kid n x = Some c /\ In e (kids_of c) /\ is_elem e = true /\ broken t e)).
      { intros m I C. destruct (read_members_member L b _ _ ms ND os gs m K R I) as (old & v & A1 & A2 & A3). apply (MB m old I A1) in C. congruence. }
      destruct B as [u ms' m x FS' I S B|u ms' t n d0 x c FS' I UT KC B|u ms' t n x c e FS' I KC IE EE B]; assert (ms' = ms) by congruence; subst ms'; apply (G _ I).
      + left. auto.
      + right. left. exists t, n, d0, c. auto.
      + right. right. exists t, n, c, e. auto 8.
  Qed.
  Lemma struct_fits u f ty : fits L (VStruct u f) ty = true -> fits L (VStruct u f) (TStruct u) = true /\ ty = TStruct u.
  Proof. cbn [fits]. intros F. apply andb_true_iff in F as [E F]. rewrite F. cbn [ty_eqb]. rewrite String.eqb_refl. split; [reflexivity|]. destruct ty; try discriminate. cbn in E. apply String.eqb_eq in E. now subst. Qed.
  (** A member of an object, and its type. *)
  Lemma part_of u fs n w : fits L (VStruct u fs) (TStruct u) = true -> assoc n fs = Some w -> exists ms m ty, find_struct (l_defs L) u = Some ms /\ In m ms /\ member_name m = n /\ member_type L m = Some ty /\ fits L w ty = true.
  Proof.
    intros F A. destruct (parts bk b enums ss o ds L X u fs F) as (ms & d & FS & _ & ND & K & M). pose proof (assoc_key _ _ _ A) as IN. rewrite K in IN. apply in_map_iff in IN as (m & EM & I). subst n.
    destruct (M m I) as (ty & old' & dv & MT & A' & _ & FO & _). assert (old' = w) by congruence. subst old'. exists ms, m, ty. auto.
  Qed.
  Lemma fits_at ns : forall u0 f0 u f, fits L (VStruct u0 f0) (TStruct u0) = true -> member_at ns (VStruct u0 f0) = Some (VStruct u f) -> fits L (VStruct u f) (TStruct u) = true.
  Proof.
    induction ns as [|n ns IH]; intros u0 f0 u f F AT; [cbn in AT; injection AT as <- <-; exact F|]. cbn [member_at] in AT. destruct (assoc n f0) as [w|] eqn:AN; [|discriminate].
    destruct (part_of u0 f0 n w F AN) as (ms & m & ty & FS & I & _ & MT & FW). destruct w as [| | | | | | |u2 f2| | | | | | | | | | | | | |];
      try (destruct ns; cbn [member_at] in AT; discriminate). exact (IH u2 f2 u f (proj1 (struct_fits u2 f2 ty FW)) AT).
  Qed.
  Theorem read_at ns : forall x u0 os gs, fits L (VStruct u0 os) (TStruct u0) = true -> read_struct L b x u0 os = Some gs ->
    forall u f, member_at ns (VStruct u0 os) = Some (VStruct u f) ->
    exists g, member_at ns (VStruct u0 gs) = Some (VStruct u g) /\ match elem_at ns x with None => g = f | Some y => read_struct L b y u f = Some g end.
  Proof.
    induction ns as [|n ns IH]; intros x u0 os gs F R u f AT.
    - cbn [member_at elem_at] in *. injection AT as <- <-. exists gs. auto.
    - cbn [member_at] in AT. destruct (assoc n os) as [w|] eqn:AN; [|discriminate]. destruct (part_of u0 os n w F AN) as (ms & m & ty & FS & I & EM & MT & FW). subst n.
      destruct (parts bk b enums ss o ds L X u0 os F) as (ms' & d & FS' & _ & ND & K & M). assert (ms' = ms) by congruence. subst ms'. rewrite (unfold_read b L x u0 os ms FS) in R. fold (pairs b L (kids_of x)) in R.
      destruct (read_members_member L b _ _ ms ND os gs m K R I) as (old & v & A1 & A2 & A3). assert (old = w) by congruence. subst old. cbn [member_at elem_at]. rewrite A3.
      destruct w as [| | | | | | |u2 f2| | | | | | | | | | | | | |]; try (destruct ns; cbn [member_at] in AT; discriminate). destruct (struct_fits u2 f2 ty FW) as (FW2 & ->).
      destruct m as [t n d0|t n d0|t n]; cbn [read_member member_name member_type] in *; [injection MT as MT; destruct t; discriminate| |discriminate]. rewrite MT in A2.
      assert (u2 = t) as ->. { unfold user_type in MT. destruct (find_struct (l_defs L) t); [congruence|]. destruct (find_enum (l_defs L) t); discriminate. }
      rewrite first_find in A2. fold (kid n x) in A2. destruct (kid n x) as [c|]; cbn [option_map] in A2.
      + rewrite as_struct_read in A2. destruct (read_struct L b c t f2) as [fn|] eqn:RC; [|discriminate]. injection A2 as <-. exact (IH c t f2 fn FW2 RC u f AT).
      + injection A2 as <-. exists f. auto.
  Qed.
  (** The scalars of a struct. *)
  Theorem read_takes x u os gs ms m : fits L (VStruct u os) (TStruct u) = true -> read_struct L b x u os = Some gs -> find_struct (l_defs L) u = Some ms -> In m ms -> is_scalar L m = true ->
    exists old new, assoc (member_name m) os = Some old /\ assoc (member_name m) gs = Some new /\ takes L m (item_in b (member_name m) x) old new.
  Proof.
    intros F R FS I S. destruct (parts bk b enums ss o ds L X u os F) as (ms' & d & FS' & _ & ND & K & M). assert (ms' = ms) by congruence. subst ms'. rewrite (unfold_read b L x u os ms FS) in R. fold (pairs b L (kids_of x)) in R.
    destruct (read_members_member L b _ _ ms ND os gs m K R I) as (old & v & A1 & A2 & A3). exists old, v. split; [exact A1|]. split; [exact A3|].
    pose proof (scalar_reads (attrs_of x) (pairs b L (kids_of x)) m old S) as H. rewrite A2, item_found in H. now destruct H.
  Qed.
End Elements.
