(** Initialisers that compile give objects of the types of the members. *)
From Coq Require Import String Ascii ZArith NArith Arith List Bool Lia.
From Verif Require Import Base Map Items Grammar Fmt Decimal Templates Emit Cpp Xml Val CppSem SymLex Ast StoreDefs ResolveProps Prog Header EnumSem DecText EnumCall XmlSpec XmlReader XmlCarry XmlRound Lit.
Import ListNotations.
Local Open Scope string_scope.
Local Open Scope list_scope.

Lemma with_literals_standard F L : (32 <= l_long L)%Z -> standard F (with_literals F L).
Proof.
  intros LL. split; cbn [with_literals l_long l_const l_lit l_defs]; [exact LL| |].
  - intros c z E. now rewrite E.
  - intros t v x E. now rewrite E.
Qed.
Lemma in_kind_ok L k z : (32 <= l_long L)%Z -> in_kind (l_long L) k z = true -> to_kind L k z = z.
Proof.
  intros LL. unfold in_kind, to_kind.
  destruct k; cbn [bits signed]; rewrite andb_true_iff, Z.leb_le, Z.ltb_lt; intros H; try (apply wrap_signed; [lia|exact H]); try (apply wrap_small; exact H).
  destruct (Z.eqb_spec z 0); [congruence|]. change (2 ^ 1)%Z with 2%Z in H. lia.
Qed.
Lemma type_in_ok L m : type_in (l_defs L) m = member_type L m.
Proof. destruct m; reflexivity. Qed.

Section Std.
  Variables (F : fkind -> dvalue -> option Z) (L : lang).
  Hypothesis ST : standard F L.
  Notation value := (lit_value (l_defs L) (l_long L) F).

  Lemma const_values_ok es : forall z0 vs, const_values z0 es = Some vs -> enum_values L z0 es = vs.
  Proof.
    induction es as [|e es IH]; intros z0 vs; cbn [const_values enum_values]; [intros [= <-]; reflexivity|].
    set (z := match en_val e with Some c => const_val c | None => Some z0 end).
    destruct z as [z1|] eqn:Z1; [|discriminate]. destruct (const_values (z1 + 1) es) as [l|] eqn:C; [|discriminate]. intros [= <-].
    assert (E : match en_val e with Some c => l_const L c | None => z0 end = z1).
    { unfold z in Z1. destruct (en_val e) as [c|]; [exact (st_const _ _ ST c z1 Z1)|congruence]. }
    rewrite E. cbv zeta. now rewrite (IH _ _ C).
  Qed.
  (** The names of the enumerators are those of the generated code's meaning. *)
  Lemma named_ok s e sc z : named (l_defs L) s = Some (e, sc, z) -> exists x, split_qual s = Some (e, x) /\ enumerator L e x = Some (VEnum e z).
  Proof.
    unfold named, enumerator. destruct (split_qual s) as [[e' x]|]; [|discriminate]. destruct (find_enum (l_defs L) e') as [[sc' es]|] eqn:FE; [|discriminate].
    destruct (const_values 0 es) as [vs|] eqn:C; [|discriminate]. destruct (assoc x vs) as [z'|] eqn:A; [|discriminate]. intros [= <- <- <-].
    exists x. split; [reflexivity|]. rewrite FE, (const_values_ok _ _ _ C), A. reflexivity.
  Qed.
  Lemma value_fits t v x : value t v = Some x -> fits L x t = true.
  Proof.
    destruct t as [k|k| |n|n|n| | |n]; cbn [lit_value]; try discriminate.
    - destruct (integral _ v) as [z|]; [|discriminate]. destruct (in_kind (l_long L) k z) eqn:K; [|discriminate]. intros [= <-]. cbn [fits ty_eqb].
      rewrite (in_kind_ok L k z (st_long _ _ ST) K), Z.eqb_refl. now destruct k.
    - destruct (F k v) as [c|]; [|discriminate]. intros [= <-]. cbn. now destruct k.
    - assert (N : (let? z := integral (l_defs L) v in if ((0 <=? z) && (z <? 128))%Z then Some (VStr (String (ascii_of_nat (Z.to_nat z)) EmptyString)) else None) = Some x -> fits L x TStd = true).
      { destruct (integral _ v) as [z|]; [|discriminate]. destruct ((0 <=? z) && (z <? 128))%Z; [|discriminate]. intros [= <-]. reflexivity. }
      destruct v; try exact N. destruct (str_lit s) as [y|]; [|discriminate]. intros [= <-]. reflexivity.
    - destruct (find_enum (l_defs L) n) as [[sc es]|]; [|discriminate].
      assert (N : (if sc then let? z := integral (l_defs L) v in if in_int z then Some (VEnum n z) else None else None) = Some x -> fits L x (TEnum n) = true).
      { destruct sc; [|discriminate]. destruct (integral _ v) as [z|]; [|discriminate]. destruct (in_int z); [|discriminate]. intros [= <-]. cbn. apply String.eqb_refl. }
      destruct v; try exact N. destruct (named _ s) as [[[e sc'] z]|]; [|discriminate]. destruct (String.eqb e n); [|exact N]. intros [= <-]. cbn. apply String.eqb_refl.
  Qed.
  Lemma literal_of n ms m v : literals_ok (l_defs L) (l_long L) F = true -> In (DefStruct n ms) (l_defs L) -> In m ms -> member_dflt m = Default v ->
    exists t x, member_type L m = Some t /\ value t v = Some x.
  Proof.
    unfold literals_ok. rewrite forallb_forall. intros OK D I E. specialize (OK _ D). cbn [def_lits] in OK. rewrite forallb_forall in OK. specialize (OK _ I).
    rewrite E, type_in_ok in OK. cbn [dflt_ok] in OK. destruct (member_type L m) as [t|]; [|discriminate]. destruct (value t v) as [x|] eqn:V; [|discriminate]. eauto.
  Qed.
  Theorem literals_fit : literals_ok (l_defs L) (l_long L) F = true -> lits_fit L.
  Proof.
    intros OK n ms m t v D I MT E. destruct (literal_of n ms m v OK D I E) as (t' & x & MT' & V). assert (t' = t) by congruence. subst t'.
    rewrite (st_lit _ _ ST t v x V). exact (value_fits t v x V).
  Qed.
  Theorem literals_fresh delta : literals_ok (l_defs L) (l_long L) F = true -> lits_fresh L delta.
  Proof.
    intros OK n ms m u v D I MT E. exfalso. destruct (literal_of n ms m v OK D I E) as (t' & x & MT' & V). assert (t' = TStruct u) by congruence. subst t'. discriminate V.
  Qed.
  (** A new object has the values that the header gives. *)
  Lemma init_assoc rec zero ms : forall fs m, init_members L rec zero ms = Some fs -> NoDup (map member_name ms) -> In m ms ->
    exists x, init_member L rec zero m = Some x /\ assoc (member_name m) fs = Some x.
  Proof.
    induction ms as [|m0 ms IH]; intros fs m; cbn [init_members]; [contradiction|].
    destruct (init_member L rec zero m0) as [v|] eqn:E; [|discriminate]. destruct (init_members L rec zero ms) as [l|]; [|discriminate]. intros [= <-] ND I.
    inversion ND as [|x y NI ND']; subst. cbn [assoc]. destruct I as [->|I]; [exists v; split; [exact E|now rewrite String.eqb_refl]|].
    destruct (IH l m eq_refl ND' I) as (x & E1 & E2). exists x. split; [exact E1|]. destruct (String.eqb_spec (member_name m) (member_name m0)) as [Q|_]; [|exact E2].
    exfalso. apply NI. rewrite <- Q. now apply in_map.
  Qed.
  Theorem default_value u ms dd m t v x : default_fields L u = Some dd -> find_struct (l_defs L) u = Some ms -> NoDup (map member_name ms) -> In m ms ->
    member_dflt m = Default v -> member_type L m = Some t -> value t v = Some x -> assoc (member_name m) dd = Some x.
  Proof.
    unfold default_fields, init_fuel. cbn [init]. intros D FS ND I MD MT V. rewrite FS in D. destruct (init_members L _ false ms) as [fs|] eqn:IM; [|discriminate D]. injection D as <-.
    destruct (init_assoc _ _ _ _ m IM ND I) as (y & E & A). rewrite A. unfold init_member in E. rewrite MT, MD in E. injection E as <-. f_equal. exact (st_lit _ _ ST t v x V).
  Qed.
  (** Comparison with such a value. *)
  Lemma compared t v x y : value t v = Some x -> (forall j, t <> TFlt j) -> fits L y t = true -> inited y ->
    exists e, scalar_eq L y x = Some e /\ (e = true <-> y = x).
  Proof.
    intros V NF FY IY. pose proof (value_fits t v x V) as FX.
    assert (NU : inited x).
    { destruct t as [k|k| |n|n|n| | |n]; cbn [lit_value] in V; try discriminate V.
      - destruct (integral _ v) as [z|]; [|discriminate]. destruct (in_kind _ k z); [|discriminate]. now injection V as <-.
      - destruct (F k v); [|discriminate]. now injection V as <-.
      - destruct v; try (destruct (integral _ _) as [z|]; [|discriminate]; destruct ((0 <=? z) && (z <? 128))%Z; [|discriminate]; now injection V as <-).
        destruct (str_lit s); [|discriminate]. now injection V as <-.
      - destruct (find_enum _ n) as [[sc es]|]; [|discriminate].
        destruct v; try (destruct sc; [|discriminate]; destruct (integral _ _) as [z|]; [|discriminate]; destruct (in_int z); [|discriminate]; now injection V as <-).
        destruct (named _ s) as [[[e sc'] z]|]; [|discriminate]. destruct (String.eqb e n); [now injection V as <-|].
        destruct sc; [|discriminate]; destruct (integral _ _) as [z'|]; [|discriminate]; destruct (in_int z'); [|discriminate]; now injection V as <-. }
    destruct t as [k|k| |n|n|n| | |n]; try discriminate V; [|exfalso; exact (NF k eq_refl)|..].
    - destruct y; cbn in FY, IY; try discriminate FY; try contradiction. destruct x; cbn in FX, NU; try discriminate FX; try contradiction.
      apply andb_true_iff in FX as [FX _], FY as [FY _]. eexists. split; [reflexivity|]. rewrite Z.eqb_eq.
      assert (k1 = k) by (destruct k, k1; try discriminate FX; reflexivity). assert (k0 = k) by (destruct k, k0; try discriminate FY; reflexivity). subst. split; [congruence|intros [= ->]; reflexivity].
    - destruct y; cbn in FY, IY; try discriminate FY; try contradiction. destruct x; cbn in FX, NU; try discriminate FX; try contradiction.
      eexists. split; [reflexivity|]. rewrite String.eqb_eq. split; [congruence|intros [= ->]; reflexivity].
    - destruct y; cbn in FY, IY; try discriminate FY; try contradiction. destruct x; cbn in FX, NU; try discriminate FX; try contradiction.
      apply String.eqb_eq in FX, FY. subst. eexists. split; [reflexivity|]. rewrite Z.eqb_eq. split; [congruence|intros [= ->]; reflexivity].
  Qed.
End Std.

(** *** Decimal numbers *)
Lemma number_dec s : all_chars is_digit s = true -> forall a, number_in 10 a s = digits_val a true s.
Proof.
  induction s as [|c s IH]; intros A a; [reflexivity|]. cbn [all_chars] in A. apply andb_true_iff in A as [D A]. cbn [number_in digits_val]. unfold is_digit in D. rewrite D.
  apply andb_true_iff in D as [D1 D2]. apply Nat.leb_le in D1, D2. unfold hex_digit.
  assert (H : ((48 <=? Z.of_nat (nat_of_ascii c)) && (Z.of_nat (nat_of_ascii c) <=? 57))%Z = true) by (apply andb_true_iff; split; apply Z.leb_le; lia).
  cbv zeta. rewrite H. assert (H2 : (Z.of_nat (nat_of_ascii c) - 48 <? 10)%Z = true) by (apply Z.ltb_lt; lia). rewrite H2, IH by exact A. f_equal. lia.
Qed.
Lemma dec_aux_lead f : forall n acc, (0 < n)%N -> (n < 10 ^ N.of_nat f)%N -> exists d r, (0 < d < 10)%N /\ dec_aux f n acc = String (digit_char d) r.
Proof.
  induction f as [|f IH]; intros n acc P H; [change (10 ^ N.of_nat 0)%N with 1%N in H; lia|]. cbn [dec_aux]. destruct (N.eqb_spec (n / 10) 0) as [E|E].
  - apply N.div_small_iff in E; [|lia]. exists (n mod 10)%N. eexists. split; [|reflexivity]. rewrite N.mod_small by exact E. lia.
  - apply IH; [now apply N.neq_0_lt_0|]. apply N.div_lt_upper_bound; [lia|]. rewrite <- N.pow_succ_r'. now rewrite <- Nat2N.inj_succ.
Qed.
Lemma int_num_decimal p : (Zpos p < 2 ^ 63)%Z -> int_num (dec (Npos p)) = Some (Zpos p) /\ int_lit (dec (Npos p)) = Some (Zpos p) /\ negative (dec (Npos p)) (Zpos p) = Zneg p.
Proof.
  intros H.
  assert (N : number_in 10 0 (dec (Npos p)) = Some (Zpos p)) by (rewrite number_dec by apply dec_all; apply (digits_val_dec (Npos p))).
  destruct (dec_aux_lead _ (Npos p) "" eq_refl (log_bound (Npos p))) as (d & r & D & E). change (dec_aux _ _ _) with (dec (Npos p)) in E. rewrite E in *.
  assert (Z0 : int_num (String (digit_char d) r) = (let? z := number_in 10 0 (String (digit_char d) r) in if (z <? 2 ^ 63)%Z then Some z else None) /\
               int_lit (String (digit_char d) r) = int_num (String (digit_char d) r) /\ forall z, negative (String (digit_char d) r) z = (- z)%Z).
  { assert (C : In d [1; 2; 3; 4; 5; 6; 7; 8; 9]%N) by (cbn; lia). cbn [In] in C. repeat (destruct C as [<-|C]; [repeat split; reflexivity|]). contradiction. }
  destruct Z0 as (Z1 & Z2 & Z3). rewrite Z2, Z1, Z3, N. apply Z.ltb_lt in H. rewrite H. auto.
Qed.
Theorem int_lit_decimal n : (- 2 ^ 63 < n < 2 ^ 63)%Z -> int_lit (zdec n) = Some n.
Proof.
  intros [P H]. destruct n as [|p|p]; [reflexivity| |]; cbn [zdec].
  - now apply int_num_decimal.
  - destruct (int_num_decimal p) as (A & _ & B); [lia|]. unfold int_lit. cbn [with_sign]. rewrite A, B. reflexivity.
Qed.

(** *** Every text of a string of C can be spelled: with octal escapes only *)
Definition octal_char (d : nat) : ascii := ascii_of_nat (48 + d).
Definition octal_escape (c : ascii) : string :=
  let n := nat_of_ascii c in String backslash (String (octal_char (n / 64)) (String (octal_char (n / 8 mod 8)) (String (octal_char (n mod 8)) EmptyString))).
Fixpoint octal_escapes (x : string) : string := match x with EmptyString => EmptyString | String c r => (octal_escape c ++ octal_escapes r)%string end.
Definition spelled (x : string) : string := String dquote (octal_escapes x ++ String dquote EmptyString)%string.
Lemma escape_read c t : str_rest Escape (match octal_escape c with String _ r => r | _ => EmptyString end ++ t)%string = str_rest (Octal 0 (Z.of_nat (nat_of_ascii c))) t.
Proof. destruct c as [[] [] [] [] [] [] [] []]; reflexivity. Qed.
Lemma spelled_read x : forall p a, (p = Outside \/ exists v, p = Octal 0 v) -> escaped p = Some a -> str_rest p (octal_escapes x ++ String dquote EmptyString) = Some (a ++ x)%string.
Proof.
  induction x as [|c x IH]; intros p a P E.
  - cbn [octal_escapes String.append str_rest]. assert (G : goes_on p dquote = None) by (destruct P as [->|(v & ->)]; reflexivity). rewrite G, E. rewrite sapp_nil_r.
    destruct P as [->|(v & ->)]; reflexivity.
  - cbn [octal_escapes]. pose proof (escape_read c (octal_escapes x ++ String dquote EmptyString)) as R. unfold octal_escape in *. cbn [String.append] in *.
    rewrite (IH (Octal 0 (Z.of_nat (nat_of_ascii c))) (String c EmptyString)) in R; [|right; eauto|].
    2:{ cbn [escaped]. rewrite Nat2Z.id, ascii_nat_embedding. destruct c as [[] [] [] [] [] [] [] []]; reflexivity. }
    assert (S : forall r, str_rest p (String backslash r) = let? y := str_rest Escape r in Some (a ++ y)%string).
    { intros r. destruct P as [->|(v & ->)]; cbn [str_rest goes_on]; rewrite E; reflexivity. }
    rewrite S, R. reflexivity.
Qed.
Theorem spelled_lit x : str_lit (spelled x) = Some x.
Proof. unfold str_lit, spelled. rewrite Ascii.eqb_refl. exact (spelled_read x Outside EmptyString (or_introl eq_refl) eq_refl). Qed.

(** *** Two numbers and a character between them *)
Lemma lead_app a : all_chars is_digit a = true -> forall r, match r with String c _ => is_digit c = false | EmptyString => True end -> lead_digits (a ++ r) = (a, r).
Proof.
  induction a as [|c a IH]; intros A r R; cbn [String.append lead_digits all_chars] in *.
  - destruct r as [|c r]; [reflexivity|]. cbn [lead_digits]. change (Cpp.is_digit c) with (is_digit c). now rewrite R.
  - apply andb_true_iff in A as [C A]. change (Cpp.is_digit c) with (is_digit c). now rewrite C, (IH A r R).
Qed.
Lemma two_parts a c b : all_chars is_digit a = true -> all_chars is_digit b = true -> a <> EmptyString -> b <> EmptyString -> is_digit c = false ->
  two_numbers (a ++ String c b) = Some (a, c, b).
Proof.
  intros A B NA NB C. unfold two_numbers. rewrite (lead_app a A (String c b) C). destruct a as [|d a]; [congruence|].
  replace b with (b ++ EmptyString)%string at 1 by apply sapp_nil_r. rewrite (lead_app b B EmptyString I). destruct b; [congruence|reflexivity].
Qed.
Lemma num_dec n : (0 <= n < 2 ^ 63)%Z -> int_num (zdec n) = Some n /\ all_chars is_digit (zdec n) = true /\ zdec n <> EmptyString.
Proof.
  intros [P H]. destruct n as [|p|p]; [repeat split; discriminate| |lia]. cbn [zdec]. split; [now apply int_num_decimal|]. split; [apply dec_all|].
  destruct (zdec_nonempty (Zpos p)) as (c & s & E). cbn [zdec] in E. rewrite E. discriminate.
Qed.
Definition is_letter (c : ascii) : bool := ((c =? "b") || (c =? "B") || (c =? "x") || (c =? "X"))%char.
Theorem operation_lit x y c : (0 <= x < 2 ^ 31)%Z -> (0 <= y < 2 ^ 31)%Z -> is_digit c = false -> c <> quote -> is_letter c = false ->
  expr_lit (zdec x ++ String c (zdec y)) = operation c x y /\ expr_lit (String "-" (zdec x ++ String c (zdec y))) = operation c (- x) y.
Proof.
  intros HX HY C Q N. destruct (num_dec x) as (X1 & X2 & X3); [lia|]. destruct (num_dec y) as (Y1 & Y2 & Y3); [lia|].
  assert (IX : in_int x = true) by (unfold in_int; apply andb_true_iff; split; [apply Z.leb_le|apply Z.ltb_lt]; lia).
  assert (IY : in_int y = true) by (unfold in_int; apply andb_true_iff; split; [apply Z.leb_le|apply Z.ltb_lt]; lia).
  assert (G : forall m, expr_num m (zdec x ++ String c (zdec y)) = operation c (if m then - x else x)%Z y).
  { intros m. unfold expr_num. rewrite (two_parts (zdec x) c (zdec y) X2 Y2 X3 Y3 C). assert (Q' : (c =? quote)%char = false) by now apply Ascii.eqb_neq.
    unfold is_letter in N. apply orb_false_iff in N as [N N4]. apply orb_false_iff in N as [N N3]. apply orb_false_iff in N as [N1 N2]. rewrite Q', N1, N2, N3, N4, X1, Y1, IX, IY. cbn [orb]. rewrite !andb_false_r. reflexivity. }
  split; [|exact (G true)]. rewrite <- (G false). destruct (zdec x) as [|d r]; [congruence|]. cbn [all_chars] in X2. apply andb_true_iff in X2 as [D _]. cbn [String.append].
  destruct d as [[] [] [] [] [] [] [] []]; try discriminate D; reflexivity.
Qed.
Theorem separated_lit a b : all_chars is_digit a = true -> all_chars is_digit b = true -> a <> EmptyString -> b <> EmptyString -> expr_lit (a ++ String quote b) = int_lit (a ++ b).
Proof.
  intros A B NA NB. pose proof (two_parts a quote b A B NA NB eq_refl) as T. destruct a as [|d a]; [congruence|]. cbn [all_chars] in A. apply andb_true_iff in A as [D _].
  assert (E : expr_lit (String d a ++ String quote b) = expr_num false (String d a ++ String quote b)) by (cbn [String.append]; destruct d as [[] [] [] [] [] [] [] []]; try discriminate D; reflexivity).
  assert (E' : int_lit (String d a ++ b) = int_num (String d a ++ b)) by (cbn [String.append]; destruct d as [[] [] [] [] [] [] [] []]; try discriminate D; reflexivity).
  rewrite E, E'. unfold expr_num. rewrite T. cbn [Ascii.eqb quote Bool.eqb]. destruct (int_num (String d a ++ b)); reflexivity.
Qed.
