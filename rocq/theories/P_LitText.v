(** Property theorems about string literals in headers: C84. *)
From Coq Require Import String Ascii ZArith Zquot NArith Arith List Bool Lia.
From Verif Require Import Base Map Items Grammar Fmt Decimal Cpp Xml Val CppSem DecText Lit LitProps.
Import ListNotations.
Local Open Scope string_scope.
Local Open Scope list_scope.

(** *** What lex.string and lex.ccon say *)
(** The digits and their values. *)
Definition digits : list (ascii * Z) :=
  [("0", 0); ("1", 1); ("2", 2); ("3", 3); ("4", 4); ("5", 5); ("6", 6); ("7", 7); ("8", 8); ("9", 9); ("a", 10); ("b", 11); ("c", 12); ("d", 13); ("e", 14); ("f", 15);
   ("A", 10); ("B", 11); ("C", 12); ("D", 13); ("E", 14); ("F", 15)]%char%Z.
Inductive value (base : Z) : Z -> string -> Z -> Prop :=
| v_none a : value base a "" a
| v_digit a c d r z : In (c, d) digits -> (d < base)%Z -> value base (a * base + d) r z -> value base a (String c r) z.
Definition no_digit (base : Z) (r : string) : Prop := forall c r' d, r = String c r' -> In (c, d) digits -> (base <= d)%Z.
(** Letters behind a backslash, and the numbers of the characters. *)
Definition simple_escapes : list (ascii * nat) :=
  [("n", 10); ("t", 9); ("r", 13); ("a", 7); ("b", 8); ("f", 12); ("v", 11); ("\", 92); ("'", 39); ("""", 34); ("?", 63)]%char%nat.
(** [spells r x]: what is between the quotes, and the characters of the string.  An octal escape
    has up to three digits and a hexadecimal one any number, both as many as there are. *)
Inductive spells : string -> string -> Prop :=
| sp_end : spells "" ""
| sp_char c r x : c <> dquote -> c <> backslash -> spells r x -> spells (String c r) (String c x)
| sp_simple e n r x : In (e, n) simple_escapes -> spells r x -> spells (String backslash (String e r)) (String (ascii_of_nat n) x)
| sp_octal ds z r x : value 8 0 ds z -> (1 <= String.length ds <= 3)%nat -> (String.length ds = 3%nat \/ no_digit 8 r) -> (z < 256)%Z -> spells r x ->
    spells (String backslash (ds ++ r)) (String (ascii_of_nat (Z.to_nat z)) x)
| sp_hexa ds z r x : value 16 0 ds z -> ds <> "" -> no_digit 16 r -> (z < 256)%Z -> spells r x ->
    spells (String backslash (String "x" (ds ++ r))) (String (ascii_of_nat (Z.to_nat z)) x).

(** *** Lit says the same *)
Lemma digit_is c d : hex_digit c = Some d <-> In (c, d) digits.
Proof.
  split.
  - destruct c as [[] [] [] [] [] [] [] []]; intros H; try discriminate H; injection H as <-; cbn; tauto.
  - intros H. cbn [digits In] in H. repeat (destruct H as [H|H]; [injection H as <- <-; reflexivity|]). contradiction.
Qed.
Lemma octal_is c d : octal_digit c = Some d <-> In (c, d) digits /\ (d < 8)%Z.
Proof.
  unfold octal_digit. rewrite <- digit_is. destruct (hex_digit c) as [e|]; [|split; [discriminate|intros [H _]; discriminate]]. destruct (e <? 8)%Z eqn:E; [apply Z.ltb_lt in E|apply Z.ltb_ge in E].
  - split; [intros [= <-]; auto|intros [[= <-] _]; reflexivity].
  - split; [discriminate|intros [[= <-] H]; lia].
Qed.
Lemma hex_small c d : In (c, d) digits -> (0 <= d < 16)%Z.
Proof. cbn [digits In]. intros H. repeat (destruct H as [H|H]; [injection H as <- <-; lia|]). contradiction. Qed.
Lemma escape_is c x : escape c = Some x <-> exists n, In (c, n) simple_escapes /\ x = ascii_of_nat n.
Proof.
  split.
  - destruct c as [[] [] [] [] [] [] [] []]; intros H; try discriminate H; injection H as <-; eexists; (split; [cbn; tauto|reflexivity]).
  - intros (n & H & ->). cbn [simple_escapes In] in H. repeat (destruct H as [H|H]; [injection H as <- <-; reflexivity|]). contradiction.
Qed.

Definition reads (p : lit_place) (r x : string) : Prop :=
  match p with
  | Outside => spells r x
  | Escape => spells (String backslash r) x
  | Octal k v => exists ds z r' x', r = (ds ++ r')%string /\ value 8 v ds z /\ String.length ds <= k /\ (String.length ds = k \/ no_digit 8 r') /\ (z < 256)%Z /\ x = String (ascii_of_nat (Z.to_nat z)) x' /\ spells r' x'
  | Hexa b v => exists ds z r' x', r = (ds ++ r')%string /\ value 16 v ds z /\ (b = true \/ ds <> "") /\ no_digit 16 r' /\ (z < 256)%Z /\ x = String (ascii_of_nat (Z.to_nat z)) x' /\ spells r' x'
  end.
Definition closed (r : string) : string := (r ++ String dquote EmptyString)%string.
Lemma closed_one r : (match closed r with EmptyString => true | _ => false end) = false.
Proof. destruct r; reflexivity. Qed.

(** Outside of escapes. *)
Definition plain_next (c : ascii) (r x : string) : Prop := c <> dquote /\ (c = backslash /\ spells (String backslash r) x \/ c <> backslash /\ exists y, x = String c y /\ spells r y).
Lemma spells_next c r x : spells (String c r) x <-> plain_next c r x.
Proof.
  split.
  - intros H. inversion H; subst; (split; [try assumption; discriminate|]); [right; eauto|left; auto..].
  - intros [D [[-> H]|(B & y & -> & H)]]; [exact H|now constructor].
Qed.
Lemma no_digit_nil b : no_digit b "".
Proof. intros c r d H. discriminate. Qed.
Lemma value_nil b v z : value b v "" z <-> z = v.
Proof. split; [intros H; now inversion H|intros ->; constructor]. Qed.
Lemma value_cons b v c r z : value b v (String c r) z <-> exists d, In (c, d) digits /\ (d < b)%Z /\ value b (v * b + d) r z.
Proof. split; [intros H; inversion H; subst; eauto|intros (d & A & B & C); econstructor; eauto]. Qed.
Lemma digit_one c d e : In (c, d) digits -> In (c, e) digits -> d = e.
Proof. rewrite <- !digit_is. congruence. Qed.
Lemma spells_none x : spells "" x <-> x = "".
Proof. split; [intros H; now inversion H|intros ->; constructor]. Qed.
Lemma lone_backslash x : ~ spells (String backslash "") x.
Proof. intros H. inversion H as [|c r y N1 N2 S| |ds z r y V LE MX LT S E1 E2|]; subst; [congruence|]. destruct ds; [cbn in LE; lia|discriminate]. Qed.
Lemma out_step r a c x : (forall x, str_rest Outside (closed r) = Some x <-> spells r x) -> (forall x, str_rest Escape (closed r) = Some x <-> spells (String backslash r) x) ->
  (if (c =? dquote)%char then match closed r with EmptyString => Some a | _ => None end
   else if (c =? backslash)%char then let? y := str_rest Escape (closed r) in Some (a ++ y)%string
   else let? y := str_rest Outside (closed r) in Some (a ++ String c y)%string) = Some x <-> exists x', x = (a ++ x')%string /\ spells (String c r) x'.
Proof.
  intros HO HE. destruct (Ascii.eqb_spec c dquote) as [->|ND].
  - split; [destruct r; discriminate|]. intros (x' & _ & H). apply spells_next in H as [H _]. congruence.
  - destruct (Ascii.eqb_spec c backslash) as [->|NB].
    + destruct (str_rest Escape (closed r)) as [y|] eqn:E.
      * split; [intros [= <-]; exists y; split; [reflexivity|now apply HE]|]. intros (x' & -> & H). apply HE in H. congruence.
      * split; [discriminate|]. intros (x' & -> & H). apply HE in H. congruence.
    + destruct (str_rest Outside (closed r)) as [y|] eqn:E.
      * split; [intros [= <-]; exists (String c y); split; [reflexivity|]; constructor; auto; now apply HO|]. intros (x' & -> & H). apply spells_next in H as [_ [[Q _]|(_ & y' & -> & H)]]; [congruence|]. apply HO in H. congruence.
      * split; [discriminate|]. intros (x' & -> & H). apply spells_next in H as [_ [[Q _]|(_ & y' & -> & H)]]; [congruence|]. apply HO in H. congruence.
Qed.
Lemma simple_no_digit e n : In (e, n) simple_escapes -> octal_digit e = None /\ (e =? "x")%char = false.
Proof. cbn [simple_escapes In]. intros H. repeat (destruct H as [H|H]; [injection H as <- <-; split; reflexivity|]). contradiction. Qed.

Theorem rest_reads : forall r p x, str_rest p (closed r) = Some x <-> reads p r x.
Proof.
  induction r as [|c r IH]; intros p x.
  - destruct p as [| |k v|b v]; unfold closed; cbn [String.append str_rest reads].
    + cbn [goes_on escaped]. change ((dquote =? dquote)%char) with true. cbn iota. rewrite spells_none. split; [now intros [= <-]|now intros ->].
    + change (octal_digit dquote) with (@None Z). cbn iota. change (dquote =? "x")%char with false. cbn iota. split; [discriminate|]. intros H. now apply lone_backslash in H.
    + assert (G : goes_on (Octal k v) dquote = None) by (destruct k; reflexivity). rewrite G. cbn [escaped]. change ((dquote =? dquote)%char) with true. cbn iota. destruct (v <? 256)%Z eqn:V; [apply Z.ltb_lt in V|apply Z.ltb_ge in V].
      * split.
        -- intros [= <-]. exists "", v, "", "". split; [reflexivity|]. split; [constructor|]. split; [cbn; lia|]. split; [right; apply no_digit_nil|]. split; [exact V|]. split; [reflexivity|constructor].
        -- intros (ds & z & r' & x' & E & VA & _ & _ & LT & -> & H). destruct ds; [|discriminate]. cbn in E. subst r'. apply value_nil in VA. subst z. apply spells_none in H. now subst x'.
      * split; [discriminate|]. intros (ds & z & r' & x' & E & VA & _ & _ & LT & _). destruct ds; [|discriminate]. apply value_nil in VA. subst z. lia.
    + assert (G : goes_on (Hexa b v) dquote = None) by reflexivity. rewrite G. destruct b; cbn [escaped].
      * change ((dquote =? dquote)%char) with true. cbn iota. destruct (v <? 256)%Z eqn:V; [apply Z.ltb_lt in V|apply Z.ltb_ge in V].
        -- split.
           ++ intros [= <-]. exists "", v, "", "". split; [reflexivity|]. split; [constructor|]. split; [now left|]. split; [apply no_digit_nil|]. split; [exact V|]. split; [reflexivity|constructor].
           ++ intros (ds & z & r' & x' & E & VA & _ & _ & LT & -> & H). destruct ds; [|discriminate]. cbn in E. subst r'. apply value_nil in VA. subst z. apply spells_none in H. now subst x'.
        -- split; [discriminate|]. intros (ds & z & r' & x' & E & VA & _ & _ & LT & _). destruct ds; [|discriminate]. apply value_nil in VA. subst z. lia.
      * split; [discriminate|]. intros (ds & z & r' & x' & E & VA & [B|N] & _); [discriminate|]. destruct ds; [congruence|discriminate].
  - pose proof (fun x => IH Outside x) as IO. pose proof (fun x => IH Escape x) as IE. cbn [reads] in IO, IE.
    pose proof (fun a x => out_step r a c x IO IE) as STEP. change (closed (String c r)) with (String c (closed r)).
    destruct p as [| |k v|b v].
    + cbn [str_rest goes_on escaped reads]. rewrite STEP. split; [intros (x' & -> & H); exact H|intros H; exists x; auto].
    + cbn [str_rest reads]. destruct (octal_digit c) as [d|] eqn:OD.
      * pose proof OD as OD'. apply octal_is in OD' as [DI D8]. rewrite (IH (Octal 2 d) x). cbn [reads]. split.
        -- intros (ds & z & r' & x' & -> & VA & LE & MX & LT & -> & H). change (String c (ds ++ r')) with (String c ds ++ r')%string. apply sp_octal; auto.
           ++ apply value_cons. exists d. auto.
           ++ cbn [String.length]. lia.
           ++ cbn [String.length]. destruct MX; [left; lia|now right].
        -- intros H. inversion H as [|c0 r0 y N1 N2 S|e n r0 y IN S|ds z r0 y VA LE MX LT S E1|ds z r0 y VA NE ND LT S]; subst; [congruence| | |].
           ++ apply simple_no_digit in IN as [IN _]. congruence.
           ++ destruct ds as [|c0 ds]; [cbn in LE; lia|]. cbn [String.append] in E1. injection E1 as -> <-. apply value_cons in VA as (d' & DI' & _ & VA). rewrite (digit_one _ _ _ DI' DI) in VA. cbn [String.length] in *.
              exists ds, z, r0, y. repeat split; auto; [lia|]. destruct MX; [left; lia|now right].
           ++ discriminate OD.
      * destruct (Ascii.eqb_spec c "x") as [->|NX].
        -- rewrite (IH (Hexa false 0) x). cbn [reads]. split.
           ++ intros (ds & z & r' & x' & -> & VA & [B|NE] & ND & LT & -> & H); [discriminate|]. now apply sp_hexa.
           ++ intros H. inversion H as [|c0 r0 y N1 N2 S|e n r0 y IN S|ds z r0 y VA LE MX LT S E1|ds z r0 y VA NE ND LT S]; subst; [congruence| | |].
              ** apply simple_no_digit in IN as [_ IN]. discriminate.
              ** destruct ds as [|c0 ds]; [cbn in LE; lia|]. cbn [String.append] in E1. injection E1 as -> <-. apply value_cons in VA as (d' & DI' & _ & VA). apply digit_is in DI'. discriminate.
              ** exists ds, z, r0, y. repeat split; auto.
        -- destruct (escape c) as [e|] eqn:ES.
           ++ pose proof ES as ES'. apply escape_is in ES' as (n & IN & ->). destruct (str_rest Outside (closed r)) as [y|] eqn:RO.
              ** split; [intros [= <-]; apply sp_simple; auto; now apply IO|]. intros H. inversion H as [|c0 r0 y0 N1 N2 S|e n' r0 y0 IN' S|ds z r0 y0 VA LE MX LT S E1|ds z r0 y0 VA NE ND LT S]; subst; [congruence| | |congruence].
                 --- apply IO in S. assert (Q : escape c = Some (ascii_of_nat n')) by (apply escape_is; eauto). rewrite ES in Q. congruence.
                 --- destruct ds as [|c0 ds]; [cbn in LE; lia|]. cbn [String.append] in E1. injection E1 as -> <-. apply value_cons in VA as (d' & DI' & D8 & VA). rewrite (proj2 (octal_is c d') (conj DI' D8)) in OD. discriminate.
              ** split; [discriminate|]. intros H. inversion H as [|c0 r0 y0 N1 N2 S|e n' r0 y0 IN' S|ds z r0 y0 VA LE MX LT S E1|ds z r0 y0 VA NE ND LT S]; subst; [congruence| | |congruence].
                 --- apply IO in S. congruence.
                 --- destruct ds as [|c0 ds]; [cbn in LE; lia|]. cbn [String.append] in E1. injection E1 as -> <-. apply value_cons in VA as (d' & DI' & D8 & VA). rewrite (proj2 (octal_is c d') (conj DI' D8)) in OD. discriminate.
           ++ split; [discriminate|]. intros H. inversion H as [|c0 r0 y0 N1 N2 S|e n' r0 y0 IN' S|ds z r0 y0 VA LE MX LT S E1|ds z r0 y0 VA NE ND LT S]; subst; [congruence| | |congruence].
              ** assert (Q : escape c = Some (ascii_of_nat n')) by (apply escape_is; eauto). congruence.
              ** destruct ds as [|c0 ds]; [cbn in LE; lia|]. cbn [String.append] in E1. injection E1 as -> <-. apply value_cons in VA as (d' & DI' & D8 & VA). rewrite (proj2 (octal_is c d') (conj DI' D8)) in OD. discriminate.
    + cbn [str_rest]. destruct (goes_on (Octal k v) c) as [p'|] eqn:G.
      * cbn [goes_on] in G. destruct k as [|k]; [discriminate|]. destruct (octal_digit c) as [d|] eqn:OD; [|discriminate]. injection G as <-. apply octal_is in OD as [DI D8]. rewrite (IH _ x). cbn [reads]. split.
        -- intros (ds & z & r' & x' & -> & VA & LE & MX & LT & -> & H). exists (String c ds), z, r', x'. split; [reflexivity|]. split; [apply value_cons; eauto|]. cbn [String.length]. split; [lia|]. split; [destruct MX; [left; lia|now right]|]. auto.
        -- intros (ds & z & r' & x' & E & VA & LE & MX & LT & -> & H). destruct ds as [|c0 ds].
           ++ exfalso. cbn [String.append String.length] in *. subst r'. destruct MX as [MX|MX]; [discriminate|]. specialize (MX c r d eq_refl DI). lia.
           ++ cbn [String.append] in E. injection E as <- ->. apply value_cons in VA as (d' & DI' & _ & VA). rewrite (digit_one _ _ _ DI' DI) in VA. cbn [String.length] in *. exists ds, z, r', x'. repeat split; auto; [lia|]. destruct MX; [left; lia|now right].
      * cbn [escaped reads].
        assert (EQ : (exists ds z r' x', String c r = (ds ++ r')%string /\ value 8 v ds z /\ String.length ds <= k /\ (String.length ds = k \/ no_digit 8 r') /\ (z < 256)%Z /\ x = String (ascii_of_nat (Z.to_nat z)) x' /\ spells r' x') <->
                     (v < 256)%Z /\ exists x', x = (String (ascii_of_nat (Z.to_nat v)) "" ++ x')%string /\ spells (String c r) x').
        { split.
          - intros (ds & z & r' & x' & E & VA & LE & MX & LT & -> & H). destruct ds as [|c0 ds].
            + cbn [String.append] in E. subst r'. apply value_nil in VA. subst z. split; [exact LT|]. exists x'. auto.
            + exfalso. cbn [String.append] in E. injection E as <- ->. apply value_cons in VA as (d' & DI' & D8 & VA). cbn [String.length] in LE. destruct k as [|k]; [lia|]. cbn [goes_on] in G. rewrite (proj2 (octal_is c d') (conj DI' D8)) in G. discriminate.
          - intros (LT & x' & -> & H). exists "", v, (String c r), x'. split; [reflexivity|]. split; [constructor|]. split; [cbn; lia|]. split; [|auto].
            destruct k as [|k]; [now left|]. right. intros c0 r0 d E DI. injection E as <- <-. destruct (Z.ltb_spec d 8) as [D8|D8]; [|exact D8]. cbn [goes_on] in G. rewrite (proj2 (octal_is c d) (conj DI D8)) in G. discriminate. }
        rewrite EQ. clear EQ. destruct (v <? 256)%Z eqn:V; [apply Z.ltb_lt in V|apply Z.ltb_ge in V].
        -- rewrite STEP. tauto.
        -- split; [discriminate|]. intros [H _]. lia.
    + cbn [str_rest]. cbn [goes_on]. destruct (hex_digit c) as [d|] eqn:HD.
      * rewrite (IH _ x). apply digit_is in HD. pose proof (hex_small c d HD) as D16. cbn [reads]. split.
        -- intros (ds & z & r' & x' & -> & VA & _ & ND & LT & -> & H). exists (String c ds), z, r', x'. split; [reflexivity|]. split; [apply value_cons; exists d; split; [exact HD|]; split; [lia|exact VA]|]. split; [right; discriminate|]. auto.
        -- intros (ds & z & r' & x' & E & VA & NE & ND & LT & -> & H). destruct ds as [|c0 ds].
           ++ exfalso. cbn [String.append] in E. subst r'. specialize (ND c r d eq_refl HD). lia.
           ++ cbn [String.append] in E. injection E as <- ->. apply value_cons in VA as (d' & DI' & _ & VA). rewrite (digit_one _ _ _ DI' HD) in VA. exists ds, z, r', x'. repeat split; auto.
      * cbn [reads].
        assert (EQ : (exists ds z r' x', String c r = (ds ++ r')%string /\ value 16 v ds z /\ (b = true \/ ds <> "") /\ no_digit 16 r' /\ (z < 256)%Z /\ x = String (ascii_of_nat (Z.to_nat z)) x' /\ spells r' x') <->
                     b = true /\ (v < 256)%Z /\ exists x', x = (String (ascii_of_nat (Z.to_nat v)) "" ++ x')%string /\ spells (String c r) x').
        { split.
          - intros (ds & z & r' & x' & E & VA & NE & ND & LT & -> & H). destruct ds as [|c0 ds].
            + cbn [String.append] in E. subst r'. apply value_nil in VA. subst z. split; [destruct NE; [assumption|congruence]|]. split; [exact LT|]. exists x'. auto.
            + exfalso. cbn [String.append] in E. injection E as <- ->. apply value_cons in VA as (d' & DI' & D8 & VA). apply digit_is in DI'. congruence.
          - intros (-> & LT & x' & -> & H). exists "", v, (String c r), x'. split; [reflexivity|]. split; [constructor|]. split; [now left|]. split; [|auto].
            intros c0 r0 d E DI. injection E as <- <-. apply digit_is in DI. congruence. }
        rewrite EQ. clear EQ. destruct b; cbn [escaped]; [|split; [discriminate|intros [H _]; discriminate]]. destruct (v <? 256)%Z eqn:V; [apply Z.ltb_lt in V|apply Z.ltb_ge in V].
        -- rewrite STEP. tauto.
        -- split; [discriminate|]. intros [_ [H _]]. lia.
Qed.

(** *** C84.  The text between the quotes means the characters that it spells, up to the first
    character 0; if it spells nothing the header does not compile. *)
Theorem C84_literals : forall ds long F r x, lit_value ds long F TStd (DStr (String dquote (r ++ String dquote ""))) = Some x <-> exists y, spells r y /\ x = VStr (CppSem.cut y).
Proof.
  intros ds long F r x. cbn [lit_value str_lit]. change ((dquote =? dquote)%char) with true. cbn iota. fold (closed r). pose proof (rest_reads r Outside) as R. cbn [reads] in R.
  destruct (str_rest Outside (closed r)) as [y|] eqn:E.
  - split; [intros [= <-]; exists y; split; [now apply R|reflexivity]|]. intros (y' & H & ->). apply R in H. congruence.
  - split; [discriminate|]. intros (y' & H & _). apply R in H. congruence.
Qed.
(** A case: two hexadecimal digits, a letter, three octal digits, a digit and a new line. *)
Example C84_spelled : spells "\x42g\1034\n" ("BgC4" ++ String "010" "").
Proof.
  apply (sp_hexa "42" 66 "g\1034\n" ("gC4" ++ String "010" "")).
  - repeat (apply value_cons; eexists; split; [cbn; tauto|]; split; [lia|]). now apply value_nil.
  - discriminate.
  - intros c r d [= <- <-] H. apply digit_is in H. discriminate.
  - lia.
  - apply sp_char; [discriminate|discriminate|]. apply (sp_octal "103" 67 "4\n" ("4" ++ String "010" "")).
    + repeat (apply value_cons; eexists; split; [cbn; tauto|]; split; [lia|]). now apply value_nil.
    + cbn. lia.
    + now left.
    + lia.
    + apply sp_char; [discriminate|discriminate|]. apply (sp_simple "n" 10 "" ""); [cbn; tauto|constructor].
Qed.
Print Assumptions C84_literals.

(** *** C84.  Operations on two numbers, the first with or without a minus sign.  Division cuts
    off towards 0, and the operations on bits work on two's complements. *)
Definition means (c : ascii) (x y z : Z) : Prop :=
  (c = "+"%char /\ z = x + y \/ c = "-"%char /\ z = x - y \/ c = "*"%char /\ z = x * y \/
   c = "/"%char /\ (exists r, x = y * z + r /\ Z.abs r < y /\ 0 <= r * x) \/ c = "%"%char /\ (exists q, x = y * q + z /\ Z.abs z < y /\ 0 <= z * x) \/
   c = "<"%char /\ (x < y /\ z = 1 \/ y <= x /\ z = 0) \/ c = ">"%char /\ (y < x /\ z = 1 \/ x <= y /\ z = 0) \/
   c = "&"%char /\ (forall i, 0 <= i -> Z.testbit z i = (Z.testbit x i && Z.testbit y i)%bool) \/
   c = "|"%char /\ (forall i, 0 <= i -> Z.testbit z i = (Z.testbit x i || Z.testbit y i)%bool) \/
   c = "^"%char /\ (forall i, 0 <= i -> Z.testbit z i = xorb (Z.testbit x i) (Z.testbit y i)))%Z.
Lemma cut_off x y q r : (x = y * q + r -> Z.abs r < y -> 0 <= r * x -> q = Z.quot x y /\ r = Z.rem x y)%Z.
Proof.
  intros E A S. apply Zquot_mod_unique_full; [|exact E]. unfold Remainder. destruct (Z.lt_trichotomy x 0) as [H|[H|H]].
  - right. split; [lia|]. split; [lia|]. nia.
  - subst x. assert (r = 0)%Z; [|left; lia]. destruct (Z.eq_dec q 0) as [->|NQ]; [lia|]. nia.
  - left. split; [lia|]. split; [nia|lia].
Qed.
Theorem operation_means c x y z : in_int z = true -> means c x y z -> operation c x y = Some z.
Proof.
  intros IZ H. unfold operation.
  destruct H as [[-> H]|[[-> H]|[[-> H]|[(-> & r & E & A & G)|[(-> & q & E & A & G)|[[-> H]|[[-> H]|[[-> H]|[[-> H]|[-> H]]]]]]]]]]; cbn [Ascii.eqb Bool.eqb].
  1,2,3: subst z; now rewrite IZ.
  1,2: assert (NY : (y =? 0)%Z = false) by (apply Z.eqb_neq; lia); rewrite NY; destruct (cut_off _ _ _ _ E A G) as [Q R].
  - rewrite <- Q. now rewrite IZ.
  - rewrite <- R. now rewrite IZ.
  - destruct H as [[H ->]|[H ->]]; [apply Z.ltb_lt in H|apply Z.ltb_ge in H]; rewrite H; reflexivity.
  - destruct H as [[H ->]|[H ->]]; [apply Z.ltb_lt in H|apply Z.ltb_ge in H]; rewrite H; reflexivity.
  - assert (z = Z.land x y) as <- by (apply Z.bits_inj'; intros i I; now rewrite H, Z.land_spec). now rewrite IZ.
  - assert (z = Z.lor x y) as <- by (apply Z.bits_inj'; intros i I; now rewrite H, Z.lor_spec). now rewrite IZ.
  - assert (z = Z.lxor x y) as <- by (apply Z.bits_inj'; intros i I; now rewrite H, Z.lxor_spec). now rewrite IZ.
Qed.
Theorem C84_signed_operations : forall ds long F k c x y z, (- 2 ^ 31 < x < 2 ^ 31)%Z -> (0 <= y < 2 ^ 31)%Z -> in_kind long k z = true -> in_int z = true -> means c x y z ->
  lit_value ds long F (TNum k) (DFlt (zdec x ++ String c (zdec y))) = Some (VNum k z).
Proof.
  intros ds long F k c x y z HX HY IK IZ H. pose proof (operation_means c x y z IZ H) as O.
  assert (C : is_digit c = false /\ c <> quote /\ is_letter c = false).
  { destruct H as [[-> H]|[[-> H]|[[-> H]|[(-> & r & E & A & G)|[(-> & q & E & A & G)|[[-> H]|[[-> H]|[[-> H]|[[-> H]|[-> H]]]]]]]]]]; repeat split; discriminate. }
  destruct C as (C1 & C2 & C3). cbn [lit_value integral]. destruct (Z_lt_le_dec x 0) as [N|N].
  - destruct (operation_lit (- x) y c ltac:(lia) HY C1 C2 C3) as [_ E]. rewrite Z.opp_involutive in E.
    replace (zdec x ++ String c (zdec y))%string with (String "-" (zdec (- x) ++ String c (zdec y))) by (destruct x as [|p|p]; [lia|lia|reflexivity]). now rewrite E, O, IK.
  - now rewrite (proj1 (operation_lit x y c ltac:(lia) HY C1 C2 C3)), O, IK.
Qed.
(** Cases: -7/2 is -3, -7%2 is -1 and -2&7 is 6. *)
Example C84_signed_case : means "/" (-7) 2 (-3) /\ means "%" (-7) 2 (-1) /\
  lit_value [] 64 (fun _ _ => None) (TNum KShort) (DFlt "-7/2") = Some (VNum KShort (-3)) /\ lit_value [] 64 (fun _ _ => None) (TNum KShort) (DFlt "-7%2") = Some (VNum KShort (-1)) /\
  lit_value [] 64 (fun _ _ => None) (TNum KShort) (DFlt "-2&7") = Some (VNum KShort 6).
Proof.
  split; [do 3 right; left; split; [reflexivity|]; exists (-1)%Z; lia|]. split; [do 4 right; left; split; [reflexivity|]; exists (-3)%Z; lia|]. repeat split.
Qed.
Print Assumptions C84_signed_operations.
