(** Which texts the reader of n_ini files can find at all: a condition that every text in its
    lookups meets, whatever the files. *)
From Coq Require Import String Ascii ZArith NArith Arith List Bool Lia.
From Verif Require Import Base Map Items Grammar Fmt Decimal Templates Emit Cpp Xml Val Rx CppSem SymLex Ast StoreDefs ResolveProps Prog Header Link EnumSem DecText EnumCall EnumRound XmlSpec XmlRdSimple XmlRead XmlReader XmlCall XmlWriter XmlFile XmlCarry XmlRound XmlProps XmlReadProps XmlThms
  IniSpec IniRead IniReader IniCall IniLines IniFile IniEntry IniWrite IniWriter IniScan IniKeep IniRound IniBack IniThms IniText IniMean.
Import ListNotations.
Local Open Scope string_scope.
Local Open Scope list_scope.

(** *** The condition, on texts alone *)
Definition chars (p : ascii -> bool) (s : string) : Prop := Forall (fun c => p c = true) (list_ascii_of_string s).
(** A character that neither starts a comment nor ends a string of C. *)
Definition plain_char (c : ascii) : bool := negb ((c =? "%") || (c =? zero))%char.
Definition on_a_line (c : ascii) : bool := negb ((c =? nl) || (c =? cr))%char.
Definition not_nl (c : ascii) : bool := negb (c =? nl)%char.
(** Lines that begin with a space, one after the other; a line may be without its end. *)
Inductive indented : string -> Prop :=
| in_none : indented ""
| in_more a b : indented a -> chars not_nl b -> String.length b <= 78 -> indented (a ++ " " ++ b)
| in_line a b : indented a -> chars not_nl b -> String.length b <= 77 -> indented (a ++ " " ++ b ++ NL).
(** Texts that the reader can find for the item [n]: at least one character on one line, but not
    more than there is place for, or a newline and indented lines; never a percent sign or a
    character 0. *)
Definition findable (n s : string) : Prop :=
  chars plain_char s /\
  (s <> "" /\ chars on_a_line s /\ String.length n + 1 + String.length s <= 79 \/ exists r, s = (NL ++ r)%string /\ indented r).

Lemma chars_app p a b : chars p (a ++ b) <-> chars p a /\ chars p b.
Proof.
  unfold chars. assert (E : list_ascii_of_string (a ++ b) = list_ascii_of_string a ++ list_ascii_of_string b) by (induction a as [|c a IH]; [reflexivity|]; cbn; now rewrite IH).
  rewrite E. apply Forall_app.
Qed.
Lemma chars_cons p c a : chars p (String c a) <-> p c = true /\ chars p a.
Proof. unfold chars. cbn [list_ascii_of_string]. split; [intros H; inversion H; auto|intros [A B]; now constructor]. Qed.
Lemma chars_nil p : chars p "". Proof. constructor. Qed.
Lemma slength_app a b : String.length (a ++ b)%string = String.length a + String.length b.
Proof. induction a as [|c a IH]; [reflexivity|]. cbn. now rewrite IH. Qed.

Lemma snoc_is a c : snoc a c = (a ++ String c "")%string. Proof. rewrite <- snoc_append. now rewrite sapp_nil_r. Qed.

(** *** The lines that fgets gives *)
(** A newline is the last character, if there is one. *)
Definition one_piece (l : string) : Prop := String.length l <= 79 /\ exists b, chars not_nl b /\ (l = b \/ l = (b ++ NL)%string).
Lemma chunk_pieces : forall s room a, String.length a + room <= 79 -> 1 <= room -> chars not_nl a -> Forall one_piece (chunks room a s).
Proof.
  induction s as [|c s IH]; intros room a LE R N; cbn [chunks].
  - destruct a as [|c a]; [constructor|]. constructor; [|constructor]. split; [lia|]. exists (String c a). auto.
  - destruct (c =? nl)%char eqn:C; cbn [orb].
    + constructor; [|apply IH; [cbn; lia|lia|apply chars_nil]]. apply Ascii.eqb_eq in C. subst c. rewrite snoc_is. split; [rewrite slength_app; cbn; lia|]. exists a. split; [exact N|]. right. reflexivity.
    + assert (NS : chars not_nl (snoc a c)) by (rewrite snoc_is; apply chars_app; split; [exact N|]; apply chars_cons; split; [unfold not_nl; now rewrite C|apply chars_nil]).
      assert (LS : String.length (snoc a c) = S (String.length a)) by (rewrite snoc_is, slength_app; cbn; lia).
      destruct (room <=? 1)%nat eqn:Q.
      * constructor; [|apply IH; [cbn; lia|lia|apply chars_nil]]. split; [lia|]. exists (snoc a c). auto.
      * apply Nat.leb_gt in Q. apply IH; [lia|lia|exact NS].
Qed.
(** ... and what is left of them *)
Lemma piece_prefix a b : one_piece (a ++ b) -> one_piece a.
Proof.
  intros (LE & d & N & E). split; [rewrite slength_app in LE; lia|]. destruct E as [E|E].
  - exists a. split; [|auto]. subst d. now apply chars_app in N.
  - clear LE. revert b E. assert (H : forall d a b, chars not_nl d -> (a ++ b)%string = (d ++ NL)%string -> exists b, chars not_nl b /\ (a = b \/ a = (b ++ NL)%string)).
    { clear. induction d as [|c d IH]; intros a b N E.
      - destruct a as [|x a]; [exists ""; split; [apply chars_nil|auto]|]. injection E as -> E. destruct a; [|discriminate]. exists "". split; [apply chars_nil|]. right. reflexivity.
      - destruct a as [|x a]; [exists ""; split; [apply chars_nil|auto]|]. injection E as -> E. apply chars_cons in N as [C N]. destruct (IH a b N E) as (d' & N' & [->| ->]); exists (String c d').
        + split; [now apply chars_cons|auto].
        + split; [now apply chars_cons|]. right. reflexivity. }
    intros b E. exact (H d a b N E).
Qed.
Lemma cut_prefix s : exists r, s = (CppSem.cut s ++ r)%string.
Proof. induction s as [|c s (r & IH)]; [exists ""; reflexivity|]. cbn. destruct (c =? zero)%char; [exists (String c s); reflexivity|]. exists r. cbn. congruence. Qed.
Lemma no_comment_prefix s : exists r, s = (no_comment s ++ r)%string.
Proof. induction s as [|c s (r & IH)]; [exists ""; reflexivity|]. cbn. destruct (c =? "%")%char; [exists (String c s); reflexivity|]. exists r. cbn. congruence. Qed.
Lemma cut_plain s : chars (fun c => negb (c =? zero)%char) (CppSem.cut s).
Proof. induction s as [|c s IH]; [apply chars_nil|]. cbn [CppSem.cut]. change (ascii_of_nat 0) with zero. destruct (c =? zero)%char eqn:C; [apply chars_nil|]. apply chars_cons. now rewrite C. Qed.
Lemma no_comment_plain s : chars (fun c => negb (c =? zero)%char) s -> chars plain_char (no_comment s).
Proof.
  induction s as [|c s IH]; intros H; [apply chars_nil|]. apply chars_cons in H as [C H]. cbn [no_comment]. destruct (c =? "%")%char eqn:P; [apply chars_nil|]. apply chars_cons. split; [|auto].
  unfold plain_char. rewrite P. exact C.
Qed.
Lemma line_left l : one_piece l -> one_piece (no_comment (CppSem.cut l)) /\ chars plain_char (no_comment (CppSem.cut l)).
Proof.
  intros H. split; [|apply no_comment_plain, cut_plain]. destruct (cut_prefix l) as (r & E). rewrite E in H. apply piece_prefix in H. destruct (no_comment_prefix (CppSem.cut l)) as (q & F). rewrite F in H. now apply piece_prefix in H.
Qed.

(** *** What the regular expressions find *)
Lemma plus_has c r gs : forall s t g, rx_match (RItem c true :: r) s (Some t) gs = Some g ->
  exists w u, s = (w ++ u)%string /\ w <> "" /\ chars (rclass_has c) w /\ rx_match r u (Some (t ++ w)%string) gs = Some g.
Proof.
  induction s as [|a s IH]; intros t g H; [discriminate|].
  change ((if rclass_has c a then match rx_match (RItem c true :: r) s (Some (snoc t a)) gs with Some g => Some g | None => rx_match r s (Some (snoc t a)) gs end else None) = Some g) in H.
  destruct (rclass_has c a) eqn:C; [|discriminate]. destruct (rx_match (RItem c true :: r) s (Some (snoc t a)) gs) as [g'|] eqn:E.
  - injection H as ->. apply IH in E as (w & u & -> & NE & A & M). exists (String a w), u. split; [reflexivity|]. split; [discriminate|]. split; [now apply chars_cons|]. now rewrite <- snoc_append.
  - exists (String a ""), s. split; [reflexivity|]. split; [discriminate|]. split; [apply chars_cons; split; [exact C|apply chars_nil]|]. rewrite snoc_is in H. exact H.
Qed.
Lemma value_found l k v q : search "(\w+) (.+)" l = Some (k :: v :: q) -> v <> "" /\ chars on_a_line v /\ exists x y, l = (x ++ k ++ " " ++ v ++ y)%string.
Proof.
  unfold search. change (rx_compile "(\w+) (.+)") with (Some [ROpen; RItem RWord true; RClose; RItem (RChar " ") false; ROpen; RItem RAny true; RClose]).
  induction l as [|a l IH]; [discriminate|]. unfold rx_search; fold rx_search.
  destruct (rx_match _ (String a l) None []) as [g|] eqn:M.
  - intros [= ->]. change (rx_match [RItem RWord true; RClose; RItem (RChar " ") false; ROpen; RItem RAny true; RClose] (String a l) (Some "") [] = Some (k :: v :: q)) in M.
    apply plus_has in M as (w & u & E & NE & _ & M). rewrite E. cbn [rx_match app] in M. destruct u as [|b u]; [discriminate|]. destruct (rclass_has (RChar " ") b) eqn:B; [|discriminate]. apply Ascii.eqb_eq in B. subst b.
    change (rx_match [RItem RAny true; RClose] u (Some "") [w] = Some (k :: v :: q)) in M. apply plus_has in M as (w2 & u2 & -> & NE2 & A & M). injection M as <- <- _. split; [exact NE2|]. split; [exact A|].
    exists "", u2. reflexivity.
  - intros H. apply IH in H as (A & B & x & y & ->). split; [exact A|]. split; [exact B|]. exists (String a x), y. reflexivity.
Qed.

(** *** The reader *)
Definition all_found (k : lookups) : Prop := forall p n s, look k p n = Some s -> findable n s.
Definition pending_ok (key v : string) : Prop := key = "" \/ chars plain_char v /\ exists r, v = (NL ++ r)%string /\ indented r.
Lemma put_found c n v k : findable n v -> all_found k -> all_found (put_item c n v k).
Proof.
  intros V A. unfold put_item. destruct c as [s|]; [|exact A]. destruct (assoc s (k_under k)) as [its|] eqn:E; [|exact A].
  intros p m w LK. unfold look in LK. cbn [k_under] in LK. destruct (String.eqb p s) eqn:PS.
  - apply String.eqb_eq in PS. subst p. rewrite assoc_set_same in LK. cbn in LK. destruct (String.eqb m n) eqn:MN.
    + apply String.eqb_eq in MN. subst m. rewrite assoc_set_same in LK. now injection LK as <-.
    + rewrite assoc_set_other in LK by exact MN. apply (A s m w). unfold look. now rewrite E.
  - rewrite assoc_set_other in LK by exact PS. exact (A p m w LK).
Qed.
Lemma indented_more v l : indented v -> one_piece (String " " l) -> indented (v ++ String " " l).
Proof.
  intros H (LE & b & N & [E|E]).
  - destruct b as [|c b]; [discriminate|]. injection E as <- <-. apply chars_cons in N as [_ N]. apply (in_more v l H N). cbn [String.length] in LE. lia.
  - destruct b as [|c b]; [discriminate|]. injection E as <- ->. apply chars_cons in N as [_ N]. change (String " " (b ++ NL)) with (" " ++ b ++ NL)%string. apply (in_line v b H N). cbn [String.append String.length] in LE. rewrite slength_app in LE. cbn [NL String.length] in LE. lia.
Qed.
Lemma nl_plain : chars plain_char NL. Proof. apply chars_cons. split; [reflexivity|apply chars_nil]. Qed.
Lemma line_found l s : one_piece (no_comment l) -> chars plain_char (no_comment l) -> all_found (x_look s) -> pending_ok (x_key s) (x_val s) ->
  all_found (x_look (scan_line l s)) /\ pending_ok (x_key (scan_line l s)) (x_val (scan_line l s)).
Proof.
  intros OP PL A P. unfold scan_line. destruct (no_comment l) as [|c r]; [auto|].
  assert (F : all_found (x_look (flush c s)) /\ pending_ok (x_key (flush c s)) (x_val (flush c s))).
  { unfold flush. destruct (String.eqb (x_key s) "") eqn:K; cbn [negb andb]; [auto|]. destruct (negb (c =? " ")%char); [|auto]. cbn [x_look x_key x_val]. split; [|now left].
    apply put_found; [|exact A]. destruct P as [P|[P1 P2]]; [rewrite P in K; discriminate|]. split; [exact P1|now right]. }
  destruct F as [FA FP]. set (s' := flush c s) in *. destruct (c =? "[")%char.
  - destruct (search "\[(.+)\]" (String c r)) as [[|k q]|]; auto. cbn [x_look x_key x_val]. split; [|exact FP].
    intros p n w LK. unfold look in LK. cbn [k_under] in LK. destruct (String.eqb p k) eqn:PK.
    + apply String.eqb_eq in PK. subst p. rewrite assoc_set_same in LK. discriminate.
    + rewrite assoc_set_other in LK by exact PK. exact (FA p n w LK).
  - destruct (c =? " ")%char eqn:SP.
    + apply Ascii.eqb_eq in SP. subst c. cbn [x_look x_key x_val]. split; [exact FA|]. destruct FP as [FP|(P1 & r' & P2 & P3)]; [now left|]. right. split; [apply chars_app; auto|].
      exists (r' ++ String " " r)%string. split; [rewrite P2; now rewrite !sapp_assoc|]. now apply indented_more.
    + assert (REST : let z := match search "(\w+)" (String c r) with Some (k :: _) => Scan (x_look s') (x_cur s') k NL | _ => s' end in all_found (x_look z) /\ pending_ok (x_key z) (x_val z)).
      { destruct (search "(\w+)" (String c r)) as [[|k q]|]; cbn; auto. split; [exact FA|]. right. split; [exact nl_plain|]. exists "". split; [reflexivity|constructor]. }
      destruct (search "(\w+) (.+)" (String c r)) as [[|k [|v q]]|] eqn:SE; try exact REST.
      cbn [x_look x_key x_val]. split; [|exact FP]. apply put_found; [|exact FA]. apply value_found in SE as (NE & OL & x & y & E). rewrite E in PL, OP. apply chars_app in PL as [_ PL]. apply chars_app in PL as [_ PL]. apply chars_app in PL as [_ PL]. apply chars_app in PL as [PL _].
      split; [exact PL|]. left. split; [exact NE|]. split; [exact OL|]. destruct OP as [LL _]. rewrite !slength_app in LL. cbn [String.length] in LL. lia.
Qed.
Lemma text_found t s : all_found (x_look s) -> pending_ok (x_key s) (x_val s) -> all_found (x_look (scan_text t s)) /\ pending_ok (x_key (scan_text t s)) (x_val (scan_text t s)).
Proof.
  unfold scan_text. pose proof (chunk_pieces t 79 "" ltac:(cbn; lia) ltac:(lia) (chars_nil _)) as C. revert s. induction C as [|l ls P _ IH]; intros s A B; [auto|]. cbn [fold_left].
  destruct (line_left l P) as [L1 L2]. destruct (line_found (CppSem.cut l) s L1 L2 A B) as [A' B']. now apply IH.
Qed.
Theorem used_found rd : used rd -> all_found (r_look rd).
Proof.
  intros U. cut (all_found (r_look rd) /\ pending_ok (r_key rd) (r_val rd)); [tauto|]. induction U as [|t rd U [A P]].
  - split; [intros p n s; discriminate|now left].
  - unfold has_read. cbn [r_look r_key r_val]. now apply text_found.
Qed.

(** *** All of them can be found *)
Lemma not_nl_is x : chars not_nl x -> no_nl x = true.
Proof. unfold no_nl. induction x as [|c x IH]; intros H; [reflexivity|]. apply chars_cons in H as [C H]. cbn [all_chars]. rewrite (IH H). unfold not_nl in C. now rewrite C. Qed.
Lemma plain_left x z : chars plain_char x -> no_comment (CppSem.cut (x ++ "%" ++ z)) = x /\ no_comment (CppSem.cut x) = x.
Proof.
  induction x as [|c x IH]; intros H; [split; reflexivity|]. apply chars_cons in H as [C H]. destruct (IH H) as [A B]. unfold plain_char in C. apply negb_true_iff, orb_false_iff in C as [C1 C2].
  cbn [String.append CppSem.cut]. change (ascii_of_nat 0) with zero. rewrite C2. cbn [no_comment]. rewrite C1. cbn [String.append] in A. now rewrite A, B.
Qed.
Lemma cut_space x : CppSem.cut (String " " x) = String " " (CppSem.cut x). Proof. reflexivity. Qed.
Lemma scan_indented x s : scan_line (String " " x) s = match no_comment (String " " x) with EmptyString => s | l => Scan (x_look s) (x_cur s) (x_key s) (x_val s ++ l)%string end.
Proof. unfold scan_line. cbn [no_comment Ascii.eqb Bool.eqb]. unfold flush. cbn [Ascii.eqb Bool.eqb negb andb]. now rewrite andb_false_r. Qed.
Lemma chunks_full l : forall room a r, no_nl l = true -> String.length l = room -> room <> 0 -> chunks room a (l ++ r) = (a ++ l)%string :: chunks 79 "" r.
Proof.
  induction l as [|c l IH]; intros room a r N E Z; [cbn in E; congruence|]. unfold no_nl in N. cbn [all_chars] in N. apply andb_true_iff in N as [C N]. apply negb_true_iff in C. cbn [String.append chunks String.length] in *. rewrite C. cbn [orb].
  destruct l as [|d l].
  - cbn in E. subst room. cbn [Nat.leb]. now rewrite snoc_is.
  - destruct (Nat.leb_spec room 1); [cbn in E; lia|]. rewrite (IH (room - 1) (snoc a c) r N ltac:(lia) ltac:(cbn in E; lia)). now rewrite snoc_append.
Qed.
Definition adds (t a : string) : Prop := forall r s, scan_text (t ++ r) s = scan_text r (Scan (x_look s) (x_cur s) (x_key s) (x_val s ++ a)%string).
Lemma percent_line r s : scan_text ("%" ++ NL ++ r) s = scan_text r s.
Proof. rewrite (scan_any "%" r s eq_refl ltac:(cbn; lia)). reflexivity. Qed.
Lemma all_adds a : indented a -> chars plain_char a -> exists t, adds t a.
Proof.
  induction 1 as [|a b H IH N LE|a b H IH N LE]; intros P.
  - exists "". intros r s. cbn [String.append]. rewrite sapp_nil_r. now destruct s.
  - apply chars_app in P as [P PB]. destruct (IH P) as (t & T). pose proof (not_nl_is b N) as NB. assert (PB' : chars plain_char (String " " b)) by exact PB.
    assert (STEP : forall z s, scan_line (CppSem.cut (String " " b ++ "%" ++ z)) s = Scan (x_look s) (x_cur s) (x_key s) (x_val s ++ " " ++ b)%string /\ scan_line (CppSem.cut (String " " b)) s = Scan (x_look s) (x_cur s) (x_key s) (x_val s ++ " " ++ b)%string).
    { intros z s. destruct (plain_left (String " " b) z PB') as [A B]. cbn [String.append] in *. rewrite !cut_space in *. split; rewrite scan_indented; [rewrite A|rewrite B]; reflexivity. }
    destruct (Nat.le_gt_cases (String.length b) 76) as [L|L].
    + exists (t ++ (String " " b ++ "%") ++ NL)%string. intros r s. rewrite !sapp_assoc. rewrite T. replace (String " " b ++ "%" ++ NL ++ r)%string with ((String " " b ++ "%") ++ NL ++ r)%string by (now rewrite !sapp_assoc).
      rewrite (scan_any (String " " b ++ "%") r); [|cbn [no_nl all_chars String.append]; unfold no_nl; rewrite all_chars_app; fold (no_nl b); rewrite NB; reflexivity|rewrite slength_app; cbn; lia].
      replace (Nat.eqb (String.length (String " " b ++ "%")) 79) with false by (symmetry; apply Nat.eqb_neq; rewrite slength_app; cbn; lia). rewrite sapp_assoc. rewrite (proj1 (STEP NL _)). cbn [x_look x_cur x_key x_val]. now rewrite !sapp_assoc.
    + assert (FULL : exists l, String.length l = 79 /\ no_nl l = true /\ forall s, scan_line (CppSem.cut l) s = Scan (x_look s) (x_cur s) (x_key s) (x_val s ++ " " ++ b)%string).
      { destruct (Nat.eq_dec (String.length b) 78) as [E|E].
        - exists (String " " b). split; [cbn; lia|]. split; [exact NB|]. intros s. exact (proj2 (STEP "" s)).
        - exists (String " " b ++ "%" ++ "")%string. split; [rewrite slength_app; cbn; lia|]. split; [cbn [no_nl all_chars String.append]; unfold no_nl; rewrite all_chars_app; fold (no_nl b); rewrite NB; reflexivity|].
          intros s. exact (proj1 (STEP "" s)). }
      destruct FULL as (l & LL & LN & LS). exists (t ++ l ++ "%" ++ NL)%string. intros r s. rewrite !sapp_assoc. rewrite T. unfold scan_text at 1. rewrite (chunks_full l 79 "" _ LN LL ltac:(lia)). cbn [fold_left String.append].
      rewrite LS.
      etransitivity; [exact (percent_line r _)|]. cbn [x_look x_cur x_key x_val]. now rewrite !sapp_assoc.
  - apply chars_app in P as [P PB]. destruct (IH P) as (t & T). pose proof (not_nl_is b N) as NB. exists (t ++ String " " b ++ NL)%string. intros r s. rewrite !sapp_assoc. rewrite T.
    rewrite (scan_any (String " " b) r); [|exact NB|cbn; lia]. replace (Nat.eqb (String.length (String " " b)) 79) with false by (symmetry; apply Nat.eqb_neq; cbn; lia).
    destruct (plain_left (String " " b ++ NL) "" PB) as [_ B]. cbn [String.append] in *. rewrite ?cut_space in *. rewrite scan_indented, B. cbn [x_look x_cur x_key x_val]. now rewrite !sapp_assoc.
Qed.
Lemma plain_line s : chars plain_char s -> chars on_a_line s -> on_line s = true.
Proof.
  unfold on_line. induction s as [|c s IH]; intros A B; [reflexivity|]. apply chars_cons in A as [A1 A2]. apply chars_cons in B as [B1 B2]. cbn [all_chars]. rewrite (IH A2 B2), andb_true_r.
  unfold plain_char in A1. unfold on_a_line in B1. apply negb_true_iff, orb_false_iff in A1 as [P1 P2]. apply negb_true_iff, orb_false_iff in B1 as [Q1 Q2].
  unfold line_chr. change (ascii_of_nat 0) with zero. now rewrite P1, P2, Q1, Q2.
Qed.
Lemma sec_ok p : on_line p = true -> p <> "" -> String.length p <= 77 -> line_ok (Sec p "").
Proof. intros A B C. cbn [line_ok]. split; [exact A|]. split; [exact B|]. split; [now left|]. cbn. lia. Qed.
Theorem can_be_found p n s : on_line p = true -> p <> "" -> String.length p <= 77 -> ident n = true -> String.length n < 79 -> findable n s ->
  exists t, forall p' n', look (r_look (has_read t new_reader)) p' n' = if (String.eqb p' p && String.eqb n' n)%bool then Some s else None.
Proof.
  intros OL NE LP ID LN (PL & FI). pose proof (sec_ok p OL NE LP) as SO. set (s0 := Scan (Look [] []) None "" "").
  assert (ST : forall r, scan_text (line_text (Sec p "") ++ r) s0 = scan_text r (Scan (Look [] [(p, [])]) (Some p) "" "")) by (intros r; rewrite (text_line _ r s0 SO); reflexivity).
  assert (END : forall k, k = Look [] (set_assoc p [(n, s)] [(p, [])]) -> forall p' n', look k p' n' = if (String.eqb p' p && String.eqb n' n)%bool then Some s else None).
  { intros k -> p' n'. unfold look. cbn [k_under]. destruct (String.eqb p' p) eqn:E; cbn [andb].
    - apply String.eqb_eq in E. subst p'. rewrite assoc_set_same. cbn [assoc]. now destruct (String.eqb n' n).
    - rewrite (assoc_set_other p' p) by exact E. cbn [assoc]. now rewrite E. }
  destruct FI as [(N1 & N2 & N3)|(r & -> & IN)].
  - exists (line_text (Sec p "") ++ line_text (Item n s "") ++ "")%string. apply END. unfold has_read. cbn [r_look r_key r_val new_reader]. fold s0. rewrite ST, (text_line (Item n s "")).
    + cbn [step flushed x_key x_look x_cur String.eqb]. unfold scan_text. cbn [chunks fold_left x_look put_item k_under assoc]. rewrite String.eqb_refl. reflexivity.
    + cbn [line_ok]. split; [exact ID|]. split; [exact (plain_line s PL N2)|]. split; [exact N1|]. split; [now left|]. cbn. lia.
  - apply chars_app in PL as [_ PL]. destruct (all_adds r IN PL) as (t & T). exists (line_text (Sec p "") ++ line_text (Long n []) ++ t ++ line_text Blank ++ "")%string. apply END.
    unfold has_read. cbn [r_look r_key r_val new_reader]. fold s0. rewrite ST, (text_line (Long n [])).
    + rewrite T. rewrite (text_line Blank _ _ Logic.I). cbn [step flushed x_key x_look x_cur x_val String.eqb]. destruct (String.eqb n "") eqn:E; [apply String.eqb_eq in E; subst n; discriminate|].
      unfold scan_text. cbn [chunks fold_left]. unfold flushed. cbn [x_key x_cur x_val x_look]. rewrite E. cbn [x_look put_item k_under assoc spaced fold_right]. rewrite String.eqb_refl. reflexivity.
    + cbn [line_ok]. split; [exact ID|]. split; [exact LN|]. intros l [].
Qed.

(** *** Members *)
Section Values.
  Variables (enums : list enum_S) (ss : list struct_S) (o : output_spec) (ds : list def) (L : lang).
  Hypothesis X : ini_setting enums ss o ds L.
  Lemma scalars_value its n : forall l fs, match read_scalars L its l fs with
    | Done f | Thrown f => assoc n f = assoc n fs \/ exists m s old w, In m l /\ member_name m = n /\ assoc n its = Some s /\ read_text L m s old = Done w /\ assoc n f = Some w
    | Undefined => True end.
  Proof.
    induction l as [|m l IH]; intros fs; cbn [read_scalars]; [now left|]. destruct (assoc (member_name m) its) as [s|] eqn:A.
    2:{ specialize (IH fs). destruct (read_scalars L its l fs); auto; (destruct IH as [IH|(m' & s & old & w & I & R)]; [now left|]; right; exists m', s, old, w; split; [now right|exact R]). }
    destruct (assoc (member_name m) fs) as [old|]; [|exact Logic.I]. destruct (read_text L m s old) as [v|v|] eqn:R; [|now left|exact Logic.I]. specialize (IH (set_assoc (member_name m) v fs)).
    assert (Q : forall f, (assoc n f = assoc n (set_assoc (member_name m) v fs) \/ exists m s old w, In m l /\ member_name m = n /\ assoc n its = Some s /\ read_text L m s old = Done w /\ assoc n f = Some w) ->
      assoc n f = assoc n fs \/ exists m' s old w, In m' (m :: l) /\ member_name m' = n /\ assoc n its = Some s /\ read_text L m' s old = Done w /\ assoc n f = Some w).
    { intros f [E|(m' & s' & old' & w & I & Z)]; [|right; exists m', s', old', w; split; [now right|exact Z]]. destruct (String.eqb n (member_name m)) eqn:NM.
      - apply String.eqb_eq in NM. subst n. rewrite assoc_set_same in E. right. exists m, s, old, v. split; [now left|]. auto.
      - left. rewrite E. now apply assoc_set_other. }
    destruct (read_scalars L its l (set_assoc (member_name m) v fs)); auto.
  Qed.
  Definition from_item (k : lookups) (p : string) (m : member) (x : option val) : Prop := exists s old w, look k p (member_name m) = Some s /\ read_text L m s old = Done w /\ x = Some w.
  Lemma obj_values k u fs p rv v : fits L (VStruct u fs) (TStruct u) = true -> read_obj L k (VStruct u fs) p = Some (rv, v) ->
    exists gs ms, v = VStruct u gs /\ find_struct (l_defs L) u = Some ms /\ forall m, In m ms ->
      (is_struct_member L m = false -> assoc (member_name m) gs = assoc (member_name m) fs \/ is_item L ms m = true /\ from_item k p m (assoc (member_name m) gs)) /\
      (is_struct_member L m = true -> assoc (member_name m) gs = assoc (member_name m) fs \/
         exists w r y, assoc (member_name m) fs = Some w /\ read_obj L k w (sub_path p (member_name m)) = Some (r, y) /\ assoc (member_name m) gs = Some y).
  Proof.
    intros F E. pose proof (read_obj_members enums ss o ds L X k u fs p rv v F E) as (gs & ms & EV & FS & M). exists gs, ms. split; [exact EV|]. split; [exact FS|]. intros m I. destruct (M m I) as (_ & _ & M3). split; [|exact M3].
    intros SM. destruct (j_parts enums ss o ds L X u fs F) as (ms' & d & FS' & _ & ND & _). assert (ms' = ms) by congruence. subst ms'. clear M M3.
    cbn [read_obj] in E. rewrite FS in E. pose proof (fun its => scalars_value its (member_name m) (section_members L ms) fs) as SV.
    assert (G : forall f, (assoc p (k_under k) = None /\ f = fs \/ exists its, assoc p (k_under k) = Some its /\ (read_scalars L its (section_members L ms) fs = Done f \/ read_scalars L its (section_members L ms) fs = Thrown f)) ->
      assoc (member_name m) f = assoc (member_name m) fs \/ is_item L ms m = true /\ from_item k p m (assoc (member_name m) f)).
    { intros f [[_ ->]|(its & A & RS)]; [now left|]. specialize (SV its).
      assert (SV' : assoc (member_name m) f = assoc (member_name m) fs \/ exists m' s old w, In m' (section_members L ms) /\ member_name m' = member_name m /\ assoc (member_name m) its = Some s /\ read_text L m' s old = Done w /\ assoc (member_name m) f = Some w) by (destruct RS as [RS|RS]; now rewrite RS in SV).
      destruct SV' as [?|(m' & s & old & w & I' & NM & A' & RT & AF)]; [now left|]. right. apply items_in in I' as [I' J]. apply (j_name_inj ms m' m ND I' I) in NM. subst m'. split; [exact J|].
      exists s, old, w. unfold look. now rewrite A. }
    destruct (assoc p (k_under k)) as [its|] eqn:A.
    - destruct (read_scalars L its (section_members L ms) fs) as [f1|f1|] eqn:RS; [| |discriminate].
      + destruct (read_structs p _ (filter (is_struct_member L) ms) true f1) as [[rv' f2]|] eqn:RST; [|discriminate]. injection E as <- <-. injection EV as <-.
        pose proof (read_structs_member p _ (member_name m) _ _ _ _ _ RST (filter_names _ _ ND)) as RM. rewrite (struct_filter_in L ms m I ND), SM in RM. rewrite RM. apply G. right. exists its. auto.
      + injection E as <- <-. injection EV as <-. apply G. right. exists its. auto.
    - destruct (read_structs p _ (filter (is_struct_member L) ms) true fs) as [[rv' f2]|] eqn:RST; [|discriminate]. injection E as <- <-. injection EV as <-.
      pose proof (read_structs_member p _ (member_name m) _ _ _ _ _ RST (filter_names _ _ ND)) as RM. rewrite (struct_filter_in L ms m I ND), SM in RM. left. exact RM.
  Qed.
  Theorem read_values k : forall ns p v u0 rv v', fits L v (TStruct u0) = true -> read_obj L k v p = Some (rv, v') ->
    forall u fs, member_at ns v = Some (VStruct u fs) -> exists gs ms, member_at ns v' = Some (VStruct u gs) /\ find_struct (l_defs L) u = Some ms /\
      forall m, In m ms -> is_struct_member L m = false ->
        assoc (member_name m) gs = assoc (member_name m) fs \/ is_item L ms m = true /\ from_item k (fold_left sub_path ns p) m (assoc (member_name m) gs).
  Proof.
    induction ns as [|n ns IH]; intros p v u0 rv v' F E u fs AT.
    - cbn [member_at fold_left] in *. injection AT as ->. pose proof (fits_ty L _ _ F) as T. cbn in T. injection T as ->.
      destruct (obj_values k u0 fs p rv v' F E) as (gs & ms & -> & FS & M). exists gs, ms. repeat split; auto. intros m I SM. now apply (M m I).
    - pose proof (at_fits enums ss o ds L X (n :: ns) v u0 u fs F AT) as FU. cbn [member_at fold_left] in *. destruct v as [| | | | | | |u1 f1| | | | | | | | | | | | | |]; try discriminate. pose proof (fits_ty L _ _ F) as T. cbn in T. injection T as ->.
      destruct (assoc n f1) as [w|] eqn:AW; [|discriminate]. destruct (obj_values k u0 f1 p rv v' F E) as (gs & ms & -> & FS & M).
      destruct (j_parts enums ss o ds L X u0 f1 F) as (ms' & d & FS' & D & ND & K & PM). assert (ms' = ms) by congruence. subst ms'.
      assert (exists m, In m ms /\ member_name m = n) as (m & I & <-).
      { apply assoc_some in AW. apply (in_map fst) in AW. rewrite K in AW. apply in_map_iff in AW as (m & A & B). eauto. }
      destruct (PM m I) as (ty & w' & dv & MT & AW' & _ & FW & _). assert (w' = w) by congruence. subst w'.
      assert (SAME : assoc (member_name m) gs = assoc (member_name m) f1 -> exists gs0 ms0, member_at (member_name m :: ns) (VStruct u0 gs) = Some (VStruct u gs0) /\ find_struct (l_defs L) u = Some ms0 /\
        forall m0, In m0 ms0 -> is_struct_member L m0 = false -> assoc (member_name m0) gs0 = assoc (member_name m0) fs \/ is_item L ms0 m0 = true /\ from_item k (fold_left sub_path ns (sub_path p (member_name m))) m0 (assoc (member_name m0) gs0)).
      { intros EQ. destruct (j_parts enums ss o ds L X u fs FU) as (ms2 & _ & FS2 & _). exists fs, ms2. cbn [member_at]. rewrite EQ, AW. auto. }
      destruct (M m I) as (A & B). destruct (is_struct_member L m) eqn:SM.
      + destruct (struct_member_type L m ty MT SM) as (u1 & ->). destruct (B eq_refl) as [EQ|(w' & r & y & C1 & C2 & C3)]; [exact (SAME EQ)|].
        assert (w' = w) by congruence. subst w'. destruct (IH (sub_path p (member_name m)) w u1 r y FW C2 u fs AT) as (gs' & ms2 & D1 & D2 & D3). exists gs', ms2. cbn [member_at]. rewrite C3. auto.
      + exfalso. destruct w as [| | | | | | |u3 f3| | | | | | | | | | | | | |]; try (destruct ns; discriminate). pose proof (fits_ty L _ _ FW) as T. cbn in T. subst ty. rewrite (type_struct_member L m u3 MT) in SM. discriminate.
  Qed.
End Values.
