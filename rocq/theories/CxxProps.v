(** The scanner reads a header like a C++ compiler. *)
From Coq Require Import String Ascii NArith Arith List Bool Lia.
From Verif Require Import Base Regex LexRules FlexTables Flex LexCorrect LexStep LexProps LexBlank LexMore LexGap Items Bison Grammar Store StoreDefs Layout Lexable Cxx.
Import ListNotations.
Local Open Scope N_scope.

Lemma is_eq n c : is n c = true -> c = ascii_of_N n.
Proof. unfold is. intros H. apply N.eqb_eq in H. now rewrite <- H, ascii_N_embedding. Qed.
Lemma span_spec p cs : let '(x, y) := span p cs in cs = x ++ y /\ forallb p x = true /\ starts p y = false.
Proof.
  induction cs as [|c r IH]; [repeat split; reflexivity|]. cbn [span]. destruct (p c) eqn:P; [|cbn; rewrite P; repeat split; reflexivity].
  destruct (span p r) as [x y]. destruct IH as (-> & A & B). cbn. rewrite P, A. auto.
Qed.
Lemma after_line_spec cs : has_nl cs = true -> exists l, cs = l ++ NL :: after_line cs /\ no_newline l = true.
Proof.
  induction cs as [|c r IH]; [discriminate|]. cbn [has_nl existsb after_line]. destruct (is 10 c) eqn:E.
  - apply is_eq in E. subst c. exists []. auto.
  - intros H. destruct (IH H) as (l & -> & N). exists (c :: l). cbn in *. unfold not_nl at 1. rewrite E. split; [|exact N].
    f_equal. f_equal. f_equal. clear - N. induction l as [|d l IH]; cbn; [reflexivity|]. cbn in N. apply andb_prop in N as [A B].
    unfold not_nl in A. destruct (is 10 d); [discriminate|]. now apply IH.
Qed.
Lemma after_line_suffix cs : exists x, cs = x ++ after_line cs.
Proof.
  induction cs as [|c r [x IH]]; [now exists []|]. cbn [after_line]. destruct (is 10 c); [now exists [c]|]. exists (c :: x). cbn. now f_equal.
Qed.
Lemma after_block_spec cs r : after_block cs = Some r -> exists body, cs = body ++ "*"%char :: "/"%char :: r /\ has_close (body ++ ["*"%char]) = false.
Proof.
  induction cs as [|c t IH]; [discriminate|]. cbn [after_block]. destruct (is 42 c && starts (is 47) t) eqn:E.
  - intros [= <-]. apply andb_prop in E as [A B]. apply is_eq in A. destruct t as [|d t]; [discriminate|]. cbn in B. apply is_eq in B. subst. exists []. split; reflexivity.
  - intros H. destruct (IH H) as (body & -> & N). exists (c :: body). split; [reflexivity|]. cbn [app has_close]. rewrite N, orb_false_r.
    destruct body as [|d body]; [|exact E]. cbn in *. now rewrite andb_false_r.
Qed.
Lemma str_end_spec m : forall cs x r, (length cs <= m)%nat -> str_end cs = Some (x, r) -> cs = x ++ Q :: r /\ no_newline x = true.
Proof.
  induction m as [|m IH]; intros cs x r L; [destruct cs; [discriminate|cbn in L; lia]|].
  destruct cs as [|c t]; [discriminate|]. cbn [length] in L. cbn [str_end]. destruct (is 34 c) eqn:E.
  - intros [= <- <-]. apply is_eq in E. subst c. split; reflexivity.
  - destruct (is 10 c) eqn:N; [discriminate|]. destruct (is 92 c) eqn:B.
    + destruct t as [|d t]; [discriminate|]. destruct (is 10 d) eqn:D; [discriminate|]. destruct (str_end t) as [[y z]|] eqn:S; [|discriminate]. intros [= <- <-].
      cbn [length] in L. destruct (IH t y z ltac:(lia) S) as [-> X]. split; [reflexivity|]. cbn. unfold not_nl at 1 2. rewrite N, D. exact X.
    + destruct (str_end t) as [[y z]|] eqn:S; [|discriminate]. intros [= <- <-]. destruct (IH t y z ltac:(lia) S) as [-> X]. split; [reflexivity|].
      cbn. unfold not_nl at 1. rewrite N. exact X.
Qed.

(** Rests of a text. *)
Lemma ended_suffix x y : lines_ended (x ++ y) = true -> lines_ended y = true.
Proof. induction x as [|c x IH]; [auto|]. cbn [app lines_ended]. intros H. apply andb_prop in H as [_ H]. auto. Qed.
Lemma quotes_suffix x y : two_quotes (x ++ y) = true -> two_quotes y = true.
Proof. induction x as [|c x IH]; [auto|]. cbn [app two_quotes]. intros H. apply andb_prop in H as [_ H]. auto. Qed.
Lemma line_quotes_app x y : no_newline x = true -> line_quotes (x ++ y) = (length (filter (is 34) x) + line_quotes y)%nat.
Proof.
  induction x as [|c x IH]; [reflexivity|]. cbn [no_newline forallb app line_quotes filter]. intros H. apply andb_prop in H as [A B]. unfold not_nl in A.
  destruct (is 10 c); [discriminate|]. rewrite (IH B). destruct (is 34 c); cbn [length]; lia.
Qed.
Lemma no_quotes_line cs : line_quotes cs = 0%nat -> no_quote_on_line cs.
Proof.
  induction cs as [|c r IH]; intros H; [exists [], []; auto|]. cbn [line_quotes] in H. destruct (is 10 c) eqn:E.
  - apply is_eq in E. subst c. exists [], (NL :: r). split; [reflexivity|]. split; [reflexivity|]. eauto.
  - destruct (is 34 c) eqn:F; [discriminate|]. destruct (IH H) as (m & s & -> & A & B). exists (c :: m), s. split; [reflexivity|]. split; [|exact B].
    cbn. unfold not_quote_nl at 1. now rewrite E, F, A.
Qed.

(** *** One step *)
Definition is_number (t : token) : bool := (t_kind t =? 26) || (t_kind t =? 27) || (t_kind t =? 28).
Definition toks (l : list ctok) : list token := flat_map (fun x => match x with CT t => [t] | CSign _ => [] end) l.
Definition opt_list (o : option ctok) : list ctok := match o with Some t => [t] | None => [] end.
Lemma prepend_nil o : prepend [] o = o.
Proof. now destruct o. Qed.
Lemma byte_imp (p q : ascii -> bool) : forallb (fun c => implb (p c) (q c)) all_bytes = true -> forall c, p c = true -> q c = true.
Proof. intros H c. rewrite forallb_forall in H. specialize (H c (all_bytes_in c)). now destruct (p c), (q c). Qed.
Lemma starts_imp (p q : ascii -> bool) : forallb (fun c => implb (p c) (q c)) all_bytes = true -> forall l, starts q l = false -> starts p l = false.
Proof.
  intros H [|c l]; [reflexivity|]. cbn. intros X. destruct (p c) eqn:E; [|reflexivity]. rewrite (byte_imp p q H c E) in X. discriminate.
Qed.
Lemma number_spelled c w t : digit c = true -> number_token (c :: w) = Some t ->
  is_number t = true /\ t_val t = Some (str (c :: w)) /\
  forall bol rest, starts pp_char rest = false -> (t_kind t = 26 -> ends_number rest) ->
  tokens_from INITIAL bol ((c :: w) ++ rest) = prepend [t] (tokens_from INITIAL false rest).
Proof.
  intros C. unfold number_token. pose proof (span_spec digit (c :: w)) as S. destruct (span digit (c :: w)) as [d r] eqn:SP. destruct S as (E & D & N).
  assert (DN : d <> []). { cbn [span] in SP. rewrite C in SP. destruct (span digit w). injection SP as <- _. discriminate. }
  assert (NF : forall rest, starts pp_char rest = false -> starts digit_f rest = false) by (apply starts_imp; vm_compute; reflexivity).
  assert (NH : forall rest, starts pp_char rest = false -> starts hexdigit rest = false) by (apply starts_imp; vm_compute; reflexivity).
  destruct r as [|e r].
  - intros [= <-]. rewrite app_nil_r in E. split; [reflexivity|]. split; [reflexivity|]. intros bol rest P F. subst d. apply (spelled _ _ ends_number); [apply (sp_int (c :: w)); assumption|now apply F].
  - destruct (is 46 e) eqn:P.
    + pose proof (span_spec digit r) as S. destruct (span digit r) as [d2 f]. destruct S as (E2 & D2 & N2). destruct d2 as [|g d2]; [discriminate|].
      apply is_eq in P. destruct f as [|f [|f' l]]; [| |discriminate].
      * intros [= <-]. split; [reflexivity|]. split; [reflexivity|]. intros bol rest R _. rewrite app_nil_r in E2. change (String c (str w)) with (str (c :: w)). rewrite E, E2.
        apply (spelled _ _ (fun r => starts digit_f r = false)); [|now apply NF]. subst e. apply (sp_float d); auto; discriminate.
      * destruct (is 102 f) eqn:F; [|discriminate]. intros [= <-]. apply is_eq in F. split; [reflexivity|]. split; [reflexivity|]. intros bol rest R _. change (String c (str w)) with (str (c :: w)). rewrite E, E2.
        assert (X : d ++ e :: (g :: d2) ++ [f] = (d ++ e :: g :: d2) ++ [F_]) by (subst f; rewrite <- app_assoc; reflexivity). rewrite X.
        apply (spelled _ _ (fun _ => True)); [|exact I]. subst e. apply (sp_float_f d); auto; discriminate.
    + destruct (is 120 e) eqn:Q; [|discriminate]. destruct (String.eqb_spec (str d) "0") as [Z|Z]; [|discriminate]. destruct r as [|h r]; [discriminate|].
      cbn [andb negb]. destruct (forallb hexdigit (h :: r)) eqn:H; [|discriminate]. intros [= <-]. split; [reflexivity|]. split; [reflexivity|]. intros bol rest R _.
      assert (X : c :: w = OX ++ h :: r).
      { rewrite E. apply is_eq in Q. subst e. assert (d = ["0"%char]) as ->; [|reflexivity]. apply (f_equal list_ascii_of_string) in Z. unfold str in Z. now rewrite list_ascii_of_string_of_list_ascii in Z. }
      change (String c (str w)) with (str (c :: w)). rewrite X. apply (spelled _ _ (fun r => starts hexdigit r = false)); [|now apply NH]. apply (sp_hex (h :: r)); [discriminate|exact H].
Qed.
Ltac bool_case E := match goal with |- (if ?b then _ else _) = _ -> _ => destruct b eqn:E end.
Lemma step_tokens bol c r o b r' : cxx_step bol c r = Some (o, b, r') -> lines_ended (c :: r) = true -> two_quotes (c :: r) = true ->
  (forall t, o = Some (CT t) -> t_kind t = 26 -> ends_number r') ->
  (exists x, c :: r = x ++ r' /\ x <> []) /\ tokens_from INITIAL bol (c :: r) = prepend (toks (opt_list o)) (tokens_from INITIAL b r').
Proof.
  unfold cxx_step. intros H LE TQ NU. revert H.
  bool_case E1. { intros [= <- <- <-]. split; [now exists [c]|]. cbn [opt_list toks flat_map]. rewrite prepend_nil. now apply tokens_blank. }
  bool_case E2. { intros [= <- <- <-]. split; [now exists [c]|]. cbn [opt_list toks flat_map]. rewrite prepend_nil. apply is_eq in E2. subst c. apply tokens_newline. }
  bool_case E3.
  { destruct r as [|d r]; [discriminate|]. cbn [starts]. bool_case F; [|discriminate]. intros [= <- <- <-]. apply is_eq in E3, F. subst. split; [now exists [CR; NL]|].
    cbn [opt_list toks flat_map tl]. rewrite prepend_nil. apply tokens_crnl. }
  bool_case E4.
  { bool_case F.
    - intros [= <- <- <-]. destruct r as [|d r]; [discriminate|]. cbn [starts] in F.
      assert (HN : has_nl (d :: r) = true). { cbn [lines_ended] in LE. apply andb_prop in LE as [LE _]. rewrite E4 in LE. cbn [starts] in LE. rewrite F, orb_true_r in LE. exact LE. }
      assert (D10 : is 10 d = false) by (apply is_eq in F; subst d; reflexivity). cbn [after_line]. rewrite D10.
      cbn [has_nl existsb] in HN. rewrite D10 in HN. destruct (after_line_spec r HN) as (l & X & N). apply is_eq in E4, F. subst c d. split.
      + exists ("/"%char :: "/"%char :: l ++ [NL]). split; [|discriminate]. cbn [app]. rewrite <- app_assoc. cbn [app]. now rewrite <- X.
      + cbn [opt_list toks flat_map]. rewrite prepend_nil. rewrite X at 1. exact (tokens_line_comment bol l _ N).
    - bool_case G; [|discriminate]. destruct r as [|d r]; [discriminate|]. cbn [starts] in G. cbn [tl]. destruct (after_block r) as [r2|] eqn:AB; [|discriminate]. intros [= <- <- <-].
      destruct (after_block_spec _ _ AB) as (body & -> & N). apply is_eq in E4, G. subst c d. split.
      + exists ("/"%char :: "*"%char :: body ++ ["*"%char; "/"%char]). split; [|discriminate]. cbn [app]. now rewrite <- app_assoc.
      + cbn [opt_list toks flat_map]. rewrite prepend_nil. exact (tokens_block_comment bol body r2 N). }
  bool_case E5.
  { destruct bol; [|discriminate]. cbn [andb]. bool_case F; [|discriminate]. intros [= <- <- <-].
    assert (HN : has_nl r = true). { cbn [lines_ended] in LE. apply andb_prop in LE as [LE _]. rewrite E5 in LE. exact LE. }
    destruct (after_line_spec r HN) as (l & X & N). apply is_eq in E5. subst c. split.
    - exists ("#"%char :: l ++ [NL]). split; [|discriminate]. cbn [app]. rewrite <- app_assoc. cbn [app]. now rewrite <- X.
    - cbn [opt_list toks flat_map]. rewrite prepend_nil. rewrite X at 1. exact (tokens_hash_line [] l _ eq_refl N). }
  bool_case E6.
  { pose proof (span_spec ident_char r) as S. destruct (span ident_char r) as [w r1]. destruct S as (-> & W & NW).
    assert (ID : identifier (c :: w)) by (split; assumption).
    assert (WORD : starts (is 58) r1 = false -> starts (is 34) r1 = false -> starts (is 39) r1 = false ->
              (exists x, c :: w ++ r1 = x ++ r1 /\ x <> []) /\
              tokens_from INITIAL bol (c :: w ++ r1) = prepend (toks (opt_list (Some (CT (word_token (c :: w)))))) (tokens_from INITIAL false r1)).
    { intros A _ _. split; [exists (c :: w); split; [reflexivity|discriminate]|]. cbn [opt_list toks flat_map app].
      apply (spelled (c :: w) _ ends_word bol r1); [now constructor|]. destruct r1 as [|d r1]; [exact I|]. split; [exact NW|]. intros x y Z. injection Z as -> _. discriminate A. }
    destruct r1 as [|d r1]; [cbn [starts orb]; intros [= <- <- <-]; now apply WORD|].
    assert (CO : is 58 d = true \/ d <> ":"%char) by (destruct (is 58 d) eqn:X; [now left|right; intros ->; discriminate]).
    destruct CO as [CO|CO].
    - pose proof (is_eq _ _ CO). subst d. change (ascii_of_N 58) with ":"%char in *. destruct r1 as [|e [|g r2]]; [cbn; discriminate|cbn; discriminate|].
      bool_case F; [|discriminate]. apply andb_prop in F as [F1 F2]. pose proof (span_spec ident_char r2) as S. destruct (span ident_char r2) as [w2 r3]. destruct S as (-> & W2 & NW2).
      bool_case G; [discriminate|]. intros [= <- <- <-]. apply is_eq in F1. subst e.
      assert (X : c :: w ++ ":"%char :: ascii_of_N 58 :: g :: w2 ++ r3 = ((c :: w) ++ CC ++ g :: w2) ++ r3).
      { unfold CC. cbn [app]. rewrite <- app_assoc. reflexivity. }
      rewrite X. split; [eexists; split; [reflexivity|discriminate]|]. cbn [opt_list toks flat_map app].
      apply (spelled ((c :: w) ++ CC ++ g :: w2) _ (fun r => starts ident_char r = false) bol r3); [|exact NW2]. constructor; [exact ID|split; assumption].
    - intros H. assert (H' : (if starts (is 58) (d :: r1) || starts (is 34) (d :: r1) || starts (is 39) (d :: r1) then None
         else Some (Some (CT (word_token (c :: w))), false, d :: r1)) = Some (o, b, r')).
      { destruct d as [[|] [|] [|] [|] [|] [|] [|] [|]]; try exact H. congruence. }
      revert H'. bool_case G; [discriminate|]. intros [= <- <- <-]. apply orb_false_iff in G as [G G3]. apply orb_false_iff in G as [G1 G2]. now apply WORD. }
  bool_case E7.
  { pose proof (span_spec pp_char r) as S. destruct (span pp_char r) as [w r1]. destruct S as (-> & W & NW). bool_case F; [discriminate|].
    destruct (number_token (c :: w)) as [t|] eqn:NT; [|discriminate]. intros [= <- <- <-]. split; [exists (c :: w); split; [reflexivity|discriminate]|].
    destruct (number_spelled c w t E7 NT) as (_ & _ & SP). cbn [opt_list toks flat_map app]. apply (SP bol r1 NW). intros K. now apply (NU t). }
  bool_case E8.
  { destruct (str_end r) as [[x r1]|] eqn:SE; [|discriminate]. bool_case F; [discriminate|]. intros [= <- <- <-]. destruct (str_end_spec _ _ _ _ (le_n _) SE) as [-> N].
    apply is_eq in E8. subst c. change (ascii_of_N 34) with Q in *. assert (X : Q :: x ++ Q :: r1 = (Q :: x ++ [Q]) ++ r1) by (cbn [app]; now rewrite <- app_assoc).
    rewrite X. split; [eexists; split; [reflexivity|discriminate]|]. cbn [opt_list toks flat_map app].
    apply (spelled (Q :: x ++ [Q]) _ no_quote_on_line bol r1); [now constructor|]. apply no_quotes_line.
    cbn [two_quotes] in TQ. apply andb_prop in TQ as [TQ _]. apply Nat.leb_le in TQ. rewrite X in TQ. rewrite line_quotes_app in TQ.
    - cbn [app filter] in TQ. rewrite filter_app in TQ. cbn [filter] in TQ. change (is 34 Q) with true in TQ. cbv iota in TQ. cbn [length] in TQ. rewrite app_length in TQ. cbn [length] in TQ. lia.
    - cbn. unfold no_newline in N. now rewrite forallb_app, N. }
  bool_case E9.
  { destruct r as [|d [|e r1]]; [discriminate|discriminate|]. bool_case F; [|discriminate]. intros [= <- <- <-]. apply andb_prop in F as [F F3]. apply andb_prop in F as [F1 F2].
    apply is_eq in E9, F1. subst c e. split; [exists [ascii_of_N 39; d; ascii_of_N 39]; split; [reflexivity|discriminate]|]. cbn [opt_list toks flat_map app].
    apply (spelled [AP; d; AP] _ (fun _ => True) bol r1); [constructor|exact I]. unfold not_nl. destruct (is 10 d); [|reflexivity]. rewrite orb_true_r in F2. discriminate. }
  bool_case E10.
  { bool_case F; [discriminate|]. intros [= <- <- <-]. split; [now exists [c]|]. cbn [opt_list toks flat_map]. rewrite prepend_nil. apply tokens_foreign.
    exact (byte_imp sign foreign ltac:(vm_compute; reflexivity) c E10). }
  bool_case E11; [|discriminate]. bool_case F; [discriminate|]. intros [= <- <- <-]. split; [now exists [c]|]. cbn [opt_list toks flat_map app]. now apply tokens_punct.
Qed.
(** What a step reads. *)
Definition strip_tok (t : token) : token := if signable t then Tok (t_kind t) (option_map strip (t_val t)) else t.
Definition read_ok (x : ctok) : Prop := match x with CT t => strip_tok t = t | CSign c => sign c = true end.
Lemma word_not_signable w : signable (word_token w) = false.
Proof.
  unfold word_token. destruct (find _ reserved) as [[s k]|] eqn:F; [|reflexivity]. apply find_some in F as [I _].
  assert (H : forallb (fun p => negb (signable (Tok (snd p) None))) reserved = true) by (vm_compute; reflexivity).
  rewrite forallb_forall in H. specialize (H _ I). cbn [snd] in H. now destruct (signable (Tok k None)).
Qed.
Lemma step_read bol c r o b r' x : cxx_step bol c r = Some (o, b, r') -> o = Some x ->
  read_ok x /\ match x with
  | CT t => t_kind t = 26 -> b = false /\ starts pp_char r' = false /\ starts (is 39) r' = false
  | CSign _ => True
  end.
Proof.
  assert (KW : forall t, signable t = false -> read_ok (CT t) /\ (t_kind t = 26 -> b = false /\ starts pp_char r' = false /\ starts (is 39) r' = false)).
  { intros t S. split; [cbn; unfold strip_tok; now rewrite S|]. intros K. unfold signable in S. rewrite K in S. discriminate. }
  unfold cxx_step.
  bool_case E1; [congruence|]. bool_case E2; [congruence|]. bool_case E3; [bool_case F; congruence|].
  bool_case E4. { bool_case F; [congruence|]. bool_case G; [|discriminate]. destruct (after_block (tl r)); [|discriminate]. congruence. }
  bool_case E5. { bool_case F; congruence. }
  bool_case E6.
  { destruct (span ident_char r) as [w r1].
    assert (WORD : (if starts (is 58) r1 || starts (is 34) r1 || starts (is 39) r1 then None else Some (Some (CT (word_token (c :: w))), false, r1)) = Some (o, b, r') ->
      o = Some x -> exists t, x = CT t /\ signable t = false).
    { bool_case G; [discriminate|]. intros [= <- _ _] [= <-]. eexists. split; [reflexivity|apply word_not_signable]. }
    intros H X. assert (T : exists t, x = CT t /\ signable t = false).
    { destruct r1 as [|[[|] [|] [|] [|] [|] [|] [|] [|]] [|e [|g r2]]]; try exact (WORD H X). revert H. bool_case F; [|discriminate]. destruct (span ident_char r2) as [w2 r3].
      bool_case G; [discriminate|]. intros [= <- _ _]. injection X as <-. eexists. split; [reflexivity|]. unfold qual_token. do 2 (match goal with |- context [if ?b then _ else _] => destruct b end; [reflexivity|]). reflexivity. }
    destruct T as (t & -> & S). now apply KW. }
  bool_case E7.
  { pose proof (span_spec pp_char r) as S. destruct (span pp_char r) as [w r1]. destruct S as (_ & _ & NW). bool_case F; [discriminate|].
    destruct (number_token (c :: w)) as [t|] eqn:NT; [|discriminate]. intros [= <- <- <-] [= <-]. apply orb_false_iff in F as [F _].
    destruct (number_spelled c w t E7 NT) as (_ & V & _). split; [|auto]. cbn. unfold strip_tok. destruct (signable t); [|reflexivity]. destruct t as [k v]. cbn [t_val t_kind] in *. subst v. cbn.
    assert (sign c = false) as ->; [|reflexivity]. destruct (sign c) eqn:SG; [|reflexivity].
    pose proof (byte_imp sign (fun c => negb (digit c)) ltac:(vm_compute; reflexivity) c SG) as N. cbn beta in N. rewrite E7 in N. discriminate. }
  bool_case E8. { destruct (str_end r) as [[y r1]|]; [|discriminate]. bool_case F; [discriminate|]. intros [= <- _ _] [= <-]. now apply KW. }
  bool_case E9.
  { destruct r as [|d [|e r1]]; [discriminate|discriminate|]. bool_case F; [|discriminate]. intros [= <- _ _] [= <-]. split; [|discriminate]. apply is_eq in E9. subst c. reflexivity. }
  bool_case E10. { bool_case F; [discriminate|]. intros [= <- _ _] [= <-]. split; [exact E10|exact I]. }
  bool_case E11; [|discriminate]. bool_case F; [discriminate|]. intros [= <- _ _] [= <-]. apply KW. unfold punct_token. repeat (match goal with |- context [if ?b then _ else _] => destruct b end; [reflexivity|]). reflexivity.
Qed.
Lemma step_digit bol c r o b r' : digit c = true -> cxx_step bol c r = Some (o, b, r') -> exists t, o = Some (CT t) /\ is_number t = true.
Proof.
  intros D. unfold cxx_step.
  assert (X : forall p, forallb (fun c => implb (digit c) (negb (p c))) all_bytes = true -> p c = false).
  { intros p H. pose proof (byte_imp digit (fun c => negb (p c)) H c D) as N. cbn beta in N. now destruct (p c). }
  rewrite (X blank), (X (is 10)), (X (is 13)), (X (is 47)), (X (is 35)), (X ident_start), D by (vm_compute; reflexivity).
  destruct (span pp_char r) as [w r1]. bool_case F; [discriminate|]. destruct (number_token (c :: w)) as [t|] eqn:NT; [|discriminate]. intros [= <- _ _].
  exists t. split; [reflexivity|]. exact (proj1 (number_spelled c w t D NT)).
Qed.

(** *** The text behind a number *)
Definition mark (t : token) : bool := (3 <=? t_kind t) && (t_kind t <=? 9).
Definition quiet (l : list ctok) : bool :=
  match l with
  | [] => true
  | CT t :: r => mark t && match r with CT u :: _ => negb (is_number u) | _ => true end
  | CSign _ :: _ => false
  end.
Fixpoint calm (l : list ctok) : bool :=
  match l with
  | [] => true
  | CT t :: r => (negb (is_number t) || quiet r) && calm r
  | CSign _ :: r => calm r
  end.
Lemma lex_digit f b cs l : cxx_lex f b cs = Some l -> starts digit cs = true -> exists t l', l = CT t :: l' /\ is_number t = true.
Proof.
  destruct cs as [|c r]; [discriminate|]. destruct f as [|f]; [discriminate|]. cbn [cxx_lex starts]. intros H D. destruct (cxx_step b c r) as [[[o b'] r']|] eqn:S; [|discriminate].
  destruct (step_digit _ _ _ _ _ _ D S) as (t & -> & N). destruct (cxx_lex f b' r') as [l'|]; [|discriminate]. injection H as <-. eauto.
Qed.
Lemma mark_number t : is_number t = true -> mark t = false.
Proof. unfold is_number, mark. intros H. destruct (N.leb_spec (t_kind t) 9); [|apply andb_false_r]. repeat (apply orb_prop in H as [H|H]); apply N.eqb_eq in H; lia. Qed.
Lemma follows f cs l : cxx_lex f false cs = Some l -> quiet l = true -> starts pp_char cs = false -> starts (is 39) cs = false -> ends_number cs.
Proof.
  intros L QU P A. destruct cs as [|c r]; [exact I|]. destruct f as [|f]; [discriminate|]. cbn [cxx_lex] in L. cbn [starts] in P, A.
  destruct (cxx_step false c r) as [[[o b'] r']|] eqn:S; [|discriminate]. destruct (cxx_lex f b' r') as [l'|] eqn:L'; [|discriminate].
  cbn [ends_number].
  assert (X : forall p, forallb (fun c => implb (p c) (pp_char c)) all_bytes = true -> p c = false).
  { intros p H. pose proof (byte_imp p pp_char H c) as N. destruct (p c); [|reflexivity]. rewrite P in N. symmetry. now apply N. }
  split; [apply X; vm_compute; reflexivity|]. split; [apply X; vm_compute; reflexivity|].
  destruct (is 10 c) eqn:N10; [now left|right]. destruct (starts digit r) eqn:D; [exfalso|reflexivity].
  pose proof (X digit ltac:(vm_compute; reflexivity)) as ND. pose proof (X ident_start ltac:(vm_compute; reflexivity)) as NI.
  destruct r as [|d r]; [discriminate|]. cbn [starts] in D.
  assert (Y : forall p, forallb (fun c => implb (digit c) (negb (p c))) all_bytes = true -> p d = false).
  { intros p H. pose proof (byte_imp digit (fun c => negb (p c)) H d D) as Z. cbn beta in Z. now destruct (p d). }
  revert S. unfold cxx_step. rewrite N10, ND, NI, A. cbn [starts].
  rewrite (Y (is 10)), (Y (is 47)), (Y (is 42)) by (vm_compute; reflexivity). cbn [andb].
  bool_case E1.
  { intros [= <- <- <-]. destruct (lex_digit _ _ _ _ L' D) as (t & l2 & -> & N). injection L as <-. cbn in QU. rewrite (mark_number t N) in QU. discriminate. }
  bool_case E3; [discriminate|]. bool_case E4; [discriminate|]. bool_case E5; [discriminate|].
  bool_case E8. { destruct (str_end (d :: r)) as [[y r1]|]; [|discriminate]. bool_case F; [discriminate|]. intros [= <- _ _]. injection L as <-. discriminate. }
  bool_case E10. { bool_case F; [discriminate|]. intros [= <- _ _]. injection L as <-. discriminate. }
  bool_case E11; [|discriminate]. bool_case F; [discriminate|]. intros [= <- <- <-]. destruct (lex_digit _ _ _ _ L' D) as (t & l2 & -> & N). injection L as <-. cbn [quiet] in QU. rewrite N in QU. cbn in QU. rewrite andb_false_r in QU. discriminate.
Qed.

(** *** The whole text *)
Lemma lex_tokens f : forall bol cs l, cxx_lex f bol cs = Some l -> calm l = true -> lines_ended cs = true -> two_quotes cs = true ->
  tokens_from INITIAL bol cs = Some (toks l) /\ Forall read_ok l.
Proof.
  induction f as [|f IH]; intros bol cs l.
  - destruct cs; [|discriminate]. intros [= <-] _ _ _. split; [destruct bol; vm_compute; reflexivity|constructor].
  - destruct cs as [|c r]; [intros [= <-] _ _ _; split; [destruct bol; vm_compute; reflexivity|constructor]|].
    cbn [cxx_lex]. destruct (cxx_step bol c r) as [[[o b] r']|] eqn:S; [|discriminate]. destruct (cxx_lex f b r') as [l'|] eqn:L; [|discriminate].
    intros [= <-] CA LE TQ.
    assert (NU : forall t, o = Some (CT t) -> t_kind t = 26 -> ends_number r').
    { intros t -> K. destruct (step_read _ _ _ _ _ _ _ S eq_refl) as [_ X]. destruct (X K) as (-> & P & A). apply (follows f r' l' L); auto.
      cbn [calm] in CA. unfold is_number in CA. rewrite K in CA. cbn in CA. now apply andb_prop in CA as [CA _]. }
    destruct (step_tokens _ _ _ _ _ _ S LE TQ NU) as [(x & X & _) T]. rewrite X in LE, TQ.
    assert (CA' : calm l' = true). { destruct o as [[t|s]|]; [now apply andb_prop in CA as [_ CA]|exact CA|exact CA]. }
    destruct (IH _ _ _ L CA' (ended_suffix _ _ LE) (quotes_suffix _ _ TQ)) as [T' R]. split.
    + rewrite T, T'. destruct o as [[t|s]|]; reflexivity.
    + destruct o as [x'|]; [|exact R]. constructor; [exact (proj1 (step_read _ _ _ _ _ _ _ S eq_refl))|exact R].
Qed.

(** *** Signs *)
Definition quiet_t (l : list token) : bool :=
  match l with [] => true | t :: r => mark t && match r with u :: _ => negb (is_number u) | [] => true end end.
Fixpoint calm_t (l : list token) : bool :=
  match l with [] => true | t :: r => (negb (is_number t) || quiet_t r) && calm_t r end.
Lemma signed_kind c t : t_kind (signed c t) = t_kind t.
Proof. reflexivity. Qed.
Lemma strip_signed c t : sign c = true -> signable t = true -> strip_tok t = t -> strip_tok (signed c t) = t.
Proof.
  intros C S T. unfold strip_tok. change (signable (signed c t)) with (signable t). rewrite S. destruct t as [k [v|]]; cbn [signed t_kind t_val option_map].
  - unfold strip. now rewrite C.
  - reflexivity.
Qed.
Lemma merge_toks n : forall l ts, (length l <= n)%nat -> merge l = Some ts -> Forall read_ok l -> toks l = map strip_tok ts.
Proof.
  induction n as [|n IH]; intros l ts N M R.
  - destruct l; [|cbn in N; lia]. injection M as <-. reflexivity.
  - destruct l as [|[t|c] r]; [injection M as <-; reflexivity| |].
    + cbn [merge] in M. destruct (merge r) as [ts'|] eqn:E; [|discriminate]. injection M as <-. inversion R as [|? ? R1 R2]; subst. cbn [read_ok] in R1.
      cbn [map]. rewrite R1, <- (IH r ts'); auto. cbn in N. lia.
    + destruct r as [|[t|d] r]; [discriminate| |discriminate]. cbn [merge] in M. destruct (signable t) eqn:S; [|discriminate]. destruct (merge r) as [ts'|] eqn:E; [|discriminate].
      injection M as <-. inversion R as [|? ? R1 R2]; subst. inversion R2 as [|? ? R3 R4]; subst. cbn [read_ok] in R1, R3. cbn [map]. rewrite (strip_signed c t R1 S R3).
      rewrite <- (IH r ts'); auto. cbn in N. lia.
Qed.
Lemma merge_quiet l ts : merge l = Some ts -> quiet_t ts = true -> quiet l = true.
Proof.
  destruct l as [|[t|c] r]; [reflexivity| |]; cbn [merge].
  - destruct (merge r) as [ts'|] eqn:E; [|discriminate]. intros [= <-]. cbn [quiet_t quiet]. intros H. apply andb_prop in H as [-> H]. cbn [andb].
    destruct r as [|[u|d] r]; [reflexivity| |reflexivity]. cbn [merge] in E. destruct (merge r); [|discriminate]. injection E as <-. exact H.
  - destruct r as [|[t|d] r]; [discriminate| |discriminate]. destruct (signable t) eqn:S; [|discriminate]. destruct (merge r); [|discriminate]. intros [= <-]. cbn [quiet_t]. unfold mark. rewrite signed_kind.
    unfold signable in S. intros H. apply andb_prop in H as [H _]. apply andb_prop in H as [_ H]. apply N.leb_le in H. repeat (apply orb_prop in S as [S|S]); apply N.eqb_eq in S; lia.
Qed.
Lemma merge_calm n : forall l ts, (length l <= n)%nat -> merge l = Some ts -> calm_t ts = true -> calm l = true.
Proof.
  induction n as [|n IH]; intros l ts N M C.
  - destruct l; [reflexivity|cbn in N; lia].
  - destruct l as [|[t|c] r]; [reflexivity| |].
    + cbn [merge] in M. destruct (merge r) as [ts'|] eqn:E; [|discriminate]. injection M as <-. cbn [calm_t calm] in *. apply andb_prop in C as [C1 C2].
      rewrite (IH r ts'); auto; [|cbn in N; lia]. rewrite andb_true_r. destruct (is_number t); [|reflexivity]. cbn in *. exact (merge_quiet r ts' E C1).
    + destruct r as [|[t|d] r]; [discriminate| |discriminate]. cbn [merge] in M. destruct (signable t) eqn:S; [|discriminate]. destruct (merge r) as [ts'|] eqn:E; [|discriminate].
      injection M as <-. cbn [calm_t calm] in *. apply andb_prop in C as [C1 C2]. rewrite (IH r ts'); auto; [|cbn in N; lia]. rewrite andb_true_r.
      change (is_number (signed c t)) with (is_number t) in C1. destruct (is_number t); [|reflexivity]. cbn in *. exact (merge_quiet r ts' E C1).
Qed.

(** *** The grammar puts a mark behind every number *)
Definition good (l : list token) : Prop := calm_t l = true /\ match l with u :: _ => is_number u = false | [] => True end.
Lemma good_cons t l : is_number t = false -> good l -> good (t :: l).
Proof. intros N [G _]. split; [cbn; now rewrite N|exact N]. Qed.
Lemma good_number t u l : mark u = true -> is_number u = false -> good l -> calm_t (t :: u :: l) = true.
Proof. intros M N [G H]. cbn. rewrite M, N, G. cbn. destruct l as [|v l]; [now rewrite orb_true_r|]. rewrite H. cbn. now rewrite orb_true_r. Qed.
Lemma good_entry e u l : mark u = true -> is_number u = false -> good l -> good (entry_tokens e ++ u :: l).
Proof.
  intros M N G. destruct e as [n [c|]]; unfold entry_tokens; cbn [en_name en_val app].
  - split; [|reflexivity]. cbn [calm_t]. change (is_number (tk_name n)) with false. change (is_number tk_equals) with false. cbn [negb orb andb]. now apply good_number.
  - apply good_cons; [reflexivity|]. now apply good_cons.
Qed.
Lemma good_entries es t l : good l -> good (entries_tokens es t ++ tk_rbrace :: l).
Proof.
  intros G. induction es as [|e [|e2 es] IH].
  - now apply good_cons.
  - cbn [entries_tokens]. destruct t.
    + rewrite <- app_assoc. cbn [app]. apply good_entry; [reflexivity|reflexivity|]. now apply good_cons.
    + rewrite app_nil_r. now apply good_entry.
  - change (entries_tokens (e :: e2 :: es) t) with (entry_tokens e ++ tk_comma :: entries_tokens (e2 :: es) t). rewrite <- app_assoc. cbn [app]. apply good_entry; [reflexivity|reflexivity|exact IH].
Qed.
Lemma good_dflt d l : good l -> good (dflt_tokens d ++ tk_semi :: l).
Proof.
  intros G. destruct d as [| |v]; cbn [dflt_tokens app]; [now apply good_cons|do 3 (apply good_cons; [reflexivity|]); exact G|].
  split; [|reflexivity]. cbn [calm_t]. change (is_number tk_lbrace) with false. cbn [negb orb andb]. apply good_number; [reflexivity|reflexivity|]. now apply good_cons.
Qed.
Lemma good_member m l : good l -> good (member_tokens m ++ l).
Proof.
  intros G. destruct m as [ty n d|u n d|u n]; cbn [member_tokens].
  - destruct ty; cbn [type_tokens app]; rewrite <- app_assoc; cbn [app]; repeat (apply good_cons; [reflexivity|]); now apply good_dflt.
  - cbn [app]. rewrite <- app_assoc; cbn [app]; repeat (apply good_cons; [reflexivity|]); now apply good_dflt.
  - cbn [app]. repeat (apply good_cons; [reflexivity|]). exact G.
Qed.
Lemma good_file ds : good (file_tokens ds).
Proof.
  unfold file_tokens. induction ds as [|d ds IH]; [split; [reflexivity|exact I]|]. cbn [map concat]. destruct d as [c n es t|n ms]; cbn [def_tokens].
  - unfold enum_head. assert (X : good (entries_tokens es t ++ tk_rbrace :: tk_semi :: concat (map def_tokens ds))).
    { apply good_entries. now apply good_cons. }
    destruct c; cbn [app]; rewrite <- app_assoc; cbn [app]; repeat (apply good_cons; [reflexivity|]); apply X.
  - cbn [app]. rewrite <- app_assoc. cbn [app]. repeat (apply good_cons; [reflexivity|]).
    induction ms as [|m ms IHm]; [cbn; repeat (apply good_cons; [reflexivity|]); exact IH|]. cbn [map concat]. rewrite <- app_assoc. apply good_member. exact IHm.
Qed.

(** *** The definitions without signs *)
Lemma map_entries es t : map strip_tok (entries_tokens es t) = entries_tokens (map strip_entry es) t.
Proof.
  assert (X : forall e, map strip_tok (entry_tokens e) = entry_tokens (strip_entry e)) by (intros [n [[s|s|s]|]]; reflexivity).
  induction es as [|e [|e2 es] IH]; [reflexivity| |].
  - cbn [map entries_tokens]. rewrite map_app, X. now destruct t.
  - change (entries_tokens (e :: e2 :: es) t) with (entry_tokens e ++ tk_comma :: entries_tokens (e2 :: es) t). rewrite map_app, X. cbn [map]. cbn [map] in IH. rewrite IH. reflexivity.
Qed.
Lemma map_member m : map strip_tok (member_tokens m) = member_tokens (strip_member m).
Proof. destruct m as [ty n [| |[]]|u n [| |[]]|u n]; cbn [member_tokens strip_member strip_dflt strip_value]; try rewrite map_app; try (destruct ty); reflexivity. Qed.
Lemma map_file ds : map strip_tok (file_tokens ds) = file_tokens (unsigned ds).
Proof.
  unfold file_tokens, unsigned. induction ds as [|d ds IH]; [reflexivity|]. cbn [map concat]. rewrite map_app, IH. f_equal. destruct d as [c n es t|n ms]; cbn [def_tokens strip_def].
  - rewrite map_app. cbn [map]. rewrite map_app, map_entries. now destruct c.
  - rewrite !map_app. f_equal. f_equal. clear. induction ms as [|m ms IH]; [reflexivity|]. cbn [map concat]. rewrite map_app, map_member, IH. reflexivity.
Qed.
Lemma wf_unsigned ds : wf_file ds -> wf_file (unsigned ds).
Proof.
  intros [N F]. split; [now destruct ds|]. unfold unsigned. apply Forall_map. apply (Forall_impl _ (P := wf_def)); [|exact F]. intros [c n es t|n ms]; cbn; [now destruct es|now destruct ms].
Qed.
Lemma cxx_text cs ds : cxx_header cs ds -> lines_ended cs = true -> two_quotes cs = true -> text_of cs (unsigned ds).
Proof.
  intros (W & l & L & M) LE TQ. unfold cxx_tokens in L. destruct (spliced cs); [discriminate|].
  pose proof (merge_calm _ _ _ (le_n _) M (proj1 (good_file ds))) as CA. destruct (lex_tokens _ _ _ _ L CA LE TQ) as [T R].
  rewrite (merge_toks _ _ _ (le_n _) M R), map_file in T. apply tokens_scan in T as (its & le & ee & E & X). exists its, le, ee. split; [exact E|]. split; [now apply wf_unsigned|exact X].
Qed.
