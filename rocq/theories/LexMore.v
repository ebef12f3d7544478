(** Block comments, string constants, foreign bytes, unterminated last lines, numbers
    (C05-C08, C51, C52). *)
From Coq Require Import String Ascii NArith Arith List Bool Lia.
From Verif Require Import Base Regex LexRules FlexTables Flex LexCorrect LexWhole LexLoc LexStep LexProps LexBlank.
Import ListNotations.
Local Open Scope N_scope.

Lemma run_cons v c w : run v (c :: w) = run (dv c v) w.
Proof. reflexivity. Qed.

(** One-lexeme facts: the run lies in [S]; rule [n] accepted there; nothing extends it. *)
Lemma one_lexeme sc sc' bol bol' x rest n (S : list vec) :
  x <> [] -> existsb (fun r => r_num r =? n) rules = true -> r_num (rule_at n) = n -> n <> 0 ->
  active sc bol (rule_at n) = true -> r_trail (rule_at n) = 0%nat ->
  In (run (init_vec sc bol) x) S -> forallb (fun v => first_null v =? n) S = true ->
  (forall p q, rest = p ++ q -> p <> [] -> first_null (run (run (init_vec sc bol) x) p) = 0) ->
  next_sc (rule_at n) sc = sc' -> ends_nl x = bol' ->
  tokens_from sc bol (x ++ rest) = prepend (rtok (rule_at n) x) (tokens_from sc' bol' rest).
Proof.
  intros Hx Hex Hn Hn0 Hact Htr Hin Hf He <- <-.
  apply takes_step. apply takes_rule; auto using rule_at_in. eapply first_null_in; eauto.
Qed.

(** ** Block comments *)

Fixpoint has_close (s : bytes) : bool :=
  match s with
  | c :: s' => (is 42 c && starts (is 47) s') || has_close s'
  | [] => false
  end.

Definition initC : list vec := [init_vec C_COMMENT false; init_vec C_COMMENT true].
Lemma initC_in bol : In (init_vec C_COMMENT bol) initC.
Proof. destruct bol; [right; left | left]; reflexivity. Qed.

Definition not_star_nl c := negb (is 42 c || is 10 c).
Lemma cls_nsn : cls_inv not_star_nl. Proof. apply cls_check_ok; fin. Qed.
Definition cc_other : list vec := Eval vm_compute in after not_star_nl initC.
Definition cc_nl : list vec := Eval vm_compute in after (is 10) initC.
Definition cc_star : list vec := Eval vm_compute in after (is 42) initC.
Definition cc_end : list vec := Eval vm_compute in after (is 47) cc_star.

Lemma comment_char bol c t :
  is 42 c && starts (is 47) t = false ->
  exists bol', tokens_from C_COMMENT bol (c :: t) = tokens_from C_COMMENT bol' t.
Proof.
  intros H. change (c :: t) with ([c] ++ t). destruct (is 10 c) eqn:E10.
  - exists true.
    assert (Hin : In (run (init_vec C_COMMENT bol) [c]) cc_nl).
    { apply (step_check_ok (is 10) initC); [apply cls_is; fin | fin | apply init_known | apply initC_in | auto]. }
    rewrite (one_lexeme C_COMMENT C_COMMENT bol true [c] t 2 cc_nl);
      [apply prepend_nil | discriminate | fin | fin | discriminate | destruct bol; fin | fin | exact Hin
       | fin | | fin |].
    + apply (dead_noext cc_nl); [fin | apply init_run_known | exact Hin].
    + apply is_char in E10. subst c. reflexivity.
  - exists false. destruct (is 42 c) eqn:E42.
    + cbn in H.
      assert (Hin : In (run (init_vec C_COMMENT bol) [c]) cc_star).
      { apply (step_check_ok (is 42) initC); [apply cls_is; fin | fin | apply init_known | apply initC_in | auto]. }
      rewrite (one_lexeme C_COMMENT C_COMMENT bol false [c] t 3 cc_star);
        [apply prepend_nil | discriminate | fin | fin | discriminate | destruct bol; fin | fin | exact Hin
         | fin | | fin |].
      * intros p q E Hp. destruct p as [|d p]; [congruence|]. rewrite E in H. cbn in H.
        rewrite run_cons.
        apply run_dead. apply (dead_check_ok (is 47) cc_star);
          [apply cls_is; fin | fin | apply init_run_known | exact Hin | exact H].
      * apply is_char in E42. subst c. reflexivity.
    + assert (Hin : In (run (init_vec C_COMMENT bol) [c]) cc_other).
      { apply (step_check_ok not_star_nl initC); [exact cls_nsn | fin | apply init_known | apply initC_in |].
        unfold not_star_nl. rewrite E42, E10. reflexivity. }
      rewrite (one_lexeme C_COMMENT C_COMMENT bol false [c] t 3 cc_other);
        [apply prepend_nil | discriminate | fin | fin | discriminate | destruct bol; fin | fin | exact Hin
         | fin | | fin |].
      * apply (dead_noext cc_other); [fin | apply init_run_known | exact Hin].
      * unfold ends_nl. cbn. unfold is in E10. auto.
Qed.

Lemma comment_end bol rest :
  tokens_from C_COMMENT bol ("*"%char :: "/"%char :: rest) = tokens_from INITIAL false rest.
Proof.
  change ("*"%char :: "/"%char :: rest) with (["*"%char; "/"%char] ++ rest).
  assert (Hin : In (run (init_vec C_COMMENT bol) ["*"%char; "/"%char]) cc_end).
  { change (run (init_vec C_COMMENT bol) ["*"%char; "/"%char])
      with (dv "/"%char (dv "*"%char (init_vec C_COMMENT bol))).
    apply (step_check_ok (is 47) cc_star); [apply cls_is; fin | fin | apply dv_known, init_known | | auto].
    apply (step_check_ok (is 42) initC); [apply cls_is; fin | fin | apply init_known | apply initC_in | auto]. }
  rewrite (one_lexeme C_COMMENT INITIAL bol false ["*"%char; "/"%char] rest 4 cc_end);
    [apply prepend_nil | discriminate | fin | fin | discriminate | destruct bol; fin | fin | exact Hin
     | fin | | fin | fin].
  apply (dead_noext cc_end); [fin | apply init_run_known | exact Hin].
Qed.

Lemma comment_body body : forall bol rest,
  has_close (body ++ ["*"%char]) = false ->
  tokens_from C_COMMENT bol (body ++ "*"%char :: "/"%char :: rest) = tokens_from INITIAL false rest.
Proof.
  induction body as [|c body IH]; intros bol rest H.
  - apply comment_end.
  - cbn [app has_close] in H. apply orb_false_iff in H as [H1 H2].
    destruct (comment_char bol c (body ++ "*"%char :: "/"%char :: rest)) as (bol' & E).
    + destruct body; cbn in *; auto.
    + cbn [app]. rewrite E. apply IH; auto.
Qed.

Definition openS : list vec := Eval vm_compute in after (is 42) slS.

Lemma comment_open bol rest :
  tokens_from INITIAL bol ("/"%char :: "*"%char :: rest) = tokens_from C_COMMENT false rest.
Proof.
  change ("/"%char :: "*"%char :: rest) with (["/"%char; "*"%char] ++ rest).
  assert (Hin : In (run (init_vec INITIAL bol) ["/"%char; "*"%char]) openS).
  { change (run (init_vec INITIAL bol) ["/"%char; "*"%char])
      with (dv "*"%char (dv "/"%char (init_vec INITIAL bol))).
    apply (step_check_ok (is 42) slS); [apply cls_is; fin | fin | apply dv_known, init_known | | auto].
    apply (step_check_ok (is 47) init2); [apply cls_is; fin | fin | apply init_known | apply init2_in | auto]. }
  rewrite (one_lexeme INITIAL C_COMMENT bol false ["/"%char; "*"%char] rest 1 openS);
    [apply prepend_nil | discriminate | fin | fin | discriminate | destruct bol; fin | fin | exact Hin
     | fin | | fin | fin].
  apply (dead_noext openS); [fin | apply init_run_known | exact Hin].
Qed.

Theorem tokens_block_comment bol body rest :
  has_close (body ++ ["*"%char]) = false ->
  tokens_from INITIAL bol (("/"%char :: "*"%char :: body) ++ "*"%char :: "/"%char :: rest)
  = tokens_from INITIAL false rest.
Proof.
  intros H. cbn [app]. rewrite comment_open. apply comment_body; auto.
Qed.

(** A comment that is never closed swallows the rest of the file. *)
Lemma comment_unclosed body : forall bol,
  has_close body = false -> tokens_from C_COMMENT bol body = Some [].
Proof.
  induction body as [|c body IH]; intros bol H; [reflexivity|].
  cbn [has_close] in H. apply orb_false_iff in H as [H1 H2].
  destruct (comment_char bol c body H1) as (bol' & E). rewrite E. apply IH; auto.
Qed.

Theorem tokens_unclosed_comment bol body :
  has_close body = false ->
  tokens_from INITIAL bol ("/"%char :: "*"%char :: body) = Some [].
Proof. intros H. rewrite comment_open. apply comment_unclosed; auto. Qed.

(** ** String constants *)

Definition Q : ascii := ascii_of_N 34.
Definition not_quote_nl c := negb (is 34 c || is 10 c).
Lemma cls_nqn : cls_inv not_quote_nl. Proof. apply cls_check_ok; fin. Qed.
Lemma cls_q : cls_inv (is 34). Proof. apply cls_check_ok; fin. Qed.
Lemma cls_10 : cls_inv (is 10). Proof. apply cls_check_ok; fin. Qed.

(** The current line of [rest] has no further double quote. *)
Definition no_quote_on_line (rest : bytes) : Prop :=
  exists m r, rest = m ++ r /\ forallb not_quote_nl m = true /\ (r = [] \/ exists r', r = NL :: r').

Definition strS1 : list vec := Eval vm_compute in after (is 34) init2.
Definition strS : list vec := Eval vm_compute in explore_vec not_nl 999 (after not_nl strS1) [].
Definition strE : list vec := Eval vm_compute in after (is 34) (strS1 ++ strS).
Definition strF : list vec := Eval vm_compute in explore_vec not_quote_nl 999 (after not_quote_nl strE) [].
Definition strG : list vec := Eval vm_compute in explore_vec not_quote_nl 999 (after not_quote_nl strS1) [].

Lemma str1 bol : In (run (init_vec INITIAL bol) [Q]) strS1.
Proof.
  apply (step_check_ok (is 34) init2); [exact cls_q | fin | apply init_known | apply init2_in | reflexivity].
Qed.

Lemma str_run bol l : no_newline l = true ->
  In (run (init_vec INITIAL bol) (Q :: l)) (strS1 ++ strS).
Proof.
  intros Hl. destruct l as [|c l]; [apply in_or_app; left; apply str1|].
  apply in_or_app; right. cbn in Hl. apply andb_true_iff in Hl as [Hc Hl].
  change (Q :: c :: l) with ([Q] ++ c :: l). rewrite run_app, run_cons.
  apply (closed_ok not_nl); [exact cls_not_nl | fin | apply dv_known, init_run_known | | exact Hl].
  apply (step_check_ok not_nl strS1); [exact cls_not_nl | fin | apply init_run_known | apply str1 | exact Hc].
Qed.

Lemma quote_noext (S F : list vec) v rest :
  In v S -> vknown v -> no_quote_on_line rest ->
  step_check not_quote_nl S F = true -> step_check not_quote_nl F F = true ->
  forallb (fun v => first_null v =? 0) F = true ->
  step_check (is 10) S [[]] = true -> step_check (is 10) F [[]] = true ->
  forall p q, rest = p ++ q -> p <> [] -> first_null (run v p) = 0.
Proof.
  intros Hin Hv (m & r & -> & Hm & Hr) HSF HFF HF0 HS10 HF10 p q E Hp.
  destruct p as [|c p]; [congruence|]. clear Hp.
  assert (HF : forall p u, In u F -> vknown u -> forall m q, m ++ r = p ++ q ->
             forallb not_quote_nl m = true -> first_null (run u p) = 0).
  { clear - Hr HFF HF0 HF10. induction p as [|d p IH]; intros u Hu Hk m q E Hm.
    - apply (first_null_in F); auto.
    - change (run u (d :: p)) with (run (dv d u) p). destruct m as [|d' m].
      + cbn in E. destruct Hr as [->|(r' & ->)]; [discriminate|].
        injection E as <- _. apply run_dead.
        pose proof (step_check_ok (is 10) F [[]] u NL cls_10 HF10 Hk Hu eq_refl) as [H|[]]. auto.
      + cbn in E. injection E as -> E. cbn in Hm. apply andb_true_iff in Hm as [Hd Hm].
        apply (IH (dv d u)) with (m := m) (q := q); auto using dv_known.
        apply (step_check_ok not_quote_nl F); auto using cls_nqn. }
  change (run v (c :: p)) with (run (dv c v) p). destruct m as [|c' m].
  - cbn in E. destruct Hr as [->|(r' & ->)]; [discriminate|]. injection E as <- _.
    apply run_dead.
    pose proof (step_check_ok (is 10) S [[]] v NL cls_10 HS10 Hv Hin eq_refl) as [H|[]]. auto.
  - cbn in E. injection E as -> E. cbn in Hm. apply andb_true_iff in Hm as [Hd Hm].
    apply (HF p (dv c v)) with (m := m) (q := q); auto using dv_known.
    apply (step_check_ok not_quote_nl S); auto using cls_nqn.
Qed.

Theorem tokens_string bol l rest :
  no_newline l = true -> no_quote_on_line rest ->
  tokens_from INITIAL bol ((Q :: l ++ [Q]) ++ rest) =
  prepend [Tok 29 (Some (string_of_list_ascii (Q :: l ++ [Q])))] (tokens_from INITIAL false rest).
Proof.
  intros Hl Hr. set (x := Q :: l ++ [Q]).
  assert (Hin : In (run (init_vec INITIAL bol) x) strE).
  { unfold x. change (Q :: l ++ [Q]) with ((Q :: l) ++ [Q]). rewrite run_app.
    apply (step_check_ok (is 34) (strS1 ++ strS));
      [exact cls_q | fin | apply init_run_known | apply str_run; auto | reflexivity]. }
  rewrite (one_lexeme INITIAL INITIAL bol false x rest 35 strE);
    [reflexivity | discriminate | fin | fin | discriminate | destruct bol; fin | fin | exact Hin | fin | | fin |].
  - apply (quote_noext strE strF); [exact Hin | apply init_run_known | exact Hr | fin | fin | fin | fin | fin].
  - apply no_newline_ends. unfold x, no_newline. cbn. rewrite forallb_app. cbn.
    unfold no_newline in Hl. rewrite Hl. reflexivity.
Qed.

(** A quote without a partner on its line is echoed. *)
Theorem tokens_lone_quote bol rest :
  no_quote_on_line rest ->
  tokens_from INITIAL bol (Q :: rest) = tokens_from INITIAL false rest.
Proof.
  intros Hr. change (Q :: rest) with ([Q] ++ rest).
  rewrite (one_lexeme INITIAL INITIAL bol false [Q] rest 37 strS1);
    [apply prepend_nil | discriminate | fin | fin | discriminate | destruct bol; fin | fin | apply str1 | fin | | fin | fin].
  apply (quote_noext strS1 strG); [apply str1 | apply init_run_known | exact Hr | fin | fin | fin | fin | fin].
Qed.

(** ** Bytes no rule starts with *)

Definition digit := between 48 57.
Definition punct (c : ascii) : bool :=
  is 123 c || is 125 c || is 61 c || is 44 c || is 59 c || is 60 c || is 62 c.
Definition foreign (c : ascii) : bool :=
  negb (ident_start c || digit c || blank c || punct c ||
        is 10 c || is 13 c || is 34 c || is 39 c || is 35 c || is 47 c).
Lemma cls_foreign : cls_inv foreign. Proof. apply cls_check_ok; fin. Qed.
Definition forS : list vec := Eval vm_compute in after foreign init2.

Theorem tokens_foreign bol c rest :
  foreign c = true -> tokens_from INITIAL bol (c :: rest) = tokens_from INITIAL false rest.
Proof.
  intros Hc. change (c :: rest) with ([c] ++ rest).
  assert (Hin : In (run (init_vec INITIAL bol) [c]) forS).
  { apply (step_check_ok foreign init2); [exact cls_foreign | fin | apply init_known | apply init2_in | exact Hc]. }
  rewrite (one_lexeme INITIAL INITIAL bol false [c] rest 37 forS);
    [apply prepend_nil | discriminate | fin | fin | discriminate | destruct bol; fin | fin | exact Hin | fin | | fin |].
  - apply (dead_noext forS); [fin | apply init_run_known | exact Hin].
  - apply no_newline_ends. cbn. unfold not_nl. destruct (is 10 c) eqn:E; auto.
    apply is_char in E. subst c. discriminate.
Qed.

(** ** Unterminated last lines *)

Lemma cls_47 : cls_inv (is 47). Proof. apply cls_check_ok; fin. Qed.
Definition slash_star c := is 47 c || is 42 c.
Lemma cls_ss : cls_inv slash_star. Proof. apply cls_check_ok; fin. Qed.

Theorem tokens_slashes_eof bol l :
  no_newline l = true ->
  tokens_from INITIAL bol ("/"%char :: "/"%char :: l) = tokens_from INITIAL false ("/"%char :: l).
Proof.
  intros Hl. change ("/"%char :: "/"%char :: l) with (["/"%char] ++ "/"%char :: l).
  assert (Hin : In (run (init_vec INITIAL bol) ["/"%char]) slS).
  { apply (step_check_ok (is 47) init2); [exact cls_47 | fin | apply init_known | apply init2_in | reflexivity]. }
  rewrite (one_lexeme INITIAL INITIAL bol false ["/"%char] ("/"%char :: l) 37 slS);
    [apply prepend_nil | discriminate | fin | fin | discriminate | destruct bol; fin | fin | exact Hin | fin | | fin | fin].
  intros p q E Hp. destruct p as [|c p]; [congruence|]. injection E as <- E.
  assert (Hp' : no_newline p = true).
  { rewrite E in Hl. unfold no_newline in *. rewrite forallb_app in Hl. apply andb_true_iff in Hl; tauto. }
  change (run (run (init_vec INITIAL bol) ["/"%char]) ("/"%char :: p))
    with (run (init_vec INITIAL bol) ("/"%char :: "/"%char :: p)).
  apply (first_null_in slslS); [fin | apply slsl_run; auto].
Qed.

Theorem tokens_slash_other bol l :
  starts slash_star l = false ->
  tokens_from INITIAL bol ("/"%char :: l) = tokens_from INITIAL false l.
Proof.
  intros Hl. change ("/"%char :: l) with (["/"%char] ++ l).
  assert (Hin : In (run (init_vec INITIAL bol) ["/"%char]) slS).
  { apply (step_check_ok (is 47) init2); [exact cls_47 | fin | apply init_known | apply init2_in | reflexivity]. }
  rewrite (one_lexeme INITIAL INITIAL bol false ["/"%char] l 37 slS);
    [apply prepend_nil | discriminate | fin | fin | discriminate | destruct bol; fin | fin | exact Hin | fin | | fin | fin].
  intros p q E Hp. destruct p as [|c p]; [congruence|]. rewrite E in Hl. cbn in Hl.
  rewrite run_cons.
  apply run_dead. apply (dead_check_ok slash_star slS); [exact cls_ss | fin | apply init_run_known | exact Hin | exact Hl].
Qed.

(** The // of an unterminated last line is dropped, its words are not. *)
Theorem tokens_comment_eof bol l :
  no_newline l = true -> starts slash_star l = false ->
  tokens_from INITIAL bol ("/"%char :: "/"%char :: l) = tokens_from INITIAL false l.
Proof. intros H1 H2. rewrite tokens_slashes_eof by auto. apply tokens_slash_other; auto. Qed.

Theorem tokens_hash_eof bol l :
  bol = false \/ no_newline l = true ->
  tokens_from INITIAL bol ("#"%char :: l) = tokens_from INITIAL false l.
Proof.
  intros H. change ("#"%char :: l) with (["#"%char] ++ l).
  rewrite (takes_step _ _ _ _ _ (takes_lone_hash bol l H)). apply prepend_nil.
Qed.

(** ** Numbers *)

Lemma cls_digit : cls_inv digit. Proof. apply cls_check_ok; fin. Qed.
Definition nondigit_sep c := negb (digit c || is 10 c || is 120 c).
Lemma cls_nds : cls_inv nondigit_sep. Proof. apply cls_check_ok; fin. Qed.
Definition digit_f c := digit c || is 102 c.
Lemma cls_df : cls_inv digit_f. Proof. apply cls_check_ok; fin. Qed.

Definition numS : list vec := Eval vm_compute in explore_vec digit 999 (after digit init2) [].
Definition numD : list vec := Eval vm_compute in after nondigit_sep numS.
Definition numF : list vec := Eval vm_compute in explore_vec digit 999 (after digit numD) [].

Lemma num_run bol ds : ds <> [] -> forallb digit ds = true ->
  In (run (init_vec INITIAL bol) ds) numS.
Proof.
  intros Hne H. destruct ds as [|d ds]; [congruence|]. cbn in H. apply andb_true_iff in H as [Hd H].
  change (run (init_vec INITIAL bol) (d :: ds)) with (run (dv d (init_vec INITIAL bol)) ds).
  apply (closed_ok digit); [exact cls_digit | fin | apply dv_known, init_known | | exact H].
  apply (step_check_ok digit init2); [exact cls_digit | fin | apply init_known | apply init2_in | exact Hd].
Qed.

(** Any byte between two digit runs makes one floating-point token. *)
Theorem tokens_fvalue bol ds1 c ds2 rest :
  ds1 <> [] -> ds2 <> [] -> forallb digit ds1 = true -> forallb digit ds2 = true ->
  nondigit_sep c = true -> starts digit_f rest = false ->
  tokens_from INITIAL bol ((ds1 ++ c :: ds2) ++ rest) =
  prepend [Tok 28 (Some (string_of_list_ascii (ds1 ++ c :: ds2)))] (tokens_from INITIAL false rest).
Proof.
  intros H1 H2 D1 D2 Hc Hr. set (x := ds1 ++ c :: ds2).
  assert (Hin : In (run (init_vec INITIAL bol) x) numF).
  { unfold x. rewrite run_app. destruct ds2 as [|d ds2]; [congruence|].
    cbn in D2. apply andb_true_iff in D2 as [Hd D2].
    change (run (run (init_vec INITIAL bol) ds1) (c :: d :: ds2))
      with (run (dv d (dv c (run (init_vec INITIAL bol) ds1))) ds2).
    apply (closed_ok digit); [exact cls_digit | fin | apply dv_known, dv_known, init_run_known | | exact D2].
    apply (step_check_ok digit numD); [exact cls_digit | fin | apply dv_known, init_run_known | | exact Hd].
    apply (step_check_ok nondigit_sep numS); [exact cls_nds | fin | apply init_run_known | apply num_run; auto | exact Hc]. }
  rewrite (one_lexeme INITIAL INITIAL bol false x rest 34 numF);
    [reflexivity | unfold x; destruct ds1; discriminate | fin | fin | discriminate | destruct bol; fin | fin | exact Hin | fin | | fin |].
  - intros p q E Hp. destruct p as [|e p]; [congruence|]. rewrite E in Hr. cbn in Hr.
    rewrite run_cons.
    apply run_dead. apply (dead_check_ok digit_f numF); [exact cls_df | fin | apply init_run_known | exact Hin | exact Hr].
  - apply no_newline_ends. unfold no_newline, x. rewrite forallb_app. cbn.
    assert (Hdn : forall l, forallb digit l = true -> forallb not_nl l = true).
    { intros l Hl. rewrite forallb_forall in *. intros d Hd. specialize (Hl d Hd).
      unfold not_nl. destruct (is 10 d) eqn:E; auto. apply is_char in E. subst d. discriminate. }
    rewrite !Hdn by auto. unfold not_nl. destruct (is 10 c) eqn:E; auto.
    apply is_char in E. subst c. discriminate.
Qed.

(** A digit run is one integer token when nothing after it can be glued to it. *)
Definition ends_number (rest : bytes) : Prop :=
  match rest with
  | [] => True
  | c :: rest' => digit_f c = false /\ is 120 c = false /\ (is 10 c = true \/ starts digit rest' = false)
  end.

Definition numN : list vec := Eval vm_compute in after (is 10) numS.
Definition dig_sep c := digit c || is 120 c || is 102 c.

Theorem tokens_value bol ds rest :
  ds <> [] -> forallb digit ds = true -> ends_number rest ->
  tokens_from INITIAL bol (ds ++ rest) =
  prepend [Tok 26 (Some (string_of_list_ascii ds))] (tokens_from INITIAL false rest).
Proof.
  intros Hne Hd Hr.
  assert (Hin : In (run (init_vec INITIAL bol) ds) numS) by (apply num_run; auto).
  rewrite (one_lexeme INITIAL INITIAL bol false ds rest 32 numS);
    [reflexivity | exact Hne | fin | fin | discriminate | destruct bol; fin | fin | exact Hin | fin | | fin |].
  - intros p q E Hp. destruct p as [|c p]; [congruence|]. rewrite E in Hr. cbn in Hr.
    destruct Hr as (Hc & Hx & Hn).
    rewrite run_cons.
    unfold digit_f in Hc. apply orb_false_iff in Hc as [Hc1 Hc2].
    destruct (is 10 c) eqn:E10.
    + apply run_dead.
      pose proof (step_check_ok (is 10) numS [[]] _ c cls_10 ltac:(fin) (init_run_known _ _ _) Hin E10) as [H|[]]; auto.
    + destruct Hn as [Hn|Hn]; [discriminate|].
      assert (HinD : In (dv c (run (init_vec INITIAL bol) ds)) (after (fun c => nondigit_sep c && negb (is 102 c)) numS)).
      { apply (step_check_ok (fun c => nondigit_sep c && negb (is 102 c)) numS);
          [apply cls_check_ok; fin | fin | apply init_run_known | exact Hin |].
        unfold nondigit_sep. rewrite Hc1, E10, Hx, Hc2. reflexivity. }
      destruct p as [|d p].
      * apply (first_null_in (after (fun c => nondigit_sep c && negb (is 102 c)) numS)); [fin | exact HinD].
      * cbn in Hn.
        change (run (dv c (run (init_vec INITIAL bol) ds)) (d :: p))
          with (run (dv d (dv c (run (init_vec INITIAL bol) ds))) p).
        apply run_dead.
        apply (dead_check_ok digit (after (fun c => nondigit_sep c && negb (is 102 c)) numS));
          [exact cls_digit | fin | apply dv_known, init_run_known | exact HinD | exact Hn].
  - apply no_newline_ends. unfold no_newline. rewrite forallb_forall in *. intros d Hin'. specialize (Hd d Hin').
    unfold not_nl. destruct (is 10 d) eqn:E; auto. apply is_char in E. subst d. discriminate.
Qed.
