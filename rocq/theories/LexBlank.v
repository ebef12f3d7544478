(** Blanks, line ends, comments, preprocessor lines, strings, foreign bytes (C05-C08). *)
From Coq Require Import String Ascii NArith Arith List Bool Lia.
From Verif Require Import Base Regex LexRules FlexTables Flex LexCorrect LexWhole LexLoc LexStep LexProps.
Import ListNotations.
Local Open Scope N_scope.

Definition NL : ascii := ascii_of_N 10.
Definition CR : ascii := ascii_of_N 13.
Definition no_newline (l : bytes) : bool := forallb not_nl l.
Definition starts (P : ascii -> bool) (l : bytes) : bool :=
  match l with [] => false | c :: _ => P c end.

(** ** General stepping lemmas *)

Lemma no_newline_newlines l : no_newline l = true -> newlines l = 0%nat.
Proof.
  induction l as [|c l IH]; cbn; auto. rewrite andb_true_iff. intros [H1 H2].
  rewrite IH by auto. unfold not_nl, is in H1. destruct (N_of_ascii c =? 10); auto. discriminate.
Qed.

Lemma no_newline_ends l : no_newline l = true -> ends_nl l = false.
Proof. intros; apply newlines_ends_nl, no_newline_newlines; auto. Qed.

Definition rule_at (n : N) : rule :=
  match find (fun r => r_num r =? n) rules with Some r => r | None => R 0 Void end.

(** The run of the initial vector over [x] lies in [S], where rule [n] is accepted. *)
Lemma takes_rule sc bol x rest n :
  x <> [] -> In (rule_at n) rules -> r_num (rule_at n) = n -> n <> 0 ->
  active sc bol (rule_at n) = true -> r_trail (rule_at n) = 0%nat ->
  first_null (run (init_vec sc bol) x) = n ->
  (forall p q, rest = p ++ q -> p <> [] -> first_null (run (run (init_vec sc bol) x) p) = 0) ->
  takes sc bol x rest (rule_at n).
Proof.
  intros Hx Hin Hn Hn0 Hact Htr Hf He. apply takes_intro; auto; rewrite Hn; auto.
Qed.

(** Trailing context of one byte. *)
Lemma takes_trail sc bol x t rest n :
  x <> [] -> In (rule_at n) rules -> r_num (rule_at n) = n -> n <> 0 ->
  active sc bol (rule_at n) = true -> r_trail (rule_at n) = 1%nat ->
  first_null (run (init_vec sc bol) (x ++ [t])) = n ->
  (forall p q, rest = p ++ q -> p <> [] ->
     first_null (run (run (init_vec sc bol) (x ++ [t])) p) = 0) ->
  takes sc bol x (t :: rest) (rule_at n).
Proof.
  intros Hx Hin Hn Hn0 Hact Htr Hf He. split; auto. split; auto. split; auto.
  replace (x ++ t :: rest) with ((x ++ [t]) ++ rest) by (rewrite <- app_assoc; reflexivity).
  rewrite best_word; auto; rewrite Hf; auto.
  rewrite Hn, Htr, app_length. reflexivity.
Qed.

Definition always (_ : ascii) : bool := true.
Definition never (_ : ascii) : bool := false.
Lemma cls_never : cls_inv never. Proof. intros c k _. reflexivity. Qed.

(** If every byte kills [v], nothing extends the match. *)
Lemma dead_noext S v rest :
  dead_check never S = true -> vknown v -> In v S ->
  forall p q, rest = p ++ q -> p <> [] -> first_null (run v p) = 0.
Proof.
  intros Hd Hv Hin p q _ Hp. destruct p as [|c p]; [congruence|].
  change (run v (c :: p)) with (run (dv c v) p). apply run_dead.
  apply (dead_check_ok never S); auto using cls_never.
Qed.

Lemma first_null_in (S : list vec) n v :
  forallb (fun v => first_null v =? n) S = true -> In v S -> first_null v = n.
Proof. intros H Hin. rewrite forallb_forall in H. apply N.eqb_eq; auto. Qed.

Lemma cls_is n : cls_check (is n) = true -> cls_inv (is n).
Proof. apply cls_check_ok. Qed.

Lemma is_self n : n < 256 -> is n (ascii_of_N n) = true.
Proof. intros H. unfold is. rewrite N_ascii_embedding by auto. apply N.eqb_refl. Qed.

Lemma init_run_known sc bol w : vknown (run (init_vec sc bol) w).
Proof. apply run_known, init_known. Qed.

Ltac fin := vm_compute; reflexivity.
Ltac rule_goals := first [exact (eq_refl _) | (unfold rules; cbn [In]; tauto) | discriminate].

Lemma rule_at_in n : existsb (fun r => r_num r =? n) rules = true -> In (rule_at n) rules.
Proof.
  intros H. unfold rule_at. destruct (find (fun r => r_num r =? n) rules) eqn:E.
  - apply find_some in E as [E _]. auto.
  - apply existsb_exists in H as (r & H1 & H2). apply (find_none _ _ E) in H1. congruence.
Qed.

(** ** Line ends *)

Definition nlS : list vec := Eval vm_compute in after (is 10) init2.
Definition crS : list vec := Eval vm_compute in after (is 13) init2.
Definition crnlS : list vec := Eval vm_compute in after (is 10) crS.

Lemma tokens_newline bol rest :
  tokens_from INITIAL bol (NL :: rest) = tokens_from INITIAL true rest.
Proof.
  assert (Hin : In (run (init_vec INITIAL bol) [NL]) nlS).
  { apply (step_check_ok (is 10) init2); [apply cls_is; fin | fin | apply init_known
      | apply init2_in | reflexivity]. }
  assert (Ht : takes INITIAL bol [NL] rest (rule_at 7)).
  { apply takes_rule; [discriminate | apply rule_at_in; fin | fin | discriminate
      | destruct bol; fin | fin | |].
    - apply (first_null_in nlS); [fin | exact Hin].
    - apply (dead_noext nlS); [fin | apply init_run_known | exact Hin]. }
  change (NL :: rest) with ([NL] ++ rest). rewrite (takes_step _ _ _ _ _ Ht).
  change (rtok (rule_at 7) [NL]) with (@nil token).
  change (next_sc (rule_at 7) INITIAL) with INITIAL. change (ends_nl [NL]) with true.
  destruct (tokens_from INITIAL true rest); reflexivity.
Qed.

Lemma tokens_crnl bol rest :
  tokens_from INITIAL bol (CR :: NL :: rest) = tokens_from INITIAL true rest.
Proof.
  assert (Hin : In (run (init_vec INITIAL bol) [CR; NL]) crnlS).
  { change (run (init_vec INITIAL bol) [CR; NL]) with (dv NL (dv CR (init_vec INITIAL bol))).
    apply (step_check_ok (is 10) crS); [apply cls_is; fin | fin | apply dv_known, init_known | | reflexivity].
    apply (step_check_ok (is 13) init2); [apply cls_is; fin | fin | apply init_known
      | apply init2_in | reflexivity]. }
  assert (Ht : takes INITIAL bol [CR; NL] rest (rule_at 7)).
  { apply takes_rule; [discriminate | apply rule_at_in; fin | fin | discriminate
      | destruct bol; fin | fin | |].
    - apply (first_null_in crnlS); [fin | exact Hin].
    - apply (dead_noext crnlS); [fin | apply init_run_known | exact Hin]. }
  change (CR :: NL :: rest) with ([CR; NL] ++ rest). rewrite (takes_step _ _ _ _ _ Ht).
  change (rtok (rule_at 7) [CR; NL]) with (@nil token).
  change (next_sc (rule_at 7) INITIAL) with INITIAL. change (ends_nl [CR; NL]) with true.
  destruct (tokens_from INITIAL true rest); reflexivity.
Qed.

(** ** // comments *)

Definition slS : list vec := Eval vm_compute in after (is 47) init2.
Definition slslS : list vec := Eval vm_compute in after (is 47) slS.
Definition slE : list vec := Eval vm_compute in after (is 10) slslS.

Lemma slsl_run bol l : no_newline l = true ->
  In (run (init_vec INITIAL bol) ("/"%char :: "/"%char :: l)) slslS.
Proof.
  intros Hl. change (run (init_vec INITIAL bol) ("/"%char :: "/"%char :: l))
    with (run (dv "/"%char (dv "/"%char (init_vec INITIAL bol))) l).
  apply (closed_ok not_nl); [exact cls_not_nl | fin | apply dv_known, dv_known, init_known | | exact Hl].
  apply (step_check_ok (is 47) slS); [apply cls_is; fin | fin | apply dv_known, init_known | | reflexivity].
  apply (step_check_ok (is 47) init2); [apply cls_is; fin | fin | apply init_known
      | apply init2_in | reflexivity].
Qed.

Lemma prepend_nil o : prepend [] o = o.
Proof. destruct o; reflexivity. Qed.

Lemma tokens_line_comment bol l rest :
  no_newline l = true ->
  tokens_from INITIAL bol (("/"%char :: "/"%char :: l) ++ NL :: rest) = tokens_from INITIAL true rest.
Proof.
  intros Hl. set (x := "/"%char :: "/"%char :: l).
  assert (Hin : In (run (init_vec INITIAL bol) (x ++ [NL])) slE).
  { rewrite run_app. apply (step_check_ok (is 10) slslS);
      [apply cls_is; fin | fin | apply init_run_known | apply slsl_run; auto | reflexivity]. }
  assert (Ht : takes INITIAL bol x (NL :: rest) (rule_at 5)).
  { apply takes_trail; [discriminate | apply rule_at_in; fin | fin | discriminate
      | destruct bol; fin | fin | |].
    - apply (first_null_in slE); [fin | exact Hin].
    - apply (dead_noext slE); [fin | apply init_run_known | exact Hin]. }
  rewrite (takes_step _ _ _ _ _ Ht).
  change (rtok (rule_at 5) x) with (@nil token).
  change (next_sc (rule_at 5) INITIAL) with INITIAL. rewrite prepend_nil.
  apply tokens_newline.
Qed.

(** ** # lines *)

Definition blankS : list vec := Eval vm_compute in explore_vec blank 999 [init_vec INITIAL true] [].
Definition hashS : list vec := Eval vm_compute in
  explore_vec not_nl 999 (after (is 35) blankS) [].
Definition hashE : list vec := Eval vm_compute in after (is 10) hashS.

Lemma hash_run bs l : forallb blank bs = true -> no_newline l = true ->
  In (run (init_vec INITIAL true) (bs ++ "#"%char :: l)) hashS.
Proof.
  intros Hb Hl. rewrite run_app.
  change (run (run (init_vec INITIAL true) bs) ("#"%char :: l))
    with (run (dv "#"%char (run (init_vec INITIAL true) bs)) l).
  apply (closed_ok not_nl); [exact cls_not_nl | fin | apply dv_known, init_run_known | | exact Hl].
  apply (step_check_ok (is 35) blankS); [apply cls_is; fin | fin | apply init_run_known | | reflexivity].
  apply (closed_ok blank); [exact cls_blank | fin | apply init_known | | exact Hb].
  apply mem_vec_in; fin.
Qed.

Lemma takes_hash bs l rest :
  forallb blank bs = true -> no_newline l = true ->
  takes INITIAL true (bs ++ "#"%char :: l) (NL :: rest) (rule_at 6).
Proof.
  intros Hb Hl. set (x := bs ++ "#"%char :: l).
  assert (Hin : In (run (init_vec INITIAL true) (x ++ [NL])) hashE).
  { rewrite run_app. apply (step_check_ok (is 10) hashS);
      [apply cls_is; fin | fin | apply init_run_known | apply hash_run; auto | reflexivity]. }
  apply takes_trail; [unfold x; destruct bs; discriminate | apply rule_at_in; fin | fin | discriminate
      | fin | fin | |].
  - apply (first_null_in hashE); [fin | exact Hin].
  - apply (dead_noext hashE); [fin | apply init_run_known | exact Hin].
Qed.

Lemma tokens_hash_line bs l rest :
  forallb blank bs = true -> no_newline l = true ->
  tokens_from INITIAL true ((bs ++ "#"%char :: l) ++ NL :: rest) = tokens_from INITIAL true rest.
Proof.
  intros Hb Hl. rewrite (takes_step _ _ _ _ _ (takes_hash bs l rest Hb Hl)).
  change (rtok (rule_at 6) (bs ++ "#"%char :: l)) with (@nil token).
  change (next_sc (rule_at 6) INITIAL) with INITIAL. rewrite prepend_nil.
  apply tokens_newline.
Qed.

(** ** Blanks *)

Definition hash_line (l : bytes) : Prop :=
  exists m r, l = "#"%char :: m ++ NL :: r /\ no_newline m = true.

Lemma split_newline l :
  no_newline l = true \/ exists m r, l = m ++ NL :: r /\ no_newline m = true.
Proof.
  induction l as [|c l IH]; [left; reflexivity|].
  unfold no_newline. cbn. destruct (not_nl c) eqn:E.
  - destruct IH as [H|(m & r & -> & H)].
    + left. exact H.
    + right. exists (c :: m), r. split; auto. cbn. rewrite E. auto.
  - right. exists [], l. split; auto. unfold not_nl in E. apply negb_false_iff in E.
    apply is_char in E; subst; reflexivity.
Qed.

Lemma hash_line_dec l : hash_line l \/ ~ hash_line l.
Proof.
  destruct l as [|c l].
  - right. intros (m & r & E & _). discriminate.
  - destruct (is 35 c) eqn:E.
    + apply is_char in E. subst c. destruct (split_newline l) as [H|(m & r & -> & H)].
      * right. intros (m & r & E & Hm). change (ascii_of_N 35) with "#"%char in E.
        injection E as ->. unfold no_newline in H. rewrite forallb_app in H.
        apply andb_true_iff in H as [_ H]. cbn in H. discriminate.
      * left. exists m, r. split; auto.
    + right. intros (m & r & Eq & _). injection Eq as -> _. discriminate.
Qed.

Definition bl8 : list vec := Eval vm_compute in
  explore_vec blank 999 (after blank init2) [].
Definition bl8h : list vec := Eval vm_compute in
  explore_vec not_nl 999 (after (is 35) bl8) [].
Definition blank_or_hash c := blank c || is 35 c.
Lemma cls_boh : cls_inv blank_or_hash. Proof. apply cls_check_ok; fin. Qed.

(** After blanks, only a complete # line could extend the match. *)
Lemma blank_noext v rest :
  In v bl8 -> vknown v -> starts blank rest = false -> ~ hash_line rest ->
  forall p q, rest = p ++ q -> p <> [] -> first_null (run v p) = 0.
Proof.
  intros Hin Hv Hs Hh p q E Hp. destruct p as [|c p]; [congruence|]. clear Hp.
  rewrite E in Hs. cbn in Hs. change (run v (c :: p)) with (run (dv c v) p).
  destruct (is 35 c) eqn:Ec.
  - assert (Hno : no_newline p = true).
    { destruct (split_newline p) as [H|(m & r & -> & H)]; auto. exfalso. apply Hh.
      exists m, (r ++ q). split; auto. rewrite E. apply is_char in Ec. subst c.
      cbn. rewrite <- app_assoc. reflexivity. }
    apply (first_null_in bl8h); [fin|].
    apply (closed_ok not_nl); [exact cls_not_nl | fin | apply dv_known; auto | | exact Hno].
    apply (step_check_ok (is 35) bl8); [apply cls_is; fin | fin | auto | auto | auto].
  - apply run_dead. apply (dead_check_ok blank_or_hash bl8); [exact cls_boh | fin | auto | auto |].
    unfold blank_or_hash. rewrite Hs, Ec. reflexivity.
Qed.

Lemma takes_blanks bol bs rest :
  bs <> [] -> forallb blank bs = true -> starts blank rest = false -> ~ (bol = true /\ hash_line rest) ->
  takes INITIAL bol bs rest (rule_at 8).
Proof.
  intros Hne Hb Hs Hh. destruct bs as [|b bs]; [congruence|].
  cbn in Hb. apply andb_true_iff in Hb as [Hb0 Hb].
  assert (Hin : In (run (init_vec INITIAL bol) (b :: bs)) bl8).
  { change (run (init_vec INITIAL bol) (b :: bs)) with (run (dv b (init_vec INITIAL bol)) bs).
    apply (closed_ok blank); [exact cls_blank | fin | apply dv_known, init_known | | exact Hb].
    apply (step_check_ok blank init2); [exact cls_blank | fin | apply init_known | apply init2_in | exact Hb0]. }
  apply takes_rule; [discriminate | apply rule_at_in; fin | fin | discriminate
      | destruct bol; fin | fin | |].
  - apply (first_null_in bl8); [fin | exact Hin].
  - destruct bol.
    + apply blank_noext; auto using init_run_known.
    + (* without the # rule the run is the single blank rule, dead on anything else *)
      intros p q E Hp. destruct p as [|c p]; [congruence|]. rewrite E in Hs. cbn in Hs.
      set (S0 := explore_vec blank 999 (after blank [init_vec INITIAL false]) []).
      assert (Hin0 : In (run (init_vec INITIAL false) (b :: bs)) S0).
      { change (run (init_vec INITIAL false) (b :: bs)) with (run (dv b (init_vec INITIAL false)) bs).
        apply (closed_ok blank); [exact cls_blank | fin | apply dv_known, init_known | | exact Hb].
        apply (step_check_ok blank [init_vec INITIAL false]);
          [exact cls_blank | fin | apply init_known | left; reflexivity | exact Hb0]. }
      change (run (run (init_vec INITIAL false) (b :: bs)) (c :: p))
        with (run (dv c (run (init_vec INITIAL false) (b :: bs))) p).
      apply run_dead. apply (dead_check_ok blank S0); [exact cls_blank | fin | apply init_run_known | exact Hin0 | exact Hs].
Qed.

(** When no # line can start here, being at the beginning of a line is irrelevant. *)
Lemma takes_bol_eq cs :
  best (init_vec INITIAL true) cs 0 None = best (init_vec INITIAL false) cs 0 None ->
  tokens_from INITIAL true cs = tokens_from INITIAL false cs.
Proof.
  intros Hb. destruct cs as [|c cs']; [reflexivity|]. set (cs := c :: cs') in *.
  destruct (best_spec cs (init_vec INITIAL false) 0 None (init_sorted INITIAL false))
    as [[_ Hno]|(a & n & H1 & H2 & H3)].
  { destruct (default_matches INITIAL false cs ltac:(discriminate)) as (a & Ha).
    exfalso; eapply Hno; eauto. }
  pose proof H2 as Hvm. apply vmatches_init in H2 as (r & Hr & (Hin & Hact & Hlen & Hlang)).
  destruct (rule_facts r Hin) as [Ht Hmin].
  pose proof (min_len_ok _ _ Hlang) as Hml. rewrite firstn_length_le in Hml by auto.
  set (m := (n - r_trail r)%nat).
  assert (Hl : length (firstn m cs) = m) by (apply firstn_length_le; unfold m; lia).
  assert (T1 : takes INITIAL false (firstn m cs) (skipn m cs) r).
  { split; [intros E; rewrite E in Hl; cbn in Hl; unfold m in *; lia|].
    split; auto. split; auto. rewrite firstn_skipn, H1, Hl, Hr. unfold m. f_equal. f_equal. lia. }
  assert (T2 : takes INITIAL true (firstn m cs) (skipn m cs) r).
  { destruct T1 as (A & B & C & D). split; auto. split; auto. split.
    - unfold active in *. destruct (r_sc r); auto. rewrite orb_true_r; auto.
    - rewrite firstn_skipn in *. rewrite Hb; auto. }
  pose proof (takes_step _ _ _ _ _ T1) as E1. pose proof (takes_step _ _ _ _ _ T2) as E2.
  rewrite firstn_skipn in E1, E2. rewrite E1, E2. reflexivity.
Qed.

Definition bol_check (u v : vec) : bool :=
  forallb (fun kc => blank_or_hash (snd kc) || vec_eqb (dv (snd kc) u) (dv (snd kc) v)) reps.

Lemma bol_check_ok u v c : vknown u -> vknown v -> bol_check u v = true ->
  blank_or_hash c = false -> dv c u = dv c v.
Proof.
  intros Hu Hv H Hc. destruct (class_rep c) as (k & Hk & Hr & Hsame).
  rewrite (dv_same c (repf k) u Hu Hsame), (dv_same c (repf k) v Hv Hsame).
  unfold bol_check in H. rewrite forallb_forall in H. specialize (H _ Hr). cbn [snd] in H.
  rewrite <- (cls_boh c k Hk), Hc in H. cbn [orb] in H. apply vec_eqb_eq; auto.
Qed.

Lemma bol_check_true : bol_check (init_vec INITIAL true) (init_vec INITIAL false) = true.
Proof. fin. Qed.

Lemma bol_same c : blank_or_hash c = false ->
  dv c (init_vec INITIAL true) = dv c (init_vec INITIAL false).
Proof.
  intros Hc. exact (bol_check_ok _ _ c (init_known _ _) (init_known _ _) bol_check_true Hc).
Qed.

Definition hash1 : list vec := Eval vm_compute in after (is 35) init2.
Definition hash2 : list vec := Eval vm_compute in explore_vec not_nl 999 (after not_nl hash1) [].

Lemma takes_lone_hash bol l :
  bol = false \/ no_newline l = true ->
  takes INITIAL bol ["#"%char] l (rule_at 37).
Proof.
  intros Hl. assert (Hin : In (run (init_vec INITIAL bol) ["#"%char]) hash1).
  { apply (step_check_ok (is 35) init2); [apply cls_is; fin | fin | apply init_known | apply init2_in | reflexivity]. }
  apply takes_rule; [discriminate | apply rule_at_in; fin | fin | discriminate
      | destruct bol; fin | fin | |].
  - apply (first_null_in hash1); [fin | exact Hin].
  - destruct Hl as [->|Hl].
    + apply (dead_noext [run (init_vec INITIAL false) ["#"%char]]); [fin | apply init_run_known | left; reflexivity].
    + intros p q E Hp. destruct p as [|c p]; [congruence|].
      rewrite E in Hl. unfold no_newline in Hl. rewrite forallb_app in Hl.
      apply andb_true_iff in Hl as [Hl _]. cbn in Hl. apply andb_true_iff in Hl as [Hc Hl].
      change (run (run (init_vec INITIAL bol) ["#"%char]) (c :: p))
        with (run (dv c (run (init_vec INITIAL bol) ["#"%char])) p).
      apply (first_null_in hash2); [fin|].
      apply (closed_ok not_nl); [exact cls_not_nl | fin | apply dv_known, init_run_known | | exact Hl].
      apply (step_check_ok not_nl hash1); [exact cls_not_nl | fin | apply init_run_known | exact Hin | exact Hc].
Qed.

Lemma bol_irrelevant cs :
  starts blank cs = false -> ~ hash_line cs ->
  tokens_from INITIAL true cs = tokens_from INITIAL false cs.
Proof.
  intros Hs Hh. destruct cs as [|c cs]; [reflexivity|]. cbn in Hs.
  destruct (is 35 c) eqn:Ec.
  - apply is_char in Ec. subst c. change (ascii_of_N 35) with "#"%char in *.
    assert (Hno : no_newline cs = true).
    { destruct (split_newline cs) as [H|(m & r & -> & H)]; auto. exfalso. apply Hh. exists m, r; auto. }
    change ("#"%char :: cs) with (["#"%char] ++ cs).
    rewrite (takes_step _ _ _ _ _ (takes_lone_hash true cs (or_intror Hno))).
    rewrite (takes_step _ _ _ _ _ (takes_lone_hash false cs (or_intror Hno))). reflexivity.
  - apply takes_bol_eq. cbn [best].
    rewrite bol_same by (unfold blank_or_hash; rewrite Hs, Ec; reflexivity).
    replace (first_null (init_vec INITIAL true)) with 0 by fin.
    replace (first_null (init_vec INITIAL false)) with 0 by fin. reflexivity.
Qed.

Lemma span_blank l : exists bs r, l = bs ++ r /\ forallb blank bs = true /\ starts blank r = false.
Proof.
  induction l as [|c l (bs & r & -> & H1 & H2)].
  - exists [], []. auto.
  - destruct (blank c) eqn:E.
    + exists (c :: bs), r. cbn. rewrite E. auto.
    + exists [], (c :: bs ++ r). auto.
Qed.

Lemma blank_no_newline bs : forallb blank bs = true -> no_newline bs = true.
Proof.
  unfold no_newline. intros H. rewrite forallb_forall in *. intros c Hc. specialize (H c Hc).
  unfold blank, not_nl, is in *. destruct (N_of_ascii c =? 10) eqn:E; auto.
  apply N.eqb_eq in E. rewrite E in H. discriminate.
Qed.

Lemma tokens_blanks8 bol bs r :
  bs <> [] -> forallb blank bs = true -> starts blank r = false -> ~ (bol = true /\ hash_line r) ->
  tokens_from INITIAL bol (bs ++ r) = tokens_from INITIAL false r.
Proof.
  intros Hne Hb Hs Hh. rewrite (takes_step _ _ _ _ _ (takes_blanks bol bs r Hne Hb Hs Hh)).
  change (rtok (rule_at 8) bs) with (@nil token).
  change (next_sc (rule_at 8) INITIAL) with INITIAL.
  rewrite prepend_nil, no_newline_ends; auto using blank_no_newline.
Qed.

(** A blank never changes the tokens. *)
Theorem tokens_blank bol b rest :
  blank b = true -> tokens_from INITIAL bol (b :: rest) = tokens_from INITIAL bol rest.
Proof.
  intros Hb. destruct (span_blank rest) as (bs & r & -> & Hbs & Hr).
  assert (Hbb : forallb blank (b :: bs) = true) by (cbn; rewrite Hb; auto).
  assert (Hd : (bol = true /\ hash_line r) \/ ~ (bol = true /\ hash_line r)).
  { destruct bol; [|right; intros [H _]; discriminate].
    destruct (hash_line_dec r); [left; auto | right; tauto]. }
  destruct Hd as [[-> (m & r' & -> & Hm)]|Hn].
  - pose proof (tokens_hash_line (b :: bs) m r' Hbb Hm) as E1.
    pose proof (tokens_hash_line bs m r' Hbs Hm) as E2.
    rewrite <- !app_assoc in E1, E2. exact (eq_trans E1 (eq_sym E2)).
  - change (b :: bs ++ r) with ((b :: bs) ++ r).
    rewrite (tokens_blanks8 bol (b :: bs) r) by (auto; discriminate).
    destruct bs as [|b' bs].
    + cbn. destruct bol; auto. symmetry. apply bol_irrelevant; auto.
    + rewrite (tokens_blanks8 bol (b' :: bs) r); auto. discriminate.
Qed.
