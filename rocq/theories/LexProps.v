(** What the scanner does on identifiers, blanks, comments, strings and foreign
    bytes (C04-C08). *)
From Coq Require Import String Ascii NArith Arith List Bool Lia.
From Verif Require Import Base Regex LexRules FlexTables Flex LexCorrect LexWhole LexLoc LexStep.
Import ListNotations.
Local Open Scope N_scope.

(** ** Specification vocabulary *)

Definition between (a b : N) (c : ascii) : bool := (a <=? N_of_ascii c) && (N_of_ascii c <=? b).
Definition is (n : N) (c : ascii) : bool := N_of_ascii c =? n.
Definition ident_start (c : ascii) : bool := between 97 122 c || between 65 90 c || is 95 c.
Definition ident_char (c : ascii) : bool := ident_start c || between 48 57 c.
Definition blank (c : ascii) : bool := is 32 c || is 9 c.
Definition not_nl (c : ascii) : bool := negb (is 10 c).

Definition identifier (w : bytes) : Prop :=
  match w with
  | [] => False
  | c :: w' => ident_start c = true /\ forallb ident_char w' = true
  end.

(** The reserved words (struct_lex.l:113-171) and their token kinds. *)
Definition reserved : list (string * N) := [
  ("enum", 10); ("class", 11); ("struct", 12); ("int", 13); ("short", 14); ("long", 15);
  ("unsigned", 16); ("float", 17); ("double", 18); ("bool", 19); ("true", 20); ("false", 21)
  ]%string.

Definition word_token (w : bytes) : token :=
  let s := string_of_list_ascii w in
  match find (fun p => String.eqb (fst p) s) reserved with
  | Some (_, k) => Tok k None
  | None => Tok 24 (Some s)
  end.

(** [rest] cannot make a longer word or a qualified name out of what precedes it. *)
Definition ends_word (rest : bytes) : Prop :=
  match rest with
  | [] => True
  | c :: rest' =>
      ident_char c = false /\
      (forall d rest'', rest = ":"%char :: ":"%char :: d :: rest'' -> ident_start d = false)
  end.

(** ** Identifiers *)

Definition init2 : list vec := [init_vec INITIAL false; init_vec INITIAL true].
Lemma init2_in bol : In (init_vec INITIAL bol) init2.
Proof. destruct bol; [right; left | left]; reflexivity. Qed.

Definition colon := is 58.
Definition idS : list vec := Eval vm_compute in explore_vec ident_char 4999 (after ident_start init2) [].
Definition idT1 : list vec := Eval vm_compute in after colon idS.
Definition idT2 : list vec := Eval vm_compute in after colon idT1.

Lemma cls_ident_start : cls_inv ident_start. Proof. apply cls_check_ok; vm_compute; reflexivity. Qed.
Lemma cls_ident_char : cls_inv ident_char. Proof. apply cls_check_ok; vm_compute; reflexivity. Qed.
Lemma cls_colon : cls_inv colon. Proof. apply cls_check_ok; vm_compute; reflexivity. Qed.
Definition ident_or_colon c := ident_char c || colon c.
Lemma cls_ioc : cls_inv ident_or_colon. Proof. apply cls_check_ok; vm_compute; reflexivity. Qed.
Lemma cls_blank : cls_inv blank. Proof. apply cls_check_ok; vm_compute; reflexivity. Qed.
Lemma cls_not_nl : cls_inv not_nl. Proof. apply cls_check_ok; vm_compute; reflexivity. Qed.

Lemma id_step0 : step_check ident_start init2 idS = true. Proof. vm_compute. reflexivity. Qed.
Lemma id_step1 : step_check ident_char idS idS = true. Proof. vm_compute. reflexivity. Qed.
Lemma id_dead : dead_check ident_or_colon idS = true. Proof. vm_compute. reflexivity. Qed.
Lemma id_colon1 : step_check colon idS idT1 = true. Proof. vm_compute. reflexivity. Qed.
Lemma id_dead1 : dead_check colon idT1 = true. Proof. vm_compute. reflexivity. Qed.
Lemma id_colon2 : step_check colon idT1 idT2 = true. Proof. vm_compute. reflexivity. Qed.
Lemma id_dead2 : dead_check ident_start idT2 = true. Proof. vm_compute. reflexivity. Qed.

Definition word_rules : list N := [16;17;18;19;20;21;22;23;24;25;26;27;30].
Lemma id_null : forallb (fun v => existsb (N.eqb (first_null v)) word_rules) idS = true.
Proof. vm_compute. reflexivity. Qed.
Lemma id_null1 : forallb (fun v => first_null v =? 0) idT1 = true. Proof. vm_compute. reflexivity. Qed.
Lemma id_null2 : forallb (fun v => first_null v =? 0) idT2 = true. Proof. vm_compute. reflexivity. Qed.

Lemma null_in (S : list vec) v : forallb (fun v => first_null v =? 0) S = true -> In v S -> first_null v = 0.
Proof. intros H Hin. rewrite forallb_forall in H. apply N.eqb_eq; auto. Qed.

Lemma is_char n c : is n c = true -> c = ascii_of_N n.
Proof. unfold is. intros H. apply N.eqb_eq in H. rewrite <- (ascii_N_embedding c), H. reflexivity. Qed.

Lemma id_run bol w : identifier w -> In (run (init_vec INITIAL bol) w) idS.
Proof.
  destruct w as [|c w]; [intros []|]. intros [H1 H2].
  change (run (init_vec INITIAL bol) (c :: w)) with (run (dv c (init_vec INITIAL bol)) w).
  apply (closed_ok ident_char);
    [exact cls_ident_char | exact id_step1 | apply dv_known, init_known | | exact H2].
  apply (step_check_ok ident_start init2);
    [exact cls_ident_start | exact id_step0 | apply init_known | apply init2_in | exact H1].
Qed.

Lemma id_noext v rest :
  In v idS -> vknown v -> ends_word rest ->
  forall p q, rest = p ++ q -> p <> [] -> first_null (run v p) = 0.
Proof.
  intros Hin Hv He p q E Hp. destruct p as [|c p]; [congruence|]. clear Hp.
  rewrite E in He. cbn [app] in He. destruct He as [Hc Hd].
  change (run v (c :: p)) with (run (dv c v) p).
  destruct (colon c) eqn:Ec.
  2:{ apply run_dead. apply (dead_check_ok ident_or_colon idS); auto using cls_ioc, id_dead.
      unfold ident_or_colon. rewrite Hc, Ec. reflexivity. }
  pose proof (step_check_ok colon idS idT1 v c cls_colon id_colon1 Hv Hin Ec) as H1.
  destruct p as [|c1 p]; [apply (null_in idT1); auto using id_null1|].
  change (run (dv c v) (c1 :: p)) with (run (dv c1 (dv c v)) p).
  destruct (colon c1) eqn:Ec1.
  2:{ apply run_dead. apply (dead_check_ok colon idT1); auto using cls_colon, id_dead1, dv_known. }
  pose proof (step_check_ok colon idT1 idT2 _ c1 cls_colon id_colon2 (dv_known c v Hv) H1 Ec1) as H2.
  destruct p as [|d p]; [apply (null_in idT2); auto using id_null2|].
  change (run (dv c1 (dv c v)) (d :: p)) with (run (dv d (dv c1 (dv c v))) p).
  apply run_dead. apply (dead_check_ok ident_start idT2);
    [exact cls_ident_start | exact id_dead2 | apply dv_known, dv_known, Hv | exact H2 |].
  apply is_char in Ec, Ec1. subst c c1. apply (Hd d (p ++ q)). reflexivity.
Qed.

Lemma run_vmatches w : forall v a,
  vmatches v w a (length w) <-> exists r, In (a, r) (run v w) /\ nullable r = true.
Proof.
  induction w as [|c w IH]; intros v a; cbn [length].
  - apply vmatches_0.
  - rewrite vmatches_cons, IH. reflexivity.
Qed.

Lemma run_sorted w : forall v, sortedv v -> sortedv (run v w).
Proof.
  induction w as [|c w IH]; intros v Hv; [exact Hv|]. apply (IH (dv c v)). apply sortedv_dv; auto.
Qed.

Lemma lit_lang s t : lang (lit s) t <-> t = list_ascii_of_string s.
Proof.
  assert (H1 : forall c t, lang (one (N_of_ascii c)) t <-> t = [c]).
  { intros c u. split.
    - inversion 1 as [|b d Hd| | | | |]; subst. f_equal.
      unfold bset_mem, set_of, in_ranges in Hd. cbn [bs_neg bs_ranges existsb fst snd] in Hd.
      destruct ((N_of_ascii c <=? N_of_ascii d) && (N_of_ascii d <=? N_of_ascii c)) eqn:E;
        [|discriminate].
      apply andb_true_iff in E as [E1 E2]. apply N.leb_le in E1, E2.
      rewrite <- (ascii_N_embedding c), <- (ascii_N_embedding d). f_equal. lia.
    - intros ->. constructor. unfold bset_mem, set_of, in_ranges.
      cbn [bs_neg bs_ranges existsb fst snd]. rewrite N.leb_refl. reflexivity. }
  revert t; induction s as [|c s IH]; intros t.
  - cbn. apply lang_eps.
  - destruct s as [|c' s].
    + cbn [lit list_ascii_of_string]. apply H1.
    + change (lit (String c (String c' s))) with (Seq (one (N_of_ascii c)) (lit (String c' s))).
      rewrite lang_seq. split.
      * intros (u & v & -> & Hu & Hv). apply H1 in Hu. apply IH in Hv. subst. reflexivity.
      * intros ->. exists [c], (list_ascii_of_string (String c' s)). repeat split.
        -- apply H1; auto.
        -- apply IH; auto.
Qed.

(** Keyword rules: number, word, kind. *)
Definition kw_rules : list (N * string) := [
  (16, "enum"); (17, "class"); (18, "struct"); (19, "int"); (20, "short"); (21, "long");
  (22, "unsigned"); (23, "float"); (24, "double"); (25, "bool"); (26, "true"); (27, "false")
  ]%string.

Lemma kw_in n s : In (n, s) kw_rules -> In (R n (lit s)) rules.
Proof.
  intros H. unfold kw_rules in H. cbn [In] in H. unfold rules. cbn [In].
  repeat (destruct H as [H|H]; [injection H as <- <-; tauto|]). destruct H.
Qed.

Lemma kw_token n s : In (n, s) kw_rules ->
  rtok (R n (lit s)) (list_ascii_of_string s) = [word_token (list_ascii_of_string s)].
Proof.
  intros H. unfold kw_rules in H. cbn [In] in H.
  repeat (destruct H as [H|H]; [injection H as <- <-; reflexivity|]). destruct H.
Qed.

Lemma reserved_kw s k : In (s, k) reserved -> exists n, In (n, s) kw_rules.
Proof.
  intros H. unfold reserved in H. cbn [In] in H.
  repeat (destruct H as [H|H]; [injection H as <- <-; eexists; unfold kw_rules; cbn [In]; tauto|]).
  destruct H.
Qed.

Lemma takes_intro sc bol x rest r :
  x <> [] -> In r rules -> active sc bol r = true -> r_trail r = 0%nat ->
  first_null (run (init_vec sc bol) x) = r_num r -> r_num r <> 0 ->
  (forall p q, rest = p ++ q -> p <> [] -> first_null (run (run (init_vec sc bol) x) p) = 0) ->
  takes sc bol x rest r.
Proof.
  intros Hx Hin Hact Htr Hf Hn He. split; auto. split; auto. split; auto.
  rewrite best_word; auto; rewrite Hf; auto. rewrite Htr, Nat.add_0_r. reflexivity.
Qed.

Theorem word_scanned bol w rest :
  identifier w -> ends_word rest ->
  tokens_from INITIAL bol (w ++ rest) = prepend [word_token w] (tokens_from INITIAL false rest).
Proof.
  intros Hw Hr.
  pose proof (id_run bol w Hw) as Hin.
  pose proof (run_known w _ (init_known INITIAL bol)) as Hv.
  set (v := run (init_vec INITIAL bol) w) in *.
  assert (Hne : w <> []) by (destruct w; [destruct Hw | discriminate]).
  assert (Hnl : ends_nl w = false).
  { apply newlines_ends_nl. destruct w as [|c w']; [destruct Hw|]. destruct Hw as [H1 H2].
    assert (Hall : forallb ident_char (c :: w') = true).
    { cbn. unfold ident_char at 1. rewrite H1, H2. reflexivity. }
    clear - Hall. induction (c :: w') as [|d l IH]; cbn in *; auto.
    apply andb_true_iff in Hall as [Ha Hb]. rewrite IH by auto.
    destruct (N_of_ascii d =? 10) eqn:E; auto. apply N.eqb_eq in E.
    unfold ident_char, ident_start, between, is in Ha. rewrite E in Ha. discriminate. }
  pose proof id_null as Hnull. rewrite forallb_forall in Hnull. specialize (Hnull _ Hin).
  apply existsb_exists in Hnull as (a & Ha & Ea). apply N.eqb_eq in Ea.
  pose proof (run_sorted w _ (init_sorted INITIAL bol)) as Hsort. fold v in Hsort.
  destruct (first_null_spec v Hsort) as [[H0 _]|(H0 & (r & Hr1 & Hr2) & Hmin)].
  { exfalso. rewrite H0 in Ea. subst a. unfold word_rules in Ha. cbn [In] in Ha.
    repeat (destruct Ha as [Ha|Ha]; [discriminate|]). destruct Ha. }
  assert (Hlang : exists ru, r_num ru = a /\ rule_matches INITIAL bol w ru (length w)).
  { apply vmatches_init. apply run_vmatches. exists r. rewrite <- Ea. auto. }
  assert (Hkw : forall n s, In (n, s) kw_rules -> w = list_ascii_of_string s -> a <= n).
  { intros n s Hns Hws. rewrite <- Ea.
    assert (Hm : vmatches (init_vec INITIAL bol) w n (length w)).
    { apply vmatches_init. exists (R n (lit s)). split; auto. split; [apply kw_in; auto|].
      split; [destruct bol; reflexivity|]. split; auto. rewrite firstn_all.
      apply lit_lang; auto. }
    apply run_vmatches in Hm as (r0 & G1 & G2). eapply Hmin; eauto. }
  destruct Hlang as (ru & Hnum & Hm). destruct Hm as (Hru & Hact & _ & Hlang).
  rewrite firstn_all in Hlang.
  assert (Hact' : forall n0 s0, active INITIAL bol (R n0 s0) = true) by (intros; destruct bol; reflexivity).
  assert (Hcase : a = 30 \/ exists s, In (a, s) kw_rules).
  { unfold word_rules in Ha. cbn [In] in Ha.
    repeat (destruct Ha as [Ha|Ha];
            [subst a; (left; reflexivity) || (right; eexists; unfold kw_rules; cbn [In]; tauto)|]).
    destruct Ha. }
  destruct Hcase as [Ha30|(s & Hs)].
  - rewrite Ha30 in Hnum, Ea, Hkw.
    assert (Eru : ru = R 30 (plus ID)).
    { apply (rule_unique INITIAL bol);
        [exact Hru | unfold rules; cbn [In]; tauto | exact Hact | apply Hact' | exact Hnum]. }
    assert (Ht : takes INITIAL bol w rest ru).
    { subst ru. apply takes_intro; auto; try discriminate. apply id_noext; auto. }
    rewrite (takes_step _ _ _ _ _ Ht), Hnl. subst ru.
    replace (rtok (R 30 (plus ID)) w) with [word_token w].
    + reflexivity.
    + unfold word_token.
      destruct (find (fun p => String.eqb (fst p) (string_of_list_ascii w)) reserved)
        as [[s k]|] eqn:Ef.
      * exfalso. apply find_some in Ef as [F1 F2]. cbn [fst] in F2. apply String.eqb_eq in F2.
        destruct (reserved_kw s k F1) as (n & Hn).
        assert (w = list_ascii_of_string s)
          by (rewrite F2, list_ascii_of_string_of_list_ascii; auto).
        pose proof (Hkw n s Hn H) as Hle. unfold kw_rules in Hn. cbn [In] in Hn.
        repeat (destruct Hn as [Hn|Hn]; [injection Hn as <- _; lia|]). destruct Hn.
      * reflexivity.
  - assert (Eru : ru = R a (lit s)).
    { apply (rule_unique INITIAL bol);
        [exact Hru | apply kw_in; exact Hs | exact Hact | apply Hact' | exact Hnum]. }
    assert (Hws : w = list_ascii_of_string s) by (apply lit_lang; subst ru; auto).
    assert (Ht : takes INITIAL bol w rest ru).
    { subst ru. apply takes_intro; auto; try congruence. apply id_noext; auto. }
    rewrite (takes_step _ _ _ _ _ Ht), Hnl. subst ru. rewrite Hws at 1.
    rewrite (kw_token a s Hs), <- Hws.
    replace (next_sc (R a (lit s)) INITIAL) with INITIAL; auto.
    clear - Hs. unfold kw_rules in Hs. cbn [In] in Hs.
    repeat (destruct Hs as [Hs|Hs]; [injection Hs as <- <-; reflexivity|]). destruct Hs.
Qed.
