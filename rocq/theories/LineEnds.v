(** Line ends: a text whose lines end in CR LF is scanned like the text with LF. *)
From Coq Require Import String Ascii NArith Arith List Bool Lia.
From Verif Require Import Base Regex LexRules FlexTables Flex LexCorrect LexWhole LexLoc LexStep LexProps LexBlank LexMore.
Import ListNotations.
Local Open Scope N_scope.

Definition CR : ascii := ascii_of_N 13.
(** Every CR directly before a line end is taken away. *)
Fixpoint unix (cs : bytes) : bytes :=
  match cs with
  | [] => []
  | c :: r => if is 13 c && starts (is 10) r then unix r else c :: unix r
  end.

(** *** The first lexeme *)
Lemma first_lexeme sc bol cs ls a n : lexes sc bol cs ls -> cs <> [] -> best (init_vec sc bol) cs 0 None = Some (a, n) ->
  exists r x rest ls', r_num r = a /\ In r rules /\ active sc bol r = true /\ ls = (r, x) :: ls' /\ cs = x ++ rest /\ length x = (n - trail a)%nat /\ x <> [] /\
    lexes (next_sc r sc) (ends_nl x) rest ls'.
Proof.
  intros L N B. destruct L as [sc bol|sc bol cs r m x rest ls LF C LX XN L]; [congruence|]. exists r, x, rest, ls.
  assert (E : r_num r = a /\ m = n).
  { destruct (best_spec cs (init_vec sc bol) 0 None (init_sorted sc bol)) as [[H1 _]|(a' & k & H1 & H2 & H3)]; [congruence|].
    rewrite B in H1. injection H1 as -> ->. apply vmatches_init in H2 as (r' & <- & M).
    assert (LF' : longest_first sc bol cs r' k). { split; [exact M|]. intros r2 n2 M2. apply H3. apply vmatches_init. eauto. }
    destruct (longest_first_det _ _ _ _ _ _ _ LF LF') as [-> ->]. auto. }
  destruct E as [<- <-]. destruct LF as [(IN & AC & _) _]. destruct (rule_facts r IN) as [-> _]. auto 12.
Qed.

Lemma line_rules r bol : In r rules -> r_num r = 5 \/ r_num r = 6 -> active C_COMMENT bol r = false.
Proof.
  intros I N. assert (F : forallb (fun r => negb ((r_num r =? 5) || (r_num r =? 6)) || negb (active C_COMMENT bol r)) rules = true) by (destruct bol; vm_compute; reflexivity).
  rewrite forallb_forall in F. specialize (F r I). destruct N as [N|N]; rewrite N in F; cbn in F; now apply negb_true_iff in F.
Qed.

(** *** The vectors *)
Definition all_inits : list vec := init2 ++ initC.
Definition allV : list vec := Eval vm_compute in explore_vec always 9999 all_inits [].
Lemma cls_always : cls_inv always. Proof. intros c k _. reflexivity. Qed.
Lemma allV_closed : step_check always allV allV = true. Proof. vm_compute. reflexivity. Qed.
Lemma init_allV sc bol : In (init_vec sc bol) allV.
Proof. apply mem_vec_in. destruct sc, bol; vm_compute; reflexivity. Qed.
Lemma always_all w : forallb always w = true.
Proof. induction w; auto. Qed.
Lemma run_allV sc bol w : In (run (init_vec sc bol) w) allV.
Proof. apply (closed_ok always); auto using cls_always, allV_closed, init_known, init_allV, always_all. Qed.
(** No lexeme goes over a line end. *)
Lemma nl_stops : forallb (fun v => stopped (dv NL v)) allV = true. Proof. vm_compute. reflexivity. Qed.
(** What a CR before a line end does to the first lexeme, when some of it has been read. *)
Definition calm (v : vec) : bool :=
  (first_null (dv CR v) =? 0) && (first_null (dv NL (dv CR v)) =? first_null (dv NL v)) && existsb (N.eqb (first_null (dv NL v))) [0; 5; 6].
Definition not_cr (c : ascii) : bool := negb (is 13 c).
Lemma cls_not_cr : cls_inv not_cr. Proof. apply cls_check_ok; fin. Qed.
Definition calmV : list vec := Eval vm_compute in explore_vec always 9999 (after not_cr init2 ++ after always crS ++ after always initC) [].
Lemma calmV_closed : step_check always calmV calmV = true. Proof. vm_compute. reflexivity. Qed.
Lemma calmV_calm : forallb calm calmV = true. Proof. vm_compute. reflexivity. Qed.
Lemma calm_start : step_check not_cr init2 calmV = true. Proof. vm_compute. reflexivity. Qed.
Lemma calm_after_cr : step_check always crS calmV = true. Proof. vm_compute. reflexivity. Qed.
Lemma calm_comment : step_check always initC calmV = true. Proof. vm_compute. reflexivity. Qed.

Lemma calm_run v k : vknown v -> In v calmV -> In (run v k) calmV.
Proof. intros K I. exact (closed_ok always calmV k v cls_always calmV_closed K I (always_all k)). Qed.
Lemma calm_init bol c k : not_cr c = true -> In (run (init_vec INITIAL bol) (c :: k)) calmV.
Proof.
  intros N. rewrite run_cons. apply calm_run; [apply dv_known, init_known|]. exact (step_check_ok not_cr init2 calmV _ c cls_not_cr calm_start (init_known _ _) (init2_in bol) N).
Qed.
Lemma calm_in_comment bol c k : In (run (init_vec C_COMMENT bol) (c :: k)) calmV.
Proof.
  rewrite run_cons. apply calm_run; [apply dv_known, init_known|]. exact (step_check_ok always initC calmV _ c cls_always calm_comment (init_known _ _) (initC_in bol) eq_refl).
Qed.
Lemma calm_cr bol c k : In (run (init_vec INITIAL bol) (CR :: c :: k)) calmV.
Proof.
  rewrite !run_cons. apply calm_run; [apply dv_known, dv_known, init_known|].
  assert (C : In (dv CR (init_vec INITIAL bol)) crS).
  { refine (step_check_ok (is 13) init2 crS _ CR _ _ (init_known _ _) (init2_in bol) eq_refl); [apply cls_is; fin|fin]. }
  exact (step_check_ok always crS calmV _ c cls_always calm_after_cr (dv_known _ _ (init_known _ _)) C eq_refl).
Qed.
Definition keep_last (v : vec) (n : nat) (last : option (N * nat)) : option (N * nat) := if first_null v =? 0 then last else Some (first_null v, n).
Lemma best_nl v r n last : In v allV -> vknown v -> best v (NL :: r) n last = keep_last (dv NL v) (S n) (keep_last v n last).
Proof.
  intros I K. cbn [best]. rewrite best_stopped; [reflexivity|now apply dv_known|]. pose proof nl_stops as H. rewrite forallb_forall in H. now apply H.
Qed.
Definition before (m : nat) (last : option (N * nat)) : Prop := match last with Some (_, j) => (j < m)%nat | None => True end.
Lemma best_cons v c r n last : best v (c :: r) n last = best (dv c v) r (S n) (keep_last v n last).
Proof. reflexivity. Qed.
Lemma best_two k : forall v n last, before n last -> exists last', before (n + length k) last' /\ forall t, best v (k ++ t) n last = best (run v k) t (n + length k) last'.
Proof.
  induction k as [|c k IH]; intros v n last B.
  - exists last. cbn [length]. rewrite Nat.add_0_r. auto.
  - destruct (IH (dv c v) (S n) (keep_last v n last)) as (last' & B' & H).
    + unfold keep_last. destruct (first_null v =? 0); cbn; [destruct last as [[? ?]|]; cbn in *; auto; lia|lia].
    + exists last'. cbn [length]. replace (n + S (length k))%nat with (S n + length k)%nat by lia. split; [exact B'|]. intros t. exact (H t).
Qed.
Lemma best_some sc bol cs : cs <> [] -> exists a n, best (init_vec sc bol) cs 0 None = Some (a, n) /\ (1 <= n)%nat.
Proof.
  intros N. destruct (default_matches sc bol cs N) as [a D]. destruct (best_spec cs (init_vec sc bol) 0 None (init_sorted sc bol)) as [[_ H]|(a' & k & H1 & _ & H3)]; [now apply H in D|].
  exists a', k. split; [exact H1|]. apply H3 in D. lia.
Qed.
(** The first lexeme depends on nothing after the first line end. *)
Lemma first_line sc bol l : exists a n, (1 <= n <= S (length l))%nat /\ forall r, best (init_vec sc bol) (l ++ NL :: r) 0 None = Some (a, n).
Proof.
  destruct (best_some sc bol (l ++ [NL])) as (a & n & B & P); [destruct l; discriminate|]. exists a, n.
  destruct (best_two l (init_vec sc bol) 0 None I) as (last & BF & H).
  assert (G : forall r, best (init_vec sc bol) (l ++ NL :: r) 0 None = Some (a, n)).
  { intros r. rewrite <- B, !H, !best_nl by auto using run_allV, init_run_known. reflexivity. }
  split; [|exact G]. rewrite H, best_nl in B by auto using run_allV, init_run_known. unfold keep_last in B. cbn [Nat.add] in *.
  destruct (first_null (dv NL _) =? 0); [|injection B as <- <-; lia]. destruct (first_null (run _ l) =? 0); [|injection B as <- <-; lia].
  rewrite B in BF. cbn in BF. lia.
Qed.
(** With a CR before the line end, when some of the line has been read. *)
Lemma calm_line sc bol k : In (run (init_vec sc bol) k) calmV ->
  (exists a n, (1 <= n <= length k)%nat /\ forall r, best (init_vec sc bol) (k ++ CR :: NL :: r) 0 None = Some (a, n) /\ best (init_vec sc bol) (k ++ NL :: r) 0 None = Some (a, n)) \/
  (exists a, (a = 5 \/ a = 6) /\ forall r, best (init_vec sc bol) (k ++ CR :: NL :: r) 0 None = Some (a, S (S (length k))) /\ best (init_vec sc bol) (k ++ NL :: r) 0 None = Some (a, S (length k))).
Proof.
  intros C. pose proof calmV_calm as F. rewrite forallb_forall in F. specialize (F _ C). unfold calm in F.
  apply andb_true_iff in F as [F F3]. apply andb_true_iff in F as [F1 F2]. apply N.eqb_eq in F1, F2.
  destruct (best_two k (init_vec sc bol) 0 None I) as (last & BF & H). set (v := run (init_vec sc bol) k) in *.
  assert (KV : vknown v) by apply init_run_known. assert (AV : In v allV) by apply run_allV.
  assert (AC : In (dv CR v) allV) by (change (dv CR v) with (run v [CR]); unfold v; rewrite <- run_app; apply run_allV).
  assert (X : forall r, best (init_vec sc bol) (k ++ NL :: r) 0 None = keep_last (dv NL v) (S (length k)) (keep_last v (length k) last)) by (intros; now rewrite H, best_nl).
  assert (Y : forall r, best (init_vec sc bol) (k ++ CR :: NL :: r) 0 None = keep_last (dv NL v) (S (S (length k))) (keep_last v (length k) last)).
  { intros. rewrite H. change (best v (CR :: NL :: r) (0 + length k) last) with (best (dv CR v) (NL :: r) (S (length k)) (keep_last v (length k) last)).
    rewrite best_nl by (auto using dv_known). unfold keep_last. rewrite F1, F2. reflexivity. }
  apply existsb_exists in F3 as (a & IA & EA). apply N.eqb_eq in EA. unfold keep_last in *. rewrite EA in *. clear H. 
  destruct IA as [<-|[<-|[<-|[]]]]; cbn [N.eqb] in *.
  - left. destruct (best_some sc bol (k ++ [NL])) as (a & n & B & P); [destruct k; discriminate|]. exists a, n.
    rewrite (X []) in B. cbn in B. split; [|intros r; rewrite X, Y; auto]. destruct (first_null v =? 0); [|injection B as <- <-; lia].
    rewrite B in BF. cbn in BF. lia.
  - right. exists 5. split; [auto|]. intros r. rewrite X, Y. auto.
  - right. exists 6. split; [auto|]. intros r. rewrite X, Y. auto.
Qed.

(** *** Line ends at the beginning of a lexeme *)
Lemma first_nl bol r : best (init_vec INITIAL bol) (NL :: r) 0 None = Some (7, 1%nat).
Proof. rewrite (best_nl _ r _ _ (init_allV _ bol) (init_known _ bol)). destruct bol; vm_compute; reflexivity. Qed.
Lemma run_one v c : dv c v = run v [c]. Proof. reflexivity. Qed.
Lemma cr_known sc bol : vknown (dv CR (init_vec sc bol)). Proof. apply dv_known, init_known. Qed.
Lemma cr_allV sc bol : In (dv CR (init_vec sc bol)) allV. Proof. rewrite run_one. apply run_allV. Qed.
Lemma first_crnl bol r : best (init_vec INITIAL bol) (CR :: NL :: r) 0 None = Some (7, 2%nat).
Proof. rewrite best_cons, (best_nl _ r _ _ (cr_allV _ bol) (cr_known _ bol)). destruct bol; vm_compute; reflexivity. Qed.
Lemma first_crcr bol r : best (init_vec INITIAL bol) (CR :: CR :: r) 0 None = Some (37, 1%nat).
Proof.
  rewrite !best_cons. replace (dv CR (dv CR (init_vec INITIAL bol))) with (@nil (N * re)) by (destruct bol; vm_compute; reflexivity).
  rewrite best_nil. destruct bol; vm_compute; reflexivity.
Qed.
Lemma comment_nl bol r : best (init_vec C_COMMENT bol) (NL :: r) 0 None = Some (2, 1%nat).
Proof. rewrite (best_nl _ r _ _ (init_allV _ bol) (init_known _ bol)). destruct bol; vm_compute; reflexivity. Qed.
Lemma comment_crnl bol r : best (init_vec C_COMMENT bol) (CR :: NL :: r) 0 None = Some (3, 1%nat).
Proof. rewrite best_cons, (best_nl _ r _ _ (cr_allV _ bol) (cr_known _ bol)). destruct bol; vm_compute; reflexivity. Qed.

(** *** The lexemes of a text and of the text with LF *)
Inductive lsim : list (rule * bytes) -> list (rule * bytes) -> Prop :=
| sim_nil : lsim [] []
| sim_same r r' x ls lu : In r rules -> r_num r = r_num r' -> lsim ls lu -> lsim ((r, x) :: ls) ((r', x) :: lu)
| sim_eol r r' ls lu : r_num r = 7 -> r_num r' = 7 -> lsim ls lu -> lsim ((r, [CR; NL]) :: ls) ((r', [NL]) :: lu)
| sim_line r r' e e' x ls lu : r_num r = 5 \/ r_num r = 6 -> r_num r' = r_num r -> r_num e = 7 -> r_num e' = 7 -> lsim ls lu ->
    lsim ((r, x ++ [CR]) :: (e, [NL]) :: ls) ((r', x) :: (e', [NL]) :: lu)
| sim_echo r e e' ls lu : r_num r = 37 -> r_num e = 7 -> r_num e' = 7 -> lsim ls lu -> lsim ((r, [CR]) :: (e, [CR; NL]) :: ls) ((e', [CR; NL]) :: lu)
| sim_comment r e e' ls lu : r_num r = 3 -> r_num e = 2 -> r_num e' = 2 -> lsim ls lu -> lsim ((r, [CR]) :: (e, [NL]) :: ls) ((e', [NL]) :: lu).

Lemma unix_plain l : no_newline l = true -> unix l = l.
Proof.
  induction l as [|c l IH]; [reflexivity|]. unfold no_newline. cbn [forallb unix]. intros H. apply andb_true_iff in H as [H1 H2].
  replace (starts (is 10) l) with false; [rewrite andb_false_r; f_equal; now apply IH|].
  destruct l as [|d l]; [reflexivity|]. cbn in *. unfold not_nl in H2. now destruct (is 10 d).
Qed.
Definition ends_cr (l : bytes) : bool := match rev l with c :: _ => is 13 c | [] => false end.
Lemma ends_cr_cons c d l : ends_cr (c :: d :: l) = ends_cr (d :: l).
Proof. unfold ends_cr. cbn [rev]. destruct (rev l) as [|e k] eqn:E; reflexivity. Qed.
Lemma unix_line l r : no_newline l = true -> ends_cr l = false -> unix (l ++ NL :: r) = l ++ NL :: unix r.
Proof.
  induction l as [|c l IH]; intros H E; [reflexivity|]. unfold no_newline in H. cbn [forallb] in H. apply andb_true_iff in H as [H1 H2]. cbn [app unix].
  destruct l as [|d l].
  - unfold ends_cr in E. cbn in E. rewrite E. cbn [andb]. reflexivity.
  - rewrite ends_cr_cons in E. cbn [app starts]. pose proof H2 as H4. cbn [forallb] in H2. apply andb_true_iff in H2 as [H2 H3]. unfold not_nl in H2. apply negb_true_iff in H2. rewrite H2, andb_false_r.
    f_equal. apply IH; [exact H4|exact E].
Qed.
Lemma unix_crline k r : no_newline k = true -> unix (k ++ CR :: NL :: r) = k ++ NL :: unix r.
Proof.
  induction k as [|c k IH]; intros H; [reflexivity|]. unfold no_newline in H. cbn [forallb] in H. apply andb_true_iff in H as [H1 H2]. cbn [app unix].
  replace (starts (is 10) (k ++ CR :: NL :: r)) with false; [rewrite andb_false_r; f_equal; now apply IH|].
  destruct k as [|d k]; [reflexivity|]. cbn in *. unfold not_nl in H2. now destruct (is 10 d).
Qed.
Lemma ends_cr_split l : ends_cr l = true -> exists k, l = k ++ [CR].
Proof.
  unfold ends_cr. destruct (rev l) as [|c m] eqn:E; [discriminate|]. intros H. apply is_char in H as ->. exists (rev m). rewrite <- (rev_involutive l), E. reflexivity.
Qed.
Lemma no_newline_app a b : no_newline (a ++ b) = no_newline a && no_newline b.
Proof. unfold no_newline. apply forallb_app. Qed.
Lemma ends_cr_app a b : b <> [] -> ends_cr (a ++ b) = ends_cr b.
Proof. intros N. unfold ends_cr. rewrite rev_app_distr. destruct (rev b) eqn:E; [|reflexivity]. destruct b; [congruence|]. apply (f_equal (@length _)) in E. rewrite rev_length in E. discriminate. Qed.

Lemma cut_at {A} (l : list A) n t : (n <= length l)%nat -> exists x y, l = x ++ y /\ length x = n /\ l ++ t = x ++ (y ++ t).
Proof. intros L. exists (firstn n l), (skipn n l). rewrite app_assoc, firstn_skipn, firstn_length_le by exact L. auto. Qed.
Lemma sim_refl sc bol cs ls : lexes sc bol cs ls -> lsim ls ls.
Proof. induction 1 as [|sc bol cs r n x rest ls LF C LX XN L IH]; [constructor|]. destruct LF as [(I & _) _]. now constructor. Qed.
Lemma next_sc_num r r' sc : r_num r = r_num r' -> next_sc r sc = next_sc r' sc.
Proof. unfold next_sc. now intros ->. Qed.

Theorem unix_lexes m : forall cs sc bol ls lu, (length cs <= m)%nat -> lexes sc bol cs ls -> lexes sc bol (unix cs) lu -> lsim ls lu.
Proof.
  induction m as [|m IH]; intros cs sc bol ls lu LE L U.
  { destruct cs; [|cbn in LE; lia]. cbn in U. rewrite (lexes_det _ _ _ _ U _ L). exact (sim_refl _ _ _ _ L). }
  destruct (split_newline cs) as [NN|(l & r & -> & NN)].
  { rewrite (unix_plain _ NN) in U. rewrite (lexes_det _ _ _ _ U _ L). exact (sim_refl _ _ _ _ L). }
  assert (NE : l ++ NL :: r <> []) by (destruct l; discriminate).
  (* the same first lexeme on both sides *)
  assert (SAME : forall a n x rest, l ++ NL :: r = x ++ rest -> unix (l ++ NL :: r) = x ++ unix rest -> length x = (n - trail a)%nat ->
    best (init_vec sc bol) (l ++ NL :: r) 0 None = Some (a, n) -> best (init_vec sc bol) (unix (l ++ NL :: r)) 0 None = Some (a, n) -> lsim ls lu).
  { intros a n x rest EX EU LX B1 B2. destruct (first_lexeme _ _ _ _ _ _ L NE B1) as (r1 & x1 & rest1 & ls1 & N1 & I1 & A1 & -> & E1 & LX1 & NX1 & L1).
    rewrite EX in E1. destruct (app_inv_len _ _ _ _ E1) as [<- <-]; [congruence|].
    assert (NEU : unix (l ++ NL :: r) <> []) by (rewrite EU; destruct x; [congruence|discriminate]).
    destruct (first_lexeme _ _ _ _ _ _ U NEU B2) as (r2 & x2 & rest2 & lu2 & N2 & I2 & A2 & -> & E2 & LX2 & NX2 & L2).
    rewrite EU in E2. destruct (app_inv_len _ _ _ _ E2) as [<- <-]; [congruence|].
    constructor; [exact I1|congruence|]. apply (IH rest (next_sc r1 sc) (ends_nl x)); [|exact L1|].
    - rewrite EX, app_length in LE. destruct x; [congruence|]. cbn in LE. lia.
    - rewrite (next_sc_num r1 r2) by congruence. exact L2. }
  (* a first lexeme inside the line *)
  assert (INSIDE : forall a n k t, l = k ++ t -> (n <= length k)%nat -> (forall x y, k = x ++ y -> unix (y ++ t ++ NL :: r) = y ++ skipn (length k) (unix (l ++ NL :: r))) ->
    firstn (length k) (unix (l ++ NL :: r)) = k ->
    best (init_vec sc bol) (l ++ NL :: r) 0 None = Some (a, n) -> best (init_vec sc bol) (unix (l ++ NL :: r)) 0 None = Some (a, n) -> lsim ls lu).
  { intros a n k t EL LN UX UK B1 B2. destruct (cut_at k (n - trail a) (t ++ NL :: r)) as (x & y & -> & LX & E); [lia|].
    apply (SAME a n x (y ++ t ++ NL :: r)); [rewrite EL, <- app_assoc; exact E| |exact LX|exact B1|exact B2].
    rewrite (UX x y eq_refl), app_assoc. rewrite <- UK at 1. now rewrite firstn_skipn. }
  destruct (ends_cr l) eqn:EC.
  - destruct (ends_cr_split l EC) as [k ->]. rewrite <- app_assoc in *. cbn [app] in *. rewrite no_newline_app in NN. apply andb_true_iff in NN as [NK _].
    rewrite (unix_crline k r NK) in *.
    assert (CALM : In (run (init_vec sc bol) k) calmV -> lsim ls lu).
    { intros C. destruct (calm_line sc bol k C) as [(a & n & LN & B)|(a & A & B)].
      - apply (INSIDE a n k [CR] eq_refl); [lia| |now rewrite firstn_app, firstn_all, Nat.sub_diag, app_nil_r| |]; [|apply B|].
        + intros x y ->. cbn [app]. rewrite skipn_app, skipn_all, Nat.sub_diag. cbn [app skipn]. apply unix_crline.
          rewrite no_newline_app in NK. apply andb_true_iff in NK. apply NK.
        + apply B.
      - destruct (first_lexeme _ _ _ _ _ _ L NE (proj1 (B r))) as (r1 & x1 & rest1 & ls1 & N1 & I1 & A1 & -> & E1 & LX1 & NX1 & L1).
        destruct (first_lexeme _ _ _ _ _ _ U ltac:(destruct k; discriminate) (proj2 (B (unix r)))) as (r2 & x2 & rest2 & lu2 & N2 & I2 & A2 & -> & E2 & LX2 & NX2 & L2).
        assert (trail a = 1%nat) as TA by (destruct A as [-> | ->]; reflexivity). rewrite TA in *. cbn in LX1, LX2.
        replace (k ++ CR :: NL :: r) with ((k ++ [CR]) ++ NL :: r) in E1 by (rewrite <- app_assoc; reflexivity).
        destruct (app_inv_len _ _ _ _ E1) as [<- <-]; [rewrite app_length; cbn; lia|]. destruct (app_inv_len _ _ _ _ E2) as [<- <-]; [lia|].
        assert (SC : sc = INITIAL) by (destruct sc; [reflexivity|]; rewrite line_rules in A1; [discriminate A1|exact I1|rewrite N1; exact A]). subst sc.
        assert (NS : next_sc r1 INITIAL = INITIAL /\ next_sc r2 INITIAL = INITIAL) by (unfold next_sc; rewrite N1, N2; destruct A as [-> | ->]; split; reflexivity). destruct NS as [NS1 NS2]. rewrite NS1 in L1. rewrite NS2 in L2.
        destruct (first_lexeme _ _ _ _ _ _ L1 ltac:(discriminate) (first_nl _ r)) as (e1 & y1 & s1 & ls2 & M1 & J1 & _ & -> & F1 & LY1 & NY1 & K1).
        destruct (first_lexeme _ _ _ _ _ _ L2 ltac:(discriminate) (first_nl _ (unix r))) as (e2 & y2 & s2 & lu3 & M2 & J2 & _ & -> & F2 & LY2 & NY2 & K2).
        change (NL :: r) with ([NL] ++ r) in F1. change (NL :: unix r) with ([NL] ++ unix r) in F2.
        destruct (app_inv_len _ _ _ _ F1) as [<- <-]; [rewrite LY1; reflexivity|]. destruct (app_inv_len _ _ _ _ F2) as [<- <-]; [rewrite LY2; reflexivity|].
        apply sim_line; try congruence.
        refine (IH r _ _ _ _ _ K1 _).
        + rewrite app_length in LE. cbn in LE. lia.
        + replace (next_sc e1 INITIAL) with (next_sc e2 INITIAL) by (apply next_sc_num; congruence). exact K2. }
    destruct k as [|c k].
    + (* the line is just CR *) cbn [app] in *. destruct sc.
      * destruct (first_lexeme _ _ _ _ _ _ L NE (first_crnl _ r)) as (r1 & x1 & s1 & ls1 & N1 & I1 & _ & -> & E1 & LX1 & NX1 & L1).
        destruct (first_lexeme _ _ _ _ _ _ U ltac:(discriminate) (first_nl _ (unix r))) as (r2 & x2 & s2 & lu2 & N2 & I2 & _ & -> & E2 & LX2 & NX2 & L2).
        change (CR :: NL :: r) with ([CR; NL] ++ r) in E1. change (NL :: unix r) with ([NL] ++ unix r) in E2.
        destruct (app_inv_len _ _ _ _ E1) as [<- <-]; [rewrite LX1; reflexivity|]. destruct (app_inv_len _ _ _ _ E2) as [<- <-]; [rewrite LX2; reflexivity|].
        apply sim_eol; try congruence. refine (IH r _ _ _ _ _ L1 _); [cbn in LE; lia|]. replace (next_sc r1 INITIAL) with (next_sc r2 INITIAL) by (apply next_sc_num; congruence). exact L2.
      * destruct (first_lexeme _ _ _ _ _ _ L NE (comment_crnl _ r)) as (r1 & x1 & s1 & ls1 & N1 & I1 & _ & -> & E1 & LX1 & NX1 & L1).
        destruct (first_lexeme _ _ _ _ _ _ U ltac:(discriminate) (comment_nl _ (unix r))) as (r2 & x2 & s2 & lu2 & N2 & I2 & _ & -> & E2 & LX2 & NX2 & L2).
        change (CR :: NL :: r) with ([CR] ++ NL :: r) in E1. change (NL :: unix r) with ([NL] ++ unix r) in E2.
        destruct (app_inv_len _ _ _ _ E1) as [<- <-]; [rewrite LX1; reflexivity|]. destruct (app_inv_len _ _ _ _ E2) as [<- <-]; [rewrite LX2; reflexivity|].
        assert (NS : next_sc r1 C_COMMENT = C_COMMENT) by (unfold next_sc; rewrite N1; reflexivity). rewrite NS in L1.
        destruct (first_lexeme _ _ _ _ _ _ L1 ltac:(discriminate) (comment_nl _ r)) as (r3 & x3 & s3 & ls3 & N3 & I3 & _ & -> & E3 & LX3 & NX3 & L3).
        change (NL :: r) with ([NL] ++ r) in E3. destruct (app_inv_len _ _ _ _ E3) as [<- <-]; [rewrite LX3; reflexivity|].
        apply sim_comment; try congruence. refine (IH r _ _ _ _ _ L3 _); [cbn in LE; lia|]. replace (next_sc r3 C_COMMENT) with (next_sc r2 C_COMMENT) by (apply next_sc_num; congruence). exact L2.
    + destruct sc; [|apply CALM, calm_in_comment]. destruct (not_cr c) eqn:NC; [apply CALM, calm_init; exact NC|].
      unfold not_cr in NC. apply negb_false_iff, is_char in NC. subst c. fold CR in *. destruct k as [|d k].
      * (* CR CR *) cbn [app] in *.
        destruct (first_lexeme _ _ _ _ _ _ L NE (first_crcr _ (NL :: r))) as (r1 & x1 & s1 & ls1 & N1 & I1 & _ & -> & E1 & LX1 & NX1 & L1).
        destruct (first_lexeme _ _ _ _ _ _ U ltac:(discriminate) (first_crnl _ (unix r))) as (r2 & x2 & s2 & lu2 & N2 & I2 & _ & -> & E2 & LX2 & NX2 & L2).
        change (CR :: CR :: NL :: r) with ([CR] ++ CR :: NL :: r) in E1. change (CR :: NL :: unix r) with ([CR; NL] ++ unix r) in E2.
        destruct (app_inv_len _ _ _ _ E1) as [<- <-]; [rewrite LX1; reflexivity|]. destruct (app_inv_len _ _ _ _ E2) as [<- <-]; [rewrite LX2; reflexivity|].
        assert (NS : next_sc r1 INITIAL = INITIAL) by (unfold next_sc; rewrite N1; reflexivity). rewrite NS in L1.
        destruct (first_lexeme _ _ _ _ _ _ L1 ltac:(discriminate) (first_crnl _ r)) as (r3 & x3 & s3 & ls3 & N3 & I3 & _ & -> & E3 & LX3 & NX3 & L3).
        change (CR :: NL :: r) with ([CR; NL] ++ r) in E3. destruct (app_inv_len _ _ _ _ E3) as [<- <-]; [rewrite LX3; reflexivity|].
        apply sim_echo; try congruence. refine (IH r _ _ _ _ _ L3 _); [cbn in LE; lia|]. replace (next_sc r3 INITIAL) with (next_sc r2 INITIAL) by (apply next_sc_num; congruence). exact L2.
      * apply CALM, calm_cr.
  - rewrite (unix_line l r NN EC) in *. destruct (first_line sc bol l) as (a & n & LN & B).
    destruct (Nat.leb_spec (n - trail a) (length l)) as [LL|LL].
    + destruct (cut_at l (n - trail a) (NL :: r) LL) as (x & y & -> & LX & E). apply (SAME a n x (y ++ NL :: r)); auto.
      rewrite unix_line, app_assoc; [reflexivity| |].
      * rewrite no_newline_app in NN. apply andb_true_iff in NN. apply NN.
      * destruct y as [|d y]; [reflexivity|]. rewrite ends_cr_app in EC by discriminate. exact EC.
    + apply (SAME a n (l ++ [NL]) r); auto; [now rewrite <- app_assoc|now rewrite <- app_assoc|rewrite app_length; cbn; lia].
Qed.

(** *** What the scanner returns and prints *)
(** Printed texts without CR. *)
Definition without_cr (t : bytes) : bytes := filter not_cr t.
Definition shown (evs : list event) : list event :=
  flat_map (fun e => match e with
                     | Echo t => match without_cr t with [] => [] | t' => [Echo t'] end
                     | Warn a b t => [Warn a b (without_cr t)]
                     end) evs.
Lemma shown_app a b : shown (a ++ b) = shown a ++ shown b.
Proof. apply flat_map_app. Qed.
Lemma c_str_cr x : without_cr (c_str (x ++ [CR])) = without_cr (c_str x).
Proof.
  induction x as [|c x IH]; [reflexivity|]. cbn [app c_str]. destruct (N_of_ascii c =? 0); [reflexivity|]. unfold without_cr in *. cbn [filter]. now rewrite IH.
Qed.
Definition same_item (i j : item) : Prop := i_tok i = i_tok j /\ i_loc i = i_loc j /\ shown (i_evs i) = shown (i_evs j).
Lemma sact_end r r' x l l' : In r rules -> r_num r = r_num r' -> l_end l = l_end l' ->
  let '(k, ev, tk) := sact r x l in let '(k', ev', tk') := sact r' x l' in
  ev = ev' /\ tk = tk' /\ l_end k = l_end k' /\ (tk <> None -> k = k').
Proof.
  intros I N E. unfold sact. rewrite <- N. apply rule_nums in I. change (map r_num rules) with nums in I. unfold nums in I. cbn [In] in I.
  destruct l as [b e], l' as [b' e']. cbn [l_end] in E. subst e'.
  repeat (destruct I as [I|I]; [rewrite <- I; cbn -[string_of_list_ascii N.add N.of_nat]; repeat split; congruence|]). destruct I.
Qed.
Theorem interp_sim ls lu : lsim ls lu -> forall l l' evs evs', l_end l = l_end l' -> shown evs = shown evs' ->
  let '(its, le, ee) := interp ls l evs in let '(its', le', ee') := interp lu l' evs' in
  Forall2 same_item its its' /\ l_end le = l_end le' /\ shown ee = shown ee'.
Proof.
  induction 1 as [|r r' x ls lu I N S IH|r r' ls lu N N' S IH|r r' e e' x ls lu N N' M M' S IH|r e e' ls lu N M M' S IH|r e e' ls lu N M M' S IH]; intros l l' evs evs' E V; cbn [interp].
  - auto.
  - pose proof (sact_end r r' x l l' I N E) as A. destruct (sact r x l) as [[k ev] tk]. destruct (sact r' x l') as [[k' ev'] tk']. destruct A as (<- & <- & EK & KK).
    destruct tk as [t|]; [|apply IH; [exact EK|now rewrite !shown_app, V]].
    rewrite <- (KK ltac:(discriminate)) in *. specialize (IH k k [] [] eq_refl eq_refl).
    destruct (interp ls k []) as [[its le] ee]. destruct (interp lu k []) as [[its' le'] ee']. destruct IH as (A & B & C). split; [|auto].
    constructor; [|exact A]. split; [reflexivity|]. split; [reflexivity|]. cbn [i_evs]. now rewrite !shown_app, V.
  - unfold sact. rewrite N, N'. cbn -[N.add]. apply IH; [cbn -[N.add]; now rewrite E|now rewrite !app_nil_r].
  - unfold sact. rewrite M, M', N'. destruct N as [N|N]; rewrite N; cbn -[N.add N.of_nat interp];
      (apply IH; [cbn -[N.add N.of_nat]; now rewrite E|]).
    + now rewrite !app_nil_r.
    + rewrite !app_nil_r, !shown_app, V, E. cbn [shown flat_map app]. now rewrite c_str_cr.
  - unfold sact. rewrite N, M, M'. cbn -[N.add N.of_nat interp]. apply IH; [cbn -[N.add]; now rewrite E|]. rewrite !app_nil_r, shown_app, V. apply app_nil_r.
  - unfold sact. rewrite N, M, M'. cbn -[N.add N.of_nat interp]. apply IH; [cbn -[N.add]; now rewrite E|]. now rewrite !app_nil_r.
Qed.

(** *** Whole texts *)
Theorem scan_unix cs : exists its le ee its' le' ee', scan_text cs = Some (its, le, ee) /\ scan_text (unix cs) = Some (its', le', ee') /\
  Forall2 same_item its its' /\ l_end le = l_end le' /\ shown ee = shown ee'.
Proof.
  unfold scan_text, lexer0. change 1 with (start_of INITIAL).
  destruct (tokenize_spec (S (length cs)) INITIAL true cs loc0 (le_n _)) as (ls & L & ->).
  destruct (tokenize_spec (S (length (unix cs))) INITIAL true (unix cs) loc0 (le_n _)) as (lu & U & ->).
  pose proof (interp_sim ls lu (unix_lexes _ cs _ _ _ _ (le_n _) L U) loc0 loc0 [] [] eq_refl eq_refl) as H.
  destruct (interp ls loc0 []) as [[its le] ee]. destruct (interp lu loc0 []) as [[its' le'] ee']. do 6 eexists. split; [reflexivity|]. split; [reflexivity|]. exact H.
Qed.

(** *** Texts with the same lines *)
(** The text without the CRs directly before a line end: the same for two texts exactly when
    they differ only in how many CRs (none or one in the usual conventions) stand before each LF. *)
Fixpoint lines_of (cs : bytes) : bytes :=
  match cs with
  | [] => []
  | c :: r => let r' := lines_of r in if is 13 c && starts (is 10) r' then r' else c :: r'
  end.
Lemma is_dec n c : is n c = true -> c = ascii_of_N n.
Proof. unfold is. intros H. apply N.eqb_eq in H. now rewrite <- H, ascii_N_embedding. Qed.
Lemma lines_starts c r : is 10 c = true -> lines_of (c :: r) = c :: lines_of r.
Proof. intros H. cbn [lines_of]. replace (is 13 c) with false; [reflexivity|]. rewrite (is_dec _ _ H). reflexivity. Qed.
Lemma unix_starts cs : starts (is 10) cs = true -> unix cs = hd CR cs :: unix (tl cs).
Proof. destruct cs as [|c r]; [discriminate|]. cbn [starts hd tl unix]. intros H. replace (is 13 c) with false; [reflexivity|]. rewrite (is_dec _ _ H). reflexivity. Qed.
Lemma lines_unix cs : lines_of (unix cs) = lines_of cs.
Proof.
  induction cs as [|c r IH]; [reflexivity|]. cbn [unix]. destruct (is 13 c && starts (is 10) r) eqn:B; [|cbn [lines_of]; now rewrite IH].
  rewrite IH. apply andb_true_iff in B as [B1 B2]. cbn [lines_of]. destruct r as [|d r]; [discriminate|]. cbn [starts] in B2.
  rewrite (lines_starts d r B2), B1. cbn [starts]. now rewrite B2.
Qed.
Lemma unix_length cs : (length (unix cs) <= length cs)%nat.
Proof. induction cs as [|c r IH]; [apply le_n|]. cbn [unix]. destruct (_ && _); cbn [length]; lia. Qed.
Lemma unix_done cs : length (unix cs) = length cs -> unix cs = cs /\ lines_of cs = cs.
Proof.
  induction cs as [|c r IH]; [auto|]. cbn [unix lines_of]. pose proof (unix_length r). destruct (is 13 c && starts (is 10) r) eqn:B; cbn [length]; intros L; [lia|].
  destruct (IH ltac:(lia)) as [A D]. rewrite A, D, B. auto.
Qed.
Definition same_scan (cs cs' : bytes) : Prop :=
  exists its le ee its' le' ee', scan_text cs = Some (its, le, ee) /\ scan_text cs' = Some (its', le', ee') /\
    Forall2 same_item its its' /\ l_end le = l_end le' /\ shown ee = shown ee'.
Lemma items_trans a b c : Forall2 same_item a b -> Forall2 same_item b c -> Forall2 same_item a c.
Proof.
  intros H. revert c. induction H as [|i j a b (A & B & C) S IH]; intros c T; inversion T as [|? k ? c' (D & E & F) T']; subst; constructor; [|auto].
  repeat split; congruence.
Qed.
Lemma items_sym a b : Forall2 same_item a b -> Forall2 same_item b a.
Proof. induction 1 as [|i j a b (A & B & C) S IH]; constructor; [|auto]. repeat split; congruence. Qed.
Lemma scan_trans a b c : same_scan a b -> same_scan b c -> same_scan a c.
Proof.
  intros (its & le & ee & its' & le' & ee' & S & S' & F & L & Q) (i & l & e & i' & l' & e' & T & T' & G & M & R).
  rewrite S' in T. injection T as -> -> ->. exists its, le, ee, i', l', e'. split; [auto|]. split; [auto|]. split; [eapply items_trans; eauto|]. split; congruence.
Qed.
Lemma scan_sym a b : same_scan a b -> same_scan b a.
Proof. intros (its & le & ee & its' & le' & ee' & S & S' & F & L & Q). exists its', le', ee', its, le, ee. repeat split; auto using items_sym. Qed.
Lemma scan_lines_of m : forall cs, (length cs <= m)%nat -> same_scan cs (lines_of cs).
Proof.
  induction m as [|m IH]; intros cs L.
  - destruct cs; [|cbn in L; lia]. exact (scan_unix []).
  - pose proof (unix_length cs) as U. destruct (Nat.eq_dec (length (unix cs)) (length cs)) as [E|E].
    + destruct (unix_done cs E) as [A B]. pose proof (scan_unix cs) as S. rewrite A in S. rewrite B. exact S.
    + eapply scan_trans; [exact (scan_unix cs)|]. rewrite <- lines_unix. apply IH. lia.
Qed.
Theorem scan_line_ends cs cs' : lines_of cs = lines_of cs' -> same_scan cs cs'.
Proof. intros E. eapply scan_trans; [apply (scan_lines_of (length cs)); apply le_n|]. rewrite E. apply scan_sym, (scan_lines_of (length cs')), le_n. Qed.
