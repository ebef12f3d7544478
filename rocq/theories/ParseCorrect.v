(** Correctness of parsing, for token sequences and for texts. *)
From Coq Require Import String Ascii ZArith NArith Arith List Bool Lia.
From Verif Require Import Base Flex BisonTables Items Decimal Bison Grammar LR LRSim Parse GramSim ParseSpec.
Import ListNotations.
Local Open Scope list_scope.

(** Messages. *)
Lemma names_zget k : (0 <= k <= 30)%Z -> k <> 1%Z -> k <> 2%Z -> zget yy_sname k = Some (token_name (Z.to_N k)).
Proof.
  intros Hk H1 H2. unfold zget. destruct (k <? 0)%Z eqn:E; [lia|].
  assert (Hin : In k (map Z.of_nat (seq 0 31))).
  { apply in_map_iff. exists (Z.to_nat k). split; [lia|apply in_seq; lia]. }
  cbn [map seq In] in Hin.
  repeat (destruct Hin as [Hin|Hin]; [subst k; first [reflexivity | exfalso; apply H1; reflexivity | exfalso; apply H2; reflexivity]|]). contradiction.
Qed.

Definition okk (k : Z) : Prop := (0 <= k <= 30)%Z /\ k <> 1%Z /\ k <> 2%Z.

Lemma get_names_ok ex : Forall okk ex -> get_names ex = Some (map (fun k => token_name (Z.to_N k)) ex).
Proof.
  induction 1 as [|k ex (H1 & H2 & H3) Hex IH]; [reflexivity|].
  cbn [get_names map]. rewrite names_zget, IH by auto. reflexivity.
Qed.

Lemma or_names_concat l : or_names l = String.concat " or " l.
Proof. induction l as [|a [|b l] IH]; [reflexivity|reflexivity|]. cbn [or_names String.concat] in *. rewrite IH. reflexivity. Qed.

Lemma expect_okk p d : Forall okk (expect p d).
Proof.
  assert (H : forall l, forallb (fun k => (0 <=? k) && (k <=? 30) && negb (k =? 1) && negb (k =? 2))%Z l = true -> Forall okk l).
  { intros l Hl. rewrite forallb_forall in Hl. apply Forall_forall. intros k Hk. specialize (Hl k Hk).
    unfold okk. lia. }
  apply H. destruct p; try reflexivity.
  - destruct d; reflexivity.
  - cbn [expect]. destruct (is_nil es); reflexivity.
  - destruct m; try reflexivity. cbn [expect]. destruct (is_nil ms); reflexivity.
Qed.

Lemma msg_complaint k p d : (k = 0 \/ 3 <= k <= 30)%N ->
  msg (Z.of_N k) (expect p d) = complaint k (map Z.to_N (expect p d)).
Proof.
  intros Hk. unfold msg, message. rewrite names_zget by lia.
  rewrite (get_names_ok _ (expect_okk p d)). rewrite N2Z.id. unfold complaint, one_of.
  rewrite or_names_concat, map_map. destruct (expect p d); reflexivity.
Qed.

Lemma expect_follow p d ts ds cs k : Forall good_token ts -> drun PTop ts = Some (p, ds, cs) -> d = length ds ->
  In k (map Z.to_N (expect p d)) -> can_follow ts k.
Proof.
  intros Hg Hr -> Hk. apply in_map_iff in Hk as (z & <- & Hz).
  destruct (drun_sound _ _ _ _ _ Hg wfp_top Hr) as (A & B & C & D).
  destruct (expect_sound p (length ds) z D Hz) as [(-> & -> & Hd)|(t & Ht & Hk & Hdel)].
  - left. split; [reflexivity|]. exists ds. cbn in A. rewrite app_nil_r in A.
    repeat split; auto. destruct ds; [cbn in Hd; congruence|discriminate].
  - right. exists t. split; [exact Ht|]. split; [lia|].
    destruct (delta p t) as [[[p1 d1] c1]|] eqn:E; [|congruence].
    eapply drun_viable with (p := p1); [apply Forall_app; split; [exact Hg|repeat constructor; apply Ht]|].
    rewrite drun_app, Hr. cbn [drun]. rewrite E. reflexivity.
Qed.

(** Result of a run, by the grammar. *)
Theorem tparse_spec its fin : Forall (fun i => good_token (i_tok i)) its ->
  let '(c, e, ev, rv) := tparse PTop 0 its fin in
  (rv = 0%Z /\ e = [] /\ ev = concat (map i_evs its) ++ snd fin /\
   exists ds, wf_file ds /\ map i_tok its = file_tokens ds /\ c = file_calls ds) \/
  (rv = 1%Z /\ (~ exists ds, wf_file ds /\ map i_tok its = file_tokens ds) /\ rejection its fin c e ev).
Proof.
  intros Hg. assert (Hgt : Forall good_token (map i_tok its)) by (apply Forall_map; exact Hg).
  destruct (drun PTop (map i_tok its)) as [[[p ds] cs]|] eqn:E.
  - rewrite (tparse_all its PTop 0 fin _ _ _ E). rewrite Nat.add_0_r.
    destruct (drun_sound _ _ _ _ _ Hgt wfp_top E) as (A & B & C & D). cbn [ptoks pcalls app] in A, B.
    assert (Hrej : (p <> PTop \/ ds = []) ->
      (~ exists ds', wf_file ds' /\ map i_tok its = file_tokens ds') /\
      rejection its fin (cs ++ pending p) [error_text (fst fin) (msg 0 (expect p (length ds)))]
        (concat (map i_evs its) ++ snd fin)).
    { intros Hor.
      assert (Hnot : ~ exists ds', wf_file ds' /\ map i_tok its = file_tokens ds').
      { intros (ds' & [Hne Hw] & Ef). rewrite Ef, (drun_file ds' Hw) in E. injection E as <- <- <-.
        destruct Hor; congruence. }
      split; [exact Hnot|].
      change 0%Z with (Z.of_N 0). rewrite msg_complaint by (left; reflexivity).
      rewrite B, <- app_assoc. eapply rej_end; eauto.
      - apply unfinished_at. exact D.
      - eapply drun_viable; eauto.
      - intros k Hk. eapply expect_follow; eauto. }
    destruct p; try (right; split; [reflexivity|apply Hrej; left; discriminate]).
    destruct ds as [|d ds]; [right; split; [reflexivity|apply Hrej; right; reflexivity]|].
    left. repeat split. exists (d :: ds). cbn [ptoks pcalls] in A, B. rewrite app_nil_r in A, B.
    repeat split; auto. discriminate.
  - destruct (tparse_stuck its PTop 0 fin E) as (its1 & i & its2 & p & ds & cs & Hits & Hr & Hd & ->).
    right. split; [reflexivity|]. rewrite Nat.add_0_r.
    split.
    { intros (ds' & [Hne Hw] & Ef). rewrite Ef, (drun_file ds' Hw) in E. discriminate. }
    assert (Hg1 : Forall good_token (map i_tok its1))
      by (rewrite Hits, map_app in Hgt; apply Forall_app in Hgt; tauto).
    assert (Hgi : good_token (i_tok i)).
    { rewrite Hits in Hg. apply Forall_app in Hg as [_ Hg]. inversion Hg. auto. }
    destruct (drun_sound _ _ _ _ _ Hg1 wfp_top Hr) as (A & B & C & D). cbn [ptoks pcalls app] in A, B.
    rewrite msg_complaint by (right; apply Hgi).
    rewrite B, <- app_assoc. eapply rej_token; eauto.
    + apply unfinished_at. exact D.
    + eapply drun_viable; eauto.
    + intros Hv. apply viable_drun in Hv as (p' & ds' & cs' & Hv).
      rewrite drun_app, Hr in Hv. cbn [drun] in Hv. rewrite Hd in Hv. discriminate.
    + intros k Hk. eapply expect_follow; eauto.
Qed.

(** Result of a run of the parser: accepted or rejected. *)
Definition accepted (its : list item) (fin : loc * list event) (o : list out) (rv : Z) : Prop :=
  rv = 0%Z /\ errs_of o = [] /\ lexs_of o = concat (map i_evs its) ++ snd fin /\
  exists ds, wf_file ds /\ map i_tok its = file_tokens ds /\ calls_of o = file_calls ds.
Definition rejected (its : list item) (fin : loc * list event) (o : list out) (rv : Z) : Prop :=
  rv = 1%Z /\ (~ exists ds, wf_file ds /\ map i_tok its = file_tokens ds) /\
  rejection its fin (calls_of o) (errs_of o) (lexs_of o).

Theorem run_spec src (next : src -> loc -> option (src * loc * list event * option token)) s its fin :
  Forall (fun i => good_token (i_tok i)) its -> yields src next s loc0 its fin ->
  exists o rv, (forall fuel, (8 * length its + 11 <= fuel)%nat -> drive next fuel (cfg0 s) = Some (o, rv)) /\
    (accepted its fin o rv \/ rejected its fin o rv).
Proof.
  intros Hg Hy. pose proof (run_total src next s its fin Hg Hy) as H.
  pose proof (tparse_spec its fin Hg) as Hs.
  destruct (tparse PTop 0 its fin) as [[[c e] ev] rv].
  destruct H as (o & Hr & <- & <- & <-). exists o, rv. split; [exact Hr|]. exact Hs.
Qed.

(** Token lists. *)
Lemma list_yields its fin l : yields _ list_next (its, fin) l its fin.
Proof.
  revert l. induction its as [|i its IH]; intros l; cbn [yields].
  - eexists. reflexivity.
  - eexists. split; [reflexivity|]. apply IH.
Qed.

(** Texts. *)
Lemma tokenize_yields fuel : forall lx l its le ee, tokenize fuel lx l = Some (its, le, ee) ->
  yields _ lex_next lx l its (le, ee) /\ (length its < fuel)%nat.
Proof.
  induction fuel as [|f IH]; intros lx l its le ee; cbn [tokenize]; [discriminate|].
  destruct (yylex (length (lx_rest lx)) lx l []) as [[[[lx' l'] evs] [t|]]|] eqn:E; [| |discriminate].
  - destruct (tokenize f lx' l') as [[[its1 le1] ee1]|] eqn:E2; [|discriminate].
    intros [= <- <- <-]. destruct (IH _ _ _ _ _ E2) as [H1 H2]. cbn [yields length]. split; [|lia].
    exists lx'. split; [exact E|exact H1].
  - intros [= <- <- <-]. cbn. split; [|lia]. exists lx'. exact E.
Qed.

Lemma action_good act text st l st' l' ev t :
  action act text st l = Some (st', l', ev, Some t) -> good_token t.
Proof.
  unfold action. do 6 (try destruct act as [|act]; try destruct act as [act|act|]; try discriminate).
  all: intros [= <- <- <- <-]; unfold good_token; cbn; lia.
Qed.

Lemma yylex_good fuel : forall lx l evs lx' l' evs' t,
  yylex fuel lx l evs = Some (lx', l', evs', Some t) -> good_token t.
Proof.
  induction fuel as [|f IH]; intros lx l evs lx' l' evs' t; cbn [yylex].
  - destruct (lx_rest lx); discriminate.
  - destruct (lx_rest lx) as [|c r] eqn:Er; [discriminate|].
    unfold lex_step. destruct (scan_one _ _ _) as [[act n]|]; [|discriminate].
    destruct (action _ _ _ _) as [[[[st1 l1] ev1] [t1|]]|] eqn:Ea; [| |discriminate].
    + intros [= <- <- <- <-]. eapply action_good; eauto.
    + apply IH.
Qed.

Lemma tokenize_good fuel : forall lx l its le ee, tokenize fuel lx l = Some (its, le, ee) ->
  Forall (fun i => good_token (i_tok i)) its.
Proof.
  induction fuel as [|f IH]; intros lx l its le ee; cbn [tokenize]; [discriminate|].
  destruct (yylex (length (lx_rest lx)) lx l []) as [[[[lx' l'] evs] [t|]]|] eqn:E; [| |discriminate].
  - destruct (tokenize f lx' l') as [[[its1 le1] ee1]|] eqn:E2; [|discriminate].
    intros [= <- <- <-]. constructor; [|eapply IH; eauto]. eapply yylex_good; eauto.
  - intros [= <- <- <-]. constructor.
Qed.

(** Final forms. *)
Definition run_tokens (its : list item) (fin : loc * list event) (fuel : nat) : option (list out * Z) :=
  drive list_next fuel (cfg0 (its, fin)).

Lemma tokens_spec its fin : Forall (fun i => good_token (i_tok i)) its ->
  exists o rv, (forall fuel, (8 * length its + 11 <= fuel)%nat -> run_tokens its fin fuel = Some (o, rv)) /\
    (accepted its fin o rv \/ rejected its fin o rv).
Proof. intros Hg. apply run_spec; [exact Hg|apply list_yields]. Qed.

Lemma text_spec cs its le ee : scan_text cs = Some (its, le, ee) ->
  exists o rv, (forall fuel, (8 * length cs + 11 <= fuel)%nat -> parse_bytes fuel cs = Some (o, rv)) /\
    (accepted its (le, ee) o rv \/ rejected its (le, ee) o rv).
Proof.
  intros H. pose proof (tokenize_good _ _ _ _ _ _ H) as Hg.
  destruct (tokenize_yields _ _ _ _ _ _ H) as [Hy Hl].
  destruct (run_spec _ _ _ _ _ Hg Hy) as (o & rv & Hr & Hs).
  exists o, rv. split; [|exact Hs]. intros fuel Hf. apply Hr. lia.
Qed.

Lemma file_unique ds ds' : Forall wf_def ds -> Forall wf_def ds' -> file_tokens ds = file_tokens ds' -> ds = ds'.
Proof.
  intros H H' E. pose proof (drun_file ds H) as R. rewrite E, (drun_file ds' H') in R. congruence.
Qed.

Lemma tokens_terminate its fin : Forall (fun i => good_token (i_tok i)) its ->
  exists o rv, (rv = 0 \/ rv = 1)%Z /\
    forall fuel, (8 * length its + 11 <= fuel)%nat -> run_tokens its fin fuel = Some (o, rv).
Proof.
  intros Hg. destruct (tokens_spec its fin Hg) as (o & rv & Hr & [[H _]|[H _]]); exists o, rv; auto.
Qed.

Lemma tokens_accept its fin fuel ds : (8 * length its + 11 <= fuel)%nat ->
  wf_file ds -> map i_tok its = file_tokens ds ->
  exists o, run_tokens its fin fuel = Some (o, 0%Z) /\ calls_of o = file_calls ds /\ errs_of o = [] /\
    lexs_of o = concat (map i_evs its) ++ snd fin.
Proof.
  intros Hf Hw Ht.
  assert (Hg : Forall (fun i => good_token (i_tok i)) its).
  { apply (proj1 (Forall_map i_tok good_token its)). rewrite Ht. apply good_tokens_file. }
  destruct (tokens_spec its fin Hg) as (o & rv & Hr & [(-> & He & Hl & ds' & Hw' & Ht' & Hc)|(_ & Hn & _)]).
  - exists o. rewrite (Hr fuel Hf). repeat split; auto.
    rewrite Hc. f_equal. apply file_unique; [apply Hw'|apply Hw|congruence].
  - exfalso. apply Hn. eauto.
Qed.

Lemma tokens_reject its fin fuel o rv : Forall (fun i => good_token (i_tok i)) its ->
  (8 * length its + 11 <= fuel)%nat -> run_tokens its fin fuel = Some (o, rv) -> rv <> 0%Z ->
  rv = 1%Z /\ rejection its fin (calls_of o) (errs_of o) (lexs_of o).
Proof.
  intros Hg Hf Hr Hn. destruct (tokens_spec its fin Hg) as (o' & rv' & Hr' & Hs).
  rewrite (Hr' fuel Hf) in Hr. injection Hr as -> ->.
  destruct Hs as [[H _]|(H1 & _ & H2)]; [congruence|auto].
Qed.

Lemma text_reject cs its le ee fuel o rv : scan_text cs = Some (its, le, ee) ->
  (8 * length cs + 11 <= fuel)%nat -> parse_bytes fuel cs = Some (o, rv) -> rv <> 0%Z ->
  rv = 1%Z /\ rejection its (le, ee) (calls_of o) (errs_of o) (lexs_of o).
Proof.
  intros Hs Hf Hr Hn. destruct (text_spec cs its le ee Hs) as (o' & rv' & Hr' & Hsp).
  rewrite (Hr' fuel Hf) in Hr. injection Hr as -> ->.
  destruct Hsp as [[H _]|(H1 & _ & H2)]; [congruence|auto].
Qed.

Lemma text_accept cs its le ee fuel ds : scan_text cs = Some (its, le, ee) ->
  (8 * length cs + 11 <= fuel)%nat -> wf_file ds -> map i_tok its = file_tokens ds ->
  exists o, parse_bytes fuel cs = Some (o, 0%Z) /\ calls_of o = file_calls ds /\ errs_of o = [] /\
    lexs_of o = concat (map i_evs its) ++ ee.
Proof.
  intros Hs Hf Hw Ht.
  destruct (text_spec cs its le ee Hs) as (o & rv & Hr & [(-> & He & Hl & ds' & Hw' & Ht' & Hc)|(_ & Hn & _)]).
  - exists o. rewrite (Hr fuel Hf). repeat split; auto.
    rewrite Hc. f_equal. apply file_unique; [apply Hw'|apply Hw|congruence].
  - exfalso. apply Hn. eauto.
Qed.
