(** What a whole run of the parser does, for every token sequence. *)
From Coq Require Import String Ascii ZArith NArith Arith List Bool Lia.
From Verif Require Import Base Flex BisonTables Items Decimal Bison Grammar LR LRSim.
Import ListNotations.
Local Open Scope Z_scope.

Definition lexs_of (o : list out) : list event :=
  flat_map (fun x => match x with OLex e => [e] | _ => [] end) o.

Lemma calls_app a b : calls_of (a ++ b) = calls_of a ++ calls_of b.
Proof. apply flat_map_app. Qed.
Lemma errs_app a b : errs_of (a ++ b) = errs_of a ++ errs_of b.
Proof. apply flat_map_app. Qed.
Lemma lexs_app a b : lexs_of (a ++ b) = lexs_of a ++ lexs_of b.
Proof. apply flat_map_app. Qed.
Lemma of_lex evs : calls_of (map OLex evs) = [] /\ errs_of (map OLex evs) = [] /\ lexs_of (map OLex evs) = evs.
Proof. induction evs as [|e evs (A & B & C)]; [auto|]. cbn. unfold calls_of, errs_of, lexs_of in *. rewrite A, B, C. auto. Qed.
Lemma of_call cs : calls_of (map OCall cs) = cs /\ errs_of (map OCall cs) = [] /\ lexs_of (map OCall cs) = [].
Proof. induction cs as [|e cs (A & B & C)]; [auto|]. cbn. unfold calls_of, errs_of, lexs_of in *. rewrite A, B, C. auto. Qed.

(** Message for an unexpected symbol. *)
Definition msg (k : Z) (ex : list Z) : string :=
  match message k ex with Some m => m | None => ""%string end.

(** The run, in terms of positions inside definitions. *)
Fixpoint tparse (p : pst) (d : nat) (its : list item) (fin : loc * list event)
  : list call * list string * list event * Z :=
  match its with
  | [] =>
      match p, d with
      | PTop, S _ => ([], [], snd fin, 0)
      | _, _ => (pending p, [error_text (fst fin) (msg 0 (expect p d))], snd fin, 1)
      end
  | i :: r =>
      match delta p (i_tok i) with
      | Some (p', ds, cs) =>
          let '(c, e, ev, rv) := tparse p' (length ds + d) r fin in (cs ++ c, e, i_evs i ++ ev, rv)
      | None =>
          (pending p, [error_text (i_loc i) (msg (Z.of_N (t_kind (i_tok i))) (expect p d))], i_evs i, 1)
      end
  end.

Section Run.
Variable src : Type.
Variable next : src -> loc -> option (src * loc * list event * option token).

(** The source delivers these items and then end of file. *)
Fixpoint yields (s : src) (l : loc) (its : list item) (fin : loc * list event) : Prop :=
  match its with
  | [] => exists s', next s l = Some (s', fst fin, snd fin, None)
  | i :: r => exists s', next s l = Some (s', i_loc i, i_evs i, Some (i_tok i)) /\ yields s' (i_loc i) r fin
  end.

Lemma syntax_error_msg k v s ex :
  expected_tokens s 4 = Some ex -> (exists m, message k ex = Some m) ->
  syntax_error s (Some (k, v)) = Some (msg k ex).
Proof.
  intros He [m Hm]. unfold msg. rewrite Hm. revert Hm. unfold syntax_error, message.
  destruct (zget yy_sname k) as [u|]; [|discriminate]. rewrite He.
  destruct (get_names ex) as [ns|]; [|discriminate]. auto.
Qed.

Lemma message_some k p d : 0 <= k <= 30 -> exists m, message k (expect p d) = Some m.
Proof.
  intros Hk. unfold message.
  assert (Hu : exists u, zget yy_sname k = Some u).
  { unfold zget. destruct (k <? 0) eqn:E; [lia|].
    destruct (nth_error yy_sname (Z.to_nat k)) eqn:E2; [eauto|].
    apply nth_error_None in E2. cbn in E2. lia. }
  destruct Hu as [u ->].
  assert (Hn : exists ns, get_names (expect p d) = Some ns).
  { destruct p; cbn [expect]; try (eexists; reflexivity).
    - destruct d; eexists; reflexivity.
    - destruct (is_nil es); eexists; reflexivity.
    - destruct m; try (eexists; reflexivity). destruct (is_nil ms); eexists; reflexivity. }
  destruct Hn as [ns ->]. eauto.
Qed.

Lemma rejected_steps stk k v cs p d n l s :
  k <> 1 -> 0 <= k <= 30 -> rejects stk (k, v) cs (expect p d) n ->
  steps src next n (Cfg stk (Some (k, v)) l s 0)
    (map OCall cs ++ [OErr (error_text l (msg k (expect p d)))]) (Done 1).
Proof.
  intros Hk Hr (f & n1 & stk' & Hf & Hc & He & ->). cbn [fst snd] in Hf.
  eapply feed_err; eauto.
  destruct (nth_error stk' 0) as [[s0 v0]|]; [|discriminate].
  apply syntax_error_msg; auto. apply message_some. auto.
Qed.

Theorem run_steps its : forall p d s l fin,
  Forall (fun i => good_token (i_tok i)) its -> yields s l its fin ->
  let '(c, e, ev, rv) := tparse p d its fin in
  exists n o, steps src next n (Cfg (stack_of p d) None l s 0) o (Done rv) /\
    calls_of o = c /\ errs_of o = e /\ lexs_of o = ev /\
    (n <= 8 * length its + length (stack_of p d) + 10)%nat.
Proof.
  induction its as [|i its IH]; intros p d s l fin Hg Hy; cbn [tparse].
  - destruct Hy as [s' Hy]. pose proof (sim_eof p d) as Hs. unfold sim_eof_at in Hs.
    assert (Hrej : (exists n, rejects (stack_of p d) (la_of None) (pending p) (expect p d) n /\
               (n <= length (stack_of p d) + 8)%nat) ->
       exists n o, steps src next n (Cfg (stack_of p d) None l s 0) o (Done 1) /\
        calls_of o = pending p /\ errs_of o = [error_text (fst fin) (msg 0 (expect p d))] /\
        lexs_of o = snd fin /\ (n <= 8 * length (@nil item) + length (stack_of p d) + 10)%nat).
    { intros (n & Hr & Hn). eapply rejected_steps in Hr; [| discriminate | lia].
      assert (Hn0 : (0 < n)%nat) by (inversion Hr; subst; lia).
      eapply (steps_read _ _ _ l s 0 _ _ _ None) in Hr; [|apply reads_stack|exact Hy|exact Hn0].
      exists n. eexists. split; [exact Hr|].
      destruct (of_lex (snd fin)) as (A1 & A2 & A3). destruct (of_call (pending p)) as (B1 & B2 & B3).
      rewrite !calls_app, !errs_app, !lexs_app, A1, A2, A3, B1, B2, B3. cbn [calls_of errs_of lexs_of flat_map app].
      rewrite !app_nil_r. repeat split; auto. cbn [length]. lia. }
    destruct p as [| | | | | | | | | | | |]; try (apply Hrej; exact Hs).
    destruct d as [|d]; [apply Hrej; exact Hs|].
    destruct Hs as (n & f & Hf & Hn0 & Hn). 
    pose proof (feed_shift src next f 0 VNone _ _ _ _ (fst fin) s' ltac:(discriminate) Hf) as Hst.
    eapply (steps_read _ _ _ l s 0 _ _ _ None) in Hst; [|apply reads_stack|exact Hy|exact Hn0].
    assert (Hd : step next (Cfg [nov 12; nov 3; nov 0] None (fst fin) s' 0) = Some ([], Done 0)) by reflexivity.
    pose proof (steps_trans _ _ _ _ _ _ Hst _ _ _ (st_done _ _ _ _ _ Hd)) as Hall.
    exists (n + 1)%nat. eexists. split; [exact Hall|].
    destruct (of_lex (snd fin)) as (A1 & A2 & A3).
    cbn [map]. rewrite !app_nil_r. repeat split; auto. cbn [length]. lia.
  - inversion Hg as [|? ? Hgi Hgr]; subst. destruct Hy as (s' & Hn & Hy).
    pose proof (sim_token p d (i_tok i) Hgi) as Hs. unfold sim_at in Hs.
    destruct Hgi as [Hki Hvi].
    destruct (delta p (i_tok i)) as [[[p' ds] cs]|] eqn:Ed.
    + destruct Hs as (n & (f & n1 & cs1 & mid & f2 & n2 & cs2 & Hf & Hst & -> & ->) & Hn0 & Hb).
      specialize (IH p' (length ds + d)%nat s' (i_loc i) fin Hgr Hy).
      destruct (tparse p' (length ds + d) its fin) as [[[c e] ev] rv].
      destruct IH as (m & o & Hm & Hc & He & Hev & Hlen).
      assert (Hk1 : fst (la_of (Some (i_tok i))) <> 1) by (cbn; lia).
      pose proof (feed_shift src next f _ _ _ _ _ _ (i_loc i) s' Hk1 Hf) as H1.
      pose proof (settle_steps src next f2 _ _ _ _ (i_loc i) s' Hst) as H2.
      pose proof (steps_trans _ _ _ _ _ _ (steps_trans _ _ _ _ _ _ H1 _ _ _ H2) _ _ _ Hm) as H3.
      rewrite <- surjective_pairing in H3.
      eapply (steps_read _ _ _ l s 0 _ _ _ (Some (i_tok i))) in H3; [|apply reads_stack|exact Hn|lia].
      eexists. eexists. split; [exact H3|].
      destruct (of_lex (i_evs i)) as (A1 & A2 & A3). destruct (of_call cs1) as (B1 & B2 & B3). destruct (of_call cs2) as (C1 & C2 & C3).
      rewrite !calls_app, !errs_app, !lexs_app, A1, A2, A3, B1, B2, B3, C1, C2, C3, Hc, He, Hev.
      cbn [app]. repeat split; auto. cbn [length]. lia.
    + destruct Hs as (n & Hr & Hb).
      change (la_of (Some (i_tok i))) with
        (Z.of_N (t_kind (i_tok i)), match t_val (i_tok i) with Some x => VStr x | None => VNone end) in Hr.
      eapply rejected_steps in Hr; [| lia | lia].
      assert (Hn0 : (0 < n)%nat) by (inversion Hr; subst; lia).
      eapply (steps_read _ _ _ l s 0 _ _ _ (Some (i_tok i))) in Hr; [|apply reads_stack|exact Hn|exact Hn0].
      exists n. eexists. split; [exact Hr|].
      destruct (of_lex (i_evs i)) as (A1 & A2 & A3). destruct (of_call (pending p)) as (B1 & B2 & B3).
      rewrite !calls_app, !errs_app, !lexs_app, A1, A2, A3, B1, B2, B3. cbn [calls_of errs_of lexs_of flat_map app].
      rewrite !app_nil_r. repeat split; auto. cbn [length]. lia.
Qed.

(** The parser from its initial configuration. *)
Theorem run_total s its fin :
  Forall (fun i => good_token (i_tok i)) its -> yields s loc0 its fin ->
  let '(c, e, ev, rv) := tparse PTop 0 its fin in
  exists o, (forall fuel, (8 * length its + 11 <= fuel)%nat -> drive next fuel (cfg0 s) = Some (o, rv)) /\
    calls_of o = c /\ errs_of o = e /\ lexs_of o = ev.
Proof.
  intros Hg Hy. pose proof (run_steps its PTop 0 s loc0 fin Hg Hy) as H.
  destruct (tparse PTop 0 its fin) as [[[c e] ev] rv].
  destruct H as (n & o & Hs & H1 & H2 & H3 & Hn). exists o. repeat split; auto.
  intros fuel Hf. eapply steps_drive; [exact Hs|]. cbn in Hn. lia.
Qed.
End Run.
