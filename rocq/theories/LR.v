(** The driver of Bison.v reduced to a pure stack machine. *)
From Coq Require Import String Ascii ZArith NArith Arith List Bool Lia.
From Verif Require Import Base Flex BisonTables Items Decimal Bison.
Import ListNotations.
Local Open Scope Z_scope.

Definition red1 (r : Z) (stk : stack) : option (stack * list call) :=
  let? len := zget yyr2_ r in
  let? lhs := zget yyr1_ r in
  let? (s, _) := nth_error stk (Z.to_nat len) in
  let? g := goto_state s lhs in
  let? (v, calls) := semantic r stk in
  Some ((g, v) :: skipn (Z.to_nat len) stk, calls).

Inductive fres := FShift (stk : stack) | FErr (stk : stack).

(** Reductions under lookahead [k] up to the shift or the error. *)
Fixpoint feed (fuel : nat) (k : Z) (v : sval) (stk : stack) : option (nat * list call * fres) :=
  match fuel with
  | O => None
  | S f =>
      let? (s, _) := nth_error stk 0 in
      if s =? yyfinal_ then None
      else
        let? p := zget yypact_ s in
        let? r := zget yydefact_ s in
        let d :=
          if r =? 0 then Some (O, [], FErr stk)
          else
            let? (stk', cs) := red1 r stk in
            let? (n, cs', x) := feed f k v stk' in
            Some (S n, cs ++ cs', x) in
        if p =? yypact_ninf_ then d
        else
          let n := p + k in
          if (n <? 0) || (yylast_ <? n) then d
          else
            let? ck := zget yycheck_ n in
            if negb (ck =? k) then d
            else
              let? t := zget yytable_ n in
              if t <=? 0 then None
              else Some (1%nat, [], FShift ((t, v) :: stk))
  end.

(** Reductions that need no lookahead. *)
Fixpoint settle (fuel : nat) (stk : stack) : option (nat * list call * stack) :=
  match fuel with
  | O => None
  | S f =>
      let? (s, _) := nth_error stk 0 in
      if s =? yyfinal_ then Some (O, [], stk)
      else
        let? p := zget yypact_ s in
        if p =? yypact_ninf_ then
          let? r := zget yydefact_ s in
          if r =? 0 then None
          else
            let? (stk', cs) := red1 r stk in
            let? (n, cs', x) := settle f stk' in
            Some (S n, cs ++ cs', x)
        else Some (O, [], stk)
  end.

Section Steps.
Variable src : Type.
Variable next : src -> loc -> option (src * loc * list event * option token).

Inductive steps : nat -> cfg src -> list out -> res src -> Prop :=
| st_refl : forall c, steps 0 c [] (Go c)
| st_step : forall n c o c' o' r, step next c = Some (o, Go c') -> steps n c' o' r ->
    steps (S n) c (o ++ o') r
| st_done : forall c o rv, step next c = Some (o, Done rv) -> steps 1 c o (Done rv).

Lemma steps_trans n c o c' : steps n c o (Go c') -> forall m o' r, steps m c' o' r ->
  steps (n + m) c (o ++ o') r.
Proof.
  intros H. remember (Go c') as g eqn:E. revert c' E.
  induction H; intros c1 E m o2 r2 H2.
  - injection E as ->. exact H2.
  - subst. rewrite <- app_assoc. cbn. econstructor; eauto.
  - discriminate.
Qed.

Lemma steps_drive n c o rv : steps n c o (Done rv) -> forall fuel, (n <= fuel)%nat ->
  drive next fuel c = Some (o, rv).
Proof.
  intros H. remember (Done rv) as g eqn:E. revert rv E.
  induction H; intros rv1 E fuel Hf; [discriminate| |].
  - destruct fuel as [|f]; [lia|]. cbn. rewrite H. rewrite (IHsteps _ E) by lia. reflexivity.
  - injection E as ->. destruct fuel as [|f]; [lia|]. cbn. rewrite H. reflexivity.
Qed.

Lemma reduce_red1 r stk la l (s : src) e o stk' cs :
  red1 r stk = Some (stk', cs) ->
  reduce r (Cfg stk la l s e) o = Some (o ++ map OCall cs, Go (Cfg stk' la l s e)).
Proof.
  unfold red1, reduce. cbn [c_stk c_la c_loc c_src c_err].
  destruct (zget yyr2_ r) as [len|]; [|discriminate].
  destruct (zget yyr1_ r) as [lhs|]; [|discriminate].
  destruct (nth_error stk (Z.to_nat len)) as [[s0 v0]|]; [|discriminate].
  destruct (goto_state s0 lhs) as [g|]; [|discriminate].
  destruct (semantic r stk) as [[v calls]|]; [|discriminate].
  intros [= <- <-]. reflexivity.
Qed.

(** [feed] is what the driver does with a lookahead present. *)
Lemma feed_shift f : forall k v stk n cs stk' l s, k <> 1 ->
  feed f k v stk = Some (n, cs, FShift stk') ->
  steps n (Cfg stk (Some (k, v)) l s 0) (map OCall cs) (Go (Cfg stk' None l s 0)).
Proof.
  induction f as [|f IH]; cbn [feed]; intros k v stk n cs stk' l s Hk H; [discriminate|].
  destruct (nth_error stk 0) as [[s0 v0]|] eqn:E0; [|discriminate].
  destruct (s0 =? yyfinal_) eqn:Ef; [discriminate|].
  destruct (zget yypact_ s0) as [p|] eqn:Ep; [|discriminate].
  destruct (zget yydefact_ s0) as [r|] eqn:Er; [|discriminate].
  assert (Hd : (if r =? 0 then Some (O, [], FErr stk) else
            let? (stk', cs) := red1 r stk in
            let? (n, cs', x) := feed f k v stk' in
            Some (S n, cs ++ cs', x)) = Some (n, cs, FShift stk') ->
          step next (Cfg stk (Some (k, v)) l s 0) = dflt s0 (Cfg stk (Some (k, v)) l s 0) [] ->
          steps n (Cfg stk (Some (k, v)) l s 0) (map OCall cs) (Go (Cfg stk' None l s 0))).
  { intros Hd Hs. unfold dflt in Hs. rewrite Er in Hs.
    destruct (r =? 0); [discriminate|].
    destruct (red1 r stk) as [[stk1 cs1]|] eqn:E1; [|discriminate].
    destruct (feed f k v stk1) as [[[n1 cs2] x]|] eqn:E2; [|discriminate].
    injection Hd as <- <- ->. rewrite map_app.
    rewrite (reduce_red1 _ _ _ _ _ _ _ _ _ E1) in Hs.
    econstructor; [exact Hs|]. eapply IH; eauto. }
  assert (Hk1 : (k =? 1) = false) by (apply Z.eqb_neq; auto).
  destruct (p =? yypact_ninf_) eqn:Epn.
  { apply Hd; auto. unfold step. cbn [c_stk c_la]. rewrite E0, Ef, Ep, Epn. reflexivity. }
  destruct ((p + k <? 0) || (yylast_ <? p + k)) eqn:En.
  { apply Hd; auto. unfold step. cbn [c_stk c_la]. rewrite E0, Ef, Ep, Epn, Hk1, En. reflexivity. }
  destruct (zget yycheck_ (p + k)) as [ck|] eqn:Ec; [|discriminate].
  destruct (negb (ck =? k)) eqn:Eck.
  { apply Hd; auto. unfold step. cbn [c_stk c_la]. rewrite E0, Ef, Ep, Epn, Hk1, En, Ec, Eck. reflexivity. }
  destruct (zget yytable_ (p + k)) as [t|] eqn:Et; [|discriminate].
  destruct (t <=? 0) eqn:Et0; [discriminate|]. injection H as <- <- <-.
  change (map OCall []) with (@nil out ++ []). eapply st_step; [|apply st_refl].
  unfold step. cbn [c_stk c_la]. rewrite E0, Ef, Ep, Epn, Hk1, En, Ec, Eck, Et, Et0. reflexivity.
Qed.

(** No state shifts the error token, so error recovery empties the stack. *)
Definition no_error_shift (s : Z) : bool :=
  match zget yypact_ s with
  | None => false
  | Some p =>
      if p =? yypact_ninf_ then true
      else if (0 <=? p + 1) && (p + 1 <=? yylast_) then
        match zget yycheck_ (p + 1) with None => false | Some c => negb (c =? 1) end
      else true
  end.

Lemma pop_error_none stk :
  stk <> [] -> forallb (fun x => no_error_shift (fst x)) stk = true -> pop_error stk = Some None.
Proof.
  induction stk as [|[s v] stk IH]; intros Hn H; [congruence|].
  cbn in H. apply andb_true_iff in H as [H1 H2]. cbn [pop_error].
  assert (Hc : match stk with [] => Some None | _ => pop_error stk end = Some None)
    by (destruct stk; [reflexivity| apply IH; [discriminate|auto]]).
  rewrite Hc. unfold no_error_shift in H1.
  destruct (zget yypact_ s) as [p|]; [|discriminate].
  destruct (p =? yypact_ninf_); [reflexivity|].
  destruct ((0 <=? p + 1) && (p + 1 <=? yylast_)); [|reflexivity].
  destruct (zget yycheck_ (p + 1)) as [c|]; [|discriminate].
  destruct (c =? 1); [discriminate|reflexivity].
Qed.

Lemma feed_err f : forall k v stk n cs stk' l s m, k <> 1 ->
  feed f k v stk = Some (n, cs, FErr stk') ->
  forallb (fun x => no_error_shift (fst x)) stk' = true ->
  (let? (s, _) := nth_error stk' 0 in syntax_error s (Some (k, v))) = Some m ->
  steps (S n) (Cfg stk (Some (k, v)) l s 0) (map OCall cs ++ [OErr (error_text l m)]) (Done 1).
Proof.
  induction f as [|f IH]; cbn [feed]; intros k v stk n cs stk' l s m Hk H Hst Hm; [discriminate|].
  destruct (nth_error stk 0) as [[s0 v0]|] eqn:E0; [|discriminate].
  destruct (s0 =? yyfinal_) eqn:Ef; [discriminate|].
  destruct (zget yypact_ s0) as [p|] eqn:Ep; [|discriminate].
  destruct (zget yydefact_ s0) as [r|] eqn:Er; [|discriminate].
  assert (Hd : (if r =? 0 then Some (O, [], FErr stk) else
            let? (stk', cs) := red1 r stk in
            let? (n, cs', x) := feed f k v stk' in
            Some (S n, cs ++ cs', x)) = Some (n, cs, FErr stk') ->
          step next (Cfg stk (Some (k, v)) l s 0) = dflt s0 (Cfg stk (Some (k, v)) l s 0) [] ->
          steps (S n) (Cfg stk (Some (k, v)) l s 0)
                (map OCall cs ++ [OErr (error_text l m)]) (Done 1)).
  { intros Hd Hs. unfold dflt in Hs. rewrite Er in Hs.
    destruct (r =? 0).
    - injection Hd as <- <- <-. cbn [map app]. apply st_done. rewrite Hs.
      unfold errlab. cbn [c_err c_stk c_la c_loc]. rewrite E0 in *. cbn in Hm |- *. rewrite Hm.
      unfold errlab1. cbn [c_stk]. rewrite pop_error_none; auto. destruct stk; [discriminate|congruence].
    - destruct (red1 r stk) as [[stk1 cs1]|] eqn:E1; [|discriminate].
      destruct (feed f k v stk1) as [[[n1 cs2] x]|] eqn:E2; [|discriminate].
      injection Hd as <- <- ->. rewrite map_app, <- app_assoc.
      rewrite (reduce_red1 _ _ _ _ _ _ _ _ _ E1) in Hs.
      econstructor; [exact Hs|]. eapply IH; eauto. }
  assert (Hk1 : (k =? 1) = false) by (apply Z.eqb_neq; auto).
  destruct (p =? yypact_ninf_) eqn:Epn.
  { apply Hd; auto. unfold step. cbn [c_stk c_la]. rewrite E0, Ef, Ep, Epn. reflexivity. }
  destruct ((p + k <? 0) || (yylast_ <? p + k)) eqn:En.
  { apply Hd; auto. unfold step. cbn [c_stk c_la]. rewrite E0, Ef, Ep, Epn, Hk1, En. reflexivity. }
  destruct (zget yycheck_ (p + k)) as [ck|] eqn:Ec; [|discriminate].
  destruct (negb (ck =? k)) eqn:Eck.
  { apply Hd; auto. unfold step. cbn [c_stk c_la]. rewrite E0, Ef, Ep, Epn, Hk1, En, Ec, Eck. reflexivity. }
  destruct (zget yytable_ (p + k)) as [t|] eqn:Et; [|discriminate].
  destruct (t <=? 0) eqn:Et0; discriminate.
Qed.

Lemma settle_steps f : forall stk n cs stk' l s,
  settle f stk = Some (n, cs, stk') ->
  steps n (Cfg stk None l s 0) (map OCall cs) (Go (Cfg stk' None l s 0)).
Proof.
  induction f as [|f IH]; cbn [settle]; intros stk n cs stk' l s H; [discriminate|].
  destruct (nth_error stk 0) as [[s0 v0]|] eqn:E0; [|discriminate].
  destruct (s0 =? yyfinal_) eqn:Ef; [injection H as <- <- <-; constructor|].
  destruct (zget yypact_ s0) as [p|] eqn:Ep; [|discriminate].
  destruct (p =? yypact_ninf_) eqn:Epn; [|injection H as <- <- <-; constructor].
  destruct (zget yydefact_ s0) as [r|] eqn:Er; [|discriminate].
  destruct (r =? 0) eqn:Er0; [discriminate|].
  destruct (red1 r stk) as [[stk1 cs1]|] eqn:E1; [|discriminate].
  destruct (settle f stk1) as [[[n1 cs2] x]|] eqn:E2; [|discriminate].
  injection H as <- <- <-. rewrite map_app. econstructor; [|eapply IH; eauto].
  unfold step. cbn [c_stk c_la]. rewrite E0, Ef, Ep, Epn. unfold dflt. rewrite Er, Er0.
  rewrite (reduce_red1 _ _ _ _ _ _ _ _ _ E1). reflexivity.
Qed.

(** Reading the lookahead first does not change what follows. *)
Definition reads (stk : stack) : bool :=
  match nth_error stk 0 with
  | Some (s, _) =>
      negb (s =? yyfinal_) &&
      match zget yypact_ s with Some p => negb (p =? yypact_ninf_) | None => false end
  | None => false
  end.

Definition la_of (tk : option token) : Z * sval :=
  match tk with
  | None => (0, VNone)
  | Some t => (Z.of_N (t_kind t), match t_val t with Some x => VStr x | None => VNone end)
  end.

Lemma reduce_prefix r (c : cfg src) o1 o2 :
  reduce r c (o1 ++ o2) = let? (o, x) := reduce r c o2 in Some (o1 ++ o, x).
Proof.
  unfold reduce. destruct (zget yyr2_ r); [|reflexivity]. destruct (zget yyr1_ r); [|reflexivity].
  destruct (nth_error (c_stk c) _) as [[? ?]|]; [|reflexivity].
  destruct (goto_state _ _); [|reflexivity]. destruct (semantic _ _) as [[? ?]|]; [|reflexivity].
  rewrite <- app_assoc. reflexivity.
Qed.

Lemma errlab1_prefix (c : cfg src) o1 o2 :
  errlab1 c (o1 ++ o2) = let? (o, x) := errlab1 c o2 in Some (o1 ++ o, x).
Proof. unfold errlab1. destruct (pop_error _) as [[[? ?]|]|]; reflexivity. Qed.

Lemma errlab_prefix (c : cfg src) o1 o2 :
  errlab c (o1 ++ o2) = let? (o, x) := errlab c o2 in Some (o1 ++ o, x).
Proof.
  unfold errlab. destruct (c_err c =? 0).
  - destruct (nth_error (c_stk c) 0) as [[? ?]|]; [|reflexivity].
    destruct (syntax_error _ _); [|reflexivity]. rewrite <- app_assoc.
    destruct (c_err c =? 3); [destruct (c_la c) as [[[] ?]|]|]; try apply errlab1_prefix; reflexivity.
  - destruct (c_err c =? 3); [destruct (c_la c) as [[[] ?]|]|]; try apply errlab1_prefix; reflexivity.
Qed.

Lemma dflt_prefix s (c : cfg src) o1 o2 :
  dflt s c (o1 ++ o2) = let? (o, x) := dflt s c o2 in Some (o1 ++ o, x).
Proof.
  unfold dflt. destruct (zget yydefact_ s); [|reflexivity].
  destruct (_ =? 0); [apply errlab_prefix|apply reduce_prefix].
Qed.

Lemma step_read stk l s e s' l' evs tk :
  reads stk = true -> next s l = Some (s', l', evs, tk) ->
  step next (Cfg stk None l s e) =
  let? (o, x) := step next (Cfg stk (Some (la_of tk)) l' s' e) in Some (map OLex evs ++ o, x).
Proof.
  intros Hr Hn. unfold step at 1 2. cbn [c_stk c_la c_src c_loc c_err]. rewrite Hn.
  unfold reads in Hr. destruct (nth_error stk 0) as [[s0 v0]|]; [|discriminate].
  destruct (s0 =? yyfinal_); [discriminate|].
  destruct (zget yypact_ s0) as [p|]; [|discriminate].
  destruct (p =? yypact_ninf_); [discriminate|].
  fold (la_of tk). destruct (la_of tk) as [k v]. cbn [fst snd c_stk c_la c_src c_loc c_err].
  clear Hr Hn. set (O := map OLex evs).
  pose proof (fun c => errlab1_prefix c O []) as P1. pose proof (fun c => errlab_prefix c O []) as P2.
  pose proof (fun s c => dflt_prefix s c O []) as P3. pose proof (fun r c => reduce_prefix r c O []) as P4.
  setoid_rewrite app_nil_r in P1. setoid_rewrite app_nil_r in P2. setoid_rewrite app_nil_r in P3. setoid_rewrite app_nil_r in P4.
  destruct (k =? 1); [apply P1|].
  destruct (_ || _); [apply P3|].
  destruct (zget yycheck_ _); [|reflexivity].
  destruct (negb (_ =? k)); [apply P3|].
  destruct (zget yytable_ _); [|reflexivity].
  destruct (_ <=? 0); [destruct (_ =? yytable_ninf_); [apply P2|apply P4]|].
  rewrite app_nil_r. reflexivity.
Qed.

Lemma steps_read stk l s e s' l' evs tk n o r :
  reads stk = true -> next s l = Some (s', l', evs, tk) -> (0 < n)%nat ->
  steps n (Cfg stk (Some (la_of tk)) l' s' e) o r ->
  steps n (Cfg stk None l s e) (map OLex evs ++ o) r.
Proof.
  intros Hr Hn H0 H. pose proof (step_read stk l s e s' l' evs tk Hr Hn) as Hs.
  inversion H; subst; [lia| |].
  - rewrite H1 in Hs. rewrite app_assoc. econstructor; eauto.
  - rewrite H1 in Hs. constructor. auto.
Qed.
End Steps.
