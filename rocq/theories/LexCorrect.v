(** The table-driven scanner of Flex.v implements the specification of LexRules.v:
    bisimulation between table states and vectors of derivatives. *)
From Coq Require Import String Ascii NArith Arith List Bool Lia.
From Verif Require Import Base Regex LexRules FlexTables Flex.
Import ListNotations.
Local Open Scope N_scope.

(** ** Vectors of derivatives *)

(** Live rules (number, what remains to be matched), in rule order. *)
Definition vec := list (N * re).

Definition dv (c : ascii) (v : vec) : vec :=
  filter (fun x => negb (re_eqb (snd x) Void)) (map (fun x => (fst x, deriv c (snd x))) v).

Fixpoint first_null (v : vec) : N :=
  match v with
  | [] => 0
  | (a, r) :: v' => if nullable r then a else first_null v'
  end.

Definition init_vec (sc : scond) (bol : bool) : vec :=
  map (fun r => (r_num r, r_re r)) (filter (active sc bol) rules).

Fixpoint vec_eqb (a b : vec) : bool :=
  match a, b with
  | [], [] => true
  | (n, r) :: a', (m, s) :: b' => (n =? m) && re_eqb r s && vec_eqb a' b'
  | _, _ => false
  end.

Lemma vec_eqb_eq a b : vec_eqb a b = true -> a = b.
Proof.
  revert b; induction a as [|[n r] a IH]; intros [|[m s] b]; cbn; try discriminate; auto.
  rewrite !andb_true_iff; intros [[H1 H2] H3].
  apply N.eqb_eq in H1. apply re_eqb_eq in H2. f_equal; [congruence | auto].
Qed.

(** ** Character classes *)

Definition all_bytes : list ascii := map (fun n => ascii_of_nat n) (List.seq 0 256).

Lemma all_bytes_in c : In c all_bytes.
Proof.
  unfold all_bytes. rewrite <- (ascii_nat_embedding c). apply (in_map ascii_of_nat), in_seq.
  pose proof (nat_ascii_bounded c). lia.
Qed.

Definition classes : list N := map N.of_nat (List.seq 1 42).

(** A representative byte of each class. *)
Definition rep (k : N) : ascii :=
  match find (fun c => match class_of c with Some k' => k' =? k | None => false end)
             (tl all_bytes) with
  | Some c => c
  | None => zero
  end.

Definition reps : list (N * ascii) := Eval vm_compute in map (fun k => (k, rep k)) classes.

Fixpoint dedup (l : list bset) : list bset :=
  match l with
  | [] => []
  | s :: l' => if existsb (bset_eqb s) l' then dedup l' else s :: dedup l'
  end.

Definition all_sets : list bset :=
  Eval vm_compute in dedup (flat_map (fun r => sets_of (r_re r)) rules).

Definition set_known (s : bset) : bool := existsb (bset_eqb s) all_sets.

Definition repf (k : N) : ascii :=
  match find (fun x => fst x =? k) reps with Some (_, c) => c | None => zero end.

Definition byte_ok (c : ascii) : bool :=
  match class_of c with
  | None => false
  | Some k =>
      existsb (fun x => fst x =? k) reps &&
      forallb (fun s => Bool.eqb (bset_mem s c) (bset_mem s (repf k))) all_sets
  end.

Lemma bytes_ok : forallb byte_ok all_bytes = true.
Proof. vm_compute. reflexivity. Qed.

(** Two bytes with the same class are in the same sets. *)
Definition known (r : re) : Prop := forall s, In s (sets_of r) -> set_known s = true.
Definition vknown (v : vec) : Prop := forall a r, In (a, r) v -> known r.

Lemma class_rep c :
  exists k, class_of c = Some k /\ In (k, repf k) reps /\
            forall s, set_known s = true -> bset_mem s c = bset_mem s (repf k).
Proof.
  pose proof bytes_ok as H. rewrite forallb_forall in H. specialize (H c (all_bytes_in c)).
  unfold byte_ok in H. destruct (class_of c) as [k|]; [|discriminate].
  apply andb_true_iff in H as [H1 H2]. exists k. split; auto. split.
  - unfold repf. apply existsb_exists in H1 as ([k' c'] & Hin & Hk). cbn in Hk.
    destruct (find (fun x : N * ascii => fst x =? k) reps) as [[k2 c2]|] eqn:E.
    + apply find_some in E as [E1 E2]. cbn in E2. apply N.eqb_eq in E2; subst. auto.
    + exfalso. apply (find_none _ _ E) in Hin. cbn in Hin. congruence.
  - intros s Hs. unfold set_known in Hs. apply existsb_exists in Hs as (s' & Hin & Heq).
    apply bset_eqb_eq in Heq; subst s'. rewrite forallb_forall in H2.
    apply eqb_prop, H2; auto.
Qed.

Lemma alt1_sets a x s : In s (sets_of (alt1 a x)) -> In s (sets_of a) \/ In s (sets_of x).
Proof.
  assert (Hg : forall a x, In s (sets_of (if alt_mem x a then a else Alt a x)) ->
                           In s (sets_of a) \/ In s (sets_of x)).
  { intros a' x'. destruct (alt_mem x' a'); cbn; auto. rewrite in_app_iff; auto. }
  unfold alt1. destruct x; auto; destruct a; auto; apply Hg.
Qed.

Lemma alt_sets a b s : In s (sets_of (alt a b)) -> In s (sets_of a) \/ In s (sets_of b).
Proof.
  revert a; induction b; intros a; cbn [alt]; try apply alt1_sets.
  intros H. apply IHb2 in H as [H|H].
  - apply IHb1 in H as [H|H]; auto. right; cbn; apply in_or_app; auto.
  - right; cbn; apply in_or_app; auto.
Qed.

Lemma seq_sets a b s : In s (sets_of (seq a b)) -> In s (sets_of a) \/ In s (sets_of b).
Proof.
  unfold seq. destruct a, b; cbn; rewrite ?in_app_iff; tauto.
Qed.

Lemma deriv_sets c r s : In s (sets_of (deriv c r)) -> In s (sets_of r).
Proof.
  induction r; cbn; auto.
  - destruct (bset_mem b c); cbn; tauto.
  - intros H; apply alt_sets in H. apply in_or_app. tauto.
  - intros H. apply in_or_app. destruct (nullable r1).
    + apply alt_sets in H as [H|H]; [apply seq_sets in H|]; tauto.
    + apply seq_sets in H; tauto.
  - intros H. apply seq_sets in H. cbn in H. tauto.
Qed.

Lemma dv_in c v a r :
  In (a, r) (dv c v) <-> exists r0, In (a, r0) v /\ r = deriv c r0 /\ r <> Void.
Proof.
  unfold dv. rewrite filter_In, in_map_iff. cbn. split.
  - intros [((a0, r0) & H1 & H2) H3]. cbn in H1. injection H1 as <- <-.
    exists r0. repeat split; auto. intros E; rewrite E in H3; discriminate.
  - intros (r0 & H1 & -> & H3). split.
    + exists (a, r0); auto.
    + destruct (deriv c r0); cbn; auto; congruence.
Qed.

Lemma dv_known c v : vknown v -> vknown (dv c v).
Proof.
  intros H a r Hin s Hs. apply dv_in in Hin as (r0 & H1 & -> & _).
  apply deriv_sets in Hs. eapply H; eauto.
Qed.

Lemma dv_same c d v :
  vknown v -> (forall s, set_known s = true -> bset_mem s c = bset_mem s d) -> dv c v = dv d v.
Proof.
  intros Hv Hs. unfold dv. f_equal. apply map_ext_in. intros [a r] Hin. cbn. f_equal.
  apply deriv_same. intros s Hin2. apply Hs. eapply Hv; eauto.
Qed.

Lemma rules_known : forallb (fun r => forallb set_known (sets_of (r_re r))) rules = true.
Proof. vm_compute. reflexivity. Qed.

Lemma known_gen (l : list rule) (f : rule -> bool) :
  forallb (fun r => forallb set_known (sets_of (r_re r))) l = true ->
  vknown (map (fun r => (r_num r, r_re r)) (filter f l)).
Proof.
  intros H a r Hin s Hs. apply in_map_iff in Hin as (ru & E & Hin).
  assert (r = r_re ru) by congruence. subst r. clear E.
  apply filter_In in Hin as [Hin _].
  rewrite forallb_forall in H. specialize (H _ Hin). rewrite forallb_forall in H. auto.
Qed.

Lemma init_known sc bol : vknown (init_vec sc bol).
Proof. exact (known_gen rules (active sc bol) rules_known). Qed.

(** ** The bisimulation *)

Definition pair := (N * vec)%type.

Definition start_pairs : list pair :=
  [ (1, init_vec INITIAL false); (2, init_vec INITIAL true);
    (3, init_vec C_COMMENT false); (4, init_vec C_COMMENT true) ].

Definition mem_pair (p : pair) (l : list pair) : bool :=
  existsb (fun q => (fst q =? fst p) && vec_eqb (snd q) (snd p)) l.

(* successors that the scanner loop continues from *)
Definition succs (p : pair) : list pair :=
  flat_map (fun kc =>
    match next_state chain_fuel (fst p) (fst kc) with
    | Some q => match tget yy_base q with
                | Some b => if b =? 289 then [] else [(q, dv (snd kc) (snd p))]
                | None => [] end
    | None => []
    end) reps.

Fixpoint explore (fuel : nat) (todo seen : list pair) : list pair :=
  match fuel with
  | O => seen
  | S f =>
      match todo with
      | [] => seen
      | p :: todo' =>
          if mem_pair p seen then explore f todo' seen
          else explore f (succs p ++ todo') (p :: seen)
      end
  end.

Definition pairs : list pair := Eval vm_compute in explore 9999 start_pairs [].

Definition stopped (v : vec) : bool :=
  forallb (fun kc => match dv (snd kc) v with [] => true | _ => false end) reps.

Definition edge_ok (p : pair) (kc : N * ascii) : bool :=
  match next_state chain_fuel (fst p) (fst kc) with
  | None => false
  | Some q =>
      let v' := dv (snd kc) (snd p) in
      match tget yy_base q, tget yy_accept q with
      | Some b, Some a =>
          if b =? 289 then (a =? first_null v') && stopped v'
          else mem_pair (q, v') pairs
      | _, _ => false
      end
  end.

Definition pair_ok (p : pair) : bool :=
  match tget yy_accept (fst p) with
  | Some a => (a =? first_null (snd p)) && forallb (edge_ok p) reps
  | None => false
  end.

Lemma pairs_ok : forallb pair_ok pairs = true.
Proof. vm_compute. reflexivity. Qed.

Lemma starts_ok : forallb (fun p => mem_pair p pairs) start_pairs = true.
Proof. vm_compute. reflexivity. Qed.

Lemma mem_pair_in p l : mem_pair p l = true -> In p l.
Proof.
  unfold mem_pair. intros H. apply existsb_exists in H as ([q v] & Hin & H).
  apply andb_true_iff in H as [H1 H2]. cbn in *. apply N.eqb_eq in H1.
  apply vec_eqb_eq in H2. destruct p; cbn in *; subst; auto.
Qed.

(** ** Longest match by derivatives *)

Fixpoint best (v : vec) (cs : bytes) (n : nat) (last : option (N * nat)) : option (N * nat) :=
  let a := first_null v in
  let last' := if a =? 0 then last else Some (a, n) in
  match cs with
  | [] => last'
  | c :: cs' => best (dv c v) cs' (S n) last'
  end.

Lemma best_nil cs n last : best [] cs n last = last.
Proof. revert n; induction cs; intros n; cbn; auto. Qed.

Lemma stopped_dv v c : vknown v -> stopped v = true -> dv c v = [].
Proof.
  intros Hv Hs. destruct (class_rep c) as (k & _ & Hin & Hsame).
  rewrite (dv_same c (repf k) v Hv Hsame).
  unfold stopped in Hs. rewrite forallb_forall in Hs. specialize (Hs _ Hin). cbn in Hs.
  destruct (dv (repf k) v); auto; discriminate.
Qed.

Lemma best_stopped v cs n last :
  vknown v -> stopped v = true ->
  best v cs n last = if first_null v =? 0 then last else Some (first_null v, n).
Proof.
  intros Hv Hs. destruct cs as [|c cs]; cbn; auto. rewrite stopped_dv, best_nil; auto.
Qed.

(* the action attached to the remembered accepting state *)
Definition last_rel (last : option (N * nat)) (la : option (N * nat)) : Prop :=
  match last, la with
  | None, None => True
  | Some (st, n), Some (a, m) => tget yy_accept st = Some a /\ n = m
  | _, _ => False
  end.

Lemma pair_facts q v :
  In (q, v) pairs ->
  tget yy_accept q = Some (first_null v) /\ forall kc, In kc reps -> edge_ok (q, v) kc = true.
Proof.
  intros Hin. pose proof pairs_ok as H. rewrite forallb_forall in H. specialize (H _ Hin).
  unfold pair_ok in H. cbn [fst snd] in H. destruct (tget yy_accept q) as [a|]; [|discriminate].
  apply andb_true_iff in H as [H1 H2]. apply N.eqb_eq in H1; subst. split; auto.
  intros kc Hk. rewrite forallb_forall in H2. auto.
Qed.

Theorem match_loop_best cs : forall q v last la n,
  In (q, v) pairs -> vknown v -> last_rel last la ->
  exists r, match_loop q last n cs = Some r /\
            match best v cs n la with
            | Some x => find_action r = Some x
            | None => find_action r = None
            end.
Proof.
  induction cs as [|c cs IH]; intros q v last la n Hin Hv Hl.
  - destruct (pair_facts q v Hin) as [Ha _]. cbn [match_loop best].
    eexists; split; [reflexivity|]. unfold find_action. rewrite Ha.
    destruct (first_null v =? 0).
    + destruct last as [[st m]|], la as [[a m']|]; cbn in Hl; try tauto.
      destruct Hl as [-> ->]. reflexivity.
    + reflexivity.
  - destruct (pair_facts q v Hin) as [Ha He].
    destruct (class_rep c) as (k & Hk & Hr & Hsame).
    specialize (He _ Hr). unfold edge_ok in He. cbn [fst snd] in He.
    cbn [match_loop best]. rewrite Hk, Ha.
    destruct (next_state chain_fuel q k) as [q'|] eqn:Eq; [|discriminate].
    destruct (tget yy_base q') as [b|] eqn:Eb; [|discriminate].
    destruct (tget yy_accept q') as [a'|] eqn:Ea'; [|discriminate].
    rewrite <- (dv_same c (repf k) v Hv Hsame) in He.
    set (last' := if first_null v =? 0 then last else Some (q, n)).
    set (la' := if first_null v =? 0 then la else Some (first_null v, n)).
    assert (Hl' : last_rel last' la').
    { unfold last', la'. destruct (first_null v =? 0); auto. cbn; auto. }
    destruct (b =? 289) eqn:E289.
    + apply andb_true_iff in He as [He1 He2]. apply N.eqb_eq in He1.
      eexists; split; [reflexivity|].
      rewrite best_stopped by (auto using dv_known).
      unfold find_action. rewrite Ea', <- He1. destruct (a' =? 0); auto.
      destruct last' as [[st m]|], la' as [[a m']|]; cbn in Hl'; try tauto.
      destruct Hl' as [-> ->]. reflexivity.
    + apply mem_pair_in in He. apply IH; auto using dv_known.
Qed.

(** ** [best] is the longest match *)

Definition vmatches (v : vec) (cs : bytes) (a : N) (k : nat) : Prop :=
  exists r, In (a, r) v /\ (k <= length cs)%nat /\ lang r (firstn k cs).

Inductive sortedv : vec -> Prop :=
| sv_nil : sortedv []
| sv_cons : forall a r v, a <> 0 -> (forall b s, In (b, s) v -> a < b) -> sortedv v ->
                          sortedv ((a, r) :: v).

Lemma sortedv_dv c v : sortedv v -> sortedv (dv c v).
Proof.
  induction 1 as [|a r v Ha Hlt Hs IH]; [constructor|].
  unfold dv in *. cbn. destruct (re_eqb (deriv c r) Void); cbn; auto.
  constructor; auto. intros b s Hin.
  assert (H : In (b, s) (dv c v)) by exact Hin.
  apply dv_in in H as (r0 & H & _). eauto.
Qed.

Lemma first_null_spec v :
  sortedv v ->
  (first_null v = 0 /\ forall a r, In (a, r) v -> nullable r = false) \/
  (first_null v <> 0 /\ (exists r, In (first_null v, r) v /\ nullable r = true) /\
   forall a r, In (a, r) v -> nullable r = true -> first_null v <= a).
Proof.
  induction 1 as [|a r v Ha Hlt Hs IH]; cbn.
  - left; split; auto; tauto.
  - destruct (nullable r) eqn:E.
    + right. split; auto. split; [eauto|].
      intros b s [H|H] _; [injection H as -> ->; lia | apply Hlt in H; lia].
    + destruct IH as [[H1 H2]|(H1 & (s & H2 & H3) & H4)].
      * left; split; auto. intros b s [H|H]; [injection H as -> ->; auto | eauto].
      * right; split; auto. split; [eauto|].
        intros b t [H|H] Hn; [injection H as -> ->; congruence | eauto].
Qed.

Lemma vmatches_cons v c cs a k :
  vmatches v (c :: cs) a (S k) <-> vmatches (dv c v) cs a k.
Proof.
  unfold vmatches. split.
  - intros (r & H1 & H2 & H3). cbn in H2, H3. apply deriv_lang in H3.
    exists (deriv c r). repeat split; auto; [|lia].
    apply dv_in. exists r; repeat split; auto. intros E; rewrite E in H3; inversion H3.
  - intros (r & H1 & H2 & H3). apply dv_in in H1 as (r0 & H1 & -> & _).
    exists r0. repeat split; auto; [cbn; lia|]. cbn. apply deriv_lang; auto.
Qed.

Lemma vmatches_0 v cs a : vmatches v cs a 0 <-> exists r, In (a, r) v /\ nullable r = true.
Proof.
  unfold vmatches. cbn. split.
  - intros (r & H1 & _ & H2). apply nullable_lang in H2. eauto.
  - intros (r & H1 & H2). apply nullable_lang in H2. exists r; repeat split; auto; lia.
Qed.

Lemma best_spec cs : forall v n last,
  sortedv v ->
  (best v cs n last = last /\ forall a k, ~ vmatches v cs a k) \/
  (exists a k, best v cs n last = Some (a, (n + k)%nat) /\ vmatches v cs a k /\
     forall a' k', vmatches v cs a' k' -> (k' < k)%nat \/ (k' = k /\ a <= a')).
Proof.
  induction cs as [|c cs IH]; intros v n last Hs.
  - cbn [best]. destruct (first_null_spec v Hs) as [[H1 H2]|(H1 & H2 & H3)].
    + left. rewrite H1. split; auto. intros a k (r & Hin & Hk & Hl). cbn in Hk.
      assert (k = 0%nat) by lia. subst. cbn in Hl. apply nullable_lang in Hl.
      rewrite (H2 _ _ Hin) in Hl. discriminate.
    + right. exists (first_null v), 0%nat. apply N.eqb_neq in H1. rewrite H1.
      rewrite Nat.add_0_r. split; auto. split; [apply vmatches_0; auto|].
      intros a' k' (r & Hin & Hk & Hl). cbn in Hk. assert (k' = 0%nat) by lia. subst.
      right; split; auto. cbn in Hl. apply nullable_lang in Hl. eauto.
  - cbn [best]. set (last' := if first_null v =? 0 then last else Some (first_null v, n)).
    destruct (IH (dv c v) (S n) last' (sortedv_dv c v Hs)) as [[H1 H2]|(a & k & H1 & H2 & H3)].
    + rewrite H1. unfold last'.
      destruct (first_null_spec v Hs) as [[G1 G2]|(G1 & G2 & G3)].
      * left. rewrite G1. split; auto. intros a [|k] Hm.
        -- apply vmatches_0 in Hm as (r & Hin & Hn). rewrite (G2 _ _ Hin) in Hn. discriminate.
        -- apply vmatches_cons in Hm. eapply H2; eauto.
      * right. exists (first_null v), 0%nat. apply N.eqb_neq in G1. rewrite G1.
        rewrite Nat.add_0_r. split; auto. split; [apply vmatches_0; auto|].
        intros a' [|k'] Hm.
        -- right; split; auto. apply vmatches_0 in Hm as (r & Hin & Hn). eauto.
        -- apply vmatches_cons in Hm. exfalso; eapply H2; eauto.
    + right. exists a, (S k). rewrite H1. split; [f_equal; f_equal; lia|].
      split; [apply vmatches_cons; auto|].
      intros a' [|k'] Hm; [left; lia|].
      apply vmatches_cons in Hm. destruct (H3 _ _ Hm) as [H|[H H']]; [left; lia | right; lia].
Qed.

(** ** One scan *)

Definition start_of (sc : scond) : N := match sc with INITIAL => 1 | C_COMMENT => 3 end.

Fixpoint sortedb (v : vec) : bool :=
  match v with
  | [] => true
  | (a, _) :: v' => negb (a =? 0) && forallb (fun y : N * re => a <? fst y) v' && sortedb v'
  end.

Lemma sortedb_ok v : sortedb v = true -> sortedv v.
Proof.
  induction v as [|[a r] v IH]; cbn; [constructor|].
  rewrite !andb_true_iff; intros [[H1 H2] H3]. constructor; auto.
  - apply negb_true_iff, N.eqb_neq in H1; auto.
  - intros b s Hin. rewrite forallb_forall in H2. specialize (H2 _ Hin). cbn in H2.
    apply N.ltb_lt; auto.
Qed.

Lemma init_sorted sc bol : sortedv (init_vec sc bol).
Proof. apply sortedb_ok. destruct sc, bol; vm_compute; reflexivity. Qed.

Lemma init_pair sc bol : In (start_of sc + (if (bol : bool) then 1 else 0), init_vec sc bol) pairs.
Proof.
  apply mem_pair_in. pose proof starts_ok as H. unfold start_pairs in H. cbn [forallb] in H.
  rewrite !andb_true_iff in H. destruct H as (H1 & H2 & H3 & H4 & _).
  destruct sc, bol; [exact H2|exact H1|exact H4|exact H3].
Qed.

Lemma vmatches_gen (l : list rule) sc bol cs a k :
  vmatches (map (fun r => (r_num r, r_re r)) (filter (active sc bol) l)) cs a k <->
  exists r, r_num r = a /\ In r l /\ active sc bol r = true /\ (k <= length cs)%nat /\
            lang (r_re r) (firstn k cs).
Proof.
  unfold vmatches. split.
  - intros (r & Hin & Hk & Hl). apply in_map_iff in Hin as (ru & E & Hin).
    apply filter_In in Hin as [H1 H2]. exists ru.
    assert (r_num ru = a) by congruence. assert (r_re ru = r) by congruence. subst. auto.
  - intros (r & <- & H1 & H2 & H3 & H4). exists (r_re r). repeat split; auto.
    apply in_map_iff. exists r. split; auto. apply filter_In; auto.
Qed.

Lemma vmatches_init sc bol cs a k :
  vmatches (init_vec sc bol) cs a k <-> exists r, r_num r = a /\ rule_matches sc bol cs r k.
Proof. exact (vmatches_gen rules sc bol cs a k). Qed.

(** Among the rules active in one start condition the number identifies the rule. *)
Definition uniq_check sc bol : bool :=
  forallb (fun r => forallb (fun r' =>
     if r_num r =? r_num r' then Nat.eqb (r_trail r) (r_trail r') && re_eqb (r_re r) (r_re r')
     else true)
     (filter (active sc bol) rules)) (filter (active sc bol) rules).

Lemma default_matches sc bol cs :
  cs <> [] -> exists a, vmatches (init_vec sc bol) cs a 1.
Proof.
  intros Hne. destruct cs as [|c cs]; [congruence|]. exists 37. apply vmatches_init.
  assert (Hl : lang (Alt dot nl) [c]).
  { destruct (bset_mem (BSet true [(10, 10)]) c) eqn:E.
    - apply L_altl. constructor; auto.
    - apply L_altr. constructor. unfold bset_mem in *. cbn [bs_neg bs_ranges set_of] in *.
      destruct (in_ranges [(10, 10)] (N_of_ascii c)); cbn in *; congruence. }
  exists (Rule 37 sc false (Alt dot nl) 0). split; auto.
  unfold rule_matches. split.
  - destruct sc; unfold rules; cbn [In]; unfold R; tauto.
  - split; [destruct sc; reflexivity|]. split; [cbn; lia|]. exact Hl.
Qed.

(** C01 for one lexeme: the scanner picks exactly the rule and length of the
    specification, for every start condition and every non-empty text. *)
Theorem scan_one_spec sc bol cs :
  cs <> [] ->
  exists r n, scan_one (start_of sc) bol cs = Some (r_num r, n) /\
              longest_first sc bol cs r n /\ (1 <= n)%nat.
Proof.
  intros Hne. unfold scan_one.
  destruct (match_loop_best cs _ _ None None 0 (init_pair sc bol) (init_known sc bol) I)
    as (r & Hr & Hb).
  destruct (best_spec cs (init_vec sc bol) 0 None (init_sorted sc bol))
    as [[_ Hno]|(a & k & H1 & H2 & H3)].
  - destruct (default_matches sc bol cs Hne) as [a Ha]. exfalso. eapply Hno; eauto.
  - rewrite Hr. rewrite H1 in Hb. cbn in Hb.
    apply vmatches_init in H2 as (ru & <- & Hm).
    exists ru, k. split; auto. split.
    + split; auto. intros r' n' Hm'. apply H3. apply vmatches_init. eauto.
    + destruct (default_matches sc bol cs Hne) as [a Ha]. apply H3 in Ha. lia.
Qed.
