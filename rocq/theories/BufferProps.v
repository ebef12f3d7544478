(** The buffer of the scanner is invisible: Buffer.v computes what Flex.v does. *)
From Coq Require Import String Ascii ZArith NArith Arith List Bool Lia.
From Verif Require Import Base FlexTables Flex Buffer.
Import ListNotations.
Local Open Scope nat_scope.

(** *** The array *)
Lemma store_ok b i c : i < length b -> exists b', store b i c = Some b'.
Proof. intros H. unfold store. destruct (Nat.ltb_spec i (length b)); [eauto|lia]. Qed.
Lemma store_eq b i c b' : store b i c = Some b' -> b' = firstn i b ++ Some c :: skipn (S i) b /\ i < length b.
Proof. unfold store. destruct (Nat.ltb_spec i (length b)); [|discriminate]. intros E. split; [congruence|assumption]. Qed.
Lemma store_length b i c b' : store b i c = Some b' -> length b' = length b /\ i < length b.
Proof.
  intros E. apply store_eq in E as [-> H]. rewrite app_length, firstn_length. change (length (Some c :: skipn (S i) b)) with (S (length (skipn (S i) b))). rewrite skipn_length. lia.
Qed.
Lemma load_store b i c b' j : store b i c = Some b' -> load b' j = if j =? i then Some c else load b j.
Proof.
  intros E. apply store_eq in E as [-> H]. unfold load.
  assert (L : length (firstn i b) = i) by (rewrite firstn_length; lia).
  destruct (Nat.eqb_spec j i) as [->|N].
  - rewrite nth_error_app2, L, Nat.sub_diag by lia. reflexivity.
  - destruct (Nat.lt_ge_cases j i) as [C|C].
    + rewrite nth_error_app1 by lia. rewrite <- (firstn_skipn i b) at 2. now rewrite nth_error_app1 by lia.
    + rewrite nth_error_app2, L by lia. replace (j - i) with (S (j - S i)) by lia. cbn [nth_error].
      rewrite <- (firstn_skipn (S i) b) at 2. rewrite nth_error_app2 by (rewrite firstn_length; lia).
      rewrite firstn_length. now replace (j - Nat.min (S i) (length b)) with (j - S i) by lia.
Qed.
Lemma load_lt b i c : load b i = Some c -> i < length b.
Proof. unfold load. destruct (nth_error b i) eqn:E; [|discriminate]. intros _. apply nth_error_Some. congruence. Qed.
Lemma split_at {A} (i : nat) : forall (l : list A) y, nth_error l i = Some y -> l = firstn i l ++ y :: skipn (S i) l.
Proof.
  induction i as [|i IH]; intros [|z l] y N; try discriminate N; [now injection N as ->|]. cbn [nth_error] in N. change (skipn (S (S i)) (z :: l)) with (skipn (S i) l). cbn [firstn app]. f_equal. now apply IH.
Qed.
Lemma store_back b i x h b1 : load b i = Some h -> store b i x = Some b1 -> store b1 i h = Some b.
Proof.
  intros L S. pose proof (store_length _ _ _ _ S) as [E I]. apply store_eq in S as [-> _]. unfold store. rewrite E. destruct (Nat.ltb_spec i (length b)); [|lia].
  assert (A : length (firstn i b) = i) by (rewrite firstn_length; lia).
  rewrite firstn_app, A, Nat.sub_diag, firstn_firstn, Nat.min_id. change (firstn 0 (Some x :: skipn (S i) b)) with (@nil (option ascii)). rewrite app_nil_r.
  rewrite skipn_app, A. rewrite skipn_all2 by lia. replace (S i - i) with 1 by lia. change (skipn 1 (Some x :: skipn (S i) b)) with (skipn (S i) b).
  unfold load in L. destruct (nth_error b i) as [[y|]|] eqn:N; try discriminate L. injection L as ->. f_equal. symmetry. now apply split_at.
Qed.
Lemma resize_length b n : length (resize b n) = n.
Proof. unfold resize. rewrite app_length, firstn_length, repeat_length. lia. Qed.
Lemma load_resize b n i : length b <= n -> i < length b -> load (resize b n) i = load b i.
Proof. intros H I. unfold load, resize. rewrite firstn_all2 by lia. now rewrite nth_error_app1 by lia. Qed.

(** [b] holds the bytes [cs] from [i]. *)
Definition holds (b : array) (i : nat) (cs : bytes) : Prop := forall j c, nth_error cs j = Some c -> load b (i + j) = Some c.
Lemma holds_nil b i : holds b i []. Proof. intros [|j] c H; discriminate H. Qed.
Lemma holds_cons b i c cs : holds b i (c :: cs) <-> load b i = Some c /\ holds b (S i) cs.
Proof.
  split.
  - intros H. split; [rewrite <- (Nat.add_0_r i); now apply H|]. intros j d D. rewrite Nat.add_succ_comm. now apply H.
  - intros [A B] [|j] d D; [injection D as <-; now rewrite Nat.add_0_r|]. rewrite <- Nat.add_succ_comm. now apply B.
Qed.
Lemma holds_app b i x y : holds b i (x ++ y) <-> holds b i x /\ holds b (i + length x) y.
Proof.
  revert i. induction x as [|c x IH]; intros i; cbn [app length].
  - rewrite Nat.add_0_r. split; [intros H; split; [apply holds_nil|exact H]|tauto].
  - rewrite !holds_cons, IH, <- Nat.add_succ_comm. tauto.
Qed.
Lemma holds_store b i cs k c b' : holds b i cs -> store b k c = Some b' -> (k < i \/ i + length cs <= k) -> holds b' i cs.
Proof.
  intros H S D j x N. rewrite (load_store _ _ _ _ _ S). assert (j < length cs) by (apply nth_error_Some; congruence).
  destruct (Nat.eqb_spec (i + j) k); [lia|]. now apply H.
Qed.
Lemma holds_prefix b i cs k : holds b i cs -> holds b i (firstn k cs).
Proof. intros H. rewrite <- (firstn_skipn k cs) in H. now apply holds_app in H. Qed.
Lemma text_holds b cs : forall i, holds b i cs -> text_at b i (length cs) = Some cs.
Proof. induction cs as [|c cs IH]; intros i H; [reflexivity|]. apply holds_cons in H as [A B]. cbn [length text_at]. now rewrite A, IH. Qed.
Lemma c_str_holds b cs : forall i f, holds b i cs -> load b (i + length cs) = Some NUL -> length cs < f -> c_str_at f b i = Some (c_str cs).
Proof.
  induction cs as [|c cs IH]; intros i [|f] H E L; cbn [length] in L; try lia; cbn [c_str_at c_str].
  - cbn [length] in E. rewrite Nat.add_0_r in E. now rewrite E.
  - apply holds_cons in H as [A B]. rewrite A. destruct (N.eqb (N_of_ascii c) 0); [reflexivity|].
    cbn [length] in E. rewrite <- Nat.add_succ_comm in E. now rewrite (IH _ f B E) by lia.
Qed.
Lemma move_ok n : forall b dst src cs, length cs = n -> dst <= src -> holds b src cs -> src + n <= length b ->
  exists b', move b n dst src = Some b' /\ length b' = length b /\ holds b' dst cs /\ forall i, i < dst -> load b' i = load b i.
Proof.
  induction n as [|n IH]; intros b dst src cs L D H M; destruct cs as [|c cs]; try discriminate L.
  - exists b. repeat split; auto using holds_nil.
  - apply holds_cons in H as [A B]. cbn [move]. rewrite A. destruct (store_ok b dst c) as [b1 S1]; [lia|]. rewrite S1. destruct (store_length _ _ _ _ S1) as [E _].
    destruct (IH b1 (S dst) (S src) cs) as (b2 & M2 & L2 & H2 & K2); [cbn in L; lia|lia|eapply holds_store; eauto; lia|lia|].
    exists b2. split; [exact M2|]. split; [lia|]. split.
    + apply holds_cons. split; [|exact H2]. rewrite K2 by lia. rewrite (load_store _ _ _ _ _ S1). now rewrite Nat.eqb_refl.
    + intros i I. rewrite K2 by lia. rewrite (load_store _ _ _ _ _ S1). destruct (Nat.eqb_spec i dst); [lia|reflexivity].
Qed.

(** *** The tables: states other than the one for the end of the buffer (5) and the jam (133) *)
Definition valid (st : N) : bool := ((1 <=? st) && (st <=? 132) && negb (st =? 5))%N.
Definition states : list N := map N.of_nat (List.seq 1 132).
Definition classes : list N := map N.of_nat (List.seq 1 42).
Definition known {A} (o : option A) : bool := match o with Some _ => true | None => false end.
Definition stops (st : N) : bool := match tget yy_base st with Some b => (b =? 289)%N | None => false end.
Definition accepting (st : N) : bool := match tget yy_accept st with Some a => negb (a =? 0)%N | None => false end.
Definition to (st k : N) (p : N -> bool) : bool := match next_state chain_fuel st k with Some st' => p st' | None => false end.
Definition state_ok (st : N) : bool :=
  negb (valid st) ||
  (known (tget yy_accept st) && known (tget yy_base st) && to st 0 (N.eqb 5) && (negb (stops st) || accepting st) &&
   forallb (fun k => to st k (fun st' => ((st' =? 133)%N || valid st') && known (tget yy_base st') && (negb (stops st) || (st' =? 133)%N))) classes).
Lemma states_ok : forallb state_ok states = true.
Proof. vm_compute. reflexivity. Qed.
Lemma eob_ok : forallb (fun k => to 5 k (N.eqb 133)) (0%N :: classes) = true.
Proof. vm_compute. reflexivity. Qed.
Lemma nat_list lo n x : (N.of_nat lo <= x)%N -> (x < N.of_nat (lo + n))%N -> In x (map N.of_nat (List.seq lo n)).
Proof. intros A B. apply in_map_iff. exists (N.to_nat x). split; [apply N2Nat.id|]. apply in_seq. lia. Qed.
Lemma valid_in st : valid st = true -> In st states.
Proof. unfold valid, states. rewrite !andb_true_iff, !N.leb_le. intros [[A B] _]. apply nat_list; cbn; lia. Qed.
Lemma class_ok c : exists k, class_of c = Some k /\ In k classes /\ (N_of_ascii c <> 0%N -> tget yy_ec (N_of_ascii c) = Some k).
Proof.
  assert (H : forallb (fun c => match class_of c with Some k => ((1 <=? k) && (k <=? 42))%N && ((N_of_ascii c =? 0)%N || match tget yy_ec (N_of_ascii c) with Some k' => (k =? k')%N | None => false end) | None => false end)
                      (map ascii_of_nat (List.seq 0 256)) = true) by (vm_compute; reflexivity).
  rewrite forallb_forall in H. specialize (H c).
  assert (I : In c (map ascii_of_nat (List.seq 0 256))).
  { apply in_map_iff. exists (nat_of_ascii c). split; [apply ascii_nat_embedding|]. apply in_seq. pose proof (nat_ascii_bounded c). lia. }
  specialize (H I). destruct (class_of c) as [k|]; [|discriminate]. apply andb_prop in H as [A B]. exists k. split; [reflexivity|].
  apply andb_prop in A as [A1 A2]. apply N.leb_le in A1, A2. split; [apply nat_list; cbn; lia|].
  intros N0. apply orb_prop in B as [B|B]; [apply N.eqb_eq in B; congruence|]. destruct (tget yy_ec (N_of_ascii c)); [|discriminate]. apply N.eqb_eq in B. congruence.
Qed.
Lemma valid_facts st : valid st = true -> exists a, tget yy_accept st = Some a /\ next_state chain_fuel st 0 = Some 5%N /\
  (stops st = true -> a <> 0%N) /\
  forall k, In k classes -> exists st' b, next_state chain_fuel st k = Some st' /\ tget yy_base st' = Some b /\ (st' = 133%N \/ valid st' = true) /\ (stops st = true -> st' = 133%N).
Proof.
  intros V. pose proof states_ok as H. rewrite forallb_forall in H. specialize (H st (valid_in st V)). unfold state_ok in H. rewrite V in H. cbn [negb orb] in H.
  apply andb_prop in H as [H F]. apply andb_prop in H as [H A0]. apply andb_prop in H as [H T0]. apply andb_prop in H as [KA KB].
  unfold accepting in A0. destruct (tget yy_accept st) as [a|]; [|discriminate KA]. exists a. split; [reflexivity|].
  unfold to in T0. destruct (next_state chain_fuel st 0) as [e|]; [|discriminate T0]. apply N.eqb_eq in T0. subst e. split; [reflexivity|].
  split. { intros S. rewrite S in A0. cbn [negb orb] in A0. intros ->. discriminate A0. }
  intros k K. rewrite forallb_forall in F. specialize (F k K). unfold to in F. destruct (next_state chain_fuel st k) as [st'|]; [|discriminate F].
  apply andb_prop in F as [F F2]. apply andb_prop in F as [F F1]. destruct (tget yy_base st') as [b|] eqn:B; [|discriminate F1]. exists st', b. split; [reflexivity|]. split; [exact B|].
  split. { apply orb_prop in F as [F|F]; [left; now apply N.eqb_eq|now right]. }
  intros S. rewrite S in F2. now apply N.eqb_eq.
Qed.
Lemma eob_facts k : k = 0%N \/ In k classes -> next_state chain_fuel 5 k = Some 133%N.
Proof.
  intros K. pose proof eob_ok as H. rewrite forallb_forall in H. specialize (H k ltac:(destruct K; [left; congruence|now right])). unfold to in H.
  destruct (next_state chain_fuel 5 k) as [x|]; [|discriminate H]. apply N.eqb_eq in H. congruence.
Qed.
Lemma ec_known c : exists k, tget yy_ec (N_of_ascii c) = Some k /\ (k = 0%N \/ In k classes).
Proof.
  destruct (N.eqb_spec (N_of_ascii c) 0) as [E|E]; [rewrite E; exists 0%N; now split; [|left]|]. destruct (class_ok c) as (k & _ & I & H). exists k. split; [now apply H|now right].
Qed.

(** *** The specification, byte by byte *)
Fixpoint walk (st : N) (last : option (N * nat)) (n : nat) (cs : bytes) : option (N * option (N * nat)) :=
  match cs with
  | [] => Some (st, last)
  | c :: cs' =>
      let? k := class_of c in
      let? last' := mark st n last in
      let? st' := next_state chain_fuel st k in
      walk st' last' (S n) cs'
  end.
Lemma walk_app x : forall st last n y, walk st last n (x ++ y) = let? (st', last') := walk st last n x in walk st' last' (n + length x) y.
Proof.
  induction x as [|c x IH]; intros st last n y; cbn [app walk length].
  - now rewrite Nat.add_0_r.
  - destruct (class_of c); [|reflexivity]. destruct (mark st n last); [|reflexivity]. destruct (next_state chain_fuel st n0); [|reflexivity]. rewrite IH. destruct (walk n1 o (S n) x) as [[? ?]|]; [|reflexivity]. now rewrite Nat.add_succ_comm.
Qed.
(** What the scanner remembers is what the specification does; if that is nothing, it may be anything. *)
Definition last_rel (bp : nat) (a m : option (N * nat)) : Prop := match a with Some (st, j) => m = Some (st, bp + j) | None => True end.
Lemma mark_rel bp st n a m a' : last_rel bp a m -> mark st n a = Some a' -> exists m', mark st (bp + n) m = Some m' /\ last_rel bp a' m'.
Proof.
  unfold mark. intros R H. destruct (tget yy_accept st) as [x|]; [|discriminate]. injection H as <-. eexists. split; [reflexivity|]. destruct (x =? 0)%N; [exact R|reflexivity].
Qed.
Lemma previous_walk b bp cs : forall n i st a m st' a', i = bp + n -> holds b i cs -> last_rel bp a m -> walk st a n cs = Some (st', a') ->
  exists m', previous b (length cs) i st m = Some (st', m') /\ last_rel bp a' m'.
Proof.
  induction cs as [|c cs IH]; intros n i st a m st' a' -> H R W; cbn [walk length previous] in *.
  - injection W as <- <-. eauto.
  - apply holds_cons in H as [A B]. rewrite A. destruct (class_of c) as [k|]; [|discriminate W]. destruct (mark st n a) as [a1|] eqn:M; [|discriminate W].
    destruct (mark_rel _ _ _ _ _ _ R M) as (m1 & -> & R1). destruct (next_state chain_fuel st k) as [st1|]; [|discriminate W].
    apply (IH (S n)) with (a := a1); auto.
Qed.
(** Positions that are remembered lie before the current one. *)
Definition before (k : nat) (a : option (N * nat)) : Prop := match a with Some (_, j) => j <= k | None => True end.
Lemma walk_before cs : forall st a n st' a', walk st a n cs = Some (st', a') -> before n a -> before (n + length cs) a'.
Proof.
  induction cs as [|c cs IH]; intros st a n st' a' W B; cbn [walk length] in *.
  - injection W as <- <-. now rewrite Nat.add_0_r.
  - destruct (class_of c); [|discriminate W]. unfold mark in W. destruct (tget yy_accept st) as [x|]; [|discriminate W]. destruct (next_state chain_fuel st n0); [|discriminate W].
    rewrite <- Nat.add_succ_comm. eapply IH; [exact W|]. destruct (x =? 0)%N; cbn; [destruct a as [[? ?]|]; cbn in *; auto; lia|lia].
Qed.
Definition finish (st : N) (a : option (N * nat)) (k : nat) (cs : bytes) : option (N * nat) := let? r := match_loop st a k cs in find_action r.
(** One byte of the specification. *)
Lemma finish_cons st a k c cs kc : valid st = true -> class_of c = Some kc -> exists x a' st', In kc classes /\ tget yy_accept st = Some x /\ mark st k a = Some a' /\
  next_state chain_fuel st kc = Some st' /\ (st' = 133%N \/ valid st' = true) /\ (stops st = true -> st' = 133%N) /\ tget yy_base st' <> None /\
  finish st a k (c :: cs) = if stops st' then find_action (st', a', S k) else finish st' a' (S k) cs.
Proof.
  intros V K. destruct (class_ok c) as (k' & K' & IK & _). rewrite K in K'. injection K' as <-. destruct (valid_facts st V) as (x & A & _ & _ & T). destruct (T kc IK) as (st' & b & N & B & V' & ST).
  exists x, (if (x =? 0)%N then a else Some (st, k)), st'. split; [exact IK|]. split; [exact A|]. split; [unfold mark; now rewrite A|]. split; [exact N|]. split; [exact V'|]. split; [exact ST|]. split; [congruence|].
  unfold finish. cbn [match_loop]. rewrite K, A, N, B. unfold stops. rewrite B. destruct (b =? 289)%N; reflexivity.
Qed.
Lemma find_133 a k : find_action (133%N, a, k) = let? (st, j) := a in let? x := tget yy_accept st in Some (x, j).
Proof. unfold find_action. replace (tget yy_accept 133) with (Some 0%N) by (vm_compute; reflexivity). cbn. destruct a as [[? ?]|]; reflexivity. Qed.
(** In a state where nothing can follow, looking at one more byte changes nothing. *)
Lemma finish_stops st a k cs : valid st = true -> stops st = true -> finish st a k cs = find_action (st, a, k).
Proof.
  intros V S. destruct (valid_facts st V) as (x & A & _ & NZ & _). specialize (NZ S).
  destruct cs as [|c cs]; [reflexivity|]. destruct (class_ok c) as (kc & K & _).
  destruct (finish_cons st a k c cs kc V K) as (x' & a' & st' & _ & A' & M & N & _ & ST & _ & E). rewrite A in A'. injection A' as <-. rewrite E, (ST S).
  replace (stops 133) with true by (vm_compute; reflexivity). rewrite find_133. unfold mark in M. rewrite A in M.
  assert (Z : (x =? 0)%N = false) by now apply N.eqb_neq. rewrite Z in M. injection M as <-. rewrite A. unfold find_action. now rewrite A, Z.
Qed.
