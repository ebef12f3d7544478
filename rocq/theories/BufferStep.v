(** The buffer of the scanner is invisible: refilling, and the labels of the scanner. *)
From Coq Require Import String Ascii ZArith NArith Arith List Bool Lia.
From Verif Require Import Base FlexTables Flex Buffer BufferProps.
Import ListNotations.
Local Open Scope nat_scope.

(** [pre]: the unread bytes in the buffer, from position [bp]; two NULs follow. *)
Record good (s : scanner) (bp : nat) (pre : bytes) : Prop := Good {
  g_len : length (b_buf s) = b_size s + 2;
  g_pos : 1 <= b_size s;
  g_n : b_n s = bp + length pre;
  g_fit : b_n s <= b_size s;
  g_pre : holds (b_buf s) bp pre;
  g_end : load (b_buf s) (b_n s) = Some NUL /\ load (b_buf s) (b_n s + 1) = Some NUL;
  g_new : b_status s = New -> b_n s = 0 /\ b_own s = 0;
  g_pend : b_status s = Eof_pending -> b_in s = [];
  g_eof : b_eof s = true -> b_in s = []
}.
(** All that [good] depends on is the same. *)
Definition same_input (s s' : scanner) : Prop :=
  b_buf s' = b_buf s /\ b_size s' = b_size s /\ b_own s' = b_own s /\ b_status s' = b_status s /\ b_n s' = b_n s /\ b_in s' = b_in s /\ b_eof s' = b_eof s.
Lemma good_same s s' bp pre : same_input s s' -> good s bp pre -> good s' bp pre.
Proof. intros (A & B & C & D & E & F & G) []. constructor; rewrite ?A, ?B, ?C, ?D, ?E, ?F, ?G; assumption. Qed.

(** *** yy_get_next_buffer *)
Lemma grow_ok moved fuel : forall b size, length b = size + 2 -> 1 <= size -> in_int (2 * (moved + 1)) = true -> moved + 2 <= size + fuel ->
  exists b' size', grow fuel b size moved = Some (b', size') /\ length b' = size' + 2 /\ moved + 1 < size' /\ (forall i, i < length b -> load b' i = load b i).
Proof.
  induction fuel as [|fuel IH]; intros b size L P I F; cbn [grow]; destruct (Nat.leb_spec size (moved + 1)) as [C|C]; try lia; try (exists b, size; repeat split; auto; lia).
  replace (in_int (2 * size)) with true.
  - destruct (IH (resize b (2 * size + 2)) (2 * size)) as (b' & s' & G & L' & M & K); [now rewrite resize_length|lia|exact I|lia|].
    exists b', s'. split; [exact G|]. split; [exact L'|]. split; [exact M|]. intros i H. rewrite K by (rewrite resize_length; lia). apply load_resize; lia.
  - symmetry. unfold in_int in *. apply Z.leb_le in I. apply Z.leb_le. lia.
Qed.
Lemma terminate_ok b size n moved : length b = size + 2 -> n + moved <= size ->
  exists b', terminate b size n moved = Some (b', size) /\ length b' = size + 2 /\ (forall i, i < n + moved -> load b' i = load b i) /\
  load b' (n + moved) = Some NUL /\ load b' (n + moved + 1) = Some NUL.
Proof.
  intros L F. unfold terminate. destruct (Nat.ltb_spec size (n + moved)); [lia|]. cbn iota beta.
  destruct (store_ok b (n + moved) NUL) as [b1 S1]; [lia|]. rewrite S1. destruct (store_length _ _ _ _ S1) as [L1 _].
  destruct (store_ok b1 (n + moved + 1) NUL) as [b2 S2]; [lia|]. rewrite S2. destruct (store_length _ _ _ _ S2) as [L2 _].
  exists b2. split; [reflexivity|]. split; [lia|]. split.
  - intros i I. rewrite (load_store _ _ _ _ _ S2), (load_store _ _ _ _ _ S1).
    destruct (Nat.eqb_spec i (n + moved + 1)); [lia|]. destruct (Nat.eqb_spec i (n + moved)); [lia|reflexivity].
  - split; rewrite (load_store _ _ _ _ _ S2).
    + destruct (Nat.eqb_spec (n + moved) (n + moved + 1)); [lia|]. rewrite (load_store _ _ _ _ _ S1). now rewrite Nat.eqb_refl.
    + now rewrite Nat.eqb_refl.
Qed.
Lemma flush_ok s : 2 <= length (b_buf s) -> exists b, flush s = Some (Scanner b (b_size s) 0 New true 0 0 0 NUL (b_start s) (b_last s) (b_in s) false) /\
  length b = length (b_buf s) /\ load b 0 = Some NUL /\ load b 1 = Some NUL.
Proof.
  intros L. unfold flush. destruct (store_ok (b_buf s) 0 NUL) as [b1 S1]; [lia|]. rewrite S1. destruct (store_length _ _ _ _ S1) as [L1 _].
  destruct (store_ok b1 1 NUL) as [b2 S2]; [lia|]. rewrite S2. destruct (store_length _ _ _ _ S2) as [L2 _].
  assert (A : load b2 0 = Some NUL) by (rewrite (load_store _ _ _ _ _ S2); cbn [Nat.eqb]; rewrite (load_store _ _ _ _ _ S1); reflexivity).
  rewrite A. exists b2. split; [reflexivity|]. split; [lia|]. split; [exact A|]. rewrite (load_store _ _ _ _ _ S2). reflexivity.
Qed.
Lemma holds_ext b b' cs : forall i, (forall j, i <= j -> j < i + length cs -> load b' j = load b j) -> holds b i cs -> holds b' i cs.
Proof. intros i E H j c N. rewrite E; [now apply H|lia|]. assert (j < length cs) by (apply nth_error_Some; congruence). lia. Qed.

(** What refilling gives: one more byte, or the end. *)
Inductive refilled (s : scanner) (pre : bytes) : eob -> scanner -> Prop :=
| rf_more s' c cs : b_in s = c :: cs -> b_in s' = cs -> good s' 0 (pre ++ [c]) -> b_text s' = 0 ->
    b_bol s' = b_bol s -> b_start s' = b_start s -> refilled s pre Continue_scan s'
| rf_last s' : b_in s = [] -> b_in s' = [] -> pre <> [] -> good s' 0 pre -> b_text s' = 0 ->
    b_bol s' = b_bol s -> b_start s' = b_start s -> refilled s pre Last_match s'
| rf_end s' : b_in s = [] -> b_in s' = [] -> pre = [] -> good s' 0 [] -> b_text s' = 0 -> b_hold s' = NUL -> b_c s' = 0 ->
    b_start s' = b_start s -> refilled s pre End_of_file s'.
Lemma next_buffer_ok s bp pre : good s bp pre -> b_status s <> New -> b_text s = bp -> b_c s = bp + length pre + 1 -> in_int (2 * (length pre + 1)) = true ->
  exists r s', next_buffer s = Some (r, s') /\ refilled s pre r s'.
Proof.
  intros G NS T C I. unfold next_buffer. rewrite (g_n _ _ _ G), C, T.
  destruct (Nat.ltb_spec (bp + length pre + 1) (bp + length pre + 1)); [lia|]. destruct (Nat.ltb_spec (bp + length pre + 1) (bp + 1)); [lia|].
  replace (bp + length pre + 1 - bp - 1) with (length pre) by lia.
  pose proof (g_n _ _ _ G) as GN. pose proof (g_fit _ _ _ G) as GF. pose proof (g_len _ _ _ G) as GL.
  destruct (move_ok (length pre) (b_buf s) 0 bp pre eq_refl ltac:(lia) (g_pre _ _ _ G) ltac:(lia)) as (b1 & M & L1 & H1 & _). rewrite M.
  (* the end: nothing is read *)
  assert (ENDS : b_in s = [] -> forall b size eof, length b = size + 2 -> 1 <= size -> length pre <= size -> holds b 0 pre ->
    exists r s', (let s1 := Scanner b size 0 (b_status s) (b_bol s) 0 bp (bp + length pre + 1) (b_hold s) (b_start s) (b_last s) [] eof in
      let? (r, s2) :=
        match length pre with
        | O => let? s2 := flush s1 in Some (End_of_file, s2)
        | _ => Some (Last_match, Scanner b size 0 Eof_pending (b_bol s) 0 bp (bp + length pre + 1) (b_hold s) (b_start s) (b_last s) [] eof)
        end in
      let? (b, size) := terminate (b_buf s2) (b_size s2) (b_n s2) (length pre) in
      Some (r, Scanner b size (b_own s2) (b_status s2) (b_bol s2) (b_n s2 + length pre) 0 (b_c s2) (b_hold s2) (b_start s2) (b_last s2) (b_in s2) (b_eof s2))) = Some (r, s') /\ refilled s pre r s').
  { intros IN b size eof L P F H2. destruct (length pre) as [|m] eqn:LP.
    - destruct pre; [|discriminate LP].
      destruct (flush_ok (Scanner b size 0 (b_status s) (b_bol s) 0 bp (bp + 0 + 1) (b_hold s) (b_start s) (b_last s) [] eof)) as (b2 & E & L2 & A0 & A1); [cbn [b_buf]; lia|].
      cbv zeta. rewrite E. cbn [b_buf b_size b_n b_own b_status b_bol b_c b_hold b_start b_last b_in b_eof]. cbn [b_buf] in L2.
      destruct (terminate_ok b2 size 0 0) as (b3 & E3 & L3 & _ & Z0 & Z1); [lia|lia|]. rewrite E3. do 2 eexists. split; [reflexivity|].
      apply rf_end; auto. constructor; cbn [b_buf b_size b_n b_own b_status b_in b_eof length]; auto using holds_nil; try discriminate; lia.
    - rewrite <- LP in *. cbv zeta iota beta. cbn [b_buf b_size b_n b_own b_status b_bol b_c b_hold b_start b_last b_in b_eof].
      destruct (terminate_ok b size 0 (length pre)) as (b3 & E3 & L3 & K & Z0 & Z1); [lia|lia|]. rewrite E3. do 2 eexists. split; [reflexivity|].
      apply rf_last; auto; [intros ->; discriminate LP|]. constructor; cbn [b_buf b_size b_n b_own b_status b_in b_eof]; auto; try discriminate; try lia.
      eapply holds_ext; [|exact H2]. intros j _ J. apply K. lia. }
  destruct (b_status s) eqn:ST; [congruence| |].
  - destruct (grow_ok (length pre) (length pre + 2) b1 (b_size s)) as (b2 & size & GR & L2 & M2 & K2); [lia|apply (g_pos _ _ _ G)|exact I|lia|]. rewrite GR. cbn iota beta.
    assert (H2 : holds b2 0 pre) by (eapply holds_ext; [|exact H1]; intros j _ J; apply K2; lia).
    destruct (b_eof s) eqn:EO; cbn [lexer_input].
    + specialize (ENDS (g_eof _ _ _ G EO)). rewrite (g_eof _ _ _ G EO). cbn iota beta. apply ENDS; auto; lia.
    + destruct (b_in s) as [|c cs] eqn:IN; cbn iota beta.
      * apply (ENDS eq_refl); auto; lia.
      * destruct (store_ok b2 (length pre) c) as [b3 S3]; [lia|]. rewrite S3. destruct (store_length _ _ _ _ S3) as [L3 _]. cbv zeta iota beta.
        cbn [b_buf b_size b_n b_own b_status b_bol b_c b_hold b_start b_last b_in b_eof].
        destruct (terminate_ok b3 size 1 (length pre)) as (b4 & E4 & L4 & K4 & Z0 & Z1); [lia|lia|]. rewrite E4. do 2 eexists. split; [reflexivity|].
        eapply rf_more; eauto. constructor; cbn [b_buf b_size b_n b_own b_status b_in b_eof]; auto; try discriminate; try lia.
        { rewrite app_length. cbn [length]. lia. }
        { apply holds_app. split.
          - eapply holds_ext with (b := b3); [intros j _ J; apply K4; lia|]. eapply holds_store; eauto.
          - apply holds_cons. split; [|apply holds_nil]. cbn [Nat.add]. rewrite K4 by lia. rewrite (load_store _ _ _ _ _ S3). now rewrite Nat.eqb_refl. }
  - specialize (ENDS (g_pend _ _ _ G ST)). rewrite (g_pend _ _ _ G ST). cbn iota beta. apply ENDS; auto; try lia. apply (g_pos _ _ _ G).
Qed.

(** *** The labels of the scanner *)
Definition reach (lb : label) (s : scanner) (lb' : label) (s' : scanner) : Prop :=
  exists f, forall f' l evs, go (f + f') lb s l evs = go f' lb' s' l evs.
Lemma reach_refl lb s : reach lb s lb s. Proof. exists 0. reflexivity. Qed.
Lemma reach_trans lb s lb1 s1 lb2 s2 : reach lb s lb1 s1 -> reach lb1 s1 lb2 s2 -> reach lb s lb2 s2.
Proof. intros [f A] [g B]. exists (f + g). intros. rewrite <- Nat.add_assoc, A. apply B. Qed.
Lemma reach_step lb s lb' s' : (forall l evs, step lb s l evs = Some (Goto lb' s' l evs)) -> reach lb s lb' s'.
Proof. intros H. exists 1. intros. cbn [Nat.add go]. now rewrite H. Qed.

(** The end of case YY_END_OF_BUFFER, after yytext has been undone. *)
Definition eob_rest (amount : nat) (s : scanner) (l : loc) (evs : list event) : option next :=
  let s := match b_status s with
           | New => Scanner (b_buf s) (b_size s) (b_own s) Normal (b_bol s) (b_own s) (b_text s) (b_c s) (b_hold s) (b_start s) (b_last s) (b_in s) (b_eof s)
           | _ => s
           end in
  if (b_c s <=? b_n s)%nat then
    let s := set_c (b_text s + amount) s in
    let? (st, s) := get_previous s in
    let? (o, s) := try_nul st s in
    match o with
    | Some st' => let s := set_c (b_c s + 1) s in Some (Goto (Match st' (b_c s) (b_text s)) s l evs)
    | None => Some (Goto (Find st (b_c s) (b_text s)) s l evs)
    end
  else
    let? (r, s) := next_buffer s in
    match r with
    | End_of_file => Some (Return None (set_c (b_text s) s) l evs)
    | Continue_scan =>
        let s := set_c (b_text s + amount) s in
        let? (st, s) := get_previous s in Some (Goto (Match st (b_c s) (b_text s)) s l evs)
    | Last_match =>
        let s := set_c (b_n s) s in
        let? (st, s) := get_previous s in Some (Goto (Find st (b_c s) (b_text s)) s l evs)
    end.
Definition at_eob (s : scanner) (bp c : nat) (h : ascii) (last : option (N * nat)) : scanner :=
  Scanner (b_buf s) (b_size s) (b_own s) (b_status s) (b_bol s) (b_n s) bp c h (b_start s) last (b_in s) (b_eof s).
Definition continue (f : nat) (r : option next) : option (option token * scanner * loc * list event) :=
  match r with
  | Some (Goto lb' s' l' evs') => go f lb' s' l' evs'
  | Some (Return tk s' l' evs') => Some (tk, s', l', evs')
  | None => None
  end.
Lemma go_S f lb s l evs : go (S f) lb s l evs = continue f (step lb s l evs).
Proof. reflexivity. Qed.
(** A NUL, in the text or at its end, leads there. *)
Lemma eob_enter s bp pre k st : good s bp pre -> valid st = true -> k <= length pre -> load (b_buf s) (bp + k) = Some NUL ->
  exists h, forall f l evs, go (S (S (S f))) (Match st (bp + k) bp) s l evs = continue f (eob_rest k (at_eob s bp (bp + k + 1) h (Some (5%N, bp + k + 1))) l evs).
Proof.
  intros G V K Z. destruct (valid_facts st V) as (a & A & N0 & _ & _).
  assert (E5 : tget yy_accept 5 = Some 38%N) by (vm_compute; reflexivity). assert (B5 : tget yy_base 5 = Some 288%N) by (vm_compute; reflexivity).
  assert (E3 : tget yy_accept 133 = Some 0%N) by (vm_compute; reflexivity). assert (B3 : tget yy_base 133 = Some 289%N) by (vm_compute; reflexivity).
  assert (C0 : tget yy_ec (N_of_ascii NUL) = Some 0%N) by (vm_compute; reflexivity).
  assert (H : exists h, load (b_buf s) (bp + k + 1) = Some h).
  { pose proof (g_n _ _ _ G) as GN. destruct (Nat.lt_ge_cases (k + 1) (length pre)) as [C|C].
    - destruct (nth_error pre (k + 1)) as [h|] eqn:E; [|apply nth_error_None in E; lia]. exists h. rewrite <- Nat.add_assoc. now apply (g_pre _ _ _ G).
    - exists NUL. destruct (g_end _ _ _ G) as [X Y]. assert (D : bp + k + 1 = b_n s \/ bp + k + 1 = b_n s + 1) by lia. destruct D as [->| ->]; assumption. }
  destruct H as [h H]. exists h. intros f l evs.
  rewrite go_S. cbn [step]. rewrite Z, C0. unfold mark. rewrite A, N0, B5. cbn [N.eqb Pos.eqb continue].
  rewrite go_S. cbn [step set_last b_buf b_last]. replace (S (bp + k)) with (bp + k + 1) by lia. rewrite H. destruct (ec_known h) as (kh & EH & KH). rewrite EH. unfold mark. rewrite E5. cbn [N.eqb Pos.eqb].
  rewrite (eob_facts _ KH), B3. cbn [N.eqb Pos.eqb continue].
  rewrite go_S. cbn [step set_last b_last]. rewrite E3. cbn [N.eqb]. rewrite E5. unfold before_action.
  destruct (Nat.ltb_spec (bp + k + 1) bp); [lia|]. cbn [set_last b_buf]. rewrite H.
  destruct (store_ok (b_buf s) (bp + k + 1) NUL) as [b1 S1]; [eapply load_lt; eauto|]. rewrite S1. cbn [N.eqb Pos.eqb].
  unfold end_of_buffer. cbn [b_text b_buf b_hold]. destruct (Nat.ltb_spec (bp + k + 1) (bp + 1)); [lia|]. rewrite (store_back _ _ _ _ _ H S1).
  replace (bp + k + 1 - bp - 1) with k by lia. reflexivity.
Qed.

(** What the scanner will find: rule [act] for the first [n] of the bytes [R]. *)
Definition resolve (st : N) (cp : nat) (s : scanner) : option (N * nat) :=
  let? a := tget yy_accept st in
  if (a =? 0)%N then
    match b_last s with
    | None => None
    | Some (st', cp') => let? a' := tget yy_accept st' in Some (a', cp')
    end
  else Some (a, cp).
Lemma resolve_rel bp st k a s r : last_rel bp a (b_last s) -> find_action (st, a, k) = Some r -> resolve st (bp + k) s = Some (fst r, bp + snd r).
Proof.
  unfold find_action, resolve. intros R H. destruct (tget yy_accept st) as [x|]; [|discriminate]. destruct (x =? 0)%N; [|now injection H as <-].
  destruct a as [[st' j]|]; [|discriminate]. cbn in R. rewrite R. destruct (tget yy_accept st') as [y|]; [|discriminate]. now injection H as <-.
Qed.
Lemma find_le st a k r : find_action (st, a, k) = Some r -> before k a -> snd r <= k.
Proof.
  unfold find_action. destruct (tget yy_accept st) as [x|]; [|discriminate]. destruct (x =? 0)%N; [|intros [= <-]; cbn; lia].
  destruct a as [[st' j]|]; [|discriminate]. destruct (tget yy_accept st') as [y|]; [|discriminate]. intros [= <-] B. exact B.
Qed.

Lemma in_int_le a b : a <= b -> in_int b = true -> in_int a = true.
Proof. unfold in_int. rewrite !Z.leb_le. lia. Qed.
Section Scan.
  Variables (R : bytes) (s0 act : N) (n : nat) (bol : bool) (start : N).
  Hypothesis V0 : valid s0 = true.
  Hypothesis S0 : s0 = (start + (if bol then 1 else 0))%N.
  Hypothesis RES : finish s0 None 0 R = Some (act, n).
  Hypothesis SIZE : in_int (2 * (length R + 1)) = true.

  (** At yy_match, [k] bytes after the beginning of the token. *)
  Record scanning (s : scanner) (bp k : nat) (st : N) (pre : bytes) : Prop := Scanning {
    sc_good : good s bp pre;
    sc_text : R = pre ++ b_in s;
    sc_bol : b_bol s = bol;
    sc_start : b_start s = start;
    sc_k : k <= length pre;
    sc_valid : valid st = true;
    sc_walk : exists a, walk s0 None 0 (firstn k R) = Some (st, a) /\ last_rel bp a (b_last s) /\ finish st a k (skipn k R) = Some (act, n)
  }.
  (** At yy_find_action. *)
  Definition found (s : scanner) (st : N) (cp bp : nat) (pre : bytes) : Prop :=
    good s bp pre /\ R = pre ++ b_in s /\ b_bol s = bol /\ b_start s = start /\ resolve st cp s = Some (act, bp + n) /\ n <= length pre.

  Lemma prefix_of (pre x : bytes) k : k <= length pre -> firstn k (pre ++ x) = firstn k pre.
  Proof. intros H. rewrite firstn_app. replace (k - length pre) with 0 by lia. cbn [firstn]. apply app_nil_r. Qed.
  Lemma walk_first k st a : walk s0 None 0 (firstn k R) = Some (st, a) -> k <= length R -> before k a.
  Proof. intros W H. apply walk_before in W; [|exact I]. rewrite firstn_length in W. replace (0 + Nat.min k (length R)) with k in W by lia. exact W. Qed.
  (** yy_get_previous_state gives the state and the last accepting position again. *)
  Lemma previous_ok s bp k pre st a : good s bp pre -> R = pre ++ b_in s -> b_bol s = bol -> b_start s = start -> k <= length pre -> b_text s = bp -> b_c s = bp + k ->
    walk s0 None 0 (firstn k R) = Some (st, a) -> exists m, get_previous s = Some (st, set_last m s) /\ last_rel bp a m.
  Proof.
    intros G T B S K TX C W. unfold get_previous. rewrite TX, C. replace (bp + k - bp) with k by lia. rewrite T, prefix_of in W by exact K.
    destruct (previous_walk (b_buf s) bp (firstn k pre) 0 bp s0 None (b_last s) st a) as (m & P & LR); [lia|apply holds_prefix, (g_pre _ _ _ G)|exact I|exact W|].
    rewrite firstn_length_le in P by exact K. unfold start_state. rewrite B, S, <- S0, P. eauto.
  Qed.
  Lemma walk_next k c st a kc a' st' : k < length R -> nth_error R k = Some c -> walk s0 None 0 (firstn k R) = Some (st, a) -> class_of c = Some kc -> mark st k a = Some a' ->
    next_state chain_fuel st kc = Some st' -> walk s0 None 0 (firstn (S k) R) = Some (st', a').
  Proof.
    intros K N W C M X. assert (E : firstn (S k) R = firstn k R ++ [c]).
    { rewrite (split_at k R c N) at 1. rewrite firstn_app, firstn_length_le by lia. replace (S k - k) with 1 by lia. rewrite firstn_all2 by (rewrite firstn_length; lia). reflexivity. }
    rewrite E, walk_app, W, firstn_length_le by lia. cbn [walk Nat.add]. now rewrite C, M, X.
  Qed.
  Lemma skipn_nth {A} (l : list A) k c : nth_error l k = Some c -> skipn k l = c :: skipn (S k) l.
  Proof. revert l. induction k as [|k IH]; intros [|y l] H; try discriminate H; [now injection H as ->|]. now apply IH. Qed.
  Lemma scan_here s bp k st pre : scanning s bp k st pre -> k = length pre -> b_in s = [] -> exists a, find_action (st, a, k) = Some (act, n) /\
    walk s0 None 0 (firstn k R) = Some (st, a) /\ before k a.
  Proof.
    intros SC K IN. destruct (sc_walk _ _ _ _ _ SC) as (a & W & LR & F). exists a. rewrite (sc_text _ _ _ _ _ SC), IN, app_nil_r in F.
    rewrite skipn_all2 in F by lia. split; [exact F|]. split; [exact W|]. apply (walk_first _ _ _ W). rewrite (sc_text _ _ _ _ _ SC), app_length. lia.
  Qed.

  Lemma eob_reach s bp pre k st lb' s' : good s bp pre -> valid st = true -> k <= length pre -> load (b_buf s) (bp + k) = Some NUL ->
    (forall h l evs, eob_rest k (at_eob s bp (bp + k + 1) h (Some (5%N, bp + k + 1))) l evs = Some (Goto lb' (s' h) l evs)) -> exists h, reach (Match st (bp + k) bp) s lb' (s' h).
  Proof. intros G V K Z E. destruct (eob_enter s bp pre k st G V K Z) as [h H]. exists h, 3. intros f l evs. change (3 + f) with (S (S (S f))). rewrite H, E. reflexivity. Qed.

  Lemma scan_ok m : forall s bp k st pre, length R - k + length (b_in s) < m -> 0 < length R -> scanning s bp k st pre ->
    exists s' st' cp' bp' pre', reach (Match st (bp + k) bp) s (Find st' cp' bp') s' /\ found s' st' cp' bp' pre'.
  Proof.
    induction m as [|m IH]; intros s bp k st pre ME RP SC; [lia|].
    pose proof (sc_good _ _ _ _ _ SC) as G. pose proof (sc_text _ _ _ _ _ SC) as T. pose proof (sc_k _ _ _ _ _ SC) as K. pose proof (sc_valid _ _ _ _ _ SC) as V.
    pose proof (sc_bol _ _ _ _ _ SC) as SB. pose proof (sc_start _ _ _ _ _ SC) as SS. destruct (sc_walk _ _ _ _ _ SC) as (a & W & LR & F). pose proof (g_n _ _ _ G) as GN.
    assert (LEN : length R = length pre + length (b_in s)) by (rewrite T; apply app_length).
    destruct (Nat.lt_ge_cases k (length pre)) as [KL|KG].
    - destruct (nth_error pre k) as [c|] eqn:NC; [|apply nth_error_None in NC; lia].
      pose proof (g_pre _ _ _ G _ _ NC) as LC. assert (NR : nth_error R k = Some c) by (rewrite T, nth_error_app1; auto).
      rewrite (skipn_nth R k c NR) in F. destruct (class_ok c) as (kc & KC & IK & EC).
      destruct (finish_cons st a k c (skipn (S k) R) kc V KC) as (x & a' & st' & _ & AX & MK & NX & VX & ST & BX & FX). rewrite FX in F.
      pose proof (walk_next k c st a kc a' st' ltac:(lia) NR W KC MK NX) as W'.
      destruct (N.eqb_spec (N_of_ascii c) 0) as [Z|Z].
      + assert (c = NUL) as -> by (rewrite <- (ascii_N_embedding c), Z; reflexivity). replace kc with 1%N in * by (vm_compute in KC; congruence).
        assert (NN : b_status s <> New) by (intros X; destruct (g_new _ _ _ G X); lia).
        assert (PREV : forall h, exists p, get_previous (set_c (bp + k) (at_eob s bp (bp + k + 1) h (Some (5%N, bp + k + 1)))) = Some (st, set_last p (set_c (bp + k) (at_eob s bp (bp + k + 1) h (Some (5%N, bp + k + 1))))) /\ last_rel bp a p).
        { intros h. apply (previous_ok _ bp k pre); auto; cbn; auto. apply (good_same s); [repeat split|exact G]. }
        destruct (eob_enter s bp pre k st G V ltac:(lia) LC) as [h EN]. destruct (PREV h) as (p & PV & LP). destruct (mark_rel _ _ _ _ _ _ LP MK) as (p' & MP & LP').
        assert (ER : forall l evs, eob_rest k (at_eob s bp (bp + k + 1) h (Some (5%N, bp + k + 1))) l evs =
          Some (if (st' =? 133)%N then Goto (Find st (bp + k) bp) (set_last p' (set_c (bp + k) (at_eob s bp (bp + k + 1) h (Some (5%N, bp + k + 1))))) l evs
                else Goto (Match st' (bp + k + 1) bp) (set_c (bp + k + 1) (set_last p' (set_c (bp + k) (at_eob s bp (bp + k + 1) h (Some (5%N, bp + k + 1)))))) l evs)).
        { intros l evs. unfold eob_rest. cbn [b_status at_eob]. destruct (b_status s); [congruence| |]; cbn [b_c b_n b_text at_eob];
          (destruct (Nat.leb_spec (bp + k + 1) (b_n s)); [|lia]); rewrite PV; unfold try_nul; cbn [b_c b_last set_last set_c]; rewrite MP, NX; destruct (st' =? 133)%N; reflexivity. }
        destruct (N.eqb_spec st' 133) as [J|J].
        * subst st'. replace (stops 133) with true in F by (vm_compute; reflexivity). rewrite find_133 in F.
          eexists _, st, (bp + k), bp, pre. split.
          { exists 3. intros f l evs. change (3 + f) with (S (S (S f))). rewrite EN, ER. cbn [continue]. reflexivity. }
          split; [apply (good_same s); [repeat split|exact G]|]. split; [exact T|]. split; [exact SB|]. split; [exact SS|]. unfold resolve. rewrite AX. cbn [b_last set_last].
          unfold mark in MK. rewrite AX in MK. injection MK as MK. unfold mark in MP. rewrite AX in MP. injection MP as MP.
          assert (BA : before k a) by (apply (walk_first _ _ _ W); lia).
          destruct (x =? 0)%N eqn:X0.
          -- subst a'. destruct a as [[st1 j]|]; [|discriminate F]. cbn in LP'. rewrite LP'. destruct (tget yy_accept st1) as [y|]; [|discriminate F]. injection F as -> ->. split; [reflexivity|]. cbn in BA. lia.
          -- subst a'. rewrite AX in F. injection F as -> ->. split; [reflexivity|lia].
        * assert (V' : valid st' = true) by (destruct VX; [congruence|assumption]).
          assert (F' : finish st' a' (S k) (skipn (S k) R) = Some (act, n)).
          { destruct (stops st') eqn:SP; [|exact F]. now rewrite finish_stops. }
          destruct (IH (set_c (bp + k + 1) (set_last p' (set_c (bp + k) (at_eob s bp (bp + k + 1) h (Some (5%N, bp + k + 1)))))) bp (S k) st' pre) as (s' & st2 & cp' & bp' & pre' & RE & FO).
          { cbn [b_in set_c set_last at_eob]. lia. } { exact RP. }
          { constructor; auto; [apply (good_same s); [repeat split|exact G]|]. exists a'. split; [exact W'|]. split; [exact LP'|exact F']. }
          exists s', st2, cp', bp', pre'. split; [|exact FO]. eapply reach_trans; [|exact RE]. exists 3. intros f l evs. change (3 + f) with (S (S (S f))). rewrite EN, ER. cbn [continue].
          now replace (bp + S k) with (bp + k + 1) by lia.
      + destruct (mark_rel _ _ _ _ _ _ LR MK) as (m' & MM & LR').
        assert (RS : reach (Match st (bp + k) bp) s (if stops st' then Find st' (bp + S k) bp else Match st' (bp + S k) bp) (set_last m' s)).
        { apply reach_step. intros l evs. cbn [step]. rewrite LC, (EC Z), MM, NX. unfold stops. destruct (tget yy_base st') as [b|]; [|congruence]. replace (bp + S k) with (S (bp + k)) by lia. destruct (b =? 289)%N; reflexivity. }
        destruct (stops st') eqn:SP.
        * exists (set_last m' s), st', (bp + S k), bp, pre. split; [exact RS|]. split; [apply (good_same s); [repeat split|exact G]|]. split; [exact T|]. split; [exact SB|]. split; [exact SS|].
          split; [apply (resolve_rel bp st' (S k) a' (set_last m' s) (act, n) LR' F)|]. apply (find_le _ _ _ (act, n)) in F; [cbn in F; lia|]. apply (walk_first _ _ _ W'). lia.
        * assert (V' : valid st' = true) by (destruct VX as [->|]; [vm_compute in SP; discriminate|assumption]).
          destruct (IH (set_last m' s) bp (S k) st' pre) as (s' & st2 & cp' & bp' & pre' & RE & FO).
          { cbn [b_in set_last]. lia. } { exact RP. }
          { constructor; auto; [apply (good_same s); [repeat split|exact G]|]. exists a'. split; [exact W'|]. split; [exact LR'|exact F]. }
          exists s', st2, cp', bp', pre'. split; [|exact FO]. eapply reach_trans; eauto.
    - assert (k = length pre) as -> by lia. destruct (g_end _ _ _ G) as [Z0 _]. rewrite GN in Z0.
      destruct (eob_enter s bp pre (length pre) st G V ltac:(lia) Z0) as [h EN].
      (* the status is no longer New *)
      assert (NB : exists s1, good s1 bp pre /\ b_status s1 <> New /\ b_text s1 = bp /\ b_c s1 = bp + length pre + 1 /\ b_in s1 = b_in s /\ b_bol s1 = bol /\ b_start s1 = start /\
        forall l evs, eob_rest (length pre) (at_eob s bp (bp + length pre + 1) h (Some (5%N, bp + length pre + 1))) l evs =
          let? (r, s) := next_buffer s1 in
          match r with
          | End_of_file => Some (Return None (set_c (b_text s) s) l evs)
          | Continue_scan =>
              let s := set_c (b_text s + length pre) s in
              let? (st, s) := get_previous s in Some (Goto (Match st (b_c s) (b_text s)) s l evs)
          | Last_match =>
              let s := set_c (b_n s) s in
              let? (st, s) := get_previous s in Some (Goto (Find st (b_c s) (b_text s)) s l evs)
          end).
      { unfold eob_rest. cbn [at_eob b_status]. destruct (b_status s) eqn:STS.
        - destruct (g_new _ _ _ G STS) as [N0 O0].
          exists (Scanner (b_buf s) (b_size s) (b_own s) Normal (b_bol s) (b_own s) bp (bp + length pre + 1) h (b_start s) (Some (5%N, bp + length pre + 1)) (b_in s) (b_eof s)). split; [|split; [|split; [|split; [|split; [|split; [|split]]]]]]; cycle 7.
          + intros l evs. cbv zeta. cbn [b_c b_n b_buf b_size b_own b_bol b_text b_hold b_start b_last b_in b_eof at_eob]. destruct (Nat.leb_spec (bp + length pre + 1) (b_own s)); [lia|]. reflexivity.
          + destruct G. constructor; cbn; auto; try lia; try congruence; try discriminate.
          + discriminate.
          + reflexivity. + reflexivity. + reflexivity. + exact SB. + exact SS.
        - exists (at_eob s bp (bp + length pre + 1) h (Some (5%N, bp + length pre + 1))). split; [|split; [|split; [|split; [|split; [|split; [|split]]]]]]; cycle 7.
          + intros l evs. cbv zeta. cbn [b_c b_n at_eob]. destruct (Nat.leb_spec (bp + length pre + 1) (b_n s)); [lia|]. reflexivity.
          + apply (good_same s); [repeat split|exact G]. + cbn. congruence. + reflexivity. + reflexivity. + reflexivity. + exact SB. + exact SS.
        - exists (at_eob s bp (bp + length pre + 1) h (Some (5%N, bp + length pre + 1))). split; [|split; [|split; [|split; [|split; [|split; [|split]]]]]]; cycle 7.
          + intros l evs. cbv zeta. cbn [b_c b_n at_eob]. destruct (Nat.leb_spec (bp + length pre + 1) (b_n s)); [lia|]. reflexivity.
          + apply (good_same s); [repeat split|exact G]. + cbn. congruence. + reflexivity. + reflexivity. + reflexivity. + exact SB. + exact SS. }
      destruct NB as (s1 & G1 & NS1 & T1 & C1 & IN1 & B1 & S1 & ER).
      destruct (next_buffer_ok s1 bp pre G1 NS1 T1 C1) as (r & s2 & NB & RF); [apply (in_int_le _ (2 * (length R + 1))); [lia|exact SIZE]|].
      assert (ER' := ER). rewrite NB in ER'. destruct RF as [s2 c cs I1 I2 G2 TX BB SA|s2 I1 I2 NE G2 TX BB SA|s2 I1 I2 PE].
      + assert (T2 : R = (pre ++ [c]) ++ b_in s2) by (rewrite <- app_assoc, T, I2, <- IN1, I1; reflexivity).
        destruct (previous_ok (set_c (0 + length pre) s2) 0 (length pre) (pre ++ [c]) st a) as (p & PV & LP); [apply (good_same s2); [repeat split|exact G2]|exact T2|cbn; congruence|cbn; congruence|rewrite app_length; lia|exact TX|reflexivity|exact W|].
        destruct (IH (set_last p (set_c (0 + length pre) s2)) 0 (length pre) st (pre ++ [c])) as (s' & st2 & cp' & bp' & pre' & RE & FO); [|exact RP| |].
        { cbn [b_in set_last set_c]. rewrite I2. rewrite <- IN1, I1 in ME. cbn [length] in ME. lia. }
        { constructor; [apply (good_same s2); [repeat split|exact G2]|exact T2|cbn; congruence|cbn; congruence|rewrite app_length; lia|exact V|]. exists a. split; [exact W|]. split; [exact LP|exact F]. }
        exists s', st2, cp', bp', pre'. split; [|exact FO]. eapply reach_trans; [|exact RE]. exists 3. intros f l evs. change (3 + f) with (S (S (S f))). rewrite EN, ER'. cbv zeta. rewrite TX, PV.
        cbn [continue b_c b_text set_last set_c]. now rewrite TX.
      + assert (T2 : R = pre ++ b_in s2) by (rewrite T, I2, <- IN1, I1; reflexivity).
        assert (GN2 : b_n s2 = 0 + length pre) by apply (g_n _ _ _ G2).
        destruct (previous_ok (set_c (b_n s2) s2) 0 (length pre) pre st a) as (p & PV & LP); [apply (good_same s2); [repeat split|exact G2]|exact T2|cbn; congruence|cbn; congruence|lia|exact TX|exact GN2|exact W|].
        destruct (scan_here s bp (length pre) st pre SC eq_refl ltac:(congruence)) as (a1 & FA & W1 & BA). rewrite W in W1. injection W1 as <-.
        exists (set_last p (set_c (b_n s2) s2)), st, (0 + length pre), 0, pre. split.
        { exists 3. intros f l evs. change (3 + f) with (S (S (S f))). rewrite EN, ER'. cbv zeta. rewrite PV. cbn [continue b_c b_text set_last set_c]. now rewrite TX, GN2. }
        split; [apply (good_same s2); [repeat split|exact G2]|]. split; [exact T2|]. split; [cbn; congruence|]. split; [cbn; congruence|].
        split; [exact (resolve_rel 0 st (length pre) a (set_last p (set_c (b_n s2) s2)) (act, n) LP FA)|]. apply (find_le _ _ _ (act, n)) in FA; [exact FA|exact BA].
      + exfalso. rewrite LEN, PE, <- IN1, I1 in RP. cbn in RP. lia.
  Qed.
End Scan.
