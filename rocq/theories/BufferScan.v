(** The buffer of the scanner is invisible: rules, calls of lex, and whole texts. *)
From Coq Require Import String Ascii ZArith NArith Arith List Bool Lia.
From Verif Require Import Base Regex LexRules FlexTables Flex LexCorrect LexWhole LexGap Buffer BufferProps BufferStep.
Import ListNotations.
Local Open Scope nat_scope.

(** Between two matches: the scanner holds the unread text of [lx]. *)
Definition at_rest (s : scanner) (lx : lexer) : Prop :=
  exists pre b, store (b_buf s) (b_c s) (b_hold s) = Some b /\ good (set_buf b s) (b_c s) pre /\ lx_rest lx = pre ++ b_in s /\
    lx_start lx = b_start s /\ (lx_bol lx = b_bol s \/ lx_rest lx = []).
Lemma store_same b i h : load b i = Some h -> store b i h = Some b.
Proof. intros L. destruct (store_ok b i h (load_lt _ _ _ L)) as [b1 S]. pose proof (store_back _ _ _ _ _ L S) as B. rewrite <- B at 1.
  apply store_eq in S as [-> I]. assert (E : firstn i b ++ Some h :: skipn (S i) b = b).
  { unfold load in L. destruct (nth_error b i) as [[y|]|] eqn:N; try discriminate L. injection L as ->. symmetry. now apply split_at. }
  rewrite E in *. congruence.
Qed.
Lemma good_skip s bp pre m : good s bp pre -> m <= length pre -> good s (bp + m) (skipn m pre).
Proof.
  intros [] M. constructor; auto.
  - rewrite skipn_length. lia.
  - rewrite <- (firstn_skipn m pre) in g_pre. apply holds_app in g_pre as [_ H]. now rewrite firstn_length_le in H.
Qed.
Lemma load_in s bp pre m : good s bp pre -> m <= length pre -> exists h, load (b_buf s) (bp + m) = Some h.
Proof.
  intros G M. destruct (Nat.lt_ge_cases m (length pre)) as [C|C].
  - destruct (nth_error pre m) as [h|] eqn:E; [|apply nth_error_None in E; lia]. exists h. now apply (g_pre _ _ _ G).
  - exists NUL. destruct (g_end _ _ _ G) as [A _]. rewrite (g_n _ _ _ G) in A. now replace m with (length pre) by lia.
Qed.
Lemma start_valid sc (bol : bool) : valid (start_of sc + (if bol then 1 else 0))%N = true.
Proof. destruct sc, bol; vm_compute; reflexivity. Qed.
Definition given_up (s : scanner) (bp m : nat) (h : ascii) (b : array) : scanner :=
  Scanner b (b_size s) (b_own s) (b_status s) (b_bol s) (b_n s) bp (bp + m) h (b_start s) (b_last s) (b_in s) (b_eof s).
Lemma before_ok s bp pre m : good s bp pre -> m <= length pre -> exists h b, load (b_buf s) (bp + m) = Some h /\ store (b_buf s) (bp + m) NUL = Some b /\
  before_action s bp (bp + m) = Some (given_up s bp m h b) /\ store b (bp + m) h = Some (b_buf s).
Proof.
  intros G M. destruct (load_in _ _ _ _ G M) as [h H]. destruct (store_ok (b_buf s) (bp + m) NUL) as [b S]; [eapply load_lt; eauto|].
  exists h, b. split; [exact H|]. split; [exact S|]. split; [|eapply store_back; eauto].
  unfold before_action. destruct (Nat.ltb_spec (bp + m) bp); [lia|]. now rewrite H, S.
Qed.

(** The counters have room for the unread bytes. *)
Definition sum (p : pos) : N := (p_line p + p_col p)%N.
Definition room (t : nat) (l : loc) (rest : bytes) : Prop :=
  (1 <= p_col (l_end l) /\ sum (l_begin l) <= N.of_nat t /\ sum (l_end l) + N.of_nat (length rest) <= N.of_nat t)%N.
Lemma room_fits t l rest : room t l rest -> in_int t = true -> loc_fits l = true.
Proof.
  intros (_ & A & B) I. unfold sum in *. unfold loc_fits, pos_fits, in_int in *. apply Z.leb_le in I.
  repeat (apply andb_true_iff; split); apply Z.leb_le; rewrite N_nat_Z; lia.
Qed.
Lemma action_room t a x start l rest start' l' ev tk : action a x start l = Some (start', l', ev, tk) -> x <> [] -> room t l (x ++ rest) -> room t l' rest.
Proof.
  intros A NE R. assert (C : l' = l \/ l' = loc_columns (length x) l \/ l' = loc_lines l).
  { unfold action in A. destruct a as [|p]; [discriminate A|].
    do 6 (destruct p as [p|p|]; try discriminate A; try (injection A as <- <- <- <-; auto; fail)). }
  unfold room, sum in *. rewrite app_length, Nat2N.inj_add in R. assert (1 <= N.of_nat (length x))%N by (destruct x; [congruence|cbn [length]; lia]).
  destruct C as [->|[->| ->]]; cbn [loc_columns loc_lines l_begin l_end p_line p_col]; lia.
Qed.

(** One match, of a rule of the specification. *)
Lemma match_ok t sc bol cs l s : cs <> [] -> room t l cs -> in_int t = true -> at_rest s (Lexer (start_of sc) bol cs) -> in_int (2 * (length cs + 1)) = true ->
  exists sc' bol' rest l' ev tk s' f, lex_step (Lexer (start_of sc) bol cs) l = Some (Lexer (start_of sc') bol' rest, l', ev, tk) /\ length rest < length cs /\ room t l' rest /\
    at_rest s' (Lexer (start_of sc') bol' rest) /\
    forall f' evs, go (S f + f') Begin s l evs = match tk with Some t => Some (Some t, s', l', evs ++ ev) | None => go f' Begin s' l' (evs ++ ev) end.
Proof.
  intros NE RM IT (pre & b & ST & G & T & SS & SB) SZ. cbn [lx_rest lx_start lx_bol] in T, SS, SB. destruct SB as [SB|SB]; [|congruence].
  destruct (scan_one_spec sc bol cs NE) as (r & n & SO & LF & N1). destruct LF as [(IN & _ & LEN & LG) _]. destruct (rule_facts r IN) as [TR ML].
  pose proof (min_len_ok _ _ LG) as MM. rewrite firstn_length_le in MM by exact LEN.
  pose proof (action_ok r (firstn (n - r_trail r) cs) sc l IN) as AO. destruct (sact r (firstn (n - r_trail r) cs) l) as [[l' ev] tk] eqn:SA.
  assert (STEP : lex_step (Lexer (start_of sc) bol cs) l = Some (Lexer (start_of (next_sc r sc)) (new_bol (firstn (n - r_trail r) cs) bol) (skipn (n - r_trail r) cs), l', ev, tk)).
  { unfold lex_step. cbn [lx_start lx_bol lx_rest]. rewrite SO, TR, AO. reflexivity. }
  assert (POS : 0 < length cs) by (destruct cs; [congruence|cbn; lia]).
  pose proof (start_valid sc bol) as V0.
  destruct (scan_ok cs (start_of sc + (if bol then 1 else 0))%N (r_num r) n bol (start_of sc) eq_refl SZ
              (S (length cs - 0 + length (b_in (set_buf b s)))) (set_buf b s) (b_c s) 0 (start_of sc + (if bol then 1 else 0))%N pre) as (s1 & st1 & cp1 & bp1 & pre1 & [f1 RE] & FO); [lia|exact POS| |].
  { constructor; auto; [lia|]. exists None. split; [reflexivity|]. split; [exact I|]. exact SO. }
  destruct FO as (G1 & T1 & B1 & S1 & RS & LE1).
  destruct (before_ok s1 bp1 pre1 n G1 LE1) as (h1 & b1 & H1 & W1 & BA1 & BK1).
  assert (A38 : r_num r <> 38%N). { intros E. rewrite E in AO. discriminate AO. }
  (* the end of the rule's text *)
  set (m := n - r_trail r) in *. assert (LEm : m <= length pre1) by lia.
  destruct (before_ok s1 bp1 pre1 m G1 LEm) as (h2 & b2 & H2 & W2 & BA2 & BK2).
  assert (HT : holds b2 bp1 (firstn m pre1)).
  { eapply holds_store; [apply holds_prefix, (g_pre _ _ _ G1)|exact W2|]. right. rewrite firstn_length. lia. }
  assert (FM : firstn m cs = firstn m pre1) by (rewrite T1, firstn_app; replace (m - length pre1) with 0 by lia; now rewrite app_nil_r).
  assert (LM : length (firstn m pre1) = m) by (apply firstn_length_le; exact LEm).
  set (s2 := set_start (start_of (next_sc r sc)) (set_bol (new_bol (firstn m cs) bol) (given_up s1 bp1 m h2 b2))).
  exists (next_sc r sc), (new_bol (firstn m cs) bol), (skipn m cs), l', ev, tk, s2, (S f1).
  assert (RM' : room t l' (skipn m cs)).
  { eapply action_room; [exact AO| |rewrite firstn_skipn; exact RM]. intros E. apply (f_equal (@length _)) in E. rewrite firstn_length_le in E by (unfold m; lia). cbn in E. unfold m in E. lia. }
  split; [exact STEP|]. split; [rewrite skipn_length; unfold m; lia|]. split; [exact RM'|].
  split.
  { exists (skipn m pre1), (b_buf s1). unfold s2. cbn [set_start set_bol set_buf given_up b_buf b_c b_hold b_in b_start b_bol lx_rest lx_start lx_bol]. split; [exact BK2|].
    split; [apply (good_same s1); [repeat split|now apply good_skip]|]. split; [rewrite T1, skipn_app; f_equal; replace (m - length pre1) with 0 by lia; reflexivity|]. split; [reflexivity|now left]. }
  intros f' evs. change (S (S f1) + f') with (S (S f1 + f')). rewrite go_S. cbn [step]. rewrite ST. cbn [continue]. unfold start_state. rewrite <- SS, <- SB.
  replace (S f1 + f') with (f1 + S f') by lia. rewrite Nat.add_0_r in RE. rewrite RE. rewrite go_S. cbn [step]. unfold resolve in RS.
  destruct (tget yy_accept st1) as [a1|]; [|discriminate RS].
  assert (RS' : (if (a1 =? 0)%N then match b_last s1 with None => None | Some (st', cp') => let? a' := tget yy_accept st' in Some (a', cp') end else Some (a1, cp1)) = Some (r_num r, bp1 + n)) by exact RS.
  rewrite RS'. rewrite BA1. destruct (N.eqb_spec (r_num r) 38) as [E|_]; [contradiction|].
  assert (RR : run_rule (r_num r) bp1 (bp1 + n) (given_up s1 bp1 n h1 b1) l evs = Some (match tk with Some t => Return (Some t) s2 l' (evs ++ ev) | None => Goto Begin s2 l' (evs ++ ev) end)).
  { unfold run_rule. rewrite TR.
    assert (FIRST : (let? (s, cp) :=
        match r_trail r with
        | O => Some (given_up s1 bp1 n h1 b1, bp1 + n)
        | d => if (bp1 + n <? d)%nat then None
               else let? b := store (b_buf (given_up s1 bp1 n h1 b1)) (bp1 + n) (b_hold (given_up s1 bp1 n h1 b1)) in
                    let? s := before_action (set_buf b (given_up s1 bp1 n h1 b1)) bp1 (bp1 + n - d) in Some (s, (bp1 + n - d)%nat)
        end in Some (s, cp)) = Some (given_up s1 bp1 m h2 b2, bp1 + m)).
    { destruct (r_trail r) as [|d] eqn:RT.
      - unfold m. replace (n - 0) with n in * by lia. replace m with n in * by (unfold m; lia). cbn iota beta. repeat f_equal; congruence.
      - cbv iota beta zeta. assert (LT : (bp1 + n <? S d) = false) by (apply Nat.ltb_ge; lia). 
      rewrite LT. cbn [given_up b_buf b_hold]. rewrite BK1. replace (bp1 + n - S d) with (bp1 + m) by (unfold m; lia).
        unfold before_action. cbn [set_buf given_up b_buf]. assert (LT2 : (bp1 + m <? bp1) = false) by (apply Nat.ltb_ge; lia). rewrite ?LT2. rewrite H2, W2. reflexivity. }
    match type of FIRST with (let? _ := ?x in _) = _ => destruct x as [[s3 cp3]|]; [|discriminate FIRST] end.
    cbn iota beta in FIRST |- *. injection FIRST as -> ->.
    replace (bp1 + m - bp1) with m by lia. cbn [given_up b_buf b_bol b_start]. rewrite <- LM at 1. rewrite (text_holds _ _ _ HT), <- FM. rewrite B1.
    change (b_buf (set_bol (new_bol (firstn m cs) bol) (given_up s1 bp1 m h2 b2))) with b2.
    change (b_start (set_bol (new_bol (firstn m cs) bol) (given_up s1 bp1 m h2 b2))) with (b_start s1). rewrite S1.
    assert (CS : c_str_at (length b2) b2 bp1 = Some (c_str (firstn m cs))).
    { rewrite FM. apply c_str_holds; [exact HT| |].
      - rewrite LM. rewrite (load_store _ _ _ _ _ W2). now rewrite Nat.eqb_refl.
      - rewrite LM. destruct (store_length _ _ _ _ W2) as [E I]. lia. }
    rewrite CS. assert (RA : rule_action (r_num r) (firstn m cs) (Some (c_str (firstn m cs))) (start_of sc) l = action (r_num r) (firstn m cs) (start_of sc) l).
    { unfold rule_action. destruct (N.eq_dec (r_num r) 6) as [->|N6]; [reflexivity|]. destruct (r_num r) as [|p]; [reflexivity|]. do 3 (destruct p as [p|p|]; try reflexivity); congruence. }
    rewrite RA, AO, (room_fits _ _ _ RM' IT). destruct tk; reflexivity. }
  rewrite RR. destruct tk; reflexivity.
Qed.

(** The end of the text. *)
Lemma end_ok sc bol l s : at_rest s (Lexer (start_of sc) bol []) -> exists s' f, at_rest s' (Lexer (start_of sc) bol []) /\
  forall f' evs, go (f + f') Begin s l evs = Some (None, s', l, evs).
Proof.
  intros (pre & b & ST & G & T & SS & SB). cbn [lx_rest lx_start lx_bol] in T, SS, SB. symmetry in T. apply app_eq_nil in T as [-> IN].
  destruct (g_end _ _ _ G) as [Z0 _]. rewrite (g_n _ _ _ G) in Z0. cbn [length] in Z0.
  assert (V0 : valid (start_state s) = true) by (unfold start_state; rewrite <- SS; apply start_valid).
  destruct (eob_enter (set_buf b s) (b_c s) [] 0 (start_state s) G V0 ltac:(cbn; lia) Z0) as [h EN]. rewrite Nat.add_0_r in EN.
  set (last := Some (5%N, b_c s + 1)) in *.
  assert (NB : exists s1, good s1 (b_c s) [] /\ b_status s1 <> New /\ b_text s1 = b_c s /\ b_c s1 = b_c s + 0 + 1 /\ b_in s1 = [] /\ b_start s1 = b_start s /\
    forall l evs, eob_rest 0 (at_eob (set_buf b s) (b_c s) (b_c s + 1) h last) l evs =
      let? (r, s) := next_buffer s1 in
      match r with
      | End_of_file => Some (Return None (set_c (b_text s) s) l evs)
      | Continue_scan =>
          let s := set_c (b_text s + 0) s in
          let? (st, s) := get_previous s in Some (Goto (Match st (b_c s) (b_text s)) s l evs)
      | Last_match =>
          let s := set_c (b_n s) s in
          let? (st, s) := get_previous s in Some (Goto (Find st (b_c s) (b_text s)) s l evs)
      end).
  { pose proof (g_n _ _ _ G) as GN. cbn [set_buf b_n length] in GN.
    destruct (b_status s) eqn:STS.
    - destruct (g_new _ _ _ G STS) as [N0 O0]. cbn [set_buf b_n b_own] in N0, O0.
      exists (Scanner b (b_size s) (b_own s) Normal (b_bol s) (b_own s) (b_c s) (b_c s + 1) h (b_start s) last (b_in s) (b_eof s)).
      split; [|split; [discriminate|split; [reflexivity|split; [cbn; lia|split; [exact IN|split; [reflexivity|]]]]]].
      + destruct G. cbn [set_buf b_buf b_size b_n b_in b_eof] in *. constructor; cbn [b_buf b_size b_n b_own b_status b_in b_eof]; auto; try lia; try discriminate. 
        replace (b_own s) with (b_n s) by lia. exact g_end.
      + intros l0 evs. unfold eob_rest. cbn [at_eob set_buf b_status]. rewrite STS. cbv zeta. cbn [b_c b_n b_buf b_size b_own b_bol b_text b_hold b_start b_last b_in b_eof at_eob set_buf].
        destruct (Nat.leb_spec (b_c s + 1) (b_own s)); [lia|]. reflexivity.
    - exists (at_eob (set_buf b s) (b_c s) (b_c s + 1) h last).
      split; [apply (good_same (set_buf b s)); [repeat split|exact G]|]. split; [cbn; congruence|]. split; [reflexivity|]. split; [cbn; lia|]. split; [exact IN|]. split; [reflexivity|].
      intros l0 evs. unfold eob_rest. cbn [at_eob set_buf b_status]. rewrite STS. cbv zeta. cbn [b_c b_n at_eob set_buf]. destruct (Nat.leb_spec (b_c s + 1) (b_n s)); [lia|]. reflexivity.
    - exists (at_eob (set_buf b s) (b_c s) (b_c s + 1) h last).
      split; [apply (good_same (set_buf b s)); [repeat split|exact G]|]. split; [cbn; congruence|]. split; [reflexivity|]. split; [cbn; lia|]. split; [exact IN|]. split; [reflexivity|].
      intros l0 evs. unfold eob_rest. cbn [at_eob set_buf b_status]. rewrite STS. cbv zeta. cbn [b_c b_n at_eob set_buf]. destruct (Nat.leb_spec (b_c s + 1) (b_n s)); [lia|]. reflexivity. }
  destruct NB as (s1 & G1 & NS1 & T1 & C1 & IN1 & S1 & ER).
  destruct (next_buffer_ok s1 (b_c s) [] G1 NS1 T1 C1 ltac:(reflexivity)) as (r & s2 & NB & RF). rewrite NB in ER.
  destruct RF as [s2 c cs I1|s2 I1 I2 NE|s2 I1 I2 PE G2 TX HX CX SA]; [congruence|congruence|].
  exists (set_c (b_text s2) s2), 4. split.
  - exists [], (b_buf s2). cbn [set_c set_buf b_buf b_c b_hold b_in b_start b_bol lx_rest lx_start lx_bol]. rewrite TX, HX. destruct (g_end _ _ _ G2) as [Z2 _]. rewrite (g_n _ _ _ G2) in Z2. cbn in Z2.
    split; [now apply store_same|]. split; [apply (good_same s2); [repeat split|exact G2]|]. split; [now rewrite I2|]. split; [congruence|now right].
  - intros f' evs. change (4 + f') with (S (S (S (S f')))). rewrite go_S. cbn [step]. rewrite ST. cbn [continue]. rewrite EN, ER. reflexivity.
Qed.

(** *** One call of lex *)
Lemma yylex_ok t (IT : in_int t = true) fuel : forall sc bol cs l evs s, length cs <= fuel -> room t l cs -> at_rest s (Lexer (start_of sc) bol cs) -> in_int (2 * (length cs + 1)) = true ->
  exists sc' bol' rest l' evs' tk s' f, yylex fuel (Lexer (start_of sc) bol cs) l evs = Some (Lexer (start_of sc') bol' rest, l', evs', tk) /\
    length rest <= length cs /\ room t l' rest /\ at_rest s' (Lexer (start_of sc') bol' rest) /\ forall f', go (f + f') Begin s l evs = Some (tk, s', l', evs').
Proof.
  induction fuel as [|fuel IH]; intros sc bol cs l evs s LE RM AR SZ.
  - destruct cs; [|cbn in LE; lia]. destruct (end_ok sc bol l s AR) as (s' & f & AR' & GO). exists sc, bol, [], l, evs, None, s', f. split; [reflexivity|]. split; [lia|]. split; [exact RM|]. split; [exact AR'|]. intros f'. apply GO.
  - destruct (list_eq_dec Ascii.ascii_dec cs []) as [->|NE].
    { destruct (end_ok sc bol l s AR) as (s' & f & AR' & GO). exists sc, bol, [], l, evs, None, s', f. split; [reflexivity|]. split; [lia|]. split; [exact RM|]. split; [exact AR'|]. intros f'. apply GO. }
    destruct (match_ok t sc bol cs l s NE RM IT AR SZ) as (sc' & bol' & rest & l' & ev & tk & s' & f & ST & LR & RM' & AR' & GO).
    assert (Y : yylex (S fuel) (Lexer (start_of sc) bol cs) l evs = match tk with Some t => Some (Lexer (start_of sc') bol' rest, l', evs ++ ev, Some t) | None => yylex fuel (Lexer (start_of sc') bol' rest) l' (evs ++ ev) end).
    { cbn [yylex lx_rest]. destruct cs; [congruence|]. now rewrite ST. }
    destruct tk as [tk|].
    + exists sc', bol', rest, l', (evs ++ ev), (Some tk), s', (S f). split; [exact Y|]. split; [lia|]. split; [exact RM'|]. split; [exact AR'|]. intros f'. apply GO.
    + destruct (IH sc' bol' rest l' (evs ++ ev) s') as (sc2 & bol2 & rest2 & l2 & evs2 & tk2 & s2 & f2 & Y2 & L2 & RM2 & AR2 & GO2); [lia|exact RM'|exact AR'| |].
      { eapply in_int_le; [|exact SZ]. lia. }
      exists sc2, bol2, rest2, l2, evs2, tk2, s2, (S f + f2). split; [now rewrite Y|]. split; [lia|]. split; [exact RM2|]. split; [exact AR2|]. intros f'. rewrite <- Nat.add_assoc, GO. apply GO2.
Qed.
Lemma scan_all_ok t (IT : in_int t = true) fuel : forall sc bol cs l s, room t l cs -> at_rest s (Lexer (start_of sc) bol cs) -> in_int (2 * (length cs + 1)) = true ->
  forall r, tokenize fuel (Lexer (start_of sc) bol cs) l = Some r -> exists f0, forall f g, f0 <= f -> fuel <= g -> scan_all g f s l = Some r.
Proof.
  induction fuel as [|fuel IH]; intros sc bol cs l s RM AR SZ r T; [discriminate T|]. cbn [tokenize lx_rest] in T.
  destruct (yylex_ok t IT (length cs) sc bol cs l [] s ltac:(lia) RM AR SZ) as (sc' & bol' & rest & l' & evs & tk & s' & f & Y & L & RM' & AR' & GO). rewrite Y in T.
  assert (G : forall g, f <= g -> go g Begin s l [] = Some (tk, s', l', evs)) by (intros g H; replace g with (f + (g - f)) by lia; apply GO).
  destruct tk as [tk|].
  - destruct (tokenize fuel (Lexer (start_of sc') bol' rest) l') as [[[its le] ee]|] eqn:TK; [|discriminate T]. injection T as <-.
    destruct (IH sc' bol' rest l' s' RM' AR' ltac:(eapply in_int_le; [|exact SZ]; lia) _ TK) as [f0 H]. exists (f + f0). intros g h LE LE2.
    destruct h as [|h]; [lia|]. cbn [scan_all]. rewrite G by lia. now rewrite H by lia.
  - injection T as <-. exists f. intros g h LE LE2. destruct h as [|h]; [lia|]. cbn [scan_all]. now rewrite G.
Qed.
Lemma scanner0_rest size cs : 1 <= size -> exists s, scanner0 size cs = Some s /\ at_rest s (lexer0 cs).
Proof.
  intros P. unfold scanner0.
  destruct (flush_ok (Scanner (repeat None (size + 2)) size 0 New true 0 0 0 NUL 1 None cs false)) as (b & E & L & Z0 & Z1); [cbn [b_buf]; rewrite repeat_length; lia|].
  rewrite E. eexists. split; [reflexivity|]. cbn [b_buf] in L. rewrite repeat_length in L. exists [], b. cbn [set_buf b_buf b_c b_hold b_in b_start b_bol b_size b_last lexer0 lx_rest lx_start lx_bol].
  split; [now apply store_same|]. split; [|split; [reflexivity|split; [reflexivity|now left]]].
  constructor; cbn [set_buf b_buf b_size b_n b_own b_status b_in b_eof length]; auto using holds_nil; try discriminate. 
  cbn [set_buf b_n b_size]. lia.
Qed.
Theorem stream_scanned size cs : 1 <= size -> in_int (2 * (length cs + 1)) = true ->
  exists f0, forall f, f0 <= f -> scan_stream size f cs = scan_text cs.
Proof.
  intros P SZ. destruct (scanner0_rest size cs P) as (s & E & AR). unfold scan_stream. rewrite E.
  destruct (scan_text cs) as [r|] eqn:T; [|exfalso; exact (scan_text_defined cs T)]. pose proof T as T0. unfold scan_text in T0.
  destruct (scan_all_ok _ SZ _ INITIAL true cs loc0 s ltac:(unfold room, sum, loc0; cbn [l_begin l_end p_line p_col]; lia) AR SZ r T0) as [f0 H]. exists (f0 + S (length cs)). intros f LE. apply H; lia.
Qed.
