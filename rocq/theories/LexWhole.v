(** Whole-text scanning: the model of yylex, called until end of file, cuts the
    text exactly as the specification [lexes] says (C01, C02, C03). *)
From Coq Require Import String Ascii NArith Arith List Bool Lia.
From Verif Require Import Base Regex LexRules FlexTables Flex LexCorrect.
Import ListNotations.
Local Open Scope N_scope.

Fixpoint min_len (r : re) : nat :=
  match r with
  | Void => 0 | Eps => 0 | Chr _ => 1
  | Alt a b => Nat.min (min_len a) (min_len b)
  | Seq a b => min_len a + min_len b
  | Star _ => 0
  end.

Lemma min_len_ok r s : lang r s -> (min_len r <= length s)%nat.
Proof.
  induction 1; cbn in *; rewrite ?app_length; try lia.
Qed.

(** What the action of a rule does besides changing the start condition. *)
Definition sact (r : rule) (x : bytes) (l : loc) : loc * list event * option token :=
  match action (r_num r) x 0 l with
  | Some (_, l', ev, tk) => (l', ev, tk)
  | None => (l, [], None)
  end.

Definition rule_ok (r : rule) : bool :=
  Nat.eqb (trail (r_num r)) (r_trail r) && Nat.ltb (r_trail r) (min_len (r_re r)).

Lemma rules_ok : forallb rule_ok rules = true.
Proof. vm_compute. reflexivity. Qed.

Lemma rule_facts r :
  In r rules -> trail (r_num r) = r_trail r /\ (r_trail r < min_len (r_re r))%nat.
Proof.
  intros H. pose proof rules_ok as G. rewrite forallb_forall in G. specialize (G _ H).
  unfold rule_ok in G. apply andb_true_iff in G as [G1 G2].
  apply Nat.eqb_eq in G1. apply Nat.ltb_lt in G2. auto.
Qed.

Lemma rule_nums r : In r rules -> In (r_num r) (map r_num rules).
Proof. apply in_map. Qed.

Definition nums : list N := Eval vm_compute in map r_num rules.

Lemma action_ok r x sc l :
  In r rules ->
  action (r_num r) x (start_of sc) l =
  let '(l', ev, tk) := sact r x l in Some (start_of (next_sc r sc), l', ev, tk).
Proof.
  intros H. apply rule_nums in H. change (map r_num rules) with nums in H.
  unfold sact, next_sc. unfold nums in H. cbn [In] in H.
  repeat (destruct H as [H|H]; [rewrite <- H; reflexivity|]). destruct H.
Qed.

Lemma new_bol_ends x b : x <> [] -> new_bol x b = ends_nl x.
Proof.
  intros Hx. unfold new_bol, ends_nl. destruct (rev x) eqn:E; auto.
  exfalso. apply Hx. rewrite <- (rev_involutive x), E. reflexivity.
Qed.

(** One iteration of the scanner loop. *)
Lemma lex_step_spec sc bol cs l :
  cs <> [] ->
  exists r n x rest,
    longest_first sc bol cs r n /\ cs = x ++ rest /\
    length x = (n - r_trail r)%nat /\ x <> [] /\
    lex_step (Lexer (start_of sc) bol cs) l =
    let '(l', ev, tk) := sact r x l in
    Some (Lexer (start_of (next_sc r sc)) (ends_nl x) rest, l', ev, tk).
Proof.
  intros Hne. destruct (scan_one_spec sc bol cs Hne) as (r & n & Hs & Hl & Hn).
  destruct Hl as [Hm Hbest]. pose proof Hm as (Hin & Hact & Hlen & Hlang).
  destruct (rule_facts r Hin) as [Ht Hmin].
  pose proof (min_len_ok _ _ Hlang) as Hml. rewrite firstn_length_le in Hml by auto.
  set (m := (n - r_trail r)%nat).
  assert (Hm1 : (1 <= m <= length cs)%nat) by (unfold m; lia).
  exists r, n, (firstn m cs), (skipn m cs).
  assert (Hx : length (firstn m cs) = m) by (apply firstn_length_le; lia).
  assert (Hxn : firstn m cs <> []) by (intros E; rewrite E in Hx; cbn in Hx; lia).
  split; [split; auto|]. split; [symmetry; apply firstn_skipn|].
  split; [exact Hx|]. split; [exact Hxn|].
  unfold lex_step. cbn [lx_start lx_bol lx_rest]. rewrite Hs, Ht. fold m.
  rewrite (action_ok r _ sc l Hin). destruct (sact r (firstn m cs) l) as [[l' ev] tk].
  rewrite new_bol_ends; auto.
Qed.

(** ** Interpretation of a list of lexemes *)

Fixpoint interp (ls : list (rule * bytes)) (l : loc) (evs : list event)
  : list item * loc * list event :=
  match ls with
  | [] => ([], l, evs)
  | (r, x) :: ls' =>
      let '(l', ev, tk) := sact r x l in
      match tk with
      | None => interp ls' l' (evs ++ ev)
      | Some t =>
          let '(its, le, ee) := interp ls' l' [] in
          (Item t l' (evs ++ ev) :: its, le, ee)
      end
  end.

(** A yylex call takes lexemes up to the first one that returns a token. *)
Lemma yylex_spec fuel : forall sc bol cs l evs,
  (length cs <= fuel)%nat ->
  exists ls sc' bol' rest,
    (forall lt, lexes sc' bol' rest lt -> lexes sc bol cs (ls ++ lt)) /\
    (length rest <= length cs)%nat /\
    ((exists l' e',
        yylex fuel (Lexer (start_of sc) bol cs) l evs =
          Some (Lexer (start_of sc') bol' rest, l', e', None) /\
        rest = [] /\
        (forall lt, interp (ls ++ lt) l evs = interp lt l' e')) \/
     (exists l' e' t,
        yylex fuel (Lexer (start_of sc) bol cs) l evs =
          Some (Lexer (start_of sc') bol' rest, l', e', Some t) /\
        (length rest < length cs)%nat /\
        (forall lt, interp (ls ++ lt) l evs =
                    let '(its, le, ee) := interp lt l' [] in (Item t l' e' :: its, le, ee)))).
Proof.
  induction fuel as [|fuel IH]; intros sc bol cs l evs Hf.
  - assert (cs = []) by (destruct cs; cbn in Hf; auto; lia). subst.
    exists [], sc, bol, []. split; [auto|]. split; [lia|].
    left. exists l, evs. auto.
  - destruct cs as [|c cs'] eqn:Ecs.
    + exists [], sc, bol, []. split; [auto|]. split; [lia|].
      left. exists l, evs. auto.
    + assert (Hne : cs <> []) by (subst; discriminate). rewrite <- Ecs in *. 
      destruct (lex_step_spec sc bol cs l Hne) as (r & n & x & rest & Hl & Hcs & Hx & Hxn & Hstep).
      assert (Hlx : (1 <= length x)%nat) by (destruct x; [congruence | cbn; lia]).
      assert (Hlen : length cs = (length x + length rest)%nat) by (rewrite Hcs, app_length; auto).
      assert (Hy : yylex (S fuel) (Lexer (start_of sc) bol cs) l evs =
                   let? (lx', l', ev, tk) := lex_step (Lexer (start_of sc) bol cs) l in
                   match tk with
                   | Some t => Some (lx', l', evs ++ ev, Some t)
                   | None => yylex fuel lx' l' (evs ++ ev)
                   end).
      { subst cs. reflexivity. }
      rewrite Hstep in Hy. destruct (sact r x l) as [[l1 ev] tk] eqn:Es.
      destruct tk as [t|].
      * exists [(r, x)], (next_sc r sc), (ends_nl x), rest. split; [|split; [lia|]].
        -- intros lt Hlt. cbn. econstructor; eauto.
        -- right. exists l1, (evs ++ ev), t. split; auto. split; [lia|].
           intros lt. cbn. rewrite Es. reflexivity.
      * destruct (IH (next_sc r sc) (ends_nl x) rest l1 (evs ++ ev)) as
          (ls & sc' & bol' & rest' & Hlex & Hlen' & Hcase); [lia|].
        exists ((r, x) :: ls), sc', bol', rest'. split; [|split; [lia|]].
        -- intros lt Hlt. cbn. econstructor; eauto.
        -- destruct Hcase as [(l' & e' & H1 & H2 & H3)|(l' & e' & t & H1 & H2 & H3)].
           ++ left. exists l', e'. rewrite Hy. split; auto. split; auto.
              intros lt. cbn. rewrite Es. apply H3.
           ++ right. exists l', e', t. rewrite Hy. split; auto. split; [lia|].
              intros lt. cbn. rewrite Es. apply H3.
Qed.

Lemma tokenize_spec fuel : forall sc bol cs l,
  (length cs < fuel)%nat ->
  exists ls, lexes sc bol cs ls /\
             tokenize fuel (Lexer (start_of sc) bol cs) l = Some (interp ls l []).
Proof.
  induction fuel as [|fuel IH]; intros sc bol cs l Hf; [lia|].
  cbn [tokenize lx_rest].
  destruct (yylex_spec (length cs) sc bol cs l [] (le_n _)) as
    (ls & sc' & bol' & rest & Hlex & Hlen & Hcase).
  destruct Hcase as [(l' & e' & H1 & H2 & H3)|(l' & e' & t & H1 & H2 & H3)].
  - exists ls. rewrite H1. subst rest. split.
    + rewrite <- (app_nil_r ls). apply Hlex. constructor.
    + rewrite <- (app_nil_r ls) at 1. rewrite H3. reflexivity.
  - destruct (IH sc' bol' rest l') as (lt & Hlt & Htok); [lia|].
    exists (ls ++ lt). rewrite H1, Htok. split; [auto|]. rewrite H3.
    destruct (interp lt l' []) as [[its le] ee]. reflexivity.
Qed.

(** Lexemes concatenate to the text. *)
Lemma lexes_concat sc bol cs ls : lexes sc bol cs ls -> concat (map snd ls) = cs.
Proof.
  induction 1; cbn; auto. rewrite IHlexes. auto.
Qed.

(** ** The specification is deterministic *)

Definition uniq_ok : bool :=
  forallb (fun sb => forallb (fun r => forallb (fun r' =>
     if r_num r =? r_num r' then
       match r_sc r, r_sc r' with
       | INITIAL, INITIAL | C_COMMENT, C_COMMENT =>
         Nat.eqb (r_trail r) (r_trail r') && re_eqb (r_re r) (r_re r') &&
         Bool.eqb (r_bol r) (r_bol r')
       | _, _ => true
       end
     else true)
     rules) rules) [tt].

Lemma uniq_ok_true : uniq_ok = true.
Proof. vm_compute. reflexivity. Qed.

Lemma rule_unique sc bol r r' :
  In r rules -> In r' rules -> active sc bol r = true -> active sc bol r' = true ->
  r_num r = r_num r' -> r = r'.
Proof.
  intros H1 H2 A1 A2 E. pose proof uniq_ok_true as H. unfold uniq_ok in H.
  cbn [forallb] in H. apply andb_true_iff in H as [H _].
  rewrite forallb_forall in H. specialize (H _ H1). rewrite forallb_forall in H.
  specialize (H _ H2). rewrite E, N.eqb_refl in H.
  destruct r as [n s b e t], r' as [n' s' b' e' t']; cbn in *.
  destruct sc, s, s'; cbn in *; try discriminate;
    apply andb_true_iff in H as [H Hb]; apply andb_true_iff in H as [H Hr];
    apply Nat.eqb_eq in H; apply re_eqb_eq in Hr; apply eqb_prop in Hb; congruence.
Qed.

Lemma longest_first_det sc bol cs r n r' n' :
  longest_first sc bol cs r n -> longest_first sc bol cs r' n' -> r = r' /\ n = n'.
Proof.
  intros [H1 H2] [H1' H2'].
  assert (n = n' /\ r_num r = r_num r').
  { destruct (H2 _ _ H1') as [H|[H H']]; destruct (H2' _ _ H1) as [G|[G G']]; lia. }
  destruct H as [-> H]. split; auto.
  destruct H1 as (A & B & _), H1' as (A' & B' & _). eapply rule_unique; eauto.
Qed.

Lemma app_inv_len {A} (a b c d : list A) :
  a ++ b = c ++ d -> length a = length c -> a = c /\ b = d.
Proof.
  revert c; induction a as [|x a IH]; intros [|y c] E Hl; cbn in *; try lia; auto.
  injection E as -> E. destruct (IH c E ltac:(lia)). subst; auto.
Qed.

Lemma lexes_det sc bol cs ls : lexes sc bol cs ls -> forall ls', lexes sc bol cs ls' -> ls = ls'.
Proof.
  induction 1 as [|sc bol cs r n x rest ls Hl Hcs Hx Hxn Hlex IH]; intros ls' H'.
  - inversion H'; subst; auto.
    match goal with H : [] = _ ++ _ |- _ => symmetry in H; apply app_eq_nil in H as [-> _] end.
    congruence.
  - inversion H' as [|sc0 bol0 cs0 r' n' x' rest' ls0 Hl' Hcs' Hx' Hxn' Hlex']; subst.
    + exfalso.
      match goal with H : [] = _ ++ _ |- _ => symmetry in H; apply app_eq_nil in H as [-> _] end.
      congruence.
    + destruct (longest_first_det _ _ _ _ _ _ _ Hl Hl') as [-> ->].
      destruct (app_inv_len _ _ _ _ Hcs' ltac:(congruence)) as [-> ->].
      f_equal. apply IH. auto.
Qed.
