(** The scanner with its buffer (Buffer.v) feeding the parser with its memory
    (ParserMem.v): what parser.parse() of items.cpp:62 does with a file.  The proof that this
    is [parse_bytes]. *)
From Coq Require Import String Ascii ZArith NArith Arith List Bool Lia.
From Verif Require Import Base Flex LexRules LexCorrect BisonTables BisonStos Items Bison Parse ParseCorrect Buffer BufferProps BufferStep BufferScan ParserMem ParserMemProps.
Import ListNotations.
Local Open Scope Z_scope.

(** yylex (Parser.cpp:661): one call of the scanner, [steps] bounds its loop. *)
Definition stream_next (steps : nat) (s : scanner) (l : loc) : option (scanner * loc * list event * option token) :=
  let? (tk, s', l', evs) := go steps Begin s l [] in Some (s', l', evs, tk).
(** A file parsed with a first buffer of [size] bytes. *)
Definition mparse_stream (size : nat) (full : nat -> bool) (steps fuel : nat) (cs : bytes) : option (list out * Z) :=
  let? s := scanner0 size cs in mparse (stream_next steps) full fuel s.

(** *** Nothing but reading a token depends on the source *)
Definition with_src {A B} (b : B) (m : mem A) : mem B := Mem (m_stk m) (m_la m) (m_loc m) b (m_err m) (m_n m).
Definition mres_src {A B} (b : B) (r : mres A) : mres B := match r with MGo m => MGo (with_src b m) | MDone rv m => MDone rv (with_src b m) end.
Definition opt_src {A B} (b : B) (x : option (list out * mres A)) : option (list out * mres B) :=
  match x with Some (o, r) => Some (o, mres_src b r) | None => None end.
Ltac both := repeat match goal with |- context [match ?x with _ => _ end] => destruct x; cbn beta iota end; try reflexivity.
Section Src.
  Variables (A B : Type) (full : nat -> bool) (b : B).
  Lemma errlab1_src (m : mem A) o : merrlab1 full (with_src b m) o = opt_src b (merrlab1 full m o).
  Proof. unfold merrlab1, with_src. cbn [m_stk m_la m_loc m_src m_err m_n]. both. Qed.
  Lemma errlab_src (m : mem A) o : merrlab full (with_src b m) o = opt_src b (merrlab full m o).
  Proof.
    unfold merrlab. cbn [with_src m_stk m_la m_loc m_src m_err m_n].
    match goal with |- match ?x with _ => _ end = _ => destruct x as [o'|]; [|reflexivity] end.
    destruct (m_err m =? 3); [|apply errlab1_src]. destruct (y_kind (m_la m)) as [[|p|p]|]; try apply errlab1_src; [reflexivity|..];
      (destruct (clear_sym (m_la m)) as [y|]; [|reflexivity]; exact (errlab1_src (Mem (m_stk m) y (m_loc m) (m_src m) (m_err m) (m_n m)) o')).
  Qed.
  Lemma reduce_src r (m : mem A) o : mreduce full r (with_src b m) o = opt_src b (mreduce full r m o).
  Proof. unfold mreduce. cbn [with_src m_stk m_la m_loc m_src m_err m_n]. both. Qed.
  Lemma dflt_src s (m : mem A) o : mdflt full s (with_src b m) o = opt_src b (mdflt full s m o).
  Proof. unfold mdflt. destruct (zget yydefact_ s) as [r|]; [|reflexivity]. destruct (r =? 0); [apply errlab_src|apply reduce_src]. Qed.
End Src.
Lemma all_gone_src {A B} (b : B) (m : mem A) : all_gone (with_src b m) = all_gone m.
Proof. reflexivity. Qed.
Lemma with_src_twice {A B C} (b : B) (c : C) (m : mem A) : with_src c (with_src b m) = with_src c m.
Proof. reflexivity. Qed.

Section Two.
  Variables (A B : Type) (next1 : A -> loc -> option (A * loc * list event * option token)).
  Variable next2 : nat -> B -> loc -> option (B * loc * list event * option token).
  Variable full : nat -> bool.
  Variable R : A -> loc -> B -> Prop.
  Hypothesis SAME : forall a l b a' l' evs tk, R a l b -> next1 a l = Some (a', l', evs, tk) ->
    exists f b', R a' l' b' /\ forall steps, (f <= steps)%nat -> next2 steps b l = Some (b', l', evs, tk).

  (** What comes out of a step: the source it ends with is related to one of the other side. *)
  Definition src_of (r : mres A) : mem A := match r with MGo m | MDone _ m => m end.
  Lemma keeps_errlab1 (m : mem A) o o' r : merrlab1 full m o = Some (o', r) -> m_src (src_of r) = m_src m /\ m_loc (src_of r) = m_loc m.
  Proof.
    unfold merrlab1. destruct (mpop_error _) as [[l [t|]]|]; [|intros [= <- <-]; auto|discriminate].
    destruct (push _ _ _) as [[l' e]|]; [|discriminate]. destruct (drop_ssym e); [|discriminate]. intros [= <- <-]; auto.
  Qed.
  Lemma keeps_errlab (m : mem A) o o' r : merrlab full m o = Some (o', r) -> m_src (src_of r) = m_src m /\ m_loc (src_of r) = m_loc m.
  Proof.
    unfold merrlab. match goal with |- match ?x with _ => _ end = _ -> _ => destruct x as [o1|]; [|discriminate] end.
    destruct (m_err m =? 3); [|apply keeps_errlab1]. destruct (y_kind (m_la m)) as [[|p|p]|]; try apply keeps_errlab1; [intros [= <- <-]; auto|..];
      (destruct (clear_sym (m_la m)) as [y|]; [|discriminate]; intros H; exact (keeps_errlab1 _ _ _ _ H)).
  Qed.
  Lemma keeps_reduce k (m : mem A) o o' r : mreduce full k m o = Some (o', r) -> m_src (src_of r) = m_src m /\ m_loc (src_of r) = m_loc m.
  Proof.
    unfold mreduce. intros H.
    repeat match type of H with match ?x with _ => _ end = _ => destruct x; cbn beta iota in H; try discriminate H end; injection H as <- <-; auto.
  Qed.
  Lemma keeps_dflt s (m : mem A) o o' r : mdflt full s m o = Some (o', r) -> m_src (src_of r) = m_src m /\ m_loc (src_of r) = m_loc m.
  Proof. unfold mdflt. destruct (zget yydefact_ s) as [k|]; [|discriminate]. destruct (k =? 0); [apply keeps_errlab|apply keeps_reduce]. Qed.

  Lemma step_two (m : mem A) b o r : R (m_src m) (m_loc m) b -> mstep next1 full m = Some (o, r) ->
    exists f b', R (m_src (src_of r)) (m_loc (src_of r)) b' /\ forall steps, (f <= steps)%nat -> mstep (next2 steps) full (with_src b m) = Some (o, mres_src b' r).
  Proof.
    intros H. unfold mstep. change (m_stk (with_src b m)) with (m_stk m). destruct (nth_error (m_stk m) 0) as [y|]; [|discriminate]. cbv zeta.
    destruct (y_state y =? yyfinal_); [intros [= <- <-]; exists 0%nat, b; auto|]. destruct (zget yypact_ (y_state y)) as [p|]; [|discriminate].
    destruct (p =? yypact_ninf_).
    { intros D. exists 0%nat, b. destruct (keeps_dflt _ _ _ _ _ D) as [-> ->]. split; [exact H|]. intros. rewrite dflt_src, D. reflexivity. }
    assert (G : forall (m1 : mem A) b1 o1 k, R (m_src m1) (m_loc m1) b1 ->
      forall rest1 rest2,
      rest1 = (if k =? 1 then merrlab1 full (Mem (m_stk m1) (Sym (Some 2) (y_val (m_la m1))) (m_loc m1) (m_src m1) (m_err m1) (m_n m1)) o1
      else
        let n := p + k in
        if (n <? 0) || (yylast_ <? n) then mdflt full (y_state y) m1 o1
        else
          let? ck := zget yycheck_ n in
          if negb (ck =? k) then mdflt full (y_state y) m1 o1
          else
            let? t := zget yytable_ n in
            if t <=? 0 then
              if t =? yytable_ninf_ then merrlab full m1 o1 else mreduce full (- t) m1 o1
            else
              let? (l, la) := push_sym (full (m_n m1)) (m_stk m1) t (m_la m1) in
              Some (o1, MGo (Mem l la (m_loc m1) (m_src m1) (if m_err m1 =? 0 then 0 else m_err m1 - 1) (S (m_n m1))))) ->
      rest2 = (let m1 := with_src b1 m1 in if k =? 1 then merrlab1 full (Mem (m_stk m1) (Sym (Some 2) (y_val (m_la m1))) (m_loc m1) (m_src m1) (m_err m1) (m_n m1)) o1
      else
        let n := p + k in
        if (n <? 0) || (yylast_ <? n) then mdflt full (y_state y) m1 o1
        else
          let? ck := zget yycheck_ n in
          if negb (ck =? k) then mdflt full (y_state y) m1 o1
          else
            let? t := zget yytable_ n in
            if t <=? 0 then
              if t =? yytable_ninf_ then merrlab full m1 o1 else mreduce full (- t) m1 o1
            else
              let? (l, la) := push_sym (full (m_n m1)) (m_stk m1) t (m_la m1) in
              Some (o1, MGo (Mem l la (m_loc m1) (m_src m1) (if m_err m1 =? 0 then 0 else m_err m1 - 1) (S (m_n m1))))) ->
      rest1 = Some (o, r) -> rest2 = Some (o, mres_src b1 r) /\ R (m_src (src_of r)) (m_loc (src_of r)) b1).
    { intros m1 b1 o1 k H1 rest1 rest2 -> ->. cbv zeta. destruct (k =? 1).
      { intros D. destruct (keeps_errlab1 _ _ _ _ D) as [E1 E2]. rewrite E1, E2. split; [|exact H1].
        exact (eq_trans (errlab1_src _ _ full b1 (Mem (m_stk m1) (Sym (Some 2) (y_val (m_la m1))) (m_loc m1) (m_src m1) (m_err m1) (m_n m1)) o1) (f_equal (opt_src b1) D)). }
      assert (DF : mdflt full (y_state y) m1 o1 = Some (o, r) -> mdflt full (y_state y) (with_src b1 m1) o1 = Some (o, mres_src b1 r) /\ R (m_src (src_of r)) (m_loc (src_of r)) b1).
      { intros D. destruct (keeps_dflt _ _ _ _ _ D) as [-> ->]. split; [|exact H1]. rewrite dflt_src, D. reflexivity. }
      destruct ((p + k <? 0) || (yylast_ <? p + k)); [exact DF|]. destruct (zget yycheck_ (p + k)) as [ck|]; [|discriminate]. destruct (negb (ck =? k)); [exact DF|].
      destruct (zget yytable_ (p + k)) as [t|]; [|discriminate]. destruct (t <=? 0).
      - destruct (t =? yytable_ninf_); intros D; [destruct (keeps_errlab _ _ _ _ D) as [-> ->]|destruct (keeps_reduce _ _ _ _ _ D) as [-> ->]]; (split; [|exact H1]).
        + rewrite errlab_src, D. reflexivity.
        + rewrite reduce_src, D. reflexivity.
      - cbn [with_src m_stk m_la m_loc m_src m_err m_n]. destruct (push_sym _ _ _ _) as [[l la]|]; [|discriminate]. intros [= <- <-]. split; [reflexivity|exact H1]. }
    change (m_la (with_src b m)) with (m_la m). destruct (y_kind (m_la m)) as [k|].
    - intros D. exists 0%nat, b. destruct (G m b [] k H _ _ eq_refl eq_refl D) as [G1 G2]. split; [exact G2|]. intros _ _. exact G1.
    - destruct (next1 (m_src m) (m_loc m)) as [[[[a' l'] evs] tk]|] eqn:N; [|discriminate]. destruct (SAME _ _ _ _ _ _ _ H N) as (f & b' & H' & N2).
      destruct (read_token (m_la m) tk) as [la|] eqn:RT; [|discriminate]. destruct (y_kind la) as [k|] eqn:YK; [|discriminate]. intros D.
      destruct (G (Mem (m_stk m) la l' a' (m_err m) (m_n m)) b' (map OLex evs) k H' _ _ eq_refl eq_refl D) as [G1 G2].
      exists f, b'. split; [exact G2|]. intros steps LE. change (m_src (with_src b m)) with b. change (m_loc (with_src b m)) with (m_loc m). rewrite (N2 _ LE), RT, YK. exact G1.
  Qed.
  Lemma drive_two fuel : forall (m : mem A) b x, R (m_src m) (m_loc m) b -> mdrive next1 full fuel m = Some x ->
    exists f, forall steps fuel', (f <= steps)%nat -> (fuel <= fuel')%nat -> mdrive (next2 steps) full fuel' (with_src b m) = Some x.
  Proof.
    induction fuel as [|n IH]; intros m b x H D; [discriminate D|]. cbn [mdrive] in D.
    destruct (mstep next1 full m) as [[o r]|] eqn:S0; [|discriminate D]. destruct (step_two _ _ _ _ H S0) as (f & b' & H' & S1).
    destruct r as [m'|rv m']; cbn [src_of] in H'.
    - destruct (mdrive next1 full n m') as [[o' rv]|] eqn:E; [|discriminate D]. destruct (IH _ _ _ H' E) as [f' S2]. exists (f + f')%nat. intros steps fuel' LE LF.
      destruct fuel' as [|fuel']; [lia|]. cbn [mdrive]. rewrite S1 by lia. cbn [mres_src]. rewrite S2 by lia. exact D.
    - destruct (all_gone m') eqn:AG; [|discriminate D]. exists f. intros steps fuel' LE LF. destruct fuel' as [|fuel']; [lia|]. cbn [mdrive]. rewrite S1 by lia. cbn [mres_src]. rewrite all_gone_src, AG. exact D.
  Qed.
End Two.

(** *** The text parser with the memory of its values *)
Lemma lex_next_good lx l lx' l' evs t : lex_next lx l = Some (lx', l', evs, Some t) -> Grammar.good_token t.
Proof. unfold lex_next. apply yylex_good. Qed.
Theorem mem_parse full fuel cs x : parse_bytes fuel cs = Some x -> mparse_bytes full fuel cs = Some x.
Proof. apply parse_sim. exact lex_next_good. Qed.

(** *** With the buffer *)
Definition reading (t : nat) (lx : lexer) (l : loc) (s : scanner) : Prop :=
  exists sc, lx_start lx = start_of sc /\ room t l (lx_rest lx) /\ at_rest s lx /\ in_int (2 * (length (lx_rest lx) + 1)) = true.
Lemma same_tokens t : in_int t = true -> forall lx l s lx' l' evs tk, reading t lx l s -> lex_next lx l = Some (lx', l', evs, tk) ->
  exists f s', reading t lx' l' s' /\ forall steps, (f <= steps)%nat -> stream_next steps s l = Some (s', l', evs, tk).
Proof.
  intros IT [st bol cs] l s lx' l' evs tk (sc & E & RM & AR & SZ) N. cbn [lx_start lx_rest] in *. subst st. unfold lex_next in N. cbn [lx_rest] in N.
  destruct (yylex_ok t IT (length cs) sc bol cs l [] s (le_n _) RM AR SZ) as (sc' & bol' & rest & l1 & evs1 & tk1 & s' & f & Y & LR & RM' & AR' & GO).
  rewrite Y in N. injection N as <- <- <- <-. exists f, s'. split.
  - exists sc'. cbn [lx_start lx_rest]. split; [reflexivity|]. split; [exact RM'|]. split; [exact AR'|]. eapply in_int_le; [|exact SZ]. lia.
  - intros steps LE. unfold stream_next. replace steps with (f + (steps - f))%nat by lia. rewrite GO. reflexivity.
Qed.
Theorem stream_parse size full fuel cs x : (1 <= size)%nat -> in_int (2 * (length cs + 1)) = true -> parse_bytes fuel cs = Some x ->
  exists f, forall steps fuel', (f <= steps)%nat -> (fuel <= fuel')%nat -> mparse_stream size full steps fuel' cs = Some x.
Proof.
  intros P SZ D. apply (mem_parse full) in D. unfold mparse_bytes, mparse in D. destruct (scanner0_rest size cs P) as (s & E & AR). unfold mparse_stream, mparse. rewrite E.
  destruct (push_sym (full 0%nat) [] 0 (Sym None Raw)) as [[l la]|]; [|discriminate D].
  destruct (drive_two _ _ lex_next stream_next full _ (same_tokens _ SZ) fuel (Mem l la loc0 (lexer0 cs) 0 1) s x) with (2 := D) as [f H].
  - exists INITIAL. cbn [m_src m_loc lexer0 lx_start lx_rest]. split; [reflexivity|]. split; [|auto]. unfold room, sum, loc0. cbn [l_begin l_end p_line p_col]. lia.
  - exists f. exact H.
Qed.
