(** Tokens, line numbers and columns of the scanned text (C01, C09, C10). *)
From Coq Require Import String Ascii NArith Arith List Bool Lia.
From Verif Require Import Base Regex LexRules FlexTables Flex LexCorrect LexWhole.
Import ListNotations.
Local Open Scope N_scope.

(** ** Tokens *)

Definition tok_view (t : token) : N * option bytes :=
  (t_kind t, option_map list_ascii_of_string (t_val t)).

Lemma sact_token r x l :
  In r rules ->
  option_map tok_view (snd (sact r x l)) = spec_token r x.
Proof.
  intros H. apply rule_nums in H. change (map r_num rules) with nums in H.
  unfold sact, spec_token, nums in *. cbn [In] in H.
  repeat (destruct H as [H|H];
          [rewrite <- H; cbn -[string_of_list_ascii]; unfold tok_view; cbn -[string_of_list_ascii];
           rewrite ?list_ascii_of_string_of_list_ascii; reflexivity|]).
  destruct H.
Qed.

Lemma lexes_in sc bol cs ls : lexes sc bol cs ls -> forall r x, In (r, x) ls -> In r rules.
Proof.
  induction 1 as [|sc bol cs r n x rest ls Hl Hcs Hx Hxn Hlex IH]; intros r' x' Hin; [destruct Hin|].
  destruct Hin as [E|Hin]; eauto. injection E as <- <-. destruct Hl as [(H & _) _]; auto.
Qed.

Lemma interp_tokens ls : forall l evs,
  (forall r x, In (r, x) ls -> In r rules) ->
  map (fun i => tok_view (i_tok i)) (fst (fst (interp ls l evs))) = spec_tokens ls.
Proof.
  induction ls as [|[r x] ls IH]; intros l evs Hin; cbn [interp]; auto.
  pose proof (sact_token r x l (Hin r x (or_introl eq_refl))) as Ht.
  assert (Hin' : forall r0 x0, In (r0, x0) ls -> In r0 rules) by (intros; eapply Hin; right; eauto).
  cbn [spec_tokens flat_map fst snd]. fold (spec_tokens ls). rewrite <- Ht. clear Ht.
  destruct (sact r x l) as [[l' ev] tk]. cbn [snd option_map].
  destruct tk as [t|].
  - specialize (IH l' [] Hin'). destruct (interp ls l' []) as [[its le] ee].
    cbn [fst map i_tok app option_map] in *. rewrite IH. reflexivity.
  - cbn [app option_map]. apply IH; auto.
Qed.

(** ** Newlines inside lexemes *)

Lemma newlines_app a b : newlines (a ++ b) = (newlines a + newlines b)%nat.
Proof. induction a; cbn; lia. Qed.

Lemma lang_sets r s : lang r s -> Forall (fun c => exists b, In b (sets_of r) /\ bset_mem b c = true) s.
Proof.
  induction 1; cbn [sets_of]; repeat constructor; auto.
  - exists s; split; cbn; auto.
  - eapply Forall_impl; [|eassumption]. intros c (d & H1 & H2). exists d; split; auto.
    apply in_or_app; auto.
  - eapply Forall_impl; [|eassumption]. intros c (d & H1 & H2). exists d; split; auto.
    apply in_or_app; auto.
  - apply Forall_app; split.
    + eapply Forall_impl; [|eassumption]. intros c (d & H1 & H2). exists d; split; auto.
      apply in_or_app; auto.
    + eapply Forall_impl; [|eassumption]. intros c (d & H1 & H2). exists d; split; auto.
      apply in_or_app; auto.
  - apply Forall_app; split; auto.
Qed.

Definition no_nl (r : re) : bool :=
  forallb (fun b => negb (bset_mem b (ascii_of_N 10))) (sets_of r).

Lemma newline_byte c : N_of_ascii c =? 10 = true -> c = ascii_of_N 10.
Proof.
  intros H. apply N.eqb_eq in H. rewrite <- (ascii_N_embedding c), H. reflexivity.
Qed.

Lemma no_nl_newlines r s : no_nl r = true -> lang r s -> newlines s = 0%nat.
Proof.
  intros Hn Hl. apply lang_sets in Hl. unfold no_nl in Hn. rewrite forallb_forall in Hn.
  induction Hl as [|c s (b & Hb & Hm) _ IH]; cbn; auto.
  rewrite IH. destruct (N_of_ascii c =? 10) eqn:E; auto.
  apply newline_byte in E; subst c. specialize (Hn _ Hb). rewrite Hm in Hn. discriminate.
Qed.

(** Rules 5 and 6: everything but the last byte has no newline. *)
Definition trail_shape (r : re) : bool :=
  match r with
  | Seq a (Seq b (Seq c d)) => re_eqb d nl && no_nl a && no_nl b && no_nl c
  | Seq a (Seq b c) => re_eqb c nl && no_nl a && no_nl b
  | _ => false
  end.

Lemma lang_nl s : lang nl s -> s = [ascii_of_N 10].
Proof.
  inversion 1 as [|b c Hc| | | | |]; subst. f_equal. apply newline_byte.
  unfold bset_mem, set_of, in_ranges in Hc. cbn [bs_neg bs_ranges existsb fst snd] in Hc.
  destruct ((10 <=? N_of_ascii c) && (N_of_ascii c <=? 10)) eqn:E; [|discriminate].
  apply andb_true_iff in E as [H1 H2]. apply N.leb_le in H1, H2. apply N.eqb_eq. lia.
Qed.

Lemma trail_shape_ok r s :
  trail_shape r = true -> lang r s -> exists u, s = u ++ [ascii_of_N 10] /\ newlines u = 0%nat.
Proof.
  intros Ht Hl. destruct r as [| | | |a r|]; try discriminate.
  destruct r as [| | | |b r|]; try discriminate.
  apply lang_seq in Hl as (s1 & s2 & -> & L1 & L2).
  apply lang_seq in L2 as (s3 & s4 & -> & L3 & L4).
  cbn [trail_shape] in Ht.
  assert (Hcase : (re_eqb r nl && no_nl a && no_nl b = true) \/
                  exists c d, r = Seq c d /\ re_eqb d nl && no_nl a && no_nl b && no_nl c = true).
  { destruct r as [| | | |c d|]; auto. right. exists c, d. auto. }
  destruct Hcase as [H|(c & d & -> & H)]; rewrite !andb_true_iff in H.
  - destruct H as [[H1 H2] H3]. apply re_eqb_eq in H1; subst r. apply lang_nl in L4; subst s4.
    exists (s1 ++ s3). rewrite app_assoc. split; auto. rewrite newlines_app.
    rewrite (no_nl_newlines _ _ H2 L1), (no_nl_newlines _ _ H3 L3). auto.
  - destruct H as [[[H1 H2] H3] H4]. apply re_eqb_eq in H1; subst d.
    apply lang_seq in L4 as (s5 & s6 & -> & L5 & L6). apply lang_nl in L6; subst s6.
    exists (s1 ++ s3 ++ s5). rewrite !app_assoc. split; auto. rewrite !newlines_app.
    rewrite (no_nl_newlines _ _ H2 L1), (no_nl_newlines _ _ H3 L3), (no_nl_newlines _ _ H4 L5).
    auto.
Qed.

Definition nl_rule (r : rule) : bool := (r_num r =? 2) || (r_num r =? 7).

(* shape of each rule as far as newlines are concerned *)
Definition nl_ok (r : rule) : bool :=
  if r_num r =? 37 then re_eqb (r_re r) (Alt dot nl) && Nat.eqb (r_trail r) 0
  else if r_num r =? 2 then re_eqb (r_re r) nl && Nat.eqb (r_trail r) 0
  else if r_num r =? 7 then re_eqb (r_re r) (Seq (opt (one 13)) nl) && Nat.eqb (r_trail r) 0
  else if Nat.eqb (r_trail r) 0 then no_nl (r_re r)
  else trail_shape (r_re r) && Nat.eqb (r_trail r) 1.

Lemma nl_ok_all : forallb nl_ok rules = true.
Proof. vm_compute. reflexivity. Qed.

Lemma newlines_ends_nl x : newlines x = 0%nat -> ends_nl x = false.
Proof.
  unfold ends_nl. intros H. destruct (rev x) as [|c s] eqn:E; auto.
  assert (Hx : x = rev s ++ [c]) by (rewrite <- (rev_involutive x), E; reflexivity).
  rewrite Hx, newlines_app in H. cbn in H. destruct (N_of_ascii c =? 10); auto. lia.
Qed.

Lemma ends_nl_app u : ends_nl (u ++ [ascii_of_N 10]) = true.
Proof. unfold ends_nl. rewrite rev_app_distr. reflexivity. Qed.

Lemma lexeme_newlines sc bol cs r n x rest :
  longest_first sc bol cs r n -> cs = x ++ rest -> length x = (n - r_trail r)%nat ->
  newlines x = (if nl_rule r then 1 else 0)%nat /\ ends_nl x = nl_rule r.
Proof.
  intros [Hm Hb] Hcs Hx. pose proof Hm as (Hin & Hact & Hlen & Hlang).
  pose proof nl_ok_all as Hok. rewrite forallb_forall in Hok. specialize (Hok _ Hin).
  assert (Hf : r_trail r = 0%nat -> firstn n cs = x).
  { intros H0. rewrite H0 in Hx. rewrite Nat.sub_0_r in Hx.
    rewrite Hcs, <- Hx, firstn_app, Nat.sub_diag, firstn_all. cbn. apply app_nil_r. }
  unfold nl_ok in Hok. unfold nl_rule.
  destruct (r_num r =? 37) eqn:E37.
  { apply N.eqb_eq in E37. apply andb_true_iff in Hok as [H1 H2].
    apply re_eqb_eq in H1. apply Nat.eqb_eq in H2.
    rewrite (Hf H2) in Hlang. rewrite H1 in Hlang.
    assert (Hx0 : newlines x = 0%nat).
    { apply lang_alt in Hlang as [Hd|Hd].
      - eapply no_nl_newlines; [|exact Hd]. reflexivity.
      - exfalso. assert (Hn1 : n = 1%nat).
        { apply lang_nl in Hd. rewrite Hd in Hx. cbn in Hx. lia. }
        assert (Hdn : lang nl (firstn n cs)) by (rewrite (Hf H2); auto).
        destruct sc.
        + destruct (Hb (R 7 (Seq (opt (one 13)) nl)) n) as [H|[_ H]].
          * split; [unfold rules; cbn [In]; unfold R; tauto|]. split; [reflexivity|].
            split; auto. cbn [r_re R]. apply lang_seq. exists [], (firstn n cs).
            split; auto. split; auto. apply L_altr. constructor.
          * lia.
          * cbn in H. rewrite E37 in H. lia.
        + destruct (Hb (Rule 2 C_COMMENT false nl 0) n) as [H|[_ H]].
          * split; [unfold rules; cbn [In]; unfold R; tauto|]. split; [reflexivity|].
            split; auto.
          * lia.
          * cbn in H. rewrite E37 in H. lia. }
    rewrite E37. cbn. split; auto using newlines_ends_nl. }
  destruct (r_num r =? 2) eqn:E2.
  { apply andb_true_iff in Hok as [H1 H2]. apply re_eqb_eq in H1. apply Nat.eqb_eq in H2.
    rewrite (Hf H2) in Hlang. rewrite H1 in Hlang. apply lang_nl in Hlang. subst x.
    split; reflexivity. }
  destruct (r_num r =? 7) eqn:E7.
  { apply andb_true_iff in Hok as [H1 H2]. apply re_eqb_eq in H1. apply Nat.eqb_eq in H2.
    rewrite (Hf H2) in Hlang. rewrite H1 in Hlang.
    apply lang_seq in Hlang as (u & v & E & L1 & L2). apply lang_nl in L2. subst v.
    assert (newlines u = 0%nat) by (eapply no_nl_newlines; [|exact L1]; reflexivity).
    rewrite E. rewrite newlines_app, ends_nl_app, H. split; reflexivity. }
  destruct (Nat.eqb (r_trail r) 0) eqn:Et.
  { apply Nat.eqb_eq in Et. rewrite (Hf Et) in Hlang.
    assert (newlines x = 0%nat) by (eapply no_nl_newlines; eauto).
    split; auto using newlines_ends_nl. }
  apply andb_true_iff in Hok as [H1 H2]. apply Nat.eqb_eq in H2.
  destruct (trail_shape_ok _ _ H1 Hlang) as (u & Hu & Hn).
  assert (x = u).
  { pose proof (firstn_length_le cs Hlen) as Hl. rewrite Hu, app_length in Hl. cbn in Hl.
    rewrite <- (firstn_skipn n cs), Hu, <- app_assoc in Hcs.
    symmetry in Hcs. apply app_inv_len in Hcs as [-> _]; auto. lia. }
  subst u. split; auto using newlines_ends_nl.
Qed.

(** ** Locations *)

Definition col_step (r : rule) (x : bytes) (col : nat) : nat :=
  (if ends_nl x then 1 else if uncounted r then col else col + length x)%nat.

Lemma sact_loc r x l :
  In r rules -> ends_nl x = nl_rule r -> newlines x = (if nl_rule r then 1 else 0)%nat ->
  let l' := fst (fst (sact r x l)) in
  l_end l' = Pos (p_line (l_end l) + N.of_nat (newlines x))
                 (N.of_nat (col_step r x (N.to_nat (p_col (l_end l))))) /\
  (snd (sact r x l) <> None -> l_begin l' = l_end l).
Proof.
  intros H He Hn. rewrite Hn. unfold col_step. rewrite He. clear He Hn.
  apply rule_nums in H. change (map r_num rules) with nums in H.
  unfold sact, nl_rule, uncounted, nums in *. cbn [In] in H.
  destruct l as [lb [ll lc]].
  repeat (destruct H as [H|H];
    [rewrite <- H; cbn -[string_of_list_ascii N.add N.of_nat N.to_nat Nat.add];
     rewrite ?Nat2N.inj_add, ?N2Nat.id, ?N.add_0_r; split; [reflexivity|tauto || congruence]|]).
  destruct H.
Qed.

(** All about where the tokens of a text are. *)
Theorem interp_locs sc bol cs ls :
  lexes sc bol cs ls ->
  forall l evs line col,
  l_end l = Pos (N.of_nat line) (N.of_nat col) ->
  forall i it, nth_error (fst (fst (interp ls l evs))) i = Some it ->
  exists pre r x post,
    ls = pre ++ (r, x) :: post /\
    length (spec_tokens pre) = i /\
    spec_token r x = Some (tok_view (i_tok it)) /\
    l_begin (i_loc it) =
      Pos (N.of_nat (line + newlines (concat (map snd pre))))
          (N.of_nat (columns_after pre col)) /\
    l_end (i_loc it) =
      Pos (N.of_nat (line + newlines (concat (map snd pre))))
          (N.of_nat (columns_after pre col + length x)).
Proof.
  induction 1 as [|sc bol cs r n x rest ls Hl Hcs Hx Hxn Hlex IH];
    intros l evs line col Hend i it Hi.
  - cbn in Hi. destruct i; discriminate.
  - assert (Hin : In r rules) by (destruct Hl as [(H & _) _]; auto).
    destruct (lexeme_newlines _ _ _ _ _ _ _ Hl Hcs Hx) as [Hnl He].
    pose proof (sact_loc r x l Hin He Hnl) as Hloc.
    pose proof (sact_token r x l Hin) as Htok.
    cbn [interp] in Hi. destruct (sact r x l) as [[l1 ev] tk].
    cbn [fst snd] in Hloc, Htok. destruct Hloc as [Hend1 Hbeg1].
    rewrite Hend in Hend1. cbn [p_line p_col] in Hend1. rewrite Nat2N.id, <- Nat2N.inj_add in Hend1.
    destruct tk as [t|].
    + assert (Hb1 : l_begin l1 = Pos (N.of_nat line) (N.of_nat col)).
      { rewrite Hbeg1, Hend; auto. discriminate. }
      specialize (IH l1 [] _ _ Hend1).
      destruct (interp ls l1 []) as [[its le] ee]. cbn [fst] in *.
      destruct i as [|i]; cbn [nth_error] in Hi.
      * injection Hi as <-. exists [], r, x, ls. cbn [i_tok i_loc app map concat length spec_tokens flat_map newlines columns_after].
        rewrite Nat.add_0_r. repeat split; auto.
        rewrite Hend1. 
        assert (Hnr : nl_rule r = false).
        { destruct (nl_rule r) eqn:E; auto. exfalso. cbn in Htok. symmetry in Htok.
          unfold spec_token in Htok. unfold nl_rule in E. apply orb_true_iff in E as [E|E];
          apply N.eqb_eq in E; rewrite E in Htok; discriminate. }
        assert (Hun : uncounted r = false).
        { destruct (uncounted r) eqn:E; auto. exfalso. cbn in Htok. symmetry in Htok.
          unfold spec_token in Htok. unfold uncounted in E. rewrite !orb_true_iff in E.
          destruct E as [[E|E]|E]; apply N.eqb_eq in E; rewrite E in Htok; discriminate. }
        rewrite Hnl, Hnr. unfold col_step. rewrite He, Hnr, Hun, Nat.add_0_r. reflexivity.
      * destruct (IH i it Hi) as (pre & r0 & x0 & post & -> & Hc & Ht & Hb2 & He2).
        exists ((r, x) :: pre), r0, x0, post. split; auto.
        cbn [spec_tokens flat_map fst snd]. fold (spec_tokens pre). rewrite <- Htok. cbn [option_map].
        split; [cbn [app length]; lia|]. split; auto.
        cbn [map concat snd columns_after]. rewrite newlines_app.
        replace (line + (newlines x + newlines (concat (map snd pre))))%nat
          with (line + newlines x + newlines (concat (map snd pre)))%nat by lia.
        unfold col_step in *. split; auto.
    + specialize (IH l1 (evs ++ ev) _ _ Hend1 i it Hi).
      destruct IH as (pre & r0 & x0 & post & -> & Hc & Ht & Hb2 & He2).
      exists ((r, x) :: pre), r0, x0, post. split; auto.
      cbn [spec_tokens flat_map fst snd]. fold (spec_tokens pre). rewrite <- Htok. cbn [option_map].
      split; auto. split; auto.
      cbn [map concat snd columns_after]. rewrite newlines_app.
      replace (line + (newlines x + newlines (concat (map snd pre))))%nat
        with (line + newlines x + newlines (concat (map snd pre)))%nat by lia.
      unfold col_step in *. split; auto.
Qed.

(** Columns are byte columns as long as the line has no uncounted lexeme. *)
Fixpoint line_clean (ls : list (rule * bytes)) (clean : bool) : bool :=
  match ls with
  | [] => clean
  | (r, x) :: ls' => line_clean ls' (if ends_nl x then true else clean && negb (uncounted r))
  end.

Lemma byte_column_app a b col : byte_column (a ++ b) col = byte_column b (byte_column a col).
Proof. revert col; induction a; cbn; auto. Qed.

Lemma byte_column_no_nl x col : newlines x = 0%nat -> byte_column x col = (col + length x)%nat.
Proof.
  revert col; induction x as [|c x IH]; intros col H; cbn in *; [lia|].
  destruct (N_of_ascii c =? 10); [lia|]. rewrite IH; lia.
Qed.

Lemma byte_column_nl u col : byte_column (u ++ [ascii_of_N 10]) col = 1%nat.
Proof. rewrite byte_column_app. reflexivity. Qed.

Lemma ends_nl_inv x : ends_nl x = true -> exists u, x = u ++ [ascii_of_N 10].
Proof.
  unfold ends_nl. destruct (rev x) as [|c s] eqn:E; [discriminate|]. intros H.
  apply newline_byte in H; subst c. exists (rev s).
  rewrite <- (rev_involutive x), E. reflexivity.
Qed.

Lemma columns_clean sc bol cs ls :
  lexes sc bol cs ls -> forall pre post, ls = pre ++ post -> forall col bcol clean,
  (clean = true -> col = bcol) ->
  line_clean pre clean = true ->
  columns_after pre col = byte_column (concat (map snd pre)) bcol.
Proof.
  induction 1 as [|sc bol cs r n x rest ls Hl Hcs Hx Hxn Hlex IH];
    intros pre post E col bcol clean Hcl Hc.
  - symmetry in E. apply app_eq_nil in E as [-> ->]. cbn in *. auto.
  - destruct pre as [|[r0 x0] pre]; cbn in E.
    + cbn in *; auto.
    + injection E as <- <- ->. cbn [columns_after map concat snd line_clean] in *.
      destruct (lexeme_newlines _ _ _ _ _ _ _ Hl Hcs Hx) as [Hnl He].
      rewrite byte_column_app.
      eapply IH; [reflexivity| |exact Hc].
      destruct (ends_nl x) eqn:En.
      * intros _. apply ends_nl_inv in En as (u & ->). rewrite byte_column_nl. auto.
      * intros H. apply andb_true_iff in H as [H1 H2]. apply negb_true_iff in H2. rewrite H2.
        rewrite <- He in Hnl. cbn in Hnl. rewrite byte_column_no_nl by auto.
        rewrite Hcl by auto. lia.
Qed.

(** With an uncounted lexeme earlier on the line the column is too small. *)
Lemma columns_unclean sc bol cs ls :
  lexes sc bol cs ls -> forall pre post, ls = pre ++ post -> forall col bcol (clean : bool),
  (if clean then col = bcol else (col < bcol)%nat) ->
  if line_clean pre clean
  then columns_after pre col = byte_column (concat (map snd pre)) bcol
  else (columns_after pre col < byte_column (concat (map snd pre)) bcol)%nat.
Proof.
  induction 1 as [|sc bol cs r n x rest ls Hl Hcs Hx Hxn Hlex IH];
    intros pre post E col bcol clean Hcl.
  - symmetry in E. apply app_eq_nil in E as [-> ->]. cbn in *. auto.
  - destruct pre as [|[r0 x0] pre]; cbn in E.
    + cbn in *; auto.
    + injection E as <- <- ->. cbn [columns_after map concat snd line_clean] in *.
      destruct (lexeme_newlines _ _ _ _ _ _ _ Hl Hcs Hx) as [Hnl He].
      rewrite byte_column_app.
      eapply IH; [reflexivity|].
      assert (Hlx : (1 <= length x)%nat) by (destruct x; [congruence | cbn; lia]).
      destruct (ends_nl x) eqn:En.
      * apply ends_nl_inv in En as (u & ->). rewrite byte_column_nl. auto.
      * rewrite <- He in Hnl. cbn in Hnl. rewrite byte_column_no_nl by auto.
        destruct clean, (uncounted r); cbn [andb negb]; lia.
Qed.
