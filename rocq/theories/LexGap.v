(** Final form of the scanner theorems. *)
From Coq Require Import String Ascii NArith Arith List Bool Lia.
From Verif Require Import Base Regex LexRules FlexTables Flex LexCorrect LexWhole LexLoc LexStep
  LexProps LexBlank LexMore.
Import ListNotations.
Local Open Scope N_scope.

Lemma scan_one_longest sc bol cs : cs <> [] ->
  exists r n, scan_one (start_of sc) bol cs = Some (r_num r, n) /\ longest_first sc bol cs r n.
Proof.
  intros H. destruct (scan_one_spec sc bol cs H) as (r & n & H1 & H2 & _). eauto.
Qed.

Lemma scan_text_interp cs :
  exists ls, lexes INITIAL true cs ls /\ scan_text cs = Some (interp ls loc0 []).
Proof. exact (tokenize_spec (S (length cs)) INITIAL true cs loc0 (le_n _)). Qed.

Lemma scan_text_tokens cs : exists its le ee ls,
  scan_text cs = Some (its, le, ee) /\ lexes INITIAL true cs ls /\
  map (fun i => tok_view (i_tok i)) its = spec_tokens ls.
Proof.
  destruct (scan_text_interp cs) as (ls & Hl & E).
  pose proof (interp_tokens ls loc0 [] (lexes_in _ _ _ _ Hl)) as H.
  destruct (interp ls loc0 []) as [[its le] ee] eqn:Ei.
  exists its, le, ee, ls. auto.
Qed.

Lemma scan_text_total cs : exists its le ee ls,
  scan_text cs = Some (its, le, ee) /\ lexes INITIAL true cs ls /\ concat (map snd ls) = cs.
Proof.
  destruct (scan_text_tokens cs) as (its & le & ee & ls & H1 & H2 & _).
  exists its, le, ee, ls. repeat split; auto. eapply lexes_concat; eauto.
Qed.

Lemma scan_text_defined cs : scan_text cs <> None.
Proof. destruct (scan_text_interp cs) as (ls & _ & ->). discriminate. Qed.

Lemma match_loop_defined sc bol cs :
  match_loop (start_of sc + (if (bol : bool) then 1 else 0)) None 0 cs <> None.
Proof.
  destruct (match_loop_best cs _ _ None None 0 (init_pair sc bol) (init_known sc bol) I)
    as (r & -> & _). discriminate.
Qed.

Lemma yylex_total sc bol cs l :
  exists lx l' evs tk,
    yylex (length cs) (Lexer (start_of sc) bol cs) l [] = Some (lx, l', evs, tk) /\
    (exists taken, cs = taken ++ lx_rest lx) /\
    match tk with
    | None => lx_rest lx = []
    | Some _ => (length (lx_rest lx) < length cs)%nat
    end.
Proof.
  destruct (yylex_spec (length cs) sc bol cs l [] (le_n _)) as
    (ls & sc' & bol' & rest & Hlex & _ & Hc).
  assert (Ht : exists taken, cs = taken ++ rest).
  { destruct (tokens_from_lexes sc' bol' rest) as (lt & Hlt & _).
    pose proof (lexes_concat _ _ _ _ (Hlex lt Hlt)) as H. rewrite map_app, concat_app in H.
    rewrite (lexes_concat _ _ _ _ Hlt) in H. eauto. }
  destruct Hc as [(l' & e' & H1 & H2 & _)|(l' & e' & t & H1 & H2 & _)].
  - exists (Lexer (start_of sc') bol' rest), l', e', None. auto.
  - exists (Lexer (start_of sc') bol' rest), l', e', (Some t). auto.
Qed.

(** Text without tokens. *)
Inductive gap : bool -> bytes -> bool -> Prop :=
| gap_nil : forall b, gap b [] b
| gap_blank : forall b c g b', blank c = true -> gap b g b' -> gap b (c :: g) b'
| gap_nl : forall b g b', gap true g b' -> gap b (NL :: g) b'
| gap_crnl : forall b g b', gap true g b' -> gap b (CR :: NL :: g) b'
| gap_line : forall b l g b', no_newline l = true -> gap true g b' ->
    gap b (("/"%char :: "/"%char :: l) ++ NL :: g) b'
| gap_hash : forall bs l g b', forallb blank bs = true -> no_newline l = true -> gap true g b' ->
    gap true ((bs ++ "#"%char :: l) ++ NL :: g) b'
| gap_block : forall b body g b', has_close (body ++ ["*"%char]) = false -> gap false g b' ->
    gap b (("/"%char :: "*"%char :: body) ++ "*"%char :: "/"%char :: g) b'.

Lemma gap_tokens bol g bol' rest :
  gap bol g bol' -> tokens_from INITIAL bol (g ++ rest) = tokens_from INITIAL bol' rest.
Proof.
  induction 1.
  - reflexivity.
  - cbn [app]. rewrite tokens_blank; auto.
  - cbn [app]. rewrite tokens_newline; auto.
  - cbn [app]. rewrite tokens_crnl; auto.
  - rewrite <- app_assoc. change ((NL :: g) ++ rest) with (NL :: g ++ rest).
    rewrite tokens_line_comment; auto.
  - rewrite <- app_assoc. change ((NL :: g) ++ rest) with (NL :: g ++ rest).
    rewrite tokens_hash_line; auto.
  - rewrite <- app_assoc.
    change (("*"%char :: "/"%char :: g) ++ rest) with ("*"%char :: "/"%char :: g ++ rest).
    rewrite tokens_block_comment; auto.
Qed.

Lemma gap_example :
  gap true (list_ascii_of_string ("  #include <x>" ++ String NL (" /* a ** b */ // c" ++ String CR (String NL EmptyString)))%string) true.
Proof.
  cbn [list_ascii_of_string append].
  apply (gap_hash (list_ascii_of_string "  ") (list_ascii_of_string "include <x>")); [reflexivity..|].
  apply gap_blank; [reflexivity|].
  apply (gap_block _ (list_ascii_of_string " a ** b ")); [reflexivity|].
  apply gap_blank; [reflexivity|].
  apply (gap_line _ (list_ascii_of_string (" c" ++ String CR EmptyString)%string)); [reflexivity|].
  apply gap_nil.
Qed.

Lemma scan_text_gap g bol its le ee :
  gap true g bol -> scan_text g = Some (its, le, ee) -> its = [].
Proof.
  intros Hg Hs. pose proof (gap_tokens true g bol [] Hg) as H. rewrite app_nil_r in H.
  unfold tokens_from in H. fold (lexer0 g) in H. change (Lexer (start_of INITIAL) true g) with (lexer0 g) in H.
  unfold scan_text in Hs. rewrite Hs in H. cbn in H. destruct its; [auto|discriminate].
Qed.

Lemma spec_token_text r x k v t :
  spec_token r x = Some (k, v) -> v = Some t -> t = x.
Proof.
  unfold spec_token. destruct (find _ _) as [[n [k' b]]|]; [|discriminate].
  intros E ->. destruct b; congruence.
Qed.

Lemma lexes_nonempty sc bol cs ls : lexes sc bol cs ls -> forall r x, In (r, x) ls -> x <> [].
Proof.
  induction 1; intros r' x' Hin; [destruct Hin|]. destruct Hin as [E|Hin]; eauto. congruence.
Qed.

Lemma scan_text_where cs its le ee i it :
  scan_text cs = Some (its, le, ee) -> nth_error its i = Some it ->
  exists pre r x post,
    lexes INITIAL true cs (pre ++ (r, x) :: post) /\
    spec_token r x = Some (tok_view (i_tok it)) /\
    l_begin (i_loc it) = Pos (N.of_nat (1 + newlines (concat (map snd pre))))
                             (N.of_nat (columns_after pre 1)) /\
    l_end (i_loc it) = Pos (N.of_nat (1 + newlines (concat (map snd pre))))
                           (N.of_nat (columns_after pre 1 + length x)).
Proof.
  intros Hs Hi. destruct (scan_text_interp cs) as (ls & Hl & E). rewrite Hs in E. injection E as E.
  pose proof (interp_locs _ _ _ _ Hl loc0 [] 1 1 eq_refl i it) as H.
  rewrite <- E in H. cbn [fst] in H. destruct (H Hi) as (pre & r & x & post & -> & _ & H1 & H2 & H3).
  exists pre, r, x, post. auto.
Qed.

Lemma scan_text_lines cs its le ee i it :
  scan_text cs = Some (its, le, ee) -> nth_error its i = Some it ->
  exists before text after,
    cs = before ++ text ++ after /\ text <> [] /\
    match t_val (i_tok it) with Some s => list_ascii_of_string s = text | None => True end /\
    p_line (l_begin (i_loc it)) = 1 + N.of_nat (newlines before) /\
    p_line (l_end (i_loc it)) = 1 + N.of_nat (newlines before).
Proof.
  intros Hs Hi. destruct (scan_text_where _ _ _ _ _ _ Hs Hi) as (pre & r & x & post & Hl & Ht & Hb & He).
  exists (concat (map snd pre)), x, (concat (map snd post)).
  split; [|split; [|split; [|split]]].
  - rewrite <- (lexes_concat _ _ _ _ Hl). rewrite map_app, concat_app. reflexivity.
  - eapply lexes_nonempty; [exact Hl|]. apply in_or_app; right; left; reflexivity.
  - unfold tok_view in Ht. destruct (t_val (i_tok it)) as [s|]; auto.
    eapply spec_token_text; [exact Ht|reflexivity].
  - rewrite Hb. cbn [p_line]. lia.
  - rewrite He. cbn [p_line]. lia.
Qed.

Lemma scan_text_columns cs its le ee i it :
  scan_text cs = Some (its, le, ee) -> nth_error its i = Some it ->
  exists pre r x post,
    lexes INITIAL true cs (pre ++ (r, x) :: post) /\
    spec_token r x = Some (tok_view (i_tok it)) /\
    let before := concat (map snd pre) in
    let col := p_col (l_begin (i_loc it)) in
    if line_clean pre true
    then col = N.of_nat (byte_column before 1)
    else col < N.of_nat (byte_column before 1).
Proof.
  intros Hs Hi. destruct (scan_text_where _ _ _ _ _ _ Hs Hi) as (pre & r & x & post & Hl & Ht & Hb & He).
  exists pre, r, x, post. split; auto. split; auto. cbn zeta. rewrite Hb. cbn [p_col].
  pose proof (columns_unclean _ _ _ _ Hl pre _ eq_refl 1%nat 1%nat true eq_refl) as H.
  destruct (line_clean pre true); lia.
Qed.
