(** Which tokens can be written: every token that the scanner ever returns can be written
    on a line of its own, and the texts of the tokens of each kind. *)
From Coq Require Import String Ascii NArith Arith List Bool Lia.
From Verif Require Import Base Regex LexRules FlexTables Flex LexCorrect LexWhole LexLoc LexStep
  LexProps LexBlank LexMore LexGap Items Bison Grammar Store StoreDefs Layout.
Import ListNotations.
Local Open Scope N_scope.

(** *** The texts, kind by kind *)
Definition digits (w : bytes) : Prop := w <> [] /\ forallb digit w = true.
Definition hexnum (w : bytes) : Prop := exists hs, hs <> [] /\ forallb hexdigit hs = true /\ w = OX ++ hs.
(** One arbitrary character (not a line end) between digits: the rule has [.] for the point. *)
Definition floating (w : bytes) : Prop := exists d1 c d2 f, digits d1 /\ not_nl c = true /\ digits d2 /\
  (f = [] \/ f = [F_]) /\ w = d1 ++ c :: d2 ++ f.
Definition writable (t : token) : Prop :=
  match t with
  | Tok k None => 3 <= k <= 23
  | Tok k (Some s) =>
      let w := list_ascii_of_string s in
      (k = 24 /\ identifier w /\ ~ In s (map fst reserved)) \/
      (k = 25 /\ s <> "std::string"%string /\ s <> "std::vector"%string /\ exists a b, identifier a /\ identifier b /\ w = a ++ CC ++ b) \/
      (k = 26 /\ digits w) \/ (k = 27 /\ hexnum w) \/ (k = 28 /\ floating w /\ ~ digits w /\ ~ hexnum w) \/
      (k = 29 /\ exists l, no_newline l = true /\ w = Q :: l ++ [Q]) \/
      (k = 30 /\ exists c, not_nl c = true /\ w = [AP; c; AP])
  end.

(** *** Languages of the rules *)
Lemma bytes_eq (f g : ascii -> bool) : forallb (fun c => Bool.eqb (f c) (g c)) all_bytes = true -> forall c, f c = g c.
Proof. intros H c. rewrite forallb_forall in H. apply eqb_prop, H, all_bytes_in. Qed.
Lemma chr_lang s w : lang (Chr s) w -> exists c, w = [c] /\ bset_mem s c = true.
Proof. inversion 1; eauto. Qed.
Lemma seq_lang a b w : lang (Seq a b) w -> exists x y, w = x ++ y /\ lang a x /\ lang b y.
Proof. inversion 1; eauto. Qed.
Lemma star_chars (P : ascii -> bool) r : (forall x, lang r x -> forallb P x = true) -> forall w, lang (Star r) w -> forallb P w = true.
Proof.
  intros H w L. remember (Star r) as q eqn:E. induction L; try discriminate E; [reflexivity|]. injection E as ->.
  rewrite forallb_app, (H s L1), IHL2; reflexivity.
Qed.
Lemma star_of (P : ascii -> bool) s : (forall c, bset_mem s c = P c) -> forall w, forallb P w = true -> lang (Star (Chr s)) w.
Proof.
  intros E w. induction w as [|c w IH]; intros H; [constructor|]. cbn in H. apply andb_prop in H as [A B].
  change (c :: w) with ([c] ++ w). constructor; [constructor; now rewrite E|auto].
Qed.
Lemma dot_mem c : bset_mem (BSet true [(10, 10)]) c = not_nl c. Proof. revert c. apply bytes_eq. fin. Qed.
Lemma digit_mem c : bset_mem (set_of [(48, 57)]) c = digit c. Proof. revert c. apply bytes_eq. fin. Qed.
Lemma hex_mem c : bset_mem (set_of [(48, 57); (65, 70); (97, 102)]) c = hexdigit c. Proof. revert c. apply bytes_eq. fin. Qed.
Lemma start_mem c : bset_mem (set_of [(97, 122); (65, 90); (95, 95)]) c = ident_start c. Proof. revert c. apply bytes_eq. fin. Qed.
Lemma id2_mem c : implb (bset_mem (set_of [(97, 122); (65, 65); (95, 95); (90, 90); (48, 57); (95, 95)]) c) (ident_char c) = true.
Proof. revert c. apply bytes_eq. fin. Qed.
Lemma one_lang n w : n < 256 -> lang (one n) w -> w = [ascii_of_N n].
Proof.
  intros B H. apply chr_lang in H as (c & -> & H). f_equal. unfold bset_mem, set_of in H. cbn in H.
  destruct (n <=? N_of_ascii c) eqn:A; [|discriminate]. destruct (N_of_ascii c <=? n) eqn:D; [|discriminate].
  apply N.leb_le in A, D. assert (n = N_of_ascii c) as -> by lia. now rewrite ascii_N_embedding.
Qed.
Lemma plus_chars (P : ascii -> bool) s : (forall c, bset_mem s c = P c) -> forall w, lang (plus (Chr s)) w <-> w <> [] /\ forallb P w = true.
Proof.
  intros E w. split.
  - intros H. apply seq_lang in H as (x & y & -> & A & B). apply chr_lang in A as (c & -> & A). split; [discriminate|].
    cbn [app forallb]. rewrite <- E, A. apply (star_chars P) in B; [exact B|]. intros z Z. apply chr_lang in Z as (d & -> & D). cbn. now rewrite <- E, D.
  - intros [N H]. destruct w as [|c w]; [congruence|]. cbn in H. apply andb_prop in H as [A B].
    change (c :: w) with ([c] ++ w). constructor; [constructor; now rewrite E|now apply (star_of P)].
Qed.
Lemma ID_lang w : lang ID w -> identifier w.
Proof.
  intros H. apply seq_lang in H as (x & y & -> & A & B). apply chr_lang in A as (c & -> & A). cbn. rewrite start_mem in A. split; [exact A|].
  apply (star_chars ident_char) in B; [exact B|]. intros z Z. apply chr_lang in Z as (d & -> & D). cbn. pose proof (id2_mem d) as I. rewrite D in I. cbn in I. now rewrite I.
Qed.
Lemma word_lang w : lang (plus ID) w -> identifier w.
Proof.
  intros H. apply seq_lang in H as (x & y & -> & A & B). apply ID_lang in A. destruct x as [|c x]; [destruct A|]. destruct A as [A1 A2].
  cbn. split; [exact A1|]. rewrite forallb_app, A2. apply (star_chars ident_char) in B; [exact B|]. intros z Z. now apply identifier_chars, ID_lang.
Qed.
Lemma qual_lang w : lang (Seq (plus ID) (Seq (lit "::") (plus ID))) w -> exists a b, identifier a /\ identifier b /\ w = a ++ CC ++ b.
Proof.
  intros H. apply seq_lang in H as (a & y & -> & A & B). apply seq_lang in B as (x & b & -> & B & C). apply lit_lang in B. subst x.
  exists a, b. split; [now apply word_lang|]. split; [now apply word_lang|]. reflexivity.
Qed.
Lemma digits_lang w : lang (plus DIGIT) w <-> digits w.
Proof. apply plus_chars, digit_mem. Qed.
Lemma hex_lang w : lang (Seq (lit "0x") (plus HEXDIGIT)) w <-> hexnum w.
Proof.
  split.
  - intros H. apply seq_lang in H as (x & y & -> & A & B). apply lit_lang in A. subst x. apply (plus_chars hexdigit) in B as [N B]; [|apply hex_mem].
    exists y. auto.
  - intros (hs & N & H & ->). constructor; [now apply lit_lang|]. apply (plus_chars hexdigit); [apply hex_mem|auto].
Qed.
Lemma float_lang w : lang (Seq (plus DIGIT) (Seq dot (Seq (plus DIGIT) (opt (one 102))))) w <-> floating w.
Proof.
  split.
  - intros H. apply seq_lang in H as (d1 & y & -> & A & B). apply seq_lang in B as (x & z & -> & B & C). apply seq_lang in C as (d2 & f & -> & C & D).
    apply digits_lang in A, C. apply chr_lang in B as (c & -> & B). rewrite dot_mem in B. exists d1, c, d2, f.
    repeat (split; [assumption|]). split; [|reflexivity]. inversion D as [| |? ? ? X|? ? ? X| | |]; subst.
    + right. apply one_lang in X; [exact X|reflexivity].
    + left. inversion X. reflexivity.
  - intros (d1 & c & d2 & f & A & B & C & D & ->). change (c :: d2 ++ f) with ([c] ++ d2 ++ f).
    constructor; [now apply digits_lang|]. constructor; [constructor; now rewrite dot_mem|]. constructor; [now apply digits_lang|].
    destruct D as [->| ->]; [apply L_altr; constructor|apply L_altl; constructor; reflexivity].
Qed.
Lemma string_lang w : lang (Seq (one 34) (Seq (Star dot) (one 34))) w -> exists l, no_newline l = true /\ w = Q :: l ++ [Q].
Proof.
  intros H. apply seq_lang in H as (x & y & -> & A & B). apply seq_lang in B as (l & z & -> & B & C).
  apply one_lang in A; [|reflexivity]. apply one_lang in C; [|reflexivity]. subst x z. exists l. split; [|reflexivity].
  apply (star_chars not_nl) in B; [exact B|]. intros z Z. apply chr_lang in Z as (d & -> & D). rewrite dot_mem in D. cbn. now rewrite D.
Qed.
Lemma char_lang w : lang (Seq (one 39) (Seq dot (one 39))) w -> exists c, not_nl c = true /\ w = [AP; c; AP].
Proof.
  intros H. apply seq_lang in H as (x & y & -> & A & B). apply seq_lang in B as (l & z & -> & B & C).
  apply one_lang in A; [|reflexivity]. apply one_lang in C; [|reflexivity]. apply chr_lang in B as (c & -> & B). rewrite dot_mem in B. subst x z.
  exists c. auto.
Qed.

(** *** Every scanned token is writable *)
Lemma lexeme_writable sc bol cs r n x t : longest_first sc bol cs r n -> length x = (n - r_trail r)%nat -> (exists rest, cs = x ++ rest) ->
  rtok r x = [t] -> writable t.
Proof.
  intros [(Hin & Hact & Hn & Hl) Hmin] Hx [rest ->] Ht.
  assert (K : r_trail r = 0%nat -> lang (r_re r) x /\ (forall r', In r' rules -> active sc bol r' = true -> lang (r_re r') x -> r_num r <= r_num r')).
  { intros T. rewrite T, Nat.sub_0_r in Hx. assert (F : firstn n (x ++ rest) = x).
    { rewrite <- Hx, firstn_app, Nat.sub_diag, firstn_all. cbn. apply app_nil_r. }
    rewrite F in Hl. split; [exact Hl|]. intros r' I A L.
    assert (M : rule_matches sc bol (x ++ rest) r' n) by (repeat split; auto; now rewrite F).
    destruct (Hmin r' n M) as [X|[_ X]]; [lia|exact X]. }
  clear Hmin Hl Hn Hx.
  assert (RI : forall k e, In (R k e) rules -> active sc bol r = true -> r_sc r = INITIAL -> active sc bol (R k e) = true).
  { intros k e _ A S0. unfold active in *. rewrite S0 in A. destruct sc; [reflexivity|discriminate]. }
  unfold rules in Hin. cbn [In] in Hin.
  repeat (destruct Hin as [<-|Hin];
    [try (cbv in Ht; discriminate Ht); destruct (K eq_refl) as [L M]; clear K; unfold rtok in Ht; cbn in Ht; injection Ht as <-;
     try (cbn; lia)|]); [..|destruct Hin]; cbn [r_re R r_num] in L, M; unfold writable; rewrite ?list_ascii_of_string_of_list_ascii.
  - left. split; [reflexivity|]. split; [now apply word_lang|]. intros I. apply in_map_iff in I as ([s k] & E & I). cbn in E.
    destruct (reserved_kw _ _ I) as [m Im]. assert (X : 30 <= m).
    { apply (M (R m (lit s))); [now apply kw_in|apply (RI m (lit s)); [now apply kw_in|exact Hact|reflexivity]|].
      apply lit_lang. rewrite E. now rewrite list_ascii_of_string_of_list_ascii. }
    assert (Y : forallb (fun p => fst p <? 30) kw_rules = true) by fin. rewrite forallb_forall in Y. specialize (Y _ Im). apply N.ltb_lt in Y. cbn in Y. lia.
  - right; left. split; [reflexivity|]. split; [|split; [|now apply qual_lang]]; intros E.
    + assert (X : 31 <= 28); [|lia]. assert (I : In (R 28 (lit "std::string")) rules) by (unfold rules; cbn [In]; tauto).
      apply (M (R 28 (lit "std::string"))); [exact I|now apply RI|]. apply lit_lang. rewrite <- E. now rewrite list_ascii_of_string_of_list_ascii.
    + assert (X : 31 <= 29); [|lia]. assert (I : In (R 29 (lit "std::vector")) rules) by (unfold rules; cbn [In]; tauto).
      apply (M (R 29 (lit "std::vector"))); [exact I|now apply RI|]. apply lit_lang. rewrite <- E. now rewrite list_ascii_of_string_of_list_ascii.
  - do 2 right; left. split; [reflexivity|]. now apply digits_lang.
  - do 3 right; left. split; [reflexivity|]. now apply hex_lang.
  - do 4 right; left. split; [reflexivity|]. split; [now apply float_lang|]. split; intros D.
    + assert (X : 34 <= 32); [|lia]. assert (I : In (R 32 (plus DIGIT)) rules) by (unfold rules; cbn [In]; tauto).
      apply (M (R 32 (plus DIGIT))); [exact I|now apply RI|]. now apply digits_lang.
    + assert (X : 34 <= 33); [|lia]. assert (I : In (R 33 (Seq (lit "0x") (plus HEXDIGIT))) rules) by (unfold rules; cbn [In]; tauto).
      apply (M (R 33 (Seq (lit "0x") (plus HEXDIGIT)))); [exact I|now apply RI|]. now apply hex_lang.
  - do 5 right; left. split; [reflexivity|]. now apply string_lang.
  - do 6 right. split; [reflexivity|]. now apply char_lang.
Qed.
Lemma lexes_writable sc bol cs ls : lexes sc bol cs ls -> Forall writable (flat_map (fun rx => rtok (fst rx) (snd rx)) ls).
Proof.
  induction 1 as [|sc bol cs r n x rest ls L E X NE H IH]; [constructor|]. cbn [flat_map fst snd]. apply Forall_app. split; [|exact IH].
  destruct (rtok r x) as [|t [|u q]] eqn:T; [constructor| |].
  - constructor; [|constructor]. eapply lexeme_writable; eauto.
  - unfold rtok in T. destruct (snd (sact r x loc0)); discriminate T.
Qed.
Lemma scanned_writable sc bol cs ts : tokens_from sc bol cs = Some ts -> Forall writable ts.
Proof. intros H. destruct (tokens_from_lexes sc bol cs) as (ls & L & E). rewrite E in H. injection H as <-. eapply lexes_writable; eauto. Qed.

(** *** Every writable token can be written on a line of its own *)
Definition line_end (rest : bytes) : Prop := rest = [] \/ exists r, rest = NL :: r.
Definition flS1 : list vec := Eval vm_compute in after not_nl numS.
Definition flS : list vec := Eval vm_compute in explore_vec digit 999 (after digit flS1) [].
Definition flE : list vec := Eval vm_compute in flS ++ after (is 102) flS.
Lemma float_state bol w : floating w -> In (run (init_vec INITIAL bol) w) flE.
Proof.
  intros (d1 & c & d2 & f & [N1 D1] & Hc & [N2 D2] & Hf & ->). rewrite run_app. destruct d2 as [|d d2]; [congruence|].
  cbn in D2. apply andb_prop in D2 as [Hd D2]. change (c :: (d :: d2) ++ f) with ((c :: d :: d2) ++ f). rewrite run_app, !run_cons.
  assert (I : In (run (dv d (dv c (run (init_vec INITIAL bol) d1))) d2) flS).
  { apply (closed_ok digit); [exact cls_digit|fin|apply dv_known, dv_known, init_run_known| |exact D2].
    apply (step_check_ok digit flS1); [exact cls_digit|fin|apply dv_known, init_run_known| |exact Hd].
    apply (step_check_ok not_nl numS); [exact cls_not_nl|fin|apply init_run_known|now apply num_run|exact Hc]. }
  destruct Hf as [->| ->].
  - change flE with (flS ++ after (is 102) flS). apply in_or_app. now left.
  - apply (step_check_ok (is 102) flS); [exact cls_102|fin|apply run_known, dv_known, dv_known, init_run_known|exact I|reflexivity].
Qed.
Definition fl_rules : list N := [32; 33; 34].
Lemma fl_null : forallb (fun v => existsb (N.eqb (first_null v)) fl_rules) flE = true. Proof. fin. Qed.
Lemma tokens_floating bol w rest : floating w -> ~ digits w -> ~ hexnum w -> line_end rest ->
  tokens_from INITIAL bol (w ++ rest) = prepend [Tok 28 (Some (string_of_list_ascii w))] (tokens_from INITIAL false rest).
Proof.
  intros H ND NH LE. pose proof (float_state bol w H) as I. pose proof (init_run_known INITIAL bol w) as K.
  assert (FL : lang (Seq (plus DIGIT) (Seq dot (Seq (plus DIGIT) (opt (one 102))))) w) by now apply float_lang.
  assert (NE : w <> []).
  { destruct H as (d1 & c & d2 & f & [N1 _] & _ & _ & _ & ->). destruct d1; [congruence|discriminate]. }
  assert (NL' : ends_nl w = false).
  { destruct H as (d1 & c & d2 & f & [_ D1] & Hc & [_ D2] & Hf & ->). apply no_newline_ends. unfold no_newline. rewrite forallb_app.
    cbn [forallb]. rewrite forallb_app, (no_nl_digits d1), (no_nl_digits d2), Hc by assumption. destruct Hf as [->| ->]; reflexivity. }
  set (v := run (init_vec INITIAL bol) w) in *.
  assert (NX : forall p q, rest = p ++ q -> p <> [] -> first_null (run v p) = 0).
  { intros p q E Hp. destruct p as [|c p]; [congruence|]. destruct LE as [->|[r' ->]]; [discriminate|]. injection E as <- _. rewrite run_cons. apply run_dead.
    apply (dead_check_ok not_nl flE); [exact cls_not_nl|fin|exact K|exact I|reflexivity]. }
  pose proof fl_null as Qn. rewrite forallb_forall in Qn. specialize (Qn _ I). apply existsb_exists in Qn as (k & Ik & Ek). apply N.eqb_eq in Ek.
  pose proof (run_sorted w _ (init_sorted INITIAL bol)) as Hsort. fold v in Hsort.
  destruct (first_null_spec v Hsort) as [[H0 _]|(H0 & (r & Hr1 & Hr2) & Hmin)].
  { exfalso. rewrite H0 in Ek. subst k. unfold fl_rules in Ik. cbn [In] in Ik. intuition discriminate. }
  assert (M : exists ru, r_num ru = k /\ rule_matches INITIAL bol w ru (length w)).
  { apply vmatches_init. apply run_vmatches. exists r. rewrite <- Ek. auto. }
  destruct M as (ru & Hnum & Hru & Hact & _ & Hl). rewrite firstn_all in Hl.
  assert (Act : forall n0 s0, active INITIAL bol (R n0 s0) = true) by (intros; destruct bol; reflexivity).
  unfold fl_rules in Ik. cbn [In] in Ik. destruct Ik as [<-|[<-|[<-|[]]]].
  - exfalso. assert (ru = R 32 (plus DIGIT)) as -> by (apply (rule_unique INITIAL bol); auto; unfold rules; cbn [In]; tauto).
    apply ND. now apply digits_lang.
  - exfalso. assert (ru = R 33 (Seq (lit "0x") (plus HEXDIGIT))) as -> by (apply (rule_unique INITIAL bol); auto; unfold rules; cbn [In]; tauto).
    apply NH. now apply hex_lang.
  - assert (ru = R 34 (Seq (plus DIGIT) (Seq dot (Seq (plus DIGIT) (opt (one 102)))))) as -> by (apply (rule_unique INITIAL bol); auto; unfold rules; cbn [In]; tauto).
    rewrite (takes_step INITIAL bol w rest _ (takes_intro _ _ _ _ _ NE Hru Hact eq_refl Ek ltac:(discriminate) NX)), NL'. reflexivity.
Qed.

(** *** Texts *)
(** [spelling w t follow]: [w] is a way to write the token [t], as long as the text behind
    it satisfies [follow]. *)
Inductive spelling : bytes -> token -> (bytes -> Prop) -> Prop :=
| sp_word w : identifier w -> spelling w (word_token w) ends_word
| sp_punct c : punct c = true -> spelling [c] (punct_token c) (fun _ => True)
| sp_qualified a b : identifier a -> identifier b -> spelling (a ++ CC ++ b) (qual_token (a ++ CC ++ b)) (fun r => starts ident_char r = false)
| sp_int ds : ds <> [] -> forallb digit ds = true -> spelling ds (Tok 26 (Some (string_of_list_ascii ds))) ends_number
| sp_hex hs : hs <> [] -> forallb hexdigit hs = true -> spelling (OX ++ hs) (Tok 27 (Some (string_of_list_ascii (OX ++ hs)))) (fun r => starts hexdigit r = false)
| sp_float ds1 c ds2 : ds1 <> [] -> ds2 <> [] -> forallb digit ds1 = true -> forallb digit ds2 = true -> nondigit_sep c = true ->
    spelling (ds1 ++ c :: ds2) (Tok 28 (Some (string_of_list_ascii (ds1 ++ c :: ds2)))) (fun r => starts digit_f r = false)
| sp_float_f ds1 c ds2 : ds1 <> [] -> ds2 <> [] -> forallb digit ds1 = true -> forallb digit ds2 = true -> nondigit_sep c = true ->
    spelling ((ds1 ++ c :: ds2) ++ [F_]) (Tok 28 (Some (string_of_list_ascii ((ds1 ++ c :: ds2) ++ [F_])))) (fun _ => True)
| sp_floating w : floating w -> ~ digits w -> ~ hexnum w -> spelling w (Tok 28 (Some (string_of_list_ascii w))) line_end
| sp_string l : no_newline l = true -> spelling (Q :: l ++ [Q]) (Tok 29 (Some (string_of_list_ascii (Q :: l ++ [Q])))) no_quote_on_line
| sp_char c : not_nl c = true -> spelling [AP; c; AP] (Tok 30 (Some (string_of_list_ascii [AP; c; AP]))) (fun _ => True).
Lemma spelled w t F bol rest : spelling w t F -> F rest ->
  tokens_from INITIAL bol (w ++ rest) = prepend [t] (tokens_from INITIAL false rest).
Proof.
  intros []; intros; [apply word_scanned|apply tokens_punct|apply tokens_qualified|apply tokens_value|apply tokens_hex|apply tokens_fvalue
    |apply tokens_float_f|apply tokens_floating|apply tokens_string|apply tokens_char]; assumption.
Qed.
(** [layout bol ts cs]: [cs] is a text for the tokens [ts], with blanks, line ends,
    preprocessor lines and comments between them; [bol]: at the beginning of a line. *)
Inductive layout : bool -> list token -> bytes -> Prop :=
| ly_nil b g b' : gap b g b' -> layout b [] g
| ly_cons b g b' w t F ts rest : gap b g b' -> spelling w t F -> F rest -> layout false ts rest -> layout b (t :: ts) (g ++ w ++ rest).
Lemma layout_tokens b ts cs : layout b ts cs -> tokens_from INITIAL b cs = Some ts.
Proof.
  induction 1 as [b g b' G|b g b' w t F ts rest G S X L IH].
  - rewrite <- (app_nil_r g). rewrite (gap_tokens _ _ _ [] G). destruct b'; vm_compute; reflexivity.
  - rewrite (gap_tokens _ _ _ _ G), (spelled _ _ _ _ _ S X), IH. reflexivity.
Qed.
Lemma tokens_scan cs ts : tokens_from INITIAL true cs = Some ts -> exists its le ee, scan_text cs = Some (its, le, ee) /\ map i_tok its = ts.
Proof.
  unfold tokens_from. intros H. unfold scan_text, lexer0 in *. destruct (tokenize _ _ _) as [[[its le] ee]|]; [|discriminate]. injection H as <-. eauto.
Qed.
Lemma layout_text ds cs : wf_file ds -> layout true (file_tokens ds) cs -> text_of cs ds.
Proof. intros W L. apply layout_tokens in L. apply tokens_scan in L as (its & le & ee & E & M). exists its, le, ee. auto. Qed.

(** *** The printer: one token per line *)
Definition fixed_text (k : N) : string :=
  match find (fun p => fst p =? k) [(3, "{"); (4, "}"); (5, "="); (6, ","); (7, ";"); (8, "<"); (9, ">"); (10, "enum"); (11, "class");
    (12, "struct"); (13, "int"); (14, "short"); (15, "long"); (16, "unsigned"); (17, "float"); (18, "double"); (19, "bool");
    (20, "true"); (21, "false"); (22, "std::string"); (23, "std::vector")]%string with Some (_, s) => s | None => EmptyString end.
Definition token_text (t : token) : bytes :=
  list_ascii_of_string match t_val t with Some s => s | None => fixed_text (t_kind t) end.
Definition print (ts : list token) : bytes := flat_map (fun t => token_text t ++ [NL]) ts.
Lemma ends_word_nl rest : ends_word (NL :: rest).
Proof. split; [reflexivity|]. intros d r E. discriminate E. Qed.
Lemma ends_number_nl rest : ends_number (NL :: rest).
Proof. repeat split; try reflexivity. left. reflexivity. Qed.
Lemma no_quote_nl rest : no_quote_on_line (NL :: rest).
Proof. exists [], (NL :: rest). split; [reflexivity|]. split; [reflexivity|]. right. eauto. Qed.
Lemma fixed_spelling k : 3 <= k <= 23 -> exists F, spelling (list_ascii_of_string (fixed_text k)) (Tok k None) F /\ forall rest, F (NL :: rest).
Proof.
  intros B.
  assert (C : In k [3; 4; 5; 6; 7; 8; 9; 10; 11; 12; 13; 14; 15; 16; 17; 18; 19; 20; 21; 22; 23]) by (cbn [In]; lia).
  cbn [In] in C. clear B.
  repeat (destruct C as [<-|C];
    [first
      [ exists (fun _ => True); split; [|auto]; match goal with |- spelling ?w ?t _ => let x := eval vm_compute in w in
          match x with [?c] => change (spelling [c] (punct_token c) (fun _ => True)) end end; constructor; reflexivity
      | exists ends_word; split; [|apply ends_word_nl]; match goal with |- spelling ?w ?t _ => let x := eval vm_compute in w in
          change (spelling x (word_token x) ends_word) end; constructor; split; reflexivity
      | exists (fun r => starts ident_char r = false); split; [|reflexivity];
        first [ exact (sp_qualified (list_ascii_of_string "std") (list_ascii_of_string "string") (conj eq_refl eq_refl) (conj eq_refl eq_refl))
              | exact (sp_qualified (list_ascii_of_string "std") (list_ascii_of_string "vector") (conj eq_refl eq_refl) (conj eq_refl eq_refl)) ] ]|]).
  destruct C.
Qed.
Lemma writable_spelling t : writable t -> exists F, spelling (token_text t) t F /\ forall rest, F (NL :: rest).
Proof.
  destruct t as [k [s|]]; unfold writable, token_text; cbn [t_val t_kind].
  2:{ apply fixed_spelling. }
  set (w := list_ascii_of_string s). assert (Es : s = string_of_list_ascii w) by (symmetry; apply string_of_list_ascii_of_string). clearbody w. subst s.
  intros [(-> & W & NR)|[(-> & N1 & N2 & a & b & A & B & Ew)|[(-> & N & D)|[(-> & hs & N & D & Ew)|[(-> & Fl & ND & NH)|[(-> & l & Nl & Ew)|(-> & c & Nc & Ew)]]]]]].
  - exists ends_word. split; [|apply ends_word_nl]. replace (Tok 24 (Some (string_of_list_ascii w))) with (word_token w); [now constructor|].
    unfold word_token. destruct (find _ reserved) as [[q k]|] eqn:E; [|reflexivity]. exfalso. apply find_some in E as [I E].
    cbn in E. apply String.eqb_eq in E. subst q. apply NR, in_map_iff. eexists. split; [|exact I]. reflexivity.
  - exists (fun r => starts ident_char r = false). split; [|reflexivity]. replace (Tok 25 (Some (string_of_list_ascii w))) with (qual_token w).
    + rewrite Ew. now constructor.
    + unfold qual_token. apply String.eqb_neq in N1, N2. now rewrite N1, N2.
  - exists ends_number. split; [|apply ends_number_nl]. constructor; assumption.
  - exists (fun r => starts hexdigit r = false). split; [|reflexivity]. subst w. now constructor.
  - exists line_end. split; [|intros rest; right; eauto]. now constructor.
  - exists no_quote_on_line. split; [|apply no_quote_nl]. subst w. now constructor.
  - exists (fun _ => True). split; [|auto]. subst w. now constructor.
Qed.
Lemma gap_app b g b' : gap b g b' -> forall g' b'', gap b' g' b'' -> gap b (g ++ g') b''.
Proof.
  induction 1; intros h b2 G; [exact G|..].
  - apply gap_blank; auto.
  - apply gap_nl. auto.
  - apply gap_crnl. auto.
  - rewrite <- app_assoc. cbn [app]. apply (gap_line b l); auto.
  - rewrite <- app_assoc. cbn [app]. apply (gap_hash bs l); auto.
  - rewrite <- app_assoc. cbn [app]. apply (gap_block b body); auto.
Qed.
Lemma layout_gap b b' g ts cs : gap b g b' -> layout b' ts cs -> layout b ts (g ++ cs).
Proof.
  intros G L. revert G. destruct L as [b1 h b2 H|b1 h b2 w t F ts rest H S X L]; intros G.
  - apply ly_nil with b2. eapply gap_app; eauto.
  - rewrite app_assoc. apply (ly_cons b _ b2 w t F); auto. eapply gap_app; eauto.
Qed.
Lemma print_layout ts : Forall writable ts -> forall b, layout b ts (print ts).
Proof.
  induction 1 as [|t ts W Ws IH]; intros b; cbn [print flat_map].
  - apply ly_nil with b. constructor.
  - fold (print ts). destruct (writable_spelling t W) as (F & S & N).
    rewrite <- app_assoc. apply (ly_cons b [] b (token_text t) t F); [constructor|exact S|apply N|].
    apply (layout_gap false true [NL]); [apply gap_nl, gap_nil|apply IH].
Qed.
Lemma print_text ds : wf_file ds -> Forall writable (file_tokens ds) -> text_of (print (file_tokens ds)) ds.
Proof. intros W F. apply layout_text; [exact W|now apply print_layout]. Qed.
Lemma text_writable cs ds : text_of cs ds -> wf_file ds /\ Forall writable (file_tokens ds).
Proof.
  intros (its & le & ee & E & W & M). split; [exact W|]. apply (scanned_writable INITIAL true cs). unfold tokens_from. unfold scan_text, lexer0 in E.
  change (start_of INITIAL) with 1. rewrite E. cbn [fst]. now rewrite M.
Qed.
Lemma text_exists ds : (exists cs, text_of cs ds) <-> wf_file ds /\ Forall writable (file_tokens ds).
Proof. split; [intros [cs T]; eapply text_writable; eauto|]. intros [W F]. eexists. now apply print_text. Qed.
