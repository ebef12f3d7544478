(** What a run depends on: the definitions in the files it is told to read. *)
From Coq Require Import String Ascii ZArith NArith Arith List Bool Lia.
From Verif Require Import Base Map Flex LineEnds Items Bison Grammar ParseCorrect ParseLang LineParse Store Resolve Fmt Decimal Templates MainTemplates
  Emit Val StoreProps StoreDefs Main MainProps RunProps Shape Erase.
Import ListNotations.
Local Open Scope string_scope.
Local Open Scope list_scope.

(** The same environment with other files on the disk. *)
Definition with_files (E : env) (ex : string -> bool) (d : string -> option bytes) : env :=
  Env (e_stamp E) (e_sep E) ex (e_canonical E) (e_mkdirs E) d (e_write E) (e_conf E) (e_type_name E).
Definition with_disk (E : env) (d : string -> option bytes) : env := with_files E (e_exists E) d.
(** How two contents of an input file are compared: the same bytes; two texts of one list of
    definitions; texts that differ only in their line ends; texts of definitions that differ
    only in the constants in them. *)
Inductive degree := Exact | Layout | Line_ends | Constants.
Definition alike (m : degree) (f f' : option bytes) : Prop :=
  f = f' \/
  match m with
  | Exact => False
  | Layout => exists cs cs' ds, f = Some cs /\ f' = Some cs' /\ text_of cs ds /\ text_of cs' ds
  | Line_ends => exists cs cs', f = Some cs /\ f' = Some cs' /\ lines_of cs = lines_of cs'
  | Constants => exists cs cs' ds ds', f = Some cs /\ f' = Some cs' /\ text_of cs ds /\ text_of cs' ds' /\ same_shape ds ds'
  end.
(** The console: all of it; without the traces and echoed characters of the scanner; and
    without the messages of the parser (for both see C85_parse). *)
Definition kept (m : degree) (x : said) : bool :=
  match x, m with SLex _, Exact => true | SLex _, _ => false | SErr _, Line_ends => false | _, _ => true end.
Definition console (m : degree) (l : list entry) : list entry :=
  filter (fun e => match e with Parser x => kept m x | _ => true end) l.
(** Two runs with the same outcome, files and console. *)
Arguments console : simpl never.
Definition same_world (strict : degree) (w w' : world) : Prop := w_files w = w_files w' /\ console strict (w_log w) = console strict (w_log w').
(** The results may be related by [R] instead of being the same. *)
Definition like_run (strict : degree) {A} (R : A -> A -> Prop) (r r' : ran A) : Prop :=
  match r, r' with
  | Go a w, Go a' w' => R a a' /\ same_world strict w w'
  | Stop w, Stop w' => same_world strict w w'
  | _, _ => False
  end.
Definition same_run (strict : degree) {A} (r r' : ran A) : Prop := like_run strict eq r r'.
(** What counts of the store. *)
Definition seen (m : degree) (i : info) : info := match m with Constants => erase i | _ => i end.
Definition seen_heap (m : degree) (h : heap) : heap := Heap (seen m (h_self h)) (seen m (h_common h)).
Lemma seen_heap_refl m h h' : (m <> Constants -> h = h') -> (m = Constants -> erase_heap h = erase_heap h') -> seen_heap m h = seen_heap m h'.
Proof. intros A B. destruct m; try (rewrite A; [reflexivity|discriminate]). exact (B eq_refl). Qed.
Lemma seen_self m h h' : seen_heap m h = seen_heap m h' -> seen m (h_self h) = seen m (h_self h').
Proof. now intros [= A B]. Qed.
Lemma seen_common m h h' : seen_heap m h = seen_heap m h' -> seen m (h_common h) = seen m (h_common h').
Proof. now intros [= A B]. Qed.
Lemma seen_rv m i i' rv : seen m i = seen m i' -> seen m (set_rv i rv) = seen m (set_rv i' rv).
Proof. destruct m; cbn [seen]; intros H; [now rewrite H..|]. now rewrite <- !erase_rv, H. Qed.
Lemma seen_copy m i i' : seen m i = seen m i' -> seen m (copy_info i) = seen m (copy_info i').
Proof. destruct m; cbn [seen]; intros H; [now rewrite H..|]. now rewrite <- !erase_copy, H. Qed.
Lemma seen_fixup m i i' : seen m i = seen m i' -> seen m (fst (fixup i)) = seen m (fst (fixup i')) /\ snd (fixup i) = snd (fixup i').
Proof.
  destruct m; cbn [seen]; intros H; [now rewrite H..|]. pose proof (erase_fixup i) as A. pose proof (erase_fixup i') as B. rewrite H in A. rewrite A in B.
  split; congruence.
Qed.
Lemma seen_top m i i' : seen m i = seen m i' -> seen m (find_top i) = seen m (find_top i').
Proof. destruct m; cbn [seen]; intros H; [now rewrite H..|]. now rewrite <- !erase_top, H. Qed.
Lemma seen_parse_rv m i i' : seen m i = seen m i' -> i_parse_rv i = i_parse_rv i'.
Proof. destruct m; cbn [seen]; intros H; [now rewrite H..|]. now apply (f_equal i_parse_rv) in H. Qed.
Lemma seen_enum_files m i i' a b c d : seen m i = seen m i' -> enum_files i a b c d = enum_files i' a b c d.
Proof. destruct m; cbn [seen]; intros H; [now rewrite H..|]. now rewrite <- (erase_enum_files i), <- (erase_enum_files i'), H. Qed.
Lemma seen_struct_files m i i' b x o c h y : seen m i = seen m i' -> struct_files b i x o c h y = struct_files b i' x o c h y.
Proof. destruct m; cbn [seen]; intros H; [now rewrite H..|]. now rewrite <- (erase_struct_files b i), <- (erase_struct_files b i'), H. Qed.
Lemma erase_run o : forall h h', erase_heap h = erase_heap h' ->
  match run_outs o h, run_outs o h' with Some (k, m), Some (k', m') => erase_heap k = erase_heap k' /\ m = m' | None, None => True | _, _ => False end.
Proof.
  induction o as [|x o IH]; intros h h' H; [cbn; auto|]. cbn [run_outs]. destruct x as [e|c|s].
  - specialize (IH h h' H). destruct (run_outs o h) as [[k m]|], (run_outs o h') as [[k' m']|]; try contradiction; [|exact I]. destruct IH as [A ->]. auto.
  - pose proof (erase_apply c h) as A. pose proof (erase_apply c h') as A'. rewrite H in A. rewrite A in A'.
    destruct (apply_call c h) as [[[h1 r] m1]|], (apply_call c h') as [[[h1' r'] m1']|]; try discriminate; [|exact I].
    assert (H1 : erase_heap h1 = erase_heap h1') by congruence. assert (m1' = m1) as -> by congruence. specialize (IH h1 h1' H1).
    destruct (run_outs o h1) as [[k m]|], (run_outs o h1') as [[k' m']|]; try contradiction; [|exact I]. destruct IH as [B ->]. auto.
  - specialize (IH h h' H). destruct (run_outs o h) as [[k m]|], (run_outs o h') as [[k' m']|]; try contradiction; [|exact I]. destruct IH as [A ->]. auto.
Qed.

(** *** One input file *)
Definition unlex (m : degree) (l : list said) : list said := filter (kept m) l.
Lemma run_outs_quiet o : forall h h' m, apply_calls (calls_of o) h = Some (h', m) -> errs_of o = [] ->
  exists sm, run_outs o h = Some (h', sm) /\ unlex Layout sm = map SMsg m.
Proof.
  induction o as [|x o IH]; intros h h' m; cbn [calls_of errs_of flat_map run_outs].
  - cbn. intros [= <- <-] _. exists []. auto.
  - destruct x as [e|c|s]; cbn [app]; [| |discriminate].
    + intros H N. destruct (IH _ _ _ H N) as (sm & -> & Hm). eexists. split; [reflexivity|exact Hm].
    + cbn [apply_calls]. destruct (apply_call c h) as [[[h1 r] m1]|]; [|discriminate].
      fold (calls_of o). destruct (apply_calls (calls_of o) h1) as [[h2 m2]|] eqn:E; [|discriminate].
      intros [= <- <-] N. destruct (IH _ _ _ E N) as (sm & -> & Hm). eexists. split; [reflexivity|].
      unfold unlex in *. rewrite filter_app, map_app, Hm. f_equal. clear. induction m1 as [|a m1 IH]; cbn; [auto|f_equal; auto].
Qed.
Lemma input_quiet cs ds h h' m : text_of cs ds -> apply_calls (file_calls ds) h = Some (h', m) ->
  exists sm, process_input_file (Some cs) h = Some (Heap (set_rv (h_self h') 0) (h_common h'), true, sm) /\
    unlex Layout sm = SOpen true :: map SMsg m.
Proof.
  intros (its & le & ee & Hs & Hw & Ht) Hc. cbn [process_input_file].
  destruct (text_accept cs its le ee (8 * length cs + 11) ds Hs) as (o & -> & Ho & He & _); [lia|exact Hw|exact Ht|].
  rewrite <- Ho in Hc. destruct (run_outs_quiet _ _ _ _ Hc He) as (sm & -> & Hm).
  eexists. split; [reflexivity|]. cbn [unlex filter]. unfold unlex in Hm. now rewrite Hm.
Qed.
(** Texts with the same calls. *)
Lemma run_outs_calls o : forall h h' m, apply_calls (calls_of o) h = Some (h', m) ->
  exists sm, run_outs o h = Some (h', sm) /\ unlex Line_ends sm = map SMsg m.
Proof.
  induction o as [|x o IH]; intros h h' m; cbn [calls_of flat_map run_outs].
  - cbn. intros [= <- <-]. exists []. auto.
  - destruct x as [e|c|s]; cbn [app].
    + intros H. destruct (IH _ _ _ H) as (sm & -> & Hm). eexists. split; [reflexivity|exact Hm].
    + cbn [apply_calls]. destruct (apply_call c h) as [[[h1 r] m1]|]; [|discriminate].
      fold (calls_of o). destruct (apply_calls (calls_of o) h1) as [[h2 m2]|] eqn:E; [|discriminate].
      intros [= <- <-]. destruct (IH _ _ _ E) as (sm & -> & Hm). eexists. split; [reflexivity|].
      unfold unlex in *. rewrite filter_app, map_app, Hm. f_equal. clear. induction m1 as [|a m1 IH]; cbn; [auto|f_equal; auto].
    + intros H. destruct (IH _ _ _ H) as (sm & -> & Hm). eexists. split; [reflexivity|exact Hm].
Qed.
Lemma input_alike0 strict f f' b h : strict <> Constants -> alike strict f f' -> reach b h -> exists h' r m m', process_input_file f h = Some (h', r, m) /\
  process_input_file f' h = Some (h', r, m') /\ unlex strict m = unlex strict m' /\ reach b h'.
Proof.
  intros NC [->|A] R.
  - destruct (input_reach f' b h R) as (h' & r & m & -> & R'). exists h', r, m, m. auto.
  - destruct strict; [destruct A| | |congruence].
    + destruct A as (cs & cs' & ds & -> & -> & T & T').
      destruct (reach_calls b h (file_calls ds) R) as (h' & m & A & R').
      destruct (input_quiet cs ds h h' m T A) as (s1 & -> & M1). destruct (input_quiet cs' ds h h' m T' A) as (s2 & -> & M2).
      do 4 eexists. split; [reflexivity|]. split; [reflexivity|]. split; [congruence|]. apply R_rv, R'.
    + destruct A as (cs & cs' & -> & -> & U). destruct (parse_line_ends cs cs' U) as (o & o' & rv & P & P' & C & _).
      destruct (reach_calls b h (calls_of o) R) as (h' & m & A & R'). cbn [process_input_file]. rewrite (P _ (le_n _)), (P' _ (le_n _)).
      destruct (run_outs_calls o h h' m A) as (s1 & -> & M1). rewrite C in A. destruct (run_outs_calls o' h h' m A) as (s2 & -> & M2).
      do 4 eexists. split; [reflexivity|]. split; [reflexivity|]. split; [|apply R_rv, R']. cbn [unlex filter kept]. f_equal. unfold unlex in *. congruence.
Qed.
Lemma input_alike strict f f' b h h' : alike strict f f' -> seen_heap strict h = seen_heap strict h' -> reach b h -> reach b h' ->
  exists k k' r m m', process_input_file f h = Some (k, r, m) /\ process_input_file f' h' = Some (k', r, m') /\
    unlex strict m = unlex strict m' /\ seen_heap strict k = seen_heap strict k' /\ reach b k /\ reach b k'.
Proof.
  intros A S R R'. assert (D : strict = Constants \/ strict <> Constants) by (destruct strict; (left; reflexivity) || (right; discriminate)). destruct D as [-> |D].
  - destruct A as [->|(cs & cs' & ds & ds' & -> & -> & T & T' & SH)].
    + destruct (input_reach f' b h R) as (k & r & m & E & K). destruct (input_reach f' b h' R') as (k' & r' & m' & E' & K').
      destruct f' as [cs|]; cbn [process_input_file] in *.
      * destruct (parse_bytes (8 * length cs + 11) cs) as [[o rv]|]; [|discriminate]. pose proof (erase_run o h h' S) as X.
        destruct (run_outs o h) as [[q u]|], (run_outs o h') as [[q' u']|]; try discriminate. destruct X as [X ->].
        injection E as <- <- <-. injection E' as <- <- <-. do 5 eexists. split; [reflexivity|]. split; [reflexivity|]. split; [reflexivity|]. split; [|auto].
        unfold seen_heap. cbn [h_self h_common]. f_equal; [apply (seen_rv Constants); now apply (seen_self Constants)|now apply (seen_common Constants)].
      * injection E as <- <- <-. injection E' as <- <- <-. do 5 eexists. split; [reflexivity|]. split; [reflexivity|]. split; [reflexivity|]. auto.
    + destruct (reach_calls b h (file_calls ds) R) as (k & m & E & K). destruct (reach_calls b h' (file_calls ds') R') as (k' & m' & E' & K').
      destruct (shape_files ds ds' h h' k k' m m' SH S E E') as [X ->].
      destruct (input_quiet cs ds h k m' T E) as (s1 & -> & M1). destruct (input_quiet cs' ds' h' k' m' T' E') as (s2 & -> & M2).
      do 5 eexists. split; [reflexivity|]. split; [reflexivity|]. split; [exact (eq_trans M1 (eq_sym M2))|]. split; [|split; now apply R_rv].
      unfold seen_heap. cbn [h_self h_common]. f_equal; [apply (seen_rv Constants); now apply (seen_self Constants)|now apply (seen_common Constants)].
  - assert (h' = h) as ->. { destruct h, h'. destruct strict; try congruence; symmetry; exact S. }
    destruct (input_alike0 strict f f' b h D A R) as (k & r & m & m' & E & E' & U & K). exists k, k, r, m, m'. auto 10.
Qed.
Lemma console_app strict a b : console strict (a ++ b) = console strict a ++ console strict b.
Proof. apply filter_app. Qed.
Lemma log_unlex strict p m : forall l, log_all p m = Some l -> exists l', log_all p (unlex strict m) = Some l' /\ console strict l = l'.
Proof.
  induction m as [|x m IH]; intros l; cbn [log_all unlex filter]; [intros [= <-]; eauto|].
  destruct (log_said p x) as [y|] eqn:X; [|discriminate]. destruct (log_all p m) as [k|] eqn:K; [|discriminate]. intros [= <-].
  destruct (IH _ eq_refl) as (l' & A & B). unfold unlex in A.
  assert (Y : kept strict x = match y with Parser z => kept strict z | _ => true end).
  { destruct x as [ok|e|s|s]; cbn [log_said] in X; [destruct (println _ _) as [s|]; [|discriminate]|..]; injection X as <-; [now destruct strict|..]; reflexivity. }
  unfold console in *. cbn [filter]. rewrite <- Y. destruct (kept strict x); [|eauto].
  cbn [log_all]. rewrite X, A. eexists. split; [reflexivity|]. now f_equal.
Qed.

(** *** The program *)
Section Two.
Variable strict : degree.
Variable E : env.
Variable d : string -> option bytes.
Variable ex : string -> bool.
Let E' : env := with_files E ex d.

Lemma file_name_same p : file_name E' p = file_name E p.
Proof. induction p as [|c p IH]; [reflexivity|]. cbn [file_name]. now rewrite IH. Qed.
Lemma before_name_same p : before_name E' p = before_name E p.
Proof. induction p as [|c p IH]; [reflexivity|]. cbn [before_name]. now rewrite IH. Qed.
Lemma parent_same p : parent E' p = parent E p.
Proof. unfold parent. now rewrite before_name_same. Qed.
Lemma extension_same p : extension E' p = extension E p.
Proof. unfold extension. now rewrite file_name_same. Qed.
Lemma h_path_same dir n : h_path E' dir n = h_path E dir n.
Proof. unfold h_path, replace_ext. now rewrite extension_same. Qed.
Lemma say_same t args w w' : same_world strict w w' -> same_run strict (say t args w) (say t args w').
Proof.
  intros [F C]. unfold say. destruct (println t args); cbn; [|split; assumption].
  split; [reflexivity|]. split; cbn; [exact F|]. rewrite !console_app. now rewrite C.
Qed.
Lemma bind_same {A B} (r r' : ran A) (k k' : A -> world -> ran B) : same_run strict r r' ->
  (forall a w w', same_world strict w w' -> same_run strict (k a w) (k' a w')) ->
  same_run strict (match r with Go a w => k a w | Stop w => Stop w end) (match r' with Go a w => k' a w | Stop w => Stop w end).
Proof. destruct r, r'; cbn; try contradiction; [|auto]. intros [-> S] K. now apply K. Qed.
Lemma bind_like {A B} (R : A -> A -> Prop) (Q : B -> B -> Prop) (r r' : ran A) (k k' : A -> world -> ran B) : like_run strict R r r' ->
  (forall a a' w w', R a a' -> same_world strict w w' -> like_run strict Q (k a w) (k' a' w')) ->
  like_run strict Q (match r with Go a w => k a w | Stop w => Stop w end) (match r' with Go a w => k' a w | Stop w => Stop w end).
Proof. destruct r, r'; cbn; try contradiction; [|auto]. intros [S W] K. now apply K. Qed.
Lemma bind_like_eq {A B} (Q : B -> B -> Prop) (r r' : ran A) (k k' : A -> world -> ran B) : same_run strict r r' ->
  (forall a w w', same_world strict w w' -> like_run strict Q (k a w) (k' a w')) ->
  like_run strict Q (match r with Go a w => k a w | Stop w => Stop w end) (match r' with Go a w => k' a w | Stop w => Stop w end).
Proof. intros H K. eapply bind_like; [exact H|]. intros a a' w w' <-. apply K. Qed.
Lemma put_same p s w w' : same_world strict w w' -> same_world strict (put_file p s w) (put_file p s w').
Proof. intros [F C]. split; cbn; [now rewrite F|exact C]. Qed.
Lemma write_same cs cpp h w w' : same_world strict w w' -> same_run strict (write_all cs cpp h w) (write_all cs cpp h w').
Proof.
  intros [F C]. unfold write_all. destruct (render T_cpp cs); [|split; assumption]. destruct (render T_h cs); [|split; assumption].
  destruct (render T_out cs); [|split; assumption]. cbn. split; [reflexivity|]. split; cbn; [now rewrite F|]. rewrite !console_app. now rewrite C.
Qed.
Lemma open_same cpp h a b c e cs ok fail w w' : same_world strict w w' ->
  same_run strict (open_both E cpp h a b c e cs ok fail w) (open_both E' cpp h a b c e cs ok fail w').
Proof.
  intros S. unfold open_both. change (e_write E') with (e_write E). rewrite !file_name_same.
  destruct (e_write E cpp).
  - apply bind_same; [now apply say_same, put_same|]. intros _ w1 w1' S1. destruct (e_write E h).
    + apply bind_same; [now apply say_same, put_same|]. intros _ w2 w2' S2. apply bind_same; [now apply write_same|]. intros _ w3 w3' S3. split; auto.
    + apply bind_same; [now apply say_same|]. intros _ w2 w2' S2. split; auto.
  - apply bind_same; [now apply say_same|]. intros _ w2 w2' S2. split; auto.
Qed.
Lemma dir_same base o w w' : same_world strict w w' -> same_run strict (out_dir E base o w) (out_dir E' base o w').
Proof.
  intros S. unfold out_dir. change (e_mkdirs E') with (e_mkdirs E). change (e_canonical E') with (e_canonical E). change (join E') with (join E).
  destruct (String.eqb (o_dir o) ""); [split; auto|]. destruct (e_mkdirs E _); [|exact S]. destruct (e_canonical E _); [split; auto|exact S].
Qed.
Lemma items_same b base i i' inputs o w w' : seen strict i = seen strict i' -> same_world strict w w' ->
  like_run strict (fun p q => seen strict (fst p) = seen strict (fst q) /\ snd p = snd q) (process_items E b base i inputs o w) (process_items E' b base i' inputs o w').
Proof.
  intros SI S. unfold process_items. change (e_stamp E') with (e_stamp E). destruct (stfx_info (e_stamp E)) as [info|]; [|exact S].
  apply bind_like_eq; [now apply say_same|]. intros _ w1 w1' S1. pose proof (seen_fixup strict i i' SI) as [F1 F2].
  destruct (fixup i) as [i1 r1], (fixup i') as [i1' r1']. cbn [fst snd] in F1, F2. subst r1'. apply seen_top in F1. 
  apply bind_like_eq.
  - destruct (skipped (o_enum_file o)); [apply bind_same; [now apply say_same|]; intros _ w2 w2' S2; split; auto|].
    unfold process_all_enums. apply bind_same; [now apply dir_same|]. intros dir w2 w2' S2. rewrite h_path_same, !file_name_same, (seen_enum_files _ _ _ _ _ _ _ F1). now apply open_same.
  - intros r2 w2 w2' S2. apply bind_like_eq.
    + destruct (skipped (o_structs_file o)); [apply bind_same; [now apply say_same|]; intros _ w3 w3' S3; split; auto|].
      unfold process_all_structs. apply bind_same; [now apply dir_same|]. intros dir w3 w3' S3. rewrite h_path_same, !file_name_same, (seen_struct_files _ _ _ _ _ _ _ _ _ F1). now apply open_same.
    + intros r3 w3 w3' S3. split; auto.
Qed.
Definition info_as (i i' : info) : Prop := seen strict i = seen strict i'.
Definition heap_as (h h' : heap) : Prop := seen_heap strict h = seen_heap strict h'.
Lemma output_same msg shown t base i i' inputs o w w' : seen strict i = seen strict i' -> same_world strict w w' ->
  like_run strict info_as (output E msg shown t base i inputs o w) (output E' msg shown t base i' inputs o w').
Proof.
  intros SI S. unfold output. destruct (backend_of t) as [b|].
  - eapply bind_like; [now apply items_same|]. intros [i1 r1] [i1' r1'] w1 w1' [S1 _] SW. split; auto.
  - apply bind_like_eq; [now apply say_same|]. intros _ w1 w1' S1. split; auto.
Qed.
Lemma content_alike p w w' : alike strict (e_disk E p) (d p) -> same_world strict w w' -> alike strict (content E p w) (content E' p w').
Proof. intros A [F _]. unfold content. rewrite F. destruct (Cpp.assoc p (w_files w')); [now left|exact A]. Qed.
Lemma input_same p b h h' w w' : alike strict (e_disk E p) (d p) -> seen_heap strict h = seen_heap strict h' -> reach b h -> reach b h' -> same_world strict w w' ->
  exists k k' r w1 w1', input_file E p h w = Go (k, r) w1 /\ input_file E' p h' w' = Go (k', r) w1' /\ same_world strict w1 w1' /\
    seen_heap strict k = seen_heap strict k' /\ reach b k /\ reach b k'.
Proof.
  intros A SH R R' S. destruct (input_alike strict _ _ b h h' (content_alike p w w' A S) SH R R') as (k & k' & r & m & m' & P & P' & U & SK & K & K').
  unfold input_file. rewrite P, P'. destruct (log_all_ok p m) as [l L]. destruct (log_all_ok p m') as [l' L']. rewrite L, L'.
  do 5 eexists. split; [reflexivity|]. split; [reflexivity|]. split; [|auto].
  destruct S as [F C]. split; cbn; [exact F|]. rewrite !console_app, C. f_equal.
  destruct (log_unlex strict _ _ _ L) as (q & K1 & K2). destruct (log_unlex strict _ _ _ L') as (q' & K1' & K2'). congruence.
Qed.
Lemma inputs_same base good bad fs : fits_args good 1 = true -> fits_args bad 1 = true -> forall b h h' w w',
  Forall (fun f => alike strict (e_disk E (join E base f)) (d (join E base f))) fs -> seen_heap strict h = seen_heap strict h' -> reach b h -> reach b h' -> same_world strict w w' ->
  like_run strict heap_as (input_files E base good bad fs h w) (input_files E' base good bad fs h' w').
Proof.
  intros G B. induction fs as [|f fs IH]; intros b h h' w w' A SH R R' S; cbn [input_files]; [split; auto|].
  inversion A as [|? ? A1 A2]; subst. change (join E') with (join E).
  destruct (input_same (join E base f) b h h' w w' A1 SH R R' S) as (k & k' & r & w1 & w1' & -> & -> & S1 & SK & K & K').
  apply bind_like_eq; [now apply say_same|]. intros _ w2 w2' S2. eapply IH; eauto.
Qed.
Lemma sections_same base common shown ss : forall c c' w w', Forall (fun s => Forall (fun f => alike strict (e_disk E (join E base f)) (d (join E base f))) (fst s)) ss ->
  seen strict c = seen strict c' -> reach true (Heap (copy_info c) c) -> reach true (Heap (copy_info c') c') -> same_world strict w w' ->
  same_run strict (sections E base common shown ss c w) (sections E' base common shown ss c' w').
Proof.
  induction ss as [|[fs [t o]] ss IH]; intros c c' w w' A SC R R' S; cbn [sections]; [split; auto|]. inversion A as [|? ? A1 A2]; subst. cbn [fst] in A1.
  assert (SH : seen_heap strict (Heap (copy_info c) c) = seen_heap strict (Heap (copy_info c') c')) by (unfold seen_heap; cbn [h_self h_common]; f_equal; [now apply seen_copy|exact SC]).
  pose proof (inputs_same base mn_189 mn_193 fs eq_refl eq_refl _ _ _ w w' A1 SH R R' S) as X.
  destruct (input_files_run E base mn_189 mn_193 fs eq_refl eq_refl true _ w R) as (h & w1 & Q & _ & R1 & _).
  destruct (input_files_run E' base mn_189 mn_193 fs eq_refl eq_refl true _ w' R') as (h' & w1' & Q' & _ & R1' & _). rewrite Q, Q' in *. destruct X as [SK S1].
  eapply bind_like; [apply output_same; [now apply seen_self|exact S1]|]. intros i1 i1' w2 w2' _ S2. apply IH; auto.
  - now apply seen_common.
  - destruct h as [hs hc]. exact (R_next_section _ R1).
  - destruct h' as [hs hc]. exact (R_next_section _ R1').
Qed.
Definition same_files_named (p : string) (c : conf) : Prop :=
  forall f, In f (c_in c) \/ (exists s, In s (c_non c) /\ In f (fst s)) -> alike strict (e_disk E (join E (parent E p) f)) (d (join E (parent E p) f)).
(** The files that a run reads have the same definitions; the configuration file is the same. *)
Definition same_inputs (p : string) : Prop :=
  if String.eqb (extension E p) ".stfx"
  then e_disk E p = d p /\ forall c, e_conf E (d p) = CRead c -> same_files_named p c
  else alike strict (e_disk E p) (d p).
Lemma header_same p w w' : alike strict (e_disk E p) (d p) -> same_world strict w w' ->
  same_run strict (process_single_header E p w) (process_single_header E' p w').
Proof.
  intros A S. unfold process_single_header.
  destruct (input_same p false _ _ w w' A eq_refl R_start R_start S) as (k & k' & r & w1 & w1' & -> & -> & S1 & SK & _).
  apply bind_same; [|intros _ w2 w2' S2; split; auto].
  rewrite parent_same, file_name_same. rewrite (seen_parse_rv strict _ _ (seen_self _ _ _ SK)). destruct r; [|now apply say_same].
  apply bind_same; [now apply say_same|]. intros _ w2 w2' S2. eapply bind_like; [apply items_same; [now apply seen_self|exact S2]|].
  intros [i r] [i' r'] w3 w3' [_ E1] S3. cbn [snd] in E1. subst r'. now apply say_same.
Qed.
Lemma conf_same p w w' : w_files w = [] -> e_disk E p = d p -> (forall c, e_conf E (d p) = CRead c -> same_files_named p c) -> same_world strict w w' ->
  same_run strict (process_stfx_file E p w) (process_stfx_file E' p w').
Proof.
  intros NF D A S. unfold process_stfx_file. change (e_conf E') with (e_conf E). rewrite parent_same.
  assert (C1 : content E p w = d p) by (unfold content; now rewrite NF).
  assert (C2 : content E' p w' = d p) by (unfold content; destruct S as [F _]; now rewrite <- F, NF).
  rewrite C1, C2. destruct (e_conf E (d p)) as [c| |] eqn:EC; [| |].
  all: try (apply bind_same; [now apply say_same|]; intros _ w1 w1' S1; split; auto); try exact S.
  specialize (A c eq_refl).
  assert (A1 : Forall (fun f => alike strict (e_disk E (join E (parent E p) f)) (d (join E (parent E p) f))) (c_in c)).
  { apply Forall_forall. intros f I. apply A. auto. }
  pose proof (inputs_same (parent E p) mn_128 mn_132 (c_in c) eq_refl eq_refl _ _ _ w w' A1 eq_refl R_start R_start S) as X.
  destruct (input_files_run E (parent E p) mn_128 mn_132 (c_in c) eq_refl eq_refl false _ w R_start) as (h & w1 & Q & _ & R1 & _).
  destruct (input_files_run E' (parent E p) mn_128 mn_132 (c_in c) eq_refl eq_refl false _ w' R_start) as (h' & w1' & Q' & _ & R1' & _). rewrite Q, Q' in *.
  destruct X as [SK S1].
  apply bind_same; [now apply say_same|]. intros _ w2 w2' S2. destruct (c_out c) as [t o].
  pose proof (output_same mn_172 t t (parent E p) (h_self h) (h_self h') (c_in c) o w2 w2' (seen_self _ _ _ SK) S2) as Y.
  destruct (output_run E mn_172 t t (parent E p) (h_self h) (c_in c) o w2 eq_refl) as [Z1 Z2].
  destruct (output_run E' mn_172 t t (parent E p) (h_self h') (c_in c) o w2' eq_refl) as [Z1' Z2'].
  change (blocked E' (parent E p) (t, o)) with (blocked E (parent E p) (t, o)) in Z1', Z2'.
  destruct (blocked E (parent E p) (t, o)).
  - destruct (Z2 eq_refl) as (w3 & Q3 & _). rewrite Q3 in *. destruct (output E' mn_172 t t (parent E p) (h_self h') (c_in c) o w2') as [|w3']; [contradiction|exact Y].
  - destruct (Z1 eq_refl) as (i1 & w3 & Q3 & I & _). destruct (Z1' eq_refl) as (i1' & w3' & Q3' & I' & _). rewrite Q3, Q3' in *. destruct Y as [SI S3].
    assert (RF : forall h i1, reach false h -> i1 = h_self h \/ i1 = find_top (fst (fixup (h_self h))) -> reach true (Heap (copy_info i1) i1)).
    { intros [hs hc] j RH [->| ->]; [exact (R_first_section _ RH)|exact (R_first_section _ (R_top _ _ (R_fixup _ _ RH)))]. }
    apply bind_same; [|intros _ w4 w4' S4; split; auto]. apply sections_same; [|exact SI| | |exact S3].
    + apply Forall_forall. intros s Is. apply Forall_forall. intros f If. apply A. right. eauto.
    + exact (RF h i1 R1 I).
    + exact (RF h' i1' R1' I').
Qed.
Theorem stfx_same_at argv0 args : (forall a rest p, args = a :: rest -> e_canonical E a = Some p -> same_inputs p) ->
  (forall a rest, args = a :: rest -> ex a = e_exists E a) ->
  same_run strict (stfx E argv0 args) (stfx (with_files E ex d) argv0 args).
Proof.
  intros A EX. fold E'. unfold stfx. change (e_stamp E') with (e_stamp E). change (e_exists E') with ex. change (e_canonical E') with (e_canonical E).
  rewrite start_say.
  assert (S0 : same_world strict (w_first E) (w_first E)) by (split; reflexivity). destruct args as [|a rest].
  - apply bind_same; [now apply say_same|]. intros _ w1 w1' S1. split; auto.
  - rewrite (EX a rest eq_refl). destruct (e_exists E a); [|apply bind_same; [now apply say_same|]; intros _ w1 w1' S1; split; auto].
    destruct (e_canonical E a) as [p|] eqn:C; [|exact S0]. specialize (A a rest p eq_refl C). unfold same_inputs in A.
    apply bind_same; [|intros rv w1 w1' S1; apply bind_same; [now apply say_same|]; intros _ w2 w2' S2; split; auto].
    rewrite extension_same. destruct (String.eqb (extension E p) ".stfx"); [destruct A as [D A]; now apply conf_same|now apply header_same].
Qed.
End Two.
Theorem stfx_same E strict d argv0 args : (forall a rest p, args = a :: rest -> e_canonical E a = Some p -> same_inputs strict E d p) ->
  same_run strict (stfx E argv0 args) (stfx (with_disk E d) argv0 args).
Proof. intros A. now apply stfx_same_at. Qed.
Lemma filter_all {A} (f : A -> bool) l : (forall x, f x = true) -> filter f l = l.
Proof. intros H. induction l as [|x l IH]; [reflexivity|]. cbn. now rewrite H, IH. Qed.
Lemma same_run_strict {A} (r r' : ran A) : same_run Exact r r' -> r = r'.
Proof.
  assert (C : forall w w', same_world Exact w w' -> w = w').
  { intros [f l] [f' l'] [F L]. cbn in *. unfold console in L. rewrite !filter_all in L by (intros [|[]]; reflexivity). congruence. }
  destruct r, r'; cbn; try contradiction; [intros [-> S]|intros S]; apply C in S; congruence.
Qed.
