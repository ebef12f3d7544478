(** The whole program: exit status, and the files that a run changes. *)
From Coq Require Import String Ascii ZArith NArith Arith List Bool Lia.
From Verif Require Import Base Map Flex Items Bison Grammar Cfg GramSim ParseSpec ParseCorrect LexProps LexGap ParseLang Store Resolve Fmt Decimal Templates MainTemplates
  Emit Val StoreProps StoreDefs Main MainProps.
Import ListNotations.
Local Open Scope string_scope.
Local Open Scope list_scope.

Lemma assoc_set {A} q k (v : A) l : Cpp.assoc q (set_assoc k v l) = if String.eqb q k then Some v else Cpp.assoc q l.
Proof.
  induction l as [|[a x] l IH]; cbn [set_assoc Cpp.assoc].
  - destruct (String.eqb q k); reflexivity.
  - destruct (String.eqb k a) eqn:K; cbn [Cpp.assoc].
    + apply String.eqb_eq in K as ->. destruct (String.eqb q a); reflexivity.
    + destruct (String.eqb q a) eqn:Q; [|exact IH]. apply String.eqb_eq in Q as ->. rewrite String.eqb_sym, K. reflexivity.
Qed.
(** The last of the values put under a name. *)
Definition last_put (q : string) (l : list (string * string)) (old : option string) : option string :=
  fold_left (fun o p => if String.eqb q (fst p) then Some (snd p) else o) l old.
Lemma assoc_puts q l : forall fs, Cpp.assoc q (puts l fs) = last_put q l (Cpp.assoc q fs).
Proof.
  induction l as [|[k v] l IH]; intros fs; [reflexivity|]. unfold puts, last_put. cbn [fold_left fst snd].
  fold (puts l (set_assoc k v fs)). rewrite IH, assoc_set. reflexivity.
Qed.
Lemma last_put_app q a b old : last_put q (a ++ b) old = last_put q b (last_put q a old).
Proof. apply fold_left_app. Qed.
Lemma last_put_none q l : forall old, ~ In q (map fst l) -> last_put q l old = old.
Proof.
  induction l as [|[k v] l IH]; intros old H; [reflexivity|]. cbn in *.
  destruct (String.eqb q k) eqn:Q; [apply String.eqb_eq in Q; intuition congruence|]. apply IH. tauto.
Qed.

Section Run.
Variable E : env.

Lemma stamp_text : exists s, stfx_info (e_stamp E) = Some s.
Proof. eexists. reflexivity. Qed.

Lemma log_all_ok p ms : exists l, log_all p ms = Some l.
Proof.
  induction ms as [|m ms [l IH]]; [eexists; reflexivity|]. cbn [log_all].
  assert (X : exists x, log_said p m = Some x).
  { destruct m as [[]| | |]; cbn [log_said]; try (rewrite println_fits by reflexivity); eauto. }
  destruct X as [x ->]. rewrite IH. eauto.
Qed.
(** A file is read without error iff it can be opened and its text is a list of definitions. *)
Definition good_input (f : option bytes) : Prop := exists cs ds, f = Some cs /\ text_of cs ds.
Lemma input_result f b h : reach b h -> exists h' r m, process_input_file f h = Some (h', r, m) /\ reach b h' /\
  (r = true <-> good_input f).
Proof.
  intros R. destruct (input_reach f b h R) as (h' & r & m & P & R'). exists h', r, m. split; [exact P|]. split; [exact R'|].
  destruct f as [cs|]; cbn [process_input_file] in P.
  2:{ injection P as _ <- _. split; [discriminate|]. intros (? & ? & ? & _). discriminate. }
  destruct (scan_text cs) as [[[its le] ee]|] eqn:SC; [|apply scan_text_defined in SC; contradiction].
  pose proof (text_language cs its le ee _ SC (le_n _)) as L.
  assert (G : Forall good_token (map i_tok its)) by (apply Forall_map; eapply tokenize_good; eauto).
  rewrite (language _ G) in L.
  destruct (parse_bytes (8 * length cs + 11) cs) as [[o rv]|] eqn:PB; [|discriminate].
  destruct (run_outs o h) as [[h1 m1]|]; [|discriminate]. injection P as _ <- _.
  rewrite Z.eqb_eq. split.
  - intros ->. destruct L as [L _]. destruct L as (ds & W & T); [eauto|]. exists cs, ds. split; [reflexivity|].
    exists its, le, ee. auto.
  - intros (cs' & ds & [= <-] & its' & le' & ee' & SC' & W & T). rewrite SC in SC'. injection SC' as <- <- <-.
    destruct L as [_ L]. destruct L as [o' L]; [eauto|]. congruence.
Qed.
Lemma input_file_run p b h w : reach b h -> exists h' r l, input_file E p h w = Go (h', r) (World (w_files w) (w_log w ++ l)) /\
  reach b h' /\ (r = true <-> good_input (content E p w)) /\
  exists m, process_input_file (content E p w) h = Some (h', r, m).
Proof.
  intros R. destruct (input_result (content E p w) b h R) as (h' & r & m & P & R' & G). exists h', r.
  unfold input_file. rewrite P. destruct (log_all_ok p m) as [l ->]. eauto 8.
Qed.

(** *** One header *)
Lemma single_spec_dir base : dir_for E base single_spec = Some base.
Proof. reflexivity. Qed.

Lemma single_run p w : exists r w', process_single_header E p w = Go (if r : bool then 0%Z else 1%Z) w' /\
  (r = true <-> good_input (content E p w)) /\
  exists info h m, stfx_info (e_stamp E) = Some info /\
    process_input_file (content E p w) (Heap info0 info0) = Some (h, r, m) /\
    let i := find_top (fst (fixup (h_self h))) in
    w_files w' = if r then puts (enum_output E (parent E p) info i [file_name E p] single_spec ++
                                 struct_output E B_xml_attrib (parent E p) info i [file_name E p] single_spec) (w_files w)
                 else w_files w.
Proof.
  unfold process_single_header. destruct (input_file_run p false (Heap info0 info0) w R_start) as (h & r & l & -> & R & G & m & P).
  destruct stamp_text as [info SI]. exists r. destruct r.
  - rewrite say_good by reflexivity.
    match goal with |- context [process_items E B_xml_attrib ?base ?i ?inp ?o ?w0] =>
      destruct (process_items_spec E B_xml_attrib base i inp o w0 info SI) as [(d & D & l2 & ->)|[D _]] end.
    2:{ discriminate. }
    injection D as <-. rewrite say_good by reflexivity. eexists. split; [reflexivity|]. split; [exact G|].
    exists info, h, m. repeat split; auto.
  - rewrite say_good by reflexivity. eexists. split; [reflexivity|]. split; [exact G|].
    exists info, h, m. repeat split; auto.
Qed.

(** *** Configuration files *)
Definition outputs (c : conf) : list (Z * output_spec) := c_out c :: map snd (c_non c).
(** An output that ends the program: its directory cannot be made. *)
Definition blocked (base : string) (x : Z * output_spec) : bool :=
  let (t, o) := x in
  match backend_of t, dir_for E base o with
  | Some _, None => negb (skipped (o_enum_file o) && skipped (o_structs_file o))
  | _, _ => false
  end.
Definition pair_paths (d x : string) : list string :=
  if skipped x then [] else
  if e_write E (cpp_path E d x) then cpp_path E d x :: (if e_write E (h_path E d x) then [h_path E d x] else []) else [].
(** The files that an output writes. *)
Definition paths_of (base : string) (x : Z * output_spec) : list string :=
  let (t, o) := x in
  match backend_of t, dir_for E base o with
  | Some _, Some d => pair_paths d (o_enum_file o) ++ pair_paths d (o_structs_file o)
  | _, _ => []
  end.
Definition same_but (l : list string) (w w' : world) : Prop :=
  forall q, ~ In q l -> Cpp.assoc q (w_files w') = Cpp.assoc q (w_files w).
Lemma same_refl l w : same_but l w w.
Proof. now intros q _. Qed.
Lemma same_trans a b w w1 w2 : same_but a w w1 -> same_but b w1 w2 -> same_but (a ++ b) w w2.
Proof.
  intros A B q H. rewrite (B q), (A q); [reflexivity| |]; intros X; apply H, in_or_app; auto.
Qed.
Lemma same_files l w w' : w_files w' = w_files w -> same_but l w w'.
Proof. intros H q _. now rewrite H. Qed.

(** All of them are there afterwards, and nothing is removed. *)
Definition has_all (l : list string) (w w' : world) : Prop :=
  forall q, In q l \/ Cpp.assoc q (w_files w) <> None -> Cpp.assoc q (w_files w') <> None.
Lemma has_trans a b w w1 w2 : has_all a w w1 -> has_all b w1 w2 -> has_all (a ++ b) w w2.
Proof. intros A B q [H|H]; [apply in_app_or in H as [H|H]|]; apply B; auto; right; apply A; auto. Qed.
Lemma has_files w w' : w_files w' = w_files w -> has_all [] w w'.
Proof. intros H q [[]|Q]. now rewrite H. Qed.
Lemma last_put_some q l : forall old, In q (map fst l) \/ old <> None -> last_put q l old <> None.
Proof.
  unfold last_put. induction l as [|[k v] l IH]; intros old H; cbn [fold_left map fst snd In] in *; [destruct H as [[]|H]; exact H|].
  apply IH. destruct (String.eqb_spec q k) as [->|N]; [right; discriminate|]. destruct H as [[H|H]|H]; auto; congruence.
Qed.

Lemma two_files_paths cpp h a b q : In q (map fst (two_files E cpp h a b)) -> q = cpp \/ q = h.
Proof. unfold two_files. destruct (e_write E cpp), (e_write E h); cbn; intuition. Qed.
Lemma two_files_touched cpp h a b q : In q (map fst (two_files E cpp h a b)) <->
  In q (if e_write E cpp then cpp :: (if e_write E h then [h] else []) else []).
Proof. unfold two_files. destruct (e_write E cpp), (e_write E h); cbn; intuition. Qed.
Lemma output_touched b d info i inp o q :
  In q (map fst (enum_output E d info i inp o ++ struct_output E b d info i inp o)) <->
  In q (pair_paths d (o_enum_file o) ++ pair_paths d (o_structs_file o)).
Proof.
  rewrite map_app, !in_app_iff. unfold enum_output, struct_output, pair_paths.
  destruct (skipped (o_enum_file o)), (skipped (o_structs_file o)); cbn [map]; rewrite ?two_files_touched; reflexivity.
Qed.
Lemma output_paths b d info i inp o q :
  In q (map fst (enum_output E d info i inp o ++ struct_output E b d info i inp o)) ->
  In q (pair_paths d (o_enum_file o) ++ pair_paths d (o_structs_file o)).
Proof. apply output_touched. Qed.

Lemma output_run msg shown t base i inp o w : fits_args msg 1 = true ->
  (blocked base (t, o) = false -> exists i' w', output E msg shown t base i inp o w = Go i' w' /\
     (i' = i \/ i' = find_top (fst (fixup i))) /\ same_but (paths_of base (t, o)) w w' /\ has_all (paths_of base (t, o)) w w') /\
  (blocked base (t, o) = true -> exists w', output E msg shown t base i inp o w = Stop w' /\ w_files w' = w_files w).
Proof.
  intros M. unfold output, blocked, paths_of. destruct (backend_of t) as [b|].
  2:{ rewrite say_good by exact M. split; [|discriminate]. intros _. do 2 eexists. split; [reflexivity|].
      split; [left; reflexivity|]. split; [apply same_files|apply has_files]; reflexivity. }
  destruct stamp_text as [info SI].
  destruct (process_items_spec E b base i inp o w info SI) as [(d & D & l & ->)|(D & [(S & l & ->)|(S & l & ->)])]; rewrite D.
  - split; [|discriminate]. intros _. do 2 eexists. split; [reflexivity|]. split; [right; reflexivity|].
    split.
    + intros q Q. cbn [w_files]. rewrite assoc_puts. apply last_put_none. intros X. apply Q. eapply output_paths, X.
    + intros q Q. cbn [w_files]. rewrite assoc_puts. apply last_put_some. now rewrite output_touched.
  - rewrite S. split; [|discriminate]. intros _. do 2 eexists. split; [reflexivity|]. split; [right; reflexivity|].
    split; [apply same_files|apply has_files]; reflexivity.
  - rewrite S. split; [discriminate|]. intros _. eexists. split; reflexivity.
Qed.

Lemma input_files_run base good bad fs : fits_args good 1 = true -> fits_args bad 1 = true -> forall b h w, reach b h ->
  exists h' w', input_files E base good bad fs h w = Go h' w' /\ w_files w' = w_files w /\ reach b h' /\
    exists rs m, process_input_files (map (fun f => content E (join E base f) w) fs) h = Some (h', rs, m).
Proof.
  intros G B. induction fs as [|f fs IH]; intros b h w R; cbn [input_files].
  { do 2 eexists. split; [reflexivity|]. split; [reflexivity|]. split; [exact R|]. cbn. eauto. }
  destruct (input_file_run (join E base f) b h w R) as (h1 & r & l & -> & R1 & _ & m & P).
  rewrite say_good by (destruct r; assumption).
  match goal with |- context [input_files E base good bad fs h1 ?w1] => destruct (IH b h1 w1 R1) as (h2 & w2 & -> & F & R2 & rs & m2 & P2) end.
  cbn [w_files] in F. do 2 eexists. split; [reflexivity|]. split; [exact F|]. split; [exact R2|].
  cbn [map process_input_files]. rewrite P.
  match type of P2 with ?a = _ => match goal with |- context [process_input_files ?x h1] => change (process_input_files x h1) with a end end.
  rewrite P2. eauto.
Qed.

Lemma sections_run base common shown ss : forall c w, reach true (Heap (copy_info c) c) ->
  (existsb (blocked base) (map snd ss) = false ->
     exists w', sections E base common shown ss c w = Go tt w' /\ same_but (flat_map (paths_of base) (map snd ss)) w w' /\
       has_all (flat_map (paths_of base) (map snd ss)) w w') /\
  (existsb (blocked base) (map snd ss) = true ->
     exists w', sections E base common shown ss c w = Stop w' /\ same_but (flat_map (paths_of base) (map snd ss)) w w').
Proof.
  induction ss as [|[fs [t o]] ss IH]; intros c w R; cbn [sections map existsb flat_map snd].
  { split; [|discriminate]. intros _. eexists. split; [reflexivity|]. split; [apply same_refl|now apply has_files]. }
  destruct (input_files_run base mn_189 mn_193 fs eq_refl eq_refl true _ w R) as (h & w1 & -> & F & R1 & _).
  destruct (output_run mn_230 shown t base (h_self h) (common ++ fs) o w1 eq_refl) as [A B].
  destruct (blocked base (t, o)); cbn [orb].
  - split; [discriminate|]. intros _. destruct (B eq_refl) as (w' & -> & F'). eexists. split; [reflexivity|].
    apply same_files. congruence.
  - destruct (A eq_refl) as (i' & w2 & -> & _ & S2 & H2).
    assert (R2 : reach true (Heap (copy_info (h_common h)) (h_common h))).
    { destruct h as [hs hc]. exact (R_next_section _ R1). }
    assert (S1 : same_but (paths_of base (t, o)) w w2).
    { intros q Q. rewrite (S2 q Q), F. reflexivity. }
    assert (H1 : has_all (paths_of base (t, o)) w w2) by (intros q; rewrite <- F; apply H2).
    destruct (IH (h_common h) w2 R2) as [X Y]. split; intros H.
    + destruct (X H) as (w3 & -> & S3 & H3). eexists. split; [reflexivity|]. split; [eapply same_trans|eapply has_trans]; eauto.
    + destruct (Y H) as (w3 & -> & S3). eexists. split; [reflexivity|]. eapply same_trans; eauto.
Qed.

Lemma conf_run p c w : e_conf E (content E p w) = CRead c ->
  (existsb (blocked (parent E p)) (outputs c) = false ->
     exists w', process_stfx_file E p w = Go 0%Z w' /\ same_but (flat_map (paths_of (parent E p)) (outputs c)) w w' /\
       has_all (flat_map (paths_of (parent E p)) (outputs c)) w w') /\
  (existsb (blocked (parent E p)) (outputs c) = true ->
     exists w', process_stfx_file E p w = Stop w' /\ same_but (flat_map (paths_of (parent E p)) (outputs c)) w w').
Proof.
  intros C. unfold process_stfx_file. rewrite C. unfold outputs. cbn [existsb flat_map].
  destruct (input_files_run (parent E p) mn_128 mn_132 (c_in c) eq_refl eq_refl false _ w R_start) as (h & w1 & -> & F & R1 & _).
  rewrite say_good by reflexivity. destruct (c_out c) as [t o].
  match goal with |- context [output E mn_172 ?sh t ?b ?i ?inp o ?w0] =>
    destruct (output_run mn_172 sh t b i inp o w0 eq_refl) as [A B] end.
  destruct (blocked (parent E p) (t, o)); cbn [orb].
  - split; [discriminate|]. intros _. destruct (B eq_refl) as (w' & -> & F'). eexists. split; [reflexivity|].
    apply same_files. cbn [w_files] in F'. congruence.
  - destruct (A eq_refl) as (i' & w2 & -> & I & S2 & H2).
    assert (R2 : reach true (Heap (copy_info i') i')).
    { destruct h as [hs hc]. cbn [h_self] in I. destruct I as [->| ->].
      - exact (R_first_section _ R1).
      - exact (R_first_section _ (R_top _ _ (R_fixup _ _ R1))). }
    assert (S1 : same_but (paths_of (parent E p) (t, o)) w w2).
    { intros q Q. rewrite (S2 q Q). cbn [w_files]. now rewrite F. }
    assert (H1 : has_all (paths_of (parent E p) (t, o)) w w2) by (intros q; rewrite <- F; apply H2).
    destruct (sections_run (parent E p) (c_in c) t (c_non c) i' w2 R2) as [X Y]. split; intros H.
    + destruct (X H) as (w3 & -> & S3 & H3). eexists. split; [reflexivity|]. split; [eapply same_trans|eapply has_trans]; eauto.
    + destruct (Y H) as (w3 & -> & S3). eexists. split; [reflexivity|]. eapply same_trans; eauto.
Qed.

(** *** The command line *)
Lemma ext_case p : String.eqb (extension E p) ".stfx" = false <-> extension E p <> ".stfx".
Proof. apply String.eqb_neq. Qed.

Lemma final_say (rv : Z) w : exists w', say (if (rv =? 0)%Z then mn_58 else mn_62) [zdec rv] w = Go tt w' /\ w_files w' = w_files w.
Proof. rewrite say_good by (destruct (rv =? 0)%Z; reflexivity). eexists. split; reflexivity. Qed.

Definition w_first : world := World [] [Line (line_text mn_24 [e_stamp E] ++ NL)].
Lemma start_say : say mn_24 [e_stamp E] (World [] []) = Go tt w_first.
Proof. rewrite say_good by reflexivity. reflexivity. Qed.

Lemma header_run argv0 a rest p : e_exists E a = true -> e_canonical E a = Some p -> extension E p <> ".stfx" ->
  exists r w, stfx E argv0 (a :: rest) = Go (if r : bool then 0%Z else 1%Z) w /\
  (r = true <-> good_input (e_disk E p)) /\
  exists info h m, stfx_info (e_stamp E) = Some info /\
    process_input_file (e_disk E p) (Heap info0 info0) = Some (h, r, m) /\
    let i := find_top (fst (fixup (h_self h))) in
    w_files w = if r then puts (enum_output E (parent E p) info i [file_name E p] single_spec ++
                                struct_output E B_xml_attrib (parent E p) info i [file_name E p] single_spec) []
                else [].
Proof.
  intros X C N. unfold stfx. rewrite start_say, X, C. apply ext_case in N as ->.
  destruct (single_run p w_first) as (r & w' & -> & G & info & h & m & SI & P & F).
  destruct (final_say (if r then 0 else 1)%Z w') as (w'' & -> & F'). exists r, w''. split; [reflexivity|]. split; [exact G|].
  exists info, h, m. split; [exact SI|]. split; [exact P|]. rewrite F'. exact F.
Qed.

Lemma missing_run argv0 a rest : e_exists E a = false -> exists w, stfx E argv0 (a :: rest) = Go 1%Z w /\ w_files w = [].
Proof. intros X. unfold stfx. rewrite start_say, X. rewrite say_good by reflexivity. eexists. split; reflexivity. Qed.
Lemma no_args_run argv0 : exists w, stfx E argv0 [] = Go 1%Z w /\ w_files w = [].
Proof. unfold stfx. rewrite start_say. rewrite say_good by reflexivity. eexists. split; reflexivity. Qed.
Lemma not_canonical argv0 a rest : e_exists E a = true -> e_canonical E a = None -> exists w, stfx E argv0 (a :: rest) = Stop w /\ w_files w = [].
Proof. intros X C. unfold stfx. rewrite start_say, X, C. eexists. split; reflexivity. Qed.

Lemma config_run argv0 a rest p : e_exists E a = true -> e_canonical E a = Some p -> extension E p = ".stfx" ->
  match e_conf E (e_disk E p) with
  | CFail => exists w, stfx E argv0 (a :: rest) = Go 1%Z w /\ w_files w = []
  | CStop => exists w, stfx E argv0 (a :: rest) = Stop w /\ w_files w = []
  | CRead c =>
      exists w, stfx E argv0 (a :: rest) = (if existsb (blocked (parent E p)) (outputs c) then Stop w else Go 0%Z w) /\
      (forall q, Cpp.assoc q (w_files w) <> None -> In q (flat_map (paths_of (parent E p)) (outputs c))) /\
      (existsb (blocked (parent E p)) (outputs c) = false ->
       forall q, In q (flat_map (paths_of (parent E p)) (outputs c)) -> Cpp.assoc q (w_files w) <> None)
  end.
Proof.
  intros X C N. unfold stfx. rewrite start_say, X, C, N. change (String.eqb ".stfx" ".stfx") with true. cbn iota.
  assert (D : content E p w_first = e_disk E p) by reflexivity.
  assert (W : forall l w, same_but l w_first w -> forall q, Cpp.assoc q (w_files w) <> None -> In q l).
  { intros l w S q Q. destruct (in_dec string_dec q l) as [I|I]; [exact I|]. exfalso. apply Q. rewrite (S q I). reflexivity. }
  destruct (e_conf E (e_disk E p)) as [|c|] eqn:EC.
  - unfold process_stfx_file. rewrite D, EC. rewrite say_good by reflexivity.
    match goal with |- context [say _ [zdec 1] ?w0] => destruct (final_say 1 w0) as (w & H & F) end.
    cbn [Z.eqb] in H. cbn [Z.eqb Pos.eqb]. rewrite H. exists w. split; [reflexivity|]. rewrite F. reflexivity.
  - destruct (conf_run p c w_first) as [A B]; [rewrite D; exact EC|].
    destruct (existsb (blocked (parent E p)) (outputs c)).
    + destruct (B eq_refl) as (w' & -> & S). exists w'. split; [reflexivity|]. split; [apply W, S|discriminate].
    + destruct (A eq_refl) as (w' & -> & S & HA). destruct (final_say 0 w') as (w'' & H & F). rewrite H.
      exists w''. split; [reflexivity|]. split; [|intros _ q Q; rewrite F; apply HA; auto].
      apply W. intros q Q. rewrite F. apply S, Q.
  - unfold process_stfx_file. rewrite D, EC. exists w_first. split; reflexivity.
Qed.

(** *** Content of the files *)
Lemma suffix_neq x y a b : (x ++ String a "cpp")%string <> (y ++ String b "h")%string.
Proof.
  intros H. apply (f_equal last_chr) in H. rewrite !last_app in H by discriminate. discriminate.
Qed.
Lemma append_inj_r s : forall a b, (a ++ s)%string = (b ++ s)%string -> a = b.
Proof.
  assert (L : forall a b, String.length (a ++ b) = (String.length a + String.length b)%nat) by (intros a b; induction a; cbn; congruence).
  induction a as [|c a IH]; intros [|d b] H; auto.
  - apply (f_equal String.length) in H. rewrite !L in H. cbn in H. lia.
  - apply (f_equal String.length) in H. rewrite !L in H. cbn in H. lia.
  - cbn in H. injection H as -> H. f_equal. auto.
Qed.

Lemma two_files_last cpp h a b : cpp <> h -> e_write E cpp = true -> e_write E h = true -> forall old,
  last_put cpp (two_files E cpp h a b) old = Some a /\ last_put h (two_files E cpp h a b) old = Some b.
Proof.
  intros N W1 W2 old. unfold two_files. rewrite W1, W2. unfold last_put. cbn [fold_left fst snd].
  rewrite !String.eqb_refl. assert (N' : h <> cpp) by congruence. apply String.eqb_neq in N, N'. rewrite ?N, ?N'. split; reflexivity.
Qed.

(** The four files after process_items: all four can be written, the names are ordinary
    and different. *)
Lemma written b base i inputs o w info d : usual_sep E -> stfx_info (e_stamp E) = Some info -> dir_for E base o = Some d ->
  let i2 := find_top (fst (fixup i)) in
  let ec := (join E d (o_enum_file o) ++ ".cpp")%string in let eh := (join E d (o_enum_file o) ++ ".h")%string in
  let sc := (join E d (o_structs_file o) ++ ".cpp")%string in let sh := (join E d (o_structs_file o) ++ ".h")%string in
  exists w', process_items E b base i inputs o w = Go (i2, snd (fixup i) && struct_ok_result E b d i2 o)%bool w' /\
  (skipped (o_enum_file o) = false -> names_file E (o_enum_file o) = true -> e_write E ec = true -> e_write E eh = true ->
   (skipped (o_structs_file o) = true \/ names_file E (o_structs_file o) = true /\ join E d (o_enum_file o) <> join E d (o_structs_file o)) ->
   let cs := enum_files i2 inputs (file_name E ec) (file_name E eh) info in
   Cpp.assoc ec (w_files w') = render T_cpp cs /\ Cpp.assoc eh (w_files w') = render T_h cs) /\
  (skipped (o_structs_file o) = false -> names_file E (o_structs_file o) = true -> e_write E sc = true -> e_write E sh = true ->
   let cs := fst (struct_files b i2 inputs o (file_name E sc) (file_name E sh) info) in
   Cpp.assoc sc (w_files w') = render T_cpp cs /\ Cpp.assoc sh (w_files w') = render T_h cs).
Proof.
  intros U SI D i2 ec eh sc sh.
  destruct (process_items_spec E b base i inputs o w info SI) as [(d' & D' & l & ->)|[D' _]]; [|congruence].
  rewrite D in D'. injection D' as <-. eexists. split; [reflexivity|]. cbn [w_files]. fold i2. split.
  - intros S N W1 W2 O. set (cs := enum_files i2 inputs (file_name E ec) (file_name E eh) info). destruct (paths E d _ U N) as [P1 P2]. rewrite !assoc_puts, !last_put_app.
    assert (X : forall q, q = ec \/ q = eh -> ~ In q (map fst (struct_output E b d info i2 inputs o))).
    { intros q Q H. unfold struct_output in H. destruct O as [O|[O1 O2]].
      - rewrite O in H. exact H.
      - destruct (skipped (o_structs_file o)); [exact H|]. apply two_files_paths in H.
        destruct (paths E d _ U O1) as [Q1 Q2]. rewrite Q1, Q2 in H.
        unfold ec, eh in Q. destruct Q as [->| ->], H as [H|H]; try (now apply suffix_neq in H); try (symmetry in H; now apply suffix_neq in H);
          now apply append_inj_r in H. }
    rewrite !(last_put_none _ (struct_output _ _ _ _ _ _ _)) by (apply X; auto).
    unfold enum_output. rewrite S, P1, P2. fold ec eh cs.
    destruct (two_files_last ec eh (text_to T_cpp cs) (text_to T_h cs) (suffix_neq _ _ _ _) W1 W2 (Cpp.assoc ec (w_files w))) as [A _].
    destruct (two_files_last ec eh (text_to T_cpp cs) (text_to T_h cs) (suffix_neq _ _ _ _) W1 W2 (Cpp.assoc eh (w_files w))) as [_ B].
    rewrite A, B. unfold text_to. pose proof (good_enum_files i2 inputs (file_name E ec) (file_name E eh) info) as GC. fold cs in GC.
    destruct (render_good T_cpp cs GC) as [x ->]. destruct (render_good T_h cs GC) as [y ->]. split; reflexivity.
  - intros S N W1 W2. set (cs := fst (struct_files b i2 inputs o (file_name E sc) (file_name E sh) info)). destruct (paths E d _ U N) as [P1 P2]. rewrite !assoc_puts, !last_put_app.
    unfold struct_output. rewrite S, P1, P2. fold sc sh cs.
    match goal with |- last_put sc _ ?x = _ /\ last_put sh _ ?y = _ =>
      destruct (two_files_last sc sh (text_to T_cpp cs) (text_to T_h cs) (suffix_neq _ _ _ _) W1 W2 x) as [A _];
      destruct (two_files_last sc sh (text_to T_cpp cs) (text_to T_h cs) (suffix_neq _ _ _ _) W1 W2 y) as [_ B] end.
    rewrite A, B. unfold text_to. pose proof (good_struct_files b i2 inputs o (file_name E sc) (file_name E sh) info) as GC. fold cs in GC.
    destruct (render_good T_cpp cs GC) as [x ->]. destruct (render_good T_h cs GC) as [y ->]. split; reflexivity.
Qed.

(** Same name for both: the struct file is what remains. *)
Lemma same_name_overwrites b base i inputs o w info d : usual_sep E -> stfx_info (e_stamp E) = Some info -> dir_for E base o = Some d ->
  o_enum_file o = o_structs_file o -> skipped (o_structs_file o) = false -> names_file E (o_structs_file o) = true ->
  let sc := (join E d (o_structs_file o) ++ ".cpp")%string in let sh := (join E d (o_structs_file o) ++ ".h")%string in
  e_write E sc = true -> e_write E sh = true ->
  let i2 := find_top (fst (fixup i)) in
  let cs := fst (struct_files b i2 inputs o (file_name E sc) (file_name E sh) info) in
  exists r w', process_items E b base i inputs o w = Go (i2, r) w' /\
  Cpp.assoc sc (w_files w') = render T_cpp cs /\ Cpp.assoc sh (w_files w') = render T_h cs /\
  forall q, q <> sc -> q <> sh -> Cpp.assoc q (w_files w') = Cpp.assoc q (w_files w).
Proof.
  intros U SI D EQ S N sc sh W1 W2 i2 cs.
  destruct (process_items_spec E b base i inputs o w info SI) as [(d' & D' & l & ->)|[D' _]]; [|congruence].
  rewrite D in D'. injection D' as <-. do 2 eexists. split; [reflexivity|]. cbn [w_files].
  destruct (paths E d _ U N) as [P1 P2]. split; [|split].
  - rewrite !assoc_puts, !last_put_app. unfold struct_output. rewrite S, P1, P2. fold sc sh i2 cs.
    rewrite (proj1 (two_files_last sc sh _ _ (suffix_neq _ _ _ _) W1 W2 _)).
    unfold text_to. destruct (render_good T_cpp cs (good_struct_files _ _ _ _ _ _ _)) as [x ->]. reflexivity.
  - rewrite !assoc_puts, !last_put_app. unfold struct_output. rewrite S, P1, P2. fold sc sh i2 cs.
    rewrite (proj2 (two_files_last sc sh _ _ (suffix_neq _ _ _ _) W1 W2 _)).
    unfold text_to. destruct (render_good T_h cs (good_struct_files _ _ _ _ _ _ _)) as [x ->]. reflexivity.
  - intros q Q1 Q2. rewrite assoc_puts. apply last_put_none. intros H. apply output_paths in H. unfold pair_paths in H.
    rewrite EQ, S, P1, P2 in H. fold sc sh in H. rewrite W1, W2 in H. cbn in H. intuition.
Qed.

(** The second file cannot be opened: the first is empty. *)
Lemma half_written b base i inputs o w info d : usual_sep E -> stfx_info (e_stamp E) = Some info -> dir_for E base o = Some d ->
  skipped (o_structs_file o) = false -> names_file E (o_structs_file o) = true ->
  let sc := (join E d (o_structs_file o) ++ ".cpp")%string in let sh := (join E d (o_structs_file o) ++ ".h")%string in
  e_write E sc = true -> e_write E sh = false ->
  exists i' w', process_items E b base i inputs o w = Go (i', false) w' /\ Cpp.assoc sc (w_files w') = Some ""%string.
Proof.
  intros U SI D S N sc sh W1 W2.
  destruct (process_items_spec E b base i inputs o w info SI) as [(d' & D' & l & ->)|[D' _]]; [|congruence].
  rewrite D in D'. injection D' as <-. do 2 eexists. split.
  - unfold struct_ok_result. destruct (paths E d _ U N) as [P1 P2]. rewrite S, P1, P2. fold sc sh. rewrite W2.
    rewrite andb_false_r. cbn [orb andb]. rewrite andb_false_r. reflexivity.
  - cbn [w_files]. destruct (paths E d _ U N) as [P1 P2]. rewrite assoc_puts, last_put_app. unfold struct_output. rewrite S, P1, P2. fold sc sh.
    unfold two_files. rewrite W1, W2. unfold last_put. cbn [fold_left fst snd]. now rewrite String.eqb_refl.
Qed.
End Run.
