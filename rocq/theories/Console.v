(** What a run prints, apart from what the scanner, the parser and the store print while a file
    is read. *)
From Coq Require Import String Ascii ZArith NArith Arith List Bool Lia.
From Verif Require Import Base Map Flex Items Bison Grammar ParseLang Store Resolve Fmt Decimal Templates MainTemplates
  Emit Val StoreProps StoreDefs Main MainProps RunProps.
Import ListNotations.
Local Open Scope string_scope.
Local Open Scope list_scope.

(** *** The texts *)
Definition TAB : string := String tab "".
Definition ln (s : string) : string := (s ++ NL)%string.
Definition nonempty (s : string) : bool := negb (String.eqb s "").
(** The lines of the program itself. *)
Definition own (l : list entry) : list string := filter nonempty (flat_map (fun e => match e with Line s => [s] | Parser _ => [] end) l).

Definition tell_opened (p : string) (there : bool) : string :=
  if there then ln (NL ++ "File opened for input:" ++ TAB ++ TAB ++ p) else ln ("ERROR: could not open file for reading: " ++ p ++ NL).
Definition tell_parsed (p : string) (good : bool) : string :=
  if good then ln ("Successfully parsed file:" ++ TAB ++ p) else ln ("ERROR : failed to process " ++ p).
Definition there (f : option bytes) : bool := if f then true else false.

(** Members that no code is generated for. *)
Definition tell_member (b : backend) (m : struct_complex) : string :=
  match b, sc_type m with
  | B_ini, _ => ""
  | _, unknown_E => ln (TAB ++ "// WARNING FAILED TO PROCESS " ++ sc_name m)
  | _, enum_or_struct_E => ln ("// enum_or_struct_E " ++ sc_name m ++ TAB ++ " NEEDS TO BE FIXED!!")
  | B_n_ini, vector_E => ln ("// vector " ++ sc_name m ++ TAB ++ " within structure NOT SUPPORTED by n_ini")
  | _, _ => ""
  end.
Definition tell_members (b : backend) (ss : list struct_S) : string :=
  String.concat "" (map (tell_member b) (flat_map s_complex ss)).
(** Once for the reader, once for the writer. *)
Definition tell_structs (b : backend) (o : output_spec) (ss : list struct_S) : string :=
  (tell_members b ss ++ if o_only_read o then "" else tell_members b ss)%string.

Section Run.
Variable E : env.
Definition tell_failed (p : string) : string := ln (NL ++ "ERROR : Failed to open output file " ++ file_name E p).
Definition tell_pair (cpp_text h_text cpp h warnings : string) : list string :=
  if e_write E cpp then
    (cpp_text ++ cpp ++ NL)%string :: (if e_write E h then [(h_text ++ h ++ NL)%string; warnings] else [tell_failed h])
  else [tell_failed cpp].
Definition tell_enums (d : string) (o : output_spec) : list string :=
  if skipped (o_enum_file o) then [ln "Not generating enum information at this point"]
  else tell_pair ("Opened enum .cpp file :" ++ TAB ++ TAB) ("Opened enum .h file :" ++ TAB ++ TAB) (cpp_path E d (o_enum_file o)) (h_path E d (o_enum_file o)) "".
Definition kind_text (b : backend) : string := match b with B_xml | B_xml_attrib => "xml" | _ => "ini" end.
Definition tell_structs_files (b : backend) (d : string) (i : info) (o : output_spec) : list string :=
  if skipped (o_structs_file o) then [ln "Not generating struct information at this point"]
  else tell_pair ("Opened " ++ kind_text b ++ " struct .cpp file :" ++ TAB) ("Opened " ++ kind_text b ++ " struct .h file :" ++ TAB)
         (cpp_path E d (o_structs_file o)) (h_path E d (o_structs_file o)) (tell_structs b o (map snd (i_structs i))).
(** [d]: the directory. *)
Definition tell_items (b : backend) (d : string) (i : info) (o : output_spec) : list string :=
  ln (NL ++ "Starting to create output.") :: tell_enums d o ++ tell_structs_files b d (find_top (fst (fixup i))) o.
Definition tell_output (shown t : Z) (base : string) (i : info) (o : output_spec) : list string :=
  match backend_of t with
  | Some b => tell_items b (match dir_for E base o with Some d => d | None => "" end) i o
  | None => [ln ("ERROR : output type " ++ e_type_name E shown ++ " not currently supported")]
  end.

(** *** The run prints them *)
Lemma own_app a b : own (a ++ b) = own a ++ own b.
Proof. unfold own. now rewrite flat_map_app, filter_app. Qed.
Lemma own_cons a l : own (a :: l) = own [a] ++ own l.
Proof. exact (own_app [a] l). Qed.
Definition says (w w' : world) (l : list string) : Prop := exists x, w_log w' = w_log w ++ x /\ own x = filter nonempty l.
Lemma says_refl w w' : w_log w' = w_log w -> says w w' [].
Proof. intros H. exists []. rewrite app_nil_r. auto. Qed.
Lemma says_trans w w1 w2 a b : says w w1 a -> says w1 w2 b -> says w w2 (a ++ b).
Proof. intros (x & X & X1) (y & Y & Y1). exists (x ++ y). rewrite Y, X, app_assoc, own_app, filter_app, X1, Y1. auto. Qed.
Lemma says_line t args w s : fits_args t (length args) = true -> (line_text t args ++ NL)%string = s ->
  exists w', say t args w = Go tt w' /\ w_files w' = w_files w /\ says w w' [s].
Proof.
  intros F <-. rewrite say_good by exact F. eexists. split; [reflexivity|]. split; [reflexivity|]. eexists. split; [reflexivity|].
  unfold own. cbn [flat_map app]. reflexivity.
Qed.
Lemma says_put w w' p s l : says (put_file p s w) w' l -> says w w' l.
Proof. exact (fun H => H). Qed.

Definition printed_to (to : target) (c : cmd) : list string := if to_eqb (c_to c) to then [(line_text (c_t c) (c_args c) ++ NL)%string] else [].
Lemma concat_app a b : String.concat "" (a ++ b) = (String.concat "" a ++ String.concat "" b)%string.
Proof.
  induction a as [|x a IH]; [reflexivity|]. cbn [app]. rewrite !concat_cons, IH, append_assoc. reflexivity.
Qed.
Lemma render_printed to cs : Forall good_cmd cs -> render to cs = Some (String.concat "" (flat_map (printed_to to) cs)).
Proof.
  induction 1 as [|c cs H _ IH]; [reflexivity|]. cbn [render flat_map]. rewrite IH, concat_app. set (rest := String.concat "" (flat_map _ cs)). clearbody rest. unfold printed_to.
  destruct (to_eqb _ _); [|reflexivity]. rewrite (println_fits _ _ H). reflexivity.
Qed.
Definition quiet (cs : list cmd) : Prop := flat_map (printed_to T_out) cs = [].
Lemma quiet_app a b : quiet a -> quiet b -> quiet (a ++ b).
Proof. unfold quiet. intros A B. now rewrite flat_map_app, A, B. Qed.
Lemma quiet_flat {A} (f : A -> list cmd) l : (forall x, quiet (f x)) -> quiet (flat_map f l).
Proof. intros H. induction l as [|x l IH]; [reflexivity|]. cbn [flat_map]. now apply quiet_app. Qed.
Lemma quiet_map {A} (f : A -> cmd) l : (forall x, c_to (f x) <> T_out) -> quiet (map f l).
Proof. intros H. induction l as [|x l IH]; [reflexivity|]. unfold quiet in *. cbn. rewrite IH. specialize (H x). unfold printed_to. destruct (c_to (f x)); try reflexivity. contradiction. Qed.
Ltac hush := repeat match goal with
  | |- quiet (_ ++ _) => apply quiet_app
  | |- quiet (flat_map _ _) => apply quiet_flat; intros
  | |- quiet (map _ _) => apply quiet_map; intros
  | |- quiet (if ?b then _ else _) => destruct b
  | |- quiet (match ?x with _ => _ end) => destruct x
  | |- quiet _ => reflexivity
  end.
Lemma quiet_enums i inputs cpp h s : quiet (enum_files i inputs cpp h s).
Proof.
  unfold enum_files, includes. hush; try (cbn; discriminate). unfold process_enum. hush; destruct (e_class x); cbn; discriminate.
Qed.
Lemma text_members b (f : struct_complex -> list cmd) ms : (forall m, String.concat "" (flat_map (printed_to T_out) (f m)) = tell_member b m) ->
  String.concat "" (flat_map (printed_to T_out) (flat_map f ms)) = String.concat "" (map (tell_member b) ms).
Proof. intros H. induction ms as [|m ms IH]; [reflexivity|]. cbn [flat_map map]. rewrite flat_map_app, concat_app, H, IH, concat_cons. reflexivity. Qed.
Lemma append_empty (a : string) : (a ++ "")%string = a.
Proof. induction a as [|c a IH]; [reflexivity|]. cbn. now rewrite IH. Qed.
Lemma text_quiet a c d f b ms : quiet a -> quiet c -> d = a ++ flat_map f ms ++ c ->
  (forall m, String.concat "" (flat_map (printed_to T_out) (f m)) = tell_member b m) ->
  String.concat "" (flat_map (printed_to T_out) d) = String.concat "" (map (tell_member b) ms).
Proof.
  intros A C -> H. rewrite !flat_map_app, !concat_app, (text_members b f ms H), A, C. cbn [String.concat append]. apply append_empty.
Qed.
Lemma reader_out b s cls : String.concat "" (flat_map (printed_to T_out) (fst (struct_reader b s cls))) = String.concat "" (map (tell_member b) (s_complex s)).
Proof.
  destruct b; cbn [struct_reader].
  - unfold xa_reader. cbn [fst]. rewrite !app_assoc. eapply text_quiet; [| |rewrite <- app_assoc; reflexivity|].
    + hush. all: try (unfold xa_read_simple; hush).
    + hush.
    + intros m. unfold tell_member, xa_read_complex. destruct (sc_type m); reflexivity.
  - unfold xm_reader. cbn [fst]. rewrite !app_assoc. eapply text_quiet; [| |rewrite <- app_assoc; reflexivity|].
    + hush. all: try (unfold xm_read_simple; hush).
    + hush.
    + intros m. unfold tell_member, xm_read_complex. destruct (sc_type m); reflexivity.
  - cbn. rewrite (map_ext _ (fun _ => "")) by (intros; reflexivity). clear. induction (s_complex s) as [|m l IH]; [reflexivity|]. cbn [map]. rewrite concat_cons, <- IH. reflexivity.
  - unfold ni_reader. cbn [fst]. rewrite !app_assoc. eapply text_quiet; [| |rewrite <- app_assoc; reflexivity|].
    + hush. all: try (unfold ni_read_enum; hush); cbn; discriminate.
    + hush.
    + intros m. unfold tell_member, ni_read_complex. destruct (sc_type m); reflexivity.
Qed.
Lemma writer_out b s cls nd : String.concat "" (flat_map (printed_to T_out) (fst (struct_writer b s cls nd))) = String.concat "" (map (tell_member b) (s_complex s)).
Proof.
  destruct b; cbn [struct_writer].
  - unfold xa_writer. cbn [fst]. rewrite !app_assoc. eapply text_quiet; [| |rewrite <- app_assoc; reflexivity|].
    + hush. all: try (unfold xa_write_simple; hush).
    + hush.
    + intros m. unfold tell_member, xa_write_complex. destruct (sc_type m); reflexivity.
  - unfold xm_writer. cbn [fst]. rewrite !app_assoc. eapply text_quiet; [| |rewrite <- app_assoc; reflexivity|].
    + hush. all: try (unfold xm_write_simple; hush).
    + hush.
    + intros m. unfold tell_member, xm_write_complex. destruct (sc_type m); reflexivity.
  - cbn. rewrite (map_ext _ (fun _ => "")) by (intros; reflexivity). clear. induction (s_complex s) as [|m l IH]; [reflexivity|]. cbn [map]. rewrite concat_cons, <- IH. reflexivity.
  - unfold ni_writer. cbn [fst]. rewrite !app_assoc. eapply text_quiet; [| |rewrite <- app_assoc; reflexivity|].
    + hush. all: try (unfold ni_write_simple; destruct (ss_type x); cbn; discriminate).
    + hush.
    + intros m. unfold tell_member, ni_write_complex. destruct (sc_type m); reflexivity.
Qed.
Lemma structs_out b ss (f : struct_S -> list cmd) : (forall s, String.concat "" (flat_map (printed_to T_out) (f s)) = String.concat "" (map (tell_member b) (s_complex s))) ->
  String.concat "" (flat_map (printed_to T_out) (flat_map f ss)) = tell_members b ss.
Proof.
  intros H. unfold tell_members. induction ss as [|s ss IH]; [reflexivity|]. cbn [flat_map map]. rewrite flat_map_app, map_app, !concat_app, H, IH. reflexivity.
Qed.
Lemma quiet_entries th tc cls ss : quiet (entries th tc cls ss).
Proof. unfold entries. hush. Qed.
Lemma files_out b i inputs o cpp h s : text_to T_out (fst (struct_files b i inputs o cpp h s)) = tell_structs b o (map snd (i_structs i)).
Proof.
  unfold text_to. rewrite (render_printed T_out _ (good_struct_files b i inputs o cpp h s)). unfold struct_files. cbn [fst].
  rewrite !flat_map_app, !concat_app.
  assert (Q : forall l, quiet l -> String.concat "" (flat_map (printed_to T_out) l) = "") by (intros l ->; reflexivity).
  assert (L : quiet (map (fun x => Cmd T_cpp x []) (t_lib_cpp (templates_of b) (o_only_read o)))) by (apply quiet_map; cbn; discriminate).
  assert (I1 : quiet (includes T_cpp (t_in_cpp (templates_of b)) inputs)) by (unfold includes; hush; cbn; discriminate).
  assert (I2 : quiet (includes T_h (t_in_h (templates_of b)) inputs)) by (unfold includes; hush; cbn; discriminate).
  rewrite (structs_out b _ (fun s0 => fst (struct_reader b s0 (o_reader o)))) by (intros; apply reader_out).
  rewrite (Q _ L), (Q _ I1), (Q _ I2), (Q _ (quiet_entries _ _ _ _)).
  unfold tell_structs. destruct (o_only_read o).
  - destruct (skipped (o_enum_file o)); cbn [flat_map printed_to to_eqb c_to app String.concat append]; reflexivity.
  - rewrite !flat_map_app, !concat_app. rewrite (structs_out b _ (fun s0 => fst (struct_writer b s0 (o_writer o) (o_no_delta o)))) by (intros; apply writer_out).
    rewrite (Q _ (quiet_entries _ _ _ _)).
    destruct (skipped (o_enum_file o)); cbn [flat_map printed_to to_eqb c_to app String.concat append]; now rewrite append_empty.
Qed.

Lemma open_says cpp h t1 t2 t3 t4 a b cs ok fail w :
  fits_args t1 1 = true -> fits_args t2 1 = true -> fits_args t3 1 = true -> fits_args t4 1 = true -> Forall good_cmd cs ->
  (forall x, line_text t1 [x] = (a ++ x)%string) -> (forall x, line_text t2 [x] = (b ++ x)%string) ->
  (forall x, line_text t3 [x] = (NL ++ "ERROR : Failed to open output file " ++ x)%string) ->
  (forall x, line_text t4 [x] = (NL ++ "ERROR : Failed to open output file " ++ x)%string) ->
  exists r w', open_both E cpp h t1 t2 t3 t4 cs ok fail w = Go r w' /\ says w w' (tell_pair a b cpp h (text_to T_out cs)).
Proof.
  intros A B C D G TA TB TC TD. unfold open_both, tell_pair, tell_failed, ln. destruct (e_write E cpp).
  2:{ destruct (says_line t4 [file_name E cpp] w _ D eq_refl) as (w1 & -> & _ & S). rewrite TD in S. eauto. }
  destruct (says_line t1 [cpp] (put_file cpp "" w) _ A eq_refl) as (w1 & -> & _ & S1). apply says_put in S1. rewrite TA, append_assoc in S1.
  destruct (e_write E h).
  2:{ destruct (says_line t3 [file_name E h] w1 _ C eq_refl) as (w2 & -> & _ & S2). rewrite TC in S2. do 2 eexists. split; [reflexivity|].
      exact (says_trans _ _ _ _ _ S1 S2). }
  destruct (says_line t2 [h] (put_file h "" w1) _ B eq_refl) as (w2 & -> & _ & S2). apply says_put in S2. rewrite TB, append_assoc in S2.
  unfold write_all, text_to. destruct (render_good T_cpp cs G) as [x ->]. destruct (render_good T_h cs G) as [y ->]. destruct (render_good T_out cs G) as [z ->].
  do 2 eexists. split; [reflexivity|]. apply (says_trans _ _ _ _ [_; z] S1). apply (says_trans _ _ _ _ [z] S2).
  eexists. split; [reflexivity|]. unfold own. cbn [flat_map app]. reflexivity.
Qed.
Lemma own_text t args s : fits_args t (length args) = true -> line_text t args = s -> forall w, exists w', say t args w = Go tt w' /\ w_files w' = w_files w /\ says w w' [ln s].
Proof. intros F <- w. now apply says_line. Qed.
Lemma quiet_text cs : Forall good_cmd cs -> quiet cs -> text_to T_out cs = "".
Proof. intros G Q. unfold text_to. now rewrite (render_printed _ _ G), Q. Qed.
Lemma items_say b base i inputs o w d : dir_for E base o = Some d -> exists r w',
  process_items E b base i inputs o w = Go (find_top (fst (fixup i)), r) w' /\ says w w' (tell_items b d i o).
Proof.
  intros D. unfold process_items. destruct (stamp_text E) as [info ->].
  destruct (own_text pi_32 [] _ eq_refl eq_refl w) as (w1 & -> & _ & S1). 
  rewrite (surjective_pairing (fixup i)). cbn [fst snd]. set (i2 := find_top (fst (fixup i))).
  assert (X : exists r w2, (if skipped (o_enum_file o) then run (_, w) <- say pi_38 [] w1; Go true w
                else process_all_enums E base info i2 inputs o w1) = Go r w2 /\ says w1 w2 (tell_enums d o)).
  { unfold tell_enums. destruct (skipped (o_enum_file o)).
    - destruct (own_text pi_38 [] _ eq_refl eq_refl w1) as (w2 & -> & _ & S2). eauto.
    - unfold process_all_enums. rewrite out_dir_spec, D. cbn zeta.
      set (cs := enum_files i2 inputs _ _ info). assert (Q : text_to T_out cs = "") by (apply quiet_text; [apply good_enum_files|apply quiet_enums]).
      pose proof (open_says (cpp_path E d (o_enum_file o)) (h_path E d (o_enum_file o)) pi_79 pi_84 pi_129 pi_135
        ("Opened enum .cpp file :" ++ TAB ++ TAB) ("Opened enum .h file :" ++ TAB ++ TAB) cs true true w1) as X. rewrite Q in X.
      apply X; try reflexivity; apply good_enum_files. }
  destruct X as (r2 & w2 & -> & S2).
  assert (X : exists r w3, (if skipped (o_structs_file o) then run (_, w) <- say pi_46 [] w2; Go true w
                else process_all_structs E b base info i2 inputs o w2) = Go r w3 /\ says w2 w3 (tell_structs_files b d i2 o)).
  { unfold tell_structs_files. destruct (skipped (o_structs_file o)).
    - destruct (own_text pi_46 [] _ eq_refl eq_refl w2) as (w3 & -> & _ & S3). eauto.
    - unfold process_all_structs. rewrite out_dir_spec, D. cbn zeta.
      rewrite <- (files_out b i2 inputs o (file_name E (cpp_path E d (o_structs_file o))) (file_name E (h_path E d (o_structs_file o))) info).
      destruct (templates_fit b) as (F1 & F2 & F3 & F4).
      apply open_says; auto; [apply good_struct_files|..]; intros x; destruct b; cbn; rewrite ?append_empty; reflexivity. }
  destruct X as (r3 & w3 & -> & S3). do 2 eexists. split; [reflexivity|].
  unfold tell_items. fold i2. apply (says_trans _ _ _ [_] _ S1). exact (says_trans _ _ _ _ _ S2 S3).
Qed.
(** The store that is left, for the sections that follow. *)
Definition after_output (t : Z) (i : info) : info := match backend_of t with Some _ => find_top (fst (fixup i)) | None => i end.
Lemma output_says msg shown t base i inputs o w : msg = mn_172 \/ msg = mn_230 -> blocked E base (t, o) = false -> exists w',
  output E msg shown t base i inputs o w = Go (after_output t i) w' /\ says w w' (tell_output shown t base i o).
Proof.
  intros M B. unfold output, tell_output, after_output. unfold blocked in B. destruct (backend_of t) as [b|].
  - destruct (dir_for E base o) as [d|] eqn:D.
    + destruct (items_say b base i inputs o w d D) as (r & w' & -> & S). eauto.
    + apply negb_false_iff, andb_prop in B as [S1 S2]. unfold process_items. destruct (stamp_text E) as [info ->].
      destruct (own_text pi_32 [] _ eq_refl eq_refl w) as (w1 & -> & _ & T1).
      rewrite (surjective_pairing (fixup i)), S1, S2.
      destruct (own_text pi_38 [] _ eq_refl eq_refl w1) as (w2 & -> & _ & T2).
      destruct (own_text pi_46 [] _ eq_refl eq_refl w2) as (w3 & -> & _ & T3). eexists. split; [reflexivity|].
      unfold tell_items, tell_enums, tell_structs_files. rewrite S1, S2. apply (says_trans _ _ _ [_] _ T1). exact (says_trans _ _ _ _ _ T2 T3).
  - destruct (own_text msg [e_type_name E shown] ("ERROR : output type " ++ e_type_name E shown ++ " not currently supported") ltac:(destruct M as [->| ->]; reflexivity)
      ltac:(destruct M as [->| ->]; cbn; rewrite ?append_empty; reflexivity) w) as (w1 & -> & _ & S1). eauto.
Qed.
(** *** Input files *)
Fixpoint tell_inputs (base : string) (fs : list string) (rs : list bool) : list string :=
  match fs, rs with
  | f :: fs, r :: rs => let p := join E base f in tell_opened p (there (e_disk E p)) :: tell_parsed p r :: tell_inputs base fs rs
  | _, _ => []
  end.
Definition disk_of (base : string) (fs : list string) : list (option bytes) := map (fun f => e_disk E (join E base f)) fs.
Lemma outs_inner o : forall h h' m, run_outs o h = Some (h', m) -> Forall (fun x => match x with SOpen _ => False | _ => True end) m.
Proof.
  induction o as [|x o IH]; intros h h' m; cbn [run_outs]; [intros [= _ <-]; constructor|]. destruct x as [e|c|t].
  - destruct (run_outs o h) as [[h1 m1]|] eqn:R; [|discriminate]. intros [= _ <-]. constructor; [exact I|eauto].
  - destruct (apply_call c h) as [[[h1 r] m1]|]; [|discriminate]. destruct (run_outs o h1) as [[h2 m2]|] eqn:R; [|discriminate].
    intros [= _ <-]. apply Forall_app. split; [|eauto]. apply Forall_forall. intros y Y. apply in_map_iff in Y as (z & <- & _). exact I.
  - destruct (run_outs o h) as [[h1 m1]|] eqn:R; [|discriminate]. intros [= _ <-]. constructor; [exact I|eauto].
Qed.
Lemma inner_log p m : Forall (fun x => match x with SOpen _ => False | _ => True end) m -> forall l, log_all p m = Some l -> own l = [].
Proof.
  induction 1 as [|x m X _ IH]; intros l; cbn [log_all]; [intros [= <-]; reflexivity|].
  destruct x; try contradiction; cbn [log_said]; (destruct (log_all p m) as [l'|]; [|discriminate]); intros [= <-]; exact (IH l' eq_refl).
Qed.
Lemma input_says p b h w : reach b h -> Cpp.assoc p (w_files w) = None -> exists h' r m w',
  input_file E p h w = Go (h', r) w' /\ process_input_file (e_disk E p) h = Some (h', r, m) /\ reach b h' /\ (r = true <-> good_input (e_disk E p)) /\
  w_files w' = w_files w /\ says w w' [tell_opened p (there (e_disk E p))].
Proof.
  intros R N. destruct (input_result (e_disk E p) b h R) as (h' & r & m & P & R' & G). unfold input_file.
  assert (C : content E p w = e_disk E p) by (unfold content; now rewrite N). rewrite C, P.
  destruct (log_all_ok p m) as [l L]. rewrite L. do 4 eexists. split; [reflexivity|]. split; [reflexivity|]. split; [exact R'|]. split; [exact G|]. split; [reflexivity|].
  exists l. split; [reflexivity|]. destruct (e_disk E p) as [cs|]; cbn [process_input_file] in P.
  - destruct (parse_bytes (8 * length cs + 11) cs) as [[o rv]|]; [|discriminate]. destruct (run_outs o h) as [[h1 m1]|] eqn:RO; [|discriminate].
    injection P as _ _ <-. cbn [log_all log_said] in L. rewrite println_fits in L by reflexivity. destruct (log_all p m1) as [l1|] eqn:L1; [|discriminate].
    injection L as <-. rewrite own_cons, (inner_log p m1 (outs_inner _ _ _ _ RO) l1 L1). reflexivity.
  - injection P as _ _ <-. cbn [log_all log_said] in L. rewrite println_fits in L by reflexivity. injection L as <-. unfold tell_opened, there, own, ln. cbn. rewrite !append_assoc. reflexivity.
Qed.
Lemma inputs_say base good bad fs : (good = mn_128 /\ bad = mn_132) \/ (good = mn_189 /\ bad = mn_193) -> forall b h w, reach b h ->
  (forall f, In f fs -> Cpp.assoc (join E base f) (w_files w) = None) -> exists h' rs m w',
  input_files E base good bad fs h w = Go h' w' /\ process_input_files (disk_of base fs) h = Some (h', rs, m) /\ reach b h' /\
  Forall2 (fun f r => r = true <-> good_input (e_disk E (join E base f))) fs rs /\ w_files w' = w_files w /\ says w w' (tell_inputs base fs rs).
Proof.
  intros GB. induction fs as [|f fs IH]; intros b h w R N; cbn [input_files disk_of map process_input_files].
  { do 4 eexists. split; [reflexivity|]. split; [reflexivity|]. split; [exact R|]. split; [constructor|]. split; [reflexivity|]. now apply says_refl. }
  set (p := join E base f). destruct (input_says p b h w R) as (h1 & r & m1 & w1 & -> & -> & R1 & G & F1 & S1); [apply N; cbn; auto|].
  destruct (own_text (if r then good else bad) [p] (if r then "Successfully parsed file:" ++ TAB ++ p else "ERROR : failed to process " ++ p)%string
    ltac:(destruct GB as [[-> ->]|[-> ->]], r; reflexivity) ltac:(destruct GB as [[-> ->]|[-> ->]], r; reflexivity) w1) as (w2 & -> & F2 & S2).
  destruct (IH b h1 w2 R1) as (h' & rs & m & w' & -> & P & R' & G' & F & S).
  { intros g I. rewrite F2, F1. apply N. cbn. auto. }
  fold (disk_of base fs). rewrite P. do 4 eexists. split; [reflexivity|]. split; [reflexivity|]. split; [exact R'|]. split; [constructor; [exact G|exact G']|].
  split; [congruence|]. cbn [tell_inputs]. fold p. apply (says_trans _ _ _ [_] _ S1). apply (says_trans _ w2 _ [_]); [|exact S].
  unfold tell_parsed. destruct r; exact S2.
Qed.

(** *** Sections *)
Fixpoint tell_sections (base : string) (shown : Z) (ss : list (list string * (Z * output_spec))) (c : info) : list string :=
  match ss with
  | [] => []
  | (fs, (t, o)) :: r =>
      match process_input_files (disk_of base fs) (Heap (copy_info c) c) with
      | Some (h, rs, _) => tell_inputs base fs rs ++ tell_output shown t base (h_self h) o ++ tell_sections base shown r (h_common h)
      | None => []
      end
  end.
Lemma sections_say base common shown ss : forall c w, reach true (Heap (copy_info c) c) ->
  existsb (blocked E base) (map snd ss) = false ->
  (forall s f, In s ss -> In f (fst s) -> Cpp.assoc (join E base f) (w_files w) = None) ->
  (forall s f, In s ss -> In f (fst s) -> ~ In (join E base f) (flat_map (paths_of E base) (map snd ss))) ->
  exists w', sections E base common shown ss c w = Go tt w' /\ says w w' (tell_sections base shown ss c).
Proof.
  induction ss as [|[fs [t o]] ss IH]; intros c w R B N O; cbn [sections tell_sections].
  { eexists. split; [reflexivity|]. now apply says_refl. }
  cbn [map existsb snd] in B. apply orb_false_elim in B as [B1 B2].
  destruct (inputs_say base mn_189 mn_193 fs ltac:(auto) true _ w R) as (h & rs & m & w1 & -> & -> & R1 & _ & F1 & S1).
  { intros f I. apply (N (fs, (t, o))); cbn; auto. }
  destruct (output_says mn_230 shown t base (h_self h) (common ++ fs) o w1 ltac:(auto) B1) as (w2 & Q & S2).
  destruct (output_run E mn_230 shown t base (h_self h) (common ++ fs) o w1 eq_refl) as [A _]. destruct (A B1) as (i' & w2' & Q' & _ & SB & _).
  rewrite Q in Q'. injection Q' as _ <-. rewrite Q.
  assert (N2 : forall s f, In s ss -> In f (fst s) -> Cpp.assoc (join E base f) (w_files w2) = None).
  { intros s f I J. rewrite SB; [rewrite F1; eapply N; [right; exact I|exact J]|]. intros X. eapply (O s f); [right; exact I|exact J|].
    cbn [map flat_map snd]. apply in_or_app. now left. }
  destruct (IH (h_common h) w2) as (w3 & -> & S3); [destruct h as [hs hc]; exact (R_next_section _ R1)|exact B2|exact N2| |].
  { intros s f I J X. eapply (O s f); [right; exact I|exact J|]. cbn [map flat_map snd]. apply in_or_app. now right. }
  eexists. split; [reflexivity|]. apply (says_trans _ _ _ _ _ S1). exact (says_trans _ _ _ _ _ S2 S3).
Qed.

(** *** The whole run *)
Definition tell_final (rv : Z) : string :=
  ln (NL ++ "Processing " ++ (if (rv =? 0)%Z then "successful" else "failed") ++ ". Returning " ++ zdec rv ++ " to caller").
Definition tell_config (base : string) (c : conf) : list string :=
  match process_input_files (disk_of base (c_in c)) (Heap info0 info0) with
  | Some (h, rs, _) => let (t, o) := c_out c in
      tell_inputs base (c_in c) rs ++ NL :: tell_output t t base (h_self h) o ++ tell_sections base t (c_non c) (after_output t (h_self h))
  | None => []
  end.
(** The input files of a configuration. *)
Definition names (c : conf) (f : string) : Prop := In f (c_in c) \/ exists s, In s (c_non c) /\ In f (fst s).
Lemma config_says argv0 a rest p c : e_exists E a = true -> e_canonical E a = Some p -> extension E p = ".stfx" -> e_conf E (e_disk E p) = CRead c ->
  existsb (blocked E (parent E p)) (outputs c) = false ->
  (forall f, names c f -> ~ In (join E (parent E p) f) (flat_map (paths_of E (parent E p)) (outputs c))) ->
  exists w, stfx E argv0 (a :: rest) = Go 0%Z w /\ own (w_log w) = filter nonempty (ln (e_stamp E) :: tell_config (parent E p) c ++ [tell_final 0]).
Proof.
  intros X C N EC B O. set (base := parent E p) in *. unfold stfx. rewrite X, C, N. change (String.eqb ".stfx" ".stfx") with true. cbn iota.
  destruct (own_text mn_24 [e_stamp E] (e_stamp E) eq_refl eq_refl (World [] [])) as (w0 & -> & F0 & S0).
  unfold process_stfx_file. assert (D : content E p w0 = e_disk E p) by (unfold content; now rewrite F0). rewrite D, EC. fold base.
  destruct (inputs_say base mn_128 mn_132 (c_in c) ltac:(auto) false _ w0 R_start) as (h & rs & m & w1 & -> & P & R1 & _ & F1 & S1).
  { intros f _. rewrite F0. reflexivity. }
  destruct (own_text mn_137 [] "" eq_refl eq_refl w1) as (w2 & -> & F2 & S2). unfold tell_config. rewrite P.
  unfold outputs in B. cbn [existsb] in B. apply orb_false_elim in B as [B1 B2]. destruct (c_out c) as [t o] eqn:CO.
  destruct (output_says mn_172 t t base (h_self h) (c_in c) o w2 ltac:(auto) B1) as (w3 & Q & S3).
  destruct (output_run E mn_172 t t base (h_self h) (c_in c) o w2 eq_refl) as [A _]. destruct (A B1) as (i' & w3' & Q' & I & SB & _).
  rewrite Q in Q'. injection Q' as I' <-. rewrite <- I' in I. rewrite Q. clear Q A i' I'.
  assert (RF : reach true (Heap (copy_info (after_output t (h_self h))) (after_output t (h_self h)))).
  { destruct h as [hs hc]. cbn [h_self] in *. destruct I as [->| ->]; [exact (R_first_section _ R1)|exact (R_first_section _ (R_top _ _ (R_fixup _ _ R1)))]. }
  destruct (sections_say base (c_in c) t (c_non c) _ w3 RF B2) as (w4 & -> & S4).
  { intros s f Is If. rewrite SB; [rewrite F2, F1, F0; reflexivity|]. intros Y. apply (O f); [right; eauto|]. unfold outputs. cbn [flat_map]. rewrite CO. apply in_or_app. now left. }
  { intros s f Is If Y. apply (O f); [right; eauto|]. unfold outputs. cbn [flat_map]. apply in_or_app. now right. }
  destruct (own_text mn_58 [zdec 0] _ eq_refl eq_refl w4) as (w5 & Q5 & _ & S5). cbn [Z.eqb]. rewrite Q5. eexists. split; [reflexivity|].
  assert (SA : says (World [] []) w5 (ln (e_stamp E) :: (tell_inputs base (c_in c) rs ++ NL :: tell_output t t base (h_self h) o ++
     tell_sections base t (c_non c) (after_output t (h_self h))) ++ [tell_final 0])).
  { apply (says_trans _ _ _ [_] _ S0). rewrite <- app_assoc. apply (says_trans _ _ _ _ _ S1). cbn [app]. apply (says_trans _ _ _ [_] _ S2). rewrite <- app_assoc.
    apply (says_trans _ _ _ _ _ S3). apply (says_trans _ _ _ _ _ S4). exact S5. }
  destruct SA as (x & W & Y). cbn in W. now rewrite W.
Qed.
(** A header. *)
Definition all_known (b : backend) (d : string) (i : info) (o : output_spec) : bool :=
  (snd (fixup i) && struct_ok_result E b d (find_top (fst (fixup i))) o)%bool.
Lemma header_says argv0 a rest p : e_exists E a = true -> e_canonical E a = Some p -> extension E p <> ".stfx" ->
  exists h r m w, process_input_file (e_disk E p) (Heap info0 info0) = Some (h, r, m) /\ (r = true <-> good_input (e_disk E p)) /\
  stfx E argv0 (a :: rest) = Go (if r then 0%Z else 1%Z) w /\
  own (w_log w) = filter nonempty (ln (e_stamp E) :: tell_opened p (there (e_disk E p)) ::
    (if r then tell_parsed p true :: tell_items B_xml_attrib (parent E p) (h_self h) single_spec ++
                 [ln ("Processing items done. Success = " ++ bool_text (all_known B_xml_attrib (parent E p) (h_self h) single_spec))]
     else [ln ("Failed to correctly parse '" ++ p ++ "' code " ++ zdec (i_parse_rv (h_self h)))]) ++ [tell_final (if r then 0%Z else 1%Z)]).
Proof.
  intros X C N. unfold stfx. rewrite X, C. apply String.eqb_neq in N. rewrite N.
  destruct (own_text mn_24 [e_stamp E] (e_stamp E) eq_refl eq_refl (World [] [])) as (w0 & -> & F0 & S0).
  unfold process_single_header. destruct (input_says p false _ w0 R_start) as (h & r & m & w1 & -> & P & _ & G & F1 & S1); [now rewrite F0|].
  destruct r.
  - destruct (own_text mn_78 [p] ("Successfully parsed file:" ++ TAB ++ p) eq_refl eq_refl w1) as (w2 & -> & _ & S2).
    destruct (items_say B_xml_attrib (parent E p) (h_self h) [file_name E p] single_spec w2 (parent E p) eq_refl) as (r3 & w3 & Q & S3).
    destruct (stamp_text E) as [info SI].
    destruct (process_items_spec E B_xml_attrib (parent E p) (h_self h) [file_name E p] single_spec w2 info SI) as [(d & D & l & Q')|[D _]]; [|discriminate D].
    injection D as <-. rewrite Q in Q'. assert (r3 = all_known B_xml_attrib (parent E p) (h_self h) single_spec) as -> by (injection Q' as Q' _; exact Q'). clear Q'. rewrite Q.
    destruct (own_text mn_88 [bool_text (all_known B_xml_attrib (parent E p) (h_self h) single_spec)] _ eq_refl eq_refl w3) as (w4 & -> & _ & S4).
    destruct (own_text mn_58 [zdec 0] _ eq_refl eq_refl w4) as (w5 & Q5 & _ & S5). cbn [Z.eqb]. rewrite Q5. do 4 eexists. split; [exact P|]. split; [exact G|].
    split; [reflexivity|].
    match goal with |- own (w_log ?w) = filter _ ?l => assert (SA : says (World [] []) w l) end; [|destruct SA as (x & W & Y); cbn in W; now rewrite W].
    apply (says_trans _ _ _ [_] _ S0). apply (says_trans _ _ _ [_] _ S1). cbn [app]. apply (says_trans _ _ _ [_] _ S2). rewrite <- app_assoc.
    apply (says_trans _ _ _ _ _ S3). apply (says_trans _ _ _ [_] _ S4). exact S5.
  - destruct (own_text mn_92 [p; zdec (i_parse_rv (h_self h))] ("Failed to correctly parse '" ++ p ++ "' code " ++ zdec (i_parse_rv (h_self h))) eq_refl eq_refl w1) as (w2 & -> & _ & S2).
    destruct (own_text mn_62 [zdec 1] _ eq_refl eq_refl w2) as (w5 & Q5 & _ & S5). cbn [Z.eqb]. rewrite Q5. do 4 eexists. split; [exact P|]. split; [exact G|].
    split; [reflexivity|].
    match goal with |- own (w_log ?w) = filter _ ?l => assert (SA : says (World [] []) w l) end; [|destruct SA as (x & W & Y); cbn in W; now rewrite W].
    apply (says_trans _ _ _ [_] _ S0). apply (says_trans _ _ _ [_] _ S1). apply (says_trans _ _ _ [_] _ S2). exact S5.
Qed.
End Run.
