(** Properties of the program: what it writes, when it ends and with which status. *)
From Coq Require Import String Ascii ZArith NArith Arith List Bool Lia.
From Verif Require Import Base Map Flex Items Bison Grammar ParseLang Store Resolve Fmt Decimal Templates MainTemplates Emit Val
  StoreProps StoreDefs Main.
Import ListNotations.
Local Open Scope string_scope.
Local Open Scope list_scope.

(** *** Format strings: all arguments exist *)
Definition piece_fits (n : nat) (p : piece) : bool := match p with Lit _ => true | Arg k => (k <? n)%nat end.
Definition fits_args (t : template) (n : nat) : bool :=
  match t with Some ps => forallb (piece_fits n) ps | None => false end.
(** The text of a line: the literal parts and the arguments as they are. *)
Definition piece_text (args : list string) (p : piece) : string :=
  match p with Lit s => s | Arg k => nth k args "" end.
Definition line_text (t : template) (args : list string) : string :=
  match t with Some ps => String.concat "" (map (piece_text args) ps) | None => "" end.

Lemma concat_cons x l : String.concat "" (x :: l) = (x ++ String.concat "" l)%string.
Proof.
  destruct l as [|y l]; [|reflexivity]. cbn. induction x; cbn; congruence.
Qed.
Lemma fill_fits ps args : forallb (piece_fits (length args)) ps = true ->
  fill ps args = Some (String.concat "" (map (piece_text args) ps)).
Proof.
  induction ps as [|p ps IH]; [reflexivity|]. cbn [forallb map]. rewrite andb_true_iff. intros [A B]. rewrite concat_cons.
  destruct p as [s|k]; cbn [fill piece_text].
  - now rewrite (IH B).
  - cbn [piece_fits] in A. apply Nat.ltb_lt in A.
    rewrite (nth_error_nth' args "" A). now rewrite (IH B).
Qed.
Lemma println_fits t args : fits_args t (length args) = true -> println t args = Some (line_text t args ++ NL)%string.
Proof.
  unfold println, format, fits_args, line_text. destruct t as [ps|]; [|discriminate]. intros H. now rewrite (fill_fits _ _ H).
Qed.

Definition good_cmd (c : cmd) : Prop := fits_args (c_t c) (length (c_args c)) = true.
Lemma good_app a b : Forall good_cmd a -> Forall good_cmd b -> Forall good_cmd (a ++ b).
Proof. intros. apply Forall_app. auto. Qed.
Lemma good_flat {A} (f : A -> list cmd) l : (forall x, Forall good_cmd (f x)) -> Forall good_cmd (flat_map f l).
Proof. intros H. induction l; [constructor|]. cbn. apply good_app; auto. Qed.
Lemma good_map {A} (f : A -> cmd) l : (forall x, good_cmd (f x)) -> Forall good_cmd (map f l).
Proof. intros H. induction l; constructor; auto. Qed.
Ltac good := repeat first [apply good_app | apply good_flat; intros | apply good_map; intros | apply Forall_nil
  | apply Forall_cons; [reflexivity|] ].

Lemma good_enum e : Forall good_cmd (process_enum e).
Proof. unfold process_enum. good; destruct (e_class e); reflexivity. Qed.
Lemma good_enum_files i inputs cpp h s : Forall good_cmd (enum_files i inputs cpp h s).
Proof. unfold enum_files, includes, fmt_templates. good; try reflexivity; destruct (e_class x); reflexivity. Qed.
Lemma good_reader b s cls : Forall good_cmd (fst (struct_reader b s cls)).
Proof.
  destruct b; cbn [struct_reader].
  - unfold xa_reader. cbn [fst]. good; [unfold xa_read_simple; destruct (ss_type x); good
      | destruct (has_children _); good | destruct x as [[] ? ?]; unfold xa_read_complex; cbn; good].
  - unfold xm_reader. cbn [fst]. good; [unfold xm_read_simple; destruct (ss_type x); good
      | destruct x as [[] ? ?]; unfold xm_read_complex; cbn; good].
  - constructor.
  - unfold ni_reader. cbn [fst]. good.
    + destruct (s_simple s) as [|m ms]; [constructor|]. good; try reflexivity.
      unfold ni_read_enum. destruct (sc_type x); good.
    + destruct (has_children _); good.
    + destruct x as [[] ? ?]; unfold ni_read_complex; cbn; good.
Qed.
Lemma good_writer b s cls nd : Forall good_cmd (fst (struct_writer b s cls nd)).
Proof.
  destruct b; cbn [struct_writer].
  - unfold xa_writer. cbn [fst]. good; [destruct nd; good | unfold xa_write_simple; destruct (ss_type x), nd; good
      | destruct (has_children _); good | destruct x as [[] ? ?], nd; unfold xa_write_complex; cbn; good].
  - unfold xm_writer. cbn [fst]. good; [destruct nd; good | unfold xm_write_simple; destruct (ss_type x), nd; good
      | destruct x as [[] ? ?], nd; unfold xm_write_complex; cbn; good].
  - constructor.
  - unfold ni_writer. cbn [fst]. good; [destruct nd; good | unfold ni_write_simple; destruct (ss_type x), nd; reflexivity
      | destruct x as [[] ? ?], nd; unfold ni_write_complex; cbn; good].
Qed.
Lemma good_entries th tcpp cls ss : fits_args th 1 = true -> fits_args tcpp 2 = true -> Forall good_cmd (entries th tcpp cls ss).
Proof.
  intros A B. unfold entries. apply good_flat. intros s. destruct (Nat.eqb _ _); [|constructor].
  constructor; [exact A|]. constructor; [exact B|constructor].
Qed.
Local Opaque struct_reader struct_writer entries.
Lemma good_struct_files b i inputs o cpp h s : Forall good_cmd (fst (struct_files b i inputs o cpp h s)).
Proof.
  assert (L : Forall good_cmd (map (fun x => Cmd T_cpp x []) (t_lib_cpp (templates_of b) (o_only_read o)))).
  { destruct b; cbn; try (destruct (o_only_read o); cbn); good. }
  assert (N : Forall good_cmd [if skipped (o_enum_file o) then Cmd T_cpp (t_no_enum (templates_of b)) []
    else Cmd T_cpp (t_inc_enum (templates_of b)) [(o_enum_file o ++ ".h")%string]]).
  { destruct b, (skipped _); good. }
  assert (I1 : Forall good_cmd (includes T_cpp (t_in_cpp (templates_of b)) inputs)).
  { unfold includes. destruct b; good; reflexivity. }
  assert (I2 : Forall good_cmd (includes T_h (t_in_h (templates_of b)) inputs)).
  { unfold includes. destruct b; good; reflexivity. }
  assert (E1 : Forall good_cmd (entries (t_rff_h (templates_of b)) (t_rff_cpp (templates_of b)) (o_reader o) (map snd (i_structs i)))).
  { destruct b; apply good_entries; reflexivity. }
  assert (E2 : Forall good_cmd (entries (t_wtf_h (templates_of b)) (t_wtf_cpp (templates_of b)) (o_writer o) (map snd (i_structs i)))).
  { destruct b; apply good_entries; reflexivity. }
  pose proof (fun s => good_reader b s (o_reader o)) as R.
  pose proof (fun s => good_writer b s (o_writer o) (o_no_delta o)) as W.
  unfold struct_files. cbn [fst].
  repeat (apply good_app; [first [assumption | solve [apply good_flat; auto] | destruct b; good]|]).
  destruct (o_only_read o); [constructor|].
  repeat (apply good_app; [first [assumption | solve [apply good_flat; auto] | destruct b; good]|]). destruct b; good.
Qed.
Local Transparent struct_reader struct_writer entries.
Lemma render_good to cs : Forall good_cmd cs -> exists s, render to cs = Some s.
Proof.
  induction 1 as [|c cs H _ [s IH]]; [eexists; reflexivity|]. cbn [render]. rewrite IH.
  destruct (to_eqb _ _); [|eauto]. rewrite (println_fits _ _ H). eauto.
Qed.

Lemma say_good t args w : fits_args t (length args) = true ->
  say t args w = Go tt (World (w_files w) (w_log w ++ [Line (line_text t args ++ NL)])).
Proof. intros H. unfold say. now rewrite (println_fits _ _ H). Qed.

(** *** Output files *)
Definition puts (l : list (string * string)) (fs : list (string * string)) : list (string * string) :=
  fold_left (fun f p => set_assoc (fst p) (snd p) f) l fs.
Lemma puts_app a b fs : puts (a ++ b) fs = puts b (puts a fs).
Proof. apply fold_left_app. Qed.
(** What is left of the attempt to write the two files: nothing if the first cannot be
    opened, an empty first file if the second cannot be. *)
Definition two_files (E : env) (cpp h a b : string) : list (string * string) :=
  if e_write E cpp then (if e_write E h then [(cpp, ""); (h, ""); (cpp, a); (h, b)] else [(cpp, "")]) else [].

(** The texts of the files. *)
Definition text_to (to : target) (cs : list cmd) : string := match render to cs with Some s => s | None => "" end.

Section Props.
Variable E : env.

Lemma open_both_spec cpp h t1 t2 t3 t4 cs ok fail w :
  fits_args t1 1 = true -> fits_args t2 1 = true -> fits_args t3 1 = true -> fits_args t4 1 = true -> Forall good_cmd cs ->
  exists l, open_both E cpp h t1 t2 t3 t4 cs ok fail w =
    Go (if e_write E cpp && e_write E h then ok else fail)%bool
       (World (puts (two_files E cpp h (text_to T_cpp cs) (text_to T_h cs)) (w_files w)) (w_log w ++ l)).
Proof.
  intros A B C D G. unfold open_both, two_files, text_to. destruct (e_write E cpp); cbn [andb].
  2:{ rewrite say_good by exact D. eexists. reflexivity. }
  rewrite say_good by exact A. destruct (e_write E h).
  2:{ rewrite say_good by exact C. eexists. cbn [put_file w_files w_log]. rewrite <- app_assoc. reflexivity. }
  rewrite say_good by exact B. unfold write_all.
  destruct (render_good T_cpp cs G) as [a ->]. destruct (render_good T_h cs G) as [b ->]. destruct (render_good T_out cs G) as [c ->].
  eexists. cbn [put_file w_files w_log]. rewrite <- !app_assoc. reflexivity.
Qed.

(** The directory for the output, if it can be made. *)
Definition dir_for (base : string) (o : output_spec) : option string :=
  if String.eqb (o_dir o) "" then Some base
  else if e_mkdirs E (join E base (o_dir o)) then e_canonical E (join E base (o_dir o)) else None.
Lemma out_dir_spec base o w : out_dir E base o w = match dir_for base o with Some d => Go d w | None => Stop w end.
Proof.
  unfold out_dir, dir_for. destruct (String.eqb _ _); [reflexivity|]. destruct (e_mkdirs _ _); [|reflexivity].
  destruct (e_canonical _ _); reflexivity.
Qed.

Definition enum_output (d info : string) (i : Items.info) (inputs : list string) (o : output_spec) : list (string * string) :=
  if skipped (o_enum_file o) then [] else
    let cpp := cpp_path E d (o_enum_file o) in
    let h := h_path E d (o_enum_file o) in
    let cs := enum_files i inputs (file_name E cpp) (file_name E h) info in
    two_files E cpp h (text_to T_cpp cs) (text_to T_h cs).
Definition struct_output (b : backend) (d info : string) (i : Items.info) (inputs : list string) (o : output_spec) : list (string * string) :=
  if skipped (o_structs_file o) then [] else
    let cpp := cpp_path E d (o_structs_file o) in
    let h := h_path E d (o_structs_file o) in
    let cs := fst (struct_files b i inputs o (file_name E cpp) (file_name E h) info) in
    two_files E cpp h (text_to T_cpp cs) (text_to T_h cs).
(** All members of all structs could be translated. *)
Definition translated (b : backend) (i : Items.info) (o : output_spec) : bool :=
  (forallb (fun s => snd (struct_reader b s (o_reader o))) (map snd (i_structs i)) &&
   (o_only_read o || forallb (fun s => snd (struct_writer b s (o_writer o) (o_no_delta o))) (map snd (i_structs i))))%bool.
Definition struct_ok_result (b : backend) (d : string) (i : Items.info) (o : output_spec) : bool :=
  (skipped (o_structs_file o) ||
   e_write E (cpp_path E d (o_structs_file o)) && e_write E (h_path E d (o_structs_file o)) && translated b i o)%bool.

Lemma templates_fit b : let t := templates_of b in fits_args (t_opened_cpp t) 1 = true /\ fits_args (t_opened_h t) 1 = true /\
  fits_args (t_fail_h t) 1 = true /\ fits_args (t_fail_cpp t) 1 = true.
Proof. destruct b; repeat split; reflexivity. Qed.

Lemma process_items_spec b base i inputs o w info : stfx_info (e_stamp E) = Some info ->
  let i2 := find_top (fst (fixup i)) in
  (exists d, dir_for base o = Some d /\ exists l, process_items E b base i inputs o w =
     Go (i2, snd (fixup i) && struct_ok_result b d i2 o)%bool
        (World (puts (enum_output d info i2 inputs o ++ struct_output b d info i2 inputs o) (w_files w)) (w_log w ++ l))) \/
  (dir_for base o = None /\ ((skipped (o_enum_file o) && skipped (o_structs_file o) = true /\ exists l, process_items E b base i inputs o w =
     Go (i2, snd (fixup i))%bool (World (w_files w) (w_log w ++ l))) \/
   (skipped (o_enum_file o) && skipped (o_structs_file o) = false /\ exists l, process_items E b base i inputs o w = Stop (World (w_files w) (w_log w ++ l)))))%bool.
Proof.
  intros SI i2. unfold process_items. rewrite SI. rewrite say_good by reflexivity.
  rewrite (surjective_pairing (fixup i)). fold i2. cbn [fst snd]. set (w0 := World _ _).
  destruct (dir_for base o) as [d|] eqn:D.
  - left. exists d. split; [reflexivity|].
    assert (X : exists l, (if skipped (o_enum_file o) then run (_, w) <- say pi_38 [] w0; Go true w
                else process_all_enums E base info i2 inputs o w0) =
                Go true (World (puts (enum_output d info i2 inputs o) (w_files w0)) (w_log w0 ++ l))).
    { unfold enum_output. destruct (skipped (o_enum_file o)).
      - rewrite say_good by reflexivity. eexists. reflexivity.
      - unfold process_all_enums. rewrite out_dir_spec, D. cbn zeta.
        destruct (open_both_spec (cpp_path E d (o_enum_file o)) (h_path E d (o_enum_file o)) pi_79 pi_84 pi_129 pi_135
          (enum_files i2 inputs (file_name E (cpp_path E d (o_enum_file o))) (file_name E (h_path E d (o_enum_file o))) info)
          true true w0) as [l ->]; try reflexivity; [apply good_enum_files|].
        exists l. destruct (_ && _)%bool; reflexivity. }
    destruct X as [l1 ->].
    set (w1 := World (puts _ _) _).
    assert (X : exists l, (if skipped (o_structs_file o) then run (_, w) <- say pi_46 [] w1; Go true w
                else process_all_structs E b base info i2 inputs o w1) =
                Go (struct_ok_result b d i2 o) (World (puts (struct_output b d info i2 inputs o) (w_files w1)) (w_log w1 ++ l))).
    { unfold struct_output, struct_ok_result. destruct (skipped (o_structs_file o)).
      - rewrite say_good by reflexivity. eexists. reflexivity.
      - unfold process_all_structs. rewrite out_dir_spec, D. cbn zeta. destruct (templates_fit b) as (A1 & A2 & A3 & A4).
        set (f := struct_files b i2 inputs o _ _ _).
        destruct (open_both_spec (cpp_path E d (o_structs_file o)) (h_path E d (o_structs_file o)) _ _ _ _ (fst f) (snd f) false w1
          A1 A2 A3 A4) as [l ->]; [apply good_struct_files|].
        exists l. unfold f at 1. unfold translated. cbn [orb snd struct_files].
        destruct (_ && _)%bool eqn:W; reflexivity. }
    destruct X as [l2 ->]. unfold w1, w0. cbn [w_files w_log]. eexists. rewrite <- puts_app, <- !app_assoc. rewrite andb_true_r. reflexivity.
  - right. split; [reflexivity|].
    destruct (skipped (o_enum_file o)) eqn:S1, (skipped (o_structs_file o)) eqn:S2; cbn [andb].
    + left. split; [reflexivity|]. rewrite say_good by reflexivity. rewrite say_good by reflexivity. unfold w0. cbn [w_files w_log].
      rewrite <- !app_assoc. rewrite !andb_true_r. eauto.
    + right. split; [reflexivity|]. rewrite say_good by reflexivity. unfold process_all_structs. rewrite out_dir_spec, D.
      unfold w0. cbn [w_files w_log]. rewrite <- !app_assoc. eauto.
    + right. split; [reflexivity|]. unfold process_all_enums. rewrite out_dir_spec, D. unfold w0. eauto.
    + right. split; [reflexivity|]. unfold process_all_enums. rewrite out_dir_spec, D. unfold w0. eauto.
Qed.
End Props.

(** *** Paths *)
Section Paths.
Variable E : env.
Lemma last_app p q : q <> "" -> last_chr (p ++ q) = last_chr q.
Proof.
  intros Q. induction p as [|c p IH]; [reflexivity|]. cbn [String.append last_chr]. rewrite <- IH.
  destruct (p ++ q)%string eqn:X; [|reflexivity]. destruct p; cbn in X; [congruence|discriminate].
Qed.
Lemma seps_app p q : existsb (is_sep E) (list_ascii_of_string (p ++ q)) =
  (existsb (is_sep E) (list_ascii_of_string p) || existsb (is_sep E) (list_ascii_of_string q))%bool.
Proof. induction p as [|c p IH]; [reflexivity|]. cbn. rewrite IH. now rewrite orb_assoc. Qed.
Lemma append_nil_r s : (s ++ "")%string = s.
Proof. induction s; cbn; congruence. Qed.
Lemma append_assoc (a b c : string) : ((a ++ b) ++ c)%string = (a ++ (b ++ c))%string.
Proof. induction a; cbn; congruence. Qed.

(** What follows the last separator, when something without separator is behind [x]. *)
Lemma file_name_app x y : existsb (is_sep E) (list_ascii_of_string y) = false -> file_name E (x ++ y) = (file_name E x ++ y)%string.
Proof.
  intros Y. induction x as [|c x IH]; cbn [String.append].
  - destruct y as [|c y]; [reflexivity|]. cbn in Y. apply orb_false_iff in Y as [Y1 Y2]. cbn. now rewrite Y2, Y1.
  - cbn [file_name]. rewrite seps_app, Y, orb_false_r. destruct (existsb _ (list_ascii_of_string x)); [exact IH|].
    destruct (is_sep E c); reflexivity.
Qed.
Lemma file_name_nonempty x c : last_chr x = Some c -> is_sep E c = false -> file_name E x <> "".
Proof.
  intros L S. induction x as [|d x IH]; [discriminate|]. cbn [file_name].
  destruct (existsb _ _) eqn:X.
  - apply IH. destruct x; [discriminate X|exact L].
  - destruct (is_sep E d) eqn:D; [|discriminate]. destruct x; [|discriminate]. cbn in L. congruence.
Qed.
Lemma split_ext_app x e : split_ext e = None -> split_ext (x ++ String "." e) = Some (x, String "." e).
Proof.
  intros He. induction x as [|c x IH]; cbn [String.append].
  - cbn [split_ext]. rewrite He. reflexivity.
  - cbn [split_ext]. now rewrite IH.
Qed.
Lemma drop_end_app x y : drop_end (String.length y) (x ++ y) = x.
Proof.
  unfold drop_end. assert (L : forall a b, String.length (a ++ b) = (String.length a + String.length b)%nat)
    by (intros a b; induction a; cbn; congruence).
  rewrite L, Nat.add_sub. clear L. induction x as [|c x IH]; cbn; [destruct y; reflexivity|]. now rewrite IH.
Qed.
Definition sep_free (s : string) : bool := negb (existsb (is_sep E) (list_ascii_of_string s)).
(** An ordinary name: not empty and not ending in a separator. *)
Definition names_file (s : string) : bool := match last_chr s with Some c => negb (is_sep E c) | None => false end.

Lemma names_file_last s : names_file s = true -> exists c, last_chr s = Some c /\ is_sep E c = false.
Proof. unfold names_file. destruct (last_chr s) as [c|]; [|discriminate]. intros H. exists c. split; [reflexivity|]. now apply negb_true_iff. Qed.
Lemma last_nil s c : last_chr s = Some c -> s <> "".
Proof. intros H ->. discriminate. Qed.

Lemma replace_ext_app p e x : sep_free e = true -> split_ext e = None -> e <> "" -> names_file p = true ->
  replace_ext E (p ++ String "." e) x = (p ++ x)%string \/ is_sep E "." = true.
Proof.
  intros S X Z N. destruct (is_sep E ".") eqn:D; [right; reflexivity|left].
  apply names_file_last in N as (c & L & C). unfold replace_ext, extension.
  rewrite file_name_app.
  2:{ unfold sep_free in S. apply negb_true_iff in S. cbn [list_ascii_of_string existsb]. now rewrite D, S. }
  rewrite split_ext_app by exact X. pose proof (file_name_nonempty p c L C) as NE.
  destruct (file_name E p) as [|c1 r1] eqn:F; [congruence|].
  replace (String.eqb _ "..") with false.
  2:{ symmetry. apply String.eqb_neq. intros H. cbn [String.append] in H. injection H as _ H. destruct r1 as [|? r1]; cbn [String.append] in H.
      - injection H as H. congruence.
      - injection H as _ H. destruct r1; discriminate H. }
  now rewrite drop_end_app.
Qed.

Lemma join_last d x : x <> "" -> last_chr (join E d x) = last_chr x.
Proof.
  intros H. unfold join. destruct (absolute E x); [reflexivity|]. destruct (last_chr d) as [c|]; [|reflexivity].
  destruct (is_sep E c); [now apply last_app|]. rewrite last_app by discriminate.
  destruct x; [congruence|reflexivity].
Qed.
Lemma join_app d x y : x <> "" -> join E d (x ++ y) = (join E d x ++ y)%string.
Proof.
  intros H. unfold join. replace (absolute E (x ++ y)) with (absolute E x) by (destruct x; [congruence|reflexivity]).
  destruct (absolute E x); [reflexivity|]. destruct (last_chr d) as [c|]; [|reflexivity].
  destruct (is_sep E c); rewrite append_assoc; reflexivity.
Qed.

(** The separators that exist: '/' and '\'. *)
Definition usual_sep : Prop := (e_sep E = "/" \/ e_sep E = "\")%char.
Lemma usual_letters c : usual_sep -> (c <> "/")%char -> (c <> "\")%char -> is_sep E c = false.
Proof.
  intros [U|U] A B; unfold is_sep; rewrite U; apply orb_false_iff; split; now apply Ascii.eqb_neq.
Qed.
Lemma paths d x : usual_sep -> names_file x = true ->
  cpp_path E d x = (join E d x ++ ".cpp")%string /\ h_path E d x = (join E d x ++ ".h")%string.
Proof.
  intros U N. pose proof (names_file_last _ N) as (c & L & C). pose proof (last_nil _ _ L) as NE.
  unfold h_path, cpp_path. rewrite (join_app d x ".cpp" NE). split; [reflexivity|].
  destruct (replace_ext_app (join E d x) "cpp" ".h") as [H|H]; try discriminate; auto.
  - unfold sep_free. cbn [list_ascii_of_string existsb]. rewrite !(usual_letters _ U) by discriminate. reflexivity.
  - unfold names_file. now rewrite (join_last _ _ NE), L, C.
  - rewrite (usual_letters _ U) in H by discriminate. discriminate.
Qed.
Lemma append_inj_l a : forall b c, (a ++ b)%string = (a ++ c)%string -> b = c.
Proof. induction a as [|x a IH]; cbn; intros b c H; [exact H|]. injection H as H. auto. Qed.
Lemma join_inj d x y : absolute E x = false -> absolute E y = false -> join E d x = join E d y -> x = y.
Proof.
  unfold join. intros -> ->. destruct (last_chr d) as [c|]; [|auto].
  destruct (is_sep E c); intros H; [now apply append_inj_l in H|]. apply append_inj_l in H. now injection H.
Qed.
End Paths.
