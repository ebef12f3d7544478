(** The generated .cpp files as a whole, read back: which functions they define. *)
From Coq Require Import String Ascii ZArith NArith Arith List Bool Lia.
From Verif Require Import Base Map Items Fmt Templates Emit Cpp SymLex SymParse Ast PrintXa PrintXm PrintEnum PrintIni.
Import ListNotations.
Local Open Scope string_scope.
Local Open Scope list_scope.

(** *** Comment and include lines *)
Lemma lexes_info t stamp info : t = Some [Arg 0] -> stfx_info stamp = Some info -> plain stamp = true ->
  lexes [Cmd T_cpp t [info]] [].
Proof.
  intros -> I P. unfold stfx_info, format in I. unfold pi_19 in I.
  match type of I with fill ?ps _ = _ =>
    assert (R : srun [ATxt] Z0 (ps ++ [Lit NL]) = Some (Z0, [])) by reflexivity;
    pose proof (srun_ok [ATxt] [stamp] ltac:(args_tac) _ _ _ _ R) as (x & F & L) end.
  rewrite fill_app, I in F. simpl in F. inversion F; subst x. clear F R.
  exists (info ++ NL)%string. split; [|exact L].
  unfold render, println, format. simpl. now rewrite !sapp_nil_r.
Qed.
Lemma lexes_texts t inputs : ctoks [ATxt] t = Some [] -> forallb plain inputs = true -> lexes (includes T_cpp t inputs) [].
Proof.
  intros H. induction inputs as [|f l IH]; intros G; simpl; [apply lexes_nil|].
  apply andb_prop in G as [G1 G2]. apply (lexes_cons _ _ [] []); [apply (lexes_silent [ATxt]); [exact H | args_tac] | auto].
Qed.
Lemma lexes_other cs : forallb (fun c => negb (to_eqb (c_to c) T_cpp)) cs = true -> lexes cs [].
Proof.
  induction cs as [|c cs IH]; intros H; [apply lexes_nil|]. simpl in H. apply andb_prop in H as [H1 H2].
  apply lexes_skip_cons; [now apply negb_true_iff | auto].
Qed.
Lemma includes_other t inputs : forallb (fun c => negb (to_eqb (c_to c) T_cpp)) (includes T_h t inputs) = true.
Proof. induction inputs; [reflexivity | exact IHinputs]. Qed.

(** *** The enum file *)
Lemma d_enum_files i inputs cpp h stamp info :
  forallb enum_ok (map snd (i_enums i)) = true -> forallb plain inputs = true ->
  plain cpp = true -> plain h = true -> plain stamp = true -> stfx_info stamp = Some info ->
  defines (enum_files i inputs cpp h info) (flat_map enum_funs (map snd (i_enums i))).
Proof.
  intros E I C H S F. unfold enum_files. cbn [app].
  apply (defines_app [_] _ [] _); [apply defines_silent; lex_silent [ATxt]|].
  apply (defines_app [_] _ [] _); [apply defines_silent; now apply (lexes_info _ stamp)|].
  apply (defines_app [_] _ [] _); [apply defines_silent; lex_silent [ATxt]|].
  apply (defines_app [_] _ [] _); [apply defines_silent; lex_silent ([] : list akind)|].
  apply (defines_app _ _ [] _); [apply defines_silent; now apply lexes_texts|].
  apply (defines_app [_] _ [] _); [apply defines_silent; lex_silent ([] : list akind)|].
  do 5 (apply defines_skip; [reflexivity|]).
  apply (defines_app _ _ [] _); [apply defines_silent, lexes_other, includes_other|].
  do 2 (apply defines_skip; [reflexivity|]).
  rewrite <- (app_nil_r (flat_map enum_funs _)). apply defines_app.
  - apply defines_flat. intros e J. apply d_enum. rewrite forallb_forall in E. auto.
  - apply defines_silent, lexes_other. cbn [forallb c_to to_eqb negb andb].
    induction (map snd (i_enums i)) as [|e l IH]; [reflexivity|]. simpl. simpl in E. apply andb_prop in E as [_ E]. auto.
Qed.

(** *** The struct file *)
Definition spec_ok (o : output_spec) : bool := name_ok (o_reader o) && name_ok (o_writer o) && plain (o_enum_file o).

Lemma plain_app a b : plain (a ++ b)%string = (plain a && plain b)%bool.
Proof. unfold plain. induction a as [|c a IH]; [reflexivity|]. cbn [String.append all_chars]. now rewrite IH, andb_assoc. Qed.

Lemma d_entries th tcpp cls ss (mk : string -> string -> fdef) :
  (forall t, name_ok t = true -> defines [Cmd T_cpp tcpp [cls; t]] [mk cls t]) ->
  forallb struct_ok ss = true ->
  defines (entries th tcpp cls ss) (map (fun s => mk cls (s_name s)) (tops ss)).
Proof.
  intros H. induction ss as [|s ss IH]; intros G; simpl; [apply defines_nil|].
  apply andb_prop in G as [G1 G2]. apply struct_ok_inv in G1 as (N & _ & _). specialize (IH G2).
  unfold tops. simpl. destruct (Nat.eqb (s_incoming s) 0); simpl; [|exact IH].
  apply defines_skip; [reflexivity|]. apply (defines_app [_] _ [_] _); [auto | exact IH].
Qed.

Section File.
  Variable b : backend.
  Variable ss : list struct_S.
  Hypothesis SS : forallb struct_ok ss = true.

  Lemma d_readers cls : name_ok cls = true ->
    defines (flat_map (fun s => fst (struct_reader b s cls)) ss) (flat_map (fun s => rd_fun b s cls) ss).
  Proof.
    intros C. apply defines_flat. intros s I. rewrite forallb_forall in SS. specialize (SS s I).
    destruct b; cbn [struct_reader rd_fun]; auto using d_xa_reader, d_xm_reader, d_ini_rd, defines_nil.
  Qed.
  Lemma d_writers cls nd : name_ok cls = true ->
    defines (flat_map (fun s => fst (struct_writer b s cls nd)) ss) (flat_map (fun s => wr_fun b s cls nd) ss).
  Proof.
    intros C. apply defines_flat. intros s I. rewrite forallb_forall in SS. specialize (SS s I).
    destruct b; cbn [struct_writer wr_fun]; auto using d_xa_writer, d_xm_writer, d_ini_wr, defines_nil.
  Qed.
  Lemma d_reader_class cls : name_ok cls = true ->
    defines ([Cmd T_h (t_class_h (templates_of b)) [cls]; Cmd T_cpp (t_ctor_cpp (templates_of b)) [cls]] ++
             entries (t_rff_h (templates_of b)) (t_rff_cpp (templates_of b)) cls ss ++ [Cmd T_h (t_prot_h (templates_of b)) []] ++
             flat_map (fun s => fst (struct_reader b s cls)) ss ++
             [Cmd T_h (t_end_h (templates_of b)) []; Cmd T_cpp (t_end_cpp (templates_of b)) []])
            (reader_funs b ss cls).
  Proof.
    intros C. unfold reader_funs. cbn [app]. apply defines_skip; [reflexivity|].
    apply (defines_app [_] _ [_] _); [destruct b; cbn; auto using d_x_ctor, d_ini_ctor|].
    apply defines_app; [apply d_entries; [|exact SS]; intros t T; destruct b; cbn; auto using d_x_rff, d_ini_rff|].
    apply defines_skip; [reflexivity|].
    rewrite <- (app_nil_r (flat_map (fun s => rd_fun b s cls) ss)).
    apply defines_app; [now apply d_readers|]. apply defines_skip; [reflexivity|].
    apply defines_silent. destruct b; lex_silent ([] : list akind).
  Qed.
  Lemma d_writer_class cls rd nd : name_ok cls = true -> name_ok rd = true ->
    defines ([Cmd T_h (t_wclass_h (templates_of b)) [cls; rd]; Cmd T_cpp (t_wctor_cpp (templates_of b)) [cls; rd]] ++
             entries (t_wtf_h (templates_of b)) (t_wtf_cpp (templates_of b)) cls ss ++ [Cmd T_h (t_wprot_h (templates_of b)) []] ++
             flat_map (fun s => fst (struct_writer b s cls nd)) ss ++
             [Cmd T_h (t_wend_h (templates_of b)) []; Cmd T_cpp (t_wend_cpp (templates_of b)) []])
            (writer_funs b ss cls rd nd).
  Proof.
    intros C R. unfold writer_funs. cbn [app]. apply defines_skip; [reflexivity|].
    apply (defines_app [_] _ [_] _); [destruct b; cbn; auto using d_x_wctor, d_ini_wctor|].
    apply defines_app; [apply d_entries; [|exact SS]; intros t T; destruct b; cbn; auto using d_x_wtf, d_ini_wtf|].
    apply defines_skip; [reflexivity|].
    rewrite <- (app_nil_r (flat_map (fun s => wr_fun b s cls nd) ss)).
    apply defines_app; [now apply d_writers|]. apply defines_skip; [reflexivity|].
    apply defines_silent. destruct b; lex_silent ([] : list akind).
  Qed.
End File.

Lemma d_struct_files b i inputs o cpp h stamp info :
  forallb struct_ok (map snd (i_structs i)) = true -> spec_ok o = true -> forallb plain inputs = true ->
  plain cpp = true -> plain h = true -> plain stamp = true -> stfx_info stamp = Some info ->
  defines (fst (struct_files b i inputs o cpp h info)) (file_funs b (map snd (i_structs i)) o).
Proof.
  intros SS O I C H S F. unfold spec_ok in O. rewrite !andb_true_iff in O. destruct O as [[R W] EF].
  unfold struct_files. cbn [fst]. set (ss := map snd (i_structs i)) in *. cbn [app].
  apply (defines_app [_] _ [] _); [apply defines_silent; destruct b; lex_silent [ATxt]|].
  apply (defines_app [_] _ [] _); [apply defines_silent; apply (lexes_info _ stamp); auto; destruct b; reflexivity|].
  apply (defines_app [_] _ [] _); [apply defines_silent; destruct b; lex_silent [ATxt]|].
  apply (defines_app [_] _ [] _); [apply defines_silent; destruct b; lex_silent ([] : list akind)|].
  apply (defines_app _ _ [] _).
  { apply defines_silent. destruct b; cbn; try destruct (o_only_read o); cbn;
      repeat (apply (lexes_cons _ _ [] []); [lex_silent ([] : list akind)|]); apply lexes_nil. }
  apply (defines_app [_] _ [] _).
  { apply defines_silent. destruct (skipped (o_enum_file o)); [destruct b; lex_silent ([] : list akind)|].
    assert (P : plain (o_enum_file o ++ ".h")%string = true) by (rewrite plain_app, EF; reflexivity).
    destruct b; lex_silent [ATxt]. }
  apply (defines_app _ _ [] _); [apply defines_silent; apply lexes_texts; auto; destruct b; reflexivity|].
  do 3 (apply defines_skip; [reflexivity|]).
  apply (defines_app _ _ [] _); [apply defines_silent, lexes_other, includes_other|].
  apply defines_skip; [reflexivity|].
  pose proof (d_reader_class b ss SS (o_reader o) R) as D1.
  pose proof (d_writer_class b ss SS (o_writer o) (o_reader o) (o_no_delta o) W R) as D2.
  unfold file_funs. destruct (o_only_read o).
  - eapply defines_eq; [exact D1 | list_eq | exact (eq_sym (app_nil_r (reader_funs b ss (o_reader o))))].
  - eapply defines_eq; [exact (defines_app _ _ _ _ D1 D2) | list_eq | reflexivity].
Qed.

(** The two files, as texts. *)
Lemma read_struct_file b i inputs o cpp h stamp info :
  forallb struct_ok (map snd (i_structs i)) = true -> spec_ok o = true -> forallb plain inputs = true ->
  plain cpp = true -> plain h = true -> plain stamp = true -> stfx_info stamp = Some info ->
  exists t, render T_cpp (fst (struct_files b i inputs o cpp h info)) = Some t /\
            read_cpp t = Some (file_funs b (map snd (i_structs i)) o).
Proof. intros. eapply defines_read, d_struct_files; eauto. Qed.
Lemma read_enum_file i inputs cpp h stamp info :
  forallb enum_ok (map snd (i_enums i)) = true -> forallb plain inputs = true ->
  plain cpp = true -> plain h = true -> plain stamp = true -> stfx_info stamp = Some info ->
  exists t, render T_cpp (enum_files i inputs cpp h info) = Some t /\
            read_cpp t = Some (flat_map enum_funs (map snd (i_enums i))).
Proof. intros. eapply defines_read, d_enum_files; eauto. Qed.
