(** Property theorems about the emission of code: C23, C25-C28, C44. *)
From Coq Require Import String Ascii ZArith NArith Arith List Bool Lia Permutation.
From Verif Require Import Base Map Flex Items Bison Grammar ParseLang Store Resolve StoreProps StoreDefs StoreRedef ResolveProps ItemsEnd
  Fmt Decimal Templates Emit Cpp SymLex Ast Prog Header Link Main MainProps RunProps EmitProps.
Import ListNotations.
Local Open Scope string_scope.
Local Open Scope list_scope.

Definition store_of (s : string) : info :=
  match process_input_file (Some (list_ascii_of_string s)) (Heap info0 info0) with Some (h, _, _) => h_self h | None => info0 end.
Definition structs_of (i : info) : list struct_S := map snd (i_structs (find_top (fst (fixup i)))).

(** *** C23: the entry points among the functions of the file.  [file_funs]: what the
    text of the file reads back as (Pipeline.v, C54). *)
Theorem C23_emitted_entry_points : forall b i o, b <> B_ini -> forall n,
  ((exists d, In d (file_funs b (map snd (i_structs i)) o) /\ d = rff_fun b (o_reader o) n) <->
   exists s, In s (map snd (i_structs i)) /\ s_name s = n /\ s_incoming s = 0) /\
  (o_only_read o = false ->
   ((exists d, In d (file_funs b (map snd (i_structs i)) o) /\ d = wtf_fun b (o_writer o) n) <->
    exists s, In s (map snd (i_structs i)) /\ s_name s = n /\ s_incoming s = 0)).
Proof. exact entry_points. Qed.
Print Assumptions C23_emitted_entry_points.

(** *** C25.  [generated]: what process_items returns when its files can be written. *)
Theorem C25_result : forall E b base i inputs o w d, dir_for E base o = Some d -> skipped (o_structs_file o) = false ->
  e_write E (cpp_path E d (o_structs_file o)) = true -> e_write E (h_path E d (o_structs_file o)) = true ->
  exists w', process_items E b base i inputs o w = Go (find_top (fst (fixup i)), generated b i o) w'.
Proof. exact items_result. Qed.
Theorem C25_success_means_known : forall br i x b o, reach br (Heap i x) -> (b = B_xml_attrib \/ b = B_xml) ->
  (generated b i o = true <->
   forall n s c, mfind n (i_structs i) = Some s -> In c (s_complex s) ->
     match sc_type c with enum_or_struct_E => declared i (sc_tname c) | unknown_E => False | _ => True end).
Proof. intros br i x b o R. apply generated_xml, (reach_wf _ _ _ R). Qed.
(** A vector of something else than a struct is called for but not defined. *)
Theorem C25_vector_not_checked : forall b ss cls s c, (b = B_xml_attrib \/ b = B_xml) -> In s ss -> In c (s_complex s) -> sc_type c = vector_E ->
  prefix "do_" cls = false -> ~ In (sc_tname c) (map s_name ss) ->
  (exists d, In d (reader_funs b ss cls) /\ In (pre_do (sc_tname c)) (f_calls d)) /\
  definitions cls (pre_do (sc_tname c)) (reader_funs b ss cls) = 0.
Proof. exact vector_call. Qed.
Print Assumptions C25_success_means_known.
Example C25_case_known : let i := store_of "enum e { a }; struct u { int k; }; struct t { e x; u y; };" in
  generated B_xml_attrib i single_spec = true /\ generated B_xml i single_spec = true.
Proof. vm_compute. split; reflexivity. Qed.
Example C25_case_unknown : let i := store_of "struct t { e x; u y; };" in
  generated B_xml_attrib i single_spec = false /\ generated B_xml i single_spec = false.
Proof. vm_compute. split; reflexivity. Qed.
(** struct t with a vector of v, which is declared nowhere: success, and no do_v. *)
Example C25_case_vector : let i := store_of "struct t { std::vector<v> x; };" in
  generated B_xml_attrib i single_spec = true /\
  map (fun d => (fd_name d, f_calls d)) (reader_funs B_xml_attrib (structs_of i) "R") =
    [(["R"; "R"], []); (["R"; "read_from_file"], ["do_t"]); (["R"; "do_t"], ["do_v"])].
Proof. vm_compute. split; reflexivity. Qed.

(** *** C26 *)
Theorem C26_reader_calls_defined : forall b ss, (b = B_xml_attrib \/ b = B_xml) -> elements_known ss -> NoDup (map s_name ss) ->
  forall cls d x, prefix "do_" cls = false -> In d (reader_funs b ss cls) -> In x (f_calls d) ->
  x = "find_element" \/ prefix "do_" x = true /\ definitions cls x (reader_funs b ss cls) = 1.
Proof. exact reader_calls. Qed.
Theorem C26_writer_calls_defined : forall b ss, (b = B_xml_attrib \/ b = B_xml) -> elements_known ss -> NoDup (map s_name ss) ->
  forall cls rd nd d x, prefix "do_" cls = false -> In d (writer_funs b ss cls rd nd) -> In x (f_calls d) ->
  prefix "do_wr_" x = true /\ definitions cls x (writer_funs b ss cls rd nd) = 1.
Proof. exact writer_calls. Qed.
Theorem C26_from_definitions : forall ds i, built ds i -> NoDup (map def_name ds) -> vectors_of_structs ds ->
  elements_known (structs_of i) /\ NoDup (map s_name (structs_of i)).
Proof. exact built_elements. Qed.
Print Assumptions C26_reader_calls_defined.
Print Assumptions C26_from_definitions.
Print Assumptions C26_writer_calls_defined.
Example C26_case : let ss := structs_of (store_of "enum e { a }; struct u { int k; e x; }; struct t { u y; std::vector<u> z; int q; };") in
  elements_known ss /\ NoDup (map s_name ss) /\
  flat_map f_calls (reader_funs B_xml ss "R") = ["do_t"; "find_element"; "do_u"; "do_u"; "find_element"; "find_element"] /\
  flat_map f_calls (writer_funs B_xml ss "W" "R" false) = ["do_wr_t"; "do_wr_u"; "do_wr_u"].
Proof.
  set (ss := structs_of _). assert (E : ss = ltac:(let x := eval vm_compute in ss in exact x)) by (vm_compute; reflexivity). clearbody ss. subst ss.
  split; [|split; [|split; vm_compute; reflexivity]].
  - intros s c [<-|[<-|[]]] [<-|H]; cbn in *; intuition; subst; cbn in *; auto; try discriminate.
  - repeat constructor; cbn; intuition discriminate.
Qed.

(** *** C27 *)
Theorem C27_order_free : forall cs cs' ds ds', text_of cs ds -> text_of cs' ds' -> Permutation ds ds' -> NoDup (map def_name ds) ->
  exists h h' m m', process_input_file (Some cs) (Heap info0 info0) = Some (h, true, m) /\
    process_input_file (Some cs') (Heap info0 info0) = Some (h', true, m') /\
    let i := find_top (fst (fixup (h_self h))) in let i' := find_top (fst (fixup (h_self h'))) in
    snd (fixup (h_self h)) = snd (fixup (h_self h')) /\
    (forall inputs cpp hd info, enum_files i inputs cpp hd info = enum_files i' inputs cpp hd info) /\
    (forall b inputs o cpp hd info, struct_files b i inputs o cpp hd info = struct_files b i' inputs o cpp hd info).
Proof. exact order_free. Qed.
Print Assumptions C27_order_free.
Example C27_case : let i := store_of "enum e { a }; struct u { int k; e x; }; struct t { u y; };" in
  let i' := store_of "struct t { u y; }; struct u { int k; e x; }; enum e { a };" in
  find_top (fst (fixup i)) <> info0 /\
  enum_files (find_top (fst (fixup i))) [] "e.cpp" "e.h" "" = enum_files (find_top (fst (fixup i'))) [] "e.cpp" "e.h" "" /\
  map c_args (fst (struct_files B_xml (find_top (fst (fixup i))) [] single_spec "s.cpp" "s.h" "")) <> [].
Proof. vm_compute. split; [discriminate|]. split; [reflexivity|discriminate]. Qed.

(** *** C28.  [line_text]: the literal parts of the format string and the arguments as
    they are. *)
Theorem C28_enum_lines : forall i inputs cpp h s c, In c (enum_files i inputs cpp h s) ->
  println (c_t c) (c_args c) = Some (line_text (c_t c) (c_args c) ++ NL)%string.
Proof. intros i inputs cpp h s c. apply good_line, good_enum_files. Qed.
Theorem C28_struct_lines : forall b i inputs o cpp h s c, In c (fst (struct_files b i inputs o cpp h s)) ->
  println (c_t c) (c_args c) = Some (line_text (c_t c) (c_args c) ++ NL)%string.
Proof. intros b i inputs o cpp h s c. apply good_line, good_struct_files. Qed.
Theorem C28_files : forall b i inputs o cpp h s to,
  (exists t, render to (enum_files i inputs cpp h s) = Some t) /\
  (exists t, render to (fst (struct_files b i inputs o cpp h s)) = Some t).
Proof. intros. split; apply render_good; [apply good_enum_files|apply good_struct_files]. Qed.
Print Assumptions C28_struct_lines.
(** A name that looks like a format string is only text. *)
Example C28_case : line_text (Some [Lit "bool "; Arg 0; Lit "::do_"; Arg 1; Lit "()"]) ["R{}"; "{0}"] = "bool R{}::do_{0}()".
Proof. reflexivity. Qed.

(** *** C44 *)
Theorem C44_ini_refuses_structs : forall i o, (exists n s, mfind n (i_structs i) = Some s) -> generated B_ini i o = false.
Proof. exact generated_ini. Qed.
Theorem C44_n_ini_refuses_vectors : forall i o n s c, mfind n (i_structs i) = Some s -> In c (s_complex s) ->
  sc_type c = vector_E -> generated B_n_ini i o = false.
Proof. exact generated_n_ini. Qed.
Print Assumptions C44_n_ini_refuses_vectors.
Example C44_case :
  generated B_n_ini (store_of "struct u { int k; }; struct t { u y; };") single_spec = true /\
  generated B_n_ini (store_of "struct u { int k; }; struct t { std::vector<u> y; };") single_spec = false /\
  generated B_ini (store_of "struct u { int k; };") single_spec = false /\
  generated B_ini (store_of "enum e { a };") single_spec = true.
Proof. vm_compute. repeat split. Qed.
