(** Property theorems about the program: C46-C49 and C54-C58. *)
From Coq Require Import String Ascii ZArith NArith Arith List Bool Lia.
From Verif Require Import Base Map Flex Items Bison Grammar ParseLang Store Resolve StoreProps StoreDefs ResolveProps
  Fmt Decimal Templates MainTemplates Emit Cpp SymLex Ast Val Prog Header Link Main MainProps RunProps Pipeline EmitProps.
Import ListNotations.
Local Open Scope string_scope.
Local Open Scope list_scope.

(** A file system for the cases: everything exists and is canonical, files are those
    given; [no]: the files that cannot be written; directories can be made except those
    below /no. *)
Definition demo (disk : list (string * string)) (no : list string) (c : conf_read) : env :=
  Env "today" "/" (fun p => match Cpp.assoc p disk with Some _ => true | None => false end) Some
      (fun p => negb (prefix "/no" p)) (fun p => option_map list_ascii_of_string (Cpp.assoc p disk))
      (fun p => negb (existsb (String.eqb p) no)) (fun _ => c) (fun t => Decimal.zdec t).
Definition status (r : ran Z) : option Z := match r with Go z _ => Some z | Stop _ => None end.
Definition files_of (r : ran Z) : list string := map fst (w_files match r with Go _ w => w | Stop w => w end).
Definition h1 : string := "struct t { int a; u b; }; enum e { x };".

(** *** C46.  [good_input]: the file can be opened and is a text of the language (of the
    grammar in Grammar.v, of the lexical rules in ParseLang.v). *)
Theorem C46_header_status : forall E argv0 a rest p, e_exists E a = true -> e_canonical E a = Some p -> extension E p <> ".stfx" ->
  exists r w, stfx E argv0 (a :: rest) = Go (if r : bool then 0%Z else 1%Z) w /\
  (r = true <-> good_input (e_disk E p)) /\
  exists info h m, stfx_info (e_stamp E) = Some info /\
    process_input_file (e_disk E p) (Heap info0 info0) = Some (h, r, m) /\
    let i := find_top (fst (fixup (h_self h))) in
    w_files w = if r then puts (enum_output E (parent E p) info i [file_name E p] single_spec ++
                                struct_output E B_xml_attrib (parent E p) info i [file_name E p] single_spec) []
                else [].
Proof. exact header_run. Qed.
Theorem C46_no_such_file : forall E argv0 a rest, e_exists E a = false -> exists w, stfx E argv0 (a :: rest) = Go 1%Z w /\ w_files w = [].
Proof. exact missing_run. Qed.
Theorem C46_no_arguments : forall E argv0, exists w, stfx E argv0 [] = Go 1%Z w /\ w_files w = [].
Proof. exact no_args_run. Qed.
Print Assumptions C46_header_status.
(** The type u is unknown: exit status 0 all the same; also if nothing can be written. *)
Example C46_case : let go d no := stfx (demo d no CFail) "stfx" ["/d/a.h"] in
  (status (go [("/d/a.h", h1)] []), files_of (go [("/d/a.h", h1)] [])) =
    (Some 0%Z, ["/d/enums.cpp"; "/d/enums.h"; "/d/structs.cpp"; "/d/structs.h"]) /\
  (status (go [("/d/a.h", h1)] ["/d/enums.cpp"; "/d/structs.cpp"]), files_of (go [("/d/a.h", h1)] ["/d/enums.cpp"; "/d/structs.cpp"])) = (Some 0%Z, []) /\
  (status (go [("/d/a.h", "struct t { int a }")] []), files_of (go [("/d/a.h", "struct t { int a }")] [])) = (Some 1%Z, []) /\
  status (go [] []) = Some 1%Z.
Proof. vm_compute. repeat split. Qed.

(** *** C47.  [blocked]: the directory of an output that is to be written cannot be made. *)
Theorem C47_config_status : forall E argv0 a rest p, e_exists E a = true -> e_canonical E a = Some p -> extension E p = ".stfx" ->
  match e_conf E (e_disk E p) with
  | CFail => exists w, stfx E argv0 (a :: rest) = Go 1%Z w /\ w_files w = []
  | CStop => exists w, stfx E argv0 (a :: rest) = Stop w /\ w_files w = []
  | CRead c =>
      exists w, stfx E argv0 (a :: rest) = (if existsb (blocked E (parent E p)) (outputs c) then Stop w else Go 0%Z w) /\
      (forall q, Cpp.assoc q (w_files w) <> None -> In q (flat_map (paths_of E (parent E p)) (outputs c))) /\
      (existsb (blocked E (parent E p)) (outputs c) = false ->
       forall q, In q (flat_map (paths_of E (parent E p)) (outputs c)) -> Cpp.assoc q (w_files w) <> None)
  end.
Proof. exact config_run. Qed.
Print Assumptions C47_config_status.
Definition o_at (d e s : string) : output_spec := OutputSpec d e s "R" "W" ft_xml false false.
(** Two inputs, of which one is missing and one is no header: exit status 0. *)
Definition conf1 : conf := Conf ["a.h"; "none.h"] (1%Z, o_at "" "e" "s") [(["bad.h"], (0%Z, o_at "out" "-" "q")); ([], (7%Z, o_at "" "x" "y"))].
Example C47_case : let d := [("/d/c.stfx", ""); ("/d/a.h", h1); ("/d/bad.h", "enum {")] in
  let r := stfx (demo d [] (CRead conf1)) "stfx" ["/d/c.stfx"] in
  (status r, files_of r) = (Some 0%Z, ["/d/e.cpp"; "/d/e.h"; "/d/s.cpp"; "/d/s.h"; "/d/out/q.cpp"; "/d/out/q.h"]) /\
  status (stfx (demo d [] CFail) "stfx" ["/d/c.stfx"]) = Some 1%Z /\
  status (stfx (demo d [] (CRead (Conf [] (1%Z, o_at "/no/where" "e" "s") []))) "stfx" ["/d/c.stfx"]) = None.
Proof. vm_compute. repeat split. Qed.

(** *** C48.  The files of an output, for names that do not end in a separator; with C46
    and C47: nothing else is written. *)
Theorem C48_paths : forall E d x, usual_sep E -> names_file E x = true ->
  cpp_path E d x = (join E d x ++ ".cpp")%string /\ h_path E d x = (join E d x ++ ".h")%string.
Proof. exact paths. Qed.
Theorem C48_files_of_an_output : forall E b base i inputs o w info d, usual_sep E -> stfx_info (e_stamp E) = Some info -> dir_for E base o = Some d ->
  let i2 := find_top (fst (fixup i)) in
  let ec := (join E d (o_enum_file o) ++ ".cpp")%string in let eh := (join E d (o_enum_file o) ++ ".h")%string in
  let sc := (join E d (o_structs_file o) ++ ".cpp")%string in let sh := (join E d (o_structs_file o) ++ ".h")%string in
  exists w', process_items E b base i inputs o w = Go (i2, snd (fixup i) && struct_ok_result E b d i2 o)%bool w' /\
  (skipped (o_enum_file o) = false -> names_file E (o_enum_file o) = true -> e_write E ec = true -> e_write E eh = true ->
   (skipped (o_structs_file o) = true \/ names_file E (o_structs_file o) = true /\ join E d (o_enum_file o) <> join E d (o_structs_file o)) ->
   let cs := enum_files i2 inputs (file_name E ec) (file_name E eh) info in
   Cpp.assoc ec (w_files w') = render T_cpp cs /\ Cpp.assoc eh (w_files w') = render T_h cs) /\
  (skipped (o_structs_file o) = false -> names_file E (o_structs_file o) = true -> e_write E sc = true -> e_write E sh = true ->
   let cs := fst (struct_files b i2 inputs o (file_name E sc) (file_name E sh) info) in
   Cpp.assoc sc (w_files w') = render T_cpp cs /\ Cpp.assoc sh (w_files w') = render T_h cs).
Proof. exact written. Qed.
Theorem C48_skipped : forall E d x, x = "" \/ x = "-" -> pair_paths E d x = [].
Proof. intros E d x [->| ->]; reflexivity. Qed.
Print Assumptions C48_files_of_an_output.
Example C48_case : let E := demo [] [] CFail in
  usual_sep E /\ names_file E "sub/e" = true /\ cpp_path E "/d" "sub/e" = "/d/sub/e.cpp" /\ h_path E "/d" "sub/e" = "/d/sub/e.h" /\
  (* a name that ends in a separator *)
  names_file E "sub/" = false /\ cpp_path E "/d" "sub/" = "/d/sub/.cpp" /\ h_path E "/d" "sub/" = "/d/sub/.cpp.h".
Proof. split; [now left|]. vm_compute. repeat split. Qed.

(** *** C49 *)
Theorem C49_read_only : forall b ss o d, o_only_read o = true -> In d (file_funs b ss o) -> exists f, fd_name d = [o_reader o; f].
Proof. exact read_only. Qed.
(** The result: nothing about the enum files; the struct files must have been opened. *)
Theorem C49_result : forall E b base i inputs o w d, dir_for E base o = Some d ->
  exists w', process_items E b base i inputs o w =
    Go (find_top (fst (fixup i)), snd (fixup i) && (skipped (o_structs_file o) ||
        e_write E (cpp_path E d (o_structs_file o)) && e_write E (h_path E d (o_structs_file o)) &&
        translated b (find_top (fst (fixup i))) o))%bool w'.
Proof.
  intros E b base i inputs o w d D. destruct (stamp_text E) as [info SI].
  destruct (process_items_spec E b base i inputs o w info SI) as [(d' & D' & l & ->)|[D' _]]; [|congruence].
  rewrite D in D'. injection D' as <-. eexists. reflexivity.
Qed.
Print Assumptions C49_result.
Definition result (r : ran (info * bool)) : option bool := match r with Go (_, b) _ => Some b | Stop _ => None end.
Example C49_case :
  let go no := result (process_items (demo [] no CFail) B_xml "/d" info0 [] (o_at "" "e" "s") (World [] [])) in
  go [] = Some true /\ go ["/d/e.cpp"; "/d/e.h"] = Some true /\ go ["/d/s.cpp"] = Some false /\ go ["/d/s.h"] = Some false.
Proof. vm_compute. repeat split. Qed.

(** *** C54.  From the command line to the program in the files.  [has_program]: the
    source files read back as the functions for the definitions of the input; [header_ok]:
    what makes the generated code compile. *)
Theorem C54_header_to_program : forall E argv0 a rest p cs ds, usual_sep E -> plain (e_stamp E) = true ->
  e_exists E a = true -> e_canonical E a = Some p -> extension E p <> ".stfx" -> plain (file_name E p) = true ->
  e_disk E p = Some cs -> text_of cs ds -> header_ok "xml_reader_C" "xml_writer_C" ds = true ->
  (forall q, In q (four E (parent E p) single_spec) -> e_write E q = true) ->
  exists w, stfx E argv0 (a :: rest) = Go 0%Z w /\ has_program E B_xml_attrib ds [file_name E p] (parent E p) single_spec w.
Proof. exact header_program. Qed.
Theorem C54_config_to_programs : forall E argv0 a rest p c dssc dsss, usual_sep E -> plain (e_stamp E) = true ->
  e_exists E a = true -> e_canonical E a = Some p -> extension E p = ".stfx" -> e_conf E (e_disk E p) = CRead c ->
  let base := parent E p in let dsc := concat dssc in
  reads E base (c_in c) dssc -> NoDup (map def_name dsc) -> closed dsc ->
  Forall2 (fun s dss => reads E base (fst s) dss /\ NoDup (map def_name (dsc ++ concat dss))) (c_non c) dsss ->
  (forall s f, In s (c_non c) -> In f (fst s) -> ~ In (join E base f) (flat_map (paths_of E base) (outputs c))) ->
  existsb (blocked E base) (outputs c) = false ->
  exists w, stfx E argv0 (a :: rest) = Go 0%Z w /\
  (forall t o b d, c_out c = (t, o) -> wanted E base dsc (c_in c) t o b d ->
    (forall q, In q (four E d o) -> ~ In q (flat_map (paths_of E base) (map snd (c_non c)))) ->
    has_program E b dsc (c_in c) d o w) /\
  (forall k fs t o dss b d, nth_error (c_non c) k = Some (fs, (t, o)) -> nth_error dsss k = Some dss ->
    wanted E base (dsc ++ concat dss) (c_in c ++ fs) t o b d ->
    (forall q, In q (four E d o) -> ~ In q (flat_map (paths_of E base) (map snd (skipn (S k) (c_non c))))) ->
    has_program E b (dsc ++ concat dss) (c_in c ++ fs) d o w).
Proof. exact config_program. Qed.
Print Assumptions C54_header_to_program.
Print Assumptions C54_config_to_programs.
Example C54_case : let E := demo [("/d/a.h", string_of_list_ascii sample_text)] [] CFail in
  usual_sep E /\ plain (e_stamp E) = true /\ e_exists E "/d/a.h" = true /\ e_canonical E "/d/a.h" = Some "/d/a.h" /\
  extension E "/d/a.h" = ".h" /\ plain (file_name E "/d/a.h") = true /\ e_disk E "/d/a.h" = Some sample_text /\
  header_ok "xml_reader_C" "xml_writer_C" sample_file = true /\
  (forall q, In q (four E (parent E "/d/a.h") single_spec) -> e_write E q = true).
Proof.
  split; [now left|]. split; [reflexivity|]. split; [reflexivity|]. split; [reflexivity|]. split; [reflexivity|]. split; [reflexivity|].
  split; [vm_compute; reflexivity|]. split; [vm_compute; reflexivity|]. intros q _. reflexivity.
Qed.

(** *** C55.  One name for both kinds of files. *)
Theorem C55_same_name_overwrites : forall E b base i inputs o w info d, usual_sep E -> stfx_info (e_stamp E) = Some info -> dir_for E base o = Some d ->
  o_enum_file o = o_structs_file o -> skipped (o_structs_file o) = false -> names_file E (o_structs_file o) = true ->
  let sc := (join E d (o_structs_file o) ++ ".cpp")%string in let sh := (join E d (o_structs_file o) ++ ".h")%string in
  e_write E sc = true -> e_write E sh = true ->
  let i2 := find_top (fst (fixup i)) in
  let cs := fst (struct_files b i2 inputs o (file_name E sc) (file_name E sh) info) in
  exists r w', process_items E b base i inputs o w = Go (i2, r) w' /\
  Cpp.assoc sc (w_files w') = render T_cpp cs /\ Cpp.assoc sh (w_files w') = render T_h cs /\
  forall q, q <> sc -> q <> sh -> Cpp.assoc q (w_files w') = Cpp.assoc q (w_files w).
Proof. exact same_name_overwrites. Qed.
Print Assumptions C55_same_name_overwrites.
Example C55_case : let E := demo [("/d/c.stfx", ""); ("/d/a.h", "enum e { x };")] [] (CRead (Conf ["a.h"] (1%Z, o_at "" "s" "s") [])) in
  match stfx E "stfx" ["/d/c.stfx"] with
  | Go 0%Z w => map fst (w_files w) = ["/d/s.cpp"; "/d/s.h"] /\
                option_map read_cpp (Cpp.assoc "/d/s.cpp" (w_files w)) = Some (Some (file_funs B_xml [] (o_at "" "s" "s")))
  | _ => False
  end.
Proof. vm_compute. split; reflexivity. Qed.

(** *** C56.  A header called structs.h is overwritten by the code generated from it. *)
Theorem C56_structs_h_overwritten : forall E argv0 a rest p ds cs, usual_sep E ->
  e_exists E a = true -> e_canonical E a = Some p -> extension E p <> ".stfx" ->
  e_disk E p = Some cs -> text_of cs ds ->
  p = (join E (parent E p) "structs" ++ ".h")%string ->
  e_write E (join E (parent E p) "structs" ++ ".cpp")%string = true -> e_write E p = true ->
  exists w i t info, stfx E argv0 (a :: rest) = Go 0%Z w /\ stfx_info (e_stamp E) = Some info /\
    render T_h (fst (struct_files B_xml_attrib i [file_name E p] single_spec "structs.cpp" "structs.h" info)) = Some t /\
    Cpp.assoc p (w_files w) = Some t.
Proof. exact structs_h_overwritten. Qed.
Print Assumptions C56_structs_h_overwritten.
Example C56_case : let E := demo [("/d/structs.h", string_of_list_ascii sample_text)] [] CFail in
  let p := "/d/structs.h" in
  usual_sep E /\ e_exists E p = true /\ e_canonical E p = Some p /\ extension E p = ".h" /\ e_disk E p = Some sample_text /\
  p = (join E (parent E p) "structs" ++ ".h")%string.
Proof. split; [now left|]. vm_compute. repeat split. Qed.

(** *** C57.  The second of two files cannot be opened: the first is left empty. *)
Theorem C57_half_written : forall E b base i inputs o w info d, usual_sep E -> stfx_info (e_stamp E) = Some info -> dir_for E base o = Some d ->
  skipped (o_structs_file o) = false -> names_file E (o_structs_file o) = true ->
  let sc := (join E d (o_structs_file o) ++ ".cpp")%string in let sh := (join E d (o_structs_file o) ++ ".h")%string in
  e_write E sc = true -> e_write E sh = false ->
  exists i' w', process_items E b base i inputs o w = Go (i', false) w' /\ Cpp.assoc sc (w_files w') = Some "".
Proof. exact half_written. Qed.
Print Assumptions C57_half_written.
Example C57_case : match stfx (demo [("/d/a.h", h1)] ["/d/structs.h"] CFail) "stfx" ["/d/a.h"] with
  | Go 0%Z w => Cpp.assoc "/d/structs.cpp" (w_files w) = Some ""%string /\ Cpp.assoc "/d/structs.h" (w_files w) = None
  | _ => False end.
Proof. vm_compute. split; reflexivity. Qed.
