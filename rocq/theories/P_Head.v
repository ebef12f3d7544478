(** Property theorems about the generated headers and include directives: C73-C77. *)
From Coq Require Import String Ascii ZArith NArith Arith List Bool Lia.
From Verif Require Import Base Map Flex Items Bison Grammar ParseLang Store Resolve StoreProps StoreDefs ResolveProps ItemsEnd
  Fmt Decimal Templates Emit Cpp CppH Xml Val CppSem SymLex Ast HeadSpec PrintH Prog Header EnumSem EnumCall PrintFile Direct Link Main MainProps RunProps Pipeline HeadProps Found.
From Verif Require P_Enum P_Main.
Import ListNotations.
Local Open Scope string_scope.
Local Open Scope list_scope.

(** *** C73.  [has_program]: what a run leaves on the disk (C54); [file E d w n ext]: the
    text of the file [n] with extension [ext] in the output directory [d]. *)
(** Each function that one of the two headers declares is defined in its source file, with the
    same result type, class, name and parameters, and in the same order; nothing else is. *)
Theorem C73_declared_defined : forall E b ds ins d o w, has_program E b ds ins d o w ->
  forall n, n = o_enum_file o \/ n = o_structs_file o ->
  exists tc th fs hs, file E d w n ".cpp" = Some tc /\ file E d w n ".h" = Some th /\ read_cpp tc = Some fs /\ read_h th = Some hs /\
  flat_map decl_sigs hs = map def_sig fs.
Proof. exact declared_defined. Qed.
(** No two declarations with the same qualified name and parameter types. *)
Theorem C73_declared_once : forall E b ds ins d o w, has_program E b ds ins d o w -> forall n, o_reader o <> o_writer o ->
  n = o_enum_file o \/ n = o_structs_file o ->
  exists th hs, file E d w n ".h" = Some th /\ read_h th = Some hs /\ NoDup (map overload (flat_map decl_sigs hs)).
Proof. exact no_overload_twice. Qed.
(** Only the constructor has the name of the class ... *)
Theorem C73_class_names : forall E b ds ins d o w, has_program E b ds ins d o w ->
  prefix "do_" (o_reader o) = false -> o_reader o <> "read_from_file" ->
  (o_only_read o = false -> prefix "do_" (o_writer o) = false /\ o_writer o <> "write_to_file") ->
  exists th hs, file E d w (o_structs_file o) ".h" = Some th /\ read_h th = Some hs /\ Forall ctor_only hs.
Proof.
  intros E b ds ins d o w H R1 R2 W. destruct (classes_of E b ds ins d o w H) as (th & ts & es & F & _ & _ & _ & _ & RD).
  do 2 eexists. split; [exact F|]. split; [exact RD|]. constructor; [now apply reader_ctor|].
  destruct (o_only_read o); [constructor|]. destruct W as [W1 W2]; [reflexivity|]. constructor; [now apply writer_ctor|constructor].
Qed.
(** ... unless the configuration asks for a class named like one of its functions. *)
Theorem C73_any_class_name_refuted : exists b es ts cls, name_ok cls = true /\ ~ ctor_only (reader_class b es ts cls).
Proof.
  exists B_xml, ["t"], ["t"], "do_t". split; [reflexivity|]. intros H.
  destruct (H a_protected false (Some h_bool) "do_t" [h_el; h_data "t" RPtr]) as [X _]; [cbn; auto|]. discriminate (X eq_refl).
Qed.
Print Assumptions C73_declared_defined.
Print Assumptions C73_declared_once.
Print Assumptions C73_class_names.
Print Assumptions C73_any_class_name_refuted.

(** *** C74.  [reader_class], [writer_class]: who may call what, what is virtual, the data
    members and their initialisers, the base class and the default argument (HeadSpec.v). *)
Theorem C74_classes : forall E b ds ins d o w, has_program E b ds ins d o w ->
  exists th ts es, file E d w (o_structs_file o) ".h" = Some th /\ NoDup ts /\ NoDup es /\
  (forall t, In t ts <-> exists ms, In (DefStruct t ms) ds) /\ (forall t, In t es <-> In t ts /\ ~ used ds t) /\
  read_h th = Some (reader_class b es ts (o_reader o) :: if o_only_read o then [] else [writer_class b es ts (o_writer o) (o_reader o)]).
Proof. exact classes_of. Qed.
Print Assumptions C74_classes.

(** *** C75 *)
Theorem C75_enum_header : forall E b ds ins d o w, has_program E b ds ins d o w ->
  exists th ns, file E d w (o_enum_file o) ".h" = Some th /\ NoDup ns /\
  (forall n, In n ns <-> exists c es t, In (DefEnum c n es t) ds) /\ read_h th = Some (enum_header ns).
Proof. exact enums_of. Qed.
(** [formatted]: what the formatter in the header prints for a value; the text of
    C29: the first enumerator with the value, else the number. *)
Theorem C75_formatted : forall b enums ss o ds L, setting b enums ss o ds L -> forall wf c n es t, In (DefEnum c n es t) ds ->
  forall z f s, formatted L (call_fun L (prog b enums ss o) wf (S f)) wf (enum_formatter n) (VEnum n z) s =
    Ok (enum_text (enum_values L 0 es) z) s.
Proof. exact formats. Qed.
Print Assumptions C75_enum_header.
Print Assumptions C75_formatted.

(** *** C76.  [directives]: the lines whose first character that is not blank is #;
    [enum_cpp_includes] ... (Direct.v): the lines expected. *)
Theorem C76_directives : forall E b ds ins d o w, has_program E b ds ins d o w -> exists te he ts hs,
  file E d w (o_enum_file o) ".cpp" = Some te /\ file E d w (o_enum_file o) ".h" = Some he /\
  file E d w (o_structs_file o) ".cpp" = Some ts /\ file E d w (o_structs_file o) ".h" = Some hs /\
  directives te = enum_cpp_includes (file_name E (o_enum_file o) ++ ".h") ins /\ directives he = enum_h_includes ins /\
  directives ts = struct_cpp_includes b (o_only_read o) (file_name E (o_structs_file o) ++ ".h") (o_enum_file o) ins /\
  directives hs = struct_h_includes b ins.
Proof. exact includes_of. Qed.
(** [needed]: the standard and library headers that declare the types a header uses. *)
Theorem C76_enum_header_complete : forall E b ds ins d o w, has_program E b ds ins d o w ->
  exists th hs, file E d w (o_enum_file o) ".h" = Some th /\ read_h th = Some hs /\
  forall l, In l (flat_map needed hs) -> In l (directives th).
Proof. exact enum_header_needs. Qed.
(** The writer of an ini format has a std::FILE, but no header includes <cstdio>. *)
Theorem C76_struct_header_complete : forall E b ds ins d o w, has_program E b ds ins d o w ->
  exists th hs, file E d w (o_structs_file o) ".h" = Some th /\ read_h th = Some hs /\
  ((forall l, In l (flat_map needed hs) -> In l (directives th)) <-> b = B_xml_attrib \/ b = B_xml \/ o_only_read o = true).
Proof. exact struct_header_needs. Qed.
Print Assumptions C76_directives.
Print Assumptions C76_enum_header_complete.
Print Assumptions C76_struct_header_complete.

(** *** C77.  [found E p x]: where #include "x" in the file [p] is looked for first, beside
    [p]; [same_path]: the same names between the separators. *)
(** Each file finds its own header. *)
Theorem C77_own_header : forall E, usual_sep E -> forall d n,
  same_path E (found E (join E d n ++ ".cpp") (file_name E n ++ ".h")) (join E d n ++ ".h").
Proof. exact found_own. Qed.
(** The source for the structs finds the header of the enumerations exactly when its own name
    in the configuration has no directory. *)
Theorem C77_enum_header : forall E, usual_sep E -> forall d s e, absolute E s = false -> absolute E e = false ->
  same_path E (found E (join E d s ++ ".cpp") (e ++ ".h")) (join E d e ++ ".h") <-> parts E (parent E s) = [].
Proof. exact found_enums. Qed.
(** A generated file finds the input files exactly when it is in the directory of the configuration. *)
Theorem C77_inputs : forall E, usual_sep E -> forall d n e base f, an_ext e -> absolute E n = false -> absolute E f = false ->
  same_path E (found E (join E d n ++ e) f) (join E base f) <-> absolute E d = absolute E base /\ parts E d ++ parts E (parent E n) = parts E base.
Proof. exact found_input. Qed.
(** With everything in one directory, what is included is found: one of the two generated
    headers, or an input file. *)
Theorem C77_all_found : forall E b ds ins d o w, has_program E b ds ins d o w -> forall base, usual_sep E -> one_place E ins d o base ->
  forall n e t x, n = o_enum_file o \/ n = o_structs_file o -> an_ext e ->
  file E d w n e = Some t -> In (include_file x) (directives t) ->
  exists q, same_path E (found E (join E d n ++ e) x) q /\
    ((exists m, (m = o_enum_file o \/ m = o_structs_file o) /\ q = (join E d m ++ ".h")%string) \/ exists f, In f ins /\ q = join E base f).
Proof. exact all_found. Qed.
(** The files for a single header: the two generated headers, or the header itself. *)
Theorem C77_single_header : forall E argv0 a rest p cs ds, usual_sep E -> plain (e_stamp E) = true ->
  e_exists E a = true -> e_canonical E a = Some p -> extension E p <> ".stfx" -> plain (file_name E p) = true ->
  e_disk E p = Some cs -> text_of cs ds -> header_ok "xml_reader_C" "xml_writer_C" ds = true ->
  (forall q, In q (four E (parent E p) single_spec) -> e_write E q = true) ->
  exists w, stfx E argv0 (a :: rest) = Go 0%Z w /\
  forall n e t x, n = "enums" \/ n = "structs" -> an_ext e -> file E (parent E p) w n e = Some t -> In (include_file x) (directives t) ->
  exists q, same_path E (found E (join E (parent E p) n ++ e) x) q /\
    (q = (join E (parent E p) "enums" ++ ".h")%string \/ q = (join E (parent E p) "structs" ++ ".h")%string \/ q = p).
Proof.
  intros E argv0 a rest p cs ds U PS EX EC EXT PF DK T OK WR.
  destruct (header_program E argv0 a rest p cs ds U PS EX EC EXT PF DK T OK WR) as (w & R & HP). exists w. split; [exact R|].
  assert (O : one_place E [file_name E p] (parent E p) single_spec (parent E p)).
  { unfold one_place, single_spec. cbn [o_enum_file o_structs_file].
    assert (Z : forall s, (forall c, In c (list_ascii_of_string s) -> is_sep E c = false) -> absolute E s = false /\ parts E (parent E s) = []).
    { intros s Z. split; [destruct s; [reflexivity|apply Z; cbn; auto]|].
      assert (X : existsb (is_sep E) (list_ascii_of_string s) = false).
      { destruct (existsb _ _) eqn:X; [|reflexivity]. apply existsb_exists in X as (c & I & X). rewrite (Z c I) in X. discriminate. }
      pose proof (split_name E s) as Y. rewrite X in Y. destruct Y as [Y _]. unfold parent. rewrite Y. destruct s as [|c s]; [reflexivity|]. now rewrite Z by (cbn; auto). }
    destruct (Z "enums") as [Z1 Z2]; [intros c I; apply (usual_letters E c U); cbn in I; intuition (subst; discriminate)|].
    destruct (Z "structs") as [Z3 Z4]; [intros c I; apply (usual_letters E c U); cbn in I; intuition (subst; discriminate)|].
    repeat (split; [assumption || reflexivity|]). intros x [<-|[]]. apply relative_name. }
  intros n e t x N X F I. destruct (all_found E _ _ _ _ _ w HP (parent E p) U O n e t x N X F I) as (q & S & [(m & [->| ->] & ->)|(f & [<-|[]] & ->)]).
  - eauto.
  - eauto.
  - exists p. split; [|auto]. destruct S as [S1 S2]. split.
    + rewrite S1, absolute_join by apply relative_name. apply absolute_parent.
    + rewrite S2, parts_join by apply relative_name. symmetry. apply parts_parent.
Qed.
(** An output elsewhere: its files name the input files as the configuration does, so they
    are not beside them. *)
Theorem C77_other_directory_refuted : exists E d n e base f, usual_sep E /\ an_ext e /\ absolute E n = false /\ absolute E f = false /\
  join E base "out" = d /\ ~ same_path E (found E (join E d n ++ e) f) (join E base f).
Proof.
  exists (P_Main.demo [] [] CFail), "/d/out", "structs", ".h", "/d", "a.h". split; [now left|]. split; [now right|]. repeat (split; [reflexivity|]). intros [_ X]. vm_compute in X. discriminate.
Qed.
Print Assumptions C77_own_header.
Print Assumptions C77_enum_header.
Print Assumptions C77_inputs.
Print Assumptions C77_all_found.
Print Assumptions C77_single_header.
Print Assumptions C77_other_directory_refuted.

(** A header with two enumerations and two structs: what the files read back as. *)
Definition hx : string := "enum class en { a, b }; struct u { int k; }; struct t { u x; en y; };".
Definition hw : option Main.world :=
  match stfx (P_Main.demo [("/d/a.h", hx)] [] CFail) "stfx" ["/d/a.h"] with Go _ w => Some w | _ => None end.
Definition h_text (p : string) : option string := match hw with Some w => Cpp.assoc p (Main.w_files w) | None => None end.
Definition h_of (p : string) : option (list hdecl) := match h_text p with Some t => read_h t | None => None end.
Definition f_of (p : string) : option (list fdef) := match h_text p with Some t => read_cpp t | None => None end.
Example C73_case : option_map (fun hs => map overload (flat_map decl_sigs hs)) (h_of "/d/structs.h") =
  Some [(["xml_reader_C"; "xml_reader_C"], []);
        (["xml_reader_C"; "read_from_file"], [CT ["std"; "string"] [] RRef; CT ["t"] [] RRef]);
        (["xml_reader_C"; "do_t"], [CT ["tinyxml2"; "XMLElement"] [] RPtr; CT ["t"] [] RPtr]);
        (["xml_reader_C"; "do_u"], [CT ["tinyxml2"; "XMLElement"] [] RPtr; CT ["u"] [] RPtr]);
        (["xml_writer_C"; "xml_writer_C"], [h_bool]);
        (["xml_writer_C"; "write_to_file"], [CT ["std"; "string"] [] RRef; CT ["t"] [] RRef]);
        (["xml_writer_C"; "do_wr_t"], [CT ["tinyxml2"; "XMLElement"] [] RPtr; CT ["t"] [] RPtr]);
        (["xml_writer_C"; "do_wr_u"], [CT ["tinyxml2"; "XMLElement"] [] RPtr; CT ["u"] [] RPtr])] /\
  option_map (fun hs => flat_map decl_sigs hs) (h_of "/d/structs.h") = option_map (map def_sig) (f_of "/d/structs.cpp") /\
  option_map (fun hs => flat_map decl_sigs hs) (h_of "/d/enums.h") = option_map (map def_sig) (f_of "/d/enums.cpp").
Proof. vm_compute. repeat split. Qed.
Example C74_case : h_of "/d/structs.h" =
  Some [HClass "xml_reader_C" None
          [(a_public, HFun false None "xml_reader_C" []);
           (a_public, HFun true (Some (CT [""; "bool"] [] RVal)) "read_from_file"
              [(CT ["std"; "string"] [] RRef, "filename", None); (CT ["t"] [] RRef, "struct_to_fill", None)]);
           (a_protected, HFun false (Some (CT [""; "bool"] [] RVal)) "do_t"
              [(CT ["tinyxml2"; "XMLElement"] [] RPtr, "el", None); (CT ["t"] [] RPtr, "data", None)]);
           (a_protected, HFun false (Some (CT [""; "bool"] [] RVal)) "do_u"
              [(CT ["tinyxml2"; "XMLElement"] [] RPtr, "el", None); (CT ["u"] [] RPtr, "data", None)])];
        HClass "xml_writer_C" (Some "xml_reader_C")
          [(a_private, HVar (CT [""; "bool"] [] RVal) "m_delta_only" (Some []));
           (a_public, HFun false None "xml_writer_C" [(CT [""; "bool"] [] RVal, "delta_only", Some (EBool true))]);
           (a_public, HFun true (Some (CT [""; "bool"] [] RVal)) "write_to_file"
              [(CT ["std"; "string"] [] RRef, "filename", None); (CT ["t"] [] RRef, "struct_to_read", None)]);
           (a_protected, HFun false (Some (CT [""; "bool"] [] RVal)) "do_wr_t"
              [(CT ["tinyxml2"; "XMLElement"] [] RPtr, "el", None); (CT ["t"] [] RPtr, "data", None)]);
           (a_protected, HFun false (Some (CT [""; "bool"] [] RVal)) "do_wr_u"
              [(CT ["tinyxml2"; "XMLElement"] [] RPtr, "el", None); (CT ["u"] [] RPtr, "data", None)])]].
Proof. vm_compute. reflexivity. Qed.
Example C75_case : h_of "/d/enums.h" = Some (enum_header ["en"]) /\
  formatted P_Enum.eL (call_fun P_Enum.eL P_Enum.eP 9 9) 9 (enum_formatter "en") (VEnum "en" 4) (P_Enum.var VVoid) = Ok "b"%string (P_Enum.var VVoid) /\
  formatted P_Enum.eL (call_fun P_Enum.eL P_Enum.eP 9 9) 9 (enum_formatter "en") (VEnum "en" 9) (P_Enum.var VVoid) = Ok "9"%string (P_Enum.var VVoid).
Proof. vm_compute. repeat split. Qed.
Example C76_case : option_map directives (h_text "/d/structs.cpp") =
    Some ["#include ""structs.h"""; "#include <string>"; "#include <map>"; "#include <stdexcept>"; "#include <tinyxml2.h>"; "#include <tixml2ex.h>";
          "#include ""enums.h"""; "#include ""a.h"""] /\
  option_map directives (h_text "/d/enums.h") = Some ["#pragma once"; "#include <string>"; "#include <fmt/format.h>"; "#include ""a.h"""] /\
  flat_map needed [writer_class B_ini ["t"] ["t"] "w" "r"] = ["#include <cstdio>"; "#include <string>"].
Proof. vm_compute. repeat split. Qed.
Example C77_case : let E := P_Main.demo [] [] CFail in
  found E "/d/structs.cpp" "enums.h" = "/d/enums.h" /\ found E "/d/sub/structs.cpp" "sub/enums.h" = "/d/sub/sub/enums.h" /\
  parts E "/d//sub/x" = ["d"; "sub"; "x"] /\ parts E (parent E "sub/structs") = ["sub"] /\
  one_place E ["a.h"] "/d" single_spec "/d/".
Proof. vm_compute. repeat split. intros x [<-|[]]. reflexivity. Qed.
