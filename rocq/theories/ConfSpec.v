(** The configuration file (.stfx): the reader that main uses is itself generated code,
    configuration/structs.cpp and enums.cpp.  Here: how main calls it, and what a
    configuration document is to mean, said without the generated code. *)
From Coq Require Import String Ascii ZArith NArith Arith List Bool Lia.
From Verif Require Import Base Map Flex Items Grammar Fmt Decimal Templates Emit Shipped Cpp Xml Val CppSem Main.
Import ListNotations.
Local Open Scope string_scope.
Local Open Scope list_scope.

(** *** The declarations of configuration/config_data.h:10-54 *)
Definition kind_t := "serialization_type_E".
Definition spec_ms : list member :=
  [MSimple std_string_E "relative_directory" EmptyDefault; MSimple std_string_E "enum_file" EmptyDefault;
   MSimple std_string_E "structs_file" EmptyDefault;
   MSimple std_string_E "structs_reader_class" (Default (DStr """xml_reader_C"""));
   MSimple std_string_E "structs_writer_class" (Default (DStr """xml_writer_C"""));
   MUser kind_t "file_type" (Default (DEnum "serialization_type_E::xml_attrib"));
   MSimple bool_E "only_read_code" (Default DFalse); MSimple bool_E "no_special_delta" (Default DFalse)].
Definition conf_defs : list def :=
  [DefEnum true kind_t [Entry "xml_attrib" None; Entry "xml" None; Entry "ini" None; Entry "n_ini" None; Entry "json" None] false;
   DefStruct "output_spec" spec_ms;
   DefStruct "input_file" [MSimple std_string_E "name" NoDefault];
   DefStruct "input_spec" [MVector "input_file" "input"];
   DefStruct "uncommon_spec" [MVector "input_file" "input"; MUser "output_spec" "out" NoDefault];
   DefStruct "config" [MUser "input_spec" "common_in_files" NoDefault; MUser "output_spec" "common_out_files" NoDefault;
                       MVector "uncommon_spec" "non_common"]].
(** A C++ that gives the initialisers in config_data.h their values. *)
Record conf_lang (L : lang) : Prop := ConfLang {
  cl_defs : l_defs L = conf_defs;
  cl_long : (0 < l_long L)%Z;
  cl_reader : l_lit L TStd (DStr """xml_reader_C""") = VStr "xml_reader_C";
  cl_writer : l_lit L TStd (DStr """xml_writer_C""") = VStr "xml_writer_C";
  cl_kind : l_lit L (TEnum kind_t) (DEnum "serialization_type_E::xml_attrib") = VEnum kind_t 0;
  cl_flag : l_lit L (TNum KBool) DFalse = VNum KBool 0 }.

(** *** What main takes from the object conf *)
Definition kind_named (z : Z) : file_type :=
  match z with 0 => ft_xml_attrib | 1 => ft_xml | 2 => ft_ini | 3 => ft_n_ini | _ => ft_json end%Z.
Definition spec_in (v : val) : option (Z * output_spec) :=
  match v with
  | VStruct _ [(_, VStr d); (_, VStr e); (_, VStr s); (_, VStr r); (_, VStr w); (_, VEnum _ t); (_, VNum _ x); (_, VNum _ y)] =>
      Some (t, OutputSpec d e s r w (kind_named t) (negb (x =? 0)%Z) (negb (y =? 0)%Z))
  | _ => None
  end.
Fixpoint all {A B} (f : A -> option B) (l : list A) : option (list B) :=
  match l with
  | [] => Some []
  | x :: r => let? y := f x in let? q := all f r in Some (y :: q)
  end.
Definition file_in (v : val) : option string := match v with VStruct _ [(_, VStr n)] => Some n | _ => None end.
Definition files_in (v : val) : option (list string) := match v with VVec _ l => all file_in l | _ => None end.
Definition section_in (v : val) : option (list string * (Z * output_spec)) :=
  match v with
  | VStruct _ [(_, i); (_, o)] => let? fs := files_in i in let? s := spec_in o in Some (fs, s)
  | _ => None
  end.
Definition conf_in (v : val) : option conf :=
  match v with
  | VStruct _ [(_, VStruct _ [(_, i)]); (_, o); (_, VVec _ l)] =>
      let? fs := files_in i in let? s := spec_in o in let? ns := all section_in l in Some (Conf fs s ns)
  | _ => None
  end.

(** *** The call: main.cpp:101-107 *)
(** The functions of the two files in src/configuration. *)
Definition shipped_prog : option (list fdef) :=
  match read_cpp shipped_enums_cpp, read_cpp shipped_structs_cpp with Some a, Some b => Some (a ++ b) | _, _ => None end.
(** config conf; with the file [cs] under the name [p]. *)
Definition conf_start (p : string) (cs : option bytes) (d : val) : st :=
  St [[("conf", d); ("in_file", VStr p)]] (Text "") []
     (CppSem.World (match cs with Some b => [(cut p, CText (string_of_list_ascii b))] | None => [] end) None None).
Definition read_conf (L : lang) (P : list fdef) (wf f : nat) (p : string) (cs : option bytes) (d : val) : res val :=
  call_fun L P wf f ["xml_reader_C"; "read_from_file"] [(None, VStr p); (Some (LV false "conf" []), d)] (conf_start p cs d).
(** The outcome of the call, for main. *)
Inductive sees : res val -> conf_read -> Prop :=
| sees_read s v c : lookup "conf" (s_scopes s) = Some v -> conf_in v = Some c -> sees (Ok (vbool true) s) (CRead c)
| sees_fail s : sees (Ok (vbool false) s) CFail
| sees_undef : sees UB CStop.
(** [r] is what main gets from a file with content [cs]. *)
Definition answers (L : lang) (cs : option bytes) (r : conf_read) : Prop :=
  exists P d f0, shipped_prog = Some P /\ init L (init_fuel L) false (TStruct "config") = Some d /\
  forall f wf p, f0 <= f -> sees (read_conf L P wf f p cs d) r.

(** *** What a document means *)
Section Meaning.
Variable x : node.
Definition given (n d : string) : string := match attr n (attrs_of x) with Some s => s | None => d end.
(** true, false or a number; other texts count as absent.  [None]: a number that is too
    large (undefined in sscanf). *)
Definition flag (n : string) : option bool :=
  match attr n (attrs_of x) with
  | None => Some false
  | Some s => match to_bool s with Value z => Some (negb (z =? 0)%Z) | NoValue => Some false | Overflow => None end
  end.
Definition child (n : string) : option node :=
  find (fun y => match y with Elem m _ _ => String.eqb n m | Text _ => false end) (kids_of x).
Definition elements : list node := filter is_elem (kids_of x).
End Meaning.
(** A kind of file: one of the names, or what begins like a number; else xml_attrib. *)
Definition kind_text (s : string) : Z :=
  match assoc s [("xml_attrib", 0); ("xml", 1); ("ini", 2); ("n_ini", 3); ("json", 4)]%Z with
  | Some z => z
  | None => match scan_dec s with Some z => if in_int z then z else 0%Z | None => 0%Z end
  end.
Definition nothing : node := Text "".
Definition or_nothing (y : option node) : node := match y with Some y => y | None => nothing end.
Definition out_of (x : node) : option (Z * output_spec) :=
  let? a := flag x "only_read_code" in
  let? b := flag x "no_special_delta" in
  let t := kind_text (given x "file_type" "xml_attrib") in
  Some (t, OutputSpec (given x "relative_directory" "") (given x "enum_file" "") (given x "structs_file" "")
             (given x "structs_reader_class" "xml_reader_C") (given x "structs_writer_class" "xml_writer_C") (kind_named t) a b).
(** The children of the element named input, whatever their names. *)
Definition inputs_of (x : node) : list string :=
  map (fun y => given y "name" "") (elements (or_nothing (child x "input"))).
Definition section_of (x : node) : option (list string * (Z * output_spec)) :=
  let? o := out_of (or_nothing (child x "out")) in Some (inputs_of x, o).
Definition conf_of (x : node) : option conf :=
  let? o := out_of (or_nothing (child x "common_out_files")) in
  let? ns := all section_of (elements (or_nothing (child x "non_common"))) in
  Some (Conf (inputs_of (or_nothing (child x "common_in_files"))) o ns).
(** A file: [None] cannot be opened; a document without elements has no meaning. *)
Definition conf_file (L : lang) (cs : option bytes) : conf_read :=
  match cs with
  | None => CFail
  | Some b =>
      match l_parse L (string_of_list_ascii b) with
      | None => CFail
      | Some ks =>
          match find is_elem ks with
          | None => CStop
          | Some x => match conf_of x with Some c => CRead c | None => CStop end
          end
      end
  end.
