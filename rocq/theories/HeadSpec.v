(** What the emitted headers should declare.  Stated on the syntax of Cpp.v and CppH.v,
    without the generator. *)
From Coq Require Import String Ascii ZArith NArith Arith List Bool Lia.
From Verif Require Import Base Items Fmt Emit Cpp CppH.
Import ListNotations.
Local Open Scope string_scope.
Local Open Scope list_scope.

(** *** Declarations and definitions *)
(** Result type, qualified name, parameters. *)
Definition signature := (option ctype * list string * list (ctype * string))%type.
Definition def_sig (f : fdef) : signature := (fd_type f, fd_name f, fd_params f).
Definition member_sig (scope : string) (m : hmember) : list signature :=
  match m with HFun _ ty n ps => [(ty, [scope; n], map fst ps)] | _ => [] end.
(** The functions that a declaration announces. *)
Definition decl_sigs (d : hdecl) : list signature :=
  match d with
  | HClass c _ ms => flat_map (fun m => member_sig c (snd m)) ms
  | HSpace n ms => flat_map (member_sig n) ms
  | HFormat _ _ _ _ => []
  end.
(** What the compiler distinguishes overloaded functions by. *)
Definition overload (s : signature) : list string * list ctype := (snd (fst s), map fst (snd s)).

(** *** The classes *)
Definition h_bool := CT [""; "bool"] [] RVal.
Definition h_str := CT ["std"; "string"] [] RVal.
Definition h_name : hparam := (CT ["std"; "string"] [] RRef, "filename", None).
(** A constructor, an entry point, a function for one struct. *)
Definition h_ctor (cls : string) (ps : list hparam) := (a_public, HFun false None cls ps).
Definition h_entry (f p t : string) := (a_public, HFun true (Some h_bool) f [h_name; (CT [t] [] RRef, p, None)]).
Definition h_work (f : string) (ps : list hparam) := (a_protected, HFun false (Some h_bool) f ps).
Definition h_el : hparam := (CT ["tinyxml2"; "XMLElement"] [] RPtr, "el", None).
Definition h_where : hparam := (h_str, "path", None).
Definition h_data (t : string) (r : reft) : hparam := (CT [t] [] r, "data", None).

(** The data members. *)
Definition reader_data (b : backend) : list (access * hmember) :=
  match b with
  | B_xml_attrib | B_xml => []
  | B_ini | B_n_ini =>
      [(a_private, HStruct "read_item_S" [(CT ["std"; "map"] [["std"; "string"]; ["std"; "string"]] RVal, "items");
                                          (CT ["std"; "map"] [["std"; "string"]; ["read_item_S"]] RVal, "under")]);
       (a_private, HVar (CT ["read_item_S"] [] RVal) "m_lookup" None);
       (a_private, HVar h_str "m_multiline_string_key" None);
       (a_private, HVar h_str "m_multiline_string_value" None)]
  end.
Definition writer_data (b : backend) : list (access * hmember) :=
  (a_private, HVar h_bool "m_delta_only" (Some [])) ::
  match b with
  | B_xml_attrib | B_xml => []
  | B_ini | B_n_ini => [(a_private, HVar (CT ["std"; "FILE"] [] RPtr) "m_file" (Some [ENull]))]
  end.
(** The function for one struct. *)
Definition reader_work (b : backend) (t : string) : list (access * hmember) :=
  match b with
  | B_xml_attrib | B_xml => [h_work ("do_" ++ t) [h_el; h_data t RPtr]]
  | B_n_ini => [h_work ("do_rd_" ++ t) [h_where; h_data t RRef]]
  | B_ini => []
  end.
Definition writer_work (b : backend) (t : string) : list (access * hmember) :=
  match b with
  | B_xml_attrib | B_xml => [h_work ("do_wr_" ++ t) [h_el; h_data t RPtr]]
  | B_n_ini => [h_work ("do_wr_" ++ t) [h_where; h_data t RPtr]]
  | B_ini => []
  end.
(** [ts]: all structs, [es]: those with an entry point. *)
Definition reader_class (b : backend) (es ts : list string) (cls : string) : hdecl :=
  HClass cls None
    (reader_data b ++ [h_ctor cls []] ++ map (h_entry "read_from_file" "struct_to_fill") es ++ flat_map (reader_work b) ts).
Definition writer_class (b : backend) (es ts : list string) (cls rd : string) : hdecl :=
  HClass cls (Some rd)
    (writer_data b ++ [h_ctor cls [(h_bool, "delta_only", Some (EBool true))]] ++
     map (h_entry "write_to_file" "struct_to_read") es ++ flat_map (writer_work b) ts).

(** *** The enumerations *)
Definition enum_decls (n : string) : list hmember :=
  [HFun false (Some h_str) "s_from_e" [(CT [n] [] RVal, "e", None)];
   HFun false (Some h_bool) "s_to_e" [(h_str, "s", None); (CT [n] [] RRef, "e", None)]].
(** The formatter hands the text of s_from_e to the formatter of texts. *)
Definition enum_formatter (n : string) : hdecl :=
  HFormat n [(CT [n] [] RVal, "c"); (CT ["FormatContext"] [] RRef, "ctx")]
    [SDecl h_str "str" (Some (ECall (EId ["stfx"; "s_from_e"]) [EId ["c"]]));
     SDecl (CT ["string_view"] [] RVal) "name" (Some (EId ["str"]))] "name".
Definition enum_header (ns : list string) : list hdecl := HSpace "stfx" (flat_map enum_decls ns) :: map enum_formatter ns.
