(** The functions of the generated files, as syntax.  These are the trees that the reader
    of Cpp.v finds in the printed text; that it does is proved in Print*.v. *)
From Coq Require Import String Ascii ZArith NArith Arith List Bool Lia.
From Verif Require Import Base Map Items Fmt Templates Emit Cpp.
Import ListNotations.
Local Open Scope string_scope.
Local Open Scope list_scope.

(** *** Building blocks *)
Definition t_bool := CT [""; "bool"] [] RVal.
Definition t_el := CT ["tinyxml2"; "XMLElement"] [] RPtr.
Definition e_id (x : string) := EId [x].
Definition e_data (n : string) := EMem true (EId ["data"]) n.
Definition e_dflt (n : string) := EMem false (EId ["default_data"]) n.
Definition s_set (x e : expr) := SExpr (EBin b_assign x e).
Definition e_meth (o : string) (m : string) (args : list expr) := ECall (EMem true (EId [o]) m) args.
Definition e_cstr (e : expr) := ECall (EMem false e "c_str") [].
Definition e_sfrome (n : string) := ECall (EId ["stfx"; "s_from_e"]) [e_data n].
(** if (m_delta_only == false || data->n != default_data.n) *)
Definition e_changed (n : string) :=
  EBin b_or (EBin b_eq (EId ["m_delta_only"]) (EBool false)) (EBin b_ne (e_data n) (e_dflt n)).
Definition if_changed (nd : bool) (n : string) (ss : list stmt) : list stmt :=
  if nd then ss else [SIf (e_changed n) ss []].
Definition s_rv := SDecl t_bool "rv" (Some (EBool true)).
Definition s_ret := SReturn (EId ["rv"]).

(** *** Files *)
Definition pre_do (t : string) := ("do_" ++ t)%string.
Definition pre_wr (t : string) := ("do_wr_" ++ t)%string.
Definition p_el := (t_el, "el").
Definition p_data (t : string) := (CT [t] [] RPtr, "data").
Definition p_file_name := (CT ["std"; "string"] [] RRef, "filename").

(** *** xml_attrib: process_items_xml_attrib.cpp:28-63 *)
Definition xa_conv (it : string) (q : string) (t : string) (n : string) : stmt :=
  SBlock [SDecl (CT [""; it] [] RVal) "i" None;
          SExpr (e_meth "el" q [EStr n; EAddr (EId ["i"])]);
          s_set (e_data n) (ECast [""; t] (EId ["i"]))].
Definition xa_query (n : string) (s : stmt) : stmt :=
  SBlock [SDecl (CT [""; "char"] [] RPtr) "pt" None;
          SIf (EBin b_eq (EId ["tinyxml2"; "XML_SUCCESS"]) (e_meth "el" "QueryAttribute" [EStr n; EAddr (EId ["pt"])])) [s] []].
Definition xa_rd_simple (m : struct_simple) : list stmt :=
  let n := ss_name m in
  match ss_type m with
  | bool_E | int_E | unsigned_int_E | float_E | double_E =>
      [SExpr (e_meth "el" "QueryAttribute" [EStr n; EAddr (e_data n)])]
  | std_string_E => [xa_query n (s_set (e_data n) (EId ["pt"]))]
  | short_E => [xa_conv "int" "QueryIntAttribute" "short" n]
  | unsigned_short_E => [xa_conv "unsigned int" "QueryUnsignedAttribute" "unsigned short" n]
  | long_E => [xa_conv "int" "QueryIntAttribute" "long" n]
  | unsigned_long_E => [xa_conv "unsigned int" "QueryUnsignedAttribute" "unsigned long" n]
  end.
(** process_items_xml_attrib.cpp:85-133 *)
Definition s_child (m : string) (n : string) := s_set (EId ["ch_el"]) (e_meth "el" m [EStr n]).
Definition if_child (ss : list stmt) := SIf (EBin b_ne (EId ["ch_el"]) ENull) ss [].
Definition rd_item (n t : string) : stmt :=
  SFor (CT [""; "auto"] [] RVal) "item" (EId ["ch_el"])
    [SDecl (CT [t] [] RVal) "s" None;
     SIf (EBin b_eq (ECall (EId [pre_do t]) [EId ["item"]; EAddr (EId ["s"])]) (EBool true))
       [SExpr (ECall (EMem false (e_data n) "push_back") [EId ["s"]])] []].
Definition xa_rd_complex (m : struct_complex) : list stmt :=
  let n := sc_name m in
  let t := sc_tname m in
  match sc_type m with
  | enum_E => [xa_query n (SExpr (ECall (EId ["stfx"; "s_to_e"]) [EId ["pt"]; e_data n]))]
  | struct_E => [s_child "FirstChildElement" n; if_child [SExpr (ECall (EId [pre_do t]) [EId ["ch_el"]; EAddr (e_data n)])]]
  | vector_E => [s_child "FirstChildElement" n; if_child [rd_item n t]]
  | enum_or_struct_E | unknown_E => []
  end.
Definition s_ch_el := SDecl t_el "ch_el" None.
Definition ch_el_decl (cs : list struct_complex) : list stmt := if has_children cs then [s_ch_el] else [].
Definition xa_rd_body (s : struct_S) : list stmt :=
  [s_rv] ++ flat_map xa_rd_simple (s_simple s) ++ ch_el_decl (s_complex s) ++
  flat_map xa_rd_complex (s_complex s) ++ [s_ret].
Definition xa_rd_fun (s : struct_S) (cls : string) : fdef :=
  FDef (Some t_bool) [cls; pre_do (s_name s)] [p_el; p_data (s_name s)] [] (xa_rd_body s).

(** process_items_xml_attrib.cpp:155-224 *)
Definition xa_value (m : struct_simple) : expr :=
  let n := ss_name m in
  match ss_type m with
  | bool_E | int_E | unsigned_int_E | float_E | double_E => e_data n
  | std_string_E => e_cstr (e_data n)
  | long_E | short_E => ECast [""; "int"] (e_data n)
  | unsigned_long_E | unsigned_short_E => ECast [""; "unsigned int"] (e_data n)
  end.
Definition s_attr (n : string) (e : expr) := SExpr (e_meth "el" "SetAttribute" [EStr n; e]).
Definition xa_wr_simple (nd : bool) (m : struct_simple) : list stmt :=
  if_changed nd (ss_name m) [s_attr (ss_name m) (xa_value m)].
Definition wr_item (n t : string) : stmt :=
  SFor (CT [t] [] RVal) "itr" (e_data n)
    [SDecl t_el "ch_ch_el" (Some (e_meth "ch_el" "InsertNewChildElement" [EStr t]));
     SExpr (ECall (EId [pre_wr t]) [EId ["ch_ch_el"]; EAddr (EId ["itr"])])].
Definition s_new_child (n : string) := s_child "InsertNewChildElement" n.
Definition xa_wr_complex (nd : bool) (m : struct_complex) : list stmt :=
  let n := sc_name m in
  let t := sc_tname m in
  match sc_type m with
  | enum_E => if_changed nd n [s_attr n (e_cstr (e_sfrome n))]
  | struct_E => [s_new_child n; if_child [SExpr (ECall (EId [pre_wr t]) [EId ["ch_el"]; EAddr (e_data n)])]]
  | vector_E => [s_new_child n; if_child [wr_item n t]]
  | enum_or_struct_E | unknown_E => []
  end.
Definition dflt_decl (nd : bool) (t : string) : list stmt :=
  if nd then [] else [SDecl (CT [t] [] RVal) "default_data" None].
Definition xa_wr_body (s : struct_S) (nd : bool) : list stmt :=
  [s_rv] ++ dflt_decl nd (s_name s) ++ flat_map (xa_wr_simple nd) (s_simple s) ++ ch_el_decl (s_complex s) ++
  flat_map (xa_wr_complex nd) (s_complex s) ++ [s_ret].
Definition xa_wr_fun (s : struct_S) (cls : string) (nd : bool) : fdef :=
  FDef (Some t_bool) [cls; pre_wr (s_name s)] [p_el; p_data (s_name s)] [] (xa_wr_body s nd).

(** *** The entry points of both xml back ends: process_items_xml.cpp:93-122, 149-179 *)
Definition t_err := CT ["tinyxml2"; "XMLError"] [] RVal.
Definition t_doc := CT ["tinyxml2"; "XMLDocument"] [] RVal.
Definition e_ok := EBin b_eq (EId ["er"]) (EId ["tinyxml2"; "XML_SUCCESS"]).
Definition e_dot (o m : string) (args : list expr) := ECall (EMem false (EId [o]) m) args.
Definition s_rv0 := SDecl t_bool "rv" (Some (EList [])).
Definition x_ctor (cls : string) : fdef := FDef None [cls; cls] [] [] [].
Definition x_rff (cls t : string) : fdef :=
  FDef (Some t_bool) [cls; "read_from_file"] [p_file_name; (CT [t] [] RRef, "struct_to_fill")] []
  [s_rv0; SDecl t_err "er" None; SDecl t_doc "doc" None;
   s_set (EId ["er"]) (e_dot "doc" "LoadFile" [e_cstr (EId ["filename"])]);
   SIf e_ok [SDecl t_el "el" (Some (e_dot "doc" "RootElement" []));
             s_set (EId ["rv"]) (ECall (EId [pre_do t]) [EId ["el"]; EAddr (EId ["struct_to_fill"])])] [];
   s_ret].
Definition x_wctor (cls rd : string) : fdef :=
  FDef None [cls; cls] [(t_bool, "delta_only")] [[rd]] [s_set (EId ["m_delta_only"]) (EId ["delta_only"])].
Definition x_wtf (cls t : string) : fdef :=
  FDef (Some t_bool) [cls; "write_to_file"] [p_file_name; (CT [t] [] RRef, "struct_to_read")] []
  [s_rv0; SDecl t_err "er" None; SDecl t_doc "doc_w" None;
   SDecl (CT [""; "auto"] [] RVal) "ch" (Some (e_dot "doc_w" "NewElement" [EStr t]));
   SExpr (e_dot "doc_w" "InsertFirstChild" [EId ["ch"]]);
   SDecl t_el "el" (Some (e_dot "doc_w" "RootElement" []));
   SExpr (ECall (EId [pre_wr t]) [EId ["el"]; EAddr (EId ["struct_to_read"])]);
   s_set (EId ["er"]) (e_dot "doc_w" "SaveFile" [e_cstr (EId ["filename"])]);
   s_set (EId ["rv"]) e_ok;
   s_ret].

(** *** xml: process_items_xml.cpp:227-326 *)
Definition s_find (n : string) := s_set (EId ["ch_el"]) (ECall (EId ["find_element"]) [EId ["el"]; EStr n]).
Definition xm_text (q n : string) : list stmt := [SExpr (e_meth "ch_el" q [EAddr (e_data n)])].
Definition xm_conv (it x q t n : string) : list stmt :=
  [SDecl (CT [""; it] [] RVal) x None; SExpr (e_meth "ch_el" q [EAddr (EId [x])]);
   s_set (e_data n) (ECast [""; t] (EId [x]))].
Definition xm_str (s : stmt) : list stmt :=
  [SDecl (CT [""; "char"] [] RPtr) "pt" (Some (e_meth "ch_el" "GetText" []));
   SIf (EBin b_ne (EId ["pt"]) ENull) [s] []].
Definition xm_rd_simple (m : struct_simple) : list stmt :=
  let n := ss_name m in
  [s_find n; if_child
    match ss_type m with
    | bool_E => xm_text "QueryBoolText" n
    | int_E => xm_text "QueryIntText" n
    | unsigned_int_E => xm_text "QueryUnsignedText" n
    | float_E => xm_text "QueryFloatText" n
    | double_E => xm_text "QueryDoubleText" n
    | std_string_E => xm_str (s_set (e_data n) (EId ["pt"]))
    | short_E => xm_conv "int" "i" "QueryIntText" "short" n
    | unsigned_short_E => xm_conv "unsigned int" "ui" "QueryUnsignedText" "unsigned short" n
    | long_E => xm_conv "int" "i" "QueryIntText" "long" n
    | unsigned_long_E => xm_conv "unsigned int" "ui" "QueryUnsignedText" "unsigned long" n
    end].
(** process_items_xml.cpp:344-395 *)
Definition xm_rd_complex (m : struct_complex) : list stmt :=
  let n := sc_name m in
  let t := sc_tname m in
  match sc_type m with
  | enum_E => [s_find n; if_child (xm_str (SExpr (ECall (EId ["stfx"; "s_to_e"]) [EId ["pt"]; e_data n])))]
  | struct_E => [s_child "FirstChildElement" n; if_child [SExpr (ECall (EId [pre_do t]) [EId ["ch_el"]; EAddr (e_data n)])]]
  | vector_E => [s_child "FirstChildElement" n; if_child [rd_item n t]]
  | enum_or_struct_E | unknown_E => []
  end.
Definition xm_rd_body (s : struct_S) : list stmt :=
  [s_ch_el; s_rv] ++ flat_map xm_rd_simple (s_simple s) ++ flat_map xm_rd_complex (s_complex s) ++ [s_ret].
Definition xm_rd_fun (s : struct_S) (cls : string) : fdef :=
  FDef (Some t_bool) [cls; pre_do (s_name s)] [p_el; p_data (s_name s)] [] (xm_rd_body s).

(** process_items_xml.cpp:423-497 *)
Definition s_text (e : expr) := SExpr (e_meth "ch_el" "SetText" [e]).
Definition xm_value (m : struct_simple) : expr :=
  let n := ss_name m in
  match ss_type m with
  | std_string_E => e_cstr (e_data n)
  | unsigned_long_E => ECast [""; "unsigned int"] (e_data n)
  | _ => e_data n
  end.
Definition xm_wr_simple (nd : bool) (m : struct_simple) : list stmt :=
  if_changed nd (ss_name m) [s_new_child (ss_name m); s_text (xm_value m)].
(** process_items_xml.cpp:514-572 *)
Definition xm_wr_complex (nd : bool) (m : struct_complex) : list stmt :=
  let n := sc_name m in
  let t := sc_tname m in
  match sc_type m with
  | enum_E => if_changed nd n [s_new_child n; s_text (e_cstr (e_sfrome n))]
  | struct_E => [s_new_child n; if_child [SExpr (ECall (EId [pre_wr t]) [EId ["ch_el"]; EAddr (e_data n)])]]
  | vector_E => [s_new_child n; if_child [wr_item n t]]
  | enum_or_struct_E | unknown_E => []
  end.
Definition xm_wr_body (s : struct_S) (nd : bool) : list stmt :=
  [s_ch_el; s_rv] ++ dflt_decl nd (s_name s) ++ flat_map (xm_wr_simple nd) (s_simple s) ++
  flat_map (xm_wr_complex nd) (s_complex s) ++ [s_ret].
Definition xm_wr_fun (s : struct_S) (cls : string) (nd : bool) : fdef :=
  FDef (Some t_bool) [cls; pre_wr (s_name s)] [p_el; p_data (s_name s)] [] (xm_wr_body s nd).

(** *** Enum functions: process_items.cpp:140-208 *)
Definition e_enumerator (e : enum_S) (x : string) : expr := EId (if e_class e then [e_name e; x] else [x]).
Definition n_tostr (n : string) := (n ++ "_to_string")%string.
Definition n_strto (n : string) := ("string_to_" ++ n)%string.
Definition t_str := CT ["std"; "string"] [] RVal.
(** A map initialised with one pair per enumerator. *)
Definition s_map (e : enum_S) (kt vt : list string) (x : string) (pair : enum_line -> expr) : stmt :=
  SDecl (CT ["std"; "map"] [kt; vt] RVal) x (Some (EList (map pair (e_lines e)))).
Definition e_found (m x : string) := EBin b_ne (e_dot m "find" [EId [x]]) (e_dot m "end" []).
Definition s_from_e_fun (e : enum_S) : fdef :=
  let n := e_name e in
  FDef (Some t_str) ["stfx"; "s_from_e"] [(CT [n] [] RVal, "e")] []
  [s_map e [n] ["std"; "string"] (n_tostr n) (fun l => EList [e_enumerator e (el_name l); EStr (el_name l)]);
   SDecl t_str "rv" (Some (ECond (e_found (n_tostr n) "e") (EIdx (EId [n_tostr n]) (EId ["e"]))
                             (ECall (EId ["std"; "to_string"]) [ECast [""; "int"] (EId ["e"])])));
   s_ret].
Definition s_to_e_fun (e : enum_S) : fdef :=
  let n := e_name e in
  FDef (Some t_bool) ["stfx"; "s_to_e"] [(t_str, "s"); (CT [n] [] RRef, "e")] []
  [SDecl t_bool "rv" (Some (EList [EBool false]));
   s_map e ["std"; "string"] [n] (n_strto n) (fun l => EList [EStr (el_name l); e_enumerator e (el_name l)]);
   SIf (e_found (n_strto n) "s")
     [s_set (EId ["e"]) (EIdx (EId [n_strto n]) (EId ["s"])); s_set (EId ["rv"]) (EBool true)]
     [STry [SDecl (CT [""; "int"] [] RVal) "i" (Some (ECall (EId ["std"; "stoi"]) [EId ["s"]]));
            s_set (EId ["e"]) (ECall (EId [n]) [EId ["i"]])] []];
   s_ret].
Definition enum_funs (e : enum_S) : list fdef := [s_from_e_fun e; s_to_e_fun e].

(** *** n_ini: process_items_ini.cpp:295-450 *)
Definition pre_rd (t : string) := ("do_rd_" ++ t)%string.
Definition t_auto := CT [""; "auto"] [] RVal.
Definition e_ddot (n : string) := EMem false (EId ["data"]) n.
Definition e_std (f : string) (e : expr) := ECall (EId ["std"; f]) [e].
Definition e_second (n : string) := EMem true (EId [n]) "second".
(** process_items_ini.cpp:316-348 *)
Definition ni_conv (t : simple_type) (n : string) : expr :=
  let v := e_second n in
  match t with
  | bool_E => ECast [""; "bool"] (e_std "stoi" v)
  | int_E => e_std "stoi" v
  | unsigned_int_E => ECast [""; "unsigned int"] (e_std "stoul" v)
  | float_E => e_std "stof" v
  | double_E => e_std "stod" v
  | long_E => e_std "stol" v
  | short_E => ECast [""; "short"] (e_std "stoi" v)
  | unsigned_short_E => ECast [""; "unsigned short"] (e_std "stoul" v)
  | std_string_E => v
  | unsigned_long_E => e_std "stoul" v
  end.
Definition ni_item (n : string) (s : stmt) : list stmt :=
  [SDecl t_auto n (Some (e_dot "items" "find" [EStr n]));
   SIf (EBin b_ne (EId [n]) (e_dot "items" "cend" [])) [s] []].
Definition ni_rd_simple (m : struct_simple) : list stmt :=
  let n := ss_name m in ni_item n (s_set (e_ddot n) (ni_conv (ss_type m) n)).
Definition ni_rd_enum (m : struct_complex) : list stmt :=
  let n := sc_name m in
  match sc_type m with
  | enum_E => ni_item n (SExpr (ECall (EId ["stfx"; "s_to_e"]) [e_second n; e_ddot n]))
  | _ => []
  end.
Definition ni_rd_complex (m : struct_complex) : list stmt :=
  let n := sc_name m in
  match sc_type m with
  | struct_E => [s_set (EId ["rv"]) (ECall (EId [pre_rd (sc_tname m)])
                   [EBin b_add (EId ["path"]) (EStr (underline_to_space n)); e_ddot n])]
  | _ => []
  end.
Definition e_under := EMem false (EId ["m_lookup"]) "under".
Definition e_nonempty (p : string) := EBin b_gt (e_dot p "length" []) (ENum "0").
Definition s_dot (p : string) := SIf (e_nonempty p) [SExpr (EBin b_add_assign (EId [p]) (EStr "."))] [].
Definition ni_rd_items (s : struct_S) : list stmt :=
  SDecl t_auto "items" (Some (EMem false (e_second "found_items") "items")) ::
  flat_map ni_rd_simple (s_simple s) ++ flat_map ni_rd_enum (s_complex s).
Definition ni_rd_scalars (s : struct_S) : list stmt :=
  match s_simple s with
  | [] => []
  | _ => [SDecl t_auto "found_items" (Some (ECall (EMem false e_under "find") [EId ["path"]]));
          SIf (EBin b_ne (EId ["found_items"]) (ECall (EMem false e_under "cend") [])) (ni_rd_items s) []]
  end.
Definition ni_rd_inner (s : struct_S) : list stmt :=
  ni_rd_scalars s ++ (if has_children (s_complex s) then [s_dot "path"] else []) ++
  flat_map ni_rd_complex (s_complex s).
Definition ni_rd_body (s : struct_S) : list stmt :=
  [s_rv; STry (ni_rd_inner s) [s_set (EId ["rv"]) (EBool false)]; s_ret].
Definition ni_rd_fun (s : struct_S) (cls : string) : fdef :=
  FDef (Some t_bool) [cls; pre_rd (s_name s)] [(t_str, "path"); (CT [s_name s] [] RRef, "data")] [] (ni_rd_body s).

(** process_items_ini.cpp:476-597 *)
Definition s_println (args : list expr) := SExpr (ECall (EId ["fmt"; "println"]) (EId ["m_file"] :: args)).
Definition n_fmt (n : string) := (n ++ " {}")%string.
Definition ni_wr_simple (nd : bool) (m : struct_simple) : list stmt :=
  let n := ss_name m in
  if_changed nd n [s_println [EStr (n_fmt n);
    match ss_type m with bool_E => ECast [""; "int"] (e_data n) | _ => e_data n end]].
Definition ni_wr_complex (nd : bool) (m : struct_complex) : list stmt :=
  let n := sc_name m in
  match sc_type m with
  | enum_E => if_changed nd n [s_println [EStr (n_fmt n); e_data n]]
  | struct_E =>
      [s_set (EId ["lower_path"]) (EId ["path"]); s_dot "lower_path";
       SExpr (EBin b_add_assign (EId ["lower_path"]) (EStr (underline_to_space n)));
       SExpr (ECall (EId [pre_wr (sc_tname m)]) [EId ["lower_path"]; EAddr (e_data n)])]
  | _ => []
  end.
Definition s_section : stmt :=
  SIf (e_nonempty "path") [s_println [EStr ""]; s_println [EStr "[{}]"; EId ["path"]]] [].
Definition ni_wr_body (s : struct_S) (nd : bool) : list stmt :=
  [s_rv; SDecl t_str "lower_path" None] ++ dflt_decl nd (s_name s) ++ [s_section] ++
  flat_map (ni_wr_simple nd) (s_simple s) ++ flat_map (ni_wr_complex nd) (s_complex s) ++ [s_ret].
Definition ni_wr_fun (s : struct_S) (cls : string) (nd : bool) : fdef :=
  FDef (Some t_bool) [cls; pre_wr (s_name s)] [(t_str, "path"); p_data (s_name s)] [] (ni_wr_body s nd).

(** process_items_ini.cpp:113-196: the line loop of read_from_file *)
Definition t_item_ptr := CT ["read_item_S"] [] RPtr.
Definition e_key := EId ["m_multiline_string_key"].
Definition e_val := EId ["m_multiline_string_value"].
Definition e_line0 := EIdx (EId ["line"]) (ENum "0").
Definition e_search := EBin b_eq (ECall (EId ["std"; "regex_search"]) [EId ["line"]; EId ["res"]; EId ["regex"]]) (EBool true).
Definition e_res (k : string) := ECall (EMem false (EIdx (EId ["res"]) (ENum k)) "str") [].
Definition ini_line : list stmt :=
  [SDecl t_str "line" (Some (EList [EId ["buf"]]));
   SDecl (CT ["size_t"] [] RVal) "pos" (Some (e_dot "line" "find" [EChr "%"]));
   SIf (EBin b_ne (EId ["pos"]) (EId ["std"; "string"; "npos"]))
     [s_set (EId ["line"]) (e_dot "line" "substr" [ENum "0"; EId ["pos"]])] [];
   SIf (EBin b_eq (e_dot "line" "length" []) (ENum "0")) [SContinue] [];
   SIf (EBin b_and (EBin b_ne (ECall (EMem false e_key "length") []) (ENum "0")) (EBin b_ne e_line0 (EChr " ")))
     [s_set (EIdx (EMem true (EId ["current_lookup"]) "items") e_key) e_val;
      s_set e_key (EStr ""); s_set e_val (EStr "")] [];
   SDecl (CT ["std"; "smatch"] [] RVal) "res" None;
   SDecl (CT ["std"; "regex"] [] RVal) "regex" None;
   SSwitch e_line0
     [(Some (EChr "["),
       [s_set (EId ["regex"]) (EStr "\[(.+)\]");
        SIf e_search
          [SDecl t_str "key" (Some (e_res "1"));
           SDecl (CT ["read_item_S"] [] RVal) "new_item" None;
           s_set (EIdx e_under (EId ["key"])) (EId ["new_item"]);
           s_set (EId ["current_lookup"]) (EAddr (EIdx e_under (EId ["key"])))] [];
        SBreak]);
      (Some (EChr " "), [SExpr (EBin b_add_assign e_val (EId ["line"])); SBreak]);
      (None,
       [s_set (EId ["regex"]) (EStr "(\w+) (.+)");
        SIf e_search
          [SDecl t_str "key" (Some (e_res "1")); SDecl t_str "value" (Some (e_res "2"));
           s_set (EIdx (EMem true (EId ["current_lookup"]) "items") (EId ["key"])) (EId ["value"])]
          [s_set (EId ["regex"]) (EStr "(\w+)");
           SIf e_search [s_set e_key (e_res "1"); s_set e_val (EStr NL)] []];
        SBreak])]].
Definition ini_rff (cls t : string) : fdef :=
  FDef (Some t_bool) [cls; "read_from_file"] [p_file_name; (CT [t] [] RRef, "struct_to_fill")] []
  [s_rv0; SDecl (CT ["std"; "FILE"] [] RPtr) "file" (Some (EList []));
   s_set (EId ["file"]) (ECall (EId ["std"; "fopen"]) [e_cstr (EId ["filename"]); EStr "r"]);
   SIf (EBin b_ne (EId ["file"]) ENull)
     [SDecl t_item_ptr "current_lookup" (Some (EAddr (EId ["m_lookup"])));
      SDecl (CT [""; "int"] [] RVal) "buflen" (Some (ENum "80"));
      SDecl (CT [""; "char"] [] RVal) "buf" (Some (EIdx (EId ["buf"]) (EBin b_add (EId ["buflen"]) (ENum "1"))));
      SWhile (EBin b_ne ENull (ECall (EId ["std"; "fgets"]) [EId ["buf"]; EId ["buflen"]; EId ["file"]])) ini_line;
      SExpr (ECall (EId ["std"; "fclose"]) [EId ["file"]]);
      s_set (EId ["rv"]) (ECall (EId [pre_rd t]) [EStr ""; EId ["struct_to_fill"]])] [];
   s_ret].
Definition ini_wtf (cls t : string) : fdef :=
  FDef (Some t_bool) [cls; "write_to_file"] [p_file_name; (CT [t] [] RRef, "struct_to_read")] []
  [s_rv0;
   s_set (EId ["m_file"]) (ECall (EId ["std"; "fopen"]) [e_cstr (EId ["filename"]); EStr "w"]);
   SIf (EBin b_ne (EId ["m_file"]) ENull)
     [s_set (EId ["rv"]) (ECall (EId [pre_wr t]) [EStr ""; EAddr (EId ["struct_to_read"])]);
      SExpr (ECall (EId ["std"; "fclose"]) [EId ["m_file"]])] [];
   s_ret].

(** *** The functions of a struct file *)
Definition rd_fun (b : backend) (s : struct_S) (cls : string) : list fdef :=
  match b with
  | B_xml_attrib => [xa_rd_fun s cls] | B_xml => [xm_rd_fun s cls] | B_n_ini => [ni_rd_fun s cls] | B_ini => []
  end.
Definition wr_fun (b : backend) (s : struct_S) (cls : string) (nd : bool) : list fdef :=
  match b with
  | B_xml_attrib => [xa_wr_fun s cls nd] | B_xml => [xm_wr_fun s cls nd] | B_n_ini => [ni_wr_fun s cls nd] | B_ini => []
  end.
Definition rff_fun (b : backend) (cls t : string) : fdef :=
  match b with B_xml_attrib | B_xml => x_rff cls t | B_n_ini | B_ini => ini_rff cls t end.
Definition wtf_fun (b : backend) (cls t : string) : fdef :=
  match b with B_xml_attrib | B_xml => x_wtf cls t | B_n_ini | B_ini => ini_wtf cls t end.
(** The structs that get an entry point. *)
Definition tops (ss : list struct_S) : list struct_S := filter (fun s => Nat.eqb (s_incoming s) 0) ss.
Definition reader_funs (b : backend) (ss : list struct_S) (cls : string) : list fdef :=
  x_ctor cls :: map (fun s => rff_fun b cls (s_name s)) (tops ss) ++ flat_map (fun s => rd_fun b s cls) ss.
Definition writer_funs (b : backend) (ss : list struct_S) (cls rd : string) (nd : bool) : list fdef :=
  x_wctor cls rd :: map (fun s => wtf_fun b cls (s_name s)) (tops ss) ++ flat_map (fun s => wr_fun b s cls nd) ss.
Definition file_funs (b : backend) (ss : list struct_S) (o : output_spec) : list fdef :=
  reader_funs b ss (o_reader o) ++
  (if o_only_read o then [] else writer_funs b ss (o_writer o) (o_reader o) (o_no_delta o)).
