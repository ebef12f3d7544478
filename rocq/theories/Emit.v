(** The code generator: creation/process_items.cpp, creation/xml/process_items_xml.cpp,
    creation/xml/process_items_xml_attrib.cpp, creation/ini/process_items_ini.cpp.
    Every function of the generator becomes the list of its print commands, in order. *)
From Coq Require Import String Ascii ZArith NArith Arith List Bool Lia.
From Verif Require Import Base Map Items Fmt Templates.
Import ListNotations.
Local Open Scope string_scope.
Local Open Scope list_scope.

(** Where a line goes: standard output, the .cpp file, the .h file. *)
Inductive target := T_out | T_cpp | T_h.
Record cmd := Cmd { c_to : target; c_t : template; c_args : list string }.

(** configuration/config_data.h:11-18, 20-30 *)
Inductive file_type := ft_xml_attrib | ft_xml | ft_ini | ft_n_ini | ft_json.
Record output_spec := OutputSpec {
  o_dir : string; o_enum_file : string; o_structs_file : string;
  o_reader : string; o_writer : string; o_type : file_type;
  o_only_read : bool; o_no_delta : bool }.

(** The four classes derived from process_items_C. *)
Inductive backend := B_xml_attrib | B_xml | B_ini | B_n_ini.

(** s.empty() || s == "-" : process_items.cpp:36,44 *)
Definition skipped (s : string) : bool := String.eqb s "" || String.eqb s "-".

Definition includes (to : target) (t : template) (inputs : list string) : list cmd :=
  map (fun f => Cmd to t [f]) inputs.

(** process_items.cpp:17-26, the constructor *)
Definition stfx_info (stamp : string) : option string := format pi_19 [stamp].

(** process_items.cpp:140-208 process_enum *)
Definition process_enum (e : enum_S) : list cmd :=
  let n := e_name e in
  [Cmd T_h pi_144 [n]; Cmd T_cpp pi_146 [n]; Cmd T_cpp pi_148 [n]] ++
  map (fun l => if e_class e then Cmd T_cpp pi_154 [n; el_name l] else Cmd T_cpp pi_158 [el_name l]) (e_lines e) ++
  [Cmd T_cpp pi_161 []; Cmd T_cpp pi_162 [n]; Cmd T_cpp pi_163 []; Cmd T_h pi_167 [n];
   Cmd T_cpp pi_169 [n]; Cmd T_cpp pi_170 []; Cmd T_cpp pi_172 [n]] ++
  map (fun l => if e_class e then Cmd T_cpp pi_178 [n; el_name l] else Cmd T_cpp pi_182 [el_name l]) (e_lines e) ++
  [Cmd T_cpp pi_185 []; Cmd T_cpp pi_186 [n]; Cmd T_cpp pi_206 []].

(** process_items.cpp:210-226 create_fmt_templates_for_enum *)
Definition fmt_templates (e : enum_S) : list cmd := [Cmd T_h pi_212 [e_name e]].

(** process_items.cpp:87-122: the text of the two enum files. *)
Definition enum_files (i : info) (inputs : list string) (cpp h stamp_info : string) : list cmd :=
  let enums := map snd (i_enums i) in
  [Cmd T_cpp pi_87 [cpp]; Cmd T_cpp pi_88 [stamp_info]; Cmd T_cpp pi_89 [h]; Cmd T_cpp pi_90 []] ++
  includes T_cpp pi_93 inputs ++ [Cmd T_cpp pi_95 []] ++
  [Cmd T_h pi_97 [h]; Cmd T_h pi_98 [stamp_info]; Cmd T_h pi_99 []; Cmd T_h pi_100 []; Cmd T_h pi_101 []] ++
  includes T_h pi_104 inputs ++ [Cmd T_h pi_106 []; Cmd T_h pi_107 []] ++
  flat_map process_enum enums ++ [Cmd T_h pi_115 []] ++ flat_map fmt_templates enums.

Definition has_children (cs : list struct_complex) : bool :=
  existsb (fun c => match sc_type c with struct_E | vector_E => true | _ => false end) cs.

(** *** xml_attrib *)

(** process_items_xml_attrib.cpp:28-63 *)
Definition xa_read_simple (m : struct_simple) : list cmd :=
  let p t := [Cmd T_cpp t [ss_name m]] in
  match ss_type m with
  | bool_E | int_E | unsigned_int_E | float_E | double_E => p xa_37
  | std_string_E => p xa_40
  | short_E => p xa_48
  | unsigned_short_E => p xa_51
  | long_E => p xa_54
  | unsigned_long_E => p xa_57
  end.

(** process_items_xml_attrib.cpp:85-133; the bool: the member was processed *)
Definition xa_read_complex (m : struct_complex) : list cmd * bool :=
  let nt := [sc_name m; sc_tname m] in
  match sc_type m with
  | enum_E => ([Cmd T_cpp xa_92 [sc_name m]], true)
  | struct_E => ([Cmd T_cpp xa_100 nt], true)
  | vector_E => ([Cmd T_cpp xa_108 nt], true)
  | enum_or_struct_E => ([Cmd T_cpp xa_123 [sc_name m]; Cmd T_out xa_124 [sc_name m]], false)
  | unknown_E => ([Cmd T_cpp xa_128 [sc_name m]; Cmd T_out xa_129 [sc_name m]], false)
  end.

(** process_items_xml_attrib.cpp:16-139 *)
Definition xa_reader (s : struct_S) (cls : string) : list cmd * bool :=
  ([Cmd T_h xa_20 [s_name s]; Cmd T_cpp xa_22 [cls; s_name s]; Cmd T_cpp xa_26 []] ++
   flat_map xa_read_simple (s_simple s) ++
   (if has_children (s_complex s) then [Cmd T_cpp xa_83 []] else []) ++
   flat_map (fun m => fst (xa_read_complex m)) (s_complex s) ++
   [Cmd T_cpp xa_134 []],
   forallb (fun m => snd (xa_read_complex m)) (s_complex s)).

(** process_items_xml_attrib.cpp:155-224 *)
Definition xa_write_simple (nd : bool) (m : struct_simple) : list cmd :=
  let p t := [Cmd T_cpp t [ss_name m]] in
  match ss_type m with
  | bool_E | int_E | unsigned_int_E | float_E | double_E => p (if nd then xa_167 else xa_172)
  | std_string_E => p (if nd then xa_180 else xa_185)
  | long_E | short_E => p (if nd then xa_194 else xa_199)
  | unsigned_long_E | unsigned_short_E => p (if nd then xa_208 else xa_213)
  end.

(** process_items_xml_attrib.cpp:243-293 *)
Definition xa_write_complex (nd : bool) (m : struct_complex) : list cmd * bool :=
  let nt := [sc_name m; sc_tname m] in
  match sc_type m with
  | enum_E => ([Cmd T_cpp (if nd then xa_252 else xa_257) [sc_name m]], true)
  | struct_E => ([Cmd T_cpp xa_263 nt], true)
  | vector_E => ([Cmd T_cpp xa_271 nt], true)
  | enum_or_struct_E => ([Cmd T_cpp xa_283 [sc_name m]; Cmd T_out xa_284 [sc_name m]], false)
  | unknown_E => ([Cmd T_cpp xa_288 [sc_name m]; Cmd T_out xa_289 [sc_name m]], false)
  end.

(** process_items_xml_attrib.cpp:141-299 *)
Definition xa_writer (s : struct_S) (cls : string) (nd : bool) : list cmd * bool :=
  ([Cmd T_h xa_145 [s_name s]; Cmd T_cpp xa_147 [cls; s_name s]; Cmd T_cpp xa_150 []] ++
   (if nd then [] else [Cmd T_cpp xa_153 [s_name s]]) ++
   flat_map (xa_write_simple nd) (s_simple s) ++
   (if has_children (s_complex s) then [Cmd T_cpp xa_241 []] else []) ++
   flat_map (fun m => fst (xa_write_complex nd m)) (s_complex s) ++
   [Cmd T_cpp xa_294 []],
   forallb (fun m => snd (xa_write_complex nd m)) (s_complex s)).

(** *** xml *)

(** process_items_xml.cpp:227-326 *)
Definition xm_read_simple (m : struct_simple) : list cmd :=
  let p t := [Cmd T_cpp t [ss_name m]] in
  match ss_type m with
  | bool_E => p xm_232 | int_E => p xm_239 | unsigned_int_E => p xm_246
  | float_E => p xm_253 | double_E => p xm_260 | std_string_E => p xm_267
  | short_E => p xm_278 | unsigned_short_E => p xm_289 | long_E => p xm_300
  | unsigned_long_E => p xm_311
  end.

(** process_items_xml.cpp:344-395 *)
Definition xm_read_complex (m : struct_complex) : list cmd * bool :=
  let nt := [sc_name m; sc_tname m] in
  match sc_type m with
  | enum_E => ([Cmd T_cpp xm_351 [sc_name m]], true)
  | struct_E => ([Cmd T_cpp xm_361 nt], true)
  | vector_E => ([Cmd T_cpp xm_370 nt], true)
  | enum_or_struct_E => ([Cmd T_cpp xm_385 [sc_name m]; Cmd T_out xm_386 [sc_name m]], false)
  | unknown_E => ([Cmd T_cpp xm_390 [sc_name m]; Cmd T_out xm_391 [sc_name m]], false)
  end.

(** process_items_xml.cpp:213-401 *)
Definition xm_reader (s : struct_S) (cls : string) : list cmd * bool :=
  ([Cmd T_h xm_217 [s_name s]; Cmd T_cpp xm_219 [cls; s_name s]; Cmd T_cpp xm_225 []] ++
   flat_map xm_read_simple (s_simple s) ++
   flat_map (fun m => fst (xm_read_complex m)) (s_complex s) ++
   [Cmd T_cpp xm_396 []],
   forallb (fun m => snd (xm_read_complex m)) (s_complex s)).

(** process_items_xml.cpp:423-497 *)
Definition xm_write_simple (nd : bool) (m : struct_simple) : list cmd :=
  let p t := [Cmd T_cpp t [ss_name m]] in
  match ss_type m with
  | bool_E | int_E | unsigned_int_E | float_E | double_E | long_E | short_E | unsigned_short_E =>
      p (if nd then xm_437 else xm_444)
  | std_string_E => p (if nd then xm_456 else xm_463)
  | unsigned_long_E => p (if nd then xm_475 else xm_482)
  end.

(** process_items_xml.cpp:514-572 *)
Definition xm_write_complex (nd : bool) (m : struct_complex) : list cmd * bool :=
  let nt := [sc_name m; sc_tname m] in
  match sc_type m with
  | enum_E => ([Cmd T_cpp (if nd then xm_523 else xm_530) [sc_name m]], true)
  | struct_E => ([Cmd T_cpp xm_540 nt], true)
  | vector_E => ([Cmd T_cpp xm_549 nt], true)
  | enum_or_struct_E => ([Cmd T_cpp xm_562 [sc_name m]; Cmd T_out xm_563 [sc_name m]], false)
  | unknown_E => ([Cmd T_cpp xm_567 [sc_name m]; Cmd T_out xm_568 [sc_name m]], false)
  end.

(** process_items_xml.cpp:406-578 *)
Definition xm_writer (s : struct_S) (cls : string) (nd : bool) : list cmd * bool :=
  ([Cmd T_h xm_410 [s_name s]; Cmd T_cpp xm_412 [cls; s_name s]; Cmd T_cpp xm_417 []] ++
   (if nd then [] else [Cmd T_cpp xm_420 [s_name s]]) ++
   flat_map (xm_write_simple nd) (s_simple s) ++
   flat_map (fun m => fst (xm_write_complex nd m)) (s_complex s) ++
   [Cmd T_cpp xm_573 []],
   forallb (fun m => snd (xm_write_complex nd m)) (s_complex s)).

(** *** n_ini *)

(** process_items_ini.h:38-41 *)
Fixpoint underline_to_space (s : string) : string :=
  match s with
  | EmptyString => EmptyString
  | String c r => String (if (c =? "_")%char then " "%char else c) (underline_to_space r)
  end.

(** process_items_ini.cpp:316-348 *)
Definition convert (t : simple_type) : string :=
  match t with
  | bool_E => "(bool)std::stoi"
  | int_E => "std::stoi"
  | unsigned_int_E => "(unsigned int)std::stoul"
  | float_E => "std::stof"
  | double_E => "std::stod"
  | long_E => "std::stol"
  | short_E => "(short)std::stoi"
  | unsigned_short_E => "(unsigned short)std::stoul"
  | std_string_E => ""
  | unsigned_long_E => "std::stoul"
  end.

(** process_items_ini.cpp:362-380 *)
Definition ni_read_enum (m : struct_complex) : list cmd :=
  match sc_type m with enum_E => [Cmd T_cpp ini_369 [sc_name m]] | _ => [] end.

(** process_items_ini.cpp:406-437 *)
Definition ni_read_complex (m : struct_complex) : list cmd * bool :=
  match sc_type m with
  | enum_E => ([], true)
  | struct_E => ([Cmd T_cpp ini_417 [sc_name m; sc_tname m; underline_to_space (sc_name m)]], true)
  | vector_E => ([Cmd T_cpp ini_422 [sc_name m]; Cmd T_out ini_423 [sc_name m]], false)
  | enum_or_struct_E => ([Cmd T_cpp ini_427 [sc_name m]; Cmd T_out ini_428 [sc_name m]], false)
  | unknown_E => ([Cmd T_cpp ini_432 [sc_name m]; Cmd T_out ini_433 [sc_name m]], false)
  end.

(** process_items_ini.cpp:295-450 *)
Definition ni_reader (s : struct_S) (cls : string) : list cmd * bool :=
  ([Cmd T_h ini_299 [s_name s]; Cmd T_cpp ini_301 [cls; s_name s]; Cmd T_cpp ini_305 [];
    Cmd T_cpp ini_306 []; Cmd T_cpp ini_307 []] ++
   match s_simple s with
   | [] => []
   | ms =>
       [Cmd T_cpp ini_310 []; Cmd T_cpp ini_311 []; Cmd T_cpp ini_312 []; Cmd T_cpp ini_313 []] ++
       map (fun m => Cmd T_cpp ini_354 [ss_name m; convert (ss_type m)]) ms ++
       flat_map ni_read_enum (s_complex s) ++ [Cmd T_cpp ini_381 []]
   end ++
   (if has_children (s_complex s) then [Cmd T_cpp ini_400 []] else []) ++
   flat_map (fun m => fst (ni_read_complex m)) (s_complex s) ++
   [Cmd T_cpp ini_440 []; Cmd T_cpp ini_442 []; Cmd T_cpp ini_443 []; Cmd T_cpp ini_444 [];
    Cmd T_cpp ini_445 []; Cmd T_cpp ini_446 []],
   forallb (fun m => snd (ni_read_complex m)) (s_complex s)).

(** process_items_ini.cpp:476-528 *)
Definition ni_write_simple (nd : bool) (m : struct_simple) : cmd :=
  match ss_type m with
  | bool_E => Cmd T_cpp (if nd then ini_483 else ini_489) [ss_name m]
  | _ => Cmd T_cpp (if nd then ini_508 else ini_514) [ss_name m]
  end.

(** process_items_ini.cpp:544-597 *)
Definition ni_write_complex (nd : bool) (m : struct_complex) : list cmd * bool :=
  match sc_type m with
  | enum_E => ([Cmd T_cpp (if nd then ini_555 else ini_562) [sc_name m]], true)
  | struct_E => ([Cmd T_cpp ini_571 [sc_name m; sc_tname m; underline_to_space (sc_name m)]], true)
  | vector_E => ([Cmd T_cpp ini_582 [sc_name m]; Cmd T_out ini_583 [sc_name m]], false)
  | enum_or_struct_E => ([Cmd T_cpp ini_587 [sc_name m]; Cmd T_out ini_588 [sc_name m]], false)
  | unknown_E => ([Cmd T_cpp ini_592 [sc_name m]; Cmd T_out ini_593 [sc_name m]], false)
  end.

(** process_items_ini.cpp:452-603 *)
Definition ni_writer (s : struct_S) (cls : string) (nd : bool) : list cmd * bool :=
  ([Cmd T_h ini_456 [s_name s]; Cmd T_cpp ini_458 [cls; s_name s]; Cmd T_cpp ini_462 []; Cmd T_cpp ini_463 []] ++
   (if nd then [] else [Cmd T_cpp ini_466 [s_name s]]) ++
   [Cmd T_cpp ini_468 []] ++
   map (ni_write_simple nd) (s_simple s) ++
   flat_map (fun m => fst (ni_write_complex nd m)) (s_complex s) ++
   [Cmd T_cpp ini_598 []],
   forallb (fun m => snd (ni_write_complex nd m)) (s_complex s)).

(** *** The virtual functions.  process_items_ini.cpp:285-293: the plain ini ones do nothing. *)
Definition struct_reader (b : backend) (s : struct_S) (cls : string) : list cmd * bool :=
  match b with
  | B_xml_attrib => xa_reader s cls
  | B_xml => xm_reader s cls
  | B_n_ini => ni_reader s cls
  | B_ini => ([], false)
  end.
Definition struct_writer (b : backend) (s : struct_S) (cls : string) (nd : bool) : list cmd * bool :=
  match b with
  | B_xml_attrib => xa_writer s cls nd
  | B_xml => xm_writer s cls nd
  | B_n_ini => ni_writer s cls nd
  | B_ini => ([], false)
  end.

(** The format strings in which the two process_all_structs differ. *)
Record templates := Templates {
  t_opened_cpp : template; t_opened_h : template; t_fail_h : template; t_fail_cpp : template;
  t_name_cpp : template; t_info_cpp : template; t_inc_h : template; t_std_cpp : template;
  t_lib_cpp : bool -> list template; t_no_enum : template; t_inc_enum : template; t_in_cpp : template;
  t_name_h : template; t_info_h : template; t_std_h : template; t_in_h : template; t_blank_h : template;
  t_class_h : template; t_ctor_cpp : template; t_rff_h : template; t_rff_cpp : template;
  t_prot_h : template; t_end_h : template; t_end_cpp : template;
  t_wclass_h : template; t_wctor_cpp : template; t_wtf_h : template; t_wtf_cpp : template;
  t_wprot_h : template; t_wend_h : template; t_wend_cpp : template }.

(** process_items_xml.cpp:18-209 *)
Definition xml_templates : templates := {|
  t_opened_cpp := xm_42; t_opened_h := xm_47; t_fail_h := xm_199; t_fail_cpp := xm_205;
  t_name_cpp := xm_50; t_info_cpp := xm_51; t_inc_h := xm_52; t_std_cpp := xm_53;
  t_lib_cpp := fun _ => [xm_56]; t_no_enum := xm_60; t_inc_enum := xm_64; t_in_cpp := xm_68;
  t_name_h := xm_71; t_info_h := xm_72; t_std_h := xm_74; t_in_h := xm_81; t_blank_h := xm_83;
  t_class_h := xm_87; t_ctor_cpp := xm_93; t_rff_h := xm_104; t_rff_cpp := xm_106;
  t_prot_h := xm_124; t_end_h := xm_132; t_end_cpp := xm_134;
  t_wclass_h := xm_140; t_wctor_cpp := xm_149; t_wtf_h := xm_162; t_wtf_cpp := xm_164;
  t_wprot_h := xm_181; t_wend_h := xm_189; t_wend_cpp := xm_191 |}.

(** process_items_ini.cpp:18-283; fmt/format.h is included only with a writer (57-61). *)
Definition ini_templates : templates := {|
  t_opened_cpp := ini_42; t_opened_h := ini_47; t_fail_h := ini_272; t_fail_cpp := ini_278;
  t_name_cpp := ini_50; t_info_cpp := ini_51; t_inc_h := ini_52; t_std_cpp := ini_53;
  t_lib_cpp := fun only_read => if only_read then [ini_61] else [ini_59; ini_61];
  t_no_enum := ini_65; t_inc_enum := ini_69; t_in_cpp := ini_73;
  t_name_h := ini_76; t_info_h := ini_77; t_std_h := ini_79; t_in_h := ini_87; t_blank_h := ini_89;
  t_class_h := ini_92; t_ctor_cpp := ini_107; t_rff_h := ini_118; t_rff_cpp := ini_120;
  t_prot_h := ini_198; t_end_h := ini_206; t_end_cpp := ini_208;
  t_wclass_h := ini_214; t_wctor_cpp := ini_224; t_wtf_h := ini_237; t_wtf_cpp := ini_239;
  t_wprot_h := ini_254; t_wend_h := ini_262; t_wend_cpp := ini_264 |}.

Definition templates_of (b : backend) : templates :=
  match b with B_xml | B_xml_attrib => xml_templates | B_ini | B_n_ini => ini_templates end.

(** process_items_xml.cpp:99-122, 157-179, process_items_ini.cpp:113-196, 232-252:
    entry points for the structs with incoming_count == 0. *)
Definition entries (th tcpp : template) (cls : string) (ss : list struct_S) : list cmd :=
  flat_map (fun s => if Nat.eqb (s_incoming s) 0
                     then [Cmd T_h th [s_name s]; Cmd T_cpp tcpp [cls; s_name s]] else []) ss.

(** process_items_xml.cpp:50-193, process_items_ini.cpp:50-266: the text of the two
    struct files, and whether all members could be processed. *)
Definition struct_files (b : backend) (i : info) (inputs : list string) (o : output_spec)
    (cpp h stamp_info : string) : list cmd * bool :=
  let t := templates_of b in
  let ss := map snd (i_structs i) in
  let rd := o_reader o in
  let wr := o_writer o in
  ([Cmd T_cpp (t_name_cpp t) [cpp]; Cmd T_cpp (t_info_cpp t) [stamp_info]; Cmd T_cpp (t_inc_h t) [h];
    Cmd T_cpp (t_std_cpp t) []] ++ map (fun x => Cmd T_cpp x []) (t_lib_cpp t (o_only_read o)) ++
   [if skipped (o_enum_file o) then Cmd T_cpp (t_no_enum t) []
    else Cmd T_cpp (t_inc_enum t) [(o_enum_file o ++ ".h")%string]] ++
   includes T_cpp (t_in_cpp t) inputs ++
   [Cmd T_h (t_name_h t) [h]; Cmd T_h (t_info_h t) [stamp_info]; Cmd T_h (t_std_h t) []] ++
   includes T_h (t_in_h t) inputs ++ [Cmd T_h (t_blank_h t) []] ++
   [Cmd T_h (t_class_h t) [rd]; Cmd T_cpp (t_ctor_cpp t) [rd]] ++
   entries (t_rff_h t) (t_rff_cpp t) rd ss ++ [Cmd T_h (t_prot_h t) []] ++
   flat_map (fun s => fst (struct_reader b s rd)) ss ++
   [Cmd T_h (t_end_h t) []; Cmd T_cpp (t_end_cpp t) []] ++
   (if o_only_read o then [] else
      [Cmd T_h (t_wclass_h t) [wr; rd]; Cmd T_cpp (t_wctor_cpp t) [wr; rd]] ++
      entries (t_wtf_h t) (t_wtf_cpp t) wr ss ++ [Cmd T_h (t_wprot_h t) []] ++
      flat_map (fun s => fst (struct_writer b s wr (o_no_delta o))) ss ++
      [Cmd T_h (t_wend_h t) []; Cmd T_cpp (t_wend_cpp t) []]),
   forallb (fun s => snd (struct_reader b s rd)) ss &&
   (o_only_read o || forallb (fun s => snd (struct_writer b s wr (o_no_delta o))) ss)).

(** The text that ends up in one target. *)
Definition to_eqb (a b : target) : bool :=
  match a, b with T_out, T_out | T_cpp, T_cpp | T_h, T_h => true | _, _ => false end.
Fixpoint render (to : target) (cs : list cmd) : option string :=
  match cs with
  | [] => Some ""
  | c :: r =>
      if to_eqb (c_to c) to then
        let? s := println (c_t c) (c_args c) in let? t := render to r in Some (s ++ t)%string
      else render to r
  end.
