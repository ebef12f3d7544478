(** The item store: src/items.h and src/items.cpp. *)
From Coq Require Import String Ascii ZArith NArith Arith List Bool Lia.
From Verif Require Import Base Map.
Import ListNotations.
Local Open Scope string_scope.

(** items.h:10-15 *)
Record enum_line := EnumLine { el_name : string; el_init : bool; el_value : string }.
(** items.h:17-22 *)
Record enum_S := EnumS { e_name : string; e_class : bool; e_lines : list enum_line }.

(** items.h:24-36 *)
Inductive simple_type :=
| bool_E | int_E | short_E | long_E | unsigned_int_E | unsigned_short_E | unsigned_long_E
| float_E | double_E | std_string_E.

(** items.h:38-43 *)
Record struct_simple := Simple { ss_type : simple_type; ss_name : string; ss_default : string }.

(** items.h:45-52 *)
Inductive complex_type := unknown_E | enum_or_struct_E | enum_E | struct_E | vector_E.

(** items.h:55-60 *)
Record struct_complex := Complex { sc_type : complex_type; sc_tname : string; sc_name : string }.

(** items.h:62-68.  incoming_count is an int; overflow is not modelled. *)
Record struct_S := StructS {
  s_name : string;
  s_simple : list struct_simple;
  s_complex : list struct_complex;
  s_incoming : nat }.

(** A pointer into one of the two maps of an [info_items_C].  The copy constructor
    of the class copies the raw pointers (main.cpp:179), so a copy of the common
    items may point into the common object instead of itself. *)
Inductive home := HSelf | HCommon.

(** items.h:90-128, class info_items_C *)
Record info := Info {
  i_structs : smap struct_S;
  i_enums : smap enum_S;
  i_cur_struct : option (home * string);
  i_cur_enum : option (home * string);
  i_parse_rv : Z }.

Definition info0 : info := Info [] [] None None 0.

(** items.cpp:29-44 get_item_type *)
Definition get_item_type (i : info) (n : string) : complex_type :=
  match mfind n (i_structs i) with
  | Some _ => struct_E
  | None => match mfind n (i_enums i) with Some _ => enum_E | None => unknown_E end
  end.

(** What the parser reports: the five callbacks of items.h:122-126. *)
Inductive call :=
| CEnum (name : string) (is_class : bool)
| CEnumLine (name : string) (init : bool) (value : string)
| CStruct (name : string)
| CSimple (ty : simple_type) (name dflt : string)
| CComplex (ty : complex_type) (tname name : string).

(** The object being filled and the common object it may point into. *)
Record heap := Heap { h_self : info; h_common : info }.

Definition set_structs (i : info) m := Info m (i_enums i) (i_cur_struct i) (i_cur_enum i) (i_parse_rv i).
Definition set_enums (i : info) m := Info (i_structs i) m (i_cur_struct i) (i_cur_enum i) (i_parse_rv i).

Definition obj (h : heap) (w : home) : info := match w with HSelf => h_self h | HCommon => h_common h end.
Definition set_obj (h : heap) (w : home) (i : info) : heap :=
  match w with HSelf => Heap i (h_common h) | HCommon => Heap (h_self h) i end.

(** m_current_enum->enums.push_back(el); [None]: the pointer dangles. *)
Definition add_enum_line (h : heap) (p : home * string) (l : enum_line) : option heap :=
  let (w, n) := p in
  let? _ := mfind n (i_enums (obj h w)) in
  Some (set_obj h w (set_enums (obj h w)
    (mupd n (fun e => EnumS (e_name e) (e_class e) (e_lines e ++ [l])) (i_enums (obj h w))))).

Definition add_simple (h : heap) (p : home * string) (l : struct_simple) : option heap :=
  let (w, n) := p in
  let? _ := mfind n (i_structs (obj h w)) in
  Some (set_obj h w (set_structs (obj h w)
    (mupd n (fun s => StructS (s_name s) (s_simple s ++ [l]) (s_complex s) (s_incoming s))
       (i_structs (obj h w))))).

Definition add_complex (h : heap) (p : home * string) (l : struct_complex) : option heap :=
  let (w, n) := p in
  let? _ := mfind n (i_structs (obj h w)) in
  Some (set_obj h w (set_structs (obj h w)
    (mupd n (fun s => StructS (s_name s) (s_simple s) (s_complex s ++ [l]) (s_incoming s))
       (i_structs (obj h w))))).

(** items.cpp:72-159.  Result: new heap, the bool returned (ignored by the parser)
    and what is printed on standard output. *)
Definition apply_call (c : call) (h : heap) : option (heap * bool * list string) :=
  let i := h_self h in
  match c with
  | CEnum n cls =>                                            (* items.cpp:72-91 *)
      match get_item_type i n with
      | unknown_E =>
          Some (Heap (Info (i_structs i) (mset n (EnumS n cls []) (i_enums i))
                           None (Some (HSelf, n)) (i_parse_rv i)) (h_common h), true, [])
      | _ => Some (h, false, ["ERROR process_enum : name '" ++ n ++ " already in use"])
      end
  | CEnumLine n init v =>                                     (* items.cpp:93-107 *)
      match i_cur_enum i with
      | Some p => let? h' := add_enum_line h p (EnumLine n init v) in Some (h', true, [])
      | None => Some (h, false, [])
      end
  | CStruct n =>                                              (* items.cpp:109-127 *)
      match get_item_type i n with
      | unknown_E =>
          Some (Heap (Info (mset n (StructS n [] [] 0) (i_structs i)) (i_enums i)
                           (Some (HSelf, n)) None (i_parse_rv i)) (h_common h), true, [])
      | _ => Some (h, false, ["ERROR process_struct : name '" ++ n ++ " already in use"])
      end
  | CSimple ty n d =>                                         (* items.cpp:129-143 *)
      match i_cur_struct i with
      | Some p => let? h' := add_simple h p (Simple ty n d) in Some (h', true, [])
      | None => Some (h, false, [])
      end
  | CComplex ty tn n =>                                       (* items.cpp:145-159 *)
      match i_cur_struct i with
      | Some p => let? h' := add_complex h p (Complex ty tn n) in Some (h', true, [])
      | None => Some (h, false, [])
      end
  end.

Fixpoint apply_calls (cs : list call) (h : heap) : option (heap * list string) :=
  match cs with
  | [] => Some (h, [])
  | c :: cs' =>
      let? (h', _, o) := apply_call c h in
      let? (h'', o') := apply_calls cs' h' in
      Some (h'', (o ++ o')%list)
  end.
