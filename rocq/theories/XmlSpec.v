(** What the functions generated for the two xml back ends are to do, said without the
    generated code: how an element is read into an object of a struct type, and which
    element is written for an object.  [None] stands for undefined behaviour. *)
From Coq Require Import String Ascii ZArith NArith Arith List Bool Lia.
From Verif Require Import Base Items Grammar Fmt Decimal Cpp Xml Val EnumSem.
Import ListNotations.
Local Open Scope string_scope.
Local Open Scope list_scope.

(** Scalars as attributes (xml_attrib) or as child elements with a text (xml). *)
Inductive form := Attributes | Elements.

(** *** Objects of the types of the headers *)
Definition ty_eqb (a b : ty) : bool :=
  match a, b with
  | TNum j, TNum k => nkind_eqb j k
  | TFlt j, TFlt k => fkind_eqb j k
  | TStd, TStd => true
  | TEnum n, TEnum m | TStruct n, TStruct m | TVec n, TVec m => String.eqb n m
  | _, _ => false
  end.
Definition may_be_undef (t : ty) : bool := match t with TNum _ | TFlt _ | TEnum _ => true | _ => false end.

Section Spec.
Variable L : lang.

Fixpoint fields_fit (ms : list member) (fs : list (string * (ty -> bool))) : bool :=
  match ms, fs with
  | [], [] => true
  | m :: r, (n, f) :: q =>
      (String.eqb n (member_name m) && match member_type L m with Some t => f t | None => false end && fields_fit r q)%bool
  | _, _ => false
  end.
(** [v] is an object of type [t]; numbers, floating point numbers and enumerations need
    not be initialised. *)
Fixpoint fits (v : val) : ty -> bool := fun t =>
  match v with
  | VUndef u => (may_be_undef u && ty_eqb t u)%bool
  | VNum k z => (ty_eqb t (TNum k) && (to_kind L k z =? z)%Z)%bool
  | VFlt k _ => ty_eqb t (TFlt k)
  | VStr _ => ty_eqb t TStd
  | VEnum n _ => ty_eqb t (TEnum n)
  | VStruct n fs =>
      (ty_eqb t (TStruct n) &&
       match find_struct (l_defs L) n with
       | Some ms => fields_fit ms (map (fun p => (fst p, fits (snd p))) fs)
       | None => false
       end)%bool
  | VVec n l => (ty_eqb t (TVec n) && forallb (fun w => fits w (TStruct n)) l)%bool
  | _ => false
  end.

(** The members of an object declared without initialiser. *)
Definition default_fields (t : string) : option (list (string * val)) :=
  match init L (init_fuel L) false (TStruct t) with Some (VStruct _ fs) => Some fs | _ => None end.

Section Form.
Variable b : form.

(** *** Reading *)
(** The first child element of a name, with what is known about it. *)
Fixpoint first_named {A} (n : string) (l : list (node * A)) : option (node * A) :=
  match l with
  | [] => None
  | (Elem m a k, r) :: q => if String.eqb n m then Some (Elem m a k, r) else first_named n q
  | (Text _, _) :: q => first_named n q
  end.
(** An item is absent, or there with or without text. *)
Inductive item := Absent | Present (text : option string).
Definition find_item {A} (n : string) (a : list (string * string)) (sub : list (node * A)) : item :=
  match b with
  | Attributes => match attr n a with Some s => Present (Some s) | None => Absent end
  | Elements => match first_named n sub with Some (c, _) => Present (get_text c) | None => Absent end
  end.

(** bool, int, unsigned int: a text that is no number changes nothing *)
Definition read_number (k : nkind) (parse : string -> scanned) (i : item) (old : val) : option val :=
  match i with
  | Present (Some s) => match parse s with Value z => Some (VNum k z) | NoValue => Some old | Overflow => None end
  | _ => Some old
  end.
(** short and long types: by way of a variable that is not initialised; an attribute is
    read without asking whether it is there *)
Definition read_converted (k : nkind) (parse : string -> scanned) (i : item) (old : val) : option val :=
  match i with
  | Absent => match b with Attributes => None | Elements => Some old end
  | Present None => None
  | Present (Some s) => match parse s with Value z => Some (VNum k (to_kind L k z)) | _ => None end
  end.
Definition read_float (k : fkind) (i : item) (old : val) : option val :=
  match i with
  | Present (Some s) => match l_xread L k s with Some c => Some (VFlt k c) | None => Some old end
  | _ => Some old
  end.
Definition read_simple (t : simple_type) (i : item) (old : val) : option val :=
  match t with
  | bool_E => read_number KBool to_bool i old
  | int_E => read_number KInt to_int i old
  | unsigned_int_E => read_number KUInt to_unsigned i old
  | short_E => read_converted KShort to_int i old
  | unsigned_short_E => read_converted KUShort to_unsigned i old
  | long_E => read_converted KLong to_int i old
  | unsigned_long_E => read_converted KULong to_unsigned i old
  | float_E => read_float KFloat i old
  | double_E => read_float KDouble i old
  | std_string_E => Some (match i with Present (Some s) => VStr s | _ => old end)
  end.
Definition read_enum_item (n : string) (i : item) (old : val) : option val :=
  match i with
  | Present (Some s) =>
      let? (_, es) := find_enum (l_defs L) n in
      match read_enum L n (enum_values L 0 es) s with
      | ERead z _ => Some (VEnum n z)
      | EKeep => Some old
      | EUB => None
      end
  | _ => Some old
  end.

(** How an element is read: as an object of a struct type, on top of the members it has,
    and as the elements of a vector of a struct type. *)
Record reading := Reading {
  as_struct : string -> list (string * val) -> option (list (string * val));
  as_items : string -> option (list val) }.

Definition read_member (a : list (string * string)) (sub : list (node * reading)) (m : member) (old : val) : option val :=
  match m with
  | MSimple t n _ => read_simple t (find_item n a sub) old
  | MUser u n _ =>
      match user_type L u with
      | Some (TEnum _) => read_enum_item u (find_item n a sub) old
      | Some (TStruct _) =>
          match first_named n sub, old with
          | None, _ => Some old
          | Some (_, r), VStruct t fs => option_map (VStruct t) (as_struct r u fs)
          | _, _ => None
          end
      | _ => None
      end
  | MVector u n =>
      match first_named n sub, old with
      | None, _ => Some old
      | Some (_, r), VVec t l => option_map (fun l' => VVec t (l ++ l')) (as_items r u)
      | _, _ => None
      end
  end.
(** Every member is read on its own. *)
Fixpoint read_members (a : list (string * string)) (sub : list (node * reading)) (ms : list member) (fs : list (string * val))
    : option (list (string * val)) :=
  match ms, fs with
  | m :: r, (n, old) :: q =>
      let? v := read_member a sub m old in let? l := read_members a sub r q in Some ((n, v) :: l)
  | _, _ => Some []
  end.
(** One object per child element, whatever its name. *)
Fixpoint read_items (u : string) (sub : list (node * reading)) : option (list val) :=
  match sub with
  | [] => Some []
  | (Elem _ _ _, r) :: q =>
      let? d := default_fields u in
      let? fs := as_struct r u d in
      let? l := read_items u q in Some (VStruct u fs :: l)
  | (Text _, _) :: q => read_items u q
  end.
Fixpoint reading_of (x : node) : reading :=
  let sub := match x with Elem _ _ ks => map (fun k => (k, reading_of k)) ks | Text _ => [] end in
  Reading (fun t fs => let? ms := find_struct (l_defs L) t in read_members (attrs_of x) sub ms fs)
          (fun u => read_items u sub).
Definition read_struct (x : node) (t : string) (fs : list (string * val)) : option (list (string * val)) :=
  as_struct (reading_of x) t fs.

(** *** Writing; [delta]: members that have their default value are left out *)
Variable delta : bool.

Definition text_of (v : val) : option string :=
  match v with
  | VNum KBool z => Some (if (z =? 0)%Z then "false" else "true")
  | VNum k z =>
      Some (zdec (match b, k with
                  | Attributes, (KShort | KLong) => to_kind L KInt z
                  | Attributes, (KUShort | KULong) => to_kind L KUInt z
                  | Elements, KULong => to_kind L KUInt z
                  | _, _ => z
                  end))
  | VFlt k c => Some (l_xprint L k c)
  | VStr s => Some (CppSem.cut s)
  | VEnum n z => let? (_, es) := find_enum (l_defs L) n in Some (enum_text (enum_values L 0 es) z)
  | _ => None
  end.
(** == ; not defined if one side is not initialised *)
Definition scalar_eq (v d : val) : option bool :=
  match v, d with
  | VNum _ x, VNum _ y => Some (x =? y)%Z
  | VFlt k x, VFlt _ y => Some (l_feq L k x y)
  | VStr x, VStr y => Some (String.eqb x y)
  | VEnum _ x, VEnum _ y => Some (x =? y)%Z
  | _, _ => None
  end.
Definition left_out (d v : val) : option bool := if delta then scalar_eq v d else Some false.

(** Attributes and children of the element for an object. *)
Definition content := (list (string * string) * list node)%type.
Definition write_scalar (n : string) (d v : val) : option content :=
  let? o := left_out d v in
  if o then Some ([], [])
  else
    let? s := text_of v in
    Some (match b with Attributes => ([(n, s)], []) | Elements => ([], [Elem n [] [Text s]]) end).
Definition is_scalar (m : member) : bool :=
  match m with
  | MSimple _ _ _ => true
  | MUser u _ _ => match user_type L u with Some (TEnum _) => true | _ => false end
  | MVector _ _ => false
  end.
(** [ds]: the default values, [sub]: the members' values and contents *)
Definition write_member (ds : list (string * val)) (sub : list (string * (val * option content))) (m : member) : option content :=
  let n := member_name m in
  let? (v, c) := assoc n sub in
  if is_scalar m then let? d := assoc n ds in write_scalar n d v
  else let? (a, k) := c in Some ([], [Elem n a k]).
Fixpoint write_members (ds : list (string * val)) (sub : list (string * (val * option content))) (ms : list member) : option content :=
  match ms with
  | [] => Some ([], [])
  | m :: r =>
      let? (a, k) := write_member ds sub m in
      let? (a', k') := write_members ds sub r in
      Some (a ++ a', k ++ k')
  end.
(** Members of built-in types come first. *)
Definition is_simple (m : member) : bool := match m with MSimple _ _ _ => true | _ => false end.
Definition in_order (ms : list member) : list member :=
  filter is_simple ms ++ filter (fun m => negb (is_simple m)) ms.
Fixpoint write_items (u : string) (cs : list (option content)) : option (list node) :=
  match cs with
  | [] => Some []
  | c :: r => let? (a, k) := c in let? l := write_items u r in Some (Elem u a k :: l)
  end.
Fixpoint write_val (v : val) : option content :=
  match v with
  | VStruct t fs =>
      let sub := map (fun p => (fst p, (snd p, write_val (snd p)))) fs in
      let? ms := find_struct (l_defs L) t in
      let? ds := default_fields t in
      write_members ds sub (in_order ms)
  | VVec u l => let? k := write_items u (map write_val l) in Some ([], k)
  | _ => None
  end.
End Form.
End Spec.
