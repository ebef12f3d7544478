(** Values and types of the emitted C++, and what the program text does not fix: the
    declarations of the input headers, the width of long, conversions of floating
    point numbers, values of literals. *)
From Coq Require Import String Ascii ZArith NArith Arith List Bool Lia.
From Verif Require Import Base Items Grammar Fmt Decimal Cpp Xml.
Import ListNotations.
Local Open Scope string_scope.
Local Open Scope list_scope.

Inductive nkind := KBool | KInt | KUInt | KShort | KUShort | KLong | KULong.
Inductive fkind := KFloat | KDouble.

(** Types; [TOther] for library types. *)
Inductive ty := TNum (k : nkind) | TFlt (k : fkind) | TStd | TEnum (n : string) | TStruct (n : string)
              | TVec (n : string) | TCStr | TEl | TOther (s : string).

(** Access steps inside an object: a field, the element of a map. *)
Inductive acc := AFld (f : string) | AKey (k : string).
(** An object: a local variable or a member of *this, and a part of it. *)
Record lval := LV { lv_this : bool; lv_root : string; lv_path : list acc }.

Inductive val :=
| VUndef (t : ty)                                  (* not initialised *)
| VNum (k : nkind) (z : Z)
| VFlt (k : fkind) (b : Z)                         (* floating point, by some code [b] *)
| VStr (s : string)                                (* std::string *)
| VChr (c : ascii)
| VSize (n : option nat)                           (* size_t; [None]: npos *)
| VEnum (t : string) (z : Z)
| VStruct (t : string) (fs : list (string * val))
| VVec (t : string) (l : list val)
| VCStr (s : option string)                        (* const char *; [None]: null *)
| VEl (p : option (list nat))                      (* XMLElement *: position in the frame's document *)
| VNewEl (n : string)                              (* an element not yet in the document *)
| VDoc
| VErr (ok : bool)                                 (* XMLError *)
| VPtr (l : option lval)                           (* pointer to an object *)
| VMap (l : list (val * val))
| VIter (v : option (val * val))                   (* map iterator; [None]: end() *)
| VFile (b : bool)                                 (* FILE *; false: null *)
| VRegex (s : string)
| VMatch (l : list string)
| VNull                                            (* nullptr *)
| VVoid.

Record lang := Lang {
  l_defs : list def;                               (* the declarations of the input headers *)
  l_long : Z;                                      (* bits of long *)
  l_lit : ty -> dvalue -> val;                     (* value of a default member initialiser {v} *)
  l_const : constant -> Z;                         (* value of an enumerator's initialiser *)
  l_zero : fkind -> Z;                             (* 0.0 *)
  l_feq : fkind -> Z -> Z -> bool;                 (* == on floating point numbers *)
  l_xprint : fkind -> Z -> string;                 (* tinyxml2: number to text *)
  l_xread : fkind -> string -> option Z;           (* tinyxml2: text to number *)
  l_fprint : fkind -> Z -> string;                 (* fmt *)
  l_sto : fkind -> string -> option Z;             (* std::stof, std::stod; [None]: exception *)
  l_parse : string -> option (list node);          (* LoadFile on a file not written by SaveFile *)
  l_writable : string -> bool                      (* can the file be opened for writing? *)
}.

Definition kind_of (t : simple_type) : ty :=
  match t with
  | bool_E => TNum KBool | int_E => TNum KInt | short_E => TNum KShort | long_E => TNum KLong
  | unsigned_int_E => TNum KUInt | unsigned_short_E => TNum KUShort | unsigned_long_E => TNum KULong
  | float_E => TFlt KFloat | double_E => TFlt KDouble | std_string_E => TStd
  end.

Definition bits (L : lang) (k : nkind) : Z :=
  match k with
  | KBool => 1 | KInt | KUInt => 32 | KShort | KUShort => 16 | KLong | KULong => l_long L
  end.
Definition signed (k : nkind) : bool := match k with KInt | KShort | KLong => true | _ => false end.

(** Conversion of an integer to kind [k]; to bool: is it not zero. *)
Definition to_kind (L : lang) (k : nkind) (z : Z) : Z :=
  match k with
  | KBool => if (z =? 0)%Z then 0%Z else 1%Z
  | _ => wrap (bits L k) (signed k) z
  end.

Definition ty_of (v : val) : ty :=
  match v with
  | VUndef t => t
  | VNum k _ => TNum k
  | VFlt k _ => TFlt k
  | VStr _ => TStd
  | VEnum t _ => TEnum t
  | VStruct t _ => TStruct t
  | VVec t _ => TVec t
  | VCStr _ => TCStr
  | VEl _ | VNewEl _ => TEl
  | VChr _ => TOther "char"
  | VSize _ => TOther "size_t"
  | VDoc => TOther "doc"
  | VErr _ => TOther "err"
  | VPtr _ => TOther "ptr"
  | VMap _ => TOther "map"
  | VIter _ => TOther "iter"
  | VFile _ => TOther "file"
  | VRegex _ => TOther "regex"
  | VMatch _ => TOther "match"
  | VNull => TOther "null"
  | VVoid => TOther "void"
  end.

Definition nkind_eqb (a b : nkind) : bool :=
  match a, b with
  | KBool, KBool | KInt, KInt | KUInt, KUInt | KShort, KShort | KUShort, KUShort | KLong, KLong
  | KULong, KULong => true
  | _, _ => false
  end.
Definition fkind_eqb (a b : fkind) : bool :=
  match a, b with KFloat, KFloat | KDouble, KDouble => true | _, _ => false end.

(** *** The declarations *)
Definition def_struct (n : string) (d : def) : option (list member) :=
  match d with DefStruct m ms => if String.eqb n m then Some ms else None | _ => None end.
Fixpoint find_struct (ds : list def) (n : string) : option (list member) :=
  match ds with
  | [] => None
  | d :: r => match def_struct n d with Some ms => Some ms | None => find_struct r n end
  end.
Fixpoint find_enum (ds : list def) (n : string) : option (bool * list entry) :=
  match ds with
  | [] => None
  | DefEnum c m es _ :: r => if String.eqb n m then Some (c, es) else find_enum r n
  | _ :: r => find_enum r n
  end.

(** Values of the enumerators: one more than the previous one, the first one 0. *)
Fixpoint enum_values (L : lang) (next : Z) (es : list entry) : list (string * Z) :=
  match es with
  | [] => []
  | e :: r =>
      let z := match en_val e with Some c => l_const L c | None => next end in
      (en_name e, z) :: enum_values L (z + 1) r
  end.

(** The values an enumeration can hold (dcl.enum): with a fixed underlying type (enum
    class: int) all values of that type, else those of the smallest bit field that
    holds all enumerators. *)
Definition fits (neg : bool) (b : Z) (z : Z) : bool :=
  if neg then ((- 2 ^ (b - 1) <=? z) && (z <? 2 ^ (b - 1)))%Z else ((0 <=? z) && (z <? 2 ^ b))%Z.
Definition enum_bits (neg : bool) (vs : list Z) : Z :=
  fold_right (fun z b => Z.max b (Z.log2 (if (z <? 0)%Z then - z - 1 else z) + (if neg then 2 else 1))%Z) 1%Z vs.
Definition enum_holds (L : lang) (n : string) (z : Z) : bool :=
  match find_enum (l_defs L) n with
  | Some (true, _) => in_int z
  | Some (false, es) =>
      let vs := map snd (enum_values L 0 es) in
      let neg := existsb (fun v => v <? 0)%Z vs in
      fits neg (enum_bits neg vs) z
  | None => false
  end.

(** The enumerator [x] of enumeration [n]. *)
Definition enumerator (L : lang) (n x : string) : option val :=
  let? (_, es) := find_enum (l_defs L) n in
  let? z := assoc x (enum_values L 0 es) in Some (VEnum n z).
(** An enumerator named without its enumeration: those of the unscoped ones. *)
Fixpoint plain_enumerator (L : lang) (ds : list def) (x : string) : option val :=
  match ds with
  | [] => None
  | DefEnum false n es _ :: r =>
      match assoc x (enum_values L 0 es) with
      | Some z => Some (VEnum n z)
      | None => plain_enumerator L r x
      end
  | _ :: r => plain_enumerator L r x
  end.

(** A user-defined type. *)
Definition user_type (L : lang) (n : string) : option ty :=
  match find_struct (l_defs L) n with
  | Some _ => Some (TStruct n)
  | None => match find_enum (l_defs L) n with Some _ => Some (TEnum n) | None => None end
  end.

(** *** Initialisation.  [zero]: value initialisation ({}), else default initialisation. *)
Definition member_name (m : member) : string :=
  match m with MSimple _ x _ | MUser _ x _ | MVector _ x => x end.
Definition member_type (L : lang) (m : member) : option ty :=
  match m with
  | MSimple t _ _ => Some (kind_of t)
  | MUser u _ _ => user_type L u
  | MVector u _ => Some (TVec u)
  end.
Definition member_dflt (m : member) : dflt_spec :=
  match m with MSimple _ _ d | MUser _ _ d => d | MVector _ _ => NoDefault end.

(** A member of a struct, given the initialisation of types. *)
Definition init_member (L : lang) (rec : bool -> ty -> option val) (zero : bool) (m : member) : option val :=
  let? t := member_type L m in
  match member_dflt m with
  | NoDefault => rec zero t
  | EmptyDefault => rec true t
  | Default v => Some (l_lit L t v)
  end.
Fixpoint init_members (L : lang) (rec : bool -> ty -> option val) (zero : bool) (ms : list member)
    : option (list (string * val)) :=
  match ms with
  | [] => Some []
  | m :: r =>
      let? v := init_member L rec zero m in
      let? l := init_members L rec zero r in
      Some ((member_name m, v) :: l)
  end.

(** [f] bounds the nesting of structs by value; running out means that a struct
    contains itself. *)
Fixpoint init (L : lang) (f : nat) (zero : bool) (t : ty) {struct f} : option val :=
  match t with
  | TNum k => Some (if zero then VNum k 0 else VUndef t)
  | TFlt k => Some (if zero then VFlt k (l_zero L k) else VUndef t)
  | TStd => Some (VStr "")
  | TEnum n => Some (if zero then VEnum n 0 else VUndef t)
  | TVec n => Some (VVec n [])
  | TStruct n =>
      match f with
      | O => None
      | S f =>
          let? ms := find_struct (l_defs L) n in
          let? fs := init_members L (init L f) zero ms in
          Some (VStruct n fs)
      end
  | TCStr | TEl | TOther _ => Some (VUndef t)
  end.
Definition init_fuel (L : lang) : nat := S (length (l_defs L)).

(** *** Parts of objects *)
Fixpoint set_assoc {A} (n : string) (v : A) (l : list (string * A)) : list (string * A) :=
  match l with
  | [] => [(n, v)]
  | (k, w) :: r => if String.eqb n k then (k, v) :: r else (k, w) :: set_assoc n v r
  end.

(** Keys of maps: strings or enumeration values. *)
Definition key_eqb (a b : val) : bool :=
  match a, b with
  | VStr x, VStr y => String.eqb x y
  | VEnum _ x, VEnum _ y => Z.eqb x y
  | _, _ => false
  end.
Fixpoint map_find (k : val) (l : list (val * val)) : option val :=
  match l with
  | [] => None
  | (j, v) :: r => if key_eqb k j then Some v else map_find k r
  end.
Fixpoint map_set (k v : val) (l : list (val * val)) : list (val * val) :=
  match l with
  | [] => [(k, v)]
  | (j, w) :: r => if key_eqb k j then (j, v) :: r else (j, w) :: map_set k v r
  end.
(** insert: keeps an existing element (std::map from an initialiser list) *)
Definition map_insert (l : list (val * val)) (p : val * val) : list (val * val) :=
  match map_find (fst p) l with Some _ => l | None => l ++ [p] end.

(** The nested struct of the ini reader class (process_items_ini.cpp:92-106). *)
Definition read_item : val := VStruct "read_item_S" [("items", VMap []); ("under", VMap [])].

(** What a missing map element is created with by operator []; the maps indexed in
    this way for writing are those of read_item_S. *)
Definition get_acc (a : acc) (v : val) : option val :=
  match a, v with
  | AFld f, VStruct _ fs => assoc f fs
  | AKey k, VMap l => map_find (VStr k) l
  | _, _ => None
  end.
Fixpoint get_path (p : list acc) (v : val) : option val :=
  match p with
  | [] => Some v
  | a :: r => let? w := get_acc a v in get_path r w
  end.
Definition put_acc (a : acc) (w v : val) : option val :=
  match a, v with
  | AFld f, VStruct t fs => let? _ := assoc f fs in Some (VStruct t (set_assoc f w fs))
  | AKey k, VMap l => Some (VMap (map_set (VStr k) w l))
  | _, _ => None
  end.
Fixpoint put_path (p : list acc) (w v : val) : option val :=
  match p with
  | [] => Some w
  | [a] => put_acc a w v
  | a :: r => let? u := get_acc a v in let? u' := put_path r w u in put_acc a u' v
  end.
