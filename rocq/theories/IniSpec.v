(** What the functions generated for the n_ini back end are to do, said without the
    generated code: how the lines of a file become items in sections, how objects are read
    from them, and which text is written for an object. *)
From Coq Require Import String Ascii ZArith NArith Arith List Bool Lia.
From Verif Require Import Base Items Grammar Fmt Decimal Cpp Xml Val Rx Emit EnumSem XmlSpec.
Import ListNotations.
Local Open Scope string_scope.
Local Open Scope list_scope.

(** *** From lines to items *)
(** The items before the first section line, and those of the sections. *)
Record lookups := Look { k_top : list (string * string); k_under : list (string * list (string * string)) }.
(** [x_cur]: the section that gets the next item; [x_key], [x_val]: an item whose text is
    given in the lines that follow. *)
Record scan := Scan { x_look : lookups; x_cur : option string; x_key : string; x_val : string }.

Definition put_item (c : option string) (n v : string) (k : lookups) : lookups :=
  match c with
  | None => Look (set_assoc n v (k_top k)) (k_under k)
  | Some s =>
      match assoc s (k_under k) with
      | Some its => Look (k_top k) (set_assoc s (set_assoc n v its) (k_under k))
      | None => k
      end
  end.
(** % starts a comment *)
Fixpoint no_comment (s : string) : string :=
  match s with
  | String c r => if (c =? "%")%char then "" else String c (no_comment r)
  | EmptyString => ""
  end.
(** std::regex_search, and the groups found *)
Definition search (r s : string) : option (list string) := let? l := rx_compile r in rx_search l s.

Definition flush (c : ascii) (s : scan) : scan :=
  if (negb (String.eqb (x_key s) "") && negb (c =? " ")%char)%bool
  then Scan (put_item (x_cur s) (x_key s) (x_val s) (x_look s)) (x_cur s) "" "" else s.
Definition scan_line (line : string) (s : scan) : scan :=
  match no_comment line with
  | EmptyString => s
  | String c r =>
      let l := String c r in
      let s := flush c s in
      if (c =? "[")%char then
        match search "\[(.+)\]" l with
        | Some (k :: _) => Scan (Look (k_top (x_look s)) (set_assoc k [] (k_under (x_look s)))) (Some k) (x_key s) (x_val s)
        | _ => s
        end
      else if (c =? " ")%char then Scan (x_look s) (x_cur s) (x_key s) (x_val s ++ l)%string
      else
        match search "(\w+) (.+)" l with
        | Some (k :: v :: _) => Scan (put_item (x_cur s) k v (x_look s)) (x_cur s) (x_key s) (x_val s)
        | _ =>
            match search "(\w+)" l with
            | Some (k :: _) => Scan (x_look s) (x_cur s) k NL
            | _ => s
            end
        end
  end.
(** fgets with a buffer of 80: at most 79 characters, up to and including a newline. *)
Fixpoint chunks (room : nat) (a s : string) : list string :=
  match s with
  | EmptyString => match a with EmptyString => [] | _ => [a] end
  | String c r =>
      if ((c =? nl)%char || (room <=? 1)%nat)%bool then snoc a c :: chunks 79 "" r else chunks (room - 1) (snoc a c) r
  end.
Definition scan_text (t : string) (s : scan) : scan :=
  fold_left (fun s l => scan_line (CppSem.cut l) s) (chunks 79 "" t) s.

(** *** Names of sections *)
Definition dotted (path : string) : string := match path with EmptyString => "" | _ => (path ++ ".")%string end.
Definition sub_path (path n : string) : string := (dotted path ++ underline_to_space n)%string.

Section Spec.
Variable L : lang.

(** *** Reading *)
(** std::stoi and so on; [None]: an exception *)
Definition number (k : nkind) (s : string) : option Z :=
  let? z := scan_dec s in
  if signed k then if ((- 2 ^ (bits L k - 1) <=? z) && (z <? 2 ^ (bits L k - 1)))%Z then Some z else None
  else if (Z.abs z <? 2 ^ bits L k)%Z then Some (wrap (bits L k) false z) else None.
Definition read_as (k j : nkind) (s : string) : option val := let? z := number k s in Some (VNum j (to_kind L j z)).
Definition text_value (t : simple_type) (s : string) : option val :=
  match t with
  | bool_E => read_as KInt KBool s
  | int_E => read_as KInt KInt s
  | short_E => read_as KInt KShort s
  | long_E => read_as KLong KLong s
  | unsigned_int_E => read_as KULong KUInt s
  | unsigned_short_E => read_as KULong KUShort s
  | unsigned_long_E => read_as KULong KULong s
  | float_E => let? c := l_sto L KFloat s in Some (VFlt KFloat c)
  | double_E => let? c := l_sto L KDouble s in Some (VFlt KDouble c)
  | std_string_E => Some (VStr s)
  end.
Inductive outcome (A : Type) := Done (a : A) | Thrown (a : A) | Undefined.
Arguments Done {A}. Arguments Thrown {A}. Arguments Undefined {A}.
(** A member whose text is [s]. *)
Definition read_text (m : member) (s : string) (old : val) : outcome val :=
  match m with
  | MSimple t _ _ => match text_value t s with Some v => Done v | None => Thrown old end
  | MUser u _ _ =>
      match find_enum (l_defs L) u with
      | Some (_, es) =>
          match read_enum L u (enum_values L 0 es) s with ERead z _ => Done (VEnum u z) | EKeep => Done old | EUB => Undefined end
      | None => Undefined
      end
  | MVector _ _ => Undefined
  end.
(** One member after the other; the first exception ends it. *)
Fixpoint read_scalars (its : list (string * string)) (ms : list member) (fs : list (string * val)) : outcome (list (string * val)) :=
  match ms with
  | [] => Done fs
  | m :: r =>
      let n := member_name m in
      match assoc n its with
      | None => read_scalars its r fs
      | Some s =>
          match assoc n fs with
          | Some old =>
              match read_text m s old with
              | Done v => read_scalars its r (set_assoc n v fs)
              | Thrown _ => Thrown fs
              | Undefined => Undefined
              end
          | None => Undefined
          end
      end
  end.
Definition is_struct_member (m : member) : bool :=
  match m with MUser u _ _ => match user_type L u with Some (TStruct _) => true | _ => false end | _ => false end.
(** The members that are read from the section of the struct: none at all in a struct
    without members of built-in types. *)
Definition section_members (ms : list member) : list member :=
  if existsb is_simple ms then filter (is_scalar L) (in_order ms) else [].

(** The result of the function, and the object; [None]: undefined behaviour *)
Definition result := option (bool * val).
Fixpoint read_structs (path : string) (sub : list (string * (string -> result))) (ms : list member) (rv : bool) (fs : list (string * val))
    : option (bool * list (string * val)) :=
  match ms with
  | [] => Some (rv, fs)
  | m :: r =>
      let n := member_name m in
      let? f := assoc n sub in
      let? (rv', v) := f (sub_path path n) in
      read_structs path sub r rv' (set_assoc n v fs)
  end.
Fixpoint read_obj (k : lookups) (v : val) : string -> result := fun path =>
  match v with
  | VStruct t fs =>
      let sub := map (fun p => (fst p, read_obj k (snd p))) fs in
      let? ms := find_struct (l_defs L) t in
      match match assoc path (k_under k) with Some its => read_scalars its (section_members ms) fs | None => Done fs end with
      | Done fs1 => let? (rv, fs2) := read_structs path sub (filter is_struct_member ms) true fs1 in Some (rv, VStruct t fs2)
      | Thrown fs1 => Some (false, VStruct t fs1)
      | Undefined => None
      end
  | _ => None
  end.

(** *** Writing *)
Definition shown_text (v : val) : option string :=
  match v with
  | VNum _ z => Some (zdec z)
  | VFlt k c => Some (l_fprint L k c)
  | VStr s => Some s
  | VEnum n z => let? (_, es) := find_enum (l_defs L) n in Some (enum_text (enum_values L 0 es) z)
  | _ => None
  end.
Definition item_line (n s : string) : string := (n ++ " " ++ s ++ NL)%string.
Definition section_line (path : string) : string := match path with EmptyString => "" | _ => (NL ++ "[" ++ path ++ "]" ++ NL)%string end.

Variable delta : bool.
Definition scalar_line (n : string) (d v : val) : option string :=
  let? o := left_out L delta d v in
  if o then Some "" else let? s := shown_text v in Some (item_line n s).
Definition member_text (path : string) (ds : list (string * val)) (sub : list (string * (val * (string -> option string)))) (m : member) : option string :=
  let n := member_name m in
  let? (v, w) := assoc n sub in
  if is_scalar L m then let? d := assoc n ds in scalar_line n d v
  else if is_struct_member m then w (sub_path path n)
  else Some "".
Fixpoint members_text (path : string) (ds : list (string * val)) (sub : list (string * (val * (string -> option string)))) (ms : list member) : option string :=
  match ms with
  | [] => Some ""
  | m :: r => let? a := member_text path ds sub m in let? b := members_text path ds sub r in Some (a ++ b)%string
  end.
Fixpoint obj_text (v : val) : string -> option string := fun path =>
  match v with
  | VStruct t fs =>
      let sub := map (fun p => (fst p, (snd p, obj_text (snd p)))) fs in
      let? ms := find_struct (l_defs L) t in
      let? ds := default_fields L t in
      let? s := members_text path ds sub (in_order ms) in
      Some (section_line path ++ s)%string
  | _ => None
  end.
End Spec.
Arguments Done {A}. Arguments Thrown {A}. Arguments Undefined {A}.
