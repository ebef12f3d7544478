(** What is used of tinyxml2 (and of the helpers of tinyxml2-ex): a document tree, its
    queries and updates, the conversions between values and text, and the effect of
    SaveFile followed by LoadFile.  The libraries are submodules that are not part of
    the repository; this file states what is assumed about them. *)
From Coq Require Import String Ascii ZArith NArith Arith List Bool Lia.
From Verif Require Import Base Fmt Decimal.
Import ListNotations.
Local Open Scope string_scope.
Local Open Scope list_scope.

(** Elements and text nodes.  Comments and declarations are not modelled. *)
Inductive node := Elem (name : string) (attrs : list (string * string)) (kids : list node) | Text (s : string).

Definition kids_of (x : node) : list node := match x with Elem _ _ k => k | Text _ => [] end.
Definition attrs_of (x : node) : list (string * string) := match x with Elem _ a _ => a | Text _ => [] end.
Definition is_elem (x : node) : bool := match x with Elem _ _ _ => true | Text _ => false end.

(** FindAttribute *)
Fixpoint attr (n : string) (l : list (string * string)) : option string :=
  match l with
  | [] => None
  | (k, v) :: r => if String.eqb n k then Some v else attr n r
  end.
(** SetAttribute: changes the attribute or appends a new one *)
Fixpoint set_attr (n v : string) (l : list (string * string)) : list (string * string) :=
  match l with
  | [] => [(n, v)]
  | (k, w) :: r => if String.eqb n k then (k, v) :: r else (k, w) :: set_attr n v r
  end.

(** FirstChildElement(n): index of the first child element of that name.
    find_element of tinyxml2-ex with a plain name is taken to be the same. *)
Fixpoint first_child (n : string) (ks : list node) : option nat :=
  match ks with
  | [] => None
  | Elem m _ _ :: r => if String.eqb n m then Some 0 else option_map S (first_child n r)
  | Text _ :: r => option_map S (first_child n r)
  end.

(** Indices of the child elements: the range-based for of tinyxml2-ex. *)
Fixpoint child_elems (i : nat) (ks : list node) : list nat :=
  match ks with
  | [] => []
  | Elem _ _ _ :: r => i :: child_elems (S i) r
  | Text _ :: r => child_elems (S i) r
  end.

(** GetText: the first child if it is a text. *)
Definition get_text (x : node) : option string :=
  match kids_of x with Text s :: _ => Some s | _ => None end.
(** SetText: changes the first child if it is a text, else inserts one in front. *)
Definition set_text (s : string) (x : node) : node :=
  match x with
  | Elem n a (Text _ :: k) => Elem n a (Text s :: k)
  | Elem n a k => Elem n a (Text s :: k)
  | Text t => Text t
  end.

(** Positions in the tree: child indices from the root. *)
Fixpoint at_path (x : node) (p : list nat) : option node :=
  match p with
  | [] => Some x
  | i :: r => let? k := nth_error (kids_of x) i in at_path k r
  end.
Fixpoint upd_nth {A} (i : nat) (f : A -> A) (l : list A) : list A :=
  match i, l with
  | O, a :: r => f a :: r
  | S i, a :: r => a :: upd_nth i f r
  | _, [] => []
  end.
Fixpoint upd_path (p : list nat) (f : node -> node) (x : node) : node :=
  match p with
  | [] => f x
  | i :: r => match x with Elem n a k => Elem n a (upd_nth i (upd_path r f) k) | Text s => Text s end
  end.

(** *** Numbers as text *)
Definition is_space (c : ascii) : bool :=
  let n := nat_of_ascii c in ((n =? 32) || (9 <=? n) && (n <=? 13))%nat%bool.

Fixpoint skip_space (s : string) : string :=
  match s with
  | String c r => if is_space c then skip_space r else s
  | EmptyString => EmptyString
  end.

(** Leading decimal digits: value and whether there is any. *)
Fixpoint digits_val (acc : Z) (any : bool) (s : string) : option Z :=
  match s with
  | String c r =>
      let n := nat_of_ascii c in
      if ((48 <=? n) && (n <=? 57))%nat then digits_val (acc * 10 + Z.of_nat (n - 48)) true r
      else if any then Some acc else None
  | EmptyString => if any then Some acc else None
  end.

(** strtol / sscanf("%d") in base 10: blanks, sign, digits; what follows is ignored. *)
Definition scan_dec (s : string) : option Z :=
  match skip_space s with
  | String c r =>
      if (c =? "-")%char then option_map Z.opp (digits_val 0 false r)
      else if (c =? "+")%char then digits_val 0 false r
      else digits_val 0 false (String c r)
  | EmptyString => None
  end.

Definition hex_digit (c : ascii) : option Z :=
  let n := Z.of_nat (nat_of_ascii c) in
  if ((48 <=? n) && (n <=? 57))%Z then Some (n - 48)%Z
  else if ((97 <=? n) && (n <=? 102))%Z then Some (n - 87)%Z
  else if ((65 <=? n) && (n <=? 70))%Z then Some (n - 55)%Z
  else None.
Fixpoint hex_val (acc : Z) (any : bool) (s : string) : option Z :=
  match s with
  | String c r =>
      match hex_digit c with
      | Some d => hex_val (acc * 16 + d) true r
      | None => if any then Some acc else None
      end
  | EmptyString => if any then Some acc else None
  end.
(** XMLUtil::IsPrefixHex, then sscanf("%x") *)
Definition hex_prefix (s : string) : option string :=
  match skip_space s with
  | String "0" (String c r) => if ((c =? "x") || (c =? "X"))%char then Some r else None
  | _ => None
  end.

(** Result of a conversion: fails, a value, or undefined behaviour (sscanf of a number
    that does not fit). *)
Inductive scanned := NoValue | Value (z : Z) | Overflow.

Definition wrap (bits : Z) (signed : bool) (z : Z) : Z :=
  let m := (2 ^ bits)%Z in
  let r := (z mod m)%Z in
  if (signed && (2 ^ (bits - 1) <=? r)%Z)%bool then (r - m)%Z else r.
Definition in_int (z : Z) : bool := ((- 2 ^ 31 <=? z) && (z <? 2 ^ 31))%Z.
Definition in_uint (z : Z) : bool := ((0 <=? z) && (z <? 2 ^ 32))%Z.

(** XMLUtil::ToInt *)
Definition to_int (s : string) : scanned :=
  match hex_prefix s with
  | Some r => match hex_val 0 true r with
              | Some z => if in_uint z then Value (wrap 32 true z) else Overflow
              | None => NoValue end
  | None => match scan_dec s with
            | Some z => if in_int z then Value z else Overflow
            | None => NoValue end
  end.
(** XMLUtil::ToUnsigned; sscanf("%u") accepts a sign, like strtoul *)
Definition to_unsigned (s : string) : scanned :=
  match hex_prefix s with
  | Some r => match hex_val 0 true r with
              | Some z => if in_uint z then Value z else Overflow
              | None => NoValue end
  | None => match scan_dec s with
            | Some z => if in_uint (Z.abs z) then Value (wrap 32 false z) else Overflow
            | None => NoValue end
  end.
(** XMLUtil::ToBool *)
Definition to_bool (s : string) : scanned :=
  match to_int s with
  | Value z => Value (if (z =? 0)%Z then 0 else 1)
  | Overflow => Overflow
  | NoValue =>
      if existsb (String.eqb s) ["true"; "True"; "TRUE"] then Value 1
      else if existsb (String.eqb s) ["false"; "False"; "FALSE"] then Value 0
      else NoValue
  end.

(** *** SaveFile, then LoadFile
    Attribute values and texts are written with entities and read back with them
    resolved; line ends are normalised when reading (CR LF, LF CR and CR become LF).  Text
    of blanks only is dropped (default whitespace mode).  Names are kept.  Two
    adjacent text nodes do not occur in generated documents. *)
Definition cr : ascii := ascii_of_nat 13.
Fixpoint newlines (s : string) : string :=
  match s with
  | String c ((String d r) as t) =>
      if ((c =? cr) && (d =? nl) || (c =? nl) && (d =? cr))%char%bool then String nl (newlines r)
      else String (if (c =? cr)%char then nl else c) (newlines t)
  | String c EmptyString => String (if (c =? cr)%char then nl else c) EmptyString
  | EmptyString => EmptyString
  end.
Definition blank (s : string) : bool := match skip_space s with EmptyString => true | _ => false end.

Fixpoint reload (x : node) : node :=
  match x with
  | Text s => Text (newlines s)
  | Elem n a k =>
      Elem n (map (fun p => (fst p, newlines (snd p))) a)
           (flat_map (fun y => match y with
                               | Text s => if blank s then [] else [Text (newlines s)]
                               | Elem _ _ _ => [reload y]
                               end) k)
  end.
