(** What the C++ compiler makes of the initialisers that a header can contain: integer,
    character, string, bool and enumerator constants of the texts that the rules of
    struct_lex.l let through (C79), also behind a sign (Cxx.v), in the braces of a member or
    behind the = of an enumerator.  The rule for floating point constants (struct_lex.l:205) has an
    unescaped dot: it also takes two numbers with any character between them, so 1+2 and 1'000.
    [None]: the header does not compile, or this file gives no meaning (floating point, operands
    of 1+2 and so on beyond int, initialisers with a value for struct members). *)
From Coq Require Import String Ascii ZArith NArith Arith List Bool Lia.
From Verif Require Import Base Map Items Grammar Fmt Decimal Cpp Xml Val CppSem.
Import ListNotations.
Local Open Scope string_scope.

(** *** Constants *)
Fixpoint number_in (base acc : Z) (s : string) : option Z :=
  match s with
  | EmptyString => Some acc
  | String c r =>
      let? d := hex_digit c in
      if (d <? base)%Z then number_in base (acc * base + d)%Z r else None
  end.
(** lex.icon: with a leading 0 the number is octal; a decimal one has a signed type. *)
Definition int_num (s : string) : option Z :=
  match s with
  | EmptyString => None
  | String "0" r => let? z := number_in 8 0 r in if (z <? 2 ^ 64)%Z then Some z else None
  | _ => let? z := number_in 10 0 s in if (z <? 2 ^ 63)%Z then Some z else None
  end.
Definition hex_num (s : string) : option Z :=
  match s with
  | String "0" (String "x" (String c r)) => let? z := number_in 16 0 (String c r) in if (z <? 2 ^ 64)%Z then Some z else None
  | _ => None
  end.
Definition quote : ascii := "'".
Definition dquote : ascii := """".
Definition backslash : ascii := "\".
(** 'c', ASCII *)
Definition char_num (s : string) : option Z :=
  match s with
  | String q (String c (String q' EmptyString)) =>
      if ((q =? quote) && (q' =? quote) && negb (c =? quote) && negb (c =? backslash))%char then
        if (nat_of_ascii c <? 128)%nat then Some (Z.of_nat (nat_of_ascii c)) else None
      else None
  | _ => None
  end.
(** expr.unary.op: a sign.  A literal with leading 0 that fits no int, but an unsigned int, has
    that type, and its negative is taken modulo 2^32; likewise for 64 bits. *)
Definition negative (s : string) (z : Z) : Z :=
  match s with
  | String "0" _ =>
      (if z <? 2 ^ 31 then - z else if z <? 2 ^ 32 then 2 ^ 32 - z else if z <? 2 ^ 63 then - z else 2 ^ 64 - z)%Z
  | _ => (- z)%Z
  end.
Definition with_sign (f : string -> option Z) (s : string) : option Z :=
  match s with
  | String "-" r => let? z := f r in Some (negative r z)
  | String "+" r => f r
  | _ => f s
  end.
Definition int_lit : string -> option Z := with_sign int_num.
Definition hex_lit : string -> option Z := with_sign hex_num.
Definition char_lit : string -> option Z := with_sign char_num.
(** The digits in front, and the rest. *)
Fixpoint lead_digits (s : string) : string * string :=
  match s with
  | String c r => if is_digit c then let (a, b) := lead_digits r in (String c a, b) else (EmptyString, s)
  | EmptyString => (EmptyString, EmptyString)
  end.
(** expr.mul, expr.add, expr.rel, expr.bit.and and so on, for operands of type int.  [None]: another
    character, a division by 0, or no int. *)
Definition operation (c : ascii) (x y : Z) : option Z :=
  let? z :=
    if (c =? "+")%char then Some (x + y)%Z else if (c =? "-")%char then Some (x - y)%Z else if (c =? "*")%char then Some (x * y)%Z
    else if (c =? "/")%char then (if (y =? 0)%Z then None else Some (Z.quot x y))
    else if (c =? "%")%char then (if (y =? 0)%Z then None else Some (Z.rem x y))
    else if (c =? "<")%char then Some (if (x <? y)%Z then 1 else 0)%Z else if (c =? ">")%char then Some (if (y <? x)%Z then 1 else 0)%Z
    else if (c =? "&")%char then Some (Z.land x y) else if (c =? "|")%char then Some (Z.lor x y) else if (c =? "^")%char then Some (Z.lxor x y)
    else None in
  if in_int z then Some z else None.
(** A text of the rule for floating point constants that is no floating point constant: a number
    with a separator (lex.icon), a binary or hexadecimal number, or an operation. *)
Definition two_numbers (s : string) : option (string * ascii * string) :=
  match lead_digits s with
  | (String d a, String c r) =>
      match lead_digits r with (String e b, EmptyString) => Some (String d a, c, String e b) | _ => None end
  | _ => None
  end.
Definition expr_num (minus : bool) (s : string) : option Z :=
  let? (a, c, b) := two_numbers s in
  let signed (t : string) (z : Z) := if minus then negative t z else z in
  if (c =? quote)%char then let? z := int_num (a ++ b) in Some (signed (a ++ b)%string z)
  else if (String.eqb a "0" && ((c =? "b") || (c =? "B"))%char)%bool then let? z := number_in 2 0 b in if (z <? 2 ^ 64)%Z then Some (signed (a ++ b)%string z) else None
  else if (String.eqb a "0" && ((c =? "x") || (c =? "X"))%char)%bool then let? z := number_in 16 0 b in if (z <? 2 ^ 64)%Z then Some (signed (a ++ b)%string z) else None
  else
    let? x := int_num a in
    let? y := int_num b in
    if (in_int x && in_int y)%bool then operation c (if minus then - x else x)%Z y else None.
Definition expr_lit (s : string) : option Z :=
  match s with
  | String "-" r => expr_num true r
  | String "+" r => expr_num false r
  | _ => expr_num false s
  end.
Definition const_val (c : constant) : option Z :=
  match c with CInt s => int_lit s | CHex s => hex_lit s | CChar s => char_lit s end.

(** lex.string: the characters up to the closing quote, which is the last character. *)
Definition escape (c : ascii) : option ascii :=
  if (c =? "n")%char then Some "010"%char else if (c =? "t")%char then Some "009"%char
  else if (c =? "r")%char then Some "013"%char else if (c =? "a")%char then Some "007"%char
  else if (c =? "b")%char then Some "008"%char else if (c =? "f")%char then Some "012"%char
  else if (c =? "v")%char then Some "011"%char
  else if ((c =? backslash) || (c =? quote) || (c =? dquote) || (c =? "?"))%char then Some c
  else None.
(** Where the reader of a literal is: behind a backslash, behind the digits of an octal escape
    (at most three digits) or of a hexadecimal one (any number of digits), or elsewhere. *)
Inductive lit_place := Outside | Escape | Octal (left : nat) (v : Z) | Hexa (some : bool) (v : Z).
Definition octal_digit (c : ascii) : option Z := let? d := hex_digit c in if (d <? 8)%Z then Some d else None.
(** The character of an escape that ends here: it must fit in a char (lex.ccon). *)
Definition escaped (p : lit_place) : option string :=
  match p with
  | Outside => Some EmptyString
  | Octal _ v | Hexa true v => if (v <? 256)%Z then Some (String (ascii_of_nat (Z.to_nat v)) EmptyString) else None
  | Escape | Hexa false _ => None
  end.
Definition goes_on (p : lit_place) (c : ascii) : option lit_place :=
  match p with
  | Octal (S k) v => let? d := octal_digit c in Some (Octal k (v * 8 + d)%Z)
  | Hexa _ v => let? d := hex_digit c in Some (Hexa true (v * 16 + d)%Z)
  | _ => None
  end.
Fixpoint str_rest (p : lit_place) (s : string) : option string :=
  match s with
  | EmptyString => None
  | String c r =>
      match p with
      | Escape =>
          match octal_digit c with
          | Some d => str_rest (Octal 2 d) r
          | None => if (c =? "x")%char then str_rest (Hexa false 0) r
                    else let? x := escape c in let? y := str_rest Outside r in Some (String x y)
          end
      | _ =>
          match goes_on p c with
          | Some p' => str_rest p' r
          | None =>
              let? a := escaped p in
              if (c =? dquote)%char then match r with EmptyString => Some a | _ => None end
              else if (c =? backslash)%char then let? y := str_rest Escape r in Some (a ++ y)%string
              else let? y := str_rest Outside r in Some (a ++ String c y)%string
          end
      end
  end.
Definition str_lit (s : string) : option string :=
  match s with String c r => if (c =? dquote)%char then str_rest Outside r else None | EmptyString => None end.

(** e::x *)
Fixpoint split_qual (s : string) : option (string * string) :=
  match s with
  | String ":" (String ":" r) => Some (EmptyString, r)
  | String c r => let? (a, b) := split_qual r in Some (String c a, b)
  | EmptyString => None
  end.

(** *** Values of enumerators *)
Fixpoint const_values (next : Z) (es : list entry) : option (list (string * Z)) :=
  match es with
  | [] => Some []
  | e :: r =>
      let? z := match en_val e with Some c => const_val c | None => Some next end in
      let? l := const_values (z + 1)%Z r in Some ((en_name e, z) :: l)
  end.

Section Lit.
Variable ds : list def.
Variable long : Z.
Variable F : fkind -> dvalue -> option Z.     (* initialisers of floating point members *)

(** The enumeration and the enumerator that e::x names. *)
Definition named (s : string) : option (string * bool * Z) :=
  let? (e, x) := split_qual s in
  let? (sc, es) := find_enum ds e in
  let? vs := const_values 0 es in
  let? z := assoc x vs in Some (e, sc, z).
(** The value of an initialiser that has an integral or unscoped enumeration type. *)
Definition integral (v : dvalue) : option Z :=
  match v with
  | DInt s => int_lit s
  | DChar s => char_lit s
  | DTrue => Some 1%Z
  | DFalse => Some 0%Z
  | DEnum s => let? (_, sc, z) := named s in if sc then None else Some z
  | DFlt s => expr_lit s
  | DStr _ => None
  end.
(** The values of a kind; others are narrowed, which braces do not allow (dcl.init.list). *)
Definition in_kind (k : nkind) (z : Z) : bool :=
  let b := match k with KBool => 1 | KInt | KUInt => 32 | KShort | KUShort => 16 | KLong | KULong => long end%Z in
  if match k with KInt | KShort | KLong => true | _ => false end then ((- 2 ^ (b - 1) <=? z) && (z <? 2 ^ (b - 1)))%Z else ((0 <=? z) && (z <? 2 ^ b))%Z.
Definition lit_value (t : ty) (v : dvalue) : option val :=
  match t with
  | TNum k => let? z := integral v in if in_kind k z then Some (VNum k z) else None
  | TFlt k => let? c := F k v in Some (VFlt k c)
  | TStd =>
      match v with
      | DStr s => (* from a const char*: up to the first character 0 *) let? x := str_lit s in Some (VStr (CppSem.cut x))
      | _ => (* a list of one char *)
          let? z := integral v in
          if ((0 <=? z) && (z <? 128))%Z then Some (VStr (String (ascii_of_nat (Z.to_nat z)) EmptyString)) else None
      end
  | TEnum n =>
      let number := let? z := integral v in if in_int z then Some (VEnum n z) else None in
      let? (sc, _) := find_enum ds n in
      match v with
      | DEnum s =>
          let? (e, _, z) := named s in
          if String.eqb e n then Some (VEnum n z) else if sc then number else None
      | _ => if sc then number else None
      end
  | _ => None
  end.

(** The initialisers of a header compile. *)
Definition dflt_ok (t : option ty) (d : dflt_spec) : bool :=
  match d with
  | Default v => match t with Some t => match lit_value t v with Some _ => true | None => false end | None => false end
  | _ => true
  end.
Definition type_in (m : member) : option ty :=
  match m with
  | MSimple t _ _ => Some (kind_of t)
  | MUser u _ _ =>
      match find_struct ds u with
      | Some _ => Some (TStruct u)
      | None => match find_enum ds u with Some _ => Some (TEnum u) | None => None end
      end
  | MVector u _ => Some (TVec u)
  end.
Definition def_lits (d : def) : bool :=
  match d with
  | DefEnum c _ es _ =>
      match const_values 0 es with
      | Some vs => if c then forallb (fun p => in_int (snd p)) vs else true
      | None => false
      end
  | DefStruct _ ms => forallb (fun m => dflt_ok (type_in m) (member_dflt m)) ms
  end.
Definition literals_ok : bool := forallb def_lits ds.
End Lit.

(** A language in which initialisers mean what they mean in C++. *)
Record standard (F : fkind -> dvalue -> option Z) (L : lang) : Prop := Standard {
  st_long : (32 <= l_long L)%Z;
  st_const : forall c z, const_val c = Some z -> l_const L c = z;
  st_lit : forall t v x, lit_value (l_defs L) (l_long L) F t v = Some x -> l_lit L t v = x }.
(** Such a language, with everything else as in another one. *)
Definition with_literals (F : fkind -> dvalue -> option Z) (L : lang) : lang :=
  Lang (l_defs L) (l_long L)
    (fun t v => match lit_value (l_defs L) (l_long L) F t v with Some x => x | None => VUndef t end)
    (fun c => match const_val c with Some z => z | None => 0%Z end)
    (l_zero L) (l_feq L) (l_xprint L) (l_xread L) (l_fprint L) (l_sto L) (l_parse L) (l_writable L).
