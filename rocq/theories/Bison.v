(** The generated LALR(1) parser: yy::Parser::parse of src/lex_parse/Parser.cpp,
    driven by the tables of BisonTables.v.

    [None] everywhere means undefined behaviour: a table or the stack indexed out
    of bounds, a semantic value read as a type it does not have, or a failing
    scanner.  Locations of stack entries are not modelled: they are only used to
    build the location of an error token, which this grammar never shifts.
    Debug output (YYDEBUG is off) and exceptions are not modelled. *)
From Coq Require Import String Ascii ZArith NArith Arith List Bool Lia.
From Verif Require Import Base Flex BisonTables Items Decimal.
Import ListNotations.
Local Open Scope Z_scope.

Definition zget {A} (l : list A) (i : Z) : option A :=
  if i <? 0 then None else nth_error l (Z.to_nat i).

(** Parser.hpp: value_type, a variant of std::string and simple_item_type_E. *)
Inductive sval := VNone | VStr (s : string) | VType (t : simple_type).

Definition as_str (v : sval) : option string := match v with VStr s => Some s | _ => None end.
Definition as_type (v : sval) : option simple_type := match v with VType t => Some t | _ => None end.

(** Everything a run of the parser does, in order. *)
Inductive out :=
| OLex (e : event)        (* printed by the scanner *)
| OCall (c : call)        (* callback into the item store *)
| OErr (s : string).      (* yy::Parser::error, to *err *)

(** Parser.cpp:1146-1165 symbol_name, terminals only *)
Definition yy_sname : list string :=
  ["end of file"; "error"; "invalid token"; "{"; "}"; "="; ","; ";"; "<";
   ">"; "enum"; "class"; "struct"; "int"; "short"; "long"; "unsigned";
   "float"; "double"; "bool"; "true"; "false"; "std::string"; "std::vector";
   "NAME"; "ENUM_VALUE"; "VALUE"; "HEXVALUE"; "FVALUE"; "STRING_CONSTANT";
   "CHAR_CONSTANT"]%string.

Section Driver.
(** The token source: yylex (Parser.cpp:661).  The location is kept in yyla and
    handed to every call. *)
Variable src : Type.
Variable next : src -> loc -> option (src * loc * list event * option token).

Definition stack := list (Z * sval).

Record cfg := Cfg {
  c_stk : stack;                  (* yystack_, top first *)
  c_la : option (Z * sval);       (* yyla, None = empty *)
  c_loc : loc;                    (* yyla.location *)
  c_src : src;
  c_err : Z }.                    (* yyerrstatus_ *)

(** Parser.cpp:567-575 yy_lr_goto_state_ *)
Definition goto_state (s sym : Z) : option Z :=
  let? p := zget yypgoto_ (sym - YYNTOKENS) in
  let r := p + s in
  if (0 <=? r) && (r <=? yylast_) then
    let? c := zget yycheck_ r in
    if c =? s then zget yytable_ r else zget yydefgoto_ (sym - YYNTOKENS)
  else zget yydefgoto_ (sym - YYNTOKENS).

Definition val_at (stk : stack) (i : nat) : option sval :=
  let? (_, v) := nth_error stk i in Some v.
Definition str_at (stk : stack) (i : nat) : option string := let? v := val_at stk i in as_str v.
Definition type_at (stk : stack) (i : nat) : option simple_type := let? v := val_at stk i in as_type v.

(** The semantic actions, Parser.cpp:771-969: value of the left-hand side and
    callbacks.  Left-hand sides without a declared type get no value. *)
Definition semantic (rule : Z) (stk : stack) : option (sval * list call) :=
  let ty t := Some (VType t, []) in
  match rule with
  | 28 => let? s := str_at stk 0 in Some (VStr s, [])
  | 30 => let? s := str_at stk 0 in Some (VNone, [CEnum s false])
  | 31 => let? s := str_at stk 0 in Some (VNone, [CEnum s true])
  | 36 => let? s := str_at stk 0 in Some (VNone, [CEnumLine s false "-"])
  | 37 | 38 | 39 => let? s := str_at stk 2 in let? v := str_at stk 0 in
                    Some (VNone, [CEnumLine s true v])
  | 41 => let? s := str_at stk 0 in Some (VNone, [CStruct s])
  | 44 => let? t := type_at stk 2 in let? s := str_at stk 1 in Some (VNone, [CSimple t s "-"])
  | 45 => let? t := type_at stk 3 in let? s := str_at stk 2 in let? d := str_at stk 1 in
          Some (VNone, [CSimple t s d])
  | 46 => let? t := str_at stk 2 in let? s := str_at stk 1 in
          Some (VNone, [CComplex enum_or_struct_E t s])
  | 47 => let? t := str_at stk 3 in let? s := str_at stk 2 in
          Some (VNone, [CComplex enum_or_struct_E t s])
  | 48 => let? t := str_at stk 2 in let? s := str_at stk 1 in
          Some (VNone, [CComplex vector_E t s])
  | 49 => ty bool_E | 50 => ty int_E | 51 => ty short_E | 52 => ty long_E
  | 53 => ty unsigned_int_E | 54 => ty unsigned_short_E | 55 => ty unsigned_long_E
  | 56 => ty float_E | 57 => ty double_E | 58 => ty std_string_E
  | 59 => Some (VStr "{}", [])
  | 60 => let? s := str_at stk 1 in Some (VStr ("{" ++ s ++ "}"), [])
  | 61 | 62 | 65 | 66 | 67 => let? s := str_at stk 0 in Some (VStr s, [])
  | 63 => Some (VStr "true", [])
  | 64 => Some (VStr "false", [])
  | 68 => let? s := str_at stk 1 in Some (VStr s, [])
  | _ => Some (VNone, [])
  end%string.

(** Parser.cpp:1178-1209 context::expected_tokens, at most [argn] symbols; an
    overflow of the argument array is reported as no expected tokens. *)
Definition expected_tokens (s : Z) (argn : nat) : option (list Z) :=
  let? p := zget yypact_ s in
  if p =? yypact_ninf_ then Some []
  else
    let b := if p <? 0 then - p else 0 in
    let lim := yylast_ - p + 1 in
    let e := if lim <? YYNTOKENS then lim else YYNTOKENS in
    let xs := map (fun i => b + Z.of_nat i) (seq 0 (Z.to_nat (e - b))) in
    let? hits :=
      fold_right (fun x acc =>
        let? l := acc in
        let? c := zget yycheck_ (x + p) in
        if (c =? x) && negb (x =? 1) then
          let? t := zget yytable_ (x + p) in
          Some (if t =? yytable_ninf_ then l else x :: l)
        else Some l) (Some []) xs in
    Some (if (argn <? length hits)%nat then [] else hits).

Fixpoint or_names (l : list string) : string :=
  match l with
  | [] => ""
  | [a] => a
  | a :: l' => a ++ " or " ++ or_names l'
  end%string.

Fixpoint get_names (l : list Z) : option (list string) :=
  match l with
  | [] => Some []
  | x :: l' => let? n := zget yy_sname x in let? ns := get_names l' in Some (n :: ns)
  end.

(** Parser.cpp:1213-1290 yy_syntax_error_arguments_ and yysyntax_error_ *)
Definition syntax_error (s : Z) (la : option (Z * sval)) : option string :=
  match la with
  | None => Some "syntax error"%string
  | Some (k, _) =>
      let? u := zget yy_sname k in
      let? ex := expected_tokens s 4 in
      let? names := get_names ex in
      Some ("syntax error, unexpected " ++ u ++
            match names with [] => "" | _ => ", expecting " ++ or_names names end)%string
  end.

(** struct_yacc.y:199-209 / Parser.cpp:1464-1475 Parser::error *)
Definition error_text (l : loc) (msg : string) : string :=
  let b := l_begin l in let e := l_end l in
  ("Location " ++ dec (p_line b) ++ ":" ++ dec (p_col b) ++
   (if negb (p_line e =? p_line b)%N then
      "-" ++ dec (p_line e) ++ ":" ++ zdec (Z.of_N (p_col e) - 1)%Z
    else if Z.ltb 1 (Z.of_N (p_col e) - Z.of_N (p_col b))%Z then
      "-" ++ zdec (Z.of_N (p_col e) - 1)%Z
    else "") ++
   ", " ++ msg ++ String (ascii_of_N 10) "")%string.

(** Parser.cpp:1047-1071: pop until a state that shifts the error token. *)
Fixpoint pop_error (stk : stack) : option (option (stack * Z)) :=
  match stk with
  | [] => None
  | (s, _) :: rest =>
      let? p := zget yypact_ s in
      let cont := match rest with [] => Some None | _ => pop_error rest end in
      if p =? yypact_ninf_ then cont
      else
        let n := p + 1 in
        if (0 <=? n) && (n <=? yylast_) then
          let? c := zget yycheck_ n in
          if c =? 1 then
            let? t := zget yytable_ n in
            if 0 <? t then Some (Some (stk, t)) else cont
          else cont
        else cont
  end.

Inductive res := Go (c : cfg) | Done (rv : Z).

(** yyerrlab1, Parser.cpp:1044-1084 *)
Definition errlab1 (c : cfg) (o : list out) : option (list out * res) :=
  let? p := pop_error (c_stk c) in
  match p with
  | None => Some (o, Done 1)
  | Some (stk, t) => Some (o, Go (Cfg ((t, VNone) :: stk) (c_la c) (c_loc c) (c_src c) 3))
  end.

(** yyerrlab, Parser.cpp:998-1026 *)
Definition errlab (c : cfg) (o : list out) : option (list out * res) :=
  let? o' :=
    if c_err c =? 0 then
      let? (s, _) := nth_error (c_stk c) 0 in
      let? m := syntax_error s (c_la c) in
      Some (o ++ [OErr (error_text (c_loc c) m)])
    else Some o in
  if c_err c =? 3 then
    match c_la c with
    | Some (0, _) => Some (o', Done 1)
    | _ => errlab1 (Cfg (c_stk c) None (c_loc c) (c_src c) (c_err c)) o'
    end
  else errlab1 c o'.

(** yyreduce, Parser.cpp:720-995 *)
Definition reduce (rule : Z) (c : cfg) (o : list out) : option (list out * res) :=
  let? len := zget yyr2_ rule in
  let? lhs := zget yyr1_ rule in
  let? (s, _) := nth_error (c_stk c) (Z.to_nat len) in
  let? g := goto_state s lhs in
  let? (v, calls) := semantic rule (c_stk c) in
  Some (o ++ map OCall calls,
        Go (Cfg ((g, v) :: skipn (Z.to_nat len) (c_stk c)) (c_la c) (c_loc c) (c_src c) (c_err c))).

(** yydefault, Parser.cpp:710-714 *)
Definition dflt (s : Z) (c : cfg) (o : list out) : option (list out * res) :=
  let? r := zget yydefact_ s in
  if r =? 0 then errlab c o else reduce r c o.

(** From yynewstate to the next yynewstate, Parser.cpp:628-705. *)
Definition step (c : cfg) : option (list out * res) :=
  let? (s, _) := nth_error (c_stk c) 0 in
  if s =? yyfinal_ then Some ([], Done 0)
  else
    let? p := zget yypact_ s in
    if p =? yypact_ninf_ then dflt s c []
    else
      let? (c1, o, k, v) :=
        match c_la c with
        | Some (k, v) => Some (c, [], k, v)
        | None =>
            let? (src', l', evs, tk) := next (c_src c) (c_loc c) in
            let kv := match tk with
                      | None => (0, VNone)
                      | Some t => (Z.of_N (t_kind t),
                                   match t_val t with Some x => VStr x | None => VNone end)
                      end in
            Some (Cfg (c_stk c) (Some kv) l' src' (c_err c), map OLex evs, fst kv, snd kv)
        end in
      if k =? 1 then errlab1 (Cfg (c_stk c1) (Some (2, v)) (c_loc c1) (c_src c1) (c_err c1)) o
      else
        let n := p + k in
        if (n <? 0) || (yylast_ <? n) then dflt s c1 o
        else
          let? ck := zget yycheck_ n in
          if negb (ck =? k) then dflt s c1 o
          else
            let? t := zget yytable_ n in
            if t <=? 0 then
              if t =? yytable_ninf_ then errlab c1 o else reduce (- t) c1 o
            else
              Some (o, Go (Cfg ((t, v) :: c_stk c1) None (c_loc c1) (c_src c1)
                               (if c_err c1 =? 0 then 0 else c_err c1 - 1))).

(** The loop.  Out of fuel is [None] as well. *)
Fixpoint drive (fuel : nat) (c : cfg) : option (list out * Z) :=
  match fuel with
  | O => None
  | S f =>
      let? (o, r) := step c in
      match r with
      | Done rv => Some (o, rv)
      | Go c' => let? (o', rv) := drive f c' in Some (o ++ o', rv)
      end
  end.

Definition cfg0 (s : src) : cfg := Cfg [(0, VNone)] None loc0 s 0.
End Driver.
Arguments Cfg {src}. Arguments c_stk {src}. Arguments c_la {src}. Arguments c_loc {src}.
Arguments c_src {src}. Arguments c_err {src}. Arguments Go {src}. Arguments Done {src}.
Arguments drive {src}. Arguments step {src}. Arguments cfg0 {src}.
Arguments errlab {src}. Arguments errlab1 {src}. Arguments reduce {src}. Arguments dflt {src}.

(** The scanner as token source (items.cpp:60-63: a fresh scanner and parser per file). *)
Definition lex_next (lx : lexer) (l : loc) : option (lexer * loc * list event * option token) :=
  yylex (length (lx_rest lx)) lx l [].

(** parser.parse() on a file with content [cs]. *)
Definition parse_bytes (fuel : nat) (cs : bytes) : option (list out * Z) :=
  drive lex_next fuel (cfg0 (lexer0 cs)).

(** A pre-scanned token list as token source. *)
Definition list_next (ts : list item * (loc * list event)) (l : loc)
  : option ((list item * (loc * list event)) * loc * list event * option token) :=
  match fst ts with
  | [] => Some (ts, fst (snd ts), snd (snd ts), None)
  | i :: r => Some ((r, snd ts), i_loc i, i_evs i, Some (i_tok i))
  end.

Definition calls_of (o : list out) : list call :=
  flat_map (fun x => match x with OCall c => [c] | _ => [] end) o.
Definition errs_of (o : list out) : list string :=
  flat_map (fun x => match x with OErr c => [c] | _ => [] end) o.

Example parse_ex :
  match parse_bytes 999 (list_ascii_of_string "enum e { a, b = 3 }; struct s { e x{e::a}; int y{4}; }; ;") with
  | Some (o, rv) => (calls_of o, errs_of o, rv)
  | None => ([], [], 9)
  end =
  ([CEnum "e" false; CEnumLine "a" false "-"; CEnumLine "b" true "3";
    CStruct "s"; CComplex enum_or_struct_E "e" "x"; CSimple int_E "y" "{4}"]%string,
   [("Location 1:57, syntax error, unexpected ;, expecting end of file" ++ String (ascii_of_N 10) "")%string], 1).
Proof. vm_compute. reflexivity. Qed.
