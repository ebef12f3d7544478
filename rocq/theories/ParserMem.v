(** The parser with the memory of its semantic values: yy::Parser of
    src/lex_parse/Parser.hpp and Parser.cpp.  A semantic_type is a raw buffer that does not
    know which object is in it (Parser.hpp:193-199); the code decides by the kind of a
    symbol which type it builds, moves, reads or destroys there.  Bison.v has tagged values
    that need not be destroyed.

    [None] is, besides what it is in Bison.v: an access to an object of a type that is not
    in the buffer, an object built where there is one, a buffer that goes away with an
    object in it (a leak), or taking from an empty stack. *)
From Coq Require Import String Ascii ZArith NArith Arith List Bool Lia.
From Verif Require Import Base Flex BisonTables BisonStos Items Bison.
Import ListNotations.
Local Open Scope Z_scope.

(** What is in a buffer: nothing, or an object whose lifetime has begun. *)
Inductive obj := Raw | OStr (s : string) | OType (t : simple_type).
Inductive ty := TStr | TType.
Definition has (t : ty) (o : obj) : bool :=
  match t, o with TStr, OStr _ | TType, OType _ => true | _, _ => false end.
(** semantic_type::emplace, destroy, move, Parser.hpp:226-352 *)
Definition emplace (b v : obj) : option obj := match b with Raw => Some v | _ => None end.
Definition destroy (t : ty) (b : obj) : option obj := if has t b then Some Raw else None.
Definition move_val (t : ty) (this that : obj) : option (obj * obj) :=
  if has t that then
    let? this := emplace this that in
    let? that := destroy t that in Some (this, that)
  else None.

(** The cases of all the switches over kinds, e.g. Parser.hpp:590-612. *)
Definition kind_type (k : Z) : option ty :=
  if (k =? 66) then Some TType
  else if (24 <=? k) && (k <=? 30) || (k =? 56) || (k =? 67) || (k =? 68) || (k =? 69) then Some TStr
  else None.
(** [None]: S_YYEMPTY *)
Definition move_as (k : option Z) (this that : obj) : option (obj * obj) :=
  match k with
  | Some k => match kind_type k with Some t => move_val t this that | None => Some (this, that) end
  | None => Some (this, that)
  end.
Definition clear_as (k : option Z) (b : obj) : option obj :=
  match k with
  | Some k => match kind_type k with Some t => destroy t b | None => Some b end
  | None => Some b
  end.

(** basic_symbol<by_kind> and basic_symbol<by_state>. *)
Record sym := Sym { y_kind : option Z; y_val : obj }.
Record ssym := SSym { y_state : Z; y_obj : obj }.
(** by_state::kind, Parser.cpp:343-350; empty_state is 0, Parser.hpp:1464. *)
Definition kind_of (s : Z) : option (option Z) :=
  if s =? 0 then Some None else let? k := zget yystos_ s in Some (Some k).
(** basic_symbol::clear, Parser.hpp:661-700, and the destructor 655-658. *)
Definition clear_sym (y : sym) : option sym := let? b := clear_as (y_kind y) (y_val y) in Some (Sym None b).
Definition empty_buffer (b : obj) : bool := match b with Raw => true | _ => false end.
Definition drop_sym (y : sym) : bool :=
  match clear_sym y with Some y' => empty_buffer (y_val y') | None => false end.
Definition drop_ssym (y : ssym) : bool :=
  match (let? k := kind_of (y_state y) in clear_as k (y_obj y)) with Some b => empty_buffer b | None => false end.

(** stack_symbol_type (stack_symbol_type&&), Parser.cpp:355-384: the new symbol and what is
    left of the other one. *)
Definition move_new (that : ssym) : option (ssym * ssym) :=
  let? k := kind_of (y_state that) in
  let? (b, r) := move_as k Raw (y_obj that) in Some (SSym (y_state that) b, SSym 0 r).
(** stack_symbol_type (state_type, symbol_type&&), Parser.cpp:386-415 *)
Definition of_sym (s : Z) (that : sym) : option (ssym * sym) :=
  let? (b, r) := move_as (y_kind that) Raw (y_val that) in Some (SSym s b, Sym None r).
(** basic_symbol::move, Parser.cpp:239-269 *)
Definition move_into (this that : ssym) : option (ssym * ssym) :=
  let? k := kind_of (y_state that) in
  let? (b, r) := move_as k (y_obj this) (y_obj that) in Some (SSym (y_state that) b, SSym 0 r).

(** std::vector::push_back when the array is full: the elements are moved to a new one and
    the old ones destroyed.  The copy constructor is deleted, so they are not copied. *)
Fixpoint reallocate (l : list ssym) : option (list ssym) :=
  match l with
  | [] => Some []
  | y :: l' =>
      let? (n, r) := move_new y in
      if drop_ssym r then let? l1 := reallocate l' in Some (n :: l1) else None
  end.
(** stack::push, Parser.hpp:1536-1541, top first.  [full] says whether the array is full. *)
Definition push (full : bool) (l : list ssym) (t : ssym) : option (list ssym * ssym) :=
  let? l := if full then reallocate l else Some l in
  let? (n, r) := move_new (SSym 0 Raw) in
  if drop_ssym r then let? (n, t) := move_into n t in Some (n :: l, t) else None.
(** yypush_ with a lookahead, Parser.cpp:500-509 *)
Definition push_sym (full : bool) (l : list ssym) (s : Z) (y : sym) : option (list ssym * sym) :=
  let? (t, y) := of_sym s y in
  let? (l, t) := push full l t in
  if drop_ssym t then Some (l, y) else None.
(** stack::pop, Parser.hpp:1543-1549 *)
Fixpoint pop (n : nat) (l : list ssym) : option (list ssym) :=
  match n, l with
  | O, _ => Some l
  | S n', y :: l' => if drop_ssym y then pop n' l' else None
  | S _, [] => None
  end.

(** The objects as the values of Bison.v: as<T> (), Parser.hpp:282-297. *)
Definition val_of (o : obj) : sval := match o with Raw => VNone | OStr s => VStr s | OType t => VType t end.
Definition view (l : list ssym) : stack := map (fun y => (y_state y, val_of (y_obj y))) l.
(** yylhs.value.as<T> () = ..., if the action has a value for it *)
Definition assign (o : obj) (v : sval) : option obj :=
  match o, v with
  | _, VNone => Some o
  | OStr _, VStr s => Some (OStr s)
  | OType _, VType t => Some (OType t)
  | _, _ => None
  end.

Section Mem.
Variable src : Type.
Variable next : src -> loc -> option (src * loc * list event * option token).
(** Whether the array of the stack is full at the n-th push. *)
Variable full : nat -> bool.

Record mem := Mem {
  m_stk : list ssym;     (* yystack_, top first *)
  m_la : sym;            (* yyla *)
  m_loc : loc;           (* yyla.location *)
  m_src : src;
  m_err : Z;             (* yyerrstatus_ *)
  m_n : nat              (* pushes so far *)
}.
Inductive mres := MGo (m : mem) | MDone (rv : Z) (m : mem).

(** yyerrlab1, Parser.cpp:1044-1084 *)
Fixpoint mpop_error (l : list ssym) : option (list ssym * option Z) :=
  match l with
  | [] => None
  | y :: rest =>
      let? p := zget yypact_ (y_state y) in
      let cont := match rest with
                  | [] => Some (l, None)
                  | _ => if drop_ssym y then mpop_error rest else None
                  end in
      if p =? yypact_ninf_ then cont
      else
        let n := p + 1 in
        if (0 <=? n) && (n <=? yylast_) then
          let? c := zget yycheck_ n in
          if c =? 1 then
            let? t := zget yytable_ n in
            if 0 <? t then Some (l, Some t) else cont
          else cont
        else cont
  end.
Definition merrlab1 (m : mem) (o : list out) : option (list out * mres) :=
  let? (l, t) := mpop_error (m_stk m) in
  match t with
  | None => Some (o, MDone 1 (Mem l (m_la m) (m_loc m) (m_src m) 3 (m_n m)))
  | Some t =>
      let? (l, e) := push (full (m_n m)) l (SSym t Raw) in
      if drop_ssym e then Some (o, MGo (Mem l (m_la m) (m_loc m) (m_src m) 3 (S (m_n m)))) else None
  end.
(** yyerrlab, Parser.cpp:998-1026 *)
Definition merrlab (m : mem) (o : list out) : option (list out * mres) :=
  let? o' :=
    if m_err m =? 0 then
      let? y := nth_error (m_stk m) 0 in
      let? t := syntax_error (y_state y) (match y_kind (m_la m) with Some k => Some (k, VNone) | None => None end) in
      Some (o ++ [OErr (error_text (m_loc m) t)])
    else Some o in
  if m_err m =? 3 then
    match y_kind (m_la m) with
    | Some 0 => Some (o', MDone 1 m)
    | Some _ => let? y := clear_sym (m_la m) in merrlab1 (Mem (m_stk m) y (m_loc m) (m_src m) (m_err m) (m_n m)) o'
    | None => merrlab1 m o'
    end
  else merrlab1 m o'.
(** yyreduce, Parser.cpp:720-995 *)
Definition mreduce (rule : Z) (m : mem) (o : list out) : option (list out * mres) :=
  let? len := zget yyr2_ rule in
  let? lhs := zget yyr1_ rule in
  let? y := nth_error (m_stk m) (Z.to_nat len) in
  let? g := goto_state (y_state y) lhs in
  let? b :=
    match kind_type lhs with
    | Some TStr => emplace Raw (OStr "")
    | Some TType => emplace Raw (OType bool_E)
    | None => Some Raw
    end in
  let? (v, calls) := semantic rule (view (m_stk m)) in
  let? b := assign b v in
  let? l := pop (Z.to_nat len) (m_stk m) in
  let? (l, e) := push (full (m_n m)) l (SSym g b) in
  if drop_ssym e then Some (o ++ map OCall calls, MGo (Mem l (m_la m) (m_loc m) (m_src m) (m_err m) (S (m_n m)))) else None.
(** yydefault, Parser.cpp:710-714 *)
Definition mdflt (s : Z) (m : mem) (o : list out) : option (list out * mres) :=
  let? r := zget yydefact_ s in
  if r =? 0 then merrlab m o else mreduce r m o.
(** yylex, Parser.cpp:661, tokenize.cpp:970-1032: some tokens build a string in yyla.value. *)
Definition read_token (y : sym) (tk : option token) : option sym :=
  match tk with
  | None => Some (Sym (Some 0) (y_val y))
  | Some t =>
      let? b := match t_val t with Some x => emplace (y_val y) (OStr x) | None => Some (y_val y) end in
      Some (Sym (Some (Z.of_N (t_kind t))) b)
  end.
(** From yynewstate to the next yynewstate, Parser.cpp:628-705. *)
Definition mstep (m : mem) : option (list out * mres) :=
  let? y := nth_error (m_stk m) 0 in
  let s := y_state y in
  if s =? yyfinal_ then Some ([], MDone 0 m)
  else
    let? p := zget yypact_ s in
    if p =? yypact_ninf_ then mdflt s m []
    else
      let? (m1, o, k) :=
        match y_kind (m_la m) with
        | Some k => Some (m, [], k)
        | None =>
            let? (src', l', evs, tk) := next (m_src m) (m_loc m) in
            let? la := read_token (m_la m) tk in
            let? k := y_kind la in
            Some (Mem (m_stk m) la l' src' (m_err m) (m_n m), map OLex evs, k)
        end in
      if k =? 1 then merrlab1 (Mem (m_stk m1) (Sym (Some 2) (y_val (m_la m1))) (m_loc m1) (m_src m1) (m_err m1) (m_n m1)) o
      else
        let n := p + k in
        if (n <? 0) || (yylast_ <? n) then mdflt s m1 o
        else
          let? ck := zget yycheck_ n in
          if negb (ck =? k) then mdflt s m1 o
          else
            let? t := zget yytable_ n in
            if t <=? 0 then
              if t =? yytable_ninf_ then merrlab m1 o else mreduce (- t) m1 o
            else
              let? (l, la) := push_sym (full (m_n m1)) (m_stk m1) t (m_la m1) in
              Some (o, MGo (Mem l la (m_loc m1) (m_src m1) (if m_err m1 =? 0 then 0 else m_err m1 - 1) (S (m_n m1)))).
(** yyreturn, Parser.cpp:1106-1122, then the destructors of yyla and of yystack_. *)
Definition all_gone (m : mem) : bool := forallb drop_ssym (m_stk m) && drop_sym (m_la m).
Fixpoint mdrive (fuel : nat) (m : mem) : option (list out * Z) :=
  match fuel with
  | O => None
  | S f =>
      let? (o, r) := mstep m in
      match r with
      | MDone rv m' => if all_gone m' then Some (o, rv) else None
      | MGo m' => let? (o', rv) := mdrive f m' in Some (o ++ o', rv)
      end
  end.
(** The beginning of parse, Parser.cpp:588-626; the 200 symbols that the stack is made with
    (Parser.hpp:1504) are empty and cleared. *)
Definition mparse (fuel : nat) (s : src) : option (list out * Z) :=
  let? (l, la) := push_sym (full 0) [] 0 (Sym None Raw) in
  mdrive fuel (Mem l la loc0 s 0 1).
End Mem.
Arguments Mem {src}. Arguments m_stk {src}. Arguments m_la {src}. Arguments m_loc {src}.
Arguments m_src {src}. Arguments m_err {src}. Arguments m_n {src}. Arguments MGo {src}. Arguments MDone {src}.
Arguments mdrive {src}. Arguments mstep {src}. Arguments mparse {src}. Arguments merrlab {src}.
Arguments merrlab1 {src}. Arguments mreduce {src}. Arguments mdflt {src}. Arguments all_gone {src}.
Arguments read_token _ _ : assert.

(** parser.parse() on a file. *)
Definition mparse_bytes (full : nat -> bool) (fuel : nat) (cs : bytes) : option (list out * Z) :=
  mparse lex_next full fuel (lexer0 cs).

Example mparse_ex :
  let cs := list_ascii_of_string "enum e { a, b = 3 }; struct s { e x{e::a}; int y{4}; }; ;" in
  mparse_bytes (fun n => Nat.even n) 999 cs = parse_bytes 999 cs /\ parse_bytes 999 cs <> None.
Proof. vm_compute. split; [reflexivity|discriminate]. Qed.
