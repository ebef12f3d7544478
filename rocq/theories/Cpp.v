(** A reader for the C++ subset that the generator emits: lexer and parser.

    The meaning of generated code is defined on the generated text itself: the text is
    split into tokens, parsed into the syntax below and executed (CppSem.v).  Nothing
    here models code of stfx; it is the part of the C++ language needed to say what
    the emitted text means.  Texts outside the subset are rejected ([None]).
    Preprocessor lines and comments are skipped. *)
From Coq Require Import String Ascii ZArith NArith Arith List Bool Lia.
From Verif Require Import Base Fmt.
Import ListNotations.
Local Open Scope string_scope.
Local Open Scope list_scope.

(** *** Tokens *)
Inductive punct :=
| p_lbrace | p_rbrace | p_lpar | p_rpar | p_lbrack | p_rbrack | p_semi | p_comma | p_lt | p_gt
| p_star | p_dot | p_quest | p_colon | p_eq | p_not | p_plus | p_amp | p_arrow | p_scope | p_eqeq | p_ne
| p_oror | p_andand | p_pluseq | p_minus | p_bar.

Inductive kword :=
| k_bool | k_int | k_short | k_long | k_unsigned | k_float | k_double | k_char | k_const | k_auto
| k_if | k_else | k_for | k_while | k_switch | k_case | k_default | k_break | k_continue | k_return
| k_try | k_catch | k_true | k_false | k_nullptr
| k_class | k_struct | k_public | k_protected | k_private | k_virtual | k_namespace | k_template | k_typename | k_other.

Inductive tok := TId (s : string) | TKw (k : kword) | TNum (s : string) | TStr (s : string)
               | TChr (s : string) | TP (p : punct).

Definition keywords : list (string * kword) :=
  [("bool", k_bool); ("int", k_int); ("short", k_short); ("long", k_long); ("unsigned", k_unsigned);
   ("float", k_float); ("double", k_double); ("char", k_char); ("const", k_const); ("auto", k_auto);
   ("if", k_if); ("else", k_else); ("for", k_for); ("while", k_while); ("switch", k_switch);
   ("case", k_case); ("default", k_default); ("break", k_break); ("continue", k_continue);
   ("return", k_return); ("try", k_try); ("catch", k_catch); ("true", k_true); ("false", k_false);
   ("nullptr", k_nullptr); ("class", k_class); ("struct", k_struct); ("public", k_public);
   ("protected", k_protected); ("private", k_private); ("virtual", k_virtual);
   ("namespace", k_namespace); ("template", k_template); ("typename", k_typename)] ++
  map (fun s => (s, k_other))
  ["alignas"; "alignof"; "and"; "and_eq"; "asm"; "bitand"; "bitor"; "char8_t"; "char16_t";
   "char32_t"; "compl"; "concept"; "consteval"; "constexpr"; "constinit"; "const_cast";
   "co_await"; "co_return"; "co_yield"; "decltype"; "delete"; "do"; "dynamic_cast"; "enum";
   "explicit"; "export"; "extern"; "friend"; "goto"; "inline"; "mutable"; "new"; "noexcept";
   "not"; "not_eq"; "operator"; "or"; "or_eq"; "register"; "reinterpret_cast"; "requires";
   "signed"; "sizeof"; "static"; "static_assert"; "static_cast"; "this"; "thread_local";
   "throw"; "typedef"; "typeid"; "union"; "using"; "void"; "volatile"; "wchar_t"; "xor";
   "xor_eq"].

Fixpoint assoc {A} (n : string) (l : list (string * A)) : option A :=
  match l with
  | [] => None
  | (k, v) :: r => if String.eqb n k then Some v else assoc n r
  end.

Definition classify (s : string) : tok :=
  match assoc s keywords with Some k => TKw k | None => TId s end.

(** *** Lexer: one character at a time. *)
Definition is_alpha (c : ascii) : bool :=
  let n := nat_of_ascii c in
  ((65 <=? n) && (n <=? 90) || (97 <=? n) && (n <=? 122) || (n =? 95))%nat%bool.
Definition is_digit (c : ascii) : bool :=
  let n := nat_of_ascii c in ((48 <=? n) && (n <=? 57))%nat%bool.
Definition is_idc (c : ascii) : bool := is_alpha c || is_digit c.
Definition is_blank (c : ascii) : bool :=
  let n := nat_of_ascii c in ((n =? 32) || (n =? 9) || (n =? 10) || (n =? 13))%nat%bool.

(** Punctuation that is never the first half of another token. *)
Definition single (c : ascii) : option punct :=
  match c with
  | "{" => Some p_lbrace | "}" => Some p_rbrace | "(" => Some p_lpar | ")" => Some p_rpar
  | "[" => Some p_lbrack | "]" => Some p_rbrack | ";" => Some p_semi | "," => Some p_comma
  | "<" => Some p_lt | ">" => Some p_gt | "*" => Some p_star | "." => Some p_dot | "?" => Some p_quest
  | _ => None
  end%char.
(** Punctuation that may go on; its meaning when it does not. *)
Definition starter (c : ascii) : option punct :=
  match c with
  | "-" => Some p_minus | ":" => Some p_colon | "=" => Some p_eq | "!" => Some p_not | "|" => Some p_bar
  | "+" => Some p_plus | "&" => Some p_amp
  | _ => None
  end%char.
Definition double (a b : ascii) : option punct :=
  match a, b with
  | "-", ">" => Some p_arrow | ":", ":" => Some p_scope | "=", "=" => Some p_eqeq | "!", "=" => Some p_ne
  | "|", "|" => Some p_oror | "+", "=" => Some p_pluseq | "&", "&" => Some p_andand
  | _, _ => None
  end%char.

Inductive mode := M0 | MId (s : string) | MNum (s : string) | MStr (s : string) | MEsc (s : string)
  | MChr (s : string) | MOp (c : ascii) (p : punct) | MSlash | MLine | MDir | MBad.

Definition snoc (s : string) (c : ascii) : string := (s ++ String c "")%string.

Definition start (c : ascii) : mode * list tok :=
  if is_blank c then (M0, [])
  else if is_alpha c then (MId (String c ""), [])
  else if is_digit c then (MNum (String c ""), [])
  else match single c with
       | Some p => (M0, [TP p])
       | None =>
           match starter c with
           | Some p => (MOp c p, [])
           | None =>
               match c with
               | """" => (MStr "", []) | "'" => (MChr "", []) | "#" => (MDir, []) | "/" => (MSlash, [])
               | _ => (MBad, [])
               end%char
           end
       end.

Definition after (t : tok) (c : ascii) : mode * list tok :=
  let (m, ts) := start c in (m, t :: ts).

Definition step (m : mode) (c : ascii) : mode * list tok :=
  match m with
  | M0 => start c
  | MId s => if is_idc c then (MId (snoc s c), []) else after (classify s) c
  | MNum s => if is_digit c then (MNum (snoc s c), []) else after (TNum s) c
  | MStr s =>
      if (c =? """")%char then (M0, [TStr s])
      else if (c =? "\")%char then (MEsc s, [])
      else if (c =? nl)%char then (MBad, [])
      else (MStr (snoc s c), [])
  | MEsc s =>
      if (c =? "n")%char then (MStr (snoc s nl), [])
      else if (c =? "t")%char then (MStr (snoc s tab), [])
      else if ((c =? """") || (c =? "\"))%char then (MStr (snoc s c), [])
      else (MBad, [])
  | MChr s =>
      if (c =? "'")%char then (M0, [TChr s])
      else if ((c =? "\") || (c =? nl))%char then (MBad, []) else (MChr (snoc s c), [])
  | MOp a p => match double a c with Some q => (M0, [TP q]) | None => after (TP p) c end
  | MSlash => if (c =? "/")%char then (MLine, []) else (MBad, [])
  | MLine => if (c =? nl)%char then (M0, []) else (MLine, [])
  | MDir => if (c =? nl)%char then (M0, []) else (MDir, [])
  | MBad => (MBad, [])
  end.

Fixpoint run (m : mode) (s : string) : mode * list tok :=
  match s with
  | EmptyString => (m, [])
  | String c r => let (m1, t1) := step m c in let (m2, t2) := run m1 r in (m2, t1 ++ t2)
  end.

(** The generated files end with a newline, so an unfinished token is an error. *)
Definition lex (s : string) : option (list tok) :=
  match run M0 s with (M0, ts) => Some ts | _ => None end.

(** *** Syntax *)
(** A type: qualified name (["", "int"] for the built-in ones), template arguments,
    and what follows the name. *)
Inductive reft := RVal | RPtr | RRef.
Record ctype := CT { ct_name : list string; ct_args : list (list string); ct_ref : reft }.

Inductive binop := b_assign | b_add_assign | b_or | b_and | b_eq | b_ne | b_gt | b_add.

Inductive expr :=
| EId (q : list string) | EStr (s : string) | EChr (s : string) | ENum (s : string) | EBool (b : bool) | ENull
| EMem (arrow : bool) (e : expr) (m : string)
| ECall (e : expr) (args : list expr)
| EIdx (e i : expr)
| EAddr (e : expr)
| ECast (t : list string) (e : expr)
| EBin (o : binop) (a b : expr)
| ECond (c a b : expr)
| EList (es : list expr).

Inductive stmt :=
| SExpr (e : expr)
| SDecl (t : ctype) (x : string) (init : option expr)
| SIf (c : expr) (a : list stmt) (b : list stmt)
| SFor (t : ctype) (x : string) (e : expr) (b : list stmt)
| SWhile (c : expr) (b : list stmt)
| SSwitch (e : expr) (cases : list (option expr * list stmt))
| SBreak | SContinue
| SReturn (e : expr)
| SBlock (b : list stmt)
| STry (a b : list stmt).

(** A function definition: result type (none for a constructor), qualified name,
    parameters, what is called in the constructor's initialiser list, body. *)
Record fdef := FDef { fd_type : option ctype; fd_name : list string; fd_params : list (ctype * string);
                      fd_init : list (list string); fd_body : list stmt }.

(** *** Parser *)
Fixpoint p_scopes (f : nat) (ts : list tok) : list string * list tok :=
  match f, ts with
  | S f, TP p_scope :: TId n :: r => let (q, r') := p_scopes f r in (n :: q, r')
  | _, _ => ([], ts)
  end.

(** Built-in types; as qualified names their first component is empty. *)
Definition p_builtin (ts : list tok) : option (string * list tok) :=
  match ts with
  | TKw k_bool :: r => Some ("bool", r)
  | TKw k_int :: r => Some ("int", r)
  | TKw k_short :: r => Some ("short", r)
  | TKw k_long :: r => Some ("long", r)
  | TKw k_float :: r => Some ("float", r)
  | TKw k_double :: r => Some ("double", r)
  | TKw k_char :: r => Some ("char", r)
  | TKw k_unsigned :: TKw k_int :: r => Some ("unsigned int", r)
  | TKw k_unsigned :: TKw k_short :: r => Some ("unsigned short", r)
  | TKw k_unsigned :: TKw k_long :: r => Some ("unsigned long", r)
  | TKw k_unsigned :: r => Some ("unsigned int", r)
  | TKw k_auto :: r => Some ("auto", r)
  | _ => None
  end.

Definition p_tname (ts : list tok) : option (list string * list tok) :=
  match p_builtin ts with
  | Some (b, r) => Some ([""; b], r)
  | None =>
      match ts with
      | TId n :: r => let (q, r') := p_scopes 4 r in Some (n :: q, r')
      | _ => None
      end
  end.

Fixpoint p_targs (f : nat) (ts : list tok) : option (list (list string) * list tok) :=
  match f with
  | O => None
  | S f =>
      let? (a, r) := p_tname ts in
      match r with
      | TP p_comma :: r' => let? (l, r2) := p_targs f r' in Some (a :: l, r2)
      | TP p_gt :: r' => Some ([a], r')
      | _ => None
      end
  end.

Definition skip_const (ts : list tok) : list tok := match ts with TKw k_const :: r => r | _ => ts end.

Definition p_type (ts : list tok) : option (ctype * list tok) :=
  let? (n, r) := p_tname (skip_const ts) in
  let? (a, r) := match r with TP p_lt :: r' => p_targs 4 r' | _ => Some ([], r) end in
  let r := skip_const r in
  match r with
  | TP p_star :: r' => Some (CT n a RPtr, r')
  | TP p_amp :: r' => Some (CT n a RRef, r')
  | _ => Some (CT n a RVal, r)
  end.

Definition op_at (lvl : nat) (t : tok) : option binop :=
  match lvl, t with
  | 2, TP p_oror => Some b_or
  | 3, TP p_andand => Some b_and
  | 4, TP p_eqeq => Some b_eq
  | 4, TP p_ne => Some b_ne
  | 5, TP p_gt => Some b_gt
  | 6, TP p_plus => Some b_add
  | _, _ => None
  end.

(** Expressions.  Levels: 0 assignment, 1 conditional, 2-6 binary, 7 unary. *)
Fixpoint p_expr (f lvl : nat) (ts : list tok) {struct f} : option (expr * list tok) :=
  match f with
  | O => None
  | S f =>
      match lvl with
      | 0 =>
          let? (a, r) := p_expr f 1 ts in
          match r with
          | TP p_eq :: r' => let? (b, r2) := p_expr f 0 r' in Some (EBin b_assign a b, r2)
          | TP p_pluseq :: r' => let? (b, r2) := p_expr f 0 r' in Some (EBin b_add_assign a b, r2)
          | _ => Some (a, r)
          end
      | 1 =>
          let? (c, r) := p_expr f 2 ts in
          match r with
          | TP p_quest :: r' =>
              let? (a, r2) := p_expr f 1 r' in
              match r2 with
              | TP p_colon :: r3 => let? (b, r4) := p_expr f 1 r3 in Some (ECond c a b, r4)
              | _ => None
              end
          | _ => Some (c, r)
          end
      | 2 | 3 | 4 | 5 | 6 => let? (a, r) := p_expr f (S lvl) ts in p_rest f lvl a r
      | _ =>
          match ts with
          | TP p_amp :: r => let? (e, r') := p_expr f 7 r in Some (EAddr e, r')
          | TP p_lpar :: r =>
              match p_builtin r with
              | Some (b, TP p_rpar :: r') => let? (e, r2) := p_expr f 7 r' in Some (ECast [""; b] e, r2)
              | Some _ => None
              | None =>
                  let? (e, r') := p_expr f 0 r in
                  match r' with TP p_rpar :: r2 => p_post f e r2 | _ => None end
              end
          | TStr s :: r => p_post f (EStr s) r
          | TChr s :: r => p_post f (EChr s) r
          | TNum s :: r => p_post f (ENum s) r
          | TKw k_true :: r => p_post f (EBool true) r
          | TKw k_false :: r => p_post f (EBool false) r
          | TKw k_nullptr :: r => p_post f ENull r
          | _ =>
              match p_builtin ts with
              | Some (b, TP p_lpar :: r) =>
                  let? (e, r') := p_expr f 0 r in
                  match r' with TP p_rpar :: r2 => Some (ECast [""; b] e, r2) | _ => None end
              | Some _ => None
              | None => let? (q, r) := p_tname ts in p_post f (EId q) r
              end
          end
      end
  end
with p_rest (f lvl : nat) (a : expr) (ts : list tok) {struct f} : option (expr * list tok) :=
  match f with
  | O => None
  | S f =>
      match ts with
      | t :: r =>
          match op_at lvl t with
          | Some o => let? (b, r') := p_expr f (S lvl) r in p_rest f lvl (EBin o a b) r'
          | None => Some (a, ts)
          end
      | [] => Some (a, ts)
      end
  end
with p_post (f : nat) (e : expr) (ts : list tok) {struct f} : option (expr * list tok) :=
  match f with
  | O => None
  | S f =>
      match ts with
      | TP p_dot :: TId m :: r => p_post f (EMem false e m) r
      | TP p_arrow :: TId m :: r => p_post f (EMem true e m) r
      | TP p_lpar :: TP p_rpar :: r => p_post f (ECall e []) r
      | TP p_lpar :: r =>
          let? (a, r') := p_args f r in
          match r' with TP p_rpar :: r2 => p_post f (ECall e a) r2 | _ => None end
      | TP p_lbrack :: r =>
          let? (i, r') := p_expr f 0 r in
          match r' with TP p_rbrack :: r2 => p_post f (EIdx e i) r2 | _ => None end
      | _ => Some (e, ts)
      end
  end
with p_args (f : nat) (ts : list tok) {struct f} : option (list expr * list tok) :=
  match f with
  | O => None
  | S f =>
      let? (a, r) := p_expr f 0 ts in
      match r with
      | TP p_comma :: r' => let? (l, r2) := p_args f r' in Some (a :: l, r2)
      | _ => Some ([a], r)
      end
  end.

(** Fuel for one expression: more than enough for every emitted one. *)
Definition efuel : nat := 60.

(** Brace initialisers: lists of expressions or of nested lists, trailing comma allowed. *)
Fixpoint p_init (f : nat) (ts : list tok) : option (list expr * list tok) :=
  match f with
  | O => None
  | S f =>
      match ts with
      | TP p_rbrace :: r => Some ([], r)
      | _ =>
          let? (e, r) :=
            match ts with
            | TP p_lbrace :: r => let? (l, r') := p_init f r in Some (EList l, r')
            | _ => p_expr efuel 0 ts
            end in
          match r with
          | TP p_comma :: r' => let? (l, r2) := p_init f r' in Some (e :: l, r2)
          | TP p_rbrace :: r' => Some ([e], r')
          | _ => None
          end
      end
  end.

(** Does a declaration start here?  A type name followed by a name, or a pointer. *)
Definition starts_decl (ts : list tok) : bool :=
  match ts with
  | TKw k_const :: _ => true
  | _ =>
      match p_tname ts with
      | Some (_, TId _ :: _) => true
      | Some (_, TP p_star :: TId _ :: _) => true
      | Some (_, TP p_lt :: _) => true
      | _ => false
      end
  end.

Fixpoint p_stmt (f : nat) (ts : list tok) {struct f} : option (stmt * list tok) :=
  match f with
  | O => None
  | S f =>
      match ts with
      | TKw k_return :: r =>
          let? (e, r') := p_expr efuel 0 r in
          match r' with TP p_semi :: r2 => Some (SReturn e, r2) | _ => None end
      | TKw k_break :: TP p_semi :: r => Some (SBreak, r)
      | TKw k_continue :: TP p_semi :: r => Some (SContinue, r)
      | TP p_lbrace :: r => let? (b, r') := p_stmts f r in Some (SBlock b, r')
      | TKw k_if :: TP p_lpar :: r =>
          let? (c, r') := p_expr efuel 0 r in
          match r' with
          | TP p_rpar :: r2 =>
              let? (a, r3) := p_body f r2 in
              match r3 with
              | TKw k_else :: r4 => let? (b, r5) := p_body f r4 in Some (SIf c a b, r5)
              | _ => Some (SIf c a [], r3)
              end
          | _ => None
          end
      | TKw k_while :: TP p_lpar :: r =>
          let? (c, r') := p_expr efuel 0 r in
          match r' with TP p_rpar :: r2 => let? (b, r3) := p_body f r2 in Some (SWhile c b, r3) | _ => None end
      | TKw k_for :: TP p_lpar :: r =>
          let? (t, r') := p_type r in
          match r' with
          | TId x :: TP p_colon :: r2 =>
              let? (e, r3) := p_expr efuel 0 r2 in
              match r3 with TP p_rpar :: r4 => let? (b, r5) := p_body f r4 in Some (SFor t x e b, r5) | _ => None end
          | _ => None
          end
      | TKw k_switch :: TP p_lpar :: r =>
          let? (e, r') := p_expr efuel 0 r in
          match r' with
          | TP p_rpar :: TP p_lbrace :: r2 => let? (cs, r3) := p_cases f r2 in Some (SSwitch e cs, r3)
          | _ => None
          end
      | TKw k_try :: TP p_lbrace :: r =>
          let? (a, r') := p_stmts f r in
          match r' with
          | TKw k_catch :: TP p_lpar :: r2 =>
              let? (_, r3) := p_type r2 in
              match r3 with
              | TP p_rpar :: TP p_lbrace :: r4 => let? (b, r5) := p_stmts f r4 in Some (STry a b, r5)
              | _ => None
              end
          | _ => None
          end
      | _ =>
          if starts_decl ts then
            let? (t, r) := p_type ts in
            match r with
            | TId x :: TP p_semi :: r' => Some (SDecl t x None, r')
            | TId x :: TP p_eq :: TP p_lbrace :: r' =>
                let? (l, r2) := p_init (S (length r')) r' in
                match r2 with TP p_semi :: r3 => Some (SDecl t x (Some (EList l)), r3) | _ => None end
            | TId x :: TP p_eq :: r' =>
                let? (e, r2) := p_expr efuel 0 r' in
                match r2 with TP p_semi :: r3 => Some (SDecl t x (Some e), r3) | _ => None end
            | TId x :: TP p_lbrace :: r' =>
                let? (l, r2) := p_init (S (length r')) r' in
                match r2 with TP p_semi :: r3 => Some (SDecl t x (Some (EList l)), r3) | _ => None end
            | TId x :: TP p_lbrack :: r' =>
                let? (e, r2) := p_expr efuel 0 r' in
                match r2 with
                | TP p_rbrack :: TP p_semi :: r3 => Some (SDecl t x (Some (EIdx (EId [x]) e)), r3)
                | _ => None
                end
            | _ => None
            end
          else
            let? (e, r) := p_expr efuel 0 ts in
            match r with TP p_semi :: r' => Some (SExpr e, r') | _ => None end
      end
  end
(** A controlled statement, as a block. *)
with p_body (f : nat) (ts : list tok) {struct f} : option (list stmt * list tok) :=
  match f with
  | O => None
  | S f =>
      match ts with
      | TP p_lbrace :: r => p_stmts f r
      | _ => let? (s, r) := p_stmt f ts in Some ([s], r)
      end
  end
(** Statements up to the closing brace. *)
with p_stmts (f : nat) (ts : list tok) {struct f} : option (list stmt * list tok) :=
  match f with
  | O => None
  | S f =>
      match ts with
      | TP p_rbrace :: r => Some ([], r)
      | _ => let? (s, r) := p_stmt f ts in let? (l, r') := p_stmts f r in Some (s :: l, r')
      end
  end
(** Cases of a switch up to the closing brace. *)
with p_cases (f : nat) (ts : list tok) {struct f} : option (list (option expr * list stmt) * list tok) :=
  match f with
  | O => None
  | S f =>
      match ts with
      | TP p_rbrace :: r => Some ([], r)
      | TKw k_case :: r =>
          let? (e, r') := p_expr efuel 0 r in
          match r' with
          | TP p_colon :: r2 =>
              let? (b, r3) := p_case f r2 in let? (l, r4) := p_cases f r3 in Some ((Some e, b) :: l, r4)
          | _ => None
          end
      | TKw k_default :: TP p_colon :: r =>
          let? (b, r3) := p_case f r in let? (l, r4) := p_cases f r3 in Some ((None, b) :: l, r4)
      | _ => None
      end
  end
with p_case (f : nat) (ts : list tok) {struct f} : option (list stmt * list tok) :=
  match f with
  | O => None
  | S f =>
      match ts with
      | TP p_rbrace :: _ | TKw k_case :: _ | TKw k_default :: _ => Some ([], ts)
      | _ => let? (s, r) := p_stmt f ts in let? (l, r') := p_case f r in Some (s :: l, r')
      end
  end.

Fixpoint p_params (f : nat) (ts : list tok) : option (list (ctype * string) * list tok) :=
  match f with
  | O => None
  | S f =>
      match ts with
      | TP p_rpar :: r => Some ([], r)
      | _ =>
          let? (t, r) := p_type ts in
          match r with
          | TId x :: TP p_comma :: r' => let? (l, r2) := p_params f r' in Some ((t, x) :: l, r2)
          | TId x :: TP p_rpar :: r' => Some ([(t, x)], r')
          | _ => None
          end
      end
  end.

(** One function definition; [f] is the fuel for its body. *)
Definition p_fdef (f : nat) (ts : list tok) : option (fdef * list tok) :=
  let? (t, r) := p_type ts in
  let? (ty, q, r) :=
    match r with
    | TP p_lpar :: _ => Some (None, ct_name t, r)
    | _ => let? (q, r') := p_tname r in Some (Some t, q, r')
    end in
  match r with
  | TP p_lpar :: r =>
      let? (ps, r) := p_params 8 r in
      let? (inits, r) :=
        match r with
        | TP p_colon :: r' =>
            let? (q, r2) := p_tname r' in
            match r2 with TP p_lpar :: TP p_rpar :: r3 => Some ([q], r3) | _ => None end
        | _ => Some ([], r)
        end in
      match r with
      | TP p_lbrace :: r =>
          let? (b, r) := p_stmts f r in
          Some (FDef ty q ps inits b, match r with TP p_semi :: r' => r' | _ => r end)
      | _ => None
      end
  | _ => None
  end.

Fixpoint p_file (f : nat) (ts : list tok) : option (list fdef) :=
  match ts with
  | [] => Some []
  | _ =>
      match f with
      | O => None
      | S f => let? (d, r) := p_fdef (64 + length ts) ts in let? l := p_file f r in Some (d :: l)
      end
  end.

(** The function definitions of a .cpp text. *)
Definition read_cpp (s : string) : option (list fdef) :=
  let? ts := lex s in p_file (length ts) ts.
