(** A reader for the headers that the generator emits: which classes, functions and data
    members they declare.  Like Cpp.v, this is the part of the C++ language needed to say
    what the emitted text means; it models no code of stfx.  const is skipped. *)
From Coq Require Import String Ascii ZArith NArith Arith List Bool Lia.
From Verif Require Import Base Fmt Cpp.
Import ListNotations.
Local Open Scope string_scope.
Local Open Scope list_scope.

Inductive access := a_public | a_protected | a_private.
(** A parameter: type, name and default argument. *)
Definition hparam := (ctype * string * option expr)%type.
Inductive hmember :=
| HFun (virt : bool) (ty : option ctype) (name : string) (params : list hparam)
| HVar (ty : ctype) (name : string) (init : option (list expr))
| HStruct (name : string) (fields : list (ctype * string)).
Inductive hdecl :=
| HClass (name : string) (base : option string) (members : list (access * hmember))
| HSpace (name : string) (members : list hmember)
  (** a specialisation of fmt::formatter: the type, and the parameters and the body of its
      function format, which ends with handing the text [out] to the formatter of texts *)
| HFormat (ty : string) (params : list (ctype * string)) (body : list stmt) (out : string).

Fixpoint p_hparams (f : nat) (ts : list tok) : option (list hparam * list tok) :=
  match f with
  | O => None
  | S f =>
      match ts with
      | TP p_rpar :: r => Some ([], r)
      | _ =>
          let? (t, r) := p_type ts in
          match r with
          | TId x :: r =>
              let? (d, r) := match r with TP p_eq :: r' => let? (e, r2) := p_expr efuel 0 r' in Some (Some e, r2) | _ => Some (None, r) end in
              match r with
              | TP p_comma :: r' => let? (l, r2) := p_hparams f r' in Some ((t, x, d) :: l, r2)
              | TP p_rpar :: r' => Some ([(t, x, d)], r')
              | _ => None
              end
          | _ => None
          end
      end
  end.
Fixpoint p_fields (f : nat) (ts : list tok) : option (list (ctype * string) * list tok) :=
  match f with
  | O => None
  | S f =>
      match ts with
      | TP p_rbrace :: TP p_semi :: r => Some ([], r)
      | _ =>
          let? (t, r) := p_type ts in
          match r with
          | TId x :: TP p_semi :: r' => let? (l, r2) := p_fields f r' in Some ((t, x) :: l, r2)
          | _ => None
          end
      end
  end.
Definition p_virtual (ts : list tok) : bool * list tok := match ts with TKw k_virtual :: r => (true, r) | _ => (false, ts) end.
Definition p_hmember (ts : list tok) : option (hmember * list tok) :=
  match ts with
  | TKw k_struct :: TId n :: TP p_lbrace :: r => let? (l, r') := p_fields 8 r in Some (HStruct n l, r')
  | _ =>
      let (v, r) := p_virtual ts in
      let? (t, r) := p_type r in
      match r with
      | TP p_lpar :: r' =>
          match ct_name t with
          | [n] => let? (ps, r2) := p_hparams 8 r' in match r2 with TP p_semi :: r3 => Some (HFun v None n ps, r3) | _ => None end
          | _ => None
          end
      | TId x :: TP p_lpar :: r' =>
          let? (ps, r2) := p_hparams 8 r' in match r2 with TP p_semi :: r3 => Some (HFun v (Some t) x ps, r3) | _ => None end
      | TId x :: TP p_semi :: r' => Some (HVar t x None, r')
      | TId x :: TP p_lbrace :: r' =>
          let? (l, r2) := p_init 8 r' in match r2 with TP p_semi :: r3 => Some (HVar t x (Some l), r3) | _ => None end
      | _ => None
      end
  end.
Definition p_access (ts : list tok) : option (access * list tok) :=
  match ts with
  | TKw k_public :: TP p_colon :: r => Some (a_public, r)
  | TKw k_protected :: TP p_colon :: r => Some (a_protected, r)
  | TKw k_private :: TP p_colon :: r => Some (a_private, r)
  | _ => None
  end.
Definition p_close (ts : list tok) : option (list tok) := match ts with TP p_rbrace :: TP p_semi :: r => Some r | _ => None end.
(** Members of a class up to the closing brace. *)
Fixpoint p_members (f : nat) (a : access) (ts : list tok) : option (list (access * hmember) * list tok) :=
  match f with
  | O => None
  | S f =>
      match p_close ts with
      | Some r => Some ([], r)
      | None =>
          match p_access ts with
          | Some (a', r) => p_members f a' r
          | None => let? (m, r) := p_hmember ts in let? (l, r') := p_members f a r in Some ((a, m) :: l, r')
          end
      end
  end.
Fixpoint p_space (f : nat) (ts : list tok) : option (list hmember * list tok) :=
  match f with
  | O => None
  | S f =>
      match p_close ts with
      | Some r => Some ([], r)
      | None => let? (m, r) := p_hmember ts in let? (l, r') := p_space f r in Some (m :: l, r')
      end
  end.
(** return formatter<string_view>::format(out, ctx); *)
Definition p_out (ts : list tok) : option (string * list tok) :=
  match ts with
  | TKw k_return :: TId "formatter" :: TP p_lt :: TId "string_view" :: TP p_gt :: TP p_scope :: TId "format" :: TP p_lpar :: TId x :: TP p_comma :: TId "ctx" ::
    TP p_rpar :: TP p_semi :: TP p_rbrace :: r => Some (x, r)
  | _ => None
  end.
Fixpoint p_format (f : nat) (ts : list tok) : option (list stmt * string * list tok) :=
  match f with
  | O => None
  | S f =>
      match p_out ts with
      | Some (x, r) => Some ([], x, r)
      | None => let? (s, r) := p_stmt 8 ts in let? (l, x, r') := p_format f r in Some (s :: l, x, r')
      end
  end.
Definition p_hdecl (f : nat) (ts : list tok) : option (hdecl * list tok) :=
  match ts with
  | TKw k_class :: TId n :: TP p_colon :: TKw k_public :: TId b :: TP p_lbrace :: r =>
      let? (l, r') := p_members f a_private r in Some (HClass n (Some b) l, r')
  | TKw k_class :: TId n :: TP p_lbrace :: r => let? (l, r') := p_members f a_private r in Some (HClass n None l, r')
  | TKw k_namespace :: TId n :: TP p_lbrace :: r => let? (l, r') := p_space f r in Some (HSpace n l, r')
  | TKw k_template :: TP p_lt :: TP p_gt :: TKw k_struct :: TId "fmt" :: TP p_scope :: TId "formatter" :: TP p_lt :: TId t :: TP p_gt ::
    TP p_colon :: TId "formatter" :: TP p_lt :: TId "string_view" :: TP p_gt :: TP p_lbrace ::
    TKw k_template :: TP p_lt :: TKw k_typename :: TId "FormatContext" :: TP p_gt :: TKw k_auto :: TId "format" :: TP p_lpar :: r =>
      let? (ps, r) := p_params 8 r in
      match r with
      | TKw k_const :: TP p_lbrace :: r =>
          let? (b, x, r) := p_format 8 r in
          let? r := p_close r in Some (HFormat t ps b x, r)
      | _ => None
      end
  | _ => None
  end.
Fixpoint p_hfile (f : nat) (ts : list tok) : option (list hdecl) :=
  match ts with
  | [] => Some []
  | _ =>
      match f with
      | O => None
      | S f => let? (d, r) := p_hdecl (length ts) ts in let? l := p_hfile f r in Some (d :: l)
      end
  end.
(** The declarations of a .h text. *)
Definition read_h (s : string) : option (list hdecl) := let? ts := lex s in p_hfile (length ts) ts.
