(** Specification of the input language (src/lex_parse/struct_yacc.y:83-195) as
    abstract syntax, its token sequences, and what has to be reported for it.
    Independent of the parser tables. *)
From Coq Require Import String Ascii ZArith NArith Arith List Bool Lia.
From Verif Require Import Base Flex Items.
Import ListNotations.
Local Open Scope string_scope.
Local Open Scope list_scope.

(** Tokens (numbers of Parser.hpp:440-468). *)
Definition kw (n : N) : token := Tok n None.
Definition tk_lbrace := kw 3.   Definition tk_rbrace := kw 4.   Definition tk_equals := kw 5.
Definition tk_comma := kw 6.    Definition tk_semi := kw 7.     Definition tk_lt := kw 8.
Definition tk_gt := kw 9.       Definition tk_enum := kw 10.    Definition tk_class := kw 11.
Definition tk_struct := kw 12.  Definition tk_int := kw 13.     Definition tk_short := kw 14.
Definition tk_long := kw 15.    Definition tk_unsigned := kw 16. Definition tk_float := kw 17.
Definition tk_double := kw 18.  Definition tk_bool := kw 19.    Definition tk_true := kw 20.
Definition tk_false := kw 21.   Definition tk_string := kw 22.  Definition tk_vector := kw 23.
Definition tk_name (s : string) := Tok 24 (Some s).
Definition tk_enum_value (s : string) := Tok 25 (Some s).
Definition tk_value (s : string) := Tok 26 (Some s).
Definition tk_hex (s : string) := Tok 27 (Some s).
Definition tk_fvalue (s : string) := Tok 28 (Some s).
Definition tk_str (s : string) := Tok 29 (Some s).
Definition tk_char (s : string) := Tok 30 (Some s).

(** A token the scanner can return: a known kind, text exactly for kinds >= 24. *)
Definition good_token (t : token) : Prop :=
  (3 <= t_kind t <= 30)%N /\
  match t_val t with Some _ => (24 <= t_kind t)%N | None => (t_kind t < 24)%N end.

(** enum entries: name [= constant] *)
Inductive constant := CInt (s : string) | CHex (s : string) | CChar (s : string).
Record entry := Entry { en_name : string; en_val : option constant }.

(** default values: nothing, {} or {value} *)
Inductive dvalue :=
| DInt (s : string) | DFlt (s : string) | DTrue | DFalse
| DEnum (s : string) | DStr (s : string) | DChar (s : string).
Inductive dflt_spec := NoDefault | EmptyDefault | Default (v : dvalue).

Inductive member :=
| MSimple (ty : simple_type) (name : string) (d : dflt_spec)
| MUser (tname name : string) (d : dflt_spec)
| MVector (tname name : string).

(** enum [class] name { entries [,] };   struct name { members }; *)
Inductive def :=
| DefEnum (is_class : bool) (name : string) (es : list entry) (trailing_comma : bool)
| DefStruct (name : string) (ms : list member).

(** enum and struct bodies are not empty, neither is the file. *)
Definition wf_def (d : def) : Prop :=
  match d with DefEnum _ _ es _ => es <> [] | DefStruct _ ms => ms <> [] end.
Definition wf_file (ds : list def) : Prop := ds <> [] /\ Forall wf_def ds.

(** Token sequences. *)
Definition constant_token (c : constant) : token :=
  match c with CInt s => tk_value s | CHex s => tk_hex s | CChar s => tk_char s end.
Definition constant_text (c : constant) : string :=
  match c with CInt s | CHex s | CChar s => s end.

Definition entry_tokens (e : entry) : list token :=
  tk_name (en_name e) ::
  match en_val e with None => [] | Some c => [tk_equals; constant_token c] end.

Fixpoint entries_tokens (es : list entry) (trailing : bool) : list token :=
  match es with
  | [] => []
  | [e] => entry_tokens e ++ (if trailing then [tk_comma] else [])
  | e :: es' => entry_tokens e ++ tk_comma :: entries_tokens es' trailing
  end.

Definition type_tokens (t : simple_type) : list token :=
  match t with
  | bool_E => [tk_bool] | int_E => [tk_int] | short_E => [tk_short] | long_E => [tk_long]
  | unsigned_int_E => [tk_unsigned; tk_int] | unsigned_short_E => [tk_unsigned; tk_short]
  | unsigned_long_E => [tk_unsigned; tk_long]
  | float_E => [tk_float] | double_E => [tk_double] | std_string_E => [tk_string]
  end.

Definition dvalue_token (v : dvalue) : token :=
  match v with
  | DInt s => tk_value s | DFlt s => tk_fvalue s | DTrue => tk_true | DFalse => tk_false
  | DEnum s => tk_enum_value s | DStr s => tk_str s | DChar s => tk_char s
  end.
Definition dvalue_text (v : dvalue) : string :=
  match v with
  | DInt s | DFlt s | DEnum s | DStr s | DChar s => s
  | DTrue => "true" | DFalse => "false"
  end.

Definition dflt_tokens (d : dflt_spec) : list token :=
  match d with
  | NoDefault => []
  | EmptyDefault => [tk_lbrace; tk_rbrace]
  | Default v => [tk_lbrace; dvalue_token v; tk_rbrace]
  end.

Definition member_tokens (m : member) : list token :=
  match m with
  | MSimple ty n d => type_tokens ty ++ tk_name n :: dflt_tokens d ++ [tk_semi]
  | MUser t n d => tk_name t :: tk_name n :: dflt_tokens d ++ [tk_semi]
  | MVector t n => [tk_vector; tk_lt; tk_name t; tk_gt; tk_name n; tk_semi]
  end.

Definition enum_head (is_class : bool) (n : string) : list token :=
  tk_enum :: (if is_class then [tk_class] else []) ++ [tk_name n].

Definition def_tokens (d : def) : list token :=
  match d with
  | DefEnum c n es t =>
      enum_head c n ++ tk_lbrace :: entries_tokens es t ++ [tk_rbrace; tk_semi]
  | DefStruct n ms =>
      [tk_struct; tk_name n; tk_lbrace] ++ concat (map member_tokens ms) ++ [tk_rbrace; tk_semi]
  end.

Definition file_tokens (ds : list def) : list token := concat (map def_tokens ds).

(** What has to be reported to the item store. *)
Definition entry_call (e : entry) : call :=
  match en_val e with
  | None => CEnumLine (en_name e) false "-"
  | Some c => CEnumLine (en_name e) true (constant_text c)
  end.

Definition dflt_text (d : dflt_spec) : string :=
  match d with
  | NoDefault => "-"
  | EmptyDefault => "{}"
  | Default v => ("{" ++ dvalue_text v ++ "}")%string
  end.

Definition member_call (m : member) : call :=
  match m with
  | MSimple ty n d => CSimple ty n (dflt_text d)
  | MUser t n _ => CComplex enum_or_struct_E t n
  | MVector t n => CComplex vector_E t n
  end.

Definition def_calls (d : def) : list call :=
  match d with
  | DefEnum c n es _ => CEnum n c :: map entry_call es
  | DefStruct n ms => CStruct n :: map member_call ms
  end.

Definition file_calls (ds : list def) : list call := concat (map def_calls ds).

(** Beginnings of a definition, with what has already been reported: every
    complete entry or member, and also an enum entry name whose = has not come. *)
Definition closed_entry (e : entry) : list token := entry_tokens e ++ [tk_comma].

Inductive entry_part : list token -> list call -> Prop :=
| EP_none : entry_part [] []
| EP_name : forall n, entry_part [tk_name n] [CEnumLine n false "-"]
| EP_eq : forall n, entry_part [tk_name n; tk_equals] []
| EP_full : forall n c, entry_part (entry_tokens (Entry n (Some c))) [entry_call (Entry n (Some c))].

Inductive unfinished : list token -> list call -> Prop :=
| U_none : unfinished [] []
| U_enum : unfinished [tk_enum] []
| U_enum_class : unfinished [tk_enum; tk_class] []
| U_enum_head : forall c n, unfinished (enum_head c n) [CEnum n c]
| U_enum_body : forall c n es p pc, entry_part p pc ->
    unfinished (enum_head c n ++ tk_lbrace :: concat (map closed_entry es) ++ p)
               (CEnum n c :: map entry_call es ++ pc)
| U_enum_end : forall c n es t, es <> [] ->
    unfinished (enum_head c n ++ tk_lbrace :: entries_tokens es t ++ [tk_rbrace])
               (CEnum n c :: map entry_call es)
| U_struct : unfinished [tk_struct] []
| U_struct_head : forall n, unfinished [tk_struct; tk_name n] [CStruct n]
| U_struct_body : forall n ms m p q, member_tokens m = p ++ q -> q <> [] ->
    unfinished ([tk_struct; tk_name n; tk_lbrace] ++ concat (map member_tokens ms) ++ p)
               (CStruct n :: map member_call ms)
| U_struct_end : forall n ms, ms <> [] ->
    unfinished ([tk_struct; tk_name n; tk_lbrace] ++ concat (map member_tokens ms) ++ [tk_rbrace])
               (CStruct n :: map member_call ms).

(** [ts] can be continued to a valid file. *)
Definition viable (ts : list token) : Prop :=
  exists ds more, wf_file ds /\ file_tokens ds = ts ++ more.
