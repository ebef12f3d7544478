(** What parsing a token sequence has to do, in terms of Grammar.v only. *)
From Coq Require Import String Ascii ZArith NArith Arith List Bool Lia.
From Verif Require Import Base Flex Items Bison Grammar.
Import ListNotations.
Local Open Scope string_scope.
Local Open Scope list_scope.

(** Names of the tokens in messages: the aliases of struct_yacc.y:27-56. *)
Definition token_name (k : N) : string :=
  match k with
  | 0 => "end of file" | 3 => "{" | 4 => "}" | 5 => "=" | 6 => "," | 7 => ";" | 8 => "<" | 9 => ">"
  | 10 => "enum" | 11 => "class" | 12 => "struct" | 13 => "int" | 14 => "short" | 15 => "long"
  | 16 => "unsigned" | 17 => "float" | 18 => "double" | 19 => "bool" | 20 => "true" | 21 => "false"
  | 22 => "std::string" | 23 => "std::vector" | 24 => "NAME" | 25 => "ENUM_VALUE" | 26 => "VALUE"
  | 27 => "HEXVALUE" | 28 => "FVALUE" | 29 => "STRING_CONSTANT" | 30 => "CHAR_CONSTANT"
  | _ => "?"
  end%N.

Definition one_of (ks : list N) : string := String.concat " or " (map token_name ks).

Definition complaint (k : N) (ex : list N) : string :=
  ("syntax error, unexpected " ++ token_name k ++
   match ex with [] => "" | _ => ", expecting " ++ one_of ex end)%string.

(** A token of kind [k] (0: the end) can come after [ts] in some valid file. *)
Definition can_follow (ts : list token) (k : N) : Prop :=
  (k = 0%N /\ exists ds, wf_file ds /\ ts = file_tokens ds) \/
  (exists t, good_token t /\ t_kind t = k /\ viable (ts ++ [t])).

(** A sequence that is no file: what is reported to the store, printed on standard
    error and printed by the scanner. *)
Inductive rejection (its : list item) (fin : loc * list event) :
  list call -> list string -> list event -> Prop :=
| rej_token : forall ds u uc its1 i its2 ex,
    its = its1 ++ i :: its2 ->
    Forall wf_def ds -> map i_tok its1 = file_tokens ds ++ u -> unfinished u uc ->
    viable (map i_tok its1) -> ~ viable (map i_tok its1 ++ [i_tok i]) ->
    (forall k, In k ex -> can_follow (map i_tok its1) k) ->
    rejection its fin (file_calls ds ++ uc)
      [error_text (i_loc i) (complaint (t_kind (i_tok i)) ex)]
      (concat (map i_evs its1) ++ i_evs i)
| rej_end : forall ds u uc ex,
    Forall wf_def ds -> map i_tok its = file_tokens ds ++ u -> unfinished u uc ->
    viable (map i_tok its) -> ~ (exists ds', wf_file ds' /\ map i_tok its = file_tokens ds') ->
    (forall k, In k ex -> can_follow (map i_tok its) k) ->
    rejection its fin (file_calls ds ++ uc)
      [error_text (fst fin) (complaint 0 ex)]
      (concat (map i_evs its) ++ snd fin).
