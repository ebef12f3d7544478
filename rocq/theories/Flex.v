(** The generated scanner: yy::Lexer::lex of src/lex_parse/tokenize.cpp, driven by
    the tables of FlexTables.v.

    Simplifications: the input is one list of bytes, so refilling of the buffer
    (yy_get_next_buffer) is invisible; a NUL byte in the input takes the transition of
    class 1 directly, which is what the YY_END_OF_BUFFER case does by way of
    yy_get_previous_state / yy_try_NUL_trans (tokenize.cpp:1045-1113, 1438-1499); line and
    column counters do not overflow.  Buffer.v models all this, and BufferScan.v proves
    that the results are the same. *)
From Coq Require Import String Ascii NArith Arith List Bool Lia.
From Verif Require Import Base FlexTables.
Import ListNotations.
Local Open Scope N_scope.

(** tokenize.cpp:686 yy_ec indexed by the byte at yy_cp; NUL: tokenize.cpp:1450, 1476. *)
Definition class_of (c : ascii) : option N :=
  if N_of_ascii c =? 0 then Some 1 else tget yy_ec (N_of_ascii c).

(** tokenize.cpp:692-698: the while loop over yy_chk/yy_def and the lookup in
    yy_nxt.  [fuel] bounds the default chain; running out is reported as [None]
    like an out-of-bounds read (LexCorrect.v proves neither happens). *)
Fixpoint next_state (fuel : nat) (st c : N) : option N :=
  match fuel with
  | O => None
  | S f =>
      let? b := tget yy_base st in
      let? k := tget yy_chk (b + c) in
      if k =? st then tget yy_nxt (b + c)
      else
        let? d := tget yy_def st in
        if 134 <=? d then let? m := tget yy_meta c in next_state f d m
        else next_state f d c
  end.

Definition chain_fuel : nat := 8.

(** tokenize.cpp:684-701, label yy_match.  State: current state, last accepting
    (state, position), position.  At the end of the text the code comes back here
    through EOB_ACT_LAST_MATCH (tokenize.cpp:1154-1162) with the state reached. *)
Fixpoint match_loop (st : N) (last : option (N * nat)) (n : nat) (cs : bytes)
  : option (N * option (N * nat) * nat) :=
  match cs with
  | [] => Some (st, last, n)
  | c :: cs' =>
      let? k := class_of c in
      let? a := tget yy_accept st in
      let last' := if a =? 0 then last else Some (st, n) in
      let? st' := next_state chain_fuel st k in
      let? b := tget yy_base st' in
      if b =? 289 then Some (st', last', S n)
      else match_loop st' last' (S n) cs'
  end.

(** tokenize.cpp:703-710, label yy_find_action.  [None]: reading
    yy_last_accepting_state before it was set, or out of bounds. *)
Definition find_action (r : N * option (N * nat) * nat) : option (N * nat) :=
  let '(st, last, n) := r in
  let? a := tget yy_accept st in
  if a =? 0 then
    match last with
    | None => None
    | Some (st', n') => let? a' := tget yy_accept st' in Some (a', n')
    end
  else Some (a, n).

(** One match: tokenize.cpp:669-712.  [start] is yy_start (1 INITIAL, 3 C_COMMENT:
    BEGIN(s) is yy_start = 1 + 2*s), [bol] is YY_AT_BOL(). *)
Definition scan_one (start : N) (bol : bool) (cs : bytes) : option (N * nat) :=
  let? r := match_loop (start + (if bol then 1 else 0)) None 0 cs in find_action r.

(** Location.hpp: position and location. *)
Record pos := Pos { p_line : N; p_col : N }.
Record loc := Loc { l_begin : pos; l_end : pos }.
Definition loc0 : loc := Loc (Pos 1 1) (Pos 1 1).

(* loc->begin = loc->end; loc->columns(n)   Location.hpp:101-104, 230-233 *)
Definition loc_columns (n : nat) (l : loc) : loc :=
  Loc (l_end l) (Pos (p_line (l_end l)) (p_col (l_end l) + N.of_nat n)).
(* loc->begin = loc->end; loc->lines(1)   Location.hpp:91-98, 236-239 *)
Definition loc_lines (l : loc) : loc :=
  Loc (l_end l) (Pos (p_line (l_end l) + 1) 1).

(** Things written while scanning: ECHO (to yyout) and the printf of rule 6. *)
Inductive event :=
| Echo : bytes -> event
| Warn : N -> N -> bytes -> event.

(** Scanner object: yy_start, yy_at_bol, unread text. *)
Record lexer := Lexer { lx_start : N; lx_bol : bool; lx_rest : bytes }.
Definition lexer0 (cs : bytes) : lexer := Lexer 1 true cs.

(** Result of yylex: token kind and whether a std::string was emplaced. *)
Record token := Tok { t_kind : N; t_val : option string }.

(** The switch over yy_act, tokenize.cpp:716-1038.  Result: new yy_start, new
    location, events, and [Some token] when the action returns. *)
Definition action (act : N) (text : bytes) (start : N) (l : loc)
  : option (N * loc * list event * option token) :=
  let n := length text in
  let skip := Some (start, loc_columns n l, [], None) in
  let ret k := Some (start, loc_columns n l, [], Some (Tok k None)) in
  let retv k := Some (start, loc_columns n l, [],
                      Some (Tok k (Some (string_of_list_ascii text)))) in
  match act with
  | 1 => Some (3, l, [], None)                        (* BEGIN(C_COMMENT) *)
  | 2 => Some (start, loc_lines l, [], None)
  | 3 => skip
  | 4 => Some (1, l, [], None)                        (* BEGIN(INITIAL) *)
  | 5 => skip
  | 6 => let l' := loc_columns n l in
         Some (start, l',
               [Warn (p_line (l_begin l')) (p_col (l_begin l')) (c_str text)], None)
  | 7 => Some (start, loc_lines l, [], None)
  | 8 => skip
  | 9 => ret 3 | 10 => ret 4 | 11 => ret 5 | 12 => ret 6 | 13 => ret 7
  | 14 => ret 8 | 15 => ret 9 | 16 => ret 10 | 17 => ret 11 | 18 => ret 12
  | 19 => ret 13 | 20 => ret 14 | 21 => ret 15 | 22 => ret 16 | 23 => ret 17
  | 24 => ret 18 | 25 => ret 19 | 26 => ret 20 | 27 => ret 21 | 28 => ret 22
  | 29 => ret 23 | 30 => retv 24 | 31 => retv 25 | 32 => retv 26 | 33 => retv 27
  | 34 => retv 28 | 35 => retv 29 | 36 => retv 30
  | 37 => Some (start, l, [Echo text], None)
  | _ => None                                         (* YY_FATAL_ERROR *)
  end.

(** Rules 5 and 6 give one byte (the newline of [$]) back, tokenize.cpp:758-775. *)
Definition trail (act : N) : nat :=
  match act with 5 | 6 => 1 | _ => 0 end.

(* YY_RULE_SETUP, tokenize.cpp:623-627 *)
Definition new_bol (text : bytes) (bol : bool) : bool :=
  match rev text with c :: _ => N_of_ascii c =? 10 | [] => bol end.

(** One iteration of the scanner's outer while loop on non-empty text. *)
Definition lex_step (lx : lexer) (l : loc)
  : option (lexer * loc * list event * option token) :=
  let? (act, n) := scan_one (lx_start lx) (lx_bol lx) (lx_rest lx) in
  let m := (n - trail act)%nat in
  let text := firstn m (lx_rest lx) in
  let? (start', l', ev, tk) := action act text (lx_start lx) l in
  Some (Lexer start' (new_bol text (lx_bol lx)) (skipn m (lx_rest lx)), l', ev, tk).

(** One call of yylex.  [None] in the outer option: undefined behaviour or out of
    fuel; inner [None]: end of file (token kind 0, tokenize.cpp:1041-1043, 1115-1134). *)
Fixpoint yylex (fuel : nat) (lx : lexer) (l : loc) (evs : list event)
  : option (lexer * loc * list event * option token) :=
  match lx_rest lx with
  | [] => Some (lx, l, evs, None)
  | _ =>
      match fuel with
      | O => None
      | S f =>
          let? (lx', l', ev, tk) := lex_step lx l in
          match tk with
          | Some t => Some (lx', l', evs ++ ev, Some t)
          | None => yylex f lx' l' (evs ++ ev)
          end
      end
  end.

(** What the parser can see of a text: every token with its location and what was
    printed before it, then what is printed before end of file. *)
Record item := Item { i_tok : token; i_loc : loc; i_evs : list event }.

Fixpoint tokenize (fuel : nat) (lx : lexer) (l : loc)
  : option (list item * loc * list event) :=
  match fuel with
  | O => None
  | S f =>
      let? (lx', l', evs, tk) := yylex (length (lx_rest lx)) lx l [] in
      match tk with
      | None => Some ([], l', evs)
      | Some t =>
          let? (its, le, ee) := tokenize f lx' l' in
          Some (Item t l' evs :: its, le, ee)
      end
  end.

Definition scan_text (cs : bytes) : option (list item * loc * list event) :=
  tokenize (S (length cs)) (lexer0 cs) loc0.

Local Open Scope string_scope.
Definition kinds (cs : string) : option (list (N * option string)) :=
  let? (its, _, _) := scan_text (list_ascii_of_string cs) in
  Some (map (fun i => (t_kind (i_tok i), t_val (i_tok i))) its).

Example scan_ex :
  kinds "struct aB { int x{3}; }; // end" =
  Some [(12, None); (24, Some "aB"); (3, None); (13, None); (24, Some "x"); (3, None);
        (26, Some "3"); (4, None); (7, None); (4, None); (7, None); (24, Some "end")].
Proof. vm_compute. reflexivity. Qed.
