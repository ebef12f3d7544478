(** The generated scanner with its input buffer: yy::Lexer::lex and the functions of
    yyFlexLexer it uses, src/lex_parse/tokenize.cpp.  Flex.v leaves the buffer out;
    BufferScan.v proves that it is invisible.

    [None] is undefined behaviour (an access outside the array or to a byte that was not
    written, an int that overflows), YY_FATAL_ERROR, or that the fuel is used up.  Memory is
    always available. *)
From Coq Require Import String Ascii ZArith NArith Arith List Bool Lia.
From Verif Require Import Base FlexTables Flex.
Import ListNotations.
Local Open Scope N_scope.

(** *** yy_ch_buf: an allocated array; [None] is a byte that has not been written *)
Definition array := list (option ascii).
Definition load (b : array) (i : nat) : option ascii :=
  match nth_error b i with Some (Some c) => Some c | _ => None end.
Definition store (b : array) (i : nat) (c : ascii) : option array :=
  if (i <? length b)%nat then Some (firstn i b ++ Some c :: skipn (S i) b) else None.
(** yyrealloc *)
Definition resize (b : array) (n : nat) : array := firstn n b ++ repeat None (n - length b).
Definition NUL : ascii := "000"%char.
Definition in_int (n : nat) : bool := (Z.of_nat n <=? 2147483647)%Z.

(** yy_buffer_status, tokenize.cpp:241-253 *)
Inductive status := New | Normal | Eof_pending.

(** The members of yyFlexLexer and of its one yy_buffer_state that the code uses
    (tokenize.cpp:192-256); pointers are positions in yy_ch_buf.  yy_fill_buffer,
    yy_is_our_buffer are 1 and yy_buf_pos is the beginning of the array all the time. *)
Record scanner := Scanner {
  b_buf : array;               (* yy_ch_buf *)
  b_size : nat;                (* yy_buf_size *)
  b_own : nat;                 (* yy_n_chars of the buffer *)
  b_status : status;           (* yy_buffer_status *)
  b_bol : bool;                (* yy_at_bol *)
  b_n : nat;                   (* yy_n_chars of the scanner *)
  b_text : nat;                (* yytext *)
  b_c : nat;                   (* yy_c_buf_p *)
  b_hold : ascii;              (* yy_hold_char *)
  b_start : N;                 (* yy_start *)
  b_last : option (N * nat);   (* yy_last_accepting_state, yy_last_accepting_cpos *)
  b_in : bytes;                (* the unread part of the stream yyin *)
  b_eof : bool                 (* yyin.eof() || yyin.fail() *)
}.
Definition set_buf (b : array) (s : scanner) : scanner :=
  Scanner b (b_size s) (b_own s) (b_status s) (b_bol s) (b_n s) (b_text s) (b_c s) (b_hold s) (b_start s) (b_last s) (b_in s) (b_eof s).
Definition set_c (c : nat) (s : scanner) : scanner :=
  Scanner (b_buf s) (b_size s) (b_own s) (b_status s) (b_bol s) (b_n s) (b_text s) c (b_hold s) (b_start s) (b_last s) (b_in s) (b_eof s).
Definition set_last (a : option (N * nat)) (s : scanner) : scanner :=
  Scanner (b_buf s) (b_size s) (b_own s) (b_status s) (b_bol s) (b_n s) (b_text s) (b_c s) (b_hold s) (b_start s) a (b_in s) (b_eof s).
Definition set_start (x : N) (s : scanner) : scanner :=
  Scanner (b_buf s) (b_size s) (b_own s) (b_status s) (b_bol s) (b_n s) (b_text s) (b_c s) (b_hold s) x (b_last s) (b_in s) (b_eof s).
Definition set_bol (x : bool) (s : scanner) : scanner :=
  Scanner (b_buf s) (b_size s) (b_own s) (b_status s) x (b_n s) (b_text s) (b_c s) (b_hold s) (b_start s) (b_last s) (b_in s) (b_eof s).

(** yy_flush_buffer and yy_load_buffer_state, as yyrestart and the first call of lex run
    them: tokenize.cpp:1608-1621, 1669-1676, 1742-1790.  istream::rdbuf clears the state of
    the stream. *)
Definition flush (s : scanner) : option scanner :=
  let? b := store (b_buf s) 0 NUL in
  let? b := store b 1 NUL in
  let? h := load b 0 in
  Some (Scanner b (b_size s) 0 New true 0 0 0 h (b_start s) (b_last s) (b_in s) false).
(** The scanner after the initialisation in its first call: tokenize.cpp:635-660,
    1684-1706.  [size] is YY_BUF_SIZE: 16384, or 32768 (tokenize.cpp:142-151). *)
Definition scanner0 (size : nat) (cs : bytes) : option scanner :=
  flush (Scanner (repeat None (size + 2)) size 0 New true 0 0 0 NUL 1 None cs false).

(** The transition on one class, tokenize.cpp:687-698: the accepting state is remembered. *)
Definition mark (st : N) (cp : nat) (last : option (N * nat)) : option (option (N * nat)) :=
  let? a := tget yy_accept st in Some (if a =? 0 then last else Some (st, cp)).

(** yy_get_previous_state, tokenize.cpp:1438-1465: [n] bytes from [i]. *)
Fixpoint previous (b : array) (n i : nat) (st : N) (last : option (N * nat)) : option (N * option (N * nat)) :=
  match n with
  | O => Some (st, last)
  | S n' =>
      let? c := load b i in
      let? k := class_of c in
      let? last' := mark st i last in
      let? st' := next_state chain_fuel st k in
      previous b n' (S i) st' last'
  end.
Definition start_state (s : scanner) : N := b_start s + (if b_bol s then 1 else 0).
Definition get_previous (s : scanner) : option (N * scanner) :=
  let? (st, last) := previous (b_buf s) (b_c s - b_text s) (b_text s) (start_state s) (b_last s) in
  Some (st, set_last last s).

(** yy_try_NUL_trans, tokenize.cpp:1472-1494: [None] inside when the machine jams. *)
Definition try_nul (st : N) (s : scanner) : option (option N * scanner) :=
  let? last := mark st (b_c s) (b_last s) in
  let? st' := next_state chain_fuel st 1 in
  Some (if st' =? 133 then None else Some st', set_last last s).

(** LexerInput with YY_INTERACTIVE (tokenize.cpp:302, 1259-1288): at most one byte; the
    stream does not fail. *)
Definition lexer_input (b : array) (at_ : nat) (cs : bytes) (eof : bool) : option (array * nat * bytes * bool) :=
  if eof then Some (b, O, cs, true)
  else match cs with
       | [] => Some (b, O, [], true)
       | c :: cs' => let? b := store b at_ c in Some (b, 1%nat, cs', false)
       end.

(** tokenize.cpp:1336-1337 *)
Fixpoint move (b : array) (n dst src : nat) : option array :=
  match n with
  | O => Some b
  | S n' => let? c := load b src in let? b := store b dst c in move b n' (S dst) (S src)
  end.
(** tokenize.cpp:1348-1384: num_to_read is yy_buf_size - number_to_move - 1.  Doubling an
    int that is too large is undefined. *)
Fixpoint grow (fuel : nat) (b : array) (size moved : nat) : option (array * nat) :=
  if (size <=? moved + 1)%nat then
    match fuel with
    | O => None
    | S f => if in_int (2 * size) then grow f (resize b (2 * size + 2)) (2 * size) moved else None
    end
  else Some (b, size).

Inductive eob := End_of_file | Continue_scan | Last_match.
(** tokenize.cpp:1418-1431: the array is large enough, or extended; two NULs at the end. *)
Definition terminate (b : array) (size n moved : nat) : option (array * nat) :=
  let? (b, size) :=
    if (size <? n + moved)%nat then
      let new_size := (n + moved + n / 2)%nat in
      if in_int new_size then Some (resize b new_size, (new_size - 2)%nat) else None
    else Some (b, size) in
  let? b := store b (n + moved) NUL in
  let? b := store b (n + moved + 1) NUL in
  Some (b, size).
(** yy_get_next_buffer, tokenize.cpp:1302-1436. *)
Definition next_buffer (s : scanner) : option (eob * scanner) :=
  if (b_n s + 1 <? b_c s)%nat then None                  (* end of buffer missed *)
  else if (b_c s <? b_text s + 1)%nat then None
  else
    let moved := (b_c s - b_text s - 1)%nat in
    let? b := move (b_buf s) moved 0 (b_text s) in
    let? (b, size, n, cs, eof) :=
      match b_status s with
      | Eof_pending => Some (b, b_size s, O, b_in s, b_eof s)
      | _ =>
          let? (b, size) := grow (moved + 2) b (b_size s) moved in
          let? (b, n, cs, eof) := lexer_input b moved (b_in s) (b_eof s) in
          Some (b, size, n, cs, eof)
      end in
    let s1 := Scanner b size n (b_status s) (b_bol s) n (b_text s) (b_c s) (b_hold s) (b_start s) (b_last s) cs eof in
    let? (r, s2) :=
      match n, moved with
      | O, O => let? s2 := flush s1 in Some (End_of_file, s2)
      | O, _ => Some (Last_match, Scanner b size n Eof_pending (b_bol s) n (b_text s) (b_c s) (b_hold s) (b_start s) (b_last s) cs eof)
      | _, _ => Some (Continue_scan, s1)
      end in
    let? (b, size) := terminate (b_buf s2) (b_size s2) (b_n s2) moved in
    Some (r, Scanner b size (b_own s2) (b_status s2) (b_bol s2) (b_n s2 + moved) 0 (b_c s2) (b_hold s2) (b_start s2) (b_last s2) (b_in s2) (b_eof s2)).

(** YY_DO_BEFORE_ACTION, tokenize.cpp:311-316. *)
Definition before_action (s : scanner) (bp cp : nat) : option scanner :=
  if (cp <? bp)%nat then None
  else
    let? h := load (b_buf s) cp in
    let? b := store (b_buf s) cp NUL in
    Some (Scanner b (b_size s) (b_own s) (b_status s) (b_bol s) (b_n s) bp cp h (b_start s) (b_last s) (b_in s) (b_eof s)).

(** The bytes YYText() .. YYText() + YYLeng(), and what %s prints of yytext. *)
Fixpoint text_at (b : array) (i n : nat) : option bytes :=
  match n with
  | O => Some []
  | S n' => let? c := load b i in let? r := text_at b (S i) n' in Some (c :: r)
  end.
Fixpoint c_str_at (fuel : nat) (b : array) (i : nat) : option bytes :=
  match fuel with
  | O => None
  | S f => let? c := load b i in if N_of_ascii c =? 0 then Some [] else let? r := c_str_at f b (S i) in Some (c :: r)
  end.
(** The rules, tokenize.cpp:726-1038, see [Flex.action]; rule 6 prints yytext with %s. *)
Definition rule_action (act : N) (text : bytes) (shown : option bytes) (start : N) (l : loc)
  : option (N * loc * list event * option token) :=
  match act with
  | 6 => let l' := loc_columns (length text) l in
         let? z := shown in
         Some (start, l', [Warn (p_line (l_begin l')) (p_col (l_begin l')) z], None)
  | _ => action act text start l
  end.
(** The counters of a position are ints, Location.hpp:66, 119-122. *)
Definition pos_fits (p : pos) : bool := in_int (N.to_nat (p_line p)) && in_int (N.to_nat (p_col p)).
Definition loc_fits (l : loc) : bool := pos_fits (l_begin l) && pos_fits (l_end l).

(** *** lex, tokenize.cpp:632-1174: the labels of the code *)
Inductive label :=
| Begin                              (* the beginning of the while loop, 669 *)
| Match (st : N) (cp bp : nat)       (* yy_match, 684 *)
| Find (st : N) (cp bp : nat).       (* yy_find_action, 703 *)
Inductive next :=
| Goto (lb : label) (s : scanner) (l : loc) (evs : list event)
| Return (tk : option token) (s : scanner) (l : loc) (evs : list event).   (* [None]: YY_NULL *)

(** case YY_END_OF_BUFFER, tokenize.cpp:1045-1166; [cp] is the end of the match. *)
Definition end_of_buffer (cp : nat) (s : scanner) (l : loc) (evs : list event) : option next :=
  if (cp <? b_text s + 1)%nat then None
  else
    let amount := (cp - b_text s - 1)%nat in
    let? b := store (b_buf s) cp (b_hold s) in
    let s := set_buf b s in
    let s := match b_status s with
             | New => Scanner (b_buf s) (b_size s) (b_own s) Normal (b_bol s) (b_own s) (b_text s) (b_c s) (b_hold s) (b_start s) (b_last s) (b_in s) (b_eof s)
             | _ => s
             end in
    if (b_c s <=? b_n s)%nat then
      let s := set_c (b_text s + amount) s in
      let? (st, s) := get_previous s in
      let? (o, s) := try_nul st s in
      match o with
      | Some st' => let s := set_c (b_c s + 1) s in Some (Goto (Match st' (b_c s) (b_text s)) s l evs)
      | None => Some (Goto (Find st (b_c s) (b_text s)) s l evs)
      end
    else
      let? (r, s) := next_buffer s in
      match r with
      | End_of_file => Some (Return None (set_c (b_text s) s) l evs)
      | Continue_scan =>
          let s := set_c (b_text s + amount) s in
          let? (st, s) := get_previous s in Some (Goto (Match st (b_c s) (b_text s)) s l evs)
      | Last_match =>
          let s := set_c (b_n s) s in
          let? (st, s) := get_previous s in Some (Goto (Find st (b_c s) (b_text s)) s l evs)
      end.

(** The other actions. *)
Definition run_rule (act : N) (bp cp : nat) (s : scanner) (l : loc) (evs : list event) : option next :=
  let? (s, cp) :=
    match trail act with
    | O => Some (s, cp)
    | d => if (cp <? d)%nat then None
           else let? b := store (b_buf s) cp (b_hold s) in
                let? s := before_action (set_buf b s) bp (cp - d) in Some (s, (cp - d)%nat)
    end in
  let? text := text_at (b_buf s) bp (cp - bp) in
  let s := set_bol (new_bol text (b_bol s)) s in
  let? (start', l', ev, tk) := rule_action act text (c_str_at (length (b_buf s)) (b_buf s) bp) (b_start s) l in
  let s := set_start start' s in
  if loc_fits l' then
    match tk with
    | Some t => Some (Return (Some t) s l' (evs ++ ev))
    | None => Some (Goto Begin s l' (evs ++ ev))
    end
  else None.

Definition step (lb : label) (s : scanner) (l : loc) (evs : list event) : option next :=
  match lb with
  | Begin =>
      let? b := store (b_buf s) (b_c s) (b_hold s) in
      Some (Goto (Match (start_state s) (b_c s) (b_c s)) (set_buf b s) l evs)
  | Match st cp bp =>
      let? c := load (b_buf s) cp in
      let? k := tget yy_ec (N_of_ascii c) in
      let? last := mark st cp (b_last s) in
      let? st' := next_state chain_fuel st k in
      let? base := tget yy_base st' in
      Some (Goto (if base =? 289 then Find st' (S cp) bp else Match st' (S cp) bp) (set_last last s) l evs)
  | Find st cp bp =>
      let? a := tget yy_accept st in
      let? (act, cp) :=
        if a =? 0 then
          match b_last s with
          | None => None
          | Some (st', cp') => let? a' := tget yy_accept st' in Some (a', cp')
          end
        else Some (a, cp) in
      let? s := before_action s bp cp in
      if act =? 38 then end_of_buffer cp s l evs else run_rule act bp cp s l evs
  end.
Fixpoint go (fuel : nat) (lb : label) (s : scanner) (l : loc) (evs : list event)
  : option (option token * scanner * loc * list event) :=
  match fuel with
  | O => None
  | S f =>
      match step lb s l evs with
      | Some (Goto lb' s' l' evs') => go f lb' s' l' evs'
      | Some (Return tk s' l' evs') => Some (tk, s', l', evs')
      | None => None
      end
  end.
(** All tokens of a stream, as [Flex.scan_text]. *)
Fixpoint scan_all (fuel steps : nat) (s : scanner) (l : loc) : option (list item * loc * list event) :=
  match fuel with
  | O => None
  | S f =>
      let? (tk, s', l', evs) := go steps Begin s l [] in
      match tk with
      | None => Some ([], l', evs)
      | Some t => let? (its, le, ee) := scan_all f steps s' l' in Some (Item t l' evs :: its, le, ee)
      end
  end.
Definition scan_stream (size fuel : nat) (cs : bytes) : option (list item * loc * list event) :=
  let? s := scanner0 size cs in scan_all fuel fuel s loc0.

(** A text with a NUL, longer than the buffer. *)
Local Open Scope string_scope.
Example scan_stream_ex : let cs := list_ascii_of_string ("enum en_u_m { a" ++ String "000" "b }; // x" ++ String "010" "struct _long_name") in
  scan_stream 2 2000 cs = scan_text cs /\ scan_text cs <> None.
Proof. vm_compute. split; [reflexivity|discriminate]. Qed.
