(** Specification of the scanner, read off the rule file struct_lex.l (not off
    the generated tables): one regular expression per rule, longest match, first
    rule wins.  Independent of Flex.v. *)
From Coq Require Import String Ascii NArith Arith List Bool Lia.
From Verif Require Import Regex.
Import ListNotations.
Local Open Scope N_scope.

Definition set_of (rs : list (N * N)) : bset := BSet false rs.
Definition one (n : N) : re := Chr (set_of [(n, n)]).
Definition plus (r : re) : re := Seq r (Star r).
Definition opt (r : re) : re := Alt r Eps.

(** A literal such as "enum". *)
Fixpoint lit (s : string) : re :=
  match s with
  | EmptyString => Eps
  | String c EmptyString => one (N_of_ascii c)
  | String c s' => Seq (one (N_of_ascii c)) (lit s')
  end.

(** flex's [.]: every byte except newline (including NUL and bytes above 127). *)
Definition dot : re := Chr (BSet true [(10, 10)]).
Definition nl : re := one 10.

(** struct_lex.l:19-27 *)
Definition DIGIT : re := Chr (set_of [(48, 57)]).
Definition HEXDIGIT : re := Chr (set_of [(48, 57); (65, 70); (97, 102)]).
(* [a-zA-Z_][a-zA_Z0-9_]*  -- "A_Z" in the second class is as in the source:
   only the letters A and Z, not the range *)
Definition ID : re :=
  Seq (Chr (set_of [(97, 122); (65, 90); (95, 95)]))
      (Star (Chr (set_of [(97, 122); (65, 65); (95, 95); (90, 90); (48, 57); (95, 95)]))).
Definition SEP_CHAR : re := Chr (set_of [(32, 32); (9, 9)]).

Inductive scond := INITIAL | C_COMMENT.

(** One rule of the file: number, start condition, anchored at beginning of line,
    pattern (including the trailing context), length of the trailing context. *)
Record rule := Rule {
  r_num : N; r_sc : scond; r_bol : bool; r_re : re; r_trail : nat }.

Definition R n r := Rule n INITIAL false r 0.

(** struct_lex.l:31-223, in order; rule 37 is flex's default rule (ECHO). *)
Definition rules : list rule := [
  R 1 (lit "/*");
  Rule 2 C_COMMENT false nl 0;
  Rule 3 C_COMMENT false dot 0;
  Rule 4 C_COMMENT false (lit "*/") 0;
  Rule 5 INITIAL false (Seq (lit "//") (Seq (Star dot) nl)) 1;
  Rule 6 INITIAL true (Seq (Star SEP_CHAR) (Seq (one 35) (Seq (Star dot) nl))) 1;
  R 7 (Seq (opt (one 13)) nl);
  R 8 (plus SEP_CHAR);
  R 9 (lit "{");
  R 10 (lit "}");
  R 11 (lit "=");
  R 12 (lit ",");
  R 13 (lit ";");
  R 14 (lit "<");
  R 15 (lit ">");
  R 16 (lit "enum");
  R 17 (lit "class");
  R 18 (lit "struct");
  R 19 (lit "int");
  R 20 (lit "short");
  R 21 (lit "long");
  R 22 (lit "unsigned");
  R 23 (lit "float");
  R 24 (lit "double");
  R 25 (lit "bool");
  R 26 (lit "true");
  R 27 (lit "false");
  R 28 (lit "std::string");
  R 29 (lit "std::vector");
  R 30 (plus ID);
  R 31 (Seq (plus ID) (Seq (lit "::") (plus ID)));
  R 32 (plus DIGIT);
  R 33 (Seq (lit "0x") (plus HEXDIGIT));
  R 34 (Seq (plus DIGIT) (Seq dot (Seq (plus DIGIT) (opt (one 102)))));
  R 35 (Seq (one 34) (Seq (Star dot) (one 34)));
  R 36 (Seq (one 39) (Seq dot (one 39)));
  R 37 (Alt dot nl);
  (* flex's default rule exists in the exclusive start condition as well *)
  Rule 37 C_COMMENT false (Alt dot nl) 0 ].

Definition active (sc : scond) (bol : bool) (r : rule) : bool :=
  match sc, r_sc r with
  | INITIAL, INITIAL | C_COMMENT, C_COMMENT => negb (r_bol r) || bol
  | _, _ => false
  end.

(** Rule [r] matches the first [n] bytes of [cs] (its trailing context included). *)
Definition rule_matches (sc : scond) (bol : bool) (cs : list ascii) (r : rule) (n : nat) : Prop :=
  In r rules /\ active sc bol r = true /\ (n <= length cs)%nat /\ lang (r_re r) (firstn n cs).

(** The rule flex must choose: longest match, then smallest rule number. *)
Definition longest_first (sc : scond) (bol : bool) (cs : list ascii) (r : rule) (n : nat) : Prop :=
  rule_matches sc bol cs r n /\
  forall r' n', rule_matches sc bol cs r' n' ->
                (n' < n)%nat \/ (n' = n /\ r_num r <= r_num r').

Definition next_sc (r : rule) (sc : scond) : scond :=
  if r_num r =? 1 then C_COMMENT else if r_num r =? 4 then INITIAL else sc.

(** At beginning of line again exactly when the lexeme ends in a newline. *)
Definition ends_nl (s : list ascii) : bool :=
  match rev s with c :: _ => N_of_ascii c =? 10 | [] => false end.

(** [lexes sc bol cs ls]: cutting [cs] by repeated longest match gives the
    lexemes [ls] (rule, text); their concatenation is the whole text. *)
Inductive lexes : scond -> bool -> list ascii -> list (rule * list ascii) -> Prop :=
| lexes_nil : forall sc bol, lexes sc bol [] []
| lexes_cons : forall sc bol cs r n x rest ls,
    longest_first sc bol cs r n ->
    cs = x ++ rest -> length x = (n - r_trail r)%nat -> x <> [] ->
    lexes (next_sc r sc) (ends_nl x) rest ls ->
    lexes sc bol cs ((r, x) :: ls).

(** Tokens returned by the rules (struct_lex.l:78-223, numbers of Parser.hpp:431-465):
    rule, token kind, whether the token carries its text. *)
Definition rule_tokens : list (N * (N * bool)) := [
  (9, (3, false)); (10, (4, false)); (11, (5, false)); (12, (6, false));
  (13, (7, false)); (14, (8, false)); (15, (9, false)); (16, (10, false));
  (17, (11, false)); (18, (12, false)); (19, (13, false)); (20, (14, false));
  (21, (15, false)); (22, (16, false)); (23, (17, false)); (24, (18, false));
  (25, (19, false)); (26, (20, false)); (27, (21, false)); (28, (22, false));
  (29, (23, false)); (30, (24, true)); (31, (25, true)); (32, (26, true));
  (33, (27, true)); (34, (28, true)); (35, (29, true)); (36, (30, true)) ].

Definition spec_token (r : rule) (x : list ascii) : option (N * option (list ascii)) :=
  match find (fun p => fst p =? r_num r) rule_tokens with
  | Some (_, (k, v)) => Some (k, if v then Some x else None)
  | None => None
  end.

Definition spec_tokens (ls : list (rule * list ascii)) : list (N * option (list ascii)) :=
  flat_map (fun rx => match spec_token (fst rx) (snd rx) with Some t => [t] | None => [] end) ls.

(** Number of newline bytes. *)
Fixpoint newlines (s : list ascii) : nat :=
  match s with
  | [] => 0
  | c :: s' => ((if (N_of_ascii c =? 10)%N then 1 else 0) + newlines s')%nat
  end.

(** Bytes of a line that the location counter sees: comment delimiters (rules 1
    and 4) and echoed bytes (rule 37) are not counted. *)
Definition uncounted (r : rule) : bool :=
  (r_num r =? 1) || (r_num r =? 4) || (r_num r =? 37).

Fixpoint columns_after (ls : list (rule * list ascii)) (col : nat) : nat :=
  match ls with
  | [] => col
  | (r, x) :: ls' =>
      columns_after ls'
        (if ends_nl x then 1 else if uncounted r then col else col + length x)%nat
  end.

(** True byte column (1-based) after [s], starting at [col]. *)
Fixpoint byte_column (s : list ascii) (col : nat) : nat :=
  match s with
  | [] => col
  | c :: s' => byte_column s' (if N_of_ascii c =? 10 then 1 else S col)
  end.
