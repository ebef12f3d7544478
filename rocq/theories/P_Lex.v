(** Property theorems about the scanner: C01-C10, C51, C52.  Every proof is an
    application of a lemma proved elsewhere. *)
From Coq Require Import String Ascii NArith Arith List Bool Lia.
From Verif Require Import Base Regex LexRules FlexTables Flex LexCorrect LexWhole LexLoc LexStep
  LexProps LexBlank LexMore LexGap.
Import ListNotations.
Local Open Scope N_scope.

(** *** C01 *)
Theorem C01_one_lexeme : forall sc bol cs, cs <> [] ->
  exists r n, scan_one (start_of sc) bol cs = Some (r_num r, n) /\ longest_first sc bol cs r n.
Proof. exact scan_one_longest. Qed.

Theorem C01_rule_unique : forall sc bol cs r n r' n',
  longest_first sc bol cs r n -> longest_first sc bol cs r' n' -> r = r' /\ n = n'.
Proof. exact longest_first_det. Qed.

Theorem C01_tokens : forall cs, exists its le ee ls,
  scan_text cs = Some (its, le, ee) /\ lexes INITIAL true cs ls /\
  map (fun i => tok_view (i_tok i)) its = spec_tokens ls.
Proof. exact scan_text_tokens. Qed.

Example C01_case :
  kinds ("enum" ++ "eration" ++ " a::b 12.5f" ++ String (ascii_of_N 9) "structs")%string =
  Some [(24, Some "enumeration"%string); (25, Some "a::b"%string); (28, Some "12.5f"%string);
        (24, Some "structs"%string)].
Proof. vm_compute. reflexivity. Qed.

(** *** C02 *)
Theorem C02_terminates_and_consumes_all : forall cs, exists its le ee ls,
  scan_text cs = Some (its, le, ee) /\ lexes INITIAL true cs ls /\ concat (map snd ls) = cs.
Proof. exact scan_text_total. Qed.

Theorem C02_each_token_progresses : forall sc bol cs l,
  exists lx l' evs tk,
    yylex (length cs) (Lexer (start_of sc) bol cs) l [] = Some (lx, l', evs, tk) /\
    (exists taken, cs = taken ++ lx_rest lx) /\
    match tk with
    | None => lx_rest lx = []
    | Some _ => (length (lx_rest lx) < length cs)%nat
    end.
Proof. exact yylex_total. Qed.

(** *** C03: [None] is an out-of-bounds table access or an endless default chain. *)
Theorem C03_no_out_of_bounds : forall sc bol cs,
  match_loop (start_of sc + (if (bol : bool) then 1 else 0)) None 0 cs <> None.
Proof. exact match_loop_defined. Qed.

Theorem C03_scan_defined : forall cs, scan_text cs <> None.
Proof. exact scan_text_defined. Qed.

(** *** C04 *)
Theorem C04_identifier_is_one_token : forall bol w rest,
  identifier w -> ends_word rest ->
  tokens_from INITIAL bol (w ++ rest) = prepend [word_token w] (tokens_from INITIAL false rest).
Proof. exact word_scanned. Qed.

Example C04_case : let w := list_ascii_of_string "MyLongNAME_42" in
  identifier w /\ ends_word (list_ascii_of_string ":1;") /\
  word_token w = Tok 24 (Some "MyLongNAME_42"%string) /\
  word_token (list_ascii_of_string "struct") = Tok 12 None.
Proof.
  vm_compute. repeat split; intros; try discriminate.
Qed.

(** *** C05 *)
Theorem C05_gaps_have_no_tokens : forall bol g bol' rest,
  gap bol g bol' -> tokens_from INITIAL bol (g ++ rest) = tokens_from INITIAL bol' rest.
Proof. exact gap_tokens. Qed.

Example C05_case :
  gap true (list_ascii_of_string ("  #include <x>" ++ String NL (" /* a ** b */ // c" ++ String CR (String NL EmptyString)))%string) true.
Proof. exact gap_example. Qed.

(** *** C06 *)
Theorem C06_comment_at_eof_is_not_skipped : forall bol l,
  no_newline l = true -> starts slash_star l = false ->
  tokens_from INITIAL bol ("/"%char :: "/"%char :: l) = tokens_from INITIAL false l.
Proof. exact tokens_comment_eof. Qed.

Theorem C06_more_slashes : forall bol l,
  no_newline l = true ->
  tokens_from INITIAL bol ("/"%char :: "/"%char :: l) = tokens_from INITIAL false ("/"%char :: l).
Proof. exact tokens_slashes_eof. Qed.

Theorem C06_hash_at_eof_is_not_skipped : forall bol l,
  bol = false \/ no_newline l = true ->
  tokens_from INITIAL bol ("#"%char :: l) = tokens_from INITIAL false l.
Proof. exact tokens_hash_eof. Qed.

Example C06_case : kinds "// the end" = Some [(24, Some "the"%string); (24, Some "end"%string)].
Proof. vm_compute. reflexivity. Qed.

(** *** C07 *)
Theorem C07_string_extends_to_last_quote : forall bol l rest,
  no_newline l = true -> no_quote_on_line rest ->
  tokens_from INITIAL bol ((Q :: l ++ [Q]) ++ rest) =
  prepend [Tok 29 (Some (string_of_list_ascii (Q :: l ++ [Q])))] (tokens_from INITIAL false rest).
Proof. exact tokens_string. Qed.

Theorem C07_lone_quote_is_dropped : forall bol rest,
  no_quote_on_line rest ->
  tokens_from INITIAL bol (Q :: rest) = tokens_from INITIAL false rest.
Proof. exact tokens_lone_quote. Qed.

(** Two members with string defaults on one line: one token swallows both. *)
Example C07_case :
  kinds "a{""x""}; b{""y""};" =
  Some [(24, Some "a"%string); (3, None); (29, Some """x""}; b{""y"""%string); (4, None); (7, None)].
Proof. vm_compute. reflexivity. Qed.

(** *** C08 *)
Theorem C08_foreign_byte_is_dropped : forall bol c rest,
  foreign c = true -> tokens_from INITIAL bol (c :: rest) = tokens_from INITIAL false rest.
Proof. exact tokens_foreign. Qed.

Theorem C08_slash_is_dropped : forall bol l,
  starts slash_star l = false ->
  tokens_from INITIAL bol ("/"%char :: l) = tokens_from INITIAL false l.
Proof. exact tokens_slash_other. Qed.

Example C08_case : foreign "-" = true /\ foreign ":" = true /\ foreign "(" = true /\
  kinds "int x{-3};" = kinds "int x{3};".
Proof. repeat split; vm_compute; reflexivity. Qed.

(** *** C09, C10 *)
Theorem C09_line_numbers : forall cs its le ee i it,
  scan_text cs = Some (its, le, ee) -> nth_error its i = Some it ->
  exists before text after,
    cs = before ++ text ++ after /\ text <> [] /\
    match t_val (i_tok it) with Some s => list_ascii_of_string s = text | None => True end /\
    p_line (l_begin (i_loc it)) = 1 + N.of_nat (newlines before) /\
    p_line (l_end (i_loc it)) = 1 + N.of_nat (newlines before).
Proof. exact scan_text_lines. Qed.

Theorem C10_columns : forall cs its le ee i it,
  scan_text cs = Some (its, le, ee) -> nth_error its i = Some it ->
  exists pre r x post,
    lexes INITIAL true cs (pre ++ (r, x) :: post) /\
    spec_token r x = Some (tok_view (i_tok it)) /\
    let before := concat (map snd pre) in
    let col := p_col (l_begin (i_loc it)) in
    if line_clean pre true
    then col = N.of_nat (byte_column before 1)
    else col < N.of_nat (byte_column before 1).
Proof. exact scan_text_columns. Qed.

Definition begins (s : string) : option (list (N * N)) :=
  let? (its, _, _) := scan_text (list_ascii_of_string s) in
  Some (map (fun i => (p_line (l_begin (i_loc i)), p_col (l_begin (i_loc i)))) its).

Example C10_case :
  begins "struct a" = Some [(1, 1); (1, 8)] /\
  begins "/* c */ a" = Some [(1, 5)] /\      (* true column: 9 *)
  begins ("struct" ++ String NL "  -a")%string = Some [(1, 1); (2, 3)].
Proof. repeat split; vm_compute; reflexivity. Qed.

(** *** C51 *)
Theorem C51_unclosed_comment_swallows_file : forall bol body,
  has_close body = false -> tokens_from INITIAL bol ("/"%char :: "*"%char :: body) = Some [].
Proof. exact tokens_unclosed_comment. Qed.

Example C51_case : has_close (list_ascii_of_string "struct a { int x; };") = false.
Proof. reflexivity. Qed.

(** *** C52 *)
Theorem C52_any_separator_makes_a_float : forall bol ds1 c ds2 rest,
  ds1 <> [] -> ds2 <> [] -> forallb digit ds1 = true -> forallb digit ds2 = true ->
  nondigit_sep c = true -> starts digit_f rest = false ->
  tokens_from INITIAL bol ((ds1 ++ c :: ds2) ++ rest) =
  prepend [Tok 28 (Some (string_of_list_ascii (ds1 ++ c :: ds2)))] (tokens_from INITIAL false rest).
Proof. exact tokens_fvalue. Qed.

Theorem C52_integers : forall bol ds rest,
  ds <> [] -> forallb digit ds = true -> ends_number rest ->
  tokens_from INITIAL bol (ds ++ rest) =
  prepend [Tok 26 (Some (string_of_list_ascii ds))] (tokens_from INITIAL false rest).
Proof. exact tokens_value. Qed.

Example C52_case : nondigit_sep "," = true /\ kinds "x{1,2};" =
  Some [(24, Some "x"%string); (3, None); (28, Some "1,2"%string); (4, None); (7, None)].
Proof. split; vm_compute; reflexivity. Qed.

Print Assumptions C01_one_lexeme.
Print Assumptions C01_rule_unique.
Print Assumptions C01_tokens.
Print Assumptions C02_terminates_and_consumes_all.
Print Assumptions C02_each_token_progresses.
Print Assumptions C03_no_out_of_bounds.
Print Assumptions C03_scan_defined.
Print Assumptions C04_identifier_is_one_token.
Print Assumptions C05_gaps_have_no_tokens.
Print Assumptions C06_comment_at_eof_is_not_skipped.
Print Assumptions C06_more_slashes.
Print Assumptions C06_hash_at_eof_is_not_skipped.
Print Assumptions C07_string_extends_to_last_quote.
Print Assumptions C07_lone_quote_is_dropped.
Print Assumptions C08_foreign_byte_is_dropped.
Print Assumptions C08_slash_is_dropped.
Print Assumptions C09_line_numbers.
Print Assumptions C10_columns.
Print Assumptions C51_unclosed_comment_swallows_file.
Print Assumptions C52_any_separator_makes_a_float.
Print Assumptions C52_integers.
