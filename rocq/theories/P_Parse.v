(** Property theorems about the parser: C11-C15, C53. *)
From Coq Require Import String Ascii ZArith NArith Arith List Bool Lia.
From Verif Require Import Base Flex Items Bison Grammar Cfg Parse GramSim ParseSpec ParseCorrect ParseLang LexGap.
Import ListNotations.
Local Open Scope list_scope.

(** *** C11.  [run_tokens] is the table-driven parser on a token list, [parse_bytes]
    the parser with the scanner on a text, [in_language] derivability in the grammar
    of struct_yacc.y. *)
Theorem C11_accepts_exactly_the_language : forall its fin fuel,
  Forall (fun i => good_token (i_tok i)) its -> (8 * length its + 11 <= fuel)%nat ->
  ((exists o, run_tokens its fin fuel = Some (o, 0%Z)) <-> in_language (map i_tok its)).
Proof. exact tokens_language. Qed.

Theorem C11_text : forall cs its le ee fuel,
  scan_text cs = Some (its, le, ee) -> (8 * length cs + 11 <= fuel)%nat ->
  ((exists o, parse_bytes fuel cs = Some (o, 0%Z)) <-> in_language (map i_tok its)).
Proof. exact text_language. Qed.

Theorem C11_language_is_lists_of_definitions : forall ts, Forall good_token ts ->
  (in_language ts <-> exists ds, wf_file ds /\ ts = file_tokens ds).
Proof. exact language. Qed.

Theorem C11_unambiguous : forall ds ds', Forall wf_def ds -> Forall wf_def ds' ->
  file_tokens ds = file_tokens ds' -> ds = ds'.
Proof. exact file_unique. Qed.

Example C11_case : wf_file sample_file /\
  (match scan_text sample_text with Some (its, _, _) => Some (map i_tok its) | None => None end
   = Some (file_tokens sample_file)) /\
  (match parse_bytes 2000 sample_text with Some (_, rv) => Some rv | None => None end = Some 0%Z).
Proof.
  split; [|split; vm_compute; reflexivity].
  split; [discriminate|]. repeat constructor; discriminate.
Qed.

(** *** C12.  [None] would be an access outside a table or the stack, a semantic value
    of the wrong type, or running out of fuel. *)
Theorem C12_terminates : forall its fin, Forall (fun i => good_token (i_tok i)) its ->
  exists o rv, (rv = 0 \/ rv = 1)%Z /\
    forall fuel, (8 * length its + 11 <= fuel)%nat -> run_tokens its fin fuel = Some (o, rv).
Proof. exact tokens_terminate. Qed.

Theorem C12_text : forall cs, exists o rv, (rv = 0 \/ rv = 1)%Z /\
  forall fuel, (8 * length cs + 11 <= fuel)%nat -> parse_bytes fuel cs = Some (o, rv).
Proof. exact text_terminate. Qed.

Theorem C12_scanner_tokens_are_good : forall fuel lx l its le ee,
  tokenize fuel lx l = Some (its, le, ee) -> Forall (fun i => good_token (i_tok i)) its.
Proof. exact tokenize_good. Qed.

(** *** C13 *)
Theorem C13_recorded_in_order : forall its fin fuel ds,
  (8 * length its + 11 <= fuel)%nat -> wf_file ds -> map i_tok its = file_tokens ds ->
  exists o, run_tokens its fin fuel = Some (o, 0%Z) /\ calls_of o = file_calls ds /\ errs_of o = [] /\
    lexs_of o = concat (map i_evs its) ++ snd fin.
Proof. exact tokens_accept. Qed.

Theorem C13_text : forall cs its le ee fuel ds, scan_text cs = Some (its, le, ee) ->
  (8 * length cs + 11 <= fuel)%nat -> wf_file ds -> map i_tok its = file_tokens ds ->
  exists o, parse_bytes fuel cs = Some (o, 0%Z) /\ calls_of o = file_calls ds /\ errs_of o = [] /\
    lexs_of o = concat (map i_evs its) ++ ee.
Proof. exact text_accept. Qed.

Example C13_case :
  (match parse_bytes 2000 sample_text with Some (o, _) => calls_of o | None => [] end) =
  [CEnum "Color" true; CEnumLine "red" true "0x1"; CEnumLine "green" false "-"; CStruct "Pen";
   CComplex enum_or_struct_E "Color" "c"; CSimple int_E "w" "{3}"; CComplex vector_E "Pen" "more"].
Proof. vm_compute. reflexivity. Qed.

(** *** C14.  [rejection] (ParseSpec.v) says which token is rejected, what has been
    reported and what is printed. *)
Theorem C14_syntax_error : forall its fin fuel o rv,
  Forall (fun i => good_token (i_tok i)) its -> (8 * length its + 11 <= fuel)%nat ->
  run_tokens its fin fuel = Some (o, rv) -> rv <> 0%Z ->
  rv = 1%Z /\ rejection its fin (calls_of o) (errs_of o) (lexs_of o).
Proof. exact tokens_reject. Qed.

Theorem C14_text : forall cs its le ee fuel o rv, scan_text cs = Some (its, le, ee) ->
  (8 * length cs + 11 <= fuel)%nat -> parse_bytes fuel cs = Some (o, rv) -> rv <> 0%Z ->
  rv = 1%Z /\ rejection its (le, ee) (calls_of o) (errs_of o) (lexs_of o).
Proof. exact text_reject. Qed.

(** The entry [b] is recorded although the token after it is wrong. *)
Example C14_case :
  (match parse_bytes 2000 (list_ascii_of_string "struct s { int a; }; enum e { a, b int };") with
   | Some (o, rv) => Some (calls_of o, errs_of o, rv) | None => None end) =
  Some ([CStruct "s"; CSimple int_E "a" "-"; CEnum "e" false; CEnumLine "a" false "-";
         CEnumLine "b" false "-"],
        [("Location 1:36-38, syntax error, unexpected int, expecting }" ++ nl_)%string], 1%Z).
Proof. vm_compute. reflexivity. Qed.

(** *** C15 *)
Theorem C15_no_tokens : forall cs le ee, scan_text cs = Some ([], le, ee) ->
  forall fuel, (8 * length cs + 11 <= fuel)%nat ->
  exists o, parse_bytes fuel cs = Some (o, 1%Z) /\ calls_of o = [] /\
    errs_of o = [error_text le "syntax error, unexpected end of file, expecting enum or struct"].
Proof. exact no_tokens. Qed.

Theorem C15_only_comments_and_blanks : forall cs bol, gap true cs bol ->
  forall fuel, (8 * length cs + 11 <= fuel)%nat ->
  exists o le, parse_bytes fuel cs = Some (o, 1%Z) /\ calls_of o = [] /\
    errs_of o = [error_text le "syntax error, unexpected end of file, expecting enum or struct"].
Proof. exact gap_rejected. Qed.

Example C15_case :
  (match parse_bytes 2000 (list_ascii_of_string ("#include <a.h>" ++ nl_ ++ "/* nothing */ // here" ++ nl_)) with
   | Some (o, rv) => Some (calls_of o, errs_of o, rv) | None => None end) =
  Some ([], [("Location 2:18-3:0, syntax error, unexpected end of file, expecting enum or struct" ++ nl_)%string], 1%Z).
Proof. vm_compute. reflexivity. Qed.

(** *** C53 *)
Theorem C53_expected_tokens_can_follow : forall its fin fuel o rv,
  Forall (fun i => good_token (i_tok i)) its -> (8 * length its + 11 <= fuel)%nat ->
  run_tokens its fin fuel = Some (o, rv) -> rv <> 0%Z ->
  exists its1 l k ex,
    ((exists i its2, its = its1 ++ i :: its2 /\ l = i_loc i /\ k = t_kind (i_tok i)) \/
     (its = its1 /\ l = fst fin /\ k = 0%N)) /\
    errs_of o = [error_text l (complaint k ex)] /\
    forall x, In x ex -> can_follow (map i_tok its1) x.
Proof. exact expected_can_follow. Qed.

Print Assumptions C11_accepts_exactly_the_language.
Print Assumptions C11_text.
Print Assumptions C11_language_is_lists_of_definitions.
Print Assumptions C11_unambiguous.
Print Assumptions C12_terminates.
Print Assumptions C12_text.
Print Assumptions C12_scanner_tokens_are_good.
Print Assumptions C13_recorded_in_order.
Print Assumptions C13_text.
Print Assumptions C14_syntax_error.
Print Assumptions C14_text.
Print Assumptions C15_no_tokens.
Print Assumptions C15_only_comments_and_blanks.
Print Assumptions C53_expected_tokens_can_follow.
