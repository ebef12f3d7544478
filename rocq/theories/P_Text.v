(** Property theorems about the texts of input files: C78-C80, C85. *)
From Coq Require Import String Ascii ZArith NArith Arith List Bool Lia.
From Verif Require Import Base Map Flex LexRules LexCorrect LexStep LexProps LexMore LexGap Items Bison Grammar ParseLang Store Resolve StoreProps StoreDefs
  Fmt Decimal Templates MainTemplates Emit Cpp SymLex Ast Val Prog Header Link Main MainProps RunProps Pipeline P_Main Layout Lexable LineEnds LineParse Depend.
Import ListNotations.
Local Open Scope string_scope.
Local Open Scope list_scope.

(** *** C78.  [spelling w t follow]: [w] is a way to write the token [t], as long as the text
    behind it satisfies [follow]; [layout]: spellings with any blanks, line ends, comments
    and preprocessor lines before, between and behind them. *)
Theorem C78_one_token : forall w t follow bol rest, spelling w t follow -> follow rest ->
  tokens_from INITIAL bol (w ++ rest) = prepend [t] (tokens_from INITIAL false rest).
Proof. intros. eapply spelled; eauto. Qed.
Theorem C78_tokens : forall bol ts cs, layout bol ts cs -> tokens_from INITIAL bol cs = Some ts.
Proof. exact layout_tokens. Qed.
Theorem C78_layout : forall ds cs, wf_file ds -> layout true (file_tokens ds) cs -> text_of cs ds.
Proof. exact layout_text. Qed.
Print Assumptions C78_one_token.
Print Assumptions C78_tokens.
Print Assumptions C78_layout.
Definition one_member : list def := [DefStruct "t" [MSimple float_E "a" (Default (DFlt "1.5f"))]].
Definition one_layout : string :=
  "#pragma once" ++ String "010" ("struct/* a" ++ String "010" ("*/t{ // t" ++ String "010" ("  float a{1.5f};}" ++ String "009" ";"))).
Example C78_case : wf_file one_member /\ layout true (file_tokens one_member) (list_ascii_of_string one_layout) /\
  text_of (list_ascii_of_string one_layout) one_member.
Proof.
  assert (W : wf_file one_member) by (split; [discriminate|repeat constructor; discriminate]). split; [exact W|].
  assert (L : layout true (file_tokens one_member) (list_ascii_of_string one_layout)).
  { assert (Wd : forall s, identifier (list_ascii_of_string s) ->
        spelling (list_ascii_of_string s) (word_token (list_ascii_of_string s)) ends_word) by (intros; now constructor).
    apply (ly_cons true (list_ascii_of_string "#pragma once" ++ ["010"%char]) true (list_ascii_of_string "struct") _ ends_word).
    { apply (gap_hash [] (list_ascii_of_string "pragma once") [] true); [reflexivity|reflexivity|constructor]. }
    { exact (Wd "struct" (conj eq_refl eq_refl)). } { split; [reflexivity|intros d r X; discriminate X]. }
    apply (ly_cons false (list_ascii_of_string ("/* a" ++ String "010" "*/")) false (list_ascii_of_string "t") _ ends_word).
    { apply (gap_block false (list_ascii_of_string (" a" ++ String "010" "")) [] false); [reflexivity|constructor]. }
    { exact (Wd "t" (conj eq_refl eq_refl)). } { split; [reflexivity|intros d r X; discriminate X]. }
    apply (ly_cons false [] false ["{"%char] _ (fun _ => True)); [constructor|exact (sp_punct "{"%char eq_refl)|exact I|].
    apply (ly_cons false (list_ascii_of_string (" // t" ++ String "010" "  ")) true (list_ascii_of_string "float") _ ends_word).
    { apply gap_blank; [reflexivity|]. apply (gap_line false (list_ascii_of_string " t")); [reflexivity|]. apply gap_blank; [reflexivity|]. apply gap_blank; [reflexivity|constructor]. }
    { exact (Wd "float" (conj eq_refl eq_refl)). } { split; [reflexivity|intros d r X; discriminate X]. }
    apply (ly_cons false [" "%char] false (list_ascii_of_string "a") _ ends_word).
    { apply gap_blank; [reflexivity|constructor]. }
    { exact (Wd "a" (conj eq_refl eq_refl)). } { split; [reflexivity|intros d r X; discriminate X]. }
    apply (ly_cons false [] false ["{"%char] _ (fun _ => True)); [constructor|exact (sp_punct "{"%char eq_refl)|exact I|].
    apply (ly_cons false [] false (list_ascii_of_string "1.5f") _ (fun _ => True)).
    { constructor. }
    { apply (sp_float_f ["1"%char] "."%char ["5"%char]); try discriminate; reflexivity. } { exact I. }
    apply (ly_cons false [] false ["}"%char] _ (fun _ => True)); [constructor|exact (sp_punct "}"%char eq_refl)|exact I|].
    apply (ly_cons false [] false [";"%char] _ (fun _ => True)); [constructor|exact (sp_punct ";"%char eq_refl)|exact I|].
    apply (ly_cons false [] false ["}"%char] _ (fun _ => True)); [constructor|exact (sp_punct "}"%char eq_refl)|exact I|].
    apply (ly_cons false ["009"%char] false [";"%char] _ (fun _ => True)); [apply gap_blank; [reflexivity|constructor]|exact (sp_punct ";"%char eq_refl)|exact I|].
    apply ly_nil with false. constructor. }
  split; [exact L|]. now apply layout_text.
Qed.

(** *** C79.  [writable]: the texts of each kind of token, without reference to the scanner. *)
Theorem C79_scanned : forall cs its le ee, scan_text cs = Some (its, le, ee) -> Forall writable (map i_tok its).
Proof.
  intros cs its le ee H. apply (scanned_writable INITIAL true cs). unfold tokens_from. unfold scan_text, lexer0 in H.
  change (start_of INITIAL) with 1%N. now rewrite H.
Qed.
Theorem C79_text_exists : forall ds, (exists cs, text_of cs ds) <-> wf_file ds /\ Forall writable (file_tokens ds).
Proof. exact text_exists. Qed.
Theorem C79_printed : forall ds, wf_file ds -> Forall writable (file_tokens ds) -> text_of (print (file_tokens ds)) ds.
Proof. exact print_text. Qed.
Theorem C79_printed_to_program : forall E argv0 a rest p ds, usual_sep E -> plain (e_stamp E) = true ->
  e_exists E a = true -> e_canonical E a = Some p -> extension E p <> ".stfx" -> plain (file_name E p) = true ->
  wf_file ds -> Forall writable (file_tokens ds) -> e_disk E p = Some (print (file_tokens ds)) -> header_ok "xml_reader_C" "xml_writer_C" ds = true ->
  (forall q, In q (four E (parent E p) single_spec) -> e_write E q = true) ->
  exists w, stfx E argv0 (a :: rest) = Go 0%Z w /\ has_program E B_xml_attrib ds [file_name E p] (parent E p) single_spec w.
Proof. intros. eapply C54_header_to_program; eauto using print_text. Qed.
Print Assumptions C79_scanned.
Print Assumptions C79_text_exists.
Print Assumptions C79_printed.
Print Assumptions C79_printed_to_program.
(** A name that is a keyword, and a number that is no number, cannot be written. *)
Example C79_case : wf_file one_member /\ Forall writable (file_tokens one_member) /\
  string_of_list_ascii (print (file_tokens one_member)) = String.concat (String "010" "") ["struct"; "t"; "{"; "float"; "a"; "{"; "1.5f"; "}"; ";"; "}"; ";"; ""] /\
  (~ exists cs, text_of cs [DefStruct "int" [MSimple int_E "a" NoDefault]]) /\
  (~ exists cs, text_of cs [DefStruct "t" [MSimple int_E "a" (Default (DInt "-1"))]]).
Proof.
  pose proof C78_case as (W & _ & T). split; [exact W|]. split; [exact (proj2 (text_writable _ _ T))|]. split; [vm_compute; reflexivity|].
  split; intros X; apply text_exists in X as [_ F]; rewrite Forall_forall in F.
  - specialize (F (tk_name "int") ltac:(cbn; auto)). cbn in F.
    destruct F as [(_ & _ & N)|[(K & _)|[(K & _)|[(K & _)|[(K & _)|[(K & _)|(K & _)]]]]]]; try discriminate K. apply N. auto 12.
  - specialize (F (tk_value "-1") ltac:(cbn; auto 12)). cbn in F.
    destruct F as [(K & _)|[(K & _)|[(_ & _ & D)|[(K & _)|[(K & _)|[(K & _)|(K & _)]]]]]]; try discriminate K. discriminate D.
Qed.

(** *** C80.  [with_disk E d]: the same environment with other files on the disk;
    [same_inputs]: the configuration file is the same, and the input files that the command
    line or the configuration file name are the same ([Exact]), have the same definitions ([Layout]) or differ only in their line
    ends ([Line_ends], C85). *)
Theorem C80_layout_free : forall E d argv0 args,
  (forall a rest p, args = a :: rest -> e_canonical E a = Some p -> same_inputs Layout E d p) ->
  same_run Layout (stfx E argv0 args) (stfx (with_disk E d) argv0 args).
Proof. intros. now apply stfx_same. Qed.
Theorem C80_other_files : forall E d argv0 args,
  (forall a rest p, args = a :: rest -> e_canonical E a = Some p -> same_inputs Exact E d p) ->
  stfx (with_disk E d) argv0 args = stfx E argv0 args.
Proof. intros. symmetry. apply same_run_strict. now apply stfx_same. Qed.
Print Assumptions C80_layout_free.
Print Assumptions C80_other_files.
Example C80_case : let E := demo [("/d/a.h", string_of_list_ascii (print (file_tokens one_member)))] [] CFail in
  let d p := if String.eqb p "/d/a.h" then Some (list_ascii_of_string one_layout) else Some [] in
  (forall a rest p, ["/d/a.h"] = a :: rest -> e_canonical E a = Some p -> same_inputs Layout E d p) /\
  e_disk E "/d/a.h" <> d "/d/a.h" /\
  files_of (stfx E "stfx" ["/d/a.h"]) = ["/d/enums.cpp"; "/d/enums.h"; "/d/structs.cpp"; "/d/structs.h"].
Proof.
  pose proof C78_case as (W & _ & T). split; [|split; [vm_compute; discriminate|vm_compute; reflexivity]].
  intros a rest p [= <- <-] [= <-]. unfold same_inputs.
  match goal with |- if ?b then _ else _ => replace b with false by (vm_compute; reflexivity) end.
  right. exists (print (file_tokens one_member)), (list_ascii_of_string one_layout), one_member.
  split; [vm_compute; reflexivity|]. split; [reflexivity|]. split; [|exact T].
  apply print_text; [exact W|exact (proj2 (text_writable _ _ T))].
Qed.

(** *** C85.  Line ends.  [lines_of]: the text without the CRs that stand directly before a LF.
    [same_item]: the same token at the same place, and the same printed events when CRs are left
    out of their texts. *)
Theorem C85_tokens : forall cs cs', lines_of cs = lines_of cs' -> exists its le ee its' le' ee',
  scan_text cs = Some (its, le, ee) /\ scan_text cs' = Some (its', le', ee') /\
  Forall2 same_item its its' /\ l_end le = l_end le' /\ shown ee = shown ee'.
Proof. exact scan_line_ends. Qed.
Theorem C85_parse : forall cs cs', lines_of cs = lines_of cs' -> exists o o' rv,
  (forall fuel, 8 * length cs + 11 <= fuel -> parse_bytes fuel cs = Some (o, rv)) /\
  (forall fuel, 8 * length cs' + 11 <= fuel -> parse_bytes fuel cs' = Some (o', rv)) /\
  calls_of o = calls_of o' /\ same_errs (errs_of o) (errs_of o') /\ shown (Parse.lexs_of o) = shown (Parse.lexs_of o').
Proof. exact parse_line_ends. Qed.
Theorem C85_definitions : forall cs cs' ds, lines_of cs = lines_of cs' -> text_of cs ds -> text_of cs' ds.
Proof.
  intros cs cs' ds U (its & le & ee & S & W & T). destruct (scan_line_ends cs cs' U) as (i & l & e & i' & l' & e' & S1 & S' & F & _).
  rewrite S in S1. injection S1 as <- <- <-. exists i', l', e'. split; [exact S'|]. split; [exact W|]. rewrite <- T. symmetry.
  clear - F. induction F as [|a b x y (A & _) F IH]; [reflexivity|]. cbn. now rewrite A, IH.
Qed.
Theorem C85_run : forall E d argv0 args,
  (forall a rest p, args = a :: rest -> e_canonical E a = Some p -> same_inputs Line_ends E d p) ->
  same_run Line_ends (stfx E argv0 args) (stfx (with_disk E d) argv0 args).
Proof. intros. now apply stfx_same. Qed.
Print Assumptions C85_tokens.
Print Assumptions C85_parse.
Print Assumptions C85_definitions.
Print Assumptions C85_run.
Definition eol (dos : bool) : string := if dos then String "013" (String "010" "") else String "010" "".
Definition some_lines (dos : bool) : string :=
  "// one" ++ eol dos ++ "enum e /* two" ++ eol dos ++ "three */ { a, b };" ++ eol dos ++ "struct t { int v{1}; };" ++ eol dos.
Example C85_case : let E := demo [("/d/a.h", some_lines false)] [] CFail in
  let d p := if String.eqb p "/d/a.h" then Some (list_ascii_of_string (some_lines true)) else Some [] in
  (forall a rest p, ["/d/a.h"] = a :: rest -> e_canonical E a = Some p -> same_inputs Line_ends E d p) /\
  e_disk E "/d/a.h" <> d "/d/a.h" /\
  files_of (stfx (with_disk E d) "stfx" ["/d/a.h"]) = ["/d/enums.cpp"; "/d/enums.h"; "/d/structs.cpp"; "/d/structs.h"].
Proof.
  split; [|split; [vm_compute; discriminate|vm_compute; reflexivity]].
  intros a rest p [= <- <-] [= <-]. unfold same_inputs.
  match goal with |- if ?b then _ else _ => replace b with false by (vm_compute; reflexivity) end.
  right. exists (list_ascii_of_string (some_lines false)), (list_ascii_of_string (some_lines true)).
  split; [vm_compute; reflexivity|]. split; [reflexivity|]. vm_compute. reflexivity.
Qed.
(** A syntax error at the end of the file after a comment line: the message names another
    column of the line before. *)
Example C85_column_refuted : exists cs cs', lines_of cs = lines_of cs' /\ exists o o' rv,
  parse_bytes 999 cs = Some (o, rv) /\ parse_bytes 999 cs' = Some (o', rv) /\ errs_of o <> errs_of o' /\
  errs_of o = [("Location 1:10-2:0, syntax error, unexpected end of file, expecting class or NAME" ++ eol false)%string] /\
  errs_of o' = [("Location 1:11-2:0, syntax error, unexpected end of file, expecting class or NAME" ++ eol false)%string].
Proof.
  exists (list_ascii_of_string ("enum // c" ++ eol false)%string), (list_ascii_of_string ("enum // c" ++ eol true)%string). split; [vm_compute; reflexivity|].
  do 3 eexists. split; [vm_compute; reflexivity|]. split; [vm_compute; reflexivity|]. split; [vm_compute; discriminate|]. split; vm_compute; reflexivity.
Qed.
