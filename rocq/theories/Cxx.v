(** How a C++ compiler reads the text of a header, as far as the headers can be input of
    stfx: lex.phases, lex.comment, lex.pptoken, lex.name, lex.icon, lex.fcon, lex.ccon,
    lex.string.  Independent of the scanner; only the numbers of the token kinds
    (Parser.hpp:431-465) are shared.  [None]: not C++, or C++ beyond this file (other
    operators, suffixes, digit separators, escapes in character constants, raw strings and
    encoding prefixes, conditional compilation and macros, lines continued by \, names
    qualified twice or with blanks around ::). *)
From Coq Require Import String Ascii NArith Arith List Bool Lia.
From Verif Require Import Base Regex LexRules Flex LexProps LexBlank LexMore LexGap Items Bison Grammar Layout.
Import ListNotations.
Local Open Scope N_scope.

(** A token of the grammar, or a sign before a number. *)
Inductive ctok := CT (t : token) | CSign (c : ascii).

Fixpoint span (p : ascii -> bool) (cs : bytes) : bytes * bytes :=
  match cs with
  | [] => ([], [])
  | c :: r => if p c then let '(x, y) := span p r in (c :: x, y) else ([], cs)
  end.
(** Behind the next line end, behind the next end of a comment. *)
Fixpoint after_line (cs : bytes) : bytes :=
  match cs with [] => [] | c :: r => if is 10 c then r else after_line r end.
Fixpoint after_block (cs : bytes) : option bytes :=
  match cs with [] => None | c :: r => if is 42 c && starts (is 47) r then Some (tl r) else after_block r end.
(** The rest of a string literal, and the text behind it. *)
Fixpoint str_end (cs : bytes) : option (bytes * bytes) :=
  match cs with
  | [] => None
  | c :: r =>
      if is 34 c then Some ([], r)
      else if is 10 c then None
      else if is 92 c then
        match r with
        | d :: r' => if is 10 d then None else let? (x, y) := str_end r' in Some (c :: d :: x, y)
        | [] => None
        end
      else let? (x, y) := str_end r in Some (c :: x, y)
  end.
Definition str := string_of_list_ascii.
(** #include and #pragma; the text behind # *)
Definition directive (cs : bytes) : bool :=
  let w := str (fst (span ident_char (snd (span blank cs)))) in
  String.eqb w "include" || String.eqb w "pragma".
(** pp-number without signs and separators *)
Definition pp_char (c : ascii) : bool := ident_char c || is 46 c.
Definition exponent (c : ascii) : bool := is 101 c || is 69 c || is 112 c || is 80 c.
Definition sign (c : ascii) : bool := is 45 c || is 43 c.
Definition number_token (w : bytes) : option token :=
  let '(d, r) := span digit w in
  match r with
  | [] => Some (Tok 26 (Some (str w)))
  | c :: r' =>
      if is 46 c then
        let '(e, s) := span digit r' in
        match e, s with
        | _ :: _, [] => Some (Tok 28 (Some (str w)))
        | _ :: _, [f] => if is 102 f then Some (Tok 28 (Some (str w))) else None
        | _, _ => None
        end
      else if is 120 c && String.eqb (str d) "0" && negb (match r' with [] => true | _ => false end) && forallb hexdigit r'
      then Some (Tok 27 (Some (str w)))
      else None
  end.

(** The first thing in a text that begins with [c]; [bol]: only blanks before it on its line. *)
Definition cxx_step (bol : bool) (c : ascii) (r : bytes) : option (option ctok * bool * bytes) :=
  if blank c then Some (None, bol, r)
  else if is 10 c then Some (None, true, r)
  else if is 13 c then if starts (is 10) r then Some (None, true, tl r) else None
  else if is 47 c then
    if starts (is 47) r then Some (None, true, after_line r)
    else if starts (is 42) r then let? r' := after_block (tl r) in Some (None, false, r')
    else None
  else if is 35 c then if bol && directive r then Some (None, true, after_line r) else None
  else if ident_start c then
    let '(w, r1) := span ident_char r in
    match r1 with
    | ":"%char :: d :: e :: r2 =>
        if is 58 d && ident_start e then
          let '(w2, r3) := span ident_char r2 in
          if starts (is 58) r3 || starts (is 34) r3 || starts (is 39) r3 then None
          else Some (Some (CT (qual_token ((c :: w) ++ CC ++ e :: w2))), false, r3)
        else None
    | _ =>
        if starts (is 58) r1 || starts (is 34) r1 || starts (is 39) r1 then None
        else Some (Some (CT (word_token (c :: w))), false, r1)
    end
  else if digit c then
    let '(w, r1) := span pp_char r in
    if starts (is 39) r1 || exponent (last (c :: w) c) && starts sign r1 then None
    else let? t := number_token (c :: w) in Some (Some (CT t), false, r1)
  else if is 34 c then
    let? (x, r1) := str_end r in
    if starts ident_start r1 then None else Some (Some (CT (Tok 29 (Some (str (c :: x ++ [c]))))), false, r1)
  else if is 39 c then
    match r with
    | d :: e :: r1 =>
        if is 39 e && negb (is 39 d || is 92 d || is 10 d) && negb (starts ident_start r1)
        then Some (Some (CT (Tok 30 (Some (str [c; d; e])))), false, r1) else None
    | _ => None
    end
  else if sign c then if starts sign r || starts (is 61) r || starts (is 62) r then None else Some (Some (CSign c), false, r)
  else if punct c then
    let angle d := is 60 d || is 61 d || is 62 d in
    if angle c && starts angle r then None else Some (Some (CT (punct_token c)), false, r)
  else None.
Fixpoint cxx_lex (fuel : nat) (bol : bool) (cs : bytes) : option (list ctok) :=
  match cs, fuel with
  | [], _ => Some []
  | c :: r, S f =>
      let? (o, b, r') := cxx_step bol c r in
      let? l := cxx_lex f b r' in
      Some match o with Some t => t :: l | None => l end
  | _ :: _, O => None
  end.
(** A line continued by \. *)
Fixpoint spliced (cs : bytes) : bool :=
  match cs with
  | [] => false
  | c :: r => is 92 c && (starts (is 10) r || starts (is 13) r) || spliced r
  end.
Definition cxx_tokens (cs : bytes) : option (list ctok) := if spliced cs then None else cxx_lex (length cs) true cs.

(** A sign belongs to the number or character behind it. *)
Definition signable (t : token) : bool := (t_kind t =? 26) || (t_kind t =? 27) || (t_kind t =? 28) || (t_kind t =? 30).
Definition signed (c : ascii) (t : token) : token := Tok (t_kind t) (option_map (String c) (t_val t)).
Fixpoint merge (l : list ctok) : option (list token) :=
  match l with
  | [] => Some []
  | CT t :: r => let? ts := merge r in Some (t :: ts)
  | CSign c :: CT t :: r => if signable t then let? ts := merge r in Some (signed c t :: ts) else None
  | CSign _ :: _ => None
  end.
(** The compiler reads the text as these definitions (with signs in their constants). *)
Definition cxx_header (cs : bytes) (ds : list def) : Prop :=
  wf_file ds /\ exists l, cxx_tokens cs = Some l /\ merge l = Some (file_tokens ds).

(** The definitions without the signs. *)
Definition strip (s : string) : string :=
  match s with String c r => if sign c then r else s | EmptyString => s end.
Definition strip_const (c : constant) : constant :=
  match c with CInt s => CInt (strip s) | CHex s => CHex (strip s) | CChar s => CChar (strip s) end.
Definition strip_value (v : dvalue) : dvalue :=
  match v with DInt s => DInt (strip s) | DFlt s => DFlt (strip s) | DChar s => DChar (strip s) | _ => v end.
Definition strip_dflt (d : dflt_spec) : dflt_spec := match d with Default v => Default (strip_value v) | _ => d end.
Definition strip_member (m : member) : member :=
  match m with MSimple t n d => MSimple t n (strip_dflt d) | MUser t n d => MUser t n (strip_dflt d) | MVector _ _ => m end.
Definition strip_entry (e : entry) : entry := Entry (en_name e) (option_map strip_const (en_val e)).
Definition strip_def (d : def) : def :=
  match d with DefEnum c n es t => DefEnum c n (map strip_entry es) t | DefStruct n ms => DefStruct n (map strip_member ms) end.
Definition unsigned (ds : list def) : list def := map strip_def ds.

(** What the scanner needs beyond C++: a line end behind every // and #, and no line with more
    than two double quotes. *)
Definition has_nl (cs : bytes) : bool := existsb (is 10) cs.
Fixpoint lines_ended (cs : bytes) : bool :=
  match cs with
  | [] => true
  | c :: r => (negb (is 35 c || is 47 c && starts (is 47) r) || has_nl r) && lines_ended r
  end.
Fixpoint line_quotes (cs : bytes) : nat :=
  match cs with [] => 0 | c :: r => if is 10 c then 0 else (if is 34 c then 1 else 0) + line_quotes r end.
Fixpoint two_quotes (cs : bytes) : bool :=
  match cs with [] => true | _ :: r => (line_quotes cs <=? 2)%nat && two_quotes r end.
(** A text that the compiler reads as [ds], and that the scanner can deal with. *)
Definition readable (cs : bytes) (ds : list def) : Prop := cxx_header cs ds /\ lines_ended cs = true /\ two_quotes cs = true.
