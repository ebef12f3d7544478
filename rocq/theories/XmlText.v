(** XML files as text: what tinyxml2 writes for a document (XMLPrinter, used by
    XMLDocument::SaveFile) and what it makes of the bytes of a file (XMLDocument::LoadFile).
    The generated code calls both (process_items_xml.cpp:106-121, 164-178), and stfx reads its
    configuration with the second one (src/configuration/structs.cpp:31-38, main.cpp:107).
    The library is a submodule that is not part of the repository; this file states what is
    assumed about it, function by function, as it is in the releases 9 to 11.

    Simplifications: no memory or I/O errors; isspace and isalpha are those of the C locale;
    line numbers for error messages are left out.  [Other]: not modelled.  This is the result
    for references to characters by number and for markup like <!DOCTYPE ...> inside of
    elements. *)
From Coq Require Import String Ascii ZArith NArith Arith List Bool Lia.
From Verif Require Import Base Fmt Decimal Cpp Xml Val CppSem.
Import ListNotations.
Local Open Scope string_scope.
Local Open Scope list_scope.

(** *** Entities: the table [entities] *)
Definition entities : list (string * ascii) :=
  [("quot", dquote); ("amp", "&"%char); ("apos", "'"%char); ("lt", "<"%char); ("gt", ">"%char)].

(** *** Writing *)

(** XMLPrinter::PrintString.  [restricted]: text of an element; only three characters are
    replaced.  Bytes above 127 are copied. *)
Definition replaced (restricted : bool) (c : ascii) : bool :=
  if restricted then existsb (Ascii.eqb c) ["&"%char; "<"%char; ">"%char] else existsb (fun e => Ascii.eqb c (snd e)) entities.
Fixpoint entity_of (c : ascii) (l : list (string * ascii)) : string :=
  match l with
  | [] => ""
  | (p, v) :: r => if (v =? c)%char then ("&" ++ p ++ ";")%string else entity_of c r
  end.
Fixpoint print_string (restricted : bool) (s : string) : string :=
  match s with
  | EmptyString => EmptyString
  | String c r => if replaced restricted c then (entity_of c entities ++ print_string restricted r)%string else String c (print_string restricted r)
  end.
(** PushAttribute *)
Fixpoint print_attrs (l : list (string * string)) : string :=
  match l with
  | [] => ""
  | (n, v) :: r => (" " ++ n ++ "=" ++ String dquote (print_string false v ++ String dquote (print_attrs r)))%string
  end.

(** The members of an XMLPrinter: _elementJustOpened, _firstElement, _textDepth ([None]: -1)
    and _depth. *)
Record printer := Printer { p_just : bool; p_first : bool; p_text : option nat; p_depth : nat }.
(** PrintSpace *)
Fixpoint spaces (n : nat) : string := match n with O => "" | S k => ("    " ++ spaces k)%string end.
(** SealElementIfJustOpened *)
Definition seal (p : printer) : string := if p_just p then ">" else "".
(** PrepareForNewNode (not compact) *)
Definition new_line (p : printer) : string :=
  match p_first p, p_text p with
  | true, _ => spaces (p_depth p)
  | false, None => String nl (spaces (p_depth p))
  | false, Some _ => ""
  end.
(** OpenElement *)
Definition open_element (n : string) (p : printer) : string * printer :=
  ((seal p ++ new_line p ++ "<" ++ n)%string, Printer true false (p_text p) (S (p_depth p))).
(** CloseElement *)
Definition close_element (n : string) (p : printer) : string * printer :=
  let d := pred (p_depth p) in
  ((if p_just p then "/>"
    else match p_text p with None => String nl (spaces d) | Some _ => "" end ++ "</" ++ n ++ ">")
   ++ (if (d =? 0)%nat then String nl "" else ""),
   Printer false (p_first p) (match p_text p with Some t => if (t =? d)%nat then None else Some t | None => None end) d)%string.
(** PushText *)
Definition push_text (s : string) (p : printer) : string * printer :=
  ((seal p ++ print_string true s)%string, Printer false (p_first p) (Some (pred (p_depth p))) (p_depth p)).

(** XMLNode::Accept *)
Fixpoint print_node (x : node) (p : printer) : string * printer :=
  match x with
  | Text s => push_text s p
  | Elem n a k =>
      let (s1, p) := open_element n p in
      let (s2, p) :=
        (fix print_kids (l : list node) (p : printer) : string * printer :=
           match l with
           | [] => ("", p)
           | y :: r => let (s, p) := print_node y p in let (t, p) := print_kids r p in ((s ++ t)%string, p)
           end) k p in
      let (s3, p) := close_element n p in
      ((s1 ++ print_attrs a ++ s2 ++ s3)%string, p)
  end.
Fixpoint print_nodes (l : list node) (p : printer) : string * printer :=
  match l with
  | [] => ("", p)
  | y :: r => let (s, p) := print_node y p in let (t, p) := print_nodes r p in ((s ++ t)%string, p)
  end.
(** SaveFile: the bytes of the file.  (No byte order mark: the document was not read from a file.) *)
Definition printed (d : list node) : string := fst (print_nodes d (Printer false true None 0)).

(** *** Reading *)
Inductive got (A : Type) := Got (a : A) | Err | Other.
Arguments Got {A}. Arguments Err {A}. Arguments Other {A}.
Notation "'let!' x ':=' e 'in' k" := (match e with Got x => k | Err => Err | Other => Other end)
  (at level 200, x pattern, e at level 100, k at level 200, right associativity).

Fixpoint drop (n : nat) (s : string) : string :=
  match n, s with O, _ => s | S k, String _ r => drop k r | S _, EmptyString => EmptyString end.
Definition starts (c : ascii) (s : string) : bool := match s with String d _ => (c =? d)%char | EmptyString => false end.

(** StrPair::ParseText: the text before the first [stop], and what follows it. *)
Fixpoint until (stop s : string) : option (string * string) :=
  if prefix stop s then Some ("", drop (String.length stop) s)
  else match s with
       | EmptyString => None
       | String c r => match until stop r with Some (a, b) => Some (String c a, b) | None => None end
       end.

(** The entity after '&' (StrPair::GetStr). *)
Fixpoint find_entity (l : list (string * ascii)) (s : string) : option (nat * ascii) :=
  match l with
  | [] => None
  | (p, v) :: r => if prefix (p ++ ";") s then Some (S (String.length p), v) else find_entity r s
  end.
(** StrPair::GetStr: line ends and entities, replaced in place.  [orig]: the bytes as they
    were, [q]: number of bytes written so far, [skip]: bytes that belong to what was written
    last.  A '&' without entity leaves the byte at the write position as it was. *)
Fixpoint get_str (ents : bool) (orig : string) (q skip : nat) (s : string) : got string :=
  match s with
  | EmptyString => Got EmptyString
  | String c r =>
      match skip with
      | S k => get_str ents orig q k r
      | O =>
          if (c =? cr)%char then let! t := get_str ents orig (S q) (if starts nl r then 1 else 0) r in Got (String nl t)
          else if (c =? nl)%char then let! t := get_str ents orig (S q) (if starts cr r then 1 else 0) r in Got (String nl t)
          else if (ents && (c =? "&")%char)%bool then
            if starts "#" r then Other
            else match find_entity entities r with
                 | Some (n, v) => let! t := get_str ents orig (S q) n r in Got (String v t)
                 | None => match get q orig with
                           | Some d => let! t := get_str ents orig (S q) 0 r in Got (String d t)
                           | None => Other
                           end
                 end
          else let! t := get_str ents orig (S q) 0 r in Got (String c t)
      end
  end.
Definition value_of (ents : bool) (s : string) : got string := get_str ents s 0 0 s.

(** XMLUtil::IsNameStartChar, IsNameChar, StrPair::ParseName *)
Definition name_start (c : ascii) : bool :=
  let n := nat_of_ascii c in
  ((128 <=? n) || (65 <=? n) && (n <=? 90) || (97 <=? n) && (n <=? 122) || (c =? ":")%char || (c =? "_")%char)%nat%bool.
Definition name_char (c : ascii) : bool :=
  let n := nat_of_ascii c in (name_start c || (48 <=? n)%nat && (n <=? 57)%nat || (c =? ".")%char || (c =? "-")%char)%bool.
Fixpoint take_name (s : string) : string * string :=
  match s with
  | String c r => if name_char c then let (a, b) := take_name r in (String c a, b) else (EmptyString, s)
  | EmptyString => (EmptyString, EmptyString)
  end.
Definition parse_name (s : string) : option (string * string) :=
  match s with
  | String c _ => if name_start c then Some (take_name s) else None
  | EmptyString => None
  end.

(** XMLAttribute::ParseDeep *)
Definition parse_attr (s : string) : got (string * string * string) :=
  match parse_name s with
  | None => Err
  | Some (n, s) =>
      match skip_space s with
      | String e s =>
          if (e =? "=")%char then
            match skip_space s with
            | String c s =>
                if ((c =? dquote) || (c =? "'"))%char%bool then
                  match until (String c "") s with
                  | Some (t, s) => let! v := value_of true t in Got (n, v, s)
                  | None => Err
                  end
                else Err
            | EmptyString => Err
            end
          else Err
      | EmptyString => Err
      end
  end.
(** XMLElement::ParseAttributes.  Result: the attributes, whether the tag ends with "/>", and
    what follows. *)
Fixpoint parse_attrs (fuel : nat) (l : list (string * string)) (s : string) : got (list (string * string) * bool * string) :=
  match fuel with
  | O => Other
  | S f =>
      match skip_space s with
      | EmptyString => Err
      | String c r =>
          if name_start c then
            let! (n, v, s) := parse_attr (String c r) in
            match attr n l with Some _ => Err | None => parse_attrs f (l ++ [(n, v)]) s end
          else if (c =? ">")%char then Got (l, false, r)
          else if ((c =? "/")%char && starts ">" r)%bool then Got (l, true, drop 1 r)
          else Err
      end
  end.

(** How the nodes of an element end: at the end of the file, or with an end tag. *)
Inductive ending := AtEnd | Close (n rest : string).
Definition cons_node (x : node) (r : got (list node * ending)) : got (list node * ending) :=
  let! (l, e) := r in Got (x :: l, e).
(** XMLNode::ParseDeep, XMLDocument::Identify and the functions ParseDeep of the kinds of
    nodes.  [room]: how many elements may still be opened, with the one that is being read
    (TINYXML2_MAX_ELEMENT_DEPTH).  [top]: the nodes of the document; [decl]: a declaration may
    follow.  Comments, declarations and <!...> give no node: nothing that the generated code
    calls looks at them. *)
Fixpoint parse_nodes (fuel room : nat) (top decl : bool) (s : string) : got (list node * ending) :=
  match fuel with
  | O => Other
  | S f =>
      let t := skip_space s in
      match t with
      | EmptyString => Got ([], AtEnd)
      | String c r =>
          if prefix "<?" t then
            match until "?>" (drop 2 t) with
            | Some (_, u) => if (top && decl)%bool then parse_nodes f room top decl u else Err
            | None => Err
            end
          else if prefix "<!--" t then
            match until "-->" (drop 4 t) with
            | Some (_, u) => parse_nodes f room top false u
            | None => Err
            end
          else if prefix "<![CDATA[" t then
            match until "]]>" (drop 9 t) with
            | Some (v, u) => let! v := value_of false v in cons_node (Text v) (parse_nodes f room top false u)
            | None => Err
            end
          else if prefix "<!" t then
            match until ">" (drop 2 t) with
            | Some (_, u) => if top then parse_nodes f room top false u else Other
            | None => Err
            end
          else if (c =? "<")%char then
            let u := skip_space r in
            let closing := starts "/" u in
            match parse_name (if closing then drop 1 u else u) with
            | None => Err
            | Some (n, u) =>
                let! (a, sealed, u) := parse_attrs (S (String.length u)) [] u in
                if sealed : bool then cons_node (Elem n a []) (parse_nodes f room top false u)
                else if closing then Got ([], Close n u)
                else match room with
                     | O | S O => Err
                     | S room' =>
                         let! (k, e) := parse_nodes f room' false false u in
                         match e with
                         | Close m u => if String.eqb n m then cons_node (Elem n a k) (parse_nodes f room top false u) else Err
                         | AtEnd => Err
                         end
                     end
            end
          else
            match until "<" s with
            | Some (v, u) =>
                if String.eqb u "" then Err
                else let! v := value_of true v in cons_node (Text v) (parse_nodes f room top false (String "<" u))
            | None => Err
            end
      end
  end.

(** XMLDocument::LoadFile on a file with the bytes [s], and Parse; [limit] is
    TINYXML2_MAX_ELEMENT_DEPTH. *)
Definition bom : string := String (ascii_of_nat 239) (String (ascii_of_nat 187) (String (ascii_of_nat 191) "")).
Definition parse_text (limit : nat) (s : string) : got (list node) :=
  let t := skip_space (cut s) in
  let t := if prefix bom t then drop 3 t else t in
  match t with
  | EmptyString => Err
  | _ => match limit with
         | O | S O => Err
         | S room => let! (l, _) := parse_nodes (S (String.length t)) room true true t in Got l
         end
  end.
