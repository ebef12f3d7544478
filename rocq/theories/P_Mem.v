(** Property theorems about the memory of the parser: C83.  Every proof is an application of
    a lemma proved elsewhere. *)
From Coq Require Import String Ascii ZArith NArith Arith List Bool Lia.
From Verif Require Import Base Flex Items Bison ParseLang Buffer ParserMem Front P_Buffer.
Import ListNotations.
Local Open Scope nat_scope.

(** *** C83: [mparse_bytes] is defined only if every object is built in an empty buffer, used
    and destroyed as what it was built as, and gone when parse returns.  [full] says at which
    pushes the array of the stack is reallocated. *)
Theorem C83_values_safe : forall full cs, exists r, forall fuel, 8 * length cs + 11 <= fuel ->
  mparse_bytes full fuel cs = Some r.
Proof.
  intros full cs. destruct (text_terminate cs) as (o & rv & _ & H). exists (o, rv). intros fuel LE. apply mem_parse. exact (H fuel LE).
Qed.

(** What is built, moved and destroyed has no influence on what the parser does. *)
Theorem C83_memory_invisible : forall full fuel cs, 8 * length cs + 11 <= fuel ->
  mparse_bytes full fuel cs = parse_bytes fuel cs.
Proof.
  intros full fuel cs LE. destruct (text_terminate cs) as (o & rv & _ & H). rewrite (H fuel LE). apply mem_parse. exact (H fuel LE).
Qed.

(** The same for the parser that calls the scanner with its buffer, of any first size. *)
Theorem C83_front_end : forall size full cs, 1 <= size -> below_limit cs ->
  exists f r, forall steps fuel, f <= steps -> 8 * length cs + 11 <= fuel ->
    mparse_stream size full steps fuel cs = Some r /\ parse_bytes fuel cs = Some r.
Proof.
  intros size full cs P L. destruct (text_terminate cs) as (o & rv & _ & H).
  destruct (stream_parse size full (8 * length cs + 11) cs (o, rv) P (limit_int cs L) (H _ (le_n _))) as [f S]. exists f, (o, rv). auto.
Qed.

(** An accepted text, and one that has to be given up in the middle, with values on the stack
    and in the lookahead; the array is reallocated at every third push. *)
Definition every_third (n : nat) : bool := n mod 3 =? 0.
Example C83_case :
  let a := list_ascii_of_string "enum e { a, b = 3 }; struct s { e x{e::a}; std::vector<e> v; int y{4}; };" in
  let b := list_ascii_of_string "struct s { unsigned int x{4}; std::vector<t> ""v""; };" in
  (exists o, mparse_bytes every_third 999 a = Some (o, 0%Z) /\ mparse_stream 3 every_third 2000 999 a = Some (o, 0%Z)) /\
  (exists o, mparse_bytes every_third 999 b = Some (o, 1%Z) /\ mparse_stream 3 every_third 2000 999 b = Some (o, 1%Z)).
Proof. split; (eexists; split; vm_compute; reflexivity). Qed.

(** Without the moves being right the model notices: a lookahead with a string that is
    treated as one without a value leaks. *)
Example C83_leak : drop_sym (Sym (Some 3%Z) (OStr "x")) = false /\ drop_sym (Sym (Some 24%Z) (OStr "x")) = true.
Proof. split; reflexivity. Qed.

Print Assumptions C83_values_safe.
Print Assumptions C83_memory_invisible.
Print Assumptions C83_front_end.
