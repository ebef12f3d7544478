(** Property theorems about the input buffer of the scanner: C82.  Every proof is an
    application of a lemma proved elsewhere. *)
From Coq Require Import String Ascii ZArith NArith Arith List Bool Lia.
From Verif Require Import Base Regex LexRules FlexTables Flex LexCorrect LexWhole LexLoc LexGap Buffer BufferScan.
Import ListNotations.
Local Open Scope nat_scope.

(** Texts of less than 1 GiB. *)
Definition below_limit (cs : bytes) : Prop := (Z.of_nat (length cs) < 1073741823)%Z.
Lemma limit_int cs : below_limit cs -> in_int (2 * (length cs + 1)) = true.
Proof. unfold below_limit, in_int. intros L. apply Z.leb_le. lia. Qed.

(** *** C82: for every size of the first buffer, in particular the two of the code *)
Theorem C82_buffer_invisible : forall size cs, 1 <= size -> below_limit cs ->
  exists f0, forall f, f0 <= f -> scan_stream size f cs = scan_text cs.
Proof. intros size cs P L. apply stream_scanned; [exact P|apply limit_int; exact L]. Qed.

(** No access outside of the buffer or to bytes that were not written, no overflow of an
    int, no fatal error, and the scanner ends. *)
Theorem C82_memory_safe : forall size cs, 1 <= size -> below_limit cs ->
  exists f0 r, forall f, f0 <= f -> scan_stream size f cs = Some r.
Proof.
  intros size cs P L. destruct (C82_buffer_invisible size cs P L) as [f0 H]. destruct (scan_text cs) as [r|] eqn:T; [|exfalso; exact (scan_text_defined cs T)].
  exists f0, r. exact H.
Qed.

(** The tokens are those of the lexical rules. *)
Theorem C82_tokens : forall size cs, 1 <= size -> below_limit cs -> exists f0 its le ee ls,
  (forall f, f0 <= f -> scan_stream size f cs = Some (its, le, ee)) /\ lexes INITIAL true cs ls /\ concat (map snd ls) = cs /\
  map (fun i => tok_view (i_tok i)) its = spec_tokens ls.
Proof.
  intros size cs P L. destruct (C82_buffer_invisible size cs P L) as [f0 H]. destruct (scan_text_tokens cs) as (its & le & ee & ls & E & LX & M).
  exists f0, its, le, ee, ls. split; [intros f LE; rewrite H by exact LE; exact E|]. split; [exact LX|]. split; [exact (lexes_concat _ _ _ _ LX)|exact M].
Qed.

(** A text with a NUL whose lexemes are longer than the buffer, read in a buffer of two bytes. *)
Example C82_case : let cs := list_ascii_of_string ("enum en_u_m { a" ++ String "000" "b }; // x" ++ String "010" "struct _long_name")%string in
  below_limit cs /\ 2 < length cs /\ scan_stream 2 2000 cs = scan_text cs /\ scan_text cs <> None.
Proof. split; [vm_compute; reflexivity|]. split; [vm_compute; lia|]. vm_compute. split; [reflexivity|discriminate]. Qed.

Print Assumptions C82_buffer_invisible.
Print Assumptions C82_memory_safe.
Print Assumptions C82_tokens.
