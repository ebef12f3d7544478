(** Line ends: the parser makes the same calls for a text with CR LF and for the text with LF. *)
From Coq Require Import String Ascii ZArith NArith Arith List Bool Lia.
From Verif Require Import Base Flex Items Decimal Bison Grammar LR LRSim Parse ParseCorrect LineEnds.
Import ListNotations.

(** The same errors; an error at the end of the file may name another begin position of the
    end (but the same end position). *)
Definition same_errs (e e' : list string) : Prop :=
  e = e' \/ exists l l' ex, l_end l = l_end l' /\ e = [error_text l (msg 0%Z ex)] /\ e' = [error_text l' (msg 0%Z ex)].
Lemma tparse_sim its its' : Forall2 same_item its its' -> forall p d le ee le' ee', l_end le = l_end le' -> shown ee = shown ee' ->
  let '(c, e, ev, rv) := tparse p d its (le, ee) in let '(c', e', ev', rv') := tparse p d its' (le', ee') in
  c = c' /\ same_errs e e' /\ shown ev = shown ev' /\ rv = rv'.
Proof.
  induction 1 as [|i i' its its' (T & K & V) S IH]; intros p d le ee le' ee' E Q.
  - cbn [tparse fst snd]. destruct p; try (destruct d; [|cbn; repeat split; auto; now left]);
      (split; [reflexivity|]; split; [right; do 3 eexists; split; [exact E|]; split; reflexivity|]; split; [exact Q|reflexivity]).
  - cbn [tparse]. rewrite <- T. destruct (delta p (i_tok i)) as [[[p' ds] cs]|]; [|rewrite K; repeat split; auto; now left].
    specialize (IH p' (length ds + d)%nat le ee le' ee' E Q). destruct (tparse p' _ its _) as [[[c e] ev] rv]. destruct (tparse p' _ its' _) as [[[c' e'] ev'] rv'].
    destruct IH as (-> & A & B & ->). repeat split; auto. now rewrite !shown_app, V, B.
Qed.
(** Texts that differ only in their line ends. *)
Theorem parse_line_ends cs cs' : lines_of cs = lines_of cs' ->
  exists o o' rv, (forall fuel, (8 * length cs + 11 <= fuel)%nat -> parse_bytes fuel cs = Some (o, rv)) /\
    (forall fuel, (8 * length cs' + 11 <= fuel)%nat -> parse_bytes fuel cs' = Some (o', rv)) /\
    calls_of o = calls_of o' /\ same_errs (errs_of o) (errs_of o') /\ shown (lexs_of o) = shown (lexs_of o').
Proof.
  intros U. destruct (scan_line_ends cs cs' U) as (its & le & ee & its' & le' & ee' & S & S' & F & L & Q).
  destruct (tokenize_yields _ _ _ _ _ _ S) as [Y LN]. destruct (tokenize_yields _ _ _ _ _ _ S') as [Y' LN'].
  pose proof (run_total _ _ _ _ _ (tokenize_good _ _ _ _ _ _ S) Y) as R. pose proof (run_total _ _ _ _ _ (tokenize_good _ _ _ _ _ _ S') Y') as R'.
  pose proof (tparse_sim its its' F PTop 0 le ee le' ee' L Q) as T.
  destruct (tparse PTop 0 its _) as [[[c e] ev] rv]. destruct (tparse PTop 0 its' _) as [[[c' e'] ev'] rv'].
  destruct T as (-> & A & B & ->). destruct R as (o & R & <- & <- & <-). destruct R' as (o' & R' & C' & <- & <-).
  exists o, o', rv'. split; [intros; apply R; lia|]. split; [intros; apply R'; lia|]. repeat split; auto.
Qed.
