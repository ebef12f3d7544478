(** Strings of several lines that the n_ini back end can read back from what it writes: a
    newline, and then lines that begin with a space. *)
From Coq Require Import String Ascii ZArith NArith Arith List Bool Lia.
From Verif Require Import Base Map Items Grammar Fmt Decimal Emit Cpp Xml Val Rx CppSem SymLex StoreDefs ResolveProps Prog Header EnumSem DecText XmlSpec XmlRead IniSpec IniWrite IniScan.
Import ListNotations.
Local Open Scope string_scope.
Local Open Scope list_scope.

(** *** Specification *)
(** Neither a line's end, nor the end of a string of C, nor the start of a comment. *)
Definition in_line_chr (c : ascii) : bool := negb ((c =? ascii_of_nat 0) || (c =? nl) || (c =? "%"))%char.
Definition within (s : string) : bool := all_chars in_line_chr s.
(** Lines that begin with a space.  One that is longer than fgets reads at once must have
    a space at each place where fgets goes on. *)
Inductive block : string -> Prop :=
| bl_none : block ""
| bl_line b r : within b = true -> String.length b <= 77 -> block r -> block (" " ++ b ++ NL ++ r)
| bl_full b r : within b = true -> String.length b = 78 -> block r -> block (" " ++ b ++ r).
Definition several_lines (n s : string) : Prop := String.length n <= 77 /\ exists r, s = (NL ++ r)%string /\ block r.

(** *** Scanning *)
Lemma in_line_facts c : in_line_chr c = true -> (c =? ascii_of_nat 0)%char = false /\ (c =? nl)%char = false /\ (c =? "%")%char = false.
Proof. unfold in_line_chr. intros H. apply negb_true_iff, orb_false_iff in H as [H A]. apply orb_false_iff in H as [B C]. auto. Qed.
Lemma chunks_nl l : forall room a r, within l = true -> String.length l < room -> chunks room a (l ++ NL ++ r) = (a ++ l ++ NL)%string :: chunks 79 "" r.
Proof.
  assert (NLR : NL = String nl "") by reflexivity.
  induction l as [|c l IH]; intros room a r W LE.
  - cbn [String.append]. rewrite NLR. cbn [String.append chunks]. rewrite Ascii.eqb_refl. reflexivity.
  - unfold within in W. cbn [all_chars] in W. apply andb_true_iff in W as [C W]. apply in_line_facts in C as (_ & C & _). cbn [String.append chunks String.length] in *. rewrite C. cbn [orb].
    destruct (Nat.leb_spec room 1); [lia|]. rewrite (IH (room - 1) (snoc a c) r W ltac:(lia)). unfold snoc. now rewrite !sapp_assoc.
Qed.
Lemma chunks_79 l : forall room a r, within l = true -> String.length l = room -> room <> 0 -> chunks room a (l ++ r) = (a ++ l)%string :: chunks 79 "" r.
Proof.
  induction l as [|c l IH]; intros room a r W E Z; [cbn in E; congruence|]. unfold within in W. cbn [all_chars] in W. apply andb_true_iff in W as [C W]. apply in_line_facts in C as (_ & C & _).
  cbn [String.append chunks String.length] in *. rewrite C. cbn [orb]. destruct l as [|d l].
  - cbn in E. subst room. cbn [Nat.leb]. reflexivity.
  - destruct (Nat.leb_spec room 1); [cbn in E; lia|]. rewrite (IH (room - 1) (snoc a c) r W ltac:(lia) ltac:(cbn in E; lia)). unfold snoc. now rewrite !sapp_assoc.
Qed.
Lemma within_whole b e : within b = true -> e = "" \/ e = NL -> no_comment (CppSem.cut (b ++ e)) = (b ++ e)%string.
Proof.
  intros W E. induction b as [|c b IH]; [now destruct E as [->| ->]|]. unfold within in W. cbn [all_chars] in W. apply andb_true_iff in W as [C W]. apply in_line_facts in C as (A & _ & B).
  cbn [String.append CppSem.cut]. rewrite A. cbn [no_comment]. rewrite B. f_equal. now apply IH.
Qed.
Lemma scan_more b e s : within b = true -> e = "" \/ e = NL -> scan_line (CppSem.cut (" " ++ b ++ e)) s = Scan (x_look s) (x_cur s) (x_key s) (x_val s ++ " " ++ b ++ e)%string.
Proof.
  intros W E. change (CppSem.cut (" " ++ b ++ e)) with (String " " (CppSem.cut (b ++ e))). unfold scan_line. cbn [no_comment Ascii.eqb Bool.eqb]. rewrite (within_whole b e W E).
  unfold flush. cbn [Ascii.eqb Bool.eqb negb andb]. now rewrite andb_false_r.
Qed.
Lemma space_within b : within b = true -> within (" " ++ b) = true. Proof. auto. Qed.
Lemma text_block r : block r -> forall t s, scan_text (r ++ t) s = scan_text t (Scan (x_look s) (x_cur s) (x_key s) (x_val s ++ r)%string).
Proof.
  induction 1 as [|b r W LE B IH|b r W LE B IH]; intros t s.
  - cbn [String.append]. rewrite sapp_nil_r. now destruct s.
  - replace ((" " ++ b ++ NL ++ r) ++ t)%string with ((" " ++ b) ++ NL ++ (r ++ t))%string by (now rewrite !sapp_assoc). unfold scan_text at 1.
    rewrite (chunks_nl (" " ++ b) 79 "" _ (space_within b W)) by (cbn [String.append String.length]; lia). cbn [fold_left]. fold (scan_text (r ++ t)).
    change ("" ++ (" " ++ b) ++ NL)%string with (" " ++ b ++ NL)%string. rewrite (scan_more b NL s W (or_intror eq_refl)). etransitivity; [apply IH|]. cbn [x_look x_cur x_key x_val]. now rewrite !sapp_assoc.
  - replace ((" " ++ b ++ r) ++ t)%string with ((" " ++ b) ++ (r ++ t))%string by (now rewrite !sapp_assoc). unfold scan_text at 1.
    rewrite (chunks_79 (" " ++ b) 79 "" _ (space_within b W)); [|cbn [String.append String.length]; lia|lia]. cbn [fold_left]. fold (scan_text (r ++ t)).
    pose proof (scan_more b "" s W (or_introl eq_refl)) as M. rewrite sapp_nil_r in M. change ("" ++ " " ++ b)%string with (" " ++ b)%string. rewrite M. etransitivity; [apply IH|]. cbn [x_look x_cur x_key x_val]. now rewrite !sapp_assoc.
Qed.

(** The line with the name: a space and nothing behind it. *)
Lemma search_alone n : ident n = true -> search "(\w+) (.+)" (n ++ " " ++ NL) = None.
Proof.
  intros N. unfold search. change (rx_compile "(\w+) (.+)") with (Some [ROpen; RItem RWord true; RClose; RItem (RChar " ") false; ROpen; RItem RAny true; RClose]).
  cbv beta iota. set (R := [RItem RWord true; RClose; RItem (RChar " ") false; ROpen; RItem RAny true; RClose]).
  assert (NONE : forall m t gs, all_chars is_idc m = true -> rx_match R (m ++ " " ++ NL) (Some t) gs = None /\ rx_match (tl R) (m ++ " " ++ NL) (Some t) gs = None).
  { induction m as [|c m IH]; intros t gs A.
    - split; reflexivity.
    - cbn [all_chars] in A. apply andb_true_iff in A as [C A]. split.
      + change (rx_match R (String c m ++ " " ++ NL) (Some t) gs) with
          (if rclass_has RWord c then match rx_match R (m ++ " " ++ NL) (cur_add (Some t) c) gs with Some g => Some g | None => rx_match (tl R) (m ++ " " ++ NL) (cur_add (Some t) c) gs end else None).
        cbn [cur_add option_map]. rewrite (proj1 (IH _ gs A)), (proj2 (IH _ gs A)). now destruct (rclass_has RWord c).
      + destruct (idc_start c C) as (_ & SP & _). cbn. now rewrite SP. }
  assert (S : forall m, all_chars is_idc m = true -> rx_search (ROpen :: R) (m ++ " " ++ NL) = None).
  { induction m as [|c m IH]; intros A; [reflexivity|]. pose proof (proj1 (NONE (String c m) "" [] A)) as M. cbn [all_chars] in A. apply andb_true_iff in A as [C A].
    change (rx_search (ROpen :: R) (String c m ++ " " ++ NL)) with (match rx_match R (String c m ++ " " ++ NL) (Some "") [] with Some g => Some g | None => rx_search (ROpen :: R) (m ++ " " ++ NL) end).
    rewrite M. apply IH, A. }
  apply S. now apply ident_idc.
Qed.
Lemma search_first n : ident n = true -> search "(\w+)" (n ++ " " ++ NL) = Some [n].
Proof.
  intros N. unfold search. change (rx_compile "(\w+)") with (Some [ROpen; RItem RWord true; RClose]). cbv beta iota. destruct (ident_cons n N) as (c & r & NC & _).
  assert (M : rx_match [ROpen; RItem RWord true; RClose] (n ++ " " ++ NL) None [] = Some [n]).
  { change (rx_match [RItem RWord true; RClose] (n ++ " " ++ NL) (Some "") [] = Some [n]). apply rx_plus; [subst; discriminate|now apply ident_idc|apply rx_plus_stop; reflexivity|reflexivity]. }
  destruct (n ++ " " ++ NL)%string as [|x y]; unfold rx_search; fold rx_search; now rewrite M.
Qed.
Lemma scan_alone n s : ident n = true -> scan_line (n ++ " " ++ NL) s = let s := flushed s in Scan (x_look s) (x_cur s) n NL.
Proof.
  intros N. assert (NC : no_comment (n ++ " " ++ NL) = (n ++ " " ++ NL)%string) by (rewrite (on_line_comment n (" " ++ NL) (ident_line n N)); reflexivity).
  pose proof (search_alone n N) as NS. pose proof (search_first n N) as SN. unfold scan_line. rewrite NC. destruct (ident_cons n N) as (c & r & -> & IC). cbn [String.append] in *.
  destruct (idc_start c IC) as (C1 & C2 & _). rewrite C1, C2, (flush_is c s C2), NS, SN. reflexivity.
Qed.
Lemma scan_nl r s : scan_text (NL ++ r) s = scan_text r (flushed s).
Proof. unfold scan_text at 1. change (chunks 79 "" (NL ++ r)) with (NL :: chunks 79 "" r). cbn [fold_left]. change (CppSem.cut NL) with NL. now rewrite scan_empty. Qed.
(** All of what is written for such a string. *)
Lemma text_several n t r s : ident n = true -> several_lines n t -> x_key s = "" ->
  scan_text (item_line n t ++ r) s = scan_text r (Scan (put_item (x_cur s) n t (x_look s)) (x_cur s) "" "").
Proof.
  intros N (LE & b & -> & B) KS. unfold item_line. replace ((n ++ " " ++ (NL ++ b) ++ NL) ++ r)%string with ((n ++ " ") ++ NL ++ (b ++ NL ++ r))%string by (now rewrite !sapp_assoc).
  assert (W : within (n ++ " ") = true).
  { unfold within. rewrite all_chars_app. apply andb_true_iff. split; [|reflexivity]. eapply all_chars_imp; [|exact (ident_line n N)]. intros c C. apply line_chr_facts in C as (A1 & A2 & _ & A4).
    unfold in_line_chr. rewrite ?A1, ?A2, ?A4. now rewrite ?A1, ?A2, ?A4. }
  assert (LN : forall a c, String.length (a ++ c) = String.length a + String.length c) by (induction a; intros; cbn; auto).
  unfold scan_text at 1. rewrite (chunks_nl (n ++ " ") 79 "" _ W) by (rewrite LN; cbn; lia). cbn [fold_left]. fold (scan_text (b ++ NL ++ r)).
  replace ("" ++ (n ++ " ") ++ NL)%string with (n ++ " " ++ NL)%string by (cbn [String.append]; now rewrite !sapp_assoc).
  replace (CppSem.cut (n ++ " " ++ NL)) with (n ++ " " ++ NL)%string by (symmetry; apply cut_app; [apply on_line_cut, ident_line, N|reflexivity]).
  rewrite (scan_alone n s N). cbv zeta. rewrite (proj1 (flushed_val s (x_look s) KS)). etransitivity; [apply text_block, B|]. cbn [x_look x_cur x_key x_val].
  etransitivity; [apply scan_nl|]. f_equal. unfold flushed. cbn [x_look x_cur x_key x_val]. destruct (ident_cons n N) as (c & q & -> & _). reflexivity.
Qed.
