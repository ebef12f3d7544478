(** Lines that the n_ini back end writes, and what its line scanner makes of them; names of
    sections. *)
From Coq Require Import String Ascii ZArith NArith Arith List Bool Lia.
From Verif Require Import Base Map Items Grammar Fmt Decimal Emit Cpp Xml Val Rx CppSem SymLex StoreDefs ResolveProps Prog Header EnumSem DecText XmlSpec XmlRead IniSpec IniWrite.
Import ListNotations.
Local Open Scope string_scope.
Local Open Scope list_scope.

(** *** Regular expressions *)
Lemma rx_plus c r gs b g : forall a t, a <> "" -> all_chars (rclass_has c) a = true ->
  rx_match (RItem c true :: r) b (Some (t ++ a)%string) gs = None -> rx_match r b (Some (t ++ a)%string) gs = Some g ->
  rx_match (RItem c true :: r) (a ++ b) (Some t) gs = Some g.
Proof.
  induction a as [|x a IH]; intros t NE AL N M; [congruence|]. cbn [all_chars] in AL. apply andb_true_iff in AL as [C AL].
  change (rx_match (RItem c true :: r) (String x a ++ b) (Some t) gs) with
    (if rclass_has c x then match rx_match (RItem c true :: r) (a ++ b) (cur_add (Some t) x) gs with Some g => Some g | None => rx_match r (a ++ b) (cur_add (Some t) x) gs end else None).
  rewrite C. cbn [cur_add option_map]. assert (E : (t ++ String x a)%string = (snoc t x ++ a)%string) by (unfold snoc; now rewrite sapp_assoc).
  rewrite E in N, M. destruct a as [|y a].
  - cbn [String.append]. rewrite sapp_nil_r in N, M. now rewrite N, M.
  - now rewrite (IH (snoc t x) ltac:(discriminate) AL N M).
Qed.
Lemma rx_plus_stop c r b cur gs : match b with String x _ => rclass_has c x = false | EmptyString => True end -> rx_match (RItem c true :: r) b cur gs = None.
Proof. destruct b as [|x b]; intros H; cbn; [reflexivity|now rewrite H]. Qed.

(** *** Texts that fit in a line *)
Definition line_chr (c : ascii) : bool := negb ((c =? ascii_of_nat 0) || (c =? nl) || (c =? cr) || (c =? "%"))%char.
Definition on_line (s : string) : bool := all_chars line_chr s.
Lemma line_chr_facts c : line_chr c = true -> (c =? ascii_of_nat 0)%char = false /\ (c =? nl)%char = false /\ (c =? cr)%char = false /\ (c =? "%")%char = false.
Proof. unfold line_chr. rewrite negb_true_iff, !orb_false_iff. tauto. Qed.
Lemma on_line_any s : on_line s = true -> all_chars (rclass_has RAny) s = true.
Proof. apply all_chars_imp. intros c H. apply line_chr_facts in H as (_ & A & B & _). unfold rclass_has. now rewrite A, B. Qed.
Lemma all_chars_app p a b : all_chars p (a ++ b)%string = (all_chars p a && all_chars p b)%bool.
Proof. induction a as [|c a IH]; [reflexivity|]. cbn. now rewrite IH, andb_assoc. Qed.
Lemma on_line_cut s : on_line s = true -> cut s = s.
Proof. intros H. apply cut_id. unfold no_nul. eapply all_chars_imp; [|exact H]. intros c C. apply line_chr_facts in C as (A & _). now rewrite A. Qed.
Lemma on_line_comment s e : on_line s = true -> no_comment (s ++ e) = (s ++ no_comment e)%string.
Proof.
  induction s as [|c s IH]; [reflexivity|]. cbn [on_line all_chars String.append no_comment]. intros H. apply andb_true_iff in H as [C H].
  apply line_chr_facts in C as (_ & _ & _ & C). now rewrite C, IH.
Qed.
Lemma idc_line c : is_idc c = true -> line_chr c = true.
Proof. destruct c as [[] [] [] [] [] [] [] []]; try discriminate; reflexivity. Qed.
Lemma ident_line n : ident n = true -> on_line n = true.
Proof. intros H. eapply all_chars_imp; [exact idc_line|]. now apply ident_idc. Qed.
Lemma ident_cons n : ident n = true -> exists c r, n = String c r /\ is_idc c = true.
Proof. intros H. pose proof (ident_idc n H) as A. destruct n as [|c r]; [discriminate|]. cbn in A. apply andb_true_iff in A as [A _]. eauto. Qed.
Lemma idc_start c : is_idc c = true -> (c =? "[")%char = false /\ (c =? " ")%char = false /\ (c =? nl)%char = false.
Proof. destruct c as [[] [] [] [] [] [] [] []]; try discriminate; repeat split. Qed.

(** [chunks]: a line that is not too long is read as one, or as one and an empty one. *)
Lemma chunks_line l : forall room a r, on_line l = true -> String.length l <= room -> room <> 0 ->
  chunks room a (l ++ NL ++ r) = if Nat.eqb (String.length l) room then (a ++ l)%string :: NL :: chunks 79 "" r else (a ++ l ++ NL)%string :: chunks 79 "" r.
Proof.
  assert (NLR : NL = String nl "") by reflexivity.
  induction l as [|c l IH]; intros room a r OL LE NZ.
  - cbn [String.append String.length]. rewrite NLR. cbn [String.append chunks]. rewrite Ascii.eqb_refl. cbn [orb]. destruct room; [congruence|]. reflexivity.
  - cbn [on_line all_chars] in OL. apply andb_true_iff in OL as [C OL]. apply line_chr_facts in C as (_ & C & _). cbn [String.append chunks String.length].
    rewrite C. cbn [orb]. cbn [String.length] in LE. destruct (Nat.leb_spec room 1).
    + assert (room = 1) by lia. subst. assert (l = "") as -> by (destruct l; [reflexivity|cbn in LE; lia]). cbn [String.append String.length Nat.eqb].
      rewrite NLR. cbn [String.append chunks]. rewrite Ascii.eqb_refl. reflexivity.
    + rewrite (IH (room - 1) (snoc a c) r OL ltac:(lia) ltac:(lia)). replace (Nat.eqb (S (String.length l)) room) with (Nat.eqb (String.length l) (room - 1)).
      2:{ destruct (Nat.eqb_spec (String.length l) (room - 1)); symmetry; [apply Nat.eqb_eq|apply Nat.eqb_neq]; lia. }
      unfold snoc. now rewrite !sapp_assoc.
Qed.
Lemma chunks_nl room a r : chunks room a (NL ++ r) = snoc a nl :: chunks 79 "" r.
Proof. reflexivity. Qed.

(** *** Lines of items, empty lines and section lines *)
Definition flushed (s : scan) : scan :=
  if String.eqb (x_key s) "" then s else Scan (put_item (x_cur s) (x_key s) (x_val s) (x_look s)) (x_cur s) "" "".
Lemma flush_is c s : (c =? " ")%char = false -> flush c s = flushed s.
Proof. intros H. unfold flush, flushed. rewrite H, andb_true_r. now destruct (String.eqb (x_key s) ""). Qed.
Lemma flushed_key s : x_key (flushed s) = "".
Proof. unfold flushed. destruct (String.eqb_spec (x_key s) ""); [assumption|reflexivity]. Qed.
Lemma flushed_twice s : flushed (flushed s) = flushed s.
Proof. unfold flushed at 1. now rewrite flushed_key. Qed.

Definition ends (e : string) : Prop := e = "" \/ e = NL.
Lemma search_item n s e : ident n = true -> on_line s = true -> s <> "" -> ends e -> search "(\w+) (.+)" (n ++ " " ++ s ++ e) = Some [n; s].
Proof.
  intros N OL NE E. unfold search. change (rx_compile "(\w+) (.+)") with (Some [ROpen; RItem RWord true; RClose; RItem (RChar " ") false; ROpen; RItem RAny true; RClose]).
  cbv beta iota. destruct (ident_cons n N) as (c & r & NC & _).
  assert (M : rx_match [ROpen; RItem RWord true; RClose; RItem (RChar " ") false; ROpen; RItem RAny true; RClose] (n ++ " " ++ s ++ e) None [] = Some [n; s]).
  { change (rx_match [RItem RWord true; RClose; RItem (RChar " ") false; ROpen; RItem RAny true; RClose] (n ++ " " ++ s ++ e) (Some "") [] = Some [n; s]).
    apply rx_plus; [subst; discriminate|now apply ident_idc|apply rx_plus_stop; reflexivity|].
    change (rx_match [RItem RAny true; RClose] (s ++ e) (Some "") [n] = Some [n; s]).
    apply rx_plus; [exact NE|now apply on_line_any| |reflexivity]. apply rx_plus_stop. now destruct E as [->| ->]. }
  destruct (n ++ " " ++ s ++ e)%string as [|x y]; unfold rx_search; fold rx_search; now rewrite M.
Qed.
Lemma search_section p e : on_line p = true -> p <> "" -> ends e -> search "\[(.+)\]" ("[" ++ p ++ "]" ++ e) = Some [p].
Proof.
  intros OL NE E. unfold search. change (rx_compile "\[(.+)\]") with (Some [RItem (RChar "[") false; ROpen; RItem RAny true; RClose; RItem (RChar "]") false]).
  cbv beta iota. assert (M : rx_match [RItem (RChar "[") false; ROpen; RItem RAny true; RClose; RItem (RChar "]") false] ("[" ++ p ++ "]" ++ e) None [] = Some [p]).
  { change (rx_match [RItem RAny true; RClose; RItem (RChar "]") false] (p ++ "]" ++ e) (Some "") [] = Some [p]).
    apply rx_plus; [exact NE|now apply on_line_any| |reflexivity]. now destruct E as [->| ->]. }
  change ("[" ++ p ++ "]" ++ e)%string with (String "[" (p ++ "]" ++ e)) in *. unfold rx_search; fold rx_search. now rewrite M.
Qed.

Lemma scan_item n t e s : ident n = true -> on_line t = true -> t <> "" -> ends e ->
  scan_line (n ++ " " ++ t ++ e) s = let s := flushed s in Scan (put_item (x_cur s) n t (x_look s)) (x_cur s) "" (x_val s).
Proof.
  intros N OL NE E. pose proof (search_item n t e N OL NE E) as SE. unfold scan_line.
  assert (NC : no_comment (n ++ " " ++ t ++ e) = (n ++ " " ++ t ++ e)%string).
  { rewrite (on_line_comment n _ (ident_line n N)). change (" " ++ t ++ e)%string with (String " " (t ++ e)). cbn [no_comment Ascii.eqb Bool.eqb]. rewrite (on_line_comment t e OL). now destruct E as [->| ->]. }
  rewrite NC. destruct (ident_cons n N) as (c & r & -> & IC). cbn [String.append] in *. destruct (idc_start c IC) as (C1 & C2 & _).
  rewrite C1, C2, (flush_is c s C2), SE. cbv zeta. now rewrite flushed_key.
Qed.
Lemma scan_section p e s : on_line p = true -> p <> "" -> ends e ->
  scan_line ("[" ++ p ++ "]" ++ e) s = let s := flushed s in Scan (Look (k_top (x_look s)) (set_assoc p [] (k_under (x_look s)))) (Some p) "" (x_val s).
Proof.
  intros OL NE E. pose proof (search_section p e OL NE E) as SE. unfold scan_line.
  assert (NC : no_comment ("[" ++ p ++ "]" ++ e) = ("[" ++ p ++ "]" ++ e)%string).
  { change ("[" ++ p ++ "]" ++ e)%string with (String "[" (p ++ "]" ++ e)). cbn [no_comment Ascii.eqb Bool.eqb]. rewrite (on_line_comment p _ OL). now destruct E as [->| ->]. }
  rewrite NC. change ("[" ++ p ++ "]" ++ e)%string with (String "[" (p ++ "]" ++ e)) in *. cbn [Ascii.eqb Bool.eqb].
  rewrite (flush_is "[" s eq_refl), SE. cbv zeta. now rewrite flushed_key.
Qed.
Lemma scan_empty s : scan_line NL s = flushed s.
Proof. unfold scan_line. change (no_comment NL) with (String nl ""). cbv beta iota zeta. rewrite (flush_is nl s eq_refl). reflexivity. Qed.

Lemma scan_text_line l r s : on_line l = true -> String.length l <= 79 ->
  scan_text (l ++ NL ++ r) s = scan_text r (if Nat.eqb (String.length l) 79 then scan_line NL (scan_line l s) else scan_line (l ++ NL) s).
Proof.
  intros OL LE. unfold scan_text. rewrite (chunks_line l 79 "" r OL LE ltac:(lia)). destruct (Nat.eqb (String.length l) 79); cbn [fold_left String.append].
  - now rewrite (on_line_cut l OL).
  - now rewrite (cut_app l NL (on_line_cut l OL) eq_refl).
Qed.
Lemma flushed_val s k : x_key s = "" -> flushed s = s /\ flushed (Scan k (x_cur s) "" (x_val s)) = Scan k (x_cur s) "" (x_val s).
Proof. intros E. unfold flushed. rewrite E. auto. Qed.

Definition line_fits (s : string) : Prop := on_line s = true /\ String.length s <= 79.
Lemma text_item n t r s : ident n = true -> on_line t = true -> t <> "" -> String.length n + 1 + String.length t <= 79 ->
  scan_text (item_line n t ++ r) s = scan_text r (let s := flushed s in Scan (put_item (x_cur s) n t (x_look s)) (x_cur s) "" (x_val s)).
Proof.
  intros N OL NE LE. assert (L1 : on_line (n ++ " " ++ t) = true) by (unfold on_line; rewrite !all_chars_app; fold (on_line n) (on_line t); now rewrite (ident_line n N), OL).
  assert (LN : forall a c, String.length (a ++ c) = String.length a + String.length c) by (induction a; intros; cbn; auto).
  assert (L2 : String.length (n ++ " " ++ t) <= 79) by (rewrite !LN; cbn; lia).
  unfold item_line. replace ((n ++ " " ++ t ++ NL) ++ r)%string with ((n ++ " " ++ t) ++ NL ++ r)%string by (now rewrite !sapp_assoc).
  rewrite (scan_text_line _ r s L1 L2). f_equal. destruct (Nat.eqb _ 79).
  - replace (n ++ " " ++ t)%string with (n ++ " " ++ t ++ "")%string by (now rewrite sapp_nil_r). rewrite scan_empty, (scan_item n t "" s N OL NE ltac:(left; reflexivity)). reflexivity.
  - rewrite !sapp_assoc. now rewrite (scan_item n t NL s N OL NE ltac:(right; reflexivity)).
Qed.
Lemma text_section p r s : on_line p = true -> p <> "" -> String.length p + 2 <= 79 ->
  scan_text (section_line p ++ r) s = scan_text r (let s := flushed s in Scan (Look (k_top (x_look s)) (set_assoc p [] (k_under (x_look s)))) (Some p) "" (x_val s)).
Proof.
  intros OL NE LE. assert (L1 : on_line ("[" ++ p ++ "]") = true) by (cbn [on_line all_chars String.append]; unfold on_line; rewrite !all_chars_app; fold (on_line p); now rewrite OL).
  assert (LN : forall a c, String.length (a ++ c) = String.length a + String.length c) by (induction a; intros; cbn; auto).
  assert (L2 : String.length ("[" ++ p ++ "]") <= 79) by (rewrite !LN; cbn; lia).
  replace (section_line p ++ r)%string with ("" ++ NL ++ ("[" ++ p ++ "]") ++ NL ++ r)%string by (destruct p; [congruence|]; cbn [section_line]; now rewrite !sapp_assoc).
  rewrite (scan_text_line "" _ s eq_refl ltac:(cbn; lia)). cbn [String.length Nat.eqb String.append]. change (scan_line (String nl "")) with (scan_line NL). rewrite scan_empty.
  change (String "[" (p ++ "]") ++ NL ++ r)%string with (("[" ++ p ++ "]") ++ NL ++ r)%string.
  rewrite (scan_text_line _ r _ L1 L2). f_equal. destruct (Nat.eqb _ 79).
  - replace ("[" ++ p ++ "]")%string with ("[" ++ p ++ "]" ++ "")%string by reflexivity. rewrite scan_empty, (scan_section p "" _ OL NE ltac:(left; reflexivity)), flushed_twice. reflexivity.
  - rewrite !sapp_assoc. now rewrite (scan_section p NL _ OL NE ltac:(right; reflexivity)), flushed_twice.
Qed.
