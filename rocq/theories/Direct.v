(** Preprocessor lines of the generated files: which headers they include. *)
From Coq Require Import String Ascii ZArith NArith Arith List Bool Lia.
From Verif Require Import Base Fmt Emit.
Import ListNotations.
Local Open Scope string_scope.
Local Open Scope list_scope.

(** The lines of a text. *)
Fixpoint lines (s : string) : list string :=
  match s with
  | EmptyString => [""]
  | String c r =>
      if (c =? nl)%char then "" :: lines r
      else match lines r with l :: ls => String c l :: ls | [] => [String c ""] end
  end.
(** A directive: # is the first character that is not blank. *)
Fixpoint is_directive (l : string) : bool :=
  match l with
  | EmptyString => false
  | String c r => if (c =? "#")%char then true else if ((c =? " ") || (c =? tab))%char then is_directive r else false
  end.
Definition directives (s : string) : list string := filter is_directive (lines s).

(** *** What the files should include *)
Definition include_file (f : string) : string := ("#include """ ++ f ++ """")%string.
Definition enum_cpp_includes (h : string) (inputs : list string) : list string :=
  [include_file h; "#include <string>"; "#include <map>"] ++ map include_file inputs.
Definition enum_h_includes (inputs : list string) : list string :=
  ["#pragma once"; "#include <string>"; "#include <fmt/format.h>"] ++ map include_file inputs.
Definition struct_cpp_includes (b : backend) (only_read : bool) (h enum : string) (inputs : list string) : list string :=
  [include_file h] ++
  match b with
  | B_xml_attrib | B_xml => ["#include <string>"; "#include <map>"; "#include <stdexcept>"; "#include <tinyxml2.h>"; "#include <tixml2ex.h>"]
  | B_ini | B_n_ini => ["#include <string>"; "#include <map>"; "#include <regex>"; "#include <stdexcept>"] ++
                       if only_read then [] else ["#include <fmt/format.h>"]
  end ++
  (if (String.eqb enum "" || String.eqb enum "-")%bool then [] else [include_file (enum ++ ".h")]) ++ map include_file inputs.
Definition struct_h_includes (b : backend) (inputs : list string) : list string :=
  ["#pragma once"; "#include <string>";
   match b with B_xml_attrib | B_xml => "#include <tinyxml2.h>" | B_ini | B_n_ini => "#include <map>" end] ++ map include_file inputs.

(** *** Lines and directives of a concatenation *)
Lemma lines_some s : exists l ls, lines s = l :: ls.
Proof.
  induction s as [|c s (l & ls & IH)]; cbn [lines]; [do 2 eexists; reflexivity|]. destruct (c =? nl)%char; [do 2 eexists; reflexivity|]. rewrite IH. do 2 eexists; reflexivity.
Qed.
Lemma lines_app a b : lines (a ++ NL ++ b) = lines a ++ lines b.
Proof.
  induction a as [|c a IH].
  - cbn [String.append NL lines]. now rewrite Ascii.eqb_refl.
  - change ((String c a ++ NL ++ b)%string) with (String c (a ++ NL ++ b)). cbn [lines]. rewrite IH.
    destruct (c =? nl)%char; [reflexivity|]. destruct (lines_some a) as (l & ls & ->). reflexivity.
Qed.
Lemma sapp3 a b c : ((a ++ b) ++ c)%string = (a ++ b ++ c)%string.
Proof. induction a; cbn; congruence. Qed.
Lemma directives_app a b : directives ((a ++ NL) ++ b) = directives a ++ directives b.
Proof. unfold directives. rewrite sapp3, lines_app. apply filter_app. Qed.

(** *** Texts without directives *)
(** [true]: only blanks so far on the line. *)
Fixpoint calm (st : bool) (s : string) : bool :=
  match s with
  | EmptyString => true
  | String c r =>
      if (c =? nl)%char then calm true r
      else if ((c =? " ") || (c =? tab))%char then calm st r
      else if (c =? "#")%char then negb st && calm false r
      else calm false r
  end.
Lemma calm_lines s : forall st, calm st s = true ->
  match lines s with l :: ls => (st = true -> is_directive l = false) /\ filter is_directive ls = [] | [] => False end.
Proof.
  induction s as [|c s IH]; intros st H; cbn [lines calm] in *; [auto|].
  destruct (lines_some s) as (l & ls & E). destruct (c =? nl)%char.
  - specialize (IH true H). rewrite E in *. destruct IH as [A B]. split; [auto|]. cbn [filter]. now rewrite A.
  - rewrite E in *. cbn [is_directive].
    destruct ((c =? " ") || (c =? tab))%char eqn:B.
    + specialize (IH st H) as [X Y]. split; [|exact Y]. intros T.
      destruct (c =? "#")%char eqn:S; [|now apply X]. apply Ascii.eqb_eq in S. subst c. discriminate B.
    + destruct (c =? "#")%char.
      * apply andb_prop in H as [H1 H2]. specialize (IH false H2) as [X Y]. split; [|exact Y]. intros ->. discriminate H1.
      * specialize (IH false H) as [X Y]. auto.
Qed.
Lemma calm_directives s : calm true s = true -> directives s = [].
Proof.
  intros H. apply calm_lines in H. unfold directives. destruct (lines s) as [|l ls]; [contradiction|]. destruct H as [A B].
  cbn [filter]. now rewrite A.
Qed.

(** An inserted text that neither starts a line nor a directive. *)
Fixpoint fine (s : string) : bool :=
  match s with EmptyString => true | String c r => negb ((c =? nl) || (c =? "#"))%char && fine r end.
(** The state behind a text of a format string; [None]: a directive. *)
Fixpoint lit_state (st : bool) (s : string) : option bool :=
  match s with
  | EmptyString => Some st
  | String c r =>
      if (c =? nl)%char then lit_state true r
      else if ((c =? " ") || (c =? tab))%char then lit_state st r
      else if (c =? "#")%char then if st then None else lit_state false r
      else lit_state false r
  end.
Fixpoint calm_pieces (st : bool) (ps : list piece) : bool :=
  match ps with
  | [] => true
  | Lit s :: r => match lit_state st s with Some st' => calm_pieces st' r | None => false end
  | Arg _ :: r => calm_pieces st r
  end.
Lemma calm_weak s : forall st, calm true s = true -> calm st s = true.
Proof.
  induction s as [|c s IH]; intros st H; cbn [calm negb andb] in *; [auto|]. destruct (c =? nl)%char; [auto|].
  destruct ((c =? " ") || (c =? tab))%char; [auto|]. destruct (c =? "#")%char; [discriminate H|]. auto.
Qed.
Lemma calm_lit s t : forall st st', lit_state st s = Some st' -> calm st' t = true -> calm st (s ++ t) = true.
Proof.
  induction s as [|c s IH]; intros st st' H G; cbn [calm lit_state String.append] in *; [now injection H as <-|].
  destruct (c =? nl)%char; [eauto|]. destruct ((c =? " ") || (c =? tab))%char; [eauto|]. destruct (c =? "#")%char; [|eauto].
  destruct st; [discriminate|]. cbn. eauto.
Qed.
Lemma calm_arg a t : forall st, fine a = true -> calm st t = true -> calm st (a ++ t) = true.
Proof.
  assert (K : forall x, fine x = true -> calm false t = true -> calm false (x ++ t) = true).
  { induction x as [|c x IH]; intros F G; cbn [fine calm String.append] in *; [auto|]. apply andb_prop in F as [F1 F2].
    apply negb_true_iff, orb_false_iff in F1 as [-> ->]. destruct ((c =? " ") || (c =? tab))%char; auto. }
  induction a as [|c a IH]; intros st F G; cbn [fine calm String.append] in *; [auto|]. apply andb_prop in F as [F1 F2].
  apply negb_true_iff, orb_false_iff in F1 as [-> ->]. destruct ((c =? " ") || (c =? tab))%char; [auto|].
  apply K; [auto|]. destruct st; [now apply calm_weak|exact G].
Qed.
Lemma calm_fill args : forallb fine args = true -> forall ps st t, calm_pieces st ps = true -> fill ps args = Some t -> calm st t = true.
Proof.
  intros FA. induction ps as [|p ps IH]; intros st t C H; cbn in *.
  - injection H as <-. reflexivity.
  - destruct p as [s|n].
    + destruct (lit_state st s) as [st'|] eqn:E; [|discriminate]. destruct (fill ps args) as [u|]; [|discriminate]. injection H as <-.
      eapply calm_lit; eauto.
    + destruct (nth_error args n) as [a|] eqn:N; [|discriminate]. destruct (fill ps args) as [u|]; [|discriminate]. injection H as <-.
      apply calm_arg; [|now apply IH]. apply nth_error_In in N. rewrite forallb_forall in FA. auto.
Qed.

(** *** Directives of the printed lines *)
Definition quiet (c : cmd) : bool :=
  (match c_t c with Some ps => calm_pieces true ps | None => true end && forallb fine (c_args c))%bool.
(** [dirs to cs l]: when the lines [cs] for [to] can be printed, their directives are [l]. *)
Definition dirs (to : target) (cs : list cmd) (l : list string) : Prop := forall t, render to cs = Some t -> directives t = l.
Definition tops_at (c : cmd) (l : list string) : Prop := forall t, format (c_t c) (c_args c) = Some t -> directives t = l.
Lemma dirs_nil to : dirs to [] [].
Proof. intros t [= <-]. reflexivity. Qed.
Lemma dirs_skip to c cs l : to_eqb (c_to c) to = false -> dirs to cs l -> dirs to (c :: cs) l.
Proof. intros E D t H. cbn [render] in H. rewrite E in H. auto. Qed.
Lemma dirs_cons to c cs l m : to_eqb (c_to c) to = true -> tops_at c l -> dirs to cs m -> dirs to (c :: cs) (l ++ m).
Proof.
  intros E T D t H. cbn [render] in H. rewrite E in H. unfold println in H.
  destruct (format (c_t c) (c_args c)) as [s|] eqn:F; [|discriminate]. destruct (render to cs) as [u|] eqn:R; [|discriminate].
  injection H as <-. rewrite directives_app, (T s F), (D u R). reflexivity.
Qed.
Lemma quiet_at c : quiet c = true -> tops_at c [].
Proof.
  unfold quiet, tops_at, format. intros H t F. apply andb_prop in H as [H1 H2]. destruct (c_t c) as [ps|]; [|discriminate].
  apply calm_directives. eapply calm_fill; eauto.
Qed.
Lemma dirs_quiet to c cs m : quiet c = true -> dirs to cs m -> dirs to (c :: cs) m.
Proof.
  intros Q D. destruct (to_eqb (c_to c) to) eqn:E; [|now apply dirs_skip]. change m with ([] ++ m). apply dirs_cons; auto using quiet_at.
Qed.
Lemma dirs_quiets to a cs m : forallb quiet a = true -> dirs to cs m -> dirs to (a ++ cs) m.
Proof.
  induction a as [|c a IH]; intros Q D; [exact D|]. cbn [forallb] in Q. apply andb_prop in Q as [Q1 Q2]. cbn [app]. apply dirs_quiet; auto.
Qed.
