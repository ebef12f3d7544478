(** Property theorems about the time stamp of the build: C91. *)
From Coq Require Import String Ascii ZArith NArith Arith List Bool Lia.
From Verif Require Import Base Map Items Grammar ParseLang Fmt Decimal Templates Emit Main Cpp Xml Val CppSem SymLex Ast Store Resolve StoreDefs Prog Header Link
  EmitCheck MainProps RunProps Pipeline Lexable P_Main P_Whole P_Serve Stamp.
Import ListNotations.
Local Open Scope string_scope.
Local Open Scope list_scope.

(** *** C91.  Two builds of the program ([E] and [built_as E s']: the stamps are [e_stamp E] and
    [s'], everything else is the same) do the same: the result is the same, they write the same
    files, and these differ in the stamp in their head lines only; the lines on the console
    differ in the first only ([builds], Stamp.v).  [inputs_kept]: see C68. *)
Theorem C91_builds : forall E s' argv0 args,
  (forall a rest p c, args = a :: rest -> e_canonical E a = Some p -> e_conf E (e_disk E p) = CRead c -> inputs_kept E p c) ->
  builds (e_stamp E) s' (stfx E argv0 args) (stfx (built_as E s') argv0 args).
Proof. exact stfx_builds. Qed.
(** For a header there is no condition. *)
Theorem C91_header : forall E s' argv0 a rest p, e_canonical E a = Some p -> extension E p <> ".stfx" ->
  builds (e_stamp E) s' (stfx E argv0 (a :: rest)) (stfx (built_as E s') argv0 (a :: rest)).
Proof.
  intros E s' argv0 a rest p C X. unfold stfx. rewrite !start_say. change (e_exists (built_as E s')) with (e_exists E). change (e_canonical (built_as E s')) with (e_canonical E).
  assert (S0 : other_build (e_stamp E) s' (w_first E) (w_first (built_as E s'))) by (split; [constructor|]; exists []; split; reflexivity).
  destruct (e_exists E a); [|apply bind_b; [now apply say_b|]; intros _ w1 w1' S1; split; auto].
  rewrite C, extension_b. apply String.eqb_neq in X. rewrite X.
  apply bind_b; [now apply header_b|]. intros rv w1 w1' S1. apply bind_b; [now apply say_b|]. intros _ w2 w2' S2. split; auto.
Qed.
(** What this says about a file: it is there in both runs, and behind the head lines (and in
    them, but for the stamp) it is the same. *)
Theorem C91_file : forall s s' w w' q x, other_build s s' w w' -> Cpp.assoc q (Main.w_files w) = Some x ->
  exists y, Cpp.assoc q (Main.w_files w') = Some y /\ restamped s s' x y.
Proof.
  intros s s' [f l] [f' l'] q x [F _] A. cbn [Main.w_files] in *. revert A. induction F as [|[k v] [k' v'] f f' [K V] _ IH]; cbn in *; [discriminate|]. subst k'.
  destruct (String.eqb q k); [|exact IH]. intros [= <-]. eauto.
Qed.

(** *** The stamp of any build has no line end or quote in it, whenever it was built: the
    condition on the stamp in C54, C68, C70, C77, C79, C81, C84, C86 and C90 is met. *)
Lemma decimal_plain c : decimal c -> plain_chr c = true.
Proof. intros [A B]. rewrite <- (ascii_nat_embedding c). remember (nat_of_ascii c) as n eqn:E. clear E c. do 58 (destruct n as [|n]; [first [lia|reflexivity]|]). lia. Qed.
Lemma plain_app a b : plain (a ++ b) = (plain a && plain b)%bool.
Proof. unfold plain. induction a as [|c a IH]; [reflexivity|]. cbn. now rewrite IH, andb_assoc. Qed.
Lemma month_plain m : In m months -> plain m = true.
Proof. intros H. cbn in H. repeat (destruct H as [<-|H]; [reflexivity|]). contradiction. Qed.
Theorem C91_stamp : forall date time, date_text date -> time_text time -> plain (stamp_of date time) = true.
Proof.
  intros date time D T. unfold stamp_of. rewrite !plain_app.
  assert (P1 : plain date = true).
  { inversion D as [m d1 d2 y1 y2 y3 y4 M D1 DS|]; [|reflexivity]. rewrite plain_app, (month_plain m M).
    assert (D1' : plain_chr d1 = true) by (destruct D1 as [D1| ->]; [now apply decimal_plain|reflexivity]).
    repeat match goal with H : Forall decimal (_ :: _) |- _ => inversion H; clear H; subst end.
    unfold plain. cbn [all_chars]. rewrite D1', (decimal_plain d2), (decimal_plain y1), (decimal_plain y2), (decimal_plain y3), (decimal_plain y4) by assumption. reflexivity. }
  assert (P2 : plain time = true).
  { inversion T as [h1 h2 m1 m2 s1 s2 DS|]; [|reflexivity].
    repeat match goal with H : Forall decimal (_ :: _) |- _ => inversion H; clear H; subst end.
    unfold plain. cbn [all_chars]. rewrite (decimal_plain h1), (decimal_plain h2), (decimal_plain m1), (decimal_plain m2), (decimal_plain s1), (decimal_plain s2) by assumption. reflexivity. }
  rewrite P1, P2. reflexivity.
Qed.
(** So for C81 and C90: whenever the program was built. *)
Theorem C91_any_build : forall E date time argv0 a rest p cs ds, usual_sep E -> e_stamp E = stamp_of date time -> date_text date -> time_text time ->
  e_exists E a = true -> e_canonical E a = Some p -> extension E p <> ".stfx" -> plain (file_name E p) = true ->
  e_disk E p = Some cs -> StoreDefs.text_of cs ds -> header_ok "xml_reader_C" "xml_writer_C" ds = true ->
  (forall q, In q (four E (parent E p) single_spec) -> e_write E q = true) ->
  exists w P, stfx E argv0 (a :: rest) = Go 0%Z w /\ program_in E (parent E p) single_spec w = Some P /\ stores B_xml_attrib ds single_spec P /\ serves B_xml_attrib ds single_spec P.
Proof.
  intros E date time argv0 a rest p cs ds U ST DT TT EX EC EXT PF D T OK W.
  assert (PS : plain (e_stamp E) = true) by (rewrite ST; now apply C91_stamp).
  destruct (C81_header E argv0 a rest p cs ds U PS EX EC EXT PF D T OK W) as (w & P & R & PI & S).
  destruct (C90_header E argv0 a rest p cs ds U PS EX EC EXT PF D T OK W) as (w' & P' & R' & PI' & S').
  assert (w' = w) by congruence. subst w'. assert (P' = P) by congruence. subst P'. exists w, P. auto.
Qed.
Print Assumptions C91_builds.
Print Assumptions C91_header.
Print Assumptions C91_file.
Print Assumptions C91_stamp.
Print Assumptions C91_any_build.

(** The stamp in the files of the repository is one; two builds and the header of C81_case. *)
Example C91_case : stamp0 = stamp_of "Jan 29 2025" "01:45:46" /\ date_text "Jan 29 2025" /\ date_text "Feb  3 2026" /\ time_text "01:45:46" /\
  match stfx whole_env "stfx" ["/d/a.h"], stfx (built_as whole_env (stamp_of "Feb  3 2026" "12:00:01")) "stfx" ["/d/a.h"] with
  | Go r w, Go r' w' => r = r' /\ length (Main.w_files w) = 4 /\ map fst (Main.w_files w) = map fst (Main.w_files w') /\
      match Cpp.assoc "/d/enums.h" (Main.w_files w), Cpp.assoc "/d/enums.h" (Main.w_files w') with
      | Some x, Some y => x <> y
      | _, _ => False
      end
  | _, _ => False
  end.
Proof.
  split; [reflexivity|]. split; [|split; [|split]].
  - apply (dt_known "Jan" "2" "9" "2" "0" "2" "5"); [now left|left; split; cbn; lia|]. repeat constructor; cbn; lia.
  - apply (dt_known "Feb" " " "3" "2" "0" "2" "6"); [right; now left|now right|]. repeat constructor; cbn; lia.
  - apply (tt_known "0" "1" "4" "5" "4" "6"). repeat constructor; cbn; lia.
  - vm_compute. repeat split. intros [=].
Qed.
