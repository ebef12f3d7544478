(** Where the include directives of the generated files are looked for. *)
From Coq Require Import String Ascii ZArith NArith Arith List Bool Lia.
From Verif Require Import Base Map Flex Items Bison Grammar Store Resolve StoreProps StoreDefs ResolveProps ItemsEnd
  Fmt Decimal Templates Emit Cpp CppH Xml Val CppSem SymLex Ast HeadSpec PrintFile PrintH Direct Prog Header Link Main MainProps RunProps Pipeline HeadProps.
Import ListNotations.
Local Open Scope string_scope.
Local Open Scope list_scope.

(** *** Paths that name the same file *)
Section Paths.
Variable E : env.
(** The names between the separators; [w]: the one being read. *)
Fixpoint parts_from (w p : string) : list string :=
  match p with
  | "" => if String.eqb w "" then [] else [w]
  | String c r => if is_sep E c then (if String.eqb w "" then [] else [w]) ++ parts_from "" r else parts_from (w ++ String c "") r
  end.
Definition parts (p : string) : list string := parts_from "" p.
(** Doubled separators and the kind of separator make no difference. *)
Definition same_path (p q : string) : Prop := absolute E p = absolute E q /\ parts p = parts q.
(** Where #include "x" in the file [p] is looked for first. *)
Definition found (p x : string) : string := join E (parent E p) x.

Lemma same_refl p : same_path p p.
Proof. now split. Qed.
Lemma parts_from_sep w p c q : is_sep E c = true -> parts_from w (p ++ String c q) = parts_from w p ++ parts q.
Proof.
  intros S. revert w. induction p as [|x p IH]; intros w; cbn [String.append parts_from].
  - rewrite S. reflexivity.
  - destruct (is_sep E x); [rewrite IH; apply app_assoc|apply IH].
Qed.
Lemma parts_from_last w p c q : last_chr p = Some c -> is_sep E c = true -> parts_from w (p ++ q) = parts_from w p ++ parts q.
Proof.
  revert w. induction p as [|x p IH]; intros w L S; [discriminate|]. cbn [String.append parts_from]. destruct p as [|y p].
  - cbn in L. injection L as ->. rewrite S. cbn [String.append parts_from String.eqb]. now rewrite app_nil_r.
  - destruct (is_sep E x); [rewrite (IH "" L S); apply app_assoc|apply (IH _ L S)].
Qed.
Lemma parts_join p q : absolute E q = false -> parts (join E p q) = parts p ++ parts q.
Proof.
  intros A. unfold join, parts. rewrite A. destruct (last_chr p) as [c|] eqn:L.
  - destruct (is_sep E c) eqn:S; [eapply parts_from_last; eauto|]. apply parts_from_sep. unfold is_sep. now rewrite Ascii.eqb_refl, orb_true_r.
  - destruct p as [|x p]; [reflexivity|]. exfalso. revert x L. induction p as [|y p IH]; intros x L; [discriminate|]. exact (IH y L).
Qed.
Lemma absolute_join p q : absolute E q = false -> absolute E (join E p q) = absolute E p.
Proof.
  intros A. unfold join. rewrite A. destruct p as [|x p]; [exact A|]. destruct (last_chr (String x p)) as [c|] eqn:L.
  - now destruct (is_sep E c).
  - exfalso. revert x L. induction p as [|y p IH]; intros x L; [discriminate|]. exact (IH y L).
Qed.
Lemma absolute_app p e : absolute E e = false -> absolute E (p ++ e) = absolute E p.
Proof. destruct p; [intros H; exact H|reflexivity]. Qed.

(** *** The directory of a file *)
Lemma split_name p : if existsb (is_sep E) (list_ascii_of_string p)
  then exists c, is_sep E c = true /\ p = (before_name E p ++ String c (file_name E p))%string
  else before_name E p = "" /\ file_name E p = p.
Proof.
  induction p as [|c p IH]; [now split|]. cbn [list_ascii_of_string existsb before_name file_name].
  destruct (existsb (is_sep E) (list_ascii_of_string p)).
  - rewrite orb_true_r. destruct IH as (x & X & P). exists x. split; [exact X|]. cbn [String.append]. now rewrite <- P.
  - destruct (is_sep E c) eqn:S; cbn [orb]; [exists c; now split|now split].
Qed.
Lemma parts_parent p : parts p = parts (parent E p) ++ parts (file_name E p).
Proof.
  pose proof (split_name p) as H. unfold parent. destruct (existsb (is_sep E) (list_ascii_of_string p)) eqn:X.
  - destruct H as (c & S & P). rewrite P at 1. unfold parts at 1. rewrite parts_from_sep by exact S. f_equal.
    destruct (before_name E p) as [|x r]; [|reflexivity]. destruct p as [|y p]; [reflexivity|]. cbn [String.append] in P. injection P as <- _.
    rewrite S. cbn. now rewrite S.
  - destruct H as [-> ->]. destruct p as [|c p]; [reflexivity|]. cbn [list_ascii_of_string existsb] in X. apply orb_false_iff in X as [-> _]. reflexivity.
Qed.
Lemma absolute_parent p : absolute E (parent E p) = absolute E p.
Proof.
  pose proof (split_name p) as H. unfold parent. destruct (existsb (is_sep E) (list_ascii_of_string p)) eqn:X.
  - destruct H as (c & S & P). destruct (before_name E p) as [|x r].
    + cbn [String.append] in P. rewrite P. rewrite S. cbn. now rewrite S.
    + rewrite P. reflexivity.
  - destruct H as [-> _]. destruct p as [|c p]; [reflexivity|]. cbn [list_ascii_of_string existsb] in X. apply orb_false_iff in X as [X _]. cbn. now rewrite X.
Qed.
Lemma before_app p e : existsb (is_sep E) (list_ascii_of_string e) = false -> before_name E (p ++ e) = before_name E p.
Proof.
  intros S. induction p as [|c p IH]; cbn [String.append before_name].
  - destruct e as [|c e]; [reflexivity|]. cbn in S. apply orb_false_iff in S as [_ S]. cbn. now rewrite S.
  - rewrite seps_app, S, orb_false_r, IH. reflexivity.
Qed.
Lemma parent_app p e : existsb (is_sep E) (list_ascii_of_string e) = false -> parent E (p ++ e) = parent E p.
Proof.
  intros S. unfold parent. rewrite before_app by exact S. destruct p as [|c p]; [|reflexivity].
  destruct e as [|c e]; [reflexivity|]. cbn in S. apply orb_false_iff in S as [S _]. cbn. now rewrite S.
Qed.
Lemma parts_parent_join d x : absolute E x = false -> parts (parent E (join E d x)) = parts d ++ parts (parent E x).
Proof.
  intros A. apply app_inv_tail with (parts (file_name E x)). rewrite <- app_assoc, <- (parts_parent x), <- (parts_join d x) by exact A.
  rewrite (parts_parent (join E d x)). now rewrite file_name_join.
Qed.
Lemma relative_name p : absolute E (file_name E p) = false.
Proof.
  induction p as [|c p IH]; [reflexivity|]. cbn [file_name]. destruct (existsb _ _) eqn:X; [exact IH|].
  destruct (is_sep E c) eqn:S; [|exact S]. destruct p as [|y p]; [reflexivity|]. cbn in X. apply orb_false_iff in X as [X _]. exact X.
Qed.
Lemma join_app d x e : absolute E e = false -> (join E d x ++ e)%string = join E d (x ++ e).
Proof.
  intros A. unfold join. rewrite absolute_app by exact A. destruct (absolute E x); [reflexivity|]. destruct (last_chr d) as [c|]; [|reflexivity].
  destruct (is_sep E c); rewrite append_assoc; reflexivity.
Qed.

(** *** Where an included file is looked for *)
Lemma found_absolute p x : absolute E x = true -> found p x = x.
Proof. intros A. unfold found, join. now rewrite A. Qed.
Lemma found_relative p x : absolute E x = false -> absolute E (found p x) = absolute E p /\ parts (found p x) = parts (parent E p) ++ parts x.
Proof. intros A. unfold found. rewrite absolute_join, absolute_parent, parts_join by exact A. auto. Qed.

Hypothesis U : usual_sep E.
Definition an_ext (e : string) : Prop := e = ".cpp" \/ e = ".h".
Lemma ext_free e : an_ext e -> existsb (is_sep E) (list_ascii_of_string e) = false.
Proof. intros [->| ->]; cbn [list_ascii_of_string existsb]; now rewrite !(usual_letters E _ U) by discriminate. Qed.
Lemma ext_relative e : an_ext e -> absolute E e = false.
Proof. intros [->| ->]; cbn [absolute]; now rewrite (usual_letters E _ U) by discriminate. Qed.

(** From a file of the output [n] in [d]. *)
Lemma found_from d n e x : an_ext e -> absolute E n = false -> absolute E x = false ->
  absolute E (found (join E d n ++ e) x) = absolute E d /\ parts (found (join E d n ++ e) x) = parts d ++ parts (parent E n) ++ parts x.
Proof.
  intros X N A. destruct (found_relative (join E d n ++ e) x A) as [-> ->].
  rewrite absolute_app, absolute_join, parent_app, parts_parent_join, app_assoc; auto using ext_free, ext_relative.
Qed.
(** The file's own header. *)
Lemma found_own d n : same_path (found (join E d n ++ ".cpp") (file_name E n ++ ".h")) (join E d n ++ ".h").
Proof.
  assert (C : an_ext ".cpp") by now left. assert (H : an_ext ".h") by now right.
  assert (R : absolute E (file_name E n ++ ".h") = false) by (rewrite absolute_app by (now apply ext_relative); apply relative_name).
  unfold same_path. destruct (found_relative (join E d n ++ ".cpp") (file_name E n ++ ".h") R) as [-> ->].
  rewrite !absolute_app, (parts_parent (join E d n ++ ".h")), !parent_app, own_header; auto using ext_free, ext_relative.
Qed.
(** The header of the enumerations, from the source file for the structs. *)
Lemma found_enums d n m : absolute E n = false -> absolute E m = false ->
  same_path (found (join E d n ++ ".cpp") (m ++ ".h")) (join E d m ++ ".h") <-> parts (parent E n) = [].
Proof.
  intros N M. assert (C : an_ext ".cpp") by now left. assert (H : an_ext ".h") by now right.
  assert (R : absolute E (m ++ ".h") = false) by (rewrite absolute_app by (now apply ext_relative); exact M).
  unfold same_path. destruct (found_from d n ".cpp" (m ++ ".h") C N R) as [-> ->].
  rewrite join_app, absolute_join, parts_join by auto using ext_relative. split.
  - intros [_ X]. apply app_inv_head in X. change (parts (m ++ ".h")) with ([] ++ parts (m ++ ".h")) in X at 2. now apply app_inv_tail in X.
  - intros ->. auto.
Qed.
(** An input file of a configuration in the directory [base]. *)
Lemma found_input d n e base x : an_ext e -> absolute E n = false -> absolute E x = false ->
  same_path (found (join E d n ++ e) x) (join E base x) <-> absolute E d = absolute E base /\ parts d ++ parts (parent E n) = parts base.
Proof.
  intros X N A. unfold same_path. destruct (found_from d n e x X N A) as [-> ->]. rewrite absolute_join, parts_join, app_assoc by exact A. split.
  - intros [H1 H2]. apply app_inv_tail in H2. auto.
  - intros [-> ->]. auto.
Qed.
(** The single header, from a file beside it. *)
Lemma found_header p n e : an_ext e -> absolute E n = false -> parts (parent E n) = [] ->
  same_path (found (join E (parent E p) n ++ e) (file_name E p)) p.
Proof.
  intros X N Z. unfold same_path. destruct (found_from (parent E p) n e (file_name E p) X N (relative_name p)) as [-> ->].
  rewrite Z, absolute_parent, (parts_parent p). auto.
Qed.
End Paths.

(** *** The files on the disk *)
(** The standard and library headers that declare the types of a header. *)
Definition type_header (n : list string) : list string :=
  match n with
  | [q; t] =>
      if q =? "std" then
        (if t =? "string" then ["#include <string>"] else if t =? "map" then ["#include <map>"]
         else if t =? "FILE" then ["#include <cstdio>"] else [])
      else if ((q =? "tinyxml2") && (t =? "XMLElement"))%bool then ["#include <tinyxml2.h>"] else []
  | _ => []
  end.
Definition type_headers (t : ctype) : list string := match t with CT n args _ => type_header n ++ flat_map type_header args end.
Definition member_headers (m : hmember) : list string :=
  match m with
  | HFun _ ty _ ps => match ty with Some t => type_headers t | None => [] end ++ flat_map (fun p => type_headers (fst (fst p))) ps
  | HVar t _ _ => type_headers t
  | HStruct _ fs => flat_map (fun f => type_headers (fst f)) fs
  end.
Definition needed (d : hdecl) : list string :=
  match d with
  | HClass _ _ ms => flat_map (fun m => member_headers (snd m)) ms
  | HSpace _ ms => flat_map member_headers ms
  | HFormat _ ps body _ => "#include <fmt/format.h>" :: flat_map (fun p => type_headers (fst p)) ps
  end.

Lemma include_inj x y : include_file x = include_file y -> x = y.
Proof.
  unfold include_file. intros H. apply append_inj_l in H. revert y H. induction x as [|c x IH]; intros [|c' y] H; [reflexivity| | |].
  - exfalso. cbn [String.append] in H. injection H as _ H. destruct y; discriminate H.
  - exfalso. cbn [String.append] in H. injection H as _ H. destruct x; discriminate H.
  - cbn [String.append] in H. injection H as -> H. f_equal. now apply IH.
Qed.
Section Files.
Variables (E : env) (b : backend) (ds : list def) (ins : list string) (d : string) (o : output_spec) (w : Main.world).
Hypothesis H : has_program E b ds ins d o w.
Lemma includes_of : exists te he ts hs,
  file E d w (o_enum_file o) ".cpp" = Some te /\ file E d w (o_enum_file o) ".h" = Some he /\
  file E d w (o_structs_file o) ".cpp" = Some ts /\ file E d w (o_structs_file o) ".h" = Some hs /\
  directives te = enum_cpp_includes (file_name E (o_enum_file o) ++ ".h") ins /\ directives he = enum_h_includes ins /\
  directives ts = struct_cpp_includes b (o_only_read o) (file_name E (o_structs_file o) ++ ".h") (o_enum_file o) ins /\
  directives hs = struct_h_includes b ins.
Proof.
  destruct H as (enums & ss & te & ts & he & hs & L & _ & A1 & A2 & A3 & A4 & A5 & A6 & A7 & A8 & A9). exists te, he, ts, hs. auto 10.
Qed.

Lemma in_two A (f : A -> list string) (P : string -> Prop) l : (forall x, In x l -> forall y, In y (f x) -> P y) -> forall y, In y (flat_map f l) -> P y.
Proof. intros F y I. apply in_flat_map in I as (x & I & J). eauto. Qed.
Lemma reader_needs (P : string -> Prop) es ts cls : P "#include <string>" ->
  match b with B_xml_attrib | B_xml => P "#include <tinyxml2.h>" | _ => P "#include <map>" end ->
  forall l, In l (needed (reader_class b es ts cls)) -> P l.
Proof.
  intros S X l I. unfold needed, reader_class in I. apply in_flat_map in I as (m & I & J). rewrite !in_app_iff in I. destruct I as [I|[I|[I|I]]].
  - destruct b; cbn in I; intuition (subst; cbn in J; intuition (subst; auto)).
  - destruct I as [<-|[]]. destruct J.
  - apply in_map_iff in I as (t & <- & _). cbn in J. intuition (subst; auto).
  - apply in_flat_map in I as (t & _ & I). destruct b; cbn in I; intuition (subst; cbn in J; intuition (subst; auto)).
Qed.
Lemma xml_writer_needs (P : string -> Prop) es ts cls rd : P "#include <string>" -> P "#include <tinyxml2.h>" -> b = B_xml_attrib \/ b = B_xml ->
  forall l, In l (needed (writer_class b es ts cls rd)) -> P l.
Proof.
  intros S X B l I. unfold needed, writer_class in I. apply in_flat_map in I as (m & I & J). rewrite !in_app_iff in I. destruct I as [I|[I|[I|I]]].
  - destruct B as [-> | ->]; cbn in I; intuition (subst; cbn in J; intuition (subst; auto)).
  - destruct I as [<-|[]]. cbn in J. intuition (subst; auto).
  - apply in_map_iff in I as (t & <- & _). cbn in J. intuition (subst; auto).
  - apply in_flat_map in I as (t & _ & I). destruct B as [-> | ->]; cbn in I; intuition (subst; cbn in J; intuition (subst; auto)).
Qed.
(** The header for the structs includes what declares the types it uses, unless it has the
    writer of an ini format. *)
Lemma struct_header_needs : exists th hs, file E d w (o_structs_file o) ".h" = Some th /\ read_h th = Some hs /\
  ((forall l, In l (flat_map needed hs) -> In l (directives th)) <-> b = B_xml_attrib \/ b = B_xml \/ o_only_read o = true).
Proof.
  destruct (classes_of E b ds ins d o w H) as (th & ts & es & F & _ & _ & _ & _ & RD). destruct includes_of as (te & he & tc & th' & _ & _ & _ & F' & _ & _ & _ & D).
  rewrite F in F'. injection F' as <-. do 2 eexists. split; [exact F|]. split; [exact RD|]. rewrite D. unfold struct_h_includes.
  assert (S : In "#include <string>" (struct_h_includes b ins)) by (cbn; auto).
  assert (X : match b with B_xml_attrib | B_xml => In "#include <tinyxml2.h>" (struct_h_includes b ins) | _ => In "#include <map>" (struct_h_includes b ins) end)
    by (destruct b; cbn; auto).
  split.
  - intros A. destruct (o_only_read o); [auto|]. destruct b; auto; exfalso.
    + specialize (A "#include <cstdio>"). cbn [flat_map] in A. rewrite !in_app_iff in A. destruct A as [A|A]; [right; left; cbn; auto 10|cbn in A; intuition discriminate|]. apply in_map_iff in A as (f & A & _). discriminate A.
    + specialize (A "#include <cstdio>"). cbn [flat_map] in A. rewrite !in_app_iff in A. destruct A as [A|A]; [right; left; cbn; auto 10|cbn in A; intuition discriminate|]. apply in_map_iff in A as (f & A & _). discriminate A.
  - intros B l I. cbn [flat_map] in I. apply in_app_or in I as [I|I]; [revert l I; apply reader_needs; assumption|].
    destruct (o_only_read o); [destruct I|]. cbn [flat_map] in I. rewrite app_nil_r in I.
    destruct B as [B|[B|B]]; [| |discriminate].
    + revert l I. apply xml_writer_needs; [exact S|subst b; exact X|auto].
    + revert l I. apply xml_writer_needs; [exact S|subst b; exact X|auto].
Qed.
Lemma enum_header_needs : exists th hs, file E d w (o_enum_file o) ".h" = Some th /\ read_h th = Some hs /\
  forall l, In l (flat_map needed hs) -> In l (directives th).
Proof.
  destruct (enums_of E b ds ins d o w H) as (th & ns & F & _ & _ & RD). destruct includes_of as (te & he & tc & th' & _ & F' & _ & _ & _ & D & _).
  rewrite F in F'. injection F' as <-. do 2 eexists. split; [exact F|]. split; [exact RD|]. rewrite D. unfold enum_header. cbn [flat_map]. intros l I.
  apply in_app_or in I as [I|I].
  - unfold needed in I. apply in_flat_map in I as (m & I & J). apply in_flat_map in I as (n & _ & I). cbn in I. intuition (subst; cbn in J; intuition (subst; cbn; auto)).
  - apply in_flat_map in I as (m & I & J). apply in_map_iff in I as (n & <- & _). cbn in J. intuition (subst; cbn; auto).
Qed.

(** All files in one directory: the lookup beside the including file is enough. *)
Definition one_place (base : string) : Prop :=
  absolute E (o_enum_file o) = false /\ parts E (parent E (o_enum_file o)) = [] /\
  absolute E (o_structs_file o) = false /\ parts E (parent E (o_structs_file o)) = [] /\
  absolute E d = absolute E base /\ parts E d = parts E base /\ forall x, In x ins -> absolute E x = false.
Lemma all_found base : usual_sep E -> one_place base -> forall n e t x, n = o_enum_file o \/ n = o_structs_file o -> an_ext e ->
  file E d w n e = Some t -> In (include_file x) (directives t) ->
  exists q, same_path E (found E (join E d n ++ e) x) q /\
    ((exists m, (m = o_enum_file o \/ m = o_structs_file o) /\ q = (join E d m ++ ".h")%string) \/ exists f, In f ins /\ q = join E base f).
Proof.
  intros U (O1 & O2 & O3 & O4 & O5 & O6 & O7) n e t x N X F I. destruct includes_of as (te & he & ts & hs & F1 & F2 & F3 & F4 & D1 & D2 & D3 & D4).
  assert (IN : In (include_file x) (map include_file ins) -> exists q, same_path E (found E (join E d n ++ e) x) q /\
    ((exists m, (m = o_enum_file o \/ m = o_structs_file o) /\ q = (join E d m ++ ".h")%string) \/ exists f, In f ins /\ q = join E base f)).
  { intros J. apply in_map_iff in J as (f & Y & J). apply include_inj in Y. subst f. exists (join E base x). split; [|eauto].
    apply found_input; auto; [destruct N as [->| ->]; assumption|]. split; [exact O5|]. destruct N as [->| ->]; rewrite ?O2, ?O4, app_nil_r; exact O6. }
  destruct N as [->| ->], X as [->| ->]; rewrite ?F1, ?F2, ?F3, ?F4 in F; injection F as <-.
  - rewrite D1 in I. unfold enum_cpp_includes in I. cbn [app] in I. destruct I as [I|[I|[I|I]]]; try discriminate I; [|auto].
    apply include_inj in I. subst x. eexists. split; [now apply found_own|]. eauto.
  - rewrite D2 in I. unfold enum_h_includes in I. cbn [app] in I. destruct I as [I|[I|[I|I]]]; try discriminate I; auto.
  - rewrite D3 in I. unfold struct_cpp_includes in I. rewrite !in_app_iff in I. destruct I as [[I|[]]|[I|[I|I]]].
    + apply include_inj in I. subst x. eexists. split; [now apply found_own|]. eauto.
    + exfalso. destruct b, (o_only_read o); cbn in I; intuition discriminate.
    + destruct (String.eqb (o_enum_file o) "" || String.eqb (o_enum_file o) "-")%bool; [destruct I|]. destruct I as [I|[]]. apply include_inj in I. subst x.
      eexists. split; [apply found_enums; assumption|]. eauto.
    + auto.
  - rewrite D4 in I. unfold struct_h_includes in I. rewrite in_app_iff in I. destruct I as [I|I]; [|auto]. exfalso. destruct b; cbn in I; intuition discriminate.
Qed.
End Files.
