(** Property theorems about two runs of the program: C87, C88. *)
From Coq Require Import String Ascii ZArith NArith Arith List Bool Lia.
From Verif Require Import Base Map Flex LexRules LexCorrect LexStep LexProps LexMore LexGap Items Bison Grammar ParseLang Store Resolve StoreProps StoreDefs
  Fmt Decimal Templates MainTemplates Emit Cpp SymLex Ast Val Prog Header Link Main MainProps RunProps Pipeline P_Main Layout Lexable LineEnds LineParse Shape Erase Depend P_Text.
Import ListNotations.
Local Open Scope string_scope.
Local Open Scope list_scope.

(** *** C87.  The program is run a second time.  [later E w]: the environment that a run in [E],
    which wrote the files of [w], leaves behind. *)
Definition later (E : env) (w : world) : env :=
  with_files E (fun q => e_exists E q || (if Cpp.assoc q (w_files w) then true else false))%bool (fun q => content E q w).
Definition left_by {A} (r : ran A) : world := match r with Go _ w => w | Stop w => w end.
(** The files that a run on the file [p] reads. *)
Definition reads (E : env) (p q : string) : Prop :=
  q = p \/ extension E p = ".stfx" /\ exists c f, e_conf E (e_disk E p) = CRead c /\ q = join E (parent E p) f /\
    (In f (c_in c) \/ exists s, In s (c_non c) /\ In f (fst s)).

Theorem C87_again : forall E argv0 args, let w := left_by (stfx E argv0 args) in
  (forall a rest p q, args = a :: rest -> e_canonical E a = Some p -> reads E p q -> Cpp.assoc q (w_files w) = None) ->
  stfx (later E w) argv0 args = stfx E argv0 args.
Proof.
  intros E argv0 args w H. symmetry. apply same_run_strict, stfx_same_at.
  - intros a rest p -> C. specialize (H a rest p). unfold same_inputs.
    assert (Same : forall q, reads E p q -> e_disk E q = content E q w) by (intros q Q; unfold content; now rewrite (H q eq_refl C Q)).
    destruct (String.eqb (extension E p) ".stfx") eqn:X; [|left; apply Same; now left].
    apply String.eqb_eq in X. split; [apply Same; now left|]. intros c EC f I. left. apply Same. right. split; [exact X|].
    rewrite <- (Same p) in EC by now left. eauto 8.
  - intros a rest ->. destruct (e_exists E a) eqn:X; [reflexivity|]. unfold w. destruct (missing_run E argv0 a rest X) as (v & -> & F). cbn. now rewrite F.
Qed.
(** A header: what matters is that it is not called like one of the files that are written. *)
Theorem C87_header : forall E argv0 a rest p, e_canonical E a = Some p -> extension E p <> ".stfx" -> usual_sep E ->
  ~ In p (four E (parent E p) single_spec) ->
  stfx (later E (left_by (stfx E argv0 (a :: rest)))) argv0 (a :: rest) = stfx E argv0 (a :: rest).
Proof.
  intros E argv0 a rest p C X U N. apply C87_again. intros a' r' p' q [= <- <-] C' R. rewrite C in C'. injection C' as <-.
  destruct R as [->|[Y _]]; [|contradiction]. destruct (e_exists E a) eqn:EX.
  - destruct (header_run E argv0 a rest p EX C X) as (r & w & -> & _ & info & h & m & _ & _ & F). cbn [left_by]. rewrite F.
    destruct r; [|reflexivity]. 
    rewrite assoc_puts. apply last_put_none. intros I. apply N. apply output_paths in I. unfold pair_paths in I.
    change (skipped (o_enum_file single_spec)) with false in I. change (skipped (o_structs_file single_spec)) with false in I. cbn iota in I.
    assert (NS : names_file E "enums" = true /\ names_file E "structs" = true) by (split; unfold names_file; cbn [last_chr]; now rewrite (usual_letters E _ U) by discriminate).
    destruct (paths E (parent E p) "enums" U (proj1 NS)) as [P1 P2]. destruct (paths E (parent E p) "structs" U (proj2 NS)) as [P3 P4].
    change (o_enum_file single_spec) with "enums" in I. change (o_structs_file single_spec) with "structs" in I. rewrite P1, P2, P3, P4 in I.
    unfold four. change (o_enum_file single_spec) with "enums". change (o_structs_file single_spec) with "structs".
    apply in_app_or in I. repeat match type of I with context [e_write E ?x] => destruct (e_write E x) end; cbn in *; tauto.
  - destruct (missing_run E argv0 a rest EX) as (w & -> & F). cbn. now rewrite F.
Qed.
(** A configuration file: nothing that it names as input, nor the file itself, is written. *)
Theorem C87_config : forall E argv0 a rest p, e_canonical E a = Some p -> extension E p = ".stfx" ->
  (forall c q, e_conf E (e_disk E p) = CRead c -> reads E p q -> ~ In q (flat_map (paths_of E (parent E p)) (outputs c))) ->
  stfx (later E (left_by (stfx E argv0 (a :: rest)))) argv0 (a :: rest) = stfx E argv0 (a :: rest).
Proof.
  intros E argv0 a rest p C X N. apply C87_again. intros a' r' p' q [= <- <-] C' R. rewrite C in C'. injection C' as <-.
  destruct (e_exists E a) eqn:EX; [|destruct (missing_run E argv0 a rest EX) as (w & -> & F); cbn; now rewrite F].
  pose proof (config_run E argv0 a rest p EX C X) as H. destruct (e_conf E (e_disk E p)) as [|c|] eqn:EC.
  - destruct H as (w & -> & F). cbn. now rewrite F.
  - destruct H as (w & -> & A & _). specialize (N c q eq_refl R). specialize (A q).
    assert (D : left_by (if existsb (blocked E (parent E p)) (outputs c) then Stop w else Go 0%Z w) = w) by (destruct existsb; reflexivity).
    rewrite D. destruct (Cpp.assoc q (w_files w)); [|reflexivity]. exfalso. apply N, A. discriminate.
  - destruct H as (w & -> & F). cbn. now rewrite F.
Qed.
Print Assumptions C87_again.
Print Assumptions C87_header.
Print Assumptions C87_config.
Example C87_case : let E := demo [("/d/a.h", h1)] [] CFail in let F := demo [("/d/c.stfx", ""); ("/d/a.h", h1)] [] (CRead conf1) in
  usual_sep E /\ extension E "/d/a.h" <> ".stfx" /\ ~ In "/d/a.h" (four E (parent E "/d/a.h") single_spec) /\
  (forall q, reads F "/d/c.stfx" q -> ~ In q (flat_map (paths_of F (parent F "/d/c.stfx")) (outputs conf1))) /\
  e_exists (later E (left_by (stfx E "stfx" ["/d/a.h"]))) "/d/enums.h" = true /\ e_exists E "/d/enums.h" = false.
Proof.
  split; [now left|]. split; [vm_compute; discriminate|]. split; [vm_compute; intros X; repeat destruct X as [X|X]; try discriminate X; exact X|].
  split; [|split; vm_compute; reflexivity].
  intros q [->|[_ (c & f & [= <-] & -> & I)]].
  - vm_compute. intros X. repeat destruct X as [X|X]; try discriminate X; exact X.
  - assert (J : In f ["a.h"; "none.h"; "bad.h"]).
    { destruct I as [[<-|[<-|[]]]|(s & [<-|[<-|[]]] & I)]; cbn in *; tauto. }
    destruct J as [<-|[<-|[<-|[]]]]; vm_compute; intros X; repeat destruct X as [X|X]; try discriminate X; exact X.
Qed.
(** A header called structs.h, and a common output that is the input of a section: the first
    run reports success, the second reads the code that the first has generated. *)
Example C87_again_refuted : exists E p, usual_sep E /\ status (stfx E "stfx" [p]) = Some 0%Z /\ 
  status (stfx (later E (left_by (stfx E "stfx" [p]))) "stfx" [p]) = Some 1%Z.
Proof. exists (demo [("/d/structs.h", string_of_list_ascii sample_text)] [] CFail), "/d/structs.h". split; [now left|]. vm_compute. split; reflexivity. Qed.

(** *** C88.  The constants of a header - initialisers and the values of enumerators - do not
    matter for the code that is generated. [same_shape]: equal up to them. *)
Theorem C88_constants_free : forall E d argv0 args,
  (forall a rest p, args = a :: rest -> e_canonical E a = Some p -> same_inputs Constants E d p) ->
  same_run Constants (stfx E argv0 args) (stfx (with_disk E d) argv0 args).
Proof. intros. now apply stfx_same. Qed.
(** One header: the same files, byte for byte. *)
Theorem C88_header : forall E d argv0 a rest p cs cs' ds ds', e_canonical E a = Some p -> extension E p <> ".stfx" ->
  e_disk E p = Some cs -> d p = Some cs' -> text_of cs ds -> text_of cs' ds' -> same_shape ds ds' ->
  w_files (left_by (stfx (with_disk E d) argv0 (a :: rest))) = w_files (left_by (stfx E argv0 (a :: rest))).
Proof.
  intros E d argv0 a rest p cs cs' ds ds' C X D D' T T' S.
  assert (R : same_run Constants (stfx E argv0 (a :: rest)) (stfx (with_disk E d) argv0 (a :: rest))).
  { apply C88_constants_free. intros a' r' p' [= <- <-] C'. rewrite C in C'. injection C' as <-. unfold same_inputs.
    apply String.eqb_neq in X. rewrite X. right. exists cs, cs', ds, ds'. auto 10. }
  revert R. destruct (stfx E argv0 (a :: rest)), (stfx (with_disk E d) argv0 (a :: rest)); cbn; try contradiction; [intros [_ [F _]]|intros [F _]]; auto.
Qed.
Print Assumptions C88_constants_free.
Print Assumptions C88_header.
Definition two_sorts (k v : string) (t : bool) : list def :=
  [DefEnum false "e" [Entry "x" (Some (CInt k)); Entry "y" None] t; DefStruct "t" [MSimple int_E "a" (Default (DInt v)); MUser "e" "b" NoDefault]].
Example C88_case : let ds := two_sorts "3" "7" false in let ds' := two_sorts "40" "8" true in
  let E := demo [("/d/a.h", string_of_list_ascii (print (file_tokens ds)))] [] CFail in
  let d p := if String.eqb p "/d/a.h" then Some (print (file_tokens ds')) else None in
  text_of (print (file_tokens ds)) ds /\ text_of (print (file_tokens ds')) ds' /\ same_shape ds ds' /\
  e_disk E "/d/a.h" <> d "/d/a.h" /\ files_of (stfx E "stfx" ["/d/a.h"]) = ["/d/enums.cpp"; "/d/enums.h"; "/d/structs.cpp"; "/d/structs.h"] /\
  w_files (left_by (stfx (with_disk E d) "stfx" ["/d/a.h"])) = w_files (left_by (stfx E "stfx" ["/d/a.h"])).
Proof.
  cbv zeta.
  assert (T : text_of (print (file_tokens (two_sorts "3" "7" false))) (two_sorts "3" "7" false)).
  { eexists _, _, _. split; [vm_compute; reflexivity|]. split; [split; [discriminate|repeat constructor; discriminate]|vm_compute; reflexivity]. }
  assert (T' : text_of (print (file_tokens (two_sorts "40" "8" true))) (two_sorts "40" "8" true)).
  { eexists _, _, _. split; [vm_compute; reflexivity|]. split; [split; [discriminate|repeat constructor; discriminate]|vm_compute; reflexivity]. }
  assert (S : same_shape (two_sorts "3" "7" false) (two_sorts "40" "8" true)) by (repeat constructor).
  split; [exact T|]. split; [exact T'|]. split; [exact S|]. split; [vm_compute; discriminate|]. split; [vm_compute; reflexivity|].
  refine (C88_header _ _ _ _ _ "/d/a.h" _ _ _ _ _ _ _ _ T T' S); [reflexivity|vm_compute; discriminate|vm_compute; reflexivity|reflexivity].
Qed.
