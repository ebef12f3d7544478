(** Last steps for the property theorems on the item store. *)
From Coq Require Import String Ascii ZArith NArith Arith List Bool Lia Relations.
From Verif Require Import Base Map Flex Items Bison Grammar ParseLang LexGap Store Resolve StoreProps StoreDefs StoreRedef ResolveProps.
Import ListNotations.
Local Open Scope string_scope.
Local Open Scope list_scope.

Lemma set_rv_holds i rv ds : holds_defs i ds -> holds_defs (set_rv i rv) ds.
Proof. exact (fun H => H). Qed.

Lemma distinct_files files dss : Forall2 text_of files dss -> NoDup (map def_name (concat dss)) ->
  exists h m, process_input_files (map Some files) (Heap info0 info0) = Some (h, map (fun _ => true) files, m) /\
    messages m = [] /\ holds_defs (h_self h) (concat dss).
Proof.
  intros Ht Hn. destruct (inputs_text files dss Ht false (Heap info0 info0) R_start) as (h' & m & sm & E & P & M).
  assert (Hf : forall d, In d (concat dss) -> get_item_type info0 (def_name d) = unknown_E) by reflexivity.
  rewrite (defs_fresh (concat dss) info0 info0 Hn Hf) in E. injection E as <- <-.
  destruct (fold_defs_find (concat dss) info0 Hn Hf) as [H1 H2]; [constructor|constructor|].
  do 2 eexists. split; [exact P|]. split; [exact M|].
  assert (H : holds_defs (fold_left (fun i d => add_def d i) (concat dss) info0) (concat dss)).
  { split; [intros n s; rewrite H1|intros n e; rewrite H2]; (split; [intros [H|H]; [discriminate|exact H]|auto]). }
  destruct files; [|exact H]. inversion Ht; subst. exact H.
Qed.

Lemma sample_text_of : text_of sample_text sample_file.
Proof.
  destruct (scan_text sample_text) as [[[its le] ee]|] eqn:E; [|vm_compute in E; discriminate].
  exists its, le, ee. split; [exact E|]. split; [split; [discriminate|repeat constructor; discriminate]|].
  assert (H : match scan_text sample_text with Some (its, _, _) => map i_tok its | None => [] end
              = file_tokens sample_file) by (vm_compute; reflexivity).
  rewrite E in H. exact H.
Qed.

Lemma resolution_reach b h : reach b h -> let i := h_self h in
  (forall n s, mfind n (i_structs i) = Some s ->
     exists s', mfind n (i_structs (fst (fixup i))) = Some s' /\
       Forall2 (resolved i) (s_complex s) (s_complex s')) /\
  (snd (fixup i) = false <->
     exists n s c, mfind n (i_structs i) = Some s /\ In c (s_complex s) /\
       sc_type c = enum_or_struct_E /\ ~ declared i (sc_tname c)).
Proof. intros R i. apply fixup_spec. apply (inv_self _ _ (reach_inv _ _ R)). Qed.

Lemma cyclic_none : exists h, reach false h /\ i_structs (h_self h) <> [] /\
  snd (fixup (h_self h)) = true /\
  forall n s, mfind n (i_structs (common_processed (h_self h))) = Some s -> s_incoming s <> 0.
Proof.
  destruct (reach_calls false (Heap info0 info0) (def_calls (DefStruct "t" [MVector "t" "v"])) R_start) as (h & m & E & R).
  exists h. split; [exact R|]. cbn in E. injection E as <- <-. split; [discriminate|]. split; [reflexivity|].
  intros n s. cbn. destruct (String.eqb n "t"); [|discriminate]. intros [= <-]. discriminate.
Qed.

Lemma cumulative files dss cs0 b h : files <> [] ->
  Forall2 text_of files dss -> text_of cs0 (concat dss) -> reach b h ->
  exists h' m m0, process_input_files (map Some files) h = Some (h', map (fun _ => true) files, m) /\
    process_input_file (Some cs0) h = Some (h', true, m0) /\ messages m = messages m0.
Proof.
  intros Hne Ht Hc R. destruct (inputs_text files dss Ht b h R) as (h' & m & sm & E & P & M).
  destruct (input_text cs0 (concat dss) h h' m Hc E) as (sm0 & P0 & M0).
  exists (Heap (set_rv (h_self h') 0) (h_common h')), sm, sm0. split; [|split; [exact P0|congruence]].
  rewrite P. destruct files; [congruence|reflexivity].
Qed.
