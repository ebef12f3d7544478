(** Property theorems about the item store and type resolution: C16-C24, C50. *)
From Coq Require Import String Ascii ZArith NArith Arith List Bool Lia Relations.
From Verif Require Import Base Map Flex Items Bison Grammar ParseLang LexGap Store Resolve StoreProps StoreDefs StoreRedef ResolveProps ItemsEnd.
Import ListNotations.
Local Open Scope string_scope.
Local Open Scope list_scope.

Definition text (s : string) : bytes := list_ascii_of_string s.
Definition run_text (s : string) (h : heap) : heap :=
  match process_input_file (Some (text s)) h with Some (h', _, _) => h' | None => h end.
Definition start : heap := Heap info0 info0.

(** *** C16.  [reach] (StoreProps.v): every history of callbacks, resolution passes and
    copies made by main; [one_namespace] says what the two maps and the lookup hold. *)
Theorem C16_one_name_space : forall b h, reach b h ->
  one_namespace (h_self h) /\ one_namespace (h_common h).
Proof. exact reach_namespace. Qed.

Theorem C16_every_call_is_defined : forall b h cs, reach b h ->
  exists h' m, apply_calls cs h = Some (h', m) /\ reach b h'.
Proof. exact reach_calls. Qed.

Theorem C16_every_file_is_a_history : forall fs b h, reach b h ->
  exists h' rs m, process_input_files fs h = Some (h', rs, m) /\ reach b h' /\ length rs = length fs.
Proof. exact inputs_reach. Qed.

Example C16_case :
  let h := run_text "enum e { a }; struct s { e x; }; struct e { int q; }; enum s { b };" start in
  mkeys (i_structs (h_self h)) = ["s"] /\ mkeys (i_enums (h_self h)) = ["e"] /\
  get_item_type (h_self h) "e" = enum_E /\ get_item_type (h_self h) "s" = struct_E /\
  get_item_type (h_self h) "q" = unknown_E.
Proof. vm_compute. repeat split. Qed.

(** *** C17.  [declares_struct], [declares_enum] (StoreDefs.v): what the definitions say. *)
Theorem C17_store_is_the_file : forall files dss, Forall2 text_of files dss ->
  NoDup (map def_name (concat dss)) ->
  exists h m, process_input_files (map Some files) (Heap info0 info0) = Some (h, map (fun _ => true) files, m) /\
    messages m = [] /\ holds_defs (h_self h) (concat dss).
Proof. exact distinct_files. Qed.

Example C17_case : text_of sample_text sample_file /\ NoDup (map def_name (concat [sample_file])) /\
  i_structs (h_self (run_text (string_of_list_ascii sample_text) start)) =
    [("Pen", StructS "Pen" [Simple int_E "w" "{3}"]
        [Complex enum_or_struct_E "Color" "c"; Complex vector_E "Pen" "more"] 0)] /\
  i_enums (h_self (run_text (string_of_list_ascii sample_text) start)) =
    [("Color", EnumS "Color" true [EnumLine "red" true "0x1"; EnumLine "green" false "-"])].
Proof.
  split; [exact sample_text_of|]. split; [|split; vm_compute; reflexivity].
  apply (NoDup_cons "Color"); [cbn; intuition discriminate|]. apply NoDup_cons; [auto|constructor].
Qed.

(** *** C18.  [more_lines]/[more_members]: the body of the redefinition is appended;
    [is_current]: to the definition that was current. *)
Theorem C18_redefinition : forall b h d, reach b h -> get_item_type (h_self h) (def_name d) <> unknown_E ->
  exists h', apply_calls (def_calls d) h = Some (h', [redefinition_message d]) /\
    (forall w, i_cur_struct (obj h' w) = i_cur_struct (obj h w) /\ i_cur_enum (obj h' w) = i_cur_enum (obj h w) /\
               i_parse_rv (obj h' w) = i_parse_rv (obj h w)) /\
    (forall w n, mfind n (i_enums (obj h' w)) =
       if is_current (i_cur_enum (h_self h)) w n then option_map (more_lines d) (mfind n (i_enums (obj h w)))
       else mfind n (i_enums (obj h w))) /\
    (forall w n, mfind n (i_structs (obj h' w)) =
       if is_current (i_cur_struct (h_self h)) w n then option_map (more_members d) (mfind n (i_structs (obj h w)))
       else mfind n (i_structs (obj h w))).
Proof. exact redefine. Qed.

Theorem C18_file_still_accepted : forall cs ds b h, text_of cs ds -> reach b h ->
  exists h' m, process_input_file (Some cs) h = Some (h', true, m).
Proof. exact accepted_anyway. Qed.

(** The second body of [p] is added to [q]; the enum body is dropped. *)
Example C18_case :
  i_structs (h_self (run_text "struct p { int a; }; struct q { int b; }; struct p { int c; q d; }; enum q { z };" start)) =
  [("p", StructS "p" [Simple int_E "a" "-"] [] 0);
   ("q", StructS "q" [Simple int_E "b" "-"; Simple int_E "c" "-"] [Complex enum_or_struct_E "q" "d"] 0)].
Proof. vm_compute. reflexivity. Qed.

(** *** C19 *)
Theorem C19_fresh_section_keeps_common : forall files b h h' rs m, reach b h ->
  starts_fresh (h_self h) (calls_of_files files) ->
  process_input_files files h = Some (h', rs, m) -> h_common h' = h_common h.
Proof. exact fresh_files. Qed.

Theorem C19_leak_into_common_struct : forall c x n ms n0 s0,
  reach false (Heap c x) -> i_cur_struct c = Some (HSelf, n0) ->
  mfind n0 (i_structs c) = Some s0 -> get_item_type c n <> unknown_E ->
  exists h' m, apply_calls (def_calls (DefStruct n ms)) (Heap (copy_info c) c) = Some (h', m) /\
    mfind n0 (i_structs (h_common h')) =
      Some (StructS (s_name s0) (s_simple s0 ++ simples ms) (s_complex s0 ++ complexes ms) (s_incoming s0)) /\
    mfind n0 (i_structs (h_self h')) = Some s0.
Proof. exact leak_struct. Qed.

Theorem C19_leak_into_common_enum : forall c x n cls es t n0 e0,
  reach false (Heap c x) -> i_cur_enum c = Some (HSelf, n0) ->
  mfind n0 (i_enums c) = Some e0 -> get_item_type c n <> unknown_E ->
  exists h' m, apply_calls (def_calls (DefEnum cls n es t)) (Heap (copy_info c) c) = Some (h', m) /\
    mfind n0 (i_enums (h_common h')) =
      Some (EnumS (e_name e0) (e_class e0) (e_lines e0 ++ map entry_line es)) /\
    mfind n0 (i_enums (h_self h')) = Some e0.
Proof. exact leak_enum. Qed.

(** A section redefining [p] changes the common struct [p]; one that first defines [q] does not. *)
Example C19_case :
  let c := h_self (run_text "struct p { int a; };" start) in
  i_structs (h_common (run_text "struct p { int b; };" (Heap (copy_info c) c))) =
    [("p", StructS "p" [Simple int_E "a" "-"; Simple int_E "b" "-"] [] 0)] /\
  i_structs (h_common (run_text "struct q { int z; }; struct p { int b; };" (Heap (copy_info c) c))) =
    [("p", StructS "p" [Simple int_E "a" "-"] [] 0)].
Proof. vm_compute. split; reflexivity. Qed.

(** *** C20 *)
Theorem C20_resolution : forall b h, reach b h -> let i := h_self h in
  (forall n s, mfind n (i_structs i) = Some s ->
     exists s', mfind n (i_structs (fst (fixup i))) = Some s' /\
       Forall2 (resolved i) (s_complex s) (s_complex s')) /\
  (snd (fixup i) = false <->
     exists n s c, mfind n (i_structs i) = Some s /\ In c (s_complex s) /\
       sc_type c = enum_or_struct_E /\ ~ declared i (sc_tname c)).
Proof. exact resolution_reach. Qed.

(** In terms of the definitions in the headers: the order plays no role. *)
Theorem C20_resolution_of_definitions : forall i ds, holds_defs i ds ->
  (forall n s, mfind n (i_structs (fst (fixup i))) = Some s <->
     exists ms, In (DefStruct n ms) ds /\ s = StructS n (simples ms) (resolved_members ds ms) 0) /\
  (forall n e, mfind n (i_enums (fst (fixup i))) = Some e <-> declares_enum ds n e).
Proof. exact fixup_defs. Qed.

Example C20_case :
  let i := h_self (run_text "struct a { b x; e y; u z; }; struct b { int q; }; enum e { v };" start) in
  (match mfind "a" (i_structs (fst (fixup i))) with Some s => map sc_type (s_complex s) | None => [] end)
    = [struct_E; enum_E; unknown_E] /\ snd (fixup i) = false.
Proof. vm_compute. split; reflexivity. Qed.

(** *** C21.  Also: the second pass reports success even if the first failed. *)
Theorem C21_idempotent : forall i, fixup (fst (fixup i)) = (fst (fixup i), true).
Proof. exact fixup_idem. Qed.

Theorem C21_touches_nothing_else : forall i, let j := fst (fixup i) in
  i_enums j = i_enums i /\ i_cur_struct j = i_cur_struct i /\ i_cur_enum j = i_cur_enum i /\
  i_parse_rv j = i_parse_rv i /\ mkeys (i_structs j) = mkeys (i_structs i) /\
  (forall n s, mfind n (i_structs i) = Some s -> exists s', mfind n (i_structs j) = Some s' /\
     s_name s' = s_name s /\ s_simple s' = s_simple s /\ s_incoming s' = s_incoming s /\
     map sc_name (s_complex s') = map sc_name (s_complex s) /\
     map sc_tname (s_complex s') = map sc_tname (s_complex s)).
Proof. exact fixup_frame. Qed.

(** *** C22.  [steps]: anything that happens to the section's copy. *)
Theorem C22_unresolved_stays_unresolved : forall c x n s k mem h, reach false (Heap c x) ->
  mfind n (i_structs c) = Some s -> nth_error (s_complex s) k = Some mem ->
  sc_type mem = enum_or_struct_E -> ~ declared c (sc_tname mem) ->
  steps (true, Heap (copy_info (common_processed c)) (common_processed c)) (true, h) ->
  exists s', mfind n (i_structs (h_self h)) = Some s' /\
    nth_error (s_complex s') k = Some (Complex unknown_E (sc_tname mem) (sc_name mem)).
Proof. exact stuck_unknown. Qed.

(** The type [t] is declared by the section, resolution reports success, the member
    stays unknown. *)
Example C22_case :
  let c := common_processed (h_self (run_text "struct p { t a; };" start)) in
  let h := run_text "struct t { int b; };" (Heap (copy_info c) c) in
  get_item_type (h_self h) "t" = struct_E /\ snd (fixup (h_self h)) = true /\
  mfind "p" (i_structs (fst (fixup (h_self h)))) = Some (StructS "p" [] [Complex unknown_E "t" "a"] 0).
Proof. vm_compute. repeat split. Qed.

(** *** C23 (the counters; the generated text is in P_Emit.v) *)
Theorem C23_counter_is_zero_iff_unreferenced : forall b h n s, reach b h ->
  mfind n (i_structs (find_top (h_self h))) = Some s ->
  (s_incoming s = 0 <-> ~ referenced (find_top (h_self h)) n).
Proof. exact top_spec. Qed.

(** A member left unknown by an earlier pass is not counted. *)
Example C23_case :
  let c := common_processed (h_self (run_text "struct p { t a; std::vector<q> b; }; struct q { int z; };" start)) in
  let h := run_text "struct t { int b; };" (Heap (copy_info c) c) in
  map (fun p => (fst p, s_incoming (snd p))) (i_structs (common_processed (h_self h))) = [("p", 0); ("q", 2); ("t", 0)].
Proof. vm_compute. reflexivity. Qed.

(** *** C24 *)
Theorem C24_acyclic_has_entry_point : forall b h, reach b h -> i_structs (h_self h) <> [] ->
  (forall n, ~ clos_trans _ (struct_refers (find_top (h_self h))) n n) ->
  exists n s, mfind n (i_structs (find_top (h_self h))) = Some s /\ s_incoming s = 0.
Proof. exact acyclic_top. Qed.

Theorem C24_cyclic_may_have_none : exists h, reach false h /\ i_structs (h_self h) <> [] /\
  snd (fixup (h_self h)) = true /\
  forall n s, mfind n (i_structs (common_processed (h_self h))) = Some s -> s_incoming s <> 0.
Proof. exact cyclic_none. Qed.

(** *** C50 *)
Theorem C50_files_are_cumulative : forall files dss cs0 b h, files <> [] ->
  Forall2 text_of files dss -> text_of cs0 (concat dss) -> reach b h ->
  exists h' m m0, process_input_files (map Some files) h = Some (h', map (fun _ => true) files, m) /\
    process_input_file (Some cs0) h = Some (h', true, m0) /\ messages m = messages m0.
Proof. exact cumulative. Qed.

Example C50_case :
  run_text "struct p { int b; };" (run_text "struct q { int a; }; struct p { int c; };" start) =
  run_text "struct q { int a; }; struct p { int c; }; struct p { int b; };" start.
Proof. vm_compute. reflexivity. Qed.

Print Assumptions C16_one_name_space.
Print Assumptions C16_every_call_is_defined.
Print Assumptions C16_every_file_is_a_history.
Print Assumptions C17_store_is_the_file.
Print Assumptions C18_redefinition.
Print Assumptions C18_file_still_accepted.
Print Assumptions C19_fresh_section_keeps_common.
Print Assumptions C19_leak_into_common_struct.
Print Assumptions C19_leak_into_common_enum.
Print Assumptions C20_resolution.
Print Assumptions C20_resolution_of_definitions.
Print Assumptions C21_idempotent.
Print Assumptions C21_touches_nothing_else.
Print Assumptions C22_unresolved_stays_unresolved.
Print Assumptions C23_counter_is_zero_iff_unreferenced.
Print Assumptions C24_acyclic_has_entry_point.
Print Assumptions C24_cyclic_may_have_none.
Print Assumptions C50_files_are_cumulative.
