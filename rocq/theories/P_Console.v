(** Property theorems about what a run prints: C89. *)
From Coq Require Import String Ascii ZArith NArith Arith List Bool Lia.
From Verif Require Import Base Map Flex Items Bison Grammar ParseLang Store Resolve Fmt Decimal Templates MainTemplates
  Emit Val StoreProps StoreDefs Main MainProps RunProps Console P_Main.
Import ListNotations.
Local Open Scope string_scope.
Local Open Scope list_scope.

(** *** C89.  [own]: the lines that a run prints itself; the specification of each is in
    Console.v ([tell_...]). *)
Theorem C89_config : forall E argv0 a rest p c, e_exists E a = true -> e_canonical E a = Some p -> extension E p = ".stfx" -> e_conf E (e_disk E p) = CRead c ->
  existsb (blocked E (parent E p)) (outputs c) = false ->
  (forall f, names c f -> ~ In (join E (parent E p) f) (flat_map (paths_of E (parent E p)) (outputs c))) ->
  exists w, stfx E argv0 (a :: rest) = Go 0%Z w /\ own (w_log w) = filter nonempty (ln (e_stamp E) :: tell_config E (parent E p) c ++ [tell_final 0]).
Proof. exact config_says. Qed.
Theorem C89_header : forall E argv0 a rest p, e_exists E a = true -> e_canonical E a = Some p -> extension E p <> ".stfx" ->
  exists h r m w, process_input_file (e_disk E p) (Heap info0 info0) = Some (h, r, m) /\ (r = true <-> good_input (e_disk E p)) /\
  stfx E argv0 (a :: rest) = Go (if r then 0%Z else 1%Z) w /\
  own (w_log w) = filter nonempty (ln (e_stamp E) :: tell_opened p (there (e_disk E p)) ::
    (if r then tell_parsed p true :: tell_items E B_xml_attrib (parent E p) (h_self h) single_spec ++
                 [ln ("Processing items done. Success = " ++ bool_text (all_known E B_xml_attrib (parent E p) (h_self h) single_spec))]
     else [ln ("Failed to correctly parse '" ++ p ++ "' code " ++ zdec (i_parse_rv (h_self h)))]) ++ [tell_final (if r then 0%Z else 1%Z)]).
Proof. exact header_says. Qed.

(** Failures of inputs: the line is there exactly if there is such an input. *)
Lemma append_len (a b : string) : String.length (a ++ b) = String.length a + String.length b.
Proof. induction a as [|x a IH]; [reflexivity|]. cbn. now rewrite IH. Qed.
Lemma append_cut (a b c : string) : (a ++ c)%string = (b ++ c)%string -> a = b.
Proof.
  revert b. induction a as [|x a IH]; intros [|y b]; cbn; intros H; auto.
  - exfalso. apply (f_equal String.length) in H. cbn in H. rewrite append_len in H. lia.
  - exfalso. apply (f_equal String.length) in H. cbn in H. rewrite append_len in H. lia.
  - injection H as -> H. f_equal. auto.
Qed.
Definition failed_line (p : string) : string := tell_parsed p false.
Lemma failed_inj p q : failed_line p = failed_line q -> p = q.
Proof. unfold failed_line, tell_parsed, ln. intros H. apply append_cut in H. cbn in H. repeat injection H as H. exact H. Qed.
Definition no_E (s : string) : Prop := forall r, s <> String "E" r.
Lemma no_E_app a b : no_E a -> no_E b -> no_E (a ++ b)%string.
Proof. intros A B r. destruct a as [|c a]; [apply B|]. cbn. intros [= -> _]. exact (A a eq_refl). Qed.
Lemma no_E_block b o ss : no_E (tell_structs b o ss).
Proof.
  assert (M : no_E (tell_members b ss)).
  { unfold tell_members. induction (flat_map s_complex ss) as [|m ms IH]; [discriminate|]. cbn [map]. rewrite concat_cons. apply no_E_app; [|exact IH].
    intros r. unfold tell_member. destruct b, (sc_type m); discriminate. }
  unfold tell_structs. apply no_E_app; [exact M|]. destruct (o_only_read o); [discriminate|exact M].
Qed.
Lemma failed_no_E p s : no_E s -> failed_line p <> s.
Proof. intros N H. symmetry in H. exact (N _ H). Qed.
Lemma not_in_output E shown t base i o p : ~ In (failed_line p) (tell_output E shown t base i o).
Proof.
  assert (PR : forall a b c h w, (exists x, a = String "O" x) -> (exists x, b = String "O" x) -> no_E w -> ~ In (failed_line p) (tell_pair E a b c h w)).
  { intros a b c h w [x ->] [y ->] W. unfold tell_pair. destruct (e_write E c); [destruct (e_write E h)|]; cbn [In]; intros H;
      repeat destruct H as [H|H]; try discriminate H; try contradiction. exact (W _ H). }
  unfold tell_output. destruct (backend_of t) as [b|]; [|intros [H|[]]; discriminate H].
  unfold tell_items. intros [H|H]; [discriminate H|]. apply in_app_or in H as [H|H]; revert H.
  - unfold tell_enums. destruct (skipped _); [intros [H|[]]; discriminate H|]. apply PR; [eexists; reflexivity..|discriminate].
  - unfold tell_structs_files. destruct (skipped _); [intros [H|[]]; discriminate H|]. apply PR; [eexists; reflexivity..|apply no_E_block].
Qed.
Lemma in_inputs E base fs rs p : Forall2 (fun f r => r = true <-> good_input (e_disk E (join E base f))) fs rs ->
  (In (failed_line p) (tell_inputs E base fs rs) <-> exists f, In f fs /\ join E base f = p /\ ~ good_input (e_disk E p)).
Proof.
  induction 1 as [|f r fs rs G _ IH]; cbn [tell_inputs In]; [split; [contradiction|intros (f & [] & _)]|].
  rewrite IH. split.
  - intros [H|[H|(g & I & J)]]; [unfold tell_opened in H; destruct (there _); discriminate H| |exists g; tauto].
    unfold tell_parsed in H. destruct r; [discriminate H|]. apply failed_inj in H. subst p. exists f. split; [auto|]. split; [reflexivity|]. intros X. apply G in X. discriminate.
  - intros (g & [<-|I] & J & K); [|right; right; eauto]. right. left. destruct r; [exfalso; apply K; rewrite <- J; now apply G|]. now rewrite J.
Qed.

Lemma files_good E base fs : forall b h h' rs m, reach b h -> process_input_files (disk_of E base fs) h = Some (h', rs, m) -> reach b h' /\
  Forall2 (fun f r => r = true <-> good_input (e_disk E (join E base f))) fs rs.
Proof.
  induction fs as [|f fs IH]; intros b h h' rs m R; cbn [disk_of map process_input_files]; [intros [= <- <- _]; auto|].
  destruct (input_result (e_disk E (join E base f)) b h R) as (h1 & r & m1 & -> & R1 & G). fold (disk_of E base fs).
  destruct (process_input_files (disk_of E base fs) h1) as [[[h2 rs2] m2]|] eqn:P; [|discriminate]. intros [= <- <- _].
  destruct (IH b h1 h2 rs2 m2 R1 P) as [R2 F]. split; [exact R2|]. now constructor.
Qed.
Lemma files_defined E base fs : forall b h, reach b h -> process_input_files (disk_of E base fs) h <> None.
Proof.
  induction fs as [|f fs IH]; intros b h R; cbn [disk_of map process_input_files]; [discriminate|].
  destruct (input_result (e_disk E (join E base f)) b h R) as (h1 & r & m1 & -> & R1 & G). fold (disk_of E base fs).
  specialize (IH b h1 R1). destruct (process_input_files (disk_of E base fs) h1) as [[[? ?] ?]|]; [discriminate|contradiction].
Qed.
Lemma in_sections E base shown ss p : forall c, reach true (Heap (copy_info c) c) ->
  (In (failed_line p) (tell_sections E base shown ss c) <-> exists s f, In s ss /\ In f (fst s) /\ join E base f = p /\ ~ good_input (e_disk E p)).
Proof.
  induction ss as [|[fs [t o]] ss IH]; intros c R; cbn [tell_sections]; [split; [intros []|intros (s & f & [] & _)]|].
  destruct (process_input_files (disk_of E base fs) (Heap (copy_info c) c)) as [[[h rs] m]|] eqn:P; [|now apply (files_defined E base fs true) in P].
  destruct (files_good E base fs true _ h rs m R P) as [R1 G]. rewrite !in_app_iff, (in_inputs E base fs rs p G), (IH (h_common h)) by (destruct h as [hs hc]; exact (R_next_section _ R1)).
  split.
  - intros [(f & I & J)|[X|(s & f & I & J)]]; [exists (fs, (t, o)), f; cbn; auto|now apply not_in_output in X|exists s, f; cbn; auto].
  - intros (s & f & [<-|I] & J); [left; cbn in J; eauto|right; right; eauto].
Qed.
Theorem C89_bad_inputs : forall E argv0 a rest p c, e_exists E a = true -> e_canonical E a = Some p -> extension E p = ".stfx" -> e_conf E (e_disk E p) = CRead c ->
  existsb (blocked E (parent E p)) (outputs c) = false ->
  (forall f, names c f -> ~ In (join E (parent E p) f) (flat_map (paths_of E (parent E p)) (outputs c))) ->
  (forall r, e_stamp E <> String "E" r) ->
  exists w, stfx E argv0 (a :: rest) = Go 0%Z w /\ forall q,
    In ("ERROR : failed to process " ++ q ++ NL)%string (own (w_log w)) <-> exists f, names c f /\ join E (parent E p) f = q /\ ~ good_input (e_disk E q).
Proof.
  intros E argv0 a rest p c X C N EC B O ST. destruct (config_says E argv0 a rest p c X C N EC B O) as (w & Q & W). exists w. split; [exact Q|]. intros q.
  assert (FL : ("ERROR : failed to process " ++ q ++ NL)%string = failed_line q) by reflexivity.
  rewrite FL, W, filter_In. cbn [In]. set (base := parent E p) in *.
  assert (NE : nonempty (failed_line q) = true) by reflexivity. rewrite NE.
  assert (HD : ln (e_stamp E) = failed_line q <-> False).
  { split; [|contradiction]. intros H. unfold ln in H. destruct (e_stamp E) as [|x r]; [discriminate H|]. injection H as -> _. exact (ST r eq_refl). }
  rewrite HD, in_app_iff. cbn [In].
  assert (FI : tell_final 0 = failed_line q <-> False) by (split; [discriminate|contradiction]). rewrite FI.
  unfold tell_config. destruct (process_input_files (disk_of E base (c_in c)) (Heap info0 info0)) as [[[h rs] m]|] eqn:P; [|now apply (files_defined E base (c_in c) false _ R_start) in P].
  destruct (files_good E base (c_in c) false _ h rs m R_start P) as [R1 G]. destruct (c_out c) as [t o] eqn:CO.
  rewrite in_app_iff. cbn [In]. rewrite in_app_iff, (in_inputs E base (c_in c) rs q G), in_sections.
  2:{ unfold after_output. destruct h as [hs hc]. destruct (backend_of t); [exact (R_first_section _ (R_top _ _ (R_fixup _ _ R1)))|exact (R_first_section _ R1)]. }
  split.
  - intros [[[]|[[(f & I & J)|[Y|[Y|(s & f & I & J & K)]]]|[[]|[]]]] _]; [exists f; split; [now left|exact J]|discriminate Y|now apply not_in_output in Y|].
    exists f. split; [right; eauto|exact K].
  - intros (f & [I|(s & I & I')] & J); split; try reflexivity; right; left; [left; eauto|right; right; right; eauto].
Qed.
Print Assumptions C89_config.
Print Assumptions C89_header.
Print Assumptions C89_bad_inputs.

(** Members of unknown type, for outputs whose files can be opened. *)
Definition untold (b : backend) (m : struct_complex) : Prop :=
  b = B_ini \/ sc_type m <> unknown_E /\ sc_type m <> enum_or_struct_E /\ (b = B_n_ini -> sc_type m <> vector_E).
Lemma told_member b m : tell_member b m = "" <-> untold b m.
Proof.
  unfold tell_member, untold. destruct b, (sc_type m) eqn:T; split; intros H; try discriminate H; try reflexivity; auto;
    try (right; repeat split; intros; congruence); exfalso; destruct H as [H|(A & B & C)]; try discriminate H; try congruence.
  exact (C eq_refl eq_refl).
Qed.
Lemma app_empty (a b : string) : (a ++ b)%string = "" <-> a = "" /\ b = "".
Proof. destruct a; cbn; split; try (intros [A B]); auto; try discriminate. Qed.
Lemma concat_empty l : String.concat "" l = "" <-> Forall (fun s => s = "") l.
Proof.
  induction l as [|a l IH]; [split; auto|]. rewrite concat_cons, app_empty, IH. split; [intros [A B]; auto|]. intros H. now inversion H.
Qed.
Theorem C89_no_warning : forall b o ss, tell_structs b o ss = "" <-> forall s m, In s ss -> In m (s_complex s) -> untold b m.
Proof.
  intros b o ss. assert (M : tell_members b ss = "" <-> forall s m, In s ss -> In m (s_complex s) -> untold b m).
  { unfold tell_members. rewrite concat_empty, Forall_forall. split.
    - intros H s m I J. apply told_member, H. apply in_map, in_flat_map. eauto.
    - intros H x X. apply in_map_iff in X as (m & <- & X). apply in_flat_map in X as (s & I & J). apply told_member. eauto. }
  unfold tell_structs. rewrite app_empty. destruct (o_only_read o); rewrite M; tauto.
Qed.
Theorem C89_warned : forall b o ss s m, b <> B_ini -> In s ss -> In m (s_complex s) -> sc_type m = unknown_E ->
  exists x y, tell_structs b o ss = (x ++ (TAB ++ "// WARNING FAILED TO PROCESS " ++ sc_name m ++ NL) ++ y)%string.
Proof.
  intros b o ss s m NB I J U. assert (K : In (tell_member b m) (map (tell_member b) (flat_map s_complex ss))) by (apply in_map, in_flat_map; eauto).
  apply in_split in K as (l & r & K). unfold tell_structs, tell_members. rewrite K, concat_app, concat_cons.
  assert (T : tell_member b m = (TAB ++ "// WARNING FAILED TO PROCESS " ++ sc_name m ++ NL)%string).
  { unfold tell_member. rewrite U. destruct b; try contradiction; reflexivity. }
  rewrite T. set (w := (TAB ++ _)%string). clearbody w. exists (String.concat "" l).
  exists (String.concat "" r ++ (if o_only_read o then "" else String.concat "" l ++ w ++ String.concat "" r))%string. rewrite !append_assoc. reflexivity.
Qed.
Print Assumptions C89_no_warning.
Print Assumptions C89_warned.
(** One bad input, a member of unknown type, and a file that cannot be opened; exit status 0. *)
Definition in_lines (l : string) (r : ran Z) : bool := existsb (String.eqb l) (own (w_log match r with Go _ w => w | Stop w => w end)).
Definition conf_case : conf := Conf ["a.h"; "bad.h"] (1%Z, o_at "" "e" "s") [].
Example C89_case : let E := demo [("/d/c.stfx", ""); ("/d/a.h", h1); ("/d/bad.h", "enum {")] ["/d/e.h"] (CRead conf_case) in
  extension E "/d/c.stfx" = ".stfx" /\ existsb (blocked E (parent E "/d/c.stfx")) (outputs conf_case) = false /\
  (forall f, names conf_case f -> ~ In (join E (parent E "/d/c.stfx") f) (flat_map (paths_of E (parent E "/d/c.stfx")) (outputs conf_case))) /\
  let r := stfx E "stfx" ["/d/c.stfx"] in status r = Some 0%Z /\
  forallb (fun l => in_lines l r)
    ["ERROR : failed to process /d/bad.h" ++ NL; NL ++ "ERROR : Failed to open output file e.h" ++ NL;
     TAB ++ "// WARNING FAILED TO PROCESS b" ++ NL ++ TAB ++ "// WARNING FAILED TO PROCESS b" ++ NL;
     NL ++ "Processing successful. Returning 0 to caller" ++ NL]%string = true /\
  in_lines ("ERROR : failed to process /d/a.h" ++ NL) r = false.
Proof.
  cbv zeta. split; [vm_compute; reflexivity|]. split; [vm_compute; reflexivity|]. split.
  - intros f [[<-|[<-|[]]]|(s & [] & _)]; vm_compute; intros X; repeat destruct X as [X|X]; try discriminate X; exact X.
  - vm_compute. repeat split.
Qed.
(** A member of unknown type is not reported at all when the struct files are left to another
    output, and never for the type ini. *)
Definition own_of (r : ran Z) : list string := own (w_log match r with Go _ w => w | Stop w => w end).
Example C89_silent_refuted : let r s t x := stfx (demo [("/d/c.stfx", ""); ("/d/a.h", x)] [] (CRead (Conf ["a.h"] (t, o_at "" "e" s) []))) "stfx" ["/d/c.stfx"] in
  let good := "struct t { int a; int b; };" in let bad := "struct t { int a; u b; };" in
  own_of (r "-" 1%Z bad) = own_of (r "-" 1%Z good) /\ own_of (r "s" 2%Z bad) = own_of (r "s" 2%Z good) /\
  status (r "s" 2%Z bad) = Some 0%Z /\ own_of (r "s" 1%Z bad) <> own_of (r "s" 1%Z good).
Proof. cbv zeta. split; [vm_compute; reflexivity|]. split; [vm_compute; reflexivity|]. split; [vm_compute; reflexivity|]. vm_compute. discriminate. Qed.
