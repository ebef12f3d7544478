(** From the command line to the generated program. *)
From Coq Require Import String Ascii ZArith NArith Arith List Bool Lia.
From Verif Require Import Base Map Flex Items Bison Grammar Store Resolve StoreProps StoreDefs ResolveProps ItemsEnd
  Fmt Decimal Templates MainTemplates Emit Cpp CppH Xml Val CppSem SymLex Ast HeadSpec PrintFile PrintH Direct Prog Header Link Main MainProps RunProps.
Import ListNotations.
Local Open Scope string_scope.
Local Open Scope list_scope.

Section Pipeline.
Variable E : env.

(** *** File names *)
Lemma file_name_behind d q c : last_chr d = Some c -> is_sep E c = true -> file_name E (d ++ q) = file_name E q.
Proof.
  intros L S. induction d as [|e d IH]; [discriminate|]. cbn [String.append file_name]. destruct d as [|e' d].
  - cbn in L. injection L as ->. cbn [String.append]. rewrite S. destruct (existsb _ _) eqn:X; [reflexivity|].
    change q with ("" ++ q)%string at 2. rewrite file_name_app by exact X. reflexivity.
  - assert (X : existsb (is_sep E) (list_ascii_of_string (String e' d ++ q)) = true).
    { rewrite seps_app. apply orb_true_iff. left. clear - L S. revert e' L. induction d as [|x d IH]; intros e' L.
      - cbn in L. injection L as ->. cbn [list_ascii_of_string existsb]. now rewrite S.
      - cbn [list_ascii_of_string existsb]. apply orb_true_iff. right. apply IH. exact L. }
    rewrite X. apply IH. exact L.
Qed.
Lemma file_name_join d x : file_name E (join E d x) = file_name E x.
Proof.
  unfold join. destruct (absolute E x); [reflexivity|]. destruct (last_chr d) as [c|] eqn:L; [|reflexivity].
  destruct (is_sep E c) eqn:S; [eapply file_name_behind; eauto|].
  replace (d ++ String (e_sep E) x)%string with ((d ++ String (e_sep E) "") ++ x)%string by (rewrite append_assoc; reflexivity).
  apply file_name_behind with (c := e_sep E); [now rewrite last_app|]. unfold is_sep. now rewrite Ascii.eqb_refl, orb_true_r.
Qed.
Lemma plain_file_name x : plain x = true -> plain (file_name E x) = true.
Proof.
  induction x as [|c x IH]; [reflexivity|]. unfold plain in *. cbn [file_name]. intros H. cbn [all_chars] in H. apply andb_prop in H as [A B].
  destruct (existsb _ _); [auto|]. destruct (is_sep E c); [exact B|]. cbn. now rewrite A, B.
Qed.
Lemma plain_path d x e : usual_sep E -> plain x = true -> (e = ".cpp" \/ e = ".h") -> plain (file_name E (join E d x ++ e)) = true.
Proof.
  intros U P X. rewrite file_name_app.
  - rewrite file_name_join, plain_app, plain_file_name by exact P. destruct X as [->| ->]; reflexivity.
  - destruct X as [->| ->]; cbn [list_ascii_of_string existsb]; rewrite !(usual_letters E _ U) by discriminate; reflexivity.
Qed.

Lemma own_header d x : usual_sep E -> file_name E (join E d x ++ ".h") = (file_name E x ++ ".h")%string.
Proof.
  intros U. rewrite file_name_app; [now rewrite file_name_join|]. cbn [list_ascii_of_string existsb]. rewrite !(usual_letters E _ U) by discriminate. reflexivity.
Qed.

(** *** One output *)
(** Both files are wanted, have ordinary and different names, and can be written. *)
Definition four (d : string) (o : output_spec) : list string :=
  [(join E d (o_enum_file o) ++ ".cpp")%string; (join E d (o_enum_file o) ++ ".h")%string;
   (join E d (o_structs_file o) ++ ".cpp")%string; (join E d (o_structs_file o) ++ ".h")%string].
Definition regular (d : string) (o : output_spec) : Prop :=
  skipped (o_enum_file o) = false /\ skipped (o_structs_file o) = false /\
  names_file E (o_enum_file o) = true /\ names_file E (o_structs_file o) = true /\
  join E d (o_enum_file o) <> join E d (o_structs_file o) /\
  plain (o_enum_file o) = true /\ plain (o_structs_file o) = true /\
  forall q, In q (four d o) -> e_write E q = true.
(** The source files of the output are those of the program for the definitions [ds], and
    the headers declare its classes and functions; [inputs]: the input files as named in
    the include directives. *)
Definition has_program (b : backend) (ds : list def) (inputs : list string) (d : string) (o : output_spec) (w : world) : Prop :=
  exists enums ss te ts he hs, linked ds enums ss /\
    (forall s, In s ss -> (s_incoming s = 0%nat <-> ~ used ds (s_name s))) /\
    Cpp.assoc (join E d (o_enum_file o) ++ ".cpp")%string (w_files w) = Some te /\ read_cpp te = Some (flat_map enum_funs enums) /\
    Cpp.assoc (join E d (o_structs_file o) ++ ".cpp")%string (w_files w) = Some ts /\ read_cpp ts = Some (file_funs b ss o) /\
    Cpp.assoc (join E d (o_enum_file o) ++ ".h")%string (w_files w) = Some he /\ read_h he = Some (enum_header (map e_name enums)) /\
    Cpp.assoc (join E d (o_structs_file o) ++ ".h")%string (w_files w) = Some hs /\ read_h hs = Some (struct_header b ss o) /\
    directives te = enum_cpp_includes (file_name E (o_enum_file o) ++ ".h") inputs /\ directives he = enum_h_includes inputs /\
    directives ts = struct_cpp_includes b (o_only_read o) (file_name E (o_structs_file o) ++ ".h") (o_enum_file o) inputs /\
    directives hs = struct_h_includes b inputs.
Lemma has_program_keep b ds ins d o l w w' : same_but l w w' -> (forall q, In q (four d o) -> ~ In q l) ->
  has_program b ds ins d o w -> has_program b ds ins d o w'.
Proof.
  intros S D (enums & ss & te & ts & he & hs & L & T & A1 & A2 & A3 & A4 & A5 & A6 & A7 & A8 & A9). exists enums, ss, te, ts, he, hs.
  rewrite <- (S (join E d (o_enum_file o) ++ ".cpp")%string) in A1 by (apply D; cbn; auto).
  rewrite <- (S (join E d (o_structs_file o) ++ ".cpp")%string) in A3 by (apply D; cbn; auto).
  rewrite <- (S (join E d (o_enum_file o) ++ ".h")%string) in A5 by (apply D; cbn; auto).
  rewrite <- (S (join E d (o_structs_file o) ++ ".h")%string) in A7 by (apply D; cbn; auto). auto 18.
Qed.
Lemma has_program_same b ds ins d o w w' : same_but [] w w' -> has_program b ds ins d o w -> has_program b ds ins d o w'.
Proof. intros S. apply (has_program_keep _ _ _ _ _ [] _ _ S). auto. Qed.

Lemma items_program b base ds i x br inputs o w d : usual_sep E -> plain (e_stamp E) = true ->
  built ds i -> reach br (Heap i x) -> header_ok (o_reader o) (o_writer o) ds = true ->
  dir_for E base o = Some d -> regular d o -> forallb plain inputs = true ->
  exists r w', process_items E b base i inputs o w = Go (find_top (fst (fixup i)), r) w' /\ has_program b ds inputs d o w'.
Proof.
  intros U PS B R OK D (S1 & S2 & N1 & N2 & J & P1 & P2 & W) PI. destruct (stamp_text E) as [info SI].
  destruct (written E b base i inputs o w info d U SI D) as (w' & -> & A1 & A2).
  do 2 eexists. split; [reflexivity|].
  destruct (A1 S1 N1) as [A1' H1']; [apply W; cbn; auto|apply W; cbn; auto|auto|].
  destruct (A2 S2 N2) as [A2' H2']; [apply W; cbn; auto|apply W; cbn; auto|].
  match type of A1' with _ = render _ (enum_files _ _ ?a1 ?a2 _) => match type of A2' with _ = render _ (fst (struct_files _ _ _ _ ?a3 ?a4 _)) =>
    destruct (program_text b ds i inputs o a1 a2 a3 a4 (e_stamp E) info B OK P1 PI) as (LK & (te & T1 & T2) & (ts & T3 & T4) & (he & T5 & T6) & (hs & T7 & T8) & D1 & D2 & D3 & D4);
      auto using plain_path end end.
  rewrite T1 in A1'. rewrite T3 in A2'. rewrite T5 in H1'. rewrite T7 in H2'.
  exists (map snd (i_enums (find_top (fst (fixup i))))), (map snd (i_structs (find_top (fst (fixup i))))), te, ts, he, hs.
  split; [exact LK|]. apply D1 in T1. apply D2 in T5. apply D3 in T3. apply D4 in T7. rewrite own_header in T1, T3 by exact U. split; [|auto 20].
  intros s I. apply in_map_iff in I as ([n s'] & <- & I). cbn [snd].
  apply in_sorted in I; [|apply resolved_sorted, B].
  destruct (built_struct ds i n s' B (names_nodup _ _ _ OK) I) as (ms & _ & -> & _).
  eapply built_top; eauto. exact (names_nodup _ _ _ OK).
Qed.

(** *** A single header *)
Lemma header_program argv0 a rest p cs ds : usual_sep E -> plain (e_stamp E) = true ->
  e_exists E a = true -> e_canonical E a = Some p -> extension E p <> ".stfx" -> plain (file_name E p) = true ->
  e_disk E p = Some cs -> text_of cs ds -> header_ok "xml_reader_C" "xml_writer_C" ds = true ->
  (forall q, In q (four (parent E p) single_spec) -> e_write E q = true) ->
  exists w, stfx E argv0 (a :: rest) = Go 0%Z w /\ has_program B_xml_attrib ds [file_name E p] (parent E p) single_spec w.
Proof.
  intros U PS EX EC EXT PF DK T OK WR.
  assert (SL : usual_sep E -> forall c, In c (list_ascii_of_string "enums.cpp") \/ In c (list_ascii_of_string "structs.h") -> is_sep E c = false).
  { intros _ c [H|H]; cbn in H; apply (usual_letters E c U); intuition (subst; discriminate). }
  assert (RG : regular (parent E p) single_spec).
  { assert (NE : names_file E "enums" = true) by (unfold names_file; cbn [last_chr]; now rewrite SL by (cbn; auto 10)).
    assert (NS : names_file E "structs" = true) by (unfold names_file; cbn [last_chr]; now rewrite SL by (cbn; auto 10)).
    unfold regular. cbn [single_spec o_enum_file o_structs_file]. repeat split; auto.
    intros H. apply join_inj in H; [discriminate| |]; cbn [absolute]; apply SL; cbn; auto 10. }
  pose proof (names_nodup _ _ _ OK) as ND.
  destruct (built_files [] info0 info0 [cs] [ds] false built_start R_start) as (h & m & PR & _ & _ & B); [constructor; [exact T|constructor]|cbn; now rewrite app_nil_r|].
  cbn [app concat] in B. rewrite app_nil_r in B.
  unfold stfx. rewrite start_say, EX, EC. apply ext_case in EXT as ->.
  unfold process_single_header. destruct (input_file_run E p false (Heap info0 info0) (w_first E) R_start) as (h' & r & l & -> & R' & G & m' & P').
  assert (CT : content E p (w_first E) = Some cs) by exact DK.
  rewrite CT in P', G. cbn [map process_input_files] in PR. rewrite P' in PR. injection PR as -> -> _. 
  rewrite say_good by reflexivity. destruct h as [hs hc]. cbn [h_self] in *.
  match goal with |- context [process_items E B_xml_attrib ?base ?i ?inp ?o ?w0] =>
    destruct (items_program B_xml_attrib base ds i hc false inp o w0 (parent E p) U PS B R' OK) as (r2 & w' & -> & HP); auto;
    [cbn [forallb]; now rewrite PF|] end.
  rewrite say_good by reflexivity.
  match goal with |- context [say _ _ ?w0] => destruct (final_say 0 w0) as (w'' & -> & F) end.
  exists w''. split; [reflexivity|]. eapply has_program_same; [|exact HP].
  intros q _. rewrite F. reflexivity.
Qed.

(** *** Configurations *)
Definition reads (base : string) (fs : list string) (dss : list (list def)) : Prop :=
  Forall2 (fun f ds => exists cs, e_disk E (join E base f) = Some cs /\ text_of cs ds) fs dss.
Lemma reads_files base fs dss w : reads base fs dss -> (forall f, In f fs -> Cpp.assoc (join E base f) (w_files w) = None) ->
  exists files, map (fun f => content E (join E base f) w) fs = map Some files /\ Forall2 text_of files dss.
Proof.
  induction 1 as [|f ds fs dss (cs & D & T) H IH]; intros N; [exists []; split; [reflexivity|constructor]|].
  destruct IH as (files & M & F); [intros; apply N; now right|]. exists (cs :: files). split; [|now constructor].
  cbn [map]. f_equal; [|exact M]. unfold content. rewrite (N f) by now left. exact D.
Qed.

(** The wanted output: regular, and no other output touches its files. *)
Record wanted (base : string) (ds : list def) (inputs : list string) (t : Z) (o : output_spec) (b : backend) (d : string) : Prop := Wanted {
  wt_b : backend_of t = Some b;
  wt_d : dir_for E base o = Some d;
  wt_ok : header_ok (o_reader o) (o_writer o) ds = true;
  wt_reg : regular d o;
  wt_in : forallb plain inputs = true
}.

Lemma sections_program base common shown dsc ss dsss : usual_sep E -> plain (e_stamp E) = true -> forall c w,
  built dsc c -> reach true (Heap (copy_info c) c) ->
  Forall2 (fun s dss => reads base (fst s) dss /\ NoDup (map def_name (dsc ++ concat dss))) ss dsss ->
  (forall s f, In s ss -> In f (fst s) -> Cpp.assoc (join E base f) (w_files w) = None /\ ~ In (join E base f) (flat_map (paths_of E base) (map snd ss))) ->
  existsb (blocked E base) (map snd ss) = false ->
  exists w', sections E base common shown ss c w = Go tt w' /\
  forall k fs t o dss b d, nth_error ss k = Some (fs, (t, o)) -> nth_error dsss k = Some dss ->
    wanted base (dsc ++ concat dss) (common ++ fs) t o b d ->
    (forall q, In q (four d o) -> ~ In q (flat_map (paths_of E base) (map snd (skipn (S k) ss)))) ->
    has_program b (dsc ++ concat dss) (common ++ fs) d o w'.
Proof.
  intros U PS c w B R H. revert w. induction H as [|[fs [t o]] dss ss dsss [RD ND] H IH]; intros w NI BL.
  { exists w. split; [reflexivity|]. intros [|k]; discriminate. }
  cbn [map existsb snd fst] in *. apply orb_false_iff in BL as [BL1 BL2]. cbn [sections].
  destruct (input_files_run E base mn_189 mn_193 fs eq_refl eq_refl true _ w R) as (h & w1 & -> & F1 & R1 & rs & m & P).
  destruct (reads_files base fs dss w RD) as (files & MF & FT).
  { intros f I. apply (NI (fs, (t, o)) f); [now left|exact I]. }
  rewrite MF in P. destruct (built_files dsc (copy_info c) c files dss true (built_copy _ _ B) R FT ND) as (h' & m' & P' & _ & HC & B').
  rewrite P in P'. injection P' as <- _ _.
  assert (W2 : exists i' w2, output E mn_230 shown t base (h_self h) (common ++ fs) o w1 = Go i' w2 /\
            same_but (paths_of E base (t, o)) w1 w2 /\
            forall b d, wanted base (dsc ++ concat dss) (common ++ fs) t o b d -> has_program b (dsc ++ concat dss) (common ++ fs) d o w2).
  { destruct (output_run E mn_230 shown t base (h_self h) (common ++ fs) o w1 eq_refl) as [A _]. destruct (A BL1) as (i' & w2 & O & _ & S & _).
    exists i', w2. split; [exact O|]. split; [exact S|]. intros b d [W1 W2 W3 W4 W5]. unfold output in O. rewrite W1 in O.
    destruct h as [hs hc]. cbn [h_self] in *.
    destruct (items_program b base (dsc ++ concat dss) hs hc true (common ++ fs) o w1 d U PS B' R1 W3 W2 W4 W5) as (r & w3 & O' & HP).
    rewrite O' in O. injection O as _ <-. exact HP. }
  destruct W2 as (i' & w2 & -> & S2 & HP). rewrite HC.
  assert (NI2 : forall s f, In s ss -> In f (fst s) -> Cpp.assoc (join E base f) (w_files w2) = None /\
     ~ In (join E base f) (flat_map (paths_of E base) (map snd ss))).
  { intros s f I J. destruct (NI s f (or_intror I) J) as [N1 N2]. cbn [flat_map] in N2. rewrite in_app_iff in N2.
    split; [|tauto]. rewrite (S2 (join E base f)), F1 by tauto. exact N1. }
  destruct (IH w2 NI2 BL2) as (w' & SC & HK). exists w'. split; [exact SC|].
  destruct (sections_run E base common shown ss c w2 R) as [SR _]. destruct (SR BL2) as (w'' & SC' & S3 & _).
  rewrite SC in SC'. injection SC' as <-.
  intros [|k] fs' t' o' dss' b d N1 N2 W D; cbn [nth_error] in N1, N2.
  - injection N1 as <- <- <-. injection N2 as <-. eapply has_program_keep; [exact S3| |eapply HP; exact W].
    intros q Q. exact (D q Q).
  - eapply HK; eauto.
Qed.

Lemma config_program argv0 a rest p c dssc dsss : usual_sep E -> plain (e_stamp E) = true ->
  e_exists E a = true -> e_canonical E a = Some p -> extension E p = ".stfx" -> e_conf E (e_disk E p) = CRead c ->
  let base := parent E p in let dsc := concat dssc in
  reads base (c_in c) dssc -> NoDup (map def_name dsc) -> closed dsc ->
  Forall2 (fun s dss => reads base (fst s) dss /\ NoDup (map def_name (dsc ++ concat dss))) (c_non c) dsss ->
  (forall s f, In s (c_non c) -> In f (fst s) -> ~ In (join E base f) (flat_map (paths_of E base) (outputs c))) ->
  existsb (blocked E base) (outputs c) = false ->
  exists w, stfx E argv0 (a :: rest) = Go 0%Z w /\
  (forall t o b d, c_out c = (t, o) -> wanted base dsc (c_in c) t o b d ->
    (forall q, In q (four d o) -> ~ In q (flat_map (paths_of E base) (map snd (c_non c)))) ->
    has_program b dsc (c_in c) d o w) /\
  (forall k fs t o dss b d, nth_error (c_non c) k = Some (fs, (t, o)) -> nth_error dsss k = Some dss ->
    wanted base (dsc ++ concat dss) (c_in c ++ fs) t o b d ->
    (forall q, In q (four d o) -> ~ In q (flat_map (paths_of E base) (map snd (skipn (S k) (c_non c))))) ->
    has_program b (dsc ++ concat dss) (c_in c ++ fs) d o w).
Proof.
  intros U PS EX EC EXT CF base dsc RD ND CL SEC NI BL.
  unfold stfx. rewrite start_say, EX, EC, EXT. change (String.eqb ".stfx" ".stfx") with true. cbn iota.
  unfold process_stfx_file. assert (D : content E p (w_first E) = e_disk E p) by reflexivity. rewrite D, CF. fold base.
  destruct (input_files_run E base mn_128 mn_132 (c_in c) eq_refl eq_refl false _ (w_first E) R_start) as (h & w1 & -> & F1 & R1 & rs & m & P).
  destruct (reads_files base (c_in c) dssc (w_first E) RD) as (files & MF & FT); [reflexivity|].
  rewrite MF in P. destruct (built_files [] info0 info0 files dssc false built_start R_start FT ND) as (h' & m' & P' & _ & HC & B).
  rewrite P in P'. injection P' as <- _ _. cbn [app] in B. fold dsc in B.
  rewrite say_good by reflexivity. unfold outputs in BL, NI. cbn [existsb flat_map] in BL, NI.
  destruct (c_out c) as [t o]. apply orb_false_iff in BL as [BL1 BL2]. destruct h as [hs hc]. cbn [h_self h_common] in *.
  set (w2 := World (w_files w1) _).
  assert (W2 : exists i' w3, output E mn_172 t t base hs (c_in c) o w2 = Go i' w3 /\
            same_but (paths_of E base (t, o)) w2 w3 /\ built dsc i' /\ reach true (Heap (copy_info i') i') /\
            forall b d, wanted base dsc (c_in c) t o b d -> has_program b dsc (c_in c) d o w3).
  { destruct (output_run E mn_172 t t base hs (c_in c) o w2 eq_refl) as [A _]. destruct (A BL1) as (i' & w3 & O & I & S & _).
    exists i', w3. split; [exact O|]. split; [exact S|]. split; [|split].
    - destruct I as [->| ->]; [exact B|]. now apply built_again.
    - destruct I as [->| ->]; [exact (R_first_section _ R1)|]. exact (R_first_section _ (R_top _ _ (R_fixup _ _ R1))).
    - intros b d [W1 W2 W3 W4 W5]. unfold output in O. rewrite W1 in O.
      destruct (items_program b base dsc hs hc false (c_in c) o w2 d U PS B R1 W3 W2 W4 W5) as (r & w4 & O' & HP).
      rewrite O' in O. injection O as _ <-. exact HP. }
  destruct W2 as (i' & w3 & -> & S3 & B3 & R3 & HP3).
  destruct (sections_program base (c_in c) t dsc (c_non c) dsss U PS i' w3 B3 R3 SEC) as (w4 & SC & HK); auto.
  { intros s f I J. specialize (NI s f I J). rewrite in_app_iff in NI. split; [|tauto].
    rewrite (S3 (join E base f)) by tauto. unfold w2. cbn [w_files]. now rewrite F1. }
  rewrite SC. destruct (sections_run E base (c_in c) t (c_non c) i' w3 R3) as [SR _]. destruct (SR BL2) as (w'' & SC' & S4 & _).
  rewrite SC in SC'. injection SC' as <-.
  destruct (final_say 0 w4) as (w5 & -> & F5). exists w5. split; [reflexivity|].
  assert (S5 : same_but [] w4 w5) by (intros q _; now rewrite F5). split.
  - intros t' o' b d [= <- <-] W N. eapply has_program_same; [exact S5|]. eapply has_program_keep; [exact S4|exact N|]. now apply HP3.
  - intros k fs t' o' dss b d N1 N2 W N. eapply has_program_same; [exact S5|]. eapply HK; eauto.
Qed.
End Pipeline.

(** *** A header called structs.h *)
Lemma structs_h_overwritten E argv0 a rest p ds cs : usual_sep E ->
  e_exists E a = true -> e_canonical E a = Some p -> extension E p <> ".stfx" ->
  e_disk E p = Some cs -> text_of cs ds ->
  p = (join E (parent E p) "structs" ++ ".h")%string ->
  e_write E (join E (parent E p) "structs" ++ ".cpp")%string = true -> e_write E p = true ->
  exists w i t info, stfx E argv0 (a :: rest) = Go 0%Z w /\ stfx_info (e_stamp E) = Some info /\
    render T_h (fst (struct_files B_xml_attrib i [file_name E p] single_spec "structs.cpp" "structs.h" info)) = Some t /\
    Cpp.assoc p (w_files w) = Some t.
Proof.
  intros U EX EC EXT DK T PP W1 W2.
  destruct (header_run E argv0 a rest p EX EC EXT) as (r & w & ST & G & info & h & m & SI & PR & F).
  destruct r.
  2:{ exfalso. destruct G as [_ G]. discriminate G. exists cs, ds. auto. }
  set (i := find_top (fst (fixup (h_self h)))) in *.
  assert (NS : names_file E "structs" = true) by (unfold names_file; cbn [last_chr]; now rewrite (usual_letters E _ U) by discriminate).
  set (cm := fst (struct_files B_xml_attrib i [file_name E p] single_spec "structs.cpp" "structs.h" info)).
  destruct (render_good T_h cm (good_struct_files _ _ _ _ _ _ _)) as [t RT].
  exists w, i, t, info. split; [exact ST|]. split; [exact SI|]. split; [exact RT|].
  cbn zeta in F. rewrite F, assoc_puts, last_put_app. unfold struct_output. cbn [single_spec o_structs_file skipped].
  change (skipped "structs") with false. cbn iota. destruct (paths E (parent E p) "structs" U NS) as [P1 P2]. rewrite P1, P2.
  assert (FN : forall e, (e = ".cpp" \/ e = ".h") -> file_name E (join E (parent E p) "structs" ++ e) = ("structs" ++ e)%string).
  { intros e He. rewrite file_name_app.
    - rewrite file_name_join. f_equal. change "structs" with ("" ++ "structs")%string at 1. rewrite file_name_app; [reflexivity|].
      cbn [list_ascii_of_string existsb]. now rewrite !(usual_letters E _ U) by discriminate.
    - destruct He as [->| ->]; cbn [list_ascii_of_string existsb]; now rewrite !(usual_letters E _ U) by discriminate. }
  rewrite !FN by auto. change ("structs" ++ ".cpp")%string with "structs.cpp". change ("structs" ++ ".h")%string with "structs.h".
  fold single_spec. fold cm. unfold text_to at 2. rewrite RT. rewrite <- PP.
  match goal with |- last_put p (two_files E ?c p ?x t) ?old = _ =>
    apply (proj2 (two_files_last E c p x t ltac:(rewrite PP; apply suffix_neq) W1 W2 old)) end.
Qed.
