(** Property theorems about empty strings in xml files and about the project in src/test:
    C92, C93. *)
From Coq Require Import String Ascii ZArith NArith Arith List Bool Lia.
From Verif Require Import Base Map Items Flex LexProps LexMore Grammar ParseLang Fmt Decimal Templates Emit Main Cpp Xml Val CppSem SymLex Ast Store Resolve StoreDefs ResolveProps Prog Header EnumSem DecText EnumCall EnumRound Link
  XmlSpec XmlReader XmlCall XmlWriter XmlFile XmlCarry XmlRound XmlProps XmlReadProps XmlThms XmlCase XmlBlank
  MainProps RunProps Pipeline Lexable Lit LitProps ConfSpec ConfRead ConfRound Cxx CxxProps Shape P_Enum P_Xml P_Main P_Conf P_Whole P_Lit P_Cxx P_Serve.
Import ListNotations.
Local Open Scope string_scope.
Local Open Scope list_scope.

(** *** C92.  Objects with empty strings *)
(** [storable_new]: like [storable] (C31, C39), but a blank string may also have the value that
    new objects have.  Complete files and deltas, of both xml back ends. *)
Theorem C92_round_trip : forall bk b enums ss o ds L, xml_setting bk b enums ss o ds L -> o_only_read o = false -> (b = Elements -> l_long L = 64%Z) ->
  forall dl t fs os, let delta := (negb (o_no_delta o) && dl)%bool in lits_fresh L true -> top_of ss t -> object L t fs -> storable_new L b delta (VStruct t fs) ->
  object L t os -> fresh L true (VStruct t os) ->
  exists gs, writes_reads bk enums ss o L dl t fs os (Some gs) /\ alike L delta (VStruct t fs) (VStruct t gs).
Proof. exact round_new. Qed.
(** Which strings come back, exactly: in complete files, if everything but strings is kept. *)
Theorem C92_exact : forall bk b enums ss o ds L, xml_setting bk b enums ss o ds L -> o_only_read o = false -> (b = Elements -> l_long L = 64%Z) ->
  forall dl t fs os, o_no_delta o = true \/ dl = false -> lits_fresh L true -> top_of ss t -> object L t fs ->
  (forall m d x, scalar_in L (VStruct t fs) m d x -> keeps_but_string b L x) -> object L t os -> fresh L true (VStruct t os) ->
  exists r, writes_reads bk enums ss o L dl t fs os r /\ (r = Some fs <-> forall m d x, scalar_in L (VStruct t fs) m d x -> faithful b d x).
Proof. exact strings_file. Qed.
(** A string without NUL and CR is faithful as an attribute, and as an element if it is not
    blank, or is the default value. *)
Theorem C92_faithful : forall b d s, faithful b d (VStr s) <->
  (b = Elements /\ blank (cut s) = true /\ d = VStr s) \/ (no_nul s = true /\ no_cr s = true /\ (b = Elements -> blank s = false)).
Proof.
  intros b d s. cbn [faithful]. destruct b.
  - rewrite newlines_cut. intuition discriminate.
  - destruct (blank (cut s)) eqn:B.
    + split; [intros ->; now left|]. intros [(_ & _ & D)|(N & _ & BB)]; [exact D|]. rewrite (cut_id s N), BB in B by reflexivity. discriminate.
    + rewrite newlines_cut. split; [|intros [(_ & D & _)|(N & C & _)]; [discriminate|auto]]. intros [N C]. right. rewrite (cut_id s N) in B. auto.
Qed.
Print Assumptions C92_round_trip.
Print Assumptions C92_exact.
Print Assumptions C92_faithful.

(** *** C93.  From headers that a compiler reads (C86) to all that the functions do (C81, C90) *)
Lemma serves_signed E b ds ins d o w : has_program E b (unsigned ds) ins d o w -> header_ok (o_reader o) (o_writer o) ds = true ->
  class_ok b o -> exists P, program_in E d o w = Some P /\ serves b ds o P /\ (o_only_read o = false -> stores b ds o P).
Proof.
  intros H OK C.
  assert (H' : has_program E b ds ins d o w).
  { apply (has_program_shape (unsigned ds) ds (strip_shape ds)); [|exact H].
    rewrite (Forall2_map_eq def_name same_def _ ds same_def_name (strip_shape ds)). exact (names_nodup _ _ _ OK). }
  destruct (C90_program E b ds ins d o w H' OK C) as (P & PI & S). exists P. split; [exact PI|]. split; [exact S|].
  intros OR. destruct (C81_program E b ds ins d o w H' OK C OR) as (P' & PI' & S'). assert (P' = P) as -> by congruence. exact S'.
Qed.
Theorem C93_document : forall L E argv0 a rest p x c dssc dsss, conf_lang L -> own_reader L E -> usual_sep E -> SymLex.plain (e_stamp E) = true ->
  e_exists E a = true -> e_canonical E a = Some p -> extension E p = ".stfx" -> holds_doc L E p x -> conf_of x = Some c ->
  let base := parent E p in let dsc := concat dssc in
  compiled E base (c_in c) dssc -> NoDup (map def_name dsc) -> closed dsc ->
  Forall2 (fun s dss => compiled E base (fst s) dss /\ NoDup (map def_name (dsc ++ concat dss))) (c_non c) dsss ->
  (forall s f, In s (c_non c) -> In f (fst s) -> ~ In (join E base f) (flat_map (paths_of E base) (outputs c))) ->
  existsb (blocked E base) (outputs c) = false ->
  exists w, stfx E argv0 (a :: rest) = Go 0%Z w /\
  (forall t o b d, c_out c = (t, o) -> wanted E base dsc (c_in c) t o b d -> class_ok b o ->
    (forall q, In q (four E d o) -> ~ In q (flat_map (paths_of E base) (map snd (c_non c)))) ->
    exists P, program_in E d o w = Some P /\ serves b dsc o P /\ (o_only_read o = false -> stores b dsc o P)) /\
  (forall k fs t o dss b d, nth_error (c_non c) k = Some (fs, (t, o)) -> nth_error dsss k = Some dss ->
    wanted E base (dsc ++ concat dss) (c_in c ++ fs) t o b d -> class_ok b o ->
    (forall q, In q (four E d o) -> ~ In q (flat_map (paths_of E base) (map snd (skipn (S k) (c_non c))))) ->
    exists P, program_in E d o w = Some P /\ serves b (dsc ++ concat dss) o P /\ (o_only_read o = false -> stores b (dsc ++ concat dss) o P)).
Proof.
  intros L E argv0 a rest p x c dssc dsss CL OR U PS EX EC EXT HD CO base dsc R1 N1 C1 F2 NI NB.
  destruct (C68_document_to_programs L E argv0 a rest p x c (map unsigned dssc) (map (map unsigned) dsss) CL OR U PS EX EC EXT HD CO) as (w & R & A & B); auto.
  - now apply compiled_reads.
  - rewrite unsigned_concat, unsigned_names. exact N1.
  - rewrite unsigned_concat. exact (same_closed _ _ (same_shape_sym _ _ (strip_shape _)) C1).
  - clear - F2. induction F2 as [|s dss l l' [H N] _ IH]; [constructor|]. constructor; [|exact IH]. split; [now apply compiled_reads|]. rewrite !unsigned_concat, unsigned_app, unsigned_names. exact N.
  - rewrite unsigned_concat in *. exists w. split; [exact R|]. split.
    + intros t o b d CO' W CK NQ. eapply serves_signed; eauto using wt_ok. apply (A t o b d CO'); auto. now apply unsigned_wanted.
    + intros k fs t o dss b d NT ND W CK NQ. eapply serves_signed; eauto using wt_ok. rewrite <- unsigned_app, <- unsigned_concat. apply (B k fs t o (map unsigned dss) b d NT); auto.
      * now apply map_nth_error.
      * rewrite unsigned_concat, unsigned_app. now apply unsigned_wanted.
Qed.
Print Assumptions C93_document.

(** *** The project in src/test, in any directory [base] of any file system: its four headers
    are there, and the directories of the outputs can be created and written to. *)
Definition project_files : list (string * string) :=
  [("test_enums.h", test_enums_h); ("config_data.h", config_data_h); ("test_extra1.h", test_extra1_h); ("test_extra2.h", test_extra2_h)].
Record project (E : env) (base : string) : Prop := {
  pj_files : forall f x, In (f, x) project_files -> e_disk E (join E base f) = Some (list_ascii_of_string x);
  pj_dirs : forall d, In d ["common_out"; "xtra_1"; "xtra_2"] -> e_mkdirs E (join E base d) = true /\ e_canonical E (join E base d) = Some (join E base d);
  pj_write : forall q, e_write E q = true }.
Definition common_defs : list def := enums_defs ++ data_defs.
Definition out_c : output_spec := snd (c_out test_conf).
Definition out_k (k : string) : output_spec := OutputSpec ("xtra_" ++ k) ("enums_" ++ k) ("structs_" ++ k) ("xml_reader_" ++ k ++ "_C") ("xml_writer_" ++ k ++ "_C") ft_xml_attrib false false.

Lemma join_pre E base : exists pre, forall q, absolute E q = false -> join E base q = (pre ++ q)%string.
Proof.
  unfold join. destruct (last_chr base) as [c|].
  - destruct (is_sep E c); [exists base|exists (base ++ String (e_sep E) "")%string]; intros q ->; [reflexivity|]. rewrite append_assoc. reflexivity.
  - exists "". now intros q ->.
Qed.
Lemma join_sub E pre d q c : last_chr d = Some c -> is_sep E c = false -> absolute E q = false -> join E (pre ++ d) q = (pre ++ d ++ String (e_sep E) q)%string.
Proof.
  intros LC S A. unfold join. rewrite A. assert (last_chr (pre ++ d) = Some c) as ->; [|now rewrite S, append_assoc].
  clear - LC. induction pre as [|x pre IH]; [exact LC|]. cbn. destruct (pre ++ d)%string eqn:E; [destruct pre; [subst; discriminate|discriminate]|exact IH].
Qed.

(** What stfx makes of it: three programs. *)
Theorem C93_project : forall L E argv0 a rest p, conf_lang L -> own_reader L E -> usual_sep E -> SymLex.plain (e_stamp E) = true ->
  e_exists E a = true -> e_canonical E a = Some p -> extension E p = ".stfx" -> holds_doc L E p test_doc -> let base := parent E p in project E base ->
  exists w P P1 P2, stfx E argv0 (a :: rest) = Go 0%Z w /\
  (program_in E (join E base "common_out") out_c w = Some P /\ serves B_xml common_defs out_c P /\ stores B_xml common_defs out_c P) /\
  (program_in E (join E base "xtra_1") (out_k "1") w = Some P1 /\ serves B_xml_attrib (common_defs ++ extra1_defs) (out_k "1") P1 /\ stores B_xml_attrib (common_defs ++ extra1_defs) (out_k "1") P1) /\
  (program_in E (join E base "xtra_2") (out_k "2") w = Some P2 /\ serves B_xml_attrib (common_defs ++ extra2_defs) (out_k "2") P2 /\ stores B_xml_attrib (common_defs ++ extra2_defs) (out_k "2") P2).
Proof.
  intros L E argv0 a rest p CL OR U PS EX EC EXT HD base PJ. destruct C86_shipped as (R1 & R2 & R3 & R4 & H0 & H1 & H2 & _).
  assert (LT : forall c, (c <> "/")%char -> (c <> "\")%char -> is_sep E c = false) by (intros c; now apply usual_letters).
  destruct (join_pre E base) as (pre & JP).
  assert (AB : forall c r, (c <> "/")%char -> (c <> "\")%char -> absolute E (String c r) = false) by (intros c r; apply LT).
  assert (DIR : forall d, In d ["common_out"; "xtra_1"; "xtra_2"] -> join E base d = (pre ++ d)%string /\ forall c r, (c <> "/")%char -> (c <> "\")%char ->
    join E (join E base d) (String c r) = (pre ++ d ++ String (e_sep E) (String c r))%string).
  { intros d I. assert (JD : join E base d = (pre ++ d)%string) by (apply JP; cbn in I; repeat (destruct I as [<-|I]; [apply AB; discriminate|]); contradiction).
    split; [exact JD|]. intros c r N1 N2. rewrite JD. cbn in I.
    repeat (destruct I as [<-|I]; [eapply join_sub; [reflexivity|apply LT; discriminate|now apply AB]|]). contradiction. }
  assert (DF : forall o, In (o_dir o) ["common_out"; "xtra_1"; "xtra_2"] -> dir_for E base o = Some (join E base (o_dir o))).
  { intros o I. unfold dir_for. destruct (pj_dirs _ _ PJ _ I) as [M C]. rewrite M, C. cbn in I. repeat (destruct I as [<-|I]; [reflexivity|]). contradiction. }
  assert (NF : forall c r, match last_chr (String c r) with Some e => (e <> "/")%char /\ (e <> "\")%char | None => False end -> names_file E (String c r) = true).
  { intros c r. unfold names_file. destruct (last_chr (String c r)) as [e|]; [|contradiction]. intros [N1 N2]. now rewrite (LT e N1 N2). }
  assert (PO : forall t o b c r c' r', backend_of t = Some b -> In (o_dir o) ["common_out"; "xtra_1"; "xtra_2"] -> o_enum_file o = String c r -> o_structs_file o = String c' r' ->
    skipped (String c r) = false -> skipped (String c' r') = false -> names_file E (String c r) = true -> names_file E (String c' r') = true ->
    (c <> "/")%char -> (c <> "\")%char -> (c' <> "/")%char -> (c' <> "\")%char ->
    let at_ x e := (pre ++ o_dir o ++ String (e_sep E) x ++ e)%string in
    let l := [at_ (String c r) ".cpp"; at_ (String c r) ".h"; at_ (String c' r') ".cpp"; at_ (String c' r') ".h"] in
    four E (join E base (o_dir o)) o = l /\ paths_of E base (t, o) = l).
  { intros t o b c r c' r' BK I E1 E2 S1 S2 N1 N2 X1 X2 X3 X4 at_ l. destruct (DIR _ I) as [_ J]. subst l at_. unfold four, paths_of, pair_paths. rewrite BK, (DF o I), E1, E2, S1, S2, !(pj_write _ _ PJ).
    destruct (paths E (join E base (o_dir o)) (String c r) U N1) as [-> ->]. destruct (paths E (join E base (o_dir o)) (String c' r') U N2) as [-> ->].
    rewrite !J, !append_assoc by assumption. split; reflexivity. }
  assert (P0 := fun N1 N2 => PO 1%Z out_c B_xml "c"%char "o_enums" "c"%char "o_structs" eq_refl (or_introl eq_refl) eq_refl eq_refl eq_refl eq_refl N1 N2 ltac:(discriminate) ltac:(discriminate) ltac:(discriminate) ltac:(discriminate)).
  assert (Q1 := fun N1 N2 => PO 0%Z (out_k "1") B_xml_attrib "e"%char "nums_1" "s"%char "tructs_1" eq_refl (or_intror (or_introl eq_refl)) eq_refl eq_refl eq_refl eq_refl N1 N2 ltac:(discriminate) ltac:(discriminate) ltac:(discriminate) ltac:(discriminate)).
  assert (Q2 := fun N1 N2 => PO 0%Z (out_k "2") B_xml_attrib "e"%char "nums_2" "s"%char "tructs_2" eq_refl (or_intror (or_intror (or_introl eq_refl))) eq_refl eq_refl eq_refl eq_refl N1 N2 ltac:(discriminate) ltac:(discriminate) ltac:(discriminate) ltac:(discriminate)).
  destruct P0 as [F0 P0]; [apply NF; split; discriminate|apply NF; split; discriminate|].
  destruct Q1 as [F1 Q1]; [apply NF; split; discriminate|apply NF; split; discriminate|].
  destruct Q2 as [F2 Q2]; [apply NF; split; discriminate|apply NF; split; discriminate|]. clear PO.
  change (o_dir out_c) with "common_out" in F0. change (o_dir (out_k "1")) with "xtra_1" in F1. change (o_dir (out_k "2")) with "xtra_2" in F2.
  assert (APART : forall x y, x <> y -> (pre ++ x)%string <> (pre ++ y)%string) by (intros x y N C; now apply append_inj_l in C).
  destruct (C93_document L E argv0 a rest p test_doc test_conf [enums_defs; data_defs] [[extra1_defs]; [extra2_defs]] CL OR U PS EX EC EXT HD) as (w & R & A & B).
  - vm_compute; reflexivity.
  - constructor; [eexists; split; [apply (pj_files _ _ PJ); cbn; auto|exact R2]|]. constructor; [eexists; split; [apply (pj_files _ _ PJ); cbn; auto|exact R1]|constructor].
  - exact (names_nodup _ _ _ H0).
  - exact (header_closed _ _ _ H0).
  - constructor; [|constructor; [|constructor]]; (split; [constructor; [eexists; split; [apply (pj_files _ _ PJ); cbn; auto 10|assumption]|constructor]|]).
    + exact (names_nodup _ _ _ H1).
    + exact (names_nodup _ _ _ H2).
  - change (parent E p) with base. change (outputs test_conf) with [(1%Z, out_c); (0%Z, out_k "1"); (0%Z, out_k "2")]. cbn [flat_map]. rewrite P0, Q1, Q2. intros s0 f [<-|[<-|[]]] [<-|[]]; rewrite JP by (apply AB; discriminate);
    cbn [app In o_dir out_c out_k c_out snd test_conf]; intros C; repeat (destruct C as [C|C]; [revert C; apply APART; discriminate|]); contradiction.
  - change (parent E p) with base. change (outputs test_conf) with [(1%Z, out_c); (0%Z, out_k "1"); (0%Z, out_k "2")]. cbn [existsb blocked]. rewrite !DF by (cbn; auto). reflexivity.
  - change (parent E p) with base in A, B.
    assert (W0 : wanted E base common_defs (c_in test_conf) 1%Z out_c B_xml (join E base "common_out")).
    { constructor; [reflexivity|apply DF; cbn; auto|exact H0| |reflexivity]. split; [reflexivity|]. split; [reflexivity|]. split; [apply NF; split; discriminate|]. split; [apply NF; split; discriminate|].
      split; [|split; [reflexivity|split; [reflexivity|intros q _; apply (pj_write _ _ PJ)]]]. intros C. apply join_inj in C; [discriminate|apply AB; discriminate|apply AB; discriminate]. }
    assert (W1 : wanted E base (common_defs ++ extra1_defs) (c_in test_conf ++ ["test_extra1.h"]) 0%Z (out_k "1") B_xml_attrib (join E base "xtra_1")).
    { constructor; [reflexivity|apply DF; cbn; auto|exact H1| |reflexivity]. split; [reflexivity|]. split; [reflexivity|]. split; [apply NF; split; discriminate|]. split; [apply NF; split; discriminate|].
      split; [|split; [reflexivity|split; [reflexivity|intros q _; apply (pj_write _ _ PJ)]]]. intros C. apply join_inj in C; [discriminate|apply AB; discriminate|apply AB; discriminate]. }
    assert (W2 : wanted E base (common_defs ++ extra2_defs) (c_in test_conf ++ ["test_extra2.h"]) 0%Z (out_k "2") B_xml_attrib (join E base "xtra_2")).
    { constructor; [reflexivity|apply DF; cbn; auto|exact H2| |reflexivity]. split; [reflexivity|]. split; [reflexivity|]. split; [apply NF; split; discriminate|]. split; [apply NF; split; discriminate|].
      split; [|split; [reflexivity|split; [reflexivity|intros q _; apply (pj_write _ _ PJ)]]]. intros C. apply join_inj in C; [discriminate|apply AB; discriminate|apply AB; discriminate]. }
    destruct (A 1%Z out_c B_xml _ eq_refl W0 ltac:(discriminate)) as (P & PI & SV & ST).
    { change (map snd (c_non test_conf)) with [(0%Z, out_k "1"); (0%Z, out_k "2")]. cbn [flat_map]. rewrite F0, Q1, Q2. intros q I C. cbn [app In o_dir out_c out_k c_out snd test_conf] in I, C.
      repeat (destruct I as [<-|I]; [repeat (destruct C as [C|C]; [symmetry in C; revert C; apply APART; discriminate|]); contradiction|]). contradiction. }
    destruct (B 0 ["test_extra1.h"] 0%Z (out_k "1") [extra1_defs] B_xml_attrib _ eq_refl eq_refl W1 ltac:(discriminate)) as (P1 & PI1 & SV1 & ST1).
    { change (map snd (skipn 1 (c_non test_conf))) with [(0%Z, out_k "2")]. cbn [flat_map]. rewrite F1, Q2. intros q I C. cbn [app In o_dir out_c out_k c_out snd test_conf] in I, C.
      repeat (destruct I as [<-|I]; [repeat (destruct C as [C|C]; [symmetry in C; revert C; apply APART; discriminate|]); contradiction|]). contradiction. }
    destruct (B 1 ["test_extra2.h"] 0%Z (out_k "2") [extra2_defs] B_xml_attrib _ eq_refl eq_refl W2 ltac:(discriminate)) as (P2 & PI2 & SV2 & ST2).
    { intros q _ []. }
    exists w, P, P1, P2. split; [exact R|]. split; [auto|]. auto.
Qed.
Print Assumptions C93_project.

(** *** src/test/test_main.cpp: an object [conf] without initialiser is written to a file, and a
    file is read into it, by the functions of the common output; both results are ignored.
    The texts of floating point numbers, the XML parser and the disk are arbitrary; the codes
    of 42.01f and 42.0001 are those of [some_float]. *)
Section TestMain.
  Variables (zero : fkind -> Z) (feq : fkind -> Z -> Z -> bool) (xprint : fkind -> Z -> string) (xread : fkind -> string -> option Z)
    (fprint : fkind -> Z -> string) (sto : fkind -> string -> option Z) (parse : string -> option (list node)) (writable : string -> bool).
  Definition main_lang : lang := with_literals some_float (Lang common_defs 64 (fun t _ => VUndef t) (fun _ => 0%Z) zero feq xprint xread fprint sto parse writable).
  Definition empty_spec : val := VStruct "output_spec" [("relative_directory", VStr ""); ("enum_file", VStr ""); ("structs_file", VStr "")].
  Definition main_conf : fields :=
    [("common_in_files", VStruct "input_spec" [("input", VVec "input_file" [])]); ("common_out_files", empty_spec); ("non_common", VVec "uncommon_spec" []);
     ("erik", VStruct "test_data" [("ui", VNum KUInt 42); ("i", VNum KInt (-42)); ("us", VNum KUShort 42); ("s", VNum KShort (-42)); ("ul", VNum KULong 42); ("l", VNum KLong (-42));
       ("f", VFlt KFloat 4201); ("d", VFlt KDouble 420001); ("str", VStr "testing 1 2 3 4 5"); ("maybe", VEnum "may_ish_E" 0)])]%Z.
  Hypothesis FLT : keeps main_lang Elements (VFlt KFloat 4201%Z).
  Hypothesis DBL : keeps main_lang Elements (VFlt KDouble 420001%Z).
  Theorem C93_test_main : forall P, serves B_xml common_defs out_c P ->
    default_fields main_lang "config" = Some main_conf /\
    saves_loads P out_c main_lang false "config" main_conf main_conf (Some main_conf) /\
    unsaved P out_c main_lang false "config" main_conf /\ refuses P out_c main_lang "config" main_conf /\
    (forall ks, root ks <> None -> exists r, loads P out_c main_lang ks "config" main_conf r /\ forall gs, r = Some gs -> object main_lang "config" gs) /\
    (forall ks, root ks = None -> loads P out_c main_lang ks "config" main_conf None).
  Proof.
    intros P SV.
    assert (ST : standard some_float main_lang) by (apply with_literals_standard; clear; vm_compute; discriminate).
    assert (LO : literals_ok (l_defs main_lang) (l_long main_lang) some_float = true) by (vm_compute; reflexivity).
    destruct (C84_fitting some_float main_lang ST LO) as [FT FR].
    specialize (SV main_lang FT eq_refl). clear ST LO FT.
    assert (D : default_fields main_lang "config" = Some main_conf) by (vm_compute; reflexivity).
    assert (O : object main_lang "config" main_conf) by (vm_compute; reflexivity).
    assert (TL : top_level common_defs "config").
    { split; [eexists; do 8 right; left; reflexivity|]. intros (n & ms & x & I & [J|[d J]]); cbn in I;
      (repeat (destruct I as [I|I]; [try discriminate I; injection I as <- <-; cbn in J; repeat (destruct J as [J|J]; [discriminate J|]); contradiction|]); contradiction). }
    assert (SI : forall m d x, scalar_in main_lang (VStruct "config" main_conf) m d x -> inited x /\ d = x /\ (keeps main_lang Elements x \/ x = VStr "")).
    { intros m d x SI. apply scalars_all in SI. vm_compute in SI. clear - SI FLT DBL.
      repeat (destruct SI as [SI|SI]; [injection SI as <- <- <-; split; [exact I|]; split; [reflexivity|];
        first [now right|left; first [exact FLT|exact DBL|exact I|reflexivity|split; [reflexivity|split; [reflexivity|intros _; reflexivity]]|eexists _, _; split; [reflexivity|]; left; vm_compute; auto]]|]). contradiction. }
    split; [exact D|]. split; [|split; [|split; [|split]]].
    - destruct (sx_new _ _ _ _ _ SV eq_refl false "config" main_conf main_conf (FR true) TL O) as (gs & A & B); [|exact O| |].
      + intros m d x H. destruct (SI m d x H) as (_ & -> & [K|E]); (split; [|discriminate]); [now left|right]. split; [reflexivity|]. exists "". split; [exact E|]. split; [exact E|reflexivity].
      + split; [intros u l; apply no_items_ok; reflexivity|]. intros _ m d x H _. now destruct (SI m d x H) as (_ & -> & _).
      + apply alike_full in B. injection B as <-. exact A.
    - apply (sx_full _ _ _ _ _ SV eq_refl false "config" main_conf TL O). intros m d x H. destruct (SI m d x H) as (N & _). split; [exact N|discriminate].
    - exact (sx_none _ _ _ _ _ SV "config" main_conf TL O).
    - intros ks N. exact (sx_any _ _ _ _ _ SV ks "config" main_conf TL O N).
    - intros ks N. exact (sx_root _ _ _ _ _ SV ks "config" main_conf TL O ltac:(discriminate) N).
  Qed.
End TestMain.
Print Assumptions C93_test_main.

(** The project in the directory /d, and the object that the test program writes. *)
Definition proj_env : env :=
  Env "today" "/" (fun _ => true) Some (fun _ => true)
      (fun p => option_map list_ascii_of_string (Cpp.assoc p (("/d/c.stfx", "test") :: map (fun x => ("/d/" ++ fst x, snd x)%string) project_files))) (fun _ => true) (conf_file cL) zdec.
Definition plain_lang : lang := main_lang (fun _ => 0%Z) (fun _ => Z.eqb) (fun _ => zdec) (fun _ => scan_dec) (fun _ => zdec) (fun _ => scan_dec) (fun _ => None) (fun _ => true).
Example C93_case : exists w P, stfx proj_env "stfx" ["/d/c.stfx"] = Go 0%Z w /\ program_in proj_env "/d/common_out" out_c w = Some P /\
  saves_loads P out_c plain_lang false "config" main_conf main_conf (Some main_conf) /\ refuses P out_c plain_lang "config" main_conf.
Proof.
  destruct (C93_project cL proj_env "stfx" "/d/c.stfx" [] "/d/c.stfx") as (w & P & P1 & P2 & R & (PI & SV & _) & _); try reflexivity.
  - exact cL_conf.
  - intros cs. apply conf_answer_is; [exact cL_conf|reflexivity].
  - now left.
  - eexists _, _. repeat split; vm_compute; reflexivity.
  - constructor; [|intros d I; split; reflexivity|reflexivity]. intros f x I. cbn in I. repeat (destruct I as [I|I]; [injection I as <- <-; vm_compute; reflexivity|]). contradiction.
  - destruct (C93_test_main (fun _ => 0%Z) (fun _ => Z.eqb) (fun _ => zdec) (fun _ => scan_dec) (fun _ => zdec) (fun _ => scan_dec) (fun _ => None) (fun _ => true)
      ltac:(split; [reflexivity|split; [vm_compute; reflexivity|reflexivity]]) ltac:(split; [reflexivity|split; [vm_compute; reflexivity|reflexivity]]) P SV) as (_ & A & _ & B & _).
    exists w, P. split; [exact R|]. split; [exact PI|]. split; [exact A|exact B].
Qed.
(** That object has empty strings, so C39 does not apply to it; a string with another default
    value is not kept. *)
Example C92_case : ~ storable plain_lang Elements false (VStruct "config" main_conf) /\
  faithful Elements (VStr "") (VStr "") /\ ~ faithful Elements (VStr "testing") (VStr "") /\ faithful Attributes (VStr "testing") (VStr "").
Proof.
  split; [|repeat split; discriminate]. intros S.
  destruct (S (MSimple std_string_E "enum_file" EmptyDefault) (VStr "") (VStr "")) as ((_ & _ & B) & _); [|now specialize (B eq_refl)].
  assert (W : within empty_spec (VStruct "config" main_conf)) by (eapply w_field; [right; left; reflexivity|apply w_here]).
  refine (ScalarIn plain_lang _ _ _ _ _ _ _ _ W _ _ _ _ _ _); try (vm_compute; reflexivity). vm_compute. auto.
Qed.
