(** Property theorems about xml files as bytes: C94 to C96.  What tinyxml2 writes and reads
    is modelled in XmlText.v; XmlTextSpec.v says what an xml text stands for. *)
From Coq Require Import String Ascii ZArith NArith Arith List Bool Lia.
From Verif Require Import Base Map Items Grammar ParseLang Fmt Decimal Templates Emit Main Cpp Xml Val CppSem SymLex Ast Store Resolve StoreDefs ResolveProps Prog Header EnumSem DecText EnumCall EnumRound Link
  XmlSpec XmlRdSimple XmlReader XmlCall XmlWriter XmlFile XmlCarry XmlRound XmlProps XmlReadProps XmlThms XmlCase XmlBlank
  MainProps RunProps Pipeline Lexable ConfSpec ConfRead ConfRound P_Main P_Xml P_Conf P_Whole P_Cxx P_Serve P_Ship
  XmlText XmlTextSpec XmlTextRead XmlPrint XmlBytes XmlCut.
Import ListNotations.
Local Open Scope string_scope.
Local Open Scope list_scope.

(** *** Calls of the functions [P]; see C90 for [loads] *)
(** read_from_file of a file with the bytes [s]. *)
Definition loads_text (P : list fdef) (o : output_spec) (L : lang) (s t : string) (os : fields) (r : option fields) : Prop :=
  exists f0, forall f wf a n l st, f0 <= f -> file_arg a n st -> get_lv l st = Some (VStruct t os) -> reader_or_writer (s_this st) ->
    assoc (cut n) (CppSem.w_files (s_world st)) = Some (CText s) ->
    call_fun L P wf f [o_reader o; "read_from_file"] [a; (Some l, VStruct t os)] st = XmlThms.outcome t l r st.
Definition refuses_text (P : list fdef) (o : output_spec) (L : lang) (s t : string) (os : fields) : Prop :=
  exists f0, forall f wf a n l st, f0 <= f -> file_arg a n st -> get_lv l st = Some (VStruct t os) -> reader_or_writer (s_this st) ->
    assoc (cut n) (CppSem.w_files (s_world st)) = Some (CText s) ->
    call_fun L P wf f [o_reader o; "read_from_file"] [a; (Some l, VStruct t os)] st = Ok (vbool false) st.
(** write_to_file: the document, whose bytes are [s]. *)
Definition saves_text (P : list fdef) (o : output_spec) (L : lang) (dl : bool) (t : string) (fs : fields) (s : string) : Prop :=
  exists d f0, s = printed d /\ forall f wf a n l st, f0 <= f -> file_arg a n st -> get_lv l st = Some (VStruct t fs) -> s_this st = [("m_delta_only", vbool dl)] -> l_writable L (cut n) = true ->
    call_fun L P wf f [o_writer o; "write_to_file"] [a; (Some l, VStruct t fs)] st =
    Ok (vbool true) (CppSem.set_world st (CppSem.World (set_assoc (cut n) (CDoc d) (CppSem.w_files (s_world st))) (w_in (s_world st)) (w_out (s_world st)))).

(** *** What the functions do with files of bytes.  [limit]: TINYXML2_MAX_ELEMENT_DEPTH;
    [vheight v]: how many structs are inside each other in [v]. *)
Record files_xml (ds : list def) (o : output_spec) (P : list fdef) (L : lang) (limit : nat) : Prop := {
  (** what is written is xml *)
  fx_xml : o_only_read o = false -> forall dl t fs, top_level ds t -> object L t fs -> XmlRound.writable L (negb (o_no_delta o) && dl)%bool (VStruct t fs) ->
    exists s d x, saves_text P o L dl t fs s /\ doc_text d s x /\ d <= 2 * vheight (VStruct t fs);
  (** what comes back to the program that wrote the file (C31, C32, C39, C58, C92) comes back
      from a copy of the file anywhere *)
  fx_moves : o_only_read o = false -> forall dl t fs os r, top_level ds t -> object L t fs -> object L t os -> S (2 * vheight (VStruct t fs)) < limit ->
    saves_loads P o L dl t fs os r -> moves P o L dl t fs os r;
  (** of two texts for the same document none is special *)
  fx_text : forall d s x t os r, doc_text d s x -> S d < limit -> loads P o L [x] t os r -> loads_text P o L s t os r;
  (** what is no xml is not read *)
  fx_err : forall s t os, top_level ds t -> object L t os -> parse_text limit s = Err -> refuses_text P o L s t os;
  (** a part of what was written is not read; the last character is a line end that may be
      missing *)
  fx_cut : o_only_read o = false -> forall dl t fs os, top_level ds t -> object L t fs -> object L t os -> S (2 * vheight (VStruct t fs)) < limit ->
    XmlRound.writable L (negb (o_no_delta o) && dl)%bool (VStruct t fs) ->
    exists s, saves_text P o L dl t fs s /\ forall p q, s = (p ++ q)%string -> 1 < String.length q -> refuses_text P o L p t os
}.
Definition files (b : backend) (ds : list def) (o : output_spec) (P : list fdef) : Prop :=
  forall L limit, fitting ds L -> prints_text L -> parses limit L ->
  match b with
  | B_xml_attrib => files_xml ds o P L limit
  | B_xml => l_long L = 64%Z -> files_xml ds o P L limit
  | _ => True
  end.

Lemma xml_files b bk enums ss o ds L limit : xml_setting b bk enums ss o ds L -> (bk = Elements -> l_long L = 64%Z) ->
  header_ok (o_reader o) (o_writer o) ds = true -> l_defs L = ds -> (forall t, top_level ds t -> top_of ss t) -> prints_text L -> parses limit L ->
  files_xml ds o (prog b enums ss o) L limit.
Proof.
  intros X L64 OK LD TOP PT PL. pose proof (serve_xml b bk enums ss o ds L X L64 OK LD TOP) as SV.
  assert (SAVE : o_only_read o = false -> forall dl t fs, top_level ds t -> object L t fs -> XmlRound.writable L (negb (o_no_delta o) && dl)%bool (VStruct t fs) ->
    exists a k, write_val L bk (negb (o_no_delta o) && dl) (VStruct t fs) = Some (a, k) /\ saves_text (prog b enums ss o) o L dl t fs (printed [Elem t a k])).
  { intros OR dl t fs T O W. pose proof (proj2 (writable_iff b bk enums ss o ds L X _ (VStruct t fs) (TStruct t) (conj O I)) W) as D.
    destruct (writes_file b bk enums ss o ds L X OR L64 dl t fs (TOP t T) O) as (f0 & HW).
    destruct (write_val L bk (negb (o_no_delta o) && dl)%bool (VStruct t fs)) as [[at_ ks]|] eqn:WV; [|congruence]. exists at_, ks. split; [reflexivity|]. exists [Elem t at_ ks], f0. split; [reflexivity|exact HW]. }
  assert (ERR : forall s t os, top_level ds t -> object L t os -> parse_text limit s = Err -> refuses_text (prog b enums ss o) o L s t os).
  { intros s t os T O E. destruct (sx_none _ _ _ _ _ SV t os T O) as (f0 & H). exists f0. intros f wf a n l st LE FA GL RW A. apply (H f wf a n l st LE FA GL RW).
    unfold load. rewrite A. pose proof (PL s) as Q. now rewrite E in Q. }
  constructor.
  - intros OR dl t fs T O W. destruct (SAVE OR dl t fs T O W) as (a & k & WV & SA). destruct (fits_struct L t fs O) as (ms & FS & _).
    pose proof (written_fine b bk enums ss o ds L X PT _ (VStruct t fs) (TStruct t) (conj O I) a k WV) as FC.
    destruct (elem_print (Elem t a k) eq_refl (fine_elem t _ a k (struct_xml_name b bk enums ss o ds L X t ms FS) FC) (Printer false true None 0) (2 * vheight (VStruct t fs))) as (s & p' & PN & ET & _).
    { exact (fine_opens (VStruct t fs) t a k FC). }
    exists (printed [Elem t a k]), (2 * vheight (VStruct t fs)), (reload (Elem t a k)). split; [exact SA|]. split; [|lia].
    unfold printed. cbn [print_nodes]. rewrite PN. cbn [fst]. unfold seal, new_line. cbn [p_just p_first p_depth spaces append Nat.eqb]. rewrite append_nil_r.
    apply (doc_ _ "" "" "" "" s (reload (Elem t a k)) (String nl "")); auto; try constructor. apply (ms_blank (String nl "") ""); [reflexivity|constructor].
  - intros OR dl t fs os r T O O' LI SL. exact (bytes_move b bk enums ss o ds L X OR L64 limit PT PL dl t fs os r (TOP t T) O O' LI SL).
  - intros d s x t os r D LI (f0 & H). exists f0. intros f wf a n l st LE FA GL RW A. apply (H f wf a n l st LE FA GL RW).
    unfold load. rewrite A. pose proof (PL s) as Q. now rewrite (text_read limit d s x D LI) in Q.
  - exact ERR.
  - intros OR dl t fs os T O O' LI W. destruct (SAVE OR dl t fs T O W) as (a & k & WV & SA). exists (printed [Elem t a k]). split; [exact SA|].
    intros p q E LQ. apply ERR; auto. destruct (fits_struct L t fs O) as (ms & FS & _).
    pose proof (written_fine b bk enums ss o ds L X PT _ (VStruct t fs) (TStruct t) (conj O I) a k WV) as FC.
    rewrite (printed_cut limit (Elem t a k) p q eq_refl (fine_elem t _ a k (struct_xml_name b bk enums ss o ds L X t ms FS) FC)); [|pose proof (fine_opens (VStruct t fs) t a k FC) as H; cbn iota in H; lia|exact E].
    apply Nat.leb_gt in LQ. now rewrite LQ.
Qed.

(** *** C94 *)
Theorem C94_program : forall E b ds ins d o w, has_program E b ds ins d o w -> header_ok (o_reader o) (o_writer o) ds = true ->
  class_ok b o -> exists P, program_in E d o w = Some P /\ serves b ds o P /\ (o_only_read o = false -> stores b ds o P) /\ files b ds o P.
Proof.
  intros E b ds ins d o w H OK NF. destruct (C90_program E b ds ins d o w H OK NF) as (P & PI & SV). exists P. split; [exact PI|]. split; [exact SV|]. split.
  - intros OR. destruct (C81_program E b ds ins d o w H OK NF OR) as (P' & PI' & ST). assert (P' = P) by congruence. now subst.
  - destruct (program_of _ _ _ _ _ _ _ H) as (enums & ss & LK & PI' & TOP). assert (E' : P = prog b enums ss o) by congruence. subst P.
    intros L limit (D & LL & LF) PT PL. destruct b; [| |exact I|exact I].
    + apply (xml_files _ Attributes); auto; [|discriminate]. constructor; [constructor; auto; discriminate|left; auto|exact LL|exact LF|now apply String.eqb_neq].
    + intros L64. apply (xml_files _ Elements); auto. constructor; [constructor; auto; discriminate|right; auto|exact LL|exact LF|now apply String.eqb_neq].
Qed.
(** From a header and the command line. *)
Theorem C94_header : forall E argv0 a rest p cs ds, usual_sep E -> SymLex.plain (e_stamp E) = true ->
  e_exists E a = true -> e_canonical E a = Some p -> extension E p <> ".stfx" -> SymLex.plain (file_name E p) = true ->
  e_disk E p = Some cs -> StoreDefs.text_of cs ds -> header_ok "xml_reader_C" "xml_writer_C" ds = true ->
  (forall q, In q (four E (parent E p) single_spec) -> e_write E q = true) ->
  exists w P, stfx E argv0 (a :: rest) = Go 0%Z w /\ program_in E (parent E p) single_spec w = Some P /\ files B_xml_attrib ds single_spec P.
Proof.
  intros E argv0 a rest p cs ds U PS EX EC EXT PF D T OK W.
  destruct (C54_header_to_program E argv0 a rest p cs ds U PS EX EC EXT PF D T OK W) as (w & R & H).
  destruct (C94_program E _ ds _ _ _ w H OK ltac:(discriminate)) as (P & PI & _ & _ & X). eauto.
Qed.
(** Objects come back from bytes. *)
Theorem C94_full_round_trip : forall bk ds o P L limit, stores_xml bk ds o P L -> files_xml ds o P L limit -> o_only_read o = false ->
  lits_fresh L false -> forall dl t fs os, o_no_delta o = true \/ dl = false -> top_level ds t ->
  object L t fs -> storable L bk false (VStruct t fs) -> object L t os -> (forall u l, within (VVec u l) (VStruct t os) -> l = []) -> S (2 * vheight (VStruct t fs)) < limit ->
  moves P o L dl t fs os (Some fs).
Proof. intros bk ds o P L limit ST FX OR LF dl t fs os DL T O S O' E LI. apply (fx_moves _ _ _ _ _ FX OR); auto. Qed.
(** The library: whatever is printed is read back, as the document that is assumed to be in
    the file where programs are modelled with trees (Xml.v). *)
Theorem C94_library : forall limit x, is_elem x = true -> printable x -> S (opens x) < limit -> parse_text limit (printed [x]) = Got (kids_of (reload (Elem "" [] [x]))).
Proof. exact print_read. Qed.
Print Assumptions C94_program.
Print Assumptions C94_header.
Print Assumptions C94_full_round_trip.
Print Assumptions C94_library.

(** *** C95.  [doc_text d s x]: the text [s] stands for the document with root [x]; at most
    [d] elements are open at once. *)
(** Whatever is proved of documents holds for each of their texts: for generated readers ... *)
Theorem C95_layout : forall ds o P L limit, files_xml ds o P L limit -> forall d s x d' s' t os r, doc_text d s x -> doc_text d' s' x -> S d < limit -> S d' < limit ->
  loads P o L [x] t os r -> loads_text P o L s t os r /\ loads_text P o L s' t os r.
Proof. intros ds o P L limit FX d s x d' s' t os r D D' LI LI' H. split; eapply fx_text; eauto. Qed.
(** ... and for stfx itself: what main gets from a configuration file. *)
Theorem C95_meaning : forall L limit, conf_lang L -> parses limit L -> forall d s x, doc_text d s x -> S d < limit -> forall r,
  answers L (Some (list_ascii_of_string s)) r <-> r = match conf_of x with Some c => CRead c | None => CStop end.
Proof.
  intros L limit CL PL d s x D LI r. rewrite (C67_meaning L CL). unfold conf_file. rewrite string_of_list_ascii_of_string.
  pose proof (PL s) as Q. rewrite (text_read limit d s x D LI) in Q. rewrite Q. cbn [find]. assert (is_elem x = true) as ->; [|reflexivity].
  destruct D as [? ? ? ? ? x ? _ _ _ _ ET _]. now destruct ET.
Qed.
Theorem C95_document : forall L E limit p, parses limit L -> forall d s x, doc_text d s x -> S d < limit -> e_disk E p = Some (list_ascii_of_string s) -> holds_doc L E p x.
Proof.
  intros L E limit p PL d s x D LI DK. exists (list_ascii_of_string s), [x]. split; [exact DK|]. rewrite string_of_list_ascii_of_string.
  pose proof (PL s) as Q. rewrite (text_read limit d s x D LI) in Q. split; [exact Q|]. cbn [find]. assert (is_elem x = true) as ->; [|reflexivity].
  destruct D as [? ? ? ? ? x ? _ _ _ _ ET _]. now destruct ET.
Qed.

(** The file src/test/config.stfx, as it is: lines, with the number of tabs in front. *)
Definition config_lines : list (nat * string) :=
  [(0, "<config>");
   (1, "<common_in_files>");
   (2, "<input>");
   (3, "<input_file name=""test_enums.h""/>");
   (3, "<input_file name=""config_data.h""/>");
   (2, "</input>");
   (1, "</common_in_files>");
   (1, "<common_out_files file_type=""xml"" relative_directory=""common_out"" enum_file=""co_enums"" structs_file=""co_structs""/>");
   (1, "<non_common>");
   (2, "<uncommon_spec>");
   (3, "<input>");
   (4, "<input_file name=""test_extra1.h""/>");
   (3, "</input>");
   (3, "<out relative_directory=""xtra_1"" enum_file=""enums_1"" structs_file=""structs_1"" structs_reader_class=""xml_reader_1_C"" structs_writer_class=""xml_writer_1_C""/>");
   (2, "</uncommon_spec>");
   (2, "<uncommon_spec>");
   (3, "<input>");
   (4, "<input_file name=""test_extra2.h""/>");
   (3, "</input>");
   (3, "<out relative_directory=""xtra_2"" enum_file=""enums_2"" structs_file=""structs_2"" structs_reader_class=""xml_reader_2_C"" structs_writer_class=""xml_writer_2_C""/>");
   (2, "</uncommon_spec>");
   (1, "</non_common>");
   (0, "</config>");
   (0, "")].
Fixpoint tabs (n : nat) : string := match n with O => "" | S k => String (ascii_of_nat 9) (tabs k) end.
Definition config_text : string := fold_right (fun l r => (tabs (fst l) ++ snd l ++ String nl r)%string) "" config_lines.
Lemma config_parsed limit : 6 <= limit -> parse_text limit config_text = Got [test_doc].
Proof. intros L. apply (limit_more 6 limit _ _ L). vm_compute. reflexivity. Qed.
(** C93_project from the bytes of the configuration and of the headers. *)
Theorem C95_project : forall L E limit argv0 a rest p, conf_lang L -> own_reader L E -> parses limit L -> 6 <= limit -> usual_sep E -> SymLex.plain (e_stamp E) = true ->
  e_exists E a = true -> e_canonical E a = Some p -> extension E p = ".stfx" -> e_disk E p = Some (list_ascii_of_string config_text) -> let base := parent E p in project E base ->
  exists w P P1 P2, stfx E argv0 (a :: rest) = Go 0%Z w /\
  (program_in E (join E base "common_out") out_c w = Some P /\ serves B_xml common_defs out_c P /\ stores B_xml common_defs out_c P) /\
  (program_in E (join E base "xtra_1") (out_k "1") w = Some P1 /\ serves B_xml_attrib (common_defs ++ extra1_defs) (out_k "1") P1 /\ stores B_xml_attrib (common_defs ++ extra1_defs) (out_k "1") P1) /\
  (program_in E (join E base "xtra_2") (out_k "2") w = Some P2 /\ serves B_xml_attrib (common_defs ++ extra2_defs) (out_k "2") P2 /\ stores B_xml_attrib (common_defs ++ extra2_defs) (out_k "2") P2).
Proof.
  intros L E limit argv0 a rest p CL OR PL LI U PS EX EC EXT DK base PJ. apply (C93_project L E argv0 a rest p CL OR U PS EX EC EXT); [|exact PJ].
  exists (list_ascii_of_string config_text), [test_doc]. split; [exact DK|]. rewrite string_of_list_ascii_of_string.
  pose proof (PL config_text) as Q. rewrite (config_parsed limit LI) in Q. split; [exact Q|reflexivity].
Qed.
Print Assumptions C95_layout.
Print Assumptions C95_meaning.
Print Assumptions C95_document.
Print Assumptions C95_project.

(** A language that reads texts like this. *)
Definition reading (limit : nat) (L : lang) : lang :=
  Lang (l_defs L) (l_long L) (l_lit L) (l_const L) (l_zero L) (l_feq L) (l_xprint L) (l_xread L) (l_fprint L) (l_sto L)
    (fun s => match parse_text limit s with Got ks => Some ks | _ => None end) (l_writable L).
Lemma reading_parses limit L : parses limit (reading limit L).
Proof. intros s. cbn [reading l_parse]. now destruct (parse_text limit s). Qed.

(** From a configuration document to programs that work with bytes; see C90_document. *)
Theorem C94_document : forall L E argv0 a rest p x c dssc dsss, conf_lang L -> own_reader L E -> usual_sep E -> SymLex.plain (e_stamp E) = true ->
  e_exists E a = true -> e_canonical E a = Some p -> extension E p = ".stfx" -> holds_doc L E p x -> conf_of x = Some c ->
  let base := parent E p in let dsc := concat dssc in
  Pipeline.reads E base (c_in c) dssc -> NoDup (map def_name dsc) -> closed dsc ->
  Forall2 (fun s dss => Pipeline.reads E base (fst s) dss /\ NoDup (map def_name (dsc ++ concat dss))) (c_non c) dsss ->
  (forall s f, In s (c_non c) -> In f (fst s) -> ~ In (join E base f) (flat_map (paths_of E base) (outputs c))) ->
  existsb (blocked E base) (outputs c) = false ->
  exists w, stfx E argv0 (a :: rest) = Go 0%Z w /\
  (forall t o b d, c_out c = (t, o) -> wanted E base dsc (c_in c) t o b d -> class_ok b o ->
    (forall q, In q (four E d o) -> ~ In q (flat_map (paths_of E base) (map snd (c_non c)))) ->
    exists P, program_in E d o w = Some P /\ files b dsc o P) /\
  (forall k fs t o dss b d, nth_error (c_non c) k = Some (fs, (t, o)) -> nth_error dsss k = Some dss ->
    wanted E base (dsc ++ concat dss) (c_in c ++ fs) t o b d -> class_ok b o ->
    (forall q, In q (four E d o) -> ~ In q (flat_map (paths_of E base) (map snd (skipn (S k) (c_non c))))) ->
    exists P, program_in E d o w = Some P /\ files b (dsc ++ concat dss) o P).
Proof.
  intros L E argv0 a rest p x c dssc dsss CL OR U PS EX EC EXT HD CO base dsc R1 N1 C1 F2 NI NB.
  destruct (C68_document_to_programs L E argv0 a rest p x c dssc dsss CL OR U PS EX EC EXT HD CO R1 N1 C1 F2 NI NB) as (w & R & A & B).
  exists w. split; [exact R|]. split.
  - intros t o b d CO' W CK NQ. destruct (C94_program E b dsc (c_in c) d o w) as (P & PI & _ & _ & X); eauto using wt_ok.
  - intros k fs t o dss b d NT ND W CK NQ. destruct (C94_program E b (dsc ++ concat dss) (c_in c ++ fs) d o w) as (P & PI & _ & _ & X); eauto using wt_ok.
Qed.
Print Assumptions C94_document.

(** *** C96.  Files that are cut off, or that are no xml at all *)
Theorem C96_library : forall limit d s x p r b m, elem_text d s x -> s = (p ++ r)%string -> r <> "" -> S d < limit -> blanks b -> m = "" \/ m = bom -> parse_text limit (b ++ m ++ p) = Err.
Proof. exact cut_off. Qed.
Theorem C96_written : forall limit x p r, is_elem x = true -> printable x -> S (opens x) < limit -> printed [x] = (p ++ r)%string ->
  parse_text limit p = if (String.length r <=? 1)%nat then Got (kids_of (reload (Elem "" [] [x]))) else Err.
Proof. exact printed_cut. Qed.
(** The functions on the disk after a run. *)
Theorem C96_program : forall E b bk ds ins d o w, has_program E b ds ins d o w -> header_ok (o_reader o) (o_writer o) ds = true -> class_ok b o ->
  b = B_xml_attrib /\ bk = Attributes \/ b = B_xml /\ bk = Elements -> exists P, program_in E d o w = Some P /\
  forall L limit, fitting ds L -> prints_text L -> parses limit L -> (bk = Elements -> l_long L = 64%Z) ->
  (forall s t os, top_level ds t -> object L t os -> parse_text limit s = Err -> refuses_text P o L s t os) /\
  (o_only_read o = false -> forall dl t fs os, top_level ds t -> object L t fs -> object L t os -> S (2 * vheight (VStruct t fs)) < limit ->
   XmlRound.writable L (negb (o_no_delta o) && dl)%bool (VStruct t fs) ->
   exists s, saves_text P o L dl t fs s /\ forall p q, s = (p ++ q)%string -> 1 < String.length q -> refuses_text P o L p t os).
Proof.
  intros E b bk ds ins d o w H OK NF B. destruct (C94_program E b ds ins d o w H OK NF) as (P & PI & _ & _ & X). exists P. split; [exact PI|]. intros L limit FT PT PL L64.
  specialize (X L limit FT PT PL). assert (FX : files_xml ds o P L limit) by (destruct B as [[-> ->]|[-> ->]]; [exact X|exact (X (L64 eq_refl))]).
  split; [exact (fx_err _ _ _ _ _ FX)|exact (fx_cut _ _ _ _ _ FX)].
Qed.
(** stfx with a configuration file that ends inside of its root element. *)
Theorem C96_configuration : forall L E limit argv0 a rest p d s x s1 s2 b m, conf_lang L -> own_reader L E -> parses limit L -> e_exists E a = true -> e_canonical E a = Some p -> extension E p = ".stfx" ->
  elem_text d s x -> s = (s1 ++ s2)%string -> s2 <> "" -> S d < limit -> blanks b -> m = "" \/ m = bom -> e_disk E p = Some (list_ascii_of_string (b ++ m ++ s1)) ->
  exists w, stfx E argv0 (a :: rest) = Go 1%Z w /\ Main.w_files w = [].
Proof.
  intros L E limit argv0 a rest p d s x s1 s2 b m CL OR PL EX EC EXT ET ES S2 LI B M DK. apply (C68_unreadable L E argv0 a rest p CL OR EX EC EXT). right. eexists. split; [exact DK|].
  rewrite string_of_list_ascii_of_string. pose proof (PL (b ++ m ++ s1)%string) as Q. now rewrite (cut_off limit d s x s1 s2 b m ET ES S2 LI B M) in Q.
Qed.
(** ... that ends before its root element, after a declaration or a comment: tinyxml2 does not
    object, and main goes on with a null pointer. *)
Theorem C96_no_root : forall L E limit argv0 a rest p c m, conf_lang L -> own_reader L E -> parses limit L -> e_exists E a = true -> e_canonical E a = Some p -> extension E p = ".stfx" ->
  decl_text c -> misc_text m -> blank (c ++ m) = false -> 1 < limit -> e_disk E p = Some (list_ascii_of_string (c ++ m)) ->
  exists w, stfx E argv0 (a :: rest) = Stop w /\ Main.w_files w = [].
Proof.
  intros L E limit argv0 a rest p c m CL OR PL EX EC EXT C M NB LI DK. pose proof (PL (c ++ m)%string) as Q. rewrite (prolog_read limit c m C M NB LI) in Q.
  apply (C68_undefined L E argv0 a rest p _ [] CL OR EX EC EXT DK); [now rewrite string_of_list_ascii_of_string|now left].
Qed.
Print Assumptions C96_library.
Print Assumptions C96_written.
Print Assumptions C96_program.
Print Assumptions C96_configuration.
Print Assumptions C96_no_root.

(** *** Cases.  The header and the objects of XmlCase.v, with a parser like the one above and
    TINYXML2_MAX_ELEMENT_DEPTH = 100 *)
Definition tL : lang := reading 100 xL.
Lemma t_fitting : fitting xdefs tL.
Proof.
  split; [reflexivity|]. split; [reflexivity|]. intros n ms m ty v I J MT D. cbn in I.
  repeat (destruct I as [I|I]; [try discriminate I; injection I as <- <-; cbn in J; repeat (destruct J as [<-|J]; [cbn in MT, D; try discriminate; injection D as <-; injection MT as <-; vm_compute; reflexivity|]); contradiction|]). contradiction.
Qed.
Lemma t_storable b : storable tL b false (VStruct "outer" xv).
Proof.
  intros m d x SI. apply scalars_all in SI. vm_compute in SI.
  repeat (destruct SI as [SI|SI]; [injection SI as <- <- <-; split; [|discriminate]; cbn [keeps];
    first [exact I|reflexivity|split; [reflexivity|split; [vm_compute; reflexivity|intros _; reflexivity]]|eexists _, _; split; [reflexivity|]; right; split; vm_compute; reflexivity]|]). contradiction.
Qed.
Lemma t_lits_fresh delta : lits_fresh tL delta.
Proof.
  intros n ms m u v I J MT D. exfalso. cbn in I.
  repeat (destruct I as [I|I]; [try discriminate I; injection I as <- <-; cbn in J; repeat (destruct J as [<-|J]; [cbn in MT, D; discriminate|]); contradiction|]). contradiction.
Qed.
Lemma t_prints : prints_text tL.
Proof. intros k c. apply dec_no_nul. Qed.
Lemma t_top : top_level xdefs "outer".
Proof.
  split; [eexists; right; right; left; reflexivity|]. intros (n & ms & x & I & [J|[d J]]); cbn in I;
  (repeat (destruct I as [I|I]; [try discriminate I; injection I as <- <-; cbn in J; repeat (destruct J as [J|J]; [discriminate J|]); contradiction|]); contradiction).
Qed.
Lemma t_new : object tL "outer" xnew /\ object tL "outer" xv /\ no_items (VStruct "outer" xnew) = true.
Proof. repeat split; vm_compute; reflexivity. Qed.
(** stfx on the header of C81_case; the functions that it leaves on the disk write [xv], a copy
    of the file is read back, and no part of the file is read. *)
Example C94_case : exists w P, stfx whole_env "stfx" ["/d/a.h"] = Go 0%Z w /\ program_in whole_env "/d" single_spec w = Some P /\
  moves P single_spec tL false "outer" xv xnew (Some xv).
Proof.
  destruct (C54_header_to_program whole_env "stfx" "/d/a.h" [] "/d/a.h" (print (file_tokens xdefs)) xdefs) as (w & R & H); try reflexivity.
  - now left.
  - discriminate.
  - eexists _, _, _. split; [vm_compute; reflexivity|]. split; [split; [discriminate|apply Forall_forall; intros x0 [<-|[<-|[<-|[]]]]; cbn; repeat split; repeat constructor; discriminate]|vm_compute; reflexivity].
  - destruct (C94_program whole_env _ xdefs _ _ _ w H eq_refl ltac:(discriminate)) as (P & PI & _ & ST & FX). exists w, P. split; [exact R|]. split; [exact PI|].
    destruct t_new as (ON & OV & NI). specialize (FX tL 100 t_fitting t_prints (reading_parses 100 xL)). specialize (ST eq_refl tL t_fitting).
    apply (C94_full_round_trip Attributes xdefs single_spec P tL 100 ST FX eq_refl (t_lits_fresh false)); auto using t_top, t_storable.
    + intros u l. exact (no_items_ok _ u l NI).
    + vm_compute. repeat constructor.
Qed.
(** The bytes of these files: attributes, and elements. *)
Definition bytes_of (r : res val) : string := match r with Ok _ s => match assoc "out.xml" (CppSem.w_files (s_world s)) with Some (CDoc d) => printed d | _ => "" end | _ => "" end.
Definition as_lines (l : list string) : string := fold_right (fun x r => (x ++ String nl r)%string) "" l.
Definition xv_lines : list string :=
  ["<outer s="" two&lt;&amp;&gt;lines"" f=""12"" us=""65535"" e=""b"">";
   "    <i x=""-7"" l=""2147483647"" bo=""false""/>";
   "    <v>";
   "        <inner x=""1"" l=""2"" bo=""true""/>";
   "        <inner x=""4"" l=""9"" bo=""true""/>";
   "    </v>";
   "</outer>"].
Example C94_bytes : bytes_of (wrote B_xml_attrib false false "out.xml" xv) = as_lines xv_lines /\
  bytes_of (wrote B_xml true false "out.xml" (xout 3 "<" (xin 4 5 1) [] 1 2)) =
    as_lines ["<outer>"; "    <s>&lt;</s>"; "    <f>1</f>"; "    <us>2</us>"; "    <e>a</e>"; "    <i>"; "        <x>4</x>"; "        <l>5</l>"; "        <bo>true</bo>"; "    </i>"; "    <v/>"; "</outer>"].
Proof. split; vm_compute; reflexivity. Qed.
(** The limit: with 4 as TINYXML2_MAX_ELEMENT_DEPTH the file is read, with 3 it is not. *)
Example C94_depth : (exists x, parse_text 4 (as_lines xv_lines) = Got [x]) /\ parse_text 3 (as_lines xv_lines) = Err.
Proof. split; [eexists|]; vm_compute; reflexivity. Qed.

(** Another text for the document of [xv_lines]. *)
Definition other_lines : list string :=
  ["<?xml version='1.0'?>"; "<!-- by hand --><!DOCTYPE outer>"; "<outer   s = ' two&lt;&amp;>lines'"; " f='12' us = ""65535"" e='b' ><i x=""-7"" l='2147483647' bo='false'></i ><!-- - --><v>";
   "<inner x='1' l='2' bo='true' />"; "<inner x='4' l='9' bo='true'></inner> </v></outer>"; "<!-- end -->"].
Example C95_case : exists x, parse_text 100 (as_lines xv_lines) = Got [x] /\ parse_text 100 (as_lines other_lines) = Got [x].
Proof. eexists. split; vm_compute; reflexivity. Qed.
Ltac at1 b n b1 b2 q s w r := apply (at_cons b n b1 b2 q s w r); [reflexivity|discriminate|split; reflexivity|reflexivity|reflexivity|auto| | |cbn; intuition discriminate].
Ltac plain_spell := repeat (apply sp_char; [discriminate|discriminate|discriminate|]); try apply sp_end.
Example C95_spec : doc_text 1 "<?x?> <a b = 'c&amp;' d=""""><e/>t<!--?--><![CDATA[<]]></a>" (Elem "a" [("b", "c&"); ("d", "")] [Elem "e" [] []; Text "t"; Text "<"]).
Proof.
  apply (doc_ 1 "" "" "<?x?> " "" "<a b = 'c&amp;' d=""""><e/>t<!--?--><![CDATA[<]]></a>" _ ""); [reflexivity|now left| |constructor| |constructor].
  - apply (dc_decl "x" " "); [split; [reflexivity|intros [|? [|? ?]] y; discriminate]|]. apply (dc_blank " " ""); [reflexivity|constructor].
  - apply (el_open 0 "a" " b = 'c&amp;' d=""""" [("b", "c&"); ("d", "")] "" "<e/>t<!--?--><![CDATA[<]]>" _ ""); [split; reflexivity| |reflexivity| |reflexivity].
    + at1 " " "b" " " " " quote "c&amp;" "c&" " d=""""".
      * plain_spell. apply (sp_entity quote "amp" "&" "" ""); [cbn; auto|constructor].
      * at1 " " "d" "" "" dquote "" "" ""; constructor.
    + apply (bd_blank 0 "" "<e/>t<!--?--><![CDATA[<]]>"); [reflexivity|]. apply (bd_elem 0 "<e/>" (Elem "e" [] []) "t<!--?--><![CDATA[<]]>").
      * apply (el_sealed 0 "e" "" [] ""); [split; reflexivity|constructor|reflexivity].
      * apply (bd_text 0 "t" "t" "<!--?--><![CDATA[<]]>"); [plain_spell|reflexivity|]. apply (bd_comment 0 "?" "<![CDATA[<]]>"); [split; [reflexivity|intros [|? [|? ?]] y; discriminate]|].
        apply (bd_blank 0 "" "<![CDATA[<]]>"); [reflexivity|]. apply (bd_cdata 0 "<" ""); [split; [reflexivity|intros [|? [|? ?]] y; discriminate]|]. apply (bd_blank 0 "" ""); [reflexivity|constructor].
Qed.

(** stfx on the project in src/test, from the bytes of its files. *)
Definition rL : lang := reading 100 cL.
Lemma rL_conf : conf_lang rL.
Proof. split; reflexivity. Qed.
Definition text_env (l : list (string * string)) : env :=
  Env "today" "/" (fun _ => true) Some (fun _ => true) (fun p => option_map list_ascii_of_string (Cpp.assoc p l)) (fun _ => true) (conf_file rL) zdec.
Lemma text_own l : own_reader rL (text_env l).
Proof. intros cs. apply conf_answer_is; [exact rL_conf|reflexivity]. Qed.
Definition ship_env : env := text_env (("/d/c.stfx", config_text) :: map (fun f => ("/d/" ++ fst f, snd f)%string) project_files).
Example C95_ship : exists w P P1 P2, stfx ship_env "stfx" ["/d/c.stfx"] = Go 0%Z w /\ program_in ship_env "/d/common_out" out_c w = Some P /\
  program_in ship_env "/d/xtra_1" (out_k "1") w = Some P1 /\ program_in ship_env "/d/xtra_2" (out_k "2") w = Some P2.
Proof.
  destruct (C95_project rL ship_env 100 "stfx" "/d/c.stfx" [] "/d/c.stfx") as (w & P & P1 & P2 & R & (A & _) & (B & _) & (C & _)); try reflexivity.
  - exact rL_conf.
  - apply text_own.
  - exact (reading_parses 100 cL).
  - repeat constructor.
  - now left.
  - constructor; [|intros d I; split; reflexivity|reflexivity]. intros f x I. cbn in I. repeat (destruct I as [I|I]; [injection I as <- <-; vm_compute; reflexivity|]). contradiction.
  - exists w, P, P1, P2. repeat (split; [assumption|]). exact C.
Qed.
(** Parts of config.stfx: with the last two line ends missing it is read, without the last
    '>' it is not. *)
Example C96_case : String.length config_text = 816 /\ forallb (fun n => match parse_text 100 (substring 0 n config_text) with Err => true | _ => false end) [0; 1; 9; 200; 400; 600; 813] = true /\
  parse_text 100 (substring 0 814 config_text) = Got [test_doc].
Proof. repeat split; vm_compute; reflexivity. Qed.
Definition no_files (o : ran Z) : option Z := match o with Go z w => match Main.w_files w with [] => Some z | _ => None end | _ => None end.
Definition half_env : env := text_env [("/d/half.stfx", substring 0 400 config_text); ("/d/head.stfx", "<?xml version='1.0'?><!-- -->"); ("/d/end.stfx", "</a>")].
Example C96_stfx : no_files (stfx half_env "stfx" ["/d/half.stfx"]) = Some 1%Z /\
  (exists w, stfx half_env "stfx" ["/d/head.stfx"] = Stop w /\ Main.w_files w = []) /\ exists w, stfx half_env "stfx" ["/d/end.stfx"] = Stop w /\ Main.w_files w = [].
Proof.
  split; [vm_compute; reflexivity|]. split.
  - apply (C96_no_root rL half_env 100 "stfx" "/d/head.stfx" [] "/d/head.stfx" "<?xml version='1.0'?>" "<!-- -->"); try reflexivity; [exact rL_conf|apply text_own|exact (reading_parses 100 cL)| | |repeat constructor].
    + apply (dc_decl "xml version='1.0'" ""); [split; [reflexivity|]|constructor]. intros x y E.
      do 20 (destruct x as [|? x]; [discriminate E|injection E as _ E; try (destruct x; discriminate E)]).
    + apply (ms_comment " " ""); [split; [reflexivity|intros [|? [|? ?]] y; discriminate]|constructor].
  - eexists. split; [vm_compute; reflexivity|reflexivity].
Qed.
