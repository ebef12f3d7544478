(** Property theorems about headers as the compiler reads them: C86. *)
From Coq Require Import String Ascii ZArith NArith Arith List Bool Lia.
From Verif Require Import Base Map Items Flex LexProps LexMore Grammar ParseLang Fmt Decimal Templates Emit Main Cpp Xml Val CppSem SymLex Ast Store Resolve StoreDefs ResolveProps Prog Header EnumSem DecText EnumCall EnumRound Link
  XmlSpec XmlReader XmlCall XmlWriter XmlFile XmlCarry XmlRound XmlProps XmlReadProps XmlThms XmlCase
  MainProps RunProps Pipeline Lexable Lit LitProps ConfSpec ConfRead ConfRound Cxx CxxProps Shape P_Enum P_Xml P_Main P_Conf P_Whole P_Lit.
Import ListNotations.
Local Open Scope string_scope.
Local Open Scope list_scope.

(** *** C86.  [cxx_header cs ds] (Cxx.v): by the rules of C++ the text [cs] consists of the
    definitions [ds], in whose constants the signs are kept; [readable]: also every comment
    with // and every preprocessor line has a line end, and no line has more than two double
    quotes.  [unsigned ds]: the same without the signs, which the scanner drops. *)

(** The scanner finds the tokens of C++ in every text where a number is followed by one of
    [{ } = , ; < >] and then no number ([calm]), except the signs. *)
Theorem C86_tokens : forall cs l, cxx_tokens cs = Some l -> calm l = true -> lines_ended cs = true -> two_quotes cs = true ->
  exists its le ee, scan_text cs = Some (its, le, ee) /\ map i_tok its = toks l.
Proof.
  intros cs l L C LE TQ. unfold cxx_tokens in L. destruct (spliced cs); [discriminate|]. destruct (lex_tokens _ _ _ _ L C LE TQ) as [T _]. now apply tokens_scan.
Qed.
(** What stfx reads is what the compiler reads, up to signs. *)
Theorem C86_text : forall cs ds, readable cs ds -> StoreDefs.text_of cs (unsigned ds).
Proof. intros cs ds (H & LE & TQ). now apply cxx_text. Qed.
Lemma strip_shape ds : same_shape (unsigned ds) ds.
Proof.
  unfold unsigned. induction ds as [|d ds IH]; [constructor|]. constructor; [|exact IH]. destruct d as [c n es t|n ms]; cbn.
  - repeat split. rewrite map_map. now apply map_ext.
  - split; [reflexivity|]. clear IH. induction ms as [|m ms IH]; [constructor|]. constructor; [|exact IH]. destruct m; cbn; auto.
Qed.
(** Constants do not matter for the program that is generated. *)
Theorem C86_shape : forall E b ds ds' ins d o w, same_shape ds ds' -> NoDup (map def_name ds) ->
  has_program E b ds ins d o w <-> has_program E b ds' ins d o w.
Proof.
  intros E b ds ds' ins d o w S N. split; [now apply has_program_shape|]. apply has_program_shape; [now apply same_shape_sym|].
  rewrite <- (Forall2_map_eq def_name same_def ds ds' same_def_name S). exact N.
Qed.

Lemma stores_signed E b ds ins d o w : has_program E b (unsigned ds) ins d o w -> header_ok (o_reader o) (o_writer o) ds = true ->
  class_ok b o -> o_only_read o = false -> exists P, program_in E d o w = Some P /\ stores b ds o P.
Proof.
  intros H OK C O. apply (C81_program E b ds ins d o w); auto. apply (has_program_shape (unsigned ds) ds (strip_shape ds)); [|exact H].
  rewrite (Forall2_map_eq def_name same_def _ ds same_def_name (strip_shape ds)). exact (names_nodup _ _ _ OK).
Qed.
(** From a header that a compiler reads as [ds] to objects of the structs in [ds] that come
    back, whatever signs it contains. *)
Theorem C86_header : forall E argv0 a rest p cs ds, usual_sep E -> SymLex.plain (e_stamp E) = true ->
  e_exists E a = true -> e_canonical E a = Some p -> extension E p <> ".stfx" -> SymLex.plain (file_name E p) = true ->
  e_disk E p = Some cs -> readable cs ds -> header_ok "xml_reader_C" "xml_writer_C" ds = true ->
  (forall q, In q (four E (parent E p) single_spec) -> e_write E q = true) ->
  exists w P, stfx E argv0 (a :: rest) = Go 0%Z w /\ program_in E (parent E p) single_spec w = Some P /\ stores B_xml_attrib ds single_spec P /\
  forall F L, standard F L -> l_defs L = ds -> literals_ok ds (l_long L) F = true -> forall t fs os, top_level ds t ->
    object L t fs -> storable L Attributes false (VStruct t fs) -> object L t os -> (forall u l, within (VVec u l) (VStruct t os) -> l = []) ->
    saves_loads P single_spec L false t fs os (Some fs).
Proof.
  intros E argv0 a rest p cs ds U PS EX EC EXT PF D T OK W.
  assert (OK' : header_ok "xml_reader_C" "xml_writer_C" (unsigned ds) = true) by (rewrite (same_header _ _ _ _ (strip_shape ds)); exact OK).
  destruct (C54_header_to_program E argv0 a rest p cs (unsigned ds) U PS EX EC EXT PF D (C86_text cs ds T) OK' W) as (w & R & H).
  destruct (stores_signed E _ ds _ _ _ w H OK ltac:(discriminate) eq_refl) as (P & PI & X). exists w, P. split; [exact R|]. split; [exact PI|]. split; [exact X|].
  intros F L ST LD LO t fs os TL O1 SB O2 NV. rewrite <- LD in LO. destruct (C84_fitting F L ST LO) as [FT FR]. rewrite LD in FT.
  exact (X L FT (FR false) false t fs os (or_intror eq_refl) TL O1 SB O2 NV).
Qed.
(** The same for a configuration and all the headers it names. *)
Definition compiled (E : env) (base : string) (fs : list string) (dss : list (list def)) : Prop :=
  Forall2 (fun f ds => exists cs, e_disk E (join E base f) = Some cs /\ readable cs ds) fs dss.
Lemma compiled_reads E base fs dss : compiled E base fs dss -> Pipeline.reads E base fs (map unsigned dss).
Proof. induction 1 as [|f ds fs dss (cs & D & R) _ IH]; [constructor|]. constructor; [|exact IH]. exists cs. split; [exact D|now apply C86_text]. Qed.
Lemma unsigned_concat dss : concat (map unsigned dss) = unsigned (concat dss).
Proof. unfold unsigned. now rewrite concat_map. Qed.
Lemma unsigned_app a b : unsigned a ++ unsigned b = unsigned (a ++ b).
Proof. unfold unsigned. now rewrite map_app. Qed.
Lemma unsigned_names ds : map def_name (unsigned ds) = map def_name ds.
Proof. exact (Forall2_map_eq def_name same_def _ ds same_def_name (strip_shape ds)). Qed.
Lemma unsigned_wanted E base ds ins t o b d : wanted E base ds ins t o b d -> wanted E base (unsigned ds) ins t o b d.
Proof. intros []. constructor; auto. now rewrite (same_header _ _ _ _ (strip_shape ds)). Qed.
Theorem C86_document : forall L E argv0 a rest p x c dssc dsss, conf_lang L -> own_reader L E -> usual_sep E -> SymLex.plain (e_stamp E) = true ->
  e_exists E a = true -> e_canonical E a = Some p -> extension E p = ".stfx" -> holds_doc L E p x -> conf_of x = Some c ->
  let base := parent E p in let dsc := concat dssc in
  compiled E base (c_in c) dssc -> NoDup (map def_name dsc) -> closed dsc ->
  Forall2 (fun s dss => compiled E base (fst s) dss /\ NoDup (map def_name (dsc ++ concat dss))) (c_non c) dsss ->
  (forall s f, In s (c_non c) -> In f (fst s) -> ~ In (join E base f) (flat_map (paths_of E base) (outputs c))) ->
  existsb (blocked E base) (outputs c) = false ->
  exists w, stfx E argv0 (a :: rest) = Go 0%Z w /\
  (forall t o b d, c_out c = (t, o) -> wanted E base dsc (c_in c) t o b d -> class_ok b o -> o_only_read o = false ->
    (forall q, In q (four E d o) -> ~ In q (flat_map (paths_of E base) (map snd (c_non c)))) ->
    exists P, program_in E d o w = Some P /\ stores b dsc o P) /\
  (forall k fs t o dss b d, nth_error (c_non c) k = Some (fs, (t, o)) -> nth_error dsss k = Some dss ->
    wanted E base (dsc ++ concat dss) (c_in c ++ fs) t o b d -> class_ok b o -> o_only_read o = false ->
    (forall q, In q (four E d o) -> ~ In q (flat_map (paths_of E base) (map snd (skipn (S k) (c_non c))))) ->
    exists P, program_in E d o w = Some P /\ stores b (dsc ++ concat dss) o P).
Proof.
  intros L E argv0 a rest p x c dssc dsss CL OR U PS EX EC EXT HD CO base dsc R1 N1 C1 F2 NI NB.
  destruct (C68_document_to_programs L E argv0 a rest p x c (map unsigned dssc) (map (map unsigned) dsss) CL OR U PS EX EC EXT HD CO) as (w & R & A & B); auto.
  - now apply compiled_reads.
  - rewrite unsigned_concat, unsigned_names. exact N1.
  - rewrite unsigned_concat. exact (same_closed _ _ (same_shape_sym _ _ (strip_shape _)) C1).
  - clear - F2. induction F2 as [|s dss l l' [H N] _ IH]; [constructor|]. constructor; [|exact IH]. split; [now apply compiled_reads|]. rewrite !unsigned_concat, unsigned_app, unsigned_names. exact N.
  - rewrite unsigned_concat in *. exists w. split; [exact R|]. split.
    + intros t o b d CO' W CK OO NQ. eapply stores_signed; eauto using wt_ok. apply (A t o b d CO'); auto. now apply unsigned_wanted.
    + intros k fs t o dss b d NT ND W CK OO NQ. eapply stores_signed; eauto using wt_ok. rewrite <- unsigned_app, <- unsigned_concat. apply (B k fs t o (map unsigned dss) b d NT); auto.
      * now apply map_nth_error.
      * rewrite unsigned_concat, unsigned_app. now apply unsigned_wanted.
Qed.

(** The conditions of [readable] are needed: two strings on a line are read as one, and a
    comment with // at the end of a text without line end is an error. *)
Ltac is_header := split; [split; [discriminate|repeat constructor; discriminate]|eexists; split; vm_compute; reflexivity].
Ltac is_text := eexists _, _, _; split; [vm_compute; reflexivity|]; split; [split; [discriminate|repeat constructor; discriminate]|vm_compute; reflexivity].
Definition strings_text : bytes := list_ascii_of_string "struct shape { std::string title{""a""}; std::string label{""b""}; };".
Theorem C86_quotes_refuted : exists cs ds ds', cxx_header cs ds /\ lines_ended cs = true /\ StoreDefs.text_of cs ds' /\ ~ same_shape ds ds'.
Proof.
  exists strings_text, [DefStruct "shape" [MSimple std_string_E "title" (Default (DStr """a""")); MSimple std_string_E "label" (Default (DStr """b"""))]],
    [DefStruct "shape" [MSimple std_string_E "title" (Default (DStr """a""}; std::string label{""b"""))]].
  split; [is_header|]. split; [vm_compute; reflexivity|]. split; [is_text|]. intros H. inversion H as [|? ? ? ? D _]; subst. destruct D as [_ D]. inversion D as [|? ? ? ? _ D2]; subst. inversion D2.
Qed.
Theorem C86_unended_refuted : exists cs ds, cxx_header cs ds /\ two_quotes cs = true /\ forall ds', ~ StoreDefs.text_of cs ds'.
Proof.
  exists (list_ascii_of_string "struct shape { int size; }; // end"), [DefStruct "shape" [MSimple int_E "size" NoDefault]].
  split; [is_header|]. split; [vm_compute; reflexivity|]. intros ds' (its & le & ee & SC & [_ W] & T).
  match type of SC with scan_text ?t = _ => assert (X : match scan_text t with Some (i, _, _) => map i_tok i | None => [] end =
    [tk_struct; tk_name "shape"; tk_lbrace; tk_int; tk_name "size"; tk_semi; tk_rbrace; tk_semi; tk_name "end"]) by (vm_compute; reflexivity) end.
  rewrite SC, T in X. pose proof (GramSim.drun_file ds' W) as D. rewrite X in D. vm_compute in D. discriminate.
Qed.
(** What stfx takes for a header can be something else to the compiler: characters that no
    rule begins with are skipped (C57). *)
Theorem C86_more_refuted : exists cs ds, StoreDefs.text_of cs ds /\ lines_ended cs = true /\ two_quotes cs = true /\ cxx_tokens cs = None /\
  ds = [DefStruct "shape" [MSimple int_E "size" NoDefault; MSimple int_E "area" NoDefault; MSimple int_E "edge" NoDefault]].
Proof.
  exists (list_ascii_of_string "struct shape { int *size; int area(); int & edge; };"),
    [DefStruct "shape" [MSimple int_E "size" NoDefault; MSimple int_E "area" NoDefault; MSimple int_E "edge" NoDefault]]. split; [is_text|]. repeat split; vm_compute; reflexivity.
Qed.

(** The headers of the project's test, src/test. *)
Definition config_data_h : string := "// config_data.h
// items for stfx that can be configured (via xml file)
//

#pragma once

#include <string>
#include <vector>

enum class may_ish_E
{
	yes,
	maybe,
	no
};
	

struct test_data
	{
	unsigned int ui{ 42 };
	int i{ -42 };
	unsigned short us{ 42 };
	short s{ -42 };
	unsigned long ul{ 42 };
	long l{ -42 };
	float f{ 42.01f };
	double d{ 42.0001 };
	std::string str{ ""testing 1 2 3 4 5"" };
	may_ish_E maybe{};
	};

struct output_spec
	{
	std::string relative_directory {};		// path relative to input file
	std::string enum_file {};				// file root name of enums files (.cpp and .h)
	std::string structs_file {};			// file root name of enums files (.cpp and .h)
	};

struct input_file
{
	std::string name;
};

struct input_spec
{
	std::vector<input_file> input;
};


struct uncommon_spec
	{
	std::vector<input_file> input;
	output_spec out;
	};


struct config
	{
	input_spec common_in_files;
	output_spec common_out_files;
	std::vector <uncommon_spec> non_common;
	test_data erik;
	};

".
Definition test_enums_h : string := "// test_enums.h

#pragma once

enum first_E
{
	one = 1,
	two,
	three,
	four
};

enum class first_class_E
{
	zero = 0,
	one,
	two,
	three,
	four,
	five
};
".
Definition test_extra1_h : string := "// test_extra_1.h

struct extra_1
{
	int a1;
	int b1;
};

struct top_1
{
	uncommon_spec unc_sp;
	extra_1 xtra;
};".
Definition test_extra2_h : string := "// test_extra_2.h

struct extra_2
{
	int a2;
	int b2;
};".
Definition data_defs : list def :=
  [DefEnum true "may_ish_E" [Entry "yes" None; Entry "maybe" None; Entry "no" None] false;
   DefStruct "test_data"
     [MSimple unsigned_int_E "ui" (Default (DInt "42")); MSimple int_E "i" (Default (DInt "-42")); MSimple unsigned_short_E "us" (Default (DInt "42"));
      MSimple short_E "s" (Default (DInt "-42")); MSimple unsigned_long_E "ul" (Default (DInt "42")); MSimple long_E "l" (Default (DInt "-42"));
      MSimple float_E "f" (Default (DFlt "42.01f")); MSimple double_E "d" (Default (DFlt "42.0001")); MSimple std_string_E "str" (Default (DStr """testing 1 2 3 4 5"""));
      MUser "may_ish_E" "maybe" EmptyDefault];
   DefStruct "output_spec" [MSimple std_string_E "relative_directory" EmptyDefault; MSimple std_string_E "enum_file" EmptyDefault; MSimple std_string_E "structs_file" EmptyDefault];
   DefStruct "input_file" [MSimple std_string_E "name" NoDefault];
   DefStruct "input_spec" [MVector "input_file" "input"];
   DefStruct "uncommon_spec" [MVector "input_file" "input"; MUser "output_spec" "out" NoDefault];
   DefStruct "config" [MUser "input_spec" "common_in_files" NoDefault; MUser "output_spec" "common_out_files" NoDefault; MVector "uncommon_spec" "non_common"; MUser "test_data" "erik" NoDefault]].
Definition enums_defs : list def :=
  [DefEnum false "first_E" [Entry "one" (Some (CInt "1")); Entry "two" None; Entry "three" None; Entry "four" None] false;
   DefEnum true "first_class_E" [Entry "zero" (Some (CInt "0")); Entry "one" None; Entry "two" None; Entry "three" None; Entry "four" None; Entry "five" None] false].
Definition extra1_defs : list def :=
  [DefStruct "extra_1" [MSimple int_E "a1" NoDefault; MSimple int_E "b1" NoDefault];
   DefStruct "top_1" [MUser "uncommon_spec" "unc_sp" NoDefault; MUser "extra_1" "xtra" NoDefault]].
Definition extra2_defs : list def := [DefStruct "extra_2" [MSimple int_E "a2" NoDefault; MSimple int_E "b2" NoDefault]].
Definition some_float (k : fkind) (v : dvalue) : option Z := match v with DFlt "42.01f" => Some 4201%Z | DFlt "42.0001" => Some 420001%Z | _ => None end.
Example C86_shipped :
  readable (list_ascii_of_string config_data_h) data_defs /\ readable (list_ascii_of_string test_enums_h) enums_defs /\
  readable (list_ascii_of_string test_extra1_h) extra1_defs /\ readable (list_ascii_of_string test_extra2_h) extra2_defs /\
  header_ok "xml_reader_C" "xml_writer_C" (enums_defs ++ data_defs) = true /\
  header_ok "xml_reader_1_C" "xml_writer_1_C" (enums_defs ++ data_defs ++ extra1_defs) = true /\
  header_ok "xml_reader_2_C" "xml_writer_2_C" (enums_defs ++ data_defs ++ extra2_defs) = true /\
  literals_ok (enums_defs ++ data_defs) 64 some_float = true.
Proof.
  split; [split; [is_header|split; vm_compute; reflexivity]|]. split; [split; [is_header|split; vm_compute; reflexivity]|].
  split; [split; [is_header|split; vm_compute; reflexivity]|]. split; [split; [is_header|split; vm_compute; reflexivity]|]. repeat split; vm_compute; reflexivity.
Qed.
(** The shipped config_data.h as input of a run, and an object of its struct config. *)
Definition ship_env : env := demo [("/d/config_data.h", config_data_h)] [] CFail.
Definition ship_lang : lang := with_literals some_float (Lang data_defs 64 (fun t _ => VUndef t) (fun _ => 0%Z) (fun _ => 0%Z) (fun _ => Z.eqb)
  (fun _ c => zdec c) (fun _ s => scan_dec s) (fun _ c => zdec c) (fun _ s => scan_dec s) (fun _ => None) (fun _ => true)).
Definition ship_spec (a : string) : val := VStruct "output_spec" [("relative_directory", VStr a); ("enum_file", VStr "e"); ("structs_file", VStr "")].
Definition ship_files (l : list string) : val := VVec "input_file" (map (fun n => VStruct "input_file" [("name", VStr n)]) l).
Definition ship_fields (i l : Z) (ins : list string) (non : list val) : fields :=
  [("common_in_files", VStruct "input_spec" [("input", ship_files ins)]); ("common_out_files", ship_spec "out"); ("non_common", VVec "uncommon_spec" non);
   ("erik", VStruct "test_data" [("ui", VNum KUInt 42); ("i", VNum KInt i); ("us", VNum KUShort 65535); ("s", VNum KShort (-42)); ("ul", VNum KULong 42); ("l", VNum KLong l);
     ("f", VFlt KFloat 4201); ("d", VFlt KDouble 420001); ("str", VStr "testing"); ("maybe", VEnum "may_ish_E" 2)])]%Z.
Definition ship_object : fields := ship_fields (-2147483648) 17 ["a.h"; "b.h"] [VStruct "uncommon_spec" [("input", ship_files []); ("out", ship_spec "x")]].
Definition ship_new : fields := match default_fields ship_lang "config" with Some d => d | None => [] end.
Example C86_case : exists w P, stfx ship_env "stfx" ["/d/config_data.h"] = Go 0%Z w /\ program_in ship_env "/d" single_spec w = Some P /\
  saves_loads P single_spec ship_lang false "config" ship_object ship_new (Some ship_object) /\
  assoc "erik" ship_new = Some (VStruct "test_data" [("ui", VNum KUInt 42); ("i", VNum KInt (-42)); ("us", VNum KUShort 42); ("s", VNum KShort (-42)); ("ul", VNum KULong 42); ("l", VNum KLong (-42));
     ("f", VFlt KFloat 4201); ("d", VFlt KDouble 420001); ("str", VStr "testing 1 2 3 4 5"); ("maybe", VEnum "may_ish_E" 0)])%Z.
Proof.
  destruct (C86_header ship_env "stfx" "/d/config_data.h" [] "/d/config_data.h" (list_ascii_of_string config_data_h) data_defs) as (w & P & R & PI & _ & S); try reflexivity.
  - now left.
  - discriminate.
  - exact (proj1 C86_shipped).
  - exists w, P. split; [exact R|]. split; [exact PI|]. split; [|vm_compute; reflexivity].
    clear R PI. refine (S some_float ship_lang _ eq_refl _ "config" ship_object ship_new _ _ _ _ _).
    + apply with_literals_standard. clear. vm_compute. discriminate.
    + vm_compute; reflexivity.
    + split; [eexists; do 6 right; left; reflexivity|]. intros (n & ms & x & I & [J|[d J]]); cbn in I;
      (repeat (destruct I as [I|I]; [try discriminate I; injection I as <- <-; cbn in J; repeat (destruct J as [J|J]; [discriminate J|]); contradiction|]); contradiction).
    + vm_compute; reflexivity.
    + intros m d x SI. apply scalars_all in SI. vm_compute in SI.
      repeat (destruct SI as [SI|SI]; [injection SI as <- <- <-; split; [|discriminate]; cbn [keeps];
        first [exact I|reflexivity|split; [reflexivity|split; [vm_compute; reflexivity|discriminate]]|eexists _, _; split; [reflexivity|]; left; vm_compute; auto]|]). contradiction.
    + vm_compute; reflexivity.
    + intros u l. apply no_items_ok. vm_compute; reflexivity.
Qed.

Print Assumptions C86_tokens.
Print Assumptions C86_text.
Print Assumptions C86_shape.
Print Assumptions C86_header.
Print Assumptions C86_document.
Print Assumptions C86_quotes_refuted.
Print Assumptions C86_unended_refuted.
Print Assumptions C86_more_refuted.
