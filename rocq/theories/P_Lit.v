(** Property theorems about the initialisers written in a header: C84. *)
From Coq Require Import String Ascii ZArith NArith Arith List Bool Lia.
From Verif Require Import Base Map Items Grammar ParseLang Fmt Decimal Templates Emit Main Cpp Xml Val CppSem SymLex Ast Store Resolve StoreDefs ResolveProps Prog Header EnumSem DecText EnumCall EnumRound Link
  XmlSpec XmlReader XmlCall XmlWriter XmlFile XmlCarry XmlRound XmlProps XmlReadProps XmlThms XmlCase
  MainProps RunProps Pipeline Lexable Lit LitProps P_Enum P_Xml P_Main P_Whole.
Import ListNotations.
Local Open Scope string_scope.
Local Open Scope list_scope.

(** *** C84.  [lit_value] (Lit.v): what an initialiser means in C++; [literals_ok]: all of a
    header compile; [standard F L]: the language gives them this meaning. *)
(** The condition on initialisers of the other theorems can be checked on the header. *)
Theorem C84_fitting : forall F L, standard F L -> literals_ok (l_defs L) (l_long L) F = true ->
  fitting (l_defs L) L /\ forall delta, lits_fresh L delta.
Proof.
  intros F L ST OK. split; [|intros delta; exact (literals_fresh F L delta OK)]. split; [reflexivity|]. split; [pose proof (st_long _ _ ST); lia|exact (literals_fit F L ST OK)].
Qed.
(** A standard language exists for every header, with any floating point arithmetic. *)
Theorem C84_standard_exists : forall F L, (32 <= l_long L)%Z -> standard F (with_literals F L) /\ l_defs (with_literals F L) = l_defs L.
Proof. intros F L LL. split; [now apply with_literals_standard|reflexivity]. Qed.

(** From the text of a header to objects that come back. *)
Theorem C84_header : forall E argv0 a rest p cs ds, usual_sep E -> SymLex.plain (e_stamp E) = true ->
  e_exists E a = true -> e_canonical E a = Some p -> extension E p <> ".stfx" -> SymLex.plain (file_name E p) = true ->
  e_disk E p = Some cs -> StoreDefs.text_of cs ds -> header_ok "xml_reader_C" "xml_writer_C" ds = true ->
  (forall q, In q (four E (parent E p) single_spec) -> e_write E q = true) ->
  exists w P, stfx E argv0 (a :: rest) = Go 0%Z w /\ program_in E (parent E p) single_spec w = Some P /\
  forall F L, standard F L -> l_defs L = ds -> literals_ok ds (l_long L) F = true -> forall t fs os, top_level ds t ->
    object L t fs -> storable L Attributes false (VStruct t fs) -> object L t os -> (forall u l, within (VVec u l) (VStruct t os) -> l = []) ->
    saves_loads P single_spec L false t fs os (Some fs).
Proof.
  intros E argv0 a rest p cs ds U PS EX EC EXT PF D T OK W.
  destruct (C81_header E argv0 a rest p cs ds U PS EX EC EXT PF D T OK W) as (w & P & R & PI & S). exists w, P. split; [exact R|]. split; [exact PI|].
  intros F L ST LD LO t fs os TL O1 SB O2 NV. rewrite <- LD in LO. destruct (C84_fitting F L ST LO) as [FT FR]. rewrite LD in FT.
  exact (S L FT (FR false) false t fs os (or_intror eq_refl) TL O1 SB O2 NV).
Qed.

(** The same for the programs of any back end that C81 finds for an output of a configuration:
    no condition on initialisers is left but the check on the header. *)
Theorem C84_stores : forall b ds o P, stores b ds o P -> forall F L, standard F L -> l_defs L = ds -> literals_ok ds (l_long L) F = true ->
  match b with
  | B_xml_attrib | B_xml => (b = B_xml -> l_long L = 64%Z) -> forall dl t fs os, o_no_delta o = true \/ dl = false -> top_level ds t ->
      object L t fs -> storable L (match b with B_xml => Elements | _ => Attributes end) false (VStruct t fs) -> object L t os ->
      (forall u l, within (VVec u l) (VStruct t os) -> l = []) -> saves_loads P o L dl t fs os (Some fs)
  | B_n_ini => stores_ini ds o P L
  | B_ini => False
  end.
Proof.
  intros b ds o P S F L ST LD LO. rewrite <- LD in LO. destruct (C84_fitting F L ST LO) as [FT FR]. rewrite LD in FT. specialize (S L FT). destruct b.
  - intros _ dl t fs os. exact (S (FR false) dl t fs os).
  - intros L64 dl t fs os. exact (S (L64 eq_refl) (FR false) dl t fs os).
  - exact S.
  - exact (S (st_long _ _ ST)).
Qed.

(** A delta leaves out a member of the struct exactly if it has the value that is written in
    the header. *)
Theorem C84_delta : forall bk b enums ss o ds L F, xml_setting bk b enums ss o ds L -> o_only_read o = false -> (b = Elements -> l_long L = 64%Z) ->
  standard F L -> o_no_delta o = false -> forall t fs, top_of ss t -> object L t fs -> XmlRound.writable L true (VStruct t fs) ->
  exists a k, file_writes bk enums ss o L true t fs (Some [Elem t a k]) /\
  forall ms m ty v x y, In (DefStruct t ms) ds -> In m ms -> is_scalar L m = true -> member_dflt m = Default v -> member_type L m = Some ty ->
    lit_value ds (l_long L) F ty v = Some x -> (forall j, ty <> TFlt j) -> assoc (member_name m) fs = Some y ->
    (find_item b (member_name m) a (map (fun z => (z, tt)) k) = Absent <-> y = x).
Proof.
  intros bk b enums ss o ds L F X OR BL ST ND t fs T O W.
  pose proof (C34_delta_exact bk b enums ss o ds L X OR BL true t fs) as H. cbv zeta in H. rewrite ND in H. cbn [negb andb] in H.
  destruct (H T O W) as (a & k & FW & DE). exists a, k. split; [exact FW|].
  intros ms m ty v x y DS I SC MD MT V NF A. pose proof (x_defs _ _ _ _ _ _ _ X) as LD. rewrite <- LD in DS, V.
  inversion DE as [u fs' ms' dd a' k' FS DD N1 N2 SCL STR|]; subst u fs' a' k'.
  assert (M : find_struct (l_defs L) t = Some ms) by (apply (struct_iff (o_reader o) (o_writer o) _ (r_ok _ _ _ _ _ _ _ X)); exact DS).
  assert (ms' = ms) by congruence. subst ms'.
  pose proof (default_value F L ST t ms dd m ty v x DD FS (r_distinct _ _ _ _ _ _ _ X t ms FS) I MD MT V) as DV.
  destruct (parts _ _ _ _ _ _ _ X t fs O) as (ms2 & d2 & FS2 & D2 & _ & _ & PM). assert (ms2 = ms) by congruence. subst ms2.
  destruct (PM m I) as (ty2 & y2 & dv2 & MT2 & A2 & _ & FY & _). assert (ty2 = ty) by congruence. assert (y2 = y) by congruence. subst ty2 y2.
  destruct (W m x y) as [IY _]; [exact (ScalarIn L _ m x y t fs ms dd (w_here _) FS DD I SC A DV)|].
  rewrite (SCL m y x I SC A DV). destruct (compared F L ST ty v x y V NF FY IY) as (e & -> & EQ). cbn [andb]. rewrite <- EQ. destruct e; split; congruence.
Qed.

(** Enumerators: the text for a number is the first enumerator with this number by the rules
    of C++, where constants are decimal, octal, hexadecimal or characters. *)
Theorem C84_enum_text : forall b enums ss o ds L F, setting b enums ss o ds L -> standard F L -> forall wf c n es t vs, In (DefEnum c n es t) ds ->
  const_values 0 es = Some vs -> forall lv z f s,
  call_fun L (prog b enums ss o) wf (S f) ["stfx"; "s_from_e"] [(lv, VEnum n z)] s = Ok (VStr (enum_text vs z)) s.
Proof.
  intros b enums ss o ds L F G ST wf c n es t vs I C lv z f s. rewrite <- (const_values_ok F L ST es 0 vs C). exact (C29_text b enums ss o ds L G wf c n es t I lv z f s).
Qed.

(** A number printed in decimal is a constant with this value. *)
Theorem C84_decimal : forall n, (- 2 ^ 63 < n < 2 ^ 63)%Z -> int_lit (zdec n) = Some n.
Proof. exact int_lit_decimal. Qed.

(** A std::string can be given any text without a character 0, by escapes with numbers, and no
    other text. *)
Theorem C84_strings : forall ds long F x, (exists s, lit_value ds long F TStd (DStr s) = Some (VStr x)) <-> no_nul x = true.
Proof.
  intros ds long F x. cbn [lit_value]. split.
  - intros (s & E). destruct (str_lit s) as [y|]; [|discriminate]. injection E as <-. apply cut_no_nul.
  - intros N. exists (spelled x). now rewrite spelled_lit, (cut_id x N).
Qed.
(** An octal escape has at most three digits, a hexadecimal one ends where its digits end; what
    is behind a character 0 is not in the string; and a character has 8 bits. *)
Definition escape_defs : list def :=
  [DefStruct "shape" [MSimple std_string_E "title" (Default (DStr """A\x42\1034\7.\0z"""))]].
Definition esc_default (s : string) : option val := lit_value [] 64 (fun _ _ => None) TStd (DStr s).
Example C84_escapes : StoreDefs.text_of (print (file_tokens escape_defs)) escape_defs /\ esc_default """A\x42\1034\7.\0z""" = Some (VStr ("ABC4" ++ String "007" ".")) /\
  esc_default """\x4g""" = Some (VStr (String "004" "g")) /\ esc_default """\x100""" = None /\ esc_default """\xg""" = None /\ esc_default """\777""" = None /\ esc_default """\q""" = None.
Proof.
  split; [eexists _, _, _; split; [vm_compute; reflexivity|]; split; [split; [discriminate|repeat constructor; discriminate]|vm_compute; reflexivity]|]. repeat split.
Qed.

(** The scanner takes two numbers with any character between them for a floating point constant
    (C79), so headers may have sums and so on, with the value that they have in C++; and digits may
    be separated. *)
Theorem C84_operations : forall ds long F k c x y z, (0 <= x < 2 ^ 31)%Z -> (0 <= y < 2 ^ 31)%Z -> in_kind long k z = true -> in_int z = true ->
  (c = "+"%char /\ z = x + y \/ c = "-"%char /\ z = x - y \/ c = "*"%char /\ z = x * y \/ c = "/"%char /\ y <> 0 /\ z = Z.quot x y \/ c = "%"%char /\ y <> 0 /\ z = Z.rem x y \/
   c = "<"%char /\ (x < y /\ z = 1 \/ y <= x /\ z = 0) \/ c = ">"%char /\ (y < x /\ z = 1 \/ x <= y /\ z = 0))%Z ->
  lit_value ds long F (TNum k) (DFlt (zdec x ++ String c (zdec y))) = Some (VNum k z).
Proof.
  intros ds long F k c x y z HX HY IK IZ H.
  assert (O : operation c x y = Some z).
  { unfold operation. destruct H as [[-> H]|[[-> H]|[[-> H]|[(-> & N & H)|[(-> & N & H)|[[-> H]|[-> H]]]]]]]; cbn [Ascii.eqb Bool.eqb].
    1,2,3: subst z; now rewrite IZ.
    1,2: apply Z.eqb_neq in N; rewrite N; subst z; now rewrite IZ.
    all: destruct H as [[H ->]|[H ->]]; [apply Z.ltb_lt in H|apply Z.ltb_ge in H]; rewrite H; reflexivity. }
  assert (C : is_digit c = false /\ c <> quote /\ is_letter c = false).
  { destruct H as [[-> H]|[[-> H]|[[-> H]|[(-> & N & H)|[(-> & N & H)|[[-> H]|[-> H]]]]]]]; repeat split; discriminate. }
  destruct C as (C1 & C2 & C3). cbn [lit_value integral]. rewrite (proj1 (operation_lit x y c HX HY C1 C2 C3)), O, IK. reflexivity.
Qed.
Theorem C84_separators : forall ds long F t a b, all_chars is_digit a = true -> all_chars is_digit b = true -> a <> "" -> b <> "" -> (forall k, t <> TFlt k) ->
  lit_value ds long F t (DFlt (a ++ String "'" b)) = lit_value ds long F t (DInt (a ++ b)).
Proof.
  intros ds long F t a b A B NA NB NF. pose proof (separated_lit a b A B NA NB) as E. change quote with "'"%char in E.
  destruct t; cbn [lit_value integral]; rewrite ?E; try reflexivity. now destruct (NF k).
Qed.
Definition sum_defs : list def :=
  [DefStruct "shape" [MSimple int_E "sum" (Default (DFlt "1+2")); MSimple long_E "big" (Default (DFlt "10'000")); MSimple bool_E "less" (Default (DFlt "2<3"));
     MSimple unsigned_short_E "bits" (Default (DFlt "0b101")); MSimple short_E "half" (Default (DFlt "7/2"))]].
Definition sum_lang : lang := with_literals (fun _ _ => None) (Lang sum_defs 64 (fun t _ => VUndef t) (fun _ => 0%Z) (fun _ => 0%Z) (fun _ => Z.eqb)
  (fun _ c => zdec c) (fun _ s => scan_dec s) (fun _ c => zdec c) (fun _ s => scan_dec s) (fun _ => None) (fun _ => true)).
Example C84_sums : StoreDefs.text_of (list_ascii_of_string "struct shape { int sum{1+2}; long big{10'000}; bool less{2<3}; unsigned short bits{0b101}; short half{7/2}; };") sum_defs /\
  literals_ok sum_defs 64 (fun _ _ => None) = true /\
  default_fields sum_lang "shape" = Some [("sum", VNum KInt 3); ("big", VNum KLong 10000); ("less", VNum KBool 1); ("bits", VNum KUShort 5); ("half", VNum KShort 3)]%Z /\
  lit_value [] 64 (fun _ _ => None) (TNum KInt) (DFlt "1/0") = None /\ lit_value [] 64 (fun _ _ => None) (TNum KUInt) (DFlt "1-2") = None /\ lit_value [] 64 (fun _ _ => None) (TNum KInt) (DFlt "1,5") = None.
Proof.
  split; [eexists _, _, _; split; [vm_compute; reflexivity|]; split; [split; [discriminate|repeat constructor; discriminate]|vm_compute; reflexivity]|]. repeat split.
Qed.
(** Anything between two numbers is accepted, also what does not compile. *)
Theorem C84_comma_refuted : exists ds, StoreDefs.text_of (list_ascii_of_string "struct shape { int size{1,5}; };") ds /\ header_ok "xml_reader_C" "xml_writer_C" ds = true /\
  forall long F, literals_ok ds long F = false.
Proof.
  exists [DefStruct "shape" [MSimple int_E "size" (Default (DFlt "1,5"))]]. split; [|split; reflexivity].
  eexists _, _, _. split; [vm_compute; reflexivity|]. split; [split; [discriminate|repeat constructor; discriminate]|vm_compute; reflexivity].
Qed.

(** stfx does not check initialisers: it accepts headers that do not compile. *)
Definition narrowed : list def := [DefStruct "shape" [MSimple short_E "size" (Default (DInt "70000"))]].
Theorem C84_unchecked_refuted : exists cs ds, StoreDefs.text_of cs ds /\ header_ok "xml_reader_C" "xml_writer_C" ds = true /\
  forall long F, literals_ok ds long F = false.
Proof.
  exists (list_ascii_of_string "struct shape { short size{70000}; };"), narrowed. split; [|split; reflexivity].
  eexists _, _, _. split; [vm_compute; reflexivity|]. split; [split; [discriminate|repeat constructor; discriminate]|vm_compute; reflexivity].
Qed.

(** A header with all kinds of constants. *)
Definition lit_defs : list def :=
  [DefEnum false "colour" [Entry "red" (Some (CHex "0x1F")); Entry "green" None; Entry "blue" (Some (CChar "'A'"))] false;
   DefEnum true "size" [Entry "big" (Some (CInt "010")); Entry "small" None] true;
   DefStruct "shape" [MSimple int_E "number" (Default (DInt "42")); MSimple bool_E "flag" (Default DTrue); MSimple short_E "octal" (Default (DInt "017"));
     MSimple std_string_E "title" (Default (DStr """a\n\""b""")); MUser "colour" "col" (Default (DEnum "colour::green")); MUser "size" "sz" (Default (DEnum "size::small"));
     MSimple unsigned_short_E "code" (Default (DEnum "colour::blue")); MSimple std_string_E "letter" (Default (DChar "'z'")); MSimple long_E "count" EmptyDefault]].
Definition no_float (k : fkind) (v : dvalue) : option Z := None.
Definition lit_lang : lang := with_literals no_float (Lang lit_defs 64 (fun t _ => VUndef t) (fun _ => 0%Z) (fun _ => 0%Z) (fun _ => Z.eqb)
  (fun _ c => zdec c) (fun _ s => scan_dec s) (fun _ c => zdec c) (fun _ s => scan_dec s) (fun _ => None) (fun _ => true)).
Example C84_case : StoreDefs.text_of (print (file_tokens lit_defs)) lit_defs /\ header_ok "xml_reader_C" "xml_writer_C" lit_defs = true /\
  literals_ok lit_defs 64 no_float = true /\ standard no_float lit_lang /\
  default_fields lit_lang "shape" = Some [("number", VNum KInt 42); ("flag", VNum KBool 1); ("octal", VNum KShort 15); ("title", VStr ("a" ++ String "010" """b")%string);
    ("col", VEnum "colour" 32); ("sz", VEnum "size" 9); ("code", VNum KUShort 65); ("letter", VStr "z"); ("count", VNum KLong 0)]%Z /\
  const_values 0 [Entry "red" (Some (CHex "0x1F")); Entry "green" None; Entry "blue" (Some (CChar "'A'"))] = Some [("red", 31); ("green", 32); ("blue", 65)]%Z.
Proof.
  split; [eexists _, _, _; split; [vm_compute; reflexivity|]; split; [split; [discriminate|repeat constructor; discriminate]|vm_compute; reflexivity]|].
  split; [vm_compute; reflexivity|]. split; [vm_compute; reflexivity|]. split; [now apply with_literals_standard|]. split; vm_compute; reflexivity.
Qed.

Print Assumptions C84_fitting.
Print Assumptions C84_standard_exists.
Print Assumptions C84_header.
Print Assumptions C84_delta.
Print Assumptions C84_enum_text.
Print Assumptions C84_decimal.
Print Assumptions C84_stores.
Print Assumptions C84_strings.
Print Assumptions C84_unchecked_refuted.
Print Assumptions C84_operations.
Print Assumptions C84_separators.
Print Assumptions C84_comma_refuted.
