(** Property theorems about xml files written by hand: C104. *)
From Coq Require Import String Ascii ZArith NArith Arith List Bool Lia Permutation.
From Verif Require Import Base Map Items Grammar ParseLang Fmt Decimal Templates Emit Main Cpp Xml Val CppSem SymLex Ast Store Resolve StoreDefs ResolveProps Prog Header EnumSem DecText EnumCall EnumRound Link
  XmlSpec XmlRdSimple XmlRead XmlReader XmlCall XmlWriter XmlFile XmlCarry XmlRound XmlProps XmlReadProps XmlThms XmlCase XmlBlank MainTemplates Shipped EmitCheck ConfSpec ConfRead ConfRound P_Conf
  MainProps RunProps Pipeline Lexable P_Main P_Xml P_Whole P_Serve
  XmlText XmlTextSpec XmlTextRead XmlPrint XmlBytes XmlOrder P_File
  IniSpec IniKeep IniRange NumText XmlMean.
Import ListNotations.
Local Open Scope string_scope.
Local Open Scope list_scope.

(** *** C104.  [item_in b n x] (XmlMean): the attribute, or the first child, of the name [n] in the
    element [x], and its text.  [xmeans L m s v]: the text [s] means [v] for the member [m];
    numbers are [numeral]s (NumText) or [hexnum]s.  [takes L m i old new]: [new] is what the text
    means, or [old] if it is not there or means nothing.  [faulty L b m i]: a number that is too
    big, or a text without meaning for the short and long types, or none as an attribute of these
    types, or a number that an enumeration cannot hold.  [broken b L u x]: some item in [x], read
    as a struct [u], is faulty.
    Reading is undefined for just these elements, whatever the object. *)
Theorem C104_defined : forall bk b enums ss o ds L, xml_setting bk b enums ss o ds L -> (32 <= l_long L)%Z ->
  forall x u os, object L u os -> exists r, XmlThms.reads bk enums ss o L x u os r /\ (r = None <-> broken b L u x).
Proof.
  intros bk b enums ss o ds L X LB x u os O. exists (read_struct L b x u os). split; [now apply (reads_struct bk b enums ss o ds L X)|]. exact (read_defined bk b enums ss o ds L X LB _ x (Nat.lt_succ_diag_r _) u os O).
Qed.
(** Otherwise every struct in the object is read from the element at the same place, if there is
    one; and the members of built-in types and enums take what the texts mean. *)
Theorem C104_values : forall bk b enums ss o ds L, xml_setting bk b enums ss o ds L -> (32 <= l_long L)%Z ->
  forall x t os, object L t os -> exists r, XmlThms.reads bk enums ss o L x t os r /\ forall gs, r = Some gs ->
  forall ns u f, member_at ns (VStruct t os) = Some (VStruct u f) -> exists g, member_at ns (VStruct t gs) = Some (VStruct u g) /\
  match elem_at ns x with
  | None => g = f
  | Some y => XmlThms.reads bk enums ss o L y u f (Some g) /\
      forall ms m, find_struct (l_defs L) u = Some ms -> In m ms -> is_scalar L m = true ->
      exists old new, assoc (member_name m) f = Some old /\ assoc (member_name m) g = Some new /\ takes L m (item_in b (member_name m) y) old new
  end.
Proof.
  intros bk b enums ss o ds L X LB x t os O. exists (read_struct L b x t os). split; [now apply (reads_struct bk b enums ss o ds L X)|]. intros gs R ns u f AT.
  destruct (read_at bk b enums ss o ds L X ns x t os gs O R u f AT) as (g & A & E). exists g. split; [exact A|]. destruct (elem_at ns x) as [y|]; [|exact E].
  pose proof (fits_at bk b enums ss o ds L X ns t os u f O AT) as F. split; [rewrite <- E; now apply (reads_struct bk b enums ss o ds L X)|].
  intros ms m FS I S. exact (read_takes bk b enums ss o ds L X LB y u f g ms m F E FS I S).
Qed.
(** With the functions that a run of stfx leaves on the disk, for any text of the document. *)
Theorem C104_programs : forall E b bk ds ins d o w, has_program E b ds ins d o w -> header_ok (o_reader o) (o_writer o) ds = true -> class_ok b o ->
  b = B_xml_attrib /\ bk = Attributes \/ b = B_xml /\ bk = Elements -> exists P, program_in E d o w = Some P /\
  forall L limit, fitting ds L -> parses limit L -> (32 <= l_long L)%Z ->
  forall t os dp s x, top_level ds t -> object L t os -> doc_text dp s x -> S dp < limit ->
  exists r, loads_text P o L s t os r /\ (r = None <-> broken bk L t x) /\ forall gs, r = Some gs ->
  forall ns u f, member_at ns (VStruct t os) = Some (VStruct u f) -> exists g, member_at ns (VStruct t gs) = Some (VStruct u g) /\
  match elem_at ns x with
  | None => g = f
  | Some y => forall ms m, find_struct (l_defs L) u = Some ms -> In m ms -> is_scalar L m = true ->
      exists old new, assoc (member_name m) f = Some old /\ assoc (member_name m) g = Some new /\ takes L m (item_in bk (member_name m) y) old new
  end.
Proof.
  intros E b bk ds ins d o w H OK NF B. destruct (program_of _ _ _ _ _ _ _ H) as (enums & ss & LK & PI & TOP). eexists. split; [exact PI|].
  intros L limit (D & LL & LF) PL LB t os dp s x T O DT LI.
  assert (X : xml_setting b bk enums ss o ds L).
  { constructor; [constructor; auto; destruct B as [[-> _]|[-> _]]; discriminate|destruct B as [[-> ->]|[-> ->]]; [left|right]; auto|exact LL|exact LF|]. destruct B as [[-> _]|[-> _]]; now apply String.eqb_neq. }
  assert (R : root [x] = Some x).
  { unfold root. cbn [find]. assert (is_elem x = true) as ->; [|reflexivity]. destruct DT as [? ? ? ? ? z ? _ _ _ _ ET _]. now destruct ET. }
  destruct (fits_struct L t os O) as (ms & FS & _). exists (read_struct L bk x t os). split; [|split].
  - pose proof (reads_file b bk enums ss o ds L X [x] t os ms (TOP t T) FS O) as RF. rewrite R in RF. destruct RF as (f1 & H1); [discriminate|]. exists f1. intros f wf a n l st LE FA GL TH AS. apply (H1 f wf a n l st LE FA GL TH). unfold load. rewrite AS.
    pose proof (PL s) as Q. now rewrite (text_read limit dp s x DT LI) in Q.
  - exact (read_defined b bk enums ss o ds L X LB _ x (Nat.lt_succ_diag_r _) t os O).
  - intros gs RS ns u f AT. destruct (read_at b bk enums ss o ds L X ns x t os gs O RS u f AT) as (g & A & EQ). exists g. split; [exact A|]. destruct (elem_at ns x) as [y|]; [|exact EQ].
    intros ms' m FS' I S. exact (read_takes b bk enums ss o ds L X LB y u f g ms' m (fits_at b bk enums ss o ds L X ns t os u f O AT) EQ FS' I S).
Qed.
(** Members that can be read from any document. *)
Definition calm (L : lang) (m : member) : Prop :=
  match m with
  | MSimple (float_E | double_E | std_string_E) _ _ => True
  | MSimple _ _ _ => False
  | MUser u _ _ => forall es, find_enum (l_defs L) u <> Some (false, es)
  | MVector _ _ => True
  end.
Theorem C104_calm : forall bk b enums ss o ds L, xml_setting bk b enums ss o ds L -> (32 <= l_long L)%Z -> (forall u ms m, find_struct (l_defs L) u = Some ms -> In m ms -> calm L m) ->
  forall x u os, object L u os -> exists gs, XmlThms.reads bk enums ss o L x u os (Some gs).
Proof.
  intros bk b enums ss o ds L X LB C x u os O. destruct (C104_defined bk b enums ss o ds L X LB x u os O) as (r & R & H). destruct r as [gs|]; [eauto|]. exfalso. pose proof (proj1 H eq_refl) as B.
  clear - B C. induction B as [u ms m x FS I S G|u ms t n d x c FS I _ _ _ IH|u ms t n x c e FS I _ _ _ _ IH]; [|exact IH|exact IH]. specialize (C u ms m FS I).
  destruct m as [t n d|t n d|t n]; [| |discriminate S]; cbn [member_name] in G.
  - destruct t; try contradiction; destruct (item_in b n x) as [|[s|]] eqn:E; cbn [faulty converted] in G; try (destruct G as [G _]; discriminate G); try (destruct G as [_ G]; discriminate G); discriminate G.
  - destruct (item_in b n x) as [|[s|]] eqn:E; cbn [faulty converted] in G; [destruct G as [_ G]; discriminate G| |discriminate G]. destruct G as (c & es & z & FE & _ & _ & R & EH). destruct c; [|now apply (C es)].
    unfold enum_holds in EH. rewrite FE in EH. apply in_int_is in R. congruence.
Qed.
(** Numbers of other types are not reported: -1 as an unsigned short, hexadecimal numbers as an
    int; and neither is a number for an enumeration that is none of its values. *)
Lemma x_read x r : read_struct xL Attributes x "outer" xv = r -> root [x] = Some x -> file_reads B_xml_attrib xen xss (xo false) xL [x] "outer" xv r.
Proof.
  intros <- R. assert (O : object xL "outer" xv) by (vm_compute; reflexivity). destruct (fits_struct xL "outer" xv O) as (ms & FS & _).
  pose proof (reads_file B_xml_attrib Attributes xen xss (xo false) xdefs xL (proj1 (x_setting false)) [x] "outer" xv ms (proj1 x_top) FS O) as H. rewrite R in H. apply H. discriminate.
Qed.
Theorem C104_other_number_refuted : file_reads B_xml_attrib xen xss (xo false) xL [Elem "outer" [("e", "7 or so"); ("us", "-1")] [Elem "i" [("x", "0xFFFFFFFF"); ("l", " 12abc"); ("bo", "TRUE")] []]] "outer" xv
  (Some (xout 7 " two<&>lines" (xin (-1) 12 1) [xin 1 2 1; xin 4 9 1] 12 65535)).
Proof. apply x_read; [vm_compute; reflexivity|reflexivity]. Qed.
(** A text that is no number: not reported for an int, undefined behaviour for a long. *)
Theorem C104_no_number_refuted :
  file_reads B_xml_attrib xen xss (xo false) xL [Elem "outer" [("us", "1")] [Elem "i" [("x", "seven"); ("l", "1")] []]] "outer" xv (Some (xout 4 " two<&>lines" (xin (-7) 1 0) [xin 1 2 1; xin 4 9 1] 12 1)) /\
  file_reads B_xml_attrib xen xss (xo false) xL [Elem "outer" [("us", "1")] [Elem "i" [("x", "1"); ("l", "seven")] []]] "outer" xv None.
Proof. split; apply x_read; [vm_compute; reflexivity|reflexivity|vm_compute; reflexivity|reflexivity]. Qed.
Print Assumptions C104_defined.
Print Assumptions C104_values.
Print Assumptions C104_programs.
Print Assumptions C104_calm.
Print Assumptions C104_other_number_refuted.
Print Assumptions C104_no_number_refuted.

(** *** Cases *)
Example C104_texts : int_text " 0x1f is 31" 31 /\ int_text "0xFFFFFFFF" (-1) /\ int_text "-042" (-42) /\ not_int "4294967296" /\ not_int "0x100000000" /\ no_number "x1" /\ uint_text "-1" 4294967295.
Proof. rewrite <- !to_int_value, <- !to_int_over, <- to_int_none, <- to_unsigned_value. repeat (split; [vm_compute; reflexivity|]). vm_compute; reflexivity. Qed.
(** An element in a vector with a number that is too big. *)
Example C104_broken : (32 <= l_long xL)%Z /\ broken Attributes xL "outer" (Elem "outer" [("us", "1")] [Elem "v" [] [Elem "p" [("l", "5")] []; Elem "p" [("x", "99999999999"); ("l", "5")] []]]) /\
  ~ broken Attributes xL "outer" (Elem "outer" [("us", "1")] [Elem "v" [] [Elem "p" [("l", "5")] []; Elem "p" [("x", "99"); ("l", "5")] []]]).
Proof.
  assert (LB : (32 <= l_long xL)%Z) by (vm_compute; discriminate). assert (O : object xL "outer" xv) by (vm_compute; reflexivity). split; [exact LB|].
  split; [|intros B]; [|revert B]; rewrite <- (read_defined B_xml_attrib Attributes xen xss (xo false) xdefs xL (proj1 (x_setting false)) LB _ _ (Nat.lt_succ_diag_r _) "outer" xv O); [vm_compute; reflexivity|]. vm_compute. discriminate.
Qed.
Example C104_place : member_at ["i"] (VStruct "outer" xv) = Some (VStruct "inner" (xin (-7) 2147483647 0)) /\ elem_at ["i"] (Elem "outer" [("us", "1")] [Elem "s" [] []; Elem "i" [("x", "7")] []]) = Some (Elem "i" [("x", "7")] []) /\
  item_in Attributes "x" (Elem "i" [("x", "7")] []) = Present (Some "7") /\ item_in Elements "x" (Elem "i" [] [Elem "x" [] [Text "7"]]) = Present (Some "7") /\ xmeans xL (MSimple int_E "x" EmptyDefault) "7" (VNum KInt 7).
Proof. repeat (split; [reflexivity|]). exists 7%Z. split; [apply to_int_value; reflexivity|reflexivity]. Qed.
(** A header with members that can be read from any document. *)
Definition calm_defs : list def :=
  [DefEnum true "en" [Entry "a" None] false; DefStruct "st" [MSimple std_string_E "s" EmptyDefault; MUser "en" "e" EmptyDefault]; DefStruct "top" [MVector "st" "v"; MUser "st" "t" EmptyDefault]].
Example C104_calm_case : header_ok "xml_reader_C" "xml_writer_C" calm_defs = true /\ forall L u ms m, l_defs L = calm_defs -> find_struct (l_defs L) u = Some ms -> In m ms -> calm L m.
Proof.
  split; [vm_compute; reflexivity|]. intros L u ms m E FS I. rewrite E in FS. apply find_struct_in in FS. destruct FS as [FS|[FS|[FS|[]]]]; [discriminate| |]; injection FS as <- <-; destruct I as [<-|[<-|[]]]; cbn [calm]; auto; rewrite E; intros es H; discriminate H.
Qed.
