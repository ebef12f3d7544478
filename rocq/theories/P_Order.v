(** Property theorems about the order of attributes and elements in xml files: C98. *)
From Coq Require Import String Ascii ZArith NArith Arith List Bool Lia Permutation.
From Verif Require Import Base Map Items Grammar ParseLang Fmt Decimal Templates Emit Main Cpp Xml Val CppSem SymLex Ast Store Resolve StoreDefs ResolveProps Prog Header EnumSem DecText EnumCall EnumRound Link
  XmlSpec XmlRdSimple XmlRead XmlReader XmlCall XmlWriter XmlFile XmlCarry XmlRound XmlProps XmlReadProps XmlThms XmlCase XmlBlank MainTemplates Shipped EmitCheck ConfSpec ConfRead ConfRound P_Conf
  MainProps RunProps Pipeline Lexable P_Main P_Xml P_Whole P_Serve
  XmlText XmlTextSpec XmlTextRead XmlPrint XmlBytes XmlOrder P_File.
Import ListNotations.
Local Open Scope string_scope.
Local Open Scope list_scope.

(** *** C98 *)
(** Files: the order does not matter ... *)
Theorem C98_order : forall bk b enums ss o ds L, xml_setting bk b enums ss o ds L ->
  forall ks ks' t x y os ms, top_of ss t -> find_struct (l_defs L) t = Some ms -> root ks = Some x -> root ks' = Some y -> moved L t x y -> object L t os ->
  exists r, file_reads bk enums ss o L ks t os r /\ file_reads bk enums ss o L ks' t os r.
Proof.
  intros bk b enums ss o ds L X ks ks' t x y os ms TO MS R1 R2 MO F. exists (read_struct L b x t os). split.
  - pose proof (reads_file bk b enums ss o ds L X ks t os ms TO MS F) as H. rewrite R1 in H. apply H. discriminate.
  - rewrite (proj1 (proj1 (moved_same bk b enums ss o ds L X) t x y MO) os). pose proof (reads_file bk b enums ss o ds L X ks' t os ms TO MS F) as H. rewrite R2 in H. apply H. discriminate.
Qed.
(** ... in particular if all elements in an element for a struct have names of their own. *)
Theorem C98_permutation : forall bk b enums ss o ds L, xml_setting bk b enums ss o ds L ->
  forall t n a a' k k' os ms, top_of ss t -> find_struct (l_defs L) t = Some ms -> object L t os ->
  Permutation a a' -> NoDup (map fst a) -> Permutation k k' -> NoDup (flat_map elem_name k) ->
  exists r, file_reads bk enums ss o L [Elem n a k] t os r /\ file_reads bk enums ss o L [Elem n a' k'] t os r.
Proof.
  intros bk b enums ss o ds L X t n a a' k k' os ms TO MS F PA NA PK NK. eapply C98_order; eauto; [reflexivity|reflexivity|].
  apply (mv L t ms n a a' k k k' MS NA PA); [|now apply permuted]. clear. induction k; constructor; auto.
Qed.
(** With the functions that a run of stfx leaves on the disk, and any texts of the documents. *)
Theorem C98_programs : forall E b bk ds ins d o w, has_program E b ds ins d o w -> header_ok (o_reader o) (o_writer o) ds = true -> class_ok b o ->
  b = B_xml_attrib /\ bk = Attributes \/ b = B_xml /\ bk = Elements -> exists P, program_in E d o w = Some P /\
  forall L limit, fitting ds L -> parses limit L -> (bk = Elements -> l_long L = 64%Z) ->
  forall t os d1 s1 x d2 s2 y, top_level ds t -> object L t os -> doc_text d1 s1 x -> S d1 < limit -> doc_text d2 s2 y -> S d2 < limit -> moved L t x y ->
  exists r, loads_text P o L s1 t os r /\ loads_text P o L s2 t os r.
Proof.
  intros E b bk ds ins d o w H OK NF B. destruct (program_of _ _ _ _ _ _ _ H) as (enums & ss & LK & PI & TOP). eexists. split; [exact PI|].
  intros L limit (D & LL & LF) PL L64 t os d1 s1 x d2 s2 y T O T1 L1 T2 L2 MO.
  assert (X : xml_setting b bk enums ss o ds L).
  { constructor; [constructor; auto; destruct B as [[-> _]|[-> _]]; discriminate|destruct B as [[-> ->]|[-> ->]]; [left|right]; auto|exact LL|exact LF|]. destruct B as [[-> _]|[-> _]]; now apply String.eqb_neq. }
  assert (R : forall dd s z, doc_text dd s z -> root [z] = Some z).
  { intros dd s z DT. unfold root. cbn [find]. assert (is_elem z = true) as ->; [|reflexivity]. destruct DT as [? ? ? ? ? z ? _ _ _ _ ET _]. now destruct ET. }
  destruct (fits_struct L t os O) as (ms & FS & _).
  destruct (C98_order b bk enums ss o ds L X [x] [y] t x y os ms (TOP t T) FS (R _ _ _ T1) (R _ _ _ T2) MO O) as (r & (f1 & H1) & (f2 & H2)). exists r.
  split; [exists f1|exists f2]; intros f wf a n l st LE FA GL TH AS; [apply (H1 f wf a n l st LE FA GL TH)|apply (H2 f wf a n l st LE FA GL TH)]; unfold load; rewrite AS.
  - pose proof (PL s1) as Q. now rewrite (text_read limit d1 s1 x T1 L1) in Q.
  - pose proof (PL s2) as Q. now rewrite (text_read limit d2 s2 y T2 L2) in Q.
Qed.
(** Configuration files. *)
Theorem C98_configuration : forall L, conf_lang L -> forall x y, moved L "config" x y -> conf_of x = conf_of y.
Proof.
  intros L C x y M. pose proof (proj1 (proj1 (moved_same B_xml_attrib Attributes cen css out0 conf_defs L (conf_setting L C)) _ x y M) (vconf conf0)) as H.
  rewrite !(conf_read_ok L C) in H. destruct (conf_of x) as [c|] eqn:X, (conf_of y) as [d|] eqn:Y; cbn [option_map] in H; try discriminate; [|reflexivity].
  apply some_eq in H. f_equal. apply vconf_inj; [exact (conf_of_ok _ _ X)|exact (conf_of_ok _ _ Y)|exact H].
Qed.
Theorem C98_configuration_text : forall L limit, conf_lang L -> parses limit L -> forall d1 s1 x d2 s2 y, doc_text d1 s1 x -> S d1 < limit -> doc_text d2 s2 y -> S d2 < limit ->
  moved L "config" x y -> forall r, answers L (Some (list_ascii_of_string s1)) r <-> answers L (Some (list_ascii_of_string s2)) r.
Proof.
  intros L limit CL PL d1 s1 x d2 s2 y T1 L1 T2 L2 MO r. rewrite (C95_meaning L limit CL PL d1 s1 x T1 L1 r), (C95_meaning L limit CL PL d2 s2 y T2 L2 r).
  now rewrite (C98_configuration L CL x y MO).
Qed.
(** The elements of a vector are not among the things that can be moved: they are read in the
    order of the file. *)
Definition v_doc (c : list node) : node := Elem "outer" [("us", "1")] [Elem "v" [] c].
Definition v_a : node := Elem "inner" [("l", "1")] [].
Definition v_b : node := Elem "inner" [("l", "2")] [].
Theorem C98_vector_refuted : exists bk b enums ss o ds L, xml_setting bk b enums ss o ds L /\ exists t os c c' r r', top_of ss t /\ object L t os /\ Permutation c c' /\
  file_reads bk enums ss o L [v_doc c] t os r /\ file_reads bk enums ss o L [v_doc c'] t os r' /\ r <> r'.
Proof.
  exists B_xml_attrib, Attributes, xen, xss, (xo false), xdefs, xL. split; [exact (proj1 (x_setting false))|].
  exists "outer", xv, [v_a; v_b], [v_b; v_a], (read_struct xL Attributes (v_doc [v_a; v_b]) "outer" xv), (read_struct xL Attributes (v_doc [v_b; v_a]) "outer" xv).
  split; [exact (proj1 x_top)|]. assert (O : object xL "outer" xv) by (vm_compute; reflexivity). split; [exact O|]. split; [constructor|].
  destruct (fits_struct xL "outer" xv O) as (ms & FS & _).
  split; [apply (reads_file B_xml_attrib Attributes xen xss (xo false) xdefs xL (proj1 (x_setting false)) [v_doc [v_a; v_b]] "outer" xv ms (proj1 x_top) FS O); discriminate|].
  split; [apply (reads_file B_xml_attrib Attributes xen xss (xo false) xdefs xL (proj1 (x_setting false)) [v_doc [v_b; v_a]] "outer" xv ms (proj1 x_top) FS O); discriminate|].
  assert (E : forall e1 e2 : option fields, (match e1, e2 with Some [_; _; _; (_, VVec _ l); _; _], Some [_; _; _; (_, VVec _ l'); _; _] => match nth_error l 2, nth_error l' 2 with Some (VStruct _ [_; (_, VNum _ z); _]), Some (VStruct _ [_; (_, VNum _ z'); _]) => negb (z =? z')%Z | _, _ => false end | _, _ => false end) = true -> e1 <> e2).
  { intros e1 e2 H <-. destruct e1 as [[|? [|? [|? [|[? []] [|? [|? [|]]]]]]]|]; try discriminate. destruct (nth_error l 2) as [[]|]; try discriminate.
    repeat match goal with H : context [match ?x with _ => _ end] |- _ => destruct x; try discriminate end. rewrite Z.eqb_refl in H. discriminate. }
  apply E. vm_compute. reflexivity.
Qed.
Print Assumptions C98_order.
Print Assumptions C98_permutation.
Print Assumptions C98_programs.
Print Assumptions C98_configuration.
Print Assumptions C98_configuration_text.
Print Assumptions C98_vector_refuted.

(** *** Cases *)
Definition m_x : node := Elem "outer" [("s", "hi"); ("us", "7")] [Elem "i" [("x", "1"); ("l", "2"); ("bo", "true")] []; Elem "v" [] [Elem "p" [("l", "3"); ("x", "4")] []]; Text "t"; Elem "nix" [] []; Elem "v" [] []].
Definition m_y : node := Elem "outer" [("us", "7"); ("s", "hi")] [Elem "nix" [] []; Elem "v" [] [Elem "p" [("x", "4"); ("l", "3")] []]; Elem "v" [] []; Text "t"; Elem "i" [("bo", "true"); ("l", "2"); ("x", "1")] []].
Example C98_case : moved xL "outer" m_x m_y /\ exists gs, file_reads B_xml_attrib xen xss (xo false) xL [m_x] "outer" xv (Some gs) /\ file_reads B_xml_attrib xen xss (xo false) xL [m_y] "outer" xv (Some gs) /\
  gs = xout 4 "hi" (xin 1 2 1) [xin 1 2 1; xin 4 9 1; xin 4 3 1] 12 7.
Proof.
  assert (M : moved xL "outer" m_x m_y).
  { eapply (mv xL "outer" _ "outer" _ _ _ [Elem "i" [("bo", "true"); ("l", "2"); ("x", "1")] []; Elem "v" [] [Elem "p" [("x", "4"); ("l", "3")] []]; Text "t"; Elem "nix" [] []; Elem "v" [] []]); [reflexivity|repeat constructor; cbn; intuition discriminate|constructor| |].
    - eapply (mvk_struct xL _ (MUser "inner" "i" EmptyDefault) "inner"); [cbn; auto|reflexivity|eexists _, _; reflexivity| |].
      + eapply (mv xL "inner" _ "i" _ _ [] [] []); [reflexivity|repeat constructor; cbn; intuition discriminate| |constructor|intros n _; reflexivity].
        eapply perm_trans; [apply perm_skip, perm_swap|]. eapply perm_trans; [apply perm_swap|]. apply perm_skip, perm_swap.
      + eapply (mvk_vector xL _ "inner" "v"); [cbn; auto 10| |repeat constructor]. apply mvi_item; [|constructor].
        eapply (mv xL "inner" _ "p" _ _ [] [] []); [reflexivity|repeat constructor; cbn; intuition discriminate|constructor|constructor|intros n _; reflexivity].
    - intros n I. cbn in I. repeat (destruct I as [<-|I]; [reflexivity|]). contradiction. }
  split; [exact M|]. exists (xout 4 "hi" (xin 1 2 1) [xin 1 2 1; xin 4 9 1; xin 4 3 1] 12 7).
  assert (O : object xL "outer" xv) by (vm_compute; reflexivity). destruct (fits_struct xL "outer" xv O) as (ms & FS & _).
  assert (R : read_struct xL Attributes m_x "outer" xv = Some (xout 4 "hi" (xin 1 2 1) [xin 1 2 1; xin 4 9 1; xin 4 3 1] 12 7)) by (vm_compute; reflexivity).
  assert (R' : read_struct xL Attributes m_y "outer" xv = Some (xout 4 "hi" (xin 1 2 1) [xin 1 2 1; xin 4 9 1; xin 4 3 1] 12 7)) by (vm_compute; reflexivity).
  split; [|split; [|reflexivity]]; [rewrite <- R|rewrite <- R'];
  [apply (reads_file B_xml_attrib Attributes xen xss (xo false) xdefs xL (proj1 (x_setting false)) [m_x] "outer" xv ms (proj1 x_top) FS O)|
   apply (reads_file B_xml_attrib Attributes xen xss (xo false) xdefs xL (proj1 (x_setting false)) [m_y] "outer" xv ms (proj1 x_top) FS O)]; discriminate.
Qed.
