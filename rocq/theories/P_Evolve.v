(** Property theorems about files of one version of a header that are read with another
    version: C97. *)
From Coq Require Import String Ascii ZArith NArith Arith List Bool Lia.
From Verif Require Import Base Map Items Grammar ParseLang Fmt Decimal Templates Emit Main Cpp Xml Val CppSem SymLex Ast Store Resolve StoreDefs ResolveProps Prog Header EnumSem DecText EnumCall EnumRound Link
  XmlSpec XmlRdSimple XmlRead XmlReader XmlCall XmlWriter XmlFile XmlCarry XmlRound XmlProps XmlReadProps XmlThms XmlCase XmlBlank
  MainProps RunProps Pipeline Lexable P_Main P_Xml P_Whole P_Serve
  XmlText XmlTextSpec XmlTextRead XmlPrint XmlBytes XmlUp P_File.
Import ListNotations.
Local Open Scope string_scope.
Local Open Scope list_scope.

(** *** Two programs *)
(** write_to_file of the functions [P], and then, anywhere, read_from_file of the functions
    [P'] on a file with the bytes that were written. *)
Definition hands_over (P : list fdef) (o : output_spec) (L : lang) (P' : list fdef) (o' : output_spec) (M : lang) (dl : bool) (t : string) (fs os : fields) (r : option fields) : Prop :=
  exists f0, forall f wf wf' a n l s a' n' l' s', f0 <= f ->
    file_arg a n s -> get_lv l s = Some (VStruct t fs) -> s_this s = [("m_delta_only", vbool dl)] -> l_writable L (cut n) = true ->
    exists d, call_fun L P wf f [o_writer o; "write_to_file"] [a; (Some l, VStruct t fs)] s =
      Ok (vbool true) (CppSem.set_world s (CppSem.World (set_assoc (cut n) (CDoc d) (CppSem.w_files (s_world s))) (w_in (s_world s)) (w_out (s_world s)))) /\
    (file_arg a' n' s' -> get_lv l' s' = Some (VStruct t os) -> reader_or_writer (s_this s') -> assoc (cut n') (CppSem.w_files (s_world s')) = Some (CText (printed d)) ->
     call_fun M P' wf' f [o_reader o'; "read_from_file"] [a'; (Some l', VStruct t os)] s' = XmlThms.outcome t l' r s').

Lemma hands_prog bk b enums ss o ds L enums' ss' o' ds' M limit : xml_setting bk b enums ss o ds L -> xml_setting bk b enums' ss' o' ds' M ->
  (b = Elements -> l_long L = 64%Z) -> o_only_read o = false -> prints_text L -> parses limit M ->
  forall dl t fs os at_ ks, top_of ss t -> top_of ss' t -> object L t fs -> object M t os -> S (2 * vheight (VStruct t fs)) < limit ->
  write_val L b (negb (o_no_delta o) && dl) (VStruct t fs) = Some (at_, ks) ->
  hands_over (prog bk enums ss o) o L (prog bk enums' ss' o') o' M dl t fs os (read_struct M b (reload (Elem t at_ ks)) t os).
Proof.
  intros X X' L64 OR PT PL dl t fs os at_ ks TO TO' F FO LI WV.
  destruct (writes_file bk b enums ss o ds L X OR L64 dl t fs TO F) as (f2 & HW). rewrite WV in HW. cbn [option_map fst snd] in HW.
  destruct (XmlThms.object_struct M t os FO) as (ms & MS).
  pose proof (written_parsed bk b enums ss o ds L X PT _ limit t fs at_ ks F WV LI) as PA.
  destruct (reads_file bk b enums' ss' o' ds' M X' (kids_of (reload (Elem "" [] [Elem t at_ ks]))) t os ms TO' MS FO) as (f3 & HR); [discriminate|]. rewrite reload_root in HR.
  exists (f2 + f3). intros f wf wf' a n l s a' n' l' s' LE FA GL TH WB. exists [Elem t at_ ks]. split; [exact (HW f wf a n l s ltac:(lia) FA GL TH WB)|].
  intros FA' GL' TH' AS. apply (HR f wf' a' n' l' s' ltac:(lia) FA' GL' TH').
  unfold load. rewrite AS. pose proof (PL (printed [Elem t at_ ks])) as Q. rewrite PA in Q. exact Q.
Qed.
Lemma storable_writable L b delta v : storable L b delta v -> XmlRound.writable L delta v.
Proof.
  intros S m d x SI. destruct (S m d x SI) as (K & D). split; [destruct x; try exact I; destruct K|]. intros E. now destruct (D E).
Qed.

(** *** C97.  [updated] (XmlUp.v): members of both versions come from the file, enumerators by
    their name; new members stay as they are, as well as those that a delta does not mention;
    members that are gone are skipped. *)
Theorem C97_versions : forall bk b enums ss o ds L enums' ss' o' ds' M limit, xml_setting bk b enums ss o ds L -> xml_setting bk b enums' ss' o' ds' M ->
  (b = Elements -> l_long L = 64%Z) -> o_only_read o = false -> prints_text L -> parses limit M -> same_machine L M -> compatible L M b ->
  forall dl t fs os, let delta := (negb (o_no_delta o) && dl)%bool in top_of ss t -> top_of ss' t -> object L t fs -> object M t os -> S (2 * vheight (VStruct t fs)) < limit ->
  storable L b delta (VStruct t fs) -> enums_known L M (VStruct t fs) ->
  exists gs, hands_over (prog bk enums ss o) o L (prog bk enums' ss' o') o' M dl t fs os (Some gs) /\ updated L M delta (VStruct t fs) (VStruct t os) (VStruct t gs) /\ object M t gs.
Proof.
  intros bk b enums ss o ds L enums' ss' o' ds' M limit X X' L64 OR PT PL SM CO dl t fs os delta TO TO' F FO LI ST EK.
  pose proof (proj2 (writable_iff bk b enums ss o ds L X delta (VStruct t fs) (TStruct t) (conj F I)) (storable_writable L b delta _ ST)) as W.
  destruct (write_val L b delta (VStruct t fs)) as [[at_ ks]|] eqn:WV; [|congruence].
  destruct (upgrade_ok bk b enums enums' ss ss' o o' ds ds' L M delta X X' SM CO _ t fs os t at_ ks (Nat.lt_succ_diag_r _) F FO WV ST EK) as (gs & RS & UP).
  exists gs. split; [rewrite <- RS; exact (hands_prog bk b enums ss o ds L enums' ss' o' ds' M limit X X' L64 OR PT PL dl t fs os at_ ks TO TO' F FO LI WV)|].
  split; [exact UP|]. exact (read_fits bk b enums' ss' o' ds' M X' _ _ (Nat.lt_succ_diag_r _) t os gs FO RS).
Qed.

(** The functions on the disk after two runs of stfx. *)
Theorem C97_programs : forall E b bk ds ins d o w E' ds' ins' d' o' w', has_program E b ds ins d o w -> has_program E' b ds' ins' d' o' w' ->
  header_ok (o_reader o) (o_writer o) ds = true -> header_ok (o_reader o') (o_writer o') ds' = true -> class_ok b o -> class_ok b o' ->
  b = B_xml_attrib /\ bk = Attributes \/ b = B_xml /\ bk = Elements -> exists P P', program_in E d o w = Some P /\ program_in E' d' o' w' = Some P' /\
  forall L M limit, fitting ds L -> fitting ds' M -> prints_text L -> parses limit M -> (bk = Elements -> l_long L = 64%Z) -> same_machine L M -> compatible L M bk -> o_only_read o = false ->
  forall dl t fs os, let delta := (negb (o_no_delta o) && dl)%bool in top_level ds t -> top_level ds' t -> object L t fs -> object M t os -> S (2 * vheight (VStruct t fs)) < limit ->
  storable L bk delta (VStruct t fs) -> enums_known L M (VStruct t fs) ->
  exists gs, hands_over P o L P' o' M dl t fs os (Some gs) /\ updated L M delta (VStruct t fs) (VStruct t os) (VStruct t gs) /\ object M t gs.
Proof.
  intros E b bk ds ins d o w E' ds' ins' d' o' w' H H' OK OK' NF NF' B.
  destruct (program_of _ _ _ _ _ _ _ H) as (enums & ss & LK & PI & TOP). destruct (program_of _ _ _ _ _ _ _ H') as (enums' & ss' & LK' & PI' & TOP').
  eexists _, _. split; [exact PI|]. split; [exact PI'|]. intros L M limit (D & LL & LF) (D' & LL' & LF') PT PL L64 SM CO OR dl t fs os delta T T' F FO LI ST EK.
  apply (C97_versions b bk enums ss o ds L enums' ss' o' ds' M limit); auto.
  - constructor; [constructor; auto; destruct B as [[-> _]|[-> _]]; discriminate|destruct B as [[-> ->]|[-> ->]]; [left|right]; auto|exact LL|exact LF|]. destruct B as [[-> _]|[-> _]]; now apply String.eqb_neq.
  - constructor; [constructor; auto; destruct B as [[-> _]|[-> _]]; discriminate|destruct B as [[-> ->]|[-> ->]]; [left|right]; auto|exact LL'|exact LF'|]. destruct B as [[-> _]|[-> _]]; now apply String.eqb_neq.
Qed.
(** From two header files. *)
Theorem C97_headers : forall E argv0 a rest p cs ds E' argv0' a' rest' p' cs' ds',
  usual_sep E -> SymLex.plain (e_stamp E) = true -> e_exists E a = true -> e_canonical E a = Some p -> extension E p <> ".stfx" -> SymLex.plain (file_name E p) = true ->
  e_disk E p = Some cs -> StoreDefs.text_of cs ds -> header_ok "xml_reader_C" "xml_writer_C" ds = true -> (forall q, In q (four E (parent E p) single_spec) -> e_write E q = true) ->
  usual_sep E' -> SymLex.plain (e_stamp E') = true -> e_exists E' a' = true -> e_canonical E' a' = Some p' -> extension E' p' <> ".stfx" -> SymLex.plain (file_name E' p') = true ->
  e_disk E' p' = Some cs' -> StoreDefs.text_of cs' ds' -> header_ok "xml_reader_C" "xml_writer_C" ds' = true -> (forall q, In q (four E' (parent E' p') single_spec) -> e_write E' q = true) ->
  exists w w' P P', stfx E argv0 (a :: rest) = Go 0%Z w /\ stfx E' argv0' (a' :: rest') = Go 0%Z w' /\
  program_in E (parent E p) single_spec w = Some P /\ program_in E' (parent E' p') single_spec w' = Some P' /\
  forall L M limit, fitting ds L -> fitting ds' M -> prints_text L -> parses limit M -> same_machine L M -> compatible L M Attributes ->
  forall dl t fs os, top_level ds t -> top_level ds' t -> object L t fs -> object M t os -> S (2 * vheight (VStruct t fs)) < limit ->
  storable L Attributes dl (VStruct t fs) -> enums_known L M (VStruct t fs) ->
  exists gs, hands_over P single_spec L P' single_spec M dl t fs os (Some gs) /\ updated L M dl (VStruct t fs) (VStruct t os) (VStruct t gs) /\ object M t gs.
Proof.
  intros E argv0 a rest p cs ds E' argv0' a' rest' p' cs' ds' U PS EX EC EXT PF D T OK W U' PS' EX' EC' EXT' PF' D' T' OK' W'.
  destruct (C54_header_to_program E argv0 a rest p cs ds U PS EX EC EXT PF D T OK W) as (w & R & H).
  destruct (C54_header_to_program E' argv0' a' rest' p' cs' ds' U' PS' EX' EC' EXT' PF' D' T' OK' W') as (w' & R' & H').
  destruct (C97_programs _ _ Attributes _ _ _ _ _ _ _ _ _ _ _ H H' OK OK' ltac:(discriminate) ltac:(discriminate) ltac:(left; auto)) as (P & P' & PI & PI' & Q).
  exists w, w', P, P'. repeat (split; [assumption|]). intros L M limit FT FT' PT PL SM CO. exact (Q L M limit FT FT' PT PL ltac:(discriminate) SM CO eq_refl).
Qed.

(** A new member of a short or long type: as attribute, it makes files of the old version
    undefined to read. *)
Theorem C97_new_short_refuted : forall bk enums ss o ds L enums' ss' o' ds' M limit, xml_setting bk Attributes enums ss o ds L -> xml_setting bk Attributes enums' ss' o' ds' M ->
  o_only_read o = false -> prints_text L -> parses limit M ->
  forall dl t fs os ms ms' m', let delta := (negb (o_no_delta o) && dl)%bool in top_of ss t -> top_of ss' t -> object L t fs -> object M t os -> S (2 * vheight (VStruct t fs)) < limit ->
  storable L Attributes delta (VStruct t fs) ->
  find_struct (l_defs L) t = Some ms -> find_struct (l_defs M) t = Some ms' -> In m' ms' -> converted m' = true -> ~ In (member_name m') (map member_name ms) ->
  hands_over (prog bk enums ss o) o L (prog bk enums' ss' o') o' M dl t fs os None.
Proof.
  intros bk enums ss o ds L enums' ss' o' ds' M limit X X' OR PT PL dl t fs os ms ms' m' delta TO TO' F FO LI ST FS FS' I' CV NI.
  pose proof (proj2 (writable_iff bk _ enums ss o ds L X delta (VStruct t fs) (TStruct t) (conj F I)) (storable_writable L _ delta _ ST)) as W.
  destruct (write_val L Attributes delta (VStruct t fs)) as [[at_ ks]|] eqn:WV; [|congruence].
  assert (RS : read_struct M Attributes (reload (Elem t at_ ks)) t os = None).
  2: { rewrite <- RS. exact (hands_prog bk _ enums ss o ds L enums' ss' o' ds' M limit X X' ltac:(discriminate) OR PT PL dl t fs os at_ ks TO TO' F FO LI WV). }
  rewrite (read_struct_unfold M Attributes _ t os ms' FS').
  destruct (parts bk _ enums ss o ds L X t fs F) as (ms0 & d & FS0 & D & _). assert (ms0 = ms) by congruence. subst ms0. cbn [write_val] in WV. rewrite FS, D in WV.
  destruct (write_members_in _ _ _ _ _ _ _ _ WV) as (WA & WK).
  assert (NT : no_text ks) by (intros x J; destruct (WK x J) as (n & E & _); eauto).
  rewrite (XmlCarry.reload_kids t at_ ks NT). cbn [attrs_of kids_of].
  assert (A0 : attr (member_name m') at_ = None).
  { apply XmlCarry.attr_none. intros J. apply WA in J. apply NI. apply in_map_iff in J as (m0 & E0 & J). apply (proj1 (in_order_in m0 ms)) in J. rewrite <- E0. now apply in_map. }
  assert (RN : forall sub old, read_member M Attributes (map (fun p => (fst p, newlines (snd p))) at_) sub m' old = None).
  { intros sub old. destruct m' as [st x df|u x df|u x]; cbn [converted] in CV; try discriminate. cbn [read_member member_name] in *. unfold find_item. rewrite attr_newlines, A0. destruct st; try discriminate; reflexivity. }
  destruct (fits_struct M t os FO) as (ms0 & E0 & FF). assert (ms0 = ms') by congruence. subst ms0. clear - I' RN FF. revert os FF I'.
  induction ms' as [|m l IHl]; intros [|[n old] q] FF I'; cbn [map fields_fit fst snd] in FF; try discriminate; [contradiction|].
  rewrite !andb_true_iff in FF. destruct FF as (_ & F2). cbn [read_members]. destruct I' as [->|I']; [now rewrite RN|].
  destruct (read_member M Attributes _ _ m old); [|reflexivity]. now rewrite (IHl q F2 I').
Qed.
Print Assumptions C97_versions.
Print Assumptions C97_programs.
Print Assumptions C97_headers.
Print Assumptions C97_new_short_refuted.

(** *** Case: the header of XmlCase.v, and a version with other enumerators and members in
    another order; the members l and f are gone, added and w are new. *)
Definition ndefs : list def :=
  [DefEnum true "en" [Entry "z" None; Entry "b" None; Entry "a" None] false;
   DefStruct "inner" [MSimple bool_E "bo" (Default DTrue); MSimple int_E "x" (Default (DInt "4")); MSimple double_E "w" EmptyDefault];
   DefStruct "outer" [MSimple std_string_E "added" (Default (DStr """def""")); MVector "inner" "v"; MUser "en" "e" EmptyDefault; MSimple std_string_E "s" NoDefault;
                      MUser "inner" "i" EmptyDefault; MSimple unsigned_short_E "us" EmptyDefault]].
Definition nL : lang := reading 100 (Lang ndefs 64 x_lit (l_const xL) (l_zero xL) (l_feq xL) (l_xprint xL) (l_xread xL) (l_fprint xL) (l_sto xL) (l_parse xL) (l_writable xL)).
Definition nin (bo x w : Z) : val := VStruct "inner" [("bo", VNum KBool bo); ("x", VNum KInt x); ("w", VFlt KDouble w)].
Definition nout (new : string) (v : list val) (e : Z) (s : string) (i : val) (us : Z) : fields :=
  [("added", VStr new); ("v", VVec "inner" v); ("e", VEnum "en" e); ("s", VStr s); ("i", i); ("us", VNum KUShort us)].
Definition ni : info := find_top (fst (fixup (fold_left (fun i d => add_def d i) ndefs info0))).
Definition nen := map snd (i_enums ni).
Definition nss := map snd (i_structs ni).
Lemma n_linked : linked ndefs nen nss.
Proof.
  assert (N : NoDup (map def_name ([] ++ ndefs))) by (apply (names_nodup (o_reader (xo false)) (o_writer (xo false))); vm_compute; reflexivity).
  exact (built_linked ndefs _ (built_add [] ndefs info0 built_start N) N).
Qed.
Lemma n_setting : xml_setting B_xml_attrib Attributes nen nss (xo false) ndefs nL.
Proof.
  assert (LF : lits_fit nL).
  { intros n ms m ty v I J MT D. cbn in I.
    repeat (destruct I as [I|I]; [try discriminate I; injection I as <- <-; cbn in J; repeat (destruct J as [<-|J]; [cbn in MT, D; try discriminate; injection D as <-; injection MT as <-; vm_compute; reflexivity|]); contradiction|]). contradiction. }
  split; try (split; [discriminate|vm_compute; reflexivity|exact n_linked|reflexivity]); try exact LF; try reflexivity; left; auto.
Qed.
Lemma t_setting : xml_setting B_xml_attrib Attributes xen xss (xo false) xdefs tL.
Proof. split; try (split; [discriminate|vm_compute; reflexivity|exact x_linked|reflexivity]); try apply t_fitting; try reflexivity; left; auto. Qed.
Lemma n_top : top_of nss "outer".
Proof.
  destruct (find (fun s => String.eqb (s_name s) "outer") (tops nss)) as [s|] eqn:E; [|vm_compute in E; discriminate]. apply find_some in E as [I N]. exists s. split; [exact I|now apply String.eqb_eq].
Qed.
Lemma n_compatible : compatible tL nL Attributes.
Proof.
  intros u ms ms' FS FS' m' I'. apply find_struct_in in FS, FS'. cbn in FS, FS'.
  repeat (destruct FS as [FS|FS]; [try discriminate FS|]); try contradiction; injection FS as <- <-;
  repeat (destruct FS' as [FS'|FS']; [try discriminate FS'|]); try contradiction; injection FS' as <-; cbn in I';
  repeat (destruct I' as [<-|I']; [split; [intros m I E; cbn in I; repeat (destruct I as [<-|I]; [try discriminate E; cbn; auto|]); contradiction|cbn; auto 10]|]); try contradiction; intros _ E; discriminate E.
Qed.
Example C97_case : same_machine tL nL /\ compatible tL nL Attributes /\ storable tL Attributes false (VStruct "outer" xv) /\ enums_known tL nL (VStruct "outer" xv) /\
  hands_over (prog B_xml_attrib xen xss (xo false)) (xo false) tL (prog B_xml_attrib nen nss (xo false)) (xo false) nL false "outer" xv
    (nout "old" [] 0 "def" (nin 1 5 8) 0) (Some (nout "old" [nin 1 1 0; nin 1 4 0] 1 " two<&>lines" (nin 0 (-7) 8) 65535)).
Proof.
  split; [split; [reflexivity|split; reflexivity]|]. split; [exact n_compatible|]. split; [exact (t_storable Attributes)|]. split.
  - intros m d n z SI. apply scalars_all in SI. vm_compute in SI. repeat (destruct SI as [SI|SI]; [try discriminate SI|]); try contradiction. injection SI as _ _ <- <-.
    intros c es c' es' E E'. injection E as <- <-. injection E' as <- <-. split; [|intros H; exfalso; apply H; cbn; auto]. intros e I. cbn in I. destruct I as [I|[I|[]]]; [discriminate I|]. injection I as <-. cbn. auto.
  - assert (exists a k, write_val tL Attributes (negb (o_no_delta (xo false)) && false) (VStruct "outer" xv) = Some (a, k) /\
      read_struct nL Attributes (reload (Elem "outer" a k)) "outer" (nout "old" [] 0 "def" (nin 1 5 8) 0) = Some (nout "old" [nin 1 1 0; nin 1 4 0] 1 " two<&>lines" (nin 0 (-7) 8) 65535)) as (a & k & W & R)
      by (eexists _, _; split; [vm_compute; reflexivity|vm_compute; reflexivity]).
    rewrite <- R.
    refine (hands_prog B_xml_attrib Attributes xen xss (xo false) xdefs tL nen nss (xo false) ndefs nL 100 t_setting n_setting _ eq_refl t_prints (reading_parses 100 _)
      false "outer" xv _ a k (proj1 x_top) n_top (proj1 (proj2 t_new)) _ _ W); [discriminate|vm_compute; reflexivity|apply Nat.ltb_lt; vm_compute; reflexivity].
Qed.
(** The header of XmlCase.v with one more member, of type short. *)
Definition sdefs : list def :=
  map (fun d => match d with DefStruct "outer" ms => DefStruct "outer" (ms ++ [MSimple short_E "sh" EmptyDefault]) | _ => d end) xdefs.
Definition sL : lang := reading 100 (Lang sdefs 64 x_lit (l_const xL) (l_zero xL) (l_feq xL) (l_xprint xL) (l_xread xL) (l_fprint xL) (l_sto xL) (l_parse xL) (l_writable xL)).
Definition si : info := find_top (fst (fixup (fold_left (fun i d => add_def d i) sdefs info0))).
Lemma s_setting : xml_setting B_xml_attrib Attributes (map snd (i_enums si)) (map snd (i_structs si)) (xo false) sdefs sL.
Proof.
  assert (LF : lits_fit sL).
  { intros n ms m ty v I J MT D. cbn in I.
    repeat (destruct I as [I|I]; [try discriminate I; injection I as <- <-; cbn in J; repeat (destruct J as [<-|J]; [cbn in MT, D; try discriminate; injection D as <-; injection MT as <-; vm_compute; reflexivity|]); contradiction|]). contradiction. }
  assert (LK : linked sdefs (map snd (i_enums si)) (map snd (i_structs si))).
  { assert (N : NoDup (map def_name ([] ++ sdefs))) by (apply (names_nodup (o_reader (xo false)) (o_writer (xo false))); vm_compute; reflexivity).
    exact (built_linked sdefs _ (built_add [] sdefs info0 built_start N) N). }
  split; try (split; [discriminate|vm_compute; reflexivity|exact LK|reflexivity]); try exact LF; try reflexivity; left; auto.
Qed.
Example C97_short_case : hands_over (prog B_xml_attrib xen xss (xo false)) (xo false) tL (prog B_xml_attrib (map snd (i_enums si)) (map snd (i_structs si)) (xo false)) (xo false) sL
  false "outer" xv (xv ++ [("sh", VNum KShort 5)]) None.
Proof.
  assert (TO : top_of (map snd (i_structs si)) "outer").
  { destruct (find (fun s => String.eqb (s_name s) "outer") (tops (map snd (i_structs si)))) as [s|] eqn:E; [|vm_compute in E; discriminate]. apply find_some in E as [I N]. exists s. split; [exact I|now apply String.eqb_eq]. }
  refine (C97_new_short_refuted B_xml_attrib xen xss (xo false) xdefs tL _ _ (xo false) sdefs sL 100 t_setting s_setting eq_refl t_prints (reading_parses 100 _)
    false "outer" xv _ _ _ (MSimple short_E "sh" EmptyDefault) (proj1 x_top) TO (proj1 (proj2 t_new)) _ _ (t_storable Attributes) eq_refl eq_refl _ eq_refl _);
    [vm_compute; reflexivity|apply Nat.ltb_lt; vm_compute; reflexivity|cbn; auto 10|cbn; intuition discriminate].
Qed.
