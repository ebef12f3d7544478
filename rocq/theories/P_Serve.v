(** Property theorems from the command line to the behaviour of the functions on the disk,
    beyond C81: deltas, files of any content, files that are missing: C90. *)
From Coq Require Import String Ascii ZArith NArith Arith List Bool Lia.
From Verif Require Import Base Map Items Grammar ParseLang Fmt Decimal Templates Emit Main Cpp Xml Val CppSem SymLex Ast Store Resolve StoreDefs ResolveProps Prog Header EnumSem DecText EnumCall EnumRound Link
  XmlSpec XmlRdSimple XmlReader XmlCall XmlWriter XmlFile XmlCarry XmlRound XmlProps XmlReadProps XmlThms XmlCase XmlBlank
  IniSpec IniRead IniReader IniCall IniLines IniFile IniEntry IniWrite IniWriter IniScan IniKeep IniRound IniBack IniThms
  MainProps RunProps Pipeline Lexable ConfSpec ConfRead ConfRound P_Main P_Xml P_Ini P_Conf P_Whole.
Import ListNotations.
Local Open Scope string_scope.
Local Open Scope list_scope.

(** *** Calls of the functions [P] for xml files, see C81 for [saves_loads] *)
(** read_from_file of a file that loads as [ks], into an object with members [os]; [r]: its
    members then, [None]: undefined behaviour. *)
Definition loads (P : list fdef) (o : output_spec) (L : lang) (ks : list node) (t : string) (os : fields) (r : option fields) : Prop :=
  exists f0, forall f wf a n l s, f0 <= f -> file_arg a n s -> get_lv l s = Some (VStruct t os) -> reader_or_writer (s_this s) -> load L (s_world s) (cut n) = Some ks ->
    call_fun L P wf f [o_reader o; "read_from_file"] [a; (Some l, VStruct t os)] s = XmlThms.outcome t l r s.
(** The same when the file cannot be loaded. *)
Definition refuses (P : list fdef) (o : output_spec) (L : lang) (t : string) (os : fields) : Prop :=
  exists f0, forall f wf a n l s, f0 <= f -> file_arg a n s -> get_lv l s = Some (VStruct t os) -> reader_or_writer (s_this s) -> load L (s_world s) (cut n) = None ->
    call_fun L P wf f [o_reader o; "read_from_file"] [a; (Some l, VStruct t os)] s = Ok (vbool false) s.
(** write_to_file when the file cannot be written. *)
Definition unsaved (P : list fdef) (o : output_spec) (L : lang) (dl : bool) (t : string) (fs : fields) : Prop :=
  exists f0, forall f wf a n l s, f0 <= f -> file_arg a n s -> get_lv l s = Some (VStruct t fs) -> s_this s = [("m_delta_only", vbool dl)] -> l_writable L (cut n) = false ->
    call_fun L P wf f [o_writer o; "write_to_file"] [a; (Some l, VStruct t fs)] s = Ok (vbool false) s.

(** *** What the functions do with xml files *)
Record serves_xml (bk : XmlSpec.form) (ds : list def) (o : output_spec) (P : list fdef) (L : lang) : Prop := {
  (** a file of any content with a root element: the object stays well typed *)
  sx_any : forall ks t os, top_level ds t -> object L t os -> root ks <> None -> exists r, loads P o L ks t os r /\ forall gs, r = Some gs -> object L t gs;
  (** attributes and elements that belong to no member do not matter *)
  sx_more : forall ks ks' t x y os, top_level ds t -> object L t os -> root ks = Some x -> root ks' = Some y -> more L t x y ->
    exists r, loads P o L ks t os r /\ loads P o L ks' t os r;
  (** a document without root element, for structs with members *)
  sx_root : forall ks t os, top_level ds t -> object L t os -> os <> [] -> root ks = None -> loads P o L ks t os None;
  (** no such file, or no xml *)
  sx_none : forall t os, top_level ds t -> object L t os -> refuses P o L t os;
  (** deltas (and complete files) are read back into objects that are like new *)
  sx_delta : o_only_read o = false -> forall dl t fs os, let delta := (negb (o_no_delta o) && dl)%bool in lits_fresh L delta -> top_level ds t ->
    object L t fs -> storable L bk delta (VStruct t fs) -> object L t os -> fresh L delta (VStruct t os) ->
    exists gs, saves_loads P o L dl t fs os (Some gs) /\ alike L delta (VStruct t fs) (VStruct t gs);
  (** the same into objects that are new, also if strings are empty (XmlBlank.v) *)
  sx_new : o_only_read o = false -> forall dl t fs os, let delta := (negb (o_no_delta o) && dl)%bool in lits_fresh L true -> top_level ds t ->
    object L t fs -> storable_new L bk delta (VStruct t fs) -> object L t os -> fresh L true (VStruct t os) ->
    exists gs, saves_loads P o L dl t fs os (Some gs) /\ alike L delta (VStruct t fs) (VStruct t gs);
  (** a file that cannot be written *)
  sx_full : o_only_read o = false -> forall dl t fs, top_level ds t -> object L t fs -> XmlRound.writable L (negb (o_no_delta o) && dl)%bool (VStruct t fs) -> unsaved P o L dl t fs
}.

(** *** n_ini files *)
Definition ini_loads_any (P : list fdef) (o : output_spec) (L : lang) (x t : string) (os : fields) (rd : reader) (r : option (bool * fields)) : Prop :=
  exists f0, forall f wf rest a n l s, f0 <= f -> f0 <= wf -> rest_of rest -> name_arg a n s -> lv_this l = false -> get_lv l s = Some (VStruct t os) ->
    s_this s = reader_this rest rd -> assoc (cut n) (w_files (s_world s)) = Some (CText x) ->
    call_fun L P wf f [o_reader o; "read_from_file"] [a; (Some l, VStruct t os)] s =
    match r with
    | Some (rv, gs) =>
        match put_lv l (VStruct t gs) (St (s_scopes s) (s_tree s) (reader_this rest (has_read x rd)) (World (w_files (s_world s)) None None)) with
        | Some s' => Ok (vbool rv) s'
        | None => Bad
        end
    | None => UB
    end.
Definition ini_refuses (P : list fdef) (o : output_spec) (L : lang) (t : string) (os : fields) : Prop :=
  exists f0, forall f wf rest rd a n l s, f0 <= f -> rest_of rest -> name_arg a n s -> lv_this l = false -> get_lv l s = Some (VStruct t os) ->
    s_this s = reader_this rest rd -> assoc (cut n) (w_files (s_world s)) = None ->
    call_fun L P wf f [o_reader o; "read_from_file"] [a; (Some l, VStruct t os)] s = Ok (vbool false) s.
Definition ini_unsaved (P : list fdef) (o : output_spec) (L : lang) (dl : bool) (t : string) (fs : fields) : Prop :=
  exists f0, forall f wf a n l m rd s, f0 <= f -> name_arg a n s -> lv_this l = false -> get_lv l s = Some (VStruct t fs) ->
    s_this s = reader_this [("m_delta_only", vbool dl); ("m_file", VFile m)] rd -> l_writable L (cut n) = false ->
    call_fun L P wf f [o_writer o; "write_to_file"] [a; (Some l, VStruct t fs)] s =
    Ok (vbool false) (set_this s (reader_this [("m_delta_only", vbool dl); ("m_file", VFile false)] rd)).
Record serves_ini (ds : list def) (o : output_spec) (P : list fdef) (L : lang) : Prop := {
  (** a file of any content: the object stays well typed; nothing is undefined if every
      enumeration has room for every int *)
  si_any : forall x t os rd, top_level ds t -> object L t os -> exists r, ini_loads_any P o L x t os rd r /\ (forall rv gs, r = Some (rv, gs) -> object L t gs) /\
    (enums_roomy L -> r <> None);
  (** members of the outermost struct that are no structs are never read *)
  si_top : forall x t os rd, used rd -> top_level ds t -> object L t os -> exists r, ini_loads_any P o L x t os rd r /\ forall rv gs, r = Some (rv, gs) ->
    forall ms m, In (DefStruct t ms) ds -> In m ms -> is_struct_member L m = false -> assoc (member_name m) gs = assoc (member_name m) os;
  (** no such file; a file that cannot be written *)
  si_none : forall t os, top_level ds t -> object L t os -> ini_refuses P o L t os;
  si_full : o_only_read o = false -> forall dl t fs, top_level ds t -> object L t fs -> ini_unsaved P o L dl t fs
}.
Definition serves (b : backend) (ds : list def) (o : output_spec) (P : list fdef) : Prop :=
  forall L, fitting ds L ->
  match b with
  | B_xml_attrib => serves_xml Attributes ds o P L
  | B_xml => l_long L = 64%Z -> serves_xml Elements ds o P L
  | B_n_ini => (forall u ms m, In (DefStruct u ms) ds -> In m ms -> is_scalar L m = true -> member_name m <> "items" /\ member_name m <> "data") -> serves_ini ds o P L
  | B_ini => False
  end.

Lemma serve_xml b bk enums ss o ds L : xml_setting b bk enums ss o ds L -> (bk = Elements -> l_long L = 64%Z) -> header_ok (o_reader o) (o_writer o) ds = true -> l_defs L = ds ->
  (forall t, top_level ds t -> top_of ss t) -> serves_xml bk ds o (prog b enums ss o) L.
Proof.
  intros X L64 OK LD TOP.
  assert (FS : forall t, top_level ds t -> exists ms, find_struct (l_defs L) t = Some ms).
  { intros t [[ms D] _]. exists ms. apply (struct_iff (o_reader o) (o_writer o)); [now rewrite LD|now rewrite LD]. }
  constructor.
  - intros ks t os T O R. destruct (FS t T) as [ms F]. destruct (root ks) as [x|] eqn:E; [|congruence].
    exists (read_struct L bk x t os). split.
    + pose proof (reads_file b bk enums ss o ds L X ks t os ms (TOP t T) F O) as H. rewrite E in H. apply H. discriminate.
    + intros gs G. exact (read_fits b bk enums ss o ds L X _ x (Nat.lt_succ_diag_r _) t os gs O G).
  - intros ks ks' t x y os T O E1 E2 M. destruct (FS t T) as [ms F]. exact (C36_unknown_ignored b bk enums ss o ds L X ks ks' t x y os ms (TOP t T) F E1 E2 M O).
  - intros ks t os T O NE E. destruct (fits_struct L t os O) as (ms & F & FF). refine (C38_no_root b bk enums ss o ds L X ks t os ms (TOP t T) F _ O E). intros ->. destruct os; [congruence|discriminate].
  - intros t os T O. destruct (FS t T) as [ms F]. exists 2. intros f wf a n l s LE FA GL RW LO. destruct f as [|[|f]]; [lia|lia|].
    exact (C60_no_file b bk enums ss o ds L X t os a n l s f wf ms (TOP t T) F O FA GL RW LO).
  - intros OR dl t fs os delta LF T O S O' FR. exact (delta_round b bk enums ss o ds L X OR L64 dl t fs os LF (TOP t T) O S O' FR).
  - intros OR dl t fs os delta LF T O S O' FR. exact (round_new b bk enums ss o ds L X OR L64 dl t fs os LF (TOP t T) O S O' FR).
  - intros OR dl t fs T O W.
    pose proof (proj2 (writable_iff b bk enums ss o ds L X _ (VStruct t fs) (TStruct t) (conj O I)) W) as D.
    destruct (write_val L bk (negb (o_no_delta o) && dl)%bool (VStruct t fs)) as [[at_ ks]|] eqn:WV; [|congruence].
    exists (S (S (vheight (VStruct t fs)))). intros [|f] wf a n l s LE FA GL TH WR; [lia|]. apply (no_write b bk enums ss o ds L X OR L64 dl t fs at_ ks a n l s f wf (TOP t T) O FA GL TH WR WV). lia.
Qed.
Lemma serve_ini enums ss o ds L : ini_setting enums ss o ds L -> header_ok (o_reader o) (o_writer o) ds = true -> l_defs L = ds ->
  (forall t, top_level ds t -> top_of ss t) -> serves_ini ds o (prog B_n_ini enums ss o) L.
Proof.
  intros X OK LD TOP. constructor.
  - intros x t os rd T O. eexists. split; [exact (reads_any enums ss o ds L X x t os rd (TOP t T) O)|]. unfold read_members_of. split.
    + intros rv gs E. destruct (read_obj L _ (VStruct t os) "") as [[rv' w]|] eqn:R; [|discriminate]. pose proof R as R2. apply read_obj_struct in R2 as (u1 & f1 & gs' & [= <- <-] & ->). injection E as -> ->.
      exact (ini_read_fits enums ss o ds L X _ (S (vheight (VStruct t os))) (VStruct t os) t "" _ (VStruct t gs) ltac:(lia) O R).
    + intros ER. pose proof (read_defined enums ss o ds L X (r_look (has_read x rd)) ER (S (vheight (VStruct t os))) (VStruct t os) t "" ltac:(lia) O) as N.
      destruct (read_obj L _ (VStruct t os) "") as [[rv w]|] eqn:E; [|congruence]. apply read_obj_struct in E as (u1 & f1 & gs & [= <- <-] & ->). discriminate.
  - intros x t os rd U T O. destruct (C41_top_level_unchanged enums ss o ds L X x t os rd U (TOP t T) O) as (r & R & H). exists r. split; [exact R|]. intros rv gs E ms m D I S.
    apply (H rv gs E ms m); auto. apply (struct_iff (o_reader o) (o_writer o)); now rewrite LD.
  - intros t os T O. exists (S (S (vheight (VStruct t os)))). intros [|f] wf rest rd a n l s LE RO NA LT GL TH A; [lia|].
    apply (C66_no_file enums ss o ds L X t os a n l rest rd f wf s); auto. lia.
  - intros OR dl t fs T O. exists (S (S (vheight (VStruct t fs)))). intros [|f] wf a n l m rd s LE NA LT GL TH WR; [lia|].
    apply (C66_no_write enums ss o ds L X OR dl t fs a n l m rd f wf s); auto. lia.
Qed.

(** *** C90.  [has_program]: see C54 and C68. *)
Theorem C90_program : forall E b ds ins d o w, has_program E b ds ins d o w -> header_ok (o_reader o) (o_writer o) ds = true ->
  class_ok b o -> exists P, program_in E d o w = Some P /\ serves b ds o P.
Proof.
  intros E b ds ins d o w H OK NF. destruct (program_of _ _ _ _ _ _ _ H) as (enums & ss & LK & PI & TOP). eexists. split; [exact PI|].
  intros L (D & LL & LF). destruct b; [| |destruct NF|].
  - apply serve_xml; auto; [|discriminate]. constructor; [constructor; auto; discriminate|left; auto|exact LL|exact LF|now apply String.eqb_neq].
  - intros L64. apply serve_xml; auto. constructor; [constructor; auto; discriminate|right; auto|exact LL|exact LF|now apply String.eqb_neq].
  - intros NM. apply serve_ini; auto. destruct NF as [N1 N2]. constructor; [constructor; auto; discriminate|exact LL|exact LF| |].
    + intros u ms m I J S. destruct (NM u ms m I J S). split; now apply String.eqb_neq.
    + split; apply String.eqb_neq; congruence.
Qed.
(** From a header and the command line. *)
Theorem C90_header : forall E argv0 a rest p cs ds, usual_sep E -> SymLex.plain (e_stamp E) = true ->
  e_exists E a = true -> e_canonical E a = Some p -> extension E p <> ".stfx" -> SymLex.plain (file_name E p) = true ->
  e_disk E p = Some cs -> StoreDefs.text_of cs ds -> header_ok "xml_reader_C" "xml_writer_C" ds = true ->
  (forall q, In q (four E (parent E p) single_spec) -> e_write E q = true) ->
  exists w P, stfx E argv0 (a :: rest) = Go 0%Z w /\ program_in E (parent E p) single_spec w = Some P /\ serves B_xml_attrib ds single_spec P.
Proof.
  intros E argv0 a rest p cs ds U PS EX EC EXT PF D T OK W.
  destruct (C54_header_to_program E argv0 a rest p cs ds U PS EX EC EXT PF D T OK W) as (w & R & H).
  destruct (C90_program E _ ds _ _ _ w H OK ltac:(discriminate)) as (P & PI & X). eauto.
Qed.
(** From a configuration document and the headers it names, for each wanted output, also those
    without writers. *)
Theorem C90_document : forall L E argv0 a rest p x c dssc dsss, conf_lang L -> own_reader L E -> usual_sep E -> SymLex.plain (e_stamp E) = true ->
  e_exists E a = true -> e_canonical E a = Some p -> extension E p = ".stfx" -> holds_doc L E p x -> conf_of x = Some c ->
  let base := parent E p in let dsc := concat dssc in
  Pipeline.reads E base (c_in c) dssc -> NoDup (map def_name dsc) -> closed dsc ->
  Forall2 (fun s dss => Pipeline.reads E base (fst s) dss /\ NoDup (map def_name (dsc ++ concat dss))) (c_non c) dsss ->
  (forall s f, In s (c_non c) -> In f (fst s) -> ~ In (join E base f) (flat_map (paths_of E base) (outputs c))) ->
  existsb (blocked E base) (outputs c) = false ->
  exists w, stfx E argv0 (a :: rest) = Go 0%Z w /\
  (forall t o b d, c_out c = (t, o) -> wanted E base dsc (c_in c) t o b d -> class_ok b o ->
    (forall q, In q (four E d o) -> ~ In q (flat_map (paths_of E base) (map snd (c_non c)))) ->
    exists P, program_in E d o w = Some P /\ serves b dsc o P) /\
  (forall k fs t o dss b d, nth_error (c_non c) k = Some (fs, (t, o)) -> nth_error dsss k = Some dss ->
    wanted E base (dsc ++ concat dss) (c_in c ++ fs) t o b d -> class_ok b o ->
    (forall q, In q (four E d o) -> ~ In q (flat_map (paths_of E base) (map snd (skipn (S k) (c_non c))))) ->
    exists P, program_in E d o w = Some P /\ serves b (dsc ++ concat dss) o P).
Proof.
  intros L E argv0 a rest p x c dssc dsss CL OR U PS EX EC EXT HD CO base dsc R1 N1 C1 F2 NI NB.
  destruct (C68_document_to_programs L E argv0 a rest p x c dssc dsss CL OR U PS EX EC EXT HD CO R1 N1 C1 F2 NI NB) as (w & R & A & B).
  exists w. split; [exact R|]. split.
  - intros t o b d CO' W CK NQ. eapply C90_program; eauto using wt_ok.
  - intros k fs t o dss b d NT ND W CK NQ. eapply C90_program; eauto using wt_ok.
Qed.
Print Assumptions C90_program.
Print Assumptions C90_header.
Print Assumptions C90_document.
(** The header of C81_case: the functions that the run leaves on the disk write the object [xd]
    as a delta and read it back, and refuse a file that is not there. *)
Example C90_case : exists w P gs, stfx (P_Whole.whole_env) "stfx" ["/d/a.h"] = Go 0%Z w /\ program_in whole_env "/d" single_spec w = Some P /\
  saves_loads P single_spec xL true "outer" xd xnew (Some gs) /\ alike xL true (VStruct "outer" xd) (VStruct "outer" gs) /\ refuses P single_spec xL "outer" xnew.
Proof.
  destruct (C90_header whole_env "stfx" "/d/a.h" [] "/d/a.h" (print (file_tokens xdefs)) xdefs) as (w & P & R & PI & S); try reflexivity.
  - now left.
  - discriminate.
  - eexists _, _, _. split; [vm_compute; reflexivity|]. split; [split; [discriminate|apply Forall_forall; intros x0 [<-|[<-|[<-|[]]]]; cbn; repeat split; repeat constructor; discriminate]|vm_compute; reflexivity].
  - destruct (x_setting false) as [X _]. pose proof x_new as (D & O & NI).
    assert (FT : fitting xdefs xL) by (split; [reflexivity|]; split; [reflexivity|apply X]).
    assert (TL : top_level xdefs "outer").
    { split; [eexists; right; right; left; reflexivity|]. intros (n & ms & x & I & [J|[d J]]); cbn in I;
      (repeat (destruct I as [I|I]; [try discriminate I; injection I as <- <-; cbn in J; repeat (destruct J as [J|J]; [discriminate J|]); contradiction|]); contradiction). }
    specialize (S xL FT). destruct (sx_delta _ _ _ _ _ S eq_refl true "outer" xd xnew) as (gs & A & B).
    + apply x_lits_fresh.
    + exact TL.
    + reflexivity.
    + apply xd_storable.
    + exact O.
    + exact (C32_new_objects _ _ _ _ _ _ _ (proj1 (x_setting false)) true (x_lits_fresh true) "outer" xnew D).
    + exists w, P, gs. repeat (split; [assumption|]). exact (sx_none _ _ _ _ _ S "outer" xnew TL O).
Qed.
