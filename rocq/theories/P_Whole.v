(** Property theorems from the command line to stored objects: C81. *)
From Coq Require Import String Ascii ZArith NArith Arith List Bool Lia.
From Verif Require Import Base Map Items Grammar ParseLang Fmt Decimal Templates Emit Main Cpp Xml Val CppSem SymLex Ast Store Resolve StoreDefs ResolveProps Prog Header EnumSem DecText EnumCall EnumRound Link
  XmlSpec XmlRdSimple XmlReader XmlCall XmlWriter XmlFile XmlCarry XmlRound XmlProps XmlReadProps XmlThms XmlCase
  IniSpec IniRead IniReader IniCall IniLines IniFile IniEntry IniWrite IniWriter IniScan IniKeep IniRound IniBack IniThms
  MainProps RunProps Pipeline Lexable ConfSpec ConfRead ConfRound P_Main P_Xml P_Ini P_Conf.
Import ListNotations.
Local Open Scope string_scope.
Local Open Scope list_scope.

(** The functions in the two source files of an output, as they are on the disk. *)
Definition program_in (E : env) (d : string) (o : output_spec) (w : Main.world) : option (list fdef) :=
  match Cpp.assoc (join E d (o_enum_file o) ++ ".cpp")%string (Main.w_files w), Cpp.assoc (join E d (o_structs_file o) ++ ".cpp")%string (Main.w_files w) with
  | Some te, Some ts => match read_cpp te, read_cpp ts with Some a, Some b => Some (a ++ b) | _, _ => None end
  | _, _ => None
  end.
(** A struct that no other one contains: only for these there are functions for files. *)
Definition top_level (ds : list def) (t : string) : Prop := (exists ms, In (DefStruct t ms) ds) /\ ~ Link.used ds t.

(** *** Calls of the functions [P]: write_to_file for an object with members [fs], and then
    read_from_file of the same file into an object with members [os], which becomes [r]. *)
Definition saves_loads (P : list fdef) (o : output_spec) (L : lang) (dl : bool) (t : string) (fs os : fields) (r : option fields) : Prop :=
  exists f0, forall f wf wf' a n l s a' n' l' s', f0 <= f ->
    file_arg a n s -> get_lv l s = Some (VStruct t fs) -> s_this s = [("m_delta_only", vbool dl)] -> l_writable L (cut n) = true ->
    exists w, call_fun L P wf f [o_writer o; "write_to_file"] [a; (Some l, VStruct t fs)] s = Ok (vbool true) (CppSem.set_world s w) /\
    (file_arg a' n' s' -> get_lv l' s' = Some (VStruct t os) -> reader_or_writer (s_this s') -> s_world s' = w -> cut n' = cut n ->
     call_fun L P wf' f [o_reader o; "read_from_file"] [a'; (Some l', VStruct t os)] s' = XmlThms.outcome t l' r s').
(** The same for ini files; [x]: the text of the file. *)
Definition ini_saves (P : list fdef) (o : output_spec) (L : lang) (dl : bool) (t : string) (fs : fields) (x : string) : Prop :=
  exists f0, forall f wf a n l m rd s, f0 <= f -> name_arg a n s -> lv_this l = false -> get_lv l s = Some (VStruct t fs) ->
    s_this s = reader_this [("m_delta_only", vbool dl); ("m_file", VFile m)] rd -> l_writable L (cut n) = true ->
    call_fun L P wf f [o_writer o; "write_to_file"] [a; (Some l, VStruct t fs)] s =
    Ok (vbool true) (St (s_scopes s) (s_tree s) (reader_this [("m_delta_only", vbool dl); ("m_file", VFile true)] rd)
                        (World (set_assoc (cut n) (CText x) (w_files (s_world s))) None None)).
Definition ini_loads (P : list fdef) (o : output_spec) (L : lang) (x t : string) (os gs : fields) (rd : reader) : Prop :=
  exists f0, forall f wf rest a n l s, f0 <= f -> f0 <= wf -> rest_of rest -> name_arg a n s -> lv_this l = false -> get_lv l s = Some (VStruct t os) ->
    s_this s = reader_this rest rd -> assoc (cut n) (w_files (s_world s)) = Some (CText x) ->
    call_fun L P wf f [o_reader o; "read_from_file"] [a; (Some l, VStruct t os)] s =
    match put_lv l (VStruct t gs) (St (s_scopes s) (s_tree s) (reader_this rest (has_read x rd)) (World (w_files (s_world s)) None None)) with
    | Some s' => Ok (vbool true) s'
    | None => Bad
    end.

Lemma program_of E b ds ins d o w : has_program E b ds ins d o w -> exists enums ss, linked ds enums ss /\
  program_in E d o w = Some (prog b enums ss o) /\ forall t, top_level ds t -> top_of ss t.
Proof.
  intros (enums & ss & te & ts & he & hs & LK & TOP & A1 & A2 & A3 & A4 & _). exists enums, ss. split; [exact LK|]. split.
  - unfold program_in. rewrite A1, A3, A2, A4. reflexivity.
  - intros t [D U]. apply (lk_structs _ _ _ LK) in D as (s & I & <-). exists s. split; [|reflexivity].
    unfold tops. apply filter_In. split; [exact I|]. apply Nat.eqb_eq. now apply TOP.
Qed.
(** What the language and library must be like: the declarations are those of the header,
    initialisers have the types of their members. *)
Definition fitting (ds : list def) (L : lang) : Prop := l_defs L = ds /\ (0 < l_long L)%Z /\ lits_fit L.

(** The functions [P] for the definitions [ds] store objects: what is written, complete or
    with [dl] as a delta (for xml: where the output is without deltas, or none is asked for),
    is read back.  For ini files [comes_back] says what, see C42. *)
Definition stores_xml (bk : XmlSpec.form) (ds : list def) (o : output_spec) (P : list fdef) (L : lang) : Prop :=
  lits_fresh L false -> forall dl t fs os, o_no_delta o = true \/ dl = false -> top_level ds t ->
    object L t fs -> storable L bk false (VStruct t fs) -> object L t os -> (forall u l, within (VVec u l) (VStruct t os) -> l = []) ->
    saves_loads P o L dl t fs os (Some fs).
Definition stores_ini (ds : list def) (o : output_spec) (P : list fdef) (L : lang) : Prop :=
  (forall u ms m, In (DefStruct u ms) ds -> In m ms -> is_scalar L m = true -> member_name m <> "items" /\ member_name m <> "data") ->
  forall dl t fs os rd, let delta := (negb (o_no_delta o) && dl)%bool in used rd -> top_level ds t ->
    object L t fs -> object L t os -> carries L delta (VStruct t fs) "" ->
    exists x gs, ini_saves P o L dl t fs x /\ ini_loads P o L x t os gs rd /\ comes_back L delta "" (VStruct t fs) (VStruct t os) (VStruct t gs).
Definition stores (b : backend) (ds : list def) (o : output_spec) (P : list fdef) : Prop :=
  forall L, fitting ds L ->
  match b with
  | B_xml_attrib => stores_xml Attributes ds o P L
  | B_xml => l_long L = 64%Z -> stores_xml Elements ds o P L
  | B_n_ini => (32 <= l_long L)%Z -> stores_ini ds o P L
  | B_ini => False
  end.
(** The class of the reader is not named like something its functions use. *)
Definition class_ok (b : backend) (o : output_spec) : Prop :=
  match b with
  | B_xml_attrib | B_xml => o_reader o <> "find_element"
  | B_n_ini => o_reader o <> "size_t" /\ o_reader o <> "read_item_S"
  | B_ini => False
  end.

(** *** C81.  [has_program]: see C54 and C68. *)
Theorem C81_program : forall E b ds ins d o w, has_program E b ds ins d o w -> header_ok (o_reader o) (o_writer o) ds = true ->
  class_ok b o -> o_only_read o = false -> exists P, program_in E d o w = Some P /\ stores b ds o P.
Proof.
  intros E b ds ins d o w H OK NF OR. destruct (program_of _ _ _ _ _ _ _ H) as (enums & ss & LK & PI & TOP). eexists. split; [exact PI|].
  intros L (D & LL & LF). destruct b; [| |destruct NF|].
  - intros LR dl t fs os ND T F S FO E0.
    refine (C31_full_round_trip enums ss o ds L _ OR dl t fs os ND LR (TOP t T) F S FO E0).
    constructor; [constructor; auto; discriminate|left; auto|exact LL|exact LF|now apply String.eqb_neq].
  - intros L64 LR dl t fs os ND T F S FO E0.
    refine (C39_full_round_trip enums ss o ds L _ OR L64 dl t fs os ND LR (TOP t T) F S FO E0).
    constructor; [constructor; auto; discriminate|right; auto|exact LL|exact LF|now apply String.eqb_neq].
  - intros L32 NM dl t fs os rd delta U T F FO CA.
    assert (X : ini_setting enums ss o ds L).
    { destruct NF as [N1 N2]. constructor; [constructor; auto; discriminate|exact LL|exact LF| |].
      - intros u ms m I J S. destruct (NM u ms m I J S). split; now apply String.eqb_neq.
      - split; apply String.eqb_neq; congruence. }
    destruct (C42_round_trip enums ss o ds L X OR dl t fs os rd L32 U (TOP t T) F FO CA) as (x & gs & W & R & B).
    exists x, gs. split; [exact W|]. split; [exact R|exact B].
Qed.
(** From a header, in any layout, and the command line to objects that come back. *)
Theorem C81_header : forall E argv0 a rest p cs ds, usual_sep E -> SymLex.plain (e_stamp E) = true ->
  e_exists E a = true -> e_canonical E a = Some p -> extension E p <> ".stfx" -> SymLex.plain (file_name E p) = true ->
  e_disk E p = Some cs -> StoreDefs.text_of cs ds -> header_ok "xml_reader_C" "xml_writer_C" ds = true ->
  (forall q, In q (four E (parent E p) single_spec) -> e_write E q = true) ->
  exists w P, stfx E argv0 (a :: rest) = Go 0%Z w /\ program_in E (parent E p) single_spec w = Some P /\ stores B_xml_attrib ds single_spec P.
Proof.
  intros E argv0 a rest p cs ds U PS EX EC EXT PF D T OK W.
  destruct (C54_header_to_program E argv0 a rest p cs ds U PS EX EC EXT PF D T OK W) as (w & R & H).
  destruct (C81_program E _ ds _ _ _ w H OK ltac:(discriminate) eq_refl) as (P & PI & X). eauto.
Qed.
(** From a configuration document and the headers it names to objects that come back, for
    each wanted output. *)
Theorem C81_document : forall L E argv0 a rest p x c dssc dsss, conf_lang L -> own_reader L E -> usual_sep E -> SymLex.plain (e_stamp E) = true ->
  e_exists E a = true -> e_canonical E a = Some p -> extension E p = ".stfx" -> holds_doc L E p x -> conf_of x = Some c ->
  let base := parent E p in let dsc := concat dssc in
  Pipeline.reads E base (c_in c) dssc -> NoDup (map def_name dsc) -> closed dsc ->
  Forall2 (fun s dss => Pipeline.reads E base (fst s) dss /\ NoDup (map def_name (dsc ++ concat dss))) (c_non c) dsss ->
  (forall s f, In s (c_non c) -> In f (fst s) -> ~ In (join E base f) (flat_map (paths_of E base) (outputs c))) ->
  existsb (blocked E base) (outputs c) = false ->
  exists w, stfx E argv0 (a :: rest) = Go 0%Z w /\
  (forall t o b d, c_out c = (t, o) -> wanted E base dsc (c_in c) t o b d -> class_ok b o -> o_only_read o = false ->
    (forall q, In q (four E d o) -> ~ In q (flat_map (paths_of E base) (map snd (c_non c)))) ->
    exists P, program_in E d o w = Some P /\ stores b dsc o P) /\
  (forall k fs t o dss b d, nth_error (c_non c) k = Some (fs, (t, o)) -> nth_error dsss k = Some dss ->
    wanted E base (dsc ++ concat dss) (c_in c ++ fs) t o b d -> class_ok b o -> o_only_read o = false ->
    (forall q, In q (four E d o) -> ~ In q (flat_map (paths_of E base) (map snd (skipn (S k) (c_non c))))) ->
    exists P, program_in E d o w = Some P /\ stores b (dsc ++ concat dss) o P).
Proof.
  intros L E argv0 a rest p x c dssc dsss CL OR U PS EX EC EXT HD CO base dsc R1 N1 C1 F2 NI NB.
  destruct (C68_document_to_programs L E argv0 a rest p x c dssc dsss CL OR U PS EX EC EXT HD CO R1 N1 C1 F2 NI NB) as (w & R & A & B).
  exists w. split; [exact R|]. split.
  - intros t o b d CO' W CK OO NQ. eapply C81_program; eauto using wt_ok.
  - intros k fs t o dss b d NT ND W CK OO NQ. eapply C81_program; eauto using wt_ok.
Qed.
Print Assumptions C81_program.
Print Assumptions C81_header.
Print Assumptions C81_document.
(** The header [xdefs] of XmlCase, written one token per line: the generator runs, and the
    functions in its files store the object [xv]. *)
Definition whole_env : env := demo [("/d/a.h", string_of_list_ascii (print (file_tokens xdefs)))] [] CFail.
Example C81_case : exists w P, stfx whole_env "stfx" ["/d/a.h"] = Go 0%Z w /\ program_in whole_env "/d" single_spec w = Some P /\
  saves_loads P single_spec xL false "outer" xv xnew (Some xv).
Proof.
  destruct (C81_header whole_env "stfx" "/d/a.h" [] "/d/a.h" (print (file_tokens xdefs)) xdefs) as (w & P & R & PI & S); try reflexivity.
  - now left.
  - discriminate.
  - eexists _, _, _. split; [vm_compute; reflexivity|]. split; [split; [discriminate|apply Forall_forall; intros x0 [<-|[<-|[<-|[]]]]; cbn; repeat split; repeat constructor; discriminate]|vm_compute; reflexivity].
  - exists w, P. split; [exact R|]. split; [exact PI|]. destruct (x_setting false) as [X _]. pose proof x_new as (D & O & NI).
    refine (S xL _ _ false "outer" xv xnew _ _ _ _ O _).
    + split; [reflexivity|]. split; [reflexivity|apply X].
    + apply x_lits_fresh.
    + now right.
    + split; [eexists; right; right; left; reflexivity|]. intros (n & ms & x & I & [J|[d J]]); cbn in I;
      (repeat (destruct I as [I|I]; [try discriminate I; injection I as <- <-; cbn in J; repeat (destruct J as [J|J]; [discriminate J|]); contradiction|]); contradiction).
    + reflexivity.
    + apply xv_storable.
    + intros u l. now apply no_items_ok.
Qed.
