(** Property theorems about the files of the n_ini back end: C41 to C43, C45, C62 to C66. *)
From Coq Require Import String Ascii ZArith NArith Arith List Bool Lia.
From Verif Require Import Base Map Items Grammar ParseLang Fmt Decimal Templates Emit Main Cpp Xml Val CppSem SymLex Ast Store Resolve StoreDefs ResolveProps Prog Header EnumSem DecText EnumCall EnumRound Link
  XmlSpec XmlReader XmlCall XmlWriter XmlFile XmlCarry XmlRound XmlProps XmlReadProps XmlThms
  IniSpec IniRead IniReader IniCall IniLines IniFile IniEntry IniWrite IniWriter IniScan IniKeep IniRound IniBack IniThms IniCase.
Import ListNotations.
Local Open Scope string_scope.
Local Open Scope list_scope.

(** Read in all theorems: [ds]: the definitions of an accepted header, [enums], [ss]: what
    the parser's store holds, [o]: the section of the configuration, [L]: the rest of the
    language and library.  [ini_setting] says that this fits together, and that no scalar
    member is named items or data.  [ini_reads], [ini_writes]: calls of the generated
    functions (IniThms); [rd]: what the reader object holds when it is called, since the
    functions read what earlier files left there.  [object L t fs]: [fs] are the members of an
    object of type [t].  [member_at ns v]: the member of a member ... of [v], by the names [ns].
    [section_of ns]: the name of the section for it. *)

(** *** C41.  Also when a nested struct is named like a top-level member, whatever the
    reader has read before. *)
Theorem C41_top_level_unchanged : forall enums ss o ds L, ini_setting enums ss o ds L ->
  forall x t os rd, used rd -> top_of ss t -> object L t os ->
  exists r, ini_reads enums ss o L x t os rd r /\ forall rv gs, r = Some (rv, gs) ->
    forall ms m, find_struct (l_defs L) t = Some ms -> In m ms -> is_struct_member L m = false -> assoc (member_name m) gs = assoc (member_name m) os.
Proof. exact top_kept. Qed.
Theorem C41_written_values_lost : forall enums ss o ds L, ini_setting enums ss o ds L -> o_only_read o = false ->
  forall dl t fs os rd, used rd -> top_of ss t -> object L t fs -> object L t os ->
  exists r, ini_writes enums ss o L dl t fs r /\ forall x, r = Some x ->
  exists q, ini_reads enums ss o L x t os rd q /\ forall rv gs, q = Some (rv, gs) ->
    forall ms m, find_struct (l_defs L) t = Some ms -> In m ms -> is_struct_member L m = false -> assoc (member_name m) gs = assoc (member_name m) os.
Proof.
  intros enums ss o ds L X OR dl t fs os rd U T F FO. eexists. split; [exact (writes_any enums ss o ds L X OR dl t fs T F)|]. intros x _. exact (top_kept enums ss o ds L X x t os rd U T FO).
Qed.

(** *** C42.  [carries]: section names have at most 77 characters, no enum member follows a
    struct member, and every scalar is left out or has a line of at most 79 characters with a
    text that is not empty and has no NUL, line feed, carriage return and percent sign, is
    initialised, and, for enums and floating point numbers, can be read back at all.  A string
    may also be a newline and lines that begin with a space, each of at most 79 characters
    with its newline or with spaces where the reader starts anew ([several_lines]).
    [comes_back]: all scalars of nested structs that have a member of a built-in type are as
    written; those left out keep the value they had. *)
Theorem C42_round_trip : forall enums ss o ds L, ini_setting enums ss o ds L -> o_only_read o = false ->
  forall dl t fs os rd, let delta := (negb (o_no_delta o) && dl)%bool in
  (32 <= l_long L)%Z -> used rd -> top_of ss t -> object L t fs -> object L t os -> carries L delta (VStruct t fs) "" ->
  exists x gs, ini_writes enums ss o L dl t fs (Some x) /\ ini_reads enums ss o L x t os rd (Some (true, gs)) /\
    comes_back L delta "" (VStruct t fs) (VStruct t os) (VStruct t gs).
Proof. exact round_trip. Qed.
(** Nothing left out: the nested structs are equal. *)
Theorem C42_nested_scalars : forall enums ss o ds L, ini_setting enums ss o ds L -> o_only_read o = false ->
  forall dl t fs os rd, o_no_delta o = true \/ dl = false ->
  (32 <= l_long L)%Z -> used rd -> top_of ss t -> object L t fs -> object L t os -> carries L false (VStruct t fs) "" ->
  exists x gs, ini_writes enums ss o L dl t fs (Some x) /\ ini_reads enums ss o L x t os rd (Some (true, gs)) /\
  forall ns u f ms, ns <> [] -> member_at ns (VStruct t fs) = Some (VStruct u f) -> find_struct (l_defs L) u = Some ms -> existsb is_simple ms = true ->
  exists g, member_at ns (VStruct t gs) = Some (VStruct u g) /\ forall m, In m ms -> is_scalar L m = true -> assoc (member_name m) g = assoc (member_name m) f.
Proof.
  intros enums ss o ds L X OR dl t fs os rd ND LB U T F FO CA. assert (D : (negb (o_no_delta o) && dl)%bool = false) by (destruct ND as [E|E]; rewrite E; [reflexivity|apply andb_false_r]).
  destruct (round_trip enums ss o ds L X OR dl t fs os rd LB U T F FO ltac:(rewrite D; exact CA)) as (x & gs & W & R & CB). rewrite D in CB. exists x, gs. split; [exact W|]. split; [exact R|].
  intros ns u f ms NE AT FS SI. pose proof (way_section enums ss o ds L X ns _ t u f NE F AT) as NS. pose proof (j_defaults enums ss o ds L X u ms FS) as (d & DF & FD).
  destruct (CB ns u f ms d AT FS DF) as (os' & g & _ & A & H). exists g. split; [exact A|]. intros m I S.
  pose proof (at_fits enums ss o ds L X ns _ t u f F AT) as FU.
  destruct (j_parts enums ss o ds L X u f FU) as (ms' & d' & FS' & D' & _ & _ & PM). assert (ms' = ms) by congruence. assert (d' = d) by congruence. subst ms' d'.
  destruct (PM m I) as (ty & v & dv & MT & A1 & A2 & _). rewrite (H NS SI m v dv I S A1 A2), A1. unfold back_value, left_out. reflexivity.
Qed.

(** *** C43.  The enum members of a struct without members of built-in types: their lines are
    in the file, but no file changes them. *)
Theorem C43_never_read : forall enums ss o ds L, ini_setting enums ss o ds L ->
  forall x t os rd, top_of ss t -> object L t os ->
  exists r, ini_reads enums ss o L x t os rd r /\ forall rv gs, r = Some (rv, gs) ->
  forall ns u f ms, member_at ns (VStruct t os) = Some (VStruct u f) -> find_struct (l_defs L) u = Some ms -> existsb is_simple ms = false ->
  exists g, member_at ns (VStruct t gs) = Some (VStruct u g) /\ forall m, In m ms -> is_struct_member L m = false -> assoc (member_name m) g = assoc (member_name m) f.
Proof.
  intros enums ss o ds L X x t os rd T F. destruct (deep_kept enums ss o ds L X x t os rd T F) as (r & R & H). exists r. split; [exact R|]. intros rv gs E ns u f ms AT FS SI.
  destruct (H rv gs E ns u f ms AT FS) as (g & A & K). exists g. split; [exact A|]. intros m I S. apply K; auto.
Qed.
Theorem C43_written : forall enums ss o ds L, ini_setting enums ss o ds L -> o_only_read o = false ->
  forall dl t fs, let delta := (negb (o_no_delta o) && dl)%bool in top_of ss t -> object L t fs ->
  exists r, ini_writes enums ss o L dl t fs r /\ forall x, r = Some x ->
  forall ns u f ms d m v dv s, member_at ns (VStruct t fs) = Some (VStruct u f) -> find_struct (l_defs L) u = Some ms -> default_fields L u = Some d -> In m ms -> is_scalar L m = true ->
    assoc (member_name m) f = Some v -> assoc (member_name m) d = Some dv -> left_out L delta dv v = Some false -> shown_text L v = Some s ->
    in_text (member_name m ++ " " ++ s ++ NL) x.
Proof.
  intros enums ss o ds L X OR dl t fs delta T F. eexists. split; [exact (writes_any enums ss o ds L X OR dl t fs T F)|]. intros x E ns u f ms d m v dv s AT FS D I S A1 A2 LO SH.
  pose proof (proj2 (writes_shows enums ss o ds L X dl t fs x T F E ns u f AT) ms d m v dv s FS D I S A1 A2 LO SH) as H. exact H.
Qed.

(** *** C45 *)
Theorem C45_unambiguous : forall enums ss o ds L, ini_setting enums ss o ds L ->
  forall t fs ns ns' u u' f f', object L t fs -> member_at ns (VStruct t fs) = Some (VStruct u f) -> member_at ns' (VStruct t fs) = Some (VStruct u' f') ->
  section_of ns = section_of ns' -> ns = ns'.
Proof.
  intros enums ss o ds L X t fs ns ns' u u' f f' F A A'. apply section_inj; [exact (way_idents enums ss o ds L X ns _ t u f F A)|exact (way_idents enums ss o ds L X ns' _ t u' f' F A')].
Qed.
Theorem C45_names : forall ns ns', Forall (fun n => ident n = true) ns -> Forall (fun n => ident n = true) ns' -> section_of ns = section_of ns' -> ns = ns'.
Proof. exact section_inj. Qed.
(** Every struct gets its section, also one that has nothing in it. *)
Theorem C45_written : forall enums ss o ds L, ini_setting enums ss o ds L -> o_only_read o = false ->
  forall dl t fs, top_of ss t -> object L t fs ->
  exists r, ini_writes enums ss o L dl t fs r /\ forall x, r = Some x ->
  forall ns u f, ns <> [] -> member_at ns (VStruct t fs) = Some (VStruct u f) -> in_text (NL ++ "[" ++ section_of ns ++ "]" ++ NL) x.
Proof.
  intros enums ss o ds L X OR dl t fs T F. eexists. split; [exact (writes_any enums ss o ds L X OR dl t fs T F)|]. intros x E ns u f NE AT.
  pose proof (proj1 (writes_shows enums ss o ds L X dl t fs x T F E ns u f AT)) as H. pose proof (way_section enums ss o ds L X ns _ t u f NE F AT) as N. unfold section_line in H. destruct (section_of ns); [congruence|exact H].
Qed.

(** *** C62.  A new reader: structs without section in the file keep their members. *)
Theorem C62_absent_section : forall enums ss o ds L, ini_setting enums ss o ds L ->
  forall x t os ns u f ms, top_of ss t -> object L t os -> member_at ns (VStruct t os) = Some (VStruct u f) -> find_struct (l_defs L) u = Some ms ->
  ~ in_text ("[" ++ section_of ns ++ "]") x ->
  exists r, ini_reads enums ss o L x t os new_reader r /\ forall rv gs, r = Some (rv, gs) ->
  exists g, member_at ns (VStruct t gs) = Some (VStruct u g) /\ forall m, In m ms -> is_struct_member L m = false -> assoc (member_name m) g = assoc (member_name m) f.
Proof. exact unnamed_kept. Qed.
(** A reader that has read another file: the values of that file appear. *)
Theorem C62_used_reader_refuted : exists enums ss o ds L x y t os gs, ini_setting enums ss o ds L /\ top_of ss t /\ object L t os /\
  ini_reads enums ss o L x t os (has_read y new_reader) (Some (true, gs)) /\ x = "" /\ gs <> os.
Proof.
  exists (enums_of udefs), (structs_of udefs), (zo false), udefs, (lang_of udefs), "", (lines ["[i]"; "x 9"]), "outer", (uout 1 0 2 1), (uout 9 0 2 1).
  split; [apply u_setting|]. split; [exact u_top|]. assert (F : object (lang_of udefs) "outer" (uout 1 0 2 1)) by (vm_compute; reflexivity). split; [exact F|]. split; [|split; [reflexivity|discriminate]].
  exact (reads_any (enums_of udefs) (structs_of udefs) (zo false) udefs (lang_of udefs) (u_setting false) "" "outer" (uout 1 0 2 1) (has_read (lines ["[i]"; "x 9"]) new_reader) u_top F).
Qed.

(** *** C63.  The result is that of the last struct member alone. *)
Theorem C63_last_struct_decides : forall enums ss o ds L, ini_setting enums ss o ds L ->
  forall x t os rd ms m, used rd -> top_of ss t -> object L t os -> find_struct (l_defs L) t = Some ms -> hd_error (rev (filter (is_struct_member L) ms)) = Some m ->
  exists r w, ini_reads enums ss o L x t os rd r /\ assoc (member_name m) os = Some w /\
    forall rv gs, r = Some (rv, gs) -> exists w', read_obj L (r_look (has_read x rd)) w (underline_to_space (member_name m)) = Some (rv, w').
Proof. exact last_result. Qed.
(** So if that one has no section in the file and no members of struct types, the result is
    true, whatever fails elsewhere. *)
Theorem C63_result_true : forall enums ss o ds L, ini_setting enums ss o ds L ->
  forall x t os ms m u ms', top_of ss t -> object L t os -> find_struct (l_defs L) t = Some ms ->
  hd_error (rev (filter (is_struct_member L) ms)) = Some m -> member_type L m = Some (TStruct u) -> find_struct (l_defs L) u = Some ms' -> existsb (is_struct_member L) ms' = false ->
  ~ in_text ("[" ++ underline_to_space (member_name m) ++ "]") x ->
  exists r, ini_reads enums ss o L x t os new_reader r /\ forall rv gs, r = Some (rv, gs) -> rv = true.
Proof. exact result_true. Qed.
Theorem C63_failure_reported_refuted : exists enums ss o ds L x t os, ini_setting enums ss o ds L /\ top_of ss t /\ object L t os /\
  x = lines ["[i]"; "x nonsense"; "[j]"] /\ ini_reads enums ss o L x t os new_reader (Some (true, os)).
Proof.
  exists (enums_of udefs), (structs_of udefs), (zo false), udefs, (lang_of udefs), (lines ["[i]"; "x nonsense"; "[j]"]), "outer", (uout 1 0 2 1).
  split; [apply u_setting|]. split; [exact u_top|]. assert (F : object (lang_of udefs) "outer" (uout 1 0 2 1)) by (vm_compute; reflexivity). split; [exact F|]. split; [reflexivity|].
  exact (reads_any (enums_of udefs) (structs_of udefs) (zo false) udefs (lang_of udefs) (u_setting false) (lines ["[i]"; "x nonsense"; "[j]"]) "outer" (uout 1 0 2 1) new_reader u_top F).
Qed.

(** *** C64.  [all_inited delta v]: every scalar in [v], at any depth, is initialised and, if
    compared, so is its default. *)
Theorem C64_undefined_iff : forall enums ss o ds L, ini_setting enums ss o ds L -> o_only_read o = false ->
  forall dl t fs, top_of ss t -> object L t fs ->
  exists r, ini_writes enums ss o L dl t fs r /\ (r <> None <-> all_inited L (negb (o_no_delta o) && dl)%bool (VStruct t fs)).
Proof. exact writing_defined. Qed.

(** *** C65.  [enums_roomy]: every enumeration has room for every int. *)
Theorem C65_defined : forall enums ss o ds L, ini_setting enums ss o ds L ->
  forall x t os rd, enums_roomy L -> top_of ss t -> object L t os -> exists rv gs, ini_reads enums ss o L x t os rd (Some (rv, gs)).
Proof. exact reading_defined. Qed.
(** Scoped enumerations have. *)
Theorem C65_scoped : forall L, (forall u es, find_enum (l_defs L) u = Some es -> fst es = true) -> enums_roomy L.
Proof.
  intros L H u ms e n df FS I UT z Z. unfold user_type in UT. destruct (find_struct (l_defs L) e); [discriminate|]. unfold enum_holds. destruct (find_enum (l_defs L) e) as [[c es]|] eqn:FE; [|discriminate].
  specialize (H e _ FE). cbn in H. subst c. exact Z.
Qed.
Theorem C65_typed : forall enums ss o ds L, ini_setting enums ss o ds L ->
  forall x t os rd, top_of ss t -> object L t os -> exists r, ini_reads enums ss o L x t os rd r /\ forall rv gs, r = Some (rv, gs) -> object L t gs.
Proof. exact ini_reads_object. Qed.
Theorem C65_unscoped_refuted : exists enums ss o ds L x t os, ini_setting enums ss o ds L /\ top_of ss t /\ object L t os /\ ini_reads enums ss o L x t os new_reader None.
Proof.
  exists (enums_of udefs), (structs_of udefs), (zo false), udefs, (lang_of udefs), (lines ["[i]"; "k 77"]), "outer", (uout 1 0 2 1).
  split; [apply u_setting|]. split; [exact u_top|]. assert (F : object (lang_of udefs) "outer" (uout 1 0 2 1)) by (vm_compute; reflexivity). split; [exact F|].
  exact (reads_any (enums_of udefs) (structs_of udefs) (zo false) udefs (lang_of udefs) (u_setting false) (lines ["[i]"; "k 77"]) "outer" (uout 1 0 2 1) new_reader u_top F).
Qed.

(** *** C66 *)
Theorem C66_no_file : forall enums ss o ds L, ini_setting enums ss o ds L ->
  forall t os a n l rest rd f wf s, top_of ss t -> object L t os -> rest_of rest -> name_arg a n s -> lv_this l = false -> get_lv l s = Some (VStruct t os) -> s_this s = reader_this rest rd ->
  assoc (cut n) (w_files (s_world s)) = None -> vheight (VStruct t os) < f ->
  call_fun L (prog B_n_ini enums ss o) wf (S f) [o_reader o; "read_from_file"] [a; (Some l, VStruct t os)] s = Ok (vbool false) s.
Proof. exact no_ini_file. Qed.
Theorem C66_no_write : forall enums ss o ds L, ini_setting enums ss o ds L -> o_only_read o = false ->
  forall dl t fs a n l m rd f wf s, top_of ss t -> object L t fs -> name_arg a n s -> lv_this l = false -> get_lv l s = Some (VStruct t fs) ->
  s_this s = reader_this [("m_delta_only", vbool dl); ("m_file", VFile m)] rd -> l_writable L (cut n) = false -> vheight (VStruct t fs) < f ->
  call_fun L (prog B_n_ini enums ss o) wf (S f) [o_writer o; "write_to_file"] [a; (Some l, VStruct t fs)] s =
  Ok (vbool false) (set_this s (reader_this [("m_delta_only", vbool dl); ("m_file", VFile false)] rd)).
Proof. exact ini_no_write. Qed.
Theorem C66_constructor : forall enums ss o ds L, ini_setting enums ss o ds L -> o_only_read o = false ->
  forall wf f lv dl old fl rd s, s_this s = reader_this [("m_delta_only", old); ("m_file", fl)] rd -> ty_of old = TNum KBool -> (forall l, lv = Some l -> get_lv l s = Some (vbool dl)) ->
  call_fun L (prog B_n_ini enums ss o) wf (S f) [o_writer o; o_writer o] [(lv, vbool dl)] s = Ok VVoid (set_this s (reader_this [("m_delta_only", vbool dl); ("m_file", fl)] rd)).
Proof. exact ini_ctor_ok. Qed.

(** *** Cases.  [zdefs] (IniCase): an enumeration, structs nested three deep, one with only an
    enum member; [zv]: an object, [znew]: a new object. *)
Example C42_case : ini_setting zen zss (zo false) zdefs zL /\ top_of zss "outer" /\ object zL "outer" zv /\ carries zL false (VStruct "outer" zv) "" /\ carries zL true (VStruct "outer" zv) "" /\
  ini_both zdefs false false zv znew = Some (1%Z, zback) /\ ini_both zdefs false true zv znew = Some (1%Z, zback).
Proof. split; [apply z_setting|]. split; [apply z_top|]. split; [apply z_new|]. split; [apply zv_carries|]. split; [apply zv_carries|]. split; vm_compute; reflexivity. Qed.
Example C42_file : ini_text (ini_wrote zdefs false false "out.ini" zv) =
  Some (lines ["top 7"; "us 65535"; "e a"; ""; "[my mid]"; "f 12"; ""; "[my mid.deep down]"; "x -5"; "l 4294967299"; "bo 0"; "st two words [x]"; "k b"; ""; "[fl]"; "only a"; ""; "[i]"; "x 1"; "l 2"; "bo 1"; "st w"; "k 77"]) /\
  ini_text (ini_wrote zdefs false true "out.ini" zv) =
  Some (lines ["top 7"; "us 65535"; "e a"; ""; "[my mid]"; "f 12"; ""; "[my mid.deep down]"; "x -5"; "l 4294967299"; "bo 0"; "st two words [x]"; "k b"; ""; "[fl]"; "only a"; ""; "[i]"; "x 1"; "l 2"; "st w"; "k 77"]) /\
  ini_text (ini_wrote zdefs true true "out.ini" znew) =
  Some (lines ["top 0"; "us 0"; "e 0"; ""; "[my mid]"; "f 0"; ""; "[my mid.deep down]"; "x 4"; "l 0"; "bo 1"; "st def"; "k 0"; ""; "[fl]"; "only 0"; ""; "[i]"; "x 4"; "l 0"; "bo 1"; "st def"; "k 0"]).
Proof. repeat split; vm_compute; reflexivity. Qed.
(** Each condition of C42 is needed: texts that come back as others. *)
Fixpoint rep (n : nat) (s : string) : string := match n with O => "" | S n => (s ++ rep n s)%string end.
Definition with_text (s : string) : fields := zout 0 0 0 zdef_in 0 (zin 1 2 1 s 3) 0.
Definition text_back (s : string) : option string :=
  match ini_both zdefs false false (with_text s) znew with
  | Some (_, gs) => match member_at ["i"; "st"] (VStruct "outer" gs) with Some (VStr s) => Some s | _ => None end
  | None => None
  end.
Example C42_conditions_needed :
  text_back (rep 76 "y") = Some (rep 76 "y") /\ text_back (rep 77 "y") = Some (rep 76 "y") /\ text_back "50% off" = Some "50" /\ text_back "" = Some NL /\
  text_back ("a" ++ NL ++ "b") = Some "a" /\ text_back (String "a" (String "013" "b")) = Some "a".
Proof. repeat split; vm_compute; reflexivity. Qed.
(** A line break in a text can change other members. *)
Example C42_injection : ini_both zdefs false false (with_text ("a" ++ NL ++ "[my mid.deep down]" ++ NL ++ "x 99")) znew = Some (1%Z, zout 0 0 0 (zin 99 0 1 "def" 3) 0 (zin 1 2 1 "a" 0) 0).
Proof. vm_compute; reflexivity. Qed.
(** The enum member of "mid" comes after its struct member: it ends up in that one's section. *)
Theorem C42_late_enum_refuted : exists enums ss o ds L t fs os x gs, ini_setting enums ss o ds L /\ top_of ss t /\ object L t fs /\ object L t os /\
  ini_writes enums ss o L false t fs (Some x) /\ ini_reads enums ss o L x t os new_reader (Some (true, gs)) /\
  fs = wout 1 2 3 4 /\ os = wout 0 4 0 0 /\ gs = wout 1 2 4 0.
Proof.
  exists (enums_of wdefs), (structs_of wdefs), (zo false), wdefs, (lang_of wdefs), "outer", (wout 1 2 3 4), (wout 0 4 0 0), (lines [""; "[m]"; "y 1"; ""; "[m.lf]"; "x 2"; "k a"; "k b"]), (wout 1 2 4 0).
  split; [apply w_setting|]. split; [exact w_top|]. assert (F : object (lang_of wdefs) "outer" (wout 1 2 3 4)) by (vm_compute; reflexivity). assert (F' : object (lang_of wdefs) "outer" (wout 0 4 0 0)) by (vm_compute; reflexivity).
  split; [exact F|]. split; [exact F'|]. split; [|split; [|auto]].
  - exact (writes_any (enums_of wdefs) (structs_of wdefs) (zo false) wdefs (lang_of wdefs) (w_setting false) eq_refl false "outer" (wout 1 2 3 4) w_top F).
  - exact (reads_any (enums_of wdefs) (structs_of wdefs) (zo false) wdefs (lang_of wdefs) (w_setting false) (lines [""; "[m]"; "y 1"; ""; "[m.lf]"; "x 2"; "k a"; "k b"]) "outer" (wout 0 4 0 0) new_reader w_top F').
Qed.
Example C41_case : ini_there (reads_text zdefs (lines ["top 5"; "us 6"; "e a"; "[]"; "top 7"; "[outer]"; "top 8"; "[top]"; "top 9"; "[i]"; "top 1"; "x 3"]) znew) = Some (1%Z, zout 0 0 0 zdef_in 0 (zin 3 0 1 "def" 0) 0).
Proof. vm_compute; reflexivity. Qed.
Example C43_case : existsb is_simple [MUser "en" "only" EmptyDefault] = false /\ member_at ["fl"] (VStruct "outer" zv) = Some (VStruct "flags" [("only", VEnum "en" 3)]) /\
  ini_there (reads_text zdefs (lines ["[fl]"; "only b"]) zv) = Some (1%Z, zv).
Proof. repeat split; vm_compute; reflexivity. Qed.
Example C45_case : section_of ["my_mid"; "deep_down"] = "my mid.deep down" /\ section_of ["a_b"; "c"] <> section_of ["a"; "b_c"] /\ section_of ["a_b"] <> section_of ["ab"] /\ section_of ["a"; "b"] <> section_of ["a_b"].
Proof. repeat split; vm_compute; congruence. Qed.
Example C62_case : ini_there (reads_text zdefs (lines ["[my mid]"; "f 9"; "[i"; "x 3"]) zv) = Some (1%Z, zout 7 3 9 (zin (-5) 4294967299 0 "two words [x]" 4) 3 (zin 1 2 1 "w" 77) 65535).
Proof. vm_compute; reflexivity. Qed.
Example C63_case : ini_there (reads_text zdefs (lines ["[i]"; "l none"; "x 3"]) zv) = Some (0%Z, zout 7 3 12 (zin (-5) 4294967299 0 "two words [x]" 4) 3 (zin 3 2 1 "w" 77) 65535).
Proof. vm_compute; reflexivity. Qed.
Example C64_case : ini_wrote zdefs false false "out.ini" (("top", VUndef (TNum KInt)) :: tl zv) = UB.
Proof. vm_compute; reflexivity. Qed.
Example C65_case : enums_roomy zL.
Proof. apply C65_scoped. intros u [c es] H. apply find_enum_in in H as (b & H). cbn in H. repeat (destruct H as [H|H]; [first [discriminate H|now inversion H]|]). contradiction. Qed.
Example C66_case : ini_there (ini_wrote zdefs false false "readonly" zv) = Some (0%Z, zv) /\ ini_there (ini_read zdefs "missing" nothing new_this zv) = Some (0%Z, zv).
Proof. split; vm_compute; reflexivity. Qed.
Print Assumptions C41_top_level_unchanged.
Print Assumptions C41_written_values_lost.
Print Assumptions C42_round_trip.
Print Assumptions C42_nested_scalars.
Print Assumptions C43_never_read.
Print Assumptions C43_written.
Print Assumptions C45_unambiguous.
Print Assumptions C45_written.
Print Assumptions C62_absent_section.
Print Assumptions C63_result_true.
Print Assumptions C64_undefined_iff.
Print Assumptions C65_defined.
Print Assumptions C65_typed.
Print Assumptions C66_no_file.
Print Assumptions C66_no_write.
