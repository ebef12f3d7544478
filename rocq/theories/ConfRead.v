(** Main's configuration reader gives the meaning of the document. *)
From Coq Require Import String Ascii ZArith NArith Arith List Bool Lia.
From Verif Require Import Base Map Flex Items Bison Grammar Store Resolve StoreProps StoreDefs ResolveProps ItemsEnd Fmt Decimal Templates Emit Shipped EmitCheck
  Cpp Xml Val CppSem SymLex Ast PrintFile Prog Header EnumSem EnumCall EnumRound Link XmlSpec XmlRdSimple XmlRead XmlReader XmlCall XmlWrite XmlWriter XmlFile XmlCarry XmlRound XmlProps XmlReadProps XmlThms ConfSpec.
From Verif Require Main.
Import ListNotations.
Local Open Scope string_scope.
Local Open Scope list_scope.

Lemma some_eq {A} (x y : A) : Some x = Some y -> x = y.
Proof. congruence. Qed.
(** *** The shipped files are the generated files for the header *)
Definition conf_text : bytes := list_ascii_of_string shipped_config_data_h.
Lemma conf_text_of : StoreDefs.text_of conf_text conf_defs.
Proof.
  destruct (scan_text conf_text) as [[[its le] ee]|] eqn:E; [|vm_compute in E; discriminate].
  exists its, le, ee. split; [exact E|]. split; [split; [discriminate|repeat constructor; discriminate]|].
  assert (H : match scan_text conf_text with Some (its, _, _) => map i_tok its | None => [] end = file_tokens conf_defs) by (vm_compute; reflexivity).
  rewrite E in H. exact H.
Qed.
Definition cen := map snd (i_enums cfg_items).
Definition css := map snd (i_structs cfg_items).
Lemma conf_names : header_ok "xml_reader_C" "xml_writer_C" conf_defs = true.
Proof. vm_compute. reflexivity. Qed.
Lemma built_text cs ds : StoreDefs.text_of cs ds -> NoDup (map def_name ds) ->
  exists i, built ds i /\ match process_input_file (Some cs) (Heap info0 info0) with Some (h, _, _) => find_top (fst (fixup (h_self h))) | None => info0 end = find_top (fst (fixup i)).
Proof.
  intros T ND. destruct (built_files [] info0 info0 [cs] [ds] false built_start R_start) as (h & m & PR & _ & _ & B); [constructor; [exact T|constructor]|cbn [concat app]; now rewrite app_nil_r|].
  cbn [app concat] in B. rewrite app_nil_r in B. exists (h_self h). split; [exact B|]. cbn [map process_input_files] in PR.
  destruct (process_input_file (Some cs) (Heap info0 info0)) as [[[h' ok] m']|]; [|discriminate]. cbn in PR. now injection PR as -> _ _.
Qed.
Lemma conf_built : exists i, built conf_defs i /\ cfg_items = find_top (fst (fixup i)).
Proof. exact (built_text conf_text conf_defs conf_text_of (names_nodup _ _ _ conf_names)). Qed.
Lemma conf_shipped : linked conf_defs cen css /\ shipped_prog = Some (prog B_xml_attrib cen css out0).
Proof.
  destruct conf_built as (i & B & CI). unfold cen, css. rewrite CI.
  destruct (program_text B_xml_attrib conf_defs i ["config_data.h"] out0 "enums.cpp" "enums.h" "structs.cpp" "structs.h" stamp0 info_text B conf_names) as (LK & (te & T1 & T2) & (ts & T3 & T4) & _); try reflexivity.
  split; [exact LK|]. rewrite <- CI in *.
  assert (S1 : render T_cpp enum_cmds = Some shipped_enums_cpp) by exact (f_equal (fun l => nth 0 l None) shipped_files).
  assert (S3 : render T_cpp struct_cmds = Some shipped_structs_cpp) by exact (f_equal (fun l => nth 2 l None) shipped_files).
  unfold enum_cmds in S1. unfold struct_cmds in S3. rewrite S1 in T1. rewrite S3 in T3. apply some_eq in T1, T3. subst te ts. unfold shipped_prog. rewrite T2, T4. unfold prog. reflexivity.
Qed.

(** *** The setting of the theorems about xml files *)
Section Read.
Variable L : lang.
Hypothesis C : conf_lang L.
Lemma defs_are : l_defs L = conf_defs.
Proof. exact (cl_defs L C). Qed.
Lemma conf_setting : xml_setting B_xml_attrib Attributes cen css out0 conf_defs L.
Proof.
  split.
  - split; [discriminate|exact conf_names|exact (proj1 conf_shipped)|exact defs_are].
  - left. auto.
  - exact (cl_long L C).
  - intros n ms m ty v I J MT D. rewrite defs_are in I. cbn in I.
    repeat (destruct I as [I|I]; [try discriminate I; injection I as <- <-; cbn in J; repeat (destruct J as [<-|J]; [cbn in D; try discriminate D; injection D as <-; cbn in MT; try (unfold user_type in MT; rewrite defs_are in MT; cbn in MT); injection MT as <-;
      rewrite ?(cl_reader L C), ?(cl_writer L C), ?(cl_kind L C), ?(cl_flag L C); reflexivity|]); contradiction|]). contradiction.
  - reflexivity.
Qed.
Lemma conf_top : top_of css "config".
Proof.
  destruct (find (fun s => String.eqb (s_name s) "config") (tops css)) as [s|] eqn:E; [|vm_compute in E; discriminate]. apply find_some in E as [I N]. exists s. split; [exact I|apply String.eqb_eq; exact N].
Qed.

(** *** Objects *)
Definition vflag (b : bool) : val := VNum KBool (if b then 1 else 0)%Z.
Definition vspec (s : Z * output_spec) : list (string * val) :=
  [("relative_directory", VStr (o_dir (snd s))); ("enum_file", VStr (o_enum_file (snd s))); ("structs_file", VStr (o_structs_file (snd s)));
   ("structs_reader_class", VStr (o_reader (snd s))); ("structs_writer_class", VStr (o_writer (snd s))); ("file_type", VEnum kind_t (fst s));
   ("only_read_code", vflag (o_only_read (snd s))); ("no_special_delta", vflag (o_no_delta (snd s)))].
Definition vfile (n : string) : list (string * val) := [("name", VStr n)].
Definition vfiles (fs : list string) : val := VVec "input_file" (map (fun f => VStruct "input_file" (vfile f)) fs).
Definition vsection (s : list string * (Z * output_spec)) : list (string * val) :=
  [("input", vfiles (fst s)); ("out", VStruct "output_spec" (vspec (snd s)))].
Definition vconf (c : Main.conf) : list (string * val) :=
  [("common_in_files", VStruct "input_spec" [("input", vfiles (Main.c_in c))]); ("common_out_files", VStruct "output_spec" (vspec (Main.c_out c)));
   ("non_common", VVec "uncommon_spec" (map (fun s => VStruct "uncommon_spec" (vsection s)) (Main.c_non c)))].
(** The kind in a specification is the number. *)
Definition sp_ok (s : Z * output_spec) : Prop := o_type (snd s) = kind_named (fst s).
Definition conf_ok (c : Main.conf) : Prop := sp_ok (Main.c_out c) /\ Forall (fun s => sp_ok (snd s)) (Main.c_non c).
Lemma all_map {A B D} (f : A -> B) (g : B -> option D) (h : A -> D) l : (forall x, In x l -> g (f x) = Some (h x)) -> all g (map f l) = Some (map h l).
Proof. induction l as [|x l IH]; intros H; [reflexivity|]. cbn [map all]. rewrite (H x (or_introl eq_refl)), IH; [reflexivity|]. intros y I. apply H. now right. Qed.
Lemma files_in_ok fs : files_in (vfiles fs) = Some fs.
Proof. unfold files_in, vfiles. rewrite (all_map _ file_in (fun x => x)); [now rewrite map_id|reflexivity]. Qed.
Lemma spec_in_ok u s : sp_ok s -> spec_in (VStruct u (vspec s)) = Some s.
Proof. destruct s as [t [d e st r w k a b]]. unfold sp_ok. cbn. intros ->. destruct a, b; reflexivity. Qed.
Lemma conf_in_ok c : conf_ok c -> conf_in (VStruct "config" (vconf c)) = Some c.
Proof.
  destruct c as [fs s ns]. intros [S NS]. cbn [Main.c_in Main.c_out Main.c_non vconf conf_in] in *.
  rewrite files_in_ok, spec_in_ok by exact S. rewrite (all_map _ section_in (fun x => x)); [now rewrite map_id|].
  intros [f o] I. rewrite Forall_forall in NS. specialize (NS _ I). cbn [fst snd] in NS. cbn [section_in vsection fst snd]. now rewrite files_in_ok, spec_in_ok.
Qed.

(** *** New objects *)
Definition spec0 : Z * output_spec := (0%Z, OutputSpec "" "" "" "xml_reader_C" "xml_writer_C" ft_xml_attrib false false).
Definition conf0 : Main.conf := Main.Conf [] spec0 [].
Lemma conf_news : default_fields L "output_spec" = Some (vspec spec0) /\ default_fields L "input_file" = Some (vfile "") /\
  default_fields L "uncommon_spec" = Some (vsection ([], spec0)) /\ default_fields L "config" = Some (vconf conf0).
Proof.
  destruct C as [D _ R W K F]. destruct L as [ds lo li co ze fe xp xr fp sto pa wr]. cbn [l_defs l_lit] in *. subst ds.
  unfold default_fields. cbn -[String.eqb]. cbn. unfold vconf, vsection, vspec, vfiles. cbn. rewrite R, W, K, F. auto.
Qed.
Lemma conf_new : init L (init_fuel L) false (TStruct "config") = Some (VStruct "config" (vconf conf0)).
Proof.
  pose proof (proj2 (proj2 (proj2 conf_news))) as H. unfold default_fields in H. destruct (init L (init_fuel L) false (TStruct "config")) as [v|] eqn:E; [|discriminate].
  unfold init_fuel in E. cbn [init] in E. destruct (find_struct (l_defs L) "config") as [ms|]; [|discriminate]. destruct (init_members _ _ _ ms); [|discriminate]. injection E as <-. now injection H as ->.
Qed.

(** *** Elements *)
Notation pr k := (map (fun y => (y, reading_of L Attributes y)) k).
Lemma child_find x n : first_named n (pr (kids_of x)) = option_map (fun c => (c, reading_of L Attributes c)) (child x n).
Proof. exact (first_find Attributes L n (kids_of x)). Qed.
Lemma items_all u d (g : node -> option (list (string * val))) k : default_fields L u = Some d -> (forall y, In y k -> read_struct L Attributes y u d = g y) ->
  read_items L u (pr k) = all (fun y => option_map (VStruct u) (g y)) (filter is_elem k).
Proof.
  intros D. induction k as [|y k IH]; intros H; [reflexivity|]. specialize (IH (fun z I => H z (or_intror I))). cbn [map read_items filter]. destruct y as [m a c|t]; cbn [is_elem]; [|exact IH].
  rewrite D. specialize (H _ (or_introl eq_refl)). unfold read_struct in H. rewrite H. cbn [all]. destruct (g (Elem m a c)); [|reflexivity]. cbn [option_map]. rewrite IH. reflexivity.
Qed.
Lemma as_items_of c u : as_items (reading_of L Attributes c) u = read_items L u (pr (kids_of c)).
Proof. destruct c; reflexivity. Qed.
Lemma file_read x f : read_struct L Attributes x "input_file" (vfile f) = Some (vfile (given x "name" f)).
Proof.
  rewrite (read_struct_unfold L Attributes x "input_file" _ [MSimple std_string_E "name" NoDefault]) by (rewrite defs_are; reflexivity).
  cbn [read_members vfile read_member read_simple]. unfold find_item, given. now destruct (attr "name" (attrs_of x)).
Qed.
Lemma files_read x old : match first_named "input" (pr (kids_of x)), vfiles old with
  | None, o => Some o | Some (_, r), VVec t l => option_map (fun l' => VVec t (l ++ l')) (as_items r "input_file") | _, _ => None end = Some (vfiles (old ++ inputs_of x)).
Proof.
  rewrite child_find. unfold inputs_of. destruct (child x "input") as [c|]; cbn [option_map or_nothing]; [|cbn; now rewrite app_nil_r].
  unfold vfiles at 1. rewrite as_items_of, (items_all "input_file" (vfile "") (fun y => Some (vfile (given y "name" "")))); [|exact (proj1 (proj2 conf_news))|intros; apply file_read].
  unfold elements, vfiles. set (l := filter is_elem (kids_of c)). assert (E : all (fun y => option_map (VStruct "input_file") (Some (vfile (given y "name" "")))) l = Some (map (fun f => VStruct "input_file" (vfile f)) (map (fun y => given y "name" "") l))).
  { clearbody l. induction l as [|y l IH]; [reflexivity|]. cbn [all map]. rewrite IH. reflexivity. }
  cbv beta. rewrite E. cbn [option_map]. now rewrite !map_app.
Qed.
Lemma flag_read x n d k (a : list (node * reading)) : k = Attributes -> read_simple L k bool_E (find_item k n (attrs_of x) a) (vflag d) =
  option_map vflag (match attr n (attrs_of x) with None => Some d | Some s => match to_bool s with Value z => Some (negb (z =? 0)%Z) | NoValue => Some d | Overflow => None end end).
Proof.
  intros ->. unfold find_item. destruct (attr n (attrs_of x)) as [s|]; [|reflexivity]. cbn [read_simple read_number]. unfold to_bool.
  destruct (to_int s) as [|z|].
  - destruct (existsb (String.eqb s) ["true"; "True"; "TRUE"]); [reflexivity|]. destruct (existsb (String.eqb s) ["false"; "False"; "FALSE"]); reflexivity.
  - destruct (z =? 0)%Z; reflexivity.
  - reflexivity.
Qed.
Definition kinds := [Entry "xml_attrib" None; Entry "xml" None; Entry "ini" None; Entry "n_ini" None; Entry "json" None].
Lemma kind_found : find_enum (l_defs L) kind_t = Some (true, kinds).
Proof. rewrite defs_are. reflexivity. Qed.
Lemma kind_values : enum_values L 0 kinds = [("xml_attrib", 0); ("xml", 1); ("ini", 2); ("n_ini", 3); ("json", 4)]%Z.
Proof. reflexivity. Qed.
Lemma kind_read x old k (a : list (node * reading)) : k = Attributes -> read_enum_item L kind_t (find_item k "file_type" (attrs_of x) a) (VEnum kind_t old) =
  Some (VEnum kind_t (match attr "file_type" (attrs_of x) with None => old | Some s => match assoc s [("xml_attrib", 0); ("xml", 1); ("ini", 2); ("n_ini", 3); ("json", 4)]%Z with Some z => z
    | None => match scan_dec s with Some z => if in_int z then z else old | None => old end end end)).
Proof.
  intros ->. unfold find_item, read_enum_item. destruct (attr "file_type" (attrs_of x)) as [s|]; [|reflexivity]. rewrite kind_found.
  unfold read_enum. rewrite kind_values. destruct (assoc s _); [reflexivity|]. destruct (scan_dec s) as [z|]; [|reflexivity]. unfold enum_holds. rewrite kind_found. destruct (in_int z); reflexivity.
Qed.
Lemma text_read x n d (a : list (node * reading)) : read_simple L Attributes std_string_E (find_item Attributes n (attrs_of x) a) (VStr d) = Some (VStr (given x n d)).
Proof. unfold find_item, given. now destruct (attr n (attrs_of x)). Qed.
Lemma kind_given x : match attr "file_type" (attrs_of x) with None => 0%Z | Some s => kind_text s end = kind_text (given x "file_type" "xml_attrib").
Proof. unfold given. now destruct (attr "file_type" (attrs_of x)). Qed.
Lemma spec_read x : read_struct L Attributes x "output_spec" (vspec spec0) = option_map vspec (out_of x).
Proof.
  rewrite (read_struct_unfold L Attributes x "output_spec" _ spec_ms) by (rewrite defs_are; reflexivity).
  unfold spec_ms, vspec. cbn [read_members read_member]. change (vflag (o_only_read (snd spec0))) with (vflag false). change (vflag (o_no_delta (snd spec0))) with (vflag false).
  assert (U : user_type L kind_t = Some (TEnum kind_t)) by (unfold user_type; rewrite defs_are; reflexivity). rewrite U.
  cbn [fst snd spec0 o_dir o_enum_file o_structs_file o_reader o_writer]. rewrite !flag_read, kind_read, !text_read by reflexivity. fold (kind_text). unfold out_of. rewrite <- kind_given. fold (flag x "only_read_code") (flag x "no_special_delta").
  destruct (flag x "only_read_code") as [f1|]; [|reflexivity]. cbn [option_map]. destruct (flag x "no_special_delta") as [f2|]; [|reflexivity]. reflexivity.
Qed.
Lemma nothing_out : out_of nothing = Some spec0.
Proof. reflexivity. Qed.
Lemma part_read x n : match first_named n (pr (kids_of x)), VStruct "output_spec" (vspec spec0) with
  | None, o => Some o | Some (_, r), VStruct t fs => option_map (VStruct t) (as_struct r "output_spec" fs) | _, _ => None end =
  option_map (fun s => VStruct "output_spec" (vspec s)) (out_of (or_nothing (child x n))).
Proof.
  rewrite child_find. destruct (child x n) as [c|]; cbn [option_map or_nothing]; [|rewrite nothing_out; reflexivity].
  pose proof (spec_read c) as S. unfold read_struct in S. rewrite S. now destruct (out_of c).
Qed.
Lemma section_read x : read_struct L Attributes x "uncommon_spec" (vsection ([], spec0)) = option_map vsection (section_of x).
Proof.
  rewrite (read_struct_unfold L Attributes x "uncommon_spec" _ [MVector "input_file" "input"; MUser "output_spec" "out" NoDefault]) by (rewrite defs_are; reflexivity).
  unfold vsection. cbn [fst snd read_members read_member]. assert (U : user_type L "output_spec" = Some (TStruct "output_spec")) by (unfold user_type; rewrite defs_are; reflexivity). rewrite U.
  rewrite (part_read x "out"), (files_read x []). unfold section_of. destruct (out_of (or_nothing (child x "out"))); reflexivity.
Qed.
Lemma inputs_read x : read_struct L Attributes x "input_spec" [("input", vfiles [])] = Some [("input", vfiles (inputs_of x))].
Proof.
  rewrite (read_struct_unfold L Attributes x "input_spec" _ [MVector "input_file" "input"]) by (rewrite defs_are; reflexivity).
  cbn [read_members read_member]. rewrite (files_read x []). reflexivity.
Qed.
Lemma all_option {A B D} (f : A -> option B) (g : B -> D) l : all (fun y => option_map g (f y)) l = option_map (map g) (all f l).
Proof. induction l as [|x l IH]; [reflexivity|]. cbn [all]. rewrite IH. destruct (f x); [|reflexivity]. cbn [option_map]. destruct (all f l); reflexivity. Qed.
Lemma sections_read x : match first_named "non_common" (pr (kids_of x)), VVec "uncommon_spec" [] with
  | None, o => Some o | Some (_, r), VVec t l => option_map (fun l' => VVec t (l ++ l')) (as_items r "uncommon_spec") | _, _ => None end =
  option_map (fun ns => VVec "uncommon_spec" (map (fun s => VStruct "uncommon_spec" (vsection s)) ns)) (all section_of (elements (or_nothing (child x "non_common")))).
Proof.
  rewrite child_find. destruct (child x "non_common") as [c|]; cbn [option_map or_nothing]; [|reflexivity].
  rewrite as_items_of, (items_all "uncommon_spec" (vsection ([], spec0)) (fun y => option_map vsection (section_of y))); [|exact (proj1 (proj2 (proj2 conf_news)))|intros; apply section_read].
  unfold elements. set (l := filter is_elem (kids_of c)). clearbody l. cbv beta. rewrite all_option, all_option. destruct (all section_of l) as [ns|]; [|reflexivity]. cbn [option_map app]. now rewrite map_map.
Qed.
Lemma conf_read_ok x : read_struct L Attributes x "config" (vconf conf0) = option_map vconf (conf_of x).
Proof.
  rewrite (read_struct_unfold L Attributes x "config" _ [MUser "input_spec" "common_in_files" NoDefault; MUser "output_spec" "common_out_files" NoDefault; MVector "uncommon_spec" "non_common"]) by (rewrite defs_are; reflexivity).
  unfold vconf. cbn [Main.c_in Main.c_out Main.c_non conf0 map read_members read_member].
  assert (U : user_type L "output_spec" = Some (TStruct "output_spec")) by (unfold user_type; rewrite defs_are; reflexivity).
  assert (U' : user_type L "input_spec" = Some (TStruct "input_spec")) by (unfold user_type; rewrite defs_are; reflexivity). rewrite U, U'.
  rewrite (part_read x "common_out_files"), (sections_read x), child_find. unfold conf_of.
  destruct (child x "common_in_files") as [c|]; cbn [option_map or_nothing].
  - pose proof (inputs_read c) as I. unfold read_struct in I. rewrite I. cbn [option_map]. destruct (out_of _) as [s|]; [|reflexivity]. cbn [option_map]. destruct (all section_of _); reflexivity.
  - destruct (out_of _) as [s|]; [|reflexivity]. cbn [option_map]. destruct (all section_of _); reflexivity.
Qed.
Lemma out_ok x s : out_of x = Some s -> sp_ok s.
Proof. unfold out_of. destruct (flag x "only_read_code"); [|discriminate]. destruct (flag x "no_special_delta"); [|discriminate]. now intros [= <-]. Qed.
Lemma conf_of_ok x c : conf_of x = Some c -> conf_ok c.
Proof.
  unfold conf_of. destruct (out_of _) as [s|] eqn:O; [|discriminate]. destruct (all section_of _) as [ns|] eqn:A; [|discriminate]. intros [= <-]. split; [exact (out_ok _ _ O)|]. cbn [Main.c_non].
  revert ns A. induction (elements (or_nothing (child x "non_common"))) as [|y l IH]; intros ns; cbn [all]; [intros [= <-]; constructor|].
  unfold section_of at 1. destruct (out_of (or_nothing (child y "out"))) as [s'|] eqn:O'; [|discriminate]. destruct (all section_of l) as [q|]; [|discriminate]. intros [= <-].
  constructor; [exact (out_ok _ _ O')|now apply IH].
Qed.
Lemma conf0_object : object L "config" (vconf conf0).
Proof.
  destruct (r_defaults B_xml_attrib Attributes cen css out0 conf_defs L conf_setting "config" [MUser "input_spec" "common_in_files" NoDefault; MUser "output_spec" "common_out_files" NoDefault; MVector "uncommon_spec" "non_common"]) as (d & D & F); [rewrite defs_are; reflexivity|].
  rewrite (proj2 (proj2 (proj2 conf_news))) in D. apply some_eq in D. subst d. exact F.
Qed.

(** *** The call *)
Theorem conf_answered cs : answers L cs (conf_file L cs).
Proof.
  assert (FS : find_struct (l_defs L) "config" = Some [MUser "input_spec" "common_in_files" NoDefault; MUser "output_spec" "common_out_files" NoDefault; MVector "uncommon_spec" "non_common"]) by (rewrite defs_are; reflexivity).
  exists (prog B_xml_attrib cen css out0), (VStruct "config" (vconf conf0)).
  assert (LD : forall p, load L (s_world (conf_start p cs (VStruct "config" (vconf conf0)))) (cut p) = match cs with Some b => l_parse L (string_of_list_ascii b) | None => None end).
  { intros p. unfold load, conf_start. cbn [s_world w_files]. destruct cs as [b|]; [|reflexivity]. cbn [assoc]. now rewrite String.eqb_refl. }
  assert (GO : match match cs with Some b => l_parse L (string_of_list_ascii b) | None => None end with
    | None => True | Some ks => file_reads B_xml_attrib cen css out0 L ks "config" (vconf conf0) (match find is_elem ks with Some x => option_map vconf (conf_of x) | None => None end) end).
  { destruct cs as [b|]; [|exact I]. destruct (l_parse L (string_of_list_ascii b)) as [ks|]; [|exact I].
    pose proof (reads_file B_xml_attrib Attributes cen css out0 conf_defs L conf_setting ks "config" (vconf conf0) _ conf_top FS conf0_object ltac:(discriminate)) as R.
    unfold root in R. destruct (find is_elem ks) as [x|]; [|exact R]. rewrite conf_read_ok in R. exact R. }
  assert (FA : forall p, file_arg (None, VStr p) p (conf_start p cs (VStruct "config" (vconf conf0)))) by (intros p; left; auto).
  unfold conf_file. destruct cs as [b|].
  - destruct (l_parse L (string_of_list_ascii b)) as [ks|].
    + destruct GO as (f0 & GO). exists f0. split; [exact (proj2 conf_shipped)|]. split; [exact conf_new|]. intros f wf p LE. unfold read_conf.
      pose proof (GO f wf (None, VStr p) p (LV false "conf" []) (conf_start p (Some b) (VStruct "config" (vconf conf0))) LE (FA p) eq_refl (ex_intro _ None eq_refl) (LD p)) as R. match type of R with ?l = _ => match goal with |- sees ?r _ => change r with l end end. rewrite R. clear R.
      destruct (find is_elem ks) as [x|]; [|constructor]. destruct (conf_of x) as [c|] eqn:CO; [|constructor]. cbn [option_map outcome].
      eapply sees_read; [reflexivity|]. apply conf_in_ok. exact (conf_of_ok x c CO).
    + exists 2. split; [exact (proj2 conf_shipped)|]. split; [exact conf_new|]. intros f wf p LE. unfold read_conf. destruct f as [|[|f]]; [lia|lia|].
      pose proof (no_file B_xml_attrib Attributes cen css out0 conf_defs L conf_setting "config" (vconf conf0) (None, VStr p) p (LV false "conf" []) _ f wf _ conf_top FS conf0_object (FA p) eq_refl (ex_intro _ None eq_refl) (LD p)) as R. match type of R with ?l = _ => match goal with |- sees ?r _ => change r with l end end. rewrite R. constructor.
  - exists 2. split; [exact (proj2 conf_shipped)|]. split; [exact conf_new|]. intros f wf p LE. unfold read_conf. destruct f as [|[|f]]; [lia|lia|].
    pose proof (no_file B_xml_attrib Attributes cen css out0 conf_defs L conf_setting "config" (vconf conf0) (None, VStr p) p (LV false "conf" []) _ f wf _ conf_top FS conf0_object (FA p) eq_refl (ex_intro _ None eq_refl) (LD p)) as R. match type of R with ?l = _ => match goal with |- sees ?r _ => change r with l end end. rewrite R. constructor.
Qed.
(** There is only one answer. *)
Lemma sees_one r a b : sees r a -> sees r b -> a = b.
Proof. intros H K. inversion H; subst; inversion K; subst; try reflexivity; congruence. Qed.
Theorem conf_answer_is cs r : answers L cs r <-> r = conf_file L cs.
Proof.
  split; [|intros ->; apply conf_answered]. intros (P & d & f0 & SP & D & H). destruct (conf_answered cs) as (P' & d' & f1 & SP' & D' & H').
  rewrite SP in SP'. apply some_eq in SP'. rewrite D in D'. apply some_eq in D'. subst P' d'. exact (sees_one _ _ _ (H (f0 + f1) 0 "" ltac:(lia)) (H' (f0 + f1) 0 "" ltac:(lia))).
Qed.
End Read.
