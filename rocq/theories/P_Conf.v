(** Property theorems about the configuration file: C67-C71. *)
From Coq Require Import String Ascii ZArith NArith Arith List Bool Lia.
From Verif Require Import Base Map Flex Items Bison Grammar ParseLang Store Resolve StoreProps StoreDefs ResolveProps ItemsEnd
  Fmt Decimal Templates MainTemplates Emit Shipped EmitCheck Cpp Xml Val SymLex Ast Prog Header Link XmlSpec Main MainProps RunProps Pipeline DecText XmlRound XmlReadProps XmlThms ConfSpec ConfRead ConfRound.
From Verif Require CppSem.
Import ListNotations.
Local Open Scope string_scope.
Local Open Scope list_scope.

(** A program whose configuration reader is the code in src/configuration. *)
Definition own_reader (L : lang) (E : env) : Prop := forall cs, answers L cs (e_conf E cs).
(** The file [p] holds a document with root element [x]. *)
Definition holds_doc (L : lang) (E : env) (p : string) (x : node) : Prop :=
  exists cs ks, e_disk E p = Some cs /\ l_parse L (string_of_list_ascii cs) = Some ks /\ find is_elem ks = Some x.

(** *** A document: src/test/config.stfx, without the blanks between the elements *)
Definition in_file (n : string) : node := Elem "input_file" [("name", n)] [].
Definition test_out (k : string) : node := Elem "out" [("relative_directory", "xtra_" ++ k); ("enum_file", "enums_" ++ k); ("structs_file", "structs_" ++ k);
  ("structs_reader_class", "xml_reader_" ++ k ++ "_C"); ("structs_writer_class", "xml_writer_" ++ k ++ "_C")]%string [].
Definition test_doc : node :=
  Elem "config" [] [
    Elem "common_in_files" [] [Elem "input" [] [in_file "test_enums.h"; in_file "config_data.h"]];
    Elem "common_out_files" [("file_type", "xml"); ("relative_directory", "common_out"); ("enum_file", "co_enums"); ("structs_file", "co_structs")] [];
    Elem "non_common" [] [
      Elem "uncommon_spec" [] [Elem "input" [] [in_file "test_extra1.h"]; test_out "1"];
      Elem "uncommon_spec" [] [Elem "input" [] [in_file "test_extra2.h"]; test_out "2"]]].
Definition test_conf : conf :=
  Conf ["test_enums.h"; "config_data.h"] (1%Z, OutputSpec "common_out" "co_enums" "co_structs" "xml_reader_C" "xml_writer_C" ft_xml false false)
    [(["test_extra1.h"], (0%Z, OutputSpec "xtra_1" "enums_1" "structs_1" "xml_reader_1_C" "xml_writer_1_C" ft_xml_attrib false false));
     (["test_extra2.h"], (0%Z, OutputSpec "xtra_2" "enums_2" "structs_2" "xml_reader_2_C" "xml_writer_2_C" ft_xml_attrib false false))].
Definition cL : lang := Lang conf_defs 64
  (fun t v => match t, v with TNum k, _ => VNum k 0 | TEnum n, _ => VEnum n 0 | _, DStr """xml_reader_C""" => VStr "xml_reader_C" | _, DStr """xml_writer_C""" => VStr "xml_writer_C" | _, _ => VStr "" end)
  (fun _ => 0%Z) (fun _ => 0%Z) (fun _ => Z.eqb) (fun _ c => zdec c) (fun _ s => None) (fun _ _ => "") (fun _ _ => None)
  (fun s => if String.eqb s "test" then Some [test_doc] else if String.eqb s "empty" then Some [] else if String.eqb s "big" then Some [Elem "c" [] [Elem "common_out_files" [("only_read_code", "99999999999")] []]] else None)
  (fun _ => true).
Lemma cL_conf : conf_lang cL.
Proof. split; reflexivity. Qed.
Definition test_env : env :=
  Env "today" "/" (fun _ => true) Some (fun _ => true)
      (fun p => option_map list_ascii_of_string (Cpp.assoc p [("/d/c.stfx", "test"); ("/d/e.stfx", "empty"); ("/d/b.stfx", "big"); ("/d/x.stfx", "?")]))
      (fun _ => true) (conf_file cL) zdec.
Lemma test_own : own_reader cL test_env.
Proof. intros cs. apply conf_answer_is; [exact cL_conf|reflexivity]. Qed.

(** *** C67.  What main gets from a configuration file; [conf_file], [conf_of]: the
    meaning of documents in ConfSpec.v *)
Theorem C67_meaning : forall L, conf_lang L -> forall cs r, answers L cs r <-> r = conf_file L cs.
Proof. exact conf_answer_is. Qed.
Print Assumptions C67_meaning.
Example C67_case : conf_of test_doc = Some test_conf /\
  answers cL (Some (list_ascii_of_string "test")) (CRead test_conf) /\ answers cL (Some (list_ascii_of_string "?")) CFail /\ answers cL None CFail /\
  answers cL (Some (list_ascii_of_string "empty")) CStop /\ answers cL (Some (list_ascii_of_string "big")) CStop.
Proof. split; [vm_compute; reflexivity|]. split; [|split; [|split; [|split]]]; (apply C67_meaning; [exact cL_conf|]; vm_compute; reflexivity). Qed.

(** *** C68.  The run for a configuration file *)
Theorem C68_unreadable : forall L E argv0 a rest p, conf_lang L -> own_reader L E -> e_exists E a = true -> e_canonical E a = Some p -> extension E p = ".stfx" ->
  (e_disk E p = None \/ exists cs, e_disk E p = Some cs /\ l_parse L (string_of_list_ascii cs) = None) ->
  exists w, stfx E argv0 (a :: rest) = Go 1%Z w /\ w_files w = [].
Proof.
  intros L E argv0 a rest p C OR EX EC EXT H. pose proof (config_run E argv0 a rest p EX EC EXT) as R.
  pose proof (proj1 (conf_answer_is L C _ _) (OR (e_disk E p))) as A. rewrite A in R. destruct H as [H|(cs & H & N)]; rewrite H in R; cbn [conf_file] in R; [exact R|]. now rewrite N in R.
Qed.
(** No root element: a null pointer.  A flag that is a number too large for int. *)
Theorem C68_undefined : forall L E argv0 a rest p cs ks, conf_lang L -> own_reader L E -> e_exists E a = true -> e_canonical E a = Some p -> extension E p = ".stfx" ->
  e_disk E p = Some cs -> l_parse L (string_of_list_ascii cs) = Some ks ->
  (find is_elem ks = None \/ exists x, find is_elem ks = Some x /\ conf_of x = None) ->
  exists w, stfx E argv0 (a :: rest) = Stop w /\ w_files w = [].
Proof.
  intros L E argv0 a rest p cs ks C OR EX EC EXT DK LP H. pose proof (config_run E argv0 a rest p EX EC EXT) as R.
  pose proof (proj1 (conf_answer_is L C _ _) (OR (e_disk E p))) as A. rewrite A, DK in R. cbn [conf_file] in R. rewrite LP in R. destruct H as [H|(x & H & N)]; rewrite H in R; [exact R|]. now rewrite N in R.
Qed.
Lemma conf_given L E p x : conf_lang L -> own_reader L E -> holds_doc L E p x -> forall c, conf_of x = Some c -> e_conf E (e_disk E p) = CRead c.
Proof.
  intros C OR (cs & ks & DK & LP & RT) c CO. rewrite (proj1 (conf_answer_is L C _ _) (OR (e_disk E p))), DK. cbn [conf_file]. now rewrite LP, RT, CO.
Qed.
(** From the document to the files *)
Theorem C68_status : forall L E argv0 a rest p x c, conf_lang L -> own_reader L E -> e_exists E a = true -> e_canonical E a = Some p -> extension E p = ".stfx" ->
  holds_doc L E p x -> conf_of x = Some c ->
  exists w, stfx E argv0 (a :: rest) = (if existsb (blocked E (parent E p)) (outputs c) then Stop w else Go 0%Z w) /\
  (forall q, Cpp.assoc q (w_files w) <> None -> In q (flat_map (paths_of E (parent E p)) (outputs c))) /\
  (existsb (blocked E (parent E p)) (outputs c) = false ->
   forall q, In q (flat_map (paths_of E (parent E p)) (outputs c)) -> Cpp.assoc q (w_files w) <> None).
Proof.
  intros L E argv0 a rest p x c C OR EX EC EXT HD CO. pose proof (config_run E argv0 a rest p EX EC EXT) as R. now rewrite (conf_given L E p x C OR HD c CO) in R.
Qed.
Theorem C68_document_to_programs : forall L E argv0 a rest p x c dssc dsss, conf_lang L -> own_reader L E -> usual_sep E -> plain (e_stamp E) = true ->
  e_exists E a = true -> e_canonical E a = Some p -> extension E p = ".stfx" -> holds_doc L E p x -> conf_of x = Some c ->
  let base := parent E p in let dsc := concat dssc in
  Pipeline.reads E base (c_in c) dssc -> NoDup (map def_name dsc) -> closed dsc ->
  Forall2 (fun s dss => Pipeline.reads E base (fst s) dss /\ NoDup (map def_name (dsc ++ concat dss))) (c_non c) dsss ->
  (forall s f, In s (c_non c) -> In f (fst s) -> ~ In (join E base f) (flat_map (paths_of E base) (outputs c))) ->
  existsb (blocked E base) (outputs c) = false ->
  exists w, stfx E argv0 (a :: rest) = Go 0%Z w /\
  (forall t o b d, c_out c = (t, o) -> wanted E base dsc (c_in c) t o b d ->
    (forall q, In q (four E d o) -> ~ In q (flat_map (paths_of E base) (map snd (c_non c)))) ->
    has_program E b dsc (c_in c) d o w) /\
  (forall k fs t o dss b d, nth_error (c_non c) k = Some (fs, (t, o)) -> nth_error dsss k = Some dss ->
    wanted E base (dsc ++ concat dss) (c_in c ++ fs) t o b d ->
    (forall q, In q (four E d o) -> ~ In q (flat_map (paths_of E base) (map snd (skipn (S k) (c_non c))))) ->
    has_program E b (dsc ++ concat dss) (c_in c ++ fs) d o w).
Proof.
  intros L E argv0 a rest p x c dssc dsss C OR U PS EX EC EXT HD CO. apply config_program; auto. exact (conf_given L E p x C OR HD c CO).
Qed.
Print Assumptions C68_unreadable.
Print Assumptions C68_undefined.
Print Assumptions C68_status.
Print Assumptions C68_document_to_programs.
Example C68_case : holds_doc cL test_env "/d/c.stfx" test_doc /\
  match stfx test_env "stfx" ["/d/c.stfx"] with
  | Go 0%Z w => map fst (w_files w) = ["/d/common_out/co_enums.cpp"; "/d/common_out/co_enums.h"; "/d/common_out/co_structs.cpp"; "/d/common_out/co_structs.h";
      "/d/xtra_1/enums_1.cpp"; "/d/xtra_1/enums_1.h"; "/d/xtra_1/structs_1.cpp"; "/d/xtra_1/structs_1.h";
      "/d/xtra_2/enums_2.cpp"; "/d/xtra_2/enums_2.h"; "/d/xtra_2/structs_2.cpp"; "/d/xtra_2/structs_2.h"]
  | _ => False
  end /\
  match stfx test_env "stfx" ["/d/x.stfx"] with Go 1%Z _ => True | _ => False end /\ match stfx test_env "stfx" ["/d/n.stfx"] with Go 1%Z _ => True | _ => False end /\
  match stfx test_env "stfx" ["/d/e.stfx"] with Stop _ => True | _ => False end /\ match stfx test_env "stfx" ["/d/b.stfx"] with Stop _ => True | _ => False end.
Proof. split; [eexists _, _; repeat split; vm_compute; reflexivity|]. vm_compute. auto. Qed.

(** *** C69.  The attribute file_type *)
Definition kinds : list string := ["xml_attrib"; "xml"; "ini"; "n_ini"; "json"].
Definition starts_digit (s : string) : bool := match s with String c _ => is_digit c | EmptyString => false end.
Lemma scan_tail z r : starts_digit r = false -> scan_dec (zdec z ++ r) = Some z.
Proof.
  intros R.
  assert (T : forall s a any, all_chars is_digit s = true -> digits_val a any (s ++ r) = digits_val a any s).
  { induction s as [|c s IH]; intros a any A.
    - cbn [append]. destruct r as [|c r]; [reflexivity|]. cbn [starts_digit] in R. unfold is_digit in R. cbn [digits_val]. now rewrite R.
    - cbn [all_chars] in A. apply andb_prop in A as [A1 A2]. unfold is_digit in A1. cbn [append digits_val]. rewrite A1. apply IH, A2. }
  assert (SP : forall c s, is_digit c = true -> skip_space (String c s) = String c s).
  { intros c s D. apply skip_space_none, dec_chr_space. unfold dec_chr. now rewrite D. }
  assert (G : forall n, scan_dec (dec n ++ r) = Some (Z.of_N n)).
  { intros n. destruct (dec_nonempty n) as (c & s & E). pose proof (dec_all n) as A. pose proof (digits_val_dec n false) as D. pose proof (T (dec n) 0%Z false A) as T'.
    rewrite E in *. pose proof A as A'. cbn [all_chars] in A'. apply andb_prop in A' as [A1 _]. change ((String c s ++ r)%string) with (String c (s ++ r)) in *. unfold scan_dec. rewrite SP by exact A1. destruct (digit_sign c A1) as [-> ->]. now rewrite T'. }
  destruct z as [|p|p]; cbn [zdec]; [exact (G 0%N)|exact (G (Npos p))|].
  change ((String "-" (dec (N.pos p)) ++ r)%string) with (String "-" (dec (N.pos p) ++ r)). unfold scan_dec. change (skip_space (String "-" (dec (N.pos p) ++ r))) with (String "-" (dec (N.pos p) ++ r)). change (("-" =? "-")%char) with true. cbn iota.
  now rewrite T, digits_val_dec by apply dec_all.
Qed.
(** A text that is neither a name nor begins like a number means the same as no
    attribute, here of the output for all sections; the attribute may occur anywhere. *)
Definition unnamed (n : string) (k : list node) : Prop := child (Elem "" [] k) n = None.
Theorem C69_unknown_is_default : forall s, ~ In s kinds -> scan_dec s = None ->
  forall n a k1 k2 al kk, unnamed "common_out_files" k1 -> attr "file_type" al = None ->
  conf_of (Elem n a (k1 ++ Elem "common_out_files" (("file_type", s) :: al) kk :: k2)) = conf_of (Elem n a (k1 ++ Elem "common_out_files" al kk :: k2)).
Proof.
  intros s NI SD n a k1 k2 al kk U AN. unfold unnamed, child in U. cbn [kids_of] in U.
  assert (FA : forall (f : node -> bool) l l', find f (l ++ l') = match find f l with Some y => Some y | None => find f l' end).
  { intros f l l'. induction l as [|y l IH]; [reflexivity|]. cbn [app find]. destruct (f y); auto. }
  unfold conf_of, child. cbn [kids_of]. rewrite !FA, U. cbn [find]. change (String.eqb "common_out_files" "common_out_files") with true. cbn [or_nothing].
  change (String.eqb "non_common" "common_out_files") with false. change (String.eqb "common_in_files" "common_out_files") with false. cbv iota.
  assert (K : kind_text s = 0%Z).
  { unfold kind_text. rewrite SD. cbn in NI. cbn [assoc]. repeat (match goal with |- context [String.eqb s ?t] => destruct (String.eqb_spec s t) as [E|_]; [exfalso; apply NI; rewrite E; auto 10|] end). reflexivity. }
  assert (O : out_of (Elem "common_out_files" (("file_type", s) :: al) kk) = out_of (Elem "common_out_files" al kk)).
  { unfold out_of, flag, given. cbn [attrs_of attr]. rewrite AN. cbn [String.eqb Ascii.eqb Bool.eqb]. rewrite K. reflexivity. }
  rewrite O. reflexivity.
Qed.
(** The names in the order of the enumeration; a number is taken as the value, and what
    follows it is ignored.  From 4 on, no files are written. *)
Theorem C69_names_and_numbers :
  map kind_text kinds = [0; 1; 2; 3; 4]%Z /\
  (forall z r, in_int z = true -> starts_digit r = false -> kind_text (zdec z ++ r) = z) /\
  (forall z, backend_of z = nth_error [B_xml_attrib; B_xml; B_ini; B_n_ini] (if (z <? 0)%Z then 4 else Z.to_nat z)).
Proof.
  split; [reflexivity|]. split.
  - intros z r I R. unfold kind_text. rewrite (scan_tail z r R), I.
    assert (N : forall s, In s kinds -> (zdec z ++ r)%string <> s).
    { intros s J E. pose proof (scan_tail z r R) as SC. rewrite E in SC. cbn in J. repeat (destruct J as [<-|J]; [discriminate SC|]). exact J. }
    cbn [assoc]. repeat (match goal with |- context [String.eqb ?s ?t] => destruct (String.eqb_spec s t) as [E|_]; [exfalso; apply (N t); [cbn; auto 10|exact E]|] end). reflexivity.
  - intros z. destruct z as [|p|p]; [reflexivity| |reflexivity]. cbn [Z.ltb Z.compare Z.to_nat].
    assert (G : p = 1%positive \/ p = 2%positive \/ p = 3%positive \/ (4 <= Pos.to_nat p)%nat) by lia.
    destruct G as [->|[->|[->|G]]]; try reflexivity. rewrite (proj2 (nth_error_None _ _)) by exact G. unfold backend_of.
    destruct p as [q|q|]; [destruct q; try reflexivity; lia|destruct q; try reflexivity; lia|lia].
Qed.
Print Assumptions C69_unknown_is_default.
Print Assumptions C69_names_and_numbers.
Example C69_case : ~ In "XML" kinds /\ scan_dec "XML" = None /\
  option_map (fun c => backend_of (fst (c_out c))) (conf_of (Elem "c" [] [Elem "common_out_files" [("file_type", "XML")] []])) = Some (Some B_xml_attrib) /\
  option_map (fun c => backend_of (fst (c_out c))) (conf_of (Elem "c" [] [Elem "common_out_files" [("file_type", "3abc")] []])) = Some (Some B_n_ini) /\
  option_map (fun c => backend_of (fst (c_out c))) (conf_of (Elem "c" [] [Elem "common_out_files" [("file_type", "json")] []])) = Some None.
Proof. repeat split; try reflexivity. intros H. cbn in H. intuition discriminate. Qed.

(** *** C70.  Run on its own declarations, the program writes its own sources. *)
(** What the program knows after reading a header. *)
Definition items_of (cs : bytes) : info :=
  match process_input_file (Some cs) (Heap info0 info0) with Some (h, _, _) => find_top (fst (fixup (h_self h))) | None => info0 end.
Lemma header_files E argv0 a rest p cs info : usual_sep E -> stfx_info (e_stamp E) = Some info -> e_exists E a = true -> e_canonical E a = Some p ->
  extension E p <> ".stfx" -> e_disk E p = Some cs -> good_input (Some cs) ->
  let out n := join E (parent E p) n in
  (forall q, In q [out "enums" ++ ".cpp"; out "enums" ++ ".h"; out "structs" ++ ".cpp"; out "structs" ++ ".h"]%string -> e_write E q = true) ->
  let ce := enum_files (items_of cs) [file_name E p] "enums.cpp" "enums.h" info in
  let cf := fst (struct_files B_xml_attrib (items_of cs) [file_name E p] single_spec "structs.cpp" "structs.h" info) in
  exists w, stfx E argv0 (a :: rest) = Go 0%Z w /\
  Cpp.assoc (out "enums" ++ ".cpp")%string (w_files w) = render T_cpp ce /\ Cpp.assoc (out "enums" ++ ".h")%string (w_files w) = render T_h ce /\
  Cpp.assoc (out "structs" ++ ".cpp")%string (w_files w) = render T_cpp cf /\ Cpp.assoc (out "structs" ++ ".h")%string (w_files w) = render T_h cf.
Proof.
  intros U SI EX EC EXT DK GI out WR ce cf. unfold ce, cf, items_of.
  assert (SL : forall c, In c (list_ascii_of_string "enums.cpp") \/ In c (list_ascii_of_string "structs.h") -> is_sep E c = false).
  { intros c [H|H]; cbn in H; apply (usual_letters E c U); intuition (subst; discriminate). }
  assert (NE : names_file E "enums" = true) by (unfold names_file; cbn [last_chr]; now rewrite SL by (cbn; auto 10)).
  assert (NS : names_file E "structs" = true) by (unfold names_file; cbn [last_chr]; now rewrite SL by (cbn; auto 10)).
  assert (NEQ : join E (parent E p) "enums" <> join E (parent E p) "structs").
  { intros H. apply join_inj in H; [discriminate| |]; cbn [absolute]; apply SL; cbn; auto 10. }
  assert (FNN : forall n e, (forall c, In c (list_ascii_of_string n) \/ In c (list_ascii_of_string e) -> is_sep E c = false) -> file_name E (join E (parent E p) n ++ e) = (n ++ e)%string).
  { intros n e HE.
    assert (ex : forall s, (forall c, In c (list_ascii_of_string s) -> is_sep E c = false) -> existsb (is_sep E) (list_ascii_of_string s) = false).
    { intros s J. destruct (existsb _ _) eqn:X; [|reflexivity]. apply existsb_exists in X as (c & I & S). rewrite (J c I) in S. discriminate. }
    rewrite file_name_app by (apply ex; auto). rewrite file_name_join. f_equal. change n with ("" ++ n)%string at 1. rewrite file_name_app by (apply ex; auto). reflexivity. }
  unfold stfx. rewrite start_say, EX, EC. apply ext_case in EXT as ->.
  unfold process_single_header. destruct (input_file_run E p false (Heap info0 info0) (w_first E) R_start) as (h & r & l & -> & R & G & m & P).
  assert (CT : Main.content E p (w_first E) = Some cs) by exact DK. rewrite CT in P, G. rewrite P. apply G in GI as ->.
  rewrite say_good by reflexivity.
  match goal with |- context [process_items E B_xml_attrib ?base ?i ?inp ?o ?w0] =>
    destruct (written E B_xml_attrib base i inp o w0 info (parent E p) U SI eq_refl) as (w' & -> & W1 & W2) end.
  rewrite say_good by reflexivity.
  match goal with |- context [say _ _ ?w0] => destruct (final_say 0 w0) as (w'' & -> & F) end.
  exists w''. split; [reflexivity|]. rewrite !F. cbn [w_files].
  cbn [single_spec o_enum_file o_structs_file] in W1, W2. fold single_spec in W2. unfold out in *.
  destruct W1 as [E1 E2]; [reflexivity|exact NE|apply WR; cbn; auto 10|apply WR; cbn; auto 10|right; auto|].
  destruct W2 as [E3 E4]; [reflexivity|exact NS|apply WR; cbn; auto 10|apply WR; cbn; auto 10|].
  rewrite (FNN "enums" ".cpp"), (FNN "enums" ".h") in E1, E2 by (intros c I; apply SL; cbn in I |- *; intuition auto 10).
  rewrite (FNN "structs" ".cpp"), (FNN "structs" ".h") in E3, E4 by (intros c I; apply SL; cbn in I |- *; intuition auto 10).
  auto.
Qed.
Lemma conf_good : good_input (Some conf_text).
Proof.
  pose proof conf_text_of as T. revert T. generalize conf_text. intros cs T.
  destruct (built_files [] info0 info0 [cs] [conf_defs] false built_start R_start) as (h & m & PR & _); [constructor; [exact T|constructor]|exact (names_nodup _ _ _ conf_names)|].
  destruct (input_result (Some cs) false (Heap info0 info0) R_start) as (h' & r & m' & P & _ & G). apply G. cbn [map process_input_files] in PR. rewrite P in PR. apply some_eq in PR. apply (f_equal (fun q => snd (fst q))) in PR. cbn in PR. destruct r; [reflexivity|discriminate].
Qed.
Lemma four_eq {A} (a b c d a' b' c' d' : A) : [a; b; c; d] = [a'; b'; c'; d'] -> a = a' /\ b = b' /\ c = c' /\ d = d'.
Proof. intros [= -> -> -> ->]. auto. Qed.
Lemma own_items : items_of conf_text = cfg_items.
Proof. unfold items_of, cfg_items, conf_text. reflexivity. Qed.
Theorem C70_bootstrap : forall E argv0 a rest p, usual_sep E -> e_stamp E = stamp0 -> e_exists E a = true -> e_canonical E a = Some p ->
  file_name E p = "config_data.h" -> e_disk E p = Some (list_ascii_of_string shipped_config_data_h) ->
  let out n := join E (parent E p) n in
  (forall q, In q [out "enums" ++ ".cpp"; out "enums" ++ ".h"; out "structs" ++ ".cpp"; out "structs" ++ ".h"]%string -> e_write E q = true) ->
  exists w, stfx E argv0 (a :: rest) = Go 0%Z w /\
  Cpp.assoc (out "enums" ++ ".cpp")%string (w_files w) = Some shipped_enums_cpp /\ Cpp.assoc (out "enums" ++ ".h")%string (w_files w) = Some shipped_enums_h /\
  Cpp.assoc (out "structs" ++ ".cpp")%string (w_files w) = Some shipped_structs_cpp /\ Cpp.assoc (out "structs" ++ ".h")%string (w_files w) = Some shipped_structs_h.
Proof.
  intros E argv0 a rest p U ST EX EC FN DK out WR.
  assert (SI : stfx_info (e_stamp E) = Some info_text) by (rewrite ST; vm_compute; reflexivity).
  assert (EXT : extension E p <> ".stfx") by (unfold extension; rewrite FN; vm_compute; discriminate).
  change (e_disk E p = Some conf_text) in DK. pose proof (header_files E argv0 a rest p conf_text info_text U SI EX EC EXT DK conf_good WR) as H. cbv zeta in H. rewrite FN in H. rewrite own_items in H. change single_spec with out0 in H.
  pose proof shipped_files as SF. unfold enum_cmds, struct_cmds in SF. apply four_eq in SF as (S0 & S1 & S2 & S3). rewrite S0, S1, S2, S3 in H. exact H.
Qed.
Print Assumptions C70_bootstrap.
Definition boot_env : env :=
  Env stamp0 "/" (fun _ => true) Some (fun _ => true)
      (fun p => option_map list_ascii_of_string (Cpp.assoc p [("/d/config_data.h", shipped_config_data_h)]))
      (fun _ => true) (conf_file cL) zdec.
Example C70_case : usual_sep boot_env /\ e_stamp boot_env = stamp0 /\ e_exists boot_env "/d/config_data.h" = true /\ e_canonical boot_env "/d/config_data.h" = Some "/d/config_data.h" /\
  file_name boot_env "/d/config_data.h" = "config_data.h" /\ e_disk boot_env "/d/config_data.h" = Some (list_ascii_of_string shipped_config_data_h) /\
  parent boot_env "/d/config_data.h" = "/d" /\ (forall q, e_write boot_env q = true).
Proof. split; [now left|]. repeat split. Qed.

(** *** C71.  Configurations survive writing and reading. *)
(** [vconf c]: the object of type config that main takes as [c] (the first conjunct).
    [reload x]: [x] as it is after saving and parsing; C34 is about [reload]. *)
Theorem C71_round_trip : forall L, conf_lang L -> forall dl c, conf_ok c -> conf_fine c ->
  conf_in (VStruct "config" (vconf c)) = Some c /\
  exists x, file_writes B_xml_attrib cen css out0 L dl "config" (vconf c) (Some [x]) /\ conf_of (reload x) = Some c.
Proof. intros L C dl c OK FI. split; [exact (conf_in_ok c OK)|exact (conf_round L C dl c OK FI)]. Qed.
(** The program text of the statement is the shipped one. *)
Theorem C71_program : shipped_prog = Some (prog B_xml_attrib cen css out0).
Proof. exact (proj2 conf_shipped). Qed.
Print Assumptions C71_round_trip.
Print Assumptions C71_program.
Example C71_case : conf_ok test_conf /\ conf_fine test_conf.
Proof.
  split; [split; [reflexivity|repeat constructor]|]. split.
  - intros s I. vm_compute in I. repeat (destruct I as [<-|I]; [split; reflexivity|]). contradiction.
  - intros z I. vm_compute in I. repeat (destruct I as [<-|I]; [reflexivity|]). contradiction.
Qed.

(** *** C72.  Attributes and elements that configurations do not have are ignored. *)
Theorem C72_unknown_ignored : forall L, conf_lang L -> forall x y, more L "config" x y -> conf_of x = conf_of y.
Proof.
  intros L C x y M. pose proof (proj1 (more_same B_xml_attrib Attributes cen css out0 conf_defs L (conf_setting L C)) _ x y M (vconf conf0)) as H.
  rewrite !(conf_read_ok L C) in H. destruct (conf_of x) as [c|] eqn:X, (conf_of y) as [d|] eqn:Y; cbn [option_map] in H; try discriminate; [|reflexivity].
  apply some_eq in H. f_equal. apply vconf_inj; [exact (conf_of_ok _ _ X)|exact (conf_of_ok _ _ Y)|exact H].
Qed.
Print Assumptions C72_unknown_ignored.
Example C72_case : more cL "config" (Elem "config" [] [Elem "common_out_files" [("enum_file", "e")] []])
  (Elem "config" [("author", "x")] [Elem "comment" [] []; Elem "common_out_files" [("colour", "red"); ("enum_file", "e")] [Text "t"]; Text "u"]).
Proof.
  eapply mo; [reflexivity|apply ma_new; [cbn; intuition discriminate|constructor]|].
  apply mk_new; [intros n I; cbn in I; intros (a & k & H); injection H as <- _ _; repeat (destruct I as [I|I]; [discriminate|]); contradiction|].
  apply (mk_struct cL _ (MUser "output_spec" "common_out_files" NoDefault) "output_spec"); [cbn; auto|reflexivity| |].
  - eapply mo; [reflexivity|apply ma_new; [cbn; intuition discriminate|apply ma_same; constructor]|]. apply mk_new; [intros n I (u & v & H); discriminate|constructor].
  - apply mk_new; [intros n I (u & v & H); discriminate|constructor].
Qed.
