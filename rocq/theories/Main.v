(** The program: main.cpp and the parts of process_items.cpp, process_items_xml.cpp and
    process_items_ini.cpp that deal with files.

    What the program text does not fix is in [env]: the disk before the run, what the
    file system answers, the build time stamp.  Answers of the file system are taken to
    be the same throughout a run.  Paths are texts: the elements are separated by '/' (or
    the preferred separator of the system); drive letters are not modelled.  Line end
    translation of files opened in text mode is not modelled.  [Stop] is the end of the
    program by an exception that nothing catches or by a null pointer. *)
From Coq Require Import String Ascii ZArith NArith Arith List Bool Lia.
From Verif Require Import Base Map Flex Items Bison Store Resolve Fmt Decimal Templates MainTemplates Emit Val.
Import ListNotations.
Local Open Scope string_scope.
Local Open Scope list_scope.

(** What the configuration file says: configuration/config_data.h:31-54.  The kind of
    file is the number stored in file_type. *)
Record conf := Conf { c_in : list string; c_out : Z * output_spec; c_non : list (list string * (Z * output_spec)) }.
(** reader.read_from_file (main.cpp:107): fails, gives the data, or does not return. *)
Inductive conf_read := CFail | CRead (c : conf) | CStop.

Record env := Env {
  e_stamp : string;                       (* app_timestamp *)
  e_sep : ascii;                          (* preferred separator *)
  e_exists : string -> bool;              (* std::filesystem::exists *)
  e_canonical : string -> option string;  (* canonical; [None]: throws *)
  e_mkdirs : string -> bool;              (* create_directories; false: throws *)
  e_disk : string -> option bytes;        (* files that can be opened, before the run *)
  e_write : string -> bool;               (* fopen(.., "w") succeeds *)
  e_conf : option bytes -> conf_read;     (* the configuration reader, on the content of the file *)
  e_type_name : Z -> string               (* text of a serialization_type_E *)
}.

(** *** std::filesystem::path *)
Definition is_sep (E : env) (c : ascii) : bool := ((c =? "/") || (c =? e_sep E))%char%bool.
Definition absolute (E : env) (p : string) : bool := match p with String c _ => is_sep E c | "" => false end.
Fixpoint last_chr (s : string) : option ascii :=
  match s with "" => None | String c "" => Some c | String _ r => last_chr r end.
(** operator /= *)
Definition join (E : env) (p q : string) : string :=
  if absolute E q then q
  else match last_chr p with
       | None => q
       | Some c => if is_sep E c then (p ++ q)%string else (p ++ String (e_sep E) q)%string
       end.
(** What is behind, and before, the last separator. *)
Fixpoint file_name (E : env) (p : string) : string :=
  match p with
  | "" => ""
  | String c r => if existsb (is_sep E) (list_ascii_of_string r) then file_name E r
                  else if is_sep E c then r else p
  end.
Fixpoint before_name (E : env) (p : string) : string :=
  match p with
  | "" => ""
  | String c r => if existsb (is_sep E) (list_ascii_of_string r) then String c (before_name E r) else ""
  end.
(** parent_path; that of a name in the root directory is the root directory. *)
Definition parent (E : env) (p : string) : string :=
  match before_name E p, p with
  | "", String c _ => if is_sep E c then String c "" else ""
  | q, _ => q
  end.
(** The last '.' of a file name, unless it is in front: what is before it, and from it on. *)
Fixpoint split_ext (s : string) : option (string * string) :=
  match s with
  | "" => None
  | String c r =>
      match split_ext r with
      | Some (a, b) => Some (String c a, b)
      | None => if (c =? ".")%char then Some ("", s) else None
      end
  end.
Definition extension (E : env) (p : string) : string :=
  match split_ext (file_name E p) with
  | Some ("", _) | None => ""
  | Some (_, x) => if String.eqb (file_name E p) ".." then "" else x
  end.
Definition drop_end (n : nat) (s : string) : string := substring 0 (String.length s - n) s.
(** replace_extension *)
Definition replace_ext (E : env) (p x : string) : string :=
  (drop_end (String.length (extension E p)) p ++ x)%string.

(** *** What a run does: files written, with their content, and lines printed *)
Inductive entry := Line (s : string) | Parser (m : said).
Record world := World { w_files : list (string * string); w_log : list entry }.
Inductive ran (A : Type) := Go (a : A) (w : world) | Stop (w : world).
Arguments Go {A}. Arguments Stop {A}.
Notation "'run' ( x , w ) <- e ; k" := (match e with Go x w => k | Stop w' => Stop w' end)
  (at level 200, x pattern, w name, e at level 100, k at level 200).

Definition say (t : template) (args : list string) (w : world) : ran unit :=
  match println t args with
  | Some s => Go tt (World (w_files w) (w_log w ++ [Line s]))
  | None => Stop w
  end.
Definition put_file (p s : string) (w : world) : world := World (set_assoc p s (w_files w)) (w_log w).
(** A file opened for reading: what the run has written, else what was there. *)
Definition content (E : env) (p : string) (w : world) : option bytes :=
  match Cpp.assoc p (w_files w) with
  | Some s => Some (list_ascii_of_string s)
  | None => e_disk E p
  end.

Section Run.
Variable E : env.

(** The lines printed while the files are open. *)
Definition write_all (cs : list cmd) (cpp h : string) (w : world) : ran unit :=
  match render T_cpp cs, render T_h cs, render T_out cs with
  | Some a, Some b, Some c =>
      let w := put_file h b (put_file cpp a w) in
      Go tt (World (w_files w) (w_log w ++ [Line c]))
  | _, _, _ => Stop w
  end.

(** process_items.cpp:59-67, process_items_xml.cpp:20-28, process_items_ini.cpp:20-28 *)
Definition out_dir (base : string) (o : output_spec) (w : world) : ran string :=
  if String.eqb (o_dir o) "" then Go base w
  else
    let p := join E base (o_dir o) in
    if e_mkdirs E p then match e_canonical E p with Some q => Go q w | None => Stop w end else Stop w.
Definition cpp_path (dir name : string) : string := join E dir (name ++ ".cpp").
Definition h_path (dir name : string) : string := replace_ext E (cpp_path dir name) ".h".

(** Opening both files, writing them, and the messages: process_items.cpp:75-137,
    process_items_xml.cpp:38-209, process_items_ini.cpp:38-283.  [ok]: the result if both
    files could be opened, [fail]: if not. *)
Definition open_both (cpp h : string) (t_cpp t_h f_h f_cpp : template) (cs : list cmd) (ok fail : bool) (w : world) : ran bool :=
  if e_write E cpp then
    let w := put_file cpp "" w in
    run (_, w) <- say t_cpp [cpp] w;
    if e_write E h then
      let w := put_file h "" w in
      run (_, w) <- say t_h [h] w;
      run (_, w) <- write_all cs cpp h w;
      Go ok w
    else run (_, w) <- say f_h [file_name E h] w; Go fail w
  else run (_, w) <- say f_cpp [file_name E cpp] w; Go fail w.

(** process_items.cpp:56-138 *)
Definition process_all_enums (base info : string) (i : Items.info) (inputs : list string) (o : output_spec) (w : world) : ran bool :=
  run (dir, w) <- out_dir base o w;
  let cpp := cpp_path dir (o_enum_file o) in
  let h := h_path dir (o_enum_file o) in
  open_both cpp h pi_79 pi_84 pi_129 pi_135
    (enum_files i inputs (file_name E cpp) (file_name E h) info) true true w.
(** process_items_xml.cpp:17-210, process_items_ini.cpp:17-284 *)
Definition process_all_structs (b : backend) (base info : string) (i : Items.info) (inputs : list string) (o : output_spec) (w : world) : ran bool :=
  run (dir, w) <- out_dir base o w;
  let cpp := cpp_path dir (o_structs_file o) in
  let h := h_path dir (o_structs_file o) in
  let t := templates_of b in
  let f := struct_files b i inputs o (file_name E cpp) (file_name E h) info in
  open_both cpp h (t_opened_cpp t) (t_opened_h t) (t_fail_h t) (t_fail_cpp t) (fst f) (snd f) false w.

(** process_items.cpp:17-53 *)
Definition process_items (b : backend) (base : string) (i : info) (inputs : list string) (o : output_spec) (w : world) : ran (info * bool) :=
  match stfx_info (e_stamp E) with
  | None => Stop w
  | Some info =>
      run (_, w) <- say pi_32 [] w;
      let (i1, r1) := fixup i in
      let i2 := find_top i1 in
      run (r2, w) <- (if skipped (o_enum_file o) then run (_, w) <- say pi_38 [] w; Go true w
                      else process_all_enums base info i2 inputs o w);
      run (r3, w) <- (if skipped (o_structs_file o) then run (_, w) <- say pi_46 [] w; Go true w
                      else process_all_structs b base info i2 inputs o w);
      Go (i2, r1 && r2 && r3)%bool w
  end.

(** items.cpp:48-68, with its messages *)
Definition log_said (p : string) (m : said) : option entry :=
  match m with
  | SOpen ok => let? s := println (if ok then it_59 else it_56) [p] in Some (Line s)
  | _ => Some (Parser m)
  end.
Fixpoint log_all (p : string) (ms : list said) : option (list entry) :=
  match ms with
  | [] => Some []
  | m :: r => let? x := log_said p m in let? l := log_all p r in Some (x :: l)
  end.
Definition input_file (p : string) (h : heap) (w : world) : ran (heap * bool) :=
  match process_input_file (content E p w) h with
  | None => Stop w
  | Some (h', ok, m) =>
      match log_all p m with
      | Some l => Go (h', ok) (World (w_files w) (w_log w ++ l))
      | None => Stop w
      end
  end.

(** output_spec output; (main.cpp:81) and config_data.h:20-30 *)
Definition single_spec : output_spec :=
  OutputSpec "" "enums" "structs" "xml_reader_C" "xml_writer_C" ft_xml_attrib false false.
Definition bool_text (b : bool) : string := if b then "true" else "false".

(** main.cpp:67-97.  The [ok] of line 77 is another variable. *)
Definition process_single_header (p : string) (w : world) : ran Z :=
  run ((h, ok), w) <- input_file p (Heap info0 info0) w;
  run (_, w) <-
    (if ok : bool then
       run (_, w) <- say mn_78 [p] w;
       run ((_, inner), w) <- process_items B_xml_attrib (parent E p) (h_self h) [file_name E p] single_spec w;
       say mn_88 [bool_text inner] w
     else say mn_92 [p; zdec (i_parse_rv (h_self h))] w);
  Go (if ok then 0%Z else 1%Z) w.

(** main.cpp:140-174, 198-232: the switch on the kind of file. *)
Definition backend_of (t : Z) : option backend :=
  match t with
  | 0 => Some B_xml_attrib | 1 => Some B_xml | 2 => Some B_ini | 3 => Some B_n_ini | _ => None
  end%Z.
(** [shown]: the kind that is printed if it is not supported (lines 172 and 230 print
    the same variable). *)
Definition output (msg : template) (shown t : Z) (base : string) (i : info) (inputs : list string) (o : output_spec) (w : world) : ran info :=
  match backend_of t with
  | Some b => run ((i, _), w) <- process_items b base i inputs o w; Go i w
  | None => run (_, w) <- say msg [e_type_name E shown] w; Go i w
  end.

(** main.cpp:120-135, 181-196 *)
Fixpoint input_files (base : string) (good bad : template) (fs : list string) (h : heap) (w : world) : ran heap :=
  match fs with
  | [] => Go h w
  | f :: r =>
      let p := join E base f in
      run ((h, ok), w) <- input_file p h w;
      run (_, w) <- say (if ok : bool then good else bad) [p] w;
      input_files base good bad r h w
  end.

(** main.cpp:177-233; [c]: common_items *)
Fixpoint sections (base : string) (common : list string) (shown : Z) (ss : list (list string * (Z * output_spec))) (c : info) (w : world) : ran unit :=
  match ss with
  | [] => Go tt w
  | (fs, (t, o)) :: r =>
      run (h, w) <- input_files base mn_189 mn_193 fs (Heap (copy_info c) c) w;
      run (_, w) <- output mn_230 shown t base (h_self h) (common ++ fs) o w;
      sections base common shown r (h_common h) w
  end.

(** main.cpp:99-238 *)
Definition process_stfx_file (p : string) (w : world) : ran Z :=
  match e_conf E (content E p w) with
  | CStop => Stop w
  | CFail => run (_, w) <- say mn_110 [p] w; Go 1%Z w
  | CRead c =>
      let base := parent E p in
      run (h, w) <- input_files base mn_128 mn_132 (c_in c) (Heap info0 info0) w;
      run (_, w) <- say mn_137 [] w;
      let (t, o) := c_out c in
      run (i, w) <- output mn_172 t t base (h_self h) (c_in c) o w;
      run (_, w) <- sections base (c_in c) t (c_non c) i w;
      Go 0%Z w
  end.

(** main.cpp:20-65 *)
Definition stfx (argv0 : string) (args : list string) : ran Z :=
  run (_, w) <- say mn_24 [e_stamp E] (World [] []);
  match args with
  | [] => run (_, w) <- say mn_28 [argv0] w; Go 1%Z w
  | a :: _ =>
      if e_exists E a then
        match e_canonical E a with
        | None => Stop w
        | Some p =>
            run (rv, w) <- (if String.eqb (extension E p) ".stfx" then process_stfx_file p w else process_single_header p w);
            run (_, w) <- say (if (rv =? 0)%Z then mn_58 else mn_62) [zdec rv] w;
            Go rv w
        end
      else run (_, w) <- say mn_38 [argv0; a] w; Go 1%Z w
  end.
End Run.
