(** The item store over files: items.cpp:48-68 process_input_file, and the copy of
    the common items made for each non-common section (main.cpp:179). *)
From Coq Require Import String Ascii ZArith NArith Arith List Bool Lia.
From Verif Require Import Base Map Flex Items Bison.
Import ListNotations.
Local Open Scope string_scope.
Local Open Scope list_scope.

(** What appears on the terminal while a file is read, in order: whether it could be
    opened, what the scanner prints, the messages of the store, the message of the
    parser. *)
Inductive said := SOpen (ok : bool) | SLex (e : event) | SMsg (s : string) | SErr (s : string).
Definition messages (m : list said) : list string :=
  flat_map (fun x => match x with SMsg s => [s] | _ => [] end) m.

(** The callbacks a parser run makes, executed on the store in order. *)
Fixpoint run_outs (o : list out) (h : heap) : option (heap * list said) :=
  match o with
  | [] => Some (h, [])
  | OLex e :: o' => let? (h', m) := run_outs o' h in Some (h', SLex e :: m)
  | OErr s :: o' => let? (h', m) := run_outs o' h in Some (h', SErr s :: m)
  | OCall c :: o' =>
      let? (h1, _, m1) := apply_call c h in
      let? (h', m) := run_outs o' h1 in Some (h', map SMsg m1 ++ m)
  end.

Definition set_rv (i : info) (rv : Z) : info :=
  Info (i_structs i) (i_enums i) (i_cur_struct i) (i_cur_enum i) rv.

(** items.cpp:48-68.  [None]: the file cannot be opened for reading; otherwise its
    bytes as the stream delivers them.  The fuel is sufficient (C12). *)
Definition process_input_file (file : option bytes) (h : heap) : option (heap * bool * list said) :=
  match file with
  | None => Some (h, false, [SOpen false])
  | Some cs =>
      let? (o, rv) := parse_bytes (8 * length cs + 11) cs in
      let? (h', m) := run_outs o h in
      Some (Heap (set_rv (h_self h') rv) (h_common h'), Z.eqb rv 0, SOpen true :: m)
  end.

Fixpoint process_input_files (files : list (option bytes)) (h : heap) : option (heap * list bool * list said) :=
  match files with
  | [] => Some (h, [], [])
  | f :: fs =>
      let? (h1, b, m) := process_input_file f h in
      let? (h2, bs, ms) := process_input_files fs h1 in
      Some (h2, b :: bs, m ++ ms)
  end.

(** main.cpp:179 info_items_C plus_items(common_items): the implicit copy
    constructor copies the maps and the two raw pointers, which still point into the
    common object. *)
Definition rehome (p : option (home * string)) : option (home * string) :=
  match p with None => None | Some (_, n) => Some (HCommon, n) end.
Definition copy_info (c : info) : info :=
  Info (i_structs c) (i_enums c) (rehome (i_cur_struct c)) (rehome (i_cur_enum c)) (i_parse_rv c).
