(** Conformance: the model, run on the repository's own header, prints the files that
    the repository contains. *)
From Coq Require Import String Ascii ZArith NArith Arith List Bool Lia.
From Verif Require Import Base Map Items Store Resolve Fmt Templates Emit Shipped.
Import ListNotations.
Local Open Scope string_scope.
Local Open Scope list_scope.

Definition stamp0 := "stfx built at : Jan 29 2025 01:45:46, Software Version : 25.01".
Definition info_text := match stfx_info stamp0 with Some s => s | None => "" end.
Definition out0 := OutputSpec "" "enums" "structs" "xml_reader_C" "xml_writer_C" ft_xml_attrib false false.
Definition cfg_items : info :=
  match process_input_file (Some (list_ascii_of_string shipped_config_data_h)) (Heap info0 info0) with
  | Some (h, _, _) => find_top (fst (fixup (h_self h)))
  | None => info0
  end.

Definition enum_cmds := enum_files cfg_items ["config_data.h"] "enums.cpp" "enums.h" info_text.
Definition struct_cmds := fst (struct_files B_xml_attrib cfg_items ["config_data.h"] out0 "structs.cpp" "structs.h" info_text).

Example shipped_files :
  [render T_cpp enum_cmds; render T_h enum_cmds; render T_cpp struct_cmds; render T_h struct_cmds] =
  [Some shipped_enums_cpp; Some shipped_enums_h; Some shipped_structs_cpp; Some shipped_structs_h].
Proof. vm_compute. reflexivity. Qed.
