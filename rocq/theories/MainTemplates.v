(** The messages of main.cpp (mn) and items.cpp (it), extracted from the sources by
    tools/templates.py: one definition per call, named after file and line. *)
From Coq Require Import String List.
From Verif Require Import Fmt.
Import ListNotations.
Local Open Scope string_scope.

(** *** main.cpp *)

(* println stdout [app_timestamp] *)
Definition mn_24 : template := Eval vm_compute in compile
 "{}".
(* println stdout [argv[0]] *)
Definition mn_28 : template := Eval vm_compute in compile
 "{} <filename> :\n\nProgram that creates code that performs the translation of Structs To/From Xml file\n\n<filename> is <inputheader> headerfile or <setup>.stfx stfx configuration file.\n<filename> parameter must be given".
(* println stdout [argv[0], in_path.string()] *)
Definition mn_38 : template := Eval vm_compute in compile
 "{} <filename> :\n\nProgram that creates code that performs the translation of Structs To/From Xml file\n\n<filename> is <inputheader> headerfile or <setup>.stfx stfx configuration file.\n<filename> parameter must be given\n<filename> '{}' does NOT exist".
(* println stdout [rv] *)
Definition mn_58 : template := Eval vm_compute in compile
 "\nProcessing successful. Returning {} to caller".
(* println stdout [rv] *)
Definition mn_62 : template := Eval vm_compute in compile
 "\nProcessing failed. Returning {} to caller".
(* println stdout [in_path.string()] *)
Definition mn_78 : template := Eval vm_compute in compile
 "Successfully parsed file:\t{}".
(* println stdout [ok] *)
Definition mn_88 : template := Eval vm_compute in compile
 "Processing items done. Success = {}".
(* println stdout [in_path.string(), rv] *)
Definition mn_92 : template := Eval vm_compute in compile
 "Failed to correctly parse '{}' code {}".
(* println stdout [in_file.string()] *)
Definition mn_110 : template := Eval vm_compute in compile
 "failed to process {}".
(* println stdout [path.string()] *)
Definition mn_128 : template := Eval vm_compute in compile
 "Successfully parsed file:\t{}".
(* println stdout [path.string()] *)
Definition mn_132 : template := Eval vm_compute in compile
 "ERROR : failed to process {}".
(* println stdout [] *)
Definition mn_137 : template := Eval vm_compute in compile
 "".
(* println stdout [common_output_files.file_type] *)
Definition mn_172 : template := Eval vm_compute in compile
 "ERROR : output type {} not currently supported".
(* println stdout [path.string()] *)
Definition mn_189 : template := Eval vm_compute in compile
 "Successfully parsed file:\t{}".
(* println stdout [path.string()] *)
Definition mn_193 : template := Eval vm_compute in compile
 "ERROR : failed to process {}".
(* println stdout [common_output_files.file_type] *)
Definition mn_230 : template := Eval vm_compute in compile
 "ERROR : output type {} not currently supported".

(** *** items.cpp *)

(* println stdout [in_path.string()] *)
Definition it_56 : template := Eval vm_compute in compile
 "ERROR: could not open file for reading: {}\n".
(* println stdout [in_path.string()] *)
Definition it_59 : template := Eval vm_compute in compile
 "\nFile opened for input:\t\t{}".
(* println stdout [name] *)
Definition it_78 : template := Eval vm_compute in compile
 "ERROR process_enum : name '{} already in use".
(* println stdout [name] *)
Definition it_115 : template := Eval vm_compute in compile
 "ERROR process_struct : name '{} already in use".

