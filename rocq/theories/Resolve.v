(** Type resolution and search for the top structs: creation/process_items.cpp:229-274. *)
From Coq Require Import String Ascii ZArith NArith Arith List Bool Lia.
From Verif Require Import Base Map Items.
Import ListNotations.
Local Open Scope list_scope.

(** process_items.cpp:239-244, one member: its new form and whether it is now unknown.
    The names declared do not change during the loop, so the lookups are made in the
    store as it is before the loop. *)
Definition fix_member (i : info) (c : struct_complex) : struct_complex :=
  match sc_type c with
  | enum_or_struct_E => Complex (get_item_type i (sc_tname c)) (sc_tname c) (sc_name c)
  | _ => c
  end.
Definition fix_fails (i : info) (c : struct_complex) : bool :=
  match sc_type c with
  | enum_or_struct_E => match get_item_type i (sc_tname c) with unknown_E => true | _ => false end
  | _ => false
  end.

Definition fix_struct (i : info) (s : struct_S) : struct_S :=
  StructS (s_name s) (s_simple s) (map (fix_member i) (s_complex s)) (s_incoming s).

(** process_items.cpp:230-248 fixup_types_of_names *)
Definition fixup (i : info) : info * bool :=
  (set_structs i (map (fun p => (fst p, fix_struct i (snd p))) (i_structs i)),
   negb (existsb (fun p => existsb (fix_fails i) (s_complex (snd p))) (i_structs i))).

(** process_items.cpp:259-270 *)
Definition count_member (m : smap struct_S) (c : struct_complex) : smap struct_S :=
  match sc_type c with
  | vector_E | struct_E =>
      mupd (sc_tname c) (fun s => StructS (s_name s) (s_simple s) (s_complex s) (S (s_incoming s))) m
  | _ => m
  end.

(** process_items.cpp:250-274 find_top_struct.  Only the counters change during the
    loop, so the members visited are those of the store before the loop.  (The source
    binds a non-const reference to the iterator returned by find, an extension of the
    Microsoft compiler.) *)
Definition find_top (i : info) : info :=
  set_structs i (fold_left count_member (flat_map (fun p => s_complex (snd p)) (i_structs i)) (i_structs i)).
