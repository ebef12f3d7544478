(** Property theorems about the generated enum conversions: C29, C30. *)
From Coq Require Import String Ascii ZArith NArith Arith List Bool Lia.
From Verif Require Import Base Map Items Grammar ParseLang Fmt Decimal Templates Emit Main Cpp Xml Val CppSem SymLex Ast Store Resolve StoreDefs ResolveProps Prog Header EnumSem EnumCall EnumRound Link.
Import ListNotations.
Local Open Scope string_scope.
Local Open Scope list_scope.

(** The programs the theorems speak about: those generated from the definitions [ds]
    (C54: the text of the source files reads back as [prog]).  There is one for every
    acceptable header. *)
Theorem C29_programs_exist : forall rd wr ds, header_ok rd wr ds = true -> exists enums ss, linked ds enums ss.
Proof.
  intros rd wr ds OK. pose proof (names_nodup _ _ _ OK) as N. pose proof (built_add [] ds info0 built_start N) as B.
  do 2 eexists. exact (built_linked ds _ B N).
Qed.

(** *** C29.  [can_hold]: values with an enumerator, and ints the enumeration has room for;
    [has_name]: has an enumerator; [l]: the variable that is set. *)
Theorem C29_enum_text_enum : forall b enums ss o ds L, setting b enums ss o ds L ->
  forall c n es t, In (DefEnum c n es t) ds ->
  forall lv l old z f f' wf s s', can_hold L n es z -> get_lv l s = Some old -> ty_of old = TEnum n -> put_lv l (VEnum n z) s = Some s' ->
    exists x, call_fun L (prog b enums ss o) wf (S f) ["stfx"; "s_from_e"] [(lv, VEnum n z)] s = Ok (VStr x) s /\
    call_fun L (prog b enums ss o) wf (S f') ["stfx"; "s_to_e"] [(None, VStr x); (Some l, old)] s = Ok (vbool (has_name L es z)) s'.
Proof. exact round. Qed.
(** The text: the first enumerator with the value, else the decimal number. *)
Theorem C29_text : forall b enums ss o ds L, setting b enums ss o ds L -> forall wf c n es t, In (DefEnum c n es t) ds ->
  forall lv z f s, call_fun L (prog b enums ss o) wf (S f) ["stfx"; "s_from_e"] [(lv, VEnum n z)] s =
    Ok (VStr (enum_text (enum_values L 0 es) z)) s.
Proof. exact call_from. Qed.
Print Assumptions C29_enum_text_enum.

(** *** C30.  [scan_dec]: the number at the start of the text, behind blanks and a sign. *)
Theorem C30_unknown_text : forall b enums ss o ds L, setting b enums ss o ds L ->
  forall c n es t, In (DefEnum c n es t) ds ->
  forall lv v x l old f wf s, text_arg v x -> ~ In x (map en_name es) -> get_lv l s = Some old -> ty_of old = TEnum n ->
    let r := call_fun L (prog b enums ss o) wf (S f) ["stfx"; "s_to_e"] [(lv, v); (Some l, old)] s in
    match scan_dec x with
    | None => r = Ok (vbool false) s
    | Some z => if in_int z then if enum_holds L n z then forall s', put_lv l (VEnum n z) s = Some s' -> r = Ok (vbool false) s'
                                 else r = UB
                else r = Ok (vbool false) s
    end.
Proof. exact unknown_text. Qed.
Theorem C30_known_text : forall b enums ss o ds L, setting b enums ss o ds L ->
  forall c n es t, In (DefEnum c n es t) ds ->
  forall lv v x z l old f wf s s', text_arg v x -> In (x, z) (enum_values L 0 es) -> get_lv l s = Some old -> ty_of old = TEnum n ->
    put_lv l (VEnum n z) s = Some s' ->
    call_fun L (prog b enums ss o) wf (S f) ["stfx"; "s_to_e"] [(lv, v); (Some l, old)] s = Ok (vbool true) s'.
Proof. exact known_text. Qed.
(** Every int is stored by an enum class. *)
Theorem C30_class_enums_hold_ints : forall b enums ss o ds L, setting b enums ss o ds L ->
  forall c n es t, In (DefEnum c n es t) ds -> forall z, c = true -> enum_holds L n z = in_int z.
Proof. exact class_holds. Qed.
Print Assumptions C30_unknown_text.

(** A header with both kinds of enumeration; a and d of [en] are the same value. *)
Definition edefs : list def :=
  [DefEnum true "en" [Entry "a" (Some (CInt "3")); Entry "b" None; Entry "d" (Some (CInt "3"))] false;
   DefEnum false "u" [Entry "p" None; Entry "q" None; Entry "r" None] false].
Definition eL : lang := Lang edefs 64 (fun t _ => VUndef t) (fun c => match c with CInt "3" => 3%Z | _ => 0%Z end) (fun _ => 0%Z)
  (fun _ => Z.eqb) (fun _ _ => "") (fun _ _ => None) (fun _ _ => "") (fun _ _ => None) (fun _ => None) (fun _ => false).
Definition eP : list fdef := flat_map enum_funs [enum_of true "en" [Entry "a" (Some (CInt "3")); Entry "b" None; Entry "d" (Some (CInt "3"))];
                                                 enum_of false "u" [Entry "p" None; Entry "q" None; Entry "r" None]].
Definition var (v : val) : st := St [[("v", v)]] (Text "") [] (World [] None None).
Definition to_e (v : val) (x : string) : res val := call_fun eL eP 9 9 ["stfx"; "s_to_e"] [(None, VStr x); (Some (LV false "v" []), v)] (var v).
Definition from_e (v : val) : res val := call_fun eL eP 9 9 ["stfx"; "s_from_e"] [(None, v)] (var v).
Example C29_case : header_ok (o_reader single_spec) (o_writer single_spec) edefs = true /\
  from_e (VEnum "en" 3) = Ok (VStr "a"%string) (var (VEnum "en" 3)) /\ from_e (VEnum "en" 4) = Ok (VStr "b") (var (VEnum "en" 4)) /\
  from_e (VEnum "en" (-7)) = Ok (VStr "-7") (var (VEnum "en" (-7))) /\
  to_e (VEnum "en" 0) "a" = Ok (vbool true) (var (VEnum "en" 3)) /\
  to_e (VEnum "en" 0) "-7" = Ok (vbool false) (var (VEnum "en" (-7))).
Proof. repeat split; vm_compute; reflexivity. Qed.
Example C30_case :
  to_e (VEnum "en" 0) "nix" = Ok (vbool false) (var (VEnum "en" 0)) /\
  to_e (VEnum "en" 0) " +12ab" = Ok (vbool false) (var (VEnum "en" 12)) /\
  to_e (VEnum "en" 0) "99999999999" = Ok (vbool false) (var (VEnum "en" 0)) /\
  (* u has room for 0 to 3 only *)
  to_e (VEnum "u" 0) "3" = Ok (vbool false) (var (VEnum "u" 3)) /\ to_e (VEnum "u" 0) "4" = UB.
Proof. repeat split; vm_compute; reflexivity. Qed.
