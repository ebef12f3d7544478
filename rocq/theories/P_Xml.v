(** Property theorems about the files of the two xml back ends: C31 to C40, C58 to C61. *)
From Coq Require Import String Ascii ZArith NArith Arith List Bool Lia.
From Verif Require Import Base Map Items Grammar ParseLang Fmt Decimal Templates Emit Main Cpp Xml Val CppSem SymLex Ast Store Resolve StoreDefs ResolveProps Prog Header EnumSem EnumCall EnumRound Link
  XmlSpec XmlRdSimple XmlReader XmlCall XmlWriter XmlFile XmlCarry XmlRound XmlProps XmlReadProps XmlThms XmlCase.
Import ListNotations.
Local Open Scope string_scope.
Local Open Scope list_scope.

(** Read in all theorems: [ds]: the definitions of an accepted header, [enums], [ss]: what
    the parser's store holds, [o]: the section of the configuration, [L]: the rest of the
    language and library (values of literals, floating point numbers, other files).
    [xml_setting] says that this fits together; C54 leads from the header's text to it.
    [reads], [file_reads], [file_writes], [writes_reads]: calls of the generated functions
    (XmlThms).  [object L t fs]: [fs] are the members of an object of type [t]. *)

(** *** C31.  [storable L Attributes false v]: all scalars in [v] survive being printed:
    initialised, long fits in int, unsigned long in unsigned int, strings without NUL and
    carriage return, enums with room for the value, floating point numbers that the library
    prints and reads back.  The second condition on [os]: its vectors are empty. *)
Theorem C31_full_round_trip : forall enums ss o ds L, xml_setting B_xml_attrib Attributes enums ss o ds L -> o_only_read o = false ->
  forall dl t fs os, o_no_delta o = true \/ dl = false -> lits_fresh L false -> top_of ss t -> object L t fs -> storable L Attributes false (VStruct t fs) ->
  object L t os -> (forall u l, within (VVec u l) (VStruct t os) -> l = []) -> writes_reads B_xml_attrib enums ss o L dl t fs os (Some fs).
Proof. intros enums ss o ds L X OR. exact (full_round B_xml_attrib Attributes enums ss o ds L X OR ltac:(discriminate)). Qed.
(** New objects qualify as targets. *)
Theorem C31_new_objects : forall bk b enums ss o ds L, xml_setting bk b enums ss o ds L -> lits_fresh L false ->
  forall t os, default_fields L t = Some os -> forall u l, within (VVec u l) (VStruct t os) -> l = [].
Proof. intros bk b enums ss o ds L X LR t os D. exact (proj1 (defaults_fresh bk b enums ss o ds L X false LR t os D)). Qed.

(** *** C32.  [delta]: members with their default value are left out.  [fresh]: vectors are
    empty and scalars have their default value; [lits_fresh]: so do struct members that have
    an initialiser; [alike]: equal, up to floating point numbers that compare equal (0.0 and
    -0.0).  [storable]: short and long types must not be left out. *)
Theorem C32_delta_round_trip : forall enums ss o ds L, xml_setting B_xml_attrib Attributes enums ss o ds L -> o_only_read o = false ->
  forall dl t fs os, let delta := (negb (o_no_delta o) && dl)%bool in
  lits_fresh L delta -> top_of ss t -> object L t fs -> storable L Attributes delta (VStruct t fs) -> object L t os -> fresh L delta (VStruct t os) ->
  exists gs, writes_reads B_xml_attrib enums ss o L dl t fs os (Some gs) /\ alike L delta (VStruct t fs) (VStruct t gs).
Proof. intros enums ss o ds L X OR. exact (delta_round B_xml_attrib Attributes enums ss o ds L X OR ltac:(discriminate)). Qed.
(** A short or long member that is left out, at any depth. *)
Theorem C32_left_out_is_undefined : forall enums ss o ds L, xml_setting B_xml_attrib Attributes enums ss o ds L -> o_only_read o = false ->
  forall t fs os m d x, o_no_delta o = false -> top_of ss t -> object L t fs -> object L t os -> writable L true (VStruct t fs) ->
  scalar_in L (VStruct t fs) m d x -> converted m = true -> scalar_eq L x d = Some true -> writes_reads B_xml_attrib enums ss o L true t fs os None.
Proof. intros enums ss o ds L X OR t fs os m d x ND. exact (left_out_undefined B_xml_attrib Attributes enums ss o ds L X OR ltac:(discriminate) true t fs os m d x eq_refl ND eq_refl). Qed.
Theorem C32_new_objects : forall bk b enums ss o ds L, xml_setting bk b enums ss o ds L -> forall delta, lits_fresh L delta ->
  forall t os, default_fields L t = Some os -> fresh L delta (VStruct t os).
Proof. intros bk b enums ss o ds L X delta. exact (defaults_fresh bk b enums ss o ds L X delta). Qed.

(** *** C33.  [keeps_but_long]: everything else survives.  [fits32]: long values fit in int,
    unsigned long ones in unsigned int. *)
Theorem C33_longs : forall enums ss o ds L, xml_setting B_xml_attrib Attributes enums ss o ds L -> o_only_read o = false -> (32 <= l_long L)%Z ->
  forall dl t fs os, o_no_delta o = true \/ dl = false -> lits_fresh L false -> top_of ss t -> object L t fs ->
  (forall m d x, scalar_in L (VStruct t fs) m d x -> keeps_but_long L Attributes x) -> object L t os -> (forall u l, within (VVec u l) (VStruct t os) -> l = []) ->
  exists r, writes_reads B_xml_attrib enums ss o L dl t fs os r /\ (r = Some fs <-> forall m d x, scalar_in L (VStruct t fs) m d x -> fits32 x).
Proof. intros enums ss o ds L X OR. exact (longs_file B_xml_attrib Attributes enums ss o ds L X OR ltac:(discriminate)). Qed.
(** What comes back instead. *)
Theorem C33_value : forall enums ss o ds L, xml_setting B_xml_attrib Attributes enums ss o ds L -> o_only_read o = false -> (32 <= l_long L)%Z ->
  forall dl t fs os ms n df z, o_no_delta o = true \/ dl = false -> top_of ss t -> object L t fs -> object L t os -> writable L false (VStruct t fs) ->
  find_struct (l_defs L) t = Some ms -> In (MSimple long_E n df) ms -> assoc n fs = Some (VNum KLong z) ->
  exists r, writes_reads B_xml_attrib enums ss o L dl t fs os r /\ forall gs, r = Some gs -> assoc n gs = Some (VNum KLong (wrap 32 true z)).
Proof. intros enums ss o ds L X OR LB dl t fs os ms n df z. exact (long_value B_xml_attrib Attributes enums ss o ds L X OR ltac:(discriminate) LB dl t fs os ms n df z eq_refl). Qed.
(** The element back end: undefined behaviour. *)
Theorem C33_xml_undefined : forall enums ss o ds L, xml_setting B_xml Elements enums ss o ds L -> o_only_read o = false -> l_long L = 64%Z ->
  forall dl t fs os m d z, o_no_delta o = true \/ dl = false -> top_of ss t -> object L t fs -> object L t os -> writable L false (VStruct t fs) ->
  scalar_in L (VStruct t fs) m d (VNum KLong z) -> in_int z = false -> writes_reads B_xml enums ss o L dl t fs os None.
Proof. intros enums ss o ds L X OR LB dl t fs os m d z. apply (long_undefined B_xml Elements enums ss o ds L X OR (fun _ => LB)); [rewrite LB; lia|reflexivity]. Qed.

(** *** C34.  [describes delta v a k]: of the scalars those are there that are not left out,
    and with their text; structs and vectors are always there, described likewise; nothing
    else is there. *)
Theorem C34_delta_exact : forall bk b enums ss o ds L, xml_setting bk b enums ss o ds L -> o_only_read o = false -> (b = Elements -> l_long L = 64%Z) ->
  forall dl t fs, let delta := (negb (o_no_delta o) && dl)%bool in top_of ss t -> object L t fs -> writable L delta (VStruct t fs) ->
  exists a k, file_writes bk enums ss o L dl t fs (Some [Elem t a k]) /\ describes b L delta (VStruct t fs) a k.
Proof. exact file_content. Qed.
(** The flag is the constructor's argument. *)
Theorem C34_constructor : forall bk b enums ss o ds L, xml_setting bk b enums ss o ds L -> o_only_read o = false ->
  forall wf f lv dl old s, s_this s = [("m_delta_only", old)] -> ty_of old = TNum KBool -> (forall l, lv = Some l -> get_lv l s = Some (vbool dl)) ->
  call_fun L (prog bk enums ss o) wf (S f) [o_writer o; o_writer o] [(lv, vbool dl)] s = Ok VVoid (set_this s [("m_delta_only", vbool dl)]).
Proof. exact ctor_ok. Qed.

(** *** C35.  [absent L b m x]: no attribute or child of element [x] for member [m]. *)
Theorem C35_absent_unchanged : forall bk b enums ss o ds L, xml_setting bk b enums ss o ds L ->
  forall x u os ms m, object L u os -> find_struct (l_defs L) u = Some ms -> In m ms -> absent L b m x ->
  exists r, reads bk enums ss o L x u os r /\ forall gs, r = Some gs -> assoc (member_name m) gs = assoc (member_name m) os.
Proof. exact absent_keeps. Qed.
Theorem C35_short_long_undefined : forall enums ss o ds L, xml_setting B_xml_attrib Attributes enums ss o ds L ->
  forall x u os ms m, object L u os -> find_struct (l_defs L) u = Some ms -> In m ms -> converted m = true -> absent L Attributes m x ->
  reads B_xml_attrib enums ss o L x u os None.
Proof. intros enums ss o ds L X x u os ms m. exact (absent_undefined B_xml_attrib Attributes enums ss o ds L X x u os ms m eq_refl). Qed.
(** The others are no reason for undefined behaviour. *)
Theorem C35_all_absent : forall bk b enums ss o ds L, xml_setting bk b enums ss o ds L ->
  forall x u os ms, object L u os -> find_struct (l_defs L) u = Some ms -> (forall m, In m ms -> absent L b m x /\ (b = Attributes -> converted m = false)) ->
  reads bk enums ss o L x u os (Some os).
Proof. exact absent_defined. Qed.

(** *** C36.  [more L u x y]: [y] is [x] with attributes and children added that are not named
    like members, anywhere. *)
Theorem C36_unknown_ignored : forall bk b enums ss o ds L, xml_setting bk b enums ss o ds L ->
  forall ks ks' t x y os ms, top_of ss t -> find_struct (l_defs L) t = Some ms -> root ks = Some x -> root ks' = Some y -> more L t x y -> object L t os ->
  exists r, file_reads bk enums ss o L ks t os r /\ file_reads bk enums ss o L ks' t os r.
Proof. exact unknown_ignored_file. Qed.
Theorem C36_elements : forall bk b enums ss o ds L, xml_setting bk b enums ss o ds L ->
  forall u x y os, more L u x y -> object L u os -> exists r, reads bk enums ss o L x u os r /\ reads bk enums ss o L y u os r.
Proof. exact unknown_ignored. Qed.

(** *** C37 *)
Theorem C37_appends : forall bk b enums ss o ds L, xml_setting bk b enums ss o ds L ->
  forall x u os, object L u os ->
  exists r, reads bk enums ss o L x u os r /\ forall gs, r = Some gs -> forall ms n t, find_struct (l_defs L) u = Some ms -> In (MVector t n) ms ->
  exists l l', assoc n os = Some (VVec t l) /\ assoc n gs = Some (VVec t (l ++ l')) /\
  Forall2 (fun e w => exists d fs, default_fields L t = Some d /\ reads bk enums ss o L e t d (Some fs) /\ w = VStruct t fs)
    (match find (is_named n) (kids_of x) with Some c => filter is_elem (kids_of c) | None => [] end) l'.
Proof. exact vector_grows. Qed.
Theorem C37_twice : forall bk b enums ss o ds L, xml_setting bk b enums ss o ds L ->
  forall x u os, object L u os -> exists r, reads bk enums ss o L x u os r /\ forall gs, r = Some gs ->
  exists hs, reads bk enums ss o L x u gs (Some hs) /\ forall ms n t, find_struct (l_defs L) u = Some ms -> In (MVector t n) ms ->
  exists l l', assoc n os = Some (VVec t l) /\ assoc n gs = Some (VVec t (l ++ l')) /\ assoc n hs = Some (VVec t (l ++ l' ++ l')).
Proof. exact vector_doubles. Qed.

(** *** C38 *)
Theorem C38_any_root : forall bk b enums ss o ds L, xml_setting bk b enums ss o ds L ->
  forall ks t os ms nm nm' a k, top_of ss t -> find_struct (l_defs L) t = Some ms -> object L t os -> root ks = Some (Elem nm a k) ->
  exists r, reads bk enums ss o L (Elem nm' a k) t os r /\ file_reads bk enums ss o L ks t os r.
Proof. exact any_root. Qed.
Theorem C38_no_root : forall bk b enums ss o ds L, xml_setting bk b enums ss o ds L ->
  forall ks t os ms, top_of ss t -> find_struct (l_defs L) t = Some ms -> ms <> [] -> object L t os -> root ks = None -> file_reads bk enums ss o L ks t os None.
Proof. exact no_root. Qed.

(** *** C39 *)
Theorem C39_full_round_trip : forall enums ss o ds L, xml_setting B_xml Elements enums ss o ds L -> o_only_read o = false -> l_long L = 64%Z ->
  forall dl t fs os, o_no_delta o = true \/ dl = false -> lits_fresh L false -> top_of ss t -> object L t fs -> storable L Elements false (VStruct t fs) ->
  object L t os -> (forall u l, within (VVec u l) (VStruct t os) -> l = []) -> writes_reads B_xml enums ss o L dl t fs os (Some fs).
Proof. intros enums ss o ds L X OR LB. exact (full_round B_xml Elements enums ss o ds L X OR (fun _ => LB)). Qed.
Theorem C39_blank_strings_lost : forall enums ss o ds L, xml_setting B_xml Elements enums ss o ds L -> o_only_read o = false -> l_long L = 64%Z ->
  forall dl t fs os ms n df s old, o_no_delta o = true \/ dl = false -> top_of ss t -> object L t fs -> object L t os -> writable L false (VStruct t fs) ->
  find_struct (l_defs L) t = Some ms -> In (MSimple std_string_E n df) ms -> assoc n fs = Some (VStr s) -> assoc n os = Some old -> blank (cut s) = true ->
  exists r, writes_reads B_xml enums ss o L dl t fs os r /\ forall gs, r = Some gs -> assoc n gs = Some old.
Proof.
  intros enums ss o ds L X OR LB dl t fs os ms n df s old DL TO F FO W MS IM AX AO B.
  destruct (string_value B_xml Elements enums ss o ds L X OR (fun _ => LB) dl t fs os ms n df s old DL TO F FO W MS IM AX AO) as (r & WR & H).
  exists r. split; [exact WR|]. intros gs E. rewrite (H gs E), B. reflexivity.
Qed.

(** *** C40.  [storable L Elements]: nothing is asked of short and long members that are left out. *)
Theorem C40_delta_round_trip : forall enums ss o ds L, xml_setting B_xml Elements enums ss o ds L -> o_only_read o = false -> l_long L = 64%Z ->
  forall dl t fs os, let delta := (negb (o_no_delta o) && dl)%bool in
  lits_fresh L delta -> top_of ss t -> object L t fs -> storable L Elements delta (VStruct t fs) -> object L t os -> fresh L delta (VStruct t os) ->
  exists gs, writes_reads B_xml enums ss o L dl t fs os (Some gs) /\ alike L delta (VStruct t fs) (VStruct t gs).
Proof. intros enums ss o ds L X OR LB. exact (delta_round B_xml Elements enums ss o ds L X OR (fun _ => LB)). Qed.

(** *** C58.  [cut]: up to the first NUL; [newlines]: CR LF and CR become LF. *)
Theorem C58_strings : forall bk b enums ss o ds L, xml_setting bk b enums ss o ds L -> o_only_read o = false -> (b = Elements -> l_long L = 64%Z) ->
  forall dl t fs os ms n df s old, o_no_delta o = true \/ dl = false -> top_of ss t -> object L t fs -> object L t os -> writable L false (VStruct t fs) ->
  find_struct (l_defs L) t = Some ms -> In (MSimple std_string_E n df) ms -> assoc n fs = Some (VStr s) -> assoc n os = Some old ->
  exists r, writes_reads bk enums ss o L dl t fs os r /\ forall gs, r = Some gs ->
    assoc n gs = Some (match b with Elements => if blank (cut s) then old else VStr (newlines (cut s)) | Attributes => VStr (newlines (cut s)) end).
Proof. exact string_value. Qed.

(** *** C59 *)
Theorem C59_reading_keeps_types : forall bk b enums ss o ds L, xml_setting bk b enums ss o ds L ->
  forall x u os, object L u os -> exists r, reads bk enums ss o L x u os r /\ forall gs, r = Some gs -> object L u gs.
Proof. exact reads_object. Qed.

(** *** C60 *)
Theorem C60_no_file : forall bk b enums ss o ds L, xml_setting bk b enums ss o ds L ->
  forall t os a n l s f wf ms, top_of ss t -> find_struct (l_defs L) t = Some ms -> object L t os -> file_arg a n s -> get_lv l s = Some (VStruct t os) -> reader_or_writer (s_this s) ->
  load L (s_world s) (cut n) = None ->
  call_fun L (prog bk enums ss o) wf (S (S f)) [o_reader o; "read_from_file"] [a; (Some l, VStruct t os)] s = Ok (vbool false) s.
Proof. exact no_file. Qed.
Theorem C60_no_write : forall bk b enums ss o ds L, xml_setting bk b enums ss o ds L -> o_only_read o = false -> (b = Elements -> l_long L = 64%Z) ->
  forall dl t fs a n l s, let delta := (negb (o_no_delta o) && dl)%bool in
  top_of ss t -> object L t fs -> file_arg a n s -> get_lv l s = Some (VStruct t fs) -> s_this s = [("m_delta_only", vbool dl)] ->
  l_writable L (cut n) = false -> writable L delta (VStruct t fs) ->
  exists f0, forall f wf, f0 <= f -> call_fun L (prog bk enums ss o) wf f [o_writer o; "write_to_file"] [a; (Some l, VStruct t fs)] s = Ok (vbool false) s.
Proof.
  intros bk b enums ss o ds L X OR L64 dl t fs a n l s delta TO F FA GL TH WR W.
  pose proof (proj2 (writable_iff bk b enums ss o ds L X delta (VStruct t fs) (TStruct t) (conj F I)) W) as D.
  destruct (write_val L b delta (VStruct t fs)) as [[at_ ks]|] eqn:WV; [|congruence].
  exists (S (S (vheight (VStruct t fs)))). intros [|f] wf LE; [lia|]. apply (no_write bk b enums ss o ds L X OR L64 dl t fs at_ ks a n l s f wf TO F FA GL TH WR WV). lia.
Qed.

(** *** C61.  [writable]: every scalar is initialised and, if compared, so is its default. *)
Theorem C61_undefined : forall bk b enums ss o ds L, xml_setting bk b enums ss o ds L -> o_only_read o = false -> (b = Elements -> l_long L = 64%Z) ->
  forall dl t fs, let delta := (negb (o_no_delta o) && dl)%bool in top_of ss t -> object L t fs -> ~ writable L delta (VStruct t fs) ->
  file_writes bk enums ss o L dl t fs None.
Proof. exact file_undefined. Qed.

(** *** Cases.  [x_setting] (XmlCase): the header [xdefs] with an enumeration, a struct, and a
    struct with all kinds of members; [xv]: an object, [xnew]: a new object. *)
Example C31_case : xml_setting B_xml_attrib Attributes xen xss (xo false) xdefs xL /\ top_of xss "outer" /\ storable xL Attributes false (VStruct "outer" xv) /\
  option_map there (both B_xml_attrib false false xv xnew) = Some (Some (1%Z, xv)).
Proof. split; [apply x_setting|]. split; [apply x_top|]. split; [apply xv_storable|vm_compute; reflexivity]. Qed.
(** Without its conditions the claim fails: carriage return, NUL, a number that is not printed in full. *)
Example C31_conditions_needed :
  option_map there (both B_xml_attrib false false (xout 4 (String "013" "x") (xin 1 2 1) [] 0 0) xnew) = Some (Some (1%Z, xout 4 (String "010" "x") (xin 1 2 1) [] 0 0)) /\
  option_map there (both B_xml_attrib false false (xout 4 (String "x" (String "000" "y")) (xin 1 2 1) [] 0 0) xnew) = Some (Some (1%Z, xout 4 "x" (xin 1 2 1) [] 0 0)).
Proof. split; vm_compute; reflexivity. Qed.
Example C32_case : storable xL Attributes true (VStruct "outer" xd) /\ lits_fresh xL true /\
  option_map there (both B_xml_attrib false true xd xnew) = Some (Some (1%Z, xd)) /\
  both B_xml_attrib false true xv (xout 0 "def" (xin 4 0 1) [] 0 0) <> None /\
  both B_xml_attrib false true (xout 4 "def" (xin 1 0 1) [] 0 1) xnew = Some UB.
Proof. split; [apply xd_storable|]. split; [apply x_lits_fresh|]. repeat split; vm_compute; try reflexivity; discriminate. Qed.
(** Members of a struct member that has an initialiser of its own are not restored. *)
Theorem C32_nested_initialiser_refuted : exists enums ss o ds L t fs os gs, xml_setting B_xml_attrib Attributes enums ss o ds L /\ top_of ss t /\ object L t fs /\
  storable L Attributes true (VStruct t fs) /\ default_fields L t = Some os /\ writes_reads B_xml_attrib enums ss o L true t fs os (Some gs) /\ ~ alike L true (VStruct t fs) (VStruct t gs).
Proof.
  exists yen, yss, (xo false), ydefs, yL, "outer", (yv 4), (yv 7), (yv 7). split; [exact y_setting|]. split; [exact y_top|]. split; [reflexivity|].
  destruct y_lost as (A & _ & B & C). split; [exact B|]. split; [exact A|]. split; [exact C|].
  intros H. inversion H as [| |u fs gs F|]; subst. inversion F as [|p q r r' [_ G] F']; subst. cbn in G. inversion G as [| |u fs gs F2|]; subst. inversion F2 as [|p q r r' [_ G2] F3]; subst. cbn in G2. inversion G2.
Qed.
Example C33_case :
  option_map there (both B_xml_attrib false false (xout 4 "x" (xin 1 4294967299 1) [] 0 0) xnew) = Some (Some (1%Z, xout 4 "x" (xin 1 3 1) [] 0 0)) /\
  both B_xml false false (xout 4 "x" (xin 1 4294967299 1) [] 0 0) xnew = Some UB.
Proof. split; vm_compute; reflexivity. Qed.
(** Only x of the first element of the vector differs from its default. *)
Definition stored_as (r : res val) : option CppSem.content := match r with Ok _ s => assoc "out.xml" (w_files (s_world s)) | _ => None end.
Example C34_case :
  stored_as (wrote B_xml_attrib false true "out.xml" (xout 0 "def" (xin 4 0 1) [xin 5 0 1; xin 4 0 1] 0 0)) =
    Some (CDoc [Elem "outer" [] [Elem "i" [] []; Elem "v" [] [Elem "inner" [("x", "5")] []; Elem "inner" [] []]]]) /\
  stored_as (wrote B_xml_attrib true true "out.xml" (xout 0 "def" (xin 4 0 1) [] 0 0)) =
    Some (CDoc [Elem "outer" [("s", "def"); ("f", "0"); ("us", "0"); ("e", "0")] [Elem "i" [("x", "4"); ("l", "0"); ("bo", "true")] []; Elem "v" [] []]]).
Proof. split; vm_compute; reflexivity. Qed.
(** File "in" loads as an element of another name with s, us, an unknown attribute and child, and a vector of one element. *)
Definition files0 : world := World [("in", CText "any"); ("em", CText "empty"); ("bad", CText "<")] None None.
Example C35_to_C38_case :
  there (read B_xml_attrib false "in" files0 (xout 3 "old" (xin 1 2 0) [xin 9 9 1] 5 6)) = Some (1%Z, xout 3 "hi" (xin 1 2 0) [xin 9 9 1; xin 4 5 1] 5 7) /\
  read B_xml_attrib false "em" files0 xnew = UB /\ there (read B_xml_attrib false "bad" files0 xv) = Some (0%Z, xv) /\
  there (read B_xml false "in" files0 (xout 3 "old" (xin 1 2 0) [xin 9 9 1] 5 6)) = Some (1%Z, xout 3 "old" (xin 1 2 0) [xin 9 9 1; xin 4 0 1] 5 6).
Proof. repeat split; vm_compute; reflexivity. Qed.
Example C36_case : more xL "inner" (Elem "a" [("x", "1")] []) (Elem "z" [("new", "7"); ("x", "1")] [Text "t"; Elem "q" [("x", "2")] []]).
Proof.
  eapply mo; [reflexivity| |].
  - apply ma_new; [cbn; intuition discriminate|]. apply ma_same, ma_nil.
  - apply mk_new; [intros n _ (a & k & E); discriminate|]. apply mk_new; [intros n I (a & k & E); injection E as <- _ _; cbn in I; intuition discriminate|]. apply mk_nil.
Qed.
Example C39_case : option_map there (both B_xml false false xv xnew) = Some (Some (1%Z, xv)) /\
  option_map there (both B_xml false false (xout 4 "  " (xin 1 2 1) [] 0 0) xnew) = Some (Some (1%Z, xout 4 "def" (xin 1 2 1) [] 0 0)).
Proof. split; vm_compute; reflexivity. Qed.
Example C40_case : option_map there (both B_xml false true (xout 4 "def" (xin 1 0 1) [xin 4 0 0] 0 1) xnew) = Some (Some (1%Z, xout 4 "def" (xin 1 0 1) [xin 4 0 0] 0 1)).
Proof. vm_compute; reflexivity. Qed.
Example C60_case : there (wrote B_xml_attrib false false "readonly" xv) = Some (0%Z, xv).
Proof. vm_compute; reflexivity. Qed.
Example C61_case : wrote B_xml_attrib false false "out.xml" (("e", VUndef (TEnum "en")) :: tl xv) = UB.
Proof. vm_compute; reflexivity. Qed.
Print Assumptions C31_full_round_trip.
Print Assumptions C32_delta_round_trip.
Print Assumptions C33_longs.
Print Assumptions C34_delta_exact.
Print Assumptions C35_absent_unchanged.
Print Assumptions C36_unknown_ignored.
Print Assumptions C37_appends.
Print Assumptions C38_any_root.
Print Assumptions C39_full_round_trip.
Print Assumptions C40_delta_round_trip.
Print Assumptions C58_strings.
Print Assumptions C59_reading_keeps_types.
Print Assumptions C60_no_write.
Print Assumptions C61_undefined.
