(** A concrete header, for the examples beside the theorems about xml files. *)
From Coq Require Import String Ascii ZArith NArith Arith List Bool Lia.
From Verif Require Import Base Map Items Grammar ParseLang Fmt Decimal Templates Emit Main Cpp Xml Val CppSem SymLex Ast Store Resolve StoreDefs ResolveProps Prog Header EnumSem EnumCall EnumRound Link
  XmlSpec XmlReader XmlCall XmlWriter XmlFile XmlCarry XmlRound XmlProps XmlReadProps XmlThms.
Import ListNotations.
Local Open Scope string_scope.
Local Open Scope list_scope.

(** All scalars in an object. *)
Fixpoint scalars (L : lang) (v : val) : list (member * val * val) :=
  match v with
  | VStruct u fs =>
      match find_struct (l_defs L) u, default_fields L u with
      | Some ms, Some dd => flat_map (fun m => if is_scalar L m then match assoc (member_name m) fs, assoc (member_name m) dd with Some x, Some d => [(m, d, x)] | _, _ => [] end else []) ms
      | _, _ => []
      end ++ flat_map (fun p => scalars L (snd p)) fs
  | VVec _ l => flat_map (scalars L) l
  | _ => []
  end.
Lemma scalars_all L v m d x : scalar_in L v m d x -> In (m, d, x) (scalars L v).
Proof.
  intros [u fs ms dd W FS D IM S AX AD]. induction W as [|u' fs' n y I W IH|u' l y I W IH].
  - cbn [scalars]. rewrite FS, D. apply in_or_app. left. apply in_flat_map. exists m. rewrite S, AX, AD. split; [exact IM|now left].
  - cbn [scalars]. apply in_or_app. right. apply in_flat_map. exists (n, y). auto.
  - cbn [scalars]. apply in_flat_map. exists y. auto.
Qed.
(** All vectors in an object are empty. *)
Fixpoint no_items (v : val) : bool :=
  match v with
  | VStruct _ fs => forallb (fun p => no_items (snd p)) fs
  | VVec _ l => match l with [] => true | _ => false end
  | _ => true
  end.
Lemma no_items_ok v u l : no_items v = true -> within (VVec u l) v -> l = [].
Proof.
  intros H W. remember (VVec u l) as w eqn:E. revert E. induction W as [|u' fs n y I W IH|u' k y I W IH]; intros E.
  - subst. cbn in H. destruct l; [reflexivity|discriminate].
  - cbn [no_items] in H. rewrite forallb_forall in H. apply IH; [exact (H _ I)|exact E].
  - cbn in H. destruct k; [contradiction|discriminate].
Qed.

(** *** A header with nested structs, a vector, an enumeration and most scalar types *)
Definition xdefs : list def :=
  [DefEnum true "en" [Entry "a" (Some (CInt "3")); Entry "b" None] false;
   DefStruct "inner" [MSimple int_E "x" (Default (DInt "4")); MSimple long_E "l" (Default (DInt "0")); MSimple bool_E "bo" (Default DTrue)];
   DefStruct "outer" [MUser "en" "e" EmptyDefault; MSimple std_string_E "s" (Default (DStr """def""")); MUser "inner" "i" EmptyDefault; MVector "inner" "v";
                      MSimple double_E "f" EmptyDefault; MSimple unsigned_short_E "us" EmptyDefault]].
Definition x_lit (t : ty) (v : dvalue) : val :=
  match t, v with
  | TNum k, DInt "4" => VNum k 4 | TNum k, DTrue => VNum k 1 | TNum k, _ => VNum k 0
  | TStd, DStr """def""" => VStr "def" | TStd, _ => VStr "" | TFlt k, _ => VFlt k 0 | TEnum n, _ => VEnum n 0 | t, _ => VUndef t
  end.
Definition xL : lang := Lang xdefs 64 x_lit (fun c => match c with CInt "3" => 3%Z | _ => 0%Z end) (fun _ => 0%Z)
  (fun _ => Z.eqb) (fun _ c => zdec c) (fun _ s => scan_dec s) (fun _ _ => "") (fun _ _ => None)
  (fun s => if String.eqb s "empty" then Some [] else if String.eqb s "any" then Some [Elem "other" [("s", "hi"); ("new", "1"); ("us", "7")] [Elem "v" [] [Elem "p" [("l", "5")] []]; Elem "nix" [] []]] else None)
  (fun n => negb (String.eqb n "readonly")).
Definition xi : info := find_top (fst (fixup (fold_left (fun i d => add_def d i) xdefs info0))).
Definition xen := map snd (i_enums xi).
Definition xss := map snd (i_structs xi).
Definition xo (nd : bool) : output_spec := OutputSpec "" "enums" "structs" "xml_reader_C" "xml_writer_C" ft_xml_attrib false nd.
Lemma x_linked : linked xdefs xen xss.
Proof.
  assert (N : NoDup (map def_name ([] ++ xdefs))) by (apply (names_nodup (o_reader (xo false)) (o_writer (xo false))); vm_compute; reflexivity).
  exact (built_linked xdefs _ (built_add [] xdefs info0 built_start N) N).
Qed.
Example x_setting nd : xml_setting B_xml_attrib Attributes xen xss (xo nd) xdefs xL /\ xml_setting B_xml Elements xen xss (xo nd) xdefs xL.
Proof.
  assert (LF : lits_fit xL).
  { intros n ms m ty v I J MT D. cbn in I.
    repeat (destruct I as [I|I]; [try discriminate I; injection I as <- <-; cbn in J; repeat (destruct J as [<-|J]; [cbn in MT, D; try discriminate; injection D as <-; injection MT as <-; vm_compute; reflexivity|]); contradiction|]). contradiction. }
  split; split; try (split; [discriminate|vm_compute; reflexivity|exact x_linked|reflexivity]); try exact LF; try reflexivity; [left|right]; auto.
Qed.
Example x_top : top_of xss "outer" /\ ~ top_of xss "inner".
Proof.
  split.
  - destruct (find (fun s => String.eqb (s_name s) "outer") (tops xss)) as [s|] eqn:E; [|vm_compute in E; discriminate]. apply find_some in E as [I N]. exists s. split; [exact I|now apply String.eqb_eq].
  - intros (s & I & N). assert (H : forallb (fun s => negb (String.eqb (s_name s) "inner")) (tops xss) = true) by (vm_compute; reflexivity).
    rewrite forallb_forall in H. specialize (H s I). rewrite N in H. discriminate.
Qed.
Lemma x_lits_fresh delta : lits_fresh xL delta.
Proof.
  intros n ms m u v I J MT D. exfalso. cbn in I.
  repeat (destruct I as [I|I]; [try discriminate I; injection I as <- <-; cbn in J; repeat (destruct J as [<-|J]; [cbn in MT, D; discriminate|]); contradiction|]). contradiction.
Qed.
Definition xin (x l bo : Z) : fields := [("x", VNum KInt x); ("l", VNum KLong l); ("bo", VNum KBool bo)].
Definition xout (e : Z) (s : string) (i : fields) (v : list fields) (f us : Z) : fields :=
  [("e", VEnum "en" e); ("s", VStr s); ("i", VStruct "inner" i); ("v", VVec "inner" (map (VStruct "inner") v)); ("f", VFlt KDouble f); ("us", VNum KUShort us)].
Definition xnew : fields := xout 0 "def" (xin 4 0 1) [] 0 0.
Definition at_file (v : val) (n : string) (this : scope) (w : world) : st := St [[("n", VStr n); ("v", v)]] (Text "") this w.
Definition there (r : res val) : option (Z * fields) :=
  match r with Ok (VNum KBool z) s => match lookup "v" (s_scopes s) with Some (VStruct _ gs) => Some (z, gs) | _ => None end | _ => None end.
(** write_to_file with delta_only [dl], read_from_file into [os]: result and object *)
Definition wrote bk nd (dl : bool) (n : string) (fs : fields) : res val :=
  call_fun xL (prog bk xen xss (xo nd)) 9 9 ["xml_writer_C"; "write_to_file"] [(Some (LV false "n" []), VStr n); (Some (LV false "v" []), VStruct "outer" fs)]
    (at_file (VStruct "outer" fs) n [("m_delta_only", vbool dl)] (World [("in", CText "any"); ("em", CText "empty"); ("bad", CText "<")] None None)).
Definition read bk nd (n : string) (w : world) (os : fields) : res val :=
  call_fun xL (prog bk xen xss (xo nd)) 9 9 ["xml_reader_C"; "read_from_file"] [(Some (LV false "n" []), VStr n); (Some (LV false "v" []), VStruct "outer" os)]
    (at_file (VStruct "outer" os) n [] w).
Definition both bk nd dl fs os : option (res val) :=
  match wrote bk nd dl "out.xml" fs with Ok (VNum KBool 1%Z) s => Some (read bk nd "out.xml" (s_world s) os) | _ => None end.
Definition xv : fields := xout 4 " two<&>lines" (xin (-7) 2147483647 0) [xin 1 2 1; xin 4 9 1] 12 65535.

Lemma xv_storable b : storable xL b false (VStruct "outer" xv).
Proof.
  intros m d x SI. apply scalars_all in SI. vm_compute in SI.
  repeat (destruct SI as [SI|SI]; [injection SI as <- <- <-; split; [|discriminate]; cbn [keeps];
    first [exact I|reflexivity|split; [reflexivity|split; [vm_compute; reflexivity|intros _; reflexivity]]|eexists _, _; split; [reflexivity|]; right; split; vm_compute; reflexivity]|]). contradiction.
Qed.

(** For delta files: nothing of a short or long type has its default value. *)
Definition xd : fields := xout 4 "def" (xin (-7) 2147483647 0) [xin 4 2 1; xin 4 9 1] 12 65535.
Lemma xd_storable b : storable xL b true (VStruct "outer" xd).
Proof.
  intros m d x SI. apply scalars_all in SI. vm_compute in SI.
  repeat (destruct SI as [SI|SI]; [injection SI as <- <- <-; split; [cbn [keeps];
    first [exact I|reflexivity|split; [reflexivity|split; [vm_compute; reflexivity|intros _; reflexivity]]|eexists _, _; split; [reflexivity|]; right; split; vm_compute; reflexivity]
    |intros _; split; [exact I|intros _; first [discriminate|intros _; reflexivity]]]|]). contradiction.
Qed.
Lemma x_new : default_fields xL "outer" = Some xnew /\ object xL "outer" xnew /\ no_items (VStruct "outer" xnew) = true.
Proof. repeat split; vm_compute; reflexivity. Qed.

(** *** A struct member with an initialiser of its own *)
Definition ydefs : list def :=
  [DefStruct "inner" [MSimple int_E "x" (Default (DInt "4"))]; DefStruct "outer" [MUser "inner" "i" (Default (DInt "7"))]].
Definition yL : lang := Lang ydefs 64 (fun t v => match t, v with TNum k, DInt "4" => VNum k 4 | TStruct u, DInt "7" => VStruct u [("x", VNum KInt 7)] | t, _ => VUndef t end)
  (fun _ => 0%Z) (fun _ => 0%Z) (fun _ => Z.eqb) (fun _ c => zdec c) (fun _ s => scan_dec s) (fun _ _ => "") (fun _ _ => None) (fun _ => None) (fun _ => true).
Definition yi : info := find_top (fst (fixup (fold_left (fun i d => add_def d i) ydefs info0))).
Definition yen := map snd (i_enums yi).
Definition yss := map snd (i_structs yi).
Lemma y_linked : linked ydefs yen yss.
Proof.
  assert (N : NoDup (map def_name ([] ++ ydefs))) by (apply (names_nodup (o_reader (xo false)) (o_writer (xo false))); vm_compute; reflexivity).
  exact (built_linked ydefs _ (built_add [] ydefs info0 built_start N) N).
Qed.
Lemma y_setting : xml_setting B_xml_attrib Attributes yen yss (xo false) ydefs yL.
Proof.
  split.
  - split; [discriminate|vm_compute; reflexivity|exact y_linked|reflexivity].
  - left. auto.
  - reflexivity.
  - intros n ms m ty v I J MT D. cbn in I.
    repeat (destruct I as [I|I]; [try discriminate I; injection I as <- <-; cbn in J; repeat (destruct J as [<-|J]; [cbn in MT, D; try discriminate; injection D as <-; injection MT as <-; vm_compute; reflexivity|]); contradiction|]). contradiction.
  - reflexivity.
Qed.
Lemma y_top : top_of yss "outer".
Proof.
  destruct (find (fun s => String.eqb (s_name s) "outer") (tops yss)) as [s|] eqn:E; [|vm_compute in E; discriminate]. apply find_some in E as [I N]. exists s. split; [exact I|now apply String.eqb_eq].
Qed.
Definition yv (z : Z) : fields := [("i", VStruct "inner" [("x", VNum KInt z)])].
Lemma y_lost : default_fields yL "outer" = Some (yv 7) /\ writable yL true (VStruct "outer" (yv 4)) /\ storable yL Attributes true (VStruct "outer" (yv 4)) /\
  writes_reads B_xml_attrib yen yss (xo false) yL true "outer" (yv 4) (yv 7) (Some (yv 7)).
Proof.
  split; [vm_compute; reflexivity|]. assert (ST : storable yL Attributes true (VStruct "outer" (yv 4))).
  { intros m d x SI. apply scalars_all in SI. vm_compute in SI. destruct SI as [SI|[]]. injection SI as <- <- <-. split; [exact I|]. intros _. split; [exact I|discriminate]. }
  split.
  { intros m d x SI. destruct (ST m d x SI) as (K & D). split; [destruct x; cbn in *; auto|]. intros E. apply D, E. }
  split; [exact ST|].
  pose proof (written_then_read B_xml_attrib Attributes yen yss (xo false) ydefs yL y_setting eq_refl ltac:(discriminate) true "outer" (yv 4) (yv 7) [] [Elem "i" [] []] y_top eq_refl eq_refl eq_refl) as W.
  exact W.
Qed.
