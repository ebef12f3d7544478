(** Configurations that are written by the shipped writer are read back by main. *)
From Coq Require Import String Ascii ZArith NArith Arith List Bool Lia.
From Verif Require Import Base Map Flex Items Bison Grammar Store Resolve StoreProps StoreDefs ResolveProps Fmt Decimal Templates Emit Shipped EmitCheck
  Cpp Xml Val CppSem SymLex Ast Prog Header EnumSem DecText EnumCall EnumRound Link XmlSpec XmlRdSimple XmlRead XmlReader XmlCall XmlWrite XmlWriter XmlFile XmlCarry XmlRound XmlProps XmlReadProps XmlThms ConfSpec ConfRead.
From Verif Require Main XmlCase.
Import ListNotations.
Local Open Scope string_scope.
Local Open Scope list_scope.

(** All texts and all kinds in a configuration. *)
Definition spec_texts (s : Z * output_spec) : list string := [o_dir (snd s); o_enum_file (snd s); o_structs_file (snd s); o_reader (snd s); o_writer (snd s)].
Definition conf_texts (c : Main.conf) : list string :=
  Main.c_in c ++ spec_texts (Main.c_out c) ++ flat_map (fun s => fst s ++ spec_texts (snd s)) (Main.c_non c).
Definition conf_kinds (c : Main.conf) : list Z := fst (Main.c_out c) :: map (fun s => fst (snd s)) (Main.c_non c).
(** Texts without NUL and CR, kinds that are values of the enumeration. *)
Definition conf_fine (c : Main.conf) : Prop :=
  (forall s, In s (conf_texts c) -> no_nul s = true /\ no_cr s = true) /\ (forall z, In z (conf_kinds c) -> in_int z = true).

(** The structs in an object. *)
Fixpoint structs_in (v : val) : list (string * fields) :=
  match v with
  | VStruct u fs => (u, fs) :: flat_map (fun p => structs_in (snd p)) fs
  | VVec _ l => flat_map structs_in l
  | _ => []
  end.
Lemma structs_in_all u fs v : within (VStruct u fs) v -> In (u, fs) (structs_in v).
Proof.
  induction 1 as [|u' fs' n x I W IH|u' l x I W IH]; cbn [structs_in]; [now left|right|]; apply in_flat_map; [exists (n, x)|exists x]; auto.
Qed.
Fixpoint has_float (v : val) : bool :=
  match v with
  | VFlt _ _ => true
  | VStruct _ fs => existsb (fun p => has_float (snd p)) fs
  | VVec _ l => existsb has_float l
  | _ => false
  end.
Lemma alike_same L d : forall v w, alike L d v w -> has_float v = false -> v = w.
Proof.
  fix IH 3. intros v w H. destruct H as [v|k x y D|u fs gs F|u l k F]; [reflexivity|discriminate| |]; cbn [has_float]; intros N; f_equal.
  - revert fs gs F N. fix IHF 3. intros fs gs F. destruct F as [|p q fs gs [E A] F]; [reflexivity|]. cbn [existsb]. intros N. apply orb_false_iff in N as [N1 N2]. f_equal; [|now apply IHF].
    destruct p as [n x], q as [n' y]. cbn in E, A. subst n'. f_equal. now apply IH.
  - revert l k F N. fix IHF 3. intros l k F. destruct F as [|x y l k A F]; [reflexivity|]. cbn [existsb]. intros N. apply orb_false_iff in N as [N1 N2]. f_equal; [now apply IH|now apply IHF].
Qed.
Lemma conf_no_float c : has_float (VStruct "config" (vconf c)) = false.
Proof.
  assert (FI : forall fs, has_float (vfiles fs) = false) by (induction fs as [|f fs IH]; [reflexivity|exact IH]).
  destruct c as [fs [t o] ns]. cbn [has_float vconf existsb snd fst Main.c_in Main.c_out Main.c_non]. rewrite FI. cbn.
  rewrite orb_false_r. induction ns as [|[f [t' o']] ns IH]; [reflexivity|]. cbn [map existsb has_float vsection fst snd]. rewrite FI. cbn. exact IH.
Qed.
(** The structs of a configuration. *)
Lemma conf_structs c u fs : In (u, fs) (structs_in (VStruct "config" (vconf c))) ->
  u = "config" \/ u = "input_spec" \/ u = "uncommon_spec" \/
  (u = "input_file" /\ exists f, In f (conf_texts c) /\ fs = vfile f) \/
  (u = "output_spec" /\ exists s, (forall x, In x (spec_texts s) -> In x (conf_texts c)) /\ In (fst s) (conf_kinds c) /\ fs = vspec s).
Proof.
  assert (FI : forall l, In (u, fs) (structs_in (vfiles l)) -> u = "input_file" /\ exists f, In f l /\ fs = vfile f).
  { intros l I. unfold vfiles in I. cbn [structs_in] in I. apply in_flat_map in I as (v & V & I). apply in_map_iff in V as (f & <- & F). cbn in I. destruct I as [[= <- <-]|[]]. eauto. }
  assert (SP : forall s, In (u, fs) (structs_in (VStruct "output_spec" (vspec s))) -> u = "output_spec" /\ fs = vspec s).
  { intros s I. cbn in I. destruct I as [I|[]]. now injection I as <- <-. }
  destruct c as [i o ns]. unfold conf_texts, conf_kinds. cbn [Main.c_in Main.c_out Main.c_non]. intros I. unfold vconf in I. cbn [Main.c_in Main.c_out Main.c_non] in I.
  set (V := VStruct "output_spec" (vspec o)) in I. set (F := vfiles i) in I. set (N := map _ ns) in I. cbn [structs_in flat_map snd] in I. destruct I as [[= <- _]|I]; [auto|].
  rewrite app_nil_r in I. cbn [app] in I. destruct I as [[= <- _]|I]; [auto|]. rewrite !app_nil_r in I. apply in_app_or in I as [I|I]; [|apply in_app_or in I as [I|I]].
  - apply FI in I as (-> & f & J & ->). right. right. right. left. split; [reflexivity|]. exists f. split; [apply in_or_app; auto|reflexivity].
  - apply SP in I as (-> & ->). right. right. right. right. split; [reflexivity|]. exists o. split; [intros x J; apply in_or_app; right; apply in_or_app; auto|]. split; [now left|reflexivity].
  - apply in_flat_map in I as (v & J & I). apply in_map_iff in J as (s & <- & J). unfold vsection in I. set (V' := VStruct "output_spec" (vspec (snd s))) in I. set (F' := vfiles (fst s)) in I. cbn [structs_in flat_map snd] in I.
    destruct I as [[= <- _]|I]; [auto|]. rewrite app_nil_r in I. apply in_app_or in I as [I|I].
    + apply FI in I as (-> & f & K & ->). right. right. right. left. split; [reflexivity|]. exists f. split; [|reflexivity]. apply in_or_app; right. apply in_or_app; right. apply in_flat_map. exists s. split; [exact J|]. apply in_or_app. auto.
    + apply SP in I as (-> & ->). right. right. right. right. split; [reflexivity|]. exists (snd s). split; [|split; [right; apply in_map_iff; eauto|reflexivity]].
      intros x K. apply in_or_app; right. apply in_or_app; right. apply in_flat_map. exists s. split; [exact J|]. apply in_or_app. auto.
Qed.

Section Round.
Variable L : lang.
Hypothesis C : conf_lang L.
Notation D := (defs_are L C).
Lemma conf_scalar c m d x : scalar_in L (VStruct "config" (vconf c)) m d x ->
  (exists s, In s (conf_texts c) /\ x = VStr s) \/ (exists z, In z (conf_kinds c) /\ x = VEnum kind_t z) \/ (exists b, x = vflag b).
Proof.
  intros [u fs ms ds W FS DF IM SC AX AD]. apply structs_in_all, conf_structs in W. rewrite D in FS.
  destruct W as [->|[->|[->|[(-> & f & I & ->)|(-> & s & I & K & ->)]]]]; cbn in FS; injection FS as <-.
  - cbn in IM. repeat (destruct IM as [<-|IM]; [unfold is_scalar, user_type in SC; rewrite ?D in SC; cbn in SC; discriminate|]). contradiction.
  - cbn in IM. repeat (destruct IM as [<-|IM]; [unfold is_scalar, user_type in SC; rewrite ?D in SC; cbn in SC; discriminate|]). contradiction.
  - cbn in IM. repeat (destruct IM as [<-|IM]; [unfold is_scalar, user_type in SC; rewrite ?D in SC; cbn in SC; discriminate|]). contradiction.
  - cbn in IM. destruct IM as [<-|[]]. cbn in AX. injection AX as <-. left. eauto.
  - destruct s as [t [d' e st r w k a b]]. cbn [fst] in K. unfold spec_texts in I. cbn [snd o_dir o_enum_file o_structs_file o_reader o_writer] in I.
    cbn in IM. repeat (destruct IM as [<-|IM]; [cbn in AX; injection AX as <-; first [left; eexists; split; [|reflexivity]; apply I; cbn; tauto | right; left; eexists; split; [|reflexivity]; exact K | right; right; eexists; reflexivity]|]). contradiction.
Qed.
Lemma conf_default_inited u ds n d : default_fields L u = Some ds -> assoc n ds = Some d -> (u = "output_spec" \/ u = "input_file") -> inited d.
Proof.
  intros DF A [->| ->].
  - rewrite (proj1 (conf_news L C)) in DF. injection DF as <-. cbn in A. repeat (match type of A with (if ?b then _ else _) = _ => destruct b end; [injection A as <-; exact I|]). discriminate.
  - rewrite (proj1 (proj2 (conf_news L C))) in DF. injection DF as <-. cbn in A. destruct (String.eqb n "name"); [injection A as <-; exact I|discriminate].
Qed.
Lemma conf_member c m d x : scalar_in L (VStruct "config" (vconf c)) m d x -> inited d /\ converted m = false.
Proof.
  intros [u fs ms ds W FS DF IM SC AX AD]. apply structs_in_all, conf_structs in W. rewrite D in FS.
  destruct W as [->|[->|[->|[(-> & f & I & ->)|(-> & s & I & K & ->)]]]]; cbn in FS; injection FS as <-.
  - cbn in IM. repeat (destruct IM as [<-|IM]; [unfold is_scalar, user_type in SC; rewrite ?D in SC; cbn in SC; discriminate|]). contradiction.
  - cbn in IM. repeat (destruct IM as [<-|IM]; [unfold is_scalar, user_type in SC; rewrite ?D in SC; cbn in SC; discriminate|]). contradiction.
  - cbn in IM. repeat (destruct IM as [<-|IM]; [unfold is_scalar, user_type in SC; rewrite ?D in SC; cbn in SC; discriminate|]). contradiction.
  - split; [exact (conf_default_inited _ _ _ _ DF AD (or_intror eq_refl))|]. cbn in IM. destruct IM as [<-|[]]. reflexivity.
  - split; [exact (conf_default_inited _ _ _ _ DF AD (or_introl eq_refl))|]. cbn in IM. repeat (destruct IM as [<-|IM]; [reflexivity|]). contradiction.
Qed.
Lemma conf_storable dl c : conf_fine c -> storable L Attributes dl (VStruct "config" (vconf c)).
Proof.
  intros [FT FK] m d x SI. destruct (conf_member c m d x SI) as [DI CV]. split.
  - destruct (conf_scalar c m d x SI) as [(s & I & ->)|[(z & I & ->)|(b & ->)]].
    + cbn [keeps]. destruct (FT s I) as [A B]. split; [exact A|]. split; [exact B|]. discriminate.
    + cbn [keeps]. exists true, kinds. split; [exact (kind_found L C)|]. right. split; [exact (FK z I)|]. unfold enum_holds. rewrite (kind_found L C). exact (FK z I).
    + exact I.
  - intros _. split; [exact DI|]. intros _ Y. rewrite CV in Y. discriminate.
Qed.
Lemma files_fit fs : fits L (vfiles fs) (TVec "input_file") = true.
Proof.
  unfold vfiles. cbn [fits ty_eqb]. rewrite String.eqb_refl. cbn [andb]. apply forallb_forall. intros v I. apply in_map_iff in I as (f & <- & _).
  cbn [fits ty_eqb]. rewrite D. reflexivity.
Qed.
Lemma flag_fits b : fits L (vflag b) (TNum KBool) = true.
Proof. destruct b; reflexivity. Qed.
Lemma spec_fits s : fits L (VStruct "output_spec" (vspec s)) (TStruct "output_spec") = true.
Proof.
  destruct s as [t [d e st r w k a b]]. unfold vspec. cbn [fst snd o_dir o_enum_file o_structs_file o_reader o_writer o_only_read o_no_delta].
  assert (FA := flag_fits a). assert (FB := flag_fits b). set (va := vflag a) in *. set (vb := vflag b) in *. clearbody va vb.
  cbn [fits ty_eqb]. rewrite D. change (find_struct conf_defs "output_spec") with (Some spec_ms). cbv iota beta. unfold spec_ms. cbn [map fst snd fields_fit member_name member_type kind_of].
  unfold user_type. rewrite D. cbn [String.eqb]. change (find_struct conf_defs kind_t) with (@None (list member)). change (find_enum conf_defs kind_t) with (Some (true, kinds)). cbv iota beta.
  rewrite FA, FB. reflexivity.
Qed.
Lemma section_fits s : fits L (VStruct "uncommon_spec" (vsection s)) (TStruct "uncommon_spec") = true.
Proof.
  unfold vsection. assert (FA := files_fit (fst s)). assert (FB := spec_fits (snd s)). set (va := vfiles (fst s)) in *. set (vb := VStruct "output_spec" (vspec (snd s))) in *. clearbody va vb.
  cbn [fits ty_eqb]. rewrite D. change (find_struct conf_defs "uncommon_spec") with (Some [MVector "input_file" "input"; MUser "output_spec" "out" NoDefault]). cbv iota beta. cbn [map fst snd fields_fit member_name member_type].
  unfold user_type. rewrite D. change (find_struct conf_defs "output_spec") with (Some spec_ms). cbv iota beta. rewrite FA, FB. reflexivity.
Qed.
Lemma conf_object c : object L "config" (vconf c).
Proof.
  unfold object, vconf. assert (FB := spec_fits (Main.c_out c)). set (vb := VStruct "output_spec" (vspec (Main.c_out c))) in *. clearbody vb.
  assert (FA : fits L (VStruct "input_spec" [("input", vfiles (Main.c_in c))]) (TStruct "input_spec") = true).
  { assert (FA := files_fit (Main.c_in c)). set (va := vfiles (Main.c_in c)) in *. clearbody va. cbn [fits ty_eqb]. rewrite D. change (find_struct conf_defs "input_spec") with (Some [MVector "input_file" "input"]). cbv iota beta. cbn [map fst snd fields_fit member_name member_type]. rewrite FA. reflexivity. }
  set (va := VStruct "input_spec" _) in *. clearbody va.
  assert (FC : fits L (VVec "uncommon_spec" (map (fun s => VStruct "uncommon_spec" (vsection s)) (Main.c_non c))) (TVec "uncommon_spec") = true).
  { cbn [fits ty_eqb]. rewrite String.eqb_refl. cbn [andb]. apply forallb_forall. intros v I. apply in_map_iff in I as (s & <- & _). apply section_fits. }
  set (vc := VVec "uncommon_spec" _) in *. clearbody vc.
  cbn [fits ty_eqb]. rewrite D. change (find_struct conf_defs "config") with (Some [MUser "input_spec" "common_in_files" NoDefault; MUser "output_spec" "common_out_files" NoDefault; MVector "uncommon_spec" "non_common"]). cbv iota beta. cbn [map fst snd fields_fit member_name member_type].
  unfold user_type. rewrite D. change (find_struct conf_defs "output_spec") with (Some spec_ms). change (find_struct conf_defs "input_spec") with (Some [MVector "input_file" "input"]). cbv iota beta. rewrite FA, FB, FC. reflexivity.
Qed.
Lemma conf_lits_fresh dl : lits_fresh L dl.
Proof.
  intros n ms m u v I J MT DF. exfalso. rewrite D in I. cbn in I.
  repeat (destruct I as [I|I]; [try discriminate I; injection I as <- <-; cbn in J; repeat (destruct J as [<-|J]; [cbn in DF; try discriminate DF; cbn in MT; try (unfold user_type in MT; rewrite D in MT; cbn in MT); discriminate|]); contradiction|]). contradiction.
Qed.
Lemma conf0_fresh dl : fresh L dl (VStruct "config" (vconf conf0)).
Proof.
  split.
  - intros u l. exact (XmlCase.no_items_ok (VStruct "config" (vconf conf0)) u l eq_refl).
  - intros _ m d x [u fs ms ds W FS DF IM SC AX AD] _. apply structs_in_all in W. cbn in W. rewrite D in FS. destruct W as [W|[W|[W|[]]]]; injection W as <- <-; cbn in FS; injection FS as <-.
    + cbn in IM. repeat (destruct IM as [<-|IM]; [unfold is_scalar, user_type in SC; rewrite ?D in SC; cbn in SC; discriminate|]). contradiction.
    + cbn in IM. repeat (destruct IM as [<-|IM]; [unfold is_scalar, user_type in SC; rewrite ?D in SC; cbn in SC; discriminate|]). contradiction.
    + rewrite (proj1 (conf_news L C)) in DF. apply some_eq in DF. subst ds. change (assoc (member_name m) (vspec spec0) = Some x) in AX. congruence.
Qed.

(** *** Writing and reading *)
Lemma vconf_inj c c' : conf_ok c -> conf_ok c' -> vconf c = vconf c' -> c = c'.
Proof. intros O O' E. pose proof (conf_in_ok c O) as A. rewrite E, (conf_in_ok c' O') in A. now injection A. Qed.
Theorem conf_round dl c : conf_ok c -> conf_fine c ->
  exists x, file_writes B_xml_attrib cen css out0 L dl "config" (vconf c) (Some [x]) /\ conf_of (reload x) = Some c.
Proof.
  intros OK FI. pose proof (conf_setting L C) as X.
  destruct (write_read B_xml_attrib Attributes cen css out0 conf_defs L X dl "config" (vconf c) (vconf conf0) "config" (conf_lits_fresh dl) (conf_object c) (conf_storable dl c FI) (conf_object conf0) (conf0_fresh dl)) as (a & k & gs & WV & RS & AL).
  apply alike_same in AL; [|apply conf_no_float]. injection AL as <-. exists (Elem "config" a k). split.
  - pose proof (writes_file B_xml_attrib Attributes cen css out0 conf_defs L X eq_refl ltac:(discriminate) dl "config" (vconf c) conf_top (conf_object c)) as W.
    change (negb (o_no_delta out0) && dl)%bool with dl in W. rewrite WV in W. exact W.
  - rewrite (conf_read_ok L C) in RS. destruct (conf_of (reload (Elem "config" a k))) as [c'|] eqn:CO; [|discriminate]. cbn [option_map] in RS. apply some_eq in RS. f_equal. apply vconf_inj; [exact (conf_of_ok _ _ CO)|exact OK|exact RS].
Qed.
End Round.
