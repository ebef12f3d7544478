(** From the headers to the generated program: the store that has read the definitions
    [ds], the lists the generator works on, and the functions in the files it writes. *)
From Coq Require Import String Ascii ZArith NArith Arith List Bool Lia Permutation.
From Verif Require Import Base Map Flex Items Bison Grammar Store Resolve StoreProps StoreDefs ResolveProps ItemsEnd
  Fmt Decimal Templates Emit Cpp CppH Xml Val CppSem SymLex Ast HeadSpec PrintXa PrintEnum PrintFile PrintH Direct DirectFiles Prog Header.
Import ListNotations.
Local Open Scope string_scope.
Local Open Scope list_scope.

(** *** Stores that hold definitions, some members perhaps already resolved *)
Definition state (ds : list def) (c c' : struct_complex) : Prop :=
  sc_tname c' = sc_tname c /\ sc_name c' = sc_name c /\
  (sc_type c' = sc_type c \/
   sc_type c = enum_or_struct_E /\ sc_type c' = kind_in ds (sc_tname c) /\ kind_in ds (sc_tname c) <> unknown_E).
Record built (ds : list def) (i : info) : Prop := Built {
  b_ss : sorted (i_structs i);
  b_es : sorted (i_enums i);
  b_enum : forall n e, mfind n (i_enums i) = Some e <-> declares_enum ds n e;
  b_struct : forall n, (exists s, mfind n (i_structs i) = Some s) <-> exists ms, In (DefStruct n ms) ds;
  b_members : forall n s, mfind n (i_structs i) = Some s ->
    exists ms, In (DefStruct n ms) ds /\ s_name s = n /\ s_simple s = simples ms /\ Forall2 (state ds) (complexes ms) (s_complex s)
}.

Lemma built_start : built [] info0.
Proof.
  constructor; cbn; try constructor; try discriminate.
  - intros (? & ? & ? & [] & _).
  - intros [? ?]. discriminate.
  - intros [? []].
Qed.
Lemma built_copy ds i : built ds i -> built ds (copy_info i).
Proof. intros []. constructor; auto. Qed.
Lemma built_rv ds i rv : built ds i -> built ds (set_rv i rv).
Proof. intros []. constructor; auto. Qed.

Lemma kind_struct ds t : kind_in ds t = struct_E <-> exists ms, In (DefStruct t ms) ds.
Proof.
  unfold kind_in. destruct (existsb (is_struct t) ds) eqn:E.
  - split; [|reflexivity]. intros _. apply existsb_exists in E as ([|n ms] & I & E); [discriminate|]. apply String.eqb_eq in E as ->. eauto.
  - split; [intros X; destruct (existsb (is_enum t) ds); discriminate X|]. intros [ms I]. exfalso. apply not_true_iff_false in E. apply E, existsb_exists.
    exists (DefStruct t ms). split; [exact I|]. apply String.eqb_refl.
Qed.
Lemma kind_known ds t : kind_in ds t <> unknown_E <-> In t (map def_name ds).
Proof.
  unfold kind_in. rewrite in_map_iff. split.
  - destruct (existsb (is_struct t) ds) eqn:E.
    + intros _. apply existsb_exists in E as ([|n ms] & I & E); [discriminate|]. apply String.eqb_eq in E as ->. eexists; split; [|exact I]. reflexivity.
    + destruct (existsb (is_enum t) ds) eqn:E'; [|congruence].
      intros _. apply existsb_exists in E' as ([c n es tr|] & I & E'); [|discriminate]. apply String.eqb_eq in E' as ->. eexists; split; [|exact I]. reflexivity.
  - intros (d & <- & I). destruct d as [c n es t|n ms]; cbn [def_name].
    + destruct (existsb (is_struct n) ds); [discriminate|]. replace (existsb (is_enum n) ds) with true; [discriminate|].
      symmetry. apply existsb_exists. eexists. split; [exact I|]. apply String.eqb_refl.
    + replace (existsb (is_struct n) ds) with true; [discriminate|].
      symmetry. apply existsb_exists. eexists. split; [exact I|]. apply String.eqb_refl.
Qed.
Lemma kind_app ds ds' t : NoDup (map def_name (ds ++ ds')) -> kind_in ds t <> unknown_E -> kind_in (ds ++ ds') t = kind_in ds t.
Proof.
  intros N K. apply kind_known in K as K'. rewrite map_app in N. apply nodup_app in N as (_ & _ & N).
  assert (X : existsb (is_struct t) ds' = false).
  { apply not_true_iff_false. intros H. apply existsb_exists in H as ([|n ms] & I & E); [discriminate|]. apply String.eqb_eq in E as ->.
    apply (N t K'). apply (in_map def_name) in I. exact I. }
  assert (Y : existsb (is_enum t) ds' = false).
  { apply not_true_iff_false. intros H. apply existsb_exists in H as ([c n es tr|] & I & E); [|discriminate]. apply String.eqb_eq in E as ->.
    apply (N t K'). apply (in_map def_name) in I. exact I. }
  unfold kind_in. now rewrite !existsb_app, X, Y, !orb_false_r.
Qed.
Lemma built_unknown ds i d ds' : built ds i -> NoDup (map def_name (ds ++ ds')) -> In d ds' -> get_item_type i (def_name d) = unknown_E.
Proof.
  intros B N I. apply type_unknown. rewrite map_app in N. apply nodup_app in N as (_ & _ & N).
  split; intros H.
  - destruct (mfind (def_name d) (i_structs i)) as [s|] eqn:E; [|apply mfind_none in E; contradiction].
    destruct (b_members _ _ B _ _ E) as (ms & J & _). apply (N (def_name d)); [apply (in_map def_name) in J; exact J | now apply in_map].
  - destruct (mfind (def_name d) (i_enums i)) as [s|] eqn:E; [|apply mfind_none in E; contradiction].
    apply (b_enum _ _ B) in E as (c & es & t & J & _). apply (N (def_name d)); [apply (in_map def_name) in J; exact J | now apply in_map].
Qed.
Lemma state_refl ds c : state ds c c.
Proof. split; [|split]; auto. Qed.
Lemma state_app ds ds' c c' : NoDup (map def_name (ds ++ ds')) -> state ds c c' -> state (ds ++ ds') c c'.
Proof.
  intros N (A & B & [C|(C & D & K)]); split; [exact A| |exact A|]; split; [exact B|auto|exact B|].
  right. rewrite (kind_app ds ds' _ N K). auto.
Qed.
Lemma Forall2_same {A} (P : A -> A -> Prop) l : (forall x, P x x) -> Forall2 P l l.
Proof. intros H. induction l; constructor; auto. Qed.
Lemma Forall2_impl {A B} (P Q : A -> B -> Prop) l l' : (forall x y, P x y -> Q x y) -> Forall2 P l l' -> Forall2 Q l l'.
Proof. intros H. induction 1; constructor; auto. Qed.

Lemma sorted_fold ds : forall i, sorted (i_structs i) -> sorted (i_enums i) ->
  sorted (i_structs (fold_left (fun i d => add_def d i) ds i)) /\ sorted (i_enums (fold_left (fun i d => add_def d i) ds i)).
Proof. induction ds as [|d ds IH]; intros i A B; [auto|]. cbn [fold_left]. destruct (add_def_sorted d i A B). auto. Qed.

Lemma built_add ds ds' i : built ds i -> NoDup (map def_name (ds ++ ds')) ->
  built (ds ++ ds') (fold_left (fun i d => add_def d i) ds' i).
Proof.
  intros B N. assert (N' : NoDup (map def_name ds')) by (rewrite map_app in N; apply nodup_app in N; tauto).
  destruct (fold_defs_find ds' i N' (fun d => built_unknown ds i d ds' B N) (b_ss _ _ B) (b_es _ _ B)) as [F G].
  destruct (sorted_fold ds' i (b_ss _ _ B) (b_es _ _ B)) as [S1 S2]. constructor; auto.
  - intros n e. rewrite G, (b_enum _ _ B). unfold declares_enum. split.
    + intros [(c & es & t & I & E)|(c & es & t & I & E)]; exists c, es, t; (split; [apply in_or_app; auto|exact E]).
    + intros (c & es & t & I & E). apply in_app_or in I as [I|I]; [left|right]; exists c, es, t; auto.
  - intros n. split.
    + intros [s H]. apply F in H as [H|(ms & I & _)].
      * destruct (proj1 (b_struct _ _ B n)) as [ms I]; [eauto|]. exists ms. apply in_or_app; auto.
      * exists ms. apply in_or_app; auto.
    + intros [ms I]. apply in_app_or in I as [I|I].
      * destruct (proj2 (b_struct _ _ B n)) as [s H]; [eauto|]. exists s. apply F. auto.
      * eexists. apply F. right. exists ms. split; [exact I|reflexivity].
  - intros n s H. apply F in H as [H|(ms & I & ->)].
    + destruct (b_members _ _ B n s H) as (ms & I & A1 & A2 & A3). exists ms. split; [apply in_or_app; auto|]. split; [exact A1|]. split; [exact A2|].
      eapply Forall2_impl; [|exact A3]. intros x y. now apply state_app.
    + exists ms. split; [apply in_or_app; auto|]. split; [reflexivity|]. split; [reflexivity|]. apply Forall2_same, state_refl.
Qed.

(** Reading files with new definitions. *)
Lemma built_files ds i c files dss b : built ds i -> reach b (Heap i c) -> Forall2 text_of files dss ->
  NoDup (map def_name (ds ++ concat dss)) ->
  exists h m, process_input_files (map Some files) (Heap i c) = Some (h, map (fun _ => true) files, m) /\
    messages m = [] /\ h_common h = c /\ built (ds ++ concat dss) (h_self h).
Proof.
  intros B R T N. destruct (inputs_text files dss T b _ R) as (h' & m & sm & E & P & M).
  assert (N' : NoDup (map def_name (concat dss))) by (rewrite map_app in N; apply nodup_app in N; tauto).
  rewrite (defs_fresh _ i c N' (fun d => built_unknown ds i d _ B N)) in E. injection E as <- <-.
  pose proof (built_add ds (concat dss) i B N) as B'.
  do 2 eexists. split; [exact P|]. split; [exact M|]. destruct files.
  - inversion T; subst. cbn [concat] in *. rewrite app_nil_r in *. auto.
  - cbn [h_common h_self]. split; [reflexivity|]. now apply built_rv.
Qed.

(** *** After resolution *)
(** All types of members are defined. *)
Definition closed (ds : list def) : Prop :=
  forall n ms t x d, In (DefStruct n ms) ds -> In (MUser t x d) ms -> kind_in ds t <> unknown_E.

Lemma in_sorted {A} (m : smap A) n a : sorted m -> (In (n, a) m <-> mfind n m = Some a).
Proof. intros S. split; [now apply in_mfind | apply mfind_in]. Qed.
Lemma keys_nodup {A} (m : smap A) : sorted m -> NoDup (mkeys m).
Proof.
  induction m as [|[k a] m IH]; intros S; [constructor|]. pose proof (sorted_lt _ _ _ S) as L. inversion S; subst.
  cbn. constructor; [|auto]. intros H. apply (slt_irrefl k), L, H.
Qed.

Lemma built_kind ds i t : built ds i -> NoDup (map def_name ds) -> get_item_type i t = kind_in ds t.
Proof.
  intros B N. unfold get_item_type. destruct (mfind t (i_structs i)) as [s|] eqn:E.
  - symmetry. apply kind_struct. apply (b_struct _ _ B). eauto.
  - assert (S : existsb (is_struct t) ds = false).
    { apply not_true_iff_false. intros H. assert (K : kind_in ds t = struct_E) by (unfold kind_in; now rewrite H).
      apply kind_struct, (b_struct _ _ B) in K as [s K]. congruence. }
    unfold kind_in. rewrite S. destruct (mfind t (i_enums i)) as [e|] eqn:F.
    + apply (b_enum _ _ B) in F as (c & es & tr & I & _). replace (existsb (is_enum t) ds) with true; [reflexivity|].
      symmetry. apply existsb_exists. eexists. split; [exact I|]. apply String.eqb_refl.
    + replace (existsb (is_enum t) ds) with false; [reflexivity|]. symmetry. apply not_true_iff_false. intros H.
      apply existsb_exists in H as ([c n es tr|] & I & H); [|discriminate]. apply String.eqb_eq in H as ->.
      assert (X : mfind t (i_enums i) = Some (EnumS t c (map entry_line es))) by (apply (b_enum _ _ B); exists c, es, tr; auto).
      congruence.
Qed.

Lemma fixed_members ds i ms cs : built ds i -> NoDup (map def_name ds) -> Forall2 (state ds) (complexes ms) cs ->
  map (fix_member i) cs = resolved_members ds ms.
Proof.
  intros B N. revert cs. induction ms as [|m ms IH]; intros cs H.
  - inversion H. reflexivity.
  - destruct m as [ty n d|t n d|t n]; cbn [complexes resolved_members flat_map app] in *.
    + now apply IH.
    + inversion H as [|? c' ? cs' (S1 & S2 & S3) H']; subst. cbn [map]. f_equal; [|now apply IH].
      destruct c' as [k tn nm]. cbn in *. subst. unfold fix_member. cbn.
      destruct S3 as [->|(_ & -> & K)].
      * now rewrite (built_kind ds i t B N).
      * unfold kind_in in *. destruct (existsb _ _); [reflexivity|]. destruct (existsb _ _); [reflexivity|congruence].
    + inversion H as [|? c' ? cs' (S1 & S2 & S3) H']; subst. cbn [map]. f_equal; [|now apply IH].
      destruct c' as [k tn nm]. cbn in *. subst. destruct S3 as [->|(X & _)]; [reflexivity|discriminate].
Qed.

Lemma resolved_find i n : mfind n (i_structs (find_top (fst (fixup i)))) =
  option_map (fun s => bump (npoint (flat_map (fun p => s_complex (snd p)) (i_structs (fst (fixup i)))) n) (fix_struct i s)) (mfind n (i_structs i)).
Proof. cbn [find_top set_structs i_structs]. rewrite count_find. cbn [fixup fst set_structs i_structs]. rewrite mfind_map. destruct (mfind n (i_structs i)); reflexivity. Qed.

Lemma resolved_sorted i : sorted (i_structs i) -> sorted (i_structs (find_top (fst (fixup i)))).
Proof.
  intros S. apply (sorted_keys (i_structs i)); [|exact S]. cbn [find_top set_structs i_structs].
  rewrite count_keys. unfold mkeys. cbn. now rewrite map_map.
Qed.

Lemma built_struct ds i n s : built ds i -> NoDup (map def_name ds) -> mfind n (i_structs (find_top (fst (fixup i)))) = Some s ->
  exists ms, In (DefStruct n ms) ds /\ s_name s = n /\ s_simple s = simples ms /\ s_complex s = resolved_members ds ms.
Proof.
  intros B N. rewrite resolved_find. destruct (mfind n (i_structs i)) as [s0|] eqn:E; [|discriminate]. intros [= <-].
  destruct (b_members _ _ B n s0 E) as (ms & I & A1 & A2 & A3). exists ms. split; [exact I|].
  unfold bump, fix_struct. cbn. split; [exact A1|]. split; [exact A2|]. now apply fixed_members.
Qed.

Lemma built_linked ds i : built ds i -> NoDup (map def_name ds) ->
  let j := find_top (fst (fixup i)) in linked ds (map snd (i_enums j)) (map snd (i_structs j)).
Proof.
  intros B N j. assert (SJ : sorted (i_structs j)) by (apply resolved_sorted, B).
  assert (EJ : i_enums j = i_enums i) by reflexivity.
  assert (NM : forall n s, In (n, s) (i_structs j) -> s_name s = n).
  { intros n s I. apply in_sorted in I; [|exact SJ]. destruct (built_struct ds i n s B N I) as (ms & _ & E & _). exact E. }
  constructor.
  - intros e. rewrite in_map_iff, EJ. split.
    + intros ([n e'] & <- & I). apply in_sorted in I; [|apply B]. apply (b_enum _ _ B) in I as (c & es & t & I & ->). exists c, n, es, t. auto.
    + intros (c & n & es & t & I & ->). exists (n, enum_of c n es). split; [reflexivity|]. apply in_sorted; [apply B|].
      apply (b_enum _ _ B). exists c, es, t. auto.
  - rewrite EJ, map_map.
    assert (X : forall p, In p (i_enums i) -> e_name (snd p) = fst p).
    { intros [n e] I. apply in_sorted in I; [|apply B]. apply (b_enum _ _ B) in I as (c & es & t & I & ->). reflexivity. }
    rewrite (map_ext_in _ _ _ X). exact (keys_nodup _ (b_es _ _ B)).
  - intros n. split.
    + intros [ms I]. destruct (proj2 (b_struct _ _ B n)) as [s0 E]; [eauto|].
      destruct (mfind n (i_structs j)) as [s|] eqn:F.
      * exists s. split; [apply in_map_iff; exists (n, s); split; [reflexivity|now apply in_sorted]|].
        destruct (built_struct ds i n s B N F) as (ms' & _ & X & _). exact X.
      * unfold j in F. rewrite resolved_find, E in F. discriminate.
    + intros (s & I & <-). apply in_map_iff in I as ([k s'] & <- & I). cbn [snd]. rewrite (NM _ _ I). apply in_sorted in I; [|exact SJ].
      destruct (built_struct ds i k s' B N I) as (ms & J & _). eauto.
  - intros s I. apply in_map_iff in I as ([k s'] & <- & I). cbn [snd]. rewrite (NM _ _ I). apply in_sorted in I; [|exact SJ].
    destruct (built_struct ds i k s' B N I) as (ms & J & _ & E1 & E2). eauto.
  - rewrite map_map. rewrite (map_ext_in _ fst); [exact (keys_nodup _ SJ)|]. intros [n s] I. now apply NM.
Qed.

(** With all types known the store can be used for a further section. *)
Lemma built_again ds i : built ds i -> NoDup (map def_name ds) -> closed ds -> built ds (find_top (fst (fixup i))).
Proof.
  intros B N C. constructor.
  - apply resolved_sorted, B.
  - exact (b_es _ _ B).
  - exact (b_enum _ _ B).
  - intros n. rewrite <- (b_struct _ _ B n). rewrite resolved_find. destruct (mfind n (i_structs i)); cbn; split; intros [s1 H]; eauto; discriminate.
  - intros n s H. destruct (built_struct ds i n s B N H) as (ms & I & A1 & A2 & ->). exists ms. split; [exact I|]. split; [exact A1|]. split; [exact A2|].
    assert (K : forall t x d, In (MUser t x d) ms -> kind_in ds t <> unknown_E) by (intros t x d; now apply C with (n := n)).
    clear - K. induction ms as [|m ms IH]; [constructor|]. 
    assert (IH' : Forall2 (state ds) (complexes ms) (resolved_members ds ms)) by (apply IH; intros t x d I; apply (K t x d); now right).
    destruct m as [ty n d|t n d|t n]; cbn [complexes resolved_members flat_map app]; [exact IH'| |]; constructor; try exact IH'.
    + split; [|split]; auto. right. split; [reflexivity|]. split; [reflexivity|]. apply (K t n d). now left.
    + apply state_refl.
Qed.

(** Headers that compile are closed. *)
Lemma header_closed rd wr ds : header_ok rd wr ds = true -> closed ds.
Proof.
  intros OK n ms t x d I J. destruct (struct_parts rd wr ds OK n ms I) as (_ & k & r & E & M).
  specialize (M _ J). unfold member_ok in M. apply andb_prop in M as [_ M].
  rewrite E. rewrite kind_app; [destruct (kind_in k t); discriminate| |destruct (kind_in k t); discriminate].
  rewrite <- E. exact (names_nodup rd wr ds OK).
Qed.

(** *** Entry points *)
(** [n] is the type of a member, or of the elements of a vector member, of a struct. *)
Definition used (ds : list def) (n : string) : Prop :=
  exists m ms x, In (DefStruct m ms) ds /\ (In (MVector n x) ms \/ exists d, In (MUser n x d) ms).
Lemma in_resolved ds ms c : In c (resolved_members ds ms) <->
  exists m, In m ms /\ match m with MSimple _ _ _ => False | MUser t n _ => c = Complex (kind_in ds t) t n | MVector t n => c = Complex vector_E t n end.
Proof.
  unfold resolved_members. rewrite in_flat_map. split.
  - intros (m & I & H). exists m. split; [exact I|]. destruct m; cbn in H; intuition.
  - intros (m & I & H). exists m. split; [exact I|]. destruct m; cbn; intuition.
Qed.
Lemma built_top ds i x b n s : built ds i -> reach b (Heap i x) -> NoDup (map def_name ds) ->
  mfind n (i_structs (find_top (fst (fixup i)))) = Some s -> (s_incoming s = 0 <-> ~ used ds n).
Proof.
  intros B R N H. rewrite (top_spec b (Heap (fst (fixup i)) x) n s (R_fixup _ _ R) H). cbn [h_self].
  assert (X : referenced (find_top (fst (fixup i))) n <-> used ds n); [|tauto].
  destruct (built_struct ds i n s B N H) as (ms0 & I0 & _). assert (K : kind_in ds n = struct_E) by (apply kind_struct; eauto).
  split.
  - intros (m & sm & c & F & Ic & T & <-). destruct (built_struct ds i m sm B N F) as (ms & I & _ & _ & E). rewrite E in Ic.
    apply in_resolved in Ic as (mb & J & Em). exists m, ms. destruct mb as [ty y d|t y d|t y]; [contradiction| |]; subst c; cbn in *.
    + exists y. split; [exact I|]. right. eauto.
    + exists y. split; [exact I|]. left. exact J.
  - intros (m & ms & y & I & U).
    destruct (proj2 (b_struct _ _ B m)) as [s0 E0]; [eauto|].
    destruct (mfind m (i_structs (find_top (fst (fixup i))))) as [sm|] eqn:F; [|rewrite resolved_find, E0 in F; discriminate].
    destruct (built_struct ds i m sm B N F) as (ms' & I' & _ & _ & E).
    assert (ms' = ms).
    { pose proof (find_struct_some ds m ms N I). pose proof (find_struct_some ds m ms' N I'). congruence. }
    subst ms'. exists m. destruct U as [U|[d U]].
    + exists sm, (Complex vector_E n y). split; [exact F|]. rewrite E, in_resolved. split; [exists (MVector n y); auto|]. cbn. auto.
    + exists sm, (Complex struct_E n y). split; [exact F|]. rewrite E, in_resolved. split; [exists (MUser n y d); now rewrite K|]. cbn. auto.
Qed.

(** *** Names *)
Lemma linked_struct_ok rd wr ds enums ss : header_ok rd wr ds = true -> linked ds enums ss -> forallb struct_ok ss = true.
Proof.
  intros OK LK. apply forallb_forall. intros s I. destruct (lk_struct _ _ _ LK s I) as (ms & J & E1 & E2).
  destruct (ok_parts rd wr ds OK) as (_ & TF & _). destruct (struct_parts rd wr ds OK _ _ J) as (_ & k & r & E & M).
  unfold struct_ok. rewrite E1, E2. apply andb_true_intro. split; [apply andb_true_intro; split|].
  - apply (TF _ J).
  - apply forallb_forall. intros c Ic. unfold simples in Ic. apply in_flat_map in Ic as (m & Im & Ic).
    specialize (M _ Im). unfold member_ok in M. apply andb_prop in M as [M _]. destruct m; cbn in Ic; intuition. subst c. exact M.
  - apply forallb_forall. intros c Ic. apply in_resolved in Ic as (m & Im & Ec).
    specialize (M _ Im). unfold member_ok in M. apply andb_prop in M as [M1 M2]. unfold complex_ok.
    destruct m as [ty y d|t y d|t y]; [contradiction| |]; subst c; cbn [sc_name sc_tname member_name] in *; rewrite M1; cbn [andb].
    + assert (K : kind_in ds t <> unknown_E) by (eapply header_closed; eauto). apply kind_known, in_map_iff in K as (d' & <- & Id).
      apply (TF _ Id).
    + destruct (find_struct ds t) as [ms'|] eqn:F; [|discriminate]. apply find_struct_in in F. apply (TF _ F).
Qed.
Lemma linked_enum_ok rd wr ds enums ss : header_ok rd wr ds = true -> linked ds enums ss -> forallb enum_ok enums = true.
Proof.
  intros OK LK. apply forallb_forall. intros e I. apply (lk_enums _ _ _ LK) in I as (c & n & es & t & I & ->).
  destruct (ok_parts rd wr ds OK) as (_ & TF & _). destruct (enum_parts rd wr ds OK _ _ _ _ I) as (_ & P & _).
  unfold enum_ok, enum_of. cbn. apply andb_true_intro. split; [apply (TF _ I)|].
  apply forallb_forall. intros l Il. apply in_map_iff in Il as (x & <- & Ix). unfold entry_line. destruct (en_val x); apply P, Ix.
Qed.

(** *** The files contain the functions of the program *)
Lemma program_text b ds i inputs o ecpp eh cpp h stamp info : built ds i -> header_ok (o_reader o) (o_writer o) ds = true ->
  plain (o_enum_file o) = true -> forallb plain inputs = true -> plain ecpp = true -> plain eh = true ->
  plain cpp = true -> plain h = true -> plain stamp = true -> stfx_info stamp = Some info ->
  let j := find_top (fst (fixup i)) in
  let enums := map snd (i_enums j) in let ss := map snd (i_structs j) in
  linked ds enums ss /\
  (exists t, render T_cpp (enum_files j inputs ecpp eh info) = Some t /\ read_cpp t = Some (flat_map enum_funs enums)) /\
  (exists t, render T_cpp (fst (struct_files b j inputs o cpp h info)) = Some t /\ read_cpp t = Some (file_funs b ss o)) /\
  (exists t, render T_h (enum_files j inputs ecpp eh info) = Some t /\ read_h t = Some (enum_header (map e_name enums))) /\
  (exists t, render T_h (fst (struct_files b j inputs o cpp h info)) = Some t /\ read_h t = Some (struct_header b ss o)) /\
  dirs T_cpp (enum_files j inputs ecpp eh info) (enum_cpp_includes eh inputs) /\
  dirs T_h (enum_files j inputs ecpp eh info) (enum_h_includes inputs) /\
  dirs T_cpp (fst (struct_files b j inputs o cpp h info)) (struct_cpp_includes b (o_only_read o) h (o_enum_file o) inputs) /\
  dirs T_h (fst (struct_files b j inputs o cpp h info)) (struct_h_includes b inputs).
Proof.
  intros B OK P1 P2 P3 P4 P5 P6 P7 SI j enums ss. pose proof (built_linked ds i B (names_nodup _ _ _ OK)) as LK. fold j in LK.
  assert (SO : spec_ok o = true).
  { unfold spec_ok. destruct (ok_parts _ _ _ OK) as (_ & _ & _ & C1 & C2 & _). unfold class_ok in C1, C2.
    apply andb_prop in C1 as [-> _]. apply andb_prop in C2 as [-> _]. exact P1. }
  assert (SS : forallb struct_ok ss = true) by (eapply linked_struct_ok; eauto).
  assert (EE : forallb enum_ok enums = true) by (eapply linked_enum_ok; eauto).
  split; [exact LK|]. split; [|split; [|split; [|split; [|split; [|split; [|split]]]]]].
  - now apply (read_enum_file j inputs ecpp eh stamp info).
  - now apply (read_struct_file b j inputs o cpp h stamp info).
  - now apply (read_enum_header j inputs ecpp eh stamp info).
  - now apply (read_struct_header b j inputs o cpp h stamp info).
  - now apply enum_cpp_dirs with stamp.
  - now apply enum_h_dirs with stamp.
  - now apply struct_cpp_dirs with stamp.
  - now apply struct_h_dirs with stamp.
Qed.
