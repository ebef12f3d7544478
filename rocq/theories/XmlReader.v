(** The generated reader functions, called anywhere in the generated program. *)
From Coq Require Import String Ascii ZArith NArith Arith List Bool Lia.
From Verif Require Import Base Map Items Grammar Fmt Decimal Templates Emit Cpp Xml Val CppSem SymLex Ast StoreDefs ResolveProps Prog Header EnumSem DecText EnumCall XmlSpec XmlRdSimple XmlRead.
Import ListNotations.
Local Open Scope string_scope.
Local Open Scope list_scope.

Lemma run_list_app ex a b s : run_list ex (a ++ b) s =
  match run_list ex a s with
  | Ok k s => match k with CNext => run_list ex b s | _ => Ok k s end
  | Exc s => Exc s | UB => UB | Bad => Bad | Fuel => Fuel
  end.
Proof.
  revert s. induction a as [|c a IH]; intros s; [reflexivity|]. cbn [app run_list]. destruct (ex c s) as [k s1|s1| | |]; try reflexivity.
  destruct k; try reflexivity. apply IH.
Qed.

(** *** Initialisation gives objects of the type *)
(** The initialisers of members fit their types. *)
Definition lits_fit (L : lang) : Prop := forall n ms m ty v,
  In (DefStruct n ms) (l_defs L) -> In m ms -> member_type L m = Some ty -> member_dflt m = Default v -> fits L (l_lit L ty v) ty = true.

Lemma kind_struct_in k u : kind_in k u = struct_E -> exists k1 ms k2, k = k1 ++ DefStruct u ms :: k2.
Proof.
  unfold kind_in. destruct (existsb (is_struct u) k) eqn:E; [|destruct (existsb (is_enum u) k); intros H; discriminate H]. intros _.
  apply existsb_exists in E as (d & I & D). apply in_split in I as (k1 & k2 & ->). destruct d as [c n es t|n ms]; cbn in D; [congruence|].
  apply String.eqb_eq in D. subst. eauto.
Qed.
Lemma kind_enum_in k u : kind_in k u = enum_E -> exists c es t, In (DefEnum c u es t) k.
Proof.
  unfold kind_in. destruct (existsb (is_struct u) k); [discriminate|]. destruct (existsb (is_enum u) k) eqn:E; [|discriminate]. intros _.
  apply existsb_exists in E as (d & I & D). destruct d as [c n es t|n ms]; cbn in D; [|congruence].
  apply String.eqb_eq in D. subst. eauto.
Qed.

Section Init.
  Variables (rd wr : string) (ds : list def).
  Hypothesis OK : header_ok rd wr ds = true.
  Variable L : lang.
  Hypothesis LD : l_defs L = ds.
  Hypothesis LL : (0 < l_long L)%Z.
  Hypothesis LF : lits_fit L.

  Lemma zero_kind k : to_kind L k 0 = 0%Z.
  Proof.
    destruct k; cbn [to_kind]; try reflexivity; unfold wrap; cbn [bits signed andb]; rewrite Z.mod_0_l; try reflexivity;
    try (apply Z.pow_nonzero; lia).
    assert (0 < 2 ^ (l_long L - 1))%Z by (apply Z.pow_pos_nonneg; lia).
    destruct (Z.leb_spec (2 ^ (l_long L - 1)) 0); [lia|reflexivity].
  Qed.
  Lemma ty_eqb_refl t : may_be_undef t = true -> ty_eqb t t = true.
  Proof. destruct t; try discriminate; cbn; intros _; [now destruct k|now destruct k|apply String.eqb_refl]. Qed.

  Definition plain (t : ty) : bool := match t with TNum _ | TFlt _ | TStd | TEnum _ | TVec _ => true | _ => false end.
  Lemma init_plain t f zero : plain t = true -> exists v, init L f zero t = Some v /\ fits L v t = true.
  Proof.
    destruct t; try discriminate; intros _; destruct f; cbn [init]; eexists; (split; [reflexivity|]);
    (destruct zero; cbn [fits ty_eqb may_be_undef andb forallb]; rewrite ?zero_kind, ?String.eqb_refl, ?Z.eqb_refl; try reflexivity; try (destruct k; reflexivity)).
  Qed.

  Lemma init_ok f : forall n ms k r zero, ds = k ++ DefStruct n ms :: r -> length k < f ->
    exists fs, init L f zero (TStruct n) = Some (VStruct n fs) /\ fits L (VStruct n fs) (TStruct n) = true.
  Proof.
    induction f as [|f IH]; intros n ms k r zero E LE; [lia|].
    assert (IN : In (DefStruct n ms) ds) by (rewrite E; apply in_or_app; cbn; auto).
    assert (FS : find_struct (l_defs L) n = Some ms) by (rewrite LD; now apply (struct_iff rd wr ds OK)).
    cbn [init]. rewrite FS.
    destruct (struct_parts rd wr ds OK n ms IN) as (ND & k' & r' & E' & MO).
    assert (k' = k).
    { pose proof (names_nodup rd wr ds OK) as N. clear - E E' N. rewrite E in E', N. clear E. revert k' E' N. induction k as [|d k IHk]; intros [|d' k'] E' N; cbn in *.
      - reflexivity.
      - injection E' as <- E'. exfalso. apply NoDup_cons_iff in N as [N _]. apply N. rewrite E', map_app. apply in_or_app. cbn. auto.
      - injection E' as -> E'. exfalso. apply NoDup_cons_iff in N as [N _]. apply N. rewrite map_app. apply in_or_app. cbn. auto.
      - injection E' as <- E'. f_equal. apply IHk; [exact E'|]. now apply NoDup_cons_iff in N. }
    subst k'. clear r' E'.
    assert (MS : forall l, incl l ms -> exists fs, init_members L (init L f) zero l = Some fs /\ fields_fit L l (map (fun p => (fst p, fits L (snd p))) fs) = true).
    { induction l as [|m l IHl]; intros INC; [exists []; auto|].
      destruct IHl as (fs & F1 & F2); [intros x X; apply INC; now right|].
      assert (IM : In m ms) by (apply INC; now left).
      assert (exists ty v, member_type L m = Some ty /\ init_member L (init L f) zero m = Some v /\ fits L v ty = true) as (ty & v & MT & I1 & I2).
      { specialize (MO m IM). unfold member_ok in MO. apply andb_true_iff in MO as [_ MO].
        assert (TY : exists ty, member_type L m = Some ty /\ forall z, exists v, init L f z ty = Some v /\ fits L v ty = true).
        { destruct m as [st x d|u x d|u x]; cbn [member_type].
          - exists (kind_of st). split; [reflexivity|]. intros z. apply init_plain. destruct st; reflexivity.
          - destruct (kind_in k u) eqn:KI; try discriminate.
            + exists (TEnum u). split; [|intros z; now apply init_plain]. apply kind_enum_in in KI as (c & es & t & I).
              eapply (user_enum rd wr ds OK L LD); rewrite E; apply in_or_app; eauto.
            + apply kind_struct_in in KI as (k1 & ms1 & k2 & K). exists (TStruct u). subst k. rewrite <- app_assoc in E. cbn in E. split.
              * eapply (user_struct rd wr ds OK L LD). rewrite E. apply in_or_app. cbn. eauto.
              * intros z. destruct (IH u ms1 k1 _ z E) as (fu & A1 & A2); [rewrite app_length in LE; cbn in LE; lia|]. eauto.
          - exists (TVec u). split; [reflexivity|]. intros z. now apply init_plain. }
        destruct TY as (ty & MT & TY). exists ty. unfold init_member. rewrite MT. destruct (member_dflt m) eqn:MD.
        - destruct (TY zero) as (v & ? & ?). eauto.
        - destruct (TY true) as (v & ? & ?). eauto.
        - eexists. split; [reflexivity|]. split; [reflexivity|]. eapply LF; eauto. rewrite LD. exact IN. }
      exists ((member_name m, v) :: fs). cbn [init_members]. rewrite I1, F1. split; [reflexivity|].
      cbn [map fst snd fields_fit]. now rewrite String.eqb_refl, MT, I2, F2. }
    destruct (MS ms (incl_refl _)) as (fs & F1 & F2). rewrite F1. exists fs. split; [reflexivity|].
    cbn [fits ty_eqb]. rewrite String.eqb_refl, FS. exact F2.
  Qed.
  Lemma init_struct n ms : In (DefStruct n ms) ds ->
    exists d, init L (init_fuel L) false (TStruct n) = Some (VStruct n d) /\ fits L (VStruct n d) (TStruct n) = true.
  Proof.
    intros I. apply in_split in I as (k & r & E). eapply init_ok; [exact E|]. unfold init_fuel. rewrite LD, E, app_length. cbn. lia.
  Qed.
End Init.

(** *** One member after the other, in any order *)
Section Seq.
  Variables (L : lang) (b : form) (a : list (string * string)) (sub : list (node * reading)).
  Fixpoint read_seq (ms : list member) (fs : list (string * val)) : option (list (string * val)) :=
    match ms with
    | [] => Some fs
    | m :: r =>
        let? old := assoc (member_name m) fs in
        let? v := read_member L b a sub m old in
        read_seq r (set_assoc (member_name m) v fs)
    end.
  Lemma read_seq_app ms ms' : forall fs, read_seq (ms ++ ms') fs = let? fs1 := read_seq ms fs in read_seq ms' fs1.
  Proof.
    induction ms as [|m ms IH]; intros fs; [reflexivity|]. cbn [app read_seq]. destruct (assoc (member_name m) fs); [|reflexivity].
    destruct (read_member L b a sub m v); auto.
  Qed.
  Lemma read_seq_other ms : forall fs fs' n, read_seq ms fs = Some fs' -> ~ In n (map member_name ms) -> assoc n fs' = assoc n fs.
  Proof.
    induction ms as [|m ms IH]; intros fs fs' n; cbn [read_seq map In]; [intros [= ->]; auto|].
    destruct (assoc (member_name m) fs) as [old|]; [|discriminate]. destruct (read_member L b a sub m old) as [v|]; [|discriminate].
    intros H N. rewrite (IH _ _ _ H) by tauto. apply assoc_set_other. apply eqb_neq. intros ->. tauto.
  Qed.
  Lemma set_assoc_keys {A} n (v : A) l : In n (map fst l) -> map fst (set_assoc n v l) = map fst l.
  Proof.
    induction l as [|[k w] l IH]; cbn; [contradiction|]. destruct (String.eqb_spec n k) as [->|]; [reflexivity|].
    intros [H|H]; [congruence|]. cbn. now rewrite IH.
  Qed.
  Lemma assoc_key {A} n (v : A) l : assoc n l = Some v -> In n (map fst l).
  Proof. intros H. apply assoc_some in H. apply (in_map fst) in H. exact H. Qed.
  Lemma read_seq_keys ms : forall fs fs', read_seq ms fs = Some fs' -> map fst fs' = map fst fs.
  Proof.
    induction ms as [|m ms IH]; intros fs fs'; cbn [read_seq]; [now intros [= ->]|].
    destruct (assoc (member_name m) fs) as [old|] eqn:A; [|discriminate]. destruct (read_member L b a sub m old) as [v|]; [|discriminate].
    intros H. rewrite (IH _ _ H). apply set_assoc_keys. eapply assoc_key; eauto.
  Qed.
  Lemma read_seq_member ms : NoDup (map member_name ms) -> forall fs fs' m, read_seq ms fs = Some fs' -> In m ms ->
    exists old v, assoc (member_name m) fs = Some old /\ read_member L b a sub m old = Some v /\ assoc (member_name m) fs' = Some v.
  Proof.
    induction ms as [|m0 ms IH]; intros ND fs fs' m; cbn [read_seq map In]; [tauto|]. apply NoDup_cons_iff in ND as [N ND].
    destruct (assoc (member_name m0) fs) as [old|] eqn:A; [|discriminate]. destruct (read_member L b a sub m0 old) as [v|] eqn:R; [|discriminate].
    intros H [<-|I].
    - exists old, v. repeat split; auto. rewrite (read_seq_other _ _ _ _ H N). apply assoc_set_same.
    - destruct (IH ND _ _ m H I) as (o & v' & A1 & A2 & A3). exists o, v'. repeat split; auto.
      rewrite assoc_set_other in A1; [exact A1|]. apply eqb_neq. intros X. apply N. rewrite <- X. now apply in_map.
  Qed.
  Lemma read_seq_none ms : NoDup (map member_name ms) -> forall fs, read_seq ms fs = None ->
    exists m, In m ms /\ (assoc (member_name m) fs = None \/ exists old, assoc (member_name m) fs = Some old /\ read_member L b a sub m old = None).
  Proof.
    induction ms as [|m0 ms IH]; intros ND fs; cbn [read_seq map]; [discriminate|]. apply NoDup_cons_iff in ND as [N ND].
    destruct (assoc (member_name m0) fs) as [old|] eqn:A; [|intros _; exists m0; split; [now left|now left]].
    destruct (read_member L b a sub m0 old) as [v|] eqn:R; [|intros _; exists m0; split; [now left|right; exists old; auto]].
    intros H. destruct (IH ND _ H) as (m & I & D). exists m. split; [now right|].
    rewrite assoc_set_other in D; [exact D|]. apply eqb_neq. intros X. apply N. rewrite <- X. now apply in_map.
  Qed.
  Lemma assoc_ext {A} (l l' : list (string * A)) : map fst l = map fst l' -> NoDup (map fst l) -> (forall n, In n (map fst l) -> assoc n l = assoc n l') -> l = l'.
  Proof.
    revert l'. induction l as [|[k v] l IH]; intros [|[k' v'] l']; cbn [map fst]; try discriminate; [reflexivity|].
    intros [= <- E] ND H. apply NoDup_cons_iff in ND as [N ND]. pose proof (H k (or_introl eq_refl)) as K. cbn in K. rewrite String.eqb_refl in K. injection K as <-.
    f_equal. apply IH; auto. intros n I. pose proof (H n (or_intror I)) as J. cbn [assoc] in J.
    destruct (String.eqb_spec n k) as [X|X]; [subst n; contradiction|exact J].
  Qed.

  Lemma read_members_keys ms : forall fs fs', map fst fs = map member_name ms -> read_members L b a sub ms fs = Some fs' -> map fst fs' = map fst fs.
  Proof.
    induction ms as [|m ms IH]; intros [|[n old] fs] fs' E; try discriminate; cbn; [now intros [= <-]|].
    destruct (read_member L b a sub m old); [|discriminate]. destruct (read_members L b a sub ms fs) eqn:R; [|discriminate]. intros [= <-].
    cbn in *. injection E as _ E. now rewrite (IH _ _ E R).
  Qed.
  Lemma read_members_member ms : NoDup (map member_name ms) -> forall fs fs' m, map fst fs = map member_name ms -> read_members L b a sub ms fs = Some fs' -> In m ms ->
    exists old v, assoc (member_name m) fs = Some old /\ read_member L b a sub m old = Some v /\ assoc (member_name m) fs' = Some v.
  Proof.
    induction ms as [|m0 ms IH]; intros ND [|[n old] fs] fs' m E; cbn [map fst read_members In] in *; try discriminate; try tauto.
    apply NoDup_cons_iff in ND as [N ND]. injection E as -> E.
    destruct (read_member L b a sub m0 old) as [v|] eqn:R; [|discriminate]. destruct (read_members L b a sub ms fs) as [fs1|] eqn:RM; [|discriminate].
    intros [= <-] [<-|I].
    - exists old, v. cbn. now rewrite String.eqb_refl.
    - destruct (IH ND _ _ m E RM I) as (o & v' & A1 & A2 & A3). exists o, v'. cbn [assoc].
      destruct (String.eqb_spec (member_name m) (member_name m0)) as [X|]; [|auto]. exfalso. apply N. rewrite <- X. now apply in_map.
  Qed.
  Lemma read_members_none ms : NoDup (map member_name ms) -> forall fs, map fst fs = map member_name ms -> read_members L b a sub ms fs = None ->
    exists m old, In m ms /\ assoc (member_name m) fs = Some old /\ read_member L b a sub m old = None.
  Proof.
    induction ms as [|m0 ms IH]; intros ND [|[n old] fs] E; cbn [map fst read_members] in *; try discriminate.
    apply NoDup_cons_iff in ND as [N ND]. injection E as -> E.
    destruct (read_member L b a sub m0 old) as [v|] eqn:R; [|intros _; exists m0, old; cbn; rewrite String.eqb_refl; auto].
    destruct (read_members L b a sub ms fs) as [fs1|] eqn:RM; [discriminate|]. intros _.
    destruct (IH ND _ E RM) as (m & o & I & A1 & A2). exists m, o. split; [now right|]. cbn [assoc].
    destruct (String.eqb_spec (member_name m) (member_name m0)) as [X|]; [|auto]. exfalso. apply N. rewrite <- X. now apply in_map.
  Qed.

  Lemma in_order_in m ms : In m (in_order ms) <-> In m ms.
  Proof.
    unfold in_order. rewrite in_app_iff, !filter_In. destruct (is_simple m); cbn; tauto.
  Qed.
  Lemma in_order_names ms : NoDup (map member_name ms) -> NoDup (map member_name (in_order ms)).
  Proof.
    intros ND. unfold in_order. rewrite map_app. apply nodup_app.
    assert (F : forall p, NoDup (map member_name (filter p ms))).
    { intros p. induction ms as [|m l IH]; [constructor|]. cbn [map filter] in *. apply NoDup_cons_iff in ND as [N ND]. destruct (p m); [|auto].
      cbn. constructor; [|auto]. intros X. apply N. apply in_map_iff in X as (y & <- & Y). apply filter_In in Y as [Y _]. now apply in_map. }
    repeat split; auto. intros x X Y. apply in_map_iff in X as (m & <- & X). apply in_map_iff in Y as (m' & E & Y).
    apply filter_In in X as [X1 X2]. apply filter_In in Y as [Y1 Y2].
    assert (m' = m); [|subst; rewrite X2 in Y2; discriminate].
    clear - ND X1 Y1 E. induction ms as [|m0 l IH]; [contradiction|]. cbn [map] in ND. apply NoDup_cons_iff in ND as [N ND].
    destruct X1 as [->|X1], Y1 as [->|Y1]; auto; exfalso; apply N; [rewrite <- E | rewrite E]; now apply in_map.
  Qed.

  Lemma seq_in_order ms fs : NoDup (map member_name ms) -> map fst fs = map member_name ms ->
    read_seq (in_order ms) fs = read_members L b a sub ms fs.
  Proof.
    intros ND E. pose proof (in_order_names ms ND) as ND'.
    destruct (read_seq (in_order ms) fs) as [f1|] eqn:R1; destruct (read_members L b a sub ms fs) as [f2|] eqn:R2; try reflexivity.
    - f_equal. pose proof (read_seq_keys _ _ _ R1) as K1. pose proof (read_members_keys _ _ _ E R2) as K2.
      apply assoc_ext; [congruence|rewrite K1, E; exact ND|]. intros n I. rewrite K1, E in I. apply in_map_iff in I as (m & <- & I).
      destruct (read_seq_member _ ND' _ _ m R1 (proj2 (in_order_in m ms) I)) as (o & v & A1 & A2 & ->).
      destruct (read_members_member _ ND _ _ m E R2 I) as (o' & v' & B1 & B2 & ->). congruence.
    - exfalso. destruct (read_members_none _ ND _ E R2) as (m & o & I & A1 & A2).
      destruct (read_seq_member _ ND' _ _ m R1 (proj2 (in_order_in m ms) I)) as (o' & v & B1 & B2 & _). congruence.
    - exfalso. destruct (read_seq_none _ ND' _ R1) as (m & I & D). apply (proj1 (in_order_in m ms)) in I.
      destruct (read_members_member _ ND _ _ m E R2 I) as (o' & v & B1 & B2 & _). destruct D as [D|(o & D1 & D2)]; congruence.
  Qed.
End Seq.

(** *** The body of a reader function *)
Section Body.
  Variables (L : lang) (call : list string -> list arg -> st -> res val) (cls : string) (mf : string -> bool) (wf : nat) (b : form).
  Notation ex := (run_list (exec L call cls mf wf)).
  Hypothesis EN : enumerator L "tinyxml2" "XML_SUCCESS" = None.
  Hypothesis EC : forall u c es, find_enum (l_defs L) u = Some (c, es) -> forall lv v x l old s, text_arg v x -> get_lv l s = Some old -> ty_of old = TEnum u ->
    to_call L u es l x s (call ["stfx"; "s_to_e"] [(lv, v); (Some l, old)] s).
  Hypothesis MF : forall u, find_struct (l_defs L) u <> None -> mf (pre_do u) = true.
  Hypothesis LL : (0 < l_long L)%Z.
  Hypothesis UF : user_type L "find_element" = None.
  Hypothesis MFF : mf "find_element" = false.
  Variables (x : node) (w : world) (t : string).
  Hypothesis RD1 : forall y, In y (kids_of x) -> rd_ok L call cls b y.
  Hypothesis RD2 : forall y z, In y (kids_of x) -> In z (kids_of y) -> rd_ok L call cls b z.
  Notation sub := (map (fun k => (k, reading_of L b k)) (kids_of x)).

  Lemma seq_ok k q : forall ms c fs, NoDup (map member_name ms) -> ty_of c = TEl ->
    (forall m, In m ms -> member_good L mf m /\ k_ok L b k m /\ member_fits L fs m) ->
    match read_seq L b (attrs_of x) sub ms fs with
    | Some fs' => exists c', ty_of c' = TEl /\ ex (flat_map (rd_stmts L b) ms) (rst k q c t fs x w) = Ok CNext (rst k q c' t fs' x w)
    | None => ex (flat_map (rd_stmts L b) ms) (rst k q c t fs x w) = UB
    end.
  Proof.
    induction ms as [|m ms IH]; intros c fs ND TC H; [exists c; auto|]. cbn [map] in ND. apply NoDup_cons_iff in ND as [N ND].
    cbn [read_seq flat_map]. destruct (H m (or_introl eq_refl)) as (MG & KO & MI). pose proof MI as (old & ty & AS & MT & FI). rewrite AS.
    pose proof (member_step L call cls mf wf b EN EC MF LL UF MFF k q c t fs x w m old TC MG KO AS MI RD1 RD2) as ST. unfold after in ST.
    rewrite run_list_app. destruct (read_member L b (attrs_of x) sub m old) as [v|]; [|now rewrite ST].
    destruct ST as (c1 & TC1 & ->). apply IH; auto. intros m' I. destruct (H m' (or_intror I)) as (A1 & A2 & (o & ty' & A3 & A4 & A5)).
    split; [exact A1|]. split; [exact A2|]. exists o, ty'. rewrite assoc_set_other; auto. apply eqb_neq. intros X. apply N. rewrite <- X. now apply in_map.
  Qed.

  Lemma simple_stmts ms : flat_map (rd_simple b) (simples ms) = flat_map (rd_stmts L b) (filter is_simple ms).
  Proof. unfold simples. induction ms as [|m ms IH]; [reflexivity|]. destruct m; cbn [flat_map filter is_simple app]; [|exact IH|exact IH]. cbn [rd_stmts]. now rewrite <- IH. Qed.
  Lemma complex_stmts ms : flat_map (rd_complex b) (resolved_members (l_defs L) ms) = flat_map (rd_stmts L b) (filter (fun m => negb (is_simple m)) ms).
  Proof. unfold resolved_members. induction ms as [|m ms IH]; [reflexivity|]. destruct m; cbn [flat_map filter is_simple negb app]; [exact IH| |]; cbn [rd_stmts]; now rewrite <- IH. Qed.

  Definition rd_body (s : struct_S) : list stmt := match b with Attributes => xa_rd_body s | Elements => xm_rd_body s end.
  Variables (ms : list member) (s : struct_S) (fs : list (string * val)).
  Hypothesis SS : s_simple s = simples ms.
  Hypothesis SC : s_complex s = resolved_members (l_defs L) ms.
  Hypothesis MG : forall m, In m ms -> member_good L mf m.
  Hypothesis ND : NoDup (map member_name ms).
  Hypothesis KEYS : map fst fs = map member_name ms.
  Hypothesis MI : forall m, In m ms -> member_fits L fs m.

  Lemma fits_after ms1 fs1 m : read_seq L b (attrs_of x) sub ms1 fs = Some fs1 -> ~ In (member_name m) (map member_name ms1) -> In m ms -> member_fits L fs1 m.
  Proof.
    intros R N I. destruct (MI m I) as (o & ty & A1 & A2 & A3). exists o, ty. rewrite (read_seq_other _ _ _ _ _ _ _ _ R N). auto.
  Qed.
  Lemma no_children m : has_children (s_complex s) = false -> In m ms -> is_simple m = false -> is_scalar L m = true.
  Proof.
    rewrite SC. unfold has_children, resolved_members. intros H I S. specialize (MG m I) as (_ & G). rewrite <- not_true_iff_false, existsb_exists in H.
    destruct m as [|u n d|u n]; [discriminate| |].
    - cbn [is_scalar]. destruct G as [(c & es & -> & _)|(-> & K)]; [reflexivity|]. exfalso. apply H. exists (Complex struct_E u n). split; [|reflexivity].
      apply in_flat_map. exists (MUser u n d). rewrite K. cbn. auto.
    - exfalso. apply H. exists (Complex vector_E u n). split; [|reflexivity]. apply in_flat_map. exists (MVector u n). cbn. auto.
  Qed.

  Lemma rd_body_ok q : match read_members L b (attrs_of x) sub ms fs with
    | Some fs' => exists k c, ex (rd_body s) (St [base t fs] x (this_of q) w) = Ok (CRet (vbool true)) (rst k q c t fs' x w)
    | None => ex (rd_body s) (St [base t fs] x (this_of q) w) = UB
    end.
  Proof.
    rewrite <- (seq_in_order L b (attrs_of x) sub ms fs ND KEYS). unfold in_order. rewrite read_seq_app.
    pose proof (in_order_names ms ND) as ND'. unfold in_order in ND'. rewrite map_app in ND'. apply nodup_app in ND' as (N1 & N2 & N3).
    assert (IS : forall m, In m (filter is_simple ms) -> In m ms /\ is_simple m = true) by (intros m I; now apply filter_In in I).
    assert (IC : forall m, In m (filter (fun m => negb (is_simple m)) ms) -> In m ms /\ is_simple m = false) by (intros m I; apply filter_In in I as [I J]; now apply negb_true_iff in J).
    assert (B : b = Attributes \/ b = Elements) by (destruct b; auto).
    destruct B as [B|B].
    - replace (rd_body s) with (xa_rd_body s) by (unfold rd_body; now rewrite B). unfold xa_rd_body. rewrite SS, SC.
      replace (flat_map xa_rd_simple (simples ms)) with (flat_map (rd_stmts L b) (filter is_simple ms)) by (rewrite <- simple_stmts; unfold rd_simple; now rewrite B).
      replace (flat_map xa_rd_complex (resolved_members (l_defs L) ms)) with (flat_map (rd_stmts L b) (filter (fun m => negb (is_simple m)) ms)) by (rewrite <- complex_stmts; unfold rd_complex; now rewrite B).
      rewrite run_list_app. assert (ex [s_rv] (St [base t fs] x (this_of q) w) = Ok CNext (rst F0 q (VUndef TEl) t fs x w)) as -> by (destruct q; reflexivity). cbn iota. rewrite run_list_app.
      pose proof (seq_ok F0 q (filter is_simple ms) (VUndef TEl) fs N1 eq_refl) as S1.
      destruct (read_seq L b (attrs_of x) sub (filter is_simple ms) fs) as [fs1|] eqn:R1.
      2:{ rewrite S1; [reflexivity|]. intros m I. apply IS in I as [I J]. split; [now apply MG|]. split; [|now apply MI]. unfold k_ok. rewrite B. destruct m; try discriminate. reflexivity. }
      destruct S1 as (c1 & TC1 & ->).
      { intros m I. apply IS in I as [I J]. split; [now apply MG|]. split; [|now apply MI]. unfold k_ok. rewrite B. destruct m; try discriminate. reflexivity. }
      rewrite run_list_app.
      assert (exists k, ex (ch_el_decl (resolved_members (l_defs L) ms)) (rst F0 q c1 t fs1 x w) = Ok CNext (rst k q (VUndef TEl) t fs1 x w) /\
                (forall m, In m (filter (fun m => negb (is_simple m)) ms) -> k_ok L b k m)) as (k & -> & KO).
      { unfold ch_el_decl. rewrite <- SC. destruct (has_children (s_complex s)) eqn:HC.
        - exists FA. split; [destruct q; reflexivity|]. intros m I. apply IC in I as [I J]. unfold k_ok. now rewrite B.
        - exists F0. split; [destruct q; reflexivity|]. intros m I. apply IC in I as [I J]. unfold k_ok. rewrite B. now apply no_children. }
      rewrite run_list_app.
      pose proof (seq_ok k q (filter (fun m => negb (is_simple m)) ms) (VUndef TEl) fs1 N2 eq_refl) as S2.
      assert (PRE : forall m, In m (filter (fun m => negb (is_simple m)) ms) -> member_good L mf m /\ k_ok L b k m /\ member_fits L fs1 m).
      { intros m I. split; [apply IC in I as [I _]; now apply MG|]. split; [now apply KO|]. eapply fits_after; eauto; [|now apply IC in I].
        intros X. apply (N3 _ X). now apply in_map. }
      destruct (read_seq L b (attrs_of x) sub _ fs1) as [fs2|]; [|now rewrite (S2 PRE)].
      destruct (S2 PRE) as (c2 & TC2 & ->). exists k, c2. destruct q, k; reflexivity.
    - replace (rd_body s) with (xm_rd_body s) by (unfold rd_body; now rewrite B). unfold xm_rd_body. rewrite SS, SC.
      replace (flat_map xm_rd_simple (simples ms)) with (flat_map (rd_stmts L b) (filter is_simple ms)) by (rewrite <- simple_stmts; unfold rd_simple; now rewrite B).
      replace (flat_map xm_rd_complex (resolved_members (l_defs L) ms)) with (flat_map (rd_stmts L b) (filter (fun m => negb (is_simple m)) ms)) by (rewrite <- complex_stmts; unfold rd_complex; now rewrite B).
      rewrite run_list_app. assert (ex [s_ch_el; s_rv] (St [base t fs] x (this_of q) w) = Ok CNext (rst FM q (VUndef TEl) t fs x w)) as -> by (destruct q; reflexivity). cbn iota. rewrite run_list_app.
      assert (KO : forall m, k_ok L b FM m) by (intros m; unfold k_ok; now rewrite B).
      pose proof (seq_ok FM q (filter is_simple ms) (VUndef TEl) fs N1 eq_refl) as S1.
      assert (PRE1 : forall m, In m (filter is_simple ms) -> member_good L mf m /\ k_ok L b FM m /\ member_fits L fs m).
      { intros m I. apply IS in I as [I J]. split; [now apply MG|]. split; [apply KO|now apply MI]. }
      destruct (read_seq L b (attrs_of x) sub (filter is_simple ms) fs) as [fs1|] eqn:R1; [|now rewrite (S1 PRE1)].
      destruct (S1 PRE1) as (c1 & TC1 & ->). rewrite run_list_app.
      pose proof (seq_ok FM q (filter (fun m => negb (is_simple m)) ms) c1 fs1 N2 TC1) as S2.
      assert (PRE : forall m, In m (filter (fun m => negb (is_simple m)) ms) -> member_good L mf m /\ k_ok L b FM m /\ member_fits L fs1 m).
      { intros m I. split; [apply IC in I as [I _]; now apply MG|]. split; [now apply KO|]. eapply fits_after; eauto; [|now apply IC in I].
        intros X. apply (N3 _ X). now apply in_map. }
      destruct (read_seq L b (attrs_of x) sub _ fs1) as [fs2|]; [|now rewrite (S2 PRE)].
      destruct (S2 PRE) as (c2 & TC2 & ->). exists FM, c2. destruct q; reflexivity.
  Qed.
End Body.
