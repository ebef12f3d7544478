(** Calls of the generated reader functions from anywhere in the generated program. *)
From Coq Require Import String Ascii ZArith NArith Arith List Bool Lia.
From Verif Require Import Base Map Items Grammar Fmt Decimal Templates Emit Cpp Xml Val CppSem SymLex Ast StoreDefs ResolveProps Prog Header Link EnumSem DecText EnumCall XmlSpec XmlRdSimple XmlRead XmlReader.
Import ListNotations.
Local Open Scope string_scope.
Local Open Scope list_scope.

(** *** What is given: a program of one of the two xml back ends *)
Definition form_of (b : backend) (fm : form) : Prop := (b = B_xml_attrib /\ fm = Attributes) \/ (b = B_xml /\ fm = Elements).
Record xml_setting (b : backend) (fm : form) (enums : list enum_S) (ss : list struct_S) (o : output_spec) (ds : list def) (L : lang) : Prop :=
  XmlSetting { x_set : setting b enums ss o ds L; x_form : form_of b fm; x_long : (0 < l_long L)%Z; x_lits : lits_fit L;
               x_find : String.eqb (o_reader o) "find_element" = false }.

(** Depth of an element. *)
Fixpoint height (x : node) : nat :=
  match x with Elem _ _ ks => S (list_max (map height ks)) | Text _ => 1 end.
Lemma height_kid x y : In y (kids_of x) -> height y < height x.
Proof.
  destruct x as [n a ks|s]; cbn [kids_of]; [|contradiction]. intros I. cbn [height].
  assert (height y <= list_max (map height ks)); [|lia]. pose proof (proj1 (list_max_le (map height ks) _) (le_n _)) as F.
  rewrite Forall_forall in F. apply F. now apply in_map.
Qed.
Lemma height_pos x : 0 < height x.
Proof. destruct x; cbn; lia. Qed.

Lemma read_struct_unfold L b x u fs ms : find_struct (l_defs L) u = Some ms ->
  read_struct L b x u fs = read_members L b (attrs_of x) (map (fun k => (k, reading_of L b k)) (kids_of x)) ms fs.
Proof. intros F. unfold read_struct. destruct x; cbn [reading_of as_struct]; now rewrite F. Qed.

Lemma fields_fit_keys L ms : forall fs, fields_fit L ms (map (fun p => (fst p, fits L (snd p))) fs) = true -> map fst fs = map member_name ms.
Proof.
  induction ms as [|m ms IH]; intros [|[n v] fs]; cbn [map fields_fit fst snd]; try discriminate; [reflexivity|].
  rewrite !andb_true_iff. intros ((A & _) & C). apply String.eqb_eq in A as ->. f_equal. now apply IH.
Qed.
Lemma fields_fit_member L ms : NoDup (map member_name ms) -> forall fs, fields_fit L ms (map (fun p => (fst p, fits L (snd p))) fs) = true ->
  forall m, In m ms -> member_fits L fs m.
Proof.
  induction ms as [|m0 ms IH]; intros ND [|[n v] fs]; cbn [map fields_fit fst snd]; try discriminate; [contradiction|].
  rewrite !andb_true_iff. intros ((A & B) & C) m. apply String.eqb_eq in A as ->. cbn [map] in ND. apply NoDup_cons_iff in ND as [N ND].
  destruct (member_type L m0) as [ty|] eqn:MT; [|discriminate]. intros [->|I].
  - exists v, ty. cbn. now rewrite String.eqb_refl.
  - destruct (IH ND fs C m I) as (o & ty' & A1 & A2 & A3). exists o, ty'. repeat split; auto. cbn [assoc].
    destruct (String.eqb_spec (member_name m) (member_name m0)) as [X|]; [|exact A1]. exfalso. apply N. rewrite <- X. now apply in_map.
Qed.
Lemma fits_struct L u fs : fits L (VStruct u fs) (TStruct u) = true -> exists ms, find_struct (l_defs L) u = Some ms /\
  fields_fit L ms (map (fun p => (fst p, fits L (snd p))) fs) = true.
Proof.
  cbn [fits]. rewrite andb_true_iff. intros [_ H]. destruct (find_struct (l_defs L) u) as [ms|]; [|discriminate]. eauto.
Qed.

Section Call.
  Variables (b : backend) (fm : form) (enums : list enum_S) (ss : list struct_S) (o : output_spec) (ds : list def) (L : lang).
  Hypothesis X : xml_setting b fm enums ss o ds L.
  Lemma x_g : setting b enums ss o ds L.
  Proof. exact (x_set _ _ _ _ _ _ _ X). Qed.
  Let R := o_reader o.
  Let W := o_writer o.
  Let P := prog b enums ss o.
  Lemma x_ok : header_ok R W ds = true.
  Proof. exact (g_ok _ _ _ _ _ _ x_g). Qed.
  Lemma x_defs : l_defs L = ds.
  Proof. exact (g_defs _ _ _ _ _ _ x_g). Qed.
  Lemma x_cr : class_ok R = true.
  Proof. exact (g_cr b enums ss o ds L x_g). Qed.
  Lemma x_cw : class_ok W = true.
  Proof. exact (g_cw b enums ss o ds L x_g). Qed.
  Lemma x_rw : String.eqb R W = false.
  Proof. exact (g_rw b enums ss o ds L x_g). Qed.
  Lemma x_bi : b <> B_ini.
  Proof. exact (g_b _ _ _ _ _ _ x_g). Qed.
  Variable wf : nat.

  Lemma defined_not_reserved n : In n reserved -> ~ In n (map def_name ds).
  Proof.
    intros I J. apply in_map_iff in J as (d & <- & J). pose proof (tf_reserved _ _ _ (g_fine b enums ss o ds L x_g d J) _ I) as E.
    rewrite String.eqb_refl in E. discriminate.
  Qed.
  Lemma reserved_struct n : In n reserved -> find_struct (l_defs L) n = None.
  Proof. intros I. rewrite x_defs. apply find_struct_none. now apply defined_not_reserved. Qed.
  Lemma reserved_enum n : In n reserved -> find_enum (l_defs L) n = None.
  Proof.
    intros I. rewrite x_defs. destruct (find_enum ds n) as [[c es]|] eqn:E; [|reflexivity]. exfalso. apply find_enum_in in E as (t & E).
    apply (defined_not_reserved n I). apply (in_map def_name) in E. exact E.
  Qed.
  Lemma no_success : enumerator L "tinyxml2" "XML_SUCCESS" = None.
  Proof. unfold enumerator. rewrite reserved_enum; [reflexivity|cbn; tauto]. Qed.
  Lemma no_find_type : user_type L "find_element" = None.
  Proof. unfold user_type. rewrite reserved_struct, reserved_enum; [reflexivity|cbn; tauto|cbn; tauto]. Qed.
  Lemma xrd_name t : rd_name b t = pre_do t.
  Proof. destruct (x_form _ _ _ _ _ _ _ X) as [[-> _]|[-> _]]; reflexivity. Qed.
  Lemma no_find_method : is_method P R "find_element" = false.
  Proof.
    apply not_true_iff_false. intros H. apply (method_reader b enums ss o x_bi x_cr x_rw) in H as [H|[H|(s & _ & H)]].
    - pose proof (x_find _ _ _ _ _ _ _ X) as F. unfold R in H. rewrite <- H in F. discriminate.
    - discriminate.
    - rewrite xrd_name in H. discriminate.
  Qed.
  Lemma struct_of u : find_struct (l_defs L) u <> None -> exists s ms, In s ss /\ s_name s = u /\ In (DefStruct u ms) ds /\ find_struct (l_defs L) u = Some ms /\
    s_simple s = simples ms /\ s_complex s = resolved_members (l_defs L) ms.
  Proof.
    rewrite x_defs. intros H. destruct (find_struct ds u) as [ms|] eqn:F; [|congruence]. apply find_struct_in in F as I.
    pose proof (proj1 (lk_structs _ _ _ (g_lk _ _ _ _ _ _ x_g) u) (ex_intro _ ms I)) as (s & S1 & <-).
    destruct (lk_struct _ _ _ (g_lk _ _ _ _ _ _ x_g) s S1) as (ms' & I' & A & B).
    apply (struct_iff _ _ ds x_ok) in I'. assert (ms' = ms) by congruence. subst ms'. exists s, ms. repeat split; auto.
  Qed.
  Lemma rd_methods u : find_struct (l_defs L) u <> None -> is_method P R (pre_do u) = true.
  Proof.
    intros H. destruct (struct_of u H) as (s & ms & S1 & <- & _). rewrite <- xrd_name. apply is_rd; [exact x_bi|exact S1].
  Qed.
  Lemma type_method u : In u (map def_name ds) -> forall c, c = R \/ c = W \/ c = "stfx" -> is_method P c u = false.
  Proof.
    intros I c C. apply in_map_iff in I as (d & <- & I). apply (type_no_method b enums ss o x_bi x_cr x_cw x_rw); [|exact C]. exact (g_fine b enums ss o ds L x_g d I).
  Qed.
  Lemma fine_no_local u : In u (map def_name ds) -> no_local u.
  Proof.
    intros I x J. apply in_map_iff in I as (d & <- & I). pose proof (g_fine b enums ss o ds L x_g d I) as F.
    assert (C : x = "*data" \/ In x reserved) by (cbn [In] in J; repeat (destruct J as [<-|J]; [first [left; reflexivity|right; apply mem_in; reflexivity]|]); contradiction). destruct C as [->|C]; [|now apply (tf_reserved _ _ _ F)].
    pose proof (name_ok_ident _ (tf_name _ _ _ F)) as N. apply eqb_neq. intros E. rewrite E in N. discriminate.
  Qed.
  Lemma this_other u q : In u (map def_name ds) -> assoc u (this_of q) = None.
  Proof. intros I. destruct q as [v|]; [|reflexivity]. cbn [this_of assoc]. now rewrite (fine_no_local u I "m_delta_only") by (cbn; tauto). Qed.
  Lemma reader_not_stfx : String.eqb R "stfx" = false.
  Proof. apply class_not_stfx. exact x_cr. Qed.
  Lemma members_good u ms m : In (DefStruct u ms) ds -> In m ms -> forall c, c = R \/ c = W -> member_good L (is_method P c) m.
  Proof.
    intros I J c C. destruct (struct_parts _ _ ds x_ok u ms I) as (_ & k & r & E & MO). specialize (MO m J). unfold member_ok in MO.
    apply andb_true_iff in MO as [N MO]. split; [now apply cut_id, ident_no_nul, name_ok_ident|].
    pose proof (names_nodup _ _ ds x_ok) as ND.
    destruct m as [st x d|t x d|t x]; [exact Logic.I| |].
    - rewrite x_defs. assert (KI : kind_in k t <> unknown_E) by (destruct (kind_in k t); discriminate).
      assert (KE : kind_in ds t = kind_in k t) by (rewrite E; apply kind_app; [rewrite <- E; exact ND|exact KI]). rewrite KE.
      destruct (kind_in k t) eqn:K; try discriminate.
      + left. apply kind_enum_in in K as (ce & es & t' & K). exists ce, es.
        assert (K' : In (DefEnum ce t es t') ds) by (rewrite E; apply in_or_app; now left).
        split; [eapply (user_enum _ _ ds x_ok L x_defs); exact K'|]. split; [|reflexivity]. eapply find_enum_some; eauto.
      + right. split; [|reflexivity]. apply kind_struct in K as (ms' & K). eapply (user_struct _ _ ds x_ok L x_defs). rewrite E. apply in_or_app. left. exact K.
    - unfold member_good. cbn [member_name]. destruct (find_struct ds t) as [ms'|] eqn:F; [|discriminate]. apply find_struct_in in F.
      assert (D : In t (map def_name ds)) by (apply (in_map def_name) in F; exact F).
      repeat split.
      + eapply (user_struct _ _ ds x_ok L x_defs); eauto.
      + now apply fine_no_local.
      + apply type_method; tauto.
      + eapply (init_struct _ _ ds x_ok L x_defs (x_long _ _ _ _ _ _ _ X) (x_lits _ _ _ _ _ _ _ X)); eauto.
  Qed.
  Lemma enum_calls f : 0 < f -> forall u c es, find_enum (l_defs L) u = Some (c, es) -> forall lv v x l old s, text_arg v x -> get_lv l s = Some old -> ty_of old = TEnum u ->
    to_call L u es l x s (call_fun L P wf f ["stfx"; "s_to_e"] [(lv, v); (Some l, old)] s).
  Proof.
    intros F u c es E. rewrite x_defs in E. apply find_enum_in in E as (t & E). destruct f as [|f]; [lia|]. intros.
    eapply (call_to b enums ss o ds L x_g wf c u es t E); eauto.
  Qed.

  Lemma one_rd_fun s : one_rd b s R = FDef (Some t_bool) [R; pre_do (s_name s)] [p_el; p_data (s_name s)] [] (rd_body fm s).
  Proof. unfold rd_body. destruct (x_form _ _ _ _ _ _ _ X) as [[-> ->]|[-> ->]]; reflexivity. Qed.

  (** The reader function of a struct reads an element as [read_struct] says. *)
  Theorem rd_call_ok f : forall y, height y < f -> rd_ok L (call_fun L P wf f) R fm y.
  Proof.
    induction f as [|f IH]; intros y HY; [lia|]. intros u fs p lv lv' l s TH AP GL FI.
    destruct (fits_struct L u fs FI) as (ms & FS & FF).
    destruct (struct_of u) as (sr & ms' & S1 & S2 & S3 & S4 & S5 & S6); [congruence|]. assert (ms' = ms) by congruence. subst ms'.
    destruct (struct_parts _ _ ds x_ok u ms S3) as (ND & _).
    cbn [call_fun].
    replace (pre_do u) with (rd_name b (s_name sr)) by (rewrite xrd_name; congruence).
    pose proof (find_rd b enums ss o x_bi x_cr x_rw (lk_struct_names _ _ _ (g_lk _ _ _ _ _ _ x_g)) sr (fun d => params_fit (fd_params d) [(lv, VEl (Some p)); (lv', VPtr (Some l))] s) S1) as FR.
    cbv beta in FR.
    match type of FR with ?A -> ?B -> ?l = ?r => assert (FA : A); [|assert (FB : B); [|specialize (FR FA FB); match goal with |- context [filter ?q P] => change (filter q P) with l end; rewrite FR]] end.
    { fold R. rewrite one_rd_fun. cbn [fd_params params_fit p_el t_el p_data param_fits fst snd ct_ref ct_name]. rewrite GL. cbn [ty_of]. rewrite S2, String.eqb_refl. reflexivity. }
    { intros d ->. reflexivity. }
    clear FR FA FB.
    fold R. rewrite one_rd_fun. unfold enter.
    cbn [fd_name fd_params undef_arg p_el t_el p_data ct_ref fst snd orb bind_params bind_param]. rewrite GL. cbn [b_vars b_el b_back app map fst].
    change (distinct ["el"; "data"; "*data"]) with true. cbn [andb forallb param_visible ct_name fst].
    assert (ST : String.eqb R "stfx" = false) by exact reader_not_stfx.
    destruct TH as (q & TH). assert (seen_this R s = this_of q) as -> by (unfold seen_this; rewrite ST; exact TH).
    unfold param_visible, p_el, p_data. cbn [fst t_el ct_name set_this s_this]. rewrite S2. rewrite (type_method u); [|apply (in_map def_name) in S3; exact S3|tauto]. rewrite (this_other u q) by (apply (in_map def_name) in S3; exact S3). cbn [negb andb].
    rewrite AP.
    assert (HP : 0 < f) by (pose proof (height_pos y); lia).
    pose proof (rd_body_ok L (call_fun L P wf f) R (is_method P R) wf fm no_success (enum_calls f HP) rd_methods (x_long _ _ _ _ _ _ _ X) no_find_type no_find_method
                  y (s_world s) u) as B.
    specialize (B (fun z I => IH z (Nat.lt_le_trans _ _ _ (height_kid y z I) (le_S_n _ _ HY)))).
    assert (B2 : forall z z', In z (kids_of y) -> In z' (kids_of z) -> rd_ok L (call_fun L P wf f) R fm z').
    { intros z z' I J. apply IH. pose proof (height_kid _ _ I). pose proof (height_kid _ _ J). lia. }
    specialize (B B2 ms sr fs S5 S6 (fun m J => members_good u ms m S3 J R (or_introl eq_refl)) ND (fields_fit_keys L ms fs FF) (fields_fit_member L ms ND fs FF) q).
    rewrite (read_struct_unfold L fm y u fs ms FS).
    destruct (read_members L fm (attrs_of y) (map (fun k => (k, reading_of L fm k)) (kids_of y)) ms fs) as [fs'|].
    - destruct B as (k & c & B). cbn [fd_body]. unfold base in B. use_exec B. unfold return_to. cbn [b_el b_back set_this s_tree s_this s_world s_scopes rst].
      rewrite (upd_path_same p (s_tree s) y (fun _ => y) AP eq_refl).
      rewrite ST, <- TH.
      assert (LK : lookup "*data" [frame k c u fs'] = Some (VStruct u fs')) by (destruct k; reflexivity).
      cbn [copy_back]. change (s_scopes (set_this (rst k q c u fs' y (s_world s)) (s_this s))) with [frame k c u fs']. rewrite LK. destruct s as [sc tr th wo]. cbn [s_scopes s_tree s_this s_world fd_type].
      destruct (put_lv l (VStruct u fs') (St sc tr th wo)); reflexivity.
    - cbn [fd_body]. unfold base in B. use_exec B. reflexivity.
  Qed.
End Call.
