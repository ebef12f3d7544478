(** Calls of the generated n_ini reader functions from anywhere in the generated program. *)
From Coq Require Import String Ascii ZArith NArith Arith List Bool Lia.
From Verif Require Import Base Map Items Grammar Fmt Decimal Templates Emit Cpp Xml Val Rx CppSem SymLex Ast StoreDefs ResolveProps Prog Header Link EnumSem DecText EnumCall XmlSpec XmlRdSimple XmlRead XmlReader XmlCall XmlWriter IniSpec IniRead IniReader.
Import ListNotations.
Local Open Scope string_scope.
Local Open Scope list_scope.

(** *** What is given: a program of the n_ini back end *)
(** Members named items or data would be mistaken for variables of the reader functions. *)
Record ini_setting (enums : list enum_S) (ss : list struct_S) (o : output_spec) (ds : list def) (L : lang) : Prop :=
  IniSetting { i_set : setting B_n_ini enums ss o ds L; i_long : (0 < l_long L)%Z; i_lits : lits_fit L;
               i_names : forall u ms m, In (DefStruct u ms) ds -> In m ms -> is_scalar L m = true ->
                         String.eqb (member_name m) "items" = false /\ String.eqb (member_name m) "data" = false;
               i_class : String.eqb "size_t" (o_reader o) = false /\ String.eqb "read_item_S" (o_reader o) = false }.

Section Call.
  Variables (enums : list enum_S) (ss : list struct_S) (o : output_spec) (ds : list def) (L : lang).
  Hypothesis X : ini_setting enums ss o ds L.
  Notation b := B_n_ini.
  Lemma i_g : setting b enums ss o ds L.
  Proof. exact (i_set _ _ _ _ _ X). Qed.
  Let R := o_reader o.
  Let W := o_writer o.
  Let P := prog b enums ss o.
  Lemma i_ok : header_ok R W ds = true.
  Proof. exact (g_ok _ _ _ _ _ _ i_g). Qed.
  Lemma i_defs : l_defs L = ds.
  Proof. exact (g_defs _ _ _ _ _ _ i_g). Qed.
  Lemma i_cr : class_ok R = true.
  Proof. exact (g_cr b enums ss o ds L i_g). Qed.
  Lemma i_cw : class_ok W = true.
  Proof. exact (g_cw b enums ss o ds L i_g). Qed.
  Lemma i_rw : String.eqb R W = false.
  Proof. exact (g_rw b enums ss o ds L i_g). Qed.
  Lemma i_bi : b <> B_ini.
  Proof. discriminate. Qed.
  Variable wf : nat.

  Lemma ini_struct_of u : find_struct (l_defs L) u <> None -> exists s ms, In s ss /\ s_name s = u /\ In (DefStruct u ms) ds /\ find_struct (l_defs L) u = Some ms /\
    s_simple s = simples ms /\ s_complex s = resolved_members (l_defs L) ms.
  Proof.
    rewrite i_defs. intros H. destruct (find_struct ds u) as [ms|] eqn:F; [|congruence]. apply find_struct_in in F as I.
    pose proof (proj1 (lk_structs _ _ _ (g_lk _ _ _ _ _ _ i_g) u) (ex_intro _ ms I)) as (s & S1 & <-).
    destruct (lk_struct _ _ _ (g_lk _ _ _ _ _ _ i_g) s S1) as (ms' & I' & A & B).
    apply (struct_iff _ _ ds i_ok) in I'. assert (ms' = ms) by congruence. subst ms'. exists s, ms. repeat split; auto.
  Qed.
  Lemma ini_rd_methods u : find_struct (l_defs L) u <> None -> is_method P R (pre_rd u) = true.
  Proof.
    intros H. destruct (ini_struct_of u H) as (s & ms & S1 & <- & _). change (pre_rd (s_name s)) with (rd_name b (s_name s)). apply is_rd; [exact i_bi|exact S1].
  Qed.
  Lemma ini_type_method u : In u (map def_name ds) -> forall c, c = R \/ c = W \/ c = "stfx" -> is_method P c u = false.
  Proof.
    intros I c C. apply in_map_iff in I as (d & <- & I). apply (type_no_method b enums ss o i_bi i_cr i_cw i_rw); [|exact C]. exact (g_fine b enums ss o ds L i_g d I).
  Qed.
  Lemma ini_no_local u : In u (map def_name ds) -> no_local u.
  Proof.
    intros I x J. apply in_map_iff in I as (d & <- & I). pose proof (g_fine b enums ss o ds L i_g d I) as F.
    assert (C : x = "*data" \/ In x reserved) by (cbn [In] in J; repeat (destruct J as [<-|J]; [first [left; reflexivity|right; apply mem_in; reflexivity]|]); contradiction). destruct C as [->|C]; [|now apply (tf_reserved _ _ _ F)].
    pose proof (name_ok_ident _ (tf_name _ _ _ F)) as N. apply eqb_neq. intros E. rewrite E in N. discriminate.
  Qed.
  Lemma ini_members_good u ms m : In (DefStruct u ms) ds -> In m ms -> forall c, c = R \/ c = W -> member_good L (is_method P c) m.
  Proof.
    intros I J c C. destruct (struct_parts _ _ ds i_ok u ms I) as (_ & k & r & E & MO). specialize (MO m J). unfold member_ok in MO.
    apply andb_true_iff in MO as [N MO]. split; [now apply cut_id, ident_no_nul, name_ok_ident|].
    pose proof (names_nodup _ _ ds i_ok) as ND.
    destruct m as [st x d|t x d|t x]; [exact Logic.I| |].
    - rewrite i_defs. assert (KI : kind_in k t <> unknown_E) by (destruct (kind_in k t); discriminate).
      assert (KE : kind_in ds t = kind_in k t) by (rewrite E; apply kind_app; [rewrite <- E; exact ND|exact KI]). rewrite KE.
      destruct (kind_in k t) eqn:K; try discriminate.
      + left. apply kind_enum_in in K as (ce & es & t' & K). exists ce, es.
        assert (K' : In (DefEnum ce t es t') ds) by (rewrite E; apply in_or_app; now left).
        split; [eapply (user_enum _ _ ds i_ok L i_defs); exact K'|]. split; [|reflexivity]. eapply find_enum_some; eauto.
      + right. split; [|reflexivity]. apply kind_struct in K as (ms' & K). eapply (user_struct _ _ ds i_ok L i_defs). rewrite E. apply in_or_app. left. exact K.
    - unfold member_good. cbn [member_name]. destruct (find_struct ds t) as [ms'|] eqn:F; [|discriminate]. apply find_struct_in in F.
      assert (D : In t (map def_name ds)) by (apply (in_map def_name) in F; exact F).
      repeat split.
      + eapply (user_struct _ _ ds i_ok L i_defs); eauto.
      + now apply ini_no_local.
      + apply ini_type_method; tauto.
      + eapply (init_struct _ _ ds i_ok L i_defs (i_long _ _ _ _ _ X) (i_lits _ _ _ _ _ X)); eauto.
  Qed.
  Lemma ini_enum_calls f : 0 < f -> forall u c es, find_enum (l_defs L) u = Some (c, es) -> forall lv v x l old s, text_arg v x -> get_lv l s = Some old -> ty_of old = TEnum u ->
    to_call L u es l x s (call_fun L P wf f ["stfx"; "s_to_e"] [(lv, v); (Some l, old)] s).
  Proof.
    intros F u c es E. rewrite i_defs in E. apply find_enum_in in E as (t & E). destruct f as [|f]; [lia|]. intros.
    eapply (call_to b enums ss o ds L i_g wf c u es t E); eauto.
  Qed.

  Definition a_type (u : string) : Prop := In u (map def_name ds).
  Variable k : lookups.
  (** The reader function of a struct reads an object as [read_obj] says. *)
  Theorem ini_rd_call f : forall v, vheight v < f -> rd_ok L (call_fun L P wf f) R a_type k v.
  Proof.
    induction f as [|f IH]; intros v HV; [lia|]. intros u fs path pv lv l s -> TH TA GL FI.
    destruct (fits_struct L u fs FI) as (ms & FS & FF).
    destruct (ini_struct_of u) as (sr & ms' & S1 & S2 & S3 & S4 & S5 & S6); [congruence|]. assert (ms' = ms) by congruence. subst ms'.
    destruct (struct_parts _ _ ds i_ok u ms S3) as (ND & _).
    assert (DN : In u (map def_name ds)) by (apply (in_map def_name) in S3; exact S3).
    cbn [call_fun].
    replace (pre_rd u) with (rd_name b (s_name sr)) by (rewrite S2; reflexivity).
    pose proof (find_rd b enums ss o i_bi i_cr i_rw (lk_struct_names _ _ _ (g_lk _ _ _ _ _ _ i_g)) sr (fun d => params_fit (fd_params d) [(lv, pv); (Some l, VStruct u fs)] s) S1) as FR.
    cbv beta in FR.
    match type of FR with ?A -> ?B -> ?l = ?r => assert (FA : A); [|assert (FB : B); [|specialize (FR FA FB); match goal with |- context [filter ?q P] => change (filter q P) with l end; rewrite FR]] end.
    { fold R. cbn [one_rd fd_params ni_rd_fun params_fit t_str param_fits fst snd ct_ref ct_name]. unfold param_fits. cbn [ty_of ct_ref ct_name fst snd t_str]. rewrite S2, String.eqb_refl.
      destruct TA as [->| ->]; reflexivity. }
    { intros d ->. cbn [params_fit]. unfold param_fits. destruct TA as [->| ->]; reflexivity. }
    clear FR FA FB.
    fold R. change (one_rd b sr R) with (ni_rd_fun sr R). unfold ni_rd_fun, enter.
    assert (UA : undef_arg [(t_str, "path"); (CT [s_name sr] [] RRef, "data")] [(lv, pv); (Some l, VStruct u fs)] = false) by (destruct TA as [->| ->]; reflexivity).
    assert (BP : bind_params [(t_str, "path"); (CT [s_name sr] [] RRef, "data")] [(lv, pv); (Some l, VStruct u fs)] s =
      Some (Bound [("path", VStr path); ("data", VStruct u fs)] None [(l, "data")])) by (destruct TA as [->| ->]; reflexivity).
    cbn [fd_name fd_params fd_body fd_type]. rewrite UA, BP. cbn [b_vars b_el b_back map fst].
    change (distinct ["path"; "data"]) with true.
    assert (NS : String.eqb R "stfx" = false) by (apply class_not_stfx; exact i_cr).
    unfold seen_this. rewrite NS. cbn [andb forallb]. unfold param_visible at 1 2. cbn [fst t_str ct_name set_this s_this].
    rewrite S2, (ini_type_method u DN R (or_introl eq_refl)), (proj2 TH u DN). cbn [negb andb].
    assert (HP : 0 < f) by (cbn [vheight] in HV; lia).
    pose proof (rd_body_ok L (call_fun L P wf f) R (is_method P R) wf (i_long _ _ _ _ _ X) (ini_enum_calls f HP) ini_rd_methods a_type k (Text "") (s_this s) (s_world s) u TH ms sr S5 S6
      (fun m J => ini_members_good u ms m S3 J R (or_introl eq_refl)) (fun m J S => i_names _ _ _ _ _ X u ms m S3 J S) ND fs) as B.
    assert (RD : forall n u' fs', assoc n fs = Some (VStruct u' fs') -> rd_ok L (call_fun L P wf f) R a_type k (VStruct u' fs')).
    { intros n u' fs' A. apply IH. apply assoc_some in A. cbn [vheight] in HV |- *.
      assert (vheight (VStruct u' fs') <= list_max (map (fun p => vheight (snd p)) fs)); [|cbn [vheight] in *; lia]. apply list_max_in. apply in_map_iff. exists (n, VStruct u' fs'). auto. }
    specialize (B RD (fields_fit_member L ms ND fs FF) FS path).
    destruct (read_obj L k (VStruct u fs) path) as [[rv v']|].
    - destruct B as (p' & fs' & -> & B). use_exec B. unfold return_to. cbn [b_el b_back set_this s_tree s_this s_world s_scopes].
      cbn [copy_back s_scopes set_this fr lookup assoc String.eqb Ascii.eqb Bool.eqb]. destruct s as [sc tr th wo]. cbn [s_scopes s_tree s_this s_world].
      destruct (put_lv l (VStruct u fs') (St sc tr th wo)); reflexivity.
    - use_exec B. reflexivity.
  Qed.
End Call.
