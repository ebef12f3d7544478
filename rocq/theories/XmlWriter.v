(** The generated xml writer functions, called from anywhere in the generated program. *)
From Coq Require Import String Ascii ZArith NArith Arith List Bool Lia.
From Verif Require Import Base Map Items Grammar Fmt Decimal Templates Emit Cpp Xml Val CppSem SymLex Ast StoreDefs ResolveProps Prog Header Link EnumSem DecText EnumCall EnumRound XmlSpec XmlRdSimple XmlRead XmlReader XmlCall XmlWrite.
Import ListNotations.
Local Open Scope string_scope.
Local Open Scope list_scope.

(** *** An enumeration that is not initialised *)
Section Undef.
  Variables (b : backend) (enums : list enum_S) (ss : list struct_S) (o : output_spec) (ds : list def) (L : lang).
  Hypothesis G : setting b enums ss o ds L.
  Variables (wf : nat) (c : bool) (n : string) (es : list entry) (t : bool).
  Hypothesis IN : In (DefEnum c n es t) ds.
  Lemma call_from_undef lv f s : call_fun L (prog b enums ss o) wf (S f) ["stfx"; "s_from_e"] [(lv, VUndef (TEnum n))] s = UB.
  Proof.
    cbn [call_fun]. rewrite (one_enum b enums ss o ds L G c n es t IN s_from_e_fun "s_from_e"); [|auto|cbn; rewrite String.eqb_refl; reflexivity|].
    2:{ intros e' H. cbn in H. rewrite andb_true_r in H. now apply String.eqb_eq in H. }
    reflexivity.
  Qed.
End Undef.

(** *** The body of a writer function *)
Section Body.
  Variables (L : lang) (call : list string -> list arg -> st -> res val) (cls : string) (mf : string -> bool) (wf : nat) (b : form) (nd dl : bool).
  Notation ex := (run_list (exec L call cls mf wf)).
  Notation delta := (negb nd && dl)%bool.
  Hypothesis LL : (0 < l_long L)%Z.
  Hypothesis EC : forall u c es, find_enum (l_defs L) u = Some (c, es) -> forall lv z s,
    call ["stfx"; "s_from_e"] [(lv, VEnum u z)] s = Ok (VStr (enum_text (enum_values L 0 es) z)) s.
  Hypothesis EU : forall u c es, find_enum (l_defs L) u = Some (c, es) -> forall lv s,
    call ["stfx"; "s_from_e"] [(lv, VUndef (TEnum u))] s = UB.
  Hypothesis ET : forall u c es, find_enum (l_defs L) u = Some (c, es) -> forall z, cut (enum_text (enum_values L 0 es) z) = enum_text (enum_values L 0 es) z.
  Hypothesis MF : forall u, find_struct (l_defs L) u <> None -> mf (pre_wr u) = true.
  Variables (t : string) (fs d : list (string * val)) (w : world).
  Notation sub := (map (fun p => (fst p, (snd p, write_val L b delta (snd p)))) fs).

  Lemma scalar_names n dv v a k : write_scalar L b delta n dv v = Some (a, k) -> incl (map fst a) [n].
  Proof.
    unfold write_scalar. destruct (left_out L delta dv v) as [[|]|]; try discriminate; [intros [= <- <-] x []|].
    destruct (text_of L b v) as [s|]; [|discriminate]. destruct b; intros [= <- <-] x; cbn; tauto.
  Qed.
  Lemma member_names m a k : write_member L b delta d sub m = Some (a, k) -> incl (map fst a) [member_name m].
  Proof.
    unfold write_member. destruct (assoc (member_name m) sub) as [[v c]|]; [|discriminate].
    destruct (is_scalar L m).
    - destruct (assoc (member_name m) d) as [dv|]; [|discriminate]. apply scalar_names.
    - destruct c as [[a' k']|]; [|discriminate]. intros [= <- <-] x [].
  Qed.
  Lemma wseq_ok k e : forall ms c a ks, NoDup (map member_name ms) -> ty_of c = TEl ->
    (forall m, In m ms -> wmember_good L mf b m /\ k_ok L b k m /\ member_fits L fs m /\ member_fits L d m /\ ~ In (member_name m) (map fst a) /\
       forall v, assoc (member_name m) fs = Some v -> calls_ok L call cls b nd dl v) ->
    match write_members L b delta d sub ms with
    | Some (a', k') => exists c', ty_of c' = TEl /\ ex (flat_map (wr_stmts L b nd) ms) (wst false k c nd t fs d (Elem e a ks) dl w) =
        Ok CNext (wst false k c' nd t fs d (Elem e (a ++ a') (ks ++ k')) dl w)
    | None => ex (flat_map (wr_stmts L b nd) ms) (wst false k c nd t fs d (Elem e a ks) dl w) = UB
    end.
  Proof.
    induction ms as [|m ms IH]; intros c a ks ND TC H; [exists c; rewrite !app_nil_r; auto|]. cbn [map] in ND. apply NoDup_cons_iff in ND as [N ND].
    cbn [write_members flat_map]. destruct (H m (or_introl eq_refl)) as (MG & KO & MI & MD & NA & CO). pose proof MI as (v & ty & AS & MT & FI).
    pose proof (wmember_step L call cls mf wf b nd dl EC EU ET MF k c t fs d e a ks w m v TC MG KO AS MI MD NA (CO v AS)) as ST.
    rewrite run_list_app. pose proof (member_names m) as MN. destruct (write_member L b delta d sub m) as [[a1 k1]|]; [|now rewrite ST].
    destruct ST as (c1 & TC1 & ->). specialize (MN _ _ eq_refl). specialize (IH c1 (a ++ a1) (ks ++ k1) ND TC1).
    assert (PRE : forall m', In m' ms -> wmember_good L mf b m' /\ k_ok L b k m' /\ member_fits L fs m' /\ member_fits L d m' /\ ~ In (member_name m') (map fst (a ++ a1)) /\
       forall v, assoc (member_name m') fs = Some v -> calls_ok L call cls b nd dl v).
    { intros m' I. destruct (H m' (or_intror I)) as (A1 & A2 & A3 & A4 & A5 & A6). split; [exact A1|]. split; [exact A2|]. split; [exact A3|]. split; [exact A4|]. split; [|exact A6].
      rewrite map_app, in_app_iff. intros [X|X]; [tauto|]. apply MN in X as [X|[]]. apply N. rewrite X. now apply in_map. }
    specialize (IH PRE). destruct (write_members L b delta d sub ms) as [[a' k']|].
    - destruct IH as (c2 & TC2 & ->). exists c2. rewrite !app_assoc. auto.
    - now rewrite IH.
  Qed.
  Lemma write_members_app ms ms' : write_members L b delta d sub (ms ++ ms') =
    let? (a, k) := write_members L b delta d sub ms in let? (a', k') := write_members L b delta d sub ms' in Some (a ++ a', k ++ k').
  Proof.
    induction ms as [|m ms IH]; cbn [app write_members]; [destruct (write_members L b delta d sub ms') as [[? ?]|]; reflexivity|].
    rewrite IH. destruct (write_member L b delta d sub m) as [[a k]|]; [|reflexivity].
    destruct (write_members L b delta d sub ms) as [[a1 k1]|]; [|reflexivity].
    destruct (write_members L b delta d sub ms') as [[a2 k2]|]; [|reflexivity]. now rewrite !app_assoc.
  Qed.
  Lemma write_members_names ms : forall a k, write_members L b delta d sub ms = Some (a, k) -> incl (map fst a) (map member_name ms).
  Proof.
    induction ms as [|m ms IH]; cbn [write_members]; [intros a k [= <- <-] x []|]. intros a k.
    pose proof (member_names m) as MN. destruct (write_member L b delta d sub m) as [[a1 k1]|]; [|discriminate].
    destruct (write_members L b delta d sub ms) as [[a2 k2]|]; [|discriminate]. intros [= <- <-] x. rewrite map_app, in_app_iff. cbn.
    intros [X|X]; [left; apply (MN _ _ eq_refl) in X as [X|[]]; auto|right; eapply IH; eauto].
  Qed.

  Lemma wsimple_stmts ms : flat_map (wr_simple b nd) (simples ms) = flat_map (wr_stmts L b nd) (filter is_simple ms).
  Proof. unfold simples. induction ms as [|m ms IH]; [reflexivity|]. destruct m; cbn [flat_map filter is_simple app]; [|exact IH|exact IH]. cbn [wr_stmts]. now rewrite <- IH. Qed.
  Lemma wcomplex_stmts ms : flat_map (wr_complex b nd) (resolved_members (l_defs L) ms) = flat_map (wr_stmts L b nd) (filter (fun m => negb (is_simple m)) ms).
  Proof. unfold resolved_members. induction ms as [|m ms IH]; [reflexivity|]. destruct m; cbn [flat_map filter is_simple negb app]; [exact IH| |]; cbn [wr_stmts]; now rewrite <- IH. Qed.

  Definition wr_body (s : struct_S) : list stmt := match b with Attributes => xa_wr_body s nd | Elements => xm_wr_body s nd end.
  Variables (ms : list member) (s : struct_S) (e : string).
  Hypothesis SN : s_name s = t.
  Hypothesis SS : s_simple s = simples ms.
  Hypothesis SC : s_complex s = resolved_members (l_defs L) ms.
  Hypothesis ND : NoDup (map member_name ms).
  Hypothesis MG : forall m, In m ms -> wmember_good L mf b m.
  Hypothesis MI : forall m, In m ms -> member_fits L fs m.
  Hypothesis MD : forall m, In m ms -> member_fits L d m.
  Hypothesis CO : forall n v, assoc n fs = Some v -> calls_ok L call cls b nd dl v.
  Hypothesis UT : user_type L t = Some (TStruct t).
  Hypothesis NL : no_wlocal t.
  Hypothesis NM : mf t = false.
  Hypothesis IN : init L (init_fuel L) false (TStruct t) = Some (VStruct t d).

  Lemma dflt_ok k c x : k <> FA -> ex (dflt_decl nd t) (St [match k with FM => ("rv", vbool true) :: ("ch_el", c) :: base t fs | _ => ("rv", vbool true) :: base t fs end] x [("m_delta_only", vbool dl)] w) =
    Ok CNext (wst false k c nd t fs d x dl w).
  Proof.
    intros K. unfold dflt_decl. destruct nd; [destruct k; congruence || reflexivity|].
    assert (NT : forall f, (forall n, assoc n f <> None -> In n ["rv"; "el"; "data"; "*data"; "ch_el"; "default_data"; "m_delta_only"; "size_t"]) ->
                 named_type L mf [t] (St [f] x [("m_delta_only", vbool dl)] w) = Some (TStruct t)).
    { intros f F. unfold named_type, is_local, is_member. cbn [s_scopes s_this lookup assoc]. rewrite NM, (NL "m_delta_only"), (NL "size_t") by (cbn; tauto). cbn [String.eqb Ascii.eqb Bool.eqb].
      rewrite andb_false_r. destruct (assoc t f) eqn:A; [|exact UT].
      assert (In t ["rv"; "el"; "data"; "*data"; "ch_el"; "default_data"; "m_delta_only"; "size_t"]) as J by (apply F; congruence).
      apply NL in J. rewrite String.eqb_refl in J. discriminate. }
    cbn [run_list exec exec_decl ct_args ct_ref ct_name names_eqb].
    rewrite !andb_false_r.
    assert (IL : is_member "m_lookup" (St [match k with FM => ("rv", vbool true) :: ("ch_el", c) :: base t fs | _ => ("rv", vbool true) :: base t fs end] x [("m_delta_only", vbool dl)] w) = false) by reflexivity.
    destruct k; try congruence; (rewrite NT; [rewrite ?IL, ?andb_false_r, IN; reflexivity|]); intros n; unfold base; cbn [assoc];
    repeat (match goal with |- context [String.eqb n ?y] => destruct (String.eqb_spec n y) as [->|]; [cbn; tauto|] end); tauto.
  Qed.
  Lemma wno_children m : has_children (s_complex s) = false -> In m ms -> is_simple m = false -> is_scalar L m = true.
  Proof.
    rewrite SC. unfold has_children, resolved_members. intros H I S. specialize (MG m I) as (_ & G). rewrite <- not_true_iff_false, existsb_exists in H.
    destruct m as [|u n df|u n]; [discriminate| |].
    - cbn [is_scalar]. destruct G as [(c & es & -> & _)|(-> & K)]; [reflexivity|]. exfalso. apply H. exists (Complex struct_E u n). split; [|reflexivity].
      apply in_flat_map. exists (MUser u n df). rewrite K. cbn. auto.
    - exfalso. apply H. exists (Complex vector_E u n). split; [|reflexivity]. apply in_flat_map. exists (MVector u n). cbn. auto.
  Qed.

  Lemma wr_body_ok : match write_members L b delta d sub (in_order ms) with
    | Some (a, ks) => exists k c, ex (wr_body s) (St [base t fs] (Elem e [] []) [("m_delta_only", vbool dl)] w) = Ok (CRet (vbool true)) (wst false k c nd t fs d (Elem e a ks) dl w)
    | None => ex (wr_body s) (St [base t fs] (Elem e [] []) [("m_delta_only", vbool dl)] w) = UB
    end.
  Proof.
    unfold in_order. rewrite write_members_app.
    pose proof (in_order_names ms ND) as ND'. unfold in_order in ND'. rewrite map_app in ND'. apply nodup_app in ND' as (N1 & N2 & N3).
    assert (IS : forall m, In m (filter is_simple ms) -> In m ms /\ is_simple m = true) by (intros m I; now apply filter_In in I).
    assert (IC : forall m, In m (filter (fun m => negb (is_simple m)) ms) -> In m ms /\ is_simple m = false) by (intros m I; apply filter_In in I as [I J]; now apply negb_true_iff in J).
    assert (PRE1 : forall k, (forall m, is_simple m = true -> k_ok L b k m) -> forall m, In m (filter is_simple ms) ->
       wmember_good L mf b m /\ k_ok L b k m /\ member_fits L fs m /\ member_fits L d m /\ ~ In (member_name m) (map fst (@nil (string * string))) /\
       forall v, assoc (member_name m) fs = Some v -> calls_ok L call cls b nd dl v).
    { intros k KO m I. apply IS in I as [I J]. split; [now apply MG|]. split; [now apply KO|]. split; [now apply MI|]. split; [now apply MD|]. split; [intros []|]. eauto. }
    pose proof (write_members_names (filter is_simple ms)) as WN.
    assert (PRE2 : forall k a1 k1, write_members L b delta d sub (filter is_simple ms) = Some (a1, k1) -> (forall m, In m (filter (fun m => negb (is_simple m)) ms) -> k_ok L b k m) ->
       forall m, In m (filter (fun m => negb (is_simple m)) ms) ->
       wmember_good L mf b m /\ k_ok L b k m /\ member_fits L fs m /\ member_fits L d m /\ ~ In (member_name m) (map fst a1) /\
       forall v, assoc (member_name m) fs = Some v -> calls_ok L call cls b nd dl v).
    { intros k a1 k1 E1 KO m I. pose proof I as I0. apply IC in I as [I J]. split; [now apply MG|]. split; [now apply KO|]. split; [now apply MI|]. split; [now apply MD|]. split; [|eauto].
      intros X. apply (WN _ _ E1) in X. apply (N3 _ X). now apply in_map. }
    assert (B : b = Attributes \/ b = Elements) by (destruct b; auto).
    destruct B as [B|B].
    - replace (wr_body s) with (xa_wr_body s nd) by (unfold wr_body; now rewrite B). unfold xa_wr_body. rewrite SN, SS.
      replace (flat_map (xa_wr_simple nd) (simples ms)) with (flat_map (wr_stmts L b nd) (filter is_simple ms)) by (rewrite <- wsimple_stmts; unfold wr_simple; now rewrite B).
      replace (flat_map (xa_wr_complex nd) (s_complex s)) with (flat_map (wr_stmts L b nd) (filter (fun m => negb (is_simple m)) ms)) by (rewrite SC, <- wcomplex_stmts; unfold wr_complex; now rewrite B).
      rewrite run_list_app. change (ex [s_rv] (St [base t fs] (Elem e [] []) [("m_delta_only", vbool dl)] w)) with (Ok CNext (St [("rv", vbool true) :: base t fs] (Elem e [] []) [("m_delta_only", vbool dl)] w)). cbn iota. rewrite run_list_app.
      rewrite (dflt_ok F0 (VUndef TEl)) by discriminate. rewrite run_list_app.
      pose proof (wseq_ok F0 e (filter is_simple ms) (VUndef TEl) [] [] N1 eq_refl) as S1.
      assert (K1 : forall m, is_simple m = true -> k_ok L b F0 m) by (intros m J; unfold k_ok; rewrite B; destruct m; try discriminate; reflexivity).
      specialize (S1 (PRE1 F0 K1)). destruct (write_members L b delta d sub (filter is_simple ms)) as [[a1 k1]|] eqn:E1; [|now rewrite S1].
      destruct S1 as (c1 & TC1 & ->). rewrite run_list_app. cbn [app].
      assert (exists k, ex (ch_el_decl (s_complex s)) (wst false F0 c1 nd t fs d (Elem e a1 k1) dl w) = Ok CNext (wst false k (VUndef TEl) nd t fs d (Elem e a1 k1) dl w) /\
                (forall m, In m (filter (fun m => negb (is_simple m)) ms) -> k_ok L b k m)) as (k & -> & KO).
      { unfold ch_el_decl. destruct (has_children (s_complex s)) eqn:HC.
        - exists FA. split; [destruct nd; reflexivity|]. intros m I. apply IC in I as [I J]. unfold k_ok. now rewrite B.
        - exists F0. split; [reflexivity|]. intros m I. apply IC in I as [I J]. unfold k_ok. rewrite B. now apply wno_children. }
      rewrite run_list_app. pose proof (wseq_ok k e _ (VUndef TEl) a1 k1 N2 eq_refl (PRE2 k a1 k1 eq_refl KO)) as S2.
      destruct (write_members L b delta d sub (filter (fun m => negb (is_simple m)) ms)) as [[a2 k2]|]; [|now rewrite S2].
      destruct S2 as (c2 & TC2 & ->). exists k, c2. destruct k, nd; reflexivity.
    - replace (wr_body s) with (xm_wr_body s nd) by (unfold wr_body; now rewrite B). unfold xm_wr_body. rewrite SN, SS, SC.
      replace (flat_map (xm_wr_simple nd) (simples ms)) with (flat_map (wr_stmts L b nd) (filter is_simple ms)) by (rewrite <- wsimple_stmts; unfold wr_simple; now rewrite B).
      replace (flat_map (xm_wr_complex nd) (resolved_members (l_defs L) ms)) with (flat_map (wr_stmts L b nd) (filter (fun m => negb (is_simple m)) ms)) by (rewrite <- wcomplex_stmts; unfold wr_complex; now rewrite B).
      rewrite run_list_app. change (ex [s_ch_el; s_rv] (St [base t fs] (Elem e [] []) [("m_delta_only", vbool dl)] w)) with (Ok CNext (St [("rv", vbool true) :: ("ch_el", VUndef TEl) :: base t fs] (Elem e [] []) [("m_delta_only", vbool dl)] w)). cbn iota. rewrite run_list_app.
      rewrite (dflt_ok FM (VUndef TEl)) by discriminate. rewrite run_list_app.
      assert (KO : forall m, k_ok L b FM m) by (intros m; unfold k_ok; now rewrite B).
      pose proof (wseq_ok FM e (filter is_simple ms) (VUndef TEl) [] [] N1 eq_refl (PRE1 FM (fun m _ => KO m))) as S1.
      destruct (write_members L b delta d sub (filter is_simple ms)) as [[a1 k1]|] eqn:E1; [|now rewrite S1].
      destruct S1 as (c1 & TC1 & ->). rewrite run_list_app. cbn [app].
      pose proof (wseq_ok FM e _ c1 a1 k1 N2 TC1 (PRE2 FM a1 k1 eq_refl (fun m _ => KO m))) as S2.
      destruct (write_members L b delta d sub (filter (fun m => negb (is_simple m)) ms)) as [[a2 k2]|]; [|now rewrite S2].
      destruct S2 as (c2 & TC2 & ->). exists FM, c2. destruct nd; reflexivity.
  Qed.
End Body.

(** Depth of an object. *)
Fixpoint vheight (v : val) : nat :=
  match v with
  | VStruct _ fs => S (list_max (map (fun p => vheight (snd p)) fs))
  | VVec _ l => list_max (map vheight l)
  | _ => 0
  end.
Lemma list_max_in n l : In n l -> n <= list_max l.
Proof. intros I. pose proof (proj1 (list_max_le l _) (le_n _)) as F. rewrite Forall_forall in F. now apply F. Qed.

Section Call.
  Variables (b : backend) (fm : form) (enums : list enum_S) (ss : list struct_S) (o : output_spec) (ds : list def) (L : lang).
  Hypothesis X : xml_setting b fm enums ss o ds L.
  Let R := o_reader o.
  Let W := o_writer o.
  Let P := prog b enums ss o.
  Hypothesis OR : o_only_read o = false.
  Hypothesis L64 : fm = Elements -> l_long L = 64%Z.
  Variables (wf : nat) (dl : bool).
  Let nd := o_no_delta o.
  Notation g := (x_g b fm enums ss o ds L X).
  Notation ok := (x_ok b fm enums ss o ds L X).
  Notation defs := (x_defs b fm enums ss o ds L X).

  Lemma wr_methods u : find_struct (l_defs L) u <> None -> is_method P W (pre_wr u) = true.
  Proof.
    intros H. destruct (struct_of b fm enums ss o ds L X u H) as (s & ms & S1 & <- & _). apply is_wr; [exact (x_bi b fm enums ss o ds L X)|exact S1|exact OR].
  Qed.
  Lemma from_calls f : 0 < f -> forall u c es, find_enum (l_defs L) u = Some (c, es) -> forall lv z s,
    call_fun L P wf f ["stfx"; "s_from_e"] [(lv, VEnum u z)] s = Ok (VStr (enum_text (enum_values L 0 es) z)) s.
  Proof.
    intros F u c es E lv z s. rewrite defs in E. apply find_enum_in in E as (t & E). destruct f as [|f]; [lia|].
    exact (call_from b enums ss o ds L g wf c u es t E lv z f s).
  Qed.
  Lemma from_undef f : 0 < f -> forall u c es, find_enum (l_defs L) u = Some (c, es) -> forall lv s,
    call_fun L P wf f ["stfx"; "s_from_e"] [(lv, VUndef (TEnum u))] s = UB.
  Proof.
    intros F u c es E lv s. rewrite defs in E. apply find_enum_in in E as (t & E). destruct f as [|f]; [lia|].
    exact (call_from_undef b enums ss o ds L g wf c u es t E lv f s).
  Qed.
  Lemma enum_text_cut u c es : find_enum (l_defs L) u = Some (c, es) -> forall z, cut (enum_text (enum_values L 0 es) z) = enum_text (enum_values L 0 es) z.
  Proof.
    intros E z. rewrite defs in E. apply find_enum_in in E as (t & E). unfold enum_text. destruct (name_of (enum_values L 0 es) z) as [x|] eqn:N.
    - apply name_of_in in N. exact (cut_name _ _ ds L ok c u es t E x z N).
    - apply cut_id, dec_no_nul.
  Qed.
  Lemma fine_no_wlocal u : In u (map def_name ds) -> no_wlocal u.
  Proof.
    intros I x J. apply in_map_iff in I as (d & <- & I). pose proof (g_fine b enums ss o ds L g d I) as F.
    assert (C : x = "*data" \/ In x reserved) by (cbn [In] in J; repeat (destruct J as [<-|J]; [first [left; reflexivity|right; apply mem_in; reflexivity]|]); contradiction).
    destruct C as [->|C]; [|now apply (tf_reserved _ _ _ F)].
    pose proof (name_ok_ident _ (tf_name _ _ _ F)) as N. apply eqb_neq. intros E. rewrite E in N. discriminate.
  Qed.
  Lemma wmembers_good u ms m : In (DefStruct u ms) ds -> In m ms -> wmember_good L (is_method P W) fm m.
  Proof.
    intros I J. pose proof (members_good b fm enums ss o ds L X u ms m I J W (or_intror eq_refl)) as (CU & MG). split; [exact CU|].
    destruct m as [st x d|t x d|t x]; [intros E _; now apply L64|exact MG|].
    destruct MG as (UT & NL & NM & _). assert (FS : find_struct (l_defs L) t <> None).
    { unfold user_type in UT. destruct (find_struct (l_defs L) t); [discriminate|]. destruct (find_enum (l_defs L) t); discriminate. }
    destruct (struct_of b fm enums ss o ds L X t FS) as (s & ms' & _ & _ & D & _).
    assert (DN : In t (map def_name ds)) by (apply (in_map def_name) in D; exact D).
    split; [exact UT|]. split; [|split; [exact FS|split; [now apply fine_no_wlocal|exact NM]]].
    apply in_map_iff in DN as (d & <- & DI). apply cut_id, ident_no_nul, name_ok_ident, (tf_name _ _ _ (g_fine b enums ss o ds L g d DI)).
  Qed.
  Lemma one_wr_fun s : one_wr b s W nd = FDef (Some t_bool) [W; pre_wr (s_name s)] [p_el; p_data (s_name s)] [] (wr_body fm nd s).
  Proof. unfold wr_body. destruct (x_form _ _ _ _ _ _ _ X) as [[-> ->]|[-> ->]]; reflexivity. Qed.

  (** The writer function of a struct writes an object as [write_val] says. *)
  Theorem wr_call_ok f : forall u fs, fits L (VStruct u fs) (TStruct u) = true -> vheight (VStruct u fs) < f -> wr_ok L (call_fun L P wf f) W fm nd dl u fs.
  Proof.
    induction f as [|f IH]; intros u fs FI HV; [lia|]. intros nm p lv lv' l s TH AP GL.
    destruct (fits_struct L u fs FI) as (ms & FS & FF).
    destruct (struct_of b fm enums ss o ds L X u) as (sr & ms' & S1 & S2 & S3 & S4 & S5 & S6); [congruence|]. assert (ms' = ms) by congruence. subst ms'.
    destruct (struct_parts _ _ ds ok u ms S3) as (ND & _).
    assert (DN : In u (map def_name ds)) by (apply (in_map def_name) in S3; exact S3).
    destruct (init_struct _ _ ds ok L defs (x_long _ _ _ _ _ _ _ X) (x_lits _ _ _ _ _ _ _ X) u ms S3) as (d & IN & FD).
    destruct (fits_struct L u d FD) as (ms' & FS' & FF'). assert (ms' = ms) by congruence. subst ms'.
    cbn [call_fun].
    replace (pre_wr u) with (pre_wr (s_name sr)) by congruence.
    pose proof (find_wr b enums ss o (x_bi b fm enums ss o ds L X) (x_cw b fm enums ss o ds L X) (x_rw b fm enums ss o ds L X) (lk_struct_names _ _ _ (g_lk _ _ _ _ _ _ g)) sr (fun d => params_fit (fd_params d) [(lv, VEl (Some p)); (lv', VPtr (Some l))] s) S1 OR) as FR.
    cbv beta in FR.
    match type of FR with ?A -> ?B -> ?l = ?r => assert (FA : A); [|assert (FB : B); [|specialize (FR FA FB); match goal with |- context [filter ?q P] => change (filter q P) with l end; rewrite FR]] end.
    { fold W nd. rewrite one_wr_fun. cbn [fd_params params_fit p_el t_el p_data param_fits fst snd ct_ref ct_name]. rewrite GL. cbn [ty_of]. rewrite S2, String.eqb_refl. reflexivity. }
    { intros d0 x ->. reflexivity. }
    clear FR FA FB.
    fold W nd. rewrite one_wr_fun. unfold enter.
    cbn [fd_name fd_params undef_arg p_el t_el p_data ct_ref fst snd orb bind_params bind_param]. rewrite GL. cbn [b_vars b_el b_back app map fst].
    change (distinct ["el"; "data"; "*data"]) with true. cbn [andb forallb param_visible ct_name fst].
    assert (ST : String.eqb W "stfx" = false) by (apply class_not_stfx; exact (x_cw b fm enums ss o ds L X)).
    assert (seen_this W s = [("m_delta_only", vbool dl)]) as -> by (unfold seen_this; rewrite ST; exact TH).
    unfold param_visible, p_el, p_data. cbn [fst t_el ct_name set_this s_this assoc]. rewrite S2, ST.
    rewrite (type_method b fm enums ss o ds L X u DN) by tauto. rewrite (fine_no_wlocal u DN "m_delta_only") by (cbn; tauto). cbn [negb andb].
    rewrite AP.
    assert (HP : 0 < f) by (cbn [vheight] in HV; lia).
    pose proof (wr_body_ok L (call_fun L P wf f) W (is_method P W) wf fm nd dl (from_calls f HP) (from_undef f HP) enum_text_cut wr_methods u fs d (s_world s) ms sr nm S2 S5 S6 ND
                  (fun m J => wmembers_good u ms m S3 J) (fields_fit_member L ms ND fs FF) (fields_fit_member L ms ND d FF')) as B.
    assert (CO : forall n v, assoc n fs = Some v -> calls_ok L (call_fun L P wf f) W fm nd dl v).
    { intros n v A. assert (HH : vheight v < f).
      { apply assoc_some in A. cbn [vheight] in HV. assert (vheight v <= list_max (map (fun p => vheight (snd p)) fs)); [|lia].
        apply list_max_in. apply in_map_iff. exists (n, v). auto. }
      assert (exists m, In m ms /\ member_name m = n) as (m & M1 & M2).
      { pose proof (assoc_key _ _ _ A) as K. rewrite (fields_fit_keys L ms fs FF) in K. apply in_map_iff in K as (m & E & M). eauto. }
      destruct (fields_fit_member L ms ND fs FF m M1) as (v' & ty & A1 & A2 & A3). rewrite M2, A in A1. injection A1 as <-.
      pose proof (fits_ty L v ty A3) as TY. destruct v; try exact Logic.I.
      - cbn [ty_of] in TY. subst ty. apply IH; auto.
      - cbn [ty_of] in TY. subst ty. cbn [calls_ok]. intros x IX. cbn [fits] in A3. apply andb_true_iff in A3 as [_ A3]. rewrite forallb_forall in A3. specialize (A3 x IX).
        pose proof (fits_ty L x _ A3) as TX. destruct x; cbn [ty_of] in TX; try discriminate TX; [subst; discriminate A3|]. injection TX as ->. eexists. split; [reflexivity|].
        apply IH; [exact A3|]. eapply Nat.le_lt_trans; [|exact HH]. cbn [vheight]. apply list_max_in. apply in_map_iff. eexists. split; [|exact IX]. reflexivity. }
    specialize (B CO (user_struct _ _ ds ok L defs u ms S3) (fine_no_wlocal u DN) (type_method b fm enums ss o ds L X u DN W (or_intror (or_introl eq_refl))) IN).
    assert (WV : write_val L fm (negb nd && dl) (VStruct u fs) = write_members L fm (negb nd && dl) d (map (fun p => (fst p, (snd p, write_val L fm (negb nd && dl) (snd p)))) fs) (in_order ms)).
    { cbn [write_val]. rewrite FS. unfold default_fields. rewrite IN. reflexivity. }
    rewrite WV. destruct (write_members L fm (negb nd && dl) d _ (in_order ms)) as [[a ks]|].
    - destruct B as (k & c & B). cbn [fd_body]. unfold base in B. use_exec B. unfold return_to. cbn [b_el b_back].
      assert (LK : lookup "*data" (s_scopes (wst false k c nd u fs d (Elem nm a ks) dl (s_world s))) = Some (VStruct u fs)) by (destruct k, nd; reflexivity).
      cbn [copy_back]. change (s_scopes (set_this (wst false k c nd u fs d (Elem nm a ks) dl (s_world s)) ?q)) with (s_scopes (wst false k c nd u fs d (Elem nm a ks) dl (s_world s))). rewrite LK.
      cbn [set_this s_tree s_this s_world s_scopes wst]. rewrite <- TH.
      match goal with |- context [put_lv l ?v ?q] => assert (PU : put_lv l v q = Some q) by (apply put_lv_same; rewrite <- GL; reflexivity); rewrite PU end.
      reflexivity.
    - cbn [fd_body]. unfold base in B. use_exec B. reflexivity.
  Qed.
End Call.
