(** The generated n_ini reader functions compute [read_obj]. *)
From Coq Require Import String Ascii ZArith NArith Arith List Bool Lia.
From Verif Require Import Base Map Items Grammar Fmt Decimal Templates Emit Cpp Xml Val Rx CppSem SymLex Ast StoreDefs ResolveProps Prog Header EnumSem DecText EnumCall XmlSpec XmlRdSimple XmlRead XmlReader XmlCall IniSpec IniRead.
Import ListNotations.
Local Open Scope string_scope.
Local Open Scope list_scope.

Section B.
  Variables (L : lang) (call : list string -> list arg -> st -> res val) (cls : string) (mf : string -> bool) (wf : nat).
  Notation ex := (run_list (exec L call cls mf wf)).
  Hypothesis LL : (0 < l_long L)%Z.
  Hypothesis EC : forall u c es, find_enum (l_defs L) u = Some (c, es) -> forall lv v x l old s, text_arg v x -> get_lv l s = Some old -> ty_of old = TEnum u ->
    to_call L u es l x s (call ["stfx"; "s_to_e"] [(lv, v); (Some l, old)] s).
  Hypothesis MF : forall u, find_struct (l_defs L) u <> None -> mf (pre_rd u) = true.
  (** What the members of the reader object can be: [OT] holds for the names of types. *)
  Variable OT : string -> Prop.
  Definition this_ok (k : lookups) (th : scope) : Prop :=
    assoc "m_lookup" th = Some (look_val k) /\ forall u, OT u -> assoc u th = None.
  Variable k : lookups.

  Definition rd_ok (v : val) : Prop := forall u fs path pv lv l s,
    v = VStruct u fs -> this_ok k (s_this s) -> text_arg pv path -> get_lv l s = Some v -> fits L v (TStruct u) = true ->
    call [cls; pre_rd u] [(lv, pv); (Some l, v)] s =
    match read_obj L k v path with
    | Some (rv, v') => match put_lv l v' s with Some s' => Ok (vbool rv) s' | None => Bad end
    | None => UB
    end.

  Variables (tr : node) (th : scope) (w : world) (t : string).
  Hypothesis TH : this_ok k th.

  (** The variables of the block of try. *)
  Definition try_scope (sc : scope) : Prop := sc = [] \/ exists fi, sc = [("found_items", fi)].

  Ltac sem1 := cbn [exec ev run_list run_args exec_list scoped leave length Nat.sub skipn
    e_dot e_data e_id s_set e_second e_std e_ddot e_under
    lvalue is_local is_member get_lv get_root put_lv get_path put_path get_acc put_acc lv_this lv_root lv_path app
    lookup update assoc set_assoc String.eqb Ascii.eqb Bool.eqb eqb andb orb negb fr st_items
    s_scopes s_tree s_this s_world set_scopes set_tree set_this set_world declare declare_as store
    method map_method str_method fst snd ty_of val_member fun_call std_fun look_val item_val
    named_type exec_decl ct_args ct_ref ct_name t_auto names_eqb option_map items_val
    lift conv binary veq vbool truth Z.eqb nkind_eqb fkind_eqb].
  Ltac walk := repeat (first [progress sem1
    | match goal with H : assoc ?n ?fs = _ |- context [assoc ?n ?fs] => rewrite H
      | H : ty_of ?n = _ |- context [ty_of ?n] => rewrite H end
    | progress unfold is_local, is_member, get_lv, put_lv, get_root, assign, store, scoped, leave, fun_call]).

  Ltac use_run E := match type of E with ?l = _ => match l with run_list _ ?q _ =>
    match goal with |- context [run_list ?a1 q ?a3] => change (run_list a1 q a3) with l end end end; rewrite E.
  Definition after_scalars rv p (r : outcome (list (string * val))) (a : res ctl) : Prop :=
    match r with
    | Done fs => exists sc, try_scope sc /\ a = Ok CNext (St [sc; fr rv p t fs] tr th w)
    | Thrown fs => exists sx, a = Exc (St (sx ++ [fr rv p t fs]) tr th w)
    | Undefined => a = UB
    end.

  Variables (ms : list member) (s : struct_S).
  Hypothesis SS : s_simple s = simples ms.
  Hypothesis SC : s_complex s = resolved_members (l_defs L) ms.
  Hypothesis MG : forall m, In m ms -> member_good L mf m.
  Hypothesis NM : forall m, In m ms -> is_scalar L m = true -> String.eqb (member_name m) "items" = false /\ String.eqb (member_name m) "data" = false.
  Hypothesis ND : NoDup (map member_name ms).

  Lemma member_kinds m : In m ms -> match m with MUser u _ _ => (user_type L u = Some (TEnum u) /\ kind_in (l_defs L) u = enum_E) \/ (user_type L u = Some (TStruct u) /\ kind_in (l_defs L) u = struct_E) | _ => True end.
  Proof. intros I. destruct (MG m I) as (_ & G). destruct m; auto. destruct G as [(c & es & A & _ & B)|G]; auto. Qed.

  Lemma filter_names p : forall l, NoDup (map member_name l) -> NoDup (map member_name (filter p l)).
  Proof.
    induction l as [|m l IH]; [constructor|]. cbn [map filter]. intros N. apply NoDup_cons_iff in N as [N1 N]. destruct (p m); [|auto].
    cbn. constructor; [|auto]. intros X. apply N1. apply in_map_iff in X as (y & <- & Y). apply filter_In in Y as [Y _]. now apply in_map.
  Qed.
  Lemma no_simples : s_simple s = [] -> existsb is_simple ms = false.
  Proof.
    rewrite SS. clear. unfold simples. intros H. apply not_true_iff_false. intros E. apply existsb_exists in E as (m & I & E). destruct m as [ty n d| |]; try discriminate.
    assert (X : In (Simple ty n (dflt_text d)) []) by (rewrite <- H; apply in_flat_map; exists (MSimple ty n d); cbn; auto). contradiction.
  Qed.
  Lemma some_simples a l : s_simple s = a :: l -> existsb is_simple ms = true.
  Proof.
    rewrite SS. clear. unfold simples. intros H. apply existsb_exists. 
    assert (X : In a (a :: l)) by now left. rewrite <- H in X. apply in_flat_map in X as (m & I & X). exists m. split; [exact I|]. destruct m; [reflexivity|contradiction|contradiction].
  Qed.

  Lemma rd_scalars_ok rv p fs : (forall m, In m ms -> member_fits L fs m) ->
    after_scalars rv p (match assoc p (k_under k) with Some its => read_scalars L its (section_members L ms) fs | None => Done fs end)
      (ex (ni_rd_scalars s) (St [[]; fr rv p t fs] tr th w)).
  Proof.
    intros MI. unfold ni_rd_scalars, section_members. case_eq (s_simple s); [intros E|intros a l E].
    - rewrite (no_simples E). destruct (assoc p (k_under k)); exists []; split; try reflexivity; now left.
    - rewrite (some_simples _ _ E). destruct TH as (TH1 & _). walk.
rewrite find_under. destruct (assoc p (k_under k)) as [its|] eqn:A.
      + walk. unfold ni_rd_items. cbn [run_list]. walk.
        rewrite SS, SC, (items_stmts L ms member_kinds).
        destruct (scalars_ok L call cls mf wf LL EC its (VIter (Some (VStr p, item_val its []))) rv p t tr th w (filter (is_scalar L) (in_order ms))
          (filter_names _ _ (in_order_names ms ND)) [("items", items_val its)] fs) as (sc & H).
        * intros m I. apply filter_In in I as [I SCA]. apply (proj1 (in_order_in m ms)) in I. destruct (NM m I SCA) as (N1 & N2). split; [|split; [now apply MI|cbn [assoc]; now rewrite N1]].
          destruct (MG m I) as (CU & G). repeat split; auto. destruct m as [st n d|u n d|u n]; auto; [|discriminate].
          destruct G as [(c & es & G1 & G2 & _)|(G1 & _)]; [eauto|]. cbn [is_scalar] in SCA. rewrite G1 in SCA. discriminate.
        * reflexivity.
        * reflexivity.
        * unfold after_item in H. unfold after_scalars. unfold st_items at 1 in H. 
          destruct (read_scalars L its (filter (is_scalar L) (in_order ms)) fs) as [fs'|fs'|].
          -- use_run H. walk. eexists. split; [right; eexists; reflexivity|reflexivity].
          -- destruct H as (sx & H). use_run H. walk. exists sx. reflexivity.
          -- use_run H. reflexivity.
      + walk. eexists. split; [right; eexists; reflexivity|reflexivity].
  Qed.

  (** *** Members of struct types *)
  Lemma dot_ok sc rv p fs : try_scope sc -> ex [s_dot "path"] (St [sc; fr rv p t fs] tr th w) = Ok CNext (St [sc; fr rv (dotted p) t fs] tr th w).
  Proof.
    intros [->|(fi & ->)]; unfold s_dot, e_nonempty, dotted; destruct p as [|c p]; walk; reflexivity.
  Qed.
  Lemma cut_under n : cut n = n -> cut (underline_to_space n) = underline_to_space n.
  Proof.
    induction n as [|c n IH]; [reflexivity|]. cbn [cut underline_to_space]. destruct (c =? ascii_of_nat 0)%char eqn:E; [discriminate|]. intros [= H].
    rewrite (IH H). destruct (c =? "_")%char eqn:E1; [reflexivity|]. now rewrite E.
  Qed.
  Definition struct_stmt (m : member) : list stmt :=
    match m with MUser u n _ => ni_rd_complex (Complex struct_E u n) | _ => [] end.
  Lemma struct_stmts l : incl l ms -> flat_map ni_rd_complex (resolved_members (l_defs L) l) = flat_map struct_stmt (filter (is_struct_member L) l).
  Proof.
    unfold resolved_members. induction l as [|m l IH]; intros I; [reflexivity|]. assert (IM : In m ms) by (apply I; now left). specialize (IH (fun x X => I x (or_intror X))).
    pose proof (member_kinds m IM) as G.
    destruct m as [st x d|u x d|u x]; cbn [flat_map filter is_struct_member app]; [exact IH| |exact IH].
    destruct G as [(-> & ->)|(-> & ->)]; cbn [flat_map app]; [exact IH|]. cbn [struct_stmt]. now rewrite <- IH.
  Qed.
  Variable fs0 : list (string * val).
  Notation sub := (map (fun p => (fst p, read_obj L k (snd p))) fs0).
  Lemma assoc_map {A B} (g : A -> B) n (l : list (string * A)) : assoc n (map (fun p => (fst p, g (snd p))) l) = option_map g (assoc n l).
  Proof. induction l as [|[j a] l IH]; [reflexivity|]. cbn. destruct (String.eqb n j); [reflexivity|exact IH]. Qed.
  Hypothesis RD : forall n u fs, assoc n fs0 = Some (VStruct u fs) -> rd_ok (VStruct u fs).

  Lemma structs_ok sc p : try_scope sc -> forall l rv fs, incl l ms -> NoDup (map member_name l) ->
    (forall m, In m l -> is_struct_member L m = true /\ member_fits L fs m /\ assoc (member_name m) fs = assoc (member_name m) fs0) ->
    ex (flat_map struct_stmt l) (St [sc; fr rv (dotted p) t fs] tr th w) =
    match read_structs p sub l rv fs with
    | Some (rv', fs') => Ok CNext (St [sc; fr rv' (dotted p) t fs'] tr th w)
    | None => UB
    end.
  Proof.
    intros TS. induction l as [|m l IH]; intros rv fs INC NDl H; [reflexivity|].
    cbn [map] in NDl. apply NoDup_cons_iff in NDl as [N NDl]. destruct (H m (or_introl eq_refl)) as (SM & (old & ty & AS & MT & FI) & SAME).
    cbn [read_structs flat_map]. rewrite run_list_app, assoc_map, <- SAME, AS. cbn [option_map].
    destruct m as [st n d|u n d|u n]; try discriminate SM. cbn [member_name member_type is_struct_member] in *.
    destruct (member_kinds _ (INC _ (or_introl eq_refl))) as [(UT & _)|(UT & _)]; rewrite UT in SM, MT; [discriminate|]. injection MT as <-.
    assert (SV : exists fs1, old = VStruct u fs1).
    { pose proof (fits_ty _ _ _ FI) as TY. destruct old; cbn [ty_of] in TY; try discriminate TY; [subst; discriminate FI|]. injection TY as ->. eauto. }
    destruct SV as (fs1 & ->).
    assert (M : mf (pre_rd u) = true).
    { apply MF. cbn in FI. destruct (find_struct (l_defs L) u); [congruence|]. rewrite andb_false_r in FI. discriminate. }
    destruct (MG _ (INC _ (or_introl eq_refl))) as (CU & _). cbn [member_name] in CU. apply cut_under in CU.
    rewrite SAME in AS. pose proof (RD n u fs1 AS) as RC. rewrite <- SAME in AS.
    assert (STEP : ex (struct_stmt (MUser u n d)) (St [sc; fr rv (dotted p) t fs] tr th w) =
      match read_obj L k (VStruct u fs1) (sub_path p n) with
      | Some (rv', v) => Ok CNext (St [sc; fr rv' (dotted p) t (set_assoc n v fs)] tr th w)
      | None => UB
      end).
    { clear SAME IH H. unfold struct_stmt, ni_rd_complex. cbn [sc_type sc_name sc_tname].
      destruct TS as [->|(fi & ->)]; (walk; rewrite CU; walk; rewrite M; unfold pre_rd; repeat (walk; cbn [append]);
      match goal with |- context [call ?q ?args ?s0] => match args with [(?lv, ?pv); (Some ?l, ?v)] =>
        pose proof (RC u fs1 (sub_path p n) pv lv l s0 eq_refl TH (or_introl eq_refl)) as RC1;
        assert (GL : get_lv l s0 = Some v) by (walk; reflexivity); specialize (RC1 GL FI);
        match type of RC1 with ?lhs = _ => change (call q args s0) with lhs end; rewrite RC1 end end;
      destruct (read_obj L k (VStruct u fs1) (sub_path p n)) as [[rv' v]|]; [|reflexivity]; walk; destruct rv'; reflexivity). }
    rewrite STEP. destruct (read_obj L k (VStruct u fs1) (sub_path p n)) as [[rv' v]|]; [|reflexivity].
    apply IH; [intros x X; apply INC; now right|exact NDl|]. intros m' I. destruct (H m' (or_intror I)) as (B1 & (o' & ty' & B2 & B3 & B4) & B5).
    assert (X : String.eqb (member_name m') n = false) by (apply eqb_neq; intros X; apply N; rewrite <- X; now apply in_map).
    split; [exact B1|]. split; [exists o', ty'|]; rewrite assoc_set_other; auto.
  Qed.

  (** *** The body *)
  Lemma read_scalars_other its n : forall l fs, ~ In n (map member_name l) ->
    match read_scalars L its l fs with Done fs' | Thrown fs' => assoc n fs' = assoc n fs | Undefined => True end.
  Proof.
    induction l as [|m l IH]; intros fs N; cbn [read_scalars]; [reflexivity|]. cbn [map In] in N.
    destruct (assoc (member_name m) its) as [x|]; [|apply IH; tauto]. destruct (assoc (member_name m) fs) as [old|]; [|exact Logic.I].
    destruct (read_text L m x old) as [v|v|]; [|reflexivity|exact Logic.I]. specialize (IH (set_assoc (member_name m) v fs) (fun X => N (or_intror X))).
    destruct (read_scalars L its l (set_assoc (member_name m) v fs)); auto; rewrite IH; apply assoc_set_other; apply eqb_neq; intros X; apply N; now left.
  Qed.
  Lemma name_inj m m' : In m ms -> In m' ms -> member_name m = member_name m' -> m = m'.
  Proof.
    clear - ND. induction ms as [|m0 l IH]; [contradiction|]. cbn [map] in ND. apply NoDup_cons_iff in ND as [N ND'].
    intros [->|X1] [->|Y1] E; auto; exfalso; apply N; [rewrite E|rewrite <- E]; now apply in_map.
  Qed.
  Lemma struct_not_scalar m : In m ms -> is_struct_member L m = true -> ~ In (member_name m) (map member_name (section_members L ms)).
  Proof.
    intros I S X. apply in_map_iff in X as (m' & E & X). unfold section_members in X. destruct (existsb is_simple ms); [|contradiction].
    apply filter_In in X as (X & SC'). apply (proj1 (in_order_in m' ms)) in X. apply name_inj in E; auto. subst m'.
    destruct m; cbn in *; try discriminate. destruct (user_type L tname) as [[]|]; discriminate.
  Qed.
  Lemma no_struct : has_children (s_complex s) = false -> filter (is_struct_member L) ms = [].
  Proof.
    rewrite SC. unfold has_children, resolved_members. intros H. rewrite <- not_true_iff_false, existsb_exists in H.
    destruct (filter (is_struct_member L) ms) as [|m l] eqn:E; [reflexivity|]. exfalso. apply H.
    assert (I : In m (filter (is_struct_member L) ms)) by (rewrite E; now left). apply filter_In in I as [I S].
    pose proof (member_kinds m I) as G. destruct m as [st n d|u n d|u n]; try discriminate. cbn in S.
    destruct G as [(G & _)|(G & K)]; [rewrite G in S; discriminate|]. exists (Complex struct_E u n). split; [|reflexivity].
    apply in_flat_map. exists (MUser u n d). rewrite K. cbn. auto.
  Qed.
  Hypothesis MI : forall m, In m ms -> member_fits L fs0 m.
  Hypothesis FS : find_struct (l_defs L) t = Some ms.
  Lemma rd_body_ok p : match read_obj L k (VStruct t fs0) p with
    | Some (rv, v) => exists p' fs', v = VStruct t fs' /\ ex (ni_rd_body s) (St [[("path", VStr p); ("data", VStruct t fs0)]] tr th w) = Ok (CRet (vbool rv)) (St [fr rv p' t fs'] tr th w)
    | None => ex (ni_rd_body s) (St [[("path", VStr p); ("data", VStruct t fs0)]] tr th w) = UB
    end.
  Proof.
    cbn [read_obj]. rewrite FS. pose proof (rd_scalars_ok true p fs0 MI) as SO.
    set (r := match assoc p (k_under k) with Some its => read_scalars L its (section_members L ms) fs0 | None => Done fs0 end) in *.
    assert (BODY : ex (ni_rd_body s) (St [[("path", VStr p); ("data", VStruct t fs0)]] tr th w) =
      match (match ex (ni_rd_inner s) (St [[]; fr true p t fs0] tr th w) with Ok c s1 => Ok c (leave 1 s1) | Exc s' => scoped (leave 1 s') (ex [s_set (EId ["rv"]) (EBool false)]) | UB => UB | Bad => Bad | Fuel => Fuel end)
      with Ok CNext s1 => ex [s_ret] s1 | Ok c s1 => Ok c s1 | Exc s' => Exc s' | UB => UB | Bad => Bad | Fuel => Fuel end).
    { unfold ni_rd_body, s_rv. cbn [run_list]. 
      assert (D : exec L call cls mf wf (SDecl t_bool "rv" (Some (EBool true))) (St [[("path", VStr p); ("data", VStruct t fs0)]] tr th w) = Ok CNext (St [fr true p t fs0] tr th w)) by reflexivity.
      rewrite D. cbn [exec]. unfold scoped at 1. cbn [s_scopes set_scopes s_tree s_this s_world length].
      unfold fr, set_scopes. cbn [s_scopes set_scopes s_tree s_this s_world length].
      destruct (run_list (exec L call cls mf wf) (ni_rd_inner s) _) as [c s1|s'| | |]; try reflexivity. }
    rewrite BODY. unfold ni_rd_inner. rewrite run_list_app.
    assert (RET : forall rv p' fs', ex [s_ret] (St [fr rv p' t fs'] tr th w) = Ok (CRet (vbool rv)) (St [fr rv p' t fs'] tr th w)) by (intros [] p' fs'; reflexivity).
    assert (OTH : match r with Done fs' => forall m, In m ms -> is_struct_member L m = true -> assoc (member_name m) fs' = assoc (member_name m) fs0 | _ => True end).
    { subst r. destruct (assoc p (k_under k)) as [its|]; [|auto]. destruct (read_scalars L its (section_members L ms) fs0) as [fs'|fs'|] eqn:E; auto. intros m I S.
      pose proof (read_scalars_other its (member_name m) (section_members L ms) fs0 (struct_not_scalar m I S)) as X. now rewrite E in X. }
    unfold after_scalars in SO. destruct r as [fs1|fs1|].
    - destruct SO as (sc & TS & ->). rewrite run_list_app.
      assert (FIT : forall m, In m (filter (is_struct_member L) ms) -> is_struct_member L m = true /\ member_fits L fs1 m /\ assoc (member_name m) fs1 = assoc (member_name m) fs0).
      { intros m I. apply filter_In in I as [I S]. destruct (MI m I) as (o & ty & A1 & A2 & A3). pose proof (OTH m I S) as E. repeat split; auto. exists o, ty. rewrite E. auto. }
      assert (IN : incl (filter (is_struct_member L) ms) ms) by (intros m I; now apply filter_In in I).
      destruct (has_children (s_complex s)) eqn:HC.
      + rewrite (dot_ok _ _ _ _ TS). rewrite SC, (struct_stmts ms (incl_refl _)).
        pose proof (structs_ok sc p TS (filter (is_struct_member L) ms) true fs1 IN (filter_names _ _ ND) FIT) as ST. rewrite ST.
        destruct (read_structs p sub (filter (is_struct_member L) ms) true fs1) as [[rv fs2]|]; [|reflexivity].
        exists (dotted p), fs2. split; [reflexivity|]. assert (leave 1 (St [sc; fr rv (dotted p) t fs2] tr th w) = St [fr rv (dotted p) t fs2] tr th w) as -> by reflexivity. apply RET.
      + rewrite SC, (struct_stmts ms (incl_refl _)), (no_struct HC). cbn [flat_map run_list read_structs].
        exists p, fs1. split; [reflexivity|]. assert (leave 1 (St [sc; fr true p t fs1] tr th w) = St [fr true p t fs1] tr th w) as -> by reflexivity. apply RET.
    - destruct SO as (sx & ->). exists p, fs1. split; [reflexivity|].
      assert (LV : leave 1 (St (sx ++ [fr true p t fs1]) tr th w) = St [fr true p t fs1] tr th w).
      { unfold leave. cbn [s_scopes set_scopes s_tree s_this s_world]. rewrite app_length. cbn [length]. replace (length sx + 1 - 1)%nat with (length sx) by lia.
        rewrite skipn_app, skipn_all, Nat.sub_diag. reflexivity. }
      rewrite LV. change (scoped (St [fr true p t fs1] tr th w) (ex [s_set (EId ["rv"]) (EBool false)])) with (Ok CNext (St [fr false p t fs1] tr th w)). apply (RET false).
    - rewrite SO. reflexivity.
  Qed.
End B.
