(** The generated n_ini writer functions and write_to_file, called from anywhere in the
    generated program. *)
From Coq Require Import String Ascii ZArith NArith Arith List Bool Lia.
From Verif Require Import Base Map Items Grammar Fmt Decimal Templates Emit Cpp Xml Val Rx CppSem SymLex Ast StoreDefs ResolveProps Prog Header Link EnumSem DecText EnumCall EnumRound XmlSpec XmlRdSimple XmlRead XmlReader XmlCall XmlWrite XmlWriter XmlFile IniSpec IniRead IniReader IniCall IniLines IniFile IniEntry IniWrite.
Import ListNotations.
Local Open Scope string_scope.
Local Open Scope list_scope.

Lemma ident_no_brace n : ident n = true -> no_brace n = true.
Proof.
  intros H. apply ident_all in H. induction n as [|c n IH]; [reflexivity|]. cbn [all_chars no_brace] in *. apply andb_true_iff in H as [A B]. rewrite (IH B), andb_true_r.
  destruct c as [[] [] [] [] [] [] [] []]; (reflexivity || discriminate).
Qed.
Section Body.
  Variables (L : lang) (call : list string -> list arg -> st -> res val) (cls : string) (mf : string -> bool) (wf : nat).
  Variables (nd dl : bool) (k : lookups) (key vv : string) (fn : string) (fl : list (string * CppSem.content)) (wi : option string) (tr : node).
  Notation ex := (run_list (exec L call cls mf wf)).
  Notation delta := (negb nd && dl)%bool.
  Notation th := (wthis dl k key vv).
  Hypothesis EC : forall u c es, find_enum (l_defs L) u = Some (c, es) -> forall lv z s,
    call ["stfx"; "s_from_e"] [(lv, VEnum u z)] s = Ok (VStr (enum_text (enum_values L 0 es) z)) s.
  Hypothesis MF : forall u, find_struct (l_defs L) u <> None -> mf (pre_wr u) = true.
  Variables (t : string) (fs d : list (string * val)) (path : string).
  Notation sub := (map (fun p => (fst p, (snd p, obj_text L delta (snd p)))) fs).
  Notation ist := (ist nd dl k key vv fn fl wi tr).
  Notation wr v := (iwr_ok L call cls nd dl k key vv fn fl wi v).

  Lemma iseq_ok : forall ms lp o,
    (forall m, In m ms -> member_good L mf m /\ good_name (member_name m) /\ member_fits L fs m /\ member_fits L d m /\
       forall v, assoc (member_name m) fs = Some v -> wr v) ->
    match members_text L delta path d sub ms with
    | Some x => exists lp', ex (flat_map (iwr_stmts L nd) ms) (ist false t fs d lp path o) = Ok CNext (ist false t fs d lp' path (o ++ x))
    | None => ex (flat_map (iwr_stmts L nd) ms) (ist false t fs d lp path o) = UB
    end.
  Proof.
    induction ms as [|m ms IH]; intros lp o H; [exists lp; rewrite sapp_nil_r; reflexivity|]. cbn [members_text flat_map].
    destruct (H m (or_introl eq_refl)) as (MG & GN & MI & MD & CO).
    pose proof (imember_ok L call cls mf wf nd dl k key vv fn fl wi tr EC MF t fs d lp path o m MG GN MI MD CO) as ST.
    rewrite run_list_app. destruct (member_text L delta path d sub m) as [x|]; [|now rewrite ST].
    destruct ST as (lp1 & ->). specialize (IH lp1 (o ++ x)%string (fun m' I => H m' (or_intror I))).
    destruct (members_text L delta path d sub ms) as [y|]; [|now rewrite IH]. destruct IH as (lp2 & ->). exists lp2. now rewrite sapp_assoc.
  Qed.
  Lemma members_text_app ms ms' : members_text L delta path d sub (ms ++ ms') =
    let? x := members_text L delta path d sub ms in let? y := members_text L delta path d sub ms' in Some (x ++ y)%string.
  Proof.
    induction ms as [|m ms IH]; cbn [app members_text]; [destruct (members_text L delta path d sub ms'); reflexivity|].
    rewrite IH. destruct (member_text L delta path d sub m); [|reflexivity]. destruct (members_text L delta path d sub ms); [|reflexivity].
    destruct (members_text L delta path d sub ms'); [|reflexivity]. now rewrite sapp_assoc.
  Qed.
  Lemma isimple_stmts ms : flat_map (ni_wr_simple nd) (simples ms) = flat_map (iwr_stmts L nd) (filter is_simple ms).
  Proof. unfold simples. induction ms as [|m ms IH]; [reflexivity|]. destruct m; cbn [flat_map filter is_simple app]; [|exact IH|exact IH]. cbn [iwr_stmts]. now rewrite <- IH. Qed.
  Lemma icomplex_stmts ms : flat_map (ni_wr_complex nd) (resolved_members (l_defs L) ms) = flat_map (iwr_stmts L nd) (filter (fun m => negb (is_simple m)) ms).
  Proof. unfold resolved_members. induction ms as [|m ms IH]; [reflexivity|]. destruct m; cbn [flat_map filter is_simple negb app]; [exact IH| |]; cbn [iwr_stmts]; now rewrite <- IH. Qed.
  Lemma section_ok lp o : ex [s_section] (ist false t fs d lp path o) = Ok CNext (ist false t fs d lp path (o ++ section_line path)).
  Proof.
    unfold ist, iframe. destruct path as [|c p]; [destruct nd; cbn; rewrite sapp_nil_r; reflexivity|].
    unfold section_line.
    assert (E : forall nd, ex [s_section] (St ([] ++ [dd nd t d ++ [("lower_path", VStr lp); ("rv", vbool true); ("path", VStr (String c p)); ("data", VPtr (Some (LV false "*data" []))); ("*data", VStruct t fs)]]) tr th (out_to fn fl wi o)) = 
      Ok CNext (St ([] ++ [dd nd t d ++ [("lower_path", VStr lp); ("rv", vbool true); ("path", VStr (String c p)); ("data", VPtr (Some (LV false "*data" []))); ("*data", VStruct t fs)]]) tr th 
       (World (set_assoc fn (CText ((o ++ "" ++ NL) ++ ("[" ++ String c p ++ "]") ++ NL)) (set_assoc fn (CText (o ++ "" ++ NL)) (set_assoc fn (CText o) fl))) wi (Some (fn, ((o ++ "" ++ NL) ++ ("[" ++ String c p ++ "]") ++ NL)%string))))).
    { intros nd0. destruct nd0; reflexivity. }
    rewrite E. rewrite !set_assoc_twice. unfold out_to. rewrite !sapp_assoc. reflexivity.
  Qed.

  Variables (ms : list member) (s : struct_S).
  Hypothesis SN : s_name s = t.
  Hypothesis SS : s_simple s = simples ms.
  Hypothesis SC : s_complex s = resolved_members (l_defs L) ms.
  Hypothesis MG : forall m, In m ms -> member_good L mf m /\ good_name (member_name m).
  Hypothesis MI : forall m, In m ms -> member_fits L fs m.
  Hypothesis MD : forall m, In m ms -> member_fits L d m.
  Hypothesis CO : forall n v, assoc n fs = Some v -> wr v.
  Hypothesis UT : user_type L t = Some (TStruct t).
  Definition no_ilocal (u : string) : Prop :=
    forall x, In x ["rv"; "lower_path"; "path"; "data"; "*data"; "default_data"; "m_delta_only"; "m_file"; "m_lookup"; "m_multiline_string_key"; "m_multiline_string_value"; "size_t"; "read_item_S"] -> String.eqb u x = false.
  Hypothesis NLo : no_ilocal t.
  Hypothesis NM : mf t = false.
  Hypothesis IN : init L (init_fuel L) false (TStruct t) = Some (VStruct t d).

  Definition ibase : scope := [("path", VStr path); ("data", VPtr (Some (LV false "*data" []))); ("*data", VStruct t fs)].
  Lemma decls_ok o : ex ([s_rv; SDecl t_str "lower_path" None] ++ dflt_decl nd t) (St [ibase] tr th (out_to fn fl wi o)) = Ok CNext (ist false t fs d "" path o).
  Proof.
    rewrite run_list_app. 
    assert (E : ex [s_rv; SDecl t_str "lower_path" None] (St [ibase] tr th (out_to fn fl wi o)) = Ok CNext (St [("lower_path", VStr "") :: ("rv", vbool true) :: ibase] tr th (out_to fn fl wi o))) by reflexivity.
    rewrite E. unfold ist, iframe, dflt_decl, dd. destruct nd; [reflexivity|].
    set (s0 := St [("lower_path", VStr "") :: ("rv", vbool true) :: ibase] tr th (out_to fn fl wi o)).
    assert (NT : named_type L mf [t] s0 = Some (TStruct t)).
    { unfold named_type, is_local, is_member, s0, ibase, wthis, this_of. cbn [s_scopes s_this lookup assoc]. rewrite NM.
      rewrite !NLo by (cbn; tauto). cbn [String.eqb Ascii.eqb Bool.eqb orb andb]. exact UT. }
    cbn [run_list exec]. unfold exec_decl. cbn [ct_args ct_ref ct_name names_eqb]. rewrite !andb_false_r, NT, (NLo "read_item_S") by (cbn; tauto).
    cbn [andb]. rewrite IN. reflexivity.
  Qed.

  Lemma iwr_body_ok o : match (let? x := members_text L delta path d sub (in_order ms) in Some (section_line path ++ x)%string) with
    | Some x => exists lp, ex (ni_wr_body s nd) (St [ibase] tr th (out_to fn fl wi o)) = Ok (CRet (vbool true)) (ist false t fs d lp path (o ++ x))
    | None => ex (ni_wr_body s nd) (St [ibase] tr th (out_to fn fl wi o)) = UB
    end.
  Proof.
    unfold in_order. rewrite members_text_app.
    assert (PRE : forall l, incl l ms -> forall m, In m l -> member_good L mf m /\ good_name (member_name m) /\ member_fits L fs m /\ member_fits L d m /\
       forall v, assoc (member_name m) fs = Some v -> wr v).
    { intros l I m J. apply I in J. destruct (MG m J) as [A1 A2]. split; [exact A1|]. split; [exact A2|]. split; [now apply MI|]. split; [now apply MD|]. eauto. }
    assert (I1 : incl (filter is_simple ms) ms) by (intros m J; now apply filter_In in J).
    assert (I2 : incl (filter (fun m => negb (is_simple m)) ms) ms) by (intros m J; now apply filter_In in J).
    unfold ni_wr_body. rewrite SN, SS, SC, isimple_stmts, icomplex_stmts.
    rewrite app_assoc, run_list_app, decls_ok. rewrite run_list_app, section_ok. rewrite run_list_app.
    pose proof (iseq_ok (filter is_simple ms) "" (o ++ section_line path)%string (PRE _ I1)) as S1.
    destruct (members_text L delta path d sub (filter is_simple ms)) as [x|]; [|now rewrite S1]. destruct S1 as (lp1 & ->).
    rewrite run_list_app.
    pose proof (iseq_ok (filter (fun m => negb (is_simple m)) ms) lp1 ((o ++ section_line path) ++ x)%string (PRE _ I2)) as S2.
    destruct (members_text L delta path d sub (filter (fun m => negb (is_simple m)) ms)) as [y|]; [|now rewrite S2]. destruct S2 as (lp2 & ->).
    exists lp2. rewrite !sapp_assoc. unfold ist, iframe. destruct nd; reflexivity.
  Qed.
End Body.

Section Call.
  Variables (enums : list enum_S) (ss : list struct_S) (o : output_spec) (ds : list def) (L : lang).
  Hypothesis X : ini_setting enums ss o ds L.
  Notation b := B_n_ini.
  Notation g := (i_g enums ss o ds L X).
  Notation ok := (i_ok enums ss o ds L X).
  Notation defs := (i_defs enums ss o ds L X).
  Let R := o_reader o.
  Let W := o_writer o.
  Let P := prog b enums ss o.
  Hypothesis OR : o_only_read o = false.
  Variables (wf : nat) (dl : bool).
  Let nd := o_no_delta o.

  Lemma iwr_methods u : find_struct (l_defs L) u <> None -> is_method P W (pre_wr u) = true.
  Proof.
    intros H. destruct (ini_struct_of enums ss o ds L X u H) as (s & ms & S1 & <- & _). apply is_wr; [exact i_bi|exact S1|exact OR].
  Qed.
  Lemma ifrom_calls f : 0 < f -> forall u c es, find_enum (l_defs L) u = Some (c, es) -> forall lv z s,
    call_fun L P wf f ["stfx"; "s_from_e"] [(lv, VEnum u z)] s = Ok (VStr (enum_text (enum_values L 0 es) z)) s.
  Proof.
    intros F u c es E lv z s. rewrite defs in E. apply find_enum_in in E as (t & E). destruct f as [|f]; [lia|].
    exact (call_from b enums ss o ds L g wf c u es t E lv z f s).
  Qed.
  Lemma fine_no_ilocal u : In u (map def_name ds) -> no_ilocal u.
  Proof.
    intros I x J. apply in_map_iff in I as (d & <- & I). pose proof (g_fine b enums ss o ds L g d I) as F.
    assert (C : x = "*data" \/ In x reserved) by (cbn [In] in J; repeat (destruct J as [<-|J]; [first [left; reflexivity|right; apply mem_in; reflexivity]|]); contradiction).
    destruct C as [->|C]; [|now apply (tf_reserved _ _ _ F)].
    pose proof (name_ok_ident _ (tf_name _ _ _ F)) as N. apply eqb_neq. intros E. rewrite E in N. discriminate.
  Qed.
  Lemma imembers_good u ms m : In (DefStruct u ms) ds -> In m ms -> member_good L (is_method P W) m /\ good_name (member_name m).
  Proof.
    intros I J. split; [exact (ini_members_good enums ss o ds L X u ms m I J W (or_intror eq_refl))|].
    destruct (struct_parts _ _ ds ok u ms I) as (_ & k & r & E & MO). specialize (MO m J). unfold member_ok in MO.
    apply andb_true_iff in MO as [N MO]. apply name_ok_ident in N. split; [now apply cut_id, ident_no_nul|now apply ident_no_brace].
  Qed.

  Variables (k : lookups) (key vv : string) (fn : string) (fl : list (string * CppSem.content)) (wi : option string).
  (** The writer function of a struct writes an object as [obj_text] says. *)
  Theorem ini_wr_call f : forall v, vheight v < f -> iwr_ok L (call_fun L P wf f) W nd dl k key vv fn fl wi v.
  Proof.
    induction f as [|f IH]; intros v HV; [lia|]. intros u fs out path pv lv lv' l sc tr -> TA s GL FI.
    destruct (fits_struct L u fs FI) as (ms & FS & FF).
    destruct (ini_struct_of enums ss o ds L X u) as (sr & ms' & S1 & S2 & S3 & S4 & S5 & S6); [congruence|]. assert (ms' = ms) by congruence. subst ms'.
    destruct (struct_parts _ _ ds ok u ms S3) as (ND & _).
    assert (DN : In u (map def_name ds)) by (apply (in_map def_name) in S3; exact S3).
    destruct (init_struct _ _ ds ok L defs (i_long _ _ _ _ _ X) (i_lits _ _ _ _ _ X) u ms S3) as (d & IN & FD).
    destruct (fits_struct L u d FD) as (ms' & FS' & FF'). assert (ms' = ms) by congruence. subst ms'.
    cbn [call_fun].
    replace (pre_wr u) with (pre_wr (s_name sr)) by congruence.
    pose proof (find_wr b enums ss o i_bi (i_cw enums ss o ds L X) (i_rw enums ss o ds L X) (lk_struct_names _ _ _ (g_lk _ _ _ _ _ _ g)) sr (fun d => params_fit (fd_params d) [(lv, pv); (lv', VPtr (Some l))] s) S1 OR) as FR.
    cbv beta in FR.
    match type of FR with ?A -> ?B -> ?l = ?r => assert (FA : A); [|assert (FB : B); [|specialize (FR FA FB); match goal with |- context [filter ?q P] => change (filter q P) with l end; rewrite FR]] end.
    { fold W nd. cbn [one_wr fd_params ni_wr_fun params_fit t_str p_data param_fits fst snd ct_ref ct_name]. unfold param_fits. cbn [ct_ref ct_name fst snd t_str]. rewrite GL. cbn [ty_of]. rewrite S2, String.eqb_refl.
      destruct TA as [->| ->]; reflexivity. }
    { intros d0 x ->. cbn [params_fit]. unfold param_fits. destruct TA as [->| ->]; reflexivity. }
    clear FR FA FB.
    fold W nd. change (one_wr b sr W nd) with (ni_wr_fun sr W nd). unfold ni_wr_fun, enter.
    assert (UA : undef_arg [(t_str, "path"); p_data (s_name sr)] [(lv, pv); (lv', VPtr (Some l))] = false) by (destruct TA as [->| ->]; reflexivity).
    assert (BP : bind_params [(t_str, "path"); p_data (s_name sr)] [(lv, pv); (lv', VPtr (Some l))] s =
      Some (Bound [("path", VStr path); ("data", VPtr (Some (LV false "*data" []))); ("*data", VStruct u fs)] None [(l, "*data")])).
    { unfold p_data. destruct TA as [->| ->]; cbn [bind_params bind_param t_str ct_ref ct_name fst snd]; rewrite GL; reflexivity. }
    cbn [fd_name fd_params fd_body fd_type]. rewrite UA, BP. cbn [b_vars b_el b_back map fst].
    change (distinct ["path"; "data"; "*data"]) with true.
    assert (NS : String.eqb W "stfx" = false) by (apply class_not_stfx; exact (i_cw enums ss o ds L X)).
    unfold seen_this. rewrite NS. cbn [andb forallb]. unfold param_visible, p_data. cbn [fst t_str ct_name set_this s_this].
    pose proof (fine_no_ilocal u DN) as NLo. unfold P at 1, W at 1. rewrite S2, (ini_type_method enums ss o ds L X u DN (o_writer o) (or_intror (or_introl eq_refl))).
    assert (AU : assoc u (s_this s) = None).
    { unfold s, wthis, this_of. cbn [s_this assoc]. rewrite !NLo by (cbn; tauto). reflexivity. }
    rewrite AU. cbn [negb andb].
    assert (HP : 0 < f) by (cbn [vheight] in HV; lia).
    assert (CO : forall n v, assoc n fs = Some v -> iwr_ok L (call_fun L P wf f) W nd dl k key vv fn fl wi v).
    { intros n v A. apply IH. apply assoc_some in A. cbn [vheight] in HV. assert (vheight v <= list_max (map (fun p => vheight (snd p)) fs)); [|lia].
      apply list_max_in. apply in_map_iff. exists (n, v). auto. }
    pose proof (iwr_body_ok L (call_fun L P wf f) W (is_method P W) wf nd dl k key vv fn fl wi (Text "") (ifrom_calls f HP) iwr_methods u fs d path ms sr S2 S5 S6
                  (fun m J => imembers_good u ms m S3 J) (fields_fit_member L ms ND fs FF) (fields_fit_member L ms ND d FF') CO (user_struct _ _ ds ok L defs u ms S3) NLo 
                  (ini_type_method enums ss o ds L X u DN W (or_intror (or_introl eq_refl))) IN out) as B.
    assert (WV : obj_text L (negb nd && dl) (VStruct u fs) path = let? x := members_text L (negb nd && dl) path d (map (fun p => (fst p, (snd p, obj_text L (negb nd && dl) (snd p)))) fs) (in_order ms) in Some (section_line path ++ x)%string).
    { cbn [obj_text]. rewrite FS. unfold default_fields. rewrite IN. reflexivity. }
    rewrite WV. destruct (let? x := _ in _) as [x|].
    - destruct B as (lp & B). unfold ibase in B. use_exec B. unfold return_to. cbn [b_el b_back].
      assert (LK : lookup "*data" (s_scopes (ist nd dl k key vv fn fl wi (Text "") false u fs d lp path (out ++ x))) = Some (VStruct u fs)) by (unfold ist, iframe; destruct nd; reflexivity).
      cbn [copy_back]. change (s_scopes (set_this (ist nd dl k key vv fn fl wi (Text "") false u fs d lp path (out ++ x)) ?q)) with (s_scopes (ist nd dl k key vv fn fl wi (Text "") false u fs d lp path (out ++ x))). rewrite LK.
      cbn [set_this s_tree s_this s_world s_scopes ist].
      match goal with |- context [put_lv l ?v ?q] => assert (PU : put_lv l v q = Some q) by (apply put_lv_same; rewrite <- GL; reflexivity); rewrite PU end.
      reflexivity.
    - unfold ibase in B. use_exec B. reflexivity.
  Qed.
End Call.

(** *** write_to_file *)
Definition wobj (dl m : bool) (k : lookups) (key v : string) : scope := this_of [("m_delta_only", vbool dl); ("m_file", VFile m)] k key v.
Section Wtf.
  Variables (L : lang) (call : list string -> list arg -> st -> res val) (cls : string) (mf : string -> bool) (wf : nat).
  Notation ex := (run_list (exec L call cls mf wf)).
  Variables (dl m : bool) (k : lookups) (key vv : string) (t : string) (fs : list (string * val)) (n : string) (w : world) (tr : node).
  Hypothesis MF : mf (pre_wr t) = true.
  Definition wvs : scope := [("filename", VStr n); ("struct_to_read", VStruct t fs)].
  Notation s0 := (St [wvs] tr (wobj dl m k key vv) w).
  Definition wrv (r : bool) : scope := ("rv", vbool r) :: wvs.
  Lemma wtf_closed : l_writable L (cut n) = false -> ex (fd_body (ini_wtf cls t)) s0 = Ok (CRet (vbool false)) (St [wrv false] tr (wobj dl false k key vv) w).
  Proof.
    intros A. change (fd_body (ini_wtf cls t)) with (firstn 2 (fd_body (ini_wtf cls t)) ++ skipn 2 (fd_body (ini_wtf cls t))). rewrite run_list_app.
    assert (E : ex (firstn 2 (fd_body (ini_wtf cls t))) s0 = Ok CNext (St [wrv false] tr (wobj dl false k key vv) w)).
    { cbn. rewrite A. reflexivity. }
    rewrite E. reflexivity.
  Qed.
  Notation s1 := (St [[]; wrv false] tr (wthis dl k key vv) (out_to (cut n) (w_files w) (w_in w) "")).
  Lemma wtf_text : l_writable L (cut n) = true ->
    match call [cls; pre_wr t] [(None, VCStr (Some "")); (None, VPtr (Some (LV false "struct_to_read" [])))] s1 with
    | Ok v s2 => forall x r, v = vbool r -> s2 = St [[]; wrv false] tr (wthis dl k key vv) (out_to (cut n) (w_files w) (w_in w) x) ->
        ex (fd_body (ini_wtf cls t)) s0 = Ok (CRet (vbool r)) (St [wrv r] tr (wobj dl true k key vv) (World (set_assoc (cut n) (CText x) (w_files w)) None None))
    | UB => ex (fd_body (ini_wtf cls t)) s0 = UB
    | _ => True
    end.
  Proof.
    intros A. destruct (call _ _ s1) as [v s2|s2| | |] eqn:CC; [intros x r -> ->|exact Logic.I| |exact Logic.I|exact Logic.I].
    all: change (fd_body (ini_wtf cls t)) with (firstn 2 (fd_body (ini_wtf cls t)) ++ skipn 2 (fd_body (ini_wtf cls t))); rewrite run_list_app.
    all: assert (E : ex (firstn 2 (fd_body (ini_wtf cls t))) s0 = Ok CNext (St [wrv false] tr (wthis dl k key vv) (out_to (cut n) (w_files w) (w_in w) ""))) by (cbn; rewrite A; reflexivity).
    all: rewrite E.
    all: change (skipn 2 (fd_body (ini_wtf cls t))) with 
        ([SIf (EBin b_ne (EId ["m_file"]) ENull) ([s_set (EId ["rv"]) (ECall (EId [pre_wr t]) [EStr ""; EAddr (EId ["struct_to_read"])])] ++ [SExpr (ECall (EId ["std"; "fclose"]) [EId ["m_file"]])]) []] ++ [s_ret]).
    all: rewrite run_list_app. 
    all: assert (C : ev L call cls mf (EBin b_ne (EId ["m_file"]) ENull) (St [wrv false] tr (wthis dl k key vv) (out_to (cut n) (w_files w) (w_in w) "")) = 
        Ok (vbool true) (St [wrv false] tr (wthis dl k key vv) (out_to (cut n) (w_files w) (w_in w) ""))) by reflexivity.
    all: cbn [run_list exec]; rewrite C; cbn [lift truth vbool Z.eqb negb]; unfold scoped.
    all: change (set_scopes (St [wrv false] tr (wthis dl k key vv) (out_to (cut n) (w_files w) (w_in w) "")) _) with s1; rewrite run_list_app.
    all: assert (CA : ev L call cls mf (ECall (EId [pre_wr t]) [EStr ""; EAddr (EId ["struct_to_read"])]) s1 = call [cls; pre_wr t] [(None, VCStr (Some "")); (None, VPtr (Some (LV false "struct_to_read" [])))] s1)
      by (cbn [ev]; assert (AR : run_args (ev L call cls mf) [EStr ""; EAddr (EId ["struct_to_read"])] s1 = Ok [(None, VCStr (Some "")); (None, VPtr (Some (LV false "struct_to_read" [])))] s1) by reflexivity;
          rewrite AR; unfold fun_call; rewrite MF; reflexivity).
    all: unfold s_set; cbn [run_list exec];
      change (ev L call cls mf (EBin b_assign (EId ["rv"]) (ECall (EId [pre_wr t]) [EStr ""; EAddr (EId ["struct_to_read"])])) s1) with
        (do (v, s) <- ev L call cls mf (ECall (EId [pre_wr t]) [EStr ""; EAddr (EId ["struct_to_read"])]) s1; need l <- lvalue (EId ["rv"]) s; assign L l v s).
    all: rewrite CA, CC; try destruct r; reflexivity.
  Qed.
End Wtf.

Section Entry.
  Variables (enums : list enum_S) (ss : list struct_S) (o : output_spec) (ds : list def) (L : lang).
  Hypothesis X : ini_setting enums ss o ds L.
  Notation b := B_n_ini.
  Notation g := (i_g enums ss o ds L X).
  Let R := o_reader o.
  Let W := o_writer o.
  Let P := prog b enums ss o.
  Hypothesis OR : o_only_read o = false.
  Let nd := o_no_delta o.
  Variables (wf : nat) (t : string) (sr : struct_S).
  Hypothesis TOP : In sr (tops ss).
  Hypothesis SN : s_name sr = t.

  Lemma ini_find_wtf p : p (ini_wtf W t) = true -> (forall u, p (ini_wtf W u) = true -> u = t) -> p (x_wctor W R) = false ->
    filter (fun d => (names_eqb (fd_name d) [W; "write_to_file"] && p d)%bool) P = [ini_wtf W t].
  Proof.
    intros P1 P2 P3. unfold P. rewrite (find_writer b enums ss o i_bi (i_cw enums ss o ds L X) (i_rw enums ss o ds L X) _ _ OR).
    fold R W nd. unfold writer_funs. cbn [filter]. rewrite P3, andb_false_r, filter_app.
    rewrite (filter_none _ (flat_map _ ss)).
    2:{ intros d H. apply in_flat_map in H as (s & _ & J). rewrite wr_fun_one in J by (exact i_bi). destruct J as [<-|[]].
        rewrite one_wr_name, names_eqb2. unfold pre_wr. cbn [String.append String.eqb Ascii.eqb Bool.eqb]. now rewrite andb_false_r. }
    rewrite app_nil_r, filter_map. rewrite (filter_one s_name _ (tops ss) sr (ini_tops_nodup enums ss o ds L X) TOP).
    - cbn [map]. now rewrite SN.
    - cbn [wtf_fun]. rewrite SN, P1. cbn [ini_wtf fd_name]. now rewrite names_eqb_refl.
    - intros x I H. cbn [wtf_fun] in H. apply andb_prop in H as [_ H]. apply P2 in H. congruence.
  Qed.

  (** What write_to_file does: the result, the file, and the pointer to the file that the
      writer keeps. *)
  Definition ini_write_result (dl : bool) (k : lookups) (key v : string) (fs : list (string * val)) (n : string) (s : st) : res val :=
    if l_writable L (cut n) then
      match obj_text L (negb nd && dl) (VStruct t fs) "" with
      | Some x => Ok (vbool true) (St (s_scopes s) (s_tree s) (wobj dl true k key v) (World (set_assoc (cut n) (CText x) (w_files (s_world s))) None None))
      | None => UB
      end
    else Ok (vbool false) (set_this s (wobj dl false k key v)).
  Theorem ini_write_file f a n l fs dl m k key v s : name_arg a n s -> lv_this l = false -> get_lv l s = Some (VStruct t fs) ->
    s_this s = wobj dl m k key v -> fits L (VStruct t fs) (TStruct t) = true -> vheight (VStruct t fs) < f ->
    call_fun L P wf (S f) [W; "write_to_file"] [a; (Some l, VStruct t fs)] s = ini_write_result dl k key v fs n s.
  Proof.
    intros [FA FL] LL GL TH FI HV. cbn [call_fun].
    rewrite (ini_find_wtf (fun d => params_fit (fd_params d) [a; (Some l, VStruct t fs)] s)).
    2:{ cbn [ini_wtf fd_params params_fit p_file_name param_fits ct_ref ct_name fst snd ty_of]. rewrite String.eqb_refl.
        destruct FA as [(_ & [E|E])|(la & -> & _)]; try (rewrite E); reflexivity. }
    2:{ intros u H. cbn [ini_wtf fd_params params_fit p_file_name param_fits ct_ref ct_name fst snd ty_of] in H. rewrite andb_true_r in H. apply andb_prop in H as [_ H]. now apply String.eqb_eq. }
    2:{ cbn [x_wctor fd_params params_fit]. apply andb_false_r. }
    destruct (fits_struct L t fs FI) as (ms & FS & FF).
    assert (DN : In t (map def_name ds)).
    { destruct (ini_struct_of enums ss o ds L X t) as (sr' & ms' & _ & _ & S3 & _); [congruence|]. apply (in_map def_name) in S3. exact S3. }
    unfold enter. cbn [ini_wtf fd_name fd_params]. rewrite (file_undef t "struct_to_read" a n l fs s FA).
    destruct (bind_name t "struct_to_read" a n l fs s (conj FA FL) GL) as (bk & -> & CB). cbn [b_vars b_el b_back map fst].
    change (distinct ["filename"; "struct_to_read"]) with true. cbn [andb forallb].
    assert (NS : String.eqb W "stfx" = false) by (apply class_not_stfx; exact (i_cw enums ss o ds L X)).
    unfold seen_this. rewrite NS. unfold param_visible, p_file_name. cbn [fst ct_name set_this s_this].
    unfold P at 1, W at 1. rewrite (ini_type_method enums ss o ds L X t DN (o_writer o) (or_intror (or_introl eq_refl))).
    pose proof (fine_no_ilocal enums ss o ds L X t DN) as NLo.
    assert (AU : assoc t (s_this s) = None).
    { rewrite TH. unfold wobj, this_of. cbn [assoc]. rewrite !NLo by (cbn; tauto). reflexivity. }
    rewrite AU, TH. cbn [negb andb].
    assert (M : is_method P W (pre_wr t) = true) by (apply (iwr_methods enums ss o ds L X OR); congruence).
    unfold ini_write_result. destruct (l_writable L (cut n)) eqn:WR.
    - pose proof (wtf_text L (call_fun L P wf f) W (is_method P W) wf dl m k key v t fs n (s_world s) (Text "") M WR) as B.
      pose proof (ini_wr_call enums ss o ds L X OR wf dl k key v (cut n) (w_files (s_world s)) (w_in (s_world s)) f (VStruct t fs) HV t fs "" "" (VCStr (Some "")) None None (LV false "struct_to_read" [])
        [[]; wrv t fs n false] (Text "") eq_refl (or_intror eq_refl) eq_refl FI) as RC.
      fold W P nd in RC. destruct (obj_text L (negb nd && dl) (VStruct t fs) "") as [x|].
      + rewrite RC in B. specialize (B x true eq_refl eq_refl). unfold wvs in B. use_exec B. unfold return_to. cbn [b_el b_back set_this s_this s_world s_scopes].
        rewrite (CB _ _ _ (VStruct t fs)); [|reflexivity|reflexivity].
        rewrite put_lv_same by (rewrite <- GL; destruct s as [sc tr0 th0 w0]; now apply local_get). reflexivity.
      + rewrite RC in B. unfold wvs in B. use_exec B. reflexivity.
    - pose proof (wtf_closed L (call_fun L P wf f) W (is_method P W) wf dl m k key v t fs n (s_world s) (Text "") WR) as B.
      unfold wvs in B. use_exec B. unfold return_to. cbn [b_el b_back set_this s_this s_world s_scopes].
      rewrite (CB _ _ _ (VStruct t fs)); [|reflexivity|reflexivity].
      rewrite put_lv_same by (rewrite <- GL; destruct s as [sc tr0 th0 w0]; now apply local_get). reflexivity.
  Qed.
End Entry.
