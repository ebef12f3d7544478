(** The statements of the generated xml writers: what they do for one member. *)
From Coq Require Import String Ascii ZArith NArith Arith List Bool Lia.
From Verif Require Import Base Map Items Grammar Fmt Decimal Templates Emit Cpp Xml Val CppSem SymLex Ast StoreDefs ResolveProps Prog Header EnumSem DecText EnumCall XmlSpec XmlRdSimple XmlRead XmlReader.
Import ListNotations.
Local Open Scope string_scope.
Local Open Scope list_scope.

(** *** Trees *)
Lemma upd_nth_last {A} (f : A -> A) l x : upd_nth (length l) f (l ++ [x]) = l ++ [f x].
Proof. induction l as [|y l IH]; [reflexivity|]. cbn. now rewrite IH. Qed.
Lemma nth_last {A} (l : list A) x : nth_error (l ++ [x]) (length l) = Some x.
Proof. rewrite nth_error_app2, Nat.sub_diag by lia. reflexivity. Qed.
Lemma set_attr_new n v a : ~ In n (map fst a) -> set_attr n v a = a ++ [(n, v)].
Proof.
  induction a as [|[k w] a IH]; cbn; [reflexivity|]. intros N. destruct (String.eqb_spec n k) as [->|]; [tauto|]. now rewrite IH by tauto.
Qed.

(** *** States of a writer function *)
Definition dd (nd : bool) (t : string) (d : list (string * val)) : scope := if nd then [] else [("default_data", VStruct t d)].
Definition wframe (k : fkd) (c : val) (nd : bool) (t : string) (fs d : list (string * val)) : scope :=
  match k with
  | F0 => dd nd t d ++ ("rv", vbool true) :: base t fs
  | FA => ("ch_el", c) :: dd nd t d ++ ("rv", vbool true) :: base t fs
  | FM => dd nd t d ++ ("rv", vbool true) :: ("ch_el", c) :: base t fs
  end.
(** [pre]: inside one more block *)
Definition wst (pre : bool) k c nd t fs d x dl w : st :=
  St ((if pre then [[]] else []) ++ [wframe k c nd t fs d]) x [("m_delta_only", vbool dl)] w.

Ltac wsem := cbn [exec ev run_list run_args exec_list scoped leave length Nat.sub skipn
  e_meth e_data e_dflt e_id s_set e_cstr e_dot e_changed
  lvalue is_local is_member get_lv get_root put_lv get_path put_path get_acc put_acc lv_this lv_root lv_path app
  lookup update assoc set_assoc String.eqb Ascii.eqb Bool.eqb eqb andb orb negb wframe dd base wst
  s_scopes s_tree s_this s_world set_scopes set_tree set_this set_world declare declare_as store
  method el_method str_method at_path upd_path fst snd ty_of attrs_of kids_of
  named_type exec_decl ct_args ct_ref ct_name names_eqb pointer_type option_map
  lift conv binary truth Z.eqb nkind_eqb fkind_eqb xml_text].

Section W.
  Variables (L : lang) (call : list string -> list arg -> st -> res val) (cls : string) (mf : string -> bool) (wf : nat) (b : form).
  Variables (nd dl : bool).
  Notation ex := (run_list (exec L call cls mf wf)).
  Notation delta := (negb nd && dl)%bool.
  Hypothesis LL : (0 < l_long L)%Z.

  (** What a call of the writer function for the object does. *)
  Definition wr_ok (u : string) (fs : list (string * val)) : Prop := forall nm p lv lv' l s,
    s_this s = [("m_delta_only", vbool dl)] -> at_path (s_tree s) p = Some (Elem nm [] []) -> get_lv l s = Some (VStruct u fs) ->
    call [cls; pre_wr u] [(lv, VEl (Some p)); (lv', VPtr (Some l))] s =
    match write_val L b delta (VStruct u fs) with
    | Some (a, k) => Ok (vbool true) (set_tree s (upd_path p (fun _ => Elem nm a k) (s_tree s)))
    | None => UB
    end.
  Hypothesis EC : forall u c es, find_enum (l_defs L) u = Some (c, es) -> forall lv z s,
    call ["stfx"; "s_from_e"] [(lv, VEnum u z)] s = Ok (VStr (enum_text (enum_values L 0 es) z)) s.
  Hypothesis EU : forall u c es, find_enum (l_defs L) u = Some (c, es) -> forall lv s,
    call ["stfx"; "s_from_e"] [(lv, VUndef (TEnum u))] s = UB.
  Hypothesis ET : forall u c es, find_enum (l_defs L) u = Some (c, es) -> forall z, cut (enum_text (enum_values L 0 es) z) = enum_text (enum_values L 0 es) z.
  Hypothesis MF : forall u, find_struct (l_defs L) u <> None -> mf (pre_wr u) = true.

  Ltac wwalk := repeat (first [progress wsem
    | progress change (truth (vbool true)) with (@Yes bool true) | progress change (truth (vbool false)) with (@Yes bool false)
    | match goal with H : cut ?n = ?n |- context [cut ?n] => rewrite H
      | H : mf ?n = _ |- context [mf ?n] => rewrite H
      | H : user_type L ?n = _ |- context [user_type L ?n] => rewrite H
      | H : assoc ?n ?fs = _ |- context [assoc ?n ?fs] => rewrite H end
    | rewrite String.eqb_refl | rewrite nth_last | rewrite upd_nth_last
    | progress unfold fun_call, scoped, declare_as, assign, store, pre_wr, String.append, leave]).

  (** *** if (m_delta_only == false || data->n != default_data.n) *)
  Definition scalar_ty (t : ty) : bool := match t with TNum _ | TFlt _ | TStd | TEnum _ => true | _ => false end.
  Definition scalar_val (v : val) : bool := match v with VUndef _ | VNum _ _ | VFlt _ _ | VStr _ | VEnum _ _ => true | _ => false end.
  Lemma scalar_veq v d ty : scalar_ty ty = true -> fits L v ty = true -> fits L d ty = true ->
    veq L v d = match scalar_eq L v d with Some r => Yes r | None => MUB end.
  Proof.
    intros S FV FD. assert (TV := fits_ty L v ty FV). assert (TD := fits_ty L d ty FD).
    destruct v; cbn [ty_of] in TV; subst ty; try discriminate S; try (destruct d; reflexivity);
      destruct d; cbn [ty_of] in TD; try discriminate TD; try reflexivity; injection TD as ->; cbn [veq scalar_eq];
      rewrite ?String.eqb_refl; try reflexivity; destruct k; reflexivity.
  Qed.
  Definition in_block (s : st) (r : res ctl) : res ctl :=
    match r with Ok k s1 => Ok k (leave (length (s_scopes s)) s1) | Exc s => Exc s | UB => UB | Bad => Bad | Fuel => Fuel end.
  Lemma changed_ok n ss ty v dv k c t fs d x w : assoc n fs = Some v -> assoc n d = Some dv -> scalar_ty ty = true ->
    fits L v ty = true -> fits L dv ty = true ->
    ex (if_changed nd n ss) (wst false k c nd t fs d x dl w) =
    match left_out L delta dv v with
    | None => UB
    | Some true => Ok CNext (wst false k c nd t fs d x dl w)
    | Some false => if nd then ex ss (wst false k c nd t fs d x dl w)
                    else match in_block (wst false k c nd t fs d x dl w) (ex ss (wst true k c nd t fs d x dl w)) with
                         | Ok CNext s1 => Ok CNext s1
                         | r => r
                         end
    end.
  Proof.
    intros AS AD S FV FD. pose proof (scalar_veq v dv ty S FV FD) as VE. unfold left_out, if_changed. destruct nd; [reflexivity|].
    cbn [negb andb]. destruct dl.
    - assert (ev L call cls mf (e_changed n) (wst false k c false t fs d x true w) =
              match scalar_eq L v dv with Some r => Ok (vbool (negb r)) (wst false k c false t fs d x true w) | None => UB end) as E.
      { destruct k; wwalk; change (veq L (vbool true) (vbool false)) with (@Yes bool false); wwalk; change (truth (vbool false)) with (@Yes bool false); wwalk; rewrite VE;
        (destruct (scalar_eq L v dv) as [[|]|]; reflexivity). }
      cbn [run_list exec]. rewrite E. destruct (scalar_eq L v dv) as [[|]|]; [|..]; [destruct k; reflexivity| |reflexivity].
      change (lift (truth (vbool (negb false))) (wst false k c false t fs d x true w)) with (Ok true (wst false k c false t fs d x true w)). cbn iota beta.
      unfold scoped. change (set_scopes (wst false k c false t fs d x true w) _) with (wst true k c false t fs d x true w).
      unfold in_block. change (run_list (exec L call cls mf wf)) with ex. destruct (ex ss (wst true k c false t fs d x true w)) as [[]| | | |]; reflexivity.
    - assert (ev L call cls mf (e_changed n) (wst false k c false t fs d x false w) = Ok (vbool true) (wst false k c false t fs d x false w)) as E.
      { destruct k; wwalk; change (veq L (vbool false) (vbool false)) with (@Yes bool true); reflexivity. }
      cbn [run_list exec]. rewrite E.
      change (lift (truth (vbool true)) (wst false k c false t fs d x false w)) with (Ok true (wst false k c false t fs d x false w)). cbn iota beta.
      unfold scoped. change (set_scopes (wst false k c false t fs d x false w) _) with (wst true k c false t fs d x false w).
      unfold in_block. destruct (ex ss (wst true k c false t fs d x false w)) as [[]| | | |]; reflexivity.
  Qed.

  (** *** One scalar *)
  Lemma xa_attr_ok pre k c t fs d e a ks w st n dv v : assoc n fs = Some v -> cut n = n -> fits L v (kind_of st) = true -> k <> FM ->
    ex [s_attr n (xa_value (Simple st n dv))] (wst pre k c nd t fs d (Elem e a ks) dl w) =
    match text_of L Attributes v with
    | Some s => Ok CNext (wst pre k c nd t fs d (Elem e (set_attr n s a) ks) dl w)
    | None => UB
    end.
  Proof.
    intros AS CU FI K. assert (TY := fits_ty L v _ FI). unfold s_attr.
    destruct st; cbn [kind_of] in *; destruct v; cbn [ty_of] in TY; try discriminate TY; try (injection TY as ->); try (subst; discriminate FI);
    cbn [xa_value ss_type ss_name]; destruct pre, k, nd; try congruence; wwalk; try reflexivity.
  Qed.
  Lemma xa_enum_attr_ok pre k c t fs d e a ks w u n v ce es : assoc n fs = Some v -> cut n = n -> fits L v (TEnum u) = true ->
    find_enum (l_defs L) u = Some (ce, es) -> k <> FM ->
    ex [s_attr n (e_cstr (e_sfrome n))] (wst pre k c nd t fs d (Elem e a ks) dl w) =
    match text_of L Attributes v with
    | Some s => Ok CNext (wst pre k c nd t fs d (Elem e (set_attr n s a) ks) dl w)
    | None => UB
    end.
  Proof.
    intros AS CU FI FE K. assert (TY := fits_ty L v _ FI). unfold s_attr, e_sfrome.
    destruct v; cbn [ty_of] in TY; try discriminate TY; try (injection TY as ->).
    - subst t0. destruct pre, k, nd; try congruence; wwalk; rewrite (EU _ _ _ FE); reflexivity.
    - cbn [text_of]. rewrite FE. destruct pre, k, nd; try congruence; wwalk; rewrite (EC _ _ _ FE); wwalk; rewrite (ET _ _ _ FE); reflexivity.
  Qed.

  Lemma xm_child_ok pre k c t fs d e a ks w n : cut n = n -> k <> F0 ->
    ty_of c = TEl ->
    ex [s_new_child n] (wst pre k c nd t fs d (Elem e a ks) dl w) =
    Ok CNext (wst pre k (VEl (Some [length ks])) nd t fs d (Elem e a (ks ++ [Elem n [] []])) dl w).
  Proof. intros CU K TC. unfold s_new_child, s_child. destruct pre, k, nd; try congruence; wwalk; rewrite TC; wwalk; reflexivity. Qed.
  Lemma xm_text_ok pre t fs d e a ks w st n dv v : assoc n fs = Some v -> cut n = n -> fits L v (kind_of st) = true ->
    (st = long_E -> l_long L = 64%Z) ->
    ex [s_text (xm_value (Simple st n dv))] (wst pre FM (VEl (Some [length ks])) nd t fs d (Elem e a (ks ++ [Elem n [] []])) dl w) =
    match text_of L Elements v with
    | Some s => Ok CNext (wst pre FM (VEl (Some [length ks])) nd t fs d (Elem e a (ks ++ [Elem n [] [Text s]])) dl w)
    | None => UB
    end.
  Proof.
    intros AS CU FI L64. assert (TY := fits_ty L v _ FI). unfold s_text.
    destruct st; cbn [kind_of] in *; destruct v; cbn [ty_of] in TY; try discriminate TY; try (injection TY as ->); try (subst; discriminate FI);
    cbn [xm_value ss_type ss_name]; destruct pre, nd; wwalk; try reflexivity; rewrite L64 by reflexivity; change (64 =? 64)%Z with true; wwalk; reflexivity.
  Qed.
  Lemma xm_enum_text_ok pre t fs d e a ks w u n v ce es : assoc n fs = Some v -> cut n = n -> fits L v (TEnum u) = true ->
    find_enum (l_defs L) u = Some (ce, es) ->
    ex [s_text (e_cstr (e_sfrome n))] (wst pre FM (VEl (Some [length ks])) nd t fs d (Elem e a (ks ++ [Elem n [] []])) dl w) =
    match text_of L Elements v with
    | Some s => Ok CNext (wst pre FM (VEl (Some [length ks])) nd t fs d (Elem e a (ks ++ [Elem n [] [Text s]])) dl w)
    | None => UB
    end.
  Proof.
    intros AS CU FI FE. assert (TY := fits_ty L v _ FI). unfold s_text, e_sfrome.
    destruct v; cbn [ty_of] in TY; try discriminate TY; try (injection TY as ->).
    - subst t0. destruct pre, nd; wwalk; rewrite (EU _ _ _ FE); reflexivity.
    - cbn [text_of]. rewrite FE. destruct pre, nd; wwalk; rewrite (EC _ _ _ FE); wwalk; rewrite (ET _ _ _ FE); reflexivity.
  Qed.

  (** *** Struct members *)
  Lemma upd_last e a ks y f : upd_path [length ks] f (Elem e a (ks ++ [y])) = Elem e a (ks ++ [f y]).
  Proof. cbn [upd_path]. now rewrite upd_nth_last. Qed.
  Lemma wr_struct_ok k c t fs d e a ks w u n fs0 : k <> F0 -> ty_of c = TEl -> assoc n fs = Some (VStruct u fs0) -> cut n = n ->
    find_struct (l_defs L) u <> None -> wr_ok u fs0 ->
    ex (xm_wr_complex nd (Complex struct_E u n)) (wst false k c nd t fs d (Elem e a ks) dl w) =
    match write_val L b delta (VStruct u fs0) with
    | Some (a', k') => Ok CNext (wst false k (VEl (Some [length ks])) nd t fs d (Elem e a (ks ++ [Elem n a' k'])) dl w)
    | None => UB
    end.
  Proof.
    intros K TC AS CU FS WR. assert (M := MF u FS). cbn [pre_wr String.append] in M.
    unfold xm_wr_complex. cbn [sc_type]. unfold sc_name, sc_tname.
    change (ex [s_new_child n; ?c] ?s) with (ex ([s_new_child n] ++ [c]) s). rewrite run_list_app.
    rewrite (xm_child_ok false k c t fs d e a ks w n CU K TC). unfold if_child.
    pose proof (WR n [length ks]) as WC.
    destruct (write_val L b delta (VStruct u fs0)) as [[a' k']|].
    all: destruct k, nd; try congruence; wwalk; unfold veq; wwalk;
    match goal with |- context [call ?q ?args ?s] => match args with [(?lv, _); (?lv', VPtr (Some ?l))] =>
      specialize (WC lv lv' l s eq_refl) end end.
    all: (match type of WC with ?A -> ?B -> _ => assert (W1 : A) by (wsem; rewrite nth_last; reflexivity); assert (W2 : B) by (wsem; rewrite AS; reflexivity); specialize (WC W1 W2); clear W1 W2 end).
    all: match goal with |- context [call ?q ?args ?s] => match type of WC with call ?q' ?args' ?s = _ => change (call q' args' s) with (call q args s) in WC end end.
    all: rewrite WC; wwalk; reflexivity.
  Qed.

  (** *** Vectors *)
  Definition witem_body (u : string) : list stmt :=
    [SDecl t_el "ch_ch_el" (Some (e_meth "ch_el" "InsertNewChildElement" [EStr u]));
     SExpr (ECall (EId [pre_wr u]) [EId ["ch_ch_el"]; EAddr (EId ["itr"])])].
  Lemma witems_ok k t fs d e a ks w u n : k <> F0 -> cut u = u -> find_struct (l_defs L) u <> None ->
    forall l done, (forall v, In v l -> exists fs0, v = VStruct u fs0 /\ wr_ok u fs0) ->
    run_for (ex (witem_body u)) "itr" l (wst true k (VEl (Some [length ks])) nd t fs d (Elem e a (ks ++ [Elem n [] done])) dl w) =
    match write_items u (map (write_val L b delta) l) with
    | Some k' => Ok CNext (wst true k (VEl (Some [length ks])) nd t fs d (Elem e a (ks ++ [Elem n [] (done ++ k')])) dl w)
    | None => UB
    end.
  Proof.
    intros K CU FS. assert (M := MF u FS). cbn [pre_wr String.append] in M.
    induction l as [|v l IH]; intros done H; [cbn; now rewrite app_nil_r|].
    destruct (H v (or_introl eq_refl)) as (fs0 & -> & WR).
    cbn [map]. cbn [write_items].
    assert (STEP : scoped (wst true k (VEl (Some [length ks])) nd t fs d (Elem e a (ks ++ [Elem n [] done])) dl w)
                     (fun s => need s' <- declare "itr" (VStruct u fs0) s; ex (witem_body u) s') =
      match write_val L b delta (VStruct u fs0) with
      | Some (a', k') => Ok CNext (wst true k (VEl (Some [length ks])) nd t fs d (Elem e a (ks ++ [Elem n [] (done ++ [Elem u a' k'])])) dl w)
      | None => UB end).
    { pose proof (WR u [length ks; length done]) as WC. clear IH H WR.
      destruct (write_val L b delta (VStruct u fs0)) as [[a' k']|].
      all: destruct k, nd; try congruence; unfold witem_body, t_el; wwalk;
      match goal with |- context [call ?q ?args ?s] => match args with [(?lv, _); (?lv', VPtr (Some ?l))] =>
        specialize (WC lv lv' l s eq_refl) end end.
      all: (match type of WC with ?A -> ?B -> _ => assert (W1 : A) by (wsem; rewrite nth_last; wsem; rewrite nth_last; reflexivity); assert (W2 : B) by reflexivity; specialize (WC W1 W2); clear W1 W2 end).
      all: match goal with |- context [call ?q ?args ?s] => match type of WC with call ?q' ?args' ?s = _ => change (call q' args' s) with (call q args s) in WC end end.
      all: rewrite WC; wwalk; reflexivity. }
    cbn [run_for]. rewrite STEP. destruct (write_val L b delta (VStruct u fs0)) as [[a' k']|]; [|reflexivity].
    specialize (IH (done ++ [Elem u a' k']) (fun v I => H v (or_intror I))). rewrite IH.
    destruct (write_items u (map (write_val L b delta) l)) as [k''|]; [|reflexivity]. now rewrite <- app_assoc.
  Qed.

  (** Names that are no variables of a writer function. *)
  Definition no_wlocal (u : string) : Prop :=
    forall x, In x ["rv"; "el"; "data"; "*data"; "ch_el"; "default_data"; "m_delta_only"; "size_t"] -> String.eqb u x = false.
  Lemma wr_item_ok k t fs d e a ks w u n l : k <> F0 -> cut u = u -> find_struct (l_defs L) u <> None ->
    no_wlocal u -> mf u = false -> user_type L u = Some (TStruct u) -> assoc n fs = Some (VVec u l) ->
    (forall v, In v l -> exists fs0, v = VStruct u fs0 /\ wr_ok u fs0) ->
    exec L call cls mf wf (wr_item n u) (wst true k (VEl (Some [length ks])) nd t fs d (Elem e a (ks ++ [Elem n [] []])) dl w) =
    match write_items u (map (write_val L b delta) l) with
    | Some k' => Ok CNext (wst true k (VEl (Some [length ks])) nd t fs d (Elem e a (ks ++ [Elem n [] k'])) dl w)
    | None => UB
    end.
  Proof.
    intros K CU FS NL NM UT AS WR. pose proof (witems_ok k t fs d e a ks w u n K CU FS l [] WR) as IT. cbn [app] in IT. rewrite <- IT.
    set (s := wst true k (VEl (Some [length ks])) nd t fs d (Elem e a (ks ++ [Elem n [] []])) dl w).
    change (exec L call cls mf wf (wr_item n u) s) with
      (do (v, s) <- ev L call cls mf (e_data n) s;
       match v with
       | VUndef _ | VEl None => UB
       | _ => need vs <- range L mf (CT [u] [] RVal) v s; run_for (ex (witem_body u)) "itr" vs s
       end).
    assert (E : ev L call cls mf (e_data n) s = Ok (VVec u l) s) by (unfold s; destruct k, nd; try congruence; wwalk; reflexivity).
    rewrite E. unfold range. cbn [ct_name ct_ref].
    assert (NT : named_type L mf [u] s = Some (TStruct u)).
    { unfold named_type. rewrite NM. assert (is_local u s = false) as -> by (unfold is_local, s; destruct k, nd; cbn [wst wframe dd base app s_scopes lookup assoc]; repeat rewrite NL by (cbn; tauto); reflexivity).
      assert (is_member u s = false) as -> by (unfold is_member, s; cbn [wst s_this assoc]; now rewrite NL by (cbn; tauto)).
      rewrite (NL "size_t") by (cbn; tauto). assert (is_member "m_lookup" s = false) as -> by reflexivity. rewrite andb_false_r. exact UT. }
    rewrite NT, String.eqb_refl. reflexivity.
  Qed.
  Lemma wr_vector_ok k c t fs d e a ks w u n l : k <> F0 -> ty_of c = TEl -> cut n = n -> cut u = u -> find_struct (l_defs L) u <> None ->
    no_wlocal u -> mf u = false -> user_type L u = Some (TStruct u) -> assoc n fs = Some (VVec u l) ->
    (forall v, In v l -> exists fs0, v = VStruct u fs0 /\ wr_ok u fs0) ->
    ex (xm_wr_complex nd (Complex vector_E u n)) (wst false k c nd t fs d (Elem e a ks) dl w) =
    match write_val L b delta (VVec u l) with
    | Some (a', k') => Ok CNext (wst false k (VEl (Some [length ks])) nd t fs d (Elem e a (ks ++ [Elem n a' k'])) dl w)
    | None => UB
    end.
  Proof.
    intros K TC CN CU FS NL NM UT AS WR. unfold xm_wr_complex. cbn [sc_type]. unfold sc_name, sc_tname.
    change (ex [s_new_child n; ?c] ?s) with (ex ([s_new_child n] ++ [c]) s). rewrite run_list_app.
    rewrite (xm_child_ok false k c t fs d e a ks w n CN K TC).
    pose proof (wr_item_ok k t fs d e a ks w u n l K CU FS NL NM UT AS WR) as IT. cbn [write_val].
    set (s := wst false k (VEl (Some [length ks])) nd t fs d (Elem e a (ks ++ [Elem n [] []])) dl w).
    assert (E : ev L call cls mf (EBin b_ne (EId ["ch_el"]) ENull) s = Ok (vbool true) s) by (unfold s; destruct k, nd; try congruence; reflexivity).
    unfold if_child. cbn [run_list exec]. rewrite E.
    change (lift (truth (vbool true)) s) with (Ok true s). cbn iota beta. unfold scoped, s.
    match goal with |- context [exec L call cls mf wf (wr_item n u) ?q] => match type of IT with exec _ _ _ _ _ _ ?q' = _ => change q with q' end end.
    rewrite IT. destruct (write_items u (map (write_val L b delta) l)) as [k'|]; reflexivity.
  Qed.

  (** *** Any member *)
  Definition wr_simple (m : struct_simple) : list stmt := match b with Attributes => xa_wr_simple nd m | Elements => xm_wr_simple nd m end.
  Definition wr_complex (m : struct_complex) : list stmt := match b with Attributes => xa_wr_complex nd m | Elements => xm_wr_complex nd m end.
  Definition wr_stmts (m : member) : list stmt :=
    match m with
    | MSimple t n d => wr_simple (Simple t n (dflt_text d))
    | MUser u n _ => wr_complex (Complex (kind_in (l_defs L) u) u n)
    | MVector u n => wr_complex (Complex vector_E u n)
    end.
  Definition wmember_good (m : member) : Prop :=
    cut (member_name m) = member_name m /\
    match m with
    | MSimple t _ _ => b = Elements -> t = long_E -> l_long L = 64%Z
    | MUser u _ _ => (exists c es, user_type L u = Some (TEnum u) /\ find_enum (l_defs L) u = Some (c, es) /\ kind_in (l_defs L) u = enum_E)
                     \/ (user_type L u = Some (TStruct u) /\ kind_in (l_defs L) u = struct_E)
    | MVector u _ => user_type L u = Some (TStruct u) /\ cut u = u /\ find_struct (l_defs L) u <> None /\ no_wlocal u /\ mf u = false
    end.
  (** The calls that writing a member makes are right. *)
  Definition calls_ok (v : val) : Prop :=
    match v with
    | VStruct u fs => wr_ok u fs
    | VVec u l => forall x, In x l -> exists fs0, x = VStruct u fs0 /\ wr_ok u fs0
    | _ => True
    end.
  Notation sub fs := (map (fun p => (fst p, (snd p, write_val L b delta (snd p)))) fs).
  Lemma assoc_sub n fs v : assoc n fs = Some v -> assoc n (sub fs) = Some (v, write_val L b delta v).
  Proof. induction fs as [|[k x] fs IH]; cbn; [discriminate|]. destruct (String.eqb n k); [now intros [= ->]|exact IH]. Qed.
  Lemma xa_struct_same u n : xa_wr_complex nd (Complex struct_E u n) = xm_wr_complex nd (Complex struct_E u n).
  Proof. reflexivity. Qed.

  Lemma scalar_member k c t fs d e a ks w n v dv ty ss1 : assoc n fs = Some v -> assoc n d = Some dv -> scalar_ty ty = true ->
    fits L v ty = true -> fits L dv ty = true -> ty_of c = TEl ->
    (forall pre, match text_of L b v with
      | Some s => exists c', ty_of c' = TEl /\ ex ss1 (wst pre k c nd t fs d (Elem e a ks) dl w) =
          Ok CNext (wst pre k c' nd t fs d (match b with Attributes => Elem e (a ++ [(n, s)]) ks | Elements => Elem e a (ks ++ [Elem n [] [Text s]]) end) dl w)
      | None => ex ss1 (wst pre k c nd t fs d (Elem e a ks) dl w) = UB
      end) ->
    match write_scalar L b delta n dv v with
    | Some (a', k') => exists c', ty_of c' = TEl /\ ex (if_changed nd n ss1) (wst false k c nd t fs d (Elem e a ks) dl w) =
        Ok CNext (wst false k c' nd t fs d (Elem e (a ++ a') (ks ++ k')) dl w)
    | None => ex (if_changed nd n ss1) (wst false k c nd t fs d (Elem e a ks) dl w) = UB
    end.
  Proof.
    intros AS AD S FV FD TC IN. rewrite (changed_ok n ss1 ty v dv k c t fs d (Elem e a ks) w AS AD S FV FD). unfold write_scalar.
    destruct (left_out L delta dv v) as [[|]|]; [exists c; rewrite !app_nil_r; auto| |reflexivity].
    destruct (text_of L b v) as [s|] eqn:TX.
    - replace (match b with Attributes => ([(n, s)], []) | Elements => ([], [Elem n [] [Text s]]) end) with
        (match b with Attributes => [(n, s)] | Elements => [] end, match b with Attributes => [] | Elements => [Elem n [] [Text s]] end) by (destruct b; reflexivity).
      destruct nd.
      + destruct (IN false) as (c' & TC' & ->). exists c'. split; [exact TC'|]. destruct b; rewrite ?app_nil_r; reflexivity.
      + destruct (IN true) as (c' & TC' & ->). exists c'. split; [exact TC'|]. destruct b; rewrite ?app_nil_r; reflexivity.
    - destruct nd; rewrite IN; reflexivity.
  Qed.

  Lemma wmember_step k c t fs d e a ks w m v : ty_of c = TEl -> wmember_good m -> k_ok L b k m -> assoc (member_name m) fs = Some v ->
    member_fits L fs m -> member_fits L d m -> ~ In (member_name m) (map fst a) -> calls_ok v ->
    match write_member L b delta d (sub fs) m with
    | Some (a', k') => exists c', ty_of c' = TEl /\ ex (wr_stmts m) (wst false k c nd t fs d (Elem e a ks) dl w) =
        Ok CNext (wst false k c' nd t fs d (Elem e (a ++ a') (ks ++ k')) dl w)
    | None => ex (wr_stmts m) (wst false k c nd t fs d (Elem e a ks) dl w) = UB
    end.
  Proof.
    intros TC (CU & MG) KO AS (v' & ty & AS' & MT & FV) (dv & ty' & AD & MT' & FD) NA CO. rewrite AS in AS'. injection AS' as <-.
    rewrite MT in MT'. injection MT' as <-. unfold write_member. rewrite (assoc_sub _ _ _ AS), AD.
    assert (B : (b = Attributes /\ k <> FM) \/ (b = Elements /\ k = FM)) by (unfold k_ok in KO; destruct b, k; try contradiction; [left|left|right]; split; congruence).
    destruct m as [st n df|u n df|u n]; cbn [member_name member_type is_scalar wr_stmts] in *.
    - injection MT as <-.
      assert (S : scalar_ty (kind_of st) = true) by (destruct st; reflexivity).
      destruct B as [[B K]|[B ->]]; unfold wr_simple.
      + replace (match b with Attributes => xa_wr_simple nd (Simple st n (dflt_text df)) | Elements => _ end) with (if_changed nd n [s_attr n (xa_value (Simple st n (dflt_text df)))]) by (rewrite B; reflexivity).
        eapply scalar_member; eauto. intros pre. rewrite (xa_attr_ok pre k c t fs d e a ks w st n _ v AS CU FV K). rewrite B.
        destruct (text_of L Attributes v); [|reflexivity]. exists c. split; [exact TC|]. now rewrite set_attr_new.
      + replace (match b with Attributes => _ | Elements => xm_wr_simple nd (Simple st n (dflt_text df)) end) with (if_changed nd n ([s_new_child n] ++ [s_text (xm_value (Simple st n (dflt_text df)))])) by (rewrite B; reflexivity).
        eapply scalar_member; eauto. intros pre. rewrite run_list_app, (xm_child_ok pre FM c t fs d e a ks w n CU) by (auto; discriminate).
        rewrite (xm_text_ok pre t fs d e a ks w st n _ v AS CU FV (MG B)). rewrite B. destruct (text_of L Elements v); [|reflexivity]. eexists; split; [|reflexivity]. reflexivity.
    - destruct MG as [(ce & es & UT & FE & KI)|(UT & KI)]; rewrite UT in MT |- *; injection MT as <-; rewrite KI.
      + destruct B as [[B K]|[B ->]]; unfold wr_complex.
        * replace (match b with Attributes => xa_wr_complex nd (Complex enum_E u n) | Elements => _ end) with (if_changed nd n [s_attr n (e_cstr (e_sfrome n))]) by (rewrite B; reflexivity).
          eapply (scalar_member k c t fs d e a ks w n v dv (TEnum u)); eauto. intros pre. rewrite (xa_enum_attr_ok pre k c t fs d e a ks w u n v ce es AS CU FV FE K). rewrite B.
          destruct (text_of L Attributes v); [|reflexivity]. exists c. split; [exact TC|]. now rewrite set_attr_new.
        * replace (match b with Attributes => _ | Elements => xm_wr_complex nd (Complex enum_E u n) end) with (if_changed nd n ([s_new_child n] ++ [s_text (e_cstr (e_sfrome n))])) by (rewrite B; reflexivity).
          eapply (scalar_member FM c t fs d e a ks w n v dv (TEnum u)); eauto. intros pre. rewrite run_list_app, (xm_child_ok pre FM c t fs d e a ks w n CU) by (auto; discriminate).
          rewrite (xm_enum_text_ok pre t fs d e a ks w u n v ce es AS CU FV FE). rewrite B. destruct (text_of L Elements v); [|reflexivity]. eexists; split; [|reflexivity]. reflexivity.
      + assert (K : k <> F0). { destruct B as [[B K]|[B ->]]; [|discriminate]. unfold k_ok in KO. rewrite B in KO. intros ->. cbn [is_scalar] in KO. rewrite UT in KO. discriminate. }
        assert (exists fs0, v = VStruct u fs0) as (fs0 & ->).
        { pose proof (fits_ty L v _ FV) as TY. destruct v; cbn [ty_of] in TY; try discriminate TY; [subst; discriminate FV|]. injection TY as ->. eauto. }
        assert (FS : find_struct (l_defs L) u <> None) by (unfold user_type in UT; destruct (find_struct (l_defs L) u); [discriminate|destruct (find_enum (l_defs L) u); discriminate]).
        replace (wr_complex (Complex struct_E u n)) with (xm_wr_complex nd (Complex struct_E u n)) by (unfold wr_complex; destruct b; reflexivity).
        rewrite (wr_struct_ok k c t fs d e a ks w u n fs0 K TC AS CU FS CO).
        destruct (write_val L b delta (VStruct u fs0)) as [[a' k']|]; [|reflexivity]. rewrite app_nil_r. eexists; split; [|reflexivity]. reflexivity.
    - injection MT as <-. destruct MG as (UT & CT & FS & NL & NM).
      assert (K : k <> F0). { destruct B as [[B K]|[B ->]]; [|discriminate]. unfold k_ok in KO. rewrite B in KO. intros ->. cbn [is_scalar] in KO. discriminate. }
      assert (exists l, v = VVec u l) as (l & ->).
      { pose proof (fits_ty L v _ FV) as TY. destruct v; cbn [ty_of] in TY; try discriminate TY; [subst; discriminate FV|]. injection TY as ->. eauto. }
      replace (wr_complex (Complex vector_E u n)) with (xm_wr_complex nd (Complex vector_E u n)) by (unfold wr_complex; destruct b; reflexivity).
      rewrite (wr_vector_ok k c t fs d e a ks w u n l K TC CU CT FS NL NM UT AS CO).
      destruct (write_val L b delta (VVec u l)) as [[a' k']|]; [|reflexivity]. rewrite app_nil_r. eexists; split; [|reflexivity]. reflexivity.
  Qed.
End W.
