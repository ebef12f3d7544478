(** The generated n_ini readers: the members that are read from the section of a struct. *)
From Coq Require Import String Ascii ZArith NArith Arith List Bool Lia.
From Verif Require Import Base Map Items Grammar Fmt Decimal Templates Emit Cpp Xml Val Rx CppSem SymLex Ast StoreDefs ResolveProps Prog Header EnumSem DecText EnumCall XmlSpec XmlRdSimple XmlRead XmlReader IniSpec.
Import ListNotations.
Local Open Scope string_scope.
Local Open Scope list_scope.

(** *** The items as values of the program *)
Definition str_pair (p : string * string) : val * val := (VStr (fst p), VStr (snd p)).
Definition items_val (l : list (string * string)) : val := VMap (map str_pair l).
Definition item_val (its : list (string * string)) (under : list (val * val)) : val :=
  VStruct "read_item_S" [("items", items_val its); ("under", VMap under)].
Definition under_pair (p : string * list (string * string)) : val * val := (VStr (fst p), item_val (snd p) []).
Definition look_val (k : lookups) : val := item_val (k_top k) (map under_pair (k_under k)).

Lemma find_str n l : map_find (VStr n) (map str_pair l) = option_map VStr (assoc n l).
Proof. induction l as [|[k v] l IH]; [reflexivity|]. cbn. destruct (String.eqb n k); [reflexivity|exact IH]. Qed.
Lemma find_under n l : map_find (VStr n) (map under_pair l) = option_map (fun its => item_val its []) (assoc n l).
Proof. induction l as [|[k v] l IH]; [reflexivity|]. cbn. destruct (String.eqb n k); [reflexivity|exact IH]. Qed.
Lemma set_str n v l : map_set (VStr n) (VStr v) (map str_pair l) = map str_pair (set_assoc n v l).
Proof. induction l as [|[k w] l IH]; [reflexivity|]. cbn. destruct (String.eqb n k) eqn:E; cbn; [|now rewrite IH]. apply String.eqb_eq in E as ->. reflexivity. Qed.
Lemma set_under n its l : map_set (VStr n) (item_val its []) (map under_pair l) = map under_pair (set_assoc n its l).
Proof. induction l as [|[k w] l IH]; [reflexivity|]. cbn. destruct (String.eqb n k) eqn:E; cbn; [|now rewrite IH]. apply String.eqb_eq in E as ->. reflexivity. Qed.

(** *** The frame of a reader function *)
Definition fr (rv : bool) (p t : string) (fs : list (string * val)) : scope :=
  [("rv", vbool rv); ("path", VStr p); ("data", VStruct t fs)].
(** Inside of the two blocks; [sc]: the variables of the inner block *)
Definition st_items (sc : scope) (fi : val) rv p t fs tr th w : st := St [sc; [("found_items", fi)]; fr rv p t fs] tr th w.

Ltac isem := cbn [exec ev run_list run_args exec_list scoped leave length Nat.sub skipn
  e_dot e_data e_id s_set e_second e_std e_ddot
  lvalue is_local is_member get_lv get_root put_lv get_path put_path get_acc put_acc lv_this lv_root lv_path app
  lookup update assoc set_assoc String.eqb Ascii.eqb Bool.eqb eqb andb orb negb fr st_items
  s_scopes s_tree s_this s_world set_scopes set_tree set_this set_world declare declare_as store
  method map_method fst snd ty_of val_member fun_call std_fun
  named_type exec_decl ct_args ct_ref ct_name t_auto names_eqb option_map items_val
  lift conv binary veq vbool truth Z.eqb nkind_eqb fkind_eqb].

Section S.
  Variables (L : lang) (call : list string -> list arg -> st -> res val) (cls : string) (mf : string -> bool) (wf : nat).
  Notation ex := (run_list (exec L call cls mf wf)).
  Hypothesis LL : (0 < l_long L)%Z.
  Hypothesis EC : forall u c es, find_enum (l_defs L) u = Some (c, es) -> forall lv v x l old s, text_arg v x -> get_lv l s = Some old -> ty_of old = TEnum u ->
    to_call L u es l x s (call ["stfx"; "s_to_e"] [(lv, v); (Some l, old)] s).

  Lemma sto_num_is k x : sto_num L k x = match number L k x with Some z => Yes (VNum k z) | None => MExc end.
  Proof.
    unfold sto_num, number. destruct (scan_dec x) as [z|]; [|reflexivity]. destruct (signed k).
    - destruct ((- 2 ^ (bits L k - 1) <=? z) && (z <? 2 ^ (bits L k - 1)))%Z; reflexivity.
    - destruct (Z.abs z <? 2 ^ bits L k)%Z; reflexivity.
  Qed.

  (** One member: declared in the inner block; read when there is an item. *)
  Lemma find_ok n its sc fi rv p t fs tr th w : cut n = n -> assoc "items" sc = Some (items_val its) -> assoc n sc = None ->
    exec L call cls mf wf (SDecl t_auto n (Some (e_dot "items" "find" [EStr n]))) (st_items sc fi rv p t fs tr th w) =
    Ok CNext (st_items ((n, VIter (option_map (fun s => (VStr n, VStr s)) (assoc n its))) :: sc) fi rv p t fs tr th w).
  Proof.
    intros CU AI AN. isem. rewrite CU, AI. isem. rewrite find_str. destruct (assoc n its); isem; unfold declare_as, declare; isem; rewrite AN; reflexivity.
  Qed.

  Definition after_item (sc : scope) (fi : val) rv p t tr th w (r : outcome (list (string * val))) (a : res ctl) : Prop :=
    match r with
    | Done fs => a = Ok CNext (st_items sc fi rv p t fs tr th w)
    | Thrown fs => exists sx, a = Exc (St (sx ++ [fr rv p t fs]) tr th w)
    | Undefined => a = UB
    end.
  Definition put_outcome n fs (r : outcome val) : outcome (list (string * val)) :=
    match r with Done v => Done (set_assoc n v fs) | Thrown _ => Thrown fs | Undefined => Undefined end.
  Definition item_stmt (m : member) : stmt :=
    let n := member_name m in
    match m with
    | MSimple t _ _ => s_set (e_ddot n) (ni_conv t n)
    | _ => SExpr (ECall (EId ["stfx"; "s_to_e"]) [e_second n; e_ddot n])
    end.

  Ltac walk := repeat (first [progress isem
    | match goal with H : assoc ?n ?fs = _ |- context [assoc ?n ?fs] => rewrite H
      | H : ty_of ?n = _ |- context [ty_of ?n] => rewrite H end
    | rewrite sto_num_is | progress unfold is_local, get_lv, put_lv, get_root, assign, store, scoped, leave, fun_call, sto_flt, ni_conv]).
  Lemma if_none n its sc fi rv p t fs tr th w s : assoc "items" sc = Some (items_val its) -> assoc n sc = Some (VIter None) ->
    exec L call cls mf wf (SIf (EBin b_ne (EId [n]) (e_dot "items" "cend" [])) [s] []) (st_items sc fi rv p t fs tr th w) =
    Ok CNext (st_items sc fi rv p t fs tr th w).
  Proof. intros AI AN. walk. reflexivity. Qed.

  Lemma simple_some st n d its sc fi rv p t fs tr th w s old : assoc "items" sc = Some (items_val its) -> assoc "data" sc = None ->
    assoc n sc = Some (VIter (Some (VStr n, VStr s))) -> assoc n fs = Some old -> ty_of old = kind_of st ->
    after_item sc fi rv p t tr th w (put_outcome n fs (read_text L (MSimple st n d) s old))
      (exec L call cls mf wf (SIf (EBin b_ne (EId [n]) (e_dot "items" "cend" [])) [item_stmt (MSimple st n d)] []) (st_items sc fi rv p t fs tr th w)).
  Proof.
    intros AI AD AN AS TY. unfold item_stmt. cbn [member_name read_text].
    destruct st; cbn [text_value kind_of] in *; unfold read_as; walk;
    (match goal with |- context [number L ?k s] => destruct (number L k s) | |- context [l_sto L ?k s] => destruct (l_sto L k s) | _ => idtac end);
    walk; unfold after_item, put_outcome; rewrite ?(to_kind_twice L _ _ LL); try reflexivity; try (eexists [_; _; _]; reflexivity).
  Qed.
  Lemma enum_some u n d its sc fi rv p t fs tr th w s old c es : assoc "items" sc = Some (items_val its) -> assoc "data" sc = None ->
    assoc n sc = Some (VIter (Some (VStr n, VStr s))) -> assoc n fs = Some old -> ty_of old = TEnum u -> find_enum (l_defs L) u = Some (c, es) ->
    after_item sc fi rv p t tr th w (put_outcome n fs (read_text L (MUser u n d) s old))
      (exec L call cls mf wf (SIf (EBin b_ne (EId [n]) (e_dot "items" "cend" [])) [item_stmt (MUser u n d)] []) (st_items sc fi rv p t fs tr th w)).
  Proof.
    intros AI AD AN AS TY FE. pose proof (set_assoc_same _ _ _ AS) as SA. unfold item_stmt. cbn [member_name read_text]. rewrite FE. walk.
    match goal with |- context [call ["stfx"; "s_to_e"] ?args ?s0] => match args with [(?lv, ?v); (Some ?l, ?old)] =>
      let H := fresh in
      assert (H : get_lv l s0 = Some old) by (walk; reflexivity);
      pose proof (EC _ _ _ FE lv v s l old s0 (or_introl eq_refl) H TY : to_call L _ _ l s s0 (call ["stfx"; "s_to_e"] args s0)) as EX; clear H; unfold to_call in EX;
      destruct (read_enum L _ _ s);
      [match type of EX with forall s', put_lv ?l ?v ?s = Some s' -> _ =>
         eassert (PE : put_lv l v s = Some _) by (walk; reflexivity); specialize (EX _ PE) end | |];
      rewrite EX end end; walk; unfold after_item, put_outcome; rewrite ?SA; reflexivity.
  Qed.

  (** *** One member after the other *)
  (** Members that can be read: no variable of the function has their name. *)
  Definition item_good (m : member) : Prop :=
    cut (member_name m) = member_name m /\ String.eqb (member_name m) "items" = false /\ String.eqb (member_name m) "data" = false /\
    match m with
    | MSimple _ _ _ => True
    | MUser u _ _ => exists c es, user_type L u = Some (TEnum u) /\ find_enum (l_defs L) u = Some (c, es)
    | MVector _ _ => False
    end.
  Definition item_stmts (m : member) : list stmt := ni_item (member_name m) (item_stmt m).
  Lemma scalars_ok its fi rv p t tr th w ms : NoDup (map member_name ms) -> forall sc fs,
    (forall m, In m ms -> item_good m /\ member_fits L fs m /\ assoc (member_name m) sc = None) ->
    assoc "items" sc = Some (items_val its) -> assoc "data" sc = None ->
    exists sc', after_item sc' fi rv p t tr th w (read_scalars L its ms fs) (ex (flat_map item_stmts ms) (st_items sc fi rv p t fs tr th w)).
  Proof.
    induction ms as [|m ms IH]; intros ND sc fs H AI AD; [exists sc; reflexivity|].
    cbn [map] in ND. apply NoDup_cons_iff in ND as [N ND]. destruct (H m (or_introl eq_refl)) as ((CU & NI & NDa & G) & (old & ty & AS & MT & FI) & AN).
    cbn [read_scalars flat_map]. rewrite run_list_app. unfold item_stmts at 1, ni_item. cbn [run_list].
    rewrite (find_ok _ its); auto.
    set (n := member_name m) in *. set (it := VIter (option_map (fun s => (VStr n, VStr s)) (assoc n its))).
    assert (A1 : assoc "items" ((n, it) :: sc) = Some (items_val its)) by (cbn [assoc]; now rewrite String.eqb_sym, NI).
    assert (A2 : assoc "data" ((n, it) :: sc) = None) by (cbn [assoc]; now rewrite String.eqb_sym, NDa).
    assert (A3 : assoc n ((n, it) :: sc) = Some it) by (cbn [assoc]; now rewrite String.eqb_refl).
    assert (A4 : forall fs', (forall j, j <> n -> assoc j fs' = assoc j fs) ->
      forall m', In m' ms -> item_good m' /\ member_fits L fs' m' /\ assoc (member_name m') ((n, it) :: sc) = None).
    { intros fs' F m' I. destruct (H m' (or_intror I)) as (B1 & (o' & ty' & B2 & B3 & B4) & B5).
      assert (member_name m' <> n) by (intros X; apply N; unfold n in *; rewrite <- X; now apply in_map).
      split; [exact B1|]. split; [exists o', ty'; rewrite F; auto|]. cbn [assoc]. rewrite (proj2 (String.eqb_neq _ _)); auto. }
    apply fits_ty in FI.
    destruct (assoc n its) as [s|] eqn:IT; cbn [option_map] in *.
    - rewrite AS.
      assert (ST : after_item ((n, it) :: sc) fi rv p t tr th w (put_outcome n fs (read_text L m s old))
        (exec L call cls mf wf (SIf (EBin b_ne (EId [n]) (e_dot "items" "cend" [])) [item_stmt m] []) (st_items ((n, it) :: sc) fi rv p t fs tr th w))).
      { destruct m as [st x d|u x d|u x]; [| |contradiction]; cbn [member_name member_type] in *; subst n.
        - injection MT as <-. eapply simple_some; eauto.
        - destruct G as (c & es & UT & FE). rewrite UT in MT. injection MT as <-. eapply enum_some; eauto. }
      destruct (read_text L m s old) as [v|v|]; cbn [put_outcome after_item] in ST.
      + rewrite ST. cbn [run_list]. apply IH; auto. apply A4. intros j J. apply assoc_set_other. now apply eqb_neq.
      + destruct ST as (sx & ->). exists sc. cbn [after_item]. exists sx. reflexivity.
      + rewrite ST. exists sc. reflexivity.
    - rewrite (if_none n its) by auto. cbn [run_list]. apply IH; auto.
  Qed.

  Lemma items_stmts ms : (forall m, In m ms -> match m with MUser u _ _ => (user_type L u = Some (TEnum u) /\ kind_in (l_defs L) u = enum_E) \/ (user_type L u = Some (TStruct u) /\ kind_in (l_defs L) u = struct_E) | _ => True end) ->
    flat_map ni_rd_simple (simples ms) ++ flat_map ni_rd_enum (resolved_members (l_defs L) ms) = flat_map item_stmts (filter (is_scalar L) (in_order ms)).
  Proof.
    intros H. unfold in_order. rewrite filter_app, flat_map_app. f_equal.
    - clear H. unfold simples. induction ms as [|m ms IH]; [reflexivity|]. destruct m; cbn [flat_map filter is_simple is_scalar app]; [|exact IH|exact IH]. now rewrite <- IH.
    - unfold resolved_members. induction ms as [|m ms IH]; [reflexivity|]. pose proof (H m (or_introl eq_refl)) as G. specialize (IH (fun m' I => H m' (or_intror I))).
      destruct m as [st x d|u x d|u x]; cbn [flat_map filter is_simple negb is_scalar app]; [exact IH| |exact IH].
      destruct G as [(-> & ->)|(-> & ->)]; cbn [ni_rd_enum sc_type flat_map app]; [now rewrite <- IH|exact IH].
  Qed.
End S.
