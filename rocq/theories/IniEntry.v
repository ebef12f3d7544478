(** The generated entry points read_from_file and write_to_file of the n_ini back end: reading. *)
From Coq Require Import String Ascii ZArith NArith Arith List Bool Lia.
From Verif Require Import Base Map Items Grammar Fmt Decimal Templates Emit Cpp Xml Val Rx CppSem SymLex Ast StoreDefs ResolveProps Prog Header Link EnumSem DecText EnumCall EnumRound XmlSpec XmlRdSimple XmlRead XmlReader XmlCall XmlWrite XmlWriter XmlFile IniSpec IniRead IniReader IniCall IniLines IniFile.
Import ListNotations.
Local Open Scope string_scope.
Local Open Scope list_scope.

(** *** The body of read_from_file *)
Section Body.
  Variables (L : lang) (call : list string -> list arg -> st -> res val) (cls : string) (mf : string -> bool) (wf : nat).
  Notation ex := (run_list (exec L call cls mf wf)).
  Variable (rest : scope).
  Hypothesis NS : mf "size_t" = false.
  Hypothesis NR : mf "read_item_S" = false.
  Hypothesis RS : assoc "size_t" rest = None.
  Hypothesis RR : assoc "read_item_S" rest = None.
  Variables (t : string) (fs : list (string * val)).
  Hypothesis MF : mf (pre_rd t) = true.

  Ltac sem2 := cbn [exec ev run_list run_args exec_list scoped leave length Nat.sub skipn
    e_dot e_data e_id s_set e_cstr e_meth s_rv0 s_ret t_bool t_item_ptr p_file_name
    lvalue is_local is_member get_lv get_root put_lv get_path put_path get_acc put_acc lv_this lv_root lv_path app
    lookup update assoc set_assoc String.eqb Ascii.eqb Bool.eqb eqb andb orb negb
    blk bs this_of x_cur x_look x_key x_val
    s_scopes s_tree s_this s_world set_scopes set_tree set_this set_world declare declare_as store
    method str_method fst snd ty_of val_member fun_call std_fun w_files w_in w_out
    named_type pointer_type exec_decl ct_args ct_ref ct_name t_auto names_eqb option_map init init_fuel
    lift conv binary veq vbool truth Z.eqb nkind_eqb fkind_eqb].
  Ltac walk := repeat (first [progress sem2 | rewrite NS | rewrite NR | rewrite RS | rewrite RR | rewrite MF
    | progress unfold blk, bs, this_of, is_local, is_member, get_lv, put_lv, get_root, assign, store, scoped, leave, fun_call, named_type, pointer_type]).

  Definition rvs (n : string) (fs : list (string * val)) : scope := [("filename", VStr n); ("struct_to_fill", VStruct t fs)].
  Variables (n : string) (w : world) (x : scan) (tr : node).
  Notation s0 := (St [rvs n fs] tr (this_of rest (x_look x) (x_key x) (x_val x)) w).
  Notation th := (this_of rest (x_look x) (x_key x) (x_val x)).
  Definition rff_open := firstn 3 (fd_body (ini_rff cls t)).
  Definition rff_if := firstn 1 (skipn 3 (fd_body (ini_rff cls t))).
  Definition rff_ret := skipn 4 (fd_body (ini_rff cls t)).
  Lemma rff_parts : fd_body (ini_rff cls t) = rff_open ++ rff_if ++ rff_ret.
  Proof. reflexivity. Qed.
  Lemma rff_open_ok : (forall d, assoc (cut n) (w_files w) <> Some (CDoc d)) -> ex rff_open s0 =
    match assoc (cut n) (w_files w) with
    | Some (CText y) => Ok CNext (St [bs (vbool false) (VStr n) (VStruct t fs)] tr th (World (w_files w) (Some y) (w_out w)))
    | _ => Ok CNext (St [("file", VFile false) :: ("rv", vbool false) :: rvs n fs] tr th w)
    end.
  Proof.
    intros ND. unfold rff_open, ini_rff, rvs. cbn [fd_body firstn]. walk. 
    destruct (assoc (cut n) (w_files w)) as [[d|y]|]; [now elim (ND d)| |]; walk; reflexivity.
  Qed.
  Lemma rff_missing : assoc (cut n) (w_files w) = None ->
    ex (fd_body (ini_rff cls t)) s0 = Ok (CRet (vbool false)) (St [("file", VFile false) :: ("rv", vbool false) :: rvs n fs] tr th w).
  Proof.
    intros A. rewrite rff_parts, !run_list_app, rff_open_ok by congruence. rewrite A. reflexivity.
  Qed.
  Definition in_if : list stmt := match rff_if with [SIf _ b _] => b | _ => [] end.
  Definition in_decls := firstn 3 in_if.
  Definition in_loop := firstn 1 (skipn 3 in_if).
  Definition in_close := firstn 1 (skipn 4 in_if).
  Definition in_read := skipn 5 in_if.
  Lemma in_parts : in_if = in_decls ++ in_loop ++ in_close ++ in_read.
  Proof. reflexivity. Qed.
  Notation out := (outer rest (vbool false) (VStr n) (VStruct t fs) tr).
  Lemma in_decls_ok w' : x_cur x = None -> ex in_decls (St [[]; bs (vbool false) (VStr n) (VStruct t fs)] tr th w') = Ok CNext (out (VUndef TCStr) x w').
  Proof.
    intros XC. unfold outer. rewrite XC. unfold in_decls, in_if. cbn [rff_if ini_rff fd_body firstn skipn]. walk. reflexivity.
  Qed.
  Lemma in_loop_ok y fls wo : String.length y < wf -> cur_ok x -> exists buf, ex in_loop (out (VUndef TCStr) x (World fls (Some y) wo)) = Ok CNext (out buf (scan_text y x) (World fls (Some "") wo)).
  Proof.
    intros LT CO. destruct (loop_ok L call cls mf wf rest (vbool false) (VStr n) (VStruct t fs) tr NS NR RS RR fls wo wf y (VUndef TCStr) x LT CO (or_introl eq_refl)) as (buf & LO).
    exists buf. change in_loop with [SWhile e_more ini_line]. cbn [run_list exec]. rewrite LO. reflexivity.
  Qed.
  Lemma in_close_ok buf x' w' : ex in_close (out buf x' w') = Ok CNext (out buf x' (World (w_files w') None None)).
  Proof. unfold outer, in_close, in_if. cbn [rff_if ini_rff fd_body firstn skipn]. walk. reflexivity. Qed.
  Notation rcall s1 := (call [cls; pre_rd t] [(None, VCStr (Some "")); (Some (LV false "struct_to_fill" []), VStruct t fs)] s1).
  Lemma in_read_ok buf x' w' : match rcall (out buf x' w') with
    | Ok v s2 => forall r v', v = vbool r -> put_lv (LV false "struct_to_fill" []) v' (out buf x' w') = Some s2 ->
        ex in_read (out buf x' w') = Ok CNext (outer rest (vbool r) (VStr n) v' tr buf x' w')
    | UB => ex in_read (out buf x' w') = UB
    | _ => True
    end.
  Proof.
    change in_read with [s_set (EId ["rv"]) (ECall (EId [pre_rd t]) [EStr ""; EId ["struct_to_fill"]])].
    assert (E : ev L call cls mf (ECall (EId [pre_rd t]) [EStr ""; EId ["struct_to_fill"]]) (out buf x' w') = rcall (out buf x' w')).
    { cbn [ev]. assert (A : run_args (ev L call cls mf) [EStr ""; EId ["struct_to_fill"]] (out buf x' w') = Ok [(None, VCStr (Some "")); (Some (LV false "struct_to_fill" []), VStruct t fs)] (out buf x' w')) by reflexivity.
      rewrite A. unfold fun_call. rewrite MF. reflexivity. }
    assert (S : ex [s_set (EId ["rv"]) (ECall (EId [pre_rd t]) [EStr ""; EId ["struct_to_fill"]])] (out buf x' w') =
      match (do (v, s) <- ev L call cls mf (ECall (EId [pre_rd t]) [EStr ""; EId ["struct_to_fill"]]) (out buf x' w'); need l <- lvalue (EId ["rv"]) s; assign L l v s) with
      | Ok _ s => Ok CNext s | Exc s => Exc s | UB => UB | Bad => Bad | Fuel => Fuel end).
    { unfold s_set. cbn [run_list exec]. 
      change (ev L call cls mf (EBin b_assign (EId ["rv"]) (ECall (EId [pre_rd t]) [EStr ""; EId ["struct_to_fill"]])) (out buf x' w')) with
        (do (v, s) <- ev L call cls mf (ECall (EId [pre_rd t]) [EStr ""; EId ["struct_to_fill"]]) (out buf x' w'); need l <- lvalue (EId ["rv"]) s; assign L l v s).
      destruct (do (v, s) <- ev L call cls mf (ECall (EId [pre_rd t]) [EStr ""; EId ["struct_to_fill"]]) (out buf x' w'); need l <- lvalue (EId ["rv"]) s; assign L l v s); reflexivity. }
    rewrite E in S. destruct (rcall (out buf x' w')) as [v s2|s2| | |]; [|exact Logic.I|exact S|exact Logic.I|exact Logic.I].
    intros r v' -> PL. rewrite S. injection PL as <-. destruct r; reflexivity.
  Qed.
  Lemma rff_text y : assoc (cut n) (w_files w) = Some (CText y) -> String.length y < wf -> cur_ok x -> x_cur x = None ->
    exists buf, let s1 := out buf (scan_text y x) (World (w_files w) None None) in
    match rcall s1 with
    | Ok v s2 => forall r v', v = vbool r -> put_lv (LV false "struct_to_fill" []) v' s1 = Some s2 ->
        ex (fd_body (ini_rff cls t)) s0 = Ok (CRet (vbool r)) (St [bs (vbool r) (VStr n) v'] tr (s_this s1) (World (w_files w) None None))
    | UB => ex (fd_body (ini_rff cls t)) s0 = UB
    | _ => True
    end.
  Proof.
    intros A LT CO XC. destruct (in_loop_ok y (w_files w) (w_out w) LT CO) as (buf & LO). exists buf. cbv zeta.
    pose proof (in_read_ok buf (scan_text y x) (World (w_files w) None None)) as IR.
    assert (B : ex (fd_body (ini_rff cls t)) s0 = 
      match ex in_read (out buf (scan_text y x) (World (w_files w) None None)) with
      | Ok CNext s => ex rff_ret (leave 1 s)
      | Ok k s => Ok k (leave 1 s)
      | Exc s => Exc s | UB => UB | Bad => Bad | Fuel => Fuel
      end).
    { rewrite rff_parts, !run_list_app, rff_open_ok by congruence. rewrite A, run_list_app.
      change rff_if with [SIf (EBin b_ne (EId ["file"]) ENull) in_if []]. 
      assert (C : ev L call cls mf (EBin b_ne (EId ["file"]) ENull) (St [bs (vbool false) (VStr n) (VStruct t fs)] tr th (World (w_files w) (Some y) (w_out w))) =
        Ok (vbool true) (St [bs (vbool false) (VStr n) (VStruct t fs)] tr th (World (w_files w) (Some y) (w_out w)))) by reflexivity.
      cbn [run_list exec]. rewrite C. cbn [lift truth vbool Z.eqb negb]. unfold scoped.
      change (set_scopes (St [bs (vbool false) (VStr n) (VStruct t fs)] tr th (World (w_files w) (Some y) (w_out w))) ?q) with (St [[]; bs (vbool false) (VStr n) (VStruct t fs)] tr th (World (w_files w) (Some y) (w_out w))).
      rewrite in_parts, run_list_app, in_decls_ok by exact XC. rewrite run_list_app, LO. rewrite run_list_app, in_close_ok. cbn [w_files s_scopes length].
      destruct (ex in_read (out buf (scan_text y x) (World (w_files w) None None))) as [[| | |v] s|s| | |]; reflexivity. }
    destruct (rcall _) as [v s2|s2| | |]; [|exact Logic.I| |exact Logic.I|exact Logic.I].
    - intros r v' -> PL. rewrite B, (IR r v' eq_refl PL). reflexivity.
    - now rewrite B, IR.
  Qed.
End Body.

(** *** The call of read_from_file *)
(** The object may be a reader or, since the writer class derives from the reader class,
    a writer with its two further members. *)
Definition rest_of (rest : scope) : Prop := rest = [] \/ exists dl m, rest = [("m_delta_only", dl); ("m_file", m)].
(** The argument for the file name: a text, or a variable of the caller. *)
Definition name_arg (a : arg) (n : string) (s : st) : Prop :=
  file_arg a n s /\ match fst a with Some l => lv_this l = false | None => True end.
Lemma local_get l sc tr th th' w w' : lv_this l = false -> get_lv l (St sc tr th w) = get_lv l (St sc tr th' w').
Proof. intros E. unfold get_lv, get_root. rewrite E. reflexivity. Qed.
Lemma bind_name t x a n l fs s : name_arg a n s -> get_lv l s = Some (VStruct t fs) -> exists bk,
    bind_params [p_file_name; (CT [t] [] RRef, x)] [a; (Some l, VStruct t fs)] s = Some (Bound [("filename", VStr n); (x, VStruct t fs)] None bk) /\
    forall s1 th w v, lookup "filename" (s_scopes s1) = Some (VStr n) -> lookup x (s_scopes s1) = Some v ->
      copy_back bk s1 (St (s_scopes s) (s_tree s) th w) = put_lv l v (St (s_scopes s) (s_tree s) th w).
Proof.
  intros [FA FL] GL. destruct FA as [(A1 & A2)|(la & -> & G)].
  - exists [(l, x)]. split.
    + destruct a as [la va]. cbn [fst snd] in A1, A2. rewrite A1. destruct A2 as [-> | ->]; reflexivity.
    + intros s1 th w v _ LX. cbn [copy_back]. rewrite LX. now destruct (put_lv l v _).
  - exists [(la, "filename"); (l, x)]. split; [reflexivity|]. intros s1 th w v LF LX. cbn [copy_back]. rewrite LF. cbn [fst] in FL.
    rewrite put_lv_same; [rewrite LX; now destruct (put_lv l v _)|]. destruct s as [sc tr th' w']. rewrite <- G. now apply local_get.
Qed.
(** The lookup of the items persists between reads. *)
Definition ini_read_result (L : lang) (rest : scope) (t : string) (k : lookups) (key v : string) (l : lval) (fs : list (string * val)) (n : string) (s : st) : res val :=
  match assoc (cut n) (w_files (s_world s)) with
  | Some (CText y) =>
      let x := scan_text y (Scan k None key v) in
      match read_obj L (x_look x) (VStruct t fs) "" with
      | Some (rv, o) =>
          match put_lv l o (St (s_scopes s) (s_tree s) (this_of rest (x_look x) (x_key x) (x_val x)) (World (w_files (s_world s)) None None)) with
          | Some s' => Ok (vbool rv) s'
          | None => Bad
          end
      | None => UB
      end
  | _ => Ok (vbool false) s
  end.

Section Entry.
  Variables (enums : list enum_S) (ss : list struct_S) (o : output_spec) (ds : list def) (L : lang).
  Hypothesis X : ini_setting enums ss o ds L.
  Notation b := B_n_ini.
  Notation g := (i_g enums ss o ds L X).
  Let R := o_reader o.
  Let W := o_writer o.
  Let P := prog b enums ss o.
  Variables (wf : nat) (t : string) (sr : struct_S).
  Hypothesis TOP : In sr (tops ss).
  Hypothesis SN : s_name sr = t.

  Lemma ini_tops_nodup : NoDup (map s_name (tops ss)).
  Proof.
    pose proof (lk_struct_names _ _ _ (g_lk _ _ _ _ _ _ g)) as N. unfold tops. clear -N. induction ss as [|a l IH]; [constructor|].
    cbn [map] in N. apply NoDup_cons_iff in N as [N1 N]. cbn [filter]. destruct (Nat.eqb (s_incoming a) 0); [|auto]. cbn [map]. constructor; [|auto].
    intros I. apply N1. apply in_map_iff in I as (x & E & I). apply filter_In in I as [I _]. rewrite <- E. now apply in_map.
  Qed.
  Lemma ini_find_rff p : p (ini_rff R t) = true -> (forall u, p (ini_rff R u) = true -> u = t) -> p (x_ctor R) = false ->
    filter (fun d => (names_eqb (fd_name d) [R; "read_from_file"] && p d)%bool) P = [ini_rff R t].
  Proof.
    intros P1 P2 P3. unfold P. rewrite (find_reader b enums ss o i_bi (i_cr enums ss o ds L X) (i_rw enums ss o ds L X)).
    fold R. unfold reader_funs. cbn [filter]. rewrite P3, andb_false_r, filter_app.
    rewrite (filter_none _ (flat_map _ ss)).
    2:{ intros d H. apply in_flat_map in H as (s & _ & J). rewrite rd_fun_one in J by (exact i_bi). destruct J as [<-|[]].
        rewrite one_rd_name, names_eqb2, (String.eqb_sym (rd_name b _)), rd_name_file, andb_false_r; [reflexivity|exact i_bi]. }
    rewrite app_nil_r, filter_map. rewrite (filter_one s_name _ (tops ss) sr ini_tops_nodup TOP).
    - cbn [map]. now rewrite SN.
    - cbn [rff_fun]. rewrite SN, P1. cbn [ini_rff fd_name]. now rewrite names_eqb_refl.
    - intros x I H. cbn [rff_fun] in H. apply andb_prop in H as [_ H]. apply P2 in H. congruence.
  Qed.
  Lemma ini_not_reserved x : In x reserved -> ~ In x (map def_name ds).
  Proof.
    intros I J. apply in_map_iff in J as (d & <- & J). pose proof (tf_reserved _ _ _ (g_fine b enums ss o ds L g d J) _ I) as E.
    rewrite String.eqb_refl in E. discriminate.
  Qed.
  Lemma ini_reader_type x : x = "size_t" \/ x = "read_item_S" -> is_method P R x = false.
  Proof.
    intros C. apply not_true_iff_false. intros H. apply (method_reader b enums ss o i_bi (i_cr enums ss o ds L X) (i_rw enums ss o ds L X)) in H.
    destruct (i_class _ _ _ _ _ X) as [C1 C2]. destruct H as [E|[E|(s & _ & E)]].
    - destruct C as [->| ->]; rewrite E, String.eqb_refl in *; discriminate.
    - destruct C as [->| ->]; discriminate.
    - destruct C as [->| ->]; discriminate.
  Qed.
  Lemma this_of_ok rest k key v : rest_of rest -> this_ok (a_type ds) k (this_of rest k key v).
  Proof.
    intros RO. split; [reflexivity|]. intros u I. unfold a_type in I.
    assert (E : forall x, In x reserved -> String.eqb u x = false) by (intros x J; apply eqb_neq; intros ->; now apply (ini_not_reserved x J)).
    unfold this_of. cbn [assoc]. rewrite !E by (apply mem_in; reflexivity).
    destruct RO as [->|(dl & m & ->)]; [reflexivity|]. cbn [assoc]. rewrite !E by (apply mem_in; reflexivity). reflexivity.
  Qed.

  Theorem ini_read_file f a n l fs rest k key v s : rest_of rest -> name_arg a n s -> lv_this l = false -> get_lv l s = Some (VStruct t fs) ->
    s_this s = this_of rest k key v -> fits L (VStruct t fs) (TStruct t) = true ->
    (forall d, assoc (cut n) (w_files (s_world s)) <> Some (CDoc d)) ->
    (forall y, assoc (cut n) (w_files (s_world s)) = Some (CText y) -> String.length y < wf) -> vheight (VStruct t fs) < f ->
    call_fun L P wf (S f) [R; "read_from_file"] [a; (Some l, VStruct t fs)] s = ini_read_result L rest t k key v l fs n s.
  Proof.
    intros RO [FA FL] LL GL TH FI ND LT HV. cbn [call_fun].
    rewrite (ini_find_rff (fun d => params_fit (fd_params d) [a; (Some l, VStruct t fs)] s)).
    2:{ cbn [ini_rff fd_params params_fit p_file_name param_fits ct_ref ct_name fst snd ty_of]. rewrite String.eqb_refl.
        destruct FA as [(_ & [E|E])|(la & -> & _)]; try (rewrite E); reflexivity. }
    2:{ intros u H. cbn [ini_rff fd_params params_fit p_file_name param_fits ct_ref ct_name fst snd ty_of] in H. rewrite andb_true_r in H. apply andb_prop in H as [_ H]. now apply String.eqb_eq. }
    2:{ reflexivity. }
    destruct (fits_struct L t fs FI) as (ms & FS & FF).
    assert (DN : In t (map def_name ds)).
    { destruct (ini_struct_of enums ss o ds L X t) as (sr' & ms' & _ & _ & S3 & _); [congruence|]. apply (in_map def_name) in S3. exact S3. }
    unfold enter. cbn [ini_rff fd_name fd_params]. rewrite (file_undef t "struct_to_fill" a n l fs s FA).
    destruct (bind_name t "struct_to_fill" a n l fs s (conj FA FL) GL) as (bk & -> & CB). cbn [b_vars b_el b_back map fst].
    change (distinct ["filename"; "struct_to_fill"]) with true. cbn [andb forallb].
    assert (NS : String.eqb R "stfx" = false) by (apply class_not_stfx; exact (i_cr enums ss o ds L X)).
    unfold seen_this. rewrite NS. unfold param_visible, p_file_name. cbn [fst ct_name set_this s_this].
    unfold P at 1, R at 1. rewrite (ini_type_method enums ss o ds L X t DN (o_reader o) (or_introl eq_refl)).
    pose proof (this_of_ok rest k key v RO) as TO. rewrite TH, (proj2 TO t DN). cbn [negb andb].
    assert (M : is_method P R (pre_rd t) = true) by (apply (ini_rd_methods enums ss o ds L X); congruence).
    assert (RS : assoc "size_t" rest = None) by (destruct RO as [->|(dl & m & ->)]; reflexivity).
    assert (RR : assoc "read_item_S" rest = None) by (destruct RO as [->|(dl & m & ->)]; reflexivity).
    unfold ini_read_result. specialize (ND). destruct (assoc (cut n) (w_files (s_world s))) as [[d|y]|] eqn:AF; [now elim (ND d)| |].
    - specialize (LT y eq_refl).
      destruct (rff_text L (call_fun L P wf f) R (is_method P R) wf rest (ini_reader_type "size_t" (or_introl eq_refl)) (ini_reader_type "read_item_S" (or_intror eq_refl)) RS RR t fs M n (s_world s)
        (Scan k None key v) (Text "") y AF LT Logic.I eq_refl) as (buf & B). cbv zeta in B. cbn [x_look x_key x_val] in B.
      set (x' := scan_text y (Scan k None key v)) in *.
      assert (G1 : get_lv (LV false "struct_to_fill" []) (outer rest (vbool false) (VStr n) (VStruct t fs) (Text "") buf x' (World (w_files (s_world s)) None None)) = Some (VStruct t fs)) by reflexivity.
      pose proof (ini_rd_call enums ss o ds L X wf (x_look x') f (VStruct t fs) HV t fs "" (VCStr (Some "")) None (LV false "struct_to_fill" []) 
         (outer rest (vbool false) (VStr n) (VStruct t fs) (Text "") buf x' (World (w_files (s_world s)) None None)) eq_refl (this_of_ok rest _ _ _ RO) (or_intror eq_refl) G1 FI) as RC.
      fold R P in RC. destruct (read_obj L (x_look x') (VStruct t fs) "") as [[rv v']|].
      + destruct (put_lv _ v' (outer _ _ _ _ _ _ _ _)) as [s2|] eqn:PL; [|discriminate PL]. rewrite RC in B. specialize (B rv v' eq_refl PL).
        unfold rvs in B. use_exec B. unfold return_to. cbn [b_el b_back set_this s_this s_world s_scopes outer].
        rewrite (CB _ _ _ v'); [|reflexivity|reflexivity]. cbn [s_scopes]. destruct (put_lv l v' _); reflexivity.
      + rewrite RC in B. unfold rvs in B. use_exec B. reflexivity.
    - pose proof (rff_missing L (call_fun L P wf f) R (is_method P R) wf rest t fs n (s_world s) (Scan k None key v) (Text "") AF) as B.
      cbn [x_look x_key x_val] in B. unfold rvs in B. use_exec B. unfold return_to. cbn [b_el b_back set_this s_this s_world s_scopes].
      rewrite (CB _ _ _ (VStruct t fs)); [|reflexivity|reflexivity]. destruct s as [sc tr th w]. cbn [s_scopes s_tree s_this s_world] in *. subst th. rewrite put_lv_same by exact GL. reflexivity.
  Qed.
End Entry.
