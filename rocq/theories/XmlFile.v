(** The generated entry points: read_from_file and write_to_file of the xml back ends. *)
From Coq Require Import String Ascii ZArith NArith Arith List Bool Lia.
From Verif Require Import Base Map Items Grammar Fmt Decimal Templates Emit Cpp Xml Val CppSem SymLex Ast StoreDefs ResolveProps Prog Header Link EnumSem DecText EnumCall EnumRound XmlSpec XmlRdSimple XmlRead XmlReader XmlCall XmlWrite XmlWriter.
Import ListNotations.
Local Open Scope string_scope.
Local Open Scope list_scope.

(** What LoadFile makes of a file: the nodes of the document, or an error. *)
Definition load (L : lang) (w : world) (n : string) : option (list node) :=
  match assoc n (w_files w) with
  | Some (CDoc d) => Some (kids_of (reload (Elem "" [] d)))
  | Some (CText t) => l_parse L t
  | None => None
  end.
(** The root is the first element. *)
Definition root (ks : list node) : option node := find is_elem ks.

Lemma root_at ks : forall i, match root ks with
  | Some x => exists j, child_elems i ks = (i + j)%nat :: child_elems (S (i + j)) (skipn (S j) ks) /\ nth_error ks j = Some x
  | None => child_elems i ks = []
  end.
Proof.
  unfold root. induction ks as [|k ks IH]; intros i; [reflexivity|]. destruct k as [n a kk|s]; cbn [find is_elem child_elems].
  - exists 0. rewrite Nat.add_0_r. split; reflexivity.
  - specialize (IH (S i)). destruct (find is_elem ks) as [x|]; [|exact IH]. destruct IH as (j & A & B). exists (S j).
    replace (i + S j)%nat with (S i + j)%nat by lia. split; assumption.
Qed.
Lemma root_elem_at ks : match root ks with Some x => exists j, root_elem ks = Some j /\ nth_error ks j = Some x | None => root_elem ks = None end.
Proof.
  pose proof (root_at ks 0) as H. unfold root_elem. destruct (root ks) as [x|]; [|now rewrite H]. destruct H as (j & -> & A). exists j. auto.
Qed.

(** An argument for the file name. *)
Definition file_arg (a : arg) (n : string) (s : st) : Prop :=
  (fst a = None /\ (snd a = VStr n \/ snd a = VCStr (Some n))) \/ exists l, a = (Some l, VStr n) /\ get_lv l s = Some (VStr n).

(** What SaveFile does: result and files. *)
Definition save (L : lang) (w : world) (n : string) (d : list node) : bool * world :=
  if l_writable L n then (true, World (set_assoc n (CDoc d) (w_files w)) (w_in w) (w_out w)) else (false, w).

(** *** The bodies *)
Lemma load_call L lv n s : doc_method L "LoadFile" [(lv, VCStr (Some n))] s =
  match load L (s_world s) n with Some d => Ok (VErr true) (set_tree s (Elem "" [] d)) | None => Ok (VErr false) s end.
Proof. unfold doc_method, load. cbn [String.eqb Ascii.eqb Bool.eqb]. destruct (assoc n (w_files (s_world s))) as [[d|t]|]; [reflexivity| |reflexivity]. destruct (l_parse L t); reflexivity. Qed.
Lemma root_call L s : doc_method L "RootElement" [] s = Ok (VEl (option_map (fun i => [i]) (root_elem (kids_of (s_tree s))))) s.
Proof. reflexivity. Qed.
Section Body.
  Variables (L : lang) (call : list string -> list arg -> st -> res val) (cls : string) (mf : string -> bool) (wf : nat) (fm : form).
  Notation ex := (run_list (exec L call cls mf wf)).
  Hypothesis EN : enumerator L "tinyxml2" "XML_SUCCESS" = None.
  Variable t : string.

  Definition rfr (n : string) (fs : list (string * val)) : scope := [("filename", VStr n); ("struct_to_fill", VStruct t fs)].
  Definition wfr (n : string) (fs : list (string * val)) : scope := [("filename", VStr n); ("struct_to_read", VStruct t fs)].
  Ltac fsem := cbn [exec ev run_list run_args exec_list scoped leave length Nat.sub skipn
  e_meth e_data e_id s_set e_cstr e_dot e_ok s_rv0 s_ret t_bool t_err t_doc t_el rfr wfr this_of
  lvalue is_local is_member get_lv get_root put_lv get_path put_path get_acc put_acc lv_this lv_root lv_path app
  lookup update assoc set_assoc String.eqb Ascii.eqb Bool.eqb eqb andb orb negb
  s_scopes s_tree s_this s_world set_scopes set_tree set_this set_world declare declare_as store
  method str_method at_path fst snd ty_of kids_of w_files w_in w_out
  named_type exec_decl ct_args ct_ref ct_name names_eqb pointer_type option_map
  lift conv binary veq nkind_eqb vbool].
  Ltac fwalk := repeat (first [progress fsem | rewrite EN | rewrite load_call | rewrite root_call | progress change (init L (init_fuel L) true (TNum KBool)) with (Some (vbool false))
    | progress change (truth (vbool true)) with (@Yes bool true) | progress change (truth (vbool false)) with (@Yes bool false)
    | match goal with H : cut ?n = ?n |- context [cut ?n] => rewrite H
      | H : load L ?w ?n = _ |- context [load L ?w ?n] => rewrite H
      | H : mf ?n = _ |- context [mf ?n] => rewrite H end
    | progress unfold fun_call, scoped, declare_as, assign, store, pre_do, pre_wr, String.append, leave]).

  (** The call of the reader function in read_from_file *)
  Definition rff_st (q : option val) (n : string) (fs : list (string * val)) (d : list node) (w : world) : st :=
    St [[("el", VEl (option_map (fun i => [i]) (root_elem d)))]; [("doc", VDoc); ("er", VErr true); ("rv", vbool false)] ++ rfr n fs] (Elem "" [] d) (this_of q) w.
  Definition rff_call (q : option val) (n : string) (fs : list (string * val)) (d : list node) (w : world) : res val :=
    call [cls; pre_do t] [(Some (LV false "el" []), VEl (option_map (fun i => [i]) (root_elem d))); (None, VPtr (Some (LV false "struct_to_fill" [])))] (rff_st q n fs d w).
  Lemma rff_body q n fs w : mf (pre_do t) = true ->
    match load L w (cut n) with
    | None => ex (fd_body (x_rff cls t)) (St [rfr n fs] (Text "") (this_of q) w) = 
        Ok (CRet (vbool false)) (St [[("doc", VDoc); ("er", VErr false); ("rv", vbool false)] ++ rfr n fs] (Elem "" [] []) (this_of q) w)
    | Some d =>
        (forall fs', rff_call q n fs d w = Ok (vbool true) (rff_st q n fs' d w) -> ex (fd_body (x_rff cls t)) (St [rfr n fs] (Text "") (this_of q) w) =
            Ok (CRet (vbool true)) (St [[("doc", VDoc); ("er", VErr true); ("rv", vbool true)] ++ rfr n fs'] (Elem "" [] d) (this_of q) w)) /\
        (rff_call q n fs d w = UB -> ex (fd_body (x_rff cls t)) (St [rfr n fs] (Text "") (this_of q) w) = UB)
    end.
  Proof.
    intros M. unfold x_rff, rff_call, rff_st. cbn [pre_do String.append] in M |- *. cbn [fd_body].
    destruct (load L w (cut n)) as [d|] eqn:LD.
    - destruct q as [dv|]; (split; [intros fs'|]); intros RC; fwalk;
      match goal with |- context [call ?q ?a ?s] => match type of RC with ?l = _ => change (call q a s) with l end end; rewrite RC; fwalk; reflexivity.
    - destruct q as [dv|]; fwalk; reflexivity.
  Qed.
  (** The call of the writer function in write_to_file *)
  Definition wtf_st (n : string) (fs : list (string * val)) (d : list node) (dl : bool) (w : world) : st :=
    St [[("el", VEl (Some [0])); ("ch", VNewEl t); ("doc_w", VDoc); ("er", VUndef (TOther "err")); ("rv", vbool false)] ++ wfr n fs] (Elem "" [] d) [("m_delta_only", vbool dl)] w.
  Definition wtf_call (n : string) (fs : list (string * val)) (dl : bool) (w : world) : res val :=
    call [cls; pre_wr t] [(Some (LV false "el" []), VEl (Some [0])); (None, VPtr (Some (LV false "struct_to_read" [])))] (wtf_st n fs [Elem t [] []] dl w).
  Lemma save_call lv n s : doc_method L "SaveFile" [(lv, VCStr (Some n))] s =
    let (r, w) := save L (s_world s) n (kids_of (s_tree s)) in Ok (VErr r) (set_world s w).
  Proof. unfold doc_method, save. cbn [String.eqb Ascii.eqb Bool.eqb]. destruct (l_writable L n), s; reflexivity. Qed.
  Lemma new_call lv n s : doc_method L "NewElement" [(lv, VCStr (Some n))] s = Ok (VNewEl n) s.
  Proof. reflexivity. Qed.
  Lemma insert_call lv n s : doc_method L "InsertFirstChild" [(lv, VNewEl n)] s = Ok (VEl (Some [0])) (set_tree s (Elem "" [] (Elem n [] [] :: kids_of (s_tree s)))).
  Proof. reflexivity. Qed.
  Ltac wfwalk := repeat (first [progress fsem | rewrite EN | rewrite save_call | rewrite new_call | rewrite insert_call | rewrite root_call
    | progress change (init L (init_fuel L) true (TNum KBool)) with (Some (vbool false))
    | match goal with H : cut ?n = ?n |- context [cut ?n] => rewrite H
      | H : save ?L ?w ?n ?d = _ |- context [save ?L ?w ?n ?d] => rewrite H
      | H : mf ?n = _ |- context [mf ?n] => rewrite H end
    | progress unfold fun_call, scoped, declare_as, assign, store, pre_do, pre_wr, String.append, leave]).
  Lemma wtf_body n fs dl w : mf (pre_wr t) = true -> cut t = t ->
    (forall d, wtf_call n fs dl w = Ok (vbool true) (wtf_st n fs d dl w) -> exists sc tr, lookup "filename" sc = Some (VStr n) /\ lookup "struct_to_read" sc = Some (VStruct t fs) /\
       ex (fd_body (x_wtf cls t)) (St [wfr n fs] (Text "") [("m_delta_only", vbool dl)] w) =
       Ok (CRet (vbool (fst (save L w (cut n) d)))) (St sc tr [("m_delta_only", vbool dl)] (snd (save L w (cut n) d)))) /\
    (wtf_call n fs dl w = UB -> ex (fd_body (x_wtf cls t)) (St [wfr n fs] (Text "") [("m_delta_only", vbool dl)] w) = UB).
  Proof.
    intros M CT. unfold x_wtf, wtf_call, wtf_st. cbn [pre_wr String.append] in M |- *. cbn [fd_body].
    split; [intros d|]; intros RC.
    - destruct (save L w (cut n) d) as [r w'] eqn:SV. wfwalk.
      match goal with |- context [call ?q ?a ?s] => match type of RC with ?l = _ => change (call q a s) with l end end; rewrite RC; wfwalk. 
      exists [[("el", VEl (Some [0])); ("ch", VNewEl t); ("doc_w", VDoc); ("er", VErr r); ("rv", vbool r)] ++ wfr n fs], (Elem "" [] d). destruct r; repeat split; reflexivity.
    - wfwalk. match goal with |- context [call ?q ?a ?s] => match type of RC with ?l = _ => change (call q a s) with l end end; rewrite RC; reflexivity.
  Qed.
End Body.

(** *** A document without root element: the reader functions get a null pointer *)
Section Null.
  Variables (L : lang) (call : list string -> list arg -> st -> res val) (cls : string) (mf : string -> bool) (wf : nat) (b : form).
  Notation ex := (run_list (exec L call cls mf wf)).
  Hypothesis EN : enumerator L "tinyxml2" "XML_SUCCESS" = None.
  Hypothesis UF : user_type L "find_element" = None.
  Hypothesis NF : mf "find_element" = false.
  Variables (t : string) (fs : list (string * val)) (w : world).
  Definition nbase : scope := [("el", VEl None); ("data", VPtr (Some (LV false "*data" []))); ("*data", VStruct t fs)].
  Definition nframe (k : fkd) : scope :=
    match k with
    | F0 => ("rv", vbool true) :: nbase
    | FA => ("ch_el", VUndef TEl) :: ("rv", vbool true) :: nbase
    | FM => ("rv", vbool true) :: ("ch_el", VUndef TEl) :: nbase
    end.
  Definition nst (q : option val) (k : fkd) : st := St [nframe k] (Text "") (this_of q) w.
  Ltac nsem := cbn [exec ev run_list run_args exec_list scoped leave length Nat.sub skipn
  e_meth e_data e_id s_set e_cstr e_dot
  lvalue is_local is_member get_lv get_root put_lv get_path put_path get_acc put_acc lv_this lv_root lv_path app
  lookup update assoc set_assoc String.eqb Ascii.eqb Bool.eqb eqb andb orb negb nframe nbase nst this_of
  s_scopes s_tree s_this s_world set_scopes set_tree set_this set_world declare declare_as store
  method fst snd ty_of
  named_type init init_fuel exec_decl ct_args ct_ref ct_name names_eqb pointer_type option_map
  lift conv binary].
  Ltac nwalk := repeat (first [progress nsem | rewrite EN | rewrite UF | rewrite NF
    | match goal with H : assoc ?n ?fs = _ |- context [assoc ?n ?fs] => rewrite H end
    | progress unfold fun_call, scoped, declare_as, assign]).
  Lemma null_member q k m : member_good L mf m -> k_ok L b k m -> member_fits L fs m -> ex (rd_stmts L b m) (nst q k) = UB.
  Proof.
    intros MG KO (v & ty & AS & MT & FI). unfold k_ok in KO.
    destruct m as [st n df|u n df|u n]; cbn [rd_stmts member_name] in *.
    - unfold rd_simple. destruct b.
      + assert (k = F0) as -> by (destruct k; [reflexivity|discriminate KO|contradiction]).
        unfold xa_rd_simple. cbn [ss_type ss_name]. destruct st; unfold xa_conv, xa_query; destruct q as [dv|]; nwalk; reflexivity.
      + destruct k; try contradiction. unfold xm_rd_simple, s_find. cbn [ss_name]. destruct q as [dv|]; nwalk; reflexivity.
    - unfold rd_complex. destruct MG as (CU & [(c & es & UT & FE & K)|(UT & K)]); rewrite K.
      + destruct b.
        * unfold xa_rd_complex, xa_query. cbn [sc_type sc_name]. destruct k; try contradiction; destruct q as [dv|]; nwalk; reflexivity.
        * destruct k; try contradiction. unfold xm_rd_complex, s_find. cbn [sc_type sc_name]. destruct q as [dv|]; nwalk; reflexivity.
      + unfold is_scalar in KO. rewrite UT in KO. destruct b, k; try contradiction; try discriminate; unfold xa_rd_complex, xm_rd_complex, s_child; cbn [sc_type sc_name]; destruct q as [dv|]; nwalk; reflexivity.
    - unfold rd_complex. destruct b, k; try contradiction; try discriminate; unfold xa_rd_complex, xm_rd_complex, s_child; cbn [sc_type sc_name]; destruct q as [dv|]; nwalk; reflexivity.
  Qed.
  Variables (ms : list member) (s : struct_S).
  Hypothesis SS : s_simple s = simples ms.
  Hypothesis SC : s_complex s = resolved_members (l_defs L) ms.
  Hypothesis MG : forall m, In m ms -> member_good L mf m.
  Hypothesis MI : forall m, In m ms -> member_fits L fs m.
  Lemma null_body q : ms <> [] -> ex (rd_body b s) (St [nbase] (Text "") (this_of q) w) = UB.
  Proof.
    intros NE. assert (B : b = Attributes \/ b = Elements) by (destruct b; auto).
    assert (ST : forall k m l, In m ms -> k_ok L b k m -> ex (flat_map (rd_stmts L b) (m :: l)) (nst q k) = UB).
    { intros k m l I K. cbn [flat_map]. rewrite run_list_app, null_member; auto. }
    assert (IS : forall m, In m (filter is_simple ms) -> In m ms /\ is_simple m = true) by (intros m I; now apply filter_In in I).
    assert (IC : forall m, In m (filter (fun m => negb (is_simple m)) ms) -> In m ms /\ is_simple m = false) by (intros m I; apply filter_In in I as [I J]; now apply negb_true_iff in J).
    assert (OR : filter is_simple ms <> [] \/ filter (fun m => negb (is_simple m)) ms <> []).
    { destruct ms as [|m l]; [congruence|]. cbn [filter]. destruct (is_simple m); [left|right]; discriminate. }
    destruct B as [B|B].
    - replace (rd_body b s) with (xa_rd_body s) by (unfold rd_body; now rewrite B). unfold xa_rd_body. rewrite SS, SC.
      replace (flat_map xa_rd_simple (simples ms)) with (flat_map (rd_stmts L b) (filter is_simple ms)) by (rewrite <- simple_stmts; unfold rd_simple; now rewrite B).
      replace (flat_map xa_rd_complex (resolved_members (l_defs L) ms)) with (flat_map (rd_stmts L b) (filter (fun m => negb (is_simple m)) ms)) by (rewrite <- complex_stmts; unfold rd_complex; now rewrite B).
      rewrite run_list_app. assert (ex [s_rv] (St [nbase] (Text "") (this_of q) w) = Ok CNext (nst q F0)) as -> by (destruct q; reflexivity). cbn iota. rewrite run_list_app.
      destruct (filter is_simple ms) as [|m l].
      + destruct OR as [OR|OR]; [congruence|]. change (ex (flat_map (rd_stmts L b) []) (nst q F0)) with (Ok CNext (nst q F0)). cbn iota. rewrite run_list_app.
        assert (exists k, ex (ch_el_decl (resolved_members (l_defs L) ms)) (nst q F0) = Ok CNext (nst q k) /\
                (forall m, In m (filter (fun m => negb (is_simple m)) ms) -> k_ok L b k m)) as (k & -> & KO).
        { unfold ch_el_decl. rewrite <- SC. destruct (has_children (s_complex s)) eqn:HC.
          - exists FA. split; [destruct q; reflexivity|]. intros m I. apply IC in I as [I J]. unfold k_ok. now rewrite B.
          - exists F0. split; [destruct q; reflexivity|]. intros m I. apply IC in I as [I J]. unfold k_ok. rewrite B. eapply no_children; eauto. }
        rewrite run_list_app. destruct (filter (fun m => negb (is_simple m)) ms) as [|m l]; [congruence|]. rewrite ST; [reflexivity| |].
        * destruct (IC m (or_introl eq_refl)); auto.
        * apply KO. now left.
      + rewrite ST; [reflexivity| |].
        * destruct (IS m (or_introl eq_refl)); auto.
        * destruct (IS m (or_introl eq_refl)) as [_ J]. unfold k_ok. rewrite B. destruct m; try discriminate. reflexivity.
    - replace (rd_body b s) with (xm_rd_body s) by (unfold rd_body; now rewrite B). unfold xm_rd_body. rewrite SS, SC.
      replace (flat_map xm_rd_simple (simples ms)) with (flat_map (rd_stmts L b) (filter is_simple ms)) by (rewrite <- simple_stmts; unfold rd_simple; now rewrite B).
      replace (flat_map xm_rd_complex (resolved_members (l_defs L) ms)) with (flat_map (rd_stmts L b) (filter (fun m => negb (is_simple m)) ms)) by (rewrite <- complex_stmts; unfold rd_complex; now rewrite B).
      rewrite run_list_app. assert (ex [s_ch_el; s_rv] (St [nbase] (Text "") (this_of q) w) = Ok CNext (nst q FM)) as -> by (destruct q; reflexivity). cbn iota. rewrite run_list_app.
      assert (KO : forall m, k_ok L b FM m) by (intros m; unfold k_ok; now rewrite B).
      destruct (filter is_simple ms) as [|m l].
      + destruct OR as [OR|OR]; [congruence|]. change (ex (flat_map (rd_stmts L b) []) (nst q FM)) with (Ok CNext (nst q FM)). cbn iota. rewrite run_list_app.
        destruct (filter (fun m => negb (is_simple m)) ms) as [|m l]; [congruence|]. rewrite ST; [reflexivity| |apply KO].
        destruct (IC m (or_introl eq_refl)); auto.
      + rewrite ST; [reflexivity| |apply KO]. destruct (IS m (or_introl eq_refl)); auto.
  Qed.
  Lemma null_empty q : ms = [] -> exists k, ex (rd_body b s) (St [nbase] (Text "") (this_of q) w) = Ok (CRet (vbool true)) (nst q k).
  Proof.
    clear MG MI. intros ->. cbn in SS, SC. unfold rd_body. destruct b; [exists F0; unfold xa_rd_body|exists FM; unfold xm_rd_body]; rewrite SS, SC; destruct q; reflexivity.
  Qed.
End Null.

Section File.
  Variables (b : backend) (fm : form) (enums : list enum_S) (ss : list struct_S) (o : output_spec) (ds : list def) (L : lang).
  Hypothesis X : xml_setting b fm enums ss o ds L.
  Let R := o_reader o.
  Let W := o_writer o.
  Let P := prog b enums ss o.
  Notation g := (x_g b fm enums ss o ds L X).
  Notation ok := (x_ok b fm enums ss o ds L X).
  Notation defs := (x_defs b fm enums ss o ds L X).
  Variable wf : nat.
  Variables (t : string) (sr : struct_S).
  Hypothesis TOP : In sr (tops ss).
  Hypothesis SN : s_name sr = t.

  Lemma x_rff_fun u : rff_fun b R u = x_rff R u.
  Proof. destruct (x_form _ _ _ _ _ _ _ X) as [[-> _]|[-> _]]; reflexivity. Qed.
  Lemma x_wtf_fun u : wtf_fun b W u = x_wtf W u.
  Proof. destruct (x_form _ _ _ _ _ _ _ X) as [[-> _]|[-> _]]; reflexivity. Qed.
  Lemma tops_nodup : NoDup (map s_name (tops ss)).
  Proof.
    pose proof (lk_struct_names _ _ _ (g_lk _ _ _ _ _ _ g)) as N. unfold tops. clear -N. induction ss as [|a l IH]; [constructor|].
    cbn [map] in N. apply NoDup_cons_iff in N as [N1 N]. cbn [filter]. destruct (Nat.eqb (s_incoming a) 0); [|auto]. cbn [map]. constructor; [|auto].
    intros I. apply N1. apply in_map_iff in I as (x & E & I). apply filter_In in I as [I _]. rewrite <- E. now apply in_map.
  Qed.
  Lemma find_rff p : p (x_rff R t) = true -> (forall u, p (x_rff R u) = true -> u = t) -> p (x_ctor R) = false ->
    filter (fun d => (names_eqb (fd_name d) [R; "read_from_file"] && p d)%bool) P = [x_rff R t].
  Proof.
    intros P1 P2 P3. unfold P. rewrite (find_reader b enums ss o (x_bi b fm enums ss o ds L X) (x_cr b fm enums ss o ds L X) (x_rw b fm enums ss o ds L X)).
    fold R. unfold reader_funs. cbn [filter]. rewrite P3, andb_false_r, filter_app.
    rewrite (filter_none _ (flat_map _ ss)).
    2:{ intros d H. apply in_flat_map in H as (s & _ & J). rewrite rd_fun_one in J by (exact (x_bi b fm enums ss o ds L X)). destruct J as [<-|[]].
        rewrite one_rd_name, names_eqb2, (String.eqb_sym (rd_name b _)), rd_name_file, andb_false_r; [reflexivity|exact (x_bi b fm enums ss o ds L X)]. }
    rewrite app_nil_r, filter_map. rewrite (filter_one s_name _ (tops ss) sr tops_nodup TOP).
    - cbn [map]. now rewrite x_rff_fun, SN.
    - rewrite x_rff_fun, SN, P1. cbn [x_rff fd_name]. now rewrite names_eqb_refl.
    - intros x I H. rewrite x_rff_fun in H. apply andb_prop in H as [_ H]. apply P2 in H. congruence.
  Qed.

  Variables (ms : list member).
  Hypothesis MS : find_struct (l_defs L) t = Some ms.

  Lemma t_defined : In t (map def_name ds).
  Proof. pose proof MS as H. rewrite defs in H. apply find_struct_in in H. apply (in_map def_name) in H. exact H. Qed.
  Lemma t_other x : In x reserved -> String.eqb t x = false.
  Proof. intros I. apply eqb_neq. intros E. apply (defined_not_reserved b fm enums ss o ds L X x I). rewrite <- E. exact t_defined. Qed.


  (** Binding of the arguments of the two entry points *)
  Lemma bind_file x a n l fs s : file_arg a n s -> get_lv l s = Some (VStruct t fs) -> exists bk,
    bind_params [p_file_name; (CT [t] [] RRef, x)] [a; (Some l, VStruct t fs)] s = Some (Bound [("filename", VStr n); (x, VStruct t fs)] None bk) /\
    forall s1 s' v, (forall l, get_lv l s' = get_lv l s) -> lookup "filename" (s_scopes s1) = Some (VStr n) -> lookup x (s_scopes s1) = Some v ->
      copy_back bk s1 s' = put_lv l v s'.
  Proof.
    intros FA GL. destruct FA as [(A1 & A2)|(la & -> & G)].
    - exists [(l, x)]. split.
      + destruct a as [la va]. cbn [fst snd] in A1, A2. rewrite A1. destruct A2 as [-> | ->]; reflexivity.
      + intros s1 s' v _ _ LX. cbn [copy_back]. rewrite LX. now destruct (put_lv l v s').
    - exists [(la, "filename"); (l, x)]. split; [reflexivity|]. intros s1 s' v E LF LX. cbn [copy_back]. rewrite LF.
      rewrite put_lv_same by (rewrite E; exact G). rewrite LX. now destruct (put_lv l v s').
  Qed.
  Lemma file_undef x a n l fs s : file_arg a n s -> undef_arg [p_file_name; (CT [t] [] RRef, x)] [a; (Some l, VStruct t fs)] = false.
  Proof. reflexivity. Qed.

  (** A call of the reader function for no element at all *)
  Lemma null_call f lv lv' l fs s : reader_or_writer (s_this s) -> get_lv l s = Some (VStruct t fs) -> fits L (VStruct t fs) (TStruct t) = true ->
    call_fun L P wf (S f) [R; pre_do t] [(lv, VEl None); (lv', VPtr (Some l))] s = match ms with [] => Ok (vbool true) s | _ => UB end.
  Proof.
    intros TH GL FI. destruct (fits_struct L t fs FI) as (ms0 & FS & FF). assert (ms0 = ms) by congruence. subst ms0.
    destruct (struct_of b fm enums ss o ds L X t) as (sr' & ms' & S1 & S2 & S3 & S4 & S5 & S6); [congruence|]. assert (ms' = ms) by congruence. subst ms'.
    destruct (struct_parts _ _ ds ok t ms S3) as (ND & _). cbn [call_fun].
    replace (pre_do t) with (rd_name b (s_name sr')) by (rewrite (xrd_name b fm enums ss o ds L X); congruence).
    pose proof (find_rd b enums ss o (x_bi b fm enums ss o ds L X) (x_cr b fm enums ss o ds L X) (x_rw b fm enums ss o ds L X) (lk_struct_names _ _ _ (g_lk _ _ _ _ _ _ g)) sr'
       (fun d => params_fit (fd_params d) [(lv, VEl None); (lv', VPtr (Some l))] s) S1) as FR.
    cbv beta in FR.
    match type of FR with ?A -> ?B -> ?l = ?r => assert (FA : A); [|assert (FB : B); [|specialize (FR FA FB); match goal with |- context [filter ?q P] => change (filter q P) with l end; rewrite FR]] end.
    { fold R. unfold R. rewrite (one_rd_fun b fm enums ss o ds L X). cbn [fd_params params_fit p_el t_el p_data param_fits fst snd ct_ref ct_name]. rewrite GL. cbn [ty_of]. rewrite S2, String.eqb_refl. reflexivity. }
    { intros d ->. reflexivity. }
    clear FR FA FB. fold R. unfold R. rewrite (one_rd_fun b fm enums ss o ds L X). fold R. unfold enter.
    cbn [fd_name fd_params undef_arg p_el t_el p_data ct_ref fst snd orb bind_params bind_param]. rewrite GL. cbn [b_vars b_el b_back app map fst].
    change (distinct ["el"; "data"; "*data"]) with true. cbn [andb forallb param_visible ct_name fst].
    assert (ST : String.eqb R "stfx" = false) by exact (reader_not_stfx b fm enums ss o ds L X).
    destruct TH as (q & TH). assert (seen_this R s = this_of q) as -> by (unfold seen_this; rewrite ST; exact TH).
    unfold param_visible, p_el, p_data. cbn [fst t_el ct_name set_this s_this]. rewrite S2. unfold R at 1. rewrite (type_method b fm enums ss o ds L X t t_defined) by tauto. rewrite (this_other b fm enums ss o ds L X t q t_defined). cbn [negb andb].
    cbn [fd_body]. destruct ms as [|m0 ms0] eqn:EM.
    - destruct (null_empty L (call_fun L P wf f) R (is_method P R) wf fm t fs (s_world s) [] sr' S5 S6 q eq_refl) as (k & B).
      unfold nbase in B. use_exec B. unfold return_to. cbn [b_el b_back].
      assert (LK : lookup "*data" [nframe t fs k] = Some (VStruct t fs)) by (destruct k; reflexivity).
      cbn [copy_back]. change (s_scopes (set_this (nst t fs (s_world s) q k) ?z)) with [nframe t fs k]. rewrite LK.
      cbn [set_this s_tree s_this s_world s_scopes nst]. 
      rewrite ST, <- TH.
      destruct s as [sc tr th wo]. cbn [s_scopes s_tree s_this s_world]. rewrite put_lv_same by exact GL. reflexivity.
    - pose proof (null_body L (call_fun L P wf f) R (is_method P R) wf fm (no_success b fm enums ss o ds L X) (no_find_type b fm enums ss o ds L X) (no_find_method b fm enums ss o ds L X)
         t fs (s_world s) (m0 :: ms0) sr' S5 S6 (fun m J => members_good b fm enums ss o ds L X t _ m S3 J R (or_introl eq_refl)) (fields_fit_member L _ ND fs FF)) as B.
      specialize (B q ltac:(discriminate)). unfold nbase in B. use_exec B. reflexivity.
  Qed.

  (** What read_from_file does to the object at [l]. *)
  Definition read_file_result (l : lval) (fs : list (string * val)) (n : string) (s : st) : res val :=
    match load L (s_world s) (cut n) with
    | None => Ok (vbool false) s
    | Some ks =>
        match root ks with
        | Some x =>
            match read_struct L fm x t fs with
            | Some fs' => match put_lv l (VStruct t fs') s with Some s' => Ok (vbool true) s' | None => Bad end
            | None => UB
            end
        | None => match ms with [] => Ok (vbool true) s | _ => UB end
        end
    end.
  Theorem read_file_ok f a n l fs s : file_arg a n s -> get_lv l s = Some (VStruct t fs) -> reader_or_writer (s_this s) -> fits L (VStruct t fs) (TStruct t) = true ->
    0 < f -> (forall ks x, load L (s_world s) (cut n) = Some ks -> root ks = Some x -> height x < f) -> 
    call_fun L P wf (S f) [R; "read_from_file"] [a; (Some l, VStruct t fs)] s = read_file_result l fs n s.
  Proof.
    intros FA GL TH FI HP HH. cbn [call_fun].
    rewrite (find_rff (fun d => params_fit (fd_params d) [a; (Some l, VStruct t fs)] s)).
    2:{ cbn [x_rff fd_params params_fit p_file_name param_fits ct_ref ct_name fst snd ty_of]. rewrite String.eqb_refl.
        destruct FA as [(_ & [E|E])|(la & -> & _)]; try (rewrite E); reflexivity. }
    2:{ intros u H. cbn [x_rff fd_params params_fit p_file_name param_fits ct_ref ct_name fst snd ty_of] in H. rewrite andb_true_r in H. apply andb_prop in H as [_ H]. now apply String.eqb_eq. }
    2:{ reflexivity. }
    unfold enter. cbn [x_rff fd_name fd_params]. rewrite (file_undef "struct_to_fill" a n l fs s FA).
    destruct (bind_file "struct_to_fill" a n l fs s FA GL) as (bk & -> & CB). cbn [b_vars b_el b_back map fst].
    change (distinct ["filename"; "struct_to_fill"]) with true. cbn [andb forallb].
    assert (ST : String.eqb R "stfx" = false) by exact (reader_not_stfx b fm enums ss o ds L X).
    destruct TH as (q & TH). assert (seen_this R s = this_of q) as -> by (unfold seen_this; rewrite ST; exact TH).
    unfold param_visible, p_file_name. cbn [fst ct_name set_this s_this]. unfold R at 1. rewrite (type_method b fm enums ss o ds L X t t_defined) by tauto. rewrite (this_other b fm enums ss o ds L X t q t_defined). cbn [negb andb].
    assert (M : is_method P R (pre_do t) = true) by (apply (rd_methods b fm enums ss o ds L X); congruence).
    pose proof (rff_body L (call_fun L P wf f) R (is_method P R) wf (no_success b fm enums ss o ds L X) t q n fs (s_world s) M) as B.
    assert (RT : forall fs' r d tr, lookup "rv" [[("doc", VDoc); ("er", VErr d); ("rv", vbool r)]] = Some (vbool r) ->
       return_to s (Bound [("filename", VStr n); ("struct_to_fill", VStruct t fs)] None bk)
         (set_this (St [[("doc", VDoc); ("er", VErr d); ("rv", vbool r)] ++ rfr t n fs'] tr (this_of q) (s_world s)) (if String.eqb R "stfx" then s_this s else this_of q)) = put_lv l (VStruct t fs') s).
    { intros fs' r d tr _. unfold return_to. cbn [b_el b_back set_this s_this s_world].
      rewrite ST, <- TH.
      rewrite (CB _ _ (VStruct t fs')); [|reflexivity|reflexivity|reflexivity]. now destruct s. }
    unfold read_file_result. destruct (load L (s_world s) (cut n)) as [d|] eqn:LD.
    - destruct B as [B1 B2]. pose proof (root_elem_at d) as RA. unfold rff_call in B1, B2. destruct (root d) as [x|] eqn:RD.
      + destruct RA as (j & RE & NE). rewrite RE in B1, B2. cbn [option_map] in B1, B2.
        pose proof (rd_call_ok b fm enums ss o ds L X wf f x (HH d x eq_refl RD) t fs [j] (Some (LV false "el" [])) None (LV false "struct_to_fill" []) (rff_st t q n fs d (s_world s))) as RC.
        specialize (RC (ex_intro _ q eq_refl)). cbn [rff_st s_tree at_path kids_of] in RC. rewrite NE in RC. specialize (RC eq_refl eq_refl FI).
        fold R P in RC. destruct (read_struct L fm x t fs) as [fs'|].
        * specialize (B1 fs' RC). unfold rfr in B1. use_exec B1. cbn [s_this].
          pose proof (RT fs' true true (Elem "" [] d) eq_refl) as RT'. unfold rfr in RT'. rewrite RT'. destruct (put_lv l (VStruct t fs') s); reflexivity.
        * specialize (B2 RC). unfold rfr in B2. use_exec B2. reflexivity.
      + rewrite RA in B1, B2. cbn [option_map] in B1, B2. destruct f as [|f]; [lia|].
        pose proof (null_call f (Some (LV false "el" [])) None (LV false "struct_to_fill" []) fs (rff_st t q n fs d (s_world s)) (ex_intro _ q eq_refl) eq_refl FI) as NC.
        destruct ms as [|m0 ms0].
        * specialize (B1 fs NC). unfold rfr in B1. use_exec B1. cbn [s_this].
          pose proof (RT fs true true (Elem "" [] d) eq_refl) as RT'. unfold rfr in RT'. rewrite RT', put_lv_same by exact GL. reflexivity.
        * specialize (B2 NC). unfold rfr in B2. use_exec B2. reflexivity.
    - unfold rfr in B. use_exec B. cbn [s_this]. pose proof (RT fs false false (Elem "" [] []) eq_refl) as RT'. unfold rfr in RT'. rewrite RT', put_lv_same by exact GL. reflexivity.
  Qed.

  (** *** Writing *)
  Hypothesis OR : o_only_read o = false.
  Hypothesis L64 : fm = Elements -> l_long L = 64%Z.
  Let nd := o_no_delta o.
  Lemma find_wtf p : p (x_wtf W t) = true -> (forall u, p (x_wtf W u) = true -> u = t) -> p (x_wctor W R) = false ->
    filter (fun d => (names_eqb (fd_name d) [W; "write_to_file"] && p d)%bool) P = [x_wtf W t].
  Proof.
    intros P1 P2 P3. unfold P. rewrite (find_writer b enums ss o (x_bi b fm enums ss o ds L X) (x_cw b fm enums ss o ds L X) (x_rw b fm enums ss o ds L X) _ _ OR).
    fold R W nd. unfold writer_funs. cbn [filter]. rewrite P3, andb_false_r, filter_app.
    rewrite (filter_none _ (flat_map _ ss)).
    2:{ intros d H. apply in_flat_map in H as (s & _ & J). rewrite wr_fun_one in J by (exact (x_bi b fm enums ss o ds L X)). destruct J as [<-|[]].
        rewrite one_wr_name, names_eqb2. unfold pre_wr. cbn [String.append String.eqb Ascii.eqb Bool.eqb]. now rewrite andb_false_r. }
    rewrite app_nil_r, filter_map. rewrite (filter_one s_name _ (tops ss) sr tops_nodup TOP).
    - cbn [map]. now rewrite x_wtf_fun, SN.
    - rewrite x_wtf_fun, SN, P1. cbn [x_wtf fd_name]. now rewrite names_eqb_refl.
    - intros x I H. rewrite x_wtf_fun in H. apply andb_prop in H as [_ H]. apply P2 in H. congruence.
  Qed.

  (** What write_to_file does: the result and the files; nothing else changes. *)
  Definition write_file_result (delta : bool) (fs : list (string * val)) (n : string) (s : st) : res val :=
    match write_val L fm delta (VStruct t fs) with
    | Some (at_, ks) => let (r, w) := save L (s_world s) (cut n) [Elem t at_ ks] in Ok (vbool r) (set_world s w)
    | None => UB
    end.
  Theorem write_file_ok dl f a n l fs s : file_arg a n s -> get_lv l s = Some (VStruct t fs) -> s_this s = [("m_delta_only", vbool dl)] ->
    fits L (VStruct t fs) (TStruct t) = true -> vheight (VStruct t fs) < f ->
    call_fun L P wf (S f) [W; "write_to_file"] [a; (Some l, VStruct t fs)] s = write_file_result (negb nd && dl) fs n s.
  Proof.
    intros FA GL TH FI HV. cbn [call_fun].
    rewrite (find_wtf (fun d => params_fit (fd_params d) [a; (Some l, VStruct t fs)] s)).
    2:{ cbn [x_wtf fd_params params_fit p_file_name param_fits ct_ref ct_name fst snd ty_of]. rewrite String.eqb_refl.
        destruct FA as [(_ & [E|E])|(la & -> & _)]; try (rewrite E); reflexivity. }
    2:{ intros u H. cbn [x_wtf fd_params params_fit p_file_name param_fits ct_ref ct_name fst snd ty_of] in H. rewrite andb_true_r in H. apply andb_prop in H as [_ H]. now apply String.eqb_eq. }
    2:{ cbn [x_wctor fd_params params_fit]. apply andb_false_r. }
    unfold enter. cbn [x_wtf fd_name fd_params]. rewrite (file_undef "struct_to_read" a n l fs s FA).
    destruct (bind_file "struct_to_read" a n l fs s FA GL) as (bk & -> & CB). cbn [b_vars b_el b_back map fst].
    change (distinct ["filename"; "struct_to_read"]) with true. cbn [andb forallb].
    assert (ST : String.eqb W "stfx" = false) by (apply class_not_stfx; exact (x_cw b fm enums ss o ds L X)).
    assert (seen_this W s = [("m_delta_only", vbool dl)]) as -> by (unfold seen_this; rewrite ST; exact TH).
    unfold param_visible, p_file_name. cbn [fst ct_name set_this s_this assoc]. unfold W at 1. rewrite (type_method b fm enums ss o ds L X t t_defined) by tauto.
    rewrite (t_other "m_delta_only") by (apply mem_in; reflexivity). cbn [negb andb].
    assert (M : is_method P W (pre_wr t) = true) by (apply (wr_methods b fm enums ss o ds L X OR); congruence).
    assert (CT : cut t = t).
    { pose proof t_defined as D. apply in_map_iff in D as (d & E & DI). rewrite <- E. apply cut_id, ident_no_nul, name_ok_ident, (tf_name _ _ _ (g_fine b enums ss o ds L g d DI)). }
    pose proof (wtf_body L (call_fun L P wf f) W (is_method P W) wf (no_success b fm enums ss o ds L X) t n fs dl (s_world s) M CT) as [B1 B2].
    pose proof (wr_call_ok b fm enums ss o ds L X OR L64 wf dl f t fs FI HV t [0] (Some (LV false "el" [])) None (LV false "struct_to_read" []) (wtf_st t n fs [Elem t [] []] dl (s_world s)) eq_refl eq_refl eq_refl) as WC.
    fold P W nd in WC. fold (wtf_call (call_fun L P wf f) W t n fs dl (s_world s)) in WC. unfold write_file_result.
    destruct (write_val L fm (negb nd && dl) (VStruct t fs)) as [[at_ ks]|].
    - specialize (B1 [Elem t at_ ks] WC). destruct B1 as (sc & tr & L1 & L2 & B1). unfold wfr in B1. use_exec B1. rewrite ST. unfold return_to. cbn [b_el b_back set_this s_this s_world]. rewrite <- TH.
      rewrite (CB _ _ (VStruct t fs)); [|reflexivity|exact L1|exact L2].
      destruct (save L (s_world s) (cut n) [Elem t at_ ks]) as [r w']. cbn [fst snd]. rewrite put_lv_same by (rewrite <- GL; reflexivity). reflexivity.
    - specialize (B2 WC). unfold wfr in B2. use_exec B2. reflexivity.
  Qed.

End File.

(** *** The constructor of the writer class keeps what it is told. *)
Section Ctor.
  Variables (b : backend) (fm : form) (enums : list enum_S) (ss : list struct_S) (o : output_spec) (ds : list def) (L : lang).
  Hypothesis X : xml_setting b fm enums ss o ds L.
  Hypothesis OR : o_only_read o = false.
  Lemma find_wctor p : p (x_wctor (o_writer o) (o_reader o)) = true -> (forall d, length (fd_params d) = 2 -> p d = false) ->
    filter (fun d => (names_eqb (fd_name d) [o_writer o; o_writer o] && p d)%bool) (prog b enums ss o) = [x_wctor (o_writer o) (o_reader o)].
  Proof.
    intros P1 P2. rewrite (find_writer b enums ss o (x_bi b fm enums ss o ds L X) (x_cw b fm enums ss o ds L X) (x_rw b fm enums ss o ds L X) _ _ OR).
    unfold writer_funs. cbn [filter]. rewrite P1. cbn [x_wctor fd_name]. rewrite names_eqb_refl. cbn [andb]. f_equal. apply filter_none.
    intros d H. rewrite P2; [apply andb_false_r|]. apply in_app_or in H as [H|H].
    - apply in_map_iff in H as (x & <- & _). destruct (x_form _ _ _ _ _ _ _ X) as [[-> _]|[-> _]]; reflexivity.
    - apply in_flat_map in H as (x & _ & J). rewrite wr_fun_one in J by (exact (x_bi b fm enums ss o ds L X)). destruct J as [<-|[]].
      unfold one_wr. destruct (x_form _ _ _ _ _ _ _ X) as [[-> _]|[-> _]]; reflexivity.
  Qed.
  Theorem ctor_ok wf f lv dl old s : s_this s = [("m_delta_only", old)] -> ty_of old = TNum KBool -> (forall l, lv = Some l -> get_lv l s = Some (vbool dl)) ->
    call_fun L (prog b enums ss o) wf (S f) [o_writer o; o_writer o] [(lv, vbool dl)] s = Ok VVoid (set_this s [("m_delta_only", vbool dl)]).
  Proof.
    intros TH TY LV. cbn [call_fun]. rewrite (find_wctor (fun d => params_fit (fd_params d) [(lv, vbool dl)] s)).
    2:{ reflexivity. }
    2:{ intros [q n ps i bd]. cbn [fd_params]. destruct ps as [|p1 [|p2 [|p3 ps]]]; try discriminate. intros _. cbn [params_fit]. apply andb_false_r. }
    assert (ST : String.eqb (o_writer o) "stfx" = false) by (apply class_not_stfx; exact (x_cw b fm enums ss o ds L X)).
    unfold enter, x_wctor. cbn [fd_name fd_params undef_arg fst snd t_bool ct_ref vbool orb bind_params bind_param b_vars b_el b_back app map distinct existsb negb andb forallb].
    unfold param_visible. cbn [fst t_bool ct_name andb]. unfold seen_this. rewrite ST, TH. cbn [fd_body exec_list fd_type].
    assert (B : run_list (exec L (call_fun L (prog b enums ss o) wf f) (o_writer o) (is_method (prog b enums ss o) (o_writer o)) wf) [s_set (EId ["m_delta_only"]) (EId ["delta_only"])]
       (St [[("delta_only", vbool dl)]] (Text "") [("m_delta_only", old)] (s_world s)) = Ok CNext (St [[("delta_only", vbool dl)]] (Text "") [("m_delta_only", vbool dl)] (s_world s))).
    { cbn. rewrite TY. destruct dl; reflexivity. }
    use_exec B. unfold return_to. reflexivity.
  Qed.
End Ctor.
