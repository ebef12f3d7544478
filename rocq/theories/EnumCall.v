(** Calls of the generated enum conversion functions from anywhere in the program. *)
From Coq Require Import String Ascii ZArith NArith Arith List Bool Lia.
From Verif Require Import Base Map Items Grammar Fmt Decimal Templates Emit Cpp Xml Val CppSem SymLex Ast StoreDefs ResolveProps Prog Header EnumSem DecText.
Import ListNotations.
Local Open Scope string_scope.
Local Open Scope list_scope.

(** *** Writing back what is there *)
Lemma set_assoc_same {A} x (v : A) l : assoc x l = Some v -> set_assoc x v l = l.
Proof.
  induction l as [|[k w] l IH]; cbn; [discriminate|]. destruct (String.eqb x k) eqn:E; [intros [= ->]; reflexivity|].
  intros H. now rewrite IH.
Qed.
Lemma map_set_same k v l : map_find k l = Some v -> map_set k v l = l.
Proof.
  induction l as [|[j w] l IH]; cbn; [discriminate|]. destruct (key_eqb k j); [intros [= ->]; reflexivity|].
  intros H. now rewrite IH.
Qed.
Lemma put_acc_same a v w : get_acc a v = Some w -> put_acc a w v = Some v.
Proof.
  destruct a, v; cbn; try discriminate.
  - intros H. rewrite H. now rewrite set_assoc_same.
  - intros H. now rewrite map_set_same.
Qed.
Lemma put_path_same p : forall v w, get_path p v = Some w -> put_path p w v = Some v.
Proof.
  induction p as [|a p IH]; intros v w; [cbn; congruence|]. cbn [get_path]. destruct (get_acc a v) as [u|] eqn:G; [|discriminate].
  intros H. destruct p as [|a' p].
  - cbn in H |- *. injection H as <-. now apply put_acc_same.
  - change (put_path (a :: a' :: p) w v) with (let? u := get_acc a v in let? u' := put_path (a' :: p) w u in put_acc a u' v).
    rewrite G, (IH _ _ H). now apply put_acc_same.
Qed.
Lemma update_same x v sc : lookup x sc = Some v -> update x v sc = Some sc.
Proof.
  induction sc as [|f sc IH]; cbn; [discriminate|]. destruct (assoc x f) eqn:A.
  - intros [= ->]. now rewrite set_assoc_same.
  - intros H. now rewrite IH.
Qed.
Lemma put_lv_same l v s : get_lv l s = Some v -> put_lv l v s = Some s.
Proof.
  unfold get_lv, put_lv, get_root. destruct s as [sc t th w]. cbn [s_this s_scopes set_scopes set_this].
  destruct (lv_this l).
  - destruct (assoc (lv_root l) th) as [u|] eqn:A; [|discriminate]. intros H. rewrite (put_path_same _ _ _ H).
    now rewrite set_assoc_same.
  - destruct (lookup (lv_root l) sc) as [u|] eqn:A; [|discriminate]. intros H. rewrite (put_path_same _ _ _ H).
    now rewrite update_same.
Qed.

(** *** What is given: the generated program and the headers *)
Record setting (b : backend) (enums : list enum_S) (ss : list struct_S) (o : output_spec) (ds : list def) (L : lang) : Prop :=
  Setting { g_b : b <> B_ini; g_ok : header_ok (o_reader o) (o_writer o) ds = true; g_lk : linked ds enums ss; g_defs : l_defs L = ds }.

Ltac use_exec E := match type of E with ?l = _ =>
  match goal with |- context [exec_list ?a1 ?a2 ?a3 ?a4 ?a5 ?a6 ?a7] => change (exec_list a1 a2 a3 a4 a5 a6 a7) with l end end; rewrite E.

Section Call.
  Variables (b : backend) (enums : list enum_S) (ss : list struct_S) (o : output_spec) (ds : list def) (L : lang).
  Hypothesis G : setting b enums ss o ds L.
  Let R := o_reader o.
  Let W := o_writer o.
  Let P := prog b enums ss o.
  Definition g_cr : class_ok R = true.
  Proof. destruct (ok_parts _ _ _ (g_ok _ _ _ _ _ _ G)) as (_ & _ & _ & H & _). exact H. Qed.
  Definition g_cw : class_ok W = true.
  Proof. destruct (ok_parts _ _ _ (g_ok _ _ _ _ _ _ G)) as (_ & _ & _ & _ & H & _). exact H. Qed.
  Definition g_rw : String.eqb R W = false.
  Proof. destruct (ok_parts _ _ _ (g_ok _ _ _ _ _ _ G)) as (_ & _ & _ & _ & _ & H). exact H. Qed.
  Lemma g_fine d : In d ds -> type_fine R W (def_name d).
  Proof. destruct (ok_parts _ _ _ (g_ok _ _ _ _ _ _ G)) as (_ & H & _). apply H. Qed.

  Variable wf : nat.
  Variables (c : bool) (n : string) (es : list entry) (t : bool).
  Hypothesis IN : In (DefEnum c n es t) ds.
  Let vs := enum_values L 0 es.
  Let e := enum_of c n es.

  Lemma e_in : In e enums.
  Proof. apply (lk_enums _ _ _ (g_lk _ _ _ _ _ _ G)). exists c, n, es, t. auto. Qed.
  Lemma stfx_no_method : is_method P "stfx" n = false.
  Proof.
    eapply type_no_method; [exact (g_b _ _ _ _ _ _ G)|exact g_cr|exact g_cw|exact g_rw|apply (g_fine _ IN)|tauto].
  Qed.

  Lemma one_enum (mk : enum_S -> fdef) (fn : string) (p : fdef -> bool) :
    (fn = "s_from_e" /\ mk = s_from_e_fun) \/ (fn = "s_to_e" /\ mk = s_to_e_fun) ->
    p (mk e) = true -> (forall e', p (mk e') = true -> e_name e' = n) ->
    filter (fun d => (names_eqb (fd_name d) ["stfx"; fn] && p d)%bool) P = [mk e].
  Proof.
    intros F PE U. unfold P. rewrite (find_stfx b enums ss o (g_b _ _ _ _ _ _ G) g_cr g_cw fn p) by (destruct F as [[-> _]|[-> _]]; auto).
    assert (X : filter (fun d => (names_eqb (fd_name d) ["stfx"; fn] && p d)%bool) (flat_map enum_funs enums) =
                map mk (filter (fun e => p (mk e)) enums)).
    { clear - F. induction enums as [|x l IH]; [reflexivity|]. cbn [flat_map enum_funs app filter map].
      destruct F as [[-> ->]|[-> ->]].
      - change (names_eqb (fd_name (s_from_e_fun x)) ["stfx"; "s_from_e"]) with true.
        change (names_eqb (fd_name (s_to_e_fun x)) ["stfx"; "s_from_e"]) with false. cbn [andb].
        rewrite IH. destruct (p (s_from_e_fun x)); reflexivity.
      - change (names_eqb (fd_name (s_from_e_fun x)) ["stfx"; "s_to_e"]) with false.
        change (names_eqb (fd_name (s_to_e_fun x)) ["stfx"; "s_to_e"]) with true. cbn [andb].
        rewrite IH. destruct (p (s_to_e_fun x)); reflexivity. }
    rewrite X. rewrite (filter_one e_name _ enums e); [reflexivity|apply (lk_enum_names _ _ _ (g_lk _ _ _ _ _ _ G))|apply e_in|exact PE|].
    intros e' _ H. rewrite (U e' H). reflexivity.
  Qed.

  Lemma call_from lv z f s :
    call_fun L P wf (S f) ["stfx"; "s_from_e"] [(lv, VEnum n z)] s = Ok (VStr (enum_text vs z)) s.
  Proof.
    cbn [call_fun]. rewrite (one_enum s_from_e_fun "s_from_e"); [|auto|cbn; rewrite String.eqb_refl; reflexivity|].
    2:{ intros e' H. cbn in H. rewrite andb_true_r in H. now apply String.eqb_eq in H. }
    unfold enter. cbn [undef_arg orb fd_name s_from_e_fun fd_params bind_params bind_param ct_ref snd b_vars b_el b_back app map fst].
    cbn [distinct existsb negb andb forallb param_visible ct_name fst]. change (String.eqb "stfx" "stfx") with true. cbn iota.
    change (seen_this "stfx" s) with (@nil (string * val)). unfold set_this. cbn [s_this assoc].
    change (e_name e) with n. rewrite stfx_no_method. cbn [negb andb].
    pose proof (from_body R W ds L (g_ok _ _ _ _ _ _ G) (g_defs _ _ _ _ _ _ G) (call_fun L P wf f) (is_method P "stfx") wf c n es t IN stfx_no_method z (Text "") (s_world s)) as (s1 & W1 & E1).
    change (fd_body _) with (fd_body (s_from_e_fun (enum_of c n es))). use_exec E1. unfold return_to. cbn [b_el b_back copy_back s_this s_world fd_type].
    rewrite W1. destruct s. reflexivity.
  Qed.

  (** The text comes as std::string or as a character array. *)
  Definition text_arg (v : val) (x : string) : Prop := v = VStr x \/ v = VCStr (Some x).
  Definition to_call (l : lval) (x : string) (s : st) (r : res val) : Prop :=
    match read_enum L n vs x with
    | ERead z f => forall s', put_lv l (VEnum n z) s = Some s' -> r = Ok (vbool f) s'
    | EKeep => r = Ok (vbool false) s
    | EUB => r = UB
    end.
  Lemma call_to lv v x l old f s : text_arg v x -> get_lv l s = Some old -> ty_of old = TEnum n ->
    to_call l x s (call_fun L P wf (S f) ["stfx"; "s_to_e"] [(lv, v); (Some l, old)] s).
  Proof.
    intros TA GL TY.
    assert (BP : bind_params (fd_params (s_to_e_fun e)) [(lv, v); (Some l, old)] s =
                 Some (Bound [("s", VStr x); ("e", old)] None [(l, "e")])) by (destruct TA as [-> | ->]; reflexivity).
    cbn [call_fun]. rewrite (one_enum s_to_e_fun "s_to_e"); [|auto| |].
    2:{ cbn [s_to_e_fun fd_params params_fit param_fits fst snd t_str ct_ref ct_name]. rewrite TY.
        change (e_name e) with n. rewrite String.eqb_refl. destruct TA as [-> | ->]; reflexivity. }
    2:{ intros e' H. cbn [s_to_e_fun fd_params params_fit param_fits fst snd t_str ct_ref ct_name] in H. rewrite TY in H.
        rewrite !andb_true_iff in H. destruct H as (_ & H & _). now apply String.eqb_eq in H. }
    assert (UA : undef_arg (fd_params (s_to_e_fun e)) [(lv, v); (Some l, old)] = false) by (destruct TA as [-> | ->]; reflexivity).
    unfold enter. rewrite UA, BP. cbn [fd_name s_to_e_fun fd_params b_vars b_el b_back map fst].
    change (distinct ["s"; "e"]) with true. cbn [andb forallb param_visible ct_name fst t_str]. change (String.eqb "stfx" "stfx") with true. cbn iota.
    change (seen_this "stfx" s) with (@nil (string * val)). unfold set_this. cbn [s_this assoc].
    change (e_name e) with n. rewrite stfx_no_method. cbn [negb andb].
    pose proof (to_body R W ds L (g_ok _ _ _ _ _ _ G) (g_defs _ _ _ _ _ _ G) (call_fun L P wf f) (is_method P "stfx") wf c n es t IN stfx_no_method x old (Text "") (s_world s) TY) as H.
    change (fd_body _) with (fd_body (s_to_e_fun (enum_of c n es))).
    unfold to_result in H. unfold to_call. change (enum_values L 0 es) with vs in H.
    destruct (read_enum L n vs x) as [z fd| |].
    - destruct H as (s1 & E1 & W1 & L1). use_exec E1. intros s' PU. unfold return_to. cbn [b_el b_back copy_back s_this s_world s_scopes fd_type].
      rewrite W1, L1. destruct s. cbn in *. rewrite PU. reflexivity.
    - destruct H as (s1 & E1 & W1 & L1). use_exec E1. unfold return_to. cbn [b_el b_back copy_back s_this s_world s_scopes fd_type].
      rewrite W1, L1. destruct s. cbn in *. rewrite (put_lv_same _ _ _ GL). reflexivity.
    - use_exec H. reflexivity.
  Qed.
End Call.
