(** Properties of the emission step: success, calls and definitions, order, names. *)
From Coq Require Import String Ascii ZArith NArith Arith List Bool Lia Permutation.
From Verif Require Import Base Map Flex Items Bison Grammar Store Resolve StoreProps StoreDefs StoreRedef ResolveProps ItemsEnd
  Fmt Decimal Templates Emit Cpp SymLex Ast PrintXa PrintFile Val CppSem Prog Header Link Main MainProps RunProps.
Import ListNotations.
Local Open Scope string_scope.
Local Open Scope list_scope.

(** *** Success *)
(** A member whose type is settled. *)
Definition settled (c : struct_complex) : bool :=
  match sc_type c with enum_or_struct_E | unknown_E => false | _ => true end.
Definition is_vector (c : struct_complex) : bool := match sc_type c with vector_E => true | _ => false end.
Lemma reader_result b s cls : snd (struct_reader b s cls) =
  match b with
  | B_xml_attrib | B_xml => forallb settled (s_complex s)
  | B_n_ini => forallb (fun c => settled c && negb (is_vector c)) (s_complex s)
  | B_ini => false
  end%bool.
Proof.
  destruct b; cbn [struct_reader]; try reflexivity.
  - unfold xa_reader. cbn [snd]. induction (s_complex s) as [|[[] ? ?] l IH]; cbn; auto.
  - unfold xm_reader. cbn [snd]. induction (s_complex s) as [|[[] ? ?] l IH]; cbn; auto.
  - unfold ni_reader. cbn [snd]. induction (s_complex s) as [|[[] ? ?] l IH]; cbn; auto.
Qed.
Lemma writer_result b s cls nd : snd (struct_writer b s cls nd) =
  match b with
  | B_xml_attrib | B_xml => forallb settled (s_complex s)
  | B_n_ini => forallb (fun c => settled c && negb (is_vector c)) (s_complex s)
  | B_ini => false
  end%bool.
Proof.
  destruct b; cbn [struct_writer]; try reflexivity.
  - unfold xa_writer. cbn [snd]. induction (s_complex s) as [|[[] ? ?] l IH]; cbn; auto.
  - unfold xm_writer. cbn [snd]. induction (s_complex s) as [|[[] ? ?] l IH]; cbn; auto.
  - unfold ni_writer. cbn [snd]. induction (s_complex s) as [|[[] ? ?] l IH]; cbn; auto.
Qed.
Lemma translated_spec b i o : translated b i o =
  forallb (fun s => match b with
                    | B_xml_attrib | B_xml => forallb settled (s_complex s)
                    | B_n_ini => forallb (fun c => settled c && negb (is_vector c)) (s_complex s)
                    | B_ini => false
                    end%bool) (map snd (i_structs i)).
Proof.
  unfold translated. induction (map snd (i_structs i)) as [|s l IH]; cbn [forallb].
  - now rewrite orb_true_r.
  - rewrite reader_result, writer_result in *. destruct (match b with B_xml_attrib | B_xml => _ | _ => _ end); cbn [andb orb]; auto.
Qed.

(** The result of the generation step, when its files can be written. *)
Definition generated (b : backend) (i : info) (o : output_spec) : bool :=
  (snd (fixup i) && translated b (find_top (fst (fixup i))) o)%bool.

Lemma all_structs i (P : struct_S -> bool) : sorted (i_structs i) ->
  (forallb P (map snd (i_structs i)) = true <-> forall n s, mfind n (i_structs i) = Some s -> P s = true).
Proof.
  intros S. rewrite forallb_forall. split.
  - intros H n s F. apply H. apply in_map_iff. exists (n, s). split; [reflexivity|]. now apply mfind_in.
  - intros H s I. apply in_map_iff in I as ([n s'] & <- & I). eapply H. apply in_mfind; eauto.
Qed.

(** Success of the xml back ends in terms of the store. *)
Lemma generated_xml b i o : wf_info i -> (b = B_xml_attrib \/ b = B_xml) ->
  (generated b i o = true <->
   forall n s c, mfind n (i_structs i) = Some s -> In c (s_complex s) ->
     match sc_type c with enum_or_struct_E => declared i (sc_tname c) | unknown_E => False | _ => True end).
Proof.
  intros W B. pose proof (wf_ss _ W) as S. unfold generated. rewrite andb_true_iff, translated_spec.
  rewrite (all_structs _ _ (resolved_sorted i S)). split.
  - intros [F T] n s c M I. destruct (sc_type c) eqn:K; auto.
    + specialize (T n). rewrite resolved_find, M in T. specialize (T _ eq_refl).
      assert (X : forallb settled (map (fix_member i) (s_complex s)) = true) by (destruct B as [-> | ->]; exact T).
      rewrite forallb_forall in X. specialize (X (fix_member i c) (in_map _ _ _ I)).
      unfold settled, fix_member in X. rewrite K in X. cbn in X. rewrite K in X. discriminate.
    + destruct (type_cases i (sc_tname c)) as [X|[X|X]].
      * left. now apply type_struct.
      * right. apply type_enum; auto.
      * apply type_unknown in X. exfalso. destruct (proj2 (fixup_spec i W)) as [_ Y]. rewrite Y in F; [discriminate|].
        exists n, s, c. unfold declared. intuition.
  - intros H. split.
    + destruct (snd (fixup i)) eqn:F; [reflexivity|]. exfalso. destruct (proj1 (proj2 (fixup_spec i W)) F) as (n & s & c & M & I & K & D).
      specialize (H n s c M I). rewrite K in H. auto.
    + intros n s M. rewrite resolved_find in M. destruct (mfind n (i_structs i)) as [s0|] eqn:M0; [|discriminate]. injection M as <-.
      assert (X : forallb settled (map (fix_member i) (s_complex s0)) = true).
      { apply forallb_forall. intros c' I. apply in_map_iff in I as (c & <- & I). specialize (H n s0 c M0 I).
        unfold settled, fix_member. destruct (sc_type c) eqn:K; cbn; rewrite ?K; auto.
        destruct (type_cases i (sc_tname c)) as [Y|[Y|Y]]; rewrite Y; auto. apply type_unknown in Y. unfold declared in H. tauto. }
      destruct B as [-> | ->]; exact X.
Qed.
(** n_ini also refuses vectors, plain ini every struct. *)
Lemma generated_ini i o : (exists n s, mfind n (i_structs i) = Some s) -> generated B_ini i o = false.
Proof.
  intros (n & s & M). unfold generated. apply andb_false_iff. right. rewrite translated_spec. apply not_true_iff_false. intros H.
  rewrite forallb_forall in H. assert (X : exists s', mfind n (i_structs (find_top (fst (fixup i)))) = Some s') by (rewrite resolved_find, M; eexists; reflexivity).
  destruct X as [s' X]. apply mfind_in in X. specialize (H s' ltac:(apply in_map_iff; exists (n, s'); auto)). discriminate.
Qed.
Lemma generated_n_ini i o n s c : mfind n (i_structs i) = Some s -> In c (s_complex s) -> sc_type c = vector_E -> generated B_n_ini i o = false.
Proof.
  intros M I K. unfold generated. apply andb_false_iff. right. rewrite translated_spec. apply not_true_iff_false. intros H.
  rewrite forallb_forall in H.
  destruct (mfind n (i_structs (find_top (fst (fixup i))))) as [s'|] eqn:X; [|rewrite resolved_find, M in X; discriminate].
  pose proof X as X0. rewrite resolved_find, M in X. injection X as X.
  apply mfind_in in X0. specialize (H s' ltac:(apply in_map_iff; exists (n, s'); auto)). rewrite forallb_forall in H.
  specialize (H (fix_member i c)). rewrite <- X in H. specialize (H (in_map _ _ _ I)). unfold fix_member, settled, is_vector in H.
  rewrite K in H. cbn in H. rewrite K in H. discriminate.
Qed.

(** *** Calls and definitions *)
(** The unqualified functions called in an expression, in statements. *)
Fixpoint e_calls (e : expr) : list string :=
  match e with
  | EId _ | EStr _ | EChr _ | ENum _ | EBool _ | ENull => []
  | EMem _ e _ | EAddr e | ECast _ e => e_calls e
  | ECall (EId [x]) args => x :: flat_map e_calls args
  | ECall e args => e_calls e ++ flat_map e_calls args
  | EIdx a b | EBin _ a b => e_calls a ++ e_calls b
  | ECond a b c => e_calls a ++ e_calls b ++ e_calls c
  | EList es => flat_map e_calls es
  end.
Fixpoint s_calls (s : stmt) : list string :=
  match s with
  | SExpr e | SReturn e => e_calls e
  | SDecl _ _ i => match i with Some e => e_calls e | None => [] end
  | SIf c a b => e_calls c ++ flat_map s_calls a ++ flat_map s_calls b
  | SFor _ _ e b | SWhile e b => e_calls e ++ flat_map s_calls b
  | SSwitch e cs => e_calls e ++ flat_map (fun p => match fst p with Some e => e_calls e | None => [] end ++ flat_map s_calls (snd p)) cs
  | SBreak | SContinue => []
  | SBlock b => flat_map s_calls b
  | STry a b => flat_map s_calls a ++ flat_map s_calls b
  end.
Definition f_calls (d : fdef) : list string := flat_map s_calls (fd_body d).
(** How many definitions of a member function there are. *)
Definition definitions (cls f : string) (fs : list fdef) : nat :=
  length (filter (fun d => names_eqb (fd_name d) [cls; f]) fs).

(** Vector members and struct members have a struct as type. *)
Definition elements_known (ss : list struct_S) : Prop :=
  forall s c, In s ss -> In c (s_complex s) -> sc_type c = struct_E \/ sc_type c = vector_E -> In (sc_tname c) (map s_name ss).

Lemma in_flat {A B} (f : A -> list B) l x : In x (flat_map f l) -> exists a, In a l /\ In x (f a).
Proof. apply in_flat_map. Qed.

Section Calls.
  Variables (b : backend) (ss : list struct_S).
  Hypothesis BX : b = B_xml_attrib \/ b = B_xml.
  Hypothesis EK : elements_known ss.
  Hypothesis ND : NoDup (map s_name ss).

  Lemma calls_changed nd n l : flat_map s_calls (if_changed nd n l) = flat_map s_calls l.
  Proof. unfold if_changed. destruct nd; [reflexivity|]. cbn [flat_map s_calls]. cbn [e_changed e_calls e_data e_dflt app]. now rewrite !app_nil_r. Qed.
  Lemma rd_calls s cls x : In s ss -> In x (f_calls (one_rd b s cls)) -> x = "find_element" \/ exists t, In t (map s_name ss) /\ x = pre_do t.
  Proof.
    intros I H. unfold f_calls in H. destruct BX as [-> | ->]; cbn [one_rd xa_rd_fun xm_rd_fun fd_body] in H.
    - unfold xa_rd_body in H. rewrite !flat_map_app, !in_app_iff in H. destruct H as [[]|[H|[H|[H|[]]]]].
      + apply in_flat in H as (st & H & J). apply in_flat in H as (m & _ & H).
        unfold xa_rd_simple in H. destruct (ss_type m); cbn in H; destruct H as [<-|[]]; cbn in J; contradiction.
      + unfold ch_el_decl in H. destruct (has_children _); cbn in H; contradiction.
      + apply in_flat in H as (st & H & J). apply in_flat in H as (c & Ic & H). right.
        specialize (EK s c I Ic). destruct c as [[] tn nm]; cbn in H, EK; try contradiction.
        * destruct H as [<-|[]]; cbn in J; contradiction.
        * exists tn. split; [apply EK; auto|]. destruct H as [<-|[<-|[]]]; cbn in J; intuition.
        * exists tn. split; [apply EK; auto|]. destruct H as [<-|[<-|[]]]; cbn in J; intuition.
    - unfold xm_rd_body in H. rewrite !flat_map_app, !in_app_iff in H. destruct H as [[]|[H|[H|[]]]].
      + apply in_flat in H as (st & H & J). apply in_flat in H as (m & _ & H). left.
        unfold xm_rd_simple in H. destruct (ss_type m); cbn in H; destruct H as [<-|[<-|[]]]; cbn in J; intuition.
      + apply in_flat in H as (st & H & J). apply in_flat in H as (c & Ic & H).
        specialize (EK s c I Ic). destruct c as [[] tn nm]; cbn in H, EK; try contradiction.
        * left. destruct H as [<-|[<-|[]]]; cbn in J; intuition.
        * right. exists tn. split; [apply EK; auto|]. destruct H as [<-|[<-|[]]]; cbn in J; intuition.
        * right. exists tn. split; [apply EK; auto|]. destruct H as [<-|[<-|[]]]; cbn in J; intuition.
  Qed.
  Lemma wr_calls s cls nd x : In s ss -> In x (f_calls (one_wr b s cls nd)) -> exists t, In t (map s_name ss) /\ x = pre_wr t.
  Proof.
    intros I H. unfold f_calls in H. destruct BX as [-> | ->]; cbn [one_wr xa_wr_fun xm_wr_fun fd_body] in H.
    - unfold xa_wr_body in H. rewrite !flat_map_app, !in_app_iff in H. destruct H as [[]|[H|[H|[H|[H|[]]]]]].
      + unfold dflt_decl in H. destruct nd; cbn in H; contradiction.
      + exfalso. induction (s_simple s) as [|m l IH]; [contradiction|]. cbn [flat_map] in H. rewrite flat_map_app, in_app_iff in H.
        destruct H as [H|H]; [|auto]. unfold xa_wr_simple in H. rewrite calls_changed in H. unfold xa_value in H.
        destruct (ss_type m); cbn in H; contradiction.
      + unfold ch_el_decl in H. destruct (has_children _); cbn in H; contradiction.
      + apply in_flat in H as (st & H & J). apply in_flat in H as (c & Ic & H).
        specialize (EK s c I Ic). destruct c as [[] tn nm]; cbn [xa_wr_complex sc_type sc_tname sc_name] in H, EK; try contradiction.
        * exfalso. assert (K : In x (flat_map s_calls (if_changed nd nm [s_attr nm (e_cstr (e_sfrome nm))]))) by (apply in_flat_map; eauto).
          rewrite calls_changed in K. cbn in K. contradiction.
        * exists tn. split; [apply EK; auto|]. destruct H as [<-|[<-|[]]]; cbn in J; intuition.
        * exists tn. split; [apply EK; auto|]. destruct H as [<-|[<-|[]]]; cbn in J; intuition.
    - unfold xm_wr_body in H. rewrite !flat_map_app, !in_app_iff in H. destruct H as [[]|[H|[H|[H|[]]]]].
      + unfold dflt_decl in H. destruct nd; cbn in H; contradiction.
      + exfalso. induction (s_simple s) as [|m l IH]; [contradiction|]. cbn [flat_map] in H. rewrite flat_map_app, in_app_iff in H.
        destruct H as [H|H]; [|auto]. unfold xm_wr_simple in H. rewrite calls_changed in H. unfold xm_value in H.
        destruct (ss_type m); cbn in H; contradiction.
      + apply in_flat in H as (st & H & J). apply in_flat in H as (c & Ic & H).
        specialize (EK s c I Ic). destruct c as [[] tn nm]; cbn [xm_wr_complex sc_type sc_tname sc_name] in H, EK; try contradiction.
        * exfalso. assert (K : In x (flat_map s_calls (if_changed nd nm [s_new_child nm; s_text (e_cstr (e_sfrome nm))]))) by (apply in_flat_map; eauto).
          rewrite calls_changed in K. cbn in K. contradiction.
        * exists tn. split; [apply EK; auto|]. destruct H as [<-|[<-|[]]]; cbn in J; intuition.
        * exists tn. split; [apply EK; auto|]. destruct H as [<-|[<-|[]]]; cbn in J; intuition.
  Qed.

  Lemma one_definition (key : string -> string) (cls f : string) (fs : list fdef) (mk : struct_S -> fdef) t :
    (forall x y, key x = key y -> x = y) ->
    (forall s, fd_name (mk s) = [cls; key (s_name s)]) -> (forall d, In d fs -> names_eqb (fd_name d) [cls; key t] = false) ->
    In t (map s_name ss) -> definitions cls (key t) (fs ++ map mk ss) = 1.
  Proof.
    intros KI MK F T. unfold definitions. rewrite filter_app, (filter_none _ fs F). cbn [app].
    apply in_map_iff in T as (s & <- & I). rewrite filter_map.
    rewrite (filter_one s_name _ ss s ND I); [reflexivity| |].
    - now rewrite MK, names_eqb_refl.
    - intros y _ H. rewrite MK, names_eqb2 in H. apply andb_prop in H as [_ H]. apply String.eqb_eq in H. now apply KI.
  Qed.
  Lemma sapp_inj p x y : (p ++ x)%string = (p ++ y)%string -> x = y.
  Proof. intros H. apply append_inj_l in H. exact H. Qed.

  Lemma BNI : b <> B_ini.
  Proof. destruct BX; subst; discriminate. Qed.
  Lemma reader_list cls : reader_funs b ss cls =
    (x_ctor cls :: map (fun s => x_rff cls (s_name s)) (tops ss)) ++ map (fun s => one_rd b s cls) ss.
  Proof.
    unfold reader_funs. cbn [app]. f_equal. f_equal.
    - destruct BX; subst; reflexivity.
    - rewrite (flat_map_ext _ (fun s => [one_rd b s cls])) by (intros; apply rd_fun_one, BNI). apply flat_map_one.
  Qed.
  Lemma writer_list cls rd nd : writer_funs b ss cls rd nd =
    (x_wctor cls rd :: map (fun s => x_wtf cls (s_name s)) (tops ss)) ++ map (fun s => one_wr b s cls nd) ss.
  Proof.
    unfold writer_funs. cbn [app]. f_equal. f_equal.
    - destruct BX; subst; reflexivity.
    - rewrite (flat_map_ext _ (fun s => [one_wr b s cls nd])) by (intros; apply wr_fun_one, BNI). apply flat_map_one.
  Qed.

  Lemma tops_in s : In s (tops ss) -> In s ss.
  Proof. unfold tops. rewrite filter_In. tauto. Qed.
  Lemma reader_calls cls d x : prefix "do_" cls = false -> In d (reader_funs b ss cls) -> In x (f_calls d) ->
    x = "find_element" \/ prefix "do_" x = true /\ definitions cls x (reader_funs b ss cls) = 1.
  Proof.
    intros NC I H. rewrite reader_list in *.
    assert (X : x = "find_element" \/ exists t, In t (map s_name ss) /\ x = pre_do t).
    { apply in_app_or in I as [I|I].
      - destruct I as [<-|I]; [contradiction|]. apply in_map_iff in I as (s & <- & I). right. exists (s_name s).
        split; [apply in_map, tops_in, I|]. cbn in H. intuition.
      - apply in_map_iff in I as (s & <- & I). eapply rd_calls; eauto. }
    destruct X as [X|(t & T & ->)]; [auto|right]. split; [apply prefix_append|].
    apply (one_definition pre_do cls (pre_do t)); auto.
    - intros u v. apply sapp_inj.
    - intros s. rewrite one_rd_name. destruct BX; subst; reflexivity.
    - intros d' [<-|J]; [cbn [x_ctor fd_name]|apply in_map_iff in J as (s & <- & _); cbn [x_rff fd_name]]; rewrite names_eqb2, ?String.eqb_refl; cbn [andb].
      + apply String.eqb_neq. intros E. rewrite E in NC. unfold pre_do in NC. rewrite prefix_append in NC. discriminate.
      + reflexivity.
  Qed.
  Lemma writer_calls cls rd nd d x : prefix "do_" cls = false -> In d (writer_funs b ss cls rd nd) -> In x (f_calls d) ->
    prefix "do_wr_" x = true /\ definitions cls x (writer_funs b ss cls rd nd) = 1.
  Proof.
    intros NC I H. rewrite writer_list in *.
    assert (X : exists t, In t (map s_name ss) /\ x = pre_wr t).
    { apply in_app_or in I as [I|I].
      - destruct I as [<-|I]; [contradiction|]. apply in_map_iff in I as (s & <- & I). exists (s_name s).
        split; [apply in_map, tops_in, I|]. cbn in H. intuition.
      - apply in_map_iff in I as (s & <- & I). eapply wr_calls; eauto. }
    destruct X as (t & T & ->). split; [apply prefix_append|].
    apply (one_definition pre_wr cls (pre_wr t)); auto.
    - intros u v. apply sapp_inj.
    - intros s. rewrite one_wr_name. reflexivity.
    - intros d' [<-|J]; [cbn [x_wctor fd_name]|apply in_map_iff in J as (s & <- & _); cbn [x_wtf fd_name]]; rewrite names_eqb2, ?String.eqb_refl; cbn [andb].
      + apply String.eqb_neq. intros E. rewrite E in NC. rewrite pre_wr_do in NC. discriminate.
      + reflexivity.
  Qed.
End Calls.

(** A vector of something that is no struct: the call is there, the definition is not. *)
Lemma vector_call b ss cls s c : (b = B_xml_attrib \/ b = B_xml) -> In s ss -> In c (s_complex s) -> sc_type c = vector_E ->
  prefix "do_" cls = false -> ~ In (sc_tname c) (map s_name ss) ->
  (exists d, In d (reader_funs b ss cls) /\ In (pre_do (sc_tname c)) (f_calls d)) /\
  definitions cls (pre_do (sc_tname c)) (reader_funs b ss cls) = 0.
Proof.
  intros BX I J K NC N. assert (B : b <> B_ini) by (destruct BX; subst; discriminate). split.
  - exists (one_rd b s cls). split.
    + rewrite (reader_list b ss BX cls). apply in_or_app. right. now apply (in_map (fun s => one_rd b s cls)).
    + unfold f_calls. destruct c as [k tn nm]. cbn in K. subst k. destruct BX as [-> | ->]; cbn [one_rd xa_rd_fun xm_rd_fun fd_body].
      * unfold xa_rd_body. rewrite !flat_map_app, !in_app_iff. right. right. right. left. apply in_flat_map.
        exists (if_child [rd_item nm tn]). split; [apply in_flat_map; eexists; split; [exact J|]; cbn; auto|]. cbn. auto.
      * unfold xm_rd_body. rewrite !flat_map_app, !in_app_iff. right. right. left. apply in_flat_map.
        exists (if_child [rd_item nm tn]). split; [apply in_flat_map; eexists; split; [exact J|]; cbn; auto|]. cbn. auto.
  - unfold definitions. rewrite (reader_list b ss BX cls). rewrite filter_none; [reflexivity|]. intros d D.
    apply in_app_or in D as [[<-|D]|D]; [| apply in_map_iff in D as (x & <- & _) | apply in_map_iff in D as (x & <- & X)].
    + cbn [x_ctor fd_name]. rewrite names_eqb2, String.eqb_refl. apply String.eqb_neq. intros E. rewrite E in NC. unfold pre_do in NC. rewrite prefix_append in NC. discriminate.
    + cbn [x_rff fd_name]. rewrite names_eqb2. now rewrite andb_false_r.
    + rewrite one_rd_name, names_eqb2, String.eqb_refl. assert (rd_name b (s_name x) = pre_do (s_name x)) as -> by (destruct BX; subst; reflexivity).
      cbn [andb]. unfold pre_do. rewrite Prog.append_inj. apply String.eqb_neq. intros E. apply N. rewrite <- E. now apply in_map.
Qed.

(** *** Order of the definitions *)
Lemma fold_same ds ds' : NoDup (map def_name ds) -> Permutation ds ds' ->
  i_structs (fold_left (fun i d => add_def d i) ds info0) = i_structs (fold_left (fun i d => add_def d i) ds' info0) /\
  i_enums (fold_left (fun i d => add_def d i) ds info0) = i_enums (fold_left (fun i d => add_def d i) ds' info0).
Proof.
  intros N P. assert (N' : NoDup (map def_name ds')) by (eapply Permutation_NoDup; [apply Permutation_map, P|exact N]).
  assert (S0 : sorted (i_structs info0) /\ sorted (i_enums info0)) by (split; constructor). destruct S0 as [S1 S2].
  destruct (fold_defs_find ds info0 N (fun _ _ => eq_refl) S1 S2) as [F1 G1].
  destruct (fold_defs_find ds' info0 N' (fun _ _ => eq_refl) S1 S2) as [F2 G2].
  destruct (sorted_fold ds info0 S1 S2) as [A1 A2]. destruct (sorted_fold ds' info0 S1 S2) as [B1 B2].
  assert (E : forall d, In d ds <-> In d ds') by (intros d; split; apply Permutation_in; [exact P|now apply Permutation_sym]).
  split; apply sorted_ext; auto; intros k.
  - match goal with |- ?a = ?b => destruct a as [x|] eqn:X, b as [y|] eqn:Y end; auto.
    + apply F1 in X as [X|(ms & I & ->)]; [discriminate|]. assert (Z : mfind k (i_structs (fold_left (fun i d => add_def d i) ds' info0)) = Some (StructS k (simples ms) (complexes ms) 0)).
      { apply F2. right. exists ms. split; [apply E, I|reflexivity]. } congruence.
    + apply F1 in X as [X|(ms & I & ->)]; [discriminate|]. assert (Z : mfind k (i_structs (fold_left (fun i d => add_def d i) ds' info0)) = Some (StructS k (simples ms) (complexes ms) 0)).
      { apply F2. right. exists ms. split; [apply E, I|reflexivity]. } congruence.
    + apply F2 in Y as [Y|(ms & I & ->)]; [discriminate|]. assert (Z : mfind k (i_structs (fold_left (fun i d => add_def d i) ds info0)) = Some (StructS k (simples ms) (complexes ms) 0)).
      { apply F1. right. exists ms. split; [apply E, I|reflexivity]. } congruence.
  - match goal with |- ?a = ?b => destruct a as [x|] eqn:X, b as [y|] eqn:Y end; auto.
    + apply G1 in X as [X|(c & es & t & I & ->)]; [discriminate|]. assert (Z : mfind k (i_enums (fold_left (fun i d => add_def d i) ds' info0)) = Some (EnumS k c (map entry_line es))).
      { apply G2. right. exists c, es, t. split; [apply E, I|reflexivity]. } congruence.
    + apply G1 in X as [X|(c & es & t & I & ->)]; [discriminate|]. assert (Z : mfind k (i_enums (fold_left (fun i d => add_def d i) ds' info0)) = Some (EnumS k c (map entry_line es))).
      { apply G2. right. exists c, es, t. split; [apply E, I|reflexivity]. } congruence.
    + apply G2 in Y as [Y|(c & es & t & I & ->)]; [discriminate|]. assert (Z : mfind k (i_enums (fold_left (fun i d => add_def d i) ds info0)) = Some (EnumS k c (map entry_line es))).
      { apply G1. right. exists c, es, t. split; [apply E, I|reflexivity]. } congruence.
Qed.

(** What the emission depends on. *)
Definition same_items (i j : info) : Prop := i_structs i = i_structs j /\ i_enums i = i_enums j.
Lemma same_type i j t : same_items i j -> get_item_type i t = get_item_type j t.
Proof. intros [A B]. unfold get_item_type. now rewrite A, B. Qed.
Lemma same_fixup i j : same_items i j -> same_items (fst (fixup i)) (fst (fixup j)) /\ snd (fixup i) = snd (fixup j).
Proof.
  intros H. pose proof (fun t => same_type i j t H) as T. destruct H as [A B].
  assert (FM : forall c, fix_member i c = fix_member j c) by (intros c; unfold fix_member; now rewrite T).
  assert (FF : forall c, fix_fails i c = fix_fails j c) by (intros c; unfold fix_fails; now rewrite T).
  unfold fixup, same_items. cbn. rewrite A, B. split; [split; [|reflexivity]|].
  - apply map_ext. intros [n s]. cbn. f_equal. unfold fix_struct. f_equal. apply map_ext, FM.
  - f_equal. clear - FF. induction (i_structs j) as [|[n s] l IH]; [reflexivity|]. cbn. rewrite IH. f_equal.
    induction (s_complex s) as [|c cs IH']; [reflexivity|]. cbn. now rewrite FF, IH'.
Qed.
Lemma same_top i j : same_items i j -> same_items (find_top i) (find_top j).
Proof. intros [A B]. unfold find_top, same_items. cbn. now rewrite A, B. Qed.

Lemma order_free cs cs' ds ds' : text_of cs ds -> text_of cs' ds' -> Permutation ds ds' -> NoDup (map def_name ds) ->
  exists h h' m m', process_input_file (Some cs) (Heap info0 info0) = Some (h, true, m) /\
    process_input_file (Some cs') (Heap info0 info0) = Some (h', true, m') /\
    let i := find_top (fst (fixup (h_self h))) in let i' := find_top (fst (fixup (h_self h'))) in
    snd (fixup (h_self h)) = snd (fixup (h_self h')) /\
    (forall inputs cpp hd info, enum_files i inputs cpp hd info = enum_files i' inputs cpp hd info) /\
    (forall b inputs o cpp hd info, struct_files b i inputs o cpp hd info = struct_files b i' inputs o cpp hd info).
Proof.
  intros T T' P N. assert (N' : NoDup (map def_name ds')) by (eapply Permutation_NoDup; [apply Permutation_map, P|exact N]).
  pose proof (defs_fresh ds info0 info0 N (fun _ _ => eq_refl)) as E. pose proof (defs_fresh ds' info0 info0 N' (fun _ _ => eq_refl)) as E'.
  destruct (input_text cs ds _ _ _ T E) as (sm & PI & _). destruct (input_text cs' ds' _ _ _ T' E') as (sm' & PI' & _).
  do 4 eexists. split; [exact PI|]. split; [exact PI'|]. cbn [h_self].
  assert (S : same_items (set_rv (fold_left (fun i d => add_def d i) ds info0) 0) (set_rv (fold_left (fun i d => add_def d i) ds' info0) 0)) by exact (fold_same ds ds' N P).
  destruct (same_fixup _ _ S) as [S1 S2]. apply same_top in S1. destruct S1 as [A B]. split; [exact S2|]. split.
  - intros. unfold enum_files. now rewrite B.
  - intros. unfold struct_files. now rewrite A.
Qed.

(** *** Entry points in the text *)
Lemma entry_points b i o : b <> B_ini -> forall n,
  ((exists d, In d (file_funs b (map snd (i_structs i)) o) /\ d = rff_fun b (o_reader o) n) <->
   exists s, In s (map snd (i_structs i)) /\ s_name s = n /\ s_incoming s = 0) /\
  (o_only_read o = false ->
   ((exists d, In d (file_funs b (map snd (i_structs i)) o) /\ d = wtf_fun b (o_writer o) n) <->
    exists s, In s (map snd (i_structs i)) /\ s_name s = n /\ s_incoming s = 0)).
Proof.
  intros BN n. set (ss := map snd (i_structs i)).
  assert (T : forall s, In s (tops ss) <-> In s ss /\ s_incoming s = 0) by (intros s; unfold tops; rewrite filter_In, Nat.eqb_eq; reflexivity).
  split.
  - split.
    + intros (d & I & E). unfold file_funs in I. apply in_app_or in I as [I|I].
      * destruct I as [<-|I]; [subst; destruct b; discriminate E|]. apply in_app_or in I as [I|I].
        -- apply in_map_iff in I as (s & <- & I). apply T in I as [I Z]. exists s. split; [exact I|]. split; [|exact Z].
           apply (f_equal fd_params) in E. destruct b; cbn [rff_fun wtf_fun x_rff x_wtf ini_rff ini_wtf fd_params] in E; injection E as E; exact E.
        -- apply in_flat_map in I as (s & _ & I). rewrite (rd_fun_one b s _ BN) in I. destruct I as [<-|[]].
           apply (f_equal fd_name) in E. rewrite one_rd_name in E. destruct b; discriminate E.
      * destruct (o_only_read o); [contradiction|]. destruct I as [<-|I]; [subst; destruct b; discriminate E|]. apply in_app_or in I as [I|I].
        -- apply in_map_iff in I as (s & <- & I). subst. destruct b; discriminate E.
        -- apply in_flat_map in I as (s & _ & I). rewrite (wr_fun_one b s _ _ BN) in I. destruct I as [<-|[]].
           apply (f_equal fd_name) in E. rewrite one_wr_name in E. destruct b; discriminate E.
    + intros (s & I & <- & Z). eexists. split; [|reflexivity]. unfold file_funs. apply in_or_app. left. right. apply in_or_app. left.
      apply (in_map (fun s => rff_fun b (o_reader o) (s_name s))). now apply T.
  - intros O. split.
    + intros (d & I & E). unfold file_funs in I. rewrite O in I. apply in_app_or in I as [I|I].
      * destruct I as [<-|I]; [subst; destruct b; discriminate E|]. apply in_app_or in I as [I|I].
        -- apply in_map_iff in I as (s & <- & I). subst. destruct b; discriminate E.
        -- apply in_flat_map in I as (s & _ & I). rewrite (rd_fun_one b s _ BN) in I. destruct I as [<-|[]].
           apply (f_equal fd_name) in E. rewrite one_rd_name in E. destruct b; discriminate E.
      * destruct I as [<-|I]; [subst; destruct b; discriminate E|]. apply in_app_or in I as [I|I].
        -- apply in_map_iff in I as (s & <- & I). apply T in I as [I Z]. exists s. split; [exact I|]. split; [|exact Z].
           apply (f_equal fd_params) in E. destruct b; cbn [rff_fun wtf_fun x_rff x_wtf ini_rff ini_wtf fd_params] in E; injection E as E; exact E.
        -- apply in_flat_map in I as (s & _ & I). rewrite (wr_fun_one b s _ _ BN) in I. destruct I as [<-|[]].
           apply (f_equal fd_name) in E. rewrite one_wr_name in E. destruct b; discriminate E.
    + intros (s & I & <- & Z). eexists. split; [|reflexivity]. unfold file_funs. rewrite O. apply in_or_app. right. right. apply in_or_app. left.
      apply (in_map (fun s => wtf_fun b (o_writer o) (s_name s))). now apply T.
Qed.
(** Only reading: all functions are of the reader class. *)
Lemma read_only b ss o d : o_only_read o = true -> In d (file_funs b ss o) -> exists f, fd_name d = [o_reader o; f].
Proof.
  intros O I. unfold file_funs in I. rewrite O, app_nil_r in I. destruct I as [<-|I]; [eexists; reflexivity|].
  apply in_app_or in I as [I|I].
  - apply in_map_iff in I as (s & <- & _). destruct b; eexists; reflexivity.
  - apply in_flat_map in I as (s & _ & I). destruct b; cbn in I; intuition; subst; eexists; reflexivity.
Qed.

(** *** The result of process_items *)
Lemma items_result E b base i inputs o w d : dir_for E base o = Some d -> skipped (o_structs_file o) = false ->
  e_write E (cpp_path E d (o_structs_file o)) = true -> e_write E (h_path E d (o_structs_file o)) = true ->
  exists w', process_items E b base i inputs o w = Go (find_top (fst (fixup i)), generated b i o) w'.
Proof.
  intros D S W1 W2. destruct (stamp_text E) as [info SI].
  destruct (process_items_spec E b base i inputs o w info SI) as [(d' & D' & l & ->)|[D' _]]; [|congruence].
  rewrite D in D'. injection D' as <-. eexists. unfold generated, struct_ok_result. now rewrite S, W1, W2.
Qed.
Lemma reach_wf br i x : reach br (Heap i x) -> wf_info i.
Proof. intros R. apply reach_inv in R. apply R. Qed.

(** A line that fits its arguments. *)
Lemma good_line cs c : Forall good_cmd cs -> In c cs -> println (c_t c) (c_args c) = Some (line_text (c_t c) (c_args c) ++ NL)%string.
Proof. rewrite Forall_forall. intros H I. apply println_fits, (H c I). Qed.

(** The definitions fix the calls: every vector is one of structs. *)
Definition vectors_of_structs (ds : list def) : Prop :=
  forall n ms t x, In (DefStruct n ms) ds -> In (MVector t x) ms -> exists ms', In (DefStruct t ms') ds.
Lemma built_elements ds i : built ds i -> NoDup (map def_name ds) -> vectors_of_structs ds ->
  let ss := map snd (i_structs (find_top (fst (fixup i)))) in elements_known ss /\ NoDup (map s_name ss).
Proof.
  intros B N V ss. destruct (built_linked ds i B N) as [_ _ L3 L4 L5]. fold ss in L3, L4, L5. split; [|exact L5].
  intros s c I J K. destruct (L4 s I) as (ms & D & _ & E). rewrite E in J. apply in_resolved in J as (m & J & M).
  assert (X : exists ms', In (DefStruct (sc_tname c) ms') ds).
  { destruct m as [ty y d|t y d|t y]; [contradiction| |]; subst c; cbn in *.
    - destruct K as [K|K]; [now apply kind_struct|]. unfold kind_in in K. destruct (existsb _ _); [discriminate|]. destruct (existsb _ _); discriminate.
    - eapply V; eauto. }
  apply L3 in X as (s' & I' & <-). now apply in_map.
Qed.
