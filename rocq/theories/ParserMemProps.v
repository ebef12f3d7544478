(** The parser's semantic values are built, moved and destroyed correctly: the parser with
    memory does what Bison.v says. *)
From Coq Require Import String Ascii ZArith NArith Arith List Bool Lia.
From Verif Require Import Base Flex BisonTables BisonStos Items Bison Parse ParseCorrect ParserMem Grammar.
Import ListNotations.
Local Open Scope Z_scope.

Definition obj_of (v : sval) : obj := match v with VNone => Raw | VStr s => OStr s | VType t => OType t end.
(** A value has the type that its symbol has. *)
Definition typed (k : option Z) (v : sval) : Prop :=
  match match k with Some k => kind_type k | None => None end with
  | Some TStr => exists s, v = VStr s
  | Some TType => exists t, v = VType t
  | None => v = VNone
  end.
Lemma move_as_ok k v : typed k v -> move_as k Raw (obj_of v) = Some (obj_of v, Raw).
Proof.
  unfold typed, move_as. destruct k as [k|]; [|now intros ->]. destruct (kind_type k) as [[]|]; [intros [s ->]|intros [s ->]|intros ->]; reflexivity.
Qed.
Lemma clear_as_ok k v : typed k v -> clear_as k (obj_of v) = Some Raw.
Proof.
  unfold typed, clear_as. destruct k as [k|]; [|now intros ->]. destruct (kind_type k) as [[]|]; [intros [s ->]|intros [s ->]|intros ->]; reflexivity.
Qed.
Lemma val_obj v : val_of (obj_of v) = v.
Proof. now destruct v. Qed.

Definition mk (e : Z * sval) : ssym := SSym (fst e) (obj_of (snd e)).
Definition ok (e : Z * sval) : Prop := exists k, kind_of (fst e) = Some k /\ typed k (snd e).
Lemma drop_ok e : ok e -> drop_ssym (mk e) = true.
Proof. intros (k & K & T). unfold drop_ssym, mk. cbn [y_state y_obj]. now rewrite K, (clear_as_ok _ _ T). Qed.
Lemma move_new_ok e : ok e -> move_new (mk e) = Some (mk e, SSym 0 Raw).
Proof. intros (k & K & T). unfold move_new, mk. cbn [y_state y_obj]. now rewrite K, (move_as_ok _ _ T). Qed.
Lemma reallocate_ok l : Forall ok l -> reallocate (map mk l) = Some (map mk l).
Proof. induction 1 as [|e l E _ IH]; cbn [reallocate map]; [reflexivity|]. rewrite (move_new_ok e E). change (drop_ssym (SSym 0 Raw)) with true. cbn iota. now rewrite IH. Qed.
Lemma push_ok b l e : Forall ok l -> ok e -> push b (map mk l) (mk e) = Some (map mk (e :: l), SSym 0 Raw).
Proof.
  intros F (k & K & T). unfold push. replace (if b then reallocate (map mk l) else Some (map mk l)) with (Some (map mk l)) by (destruct b; [now rewrite reallocate_ok|reflexivity]).
  change (move_new (SSym 0 Raw)) with (Some (SSym 0 Raw, SSym 0 Raw)). cbn iota beta. change (drop_ssym (SSym 0 Raw)) with true. cbn iota.
  unfold move_into, mk at 1. cbn [y_state y_obj mk]. now rewrite K, (move_as_ok _ _ T).
Qed.
Lemma push_sym_ok b l t k v : Forall ok l -> typed k v -> ok (t, v) -> push_sym b (map mk l) t (Sym k (obj_of v)) = Some (map mk ((t, v) :: l), Sym None Raw).
Proof.
  intros F T O. unfold push_sym, of_sym. cbn [y_kind y_val]. rewrite (move_as_ok _ _ T). cbn iota beta. change (SSym t (obj_of v)) with (mk (t, v)). now rewrite (push_ok b l (t, v) F O).
Qed.
Lemma pop_ok n : forall l, Forall ok l -> (n <= length l)%nat -> pop n (map mk l) = Some (map mk (skipn n l)).
Proof.
  induction n as [|n IH]; intros l F L; [reflexivity|]. destruct l as [|e l]; [cbn in L; lia|]. inversion F; subst. cbn [pop map skipn]. rewrite drop_ok by assumption. apply IH; [assumption|cbn in L; lia].
Qed.
Lemma view_mk l : view (map mk l) = l.
Proof. unfold view. rewrite map_map. transitivity (map (fun e => e) l); [apply map_ext; intros [s v]; cbn [mk y_state y_obj fst snd]; now rewrite val_obj|apply map_id]. Qed.

(** *** Facts about the tables *)
Definition zs (n : nat) : list Z := map Z.of_nat (seq 0 n).
Lemma zget_in {A} (l : list A) i x : zget l i = Some x -> In i (zs (length l)).
Proof.
  unfold zget. destruct (Z.ltb_spec i 0); [discriminate|]. intros H0. apply in_map_iff. exists (Z.to_nat i). split; [lia|].
  apply in_seq. assert (Z.to_nat i < length l)%nat by (apply nth_error_Some; congruence). lia.
Qed.
Definition shift_fact (s n : Z) : bool :=
  match zget yypact_ s, zget yycheck_ n, zget yytable_ n with
  | Some p, Some k, Some t =>
      negb (p + k =? n) || (p =? yypact_ninf_) || (t <=? 0) || negb (t =? 0) && match zget yystos_ t with Some k' => k' =? k | None => false end
  | _, _, _ => false
  end.
Lemma shift_facts : forallb (fun s => forallb (shift_fact s) (zs 66)) (zs 96) = true.
Proof. vm_compute. reflexivity. Qed.
Lemma shift_ok s p k n t : zget yypact_ s = Some p -> (p =? yypact_ninf_) = false -> n = p + k -> zget yycheck_ n = Some k -> zget yytable_ n = Some t -> (t <=? 0) = false ->
  kind_of t = Some (Some k).
Proof.
  intros P NI N C T L. assert (IS : In s (zs 96)) by (apply (zget_in _ _ _ P)). assert (IN : In n (zs 66)) by (apply (zget_in _ _ _ T)).
  pose proof shift_facts as F. rewrite forallb_forall in F. specialize (F s IS). rewrite forallb_forall in F. specialize (F n IN). unfold shift_fact in F.
  rewrite P, C, T, NI, L in F. subst n. rewrite Z.eqb_refl in F. cbn [negb orb] in F. apply andb_true_iff in F as [F1 F2]. apply negb_true_iff in F1.
  unfold kind_of. rewrite F1. destruct (zget yystos_ t) as [k'|]; [|discriminate F2]. apply Z.eqb_eq in F2 as ->. reflexivity.
Qed.
Definition goto_fact (s r : Z) : bool :=
  (r <=? 1) || match zget yyr1_ r with
  | Some l => match goto_state s l with Some g => negb (g =? 0) && match zget yystos_ g with Some k => k =? l | None => false end | None => true end
  | None => true
  end.
Lemma goto_facts : forallb (fun s => forallb (goto_fact s) (zs 69)) (zs 96) = true.
Proof. vm_compute. reflexivity. Qed.
Lemma goto_ok s r l g : In s (zs 96) -> r <> 1 -> zget yyr1_ r = Some l -> goto_state s l = Some g -> kind_of g = Some (Some l).
Proof.
  intros IS N1 R G. assert (IR : In r (zs 69)) by (apply (zget_in _ _ _ R)).
  pose proof goto_facts as F. rewrite forallb_forall in F. specialize (F s IS). rewrite forallb_forall in F. specialize (F r IR). unfold goto_fact in F.
  destruct (Z.leb_spec r 1) as [L|L].
  - assert (r = 0) as ->. { apply in_map_iff in IR as (x & <- & _). lia. } vm_compute in R. injection R as <-. unfold goto_state in G. vm_compute in G. discriminate G.
  - rewrite R, G in F. cbn [orb] in F. apply andb_true_iff in F as [F1 F2]. apply negb_true_iff in F1.
    unfold kind_of. rewrite F1. destruct (zget yystos_ g) as [k'|]; [|discriminate F2]. apply Z.eqb_eq in F2 as ->. reflexivity.
Qed.
Lemma default_not_1 s r : zget yydefact_ s = Some r -> (s =? yyfinal_) = false -> r <> 1.
Proof.
  intros D F. assert (IS : In s (zs 96)) by (apply (zget_in _ _ _ D)).
  assert (A : forallb (fun s => (s =? yyfinal_) || match zget yydefact_ s with Some r => negb (r =? 1) | None => true end) (zs 96) = true) by (vm_compute; reflexivity).
  rewrite forallb_forall in A. specialize (A s IS). rewrite F, D in A. cbn [orb] in A. apply negb_true_iff, Z.eqb_neq in A. exact A.
Qed.
(** The states that shift the error token: there are none. *)
Lemma no_error_shift s p t : zget yypact_ s = Some p -> (p =? yypact_ninf_) = false -> zget yycheck_ (p + 1) = Some 1 -> zget yytable_ (p + 1) = Some t -> (0 <? t) = false.
Proof.
  intros P NI C T. assert (IS : In s (zs 96)) by (apply (zget_in _ _ _ P)).
  assert (A : forallb (fun s => match zget yypact_ s with Some p => match zget yycheck_ (p + 1) with Some c => negb (c =? 1) | None => true end | None => true end) (zs 96) = true) by (vm_compute; reflexivity).
  rewrite forallb_forall in A. specialize (A s IS). rewrite P, C in A. discriminate A.
Qed.

(** The action of a rule gives a value of the type of the left-hand side. *)
Lemma semantic_typed r l stk v calls : zget yyr1_ r = Some l -> semantic r stk = Some (v, calls) -> typed (Some l) v.
Proof.
  intros R S. assert (IR : In r (zs 69)) by (apply (zget_in _ _ _ R)).
  assert (D : forall (A B : Type) (x : option A) (f : A -> option B) y, (let? a := x in f a) = Some y -> exists a, x = Some a /\ f a = Some y) by (intros A B [a|] f y E; [eauto|discriminate E]).
  cbn in IR. repeat (destruct IR as [<-|IR]; [vm_compute in R; injection R as <-; unfold semantic in S;
    repeat (apply D in S as (? & _ & S)); injection S as <- _; unfold typed; cbn; eauto|]). destruct IR.
Qed.
Lemma kind_of_in s k : kind_of s = Some k -> In s (zs 96).
Proof.
  unfold kind_of. destruct (Z.eqb_spec s 0) as [->|N]; [intros _; now left|]. destruct (zget yystos_ s) as [k'|] eqn:E; [|discriminate]. intros _. exact (zget_in _ _ _ E).
Qed.
Lemma pop_error_none l : forall r, pop_error l = Some r -> r = None.
Proof.
  induction l as [|[s v] l IH]; intros r H; [discriminate H|]. cbn [pop_error] in H. destruct (zget yypact_ s) as [p|] eqn:P; [|discriminate H].
  assert (C : match l with [] => Some None | _ => pop_error l end = Some r -> r = None) by (destruct l; [congruence|apply IH]).
  destruct (p =? yypact_ninf_) eqn:NI; [exact (C H)|]. destruct ((0 <=? p + 1) && (p + 1 <=? yylast_)); [|exact (C H)].
  destruct (zget yycheck_ (p + 1)) as [c|] eqn:K; [|discriminate H]. destruct (Z.eqb_spec c 1) as [->|]; [|exact (C H)].
  destruct (zget yytable_ (p + 1)) as [t|] eqn:T; [|discriminate H]. rewrite (no_error_shift s p t P NI K T) in H. exact (C H).
Qed.
Lemma mpop_ok l : Forall ok l -> pop_error l = Some None -> exists e, ok e /\ mpop_error (map mk l) = Some ([mk e], None).
Proof.
  induction l as [|[s v] l IH]; intros F H; [discriminate H|]. inversion F as [|x y E F']; subst. cbn [pop_error] in H. cbn [map mpop_error]. change (y_state (mk (s, v))) with s.
  destruct (zget yypact_ s) as [p|] eqn:P; [|discriminate H]. rewrite (drop_ok _ E).
  assert (C : match l with [] => Some None | _ => pop_error l end = Some None ->
    exists e, ok e /\ match map mk l with [] => Some ([mk (s, v)], None) | _ => mpop_error (map mk l) end = Some ([mk e], None)).
  { destruct l as [|e' l]; [intros _; exists (s, v); auto|]. intros H'. destruct (IH F' H') as (e & O & M). exists e. auto. }
  destruct l as [|e' l].
  - cbn [map] in *. destruct (p =? yypact_ninf_) eqn:NI; [exact (C H)|]. cbv zeta in *. destruct ((0 <=? p + 1) && (p + 1 <=? yylast_)); [|exact (C H)].
    destruct (zget yycheck_ (p + 1)) as [c|] eqn:K; [|discriminate H]. destruct (Z.eqb_spec c 1) as [->|]; [|exact (C H)].
    destruct (zget yytable_ (p + 1)) as [t|] eqn:T; [|discriminate H]. rewrite (no_error_shift s p t P NI K T) in *. exact (C H).
  - cbn [map] in *. destruct (p =? yypact_ninf_) eqn:NI; [exact (C H)|]. cbv zeta in *. destruct ((0 <=? p + 1) && (p + 1 <=? yylast_)); [|exact (C H)].
    destruct (zget yycheck_ (p + 1)) as [c|] eqn:K; [|discriminate H]. destruct (Z.eqb_spec c 1) as [->|]; [|exact (C H)].
    destruct (zget yytable_ (p + 1)) as [t|] eqn:T; [|discriminate H]. rewrite (no_error_shift s p t P NI K T) in *. exact (C H).
Qed.

Section Sim.
  Variable src : Type.
  Variable next : src -> loc -> option (src * loc * list event * option token).
  Variable full : nat -> bool.
  Hypothesis NEXT : forall s l s' l' evs t, next s l = Some (s', l', evs, Some t) -> good_token t.

  Definition la_of (a : option (Z * sval)) : sym := match a with Some (k, v) => Sym (Some k) (obj_of v) | None => Sym None Raw end.
  Definition la_ok (a : option (Z * sval)) : Prop := match a with Some (k, v) => typed (Some k) v | None => True end.
  Record rel (c : cfg src) (m : mem src) : Prop := Rel {
    r_stk : m_stk m = map mk (c_stk c);
    r_ok : Forall ok (c_stk c);
    r_la : m_la m = la_of (c_la c);
    r_lok : la_ok (c_la c);
    r_loc : m_loc m = c_loc c;
    r_src : m_src m = c_src c;
    r_err : m_err m = c_err c }.
  Definition res_rel (r : res src) (r' : mres src) : Prop :=
    match r, r' with
    | Go c, MGo m => rel c m
    | Done rv, MDone rv' m => rv = rv' /\ all_gone m = true
    | _, _ => False
    end.
  Definition sim (x : option (list out * res src)) (y : option (list out * mres src)) : Prop :=
    match x with Some (o, r) => exists r', y = Some (o, r') /\ res_rel r r' | None => True end.

  Lemma la_gone a : la_ok a -> drop_sym (la_of a) = true.
  Proof.
    destruct a as [[k v]|]; [|reflexivity]. cbn [la_ok la_of]. intros T. unfold drop_sym, clear_sym. cbn [y_kind y_val]. now rewrite (clear_as_ok _ _ T).
  Qed.
  Lemma gone c m : rel c m -> all_gone m = true.
  Proof.
    intros []. unfold all_gone. rewrite r_stk0, r_la0. apply andb_true_iff. split; [|now apply la_gone].
    apply forallb_forall. intros y I. apply in_map_iff in I as (e & <- & I). rewrite Forall_forall in r_ok0. apply drop_ok. auto.
  Qed.
  Lemma errlab1_sim c m o : rel c m -> sim (errlab1 c o) (merrlab1 full m o).
  Proof.
    intros R. unfold errlab1, sim. destruct (pop_error (c_stk c)) as [r|] eqn:E; [|exact I]. pose proof (pop_error_none _ _ E) as ->.
    destruct (mpop_ok _ (r_ok _ _ R) E) as (e & O & M). unfold merrlab1. rewrite (r_stk _ _ R), M. eexists. split; [reflexivity|]. split; [reflexivity|].
    unfold all_gone. cbn [m_stk m_la forallb]. rewrite (drop_ok _ O), (r_la _ _ R), (la_gone _ (r_lok _ _ R)). reflexivity.
  Qed.
  Lemma syntax_error_value s k v v' : syntax_error s (Some (k, v)) = syntax_error s (Some (k, v')).
  Proof. reflexivity. Qed.
  Lemma errlab_sim c m o : rel c m -> sim (errlab c o) (merrlab full m o).
  Proof.
    intros R. unfold errlab, merrlab.
    assert (H : (if m_err m =? 0 then
                  let? y := nth_error (m_stk m) 0 in
                  let? t := syntax_error (y_state y) (match y_kind (m_la m) with Some k => Some (k, VNone) | None => None end) in
                  Some (o ++ [OErr (error_text (m_loc m) t)])
                else Some o) =
               (if c_err c =? 0 then
                  let? (s, _) := nth_error (c_stk c) 0 in
                  let? m := syntax_error s (c_la c) in
                  Some (o ++ [OErr (error_text (c_loc c) m)])
                else Some o)).
    { rewrite (r_err _ _ R). destruct (c_err c =? 0); [|reflexivity]. rewrite (r_stk _ _ R), (r_la _ _ R), (r_loc _ _ R).
      destruct (c_stk c) as [|[s v] l]; [reflexivity|]. cbn [map nth_error mk y_state fst]. destruct (c_la c) as [[k w]|]; cbn [la_of y_kind]; [rewrite (syntax_error_value s k VNone w)|]; reflexivity. }
    rewrite H. clear H.
    match goal with |- sim (match ?x with _ => _ end) _ => destruct x as [o'|]; [|exact I] end.
    rewrite (r_err _ _ R). destruct (c_err c =? 3); [|now apply errlab1_sim].
    rewrite (r_la _ _ R). pose proof (r_lok _ _ R) as L. destruct (c_la c) as [[k v]|] eqn:LA; cbn [la_of y_kind].
    - assert (CL : clear_sym (Sym (Some k) (obj_of v)) = Some (Sym None Raw)) by (unfold clear_sym; cbn [y_kind y_val]; now rewrite (clear_as_ok _ _ L)).
      assert (S0 : sim (errlab1 (Cfg (c_stk c) None (c_loc c) (c_src c) (c_err c)) o')
                       (let? y := clear_sym (Sym (Some k) (obj_of v)) in merrlab1 full (Mem (m_stk m) y (m_loc m) (m_src m) (m_err m) (m_n m)) o')).
      { rewrite CL. apply errlab1_sim. destruct R. constructor; cbn [m_stk m_la m_loc m_src m_err c_stk c_la c_loc c_src c_err la_of la_ok]; auto. }
      destruct k as [|p|p]; [|rewrite (r_err _ _ R) in S0; exact S0..].
      eexists. split; [reflexivity|]. split; [reflexivity|exact (gone _ _ R)].
    - replace m with (Mem (m_stk m) (m_la m) (m_loc m) (m_src m) (m_err m) (m_n m)) by (destruct m; reflexivity). apply errlab1_sim.
      destruct R. constructor; cbn [m_stk m_la m_loc m_src m_err c_stk c_la c_loc c_src c_err la_of la_ok]; auto. now rewrite r_la0, LA.
  Qed.
  Lemma reduce_sim c m o r : rel c m -> r <> 1 -> sim (reduce r c o) (mreduce full r m o).
  Proof.
    intros R N1. unfold reduce, mreduce. destruct (zget yyr2_ r) as [len|]; [|exact I]. destruct (zget yyr1_ r) as [lhs|] eqn:LH; [|exact I].
    rewrite (r_stk _ _ R). rewrite nth_error_map. destruct (nth_error (c_stk c) (Z.to_nat len)) as [[s v0]|] eqn:NE; [|exact I]. cbn [option_map mk y_state fst].
    destruct (goto_state s lhs) as [g|] eqn:GO; [|exact I]. rewrite view_mk.
    destruct (semantic r (c_stk c)) as [[v calls]|] eqn:SE; [|destruct (match kind_type lhs with Some TStr => _ | Some TType => _ | None => _ end); exact I].
    pose proof (semantic_typed _ _ _ _ _ LH SE) as TY.
    assert (O0 : ok (s, v0)) by (pose proof (r_ok _ _ R) as F; rewrite Forall_forall in F; exact (F _ (nth_error_In _ _ NE))).
    destruct O0 as (k0 & K0 & _). cbn [fst] in K0. pose proof (goto_ok _ _ _ _ (kind_of_in _ _ K0) N1 LH GO) as KG.
    assert (B : exists b, (match kind_type lhs with Some TStr => emplace Raw (OStr "") | Some TType => emplace Raw (OType bool_E) | None => Some Raw end) = Some b /\ assign b v = Some (obj_of v)).
    { unfold typed in TY. destruct (kind_type lhs) as [[]|]; [destruct TY as [x ->]|destruct TY as [x ->]|subst v]; eexists; split; reflexivity. }
    destruct B as (b & B1 & B2). rewrite B1, B2.
    assert (LE : (Z.to_nat len < length (c_stk c))%nat) by (apply nth_error_Some; congruence).
    rewrite pop_ok; [|exact (r_ok _ _ R)|lia].
    change (SSym g (obj_of v)) with (mk (g, v)).
    assert (OG : ok (g, v)) by (exists (Some lhs); auto).
    assert (FS : Forall ok (skipn (Z.to_nat len) (c_stk c))).
    { pose proof (r_ok _ _ R) as F. rewrite <- (firstn_skipn (Z.to_nat len) (c_stk c)) in F. apply Forall_app in F. tauto. }
    rewrite (push_ok _ _ _ FS OG). change (drop_ssym (SSym 0 Raw)) with true. cbn iota beta. eexists. split; [reflexivity|].
    destruct R. constructor; cbn [m_stk m_la m_loc m_src m_err c_stk c_la c_loc c_src c_err]; auto.
  Qed.
  Lemma dflt_sim c m o s : rel c m -> (s =? yyfinal_) = false -> sim (dflt s c o) (mdflt full s m o).
  Proof.
    intros R F. unfold dflt, mdflt. destruct (zget yydefact_ s) as [r|] eqn:D; [|exact I]. destruct (r =? 0); [now apply errlab_sim|]. apply reduce_sim; [exact R|]. exact (default_not_1 _ _ D F).
  Qed.
  Lemma token_typed t : good_token t -> typed (Some (Z.of_N (t_kind t))) (match t_val t with Some x => VStr x | None => VNone end).
  Proof.
    intros [L V]. unfold typed, kind_type. set (k := Z.of_N (t_kind t)).
    destruct (Z.eqb_spec k 66) as [E|_]; [unfold k in E; lia|].
    destruct (t_val t) as [x|].
    - replace ((24 <=? k) && (k <=? 30)) with true by (symmetry; apply andb_true_iff; split; apply Z.leb_le; unfold k; lia). cbn [orb]. eauto.
    - assert (H : (24 <=? k) && (k <=? 30) || (k =? 56) || (k =? 67) || (k =? 68) || (k =? 69) = false).
      { repeat (apply orb_false_iff; split); try (apply Z.eqb_neq; unfold k; lia). apply andb_false_iff. left. apply Z.leb_gt. unfold k. lia. }
      rewrite H. reflexivity.
  Qed.
  Lemma after_sim c m o s p k v : rel c m -> c_la c = Some (k, v) ->
    (s =? yyfinal_) = false -> zget yypact_ s = Some p -> (p =? yypact_ninf_) = false ->
    sim (if k =? 1 then errlab1 (Cfg (c_stk c) (Some (2, v)) (c_loc c) (c_src c) (c_err c)) o
      else
        let n := p + k in
        if (n <? 0) || (yylast_ <? n) then dflt s c o
        else
          let? ck := zget yycheck_ n in
          if negb (ck =? k) then dflt s c o
          else
            let? t := zget yytable_ n in
            if t <=? 0 then
              if t =? yytable_ninf_ then errlab c o else reduce (- t) c o
            else
              Some (o, Go (Cfg ((t, v) :: c_stk c) None (c_loc c) (c_src c) (if c_err c =? 0 then 0 else c_err c - 1))))
      (if k =? 1 then merrlab1 full (Mem (m_stk m) (Sym (Some 2) (y_val (m_la m))) (m_loc m) (m_src m) (m_err m) (m_n m)) o
      else
        let n := p + k in
        if (n <? 0) || (yylast_ <? n) then mdflt full s m o
        else
          let? ck := zget yycheck_ n in
          if negb (ck =? k) then mdflt full s m o
          else
            let? t := zget yytable_ n in
            if t <=? 0 then
              if t =? yytable_ninf_ then merrlab full m o else mreduce full (- t) m o
            else
              let? (l, la) := push_sym (full (m_n m)) (m_stk m) t (m_la m) in
              Some (o, MGo (Mem l la (m_loc m) (m_src m) (if m_err m =? 0 then 0 else m_err m - 1) (S (m_n m))))).
  Proof.
    intros R LA F P NI. pose proof (r_lok _ _ R) as L. rewrite LA in L. cbn [la_ok] in L. pose proof (r_la _ _ R) as ML. rewrite LA in ML. cbn [la_of] in ML.
    destruct (Z.eqb_spec k 1) as [->|K1].
    { apply errlab1_sim. destruct R. constructor; cbn [m_stk m_la m_loc m_src m_err c_stk c_la c_loc c_src c_err la_of la_ok]; auto. now rewrite ML. }
    cbv zeta. destruct ((p + k <? 0) || (yylast_ <? p + k)); [now apply dflt_sim|].
    destruct (zget yycheck_ (p + k)) as [ck|] eqn:CK; [|exact I]. destruct (Z.eqb_spec ck k) as [->|]; cbn [negb]; [|now apply dflt_sim].
    destruct (zget yytable_ (p + k)) as [t|] eqn:T; [|exact I]. destruct (t <=? 0) eqn:TL.
    - destruct (Z.eqb_spec t yytable_ninf_) as [->|TN]; [now apply errlab_sim|]. apply reduce_sim; [exact R|]. unfold yytable_ninf_ in TN. lia.
    - pose proof (shift_ok s p k _ t P NI eq_refl CK T TL) as KT. rewrite (r_stk _ _ R), ML.
      rewrite (push_sym_ok _ _ t (Some k) v (r_ok _ _ R) L) by (exists (Some k); auto). eexists. split; [reflexivity|].
      destruct R. constructor; cbn [m_stk m_la m_loc m_src m_err c_stk c_la c_loc c_src c_err la_of la_ok]; auto; [|now rewrite r_err0].
      constructor; [exists (Some k); auto|auto].
  Qed.
  Lemma step_sim c m : rel c m -> sim (step next c) (mstep next full m).
  Proof.
    intros R. unfold step, mstep. rewrite (r_stk _ _ R), nth_error_map. destruct (nth_error (c_stk c) 0) as [[s v0]|] eqn:N0; [|exact I]. cbn [option_map mk y_state fst].
    destruct (s =? yyfinal_) eqn:F; [eexists; split; [reflexivity|]; split; [reflexivity|exact (gone _ _ R)]|].
    destruct (zget yypact_ s) as [p|] eqn:P; [|exact I]. destruct (p =? yypact_ninf_) eqn:NI; [now apply dflt_sim|].
    rewrite (r_la _ _ R). destruct (c_la c) as [[k v]|] eqn:LA.
    - cbn [la_of y_kind]. pose proof (after_sim c m [] s p k v R LA F P NI) as A. cbv zeta in A |- *. exact A.
    - cbn [la_of y_kind]. rewrite (r_src _ _ R), (r_loc _ _ R). destruct (next (c_src c) (c_loc c)) as [[[[src' l'] evs] tk]|] eqn:NX; [|exact I].
      set (kv := match tk with None => (0, VNone) | Some t => (Z.of_N (t_kind t), match t_val t with Some x => VStr x | None => VNone end) end).
      assert (RT : read_token (Sym None Raw) tk = Some (la_of (Some kv)) /\ la_ok (Some kv)).
      { destruct tk as [t|]; [|split; reflexivity]. pose proof (token_typed t (NEXT _ _ _ _ _ _ NX)) as TT. split; [|exact TT]. unfold read_token, kv. cbn [y_val]. destruct (t_val t); reflexivity. }
      destruct RT as [RT LK]. rewrite RT. destruct kv as [k v] eqn:KV. cbn [la_of y_kind fst snd].
      set (c1 := Cfg (c_stk c) (Some (k, v)) l' src' (c_err c)). set (m1 := Mem (m_stk m) (Sym (Some k) (obj_of v)) l' src' (m_err m) (m_n m)).
      assert (R1 : rel c1 m1) by (destruct R; constructor; cbn; auto).
      pose proof (after_sim c1 m1 (map OLex evs) s p k v R1 eq_refl F P NI) as A. cbv zeta in A |- *. rewrite <- (r_stk _ _ R). exact A.
  Qed.
  Lemma drive_sim fuel : forall c m x, rel c m -> drive next fuel c = Some x -> mdrive next full fuel m = Some x.
  Proof.
    induction fuel as [|f IH]; intros c m x R D; [discriminate D|]. cbn [drive mdrive] in *. pose proof (step_sim c m R) as S0.
    destruct (step next c) as [[o r]|]; [|discriminate D]. destruct S0 as (r' & -> & RR).
    destruct r as [c'|rv], r' as [m'|rv' m']; cbn [res_rel] in RR; try contradiction.
    - destruct (drive next f c') as [[o' rv]|] eqn:E; [|discriminate D]. rewrite (IH _ _ _ RR E). exact D.
    - destruct RR as [<- G]. rewrite G. exact D.
  Qed.
  Theorem parse_sim fuel s x : drive next fuel (cfg0 s) = Some x -> mparse next full fuel s = Some x.
  Proof.
    intros D. unfold mparse. assert (E : push_sym (full 0%nat) [] 0 (Sym None Raw) = Some ([SSym 0 Raw], Sym None Raw)) by (destruct (full 0%nat); reflexivity).
    rewrite E. apply (drive_sim fuel (cfg0 s)); [|exact D]. constructor; try reflexivity. repeat constructor. exists None. split; reflexivity.
  Qed.
End Sim.
