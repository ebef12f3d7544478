(** Invariants of the item store. *)
From Coq Require Import String Ascii ZArith NArith Arith List Bool Lia.
From Verif Require Import Base Map Flex Items Bison Store Resolve.
Import ListNotations.
Local Open Scope list_scope.

Local Arguments mkeys : simpl never.

(** Everything that can happen to the item stores of a run of the program.
    [reach false h]: [h_self h] is the common (or only) object.
    [reach true h]: [h_self h] is a section's copy of the common object [h_common h]. *)
Inductive reach : bool -> heap -> Prop :=
| R_start : reach false (Heap info0 info0)
| R_call : forall b h c h' r m, reach b h -> apply_call c h = Some (h', r, m) -> reach b h'
| R_rv : forall b h rv, reach b h -> reach b (Heap (set_rv (h_self h) rv) (h_common h))
| R_fixup : forall b h, reach b h -> reach b (Heap (fst (fixup (h_self h))) (h_common h))
| R_top : forall b h, reach b h -> reach b (Heap (find_top (h_self h)) (h_common h))
| R_first_section : forall h, reach false h -> reach true (Heap (copy_info (h_self h)) (h_self h))
| R_next_section : forall h, reach true h -> reach true (Heap (copy_info (h_common h)) (h_common h)).

(** One name space: a name occurs once, as a struct or as an enum, and lookup says so. *)
Definition one_namespace (i : info) : Prop :=
  NoDup (mkeys (i_structs i) ++ mkeys (i_enums i)) /\
  (forall n, get_item_type i n = struct_E <-> In n (mkeys (i_structs i))) /\
  (forall n, get_item_type i n = enum_E <-> In n (mkeys (i_enums i))) /\
  (forall n, get_item_type i n = unknown_E <->
             ~ In n (mkeys (i_structs i)) /\ ~ In n (mkeys (i_enums i))) /\
  (forall n s, mfind n (i_structs i) = Some s -> s_name s = n) /\
  (forall n e, mfind n (i_enums i) = Some e -> e_name e = n).

Record wf_info (i : info) : Prop := {
  wf_ss : sorted (i_structs i);
  wf_se : sorted (i_enums i);
  wf_disj : forall n, In n (mkeys (i_structs i)) -> In n (mkeys (i_enums i)) -> False;
  wf_sn : forall n s, mfind n (i_structs i) = Some s -> s_name s = n;
  wf_en : forall n e, mfind n (i_enums i) = Some e -> e_name e = n }.

Definition sptr_ok (h : heap) : Prop :=
  match i_cur_struct (h_self h) with
  | None => True | Some (w, n) => In n (mkeys (i_structs (obj h w))) end.
Definition eptr_ok (h : heap) : Prop :=
  match i_cur_enum (h_self h) with
  | None => True | Some (w, n) => In n (mkeys (i_enums (obj h w))) end.
Definition home_of (p : option (home * string)) : option home := option_map fst p.
Definition own (i : info) : Prop :=
  home_of (i_cur_struct i) <> Some HCommon /\ home_of (i_cur_enum i) <> Some HCommon.
Definition one_ptr (i : info) : Prop := i_cur_struct i = None \/ i_cur_enum i = None.

Record inv (b : bool) (h : heap) : Prop := {
  inv_self : wf_info (h_self h);
  inv_common : wf_info (h_common h);
  inv_s : sptr_ok h;
  inv_e : eptr_ok h;
  inv_one : one_ptr (h_self h);
  inv_c1 : own (h_common h);
  inv_c2 : sptr_ok (Heap (h_common h) info0);
  inv_c3 : eptr_ok (Heap (h_common h) info0);
  inv_c4 : one_ptr (h_common h);
  inv_own : b = false -> own (h_self h) }.

(** ** Sorted maps have no duplicate keys *)
Lemma sorted_nodup {A} (m : smap A) : sorted m -> NoDup (mkeys m).
Proof.
  induction m as [|[k a] m IH]; intros Hs; cbn; constructor.
  - intros Hin. apply (slt_irrefl k). eapply sorted_lt; eauto.
  - apply IH. inversion Hs; auto.
Qed.

Lemma type_struct i n : get_item_type i n = struct_E <-> In n (mkeys (i_structs i)).
Proof.
  unfold get_item_type. rewrite mfind_some. destruct (mfind n (i_structs i)) eqn:E.
  - split; eauto.
  - split; [destruct (mfind n (i_enums i)); discriminate|]. intros [a H]; discriminate.
Qed.

Lemma type_unknown i n : get_item_type i n = unknown_E <->
  ~ In n (mkeys (i_structs i)) /\ ~ In n (mkeys (i_enums i)).
Proof.
  unfold get_item_type. rewrite <- !mfind_none.
  destruct (mfind n (i_structs i)), (mfind n (i_enums i)); split; try discriminate; try tauto;
    intros [? ?]; discriminate.
Qed.

Lemma type_enum i n : wf_info i -> (get_item_type i n = enum_E <-> In n (mkeys (i_enums i))).
Proof.
  intros W. unfold get_item_type. split.
  - destruct (mfind n (i_structs i)); [discriminate|]. rewrite mfind_some.
    destruct (mfind n (i_enums i)); [eauto|discriminate].
  - intros Hin. destruct (mfind n (i_structs i)) eqn:E.
    + exfalso. apply (wf_disj _ W n); [apply mfind_some; eauto|exact Hin].
    + apply mfind_some in Hin as [a ->]. reflexivity.
Qed.

Lemma type_cases i n :
  get_item_type i n = struct_E \/ get_item_type i n = enum_E \/ get_item_type i n = unknown_E.
Proof. unfold get_item_type. destruct (mfind n (i_structs i)), (mfind n (i_enums i)); auto. Qed.

Lemma wf_one i : wf_info i -> one_namespace i.
Proof.
  intros W. split; [|split; [apply type_struct|split; [intros n; apply type_enum, W|
    split; [apply type_unknown|split; [apply W|apply W]]]]].
  pose proof (sorted_nodup _ (wf_ss _ W)) as H1. pose proof (sorted_nodup _ (wf_se _ W)) as H2.
  pose proof (wf_disj _ W) as H3. clear W.
  induction (mkeys (i_structs i)) as [|k l IH]; cbn; auto.
  inversion H1; subst. constructor.
  - rewrite in_app_iff. intros [H|H]; [auto|]. apply (H3 k); cbn; auto.
  - apply IH; auto. intros n Hn. apply H3; cbn; auto.
Qed.

(** ** Updates through a pointer *)
Lemma wf_upd_structs i k f : (forall s, s_name (f s) = s_name s) ->
  wf_info i -> wf_info (set_structs i (mupd k f (i_structs i))).
Proof.
  intros Hf W. constructor; cbn.
  - apply mupd_sorted, W.
  - apply W.
  - intros n'. rewrite mupd_keys. apply W.
  - intros n s. rewrite mfind_mupd. destruct (String.eqb n k); [|apply W].
    destruct (mfind n (i_structs i)) eqn:E; cbn; [|discriminate]. intros [= <-]. rewrite Hf. apply (wf_sn _ W); auto.
  - apply W.
Qed.

Lemma wf_upd_enums i k f : (forall e, e_name (f e) = e_name e) ->
  wf_info i -> wf_info (set_enums i (mupd k f (i_enums i))).
Proof.
  intros Hf W. constructor; cbn.
  - apply W.
  - apply mupd_sorted, W.
  - intros n'. rewrite mupd_keys. apply W.
  - apply W.
  - intros n e. rewrite mfind_mupd. destruct (String.eqb n k); [|apply W].
    destruct (mfind n (i_enums i)) eqn:E; cbn; [|discriminate]. intros [= <-]. rewrite Hf. apply (wf_en _ W); auto.
Qed.

Lemma inv_upd_structs b h w k f : (forall s, s_name (f s) = s_name s) ->
  inv b h -> inv b (set_obj h w (set_structs (obj h w) (mupd k f (i_structs (obj h w))))).
Proof.
  intros Hf [W1 W2 Hs He H1 C1 C2 C3 C4 Ho]. destruct h as [i c], w; cbn in *; constructor; cbn; auto;
    try (apply wf_upd_structs; auto).
  all: unfold sptr_ok, eptr_ok in *; cbn in *;
    repeat match goal with |- context [match ?x with Some _ => _ | None => _ end] => destruct x as [[[] ?]|] end;
    cbn in *; rewrite ?mupd_keys; auto.
Qed.

Lemma inv_upd_enums b h w k f : (forall s, e_name (f s) = e_name s) ->
  inv b h -> inv b (set_obj h w (set_enums (obj h w) (mupd k f (i_enums (obj h w))))).
Proof.
  intros Hf [W1 W2 Hs He H1 C1 C2 C3 C4 Ho]. destruct h as [i c], w; cbn in *; constructor; cbn; auto;
    try (apply wf_upd_enums; auto).
  all: unfold sptr_ok, eptr_ok in *; cbn in *;
    repeat match goal with |- context [match ?x with Some _ => _ | None => _ end] => destruct x as [[[] ?]|] end;
    cbn in *; rewrite ?mupd_keys; auto.
Qed.

Lemma add_enum_line_inv b h p l : inv b h -> i_cur_enum (h_self h) = Some p ->
  exists h', add_enum_line h p l = Some h' /\ inv b h'.
Proof.
  intros I E. pose proof (inv_e _ _ I) as Hp. unfold eptr_ok in Hp. rewrite E in Hp.
  destruct p as [w n]. unfold add_enum_line. apply mfind_some in Hp as [e ->].
  eexists. split; [reflexivity|]. apply inv_upd_enums; auto.
Qed.
Lemma add_simple_inv b h p l : inv b h -> i_cur_struct (h_self h) = Some p ->
  exists h', add_simple h p l = Some h' /\ inv b h'.
Proof.
  intros I E. pose proof (inv_s _ _ I) as Hp. unfold sptr_ok in Hp. rewrite E in Hp.
  destruct p as [w n]. unfold add_simple. apply mfind_some in Hp as [e ->].
  eexists. split; [reflexivity|]. apply inv_upd_structs; auto.
Qed.
Lemma add_complex_inv b h p l : inv b h -> i_cur_struct (h_self h) = Some p ->
  exists h', add_complex h p l = Some h' /\ inv b h'.
Proof.
  intros I E. pose proof (inv_s _ _ I) as Hp. unfold sptr_ok in Hp. rewrite E in Hp.
  destruct p as [w n]. unfold add_complex. apply mfind_some in Hp as [e ->].
  eexists. split; [reflexivity|]. apply inv_upd_structs; auto.
Qed.

(** A callback never follows a dangling pointer and keeps the invariant. *)
Lemma inv_new_enum b h n e : inv b h -> get_item_type (h_self h) n = unknown_E -> e_name e = n ->
  inv b (Heap (Info (i_structs (h_self h)) (mset n e (i_enums (h_self h))) None (Some (HSelf, n))
                    (i_parse_rv (h_self h))) (h_common h)).
Proof.
  intros [W1 W2 Hs He H1 C1 C2 C3 C4 Ho] E En. apply type_unknown in E as [Hn1 Hn2]. constructor; cbn; auto.
  - constructor; cbn; try apply W1.
    + apply mset_sorted, W1.
    + intros k Hk Hk'. apply mset_keys in Hk' as [->|Hk']; [auto|]. eapply (wf_disj _ W1); eauto.
    + intros k e'. rewrite mfind_mset by apply W1. destruct (String.eqb_spec k n); [intros [= <-]; subst; auto|apply W1].
  - apply mset_keys; auto.
  - left; reflexivity.
  - intros _. split; cbn; discriminate.
Qed.
Lemma inv_new_struct b h n s : inv b h -> get_item_type (h_self h) n = unknown_E -> s_name s = n ->
  inv b (Heap (Info (mset n s (i_structs (h_self h))) (i_enums (h_self h)) (Some (HSelf, n)) None
                    (i_parse_rv (h_self h))) (h_common h)).
Proof.
  intros [W1 W2 Hs He H1 C1 C2 C3 C4 Ho] E En. apply type_unknown in E as [Hn1 Hn2]. constructor; cbn; auto.
  - constructor; cbn; try apply W1.
    + apply mset_sorted, W1.
    + intros k Hk Hk'. apply mset_keys in Hk as [->|Hk]; [auto|]. eapply (wf_disj _ W1); eauto.
    + intros k e'. rewrite mfind_mset by apply W1. destruct (String.eqb_spec k n); [intros [= <-]; subst; auto|apply W1].
  - apply mset_keys; auto.
  - right; reflexivity.
  - intros _. split; cbn; discriminate.
Qed.

Lemma call_inv b h c : inv b h -> exists h' r m, apply_call c h = Some (h', r, m) /\ inv b h'.
Proof.
  intros I. destruct c as [n cls|n ini v|n|ty n d|ty tn n]; cbn [apply_call].
  - destruct (get_item_type (h_self h) n) eqn:E; try (do 3 eexists; split; [reflexivity|exact I]).
    do 3 eexists; split; [reflexivity|]. apply inv_new_enum; auto.
  - destruct (i_cur_enum (h_self h)) as [p|] eqn:E; [|do 3 eexists; split; [reflexivity|exact I]].
    destruct (add_enum_line_inv b h p (EnumLine n ini v) I E) as (h' & -> & I'). do 3 eexists; split; [reflexivity|exact I'].
  - destruct (get_item_type (h_self h) n) eqn:E; try (do 3 eexists; split; [reflexivity|exact I]).
    do 3 eexists; split; [reflexivity|]. apply inv_new_struct; auto.
  - destruct (i_cur_struct (h_self h)) as [p|] eqn:E; [|do 3 eexists; split; [reflexivity|exact I]].
    destruct (add_simple_inv b h p (Simple ty n d) I E) as (h' & -> & I'). do 3 eexists; split; [reflexivity|exact I'].
  - destruct (i_cur_struct (h_self h)) as [p|] eqn:E; [|do 3 eexists; split; [reflexivity|exact I]].
    destruct (add_complex_inv b h p (Complex ty tn n) I E) as (h' & -> & I'). do 3 eexists; split; [reflexivity|exact I'].
Qed.

Lemma calls_inv b cs : forall h, inv b h -> exists h' m, apply_calls cs h = Some (h', m) /\ inv b h'.
Proof.
  induction cs as [|c cs IH]; intros h I; cbn [apply_calls]; [eauto|].
  destruct (call_inv b h c I) as (h1 & r & m & -> & I1).
  destruct (IH h1 I1) as (h2 & m2 & -> & I2). eauto.
Qed.

(** A change of the structs that keeps the keys and names. *)
Lemma inv_map_structs b h m : inv b h -> mkeys m = mkeys (i_structs (h_self h)) ->
  (forall n s, mfind n m = Some s -> s_name s = n) ->
  inv b (Heap (set_structs (h_self h) m) (h_common h)).
Proof.
  intros [W1 W2 Hs He H1 C1 C2 C3 C4 Ho] Hk Hn. constructor; cbn; auto.
  - constructor; cbn; try apply W1; auto.
    + apply (sorted_keys (i_structs (h_self h))); [auto|apply W1].
    + intros n. rewrite Hk. apply W1.
  - unfold sptr_ok in *; cbn. destruct (i_cur_struct (h_self h)) as [[[] n]|]; cbn in *; auto. rewrite Hk; auto.
  - unfold eptr_ok in *; cbn. destruct (i_cur_enum (h_self h)) as [[[] n]|]; cbn in *; auto.
Qed.

Lemma mfind_map {A} (f : A -> A) (m : smap A) k :
  mfind k (map (fun p => (fst p, f (snd p))) m) = option_map f (mfind k m).
Proof. induction m as [|[k' a] m IH]; cbn; auto. destruct (String.eqb k k'); auto. Qed.
Lemma mkeys_map {A} (f : A -> A) (m : smap A) : mkeys (map (fun p => (fst p, f (snd p))) m) = mkeys m.
Proof. unfold mkeys. rewrite map_map. reflexivity. Qed.

Lemma fixup_inv b h : inv b h -> inv b (Heap (fst (fixup (h_self h))) (h_common h)).
Proof.
  intros I. apply inv_map_structs; [exact I|apply mkeys_map|]. intros n s. rewrite mfind_map.
  destruct (mfind n (i_structs (h_self h))) eqn:E; [|discriminate]. cbn. intros [= <-]. cbn.
  apply (wf_sn _ (inv_self _ _ I)); auto.
Qed.

(** What a count does to a struct: only the counter changes. *)
Definition same_struct (s t : struct_S) : Prop :=
  s_name s = s_name t /\ s_simple s = s_simple t /\ s_complex s = s_complex t.

Lemma count_keys l : forall m, mkeys (fold_left count_member l m) = mkeys m.
Proof.
  induction l as [|c l IH]; intros m; cbn; auto. rewrite IH. unfold count_member.
  destruct (sc_type c); auto using mupd_keys.
Qed.

Definition points_to (c : struct_complex) (n : string) : bool :=
  match sc_type c with struct_E | vector_E => String.eqb n (sc_tname c) | _ => false end.
Fixpoint npoint (l : list struct_complex) (n : string) : nat :=
  match l with [] => 0 | c :: l' => (if points_to c n then 1 else 0) + npoint l' n end.

Definition bump (k : nat) (s : struct_S) := StructS (s_name s) (s_simple s) (s_complex s) (k + s_incoming s).

Lemma count_find l n : forall m,
  mfind n (fold_left count_member l m) = option_map (bump (npoint l n)) (mfind n m).
Proof.
  induction l as [|c l IH]; intros m; cbn [fold_left npoint].
  - destruct (mfind n m) as [[]|]; reflexivity.
  - rewrite IH. unfold count_member, points_to. destruct (sc_type c); cbn; auto;
      rewrite mfind_mupd; destruct (String.eqb n (sc_tname c)); destruct (mfind n m) as [s|]; cbn; auto;
      unfold bump; cbn; f_equal; f_equal; lia.
Qed.

Lemma top_inv b h : inv b h -> inv b (Heap (find_top (h_self h)) (h_common h)).
Proof.
  intros I. apply inv_map_structs; [exact I|apply count_keys|]. intros n s. rewrite count_find.
  destruct (mfind n (i_structs (h_self h))) eqn:E; [|discriminate]. cbn. intros [= <-]. cbn.
  apply (wf_sn _ (inv_self _ _ I)); auto.
Qed.

Lemma wf_info0 : wf_info info0.
Proof. constructor; cbn; try constructor; try tauto; discriminate. Qed.
Lemma inv0 : inv false (Heap info0 info0).
Proof. constructor; cbn; auto using wf_info0; try (split; cbn; discriminate); left; reflexivity. Qed.

Lemma wf_same i j : i_structs j = i_structs i -> i_enums j = i_enums i -> wf_info i -> wf_info j.
Proof. destruct i, j; cbn. intros -> -> []; constructor; auto. Qed.

Lemma section_inv c : wf_info c -> own c -> sptr_ok (Heap c info0) -> eptr_ok (Heap c info0) -> one_ptr c ->
  inv true (Heap (copy_info c) c).
Proof.
  intros W [O1 O2] Hs He H1. destruct c as [ss es ps pe rv]; unfold copy_info; cbn in *.
  unfold sptr_ok, eptr_ok, one_ptr in *; cbn in *.
  constructor; cbn; auto.
  - eapply wf_same; [| |exact W]; reflexivity.
  - unfold sptr_ok; cbn. destruct ps as [[w n]|]; cbn in *; auto. destruct w; auto. exfalso; auto.
  - unfold eptr_ok; cbn. destruct pe as [[w n]|]; cbn in *; auto. destruct w; auto. exfalso; auto.
  - destruct H1 as [->| ->]; [left|right]; reflexivity.
  - split; auto.
  - discriminate.
Qed.

Lemma reach_inv b h : reach b h -> inv b h.
Proof.
  induction 1 as [|b h c h' r m _ I E|b h rv _ I|b h _ I|b h _ I|h _ I|h _ I].
  - apply inv0.
  - destruct (call_inv b h c I) as (h2 & r2 & m2 & E2 & I2). congruence.
  - destruct I as [W1 W2 Hs He H1 C1 C2 C3 C4 Ho]; constructor; cbn; auto.
    + eapply wf_same; [| |exact W1]; reflexivity.
    + unfold sptr_ok in *; cbn in *. destruct (i_cur_struct (h_self h)) as [[[] n]|]; auto.
    + unfold eptr_ok in *; cbn in *. destruct (i_cur_enum (h_self h)) as [[[] n]|]; auto.
  - apply fixup_inv, I.
  - apply top_inv, I.
  - destruct I as [W1 W2 Hs He H1 C1 C2 C3 C4 Ho]. specialize (Ho eq_refl). apply section_inv; auto.
    + unfold sptr_ok in *. cbn. destruct (i_cur_struct (h_self h)) as [[[] n]|] eqn:E; cbn in *; auto.
      destruct Ho as [Ho _]. rewrite E in Ho. cbn in Ho. congruence.
    + unfold eptr_ok in *. cbn. destruct (i_cur_enum (h_self h)) as [[[] n]|] eqn:E; cbn in *; auto.
      destruct Ho as [_ Ho]. rewrite E in Ho. cbn in Ho. congruence.
  - destruct I as [W1 W2 Hs He H1 C1 C2 C3 C4 Ho]. apply section_inv; auto.
Qed.

Lemma reach_calls b h cs : reach b h -> exists h' m, apply_calls cs h = Some (h', m) /\ reach b h'.
Proof.
  revert h. induction cs as [|c cs IH]; intros h R; cbn [apply_calls]; [eauto|].
  destruct (call_inv b h c (reach_inv b h R)) as (h1 & r & m & E & _). rewrite E.
  destruct (IH h1 (R_call _ _ _ _ _ _ R E)) as (h2 & m2 & -> & R2). eauto.
Qed.

Lemma reach_namespace b h : reach b h -> one_namespace (h_self h) /\ one_namespace (h_common h).
Proof. intros R. apply reach_inv in R. split; apply wf_one; apply R. Qed.
