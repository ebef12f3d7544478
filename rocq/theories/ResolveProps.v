(** Type resolution and top structs. *)
From Coq Require Import String Ascii ZArith NArith Arith List Bool Lia Relations.
From Verif Require Import Base Map Flex Items Bison Grammar Store Resolve StoreProps StoreDefs.
Import ListNotations.
Local Open Scope string_scope.
Local Open Scope list_scope.
Local Arguments mkeys : simpl never.

(** ** C20: specification of resolution of one member *)
Definition declared (i : info) (t : string) : Prop :=
  In t (mkeys (i_structs i)) \/ In t (mkeys (i_enums i)).
Definition resolved (i : info) (c c' : struct_complex) : Prop :=
  sc_tname c' = sc_tname c /\ sc_name c' = sc_name c /\
  (sc_type c <> enum_or_struct_E -> sc_type c' = sc_type c) /\
  (sc_type c = enum_or_struct_E ->
     (sc_type c' = struct_E <-> In (sc_tname c) (mkeys (i_structs i))) /\
     (sc_type c' = enum_E <-> In (sc_tname c) (mkeys (i_enums i))) /\
     (sc_type c' = unknown_E <-> ~ declared i (sc_tname c))).

Lemma fix_member_resolved i c : wf_info i -> resolved i c (fix_member i c).
Proof.
  intros W. unfold resolved, fix_member, declared. destruct (sc_type c) eqn:E; cbn; rewrite ?E;
    (split; [reflexivity|split; [reflexivity|split; [congruence|try congruence]]]).
  intros _. split; [apply type_struct|split; [apply type_enum, W|]]. rewrite type_unknown. tauto.
Qed.

Lemma fixup_spec i : wf_info i ->
  (forall n s, mfind n (i_structs i) = Some s ->
     exists s', mfind n (i_structs (fst (fixup i))) = Some s' /\
       Forall2 (resolved i) (s_complex s) (s_complex s')) /\
  (snd (fixup i) = false <->
     exists n s c, mfind n (i_structs i) = Some s /\ In c (s_complex s) /\
       sc_type c = enum_or_struct_E /\ ~ declared i (sc_tname c)).
Proof.
  intros W. split.
  - intros n s H. cbn. rewrite mfind_map, H. eexists. split; [reflexivity|]. cbn.
    induction (s_complex s); cbn; constructor; auto using fix_member_resolved.
  - cbn. rewrite negb_false_iff, existsb_exists. split.
    + intros ([n s] & Hin & H). apply existsb_exists in H as (c & Hc & Hf). exists n, s, c.
      assert (mfind n (i_structs i) = Some s).
      { clear Hc Hf. pose proof (wf_ss _ W) as S. induction (i_structs i) as [|[k a] m IH]; [contradiction|].
        pose proof (sorted_lt _ _ _ S) as L. inversion S; subst. cbn. destruct Hin as [[= -> ->]|Hin].
        - rewrite String.eqb_refl; auto.
        - destruct (String.eqb_spec n k); [|auto]. subst. exfalso. apply (slt_irrefl k), L.
          apply (in_map fst) in Hin. exact Hin. }
      repeat split; auto; unfold fix_fails in Hf; destruct (sc_type c) eqn:E; try discriminate; auto.
      destruct (get_item_type i (sc_tname c)) eqn:E2; try discriminate. apply type_unknown in E2.
      unfold declared; tauto.
    + intros (n & s & c & H & Hc & E & Hd). exists (n, s). split; [apply mfind_in; auto|].
      apply existsb_exists. exists c. split; auto. unfold fix_fails. rewrite E.
      assert (get_item_type i (sc_tname c) = unknown_E) as ->; auto. apply type_unknown. unfold declared in Hd; tauto.
Qed.

(** For a header with distinct names. *)
Definition is_struct (t : string) (d : def) : bool :=
  match d with DefStruct n _ => String.eqb n t | _ => false end.
Definition is_enum (t : string) (d : def) : bool :=
  match d with DefEnum _ n _ _ => String.eqb n t | _ => false end.
Definition kind_in (ds : list def) (t : string) : complex_type :=
  if existsb (is_struct t) ds then struct_E else if existsb (is_enum t) ds then enum_E else unknown_E.
Definition resolved_members (ds : list def) (ms : list member) : list struct_complex :=
  flat_map (fun m => match m with
                     | MSimple _ _ _ => []
                     | MUser t n _ => [Complex (kind_in ds t) t n]
                     | MVector t n => [Complex vector_E t n] end) ms.

Definition holds_defs (i : info) (ds : list def) : Prop :=
  (forall n s, mfind n (i_structs i) = Some s <-> declares_struct ds n s) /\
  (forall n e, mfind n (i_enums i) = Some e <-> declares_enum ds n e).

Lemma kind_lookup i ds t : holds_defs i ds -> get_item_type i t = kind_in ds t.
Proof.
  intros [H1 H2]. unfold get_item_type, kind_in.
  destruct (mfind t (i_structs i)) as [s|] eqn:E.
  - apply H1 in E as (ms & Hi & _). assert (existsb (is_struct t) ds = true) as ->; auto.
    apply existsb_exists. exists (DefStruct t ms). split; auto. cbn. apply String.eqb_refl.
  - assert (existsb (is_struct t) ds = false) as ->.
    { apply not_true_iff_false. intros H. apply existsb_exists in H as (d & Hd & Hx).
      destruct d as [|n ms]; cbn in Hx; [discriminate|]. apply String.eqb_eq in Hx; subst.
      assert (mfind t (i_structs i) = Some (StructS t (simples ms) (complexes ms) 0)) by (apply H1; exists ms; auto).
      congruence. }
    destruct (mfind t (i_enums i)) as [e|] eqn:E2.
    + apply H2 in E2 as (c & es & tr & Hi & _). assert (existsb (is_enum t) ds = true) as ->; auto.
      apply existsb_exists. eexists. split; [exact Hi|]. cbn. apply String.eqb_refl.
    + assert (existsb (is_enum t) ds = false) as ->; auto.
      apply not_true_iff_false. intros H. apply existsb_exists in H as (d & Hd & Hx).
      destruct d as [c n es tr|]; cbn in Hx; [|discriminate]. apply String.eqb_eq in Hx; subst.
      assert (mfind t (i_enums i) = Some (EnumS t c (map entry_line es))) by (apply H2; exists c, es, tr; auto).
      congruence.
Qed.

Lemma fixup_defs i ds : holds_defs i ds ->
  (forall n s, mfind n (i_structs (fst (fixup i))) = Some s <->
     exists ms, In (DefStruct n ms) ds /\ s = StructS n (simples ms) (resolved_members ds ms) 0) /\
  (forall n e, mfind n (i_enums (fst (fixup i))) = Some e <-> declares_enum ds n e).
Proof.
  intros H. split; [|apply H]. intros n s. cbn. rewrite mfind_map.
  assert (Hf : forall ms, map (fix_member i) (complexes ms) = resolved_members ds ms).
  { intros ms. induction ms as [|m ms IH]; [reflexivity|]. unfold complexes, resolved_members in *. cbn [flat_map].
    rewrite map_app, IH. f_equal. destruct m; cbn; auto. unfold fix_member; cbn. rewrite (kind_lookup i ds _ H). auto. }
  split.
  - destruct (mfind n (i_structs i)) as [s0|] eqn:E; [|discriminate]. cbn. intros [= <-].
    apply H in E as (ms & Hi & ->). exists ms. split; auto. unfold fix_struct; cbn. rewrite Hf. reflexivity.
  - intros (ms & Hi & ->). assert (mfind n (i_structs i) = Some (StructS n (simples ms) (complexes ms) 0)) as ->
      by (apply H; exists ms; auto). cbn. unfold fix_struct; cbn. rewrite Hf. reflexivity.
Qed.

(** ** C21 *)
Lemma fix_member_idem i j c : fix_member j (fix_member i c) = fix_member i c.
Proof.
  unfold fix_member at 2 3. destruct (sc_type c) eqn:E; unfold fix_member; rewrite ?E; cbn; auto.
  destruct (type_cases i (sc_tname c)) as [->|[->| ->]]; reflexivity.
Qed.
Lemma fix_fails_after i j c : fix_fails j (fix_member i c) = false.
Proof.
  unfold fix_fails, fix_member. destruct (sc_type c) eqn:E; cbn; rewrite ?E; auto.
  destruct (type_cases i (sc_tname c)) as [->|[->| ->]]; reflexivity.
Qed.

Lemma fixup_again i j : i_structs j = i_structs (fst (fixup i)) -> i_structs (fst (fixup j)) = i_structs j.
Proof.
  intros H. cbn. rewrite H. cbn. rewrite map_map. apply map_ext. intros [n s]. cbn. f_equal.
  unfold fix_struct; cbn. f_equal. rewrite map_map. apply map_ext. intros c. apply fix_member_idem.
Qed.

Lemma set_structs_id i : set_structs i (i_structs i) = i.
Proof. destruct i; reflexivity. Qed.

Lemma fixup_idem i : fixup (fst (fixup i)) = (fst (fixup i), true).
Proof.
  set (j := fst (fixup i)). assert (E : i_structs (fst (fixup j)) = i_structs j) by (apply (fixup_again i); reflexivity).
  unfold fixup at 1. f_equal.
  - transitivity (set_structs j (i_structs (fst (fixup j)))); [reflexivity|rewrite E; apply set_structs_id].
  - apply negb_true_iff. apply not_true_iff_false. intros H. apply existsb_exists in H as ([n s] & Hin & H).
    unfold j in Hin. cbn in Hin. apply in_map_iff in Hin as ([n0 s0] & [= <- <-] & _). cbn in H.
    apply existsb_exists in H as (c & Hc & H). apply in_map_iff in Hc as (c0 & <- & _).
    rewrite fix_fails_after in H. discriminate.
Qed.

Lemma fixup_frame i : let j := fst (fixup i) in
  i_enums j = i_enums i /\ i_cur_struct j = i_cur_struct i /\ i_cur_enum j = i_cur_enum i /\
  i_parse_rv j = i_parse_rv i /\ mkeys (i_structs j) = mkeys (i_structs i) /\
  (forall n s, mfind n (i_structs i) = Some s -> exists s', mfind n (i_structs j) = Some s' /\
     s_name s' = s_name s /\ s_simple s' = s_simple s /\ s_incoming s' = s_incoming s /\
     map sc_name (s_complex s') = map sc_name (s_complex s) /\
     map sc_tname (s_complex s') = map sc_tname (s_complex s)).
Proof.
  cbn. do 4 (split; [reflexivity|]). split; [apply mkeys_map|]. intros n s H. rewrite mfind_map, H.
  eexists. split; [reflexivity|]. cbn. do 3 (split; [reflexivity|]). rewrite !map_map.
  split; apply map_ext; intros c; unfold fix_member; destruct (sc_type c); reflexivity.
Qed.

(** ** Steps from a given moment *)
Inductive step : bool * heap -> bool * heap -> Prop :=
| S_call : forall b h c h' r m, apply_call c h = Some (h', r, m) -> step (b, h) (b, h')
| S_rv : forall b h rv, step (b, h) (b, Heap (set_rv (h_self h) rv) (h_common h))
| S_fixup : forall b h, step (b, h) (b, Heap (fst (fixup (h_self h))) (h_common h))
| S_top : forall b h, step (b, h) (b, Heap (find_top (h_self h)) (h_common h))
| S_first : forall h, step (false, h) (true, Heap (copy_info (h_self h)) (h_self h))
| S_next : forall h, step (true, h) (true, Heap (copy_info (h_common h)) (h_common h)).
Definition steps := clos_refl_trans_1n _ step.

Lemma reach_step p q : reach (fst p) (snd p) -> step p q -> reach (fst q) (snd q).
Proof.
  intros R S. destruct S as [b h c h' r m E|b h rv|b h|b h|h|h]; cbn in *.
  - eapply R_call; eauto.
  - apply R_rv; auto.
  - apply R_fixup; auto.
  - apply R_top; auto.
  - apply R_first_section; auto.
  - apply R_next_section; auto.
Qed.
Lemma reach_steps p q : steps p q -> reach (fst p) (snd p) -> reach (fst q) (snd q).
Proof. induction 1 as [|p q r S _ IH]; auto. intros R. apply IH. eapply reach_step; eauto. Qed.

(** Members are only appended and never lose a type once they have one. *)
Definition keeps_type (c c' : struct_complex) : Prop :=
  sc_tname c' = sc_tname c /\ sc_name c' = sc_name c /\
  (sc_type c <> enum_or_struct_E -> sc_type c' = sc_type c).
Definition grows (i j : info) : Prop :=
  forall n s, mfind n (i_structs i) = Some s -> exists s' l l', mfind n (i_structs j) = Some s' /\
    s_complex s' = l ++ l' /\ Forall2 keeps_type (s_complex s) l.

Lemma keeps_refl c : keeps_type c c.
Proof. split; auto. Qed.
Lemma keeps_trans a b c : keeps_type a b -> keeps_type b c -> keeps_type a c.
Proof. intros (A1 & A2 & A3) (B1 & B2 & B3). split; [congruence|split; [congruence|]]. intros H. rewrite B3; auto. rewrite A3; auto. Qed.
Lemma keeps_list_refl l : Forall2 keeps_type l l.
Proof. induction l; constructor; auto using keeps_refl. Qed.
Lemma grows_refl i : grows i i.
Proof. intros n s H. exists s, (s_complex s), []. rewrite app_nil_r. auto using keeps_list_refl. Qed.
Lemma keeps_list_trans a b c : Forall2 keeps_type a b -> Forall2 keeps_type b c -> Forall2 keeps_type a c.
Proof.
  intros H. revert c. induction H; intros c H2; inversion H2; subst; constructor; eauto using keeps_trans.
Qed.
Lemma grows_trans i j k : grows i j -> grows j k -> grows i k.
Proof.
  intros A B n s H. destruct (A n s H) as (s1 & l1 & r1 & F1 & E1 & K1).
  destruct (B n s1 F1) as (s2 & l2 & r2 & F2 & E2 & K2). rewrite E1 in K2.
  apply Forall2_app_inv_l in K2 as (x & y & Kx & Ky & ->).
  exists s2, x, (y ++ r2). split; [auto|]. split; [rewrite E2, <- app_assoc; auto|].
  eapply keeps_list_trans; eauto.
Qed.
Lemma grows_same i j : i_structs j = i_structs i -> grows i j.
Proof. intros E n s H. rewrite E. apply grows_refl; auto. Qed.

Lemma grows_upd i k f : (forall s, exists l', s_complex (f s) = s_complex s ++ l') ->
  grows i (set_structs i (mupd k f (i_structs i))).
Proof.
  intros Hf n s H. cbn. rewrite mfind_mupd, H. destruct (String.eqb n k); cbn.
  - destruct (Hf s) as [l' E]. exists (f s), (s_complex s), l'. auto using keeps_list_refl.
  - exists s, (s_complex s), []. rewrite app_nil_r. auto using keeps_list_refl.
Qed.

Lemma grows_new i n s0 es ps pe rv : get_item_type i n = unknown_E -> sorted (i_structs i) ->
  grows i (Info (mset n s0 (i_structs i)) es ps pe rv).
Proof.
  intros E S k s H. cbn. rewrite mfind_mset by auto. destruct (String.eqb_spec k n).
  - subst. apply type_unknown in E as [E _]. apply mfind_none in E. congruence.
  - exists s, (s_complex s), []. rewrite app_nil_r. auto using keeps_list_refl.
Qed.

Lemma grows_fixup i : grows i (fst (fixup i)).
Proof.
  intros n s H. cbn. rewrite mfind_map, H. eexists _, _, []. split; [reflexivity|].
  split; [rewrite app_nil_r; reflexivity|]. cbn. clear. induction (s_complex s) as [|c l IH]; cbn; constructor; auto.
  unfold fix_member, keeps_type. destruct (sc_type c) eqn:E; cbn; rewrite ?E; auto. split; auto. split; auto. congruence.
Qed.

Lemma grows_top i : grows i (find_top i).
Proof.
  intros n s H. cbn. rewrite count_find, H. eexists _, _, []. split; [reflexivity|].
  split; [rewrite app_nil_r; reflexivity|]. cbn. apply keeps_list_refl.
Qed.

Lemma grows_call c b h h' r m : inv b h -> apply_call c h = Some (h', r, m) ->
  grows (h_self h) (h_self h') /\ grows (h_common h) (h_common h').
Proof.
  intros I. pose proof (wf_ss _ (inv_self _ _ I)) as Ss. destruct h as [i cm]; cbn [h_self h_common] in *.
  destruct c as [n cls|n ini v|n|ty n d|ty tn n]; cbn [apply_call h_self].
  - destruct (get_item_type i n) eqn:E; intros [= <- <- <-]; cbn; auto using grows_refl, grows_same.
  - destruct (i_cur_enum i) as [[w k]|] eqn:E; [|intros [= <- <- <-]; auto using grows_refl].
    unfold add_enum_line. destruct (mfind k _); [|discriminate]. intros [= <- <- <-].
    destruct w; cbn; auto using grows_refl, grows_same.
  - destruct (get_item_type i n) eqn:E; intros [= <- <- <-]; cbn; auto using grows_refl, grows_new.
  - destruct (i_cur_struct i) as [[w k]|] eqn:E; [|intros [= <- <- <-]; auto using grows_refl].
    unfold add_simple. destruct (mfind k _); [|discriminate]. intros [= <- <- <-].
    destruct w; cbn; split; auto using grows_refl; apply grows_upd; intros s0; cbn; exists []; rewrite app_nil_r; auto.
  - destruct (i_cur_struct i) as [[w k]|] eqn:E; [|intros [= <- <- <-]; auto using grows_refl].
    unfold add_complex. destruct (mfind k _); [|discriminate]. intros [= <- <- <-].
    destruct w; cbn; split; auto using grows_refl; apply grows_upd; intros s0; cbn; eauto.
Qed.

(** From the start of a section on, everything in the common items also is in the
    section's items, whatever is added. *)
Lemma grows_steps p q : steps p q -> reach (fst p) (snd p) ->
  grows (h_common (snd p)) (h_self (snd p)) -> fst p = true ->
  fst q = true /\ grows (h_common (snd p)) (h_self (snd q)) /\ grows (h_common (snd p)) (h_common (snd q)).
Proof.
  intros S R G B. cut (fst q = true /\ grows (h_common (snd p)) (h_self (snd q)) /\ grows (h_common (snd p)) (h_common (snd q))); auto.
  set (c0 := h_common (snd p)) in *. assert (G2 : grows c0 (h_common (snd p))) by apply grows_refl.
  clearbody c0. induction S as [p|p q r S S' IH]; [auto|].
  apply IH; clear IH S'.
  - eapply reach_step; eauto.
  - destruct S as [b h c h' x m E|b h rv|b h|b h|h|h]; cbn in *.
    + destruct (grows_call c b h h' x m (reach_inv _ _ R) E) as [K1 K2]. eapply grows_trans; [exact G|exact K1].
    + eapply grows_trans; [exact G|]. apply grows_same; reflexivity.
    + eapply grows_trans; [exact G|]. apply grows_fixup.
    + eapply grows_trans; [exact G|]. apply grows_top.
    + discriminate.
    + eapply grows_trans; [exact G2|]. apply grows_same; reflexivity.
  - destruct S; cbn in *; auto.
  - destruct S as [b h c h' x m E|b h rv|b h|b h|h|h]; cbn in *; auto.
    destruct (grows_call c b h h' x m (reach_inv _ _ R) E). eapply grows_trans; eauto.
Qed.

(** ** C22 *)
Definition common_processed (c : info) : info := find_top (fst (fixup c)).

Lemma stuck_unknown c x n s k mem h : reach false (Heap c x) ->
  mfind n (i_structs c) = Some s -> nth_error (s_complex s) k = Some mem ->
  sc_type mem = enum_or_struct_E -> ~ declared c (sc_tname mem) ->
  steps (true, Heap (copy_info (common_processed c)) (common_processed c)) (true, h) ->
  exists s', mfind n (i_structs (h_self h)) = Some s' /\
    nth_error (s_complex s') k = Some (Complex unknown_E (sc_tname mem) (sc_name mem)).
Proof.
  intros R Hs Hk Ht Hd S. set (c1 := common_processed c) in *.
  assert (R1 : reach true (Heap (copy_info c1) c1)).
  { apply (R_first_section (Heap c1 x)). apply (R_top false (Heap (fst (fixup c)) x)), (R_fixup false (Heap c x)), R. }
  destruct (grows_steps _ _ S R1) as (_ & G & _); [apply grows_same; reflexivity|reflexivity|].
  cbn in G. unfold c1 in G at 1.
  assert (H1 : exists s1, mfind n (i_structs (common_processed c)) = Some s1 /\
     nth_error (s_complex s1) k = Some (Complex unknown_E (sc_tname mem) (sc_name mem))).
  { unfold common_processed. cbn. rewrite count_find, mfind_map, Hs. eexists. split; [reflexivity|]. cbn.
    rewrite nth_error_map, Hk. cbn. unfold fix_member. rewrite Ht.
    assert (get_item_type c (sc_tname mem) = unknown_E) as ->; auto. apply type_unknown. unfold declared in Hd; tauto. }
  destruct H1 as (s1 & F1 & N1). destruct (G n s1 F1) as (s' & l & l' & F' & E' & K).
  exists s'. split; auto. rewrite E'.
  assert (Hl : nth_error l k = Some (Complex unknown_E (sc_tname mem) (sc_name mem))).
  { clear Hk. revert K k N1. clear. generalize (s_complex s1). intros l0 K. induction K as [|a b l0 l Kab Kl IH]; intros k N1.
    - destruct k; discriminate.
    - destruct k as [|k]; cbn in *; [|auto].
      injection N1 as ->. destruct Kab as (A & B & C). cbn in *. rewrite <- A, <- B.
      assert (sc_type b = unknown_E) by (apply C; discriminate). destruct b; cbn in *; subst; auto. }
  rewrite nth_error_app1; auto. apply nth_error_Some. congruence.
Qed.

(** ** C23 *)
Definition refers (i : info) (m n : string) : Prop :=
  exists s c, mfind m (i_structs i) = Some s /\ In c (s_complex s) /\
    (sc_type c = struct_E \/ sc_type c = vector_E) /\ sc_tname c = n.
Definition referenced (i : info) (n : string) : Prop := exists m, refers i m n.
Definition counted (i : info) : Prop :=
  forall n s, mfind n (i_structs i) = Some s -> 0 < s_incoming s -> referenced i n.

Lemma grows_refers i j m n : grows i j -> refers i m n -> refers j m n.
Proof.
  intros G (s & c & H & Hc & Ht & Hn). destruct (G m s H) as (s' & l & l' & H' & E & K).
  apply In_nth_error in Hc as [k Hk]. 
  assert (Hx : exists c', nth_error l k = Some c' /\ keeps_type c c').
  { clear - K Hk. revert k Hk. induction K; intros [|k] Hk; try discriminate; cbn in *.
    - injection Hk as ->. eauto.
    - eauto. }
  destruct Hx as (c' & Hk' & A & _ & C). exists s', c'. split; auto. split.
  - rewrite E. apply in_or_app. left. eapply nth_error_In; eauto.
  - rewrite C by (destruct Ht as [->| ->]; discriminate). split; auto. congruence.
Qed.

Lemma grows_counted i j : grows i j ->
  (forall n s, mfind n (i_structs j) = Some s -> 0 < s_incoming s ->
     exists s0, mfind n (i_structs i) = Some s0 /\ 0 < s_incoming s0) ->
  counted i -> counted j.
Proof.
  intros G H C n s Hs Hp. destruct (H n s Hs Hp) as (s0 & H0 & Hp0). destruct (C n s0 H0 Hp0) as [m Hm].
  exists m. eapply grows_refers; eauto.
Qed.

Lemma npoint_pos l n : 0 < npoint l n -> exists c, In c l /\ (sc_type c = struct_E \/ sc_type c = vector_E) /\ sc_tname c = n.
Proof.
  induction l as [|c l IH]; cbn; [lia|]. unfold points_to. intros H.
  destruct (sc_type c) eqn:E;
    try (destruct (IH ltac:(lia)) as (c' & A & B); eauto; fail);
    (destruct (String.eqb_spec n (sc_tname c)); [exists c; subst; rewrite E; auto|
      destruct (IH ltac:(lia)) as (c' & A & B); eauto]).
Qed.
Lemma npoint_in l n c : In c l -> (sc_type c = struct_E \/ sc_type c = vector_E) -> sc_tname c = n -> 0 < npoint l n.
Proof.
  induction l as [|d l IH]; cbn; [contradiction|]. intros [->|Hin] Ht Hn.
  - unfold points_to. destruct Ht as [->| ->]; subst; rewrite String.eqb_refl; lia.
  - specialize (IH Hin Ht Hn). lia.
Qed.

Lemma in_mfind {A} (m : smap A) n s : sorted m -> In (n, s) m -> mfind n m = Some s.
Proof.
  induction m as [|[k a] m IH]; [contradiction|]. intros S Hin.
  pose proof (sorted_lt _ _ _ S) as L. inversion S; subst. cbn. destruct Hin as [[= -> ->]|Hin].
  - rewrite String.eqb_refl; auto.
  - destruct (String.eqb_spec n k); [|auto]. subst. exfalso. apply (slt_irrefl k), L.
    apply (in_map fst) in Hin. exact Hin.
Qed.

Lemma top_referenced i n : sorted (i_structs i) ->
  (referenced i n <-> 0 < npoint (flat_map (fun p => s_complex (snd p)) (i_structs i)) n).
Proof.
  intros S. split.
  - intros (m & s & c & H & Hc & Ht & Hn). eapply npoint_in; [|exact Ht|exact Hn].
    apply in_flat_map. exists (m, s). split; [apply mfind_in; auto|auto].
  - intros H. apply npoint_pos in H as (c & Hc & Ht & Hn). apply in_flat_map in Hc as ((m & s) & Hin & Hc).
    exists m, s, c. split; [apply in_mfind; auto|auto].
Qed.

Lemma call_count c h h' r m b : inv b h -> apply_call c h = Some (h', r, m) ->
  forall w n s, mfind n (i_structs (obj h' w)) = Some s -> 0 < s_incoming s ->
    exists s0, mfind n (i_structs (obj h w)) = Some s0 /\ 0 < s_incoming s0.
Proof.
  intros I. pose proof (wf_ss _ (inv_self _ _ I)) as Ss. destruct h as [i cm]; cbn [h_self h_common] in *.
  assert (Hupd : forall w w' k (f : struct_S -> struct_S) n s, (forall s, s_incoming (f s) = s_incoming s) ->
     mfind n (i_structs (obj (set_obj (Heap i cm) w' (set_structs (obj (Heap i cm) w') (mupd k f (i_structs (obj (Heap i cm) w'))))) w)) = Some s ->
     0 < s_incoming s -> exists s0, mfind n (i_structs (obj (Heap i cm) w)) = Some s0 /\ 0 < s_incoming s0).
  { intros w w' k f n s Hf. destruct w, w'; cbn; eauto; rewrite mfind_mupd; destruct (String.eqb n k); eauto;
      (destruct (mfind n _) as [s0|]; [|discriminate]; cbn; intros [= <-]; rewrite Hf; eauto). }
  destruct c as [n cls|n ini v|n|ty n d|ty tn n]; cbn [apply_call h_self].
  - destruct (get_item_type i n) eqn:E; intros [= <- <- <-] w k s; destruct w; cbn; eauto.
  - destruct (i_cur_enum i) as [[w k]|] eqn:E; [|intros [= <- <- <-] w2 k2 s2; destruct w2; cbn; eauto].
    unfold add_enum_line. destruct (mfind k _); [|discriminate]. intros [= <- <- <-] w2 k2 s2.
    destruct w, w2; cbn; eauto.
  - destruct (get_item_type i n) eqn:E; intros [= <- <- <-] w k s; destruct w; cbn; eauto.
    rewrite mfind_mset by auto. destruct (String.eqb k n); eauto. intros [= <-]; cbn; lia.
  - destruct (i_cur_struct i) as [[w k]|] eqn:E; [|intros [= <- <- <-] w2 k2 s2; destruct w2; cbn; eauto].
    unfold add_simple. destruct (mfind k _); [|discriminate]. intros [= <- <- <-] w2 k2 s2. apply Hupd; auto.
  - destruct (i_cur_struct i) as [[w k]|] eqn:E; [|intros [= <- <- <-] w2 k2 s2; destruct w2; cbn; eauto].
    unfold add_complex. destruct (mfind k _); [|discriminate]. intros [= <- <- <-] w2 k2 s2. apply Hupd; auto.
Qed.

Lemma counted_fixup i : counted i -> counted (fst (fixup i)).
Proof.
  apply grows_counted; [apply grows_fixup|]. intros n s. cbn. rewrite mfind_map.
  destruct (mfind n (i_structs i)) as [s0|]; [|discriminate]. cbn. intros [= <-]; cbn. eauto.
Qed.

Lemma counted_top i : sorted (i_structs i) -> counted i -> counted (find_top i).
Proof.
  intros S C n s. cbn. rewrite count_find. destruct (mfind n (i_structs i)) as [s0|] eqn:E; [|discriminate].
  cbn. intros [= <-]; cbn. intros H.
  assert (Hr : referenced i n).
  { destruct (Nat.eq_dec (npoint (flat_map (fun p => s_complex (snd p)) (i_structs i)) n) 0) as [Hz|Hz].
    - apply (C n s0 E). lia.
    - apply top_referenced; auto; lia. }
  destruct Hr as [m Hm]. exists m. eapply grows_refers; [apply grows_top|exact Hm].
Qed.

Lemma counted_same i j : i_structs j = i_structs i -> counted i -> counted j.
Proof. intros E C n s. unfold referenced, refers. rewrite E. apply C. Qed.

Lemma reach_counted b h : reach b h -> counted (h_self h) /\ counted (h_common h).
Proof.
  induction 1 as [|b h c h' r m R [I1 I2] E|b h rv R [I1 I2]|b h R [I1 I2]|b h R [I1 I2]|h R [I1 I2]|h R [I1 I2]];
    cbn [h_self h_common] in *.
  - split; intros n s H; discriminate.
  - pose proof (reach_inv _ _ R) as I. destruct (grows_call c b h h' r m I E) as [G1 G2].
    pose proof (call_count c h h' r m b I E) as Hc. split.
    + eapply grows_counted; [exact G1| |exact I1]. apply (Hc HSelf).
    + eapply grows_counted; [exact G2| |exact I2]. apply (Hc HCommon).
  - split; [|exact I2]. eapply counted_same; [|exact I1]; reflexivity.
  - split; auto. apply counted_fixup; auto.
  - split; auto. apply counted_top; auto. apply (wf_ss _ (inv_self _ _ (reach_inv _ _ R))).
  - split; [|exact I1]. eapply counted_same; [|exact I1]; reflexivity.
  - split; [|exact I2]. eapply counted_same; [|exact I2]; reflexivity.
Qed.

Lemma top_spec b h n s : reach b h ->
  mfind n (i_structs (find_top (h_self h))) = Some s ->
  (s_incoming s = 0 <-> ~ referenced (find_top (h_self h)) n).
Proof.
  intros R. pose proof (wf_ss _ (inv_self _ _ (reach_inv _ _ R))) as S.
  pose proof (reach_counted _ _ (R_top _ _ R)) as [C _]. cbn [h_self] in C.
  intros H. pose proof H as H0. cbn in H0. rewrite count_find in H0.
  destruct (mfind n (i_structs (h_self h))) as [s0|] eqn:E; [|discriminate]. cbn in H0. injection H0 as Es.
  split.
  - intros Hz Hr. subst s. cbn in Hz.
    assert (Hr' : referenced (h_self h) n).
    { destruct Hr as (m & s & c & Hm & Hc). cbn in Hm. rewrite count_find in Hm.
      destruct (mfind m (i_structs (h_self h))) as [s1|] eqn:E1; [|discriminate]. injection Hm as <-. cbn in Hc.
      exists m, s1, c. auto. }
    apply top_referenced in Hr'; auto. lia.
  - intros Hn. destruct (Nat.eq_dec (s_incoming s) 0) as [|Hp]; auto. exfalso. apply Hn. apply (C n s); auto. lia.
Qed.

(** ** C24 *)
Definition struct_refers (i : info) (m n : string) : Prop := refers i m n /\ In n (mkeys (i_structs i)).

Section Finite.
Context {A : Type} (eq_dec : forall a b : A, {a = b} + {a <> b}) (R : A -> A -> Prop).
Fixpoint chain (a : A) (l : list A) : Prop :=
  match l with [] => True | b :: l' => R b a /\ chain b l' end.

Lemma chain_in l : forall a b, chain a l -> In b l -> clos_trans _ R b a.
Proof.
  induction l as [|c l IH]; intros a b; cbn; [contradiction|]. intros [H1 H2] [->|Hin].
  - apply t_step; auto.
  - eapply t_trans; [apply (IH c b); auto|apply t_step; auto].
Qed.

Lemma chain_dup l : forall a, chain a l -> ~ NoDup (a :: l) -> exists x, clos_trans _ R x x.
Proof.
  induction l as [|c l IH]; intros a H Hd.
  - exfalso. apply Hd. constructor; auto. constructor.
  - destruct (in_dec eq_dec a (c :: l)) as [Hin|Hin].
    + exists a. eapply chain_in; eauto.
    + destruct H as [_ H]. apply (IH c H). intros N. apply Hd. constructor; auto.
Qed.

Lemma no_source (K : list A) : K <> [] -> (forall n, In n K -> exists m, In m K /\ R m n) ->
  exists x, clos_trans _ R x x.
Proof.
  intros Hk Hp. destruct K as [|k0 K']; [congruence|]. set (K := k0 :: K') in *.
  assert (Hc : forall len, exists a l, length l = len /\ incl (a :: l) K /\ chain a l /\ 
     (forall b, In b (a :: l) -> In b K)).
  { assert (Hx : forall len a, In a K -> exists l, length l = len /\ incl l K /\ chain a l).
    { induction len as [|len IH]; intros a Ha; [exists []; cbn; repeat split; auto; intros x []|].
      destruct (Hp a Ha) as (m & Hm & Hr). destruct (IH m Hm) as (l & L1 & L2 & L3).
      exists (m :: l). cbn. repeat split; auto. intros x [->|Hx]; auto. }
    intros len. destruct (Hx len k0) as (l & L1 & L2 & L3); [cbn; auto|].
    exists k0, l. assert (incl (k0 :: l) K) by (intros x [->|Hx2]; [cbn; auto|auto]). repeat split; auto. }
  destruct (Hc (length K)) as (a & l & L1 & L2 & L3 & _).
  apply (chain_dup l a L3). intros N. apply (NoDup_incl_length N) in L2. unfold K in *; cbn [length] in *; lia.
Qed.
End Finite.

Lemma acyclic_top b h : reach b h -> i_structs (h_self h) <> [] ->
  (forall n, ~ clos_trans _ (struct_refers (find_top (h_self h))) n n) ->
  exists n s, mfind n (i_structs (find_top (h_self h))) = Some s /\ s_incoming s = 0.
Proof.
  intros R Hne Hac. set (j := find_top (h_self h)) in *.
  destruct (existsb (fun p => Nat.eqb (s_incoming (snd p)) 0) (i_structs j)) eqn:E.
  - apply existsb_exists in E as ([n s] & Hin & Hz). apply Nat.eqb_eq in Hz. exists n, s. split; auto.
    apply in_mfind; auto. apply (wf_ss _ (inv_self _ _ (reach_inv _ _ (R_top _ _ R)))).
  - exfalso. destruct (no_source string_dec (struct_refers j) (mkeys (i_structs j))) as [x Hx].
    + intros Hk. apply Hne. assert (mkeys (i_structs (h_self h)) = []) by (rewrite <- Hk; symmetry; apply count_keys).
      destruct (i_structs (h_self h)); [auto|discriminate].
    + intros n Hn. assert (Hn' := Hn). apply mfind_some in Hn as [s Hs].
      assert (s_incoming s <> 0).
      { intros Hz. apply mfind_in in Hs. apply not_true_iff_false in E. apply E. apply existsb_exists.
        exists (n, s). split; auto. cbn. apply Nat.eqb_eq; auto. }
      destruct (reach_counted _ _ (R_top _ _ R)) as [C _]. destruct (C n s Hs) as [m Hm]; [lia|].
      exists m. split; [|split; auto]. destruct Hm as (sm & c & Hm & _). apply mfind_some; eauto.
    + apply (Hac x Hx).
Qed.
