(** Redefinitions and the common store. *)
From Coq Require Import String Ascii ZArith NArith Arith List Bool Lia.
From Verif Require Import Base Map Flex Items Bison Grammar Store Resolve StoreProps StoreDefs.
Import ListNotations.
Local Open Scope string_scope.
Local Open Scope list_scope.
Local Arguments mkeys : simpl never.

(** Specification of a redefinition: what is appended, and to what. *)
Definition lines_of (d : def) : list enum_line :=
  match d with DefEnum _ _ es _ => map entry_line es | _ => [] end.
Definition simple_of (d : def) : list struct_simple :=
  match d with DefStruct _ ms => simples ms | _ => [] end.
Definition complex_of (d : def) : list struct_complex :=
  match d with DefStruct _ ms => complexes ms | _ => [] end.
Definition more_lines (d : def) (e : enum_S) := EnumS (e_name e) (e_class e) (e_lines e ++ lines_of d).
Definition more_members (d : def) (s : struct_S) :=
  StructS (s_name s) (s_simple s ++ simple_of d) (s_complex s ++ complex_of d) (s_incoming s).
Definition home_eqb (a b : home) := match a, b with HSelf, HSelf | HCommon, HCommon => true | _, _ => false end.
Definition is_current (p : option (home * string)) (w : home) (n : string) : bool :=
  match p with None => false | Some (w', n') => home_eqb w w' && String.eqb n n' end.
Definition redefinition_message (d : def) : string :=
  match d with
  | DefEnum _ n _ _ => "ERROR process_enum : name '" ++ n ++ " already in use"
  | DefStruct n _ => "ERROR process_struct : name '" ++ n ++ " already in use"
  end.

Lemma mupd_ext {A} k (f g : A -> A) m : (forall a, f a = g a) -> mupd k f m = mupd k g m.
Proof. intros H. induction m as [|[k' a] m IH]; cbn; auto. destruct (String.eqb k k'); rewrite ?H, ?IH; auto. Qed.
Lemma mupd_mupd {A} k (f g : A -> A) m : mupd k f (mupd k g m) = mupd k (fun a => f (g a)) m.
Proof.
  induction m as [|[k' a] m IH]; cbn; auto. destruct (String.eqb k k') eqn:E; cbn; rewrite E; [auto|].
  rewrite IH; auto.
Qed.
Lemma mupd_id {A} k (f : A -> A) m : (forall a, f a = a) -> mupd k f m = m.
Proof. intros H. induction m as [|[k' a] m IH]; cbn; auto. destruct (String.eqb k k'); rewrite ?H, ?IH; auto. Qed.

Definition upd_enum (h : heap) (w : home) n f := set_obj h w (set_enums (obj h w) (mupd n f (i_enums (obj h w)))).
Definition upd_struct (h : heap) (w : home) n f := set_obj h w (set_structs (obj h w) (mupd n f (i_structs (obj h w)))).

Lemma upd_enum_ext h w n f g : (forall a, f a = g a) -> upd_enum h w n f = upd_enum h w n g.
Proof. intros H. unfold upd_enum. rewrite (mupd_ext n f g) by auto. reflexivity. Qed.
Lemma upd_struct_ext h w n f g : (forall a, f a = g a) -> upd_struct h w n f = upd_struct h w n g.
Proof. intros H. unfold upd_struct. rewrite (mupd_ext n f g) by auto. reflexivity. Qed.
Lemma upd_enum_twice h w n f g : upd_enum (upd_enum h w n g) w n f = upd_enum h w n (fun a => f (g a)).
Proof. destruct h as [i c], w; unfold upd_enum, set_enums; cbn; rewrite mupd_mupd; reflexivity. Qed.
Lemma upd_struct_twice h w n f g : upd_struct (upd_struct h w n g) w n f = upd_struct h w n (fun a => f (g a)).
Proof. destruct h as [i c], w; unfold upd_struct, set_structs; cbn; rewrite mupd_mupd; reflexivity. Qed.
Lemma upd_enum_id h w n f : (forall a, f a = a) -> upd_enum h w n f = h.
Proof. intros H. unfold upd_enum. rewrite mupd_id by auto. destruct h as [[] []], w; reflexivity. Qed.
Lemma upd_struct_id h w n f : (forall a, f a = a) -> upd_struct h w n f = h.
Proof. intros H. unfold upd_struct. rewrite mupd_id by auto. destruct h as [[] []], w; reflexivity. Qed.
Lemma upd_enum_ptr h w n f : i_cur_enum (h_self (upd_enum h w n f)) = i_cur_enum (h_self h).
Proof. destruct h, w; reflexivity. Qed.
Lemma upd_struct_ptr h w n f : i_cur_struct (h_self (upd_struct h w n f)) = i_cur_struct (h_self h).
Proof. destruct h, w; reflexivity. Qed.

Lemma app_mono {A} (e : list A) x l : e ++ x :: l = (e ++ [x]) ++ l.
Proof. rewrite <- app_assoc; reflexivity. Qed.

Lemma entries_append es : forall h w n, i_cur_enum (h_self h) = Some (w, n) ->
  In n (mkeys (i_enums (obj h w))) ->
  apply_calls (map entry_call es) h =
  Some (upd_enum h w n (fun e => EnumS (e_name e) (e_class e) (e_lines e ++ map entry_line es)), []).
Proof.
  induction es as [|x es IH]; intros h w n Hp Hk.
  - cbn. rewrite upd_enum_id; auto. intros [a b l]; cbn. rewrite app_nil_r; reflexivity.
  - cbn [map apply_calls].
    assert (E : apply_call (entry_call x) h =
      Some (upd_enum h w n (fun e => EnumS (e_name e) (e_class e) (e_lines e ++ [entry_line x])), true, [])).
    { apply mfind_some in Hk as [e0 He0]. unfold entry_call, entry_line.
      destruct (en_val x); cbn [apply_call]; rewrite Hp; unfold add_enum_line; rewrite He0; reflexivity. }
    rewrite E. rewrite (IH _ w n).
    + rewrite upd_enum_twice. f_equal. f_equal. apply upd_enum_ext. intros e; cbn. f_equal. symmetry; apply app_mono.
    + rewrite upd_enum_ptr; auto.
    + destruct h, w; cbn in *; rewrite mupd_keys; auto.
Qed.

Lemma entries_drop es : forall h, i_cur_enum (h_self h) = None -> apply_calls (map entry_call es) h = Some (h, []).
Proof.
  induction es as [|x es IH]; intros h Hp; [reflexivity|]. cbn [map apply_calls].
  assert (E : apply_call (entry_call x) h = Some (h, false, [])).
  { unfold entry_call. destruct (en_val x); cbn [apply_call]; rewrite Hp; reflexivity. }
  rewrite E, IH by auto. reflexivity.
Qed.

Lemma members_append ms : forall h w n, i_cur_struct (h_self h) = Some (w, n) ->
  In n (mkeys (i_structs (obj h w))) ->
  apply_calls (map member_call ms) h =
  Some (upd_struct h w n (fun s => StructS (s_name s) (s_simple s ++ simples ms) (s_complex s ++ complexes ms) (s_incoming s)), []).
Proof.
  induction ms as [|x ms IH]; intros h w n Hp Hk.
  - cbn. rewrite upd_struct_id; auto. intros [a b l k]; cbn. rewrite !app_nil_r; reflexivity.
  - cbn [map apply_calls].
    assert (E : apply_call (member_call x) h =
      Some (upd_struct h w n (fun s => StructS (s_name s) (s_simple s ++ simples [x]) (s_complex s ++ complexes [x]) (s_incoming s)), true, [])).
    { apply mfind_some in Hk as [s0 Hs0].
      destruct x; cbn [member_call apply_call]; rewrite Hp; unfold add_simple, add_complex; rewrite Hs0;
        f_equal; f_equal; f_equal; apply upd_struct_ext; intros s; cbn; rewrite ?app_nil_r; reflexivity. }
    rewrite E. rewrite (IH _ w n).
    + rewrite upd_struct_twice. f_equal. f_equal. apply upd_struct_ext. intros s; cbn.
      rewrite <- !app_assoc. f_equal; (f_equal; destruct x; reflexivity).
    + rewrite upd_struct_ptr; auto.
    + destruct h, w; cbn in *; rewrite mupd_keys; auto.
Qed.

Lemma members_drop ms : forall h, i_cur_struct (h_self h) = None -> apply_calls (map member_call ms) h = Some (h, []).
Proof.
  induction ms as [|x ms IH]; intros h Hp; [reflexivity|]. cbn [map apply_calls].
  assert (E : apply_call (member_call x) h = Some (h, false, [])).
  { destruct x; cbn [member_call apply_call]; rewrite Hp; reflexivity. }
  rewrite E, IH by auto. reflexivity.
Qed.

Lemma redefine b h d : reach b h -> get_item_type (h_self h) (def_name d) <> unknown_E ->
  exists h', apply_calls (def_calls d) h = Some (h', [redefinition_message d]) /\
    (forall w, i_cur_struct (obj h' w) = i_cur_struct (obj h w) /\ i_cur_enum (obj h' w) = i_cur_enum (obj h w) /\
               i_parse_rv (obj h' w) = i_parse_rv (obj h w)) /\
    (forall w n, mfind n (i_enums (obj h' w)) =
       if is_current (i_cur_enum (h_self h)) w n then option_map (more_lines d) (mfind n (i_enums (obj h w)))
       else mfind n (i_enums (obj h w))) /\
    (forall w n, mfind n (i_structs (obj h' w)) =
       if is_current (i_cur_struct (h_self h)) w n then option_map (more_members d) (mfind n (i_structs (obj h w)))
       else mfind n (i_structs (obj h w))).
Proof.
  intros R Hd. apply reach_inv in R.
  assert (Hid1 : forall es t cls x, (forall w n, mfind n (i_structs (obj h w)) =
     if is_current (i_cur_struct (h_self h)) w n then option_map (more_members (DefEnum cls x es t)) (mfind n (i_structs (obj h w)))
       else mfind n (i_structs (obj h w)))).
  { intros. destruct (is_current _ _ _); auto. destruct (mfind n _) as [[]|]; auto. unfold more_members; cbn.
    rewrite !app_nil_r; auto. }
  assert (Hid2 : forall ms x, (forall w n, mfind n (i_enums (obj h w)) =
     if is_current (i_cur_enum (h_self h)) w n then option_map (more_lines (DefStruct x ms)) (mfind n (i_enums (obj h w)))
       else mfind n (i_enums (obj h w)))).
  { intros. destruct (is_current _ _ _); auto. destruct (mfind n _) as [[]|]; auto. unfold more_lines; cbn.
    rewrite !app_nil_r; auto. }
  destruct d as [cls x es t|x ms]; cbn [def_name def_calls apply_calls apply_call redefinition_message] in *.
  - assert (E : match get_item_type (h_self h) x with
      | unknown_E => Some (Heap (Info (i_structs (h_self h)) (mset x (EnumS x cls []) (i_enums (h_self h)))
                           None (Some (HSelf, x)) (i_parse_rv (h_self h))) (h_common h), true, [])
      | _ => Some (h, false, ["ERROR process_enum : name '" ++ x ++ " already in use"]%string) end =
      Some (h, false, ["ERROR process_enum : name '" ++ x ++ " already in use"]%string))
      by (destruct (get_item_type (h_self h) x); congruence).
    rewrite E. clear E. pose proof (inv_e _ _ R) as Hp. unfold eptr_ok in Hp.
    destruct (i_cur_enum (h_self h)) as [[w n]|] eqn:Ep.
    + rewrite (entries_append es h w n Ep Hp). eexists. split; [reflexivity|]. split; [|split].
      * intros w'. destruct h, w, w'; cbn; auto.
      * intros w' n'. destruct h as [i c], w, w'; cbn; rewrite ?mfind_mupd; reflexivity.
      * intros w' n'. rewrite <- Hid1. destruct h as [i c], w, w'; reflexivity.
    + rewrite entries_drop by auto. eexists. split; [reflexivity|]. split; [|split]; auto.
  - assert (E : match get_item_type (h_self h) x with
      | unknown_E => Some (Heap (Info (mset x (StructS x [] [] 0) (i_structs (h_self h))) (i_enums (h_self h))
                           (Some (HSelf, x)) None (i_parse_rv (h_self h))) (h_common h), true, [])
      | _ => Some (h, false, ["ERROR process_struct : name '" ++ x ++ " already in use"]%string) end =
      Some (h, false, ["ERROR process_struct : name '" ++ x ++ " already in use"]%string))
      by (destruct (get_item_type (h_self h) x); congruence).
    rewrite E. clear E. pose proof (inv_s _ _ R) as Hp. unfold sptr_ok in Hp.
    destruct (i_cur_struct (h_self h)) as [[w n]|] eqn:Ep.
    + rewrite (members_append ms h w n Ep Hp). eexists. split; [reflexivity|]. split; [|split].
      * intros w'. destruct h, w, w'; cbn; auto.
      * intros w' n'. rewrite <- Hid2. destruct h as [i c], w, w'; reflexivity.
      * intros w' n'. destruct h as [i c], w, w'; cbn; rewrite ?mfind_mupd; reflexivity.
    + rewrite members_drop by auto. eexists. split; [reflexivity|]. split; [|split]; auto.
Qed.

(** A file that is accepted is accepted whatever the store holds. *)
Lemma accepted_anyway cs ds b h : text_of cs ds -> reach b h ->
  exists h' m, process_input_file (Some cs) h = Some (h', true, m).
Proof.
  intros Ht R. destruct (reach_calls b h (file_calls ds) R) as (h' & m & E & _).
  destruct (input_text cs ds h h' m Ht E) as (sm & -> & _). eauto.
Qed.

(** ** The common store *)
Lemma own_call c h h' r m : own (h_self h) -> apply_call c h = Some (h', r, m) ->
  own (h_self h') /\ h_common h' = h_common h.
Proof.
  intros [O1 O2]. destruct h as [i cm]. cbn [h_self] in *. destruct c as [n cls|n ini v|n|ty n d|ty tn n]; cbn [apply_call h_self].
  - destruct (get_item_type i n); intros [= <- <- <-]; cbn; split; auto; split; cbn; auto; discriminate.
  - destruct (i_cur_enum i) as [[w k]|] eqn:E; [|intros [= <- <- <-]; cbn; rewrite <- ?E in *; split; auto; split; auto].
    destruct w; [|cbn in O2; congruence]. unfold add_enum_line. cbn. destruct (mfind k (i_enums i)); [|discriminate].
    intros [= <- <- <-]. cbn. split; auto. split; cbn; auto. rewrite E; auto.
  - destruct (get_item_type i n); intros [= <- <- <-]; cbn; split; auto; split; cbn; auto; discriminate.
  - destruct (i_cur_struct i) as [[w k]|] eqn:E; [|intros [= <- <- <-]; cbn; rewrite <- ?E in *; split; auto; split; auto].
    destruct w; [|cbn in O1; congruence]. unfold add_simple. cbn. destruct (mfind k (i_structs i)); [|discriminate].
    intros [= <- <- <-]. cbn. split; auto. split; cbn; auto. rewrite E; auto.
  - destruct (i_cur_struct i) as [[w k]|] eqn:E; [|intros [= <- <- <-]; cbn; rewrite <- ?E in *; split; auto; split; auto].
    destruct w; [|cbn in O1; congruence]. unfold add_complex. cbn. destruct (mfind k (i_structs i)); [|discriminate].
    intros [= <- <- <-]. cbn. split; auto. split; cbn; auto. rewrite E; auto.
Qed.

Lemma own_calls cs : forall h h' m, own (h_self h) -> apply_calls cs h = Some (h', m) ->
  own (h_self h') /\ h_common h' = h_common h.
Proof.
  induction cs as [|c cs IH]; intros h h' m O; cbn [apply_calls]; [intros [= <- <-]; auto|].
  destruct (apply_call c h) as [[[h1 r] m1]|] eqn:E; [|discriminate].
  destruct (apply_calls cs h1) as [[h2 m2]|] eqn:E2; [|discriminate]. intros [= <- <-].
  destruct (own_call _ _ _ _ _ O E) as [O1 C1]. destruct (IH _ _ _ O1 E2) as [O2 C2]. split; congruence.
Qed.

(** The first callback introduces a fresh name (in a file: its first definition does). *)
Definition starts_fresh (i : info) (cs : list call) : Prop :=
  match cs with
  | [] => True
  | CEnum n _ :: _ | CStruct n :: _ => get_item_type i n = unknown_E
  | _ => False
  end.

Lemma fresh_section cs h h' m : starts_fresh (h_self h) cs -> apply_calls cs h = Some (h', m) ->
  h_common h' = h_common h.
Proof.
  destruct cs as [|c cs]; cbn [starts_fresh apply_calls]; [intros _ [= <- <-]; auto|].
  intros F. destruct c as [n cls| |n| |]; try contradiction; cbn [apply_call]; rewrite F;
    match goal with |- context [apply_calls cs ?h1] =>
      destruct (apply_calls cs h1) as [[h2 m2]|] eqn:E2; [|discriminate];
      intros [= <- <-]; apply own_calls in E2 as [_ E2]; [exact E2|split; cbn; discriminate] end.
Qed.

(** Files. *)
Fixpoint calls_of_files (files : list (option bytes)) : list call :=
  match files with
  | [] => []
  | None :: fs => calls_of_files fs
  | Some cs :: fs =>
      match parse_bytes (8 * length cs + 11) cs with
      | Some (o, _) => calls_of o | None => [] end ++ calls_of_files fs
  end.

Lemma inputs_calls files : forall b h, reach b h ->
  exists h1 rv h' rs m m1, process_input_files files h = Some (h', rs, m) /\
    apply_calls (calls_of_files files) h = Some (h1, m1) /\ messages m = m1 /\
    h' = Heap (set_rv (h_self h1) rv) (h_common h1).
Proof.
  induction files as [|f files IH]; intros b h R; cbn [process_input_files calls_of_files].
  - exists h, (i_parse_rv (h_self h)). do 4 eexists. split; [reflexivity|]. split; [reflexivity|]. split; [reflexivity|].
    destruct h as [[] c]; reflexivity.
  - destruct f as [cs|]; cbn [process_input_file].
    + destruct (ParseLang.text_terminate cs) as (o & rv & _ & Hp). rewrite (Hp _ (le_n _)).
      destruct (reach_calls b h (calls_of o) R) as (h1 & m1 & E1 & R1).
      destruct (run_outs_calls _ _ _ _ E1) as (sm & -> & M1).
      destruct (IH b _ (R_rv _ _ rv R1)) as (h2 & rv2 & h' & rs & m & m2 & P & E2 & M2 & ->).
      rewrite P. destruct h1 as [i1 c1]; cbn [h_self h_common] in *. rewrite set_rv_calls in E2.
      destruct (apply_calls (calls_of_files files) (Heap i1 c1)) as [[[i3 c3] m3]|] eqn:E3; [|discriminate].
      injection E2 as <- <-. exists (Heap i3 c3), rv2. do 4 eexists. split; [reflexivity|].
      rewrite apply_calls_app, E1, E3. split; [reflexivity|]. split; [|reflexivity].
      cbn [messages flat_map app]. fold (messages (sm ++ m)). unfold messages in *. rewrite flat_map_app. congruence.
    + destruct (IH b h R) as (h2 & rv2 & h' & rs & m & m2 & P & E2 & M2 & ->). rewrite P.
      exists h2, rv2. do 4 eexists. split; [reflexivity|]. split; [exact E2|]. split; [exact M2|reflexivity].
Qed.

Lemma fresh_files files b h h' rs m : reach b h -> starts_fresh (h_self h) (calls_of_files files) ->
  process_input_files files h = Some (h', rs, m) -> h_common h' = h_common h.
Proof.
  intros R F E. destruct (inputs_calls files b h R) as (h1 & rv & h2 & rs2 & m2 & m1 & P & Q & _ & ->).
  rewrite P in E. injection E as <- _ _. cbn. eapply fresh_section; eauto.
Qed.

(** A section that begins with a redefinition of the kind that was current. *)
Lemma leak_struct c x n ms n0 s0 : reach false (Heap c x) -> i_cur_struct c = Some (HSelf, n0) ->
  mfind n0 (i_structs c) = Some s0 -> get_item_type c n <> unknown_E ->
  exists h' m, apply_calls (def_calls (DefStruct n ms)) (Heap (copy_info c) c) = Some (h', m) /\
    mfind n0 (i_structs (h_common h')) =
      Some (StructS (s_name s0) (s_simple s0 ++ simples ms) (s_complex s0 ++ complexes ms) (s_incoming s0)) /\
    mfind n0 (i_structs (h_self h')) = Some s0.
Proof.
  intros R Hp Hs Hn. pose proof (R_first_section _ R) as R1. cbn in R1.
  destruct (redefine true _ (DefStruct n ms) R1) as (h' & E & _ & _ & H); [exact Hn|].
  exists h'. eexists. split; [exact E|]. split.
  - specialize (H HCommon n0). cbn in H. rewrite Hp in H. cbn in H. rewrite String.eqb_refl, Hs in H. exact H.
  - specialize (H HSelf n0). cbn in H. rewrite Hp in H. cbn in H. rewrite Hs in H. exact H.
Qed.

Lemma leak_enum c x n cls es t n0 e0 : reach false (Heap c x) -> i_cur_enum c = Some (HSelf, n0) ->
  mfind n0 (i_enums c) = Some e0 -> get_item_type c n <> unknown_E ->
  exists h' m, apply_calls (def_calls (DefEnum cls n es t)) (Heap (copy_info c) c) = Some (h', m) /\
    mfind n0 (i_enums (h_common h')) =
      Some (EnumS (e_name e0) (e_class e0) (e_lines e0 ++ map entry_line es)) /\
    mfind n0 (i_enums (h_self h')) = Some e0.
Proof.
  intros R Hp Hs Hn. pose proof (R_first_section _ R) as R1. cbn in R1.
  destruct (redefine true _ (DefEnum cls n es t) R1) as (h' & E & _ & H & _); [exact Hn|].
  exists h'. eexists. split; [exact E|]. split.
  - specialize (H HCommon n0). cbn in H. rewrite Hp in H. cbn in H. rewrite String.eqb_refl, Hs in H. exact H.
  - specialize (H HSelf n0). cbn in H. rewrite Hp in H. cbn in H. rewrite Hs in H. exact H.
Qed.
