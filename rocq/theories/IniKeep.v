(** What reading an n_ini file leaves alone; which names of sections there are. *)
From Coq Require Import String Ascii ZArith NArith Arith List Bool Lia.
From Verif Require Import Base Map Items Grammar Fmt Decimal Templates Emit Cpp Xml Val Rx CppSem SymLex Ast StoreDefs ResolveProps Prog Header Link EnumSem DecText EnumCall XmlSpec XmlRdSimple XmlRead XmlReader XmlCall XmlWriter XmlCarry XmlRound IniSpec IniRead IniReader IniCall IniWrite IniScan.
Import ListNotations.
Local Open Scope string_scope.
Local Open Scope list_scope.

(** *** Names of sections *)
(** The section of the struct that is reached by the members [ns]. *)
Definition section_of (ns : list string) : string := fold_left sub_path ns "".

Definition no_dot (s : string) : bool := all_chars (fun c => negb (c =? ".")%char) s.
Lemma under_no_dot n : ident n = true -> no_dot (underline_to_space n) = true.
Proof.
  intros H. apply ident_idc in H. induction n as [|c n IH]; [reflexivity|]. cbn [all_chars] in H. apply andb_true_iff in H as [C H].
  cbn [underline_to_space no_dot all_chars]. fold (no_dot (underline_to_space n)). rewrite (IH H), andb_true_r. destruct c as [[] [] [] [] [] [] [] []]; (reflexivity || discriminate).
Qed.
Lemma under_on_line n : ident n = true -> on_line (underline_to_space n) = true.
Proof.
  intros H. apply ident_idc in H. induction n as [|c n IH]; [reflexivity|]. cbn [all_chars] in H. apply andb_true_iff in H as [C H].
  cbn [underline_to_space on_line all_chars]. fold (on_line (underline_to_space n)). rewrite (IH H), andb_true_r. destruct c as [[] [] [] [] [] [] [] []]; (reflexivity || discriminate).
Qed.
Lemma under_inj n m : ident n = true -> ident m = true -> underline_to_space n = underline_to_space m -> n = m.
Proof.
  intros A B. apply ident_idc in A. apply ident_idc in B. revert m B. induction n as [|c n IH]; intros [|d m] B E; try discriminate; [reflexivity|].
  cbn [all_chars underline_to_space] in *. apply andb_true_iff in A as [C A]. apply andb_true_iff in B as [D B].
  injection E as E1 E2. rewrite (IH A m B E2). f_equal. destruct (Ascii.eqb_spec c "_") as [->|NC], (Ascii.eqb_spec d "_") as [->|ND]; auto; subst; discriminate.
Qed.
Lemma under_cons n : ident n = true -> underline_to_space n <> "".
Proof. intros H. destruct (ident_cons n H) as (c & r & -> & _). discriminate. Qed.
Lemma sub_path_cons p n : ident n = true -> sub_path p n <> "".
Proof. intros H. unfold sub_path, dotted. destruct p; [now apply under_cons|discriminate]. Qed.
Lemma sub_path_line p n : on_line p = true -> ident n = true -> on_line (sub_path p n) = true.
Proof.
  intros H N. unfold sub_path, on_line. rewrite all_chars_app. fold (on_line (underline_to_space n)). rewrite (under_on_line n N), andb_true_r.
  unfold dotted. destruct p as [|c p]; [reflexivity|]. rewrite all_chars_app. fold (on_line (String c p)). now rewrite H.
Qed.

Lemma last_dot : forall x y a b, no_dot a = true -> no_dot b = true -> (x ++ "." ++ a)%string = (y ++ "." ++ b)%string -> x = y /\ a = b.
Proof.
  induction x as [|c x IH]; intros [|d y] a b A B E; cbn [String.append] in E; [injection E as E2|injection E as E1 E2..].
  - auto.
  - subst. exfalso. unfold no_dot in A. rewrite all_chars_app in A. cbn [String.append all_chars Ascii.eqb Bool.eqb negb] in A. rewrite andb_false_r in A. discriminate.
  - subst. exfalso. unfold no_dot in B. rewrite all_chars_app in B. cbn [String.append all_chars Ascii.eqb Bool.eqb negb] in B. rewrite andb_false_r in B. discriminate.
  - subst. destruct (IH y a b A B E2) as [-> ->]. auto.
Qed.
Lemma has_dot x a b : no_dot b = true -> (x ++ "." ++ a)%string = b -> False.
Proof. intros B <-. unfold no_dot in B. rewrite all_chars_app in B. cbn [String.append all_chars Ascii.eqb Bool.eqb negb] in B. rewrite andb_false_r in B. discriminate. Qed.
Lemma sub_path_inj p q n m : ident n = true -> ident m = true -> sub_path p n = sub_path q m -> p = q /\ n = m.
Proof.
  intros N M E. pose proof (under_no_dot n N) as DN. pose proof (under_no_dot m M) as DM. unfold sub_path, dotted in E.
  destruct p as [|c p], q as [|d q].
  - split; [reflexivity|]. now apply under_inj.
  - exfalso. rewrite sapp_assoc in E. symmetry in E. cbn [String.append] in E. exact (has_dot (String d q) _ _ DN E).
  - exfalso. rewrite sapp_assoc in E. exact (has_dot (String c p) _ _ DM E).
  - rewrite !sapp_assoc in E. apply last_dot in E as [-> E]; auto. split; [reflexivity|]. now apply under_inj.
Qed.
Lemma section_snoc ns n : section_of (ns ++ [n]) = sub_path (section_of ns) n.
Proof. unfold section_of. now rewrite fold_left_app. Qed.
Lemma section_inj : forall ns ms, Forall (fun n => ident n = true) ns -> Forall (fun n => ident n = true) ms -> section_of ns = section_of ms -> ns = ms.
Proof.
  induction ns as [|n ns IH] using rev_ind; intros ms; destruct ms as [|m ms _] using rev_ind; intros A B E; rewrite ?section_snoc in E.
  - reflexivity.
  - exfalso. apply Forall_app in B as [_ B]. inversion B; subst. symmetry in E. now apply sub_path_cons in E.
  - exfalso. apply Forall_app in A as [_ A]. inversion A; subst. now apply sub_path_cons in E.
  - apply Forall_app in A as [A1 A2]. apply Forall_app in B as [B1 B2]. inversion A2; subst. inversion B2; subst.
    apply sub_path_inj in E as [E ->]; auto. now rewrite (IH ms A1 B1 E).
Qed.

(** [q] is the section [p] or one below it. *)
Definition below (q p : string) : Prop := q = p \/ exists r, q = (p ++ "." ++ r)%string.
Lemma app_cancel a x y : (a ++ x)%string = (a ++ y)%string -> x = y.
Proof. induction a as [|c a IH]; cbn; [auto|]. intros [= E]. auto. Qed.
Lemma no_dot_prefix : forall a b t t', no_dot a = true -> no_dot b = true -> (t = "" \/ exists r, t = ("." ++ r)%string) -> (t' = "" \/ exists r, t' = ("." ++ r)%string) ->
  (a ++ t)%string = (b ++ t')%string -> a = b.
Proof.
  induction a as [|c a IH]; intros [|d b] t t' A B T T' E; [reflexivity| | |].
  - exfalso. cbn [String.append no_dot all_chars] in *. apply andb_true_iff in B as [B _]. destruct T as [->|(r & ->)]; [discriminate|]. injection E as <- _. discriminate.
  - exfalso. cbn [String.append no_dot all_chars] in *. apply andb_true_iff in A as [A _]. destruct T' as [->|(r & ->)]; [discriminate|]. injection E as -> _. discriminate.
  - cbn [String.append no_dot all_chars] in *. apply andb_true_iff in A as [_ A]. apply andb_true_iff in B as [_ B]. injection E as -> E. f_equal. eapply (IH b t t'); eauto.
Qed.
Lemma below_sibling q p n m : ident n = true -> ident m = true -> below q (sub_path p n) -> below q (sub_path p m) -> n = m.
Proof.
  intros N M A B. apply under_inj; auto.
  assert (F : forall x, below q (sub_path p x) -> exists t, (t = "" \/ exists r, t = ("." ++ r)%string) /\ q = (dotted p ++ underline_to_space x ++ t)%string).
  { intros x [->|(r & ->)]; unfold sub_path; [exists ""; rewrite sapp_nil_r; auto|exists ("." ++ r)%string; rewrite sapp_assoc; eauto]. }
  destruct (F n A) as (t & T & E). destruct (F m B) as (t' & T' & E'). rewrite E in E'. apply app_cancel in E'.
  exact (no_dot_prefix _ _ t t' (under_no_dot n N) (under_no_dot m M) T T' E').
Qed.
Lemma len_app a c : String.length (a ++ c) = String.length a + String.length c.
Proof. induction a; cbn; auto. Qed.
Lemma below_self p n : ident n = true -> ~ below p (sub_path p n).
Proof.
  intros N B. assert (L : String.length (sub_path p n) <= String.length p).
  { destruct B as [E|(r & E)]; rewrite E at 2; [lia|]. rewrite len_app. lia. }
  unfold sub_path in L. rewrite len_app in L. pose proof (under_cons n N) as U. destruct (underline_to_space n); [congruence|].
  unfold dotted in L. destruct p as [|c p]; cbn [String.length] in L; [lia|]. rewrite len_app in L. cbn [String.length] in L. lia.
Qed.
Lemma below_sub q p n : p <> "" -> below q (sub_path p n) -> below q p.
Proof.
  intros NE B. right. unfold sub_path, dotted in B. destruct p; [congruence|]. destruct B as [->|(r & ->)]; rewrite !sapp_assoc; eexists; reflexivity.
Qed.

(** *** There is no section without a name *)
Lemma section_found l k r : search "\[(.+)\]" l = Some (k :: r) -> k <> "".
Proof.
  unfold search. change (rx_compile "\[(.+)\]") with (Some [RItem (RChar "[") false; ROpen; RItem RAny true; RClose; RItem (RChar "]") false]). cbv beta iota.
  set (rs := [RClose; RItem (RChar "]") false]).
  assert (PL : forall s t g, rx_match (RItem RAny true :: rs) s (Some t) [] = Some g -> exists k, g = [k] /\ k <> "").
  { induction s as [|c s IH]; intros t g; [discriminate|].
    change (rx_match (RItem RAny true :: rs) (String c s) (Some t) []) with
      (if rclass_has RAny c then match rx_match (RItem RAny true :: rs) s (Some (snoc t c)) [] with Some g => Some g | None => rx_match rs s (Some (snoc t c)) [] end else None).
    destruct (rclass_has RAny c); [|discriminate]. destruct (rx_match (RItem RAny true :: rs) s (Some (snoc t c)) []) as [g'|] eqn:E; [intros [= <-]; eapply IH; eauto|].
    unfold rs. cbn [rx_match app]. destruct s as [|d s]; [discriminate|]. destruct (rclass_has (RChar "]") d); [|discriminate]. intros [= <-]. exists (snoc t c). split; [reflexivity|]. unfold snoc. destruct t; discriminate. }
  induction l as [|c l IH]; unfold rx_search; fold rx_search; [discriminate|].
  set (m := rx_match _ (String c l) None []). assert (M : forall g, m = Some g -> exists k, g = [k] /\ k <> "").
  { intros g. unfold m. cbn [rx_match]. destruct (rclass_has (RChar "[") c); [|discriminate]. apply (PL l "" g). }
  destruct m as [g|]; [|exact IH]. destruct (M g eq_refl) as (k' & -> & NE). intros [= <- _]. exact NE.
Qed.
Definition named (k : lookups) : Prop := assoc "" (k_under k) = None.
Lemma named_put c n v k : named k -> named (put_item c n v k).
Proof.
  intros H. unfold put_item. destruct c as [s|]; [|exact H]. destruct (assoc s (k_under k)) as [its|] eqn:E; [|exact H].
  unfold named. cbn [k_under]. rewrite assoc_set_other; [exact H|]. apply eqb_neq. intros <-. unfold named in H. congruence.
Qed.
Lemma named_flush c s : named (x_look s) -> named (x_look (flush c s)).
Proof. intros H. unfold flush. destruct (_ && _)%bool; [|exact H]. now apply named_put. Qed.
Lemma named_line l s : named (x_look s) -> named (x_look (scan_line l s)).
Proof.
  intros H. unfold scan_line. destruct (no_comment l) as [|c r]; [exact H|]. pose proof (named_flush c s H) as F. set (s' := flush c s) in *.
  destruct (c =? "[")%char.
  - destruct (search "\[(.+)\]" (String c r)) as [[|k q]|] eqn:E; try exact F. apply section_found in E. unfold named. cbn [x_look k_under]. rewrite assoc_set_other; [exact F|].
    apply eqb_neq. congruence.
  - destruct (c =? " ")%char; [exact F|]. destruct (search "(\w+) (.+)" (String c r)) as [[|k [|v q]]|]; try (destruct (search "(\w+)" (String c r)) as [[|k' q']|]; exact F).
    cbn [x_look]. now apply named_put.
Qed.
Lemma named_text t s : named (x_look s) -> named (x_look (scan_text t s)).
Proof.
  unfold scan_text. generalize (chunks 79 "" t). intros ls. revert s. induction ls as [|l ls IH]; intros s H; [exact H|]. cbn [fold_left]. apply IH. now apply named_line.
Qed.

(** *** Members of members *)
Fixpoint member_at (ns : list string) (v : val) : option val :=
  match ns with
  | [] => Some v
  | n :: r => match v with VStruct _ fs => let? w := assoc n fs in member_at r w | _ => None end
  end.

Section Keep.
  Variables (enums : list enum_S) (ss : list struct_S) (o : output_spec) (ds : list def) (L : lang).
  Hypothesis X : ini_setting enums ss o ds L.
  Lemma j_ok : header_ok (o_reader o) (o_writer o) (l_defs L) = true.
  Proof. rewrite (i_defs _ _ _ _ _ X). exact (i_ok _ _ _ _ _ X). Qed.
  Lemma j_defaults u ms : find_struct (l_defs L) u = Some ms -> exists d, default_fields L u = Some d /\ fits L (VStruct u d) (TStruct u) = true.
  Proof. exact (defaults L _ _ j_ok (i_long _ _ _ _ _ X) (i_lits _ _ _ _ _ X) u ms). Qed.
  Lemma j_parts u fs : fits L (VStruct u fs) (TStruct u) = true -> exists ms d, find_struct (l_defs L) u = Some ms /\ default_fields L u = Some d /\
    NoDup (map member_name ms) /\ map fst fs = map member_name ms /\
    forall m, In m ms -> exists ty v dv, member_type L m = Some ty /\ assoc (member_name m) fs = Some v /\ assoc (member_name m) d = Some dv /\
      fits L v ty = true /\ fits L dv ty = true.
  Proof.
    intros F. destruct (fits_struct L u fs F) as (ms & FS & FF). destruct (j_defaults u ms FS) as (d & D & FD).
    destruct (fits_struct L u d FD) as (ms' & FS' & FFD). assert (ms' = ms) by congruence. subst ms'. pose proof (names_distinct L _ _ j_ok u ms FS) as ND.
    exists ms, d. repeat (split; [first [assumption|exact (fields_fit_keys L ms fs FF)]|]). intros m I.
    destruct (fields_fit_member L ms ND fs FF m I) as (v & ty & A1 & A2 & A3). destruct (fields_fit_member L ms ND d FFD m I) as (dv & ty' & B1 & B2 & B3).
    assert (ty' = ty) by congruence. subst ty'. exists ty, v, dv. auto.
  Qed.
  Lemma j_ident u ms m : find_struct (l_defs L) u = Some ms -> In m ms -> ident (member_name m) = true.
  Proof.
    intros FS I. apply find_struct_in in FS. destruct (struct_parts _ _ _ j_ok u ms FS) as (_ & k & r & E & MO). specialize (MO m I). unfold member_ok in MO.
    apply andb_true_iff in MO as [N _]. now apply name_ok_ident.
  Qed.
  Lemma j_name_inj ms m m' : NoDup (map member_name ms) -> In m ms -> In m' ms -> member_name m = member_name m' -> m = m'.
  Proof.
    intros ND. induction ms as [|m0 l IH]; [contradiction|]. cbn [map] in ND. apply NoDup_cons_iff in ND as [N ND'].
    intros [->|X1] [->|Y1] E; auto; exfalso; apply N; [rewrite E|rewrite <- E]; now apply in_map.
  Qed.
  Lemma j_section ms m : NoDup (map member_name ms) -> In m ms -> is_scalar L m = false -> ~ In (member_name m) (map member_name (section_members L ms)).
  Proof.
    intros ND I S H. apply in_map_iff in H as (m' & E & H). unfold section_members in H. destruct (existsb is_simple ms); [|contradiction].
    apply filter_In in H as (H & SC'). apply (proj1 (in_order_in m' ms)) in H. apply (j_name_inj ms m' m ND H I) in E. subst m'. congruence.
  Qed.
  Lemma struct_no_scalar m : is_struct_member L m = true -> is_scalar L m = false.
  Proof. destruct m; cbn; try discriminate. destruct (user_type L tname) as [[]|]; auto; discriminate. Qed.
  Lemma struct_member_type m ty : member_type L m = Some ty -> is_struct_member L m = true -> exists u, ty = TStruct u.
  Proof. destruct m; cbn; try discriminate. intros ->. destruct ty; try discriminate. eauto. Qed.
  Lemma type_struct_member m u : member_type L m = Some (TStruct u) -> is_struct_member L m = true.
  Proof. destruct m as [st n d|t n d|t n]; cbn; [destruct st; discriminate| |discriminate]. now intros ->. Qed.

  Lemma sub_assoc {B} (g : val -> B) n fs : assoc n (map (fun p => (fst p, g (snd p))) fs) = match assoc n fs with Some v => Some (g v) | None => None end.
  Proof. induction fs as [|[m v] fs IH]; cbn; [reflexivity|]. destruct (String.eqb n m); auto. Qed.
  Lemma read_structs_member path sub n : forall ms rv fs rv' fs', read_structs path sub ms rv fs = Some (rv', fs') -> NoDup (map member_name ms) ->
    if existsb (fun m => String.eqb n (member_name m)) ms then exists f r v, assoc n sub = Some f /\ f (sub_path path n) = Some (r, v) /\ assoc n fs' = Some v
    else assoc n fs' = assoc n fs.
  Proof.
    induction ms as [|m ms IH]; intros rv fs rv' fs' E ND; cbn [read_structs existsb] in *; [now injection E as _ ->|].
    cbn [map] in ND. apply NoDup_cons_iff in ND as [N ND].
    destruct (assoc (member_name m) sub) as [f|] eqn:A; [|discriminate]. destruct (f (sub_path path (member_name m))) as [[r v]|] eqn:F; [|discriminate].
    specialize (IH _ _ _ _ E ND). destruct (String.eqb_spec n (member_name m)) as [->|NE]; cbn [orb].
    - assert (Z : existsb (fun m0 => String.eqb (member_name m) (member_name m0)) ms = false).
      { apply not_true_iff_false. rewrite existsb_exists. intros (y & Y & W). apply String.eqb_eq in W. apply N. rewrite W. now apply in_map. }
      rewrite Z in IH. exists f, r, v. repeat split; auto. rewrite IH. apply assoc_set_same.
    - destruct (existsb _ ms); [exact IH|]. rewrite IH. apply assoc_set_other. now apply eqb_neq.
  Qed.
  Lemma struct_filter_in ms m : In m ms -> NoDup (map member_name ms) -> existsb (fun y => String.eqb (member_name m) (member_name y)) (filter (is_struct_member L) ms) = is_struct_member L m.
  Proof.
    intros I ND. destruct (is_struct_member L m) eqn:S.
    - apply existsb_exists. exists m. split; [now apply filter_In|apply String.eqb_refl].
    - apply not_true_iff_false. rewrite existsb_exists. intros (y & Y & W). apply filter_In in Y as [Y SY]. apply String.eqb_eq in W. apply (j_name_inj ms m y ND I Y) in W. congruence.
  Qed.

  (** One step: what becomes of the members of an object. *)
  Lemma read_obj_members k u fs p rv v : fits L (VStruct u fs) (TStruct u) = true -> read_obj L k (VStruct u fs) p = Some (rv, v) ->
    exists gs ms, v = VStruct u gs /\ find_struct (l_defs L) u = Some ms /\ forall m, In m ms ->
      (is_scalar L m = false -> is_struct_member L m = false -> assoc (member_name m) gs = assoc (member_name m) fs) /\
      (is_scalar L m = true -> assoc p (k_under k) = None \/ existsb is_simple ms = false -> assoc (member_name m) gs = assoc (member_name m) fs) /\
      (is_struct_member L m = true -> assoc (member_name m) gs = assoc (member_name m) fs \/
         exists w r y, assoc (member_name m) fs = Some w /\ read_obj L k w (sub_path p (member_name m)) = Some (r, y) /\ assoc (member_name m) gs = Some y).
  Proof.
    intros F E. destruct (j_parts u fs F) as (ms & d & FS & D & ND & K & M). cbn [read_obj] in E. rewrite FS in E.
    set (r := match assoc p (k_under k) with Some its => read_scalars L its (section_members L ms) fs | None => Done fs end) in E.
    assert (OTH : match r with Done f' | Thrown f' => forall m, In m ms -> is_scalar L m = false -> assoc (member_name m) f' = assoc (member_name m) fs | Undefined => True end).
    { unfold r. destruct (assoc p (k_under k)) as [its|]; [|auto]. destruct (read_scalars L its (section_members L ms) fs) as [f'|f'|] eqn:RS; auto;
      intros m I S; pose proof (read_scalars_other L its (member_name m) (section_members L ms) fs (j_section ms m ND I S)) as Y; now rewrite RS in Y. }
    assert (SAME : assoc p (k_under k) = None \/ existsb is_simple ms = false -> r = Done fs).
    { unfold r. intros [->|Z]; [reflexivity|]. unfold section_members. rewrite Z. now destruct (assoc p (k_under k)). }
    destruct r as [f1|f1|]; [| |discriminate].
    - destruct (read_structs p _ (filter (is_struct_member L) ms) true f1) as [[rv' f2]|] eqn:RS; [|discriminate]. injection E as <- <-.
      exists f2, ms. split; [reflexivity|]. split; [exact FS|]. intros m I.
      pose proof (read_structs_member p _ (member_name m) _ _ _ _ _ RS (filter_names _ _ ND)) as RM. rewrite (struct_filter_in ms m I ND) in RM.
      repeat split.
      + intros S1 S2. rewrite S2 in RM. rewrite RM. now apply OTH.
      + intros S Z. assert (SM : is_struct_member L m = false) by (destruct (is_struct_member L m) eqn:SM; [|reflexivity]; apply struct_no_scalar in SM; congruence).
        rewrite SM in RM. rewrite RM. specialize (SAME Z). injection SAME as ->. reflexivity.
      + intros S. rewrite S in RM. destruct RM as (f & r & y & A1 & A2 & A3). rewrite sub_assoc in A1. destruct (M m I) as (ty & w & dv & MT & AW & _). rewrite AW in A1. injection A1 as <-.
        right. exists w, r, y. auto.
    - injection E as <- <-. exists f1, ms. split; [reflexivity|]. split; [exact FS|]. intros m I. repeat split.
      + intros S _. now apply OTH.
      + intros _ Z. specialize (SAME Z). discriminate.
      + intros S. left. apply OTH; [exact I|]. now apply struct_no_scalar.
  Qed.

  (** Structs keep members that are no scalars, and all members if there is no section of
      theirs or none of their members is of a built-in type. *)
  Theorem read_keeps k : forall ns p v u0 rv v', fits L v (TStruct u0) = true -> read_obj L k v p = Some (rv, v') ->
    forall u fs, member_at ns v = Some (VStruct u fs) -> exists gs ms, member_at ns v' = Some (VStruct u gs) /\ find_struct (l_defs L) u = Some ms /\
      forall m, In m ms -> is_struct_member L m = false ->
        is_scalar L m = false \/ assoc (fold_left sub_path ns p) (k_under k) = None \/ existsb is_simple ms = false -> assoc (member_name m) gs = assoc (member_name m) fs.
  Proof.
    induction ns as [|n ns IH]; intros p v u0 rv v' F E u fs AT.
    - cbn [member_at fold_left] in *. injection AT as ->. pose proof (fits_ty L _ _ F) as T. cbn in T. injection T as ->.
      destruct (read_obj_members k u0 fs p rv v' F E) as (gs & ms & -> & FS & M). exists gs, ms. repeat split; auto. intros m I SM H.
      destruct (M m I) as (A & B & _). destruct (is_scalar L m); [apply B; [reflexivity|]; destruct H as [H|H]; [discriminate|exact H]|auto].
    - cbn [member_at fold_left] in *. destruct v as [| | | | | | |u1 f1| | | | | | | | | | | | | |]; try discriminate. pose proof (fits_ty L _ _ F) as T. cbn in T. injection T as ->.
      destruct (assoc n f1) as [w|] eqn:AW; [|discriminate]. destruct (read_obj_members k u0 f1 p rv v' F E) as (gs & ms & -> & FS & M).
      destruct (j_parts u0 f1 F) as (ms' & d & FS' & D & ND & K & PM). assert (ms' = ms) by congruence. subst ms'.
      assert (exists m, In m ms /\ member_name m = n) as (m & I & <-).
      { apply assoc_some in AW. apply (in_map fst) in AW. rewrite K in AW. apply in_map_iff in AW as (m & A & B). eauto. }
      destruct (PM m I) as (ty & w' & dv & MT & AW' & _ & FW & _). assert (w' = w) by congruence. subst w'.
      destruct (M m I) as (A & _ & B). destruct (is_struct_member L m) eqn:SM.
      + destruct (struct_member_type m ty MT SM) as (u1 & ->). destruct (B eq_refl) as [EQ|(w' & r & y & C1 & C2 & C3)].
        * cbn [member_at]. rewrite EQ, AW. exists fs. destruct (j_parts u fs) as (ms2 & ? & FS2 & _).
          { clear - X FW AT. revert w u1 FW AT. induction ns as [|n' ns IH]; intros w u1 FW AT; cbn [member_at] in AT.
            - injection AT as ->. pose proof (fits_ty L _ _ FW) as T. cbn in T. injection T as ->. exact FW.
            - destruct w as [| | | | | | |u2 f2| | | | | | | | | | | | | |]; try discriminate. destruct (assoc n' f2) as [w|] eqn:AW; [|discriminate]. pose proof (fits_ty L _ _ FW) as T. cbn in T. injection T as ->.
              destruct (j_parts u1 f2 FW) as (ms & d & FS & D & ND & K & PM).
              assert (exists m, In m ms /\ member_name m = n') as (m & I & <-).
              { apply assoc_some in AW. apply (in_map fst) in AW. rewrite K in AW. apply in_map_iff in AW as (m & A & B). eauto. }
              destruct (PM m I) as (ty & w' & dv & MT & AW' & _ & FW' & _). assert (w' = w) by congruence. subst w'.
              assert (exists u3, ty = TStruct u3) as (u3 & ->).
              { destruct w as [| | | | | | |u3 f3| | | | | | | | | | | | | |]; try (destruct ns; discriminate). pose proof (fits_ty L _ _ FW') as T. cbn in T. eauto. }
              eapply IH; eauto. }
          exists ms2. auto.
        * assert (w' = w) by congruence. subst w'. destruct (IH (sub_path p (member_name m)) w u1 r y FW C2 u fs AT) as (gs' & ms2 & D1 & D2 & D3).
          exists gs', ms2. cbn [member_at]. rewrite C3. auto.
      + exfalso. destruct w as [| | | | | | |u3 f3| | | | | | | | | | | | | |]; try (destruct ns; discriminate). pose proof (fits_ty L _ _ FW) as T. cbn in T. subst ty. rewrite (type_struct_member m u3 MT) in SM. discriminate.
  Qed.
End Keep.
