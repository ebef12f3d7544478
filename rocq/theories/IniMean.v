(** What n_ini files mean: the values of the members are those that the file gives them. *)
From Coq Require Import String Ascii ZArith NArith Arith List Bool Lia Permutation.
From Verif Require Import Base Map Items Grammar Fmt Decimal Templates Emit Cpp Xml Val Rx CppSem SymLex Ast StoreDefs ResolveProps Prog Header Link EnumSem DecText EnumCall EnumRound XmlSpec XmlRdSimple XmlRead XmlReader XmlCall XmlWriter XmlCarry XmlRound XmlThms
  IniSpec IniWrite IniRead IniScan IniReader IniCall IniKeep IniRound IniBack IniThms IniText.
Import ListNotations.
Local Open Scope string_scope.
Local Open Scope list_scope.

(** *** Specification; [vals p n]: the text of item [n] in section [p] *)
Section Spec.
  Variables (L : lang) (vals : string -> string -> option string).
  (** Members that are read: those of built-in types and enumerations in structs that have
      members of built-in types. *)
  Definition is_item (ms : list member) (m : member) : bool := (is_scalar L m && existsb is_simple ms)%bool.
  (** Every text that the object [v] in section [p] takes can be converted. *)
  Definition readable (p : string) (v : val) : Prop :=
    forall ns u fs ms m s old, member_at ns v = Some (VStruct u fs) -> find_struct (l_defs L) u = Some ms -> In m ms -> is_item ms m = true ->
      assoc (member_name m) fs = Some old -> vals (fold_left sub_path ns p) (member_name m) = Some s -> exists x, read_text L m s old = Done x.
  (** [v'] is the object [v] with the values of the items. *)
  Definition takes (p : string) (v v' : val) : Prop :=
    forall ns u fs ms, member_at ns v = Some (VStruct u fs) -> find_struct (l_defs L) u = Some ms ->
    exists gs, member_at ns v' = Some (VStruct u gs) /\
      forall m old, In m ms -> is_struct_member L m = false -> assoc (member_name m) fs = Some old ->
      match (if is_item ms m then vals (fold_left sub_path ns p) (member_name m) else None) with
      | None => assoc (member_name m) gs = Some old
      | Some s => exists x, read_text L m s old = Done x /\ assoc (member_name m) gs = Some x
      end.
  (** Two sets of values that are the same for the members of [v]. *)
  Definition same_values (vals' : string -> string -> option string) (p : string) (v : val) : Prop :=
    forall ns u fs ms m, member_at ns v = Some (VStruct u fs) -> find_struct (l_defs L) u = Some ms -> In m ms -> is_item ms m = true ->
      vals (fold_left sub_path ns p) (member_name m) = vals' (fold_left sub_path ns p) (member_name m).
End Spec.

(** *** Only the values matter *)
Section Same.
  Variable L : lang.
  Lemma items_in ms m : In m (section_members L ms) <-> In m ms /\ is_item L ms m = true.
  Proof.
    unfold section_members, is_item. destruct (existsb is_simple ms).
    - rewrite filter_In, in_order_in, andb_true_r. reflexivity.
    - rewrite andb_false_r. split; [contradiction|]. intros [_ Y]. discriminate.
  Qed.
  Lemma scalars_same a b : forall l fs, (forall m, In m l -> assoc (member_name m) a = assoc (member_name m) b) -> read_scalars L a l fs = read_scalars L b l fs.
  Proof.
    induction l as [|m l IH]; intros fs H; [reflexivity|]. cbn [read_scalars]. rewrite <- (H m (or_introl eq_refl)). assert (H' : forall m, In m l -> assoc (member_name m) a = assoc (member_name m) b) by (intros q I; apply H; now right).
    destruct (assoc (member_name m) a) as [s|]; [|now apply IH]. destruct (assoc (member_name m) fs) as [old|]; [|reflexivity]. destruct (read_text L m s old); auto.
  Qed.
  Lemma scalars_none : forall l fs, read_scalars L [] l fs = Done fs.
  Proof. induction l as [|m l IH]; intros fs; [reflexivity|]. cbn. apply IH. Qed.
  (** An absent section is like one without items. *)
  Definition items_of (k : lookups) (p : string) : list (string * string) := match assoc p (k_under k) with Some its => its | None => [] end.
  Lemma look_items k p n : look k p n = assoc n (items_of k p).
  Proof. unfold look, items_of. now destruct (assoc p (k_under k)). Qed.
  Lemma section_items k p l fs : match assoc p (k_under k) with Some its => read_scalars L its l fs | None => Done fs end = read_scalars L (items_of k p) l fs.
  Proof. unfold items_of. destruct (assoc p (k_under k)); [reflexivity|]. now rewrite scalars_none. Qed.
  Lemma read_same k k' : forall f v p, vheight v < f -> same_values L (look k) (look k') p v -> read_obj L k v p = read_obj L k' v p.
  Proof.
    induction f as [|f IH]; intros v p HV H; [lia|]. destruct v as [| | | | | | |u fs| | | | | | | | | | | | | |]; try reflexivity. cbn [read_obj].
    destruct (find_struct (l_defs L) u) as [ms|] eqn:FS; [|reflexivity]. rewrite !section_items.
    rewrite (scalars_same (items_of k p) (items_of k' p)).
    2:{ intros m I. apply items_in in I as [I J]. rewrite <- !look_items. exact (H [] u fs ms m eq_refl FS I J). }
    assert (SUB : forall l rv gs, read_structs p (map (fun q => (fst q, read_obj L k (snd q))) fs) l rv gs = read_structs p (map (fun q => (fst q, read_obj L k' (snd q))) fs) l rv gs).
    { induction l as [|m l IHl]; intros rv gs; [reflexivity|]. cbn [read_structs]. rewrite !sub_assoc. destruct (assoc (member_name m) fs) as [w|] eqn:A; [|reflexivity].
      rewrite (IH w (sub_path p (member_name m))).
      - destruct (read_obj L k' w (sub_path p (member_name m))) as [[r y]|]; [apply IHl|reflexivity].
      - pose proof (field_height u fs _ _ A). lia.
      - intros ns u' fs' ms' m' AT. apply (H (member_name m :: ns) u' fs' ms' m'). cbn [member_at]. now rewrite A. }
    destruct (read_scalars L (items_of k' p) (section_members L ms) fs); [now rewrite SUB|reflexivity|reflexivity].
  Qed.
End Same.

(** *** The object takes the values *)
Section Mean.
  Variables (enums : list enum_S) (ss : list struct_S) (o : output_spec) (ds : list def) (L : lang).
  Hypothesis X : ini_setting enums ss o ds L.
  Lemma scalars_take its : forall l fs, NoDup (map member_name l) ->
    (forall m, In m l -> exists old, assoc (member_name m) fs = Some old /\ forall s, assoc (member_name m) its = Some s -> exists x, read_text L m s old = Done x) ->
    exists gs, read_scalars L its l fs = Done gs /\ (forall n, ~ In n (map member_name l) -> assoc n gs = assoc n fs) /\
      forall m old, In m l -> assoc (member_name m) fs = Some old ->
      match assoc (member_name m) its with
      | None => assoc (member_name m) gs = Some old
      | Some s => exists x, read_text L m s old = Done x /\ assoc (member_name m) gs = Some x
      end.
  Proof.
    induction l as [|m l IH]; intros fs ND H; cbn [read_scalars].
    - exists fs. repeat split; auto. intros m old [].
    - cbn [map] in ND. apply NoDup_cons_iff in ND as [N ND]. destruct (H m (or_introl eq_refl)) as (old & AO & RD).
      assert (OT : forall m', In m' l -> String.eqb (member_name m') (member_name m) = false) by (intros m' I; apply eqb_neq; intros E; apply N; rewrite <- E; now apply in_map).
      destruct (assoc (member_name m) its) as [s|] eqn:A.
      + rewrite AO. destruct (RD s eq_refl) as (x & RX). rewrite RX. destruct (IH (set_assoc (member_name m) x fs) ND) as (gs & R & O & T).
        { intros m' I. destruct (H m' (or_intror I)) as (old' & AO' & RD'). exists old'. split; [now rewrite assoc_set_other by auto|exact RD']. }
        exists gs. split; [exact R|]. split.
        * intros n Y. rewrite O by (intros Z; apply Y; now right). apply assoc_set_other. apply eqb_neq. intros ->. apply Y. now left.
        * intros m' old' [<-|I] AO'.
          { assert (old' = old) by congruence. subst. rewrite A. exists x. split; [exact RX|]. rewrite O by exact N. apply assoc_set_same. }
          apply T; [exact I|]. now rewrite assoc_set_other by auto.
      + destruct (IH fs ND (fun m' I => H m' (or_intror I))) as (gs & R & O & T). exists gs. split; [exact R|]. split.
        * intros n Y. apply O. intros Z. apply Y. now right.
        * intros m' old' [<-|I] AO'; [|now apply T]. rewrite A. rewrite O by exact N. exact AO'.
  Qed.
  Definition takes_all (k : lookups) (v : val) : Prop := forall u p, fits L v (TStruct u) = true -> readable L (look k) p v ->
    exists gs, read_obj L k v p = Some (true, VStruct u gs) /\ takes L (look k) p v (VStruct u gs).
  Lemma structs_take k p fs : forall l rv gs, NoDup (map member_name l) ->
    (forall m, In m l -> exists u w, assoc (member_name m) fs = Some w /\ fits L w (TStruct u) = true /\ takes_all k w /\ readable L (look k) (sub_path p (member_name m)) w) ->
    exists gs', read_structs p (map (fun q => (fst q, read_obj L k (snd q))) fs) l rv gs = Some ((if l then rv else true), gs') /\
      (forall n, ~ In n (map member_name l) -> assoc n gs' = assoc n gs) /\
      forall m, In m l -> exists w u g1, assoc (member_name m) fs = Some w /\ assoc (member_name m) gs' = Some (VStruct u g1) /\ takes L (look k) (sub_path p (member_name m)) w (VStruct u g1).
  Proof.
    induction l as [|m l IH]; intros rv gs ND H; cbn [read_structs].
    - exists gs. repeat split; auto. intros m [].
    - cbn [map] in ND. apply NoDup_cons_iff in ND as [N ND]. destruct (H m (or_introl eq_refl)) as (u & w & AW & FW & TA & RD).
      rewrite sub_assoc, AW. destruct (TA u (sub_path p (member_name m)) FW RD) as (g1 & RO & TK). rewrite RO.
      destruct (IH true (set_assoc (member_name m) (VStruct u g1) gs) ND (fun m' I => H m' (or_intror I))) as (gs' & R & O & B). exists gs'. split; [rewrite R; now destruct l|]. split.
      + intros n Y. rewrite O by (intros Z; apply Y; now right). apply assoc_set_other. apply eqb_neq. intros ->. apply Y. now left.
      + intros m' [<-|I]; [|now apply B]. exists w, u, g1. repeat split; auto. rewrite O by exact N. apply assoc_set_same.
  Qed.
  Lemma all_take k : forall f v, vheight v < f -> takes_all k v.
  Proof.
    induction f as [|f IH]; intros v HV; [lia|]. intros u p F RD. destruct (fits_as_struct L v u F) as (fs & ->).
    destruct (j_parts enums ss o ds L X u fs F) as (ms & d & FS & D & ND & K & PM). cbn [read_obj]. rewrite FS, section_items.
    destruct (scalars_take (items_of k p) (section_members L ms) fs) as (g1 & R1 & O1 & T1).
    { unfold section_members. destruct (existsb is_simple ms); [apply filter_names, in_order_names, ND|constructor]. }
    { intros m I. apply items_in in I as [I J]. destruct (PM m I) as (ty & x & dv & MT & AX & _). exists x. split; [exact AX|]. intros s A. rewrite <- look_items in A. exact (RD [] u fs ms m s x eq_refl FS I J AX A). }
    rewrite R1. destruct (structs_take k p fs (filter (is_struct_member L) ms) true g1 (filter_names _ _ ND)) as (g2 & R2 & O2 & T2).
    { intros m I. apply filter_In in I as [I SM]. destruct (PM m I) as (ty & w & dv & MT & AW & _ & FW & _). destruct (struct_value L m w ty SM MT FW) as (u1 & fw & -> & ->).
      exists u1, (VStruct u1 fw). repeat (split; [assumption|]). split; [apply IH; pose proof (field_height u fs _ _ AW); lia|].
      intros ns u' fs' ms' m' s old AT. apply (RD (member_name m :: ns) u' fs' ms' m' s old). cbn [member_at]. now rewrite AW. }
    rewrite R2. exists g2. split; [now destruct (filter (is_struct_member L) ms)|].
    intros ns u' fs' ms' AT FS'. destruct ns as [|n ns]; cbn [member_at fold_left] in *.
    - injection AT as <- <-. assert (ms' = ms) by congruence. subst ms'. exists g2. split; [reflexivity|]. intros m old I SM AO.
      rewrite O2. 2:{ intros Y. apply in_map_iff in Y as (m' & E & Y). apply filter_In in Y as [Y SY]. apply (j_name_inj ms m' m ND Y I) in E. subst. congruence. }
      destruct (is_item L ms m) eqn:J.
      + rewrite look_items. apply T1; [now apply items_in|exact AO].
      + rewrite O1; [exact AO|]. intros Y. apply in_map_iff in Y as (m' & E & Y). apply items_in in Y as [Y SY]. apply (j_name_inj ms m' m ND Y I) in E. subst. congruence.
    - destruct (assoc n fs) as [w|] eqn:AW; [|discriminate].
      assert (exists m, In m ms /\ member_name m = n) as (m & I & <-).
      { apply assoc_some in AW. apply (in_map fst) in AW. rewrite K in AW. apply in_map_iff in AW as (m & Y1 & Y2). eauto. }
      destruct (PM m I) as (ty & w' & dv & MT & AW' & _ & FW & _). assert (w' = w) by congruence. subst w'.
      assert (SM : is_struct_member L m = true).
      { destruct w as [| | | | | | |u3 f3| | | | | | | | | | | | | |]; try (destruct ns; discriminate). pose proof (fits_ty L _ _ FW) as TY. cbn in TY. subst ty. exact (type_struct_member L m u3 MT). }
      destruct (T2 m) as (w' & u1 & g1' & A1 & A2 & A3); [now apply filter_In|]. assert (w' = w) by congruence. subst w'. rewrite A2. exact (A3 ns u' fs' ms' AT FS').
  Qed.
End Mean.
