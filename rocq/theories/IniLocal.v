(** What becomes of each member when a n_ini file is read, also when some texts cannot be
    converted: the exception ends the function for this struct, and those of the structs in it
    are not called. *)
From Coq Require Import String Ascii ZArith NArith Arith List Bool Lia.
From Verif Require Import Base Map Items Grammar Fmt Decimal Templates Emit Cpp Xml Val Rx CppSem SymLex Ast StoreDefs ResolveProps Prog Header Link EnumSem DecText EnumCall EnumRound XmlSpec XmlRdSimple XmlRead XmlReader XmlCall XmlWriter XmlFile XmlCarry XmlRound XmlProps XmlReadProps XmlThms
  IniSpec IniRead IniReader IniCall IniLines IniFile IniEntry IniWrite IniWriter IniScan IniKeep IniRound IniBack IniThms IniText IniMean IniRange NumText.
Import ListNotations.
Local Open Scope string_scope.
Local Open Scope list_scope.

Section Local.
  Variables (enums : list enum_S) (ss : list struct_S) (o : output_spec) (ds : list def) (L : lang).
  Hypothesis X : ini_setting enums ss o ds L.
  Hypothesis LB : (32 <= l_long L)%Z.

  (** Texts that give an exception. *)
  Definition unreadable (m : member) (s : string) : Prop :=
    match m with
    | MSimple float_E _ _ => l_sto L KFloat s = None
    | MSimple double_E _ _ => l_sto L KDouble s = None
    | MSimple std_string_E _ _ => False
    | MSimple t _ _ => ~ exists v, means L t s v
    | _ => False
    end.
  Lemma thrown_is m s old x : read_text L m s old = Thrown x -> unreadable m s.
  Proof.
    destruct m as [t n d|u n d|u n]; cbn [read_text unreadable]; [|destruct (find_enum (l_defs L) u) as [[c es]|]; [destruct (read_enum L u _ s)|]; discriminate|discriminate].
    destruct (text_value L t s) as [v|] eqn:T; [discriminate|]. intros _.
    destruct (is_number t) eqn:N.
    - assert (~ exists v, means L t s v) by (intros (v & M); apply (text_means L t s v LB N) in M; congruence). destruct t; try exact H; discriminate.
    - destruct t; try discriminate N; cbn [text_value] in T; [now destruct (l_sto L KFloat s)|now destruct (l_sto L KDouble s)|discriminate].
  Qed.
  Lemma done_is m s old x : read_text L m s old = Done x -> ~ unreadable m s.
  Proof.
    destruct m as [t n d|u n d|u n]; cbn [read_text unreadable]; [|tauto|tauto]. destruct (text_value L t s) as [v|] eqn:T; [|discriminate]. intros _.
    destruct (is_number t) eqn:N.
    - assert (exists v, means L t s v) by (exists v; now apply (text_means L t s v LB N)). destruct t; try (intros H'; exact (H' H)); discriminate.
    - destruct t; try discriminate N; cbn [text_value] in T; [destruct (l_sto L KFloat s); congruence|destruct (l_sto L KDouble s); congruence|tauto].
  Qed.

  (** *** One struct *)
  Definition took (it : string -> option string) (fs gs : fields) (m : member) : Prop :=
    forall old, assoc (member_name m) fs = Some old ->
    match it (member_name m) with
    | None => assoc (member_name m) gs = Some old
    | Some s => ~ unreadable m s /\ exists x, read_text L m s old = Done x /\ assoc (member_name m) gs = Some x
    end.
  Definition spoiled (it : string -> option string) (l : list member) : Prop := exists m r s, l = m :: r /\ it (member_name m) = Some s /\ unreadable m s.
  Lemma scalars_local its : forall l fs, NoDup (map member_name l) ->
    match read_scalars L its l fs with
    | Done f => forall m, In m l -> took (fun n => assoc n its) fs f m
    | Thrown f => exists a b, l = a ++ b /\ spoiled (fun n => assoc n its) b /\ (forall m, In m a -> took (fun n => assoc n its) fs f m) /\ forall m, In m b -> assoc (member_name m) f = assoc (member_name m) fs
    | Undefined => True
    end.
  Proof.
    induction l as [|m l IH]; intros fs ND; cbn [read_scalars]; [intros m []|]. cbn [map] in ND. apply NoDup_cons_iff in ND as [NI ND].
    assert (STEP : forall fs', (forall n, n <> member_name m -> assoc n fs' = assoc n fs) -> (forall f, assoc (member_name m) f = assoc (member_name m) fs' -> took (fun n => assoc n its) fs f m) ->
      match read_scalars L its l fs' with
      | Done f => forall m', In m' (m :: l) -> took (fun n => assoc n its) fs f m'
      | Thrown f => exists a b, m :: l = a ++ b /\ spoiled (fun n => assoc n its) b /\ (forall m, In m a -> took (fun n => assoc n its) fs f m) /\ forall m, In m b -> assoc (member_name m) f = assoc (member_name m) fs
      | Undefined => True
      end).
    { intros fs' E M. specialize (IH fs' ND). pose proof (read_scalars_other L its (member_name m) l fs' NI) as OT.
      assert (NE : forall m', In m' l -> member_name m' <> member_name m) by (intros m' I Q; apply NI; rewrite <- Q; now apply in_map).
      assert (TK : forall f m', In m' l -> took (fun n => assoc n its) fs' f m' -> took (fun n => assoc n its) fs f m') by (intros f m' I T old A; apply T; rewrite E by (now apply NE); exact A).
      destruct (read_scalars L its l fs') as [f|f|]; [| |exact Logic.I].
      - intros m' [<-|I]; [now apply M|]. apply TK; auto.
      - destruct IH as (a & b & -> & SP & A & B). exists (m :: a), b. split; [reflexivity|]. split; [exact SP|]. split.
        + intros m' [<-|I]; [now apply M|]. apply TK; [apply in_or_app; now left|auto].
        + intros m' I. rewrite (B m' I). apply E. apply NE. apply in_or_app. now right. }
    destruct (assoc (member_name m) its) as [s|] eqn:A.
    - destruct (assoc (member_name m) fs) as [old|] eqn:F; [|exact Logic.I]. destruct (read_text L m s old) as [v|v|] eqn:R; [| |exact Logic.I].
      + apply STEP; [intros n N; apply assoc_set_other; now apply eqb_neq|]. intros f E old' F'. cbv beta. rewrite A. rewrite F in F'. injection F' as <-. split; [exact (done_is m s old v R)|]. exists v. split; [exact R|]. rewrite E. apply assoc_set_same.
      + exists [], (m :: l). split; [reflexivity|]. split; [exists m, l, s; split; [reflexivity|split; [exact A|exact (thrown_is m s old v R)]]|]. split; [intros m' []|auto].
    - apply STEP; [auto|]. intros f E old F. cbv beta. rewrite A. congruence.
  Qed.
  (** [ok]: the function did not end early. *)
  Definition local (it : string -> option string) (ms : list member) (fs gs : fields) (ok : bool) : Prop :=
    exists a b, section_members L ms = a ++ b /\ (if ok then b = [] else spoiled it b) /\ (forall m, In m a -> took it fs gs m) /\
    forall m, In m ms -> is_struct_member L m = false -> In m b \/ is_item L ms m = false -> assoc (member_name m) gs = assoc (member_name m) fs.
  Lemma obj_local k u fs p rv v : fits L (VStruct u fs) (TStruct u) = true -> read_obj L k (VStruct u fs) p = Some (rv, v) ->
    exists gs ms ok, v = VStruct u gs /\ find_struct (l_defs L) u = Some ms /\ local (look k p) ms fs gs ok /\
      forall m, In m ms -> is_struct_member L m = true ->
        if ok then exists w r y, assoc (member_name m) fs = Some w /\ read_obj L k w (sub_path p (member_name m)) = Some (r, y) /\ assoc (member_name m) gs = Some y
        else assoc (member_name m) gs = assoc (member_name m) fs.
  Proof.
    intros F E. destruct (j_parts enums ss o ds L X u fs F) as (ms & d & FS & D & ND & K & M). cbn [read_obj] in E. rewrite FS in E.
    assert (NDS : NoDup (map member_name (section_members L ms))).
    { unfold section_members. destruct (existsb is_simple ms); [|constructor]. apply filter_names. exact (in_order_names ms ND). }
    assert (NSM : forall m, In m ms -> is_struct_member L m = true -> ~ In (member_name m) (map member_name (section_members L ms))).
    { intros m I SM. apply (j_section L ms m ND I). now apply struct_no_scalar. }
    assert (NIT : forall m, In m ms -> is_item L ms m = false -> ~ In (member_name m) (map member_name (section_members L ms))).
    { intros m I J Q. apply in_map_iff in Q as (m' & NM & I'). apply items_in in I' as [I' J']. apply (j_name_inj ms m' m ND I' I) in NM. congruence. }
    assert (DONE : forall f1, match assoc p (k_under k) with Some its => read_scalars L its (section_members L ms) fs | None => Done fs end = Done f1 ->
      (forall m, In m (section_members L ms) -> took (look k p) fs f1 m) /\ forall n, ~ In n (map member_name (section_members L ms)) -> assoc n f1 = assoc n fs).
    { intros f1 R. destruct (assoc p (k_under k)) as [its|] eqn:A.
      - pose proof (scalars_local its (section_members L ms) fs NDS) as SL. rewrite R in SL. split.
        + intros m I old AO. specialize (SL m I old AO). cbv beta in SL. unfold look. rewrite A. exact SL.
        + intros n N. pose proof (read_scalars_other L its n (section_members L ms) fs N) as OT. now rewrite R in OT.
      - injection R as <-. split; [|auto]. intros m I old AO. unfold look. now rewrite A. }
    destruct (match assoc p (k_under k) with Some its => read_scalars L its (section_members L ms) fs | None => Done fs end) as [f1|f1|] eqn:R; [| |discriminate].
    - destruct (DONE f1 eq_refl) as [TK OT]. destruct (read_structs p _ (filter (is_struct_member L) ms) true f1) as [[rv' f2]|] eqn:RS; [|discriminate]. injection E as <- <-.
      assert (RM : forall m, In m ms -> if is_struct_member L m then exists w r y, assoc (member_name m) fs = Some w /\ read_obj L k w (sub_path p (member_name m)) = Some (r, y) /\ assoc (member_name m) f2 = Some y else assoc (member_name m) f2 = assoc (member_name m) f1).
      { intros m I. pose proof (read_structs_member p _ (member_name m) _ _ _ _ _ RS (filter_names _ _ ND)) as RM. rewrite (struct_filter_in L ms m I ND) in RM. destruct (is_struct_member L m) eqn:SM; [|exact RM].
        destruct RM as (f & r & y & A1 & A2 & A3). rewrite sub_assoc in A1. destruct (M m I) as (ty & w & dv & MT & AW & _). rewrite AW in A1. injection A1 as <-. exists w, r, y. auto. }
      exists f2, ms, true. split; [reflexivity|]. split; [exact FS|]. split.
      + exists (section_members L ms), []. split; [now rewrite app_nil_r|]. split; [reflexivity|]. split.
        * intros m I old AO. specialize (TK m I old AO). apply items_in in I as [I J]. pose proof (RM m I) as Q. assert (is_struct_member L m = false) as SM by (destruct (is_struct_member L m) eqn:SM; [|reflexivity]; apply struct_no_scalar in SM; unfold is_item in J; rewrite SM in J; discriminate).
          rewrite SM in Q. rewrite Q. exact TK.
        * intros m I SM [[]|J]. pose proof (RM m I) as Q. rewrite SM in Q. rewrite Q. apply OT. now apply NIT.
      + intros m I SM. pose proof (RM m I) as Q. now rewrite SM in Q.
    - injection E as <- <-. destruct (assoc p (k_under k)) as [its|] eqn:A; [|discriminate]. pose proof (scalars_local its (section_members L ms) fs NDS) as SL. rewrite R in SL. destruct SL as (a & b & E & SP & TA & UB).
      assert (OT : forall n, ~ In n (map member_name (section_members L ms)) -> assoc n f1 = assoc n fs) by (intros n N; pose proof (read_scalars_other L its n (section_members L ms) fs N) as OT; now rewrite R in OT).
      assert (LK : look k p = fun n => assoc n its) by (unfold look; now rewrite A).
      exists f1, ms, false. split; [reflexivity|]. split; [exact FS|]. split.
      + exists a, b. rewrite LK. split; [exact E|]. split; [exact SP|]. split; [exact TA|]. intros m I SM [IB|J]; [now apply UB|]. apply OT. now apply NIT.
      + intros m I SM. apply OT. now apply NSM.
  Qed.

  (** *** All structs *)
  Definition bad_at (it : string -> string -> option string) (p : string) (v : val) (a : list string) : Prop :=
    exists u f ms m s, member_at a v = Some (VStruct u f) /\ find_struct (l_defs L) u = Some ms /\ In m ms /\ is_item L ms m = true /\ it (fold_left sub_path a p) (member_name m) = Some s /\ unreadable m s.
  Definition bad_above (it : string -> string -> option string) (p : string) (v : val) (ns : list string) : Prop := exists a b, ns = a ++ b /\ b <> [] /\ bad_at it p v a.
  Lemma local_bad it p u fs gs ms ok : fits L (VStruct u fs) (TStruct u) = true -> find_struct (l_defs L) u = Some ms -> local (it p) ms fs gs ok -> if ok then ~ bad_at it p (VStruct u fs) [] else bad_at it p (VStruct u fs) [].
  Proof.
    intros F FS (a & b & E & B & TK & _). destruct ok.
    - subst b. rewrite app_nil_r in E. intros (u' & f & ms' & m & s & AT & FS' & I & J & IT & UN). cbn [member_at fold_left] in *. injection AT as <- <-. assert (ms' = ms) by congruence. subst ms'.
      assert (IA : In m a) by (rewrite <- E; now apply items_in). destruct (j_parts enums ss o ds L X u fs F) as (ms' & d & FS2 & _ & _ & _ & M). assert (ms' = ms) by congruence. subst ms'.
      destruct (M m I) as (ty & w & dv & _ & AW & _). specialize (TK m IA w AW). rewrite IT in TK. now destruct TK.
    - destruct B as (m & r & s & -> & IT & UN). assert (I : In m (section_members L ms)) by (rewrite E; apply in_or_app; right; now left). apply items_in in I as [I J].
      exists u, fs, ms, m, s. cbn [member_at fold_left]. auto 12.
  Qed.
  Theorem read_local k : forall ns p v u0 rv v', fits L v (TStruct u0) = true -> read_obj L k v p = Some (rv, v') ->
    forall u fs, member_at ns v = Some (VStruct u fs) ->
      bad_above (look k) p v ns /\ member_at ns v' = Some (VStruct u fs) \/
      ~ bad_above (look k) p v ns /\ exists gs ms ok, member_at ns v' = Some (VStruct u gs) /\ find_struct (l_defs L) u = Some ms /\ local (look k (fold_left sub_path ns p)) ms fs gs ok.
  Proof.
    induction ns as [|n ns IH]; intros p v u0 rv v' F E u fs AT.
    - cbn [member_at fold_left] in *. injection AT as ->. pose proof (fits_ty L _ _ F) as T. cbn in T. injection T as ->.
      destruct (obj_local k u0 fs p rv v' F E) as (gs & ms & ok & -> & FS & LO & _). right. split; [|exists gs, ms, ok; auto]. intros (a & b & Q & NE & _). symmetry in Q. apply app_eq_nil in Q as [_ Q]. contradiction.
    - cbn [member_at fold_left] in *. destruct v as [| | | | | | |u1 f1| | | | | | | | | | | | | |]; try discriminate. pose proof (fits_ty L _ _ F) as T. cbn in T. injection T as ->.
      destruct (assoc n f1) as [w|] eqn:AW; [|discriminate]. destruct (obj_local k u0 f1 p rv v' F E) as (gs & ms & ok & -> & FS & LO & M). pose proof (local_bad (look k) p u0 f1 gs ms ok F FS LO) as BA.
      destruct (j_parts enums ss o ds L X u0 f1 F) as (ms' & d & FS' & D & ND & K & PM). assert (ms' = ms) by congruence. subst ms'.
      assert (exists m, In m ms /\ member_name m = n) as (m & I & <-).
      { apply assoc_some in AW. apply (in_map fst) in AW. rewrite K in AW. apply in_map_iff in AW as (m & A & B). eauto. }
      destruct (PM m I) as (ty & w' & dv & MT & AW' & _ & FW & _). assert (w' = w) by congruence. subst w'.
      destruct (is_struct_member L m) eqn:SM.
      + destruct (struct_member_type L m ty MT SM) as (u1 & ->). specialize (M m I SM). destruct ok.
        * destruct M as (w' & r & y & C1 & C2 & C3). assert (w' = w) by congruence. subst w'. destruct (IH (sub_path p (member_name m)) w u1 r y FW C2 u fs AT) as [(BD & Q)|(BD & gs' & ms' & ok' & Q1 & Q2 & Q3)].
          -- left. split; [|cbn [member_at]; now rewrite C3]. destruct BD as (a & b & -> & NE & u2 & f2 & ms2 & m2 & s2 & A1 & A2 & A3 & A4 & A5 & A6). exists (member_name m :: a), b. split; [reflexivity|]. split; [exact NE|].
             exists u2, f2, ms2, m2, s2. cbn [member_at fold_left]. rewrite AW. auto 12.
          -- right. split; [|exists gs', ms', ok'; cbn [member_at]; rewrite C3; auto]. intros (a & b & Q & NE & BT). destruct a as [|x a]; [contradiction|]. injection Q as <- ->. apply BD. exists a, b. split; [reflexivity|]. split; [exact NE|].
             destruct BT as (u2 & f2 & ms2 & m2 & s2 & A1 & A2 & A3 & A4 & A5 & A6). cbn [member_at fold_left] in *. rewrite AW in A1. exists u2, f2, ms2, m2, s2. auto 12.
        * left. split; [exists [], (member_name m :: ns); split; [reflexivity|split; [discriminate|exact BA]]|]. cbn [member_at]. now rewrite M, AW.
      + exfalso. destruct w as [| | | | | | |u3 f3| | | | | | | | | | | | | |]; try (destruct ns; discriminate). pose proof (fits_ty L _ _ FW) as T. cbn in T. subst ty. rewrite (type_struct_member L m u3 MT) in SM. discriminate.
  Qed.
End Local.
