(** What the n_ini writers write, as lines with values; files of one version of a header read
    with another one. *)
From Coq Require Import String Ascii ZArith NArith Arith List Bool Lia Permutation.
From Verif Require Import Base Map Items Grammar Fmt Decimal Templates Emit Cpp Xml Val Rx CppSem SymLex Ast StoreDefs ResolveProps Prog Header Link EnumSem DecText EnumCall EnumRound XmlSpec XmlRdSimple XmlRead XmlReader XmlCall XmlWriter XmlCarry XmlRound XmlThms
  IniSpec IniWrite IniWriter IniRead IniScan IniReader IniCall IniKeep IniRound IniBack IniThms IniText IniMean.
Import ListNotations.
Local Open Scope string_scope.
Local Open Scope list_scope.

(** *** Specification *)
Section Spec.
  Variables (L : lang) (delta : bool).
  (** The text of the scalar member [n] in the file; none if it is left out. *)
  Definition item_in (ms : list member) (fs d : list (string * val)) (n : string) : option string :=
    if existsb (fun m => (String.eqb n (member_name m) && is_scalar L m)%bool) ms then
      let? x := assoc n fs in
      let? dv := assoc n d in
      match left_out L delta dv x with Some false => shown_text L x | _ => None end
    else None.
  Definition at_way (v : val) (ns : list string) (n : string) : option string :=
    match member_at ns v with
    | Some (VStruct u fs) => let? ms := find_struct (l_defs L) u in let? d := default_fields L u in item_in ms fs d n
    | _ => None
    end.
  (** ... of the member [n] of the struct at [ns], where readers find it: not in the outermost
      struct. *)
  Definition gives (v : val) (ns : list string) (n : string) : option string := match ns with [] => None | _ => at_way v ns n end.
  (** All texts are on one line, and so are the names of sections. *)
  Definition on_lines (v : val) (p : string) : Prop :=
    forall ns u fs ms d, member_at ns v = Some (VStruct u fs) -> find_struct (l_defs L) u = Some ms -> default_fields L u = Some d ->
    String.length (fold_left sub_path ns p) + 2 <= 79 /\ enums_first L (in_order ms) = true /\
    forall m x dv, In m ms -> is_scalar L m = true -> assoc (member_name m) fs = Some x -> assoc (member_name m) d = Some dv ->
      left_out L delta dv x = Some true \/ left_out L delta dv x = Some false /\ exists s, shown_text L x = Some s /\ one_line (member_name m) s.
End Spec.

Lemma app_text a b : file_text (a ++ b) = (file_text a ++ file_text b)%string.
Proof. induction a as [|l a IH]; [reflexivity|]. cbn [app file_text fold_right]. fold (file_text (a ++ b)) (file_text a). now rewrite IH, sapp_assoc. Qed.
Lemma notes_app a b : without_notes (a ++ b) = without_notes a ++ without_notes b.
Proof. induction a as [|[] a IH]; cbn; rewrite ?IH; reflexivity. Qed.
Definition short (l : line) : Prop := line_ok l /\ match l with Long _ _ | Note _ => False | Sec _ c | Item _ _ c => c = "" | Blank => True end.
Lemma short_finished ls : Forall short ls -> (forall l, In l ls -> line_ok l) /\ finished ls.
Proof.
  intros F. rewrite Forall_forall in F. split; [intros l I; apply (F l I)|]. intros a n t b E. exfalso. assert (I : In (Long n t) ls) by (rewrite E; apply in_or_app; right; now left). destruct (F _ I) as (_ & []).
Qed.

Section Lines.
  Variables (enums : list enum_S) (ss : list struct_S) (o : output_spec) (ds : list def) (L : lang).
  Hypothesis X : ini_setting enums ss o ds L.
  Variable delta : bool.
  Notation on_lines := (on_lines L delta).
  Notation item_in := (item_in L delta).
  Lemma carries_lines v p : carries_plainly L delta v p -> on_lines v p.
  Proof.
    intros C ns u fs ms d AT FS D. destruct (C ns u fs ms d AT FS D) as (A & B & E). repeat (split; [assumption|]). intros m x dv I S AX AD.
    destruct (E m x dv I S AX AD) as [H|[H K]]; [now left|right]. split; [exact H|]. exact (keeps_line enums ss o ds L X _ x K).
  Qed.
  Lemma lines_in v p n w u fs : v = VStruct u fs -> assoc n fs = Some w -> on_lines v p -> on_lines w (sub_path p n).
  Proof. intros -> A C ns u' fs' ms d AT. apply (C (n :: ns) u' fs' ms d). cbn [member_at]. now rewrite A. Qed.

  Lemma item_lines p fs d : forall A sub, (forall n, assoc n sub = match assoc n fs with Some v => Some (v, obj_text L delta v) | None => None end) ->
    NoDup (map member_name A) -> (forall m, In m A -> ident (member_name m) = true) -> (forall m, In m A -> is_struct_member L m = false) ->
    (forall m x dv, In m A -> is_scalar L m = true -> assoc (member_name m) fs = Some x -> assoc (member_name m) d = Some dv ->
      left_out L delta dv x = Some true \/ left_out L delta dv x = Some false /\ exists s, shown_text L x = Some s /\ one_line (member_name m) s) ->
    forall t, members_text L delta p d sub A = Some t ->
    exists its, t = file_text its /\ Forall short its /\ Forall (fun l => is_item_line l = true) its /\ without_notes its = its /\ NoDup (map line_name its) /\ (forall n, In n (map line_name its) -> In n (map member_name A)) /\
      forall n, last_value n its = item_in A fs d n.
  Proof.
    induction A as [|m A IH]; intros sub SUB ND ID NS CA t T; cbn [members_text] in T.
    - injection T as <-. exists []. repeat split; auto; constructor.
    - cbn [map] in ND. apply NoDup_cons_iff in ND as [N ND]. destruct (member_text L delta p d sub m) as [a|] eqn:MT; [|discriminate].
      destruct (members_text L delta p d sub A) as [b|] eqn:MB; [|discriminate]. injection T as <-.
      destruct (IH sub SUB ND (fun m' I => ID m' (or_intror I)) (fun m' I => NS m' (or_intror I)) (fun m' x dv I => CA m' x dv (or_intror I)) b MB) as (its & -> & SH & IL & WN & NI & SN & LV). clear IH.
      assert (NA : forall n, n = member_name m -> existsb (fun m0 => (String.eqb n (member_name m0) && is_scalar L m0)%bool) A = false).
      { intros n ->. apply not_true_iff_false. rewrite existsb_exists. intros (y & Y & W). apply andb_true_iff in W as [W _]. apply String.eqb_eq in W. apply N. rewrite W. now apply in_map. }
      assert (SKIP : a = "" -> (forall x dv, is_scalar L m = true -> assoc (member_name m) fs = Some x -> assoc (member_name m) d = Some dv -> left_out L delta dv x = Some true) ->
        exists its0, (a ++ file_text its)%string = file_text its0 /\ Forall short its0 /\ Forall (fun l => is_item_line l = true) its0 /\ without_notes its0 = its0 /\ NoDup (map line_name its0) /\ (forall n, In n (map line_name its0) -> In n (map member_name (m :: A))) /\
        forall n, last_value n its0 = item_in (m :: A) fs d n).
      { intros -> H. exists its. repeat (split; [solve [auto]|]). split; [intros n I; right; auto|]. intros n. rewrite LV. unfold item_in. cbn [existsb].
        destruct (String.eqb_spec n (member_name m)) as [E|NE]; [|reflexivity]. rewrite (NA n E). cbn [andb]. destruct (is_scalar L m) eqn:SM; [|reflexivity]. cbn [orb]. subst n.
        destruct (assoc (member_name m) fs) as [x|] eqn:AX; [|reflexivity]. destruct (assoc (member_name m) d) as [dv|] eqn:AD; [|reflexivity]. now rewrite (H x dv eq_refl eq_refl eq_refl). }
      unfold member_text in MT. rewrite SUB in MT. destruct (assoc (member_name m) fs) as [x|] eqn:AX; [|discriminate].
      destruct (is_scalar L m) eqn:SM.
      + destruct (assoc (member_name m) d) as [dv|] eqn:AD; [|discriminate]. unfold scalar_line in MT.
        destruct (CA m x dv (or_introl eq_refl) SM AX AD) as [LO|[LO (tx & SX & OL & NE & LEN)]]; rewrite LO in MT.
        * injection MT as <-. apply SKIP; [reflexivity|]. intros x' dv' _ [= <-] [= <-]. exact LO.
        * rewrite SX in MT. injection MT as <-. clear SKIP. exists (Item (member_name m) tx "" :: its). split; [|split; [|split; [|split; [|split; [|split]]]]].
          { cbn [file_text fold_right line_text]. fold (file_text its). unfold item_line. now rewrite ?sapp_assoc. }
          { constructor; [|exact SH]. split; [|reflexivity]. cbn [line_ok]. split; [exact (ID m (or_introl eq_refl))|]. repeat (split; [assumption|]). split; [now left|]. cbn [String.length]. lia. }
          { constructor; auto. }
          { cbn [without_notes]. now rewrite WN. }
          { cbn [map line_name]. constructor; auto. }
          { intros n [<-|I]; [now left|right; auto]. }
          intros n. cbn [last_value]. rewrite LV. unfold item_in. cbn [existsb]. rewrite SM. destruct (String.eqb_spec n (member_name m)) as [E|E].
          { rewrite (NA n E). subst n. cbn [andb orb]. now rewrite AX, AD, LO, SX. }
          cbn [andb orb]. destruct (existsb _ A); [|reflexivity]. destruct (assoc n fs); [|reflexivity]. destruct (assoc n d); [|reflexivity]. destruct (left_out L delta v0 v) as [[|]|]; try reflexivity. now destruct (shown_text L v).
      + rewrite (NS m (or_introl eq_refl)) in MT. injection MT as <-. apply SKIP; [reflexivity|]. discriminate.
  Qed.

  (** The sections of the object [v] in section [p]. *)
  Definition has_parts (v : val) (p : string) (ps : list (string * list line)) : Prop :=
    orderly ps /\ (forall q b, In (q, b) ps -> exists ns, Forall (fun n => ident n = true) ns /\ q = fold_left sub_path ns p) /\
    forall ns n, Forall (fun n => ident n = true) ns -> match assoc (fold_left sub_path ns p) ps with Some b => last_value n b | None => None end = at_way L delta v ns n.
  Definition lined (v : val) : Prop := forall u0 p t, fits L v (TStruct u0) = true -> on_line p = true -> p <> "" -> on_lines v p -> obj_text L delta v p = Some t ->
    exists ls ps, t = file_text ls /\ Forall short ls /\ without_notes ls = laid_out ps /\ has_parts v p ps.
  Lemma laid_app a b : laid_out (a ++ b) = laid_out a ++ laid_out b.
  Proof. unfold laid_out. apply flat_map_app. Qed.
  Lemma assoc_app' {T} (a b : list (string * T)) n : assoc n (a ++ b) = match assoc n a with Some x => Some x | None => assoc n b end.
  Proof. induction a as [|[m x] a IH]; [reflexivity|]. cbn. now destruct (String.eqb n m). Qed.
  Lemma orderly_app a b : orderly a -> orderly b -> (forall q x y, In (q, x) a -> In (q, y) b -> False) -> orderly (a ++ b).
  Proof.
    intros (N1 & H1) (N2 & H2) D. split.
    - rewrite map_app. induction a as [|[q x] a IH]; [exact N2|]. cbn [map app fst] in *. apply NoDup_cons_iff in N1 as [N N1]. constructor.
      + intros I. apply in_app_or in I as [I|I]; [contradiction|]. apply in_map_iff in I as ([q' y] & E & I). cbn in E. subst q'. eapply D; [now left|exact I].
      + apply IH; auto; [intros z I; apply H1; now right|]. intros z u w I J. eapply D; [right; exact I|exact J].
    - intros q I. apply in_app_or in I as [I|I]; auto.
  Qed.
  Lemma struct_lines p fs d : on_line p = true -> forall B sub, (forall n, assoc n sub = match assoc n fs with Some v => Some (v, obj_text L delta v) | None => None end) ->
    NoDup (map member_name B) -> (forall m, In m B -> ident (member_name m) = true) -> (forall m, In m B -> is_scalar L m = false) ->
    (forall m, In m B -> is_struct_member L m = true -> exists u w, assoc (member_name m) fs = Some w /\ fits L w (TStruct u) = true /\ lined w /\ on_lines w (sub_path p (member_name m))) ->
    forall t, members_text L delta p d sub B = Some t ->
    exists ls ps, t = file_text ls /\ Forall short ls /\ without_notes ls = laid_out ps /\ orderly ps /\
      (forall q b, In (q, b) ps -> exists m ns, In m B /\ is_struct_member L m = true /\ Forall (fun n => ident n = true) ns /\ q = fold_left sub_path ns (sub_path p (member_name m))) /\
      forall m w, In m B -> is_struct_member L m = true -> assoc (member_name m) fs = Some w ->
        forall ns n, Forall (fun n => ident n = true) ns -> match assoc (fold_left sub_path ns (sub_path p (member_name m))) ps with Some b => last_value n b | None => None end = at_way L delta w ns n.
  Proof.
    intros PL. induction B as [|m B IH]; intros sub SUB ND ID NS SW t T; cbn [members_text] in T.
    - injection T as <-. exists [], []. repeat split; auto; try constructor; try contradiction.
    - cbn [map] in ND. apply NoDup_cons_iff in ND as [N ND]. destruct (member_text L delta p d sub m) as [a|] eqn:MT; [|discriminate].
      destruct (members_text L delta p d sub B) as [b|] eqn:MB; [|discriminate]. injection T as <-.
      destruct (IH sub SUB ND (fun m' I => ID m' (or_intror I)) (fun m' I => NS m' (or_intror I)) (fun m' I => SW m' (or_intror I)) b MB) as (ls & ps & -> & SH & WN & OR & BL & AW). clear IH.
      unfold member_text in MT. rewrite SUB in MT. rewrite (NS m (or_introl eq_refl)) in MT. destruct (is_struct_member L m) eqn:SM.
      + destruct (SW m (or_introl eq_refl) SM) as (u & w & AX & FW & LI & OW). rewrite AX in MT. pose proof (ID m (or_introl eq_refl)) as IM.
        destruct (LI u (sub_path p (member_name m)) a FW (sub_path_line _ _ PL IM) (sub_path_cons _ _ IM) OW MT) as (l1 & p1 & -> & SH1 & WN1 & OR1 & BLX & AW1).
        assert (BL1 : forall q x, In (q, x) p1 -> below q (sub_path p (member_name m))) by (intros q x I; destruct (BLX q x I) as (ns & FN & ->); apply fold_below; [now apply sub_path_cons|exact FN]).
        assert (BLB : forall q x, In (q, x) ps -> exists m', In m' B /\ is_struct_member L m' = true /\ below q (sub_path p (member_name m'))).
        { intros q x I. destruct (BL q x I) as (m' & ns & A1 & A2 & A3 & ->). exists m'. repeat (split; [assumption|]). apply fold_below; [apply sub_path_cons, ID; now right|exact A3]. }
        assert (DIS : forall q, below q (sub_path p (member_name m)) -> forall m', In m' B -> below q (sub_path p (member_name m')) -> False).
        { intros q Q m' I Q'. apply N. rewrite (below_sibling q p _ _ IM (ID m' (or_intror I)) Q Q'). now apply in_map. }
        exists (l1 ++ ls), (p1 ++ ps). split; [now rewrite app_text|]. split; [now apply Forall_app|]. split; [now rewrite notes_app, laid_app, WN1, WN|]. split; [|split].
        * apply orderly_app; auto. intros q x y I J. destruct (BLB q y J) as (m' & I' & _ & B'). exact (DIS q (BL1 q x I) m' I' B').
        * intros q x I. apply in_app_or in I as [I|I]; [destruct (BLX q x I) as (ns & FN & E); exists m, ns; repeat split; auto; now left|]. destruct (BL q x I) as (m' & ns & A1 & A2 & A3). exists m', ns. split; [now right|auto].
        * intros m' w' [<-|I] SM' AX' ns n FN; rewrite assoc_app'.
          { assert (w' = w) by congruence. subst w'. rewrite <- (AW1 ns n FN). destruct (assoc (fold_left sub_path ns (sub_path p (member_name m))) p1) as [x|]; [reflexivity|].
            destruct (assoc (fold_left sub_path ns (sub_path p (member_name m))) ps) as [y|] eqn:AS; [|reflexivity]. exfalso. apply assoc_some in AS. destruct (BLB _ _ AS) as (m' & I' & _ & B').
            exact (DIS _ (fold_below ns _ (sub_path_cons _ _ IM) FN) m' I' B'). }
          rewrite <- (AW m' w' I SM' AX' ns n FN). destruct (assoc (fold_left sub_path ns (sub_path p (member_name m'))) p1) as [x|] eqn:AS; [|reflexivity]. exfalso. apply assoc_some in AS.
          exact (DIS _ (BL1 _ _ AS) m' I (fold_below ns _ (sub_path_cons _ _ (ID m' (or_intror I))) FN)).
      + destruct (assoc (member_name m) fs) as [w|]; [|discriminate]. injection MT as <-. exists ls, ps. repeat (split; [assumption || reflexivity|]). split.
        * intros q x I. destruct (BL q x I) as (m' & ns & A1 & A2 & A3). exists m', ns. split; [now right|auto].
        * intros m' w' [<-|I] SM'; [congruence|]. now apply AW.
  Qed.

  Lemma item_in_order fs d ms A B n : in_order ms = A ++ B -> (forall m, In m B -> is_scalar L m = false) -> item_in A fs d n = item_in ms fs d n.
  Proof.
    intros SP HB. unfold item_in. assert (E : forall f, (forall m, In m B -> f m = false) -> existsb f A = existsb f ms).
    { intros f HF. apply eq_true_iff_eq. rewrite !existsb_exists. split; intros (y & I & Y); exists y; split; auto.
      - apply (proj1 (in_order_in y ms)). rewrite SP. apply in_or_app. now left.
      - apply (proj2 (in_order_in y ms)) in I. rewrite SP in I. apply in_app_or in I as [I|I]; [exact I|]. rewrite (HF y I) in Y. discriminate. }
    rewrite E; [reflexivity|]. intros m I. rewrite (HB m I). apply andb_false_r.
  Qed.
  (** The members of a struct: lines of its own and parts for the structs in it. *)
  Lemma members_lines f u fs p t : (forall w, vheight w < f -> lined w) -> vheight (VStruct u fs) < S f -> fits L (VStruct u fs) (TStruct u) = true -> on_line p = true -> on_lines (VStruct u fs) p ->
    obj_text L delta (VStruct u fs) p = Some t ->
    exists ms d its ls ps, find_struct (l_defs L) u = Some ms /\ default_fields L u = Some d /\ t = (section_line p ++ file_text (its ++ ls))%string /\
      Forall short its /\ Forall (fun l => is_item_line l = true) its /\ without_notes its = its /\ NoDup (map line_name its) /\ (forall n, last_value n its = item_in ms fs d n) /\
      Forall short ls /\ without_notes ls = laid_out ps /\ orderly ps /\
      (forall q b, In (q, b) ps -> exists m ns, In m ms /\ is_struct_member L m = true /\ Forall (fun n => ident n = true) ns /\ q = fold_left sub_path ns (sub_path p (member_name m))) /\
      forall n ns k, Forall (fun n => ident n = true) (n :: ns) -> match assoc (fold_left sub_path (n :: ns) p) ps with Some b => last_value k b | None => None end = at_way L delta (VStruct u fs) (n :: ns) k.
  Proof.
    intros IH HV F PL OL T. destruct (j_parts enums ss o ds L X u fs F) as (ms & d & FS & D & ND & K & PM). cbn [obj_text] in T. rewrite FS, D in T.
    set (sub := map (fun q => (fst q, (snd q, obj_text L delta (snd q)))) fs) in *.
    assert (SUB : forall n, assoc n sub = match assoc n fs with Some v => Some (v, obj_text L delta v) | None => None end).
    { intros n. unfold sub. now rewrite (sub_assoc (fun v => (v, obj_text L delta v))). }
    destruct (members_text L delta p d sub (in_order ms)) as [tm|] eqn:TM; [|discriminate]. injection T as <-.
    destruct (OL [] u fs ms d eq_refl FS D) as (_ & EF & CS). destruct (enums_first_split L (in_order ms) EF) as (A & B & SP & HA & HB).
    pose proof (in_order_names ms ND) as NDO. rewrite SP, map_app in NDO. destruct (nodup_app_l _ _ NDO) as [NDA NDB].
    assert (INA : forall m, In m A -> In m ms) by (intros m I; apply (proj1 (in_order_in m ms)); rewrite SP; apply in_or_app; now left).
    assert (INB : forall m, In m B -> In m ms) by (intros m I; apply (proj1 (in_order_in m ms)); rewrite SP; apply in_or_app; now right).
    assert (ID : forall m, In m ms -> ident (member_name m) = true) by (intros m I; eapply j_ident; eauto).
    rewrite SP in TM. destruct (members_text_split L delta p d sub A B tm TM) as (a & b & TA & TB & ->).
    destruct (item_lines p fs d A sub SUB NDA (fun m I => ID m (INA m I)) HA (fun m x dv I => CS m x dv (INA m I)) a TA) as (its & -> & I1 & I2 & I3 & I4 & _ & I6).
    assert (SW : forall m, In m B -> is_struct_member L m = true -> exists u w, assoc (member_name m) fs = Some w /\ fits L w (TStruct u) = true /\ lined w /\ on_lines w (sub_path p (member_name m))).
    { intros m I SM. destruct (PM m (INB m I)) as (ty & w & dv & MT & AW & _ & FW & _). destruct (struct_value L m w ty SM MT FW) as (u1 & f1 & -> & ->).
      exists u1, (VStruct u1 f1). split; [exact AW|]. split; [exact FW|]. split; [|eapply lines_in; eauto]. apply IH. pose proof (field_height u fs _ _ AW). lia. }
    destruct (struct_lines p fs d PL B sub SUB NDB (fun m I => ID m (INB m I)) HB SW b TB) as (ls & ps & -> & S1 & S2 & S3 & S4 & S5).
    exists ms, d, its, ls, ps. split; [exact FS|]. split; [exact D|]. split; [now rewrite app_text|]. repeat (split; [assumption|]). split; [intros n; rewrite I6; exact (item_in_order fs d ms A B n SP HB)|].
    repeat (split; [assumption|]). split.
    - intros q x I. destruct (S4 q x I) as (m & ns & A1 & A2 & A3). exists m, ns. auto.
    - intros n ns k FN. inversion FN as [|? ? IN FN']; subst. unfold at_way. cbn [member_at fold_left]. fold (at_way L delta).
      assert (NONE : (forall m, In m B -> is_struct_member L m = true -> member_name m <> n) -> assoc (fold_left sub_path ns (sub_path p n)) ps = None).
      { intros H. destruct (assoc (fold_left sub_path ns (sub_path p n)) ps) as [y|] eqn:AS; [|reflexivity]. exfalso. apply assoc_some in AS. destruct (S4 _ _ AS) as (m & ns' & A1 & A2 & A3 & A4).
        apply (H m A1 A2). symmetry. exact (below_sibling _ p n _ IN (ID m (INB m A1)) (fold_below ns _ (sub_path_cons _ _ IN) FN') (eq_ind_r (fun z => below z (sub_path p (member_name m))) (fold_below ns' _ (sub_path_cons _ _ (ID m (INB m A1))) A3) A4)). }
      destruct (assoc n fs) as [w|] eqn:AW.
      + assert (exists m, In m ms /\ member_name m = n) as (m & I & E).
        { apply assoc_some in AW. apply (in_map fst) in AW. rewrite K in AW. apply in_map_iff in AW as (m & Y1 & Y2). eauto. }
        destruct (is_struct_member L m) eqn:SM.
        * assert (IB : In m B) by (apply (proj2 (in_order_in m ms)) in I; rewrite SP in I; apply in_app_or in I as [I|I]; [|exact I]; rewrite (HA m I) in SM; discriminate).
          subst n. exact (S5 m w IB SM AW ns k FN').
        * rewrite NONE. 2:{ intros m' I' SM' E'. rewrite <- E in E'. apply (j_name_inj ms m' m ND (INB m' I') I) in E'. subst. congruence. }
          destruct (PM m I) as (ty & w' & dv & MT & AW' & _ & FW & _). rewrite E in AW'. assert (w' = w) by congruence. subst w'.
          destruct w as [| | | | | | |u3 f3| | | | | | | | | | | | | |]; try (destruct ns; reflexivity). exfalso. pose proof (fits_ty L _ _ FW) as TY. cbn in TY. subst ty. rewrite (type_struct_member L m u3 MT) in SM. discriminate.
      + rewrite NONE; [reflexivity|]. intros m' I' SM' E'. destruct (PM m' (INB m' I')) as (ty & w' & dv & _ & AW' & _). congruence.
  Qed.
  Lemma object_lines : forall f v, vheight v < f -> lined v.
  Proof.
    induction f as [|f IH]; intros v HV; [lia|]. intros u0 p t F PL NE OL T. destruct (fits_as_struct L v u0 F) as (fs & ->).
    destruct (members_lines f u0 fs p t IH HV F PL OL T) as (ms & d & its & ls & ps & FS & D & -> & I1 & I2 & I3 & I4 & I5 & S1 & S2 & S3 & S4 & S5).
    assert (ID : forall m, In m ms -> ident (member_name m) = true) by (intros m I; eapply j_ident; eauto).
    exists (Blank :: Sec p "" :: its ++ ls), ((p, its) :: ps). split; [|split; [|split; [|split; [|split]]]].
    - cbn [file_text fold_right]. fold (file_text (its ++ ls)). unfold section_line. destruct p; [congruence|]. cbn [line_text]. now rewrite !sapp_assoc.
    - destruct (OL [] u0 fs ms d eq_refl FS D) as (LEN & _). constructor; [split; exact I|]. constructor; [|now apply Forall_app]. split; [|reflexivity]. cbn [line_ok]. repeat (split; [assumption|]). split; [now left|]. cbn [String.length fold_left] in *. lia.
    - cbn [without_notes]. rewrite notes_app, I3, S2. reflexivity.
    - apply (orderly_app [(p, its)] ps); auto.
      + split; [repeat constructor; intros []|]. intros q [<-|[]]. split; assumption.
      + intros q x y [E|[]] J. injection E as <- <-. destruct (S4 p y J) as (m & ns & A1 & _ & A3 & A4). apply (below_self p _ (ID m A1)). rewrite A4 at 1. exact (fold_below ns _ (sub_path_cons _ _ (ID m A1)) A3).
    - intros q b [E|I]; [injection E as <- <-; exists []; split; [constructor|reflexivity]|]. destruct (S4 q b I) as (m & ns & A1 & _ & A3 & ->). exists (member_name m :: ns). split; [constructor; auto|reflexivity].
    - intros [|n ns] k FN.
      + cbn [fold_left assoc]. rewrite String.eqb_refl. unfold at_way. cbn [member_at]. rewrite FS, D. apply I5.
      + rewrite <- (S5 n ns k FN). cbn [assoc fold_left]. inversion FN as [|? ? IN FN']; subst.
        assert (String.eqb (fold_left sub_path ns (sub_path p n)) p = false) as ->; [|reflexivity]. apply eqb_neq. intros E.
        apply (below_self p n IN). rewrite <- E at 1. exact (fold_below ns _ (sub_path_cons _ _ IN) FN').
  Qed.
  (** The whole file. *)
  Theorem file_lines u fs t : fits L (VStruct u fs) (TStruct u) = true -> on_lines (VStruct u fs) "" -> obj_text L delta (VStruct u fs) "" = Some t ->
    exists ls, t = file_text ls /\ Forall short ls /\ (forall ns n, Forall (fun n => ident n = true) ns -> value ls (section_of ns) n = gives L delta (VStruct u fs) ns n) /\
      (forall p n s, value ls p n = Some s -> exists ns, p = section_of ns /\ Forall (fun n => ident n = true) ns) /\
      exists its ps, without_notes ls = its ++ laid_out ps /\ Forall (fun l => is_item_line l = true) its /\ orderly ps /\ forall q b, In (q, b) ps -> exists ns, q = section_of ns /\ Forall (fun n => ident n = true) ns.
  Proof.
    intros F OL T. set (f := S (vheight (VStruct u fs))).
    destruct (members_lines f u fs "" t (object_lines f) ltac:(unfold f; lia) F eq_refl OL T) as (ms & d & its & ls & ps & FS & D & -> & I1 & I2 & I3 & I4 & I5 & S1 & S2 & S3 & S4 & S5).
    assert (V : forall p n, value (its ++ ls) p n = match assoc p ps with Some b => last_value n b | None => None end).
    { intros p n. rewrite <- value_notes, notes_app, I3, S2. unfold value. rewrite (part_items its (laid_out ps) p I2), (part_laid ps p S3). reflexivity. }
    exists (its ++ ls). split; [reflexivity|]. split; [now apply Forall_app|]. split; [|split].
    - intros ns n FN. rewrite V. destruct ns as [|m ns]; [|exact (S5 m ns n FN)]. cbn [gives]. change (section_of []) with "". destruct (assoc "" ps) as [b|] eqn:A; [|reflexivity]. exfalso. apply assoc_some in A.
      destruct (S4 "" b A) as (m & ns & I & SM & FN' & E). assert (ID : ident (member_name m) = true) by (eapply j_ident; eauto).
      pose proof (section_inj [] (member_name m :: ns) (Forall_nil _) (Forall_cons _ ID FN') E). discriminate.
    - intros p n s E. rewrite V in E. destruct (assoc p ps) as [b|] eqn:A; [|discriminate]. apply assoc_some in A. destruct (S4 p b A) as (m & ns & I & SM & FN' & ->). exists (member_name m :: ns).
      split; [reflexivity|]. constructor; [|exact FN']. eapply j_ident; eauto.
    - exists its, ps. split; [now rewrite notes_app, I3, S2|]. split; [exact I2|]. split; [exact S3|]. intros q b J. destruct (S4 q b J) as (m & ns & I & SM & FN' & ->). exists (member_name m :: ns).
      split; [reflexivity|]. constructor; [|exact FN']. eapply j_ident; eauto.
  Qed.
End Lines.
