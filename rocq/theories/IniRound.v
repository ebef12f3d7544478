(** Which objects survive being written to an n_ini file and read back. *)
From Coq Require Import String Ascii ZArith NArith Arith List Bool Lia.
From Verif Require Import Base Map Items Grammar Fmt Decimal Templates Emit Cpp Xml Val Rx CppSem SymLex Ast StoreDefs ResolveProps Prog Header Link EnumSem DecText EnumCall EnumRound XmlSpec XmlRdSimple XmlRead XmlReader XmlCall XmlWriter XmlCarry XmlRound IniSpec IniRead IniReader IniCall IniWrite IniWriter IniScan IniBlock IniKeep.
Import ListNotations.
Local Open Scope string_scope.
Local Open Scope list_scope.

Section Cond.
  Variables (L : lang) (delta : bool).
  (** The text [s] of a member named [n] is on one line, without what is special there. *)
  Definition one_line (n s : string) : Prop := on_line s = true /\ s <> "" /\ String.length n + 1 + String.length s <= 79.
  (** A scalar whose line is read back as the same value. *)
  Definition line_keeps (n : string) (x : val) : Prop :=
    match x with
    | VNum _ z => String.length n + 1 + String.length (zdec z) <= 79
    | VFlt k c => one_line n (l_fprint L k c) /\ l_sto L k (l_fprint L k c) = Some c
    | VStr s => one_line n s
    | VEnum e z => exists c es, find_enum (l_defs L) e = Some (c, es) /\ can_hold L e es z /\ String.length n + 1 + String.length (enum_text (enum_values L 0 es) z) <= 79
    | _ => False
    end.
  (** ... or a string whose lines are. *)
  Definition text_keeps (n : string) (x : val) : Prop := line_keeps n x \/ exists s, x = VStr s /\ several_lines n s.
  (** A scalar is left out, or its text is fine. *)
  Definition carried (K : string -> val -> Prop) (n : string) (d x : val) : Prop := left_out L delta d x = Some true \/ left_out L delta d x = Some false /\ K n x.
  (** Enum members must come before struct members. *)
  Fixpoint enums_first (ms : list member) : bool :=
    match ms with
    | [] => true
    | m :: r => if is_struct_member L m then negb (existsb (is_scalar L) r) else enums_first r
    end.
  (** All that is written of the object [v], in section [p]. *)
  Definition carries_by (K : string -> val -> Prop) (v : val) (p : string) : Prop := forall ns u fs ms d, member_at ns v = Some (VStruct u fs) -> find_struct (l_defs L) u = Some ms -> default_fields L u = Some d ->
    String.length (fold_left sub_path ns p) + 2 <= 79 /\ enums_first (in_order ms) = true /\
    forall m x dv, In m ms -> is_scalar L m = true -> assoc (member_name m) fs = Some x -> assoc (member_name m) d = Some dv -> carried K (member_name m) dv x.
  Definition carries : val -> string -> Prop := carries_by text_keeps.
  (** ... with no string of several lines. *)
  Definition carries_plainly : val -> string -> Prop := carries_by line_keeps.
  Lemma plainly_carries v p : carries_plainly v p -> carries v p.
  Proof.
    intros C ns u fs ms d AT FS D. destruct (C ns u fs ms d AT FS D) as (A & B & E). split; [exact A|]. split; [exact B|]. intros m x dv I S AX AD.
    destruct (E m x dv I S AX AD) as [H|[H K]]; [now left|]. right. split; [exact H|]. now left.
  Qed.

  (** The item for a member in the list [its]. *)
  Definition item_of (its : list (string * string)) (n : string) (d x : val) : Prop :=
    match left_out L delta d x with
    | Some true => assoc n its = None
    | Some false => exists s, shown_text L x = Some s /\ assoc n its = Some s
    | None => False
    end.
  Definition has_items (its : list (string * string)) (ms : list member) (fs d : list (string * val)) : Prop :=
    forall m x dv, In m ms -> is_scalar L m = true -> assoc (member_name m) fs = Some x -> assoc (member_name m) d = Some dv -> item_of its (member_name m) dv x.
  (** The sections of the object [v]. *)
  Definition sections (k : lookups) (v : val) (p : string) : Prop := forall ns u fs ms d, member_at ns v = Some (VStruct u fs) -> find_struct (l_defs L) u = Some ms -> default_fields L u = Some d ->
    exists its, assoc (fold_left sub_path ns p) (k_under k) = Some its /\ has_items its ms fs d.
End Cond.

(** *** Scanning what was written *)
Section Round.
  Variables (enums : list enum_S) (ss : list struct_S) (o : output_spec) (ds : list def) (L : lang).
  Hypothesis X : ini_setting enums ss o ds L.
  Variable delta : bool.
  Notation carries := (carries L delta).
  Notation sections := (sections L delta).

  Lemma enum_text_line n c es z : find_enum (l_defs L) n = Some (c, es) -> on_line (enum_text (enum_values L 0 es) z) = true /\ enum_text (enum_values L 0 es) z <> "".
  Proof.
    intros E. rewrite (i_defs _ _ _ _ _ X) in E. apply find_enum_in in E as (t & E). unfold enum_text.
    assert (Z : forall z, on_line (zdec z) = true /\ zdec z <> "").
    { clear. intros z. split; [|destruct (zdec_nonempty z) as (c & s & ->); discriminate]. eapply all_chars_imp; [|exact (zdec_all z)].
      intros c. destruct c as [[] [] [] [] [] [] [] []]; (reflexivity || discriminate). }
    destruct (name_of (enum_values L 0 es) z) as [x|] eqn:N; [|apply Z].
    apply name_of_in in N. pose proof (value_name B_n_ini enums ss o ds L (i_g _ _ _ _ _ X) c n es t E x z N) as I.
    split; [now apply ident_line|]. destruct (ident_cons x I) as (? & ? & -> & _). discriminate.
  Qed.
  Lemma zdec_line z : on_line (zdec z) = true /\ zdec z <> "".
  Proof.
    split; [|destruct (zdec_nonempty z) as (c & s & ->); discriminate]. eapply all_chars_imp; [|exact (zdec_all z)].
    intros c. destruct c as [[] [] [] [] [] [] [] []]; (reflexivity || discriminate).
  Qed.
  Lemma keeps_line n x : line_keeps L n x -> exists s, shown_text L x = Some s /\ one_line n s.
  Proof.
    destruct x; cbn [line_keeps shown_text]; try contradiction.
    - intros H. eexists. split; [reflexivity|]. destruct (zdec_line z). repeat split; auto.
    - intros [H _]. eauto.
    - eauto.
    - intros (c & es & FE & _ & H). rewrite FE. eexists. split; [reflexivity|]. destruct (enum_text_line _ _ _ z FE). repeat split; auto.
  Qed.

  Lemma keeps_text n x : text_keeps L n x -> exists s, shown_text L x = Some s /\ (one_line n s \/ several_lines n s).
  Proof. intros [H|(s & -> & H)]; [destruct (keeps_line n x H) as (s & A & B); eauto|]. exists s. split; [reflexivity|]. now right. Qed.
  Lemma text_kept n t r s : ident n = true -> one_line n t \/ several_lines n t -> x_key s = "" ->
    exists v, scan_text (item_line n t ++ r) s = scan_text r (Scan (put_item (x_cur s) n t (x_look s)) (x_cur s) "" v).
  Proof.
    intros N [(OL & NE & LE)|H] KS; eexists; [|exact (text_several n t r s N H KS)].
    rewrite (text_item n t r s N OL NE LE). cbv zeta. rewrite (proj1 (flushed_val s (x_look s) KS)). reflexivity.
  Qed.

  (** The lines of scalars. *)
  Definition put_all (c : option string) (k k' : lookups) (P : list (string * string) -> list (string * string) -> Prop) : Prop :=
    match c with
    | Some p => (forall q, String.eqb q p = false -> assoc q (k_under k') = assoc q (k_under k)) /\
                forall its, assoc p (k_under k) = Some its -> exists its', assoc p (k_under k') = Some its' /\ P its its'
    | None => k_under k' = k_under k
    end.
  Lemma scan_scalars p fs d : forall A sub, (forall n, assoc n sub = match assoc n fs with Some v => Some (v, obj_text L delta v) | None => None end) ->
    NoDup (map member_name A) -> (forall m, In m A -> ident (member_name m) = true) ->
    (forall m, In m A -> is_struct_member L m = false) ->
    (forall m x dv, In m A -> is_scalar L m = true -> assoc (member_name m) fs = Some x -> assoc (member_name m) d = Some dv -> carried L delta (text_keeps L) (member_name m) dv x) ->
    forall t, members_text L delta p d sub A = Some t ->
    forall r s, x_key s = "" -> exists s', scan_text (t ++ r) s = scan_text r s' /\ x_key s' = "" /\ x_cur s' = x_cur s /\
      put_all (x_cur s) (x_look s) (x_look s') (fun its its' => (forall n, ~ In n (map member_name A) -> assoc n its' = assoc n its) /\
        ((forall m, In m A -> assoc (member_name m) its = None) -> has_items L delta its' A fs d)).
  Proof.
    induction A as [|m A IH]; intros sub SUB ND ID NS CA t T r s KS; cbn [members_text] in T.
    - injection T as <-. exists s. repeat split; auto. unfold put_all. destruct (x_cur s); [|reflexivity]. split; [auto|]. intros its E. exists its. repeat split; auto. intros _ m ? ? [].
    - cbn [map] in ND. apply NoDup_cons_iff in ND as [N ND]. destruct (member_text L delta p d sub m) as [a|] eqn:MT; [|discriminate].
      destruct (members_text L delta p d sub A) as [b|] eqn:MB; [|discriminate]. injection T as <-.
      specialize (IH sub SUB ND (fun m' I => ID m' (or_intror I)) (fun m' I => NS m' (or_intror I)) (fun m' x dv I => CA m' x dv (or_intror I)) b MB).
      unfold member_text in MT. rewrite SUB in MT. destruct (assoc (member_name m) fs) as [x|] eqn:AX; [|discriminate].
      destruct (is_scalar L m) eqn:SM.
      + destruct (assoc (member_name m) d) as [dv|] eqn:AD; [|discriminate]. unfold scalar_line in MT.
        destruct (CA m x dv (or_introl eq_refl) SM AX AD) as [LO|[LO LK]]; rewrite LO in MT.
        * injection MT as <-. destruct (IH r s KS) as (s' & S1 & S2 & S3 & S4). exists s'. repeat split; auto. unfold put_all in *. destruct (x_cur s); [|exact S4].
          destruct S4 as [O S4]. split; [exact O|]. intros its E. destruct (S4 its E) as (its' & E' & P1 & P2). exists its'. split; [exact E'|]. split.
          { intros n H. apply P1. intros Y. apply H. now right. }
          intros Z m' x' dv' [<-|I] SC AX' AD'.
          { assert (x' = x) by congruence. assert (dv' = dv) by congruence. subst. unfold item_of. rewrite LO. rewrite P1 by exact N. apply Z. now left. }
          apply (P2 (fun m' I => Z m' (or_intror I)) m' x' dv' I SC AX' AD').
        * destruct (keeps_text _ x LK) as (tx & SH & TK). rewrite SH in MT. injection MT as <-.
          destruct (text_kept (member_name m) tx (b ++ r) s (ID m (or_introl eq_refl)) TK KS) as (xv & TI). rewrite sapp_assoc, TI.
          set (s1 := Scan _ _ _ _). destruct (IH r s1 eq_refl) as (s' & S1 & S2 & S3 & S4). exists s'. split; [exact S1|]. split; [exact S2|]. split; [exact S3|].
          unfold put_all in *. unfold s1 in S4 at 1. cbn [x_cur x_look] in S4. destruct (x_cur s) as [q|] eqn:XC.
          { destruct S4 as [O S4]. unfold s1 in O, S4. cbn [x_look put_item] in O, S4. destruct (assoc q (k_under (x_look s))) as [its0|] eqn:AQ; cbn [k_under] in O, S4.
            - split; [intros q' NQ; rewrite (O q' NQ); now apply assoc_set_other|]. intros its [= <-].
              destruct (S4 (set_assoc (member_name m) tx its0)) as (its' & E' & P1 & P2); [apply assoc_set_same|]. exists its'. split; [exact E'|]. split.
              + intros n H. rewrite P1 by (intros Y; apply H; now right). apply assoc_set_other. apply eqb_neq. intros ->. apply H. now left.
              + intros Z m' x' dv' [<-|I] SC AX' AD'.
                * assert (x' = x) by congruence. assert (dv' = dv) by congruence. subst. unfold item_of. rewrite LO. exists tx. split; [exact SH|]. rewrite P1 by exact N. apply assoc_set_same.
                * apply P2; auto. intros m2 I2. rewrite assoc_set_other; [apply Z; now right|]. apply eqb_neq. intros E2. apply N. rewrite <- E2. now apply in_map.
            - split; [exact O|]. discriminate. }
          unfold s1 in S4. cbn [x_look put_item k_under] in S4. exact S4.
      + rewrite (NS m (or_introl eq_refl)) in MT. injection MT as <-. destruct (IH r s KS) as (s' & S1 & S2 & S3 & S4). exists s'. repeat split; auto.
        unfold put_all in *. destruct (x_cur s); [|exact S4]. destruct S4 as [O S4]. split; [exact O|]. intros its E. destruct (S4 its E) as (its' & E' & P1 & P2). exists its'. split; [exact E'|]. split.
        { intros n H. apply P1. intros Y. apply H. now right. }
        intros Z m' x' dv' [<-|I] SC; [congruence|]. apply (P2 (fun m' I => Z m' (or_intror I)) m' x' dv' I SC).
  Qed.

  Lemma enums_first_split : forall ms, enums_first L ms = true -> exists A B, ms = A ++ B /\ (forall m, In m A -> is_struct_member L m = false) /\ (forall m, In m B -> is_scalar L m = false).
  Proof.
    induction ms as [|m ms IH]; intros H; [exists [], []; repeat split; intros ? []|]. cbn [enums_first] in H. destruct (is_struct_member L m) eqn:S.
    - exists [], (m :: ms). split; [reflexivity|]. split; [intros ? []|]. intros y [<-|I]; [now apply struct_no_scalar|]. apply negb_true_iff in H.
      rewrite <- not_true_iff_false, existsb_exists in H. apply not_true_iff_false. intros E. apply H. eauto.
    - destruct (IH H) as (A & B & -> & HA & HB). exists (m :: A), B. split; [reflexivity|]. split; [|exact HB]. intros y [<-|I]; auto.
  Qed.
  Lemma fold_below : forall ns p, p <> "" -> Forall (fun n => ident n = true) ns -> below (fold_left sub_path ns p) p.
  Proof.
    induction ns as [|n ns IH]; intros p NE F; cbn [fold_left]; [now left|]. inversion F; subst. eapply below_sub; [exact NE|]. apply IH; [now apply sub_path_cons|assumption].
  Qed.
  (** Ways into an object are made of names of members. *)
  Lemma way_idents : forall ns v u0 u fs, fits L v (TStruct u0) = true -> member_at ns v = Some (VStruct u fs) -> Forall (fun n => ident n = true) ns.
  Proof.
    induction ns as [|n ns IH]; intros v u0 u fs F AT; [constructor|]. cbn [member_at] in AT. destruct v as [| | | | | | |u1 f1| | | | | | | | | | | | | |]; try discriminate.
    destruct (assoc n f1) as [w|] eqn:AW; [|discriminate]. pose proof (fits_ty L _ _ F) as T. cbn in T. injection T as ->.
    destruct (j_parts enums ss o ds L X u0 f1 F) as (ms & d & FS & D & ND & K & PM).
    assert (exists m, In m ms /\ member_name m = n) as (m & I & <-).
    { apply assoc_some in AW. apply (in_map fst) in AW. rewrite K in AW. apply in_map_iff in AW as (m & A & B). eauto. }
    constructor; [eapply j_ident; eauto|]. destruct (PM m I) as (ty & w' & dv & MT & AW' & _ & FW & _). assert (w' = w) by congruence. subst w'.
    assert (exists u3, ty = TStruct u3) as (u3 & ->).
    { destruct w as [| | | | | | |u3 f3| | | | | | | | | | | | | |]; try (destruct ns; discriminate). pose proof (fits_ty L _ _ FW) as T. cbn in T. eauto. }
    eapply IH; eauto.
  Qed.
  Lemma sections_same k k' v p u0 : p <> "" -> fits L v (TStruct u0) = true -> (forall q, below q p -> assoc q (k_under k') = assoc q (k_under k)) -> sections k v p -> sections k' v p.
  Proof.
    intros NE F H S ns u fs ms d AT FS D. destruct (S ns u fs ms d AT FS D) as (its & E & HI). exists its. split; [|exact HI]. rewrite H; [exact E|].
    apply fold_below; [exact NE|]. eapply way_idents; eauto.
  Qed.
  Lemma carries_in v p n w u fs : v = VStruct u fs -> assoc n fs = Some w -> carries v p -> carries w (sub_path p n).
  Proof. intros -> A C ns u' fs' ms d AT. apply (C (n :: ns) u' fs' ms d). cbn [member_at]. now rewrite A. Qed.

  Lemma struct_value m v ty : is_struct_member L m = true -> member_type L m = Some ty -> fits L v ty = true -> exists u fs, ty = TStruct u /\ v = VStruct u fs.
  Proof. intros S MT F. destruct (struct_member_type L m ty MT S) as (u & ->). destruct (fits_as_struct L v u F) as (fs & ->). eauto. Qed.

  (** The object of section [p]. *)
  Definition scans (v : val) : Prop := forall u0 p t, fits L v (TStruct u0) = true -> on_line p = true -> p <> "" -> carries v p -> obj_text L delta v p = Some t ->
    forall r s, x_key s = "" -> exists s', scan_text (t ++ r) s = scan_text r s' /\ x_key s' = "" /\ sections (x_look s') v p /\
      forall q, ~ below q p -> assoc q (k_under (x_look s')) = assoc q (k_under (x_look s)).
  Lemma scan_structs p fs d : on_line p = true -> forall B sub, (forall n, assoc n sub = match assoc n fs with Some v => Some (v, obj_text L delta v) | None => None end) ->
    NoDup (map member_name B) -> (forall m, In m B -> ident (member_name m) = true) -> (forall m, In m B -> is_scalar L m = false) ->
    (forall m, In m B -> is_struct_member L m = true -> exists u w, assoc (member_name m) fs = Some w /\ fits L w (TStruct u) = true /\ scans w /\ carries w (sub_path p (member_name m))) ->
    forall t, members_text L delta p d sub B = Some t ->
    forall r s, x_key s = "" -> exists s', scan_text (t ++ r) s = scan_text r s' /\ x_key s' = "" /\
      (forall m w, In m B -> is_struct_member L m = true -> assoc (member_name m) fs = Some w -> sections (x_look s') w (sub_path p (member_name m))) /\
      forall q, (forall m, In m B -> is_struct_member L m = true -> ~ below q (sub_path p (member_name m))) -> assoc q (k_under (x_look s')) = assoc q (k_under (x_look s)).
  Proof.
    intros PL. induction B as [|m B IH]; intros sub SUB ND ID NS SW t T r s KS; cbn [members_text] in T.
    - injection T as <-. exists s. repeat split; auto. intros ? ? [].
    - cbn [map] in ND. apply NoDup_cons_iff in ND as [N ND]. destruct (member_text L delta p d sub m) as [a|] eqn:MT; [|discriminate].
      destruct (members_text L delta p d sub B) as [b|] eqn:MB; [|discriminate]. injection T as <-.
      specialize (IH sub SUB ND (fun m' I => ID m' (or_intror I)) (fun m' I => NS m' (or_intror I)) (fun m' I => SW m' (or_intror I)) b MB).
      unfold member_text in MT. rewrite SUB in MT. rewrite (NS m (or_introl eq_refl)) in MT. destruct (is_struct_member L m) eqn:SM.
      + destruct (SW m (or_introl eq_refl) SM) as (u & w & AW & FW & SC & CW). rewrite AW in MT. pose proof (ID m (or_introl eq_refl)) as IM.
        rewrite sapp_assoc. destruct (SC u (sub_path p (member_name m)) a FW (sub_path_line _ _ PL IM) (sub_path_cons _ _ IM) CW MT (b ++ r)%string s KS) as (s1 & S1 & S2 & S3 & S4).
        destruct (IH r s1 S2) as (s' & R1 & R2 & R3 & R4). exists s'. split; [congruence|]. split; [exact R2|]. split.
        * intros m' w' [<-|I] SM' AW'; [|now apply R3]. assert (w' = w) by congruence. subst w'. eapply sections_same; [now apply sub_path_cons|exact FW| |exact S3].
          intros q Q. apply R4. intros m' I SM'' Q'. apply N. rewrite (below_sibling q p _ _ IM (ID m' (or_intror I)) Q Q'). now apply in_map.
        * intros q Q. rewrite R4 by (intros m' I; apply Q; now right). apply S4. apply Q; [now left|exact SM].
      + destruct (assoc (member_name m) fs) as [w|]; [|discriminate]. injection MT as <-. destruct (IH r s KS) as (s' & R1 & R2 & R3 & R4). exists s'. split; [exact R1|]. split; [exact R2|]. split.
        * intros m' w' [<-|I] SM'; [congruence|]. now apply R3.
        * intros q Q. apply R4. intros m' I. apply Q. now right.
  Qed.
  Lemma members_text_split p d sub : forall A B t, members_text L delta p d sub (A ++ B) = Some t -> exists a b, members_text L delta p d sub A = Some a /\ members_text L delta p d sub B = Some b /\ t = (a ++ b)%string.
  Proof.
    induction A as [|m A IH]; intros B t T; cbn [app members_text] in *; [exists "", t; auto|]. destruct (member_text L delta p d sub m) as [x|]; [|discriminate].
    destruct (members_text L delta p d sub (A ++ B)) as [y|] eqn:E; [|discriminate]. injection T as <-. destruct (IH B y E) as (a & b & -> & E2 & ->). exists (x ++ a)%string, b. rewrite sapp_assoc. auto.
  Qed.
  Lemma nodup_app_l {T} (a b : list T) : NoDup (a ++ b) -> NoDup a /\ NoDup b.
  Proof. induction a as [|x a IH]; cbn; [split; [constructor|assumption]|]. intros H. apply NoDup_cons_iff in H as [N H]. destruct (IH H). split; [|assumption]. constructor; [|assumption]. intros I. apply N, in_or_app. now left. Qed.

  (** A struct at any place, once its section line has been read. *)
  Lemma scan_members f u fs p ms d A B : (forall w, vheight w < f -> scans w) -> vheight (VStruct u fs) < S f -> fits L (VStruct u fs) (TStruct u) = true -> on_line p = true -> carries (VStruct u fs) p ->
    find_struct (l_defs L) u = Some ms -> default_fields L u = Some d -> in_order ms = A ++ B -> (forall m, In m A -> is_struct_member L m = false) -> (forall m, In m B -> is_scalar L m = false) ->
    forall t, members_text L delta p d (map (fun q => (fst q, (snd q, obj_text L delta (snd q)))) fs) (in_order ms) = Some t ->
    forall r s, x_key s = "" -> x_cur s = match p with EmptyString => None | _ => Some p end ->
      (p <> "" -> assoc p (k_under (x_look s)) = Some []) ->
      exists s', scan_text (t ++ r) s = scan_text r s' /\ x_key s' = "" /\
      (p <> "" -> exists its, assoc p (k_under (x_look s')) = Some its /\ has_items L delta its ms fs d) /\
      (forall m w, In m ms -> is_struct_member L m = true -> assoc (member_name m) fs = Some w -> sections (x_look s') w (sub_path p (member_name m))) /\
      forall q, q <> p -> (forall m, In m ms -> is_struct_member L m = true -> ~ below q (sub_path p (member_name m))) -> assoc q (k_under (x_look s')) = assoc q (k_under (x_look s)).
  Proof.
    intros IH HV F PL CA FS D SP HA HB t T r s KS CS EM. destruct (j_parts enums ss o ds L X u fs F) as (ms' & d' & FS' & D' & ND & K & PM).
    assert (ms' = ms) by congruence. assert (d' = d) by congruence. subst ms' d'.
    set (sub := map (fun q => (fst q, (snd q, obj_text L delta (snd q)))) fs) in *.
    assert (SUB : forall n, assoc n sub = match assoc n fs with Some v => Some (v, obj_text L delta v) | None => None end).
    { intros n. unfold sub. now rewrite (sub_assoc (fun v => (v, obj_text L delta v))). }
    pose proof (in_order_names ms ND) as NDO. rewrite SP, map_app in NDO. destruct (nodup_app_l _ _ NDO) as [NDA NDB].
    assert (INA : forall m, In m A -> In m ms) by (intros m I; apply (proj1 (in_order_in m ms)); rewrite SP; apply in_or_app; now left).
    assert (INB : forall m, In m B -> In m ms) by (intros m I; apply (proj1 (in_order_in m ms)); rewrite SP; apply in_or_app; now right).
    assert (ID : forall m, In m ms -> ident (member_name m) = true) by (intros m I; eapply j_ident; eauto).
    destruct (CA [] u fs ms d eq_refl FS D) as (_ & _ & CS0).
    rewrite SP in T. destruct (members_text_split p d sub A B t T) as (a & b & TA & TB & ->). rewrite sapp_assoc.
    destruct (scan_scalars p fs d A sub SUB NDA (fun m I => ID m (INA m I)) HA (fun m x dv I => CS0 m x dv (INA m I)) a TA (b ++ r)%string s KS) as (s1 & S1 & S2 & S3 & S4).
    assert (SW : forall m, In m B -> is_struct_member L m = true -> exists u w, assoc (member_name m) fs = Some w /\ fits L w (TStruct u) = true /\ scans w /\ carries w (sub_path p (member_name m))).
    { intros m I SM. destruct (PM m (INB m I)) as (ty & w & dv & MT & AW & _ & FW & _). destruct (struct_value m w ty SM MT FW) as (u1 & f1 & -> & ->).
      exists u1, (VStruct u1 f1). split; [exact AW|]. split; [exact FW|]. split; [|eapply carries_in; eauto]. apply IH. pose proof (field_height u fs _ _ AW). lia. }
    destruct (scan_structs p fs d PL B sub SUB NDB (fun m I => ID m (INB m I)) HB SW b TB r s1 S2) as (s' & R1 & R2 & R3 & R4).
    assert (IB : forall m, In m ms -> is_struct_member L m = true -> In m B).
    { intros m I SM. apply (proj2 (in_order_in m ms)) in I. rewrite SP in I. apply in_app_or in I as [I|I]; [|exact I]. rewrite (HA m I) in SM. discriminate. }
    assert (IA : forall m, In m ms -> is_scalar L m = true -> In m A).
    { intros m I SM. apply (proj2 (in_order_in m ms)) in I. rewrite SP in I. apply in_app_or in I as [I|I]; [exact I|]. rewrite (HB m I) in SM. discriminate. }
    exists s'. split; [congruence|]. split; [exact R2|]. split; [|split].
    - intros NE. destruct p as [|c p]; [congruence|]. rewrite CS in S4. cbn [put_all] in S4. destruct S4 as [O S4]. destruct (S4 [] (EM NE)) as (its' & E' & P1 & P2).
      exists its'. split; [rewrite R4; [exact E'|]; intros m I SM; apply below_self; apply ID; auto|]. intros m x dv I SM AX AD. apply (P2 (fun _ _ => eq_refl) m x dv); auto.
    - intros m w I SM. apply R3; auto.
    - intros q NQ Q. rewrite R4 by (intros m I; apply Q; auto). unfold put_all in S4. rewrite CS in S4. destruct p as [|c p]; [now rewrite S4|].
      apply (proj1 S4). now apply eqb_neq.
  Qed.
  Lemma scan_object : forall f v, vheight v < f -> scans v.
  Proof.
    induction f as [|f IH]; intros v HV; [lia|]. intros u0 p t F PL NE CA T r s KS. destruct (fits_as_struct L v u0 F) as (fs & ->).
    cbn [obj_text] in T. destruct (j_parts enums ss o ds L X u0 fs F) as (ms & d & FS & D & ND & K & PM). rewrite FS, D in T.
    destruct (members_text L delta p d _ (in_order ms)) as [tm|] eqn:TM; [|discriminate]. injection T as <-.
    destruct (CA [] u0 fs ms d eq_refl FS D) as (LEN & EF & _). cbn [fold_left] in LEN. destruct (enums_first_split (in_order ms) EF) as (A & B & SP & HA & HB).
    rewrite sapp_assoc, (text_section p (tm ++ r) s PL NE LEN). cbv zeta. rewrite (proj1 (flushed_val s (x_look s) KS)). set (s1 := Scan _ _ _ _).
    destruct (scan_members f u0 fs p ms d A B IH HV F PL CA FS D SP HA HB tm TM r s1 eq_refl) as (s' & R1 & R2 & R3 & R4 & R5).
    { unfold s1. cbn. destruct p; [congruence|reflexivity]. }
    { intros _. unfold s1. cbn [x_look k_under]. apply assoc_set_same. }
    exists s'. split; [exact R1|]. split; [exact R2|]. split.
    - intros ns u fs' ms' d' AT FS' D'. destruct ns as [|n ns]; cbn [member_at fold_left] in *.
      + injection AT as <- <-. assert (ms' = ms) by congruence. assert (d' = d) by congruence. subst. exact (R3 NE).
      + destruct (assoc n fs) as [w|] eqn:AW; [|discriminate].
        assert (exists m, In m ms /\ member_name m = n) as (m & I & <-).
        { apply assoc_some in AW. apply (in_map fst) in AW. rewrite K in AW. apply in_map_iff in AW as (m & Y1 & Y2). eauto. }
        destruct (PM m I) as (ty & w' & dv & MT & AW' & _ & FW & _). assert (w' = w) by congruence. subst w'.
        assert (SM : is_struct_member L m = true).
        { destruct w as [| | | | | | |u3 f3| | | | | | | | | | | | | |]; try (destruct ns; discriminate). pose proof (fits_ty L _ _ FW) as TY. cbn in TY. subst ty. exact (type_struct_member L m u3 MT). }
        exact (R4 m w I SM AW ns u fs' ms' d' AT FS' D').
    - intros q Q. rewrite R5.
      + unfold s1. cbn [x_look k_under]. apply assoc_set_other. apply eqb_neq. intros ->. apply Q. now left.
      + intros ->. apply Q. now left.
      + intros m I SM Z. apply Q. eapply below_sub; eauto.
  Qed.
End Round.
