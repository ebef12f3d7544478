(** The documents that generated functions write have a text that is read back as the
    document; so files may move between programs as bytes. *)
From Coq Require Import String Ascii ZArith NArith Arith List Bool Lia.
From Verif Require Import Base Map Items Grammar Fmt Decimal Templates Emit Cpp Xml Val CppSem SymLex Ast StoreDefs ResolveProps Prog Header Link EnumSem DecText EnumCall EnumRound XmlSpec XmlRdSimple XmlRead XmlReader XmlCall XmlWrite XmlWriter XmlFile XmlCarry XmlRound XmlProps XmlReadProps XmlThms
  MainProps XmlText XmlTextSpec XmlTextRead XmlPrint.
Import ListNotations.
Local Open Scope string_scope.
Local Open Scope list_scope.

(** The library reads texts like [parse_text] says, with at most [limit] elements inside each
    other (TINYXML2_MAX_ELEMENT_DEPTH). *)
Definition parses (limit : nat) (L : lang) : Prop :=
  forall s, match parse_text limit s with Got ks => l_parse L s = Some ks | Err => l_parse L s = None | Other => True end.
(** Numbers are printed without NUL characters. *)
Definition prints_text (L : lang) : Prop := forall k c, no_nul (l_xprint L k c) = true.

Lemma ident_xml_name n : ident n = true -> xml_name n.
Proof.
  destruct n as [|c r]; [discriminate|]. cbn [ident xml_name]. rewrite andb_true_iff. intros [A B]. split.
  - destruct c as [[] [] [] [] [] [] [] []]; (reflexivity || discriminate).
  - apply (all_chars_impl is_idc); [|exact B]. intros d. destruct d as [[] [] [] [] [] [] [] []]; (reflexivity || discriminate).
Qed.

Lemma apart_elems k : (forall y, In y k -> is_elem y = true) -> apart k = true.
Proof.
  induction k as [|x r IH]; intros H; [reflexivity|]. destruct r as [|y r]; [reflexivity|].
  change (apart (x :: y :: r)) with (negb (is_text x && is_text y) && apart (y :: r))%bool.
  unfold is_text at 1. rewrite (H x (or_introl eq_refl)). cbn [negb andb]. apply IH. intros z I. apply H. now right.
Qed.
Lemma opens_bound n a k d : (forall y, In y k -> opens y <= d) -> opens (Elem n a k) <= S d.
Proof.
  intros H. destruct k as [|x r]; [cbn; lia|]. change (S (fold_right (fun y => Nat.max (opens y)) 0 (x :: r)) <= S d). apply le_n_S.
  induction (x :: r) as [|y l IH]; [cbn; lia|]. cbn [fold_right]. apply Nat.max_lub; [apply H; now left|]. apply IH. intros z I. apply H. now right.
Qed.

Section Bytes.
  Variables (bk : backend) (b : form) (enums : list enum_S) (ss : list struct_S) (o : output_spec) (ds : list def) (L : lang).
  Hypothesis X : xml_setting bk b enums ss o ds L.
  Hypothesis PT : prints_text L.

  Lemma struct_xml_name u ms : find_struct (l_defs L) u = Some ms -> xml_name u.
  Proof.
    intros FS. apply find_struct_in in FS. pose proof (r_ok _ _ _ _ _ _ _ X) as OK. unfold header_ok in OK. rewrite !andb_true_iff in OK. destruct OK as (((((_ & T) & _) & _) & _) & _).
    rewrite forallb_forall in T. specialize (T _ FS). cbn [def_name] in T. exact (ident_xml_name _ (name_ok_ident _ (tf_name _ _ _ (type_ok_fine _ _ _ T)))).
  Qed.
  Lemma member_xml_name u ms m : find_struct (l_defs L) u = Some ms -> In m ms -> xml_name (member_name m).
  Proof.
    intros FS I. apply find_struct_in in FS. destruct (struct_parts _ _ _ (r_ok _ _ _ _ _ _ _ X) u ms FS) as (_ & k & r & E & MO). specialize (MO m I). unfold member_ok in MO.
    apply andb_true_iff in MO as [N _]. now apply ident_xml_name, name_ok_ident.
  Qed.
  Lemma text_no_nul v s : text_of L b v = Some s -> no_nul s = true.
  Proof.
    destruct v; cbn [text_of]; try discriminate.
    - destruct k; intros [= <-]; try apply dec_no_nul. now destruct (z =? 0)%Z.
    - intros [= <-]. apply PT.
    - intros [= <-]. apply cut_no_nul.
    - destruct (find_enum (l_defs L) t) as [[c es]|] eqn:FE; [|discriminate]. intros [= <-]. unfold enum_text.
      destruct (name_of (enum_values L 0 es) z) as [x|] eqn:N; [|apply dec_no_nul].
      apply find_enum_in in FE as (ty & FE). assert (J : In x (map en_name es)).
      { rewrite <- (enum_values_names L 0 es). clear -N. induction (enum_values L 0 es) as [|[y w] l IH]; [discriminate|]. cbn [name_of] in N. cbn [map fst].
        destruct (z =? w)%Z; [injection N as ->; now left|right; auto]. }
      apply in_map_iff in J as (y & <- & J). apply ident_no_nul, name_ok_ident. destruct (enum_parts _ _ _ (r_ok _ _ _ _ _ _ _ X) _ _ _ _ FE) as (_ & NO & _). auto.
  Qed.

  (** What stands in an element for a struct object or vector [v]. *)
  Definition fine_content (v : val) (a : list (string * string)) (k : list node) : Prop :=
    (forall m s, In (m, s) a -> xml_name m /\ no_nul s = true) /\ NoDup (map fst a) /\ (forall y, In y k -> is_elem y = true /\ printable y) /\
    forall y, In y k -> opens y < 2 * vheight v + match v with VStruct _ _ => 0 | _ => 1 end.
  Lemma fine_elem n v a k : xml_name n -> fine_content v a k -> printable (Elem n a k).
  Proof. intros N (A & B & C & _). apply pr_elem; auto; [apply apart_elems; intros y I; apply C; exact I|intros y I; apply C; exact I]. Qed.

  Lemma fine_opens v n a k : fine_content v a k -> match v with VStruct _ _ => opens (Elem n a k) <= 2 * vheight v | _ => True end.
  Proof.
    intros (_ & _ & _ & O). destruct v; auto. assert (0 < vheight (VStruct t fs)) by (cbn [vheight]; lia). destruct (vheight (VStruct t fs)) as [|h] eqn:E; [lia|].
    replace (2 * S h) with (S (2 * h + 1)) by lia. apply opens_bound. intros y J. specialize (O y J). cbn iota in O. lia.
  Qed.

  Variable delta : bool.
  Lemma members_fine h dd (sub : list (string * (val * option content))) ms : (forall m, In m ms -> xml_name (member_name m)) -> NoDup (map member_name ms) ->
    (forall m v a k, In m ms -> is_scalar L m = false -> assoc (member_name m) sub = Some (v, Some (a, k)) -> fine_content v a k /\ vheight v <= h) ->
    forall a k, write_members L b delta dd sub ms = Some (a, k) ->
    (forall m s, In (m, s) a -> In m (map member_name ms) /\ xml_name m /\ no_nul s = true) /\ NoDup (map fst a) /\ (forall y, In y k -> is_elem y = true /\ printable y) /\
    forall y, In y k -> opens y < 2 * S h.
  Proof.
    induction ms as [|m ms IH]; intros NM ND SUB a k; cbn [write_members].
    { intros [= <- <-]. repeat split; try contradiction. constructor. }
    destruct (write_member L b delta dd sub m) as [[a1 k1]|] eqn:W1; [|discriminate]. destruct (write_members L b delta dd sub ms) as [[a2 k2]|] eqn:W2; [|discriminate]. intros [= <- <-].
    cbn [map] in ND. apply NoDup_cons_iff in ND as [NI ND].
    destruct (IH (fun m' I => NM m' (or_intror I)) ND (fun m' v a k I => SUB m' v a k (or_intror I)) a2 k2 eq_refl) as (A2 & B2 & C2 & D2). clear IH W2.
    assert (H : ((a1 = [] /\ forall y, In y k1 -> (is_elem y = true /\ printable y) /\ opens y < 2 * S h) \/ (exists s, a1 = [(member_name m, s)] /\ no_nul s = true /\ k1 = []))).
    { unfold write_member in W1. cbv zeta in W1. destruct (assoc (member_name m) sub) as [[v c]|] eqn:AS; [|discriminate W1]. pose proof (NM m (or_introl eq_refl)) as XN. destruct (is_scalar L m) eqn:SC.
      - destruct (assoc (member_name m) dd) as [d|]; [|discriminate W1]. unfold write_scalar in W1. destruct (left_out L delta d v) as [[]|]; [|destruct (text_of L b v) as [s|] eqn:T; [|discriminate W1]|discriminate W1].
        + injection W1 as <- <-. left. split; [reflexivity|]. intros y [].
        + pose proof (text_no_nul v s T) as NN. destruct b; injection W1 as <- <-; [right; eauto|]. left. split; [reflexivity|]. intros y [<-|[]]. split; [split; [reflexivity|]|cbn; lia].
          apply pr_elem; auto; [intros ? ? []|constructor|]. intros y [<-|[]]. now constructor.
      - destruct c as [[a' k']|]; [|discriminate W1]. injection W1 as <- <-. destruct (SUB m v a' k' (or_introl eq_refl) SC AS) as [FC VH]. left. split; [reflexivity|]. intros y [<-|[]]. split.
        + split; [reflexivity|]. eapply fine_elem; eauto.
        + destruct FC as (_ & _ & _ & O). assert (opens (Elem (member_name m) a' k') <= S (2 * vheight v)); [|lia].
          apply opens_bound. intros y I. specialize (O y I). destruct v; lia. }
    destruct H as [[-> K1]|(s & -> & NN & ->)]; cbn [app map fst].
    - split; [|split; [exact B2|split]].
      + intros m' s I. destruct (A2 m' s I) as (I1 & I2). split; [now right|exact I2].
      + intros y H. apply in_app_or in H as [H|H]; [now apply K1|now apply C2].
      + intros y H. apply in_app_or in H as [H|H]; [now apply K1|now apply D2].
    - split; [|split; [|split; [exact C2|exact D2]]].
      + intros m' s' [[= <- <-]|I]; [split; [now left|split; [apply NM; now left|exact NN]]|]. destruct (A2 m' s' I) as (I1 & I2). split; [now right|exact I2].
      + constructor; [|exact B2]. intros J. apply in_map_iff in J as ([m' s'] & E & J). cbn in E. subst m'. destruct (A2 _ s' J) as (I1 & _). contradiction.
  Qed.

  Theorem written_fine v t : obj_type L v t -> forall a k, write_val L b delta v = Some (a, k) -> fine_content v a k.
  Proof.
    revert v t. apply (obj_ind bk b enums ss o ds L X (fun v => forall a k, write_val L b delta v = Some (a, k) -> fine_content v a k)).
    - intros u fs ms d F FS D IH a k. cbn [write_val]. rewrite FS, D. intros W.
      destruct (parts bk b enums ss o ds L X u fs F) as (ms' & d' & FS' & D' & ND & K & M). assert (ms' = ms) by congruence. assert (d' = d) by congruence. subst ms' d'.
      destruct (members_fine (list_max (map (fun p => vheight (snd p)) fs)) d (map (fun p => (fst p, (snd p, write_val L b delta (snd p)))) fs) (in_order ms)) with (a := a) (k := k) as (A & B & C & O); [| | |exact W|].
      + intros m I. apply (proj1 (in_order_in m ms)) in I. exact (member_xml_name u ms m FS I).
      + exact (in_order_names ms ND).
      + intros m v a' k' I S AS. apply (proj1 (in_order_in m ms)) in I. rewrite (assoc_map (fun v => (v, write_val L b delta v))) in AS.
        destruct (assoc (member_name m) fs) as [v'|] eqn:AV; [|discriminate]. injection AS as -> WV. split; [exact (IH m v I S AV a' k' WV)|].
        pose proof (field_height u fs _ v AV) as H. cbn [vheight] in H. lia.
      + split; [|split; [exact B|split; [exact C|]]]; [intros m s I; now destruct (A m s I)|]. intros y I. specialize (O y I). cbn [vheight]. lia.
    - intros u l IH a k. cbn [write_val]. destruct (write_items u (map (write_val L b delta) l)) as [k0|] eqn:W; [|discriminate]. intros [= <- <-].
      assert (H : forall y, In y k0 -> exists w a' k', In w l /\ y = Elem u a' k' /\ write_val L b delta w = Some (a', k')).
      { clear IH. revert k0 W. induction l as [|x l IL]; intros k0; cbn [map write_items]; [intros [= <-] y []|].
        destruct (write_val L b delta x) as [[a' k']|] eqn:WX; [|discriminate]. destruct (write_items u (map (write_val L b delta) l)) as [k1|]; [|discriminate]. intros [= <-] y [<-|I].
        - exists x, a', k'. split; [now left|auto].
        - destruct (IL k1 eq_refl y I) as (w & a2 & k2 & I1 & I2). exists w, a2, k2. split; [now right|exact I2]. }
      split; [intros m s []|]. split; [constructor|]. split.
      + intros y I. destruct (H y I) as (w & a' & k' & IW & -> & WW). split; [reflexivity|]. destruct (IH w IW) as [F P]. destruct (fits_as_struct L w u F) as (fw & ->).
        destruct (fits_struct L u fw F) as (mw & FS & _). exact (fine_elem u _ a' k' (struct_xml_name u mw FS) (P a' k' WW)).
      + intros y I. destruct (H y I) as (w & a' & k' & IW & -> & WW). destruct (IH w IW) as [F P]. destruct (fits_as_struct L w u F) as (fw & ->). destruct (P a' k' WW) as (_ & _ & _ & O).
        assert (VH : vheight (VStruct u fw) <= vheight (VVec u l)) by (cbn [vheight]; apply list_max_in; exact (in_map vheight _ _ IW)).
        assert (opens (Elem u a' k') <= 2 * vheight (VStruct u fw)); [|lia].
        assert (0 < vheight (VStruct u fw)) by (cbn [vheight]; lia). destruct (vheight (VStruct u fw)) as [|h] eqn:E; [lia|].
        replace (2 * S h) with (S (2 * h + 1)) by lia. apply opens_bound. intros y J. specialize (O y J). cbn iota in O. lia.
  Qed.
  Theorem written_parsed limit t fs a k : object L t fs -> write_val L b delta (VStruct t fs) = Some (a, k) -> S (2 * vheight (VStruct t fs)) < limit ->
    parse_text limit (printed [Elem t a k]) = Got (kids_of (reload (Elem "" [] [Elem t a k]))).
  Proof.
    intros F W LI. destruct (fits_struct L t fs F) as (ms & FS & _). pose proof (written_fine (VStruct t fs) (TStruct t) (conj F I) a k W) as FC.
    apply print_read; [reflexivity|exact (fine_elem t _ a k (struct_xml_name t ms FS) FC)|].
    pose proof (fine_opens (VStruct t fs) t a k FC) as H. cbn iota in H. lia.
  Qed.
End Bytes.

(** *** From one program to another *)
(** write_to_file of functions [P] for an object with members [fs], and then read_from_file,
    anywhere, of a file that holds the bytes of the document, into one with members [os]. *)
Definition moves (P : list fdef) (o : output_spec) (L : lang) (dl : bool) (t : string) (fs os : fields) (r : option fields) : Prop :=
  exists f0, forall f wf wf' a n l s a' n' l' s', f0 <= f ->
    file_arg a n s -> get_lv l s = Some (VStruct t fs) -> s_this s = [("m_delta_only", vbool dl)] -> l_writable L (cut n) = true ->
    exists d, call_fun L P wf f [o_writer o; "write_to_file"] [a; (Some l, VStruct t fs)] s =
      Ok (vbool true) (set_world s (World (set_assoc (cut n) (CDoc d) (w_files (s_world s))) (w_in (s_world s)) (w_out (s_world s)))) /\
    (file_arg a' n' s' -> get_lv l' s' = Some (VStruct t os) -> reader_or_writer (s_this s') -> assoc (cut n') (w_files (s_world s')) = Some (CText (printed d)) ->
     call_fun L P wf' f [o_reader o; "read_from_file"] [a'; (Some l', VStruct t os)] s' = outcome t l' r s').

Lemma put_lv_world l v s w : put_lv l v (set_world s w) = option_map (fun x => set_world x w) (put_lv l v s).
Proof.
  unfold put_lv. change (get_root l (set_world s w)) with (get_root l s). destruct (get_root l s); [|reflexivity]. destruct (put_path (lv_path l) v v0); [|reflexivity].
  destruct (lv_this l); [reflexivity|]. cbn [set_world s_scopes]. now destruct (update (lv_root l) v1 (s_scopes s)).
Qed.
Lemma put_lv_keeps l v s s' : put_lv l v s = Some s' -> s_world s' = s_world s.
Proof.
  unfold put_lv. destruct (get_root l s); [|discriminate]. destruct (put_path (lv_path l) v v0); [|discriminate].
  destruct (lv_this l); [now intros [= <-]|]. destruct (update (lv_root l) v1 (s_scopes s)); [|discriminate]. now intros [= <-].
Qed.
Lemma outcome_world t l r r' s w : outcome t l r (set_world s w) = outcome t l r' (set_world s w) -> outcome t l r s = outcome t l r' s.
Proof.
  unfold outcome. destruct r as [g|], r' as [g'|]; rewrite ?put_lv_world; try reflexivity.
  - destruct (put_lv l (VStruct t g) s) as [s1|] eqn:E1, (put_lv l (VStruct t g') s) as [s2|] eqn:E2; cbn [option_map]; try discriminate; [|reflexivity]. intros E. injection E as A B C.
    apply put_lv_keeps in E1, E2. f_equal. destruct s1, s2. cbn in *. congruence.
  - destruct (put_lv l (VStruct t g) s); discriminate.
  - destruct (put_lv l (VStruct t g') s); discriminate.
Qed.

Section Moves.
  Variables (bk : backend) (b : form) (enums : list enum_S) (ss : list struct_S) (o : output_spec) (ds : list def) (L : lang).
  Hypothesis X : xml_setting bk b enums ss o ds L.
  Hypothesis OR : o_only_read o = false.
  Hypothesis L64 : b = Elements -> l_long L = 64%Z.
  Variable limit : nat.
  Hypothesis PT : prints_text L.
  Hypothesis PL : parses limit L.
  (** Whatever comes back by way of a file that this program wrote itself also comes back by
      way of the bytes of that file. *)
  Theorem bytes_move dl t fs os r : top_of ss t -> object L t fs -> object L t os -> S (2 * vheight (VStruct t fs)) < limit ->
    writes_reads bk enums ss o L dl t fs os r -> moves (prog bk enums ss o) o L dl t fs os r.
  Proof.
    intros TO F FO LI (f1 & WR). destruct (writes_file bk b enums ss o ds L X OR L64 dl t fs TO F) as (f2 & HW).
    destruct (object_struct L t fs F) as (ms & MS).
    destruct (write_val L b (negb (o_no_delta o) && dl) (VStruct t fs)) as [[at_ ks]|] eqn:WV.
    - cbn [option_map fst snd] in HW. pose proof (written_parsed bk b enums ss o ds L X PT _ limit t fs at_ ks F WV LI) as PA.
      destruct (reads_file bk b enums ss o ds L X (kids_of (reload (Elem "" [] [Elem t at_ ks]))) t os ms TO MS FO) as (f3 & HR); [discriminate|].
      exists (f1 + f2 + f3). intros f wf wf' a n l s a' n' l' s' LE FA GL TH WB. exists [Elem t at_ ks]. pose proof (HW f wf a n l s ltac:(lia) FA GL TH WB) as W1. split; [exact W1|].
      intros FA' GL' TH' AS. rewrite (HR f wf' a' n' l' s' ltac:(lia) FA' GL' TH').
      2: { unfold load. rewrite AS. pose proof (PL (printed [Elem t at_ ks])) as Q. rewrite PA in Q. exact Q. }
      pose (w := World (set_assoc (cut n) (CDoc [Elem t at_ ks]) (w_files (s_world s))) (w_in (s_world s)) (w_out (s_world s))).
      apply (outcome_world t l' _ _ s' w). pose (a2 := (None, VStr n) : arg).
      assert (FA2 : file_arg a2 n (set_world s' w)) by (left; split; [reflexivity|now left]).
      destruct (WR f wf wf' a n l s a2 n l' (set_world s' w) ltac:(lia) FA GL TH WB) as (w' & W2 & R2). fold w in W1. rewrite W1 in W2.
      assert (w' = w) as -> by (injection W2 as E; symmetry; exact E).
      rewrite <- (R2 FA2 GL' TH' eq_refl eq_refl). symmetry. apply (HR f wf' a2 n l' (set_world s' w)); [lia|exact FA2|exact GL'|exact TH'|].
      unfold load. cbn [set_world s_world w w_files]. now rewrite assoc_set_same.
    - exists (f1 + f2). intros f wf wf' a n l s a' n' l' s' LE FA GL TH WB. exfalso. cbn [option_map] in HW. pose proof (HW f wf a n l s ltac:(lia) FA GL TH WB) as W1.
      destruct (WR f wf wf' a n l s a n l s ltac:(lia) FA GL TH WB) as (w' & W2 & _). congruence.
  Qed.
End Moves.
