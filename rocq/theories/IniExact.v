(** Which strings the reader of n_ini files finds again behind the line that the writer makes of
    them: one line, or several as in IniBlock, and no others. *)
From Coq Require Import String Ascii ZArith NArith Arith List Bool Lia.
From Verif Require Import Base Map Items Grammar Fmt Decimal Templates Emit Cpp Xml Val Rx CppSem SymLex Ast StoreDefs ResolveProps Prog Header Link EnumSem DecText EnumCall EnumRound XmlSpec XmlRdSimple XmlRead XmlReader XmlCall XmlWriter XmlFile XmlCarry XmlRound XmlProps XmlReadProps XmlThms
  IniSpec IniRead IniReader IniCall IniLines IniFile IniEntry IniWrite IniWriter IniScan IniBlock IniKeep IniRound IniBack IniThms IniText IniMean IniRange.
Import ListNotations.
Local Open Scope string_scope.
Local Open Scope list_scope.

(** *** Pieces of a text *)
Definition total (ls : list string) : nat := fold_right (fun l a => String.length l + a) 0 ls.
Lemma chunks_total s : forall room a, total (chunks room a s) = String.length a + String.length s.
Proof.
  induction s as [|c s IH]; intros room a; cbn [chunks].
  - destruct a; cbn; lia.
  - destruct (_ || _)%bool; cbn [total fold_right]; fold total; rewrite ?IH; unfold snoc; rewrite ?slength_app; cbn [String.length]; fold (total (chunks 79 "" s)); rewrite ?IH; cbn [String.length]; lia.
Qed.
Lemma chunks_some s : forall room a, Forall (fun l => l <> "") (chunks room a s).
Proof.
  induction s as [|c s IH]; intros room a; cbn [chunks].
  - destruct a; constructor; [discriminate|constructor].
  - destruct (_ || _)%bool; [constructor; [unfold snoc; destruct a; discriminate|]|]; apply IH.
Qed.
Lemma chunks_split x r : forall room a, chunks room a (x ++ NL ++ r) = chunks room a (x ++ NL) ++ chunks 79 "" r.
Proof.
  assert (NLR : NL = String nl "") by reflexivity. induction x as [|c x IH]; intros room a.
  - rewrite NLR. cbn [String.append chunks]. rewrite Ascii.eqb_refl. reflexivity.
  - cbn [String.append chunks]. destruct (_ || _)%bool; [cbn [app]; f_equal|]; apply IH.
Qed.
Lemma scan_split x r s : scan_text (x ++ NL ++ r) s = scan_text r (scan_text (x ++ NL) s).
Proof. unfold scan_text. now rewrite chunks_split, fold_left_app. Qed.

(** *** How long the texts found are *)
Section Bound.
  Variables (p n : string) (B : nat).
  Definition below_bound (k : lookups) : Prop := forall w, look k p n = Some w -> String.length w <= B.
  Definition bounded (s : scan) (rest : nat) : Prop := below_bound (x_look s) /\ (x_key s = "" \/ String.length (x_val s) + rest <= B).
  Lemma put_bound c m v k : String.length v <= B -> below_bound k -> below_bound (put_item c m v k).
  Proof.
    intros V A. unfold put_item. destruct c as [q|]; [|exact A]. destruct (assoc q (k_under k)) as [its|] eqn:E; [|exact A].
    intros w LK. unfold look in LK. cbn [k_under] in LK. destruct (String.eqb p q) eqn:PS.
    - apply String.eqb_eq in PS. subst q. rewrite assoc_set_same in LK. cbn in LK. destruct (String.eqb n m) eqn:MN.
      + apply String.eqb_eq in MN. subst m. rewrite assoc_set_same in LK. now injection LK as <-.
      + rewrite assoc_set_other in LK by exact MN. apply (A w). unfold look. now rewrite E.
    - rewrite assoc_set_other in LK by exact PS. exact (A w LK).
  Qed.
  Lemma line_bound l s rest : l <> "" -> String.length l + rest <= B -> bounded s (String.length l + rest) -> bounded (scan_line (CppSem.cut l) s) rest.
  Proof.
    intros NE LE [A P]. assert (LL : String.length (no_comment (CppSem.cut l)) <= String.length l).
    { destruct (cut_prefix l) as (r & E). destruct (no_comment_prefix (CppSem.cut l)) as (q & F). rewrite E at 2. rewrite F at 2. rewrite !slength_app. lia. }
    assert (L1 : 1 <= String.length l) by (destruct l; [congruence|cbn; lia]).
    unfold scan_line. destruct (no_comment (CppSem.cut l)) as [|c r]; [split; [exact A|]; destruct P; [now left|right; lia]|].
    assert (F : below_bound (x_look (flush c s)) /\ (x_key (flush c s) = "" \/ (c =? " ")%char = true /\ String.length (x_val (flush c s)) + (String.length l + rest) <= B)).
    { unfold flush. destruct (String.eqb (x_key s) "") eqn:K; cbn [negb andb]; [apply String.eqb_eq in K; auto|]. destruct P as [P|P]; [rewrite P in K; discriminate|].
      destruct (c =? " ")%char; cbn [negb]; [auto|]. cbn [x_look x_key x_val]. split; [|now left]. apply put_bound; [lia|exact A]. }
    destruct F as [FA FP]. set (s' := flush c s) in *.
    assert (FP' : x_key s' = "" \/ String.length (x_val s') + rest <= B) by (destruct FP as [?|[_ ?]]; [now left|right; lia]).
    destruct (c =? "[")%char.
    - destruct (search "\[(.+)\]" (String c r)) as [[|k q]|]; [split; auto| |split; auto]. split; cbn [x_look x_key x_val]; [|exact FP'].
      intros w LK. unfold look in LK. cbn [k_under] in LK. destruct (String.eqb p k) eqn:PK.
      + apply String.eqb_eq in PK. subst k. rewrite assoc_set_same in LK. discriminate.
      + rewrite assoc_set_other in LK by exact PK. exact (FA w LK).
    - destruct (c =? " ")%char eqn:SP.
      + split; cbn [x_look x_key x_val]; [exact FA|]. destruct FP as [?|[_ FP]]; [now left|right]. rewrite slength_app. lia.
      + assert (KS : x_key s' = "") by (destruct FP as [?|[? _]]; [assumption|discriminate]).
        assert (REST : bounded match search "(\w+)" (String c r) with Some (k :: _) => Scan (x_look s') (x_cur s') k NL | _ => s' end rest).
        { destruct (search "(\w+)" (String c r)) as [[|k q]|]; [split; auto| |split; auto]. split; cbn [x_look x_key x_val]; [exact FA|right; cbn; lia]. }
        destruct (search "(\w+) (.+)" (String c r)) as [[|k [|v q]]|] eqn:SE; try exact REST.
        split; cbn [x_look x_key x_val]; [|now left]. apply put_bound; [|exact FA]. apply value_found in SE as (_ & _ & x & y & E). rewrite E in LL. rewrite !slength_app in LL. lia.
  Qed.
  Lemma text_bound t s : String.length t <= B -> bounded s (String.length t) -> bounded (scan_text t s) 0.
  Proof.
    unfold scan_text. rewrite <- (chunks_total t 79 "" : _ = String.length t). pose proof (chunks_some t 79 "") as NE. revert NE s. generalize (chunks 79 "" t) as ls.
    induction ls as [|l ls IH]; intros NE s LE BD; [exact BD|]. cbn [fold_left total fold_right] in *. fold (total ls) in *. inversion NE; subst. apply IH; [assumption|lia|]. now apply line_bound.
  Qed.
End Bound.

(** *** Texts of lines *)
Lemma line_part k : forall r, chars plain_char r -> exists b, within b = true /\
  (String.length b <= k /\ (r = b \/ exists q, r = (b ++ NL ++ q)%string /\ chars plain_char q) \/ String.length b = S k /\ exists q, r = (b ++ q)%string /\ chars plain_char q).
Proof.
  induction k as [|k IH]; intros r P.
  - destruct r as [|c r]; [exists ""; split; [reflexivity|]; left; auto|]. apply chars_cons in P as [C P]. destruct (c =? nl)%char eqn:N.
    + apply Ascii.eqb_eq in N. subst c. exists "". split; [reflexivity|]. left. split; [cbn; lia|]. right. exists r. auto.
    + exists (String c ""). split; [|right; split; [reflexivity|]; exists r; auto]. unfold within. cbn [all_chars]. unfold in_line_chr, plain_char in *. change (ascii_of_nat 0) with zero.
      apply negb_true_iff, orb_false_iff in C as [C1 C2]. now rewrite C1, C2, N.
  - destruct r as [|c r]; [exists ""; split; [reflexivity|]; left; split; [cbn; lia|auto]|]. apply chars_cons in P as [C P]. destruct (c =? nl)%char eqn:N.
    + apply Ascii.eqb_eq in N. subst c. exists "". split; [reflexivity|]. left. split; [cbn; lia|]. right. exists r. auto.
    + destruct (IH r P) as (b & W & H). exists (String c b). split.
      { unfold within in *. cbn [all_chars]. rewrite W, andb_true_r. unfold in_line_chr, plain_char in *. change (ascii_of_nat 0) with zero. apply negb_true_iff, orb_false_iff in C as [C1 C2]. now rewrite C1, C2, N. }
      destruct H as [[LE H]|[LE (q & -> & Q)]]; [left|right]; (split; [cbn; lia|]); [|exists q; auto]. destruct H as [->|(q & -> & Q)]; [now left|right; exists q; auto].
Qed.
(** A text is such a block, or one with something else behind it. *)
Lemma block_part : forall m r, String.length r <= m -> chars plain_char r -> block r \/ exists r1 r2, r = (r1 ++ r2)%string /\ block r1 /\
  ((exists b, r2 = (" " ++ b)%string /\ within b = true /\ String.length b <= 77) \/ exists c x, r2 = String c x /\ (c =? " ")%char = false).
Proof.
  induction m as [|m IH]; intros r LE P; [destruct r; [left; constructor|cbn in LE; lia]|]. destruct r as [|c r]; [left; constructor|].
  destruct (c =? " ")%char eqn:C; [|right; exists "", (String c r); split; [reflexivity|]; split; [constructor|]; right; eauto]. apply Ascii.eqb_eq in C. subst c.
  apply chars_cons in P as [_ P]. cbn [String.length] in LE. destruct (line_part 77 r P) as (b & W & [[LB [->|(q & -> & Q)]]|[LB (q & -> & Q)]]).
  - right. exists "", (String " " b). split; [reflexivity|]. split; [constructor|]. left. exists b. auto.
  - rewrite !slength_app in LE. destruct (IH q ltac:(lia) Q) as [BQ|(r1 & r2 & -> & B1 & H)].
    + left. exact (bl_line b q W LB BQ).
    + right. exists (" " ++ b ++ NL ++ r1)%string, r2. split; [cbn [String.append]; now rewrite !sapp_assoc|]. split; [exact (bl_line b r1 W LB B1)|exact H].
  - rewrite !slength_app in LE. destruct (IH q ltac:(lia) Q) as [BQ|(r1 & r2 & -> & B1 & H)].
    + left. exact (bl_full b q W LB BQ).
    + right. exists (" " ++ b ++ r1)%string, r2. split; [cbn [String.append]; now rewrite !sapp_assoc|]. split; [exact (bl_full b r1 W LB B1)|exact H].
Qed.
Lemma indented_space r : indented r -> r = "" \/ exists q, r = String " " q.
Proof. induction 1 as [|a b H IH _ _|a b H IH _ _]; [now left| |]; (destruct IH as [->|(q & ->)]; right; cbn [String.append]; eauto). Qed.

(** *** What is found behind a written line *)
(** The section that items go to exists. *)
Lemma place_put c n v k : forall q, assoc q (k_under k) <> None -> assoc q (k_under (put_item c n v k)) <> None.
Proof.
  intros q H. unfold put_item. destruct c as [x|]; [|exact H]. destruct (assoc x (k_under k)) as [its|] eqn:E; [|exact H]. cbn [k_under]. destruct (String.eqb q x) eqn:Q.
  - apply String.eqb_eq in Q. subst. rewrite assoc_set_same. discriminate.
  - now rewrite assoc_set_other by exact Q.
Qed.
Lemma place_flush c s : in_place s -> in_place (flush c s).
Proof. unfold flush, in_place. destruct (_ && _)%bool; [|auto]. cbn [x_cur x_look]. destruct (x_cur s) as [q|]; [|auto]. now apply place_put. Qed.
Lemma place_line l s : in_place s -> in_place (scan_line l s).
Proof.
  intros H. unfold scan_line. destruct (no_comment l) as [|c r]; [exact H|]. pose proof (place_flush c s H) as P. set (s' := flush c s) in *. destruct (c =? "[")%char.
  - destruct (search "\[(.+)\]" (String c r)) as [[|k q]|]; try exact P. unfold in_place. cbn [x_cur x_look k_under]. rewrite assoc_set_same. discriminate.
  - destruct (c =? " ")%char; [exact P|]. assert (R : in_place match search "(\w+)" (String c r) with Some (k :: _) => Scan (x_look s') (x_cur s') k NL | _ => s' end).
    { destruct (search "(\w+)" (String c r)) as [[|k q]|]; exact P. }
    destruct (search "(\w+) (.+)" (String c r)) as [[|k [|v q]]|]; try exact R. unfold in_place in *. cbn [x_cur x_look]. destruct (x_cur s') as [q'|]; [|exact P]. now apply place_put.
Qed.
Lemma place_text t s : in_place s -> in_place (scan_text t s).
Proof. unfold scan_text. revert s. induction (chunks 79 "" t) as [|l ls IH]; intros s H; [exact H|]. cbn [fold_left]. now apply IH, place_line. Qed.
Lemma place_flushed s : in_place s -> in_place (flushed s).
Proof. unfold flushed, in_place. destruct (String.eqb _ _); [auto|]. cbn [x_cur x_look]. destruct (x_cur s) as [q|]; [|auto]. now apply place_put. Qed.

(** The text [post] begins a line of its own, and does nothing to the item [n] of [p]. *)
Definition leaves (post p n : string) : Prop := opening post /\
  forall r s, x_key s = "" -> in_place s -> exists s', scan_text (post ++ r) s = scan_text r s' /\ x_key s' = "" /\ look (x_look s') p n = look (x_look s) p n.
Lemma after_post post p n s : in_place s -> leaves post p n ->
  look (x_look (scan_text post s)) p n = look (x_look s) p n \/ look (x_look (scan_text post s)) p n = look (x_look (flushed s)) p n.
Proof.
  intros IP [O H]. destruct (string_dec post "") as [->|NE]; [left; reflexivity|]. right. rewrite (scan_flushed post s O NE).
  destruct (H "" (flushed s) (flushed_key s) (place_flushed s IP)) as (s' & E & _ & LK). rewrite sapp_nil_r in E. rewrite E. exact LK.
Qed.

(** [k]: what the reader knows in front of the line, [p]: the section that it is in. *)
Theorem found_line p n t post k v its : ident n = true -> String.length n <= 77 -> leaves post p n -> assoc p (k_under k) = Some its -> assoc n its = None ->
  let x := x_look (scan_text (item_line n t ++ post) (Scan k (Some p) "" v)) in all_found x ->
  look x p n = Some t <-> one_line n t \/ several_lines n t.
Proof.
  intros ID LN LV EU EN x AF. subst x. set (s1 := Scan k (Some p) "" v) in *.
  assert (LK0 : look k p n = None) by (unfold look; now rewrite EU).
  assert (PUT : forall w, look (put_item (Some p) n w k) p n = Some w).
  { intros w. cbn [put_item]. rewrite EU. unfold look. cbn [k_under]. rewrite assoc_set_same. cbn. apply assoc_set_same. }
  split.
  - intros F. destruct (AF p n t F) as (PL & [(TN & TL & TS)|(r & -> & IN)]).
    { left. split; [now apply plain_line|]. split; [exact TN|exact TS]. }
    right. split; [exact LN|]. exists r. split; [reflexivity|]. apply chars_app in PL as [_ PL]. destruct (block_part (String.length r) r (le_n _) PL) as [BR|(r1 & r2 & ER & B1 & H)]; [exact BR|exfalso].
    (* the line of the name, and the block *)
    assert (HD : forall q, scan_text (item_line n (NL ++ r) ++ q) s1 = scan_text (r2 ++ NL ++ q) (Scan k (Some p) n (NL ++ r1))).
    { intros q. unfold item_line. replace ((n ++ " " ++ (NL ++ r) ++ NL) ++ q)%string with ((n ++ " ") ++ NL ++ (r ++ NL ++ q))%string by (now rewrite !sapp_assoc).
      assert (W : within (n ++ " ") = true).
      { unfold within. rewrite all_chars_app. apply andb_true_iff. split; [|reflexivity]. eapply all_chars_imp; [|exact (ident_line n ID)]. intros c C. apply line_chr_facts in C as (A1 & A2 & _ & A4).
        unfold in_line_chr. now rewrite A1, A2, A4. }
      unfold scan_text at 1. rewrite (chunks_nl (n ++ " ") 79 "" _ W) by (rewrite slength_app; cbn; lia). cbn [fold_left]. fold (scan_text (r ++ NL ++ q)).
      replace ("" ++ (n ++ " ") ++ NL)%string with (n ++ " " ++ NL)%string by (cbn [String.append]; now rewrite !sapp_assoc).
      replace (CppSem.cut (n ++ " " ++ NL)) with (n ++ " " ++ NL)%string by (symmetry; apply cut_app; [apply on_line_cut, ident_line, ID|reflexivity]).
      rewrite (scan_alone n s1 ID). cbv zeta. rewrite (proj1 (flushed_val s1 k eq_refl)). rewrite ER, sapp_assoc. etransitivity; [apply text_block, B1|]. reflexivity. }
    rewrite HD in F. assert (IP : forall m w, in_place (Scan k (Some p) m w)) by (intros; unfold in_place; cbn [x_cur x_look]; rewrite EU; discriminate). destruct H as [(b & -> & W & LB)|(c & x & -> & NS)].
    + (* the last line gets a newline *)
      assert (E : scan_text ((" " ++ b) ++ NL ++ post) (Scan k (Some p) n (NL ++ r1)) = scan_text post (Scan k (Some p) n (NL ++ r ++ NL))).
      { unfold scan_text at 1. rewrite (chunks_nl (" " ++ b) 79 "" _ (space_within b W)) by (cbn [String.append String.length]; lia). cbn [fold_left]. fold (scan_text post).
        change ("" ++ (" " ++ b) ++ NL)%string with (" " ++ b ++ NL)%string. rewrite (scan_more b NL _ W (or_intror eq_refl)). cbn [x_look x_cur x_key x_val]. rewrite ER. f_equal. f_equal. now rewrite !sapp_assoc. }
      rewrite E in F. destruct (after_post post p n (Scan k (Some p) n (NL ++ r ++ NL)) (IP _ _) LV) as [Q|Q]; rewrite F in Q.
      * cbn [x_look] in Q. congruence.
      * unfold flushed in Q. cbn [x_key x_cur x_val x_look] in Q. destruct (String.eqb n "") eqn:N0; [cbn [x_look] in Q; congruence|]. cbn [x_look] in Q. rewrite PUT in Q. injection Q as Q.
        apply (f_equal String.length) in Q. rewrite slength_app in Q. cbn [NL String.length] in Q. lia.
    + (* the rest is no part of it *)
      assert (R1 : 1 <= String.length r1).
      { destruct (indented_space r IN) as [Z|(q & Z)]; rewrite ER in Z; [destruct r1; discriminate|]. destruct r1; [|cbn; lia]. cbn [String.append] in Z. injection Z as -> _. discriminate. }
      assert (LR : String.length r = String.length r1 + S (String.length x)) by (rewrite ER, slength_app; reflexivity).
      assert (OP : opening (String c x ++ NL)).
      { rewrite ER in PL. apply chars_app in PL as [_ PL]. apply chars_cons in PL as [PC _]. unfold plain_char in PC. apply negb_true_iff, orb_false_iff in PC as [P1 P2]. cbn [String.append opening]. auto. }
      rewrite scan_split in F. rewrite (scan_flushed _ _ OP) in F by discriminate. set (s2 := flushed _) in F.
      assert (BD : bounded p n (String.length r) s2 (String.length (String c x ++ NL))).
      { split; [|left; apply flushed_key]. unfold s2, flushed. cbn [x_key x_cur x_val x_look]. intros w Q. destruct (String.eqb n ""); cbn [x_look] in Q; [congruence|]. rewrite PUT in Q. injection Q as <-. cbn [NL String.append String.length]. lia. }
      assert (IP3 : in_place (scan_text (String c x ++ NL) s2)) by (apply place_text, place_flushed, IP).
      apply text_bound in BD; [|rewrite slength_app; cbn [NL String.length]; lia]. destruct BD as [BL BP]. set (s3 := scan_text (String c x ++ NL) s2) in *.
      assert (TOO : forall w, look (x_look s3) p n = Some w \/ look (x_look (flushed s3)) p n = Some w -> String.length w <= String.length r).
      { intros w [Q|Q]; [exact (BL w Q)|]. revert Q. unfold flushed. destruct (String.eqb (x_key s3) "") eqn:K3; [intros Q; exact (BL w Q)|]. cbn [x_look].
        destruct BP as [BP|BP]; [rewrite BP in K3; discriminate|]. apply put_bound; [lia|exact BL]. }
      destruct (after_post post p n s3 IP3 LV) as [Q|Q]; rewrite F in Q; symmetry in Q; specialize (TOO _ ltac:(eauto)); cbn [NL String.append String.length] in TOO; lia.
  - intros H. destruct (text_kept n t post s1 ID H eq_refl) as (xv & E). rewrite E. cbn [x_cur x_look s1].
    destruct (proj2 LV "" (Scan (put_item (Some p) n t k) (Some p) "" xv) eq_refl) as (s' & E' & _ & LK).
    { unfold in_place. cbn [x_cur x_look]. apply place_put. rewrite EU. discriminate. }
    rewrite sapp_nil_r in E'. rewrite E'. etransitivity; [exact LK|]. cbn [x_look]. apply PUT.
Qed.

(** *** In the text of an object *)
Section Spot.
  Variables (enums : list enum_S) (ss : list struct_S) (o : output_spec) (ds : list def) (L : lang).
  Hypothesis X : ini_setting enums ss o ds L.
  Variable delta : bool.
  (** As [carries], with nothing known of the member [n0] of the struct at [ns0]. *)
  Definition carries_but (ns0 : list string) (n0 : string) (v : val) (p : string) : Prop := forall ns u fs ms d, member_at ns v = Some (VStruct u fs) -> find_struct (l_defs L) u = Some ms -> default_fields L u = Some d ->
    String.length (fold_left sub_path ns p) + 2 <= 79 /\ enums_first L (in_order ms) = true /\
    forall m x dv, In m ms -> is_scalar L m = true -> assoc (member_name m) fs = Some x -> assoc (member_name m) d = Some dv -> ~ (ns = ns0 /\ member_name m = n0) -> carried L delta (text_keeps L) (member_name m) dv x.

  Lemma but_in ns0 n0 v p n w u fs : v = VStruct u fs -> assoc n fs = Some w -> carries_but (n :: ns0) n0 v p -> carries_but ns0 n0 w (sub_path p n).
  Proof.
    intros -> A C ns u' fs' ms d AT FS D. destruct (C (n :: ns) u' fs' ms d) as (C1 & C2 & C3); auto; [cbn [member_at]; now rewrite A|]. split; [exact C1|]. split; [exact C2|].
    intros m x dv I S AX AD NE. apply C3; auto. intros [E1 E2]. apply NE. split; [congruence|exact E2].
  Qed.
  Lemma but_other ns0 n0 v p n w u fs : v = VStruct u fs -> assoc n fs = Some w -> (forall r, ns0 <> n :: r) -> carries_but ns0 n0 v p -> carries L delta w (sub_path p n).
  Proof.
    intros -> A NN C ns u' fs' ms d AT FS D. destruct (C (n :: ns) u' fs' ms d) as (C1 & C2 & C3); auto; [cbn [member_at]; now rewrite A|]. split; [exact C1|]. split; [exact C2|].
    intros m x dv I S AX AD. apply C3; auto. intros [E1 _]. exact (NN ns (eq_sym E1)).
  Qed.
  Lemma look_under k k' p n : assoc p (k_under k') = assoc p (k_under k) -> look k' p n = look k p n.
  Proof. unfold look. now intros ->. Qed.

  (** The line of one string, what is in front of it and what is behind it. *)
  Definition spot (T q n t : string) : Prop := exists pre post, T = (pre ++ item_line n t ++ post)%string /\ leaves post q n /\
    forall r s, x_key s = "" -> exists s1 its, scan_text (pre ++ r) s = scan_text r s1 /\ x_key s1 = "" /\ x_cur s1 = Some q /\ assoc q (k_under (x_look s1)) = Some its /\ assoc n its = None.

  Theorem spot_in : forall ns v p u0 T n t u fs ms d dv m, fits L v (TStruct u0) = true -> on_line p = true -> carries_but ns n v p -> obj_text L delta v p = Some T ->
    member_at ns v = Some (VStruct u fs) -> find_struct (l_defs L) u = Some ms -> In m ms -> member_name m = n -> is_scalar L m = true -> assoc n fs = Some (VStr t) ->
    default_fields L u = Some d -> assoc n d = Some dv -> left_out L delta dv (VStr t) = Some false -> fold_left sub_path ns p <> "" ->
    spot T (fold_left sub_path ns p) n t.
  Proof.
    induction ns as [|k ns IH]; intros v p u0 T n t u fs ms d dv m F PL CA OT AT FS IM MN SC AT' D AD LO NE.
    - (* the struct itself *)
      cbn [member_at fold_left] in *. injection AT as ->. pose proof (fits_ty L _ _ F) as TY. cbn in TY. injection TY as ->.
      cbn [obj_text] in OT. destruct (j_parts enums ss o ds L X u0 fs F) as (ms' & d' & FS' & D' & ND & K & PM). assert (ms' = ms) by congruence. assert (d' = d) by congruence. subst ms' d'. rewrite FS, D in OT.
      set (sub := map (fun q => (fst q, (snd q, obj_text L delta (snd q)))) fs) in *.
      destruct (members_text L delta p d sub (in_order ms)) as [tm|] eqn:TM; [|discriminate]. injection OT as <-.
      assert (SUB : forall n, assoc n sub = match assoc n fs with Some v => Some (v, obj_text L delta v) | None => None end).
      { intros n'. unfold sub. now rewrite (sub_assoc (fun v => (v, obj_text L delta v))). }
      destruct (CA [] u0 fs ms d eq_refl FS D) as (LEN & EF & CS). cbn [fold_left] in LEN. destruct (enums_first_split L (in_order ms) EF) as (A & B & SP & HA & HB).
      pose proof (in_order_names ms ND) as NDO.
      assert (ID : forall m, In m ms -> ident (member_name m) = true) by (intros m' I; eapply j_ident; eauto).
      assert (IA : In m A).
      { apply (proj2 (in_order_in m ms)) in IM. rewrite SP in IM. apply in_app_or in IM as [I|I]; [exact I|]. rewrite (HB m I) in SC. discriminate. }
      apply in_split in IA as (A1 & A2 & EA). rewrite EA in SP. replace ((A1 ++ m :: A2) ++ B) with (A1 ++ [m] ++ (A2 ++ B)) in SP by (now rewrite <- !app_assoc).
      assert (INO : forall m', In m' A1 \/ In m' A2 \/ In m' B -> In m' ms).
      { intros m' H. apply (proj1 (in_order_in m' ms)). rewrite SP. rewrite !in_app_iff. tauto. }
      rewrite SP in TM, NDO. rewrite !map_app in NDO. cbn [map app] in NDO.
      pose proof (NoDup_remove_2 _ _ _ NDO) as NI. apply NoDup_remove_1 in NDO. rewrite in_app_iff, in_app_iff in NI.
      destruct (nodup_app_l _ _ NDO) as [ND1 NDr]. destruct (nodup_app_l _ _ NDr) as [ND2 NDB].
      destruct (members_text_split L delta p d sub A1 _ tm TM) as (a1 & y & TA1 & TY & ->).
      destruct (members_text_split L delta p d sub [m] _ y TY) as (am & z & TAm & TZ & ->).
      destruct (members_text_split L delta p d sub A2 B z TZ) as (a2 & b & TA2 & TB & ->).
      assert (am = item_line n t) as ->.
      { cbn [members_text] in TAm. unfold member_text in TAm. rewrite SUB, MN, AT', SC, AD in TAm. unfold scalar_line in TAm. rewrite LO in TAm. cbn [shown_text] in TAm. rewrite sapp_nil_r in TAm. congruence. }
      assert (CSA : forall m' x dv, In m' A1 \/ In m' A2 -> is_scalar L m' = true -> assoc (member_name m') fs = Some x -> assoc (member_name m') d = Some dv -> carried L delta (text_keeps L) (member_name m') dv x).
      { intros m' x dv' I S' AX' AD'. apply CS; auto; [apply INO; tauto|]. intros [_ E]. apply NI. rewrite <- E in MN. rewrite MN. destruct I; [left|right; left]; now apply in_map. }
      assert (SW : forall m', In m' B -> is_struct_member L m' = true -> exists u w, assoc (member_name m') fs = Some w /\ fits L w (TStruct u) = true /\ scans L delta w /\ carries L delta w (sub_path p (member_name m'))).
      { intros m' I SM. destruct (PM m' (INO m' ltac:(tauto))) as (ty & w & dv' & MT & AW & _ & FW & _). destruct (struct_value L m' w ty SM MT FW) as (u1 & f1 & -> & ->).
        exists u1, (VStruct u1 f1). split; [exact AW|]. split; [exact FW|]. split; [exact (scan_object enums ss o ds L X delta _ _ (le_n _))|]. eapply but_other; eauto. discriminate. }
      exists (section_line p ++ a1)%string, (a2 ++ b)%string. split; [now rewrite !sapp_assoc|]. split; [split|].
      + assert (OPN : forall l x, (forall m', In m' l -> In m' ms) -> members_text L delta p d sub l = Some x -> opening x).
        { intros l x INC E. eapply (text_opening L delta p d fs l x); [intros m' I; auto| |exact E]. intros m' w q s I AW OT.
          destruct (PM m' (INC m' I)) as (ty & w' & dv' & MT & AW' & _ & FW & _). assert (w' = w) by congruence. subst w'.
          assert (exists u1 f1, w = VStruct u1 f1) as (u1 & f1 & ->) by (destruct w; try discriminate; eauto). pose proof (fits_ty L _ _ FW) as TY'. cbn in TY'. subst ty.
          eapply (obj_opening enums ss o ds L X delta _ _ u1 q s (le_n _)); eauto. }
        apply opening_app; [apply (OPN A2)|apply (OPN B)]; auto.
      + intros r s KS IP. rewrite sapp_assoc.
        destruct (scan_scalars enums ss o ds L X delta p fs d A2 sub SUB ND2 (fun m I => ID m (INO m ltac:(tauto)))) with (t := a2) (r := (b ++ r)%string) (s := s) as (s1 & S1 & S2 & S3 & S4); auto.
        { intros m' I. apply HA. rewrite EA. apply in_or_app. right. now right. }
        destruct (scan_structs enums ss o ds L X delta p fs d PL B sub SUB NDB (fun m I => ID m (INO m ltac:(tauto))) HB SW b TB r s1 S2) as (s' & R1 & R2 & _ & R4).
        exists s'. split; [congruence|]. split; [exact R2|]. transitivity (look (x_look s1) p n).
        { apply look_under, R4. intros m' I SM. apply below_self. apply ID, INO. tauto. }
        unfold put_all, in_place in *. destruct (x_cur s) as [c|]; [|now apply look_under; rewrite S4]. destruct S4 as [S4 S5]. destruct (assoc c (k_under (x_look s))) as [its|] eqn:EI; [|congruence].
        destruct (String.eqb p c) eqn:PC; [|now apply look_under, S4]. apply String.eqb_eq in PC. subst c. destruct (S5 its eq_refl) as (its' & E' & P1 & _). unfold look. rewrite E', EI. apply P1. rewrite <- MN. tauto.
      + intros r s KS. rewrite sapp_assoc, (text_section p (a1 ++ r) s PL NE LEN). cbv zeta. rewrite (proj1 (flushed_val s (x_look s) KS)).
        destruct (scan_scalars enums ss o ds L X delta p fs d A1 sub SUB ND1 (fun m I => ID m (INO m ltac:(tauto)))) with (t := a1) (r := r) (s := Scan (Look (k_top (x_look s)) (set_assoc p [] (k_under (x_look s)))) (Some p) "" (x_val s)) as (s1 & S1 & S2 & S3 & S4); auto.
        { intros m' I. apply HA. rewrite EA. apply in_or_app. now left. }
        cbn [x_cur x_look k_under put_all] in S3, S4. destruct S4 as [_ S5]. destruct (S5 [] (assoc_set_same _ _ _)) as (its' & E' & P1 & _).
        exists s1, its'. repeat split; auto. rewrite P1; [reflexivity|]. rewrite <- MN. tauto.
    - (* a member of it *)
      destruct v as [| | | | | | |u1 f1| | | | | | | | | | | | | |]; try discriminate. pose proof (fits_ty L _ _ F) as TY. cbn in TY. injection TY as ->.
      cbn [obj_text] in OT. destruct (j_parts enums ss o ds L X u0 f1 F) as (ms1 & d1 & FS1 & D1 & ND & K & PM). rewrite FS1, D1 in OT.
      set (sub := map (fun q => (fst q, (snd q, obj_text L delta (snd q)))) f1) in *.
      destruct (members_text L delta p d1 sub (in_order ms1)) as [tm|] eqn:TM; [|discriminate]. injection OT as <-.
      assert (SUB : forall n, assoc n sub = match assoc n f1 with Some v => Some (v, obj_text L delta v) | None => None end).
      { intros n'. unfold sub. now rewrite (sub_assoc (fun v => (v, obj_text L delta v))). }
      destruct (CA [] u0 f1 ms1 d1 eq_refl FS1 D1) as (LEN & EF & CS). cbn [fold_left] in LEN. destruct (enums_first_split L (in_order ms1) EF) as (A & B & SP & HA & HB).
      pose proof (in_order_names ms1 ND) as NDO.
      assert (ID : forall m, In m ms1 -> ident (member_name m) = true) by (intros m' I; eapply j_ident; eauto).
      cbn [member_at fold_left] in *. destruct (assoc k f1) as [w|] eqn:AW; [|discriminate].
      assert (exists m0, In m0 ms1 /\ member_name m0 = k) as (m0 & I0 & N0).
      { apply assoc_some in AW. apply (in_map fst) in AW. rewrite K in AW. apply in_map_iff in AW as (m0 & Y1 & Y2). eauto. }
      destruct (PM m0 I0) as (ty & w' & dv' & MT & AW' & _ & FW & _). rewrite N0 in AW'. assert (w' = w) by congruence. subst w'.
      assert (is_struct_member L m0 = true /\ exists u2, ty = TStruct u2) as [SM (u2 & ->)].
      { destruct w as [| | | | | | |u3 f3| | | | | | | | | | | | | |]; try (destruct ns; discriminate). pose proof (fits_ty L _ _ FW) as TY. cbn in TY. subst ty. split; [exact (type_struct_member L m0 u3 MT)|eauto]. }
      assert (IB : In m0 B).
      { apply (proj2 (in_order_in m0 ms1)) in I0. rewrite SP in I0. apply in_app_or in I0 as [I|I]; [|exact I]. rewrite (HA m0 I) in SM. discriminate. }
      assert (IDk : ident k = true) by (rewrite <- N0; auto).
      apply in_split in IB as (B1 & B2 & EB). rewrite EB in SP. change (A ++ B1 ++ m0 :: B2) with (A ++ B1 ++ [m0] ++ B2) in SP.
      assert (INO : forall m', In m' A \/ In m' B1 \/ In m' B2 -> In m' ms1).
      { intros m' H. apply (proj1 (in_order_in m' ms1)). rewrite SP. rewrite !in_app_iff. tauto. }
      rewrite SP in TM, NDO. rewrite !map_app in NDO. cbn [map app] in NDO. destruct (nodup_app_l _ _ NDO) as [NDA NDr].
      pose proof (NoDup_remove_2 _ _ _ NDr) as NI. apply NoDup_remove_1 in NDr. rewrite in_app_iff in NI. destruct (nodup_app_l _ _ NDr) as [ND1 ND2].
      destruct (members_text_split L delta p d1 sub A _ tm TM) as (a & y & TA & TY & ->).
      destruct (members_text_split L delta p d1 sub B1 _ y TY) as (b1 & z & TB1 & TZ & ->).
      destruct (members_text_split L delta p d1 sub [m0] B2 z TZ) as (wt & b2 & TW & TB2 & ->).
      assert (TWT : obj_text L delta w (sub_path p k) = Some wt).
      { cbn [members_text] in TW. unfold member_text in TW. rewrite SUB, N0, AW, SM in TW. replace (is_scalar L m0) with false in TW by (symmetry; apply HB; rewrite EB; apply in_or_app; right; now left).
        destruct (obj_text L delta w (sub_path p k)) as [x|]; [|discriminate]. rewrite sapp_nil_r in TW. congruence. }
      assert (SW : forall m', In m' B1 \/ In m' B2 -> is_struct_member L m' = true -> exists u w, assoc (member_name m') f1 = Some w /\ fits L w (TStruct u) = true /\ scans L delta w /\ carries L delta w (sub_path p (member_name m'))).
      { intros m' I SM'. destruct (PM m' (INO m' ltac:(tauto))) as (ty & w1 & dv1 & MT1 & AW1 & _ & FW1 & _). destruct (struct_value L m' w1 ty SM' MT1 FW1) as (u3 & f3 & -> & ->).
        exists u3, (VStruct u3 f3). split; [exact AW1|]. split; [exact FW1|]. split; [exact (scan_object enums ss o ds L X delta _ _ (le_n _))|]. eapply but_other; eauto.
        intros r [= E _]. apply NI. rewrite <- N0 in E. rewrite E. destruct I; [left|right]; now apply in_map. }
      destruct (IH w (sub_path p k) u2 wt n t u fs ms d dv m FW (sub_path_line p k PL IDk) (but_in ns n (VStruct u0 f1) p k w u0 f1 eq_refl AW CA) TWT AT FS IM MN SC AT' D AD LO NE) as (pre & post & -> & [LV1 LV2] & PRE).
      set (q := fold_left sub_path ns (sub_path p k)) in *.
      assert (QB : below q (sub_path p k)).
      { apply fold_below; [now apply sub_path_cons|]. eapply (way_idents enums ss o ds L X); eauto. }
      exists (section_line p ++ a ++ b1 ++ pre)%string, (post ++ b2)%string. split; [now rewrite !sapp_assoc|]. split; [split|].
      + apply opening_app; [exact LV1|]. eapply (text_opening L delta p d1 f1 B2 b2); [intros m' I; apply ID, INO; tauto| |exact TB2]. intros m' w1 q1 s I AW1 OT.
        destruct (PM m' (INO m' ltac:(tauto))) as (ty & w' & dv1 & MT1 & AW1' & _ & FW1 & _). assert (w' = w1) by congruence. subst w'.
        assert (exists u3 f3, w1 = VStruct u3 f3) as (u3 & f3 & ->) by (destruct w1; try discriminate; eauto). pose proof (fits_ty L _ _ FW1) as TY'. cbn in TY'. subst ty.
        eapply (obj_opening enums ss o ds L X delta _ _ u3 q1 s (le_n _)); eauto.
      + intros r s KS IP. rewrite sapp_assoc. destruct (LV2 (b2 ++ r)%string s KS IP) as (s1 & S1 & S2 & S3).
        destruct (scan_structs enums ss o ds L X delta p f1 d1 PL B2 sub SUB ND2 (fun m I => ID m (INO m ltac:(tauto)))) with (t := b2) (r := r) (s := s1) as (s' & R1 & R2 & _ & R4); auto.
        { intros m' I. apply HB. rewrite EB. apply in_or_app. right. now right. }
        exists s'. split; [congruence|]. split; [exact R2|]. rewrite <- S3. apply look_under, R4. intros m' I SM' BL. apply NI. right. rewrite N0.
        rewrite (below_sibling q p k (member_name m') IDk (ID m' (INO m' ltac:(tauto))) QB BL). now apply in_map.
      + intros r s KS.
        assert (SL : exists s0, scan_text ((section_line p ++ a ++ b1 ++ pre) ++ r) s = scan_text (a ++ b1 ++ pre ++ r) s0 /\ x_key s0 = "").
        { rewrite !sapp_assoc. destruct (string_dec p "") as [->|NP]; [exists s; auto|]. rewrite (text_section p _ s PL NP LEN). eexists. split; [reflexivity|]. reflexivity. }
        destruct SL as (s0 & E0 & K0). rewrite E0.
        destruct (scan_scalars enums ss o ds L X delta p f1 d1 A sub SUB NDA (fun m I => ID m (INO m ltac:(tauto))) HA) with (t := a) (r := (b1 ++ pre ++ r)%string) (s := s0) as (s1 & S1 & S2 & _); auto.
        { intros m' x dv1 I S' AX1 AD1. apply CS; auto. intros [E _]. discriminate. }
        destruct (scan_structs enums ss o ds L X delta p f1 d1 PL B1 sub SUB ND1 (fun m I => ID m (INO m ltac:(tauto)))) with (t := b1) (r := (pre ++ r)%string) (s := s1) as (s2 & R1 & R2 & _); auto.
        { intros m' I. apply HB. rewrite EB. apply in_or_app. now left. }
        destruct (PRE r s2 R2) as (s3 & its & P1 & P2). exists s3, its. split; [congruence|exact P2].
  Qed.

  (** A reader that may have read other files reads that text. *)
  Theorem spot_read T q n t rd : used rd -> ident n = true -> String.length n <= 77 -> opening T -> T <> "" -> spot T q n t ->
    look (r_look (has_read T rd)) q n = Some t <-> one_line n t \/ several_lines n t.
  Proof.
    intros U ID LN O NE (pre & post & -> & LV & PRE). pose proof (used_found _ (used_again (pre ++ item_line n t ++ post) rd U)) as AF. unfold has_read in *. cbn [r_look] in *.
    rewrite (scan_flushed _ _ O NE) in *. set (s := flushed _) in *. destruct (PRE (item_line n t ++ post)%string s (flushed_key _)) as (s1 & its & E & K1 & C1 & EU & EN). rewrite E in *.
    destruct s1 as [k c key v]. cbn [x_key x_cur x_look] in *. subst c key. exact (found_line q n t post k v its ID LN LV EU EN AF).
  Qed.
End Spot.
