(** What tinyxml2 writes for a document (XmlText.v) is an XML text that stands for the document
    after [reload]; so the tree that LoadFile builds from the file is the one Xml.v assumes. *)
From Coq Require Import String Ascii ZArith NArith Arith List Bool Lia.
From Verif Require Import Base Fmt Decimal Cpp Xml Val CppSem SymLex DecText MainProps XmlText XmlTextSpec XmlTextRead.
Import ListNotations.
Local Open Scope string_scope.
Local Open Scope list_scope.

(** Induction over nodes. *)
Section Ind.
  Variable P : node -> Prop.
  Hypotheses (HT : forall s, P (Text s)) (HE : forall n a k, Forall P k -> P (Elem n a k)).
  Fixpoint node_all (x : node) : P x :=
    match x with
    | Text s => HT s
    | Elem n a k => HE n a k ((fix go l : Forall P l := match l with [] => Forall_nil P | y :: r => Forall_cons y (node_all y) (go r) end) k)
    end.
End Ind.

(** Elements that are not of the form <.../> inside of each other. *)
Fixpoint opens (x : node) : nat :=
  match x with
  | Text _ => 0
  | Elem _ _ [] => 0
  | Elem _ _ k => S (fold_right (fun y => Nat.max (opens y)) 0 k)
  end.
Definition is_text (x : node) : bool := negb (is_elem x).
Fixpoint apart (l : list node) : bool :=
  match l with
  | x :: ((y :: _) as r) => (negb (is_text x && is_text y) && apart r)%bool
  | _ => true
  end.
(** What can be written: names are names, no NUL characters, no attribute twice, no two texts
    side by side. *)
Inductive printable : node -> Prop :=
| pr_text s : no_nul s = true -> printable (Text s)
| pr_elem n a k : xml_name n -> (forall m v, In (m, v) a -> xml_name m /\ no_nul v = true) -> NoDup (map fst a) ->
    apart k = true -> (forall y, In y k -> printable y) -> printable (Elem n a k).

(** *** Characters *)
Lemma print_plain r c : replaced r c = false -> c <> "&"%char /\ c <> "<"%char /\ (r = false -> c <> dquote).
Proof. destruct r; destruct c as [[] [] [] [] [] [] [] []]; vm_compute; intros H; try discriminate H; repeat split; intros; discriminate. Qed.
Lemma print_entity r c : replaced r c = true -> exists e, entity_of c entities = ("&" ++ e ++ ";")%string /\ In (e, c) [("lt", "<"%char); ("gt", ">"%char); ("amp", "&"%char); ("quot", dquote); ("apos", quote)].
Proof.
  intros H. assert (I : In c ["&"%char; "<"%char; ">"%char; dquote; quote]).
  { destruct r; destruct c as [[] [] [] [] [] [] [] []]; vm_compute in H |- *; try discriminate H; tauto. }
  destruct I as [<-|[<-|[<-|[<-|[<-|[]]]]]]; eexists; (split; [reflexivity|]); cbn; tauto.
Qed.
Lemma print_spells r stop s : no_nul s = true -> stop = "<"%char \/ (r = false /\ stop = dquote) -> spells stop (print_string r s) s.
Proof.
  intros N ST. unfold no_nul in N. induction s as [|c s IH]; [constructor|]. cbn [all_chars print_string] in N |- *. apply andb_true_iff in N as [N1 N]. destruct (replaced r c) eqn:R.
  - destruct (print_entity r c R) as (e & -> & I). rewrite !append_assoc. now apply sp_entity; [|apply IH].
  - destruct (print_plain r c R) as (A & B & C). constructor; [|exact A| |now apply IH].
    + destruct ST as [->|[-> ->]]; auto.
    + apply negb_true_iff, Ascii.eqb_neq in N1. exact N1.
Qed.
Lemma blank_all s : blank s = all_chars is_space s.
Proof. unfold blank. induction s as [|c s IH]; [reflexivity|]. cbn. destruct (is_space c); [exact IH|reflexivity]. Qed.
Lemma print_blank r s : blank s = true -> print_string r s = s.
Proof.
  rewrite blank_all. induction s as [|c s IH]; [reflexivity|]. cbn [all_chars print_string]. rewrite andb_true_iff. intros [A B]. rewrite (IH B).
  assert (replaced r c = false) as ->; [|reflexivity]. destruct r; destruct c as [[] [] [] [] [] [] [] []]; vm_compute in A |- *; congruence.
Qed.
Lemma print_not_blank r s : blank s = false -> blank (print_string r s) = false.
Proof.
  rewrite !blank_all. induction s as [|c s IH]; [discriminate|]. cbn [all_chars print_string]. destruct (replaced r c) eqn:R.
  - intros _. destruct (print_entity r c R) as (e & -> & _). reflexivity.
  - cbn. destruct (is_space c); cbn; auto.
Qed.
Lemma spaces_blanks n : blanks (spaces n).
Proof. unfold blanks. induction n as [|n IH]; [reflexivity|]. cbn [spaces]. now rewrite all_app, IH. Qed.
Lemma new_line_blanks p : blanks (new_line p).
Proof. unfold new_line. destruct (p_first p), (p_text p); try apply spaces_blanks; reflexivity. Qed.

(** *** Attributes *)
Lemma print_attrs_text a : (forall m v, In (m, v) a -> xml_name m /\ no_nul v = true) -> NoDup (map fst a) ->
  attrs_text (print_attrs a) (map (fun p => (fst p, newlines (snd p))) a).
Proof.
  induction a as [|[n v] a IH]; intros H ND; [constructor|]. cbn [map fst snd] in *. inversion ND as [|x l NI ND' E]; subst.
  destruct (H n v (or_introl eq_refl)) as [HN HV].
  change (print_attrs ((n, v) :: a)) with (" " ++ n ++ "" ++ "=" ++ "" ++ String dquote (print_string false v ++ String dquote (print_attrs a)))%string.
  apply at_cons; [reflexivity|discriminate|exact HN|reflexivity|reflexivity|now left|apply print_spells; auto|apply IH; auto; intros; apply H; now right|].
  rewrite map_map. cbn [fst]. exact NI.
Qed.

(** *** Nodes *)
Definition reload_kids (k : list node) : list node := kids_of (reload (Elem "" [] k)).
Lemma reload_elem n a k : reload (Elem n a k) = Elem n (map (fun p => (fst p, newlines (snd p))) a) (reload_kids k).
Proof. reflexivity. Qed.
Lemma print_elem n a k p : print_node (Elem n a k) p =
  let (s1, p1) := open_element n p in let (s2, p2) := print_nodes k p1 in let (s3, p3) := close_element n p2 in
  ((s1 ++ print_attrs a ++ s2 ++ s3)%string, p3).
Proof. reflexivity. Qed.

Definition starts_text (k : list node) : bool := match k with x :: _ => is_text x | [] => false end.
Fixpoint ends_text (k : list node) (after : bool) : bool := match k with x :: r => ends_text r (is_text x) | [] => after end.

Definition elem_prints (x : node) : Prop := is_elem x = true -> printable x -> forall p d, (opens x <= d)%nat ->
  exists s p', print_node x p = ((seal p ++ new_line p ++ s ++ (if (p_depth p =? 0)%nat then String nl "" else ""))%string, p') /\
    elem_text d s (reload x) /\ p_just p' = false /\ p_first p' = false /\ p_depth p' = p_depth p.

Lemma kids_print d k : Forall elem_prints k -> (forall y, In y k -> printable y) -> (forall y, In y k -> (opens y <= d)%nat) -> apart k = true ->
  forall p after, p_first p = false -> (0 < p_depth p)%nat -> (after = true -> p_text p <> None /\ starts_text k = false) ->
  exists s p', print_nodes k p = (((match k with [] => "" | _ => seal p end) ++ s)%string, p') /\
    p_depth p' = p_depth p /\ p_first p' = false /\ (p_just p' = match k with [] => p_just p | _ => false end) /\
    (ends_text k after = true -> p_text p' <> None) /\
    forall T K, body_text d (negb (ends_text k after)) T K -> body_text d (negb after) (s ++ T) (reload_kids k ++ K).
Proof.
  induction k as [|x r IH]; intros FA PR OP AP p after P1 PD AF.
  - exists "", p. cbn. repeat split; auto. intros E. exact (proj1 (AF E)).
  - inversion FA as [|x' r' FX FR E]; subst. assert (AP' : apart r = true) by (destruct r; [reflexivity|]; cbn in AP; apply andb_true_iff in AP; apply AP).
    assert (PR' : forall y, In y r -> printable y) by (intros; apply PR; now right). assert (OP' : forall y, In y r -> (opens y <= d)%nat) by (intros; apply OP; now right).
    destruct x as [n a k|t].
    + destruct (FX eq_refl (PR _ (or_introl eq_refl)) p d (OP _ (or_introl eq_refl))) as (s1 & p1 & E1 & T1 & J1 & F1 & D1).
      destruct (IH FR PR' OP' AP' p1 false F1 ltac:(lia) ltac:(discriminate)) as (s2 & p2 & E2 & D2 & F2 & J2 & X2 & B2).
      exists (new_line p ++ s1 ++ s2)%string, p2. cbn [print_nodes]. rewrite E1, E2. assert (SL : (match r with [] => "" | _ => seal p1 end) = "") by (unfold seal; rewrite J1; now destruct r).
      rewrite SL. assert ((p_depth p =? 0)%nat = false) as -> by (apply Nat.eqb_neq; lia). split; [f_equal; rewrite append_nil_r, !append_assoc; reflexivity|].
      split; [congruence|]. split; [exact F2|]. split; [rewrite J2; now destruct r|]. split; [exact X2|].
      intros T K BT. specialize (B2 T K BT). cbn [negb] in B2. change (reload_kids (Elem n a k :: r)) with (reload (Elem n a k) :: reload_kids r). cbn [app].
      rewrite !append_assoc. assert (BE : body_text d false (s1 ++ s2 ++ T) (reload (Elem n a k) :: reload_kids r ++ K)) by now constructor.
      destruct after; cbn [negb].
      * assert (new_line p = "") as ->; [|exact BE]. unfold new_line. rewrite P1. destruct (p_text p); [reflexivity|]. now destruct (proj1 (AF eq_refl)).
      * apply bd_blank; [apply new_line_blanks|exact BE].
    + assert (after = false) as -> by (destruct after; [|reflexivity]; now destruct (proj2 (AF eq_refl))).
      assert (NT : no_nul t = true) by (specialize (PR _ (or_introl eq_refl)); now inversion PR).
      set (p1 := Printer false (p_first p) (Some (pred (p_depth p))) (p_depth p)).
      destruct (IH FR PR' OP' AP' p1 true) as (s2 & p2 & E2 & D2 & F2 & J2 & X2 & B2); [exact P1|exact PD| |].
      { intros _. split; [discriminate|]. destruct r as [|y r]; [reflexivity|]. cbn in AP |- *. apply andb_true_iff in AP as [AP _]. now destruct (is_text y). }
      exists (print_string true t ++ s2)%string, p2. cbn [print_nodes print_node]. unfold push_text. fold p1. rewrite E2.
      assert (SL : (match r with [] => "" | _ => seal p1 end) = "") by now destruct r. rewrite SL. split; [f_equal; rewrite append_assoc; reflexivity|].
      split; [exact D2|]. split; [exact F2|]. split; [rewrite J2; now destruct r|]. split; [exact X2|].
      intros T K BT. specialize (B2 T K BT). cbn [negb] in B2 |- *. rewrite append_assoc. destruct (blank t) eqn:BL.
      * assert (reload_kids (Text t :: r) = reload_kids r) as -> by (unfold reload_kids; cbn; now rewrite BL). rewrite (print_blank true t BL). apply bd_blank; [|exact B2]. unfold blanks. now rewrite <- blank_all.
      * assert (reload_kids (Text t :: r) = Text (newlines t) :: reload_kids r) as -> by (unfold reload_kids; cbn; now rewrite BL). cbn [app].
        apply bd_text; [apply print_spells; auto|now apply print_not_blank|exact B2].
Qed.

Lemma max_le (k : list node) y : In y k -> (opens y <= fold_right (fun z => Nat.max (opens z)) 0 k)%nat.
Proof. induction k as [|z k IH]; [intros []|]. cbn. intros [->|I]; [lia|]. specialize (IH I). lia. Qed.
Lemma elem_print x : elem_prints x.
Proof.
  apply node_all; clear x; [intros s H; discriminate H|]. intros n a k FA _ PR p d OP. inversion PR as [|n' a' k' NM AT ND AP PK]; subst.
  rewrite print_elem. unfold open_element. set (p1 := Printer true false (p_text p) (S (p_depth p))).
  pose proof (print_attrs_text a AT ND) as PA. rewrite reload_elem.
  destruct k as [|y k].
  - cbn [print_nodes]. unfold close_element. cbn [p_just p1 p_depth pred]. eexists ("<" ++ n ++ print_attrs a ++ "" ++ "/>")%string, _. split; [f_equal; rewrite !append_assoc; reflexivity|split; [now constructor|repeat split]].
  - destruct d as [|d]; [cbn in OP; lia|].
    destruct (kids_print d (y :: k) FA PK) with (p := p1) (after := false) as (s2 & p2 & E2 & D2 & F2 & J2 & X2 & B2).
    { intros z I. pose proof (max_le _ z I). cbn [opens] in OP. lia. }
    { exact AP. } { reflexivity. } { cbn. lia. } { discriminate. }
    rewrite E2. unfold close_element. rewrite J2, D2. cbn [p_depth p1 pred].
    assert (exists b, (match p_text p2 with None => String nl (spaces (p_depth p)) | Some _ => "" end) = b /\ body_text d true (s2 ++ b) (reload_kids (y :: k))) as (b & -> & BB).
    { eexists. split; [reflexivity|]. specialize (B2 (match p_text p2 with None => String nl (spaces (p_depth p)) | Some _ => "" end) []). rewrite app_nil_r in B2. apply B2.
      destruct (ends_text (y :: k) false) eqn:ET; cbn [negb].
      - specialize (X2 eq_refl). destruct (p_text p2); [constructor|congruence].
      - replace (match p_text p2 with Some _ => "" | None => String nl (spaces (p_depth p)) end) with ((match p_text p2 with Some _ => "" | None => String nl (spaces (p_depth p)) end) ++ "")%string by apply append_nil_r.
        apply bd_blank; [|constructor]. destruct (p_text p2); [reflexivity|]. apply spaces_blanks. }
    eexists ("<" ++ n ++ print_attrs a ++ "" ++ ">" ++ (s2 ++ b) ++ "</" ++ n ++ "" ++ ">")%string, _. split; [|split; [apply el_open; auto; reflexivity|]].
    + f_equal. unfold seal at 2. cbn [p_just p1]. rewrite !append_assoc. cbn [append]. reflexivity.
    + repeat split. exact F2.
Qed.

(** SaveFile, then LoadFile: one root. *)
Theorem print_read limit x : is_elem x = true -> printable x -> (S (opens x) < limit)%nat ->
  parse_text limit (printed [x]) = Got (kids_of (reload (Elem "" [] [x]))).
Proof.
  intros E P L. destruct (elem_print x E P (Printer false true None 0) (opens x) (le_n _)) as (s & p' & PN & ET & _).
  unfold printed. cbn [print_nodes]. rewrite PN. cbn [fst]. unfold seal, new_line. cbn [p_just p_first p_depth spaces append Nat.eqb].
  assert (kids_of (reload (Elem "" [] [x])) = [reload x]) as -> by (destruct x; [reflexivity|discriminate]).
  apply (text_read limit (opens x)); [|exact L]. rewrite append_nil_r.
  apply (doc_ (opens x) "" "" "" "" s (reload x) (String nl "")); auto; try constructor. apply (ms_blank (String nl "") ""); [reflexivity|constructor].
Qed.
