(** The texts of n_ini files, as people write them, and what they say. *)
From Coq Require Import String Ascii ZArith NArith Arith List Bool Lia Permutation.
From Verif Require Import Base Map Items Grammar Fmt Decimal Templates Emit Cpp Xml Val Rx CppSem SymLex Ast StoreDefs ResolveProps Prog Header Link EnumSem DecText EnumCall XmlSpec XmlRead XmlCarry IniSpec IniWrite IniRead IniScan IniReader IniCall IniKeep IniThms.
Import ListNotations.
Local Open Scope string_scope.
Local Open Scope list_scope.

(** *** Specification *)
Inductive line :=
| Sec (p c : string)                    (** [p], and a comment [c] behind it *)
| Item (n v c : string)                 (** n v, and a comment [c] behind it *)
| Long (n : string) (ls : list string)  (** n, and lines that begin with a space *)
| Note (c : string)                     (** a comment *)
| Blank.
Definition spaced (ls : list string) : string := fold_right (fun l r => (" " ++ l ++ NL ++ r)%string) "" ls.
Definition line_text (l : line) : string :=
  match l with
  | Sec p c => "[" ++ p ++ "]" ++ c ++ NL
  | Item n v c => n ++ " " ++ v ++ c ++ NL
  | Long n ls => n ++ NL ++ spaced ls
  | Note c => "%" ++ c ++ NL
  | Blank => NL
  end%string.
Definition file_text (ls : list line) : string := fold_right (fun l r => (line_text l ++ r)%string) "" ls.
(** A line has up to 79 characters; [on_line]: no line ends, NUL and % *)
Definition no_nl (s : string) : bool := all_chars (fun c => negb (c =? nl)%char) s.
Definition comment_ok (c : string) : Prop := c = "" \/ exists r, c = ("%" ++ r)%string /\ no_nl r = true.
Definition line_ok (l : line) : Prop :=
  match l with
  | Sec p c => on_line p = true /\ p <> "" /\ comment_ok c /\ String.length p + 2 + String.length c <= 79
  | Item n v c => ident n = true /\ on_line v = true /\ v <> "" /\ comment_ok c /\ String.length n + 1 + String.length v + String.length c <= 79
  | Long n ls => ident n = true /\ String.length n < 79 /\ forall l, In l ls -> on_line l = true /\ S (String.length l) < 79
  | Note c => no_nl c = true /\ S (String.length c) < 79
  | Blank => True
  end.
(** Comments do not end an item of several lines; the end of the file does not either, and it
    is lost there. *)
Definition finished (ls : list line) : Prop := forall a n t b, ls = a ++ Long n t :: b -> exists x, In x b /\ forall c, x <> Note c.

(** The value of item [n] in section [p]: the last one in the last part of the file with this
    name. *)
Fixpoint until_section (ls : list line) : list line :=
  match ls with
  | [] => []
  | Sec _ _ :: _ => []
  | l :: r => l :: until_section r
  end.
Fixpoint last_part (p : string) (ls : list line) : option (list line) :=
  match ls with
  | [] => None
  | Sec q _ :: r => match last_part p r with Some b => Some b | None => if String.eqb p q then Some (until_section r) else None end
  | _ :: r => last_part p r
  end.
Fixpoint last_value (n : string) (ls : list line) : option string :=
  match ls with
  | [] => None
  | Item m v _ :: r => match last_value n r with Some x => Some x | None => if String.eqb n m then Some v else None end
  | Long m t :: r => match last_value n r with Some x => Some x | None => if String.eqb n m then Some (NL ++ spaced t)%string else None end
  | _ :: r => last_value n r
  end.
Definition value (ls : list line) (p n : string) : option string := let? b := last_part p ls in last_value n b.

(** *** Scanning *)
Lemma len_app' a c : String.length (a ++ c) = String.length a + String.length c.
Proof. induction a; cbn; auto. Qed.
Lemma chunks_any l : forall room a r, no_nl l = true -> String.length l <= room -> room <> 0 ->
  chunks room a (l ++ NL ++ r) = if Nat.eqb (String.length l) room then (a ++ l)%string :: NL :: chunks 79 "" r else (a ++ l ++ NL)%string :: chunks 79 "" r.
Proof.
  assert (NLR : NL = String nl "") by reflexivity.
  induction l as [|c l IH]; intros room a r OL LE NZ.
  - cbn [String.append String.length]. rewrite NLR. cbn [String.append chunks]. rewrite Ascii.eqb_refl. cbn [orb]. destruct room; [congruence|]. reflexivity.
  - unfold no_nl in OL. cbn [all_chars] in OL. apply andb_true_iff in OL as [C OL]. apply negb_true_iff in C. cbn [String.append chunks String.length].
    rewrite C. cbn [orb]. cbn [String.length] in LE. destruct (Nat.leb_spec room 1).
    + assert (room = 1) by lia. subst. assert (l = "") as -> by (destruct l; [reflexivity|cbn in LE; lia]). cbn [String.append String.length Nat.eqb].
      rewrite NLR. cbn [String.append chunks]. rewrite Ascii.eqb_refl. reflexivity.
    + rewrite (IH (room - 1) (snoc a c) r OL ltac:(lia) ltac:(lia)). replace (Nat.eqb (S (String.length l)) room) with (Nat.eqb (String.length l) (room - 1)).
      2:{ destruct (Nat.eqb_spec (String.length l) (room - 1)); symmetry; [apply Nat.eqb_eq|apply Nat.eqb_neq]; lia. }
      unfold snoc. now rewrite !sapp_assoc.
Qed.
Lemma scan_any l r s : no_nl l = true -> String.length l <= 79 ->
  scan_text (l ++ NL ++ r) s = scan_text r (if Nat.eqb (String.length l) 79 then scan_line NL (scan_line (CppSem.cut l) s) else scan_line (CppSem.cut (l ++ NL)) s).
Proof. intros OL LE. unfold scan_text. rewrite (chunks_any l 79 "" r OL LE ltac:(lia)). now destruct (Nat.eqb (String.length l) 79). Qed.
Lemma on_line_no_nl s : on_line s = true -> no_nl s = true.
Proof. apply all_chars_imp. intros c H. apply line_chr_facts in H as (_ & A & _). now rewrite A. Qed.
Lemma cut_comment x r : on_line x = true -> no_comment (CppSem.cut (x ++ "%" ++ r)) = x.
Proof.
  induction x as [|c x IH]; intros H; [reflexivity|]. unfold on_line in H. cbn [all_chars] in H. apply andb_true_iff in H as [C H]. apply line_chr_facts in C as (C1 & _ & _ & C2).
  cbn [String.append CppSem.cut]. rewrite C1. cbn [no_comment]. rewrite C2. f_equal. exact (IH H).
Qed.
Lemma line_same a b s : no_comment a = no_comment b -> scan_line a s = scan_line b s.
Proof. intros E. unfold scan_line. now rewrite E. Qed.
Lemma clean_line x : on_line x = true -> no_comment x = x.
Proof. intros H. pose proof (on_line_comment x "" H) as E. rewrite !sapp_nil_r in E. exact E. Qed.

(** What a line does. *)
Definition step (s : scan) (l : line) : scan :=
  match l with
  | Sec p _ => let s := flushed s in Scan (Look (k_top (x_look s)) (set_assoc p [] (k_under (x_look s)))) (Some p) "" (x_val s)
  | Item n v _ => let s := flushed s in Scan (put_item (x_cur s) n v (x_look s)) (x_cur s) "" (x_val s)
  | Long n t => let s := flushed s in Scan (x_look s) (x_cur s) n (NL ++ spaced t)
  | Note _ => s
  | Blank => flushed s
  end.

Lemma flushed_blank s : flushed (flushed s) = flushed s.
Proof. apply flushed_twice. Qed.
(** Names alone on a line. *)
Lemma no_space_item s : all_chars (fun c => negb (c =? " ")%char) s = true -> search "(\w+) (.+)" s = None.
Proof.
  intros H. unfold search. change (rx_compile "(\w+) (.+)") with (Some [ROpen; RItem RWord true; RClose; RItem (RChar " ") false; ROpen; RItem RAny true; RClose]). cbv beta iota.
  assert (M : forall s, all_chars (fun c => negb (c =? " ")%char) s = true -> rx_match [ROpen; RItem RWord true; RClose; RItem (RChar " ") false; ROpen; RItem RAny true; RClose] s None [] = None).
  { clear. intros s H. destruct (rx_match _ s None []) as [g|] eqn:E; [|reflexivity]. exfalso.
    change (rx_match (RItem RWord true :: [RClose; RItem (RChar " ") false; ROpen; RItem RAny true; RClose]) s (Some "") [] = Some g) in E.
    apply plus_found in E as (w & u & -> & E). rewrite all_chars_app in H. apply andb_true_iff in H as [_ H]. cbn [rx_match] in E. destruct u as [|a u]; [discriminate|].
    cbn [all_chars] in H. apply andb_true_iff in H as [H _]. apply negb_true_iff in H. cbn [rclass_has] in E. rewrite H in E. discriminate. }
  induction s as [|c s IH]; unfold rx_search; fold rx_search; rewrite (M _ H); [reflexivity|]. cbn [all_chars] in H. apply andb_true_iff in H as [_ H]. exact (IH H).
Qed.
Lemma search_name n : ident n = true -> search "(\w+)" (n ++ NL) = Some [n].
Proof.
  intros N. unfold search. change (rx_compile "(\w+)") with (Some [ROpen; RItem RWord true; RClose]). cbv beta iota. destruct (ident_cons n N) as (c & r & NC & _).
  assert (M : rx_match [ROpen; RItem RWord true; RClose] (n ++ NL) None [] = Some [n]).
  { change (rx_match [RItem RWord true; RClose] (n ++ NL) (Some "") [] = Some [n]). apply rx_plus; [subst; discriminate|now apply ident_idc|apply rx_plus_stop; reflexivity|reflexivity]. }
  destruct (n ++ NL)%string as [|x y]; unfold rx_search; fold rx_search; now rewrite M.
Qed.
Lemma scan_name n s : ident n = true -> scan_line (n ++ NL) s = let s := flushed s in Scan (x_look s) (x_cur s) n NL.
Proof.
  intros N. assert (NC : no_comment (n ++ NL) = (n ++ NL)%string) by (rewrite (on_line_comment n NL (ident_line n N)); reflexivity).
  assert (NS : search "(\w+) (.+)" (n ++ NL) = None).
  { apply no_space_item. rewrite all_chars_app. apply andb_true_iff. split; [|reflexivity]. eapply all_chars_imp; [|exact (ident_idc n N)]. intros c C. destruct (idc_start c C) as (_ & -> & _). reflexivity. }
  pose proof (search_name n N) as SN. unfold scan_line. rewrite NC. destruct (ident_cons n N) as (c & r & -> & IC). cbn [String.append] in *.
  destruct (idc_start c IC) as (C1 & C2 & _). rewrite C1, C2, (flush_is c s C2), NS, SN. reflexivity.
Qed.
Lemma scan_spaced l s : on_line l = true -> scan_line (" " ++ l ++ NL) s = Scan (x_look s) (x_cur s) (x_key s) (x_val s ++ " " ++ l ++ NL)%string.
Proof.
  intros H. unfold scan_line. assert (NC : no_comment (" " ++ l ++ NL) = (" " ++ l ++ NL)%string).
  { change (" " ++ l ++ NL)%string with (String " " (l ++ NL)). cbn [no_comment Ascii.eqb Bool.eqb]. now rewrite (on_line_comment l NL H). }
  rewrite NC. change (" " ++ l ++ NL)%string with (String " " (l ++ NL)). unfold flush. cbn [Ascii.eqb Bool.eqb negb andb]. now rewrite andb_false_r.
Qed.
Lemma text_spaced ls : (forall l, In l ls -> on_line l = true /\ S (String.length l) < 79) -> forall r s,
  scan_text (spaced ls ++ r) s = scan_text r (Scan (x_look s) (x_cur s) (x_key s) (x_val s ++ spaced ls)%string).
Proof.
  induction ls as [|l ls IH]; intros H r s; cbn [spaced fold_right].
  - rewrite sapp_nil_r. destruct s. reflexivity.
  - fold (spaced ls). destruct (H l (or_introl eq_refl)) as (OL & LE). replace ((" " ++ l ++ NL ++ spaced ls) ++ r)%string with ((" " ++ l) ++ NL ++ (spaced ls ++ r))%string by (now rewrite !sapp_assoc).
    assert (OL' : on_line (" " ++ l) = true) by (cbn [on_line String.append all_chars]; fold (on_line l); now rewrite OL).
    rewrite (scan_any (" " ++ l) _ s (on_line_no_nl _ OL') ltac:(cbn [String.append String.length]; lia)).
    replace (Nat.eqb (String.length (" " ++ l)) 79) with false by (symmetry; apply Nat.eqb_neq; cbn [String.append String.length]; lia).
    rewrite (cut_app (" " ++ l) NL (on_line_cut _ OL') eq_refl), sapp_assoc, (scan_spaced l s OL).
    rewrite IH by (intros q I; apply H; now right). cbn [x_look x_cur x_key x_val]. now rewrite !sapp_assoc.
Qed.
Lemma text_line l r s : line_ok l -> scan_text (line_text l ++ r) s = scan_text r (step s l).
Proof.
  destruct l as [p c|n v c|n ls|c|]; cbn [line_ok line_text step].
  - intros (OL & NE & C & LE).
    assert (L1 : on_line ("[" ++ p ++ "]") = true) by (cbn [on_line all_chars String.append]; unfold on_line; rewrite !all_chars_app; fold (on_line p); now rewrite OL).
    destruct C as [->|(q & -> & NQ)].
    + replace (("[" ++ p ++ "]" ++ "" ++ NL) ++ r)%string with (("[" ++ p ++ "]") ++ NL ++ r)%string by (cbn [String.append]; now rewrite !sapp_assoc).
      rewrite (scan_text_line _ r s L1); [|rewrite !len_app'; cbn in *; lia]. f_equal. destruct (Nat.eqb _ 79).
      * replace ("[" ++ p ++ "]")%string with ("[" ++ p ++ "]" ++ "")%string by reflexivity. rewrite scan_empty, (scan_section p "" s OL NE ltac:(left; reflexivity)). reflexivity.
      * rewrite !sapp_assoc. now rewrite (scan_section p NL s OL NE ltac:(right; reflexivity)).
    + replace (("[" ++ p ++ "]" ++ ("%" ++ q) ++ NL) ++ r)%string with (("[" ++ p ++ "]" ++ "%" ++ q) ++ NL ++ r)%string by (repeat (rewrite ?sapp_assoc; cbn [String.append]); reflexivity).
      assert (NN : no_nl ("[" ++ p ++ "]" ++ "%" ++ q) = true).
      { unfold no_nl. rewrite !all_chars_app. cbn [all_chars]. fold (no_nl p) (no_nl q). rewrite (on_line_no_nl p OL), NQ. reflexivity. }
      rewrite (scan_any _ r s NN); [|rewrite !len_app' in *; cbn [String.length] in *; lia]. f_equal.
      assert (E1 : forall z, no_comment (CppSem.cut (("[" ++ p ++ "]" ++ "%" ++ q) ++ z)) = ("[" ++ p ++ "]")%string).
      { intros z. rewrite <- (cut_comment ("[" ++ p ++ "]") (q ++ z) L1). now rewrite !sapp_assoc. }
      assert (E2 : forall z, scan_line (CppSem.cut (("[" ++ p ++ "]" ++ "%" ++ q) ++ z)) s = step s (Sec p ("%" ++ q))).
      { intros z. pose proof (scan_section p "" s OL NE ltac:(left; reflexivity)) as T. cbv zeta in T. cbn [step]. cbv zeta. rewrite <- T. apply line_same. rewrite E1, sapp_nil_r. symmetry. now apply clean_line. }
      cbn [step] in E2. destruct (Nat.eqb _ 79); [|apply E2]. specialize (E2 ""). rewrite sapp_nil_r in E2. rewrite E2, scan_empty. reflexivity.
  - intros (N & OL & NE & C & LE).
    assert (L1 : on_line (n ++ " " ++ v) = true) by (unfold on_line; rewrite !all_chars_app; fold (on_line n) (on_line v); now rewrite (ident_line n N), OL).
    destruct C as [->|(q & -> & NQ)].
    + rewrite sapp_assoc. cbn [String.append]. pose proof (text_item n v r s N OL NE) as T. unfold item_line in T. rewrite sapp_assoc in T. apply T. cbn [String.length] in LE. lia.
    + replace ((n ++ " " ++ v ++ ("%" ++ q) ++ NL) ++ r)%string with ((n ++ " " ++ v ++ "%" ++ q) ++ NL ++ r)%string by (rewrite !sapp_assoc; reflexivity).
      assert (NN : no_nl (n ++ " " ++ v ++ "%" ++ q) = true).
      { unfold no_nl. rewrite !all_chars_app. cbn [all_chars]. fold (no_nl n) (no_nl v) (no_nl q). rewrite (on_line_no_nl n (ident_line n N)), (on_line_no_nl v OL), NQ. reflexivity. }
      rewrite (scan_any _ r s NN); [|rewrite !len_app' in *; cbn [String.length] in *; lia]. f_equal.
      assert (E1 : forall z, no_comment (CppSem.cut ((n ++ " " ++ v ++ "%" ++ q) ++ z)) = (n ++ " " ++ v)%string).
      { intros z. rewrite <- (cut_comment (n ++ " " ++ v) (q ++ z) L1). now rewrite !sapp_assoc. }
      assert (E2 : forall z, scan_line (CppSem.cut ((n ++ " " ++ v ++ "%" ++ q) ++ z)) s = let s := flushed s in Scan (put_item (x_cur s) n v (x_look s)) (x_cur s) "" (x_val s)).
      { intros z. rewrite <- (scan_item n v "" s N OL NE ltac:(left; reflexivity)). apply line_same. rewrite E1, sapp_nil_r. symmetry. now apply clean_line. }
      destruct (Nat.eqb _ 79); [|apply E2]. specialize (E2 ""). rewrite sapp_nil_r in E2. rewrite E2, scan_empty. reflexivity.
  - intros (N & LN & LS). rewrite !sapp_assoc. pose proof (ident_line n N) as OL. rewrite (scan_any n _ s (on_line_no_nl n OL) ltac:(lia)).
    replace (Nat.eqb (String.length n) 79) with false by (symmetry; apply Nat.eqb_neq; lia). rewrite (cut_app n NL (on_line_cut n OL) eq_refl), (scan_name n s N).
    rewrite (text_spaced ls LS). reflexivity.
  - intros (NC & LE). replace (("%" ++ c ++ NL) ++ r)%string with (("%" ++ c) ++ NL ++ r)%string by (cbn [String.append]; now rewrite !sapp_assoc).
    rewrite (scan_any ("%" ++ c) r s); [|exact NC|cbn [String.append String.length]; lia].
    replace (Nat.eqb (String.length ("%" ++ c)) 79) with false by (symmetry; apply Nat.eqb_neq; cbn [String.append String.length]; lia). reflexivity.
  - intros _. change (NL ++ r)%string with ("" ++ NL ++ r)%string. rewrite (scan_any "" r s eq_refl ltac:(cbn; lia)). cbn [String.length Nat.eqb String.append]. change (scan_line (CppSem.cut NL) s) with (scan_line NL s). now rewrite scan_empty.
Qed.
Lemma text_lines ls : (forall l, In l ls -> line_ok l) -> forall s, scan_text (file_text ls) s = fold_left step ls s.
Proof.
  induction ls as [|l ls IH]; intros H s; [reflexivity|]. cbn [file_text fold_right fold_left]. fold (file_text ls). rewrite (text_line l _ s (H l (or_introl eq_refl))). apply IH. intros q I. apply H. now right.
Qed.

(** *** Values *)
Definition look (k : lookups) (p n : string) : option string := let? its := assoc p (k_under k) in assoc n its.
Definition in_place (s : scan) : Prop := match x_cur s with Some p => assoc p (k_under (x_look s)) <> None | None => True end.
Lemma look_put c n v k p m : (match c with Some q => assoc q (k_under k) <> None | None => True end) ->
  look (put_item c n v k) p m = match c with Some q => if String.eqb p q then if String.eqb m n then Some v else look k p m else look k p m | None => look k p m end.
Proof.
  intros H. unfold look, put_item. destruct c as [q|]; [|reflexivity]. destruct (assoc q (k_under k)) as [its|] eqn:A; [|congruence]. cbn [k_under].
  destruct (String.eqb_spec p q) as [->|NE].
  - rewrite assoc_set_same, A. destruct (String.eqb_spec m n) as [->|NE]; [apply assoc_set_same|]. apply assoc_set_other. now apply eqb_neq.
  - rewrite assoc_set_other; [reflexivity|]. now apply eqb_neq.
Qed.
Lemma place_put c n v k : (match c with Some q => assoc q (k_under k) <> None | None => True end) -> match c with Some q => assoc q (k_under (put_item c n v k)) <> None | None => True end.
Proof. unfold put_item. destruct c as [q|]; [|auto]. intros H. destruct (assoc q (k_under k)); [|congruence]. cbn [k_under]. rewrite assoc_set_same. discriminate. Qed.
Lemma place_flushed s : in_place s -> in_place (flushed s).
Proof. unfold in_place, flushed. destruct (String.eqb (x_key s) ""); [auto|]. cbn [x_cur x_look]. apply place_put. Qed.
Lemma cur_flushed s : x_cur (flushed s) = x_cur s.
Proof. unfold flushed. now destruct (String.eqb (x_key s) ""). Qed.
Lemma place_step s l : in_place s -> in_place (step s l).
Proof.
  intros H. pose proof (place_flushed s H) as F. destruct l; cbn [step]; auto.
  - unfold in_place. cbn [x_cur x_look k_under]. rewrite assoc_set_same. discriminate.
  - unfold in_place in *. cbn [x_cur x_look]. now apply place_put.
Qed.
(** With an item of several lines taken as finished. *)
Definition seen (s : scan) (p n : string) : option string := look (x_look (flushed s)) p n.
Lemma seen_lines ls : forall s p n, (forall l, In l ls -> line_ok l) -> in_place s ->
  seen (fold_left step ls s) p n =
  match last_part p ls with
  | Some b => last_value n b
  | None => if match x_cur s with Some q => String.eqb p q | None => false end
            then match last_value n (until_section ls) with Some v => Some v | None => seen s p n end else seen s p n
  end.
Proof.
  induction ls as [|l ls IH]; intros s p n OK H.
  - cbn. destruct (match x_cur s with Some q => String.eqb p q | None => false end); reflexivity.
  - cbn [fold_left]. rewrite (IH (step s l) p n (fun q I => OK q (or_intror I)) (place_step s l H)). pose proof (place_flushed s H) as F.
    assert (PF : match x_cur s with Some q => assoc q (k_under (x_look (flushed s))) <> None | None => True end) by (unfold in_place in F; now rewrite cur_flushed in F).
    destruct l as [q c|m v c|m t|c|]; cbn [step x_cur last_part until_section last_value].
    + destruct (last_part p ls) as [b|]; [reflexivity|]. destruct (String.eqb_spec p q) as [->|NE].
      * destruct (last_value n (until_section ls)) as [v|]; [reflexivity|]. unfold seen, flushed at 1. cbn [x_key String.eqb x_look]. unfold look. cbn [k_under]. now rewrite assoc_set_same.
      * assert (E : seen (Scan (Look (k_top (x_look (flushed s))) (set_assoc q [] (k_under (x_look (flushed s))))) (Some q) "" (x_val (flushed s))) p n = seen s p n).
        { unfold seen at 1, flushed at 1. cbn [x_key String.eqb x_look]. unfold look. cbn [k_under]. rewrite assoc_set_other; [reflexivity|]. now apply eqb_neq. }
        rewrite E. destruct (x_cur s) as [q'|]; [|reflexivity]. now destruct (String.eqb p q').
    + destruct (last_part p ls) as [b|]; [reflexivity|]. rewrite cur_flushed.
      assert (E : seen (Scan (put_item (x_cur s) m v (x_look (flushed s))) (x_cur s) "" (x_val (flushed s))) p n =
        match x_cur s with Some q => if String.eqb p q then if String.eqb n m then Some v else seen s p n else seen s p n | None => seen s p n end).
      { unfold seen at 1, flushed at 1. cbn [x_key String.eqb x_look]. now rewrite (look_put _ _ _ _ _ _ PF). }
      rewrite E. destruct (x_cur s) as [q|]; [|reflexivity]. destruct (String.eqb p q); [|reflexivity]. destruct (last_value n (until_section ls)); [reflexivity|]. now destruct (String.eqb n m).
    + destruct (last_part p ls) as [b|]; [reflexivity|]. rewrite cur_flushed.
      destruct (OK _ (or_introl eq_refl)) as (N & _). assert (NM : String.eqb m "" = false) by (destruct (ident_cons m N) as (? & ? & -> & _); reflexivity).
      assert (E : seen (Scan (x_look (flushed s)) (x_cur s) m (NL ++ spaced t)) p n =
        match x_cur s with Some q => if String.eqb p q then if String.eqb n m then Some (NL ++ spaced t)%string else seen s p n else seen s p n | None => seen s p n end).
      { unfold seen at 1, flushed at 1. cbn [x_key x_look x_cur x_val]. rewrite NM. cbn [x_look]. now rewrite (look_put _ _ _ _ _ _ PF). }
      rewrite E. destruct (x_cur s) as [q|]; [|reflexivity]. destruct (String.eqb p q); [|reflexivity]. destruct (last_value n (until_section ls)); [reflexivity|]. now destruct (String.eqb n m).
    + reflexivity.
    + unfold seen. now rewrite cur_flushed, flushed_twice.
Qed.
Lemma finished_key ls : finished ls -> forall s, x_key s = "" -> x_key (fold_left step ls s) = "".
Proof.
  induction ls as [|x l IH] using rev_ind; intros H s K; [exact K|]. rewrite fold_left_app. cbn [fold_left].
  destruct x as [q c|m v c|m t|c|]; cbn [step]; try reflexivity; try apply flushed_key.
  - exfalso. destruct (H l m t [] eq_refl) as (x & [] & _).
  - apply IH; [|exact K]. intros a n t b E. destruct (H a n t (b ++ [Note c])) as (x & I & N); [rewrite E, <- app_assoc; reflexivity|].
    apply in_app_iff in I as [I|[<-|[]]]; [eauto|]. exfalso. exact (N c eq_refl).
Qed.
(** What a reader finds that has read files before; none of them ended in an item of several
    lines ([r_key]). *)
Theorem file_again ls rd p n : (forall l, In l ls -> line_ok l) -> finished ls -> r_key rd = "" -> r_key (has_read (file_text ls) rd) = "" /\
  look (r_look (has_read (file_text ls) rd)) p n = match last_part p ls with Some b => last_value n b | None => look (r_look rd) p n end.
Proof.
  intros OK FI RK. destruct rd as [k ky w]. cbn [r_key] in RK. subst ky. unfold has_read. cbn [r_look r_key r_val]. rewrite (text_lines ls OK).
  pose proof (seen_lines ls (Scan k None "" w) p n OK I) as S. pose proof (finished_key ls FI (Scan k None "" w) eq_refl) as K. split; [exact K|].
  unfold seen in S. unfold flushed at 1 in S. rewrite K in S. exact S.
Qed.
Theorem file_values ls p n : (forall l, In l ls -> line_ok l) -> finished ls -> look (r_look (has_read (file_text ls) new_reader)) p n = value ls p n.
Proof. intros OK FI. rewrite (proj2 (file_again ls new_reader p n OK FI eq_refl)). unfold value. now destruct (last_part p ls). Qed.
(** Several files, one after the other; [older]: the last one first *)
Fixpoint after_files (older : list (list line)) : reader := match older with [] => new_reader | ls :: r => has_read (file_text ls) (after_files r) end.
Fixpoint files_value (older : list (list line)) (p n : string) : option string :=
  match older with [] => None | ls :: r => match last_part p ls with Some b => last_value n b | None => files_value r p n end end.
Theorem files_values older : (forall ls, In ls older -> (forall l, In l ls -> line_ok l) /\ finished ls) ->
  r_key (after_files older) = "" /\ forall p n, look (r_look (after_files older)) p n = files_value older p n.
Proof.
  induction older as [|ls r IH]; intros H; [split; reflexivity|]. cbn [after_files files_value]. destruct (IH (fun l I => H l (or_intror I))) as (K & V). destruct (H ls (or_introl eq_refl)) as (OK & FI). split.
  - exact (proj1 (file_again ls (after_files r) "" "" OK FI K)).
  - intros p n. rewrite (proj2 (file_again ls (after_files r) p n OK FI K)). now rewrite V.
Qed.

(** *** Files with the same values *)
(** Without comments and empty lines. *)
Fixpoint without_notes (ls : list line) : list line :=
  match ls with
  | [] => []
  | Note _ :: r | Blank :: r => without_notes r
  | Sec p _ :: r => Sec p "" :: without_notes r
  | Item n v _ :: r => Item n v "" :: without_notes r
  | Long n t :: r => Long n t :: without_notes r
  end.
Lemma until_notes ls : without_notes (until_section ls) = until_section (without_notes ls).
Proof. induction ls as [|[]]; cbn; congruence. Qed.
Lemma last_notes ls n : last_value n (without_notes ls) = last_value n ls.
Proof. induction ls as [|[]]; cbn; try rewrite IHls; reflexivity. Qed.
Lemma part_notes ls p : last_part p (without_notes ls) = match last_part p ls with Some b => Some (without_notes b) | None => None end.
Proof.
  induction ls as [|[] ls IH]; cbn; try rewrite IH; try reflexivity. destruct (last_part p ls); [reflexivity|]. destruct (String.eqb p p0); [|reflexivity]. now rewrite until_notes.
Qed.
Lemma value_notes ls p n : value (without_notes ls) p n = value ls p n.
Proof. unfold value. rewrite part_notes. destruct (last_part p ls); [|reflexivity]. apply last_notes. Qed.

(** Files laid out as sections with items. *)
Definition is_item_line (l : line) : bool := match l with Item _ _ _ | Long _ _ => true | _ => false end.
Definition line_name (l : line) : string := match l with Item n _ _ | Long n _ => n | _ => "" end.
Definition laid_out (ps : list (string * list line)) : list line := flat_map (fun q => Sec (fst q) "" :: snd q) ps.
(** Distinct sections with distinct items. *)
Definition orderly (ps : list (string * list line)) : Prop :=
  NoDup (map fst ps) /\ forall q, In q ps -> Forall (fun l => is_item_line l = true) (snd q) /\ NoDup (map line_name (snd q)).
Definition shuffled (ps ps' : list (string * list line)) : Prop :=
  exists qs, Permutation ps qs /\ Forall2 (fun a b => fst a = fst b /\ Permutation (snd a) (snd b)) qs ps'.
Lemma until_items b r : Forall (fun l => is_item_line l = true) b -> until_section (b ++ match r with [] => [] | q :: r => Sec (fst q) "" :: snd q ++ laid_out r end) = b.
Proof.
  induction 1 as [|l b H _ IH]; [now destruct r|]. destruct l; try discriminate; cbn [app until_section]; now rewrite IH.
Qed.
Lemma laid_cons q r : laid_out (q :: r) = Sec (fst q) "" :: snd q ++ laid_out r.
Proof. reflexivity. Qed.
Lemma part_items b r p : Forall (fun l => is_item_line l = true) b -> last_part p (b ++ r) = last_part p r.
Proof. induction 1 as [|l b H _ IH]; [reflexivity|]. destruct l; try discriminate; exact IH. Qed.
Lemma part_laid ps p : orderly ps -> last_part p (laid_out ps) = assoc p ps.
Proof.
  induction ps as [|[q b] ps IH]; intros (ND & H); [reflexivity|]. cbn [map fst] in ND. apply NoDup_cons_iff in ND as [N ND].
  assert (OR : orderly ps) by (split; [exact ND|intros x I; apply H; now right]). specialize (IH OR). destruct (H (q, b) (or_introl eq_refl)) as (FB & _). cbn [snd] in FB.
  rewrite laid_cons. cbn [fst snd last_part assoc]. rewrite (part_items b _ p FB), IH. destruct (String.eqb_spec p q) as [->|NE].
  - destruct (assoc q ps) eqn:A; [apply assoc_some in A; apply (in_map fst) in A; contradiction|]. f_equal. pose proof (until_items b ps FB) as U. destruct ps; exact U.
  - now destruct (assoc p ps).
Qed.
Lemma last_in b n : Forall (fun l => is_item_line l = true) b -> forall v, last_value n b = Some v -> exists l, In l b /\ line_name l = n.
Proof.
  induction 1 as [|l b H _ IH]; intros v E; [discriminate|]. destruct l as [| m w c | m t | |]; try discriminate; cbn [last_value] in E;
    (destruct (last_value n b) as [y|] eqn:L; [destruct (IH y eq_refl) as (l & I & Q); exists l; split; [now right|exact Q]|]);
    (destruct (String.eqb_spec n m) as [->|]; [|discriminate]; eexists; split; [now left|reflexivity]).
Qed.
Lemma last_one b l n : Forall (fun l => is_item_line l = true) b -> NoDup (map line_name b) -> In l b -> line_name l = n -> last_value n b = last_value n [l].
Proof.
  induction 1 as [|x b H FB IH]; intros ND I E; [contradiction|]. cbn [map] in ND. apply NoDup_cons_iff in ND as [N ND]. destruct I as [->|I].
  - assert (L : last_value n b = None). { destruct (last_value n b) as [y|] eqn:L; [|reflexivity]. apply last_in in L as (q & I & Q); [|exact FB]. exfalso. apply N. rewrite E, <- Q. now apply in_map. }
    destruct l as [| m w c | m t | |]; try discriminate; cbn [last_value]; now rewrite L.
  - specialize (IH ND I E). assert (NE : String.eqb n (line_name x) = false) by (apply eqb_neq; intros Y; apply N; rewrite <- Y, <- E; now apply in_map).
    destruct x as [| m w c | m t | |]; try discriminate; cbn [line_name] in NE; cbn [last_value] in *; rewrite NE, <- IH; now destruct (last_value n b).
Qed.
Lemma last_permuted b b' n : Forall (fun l => is_item_line l = true) b -> NoDup (map line_name b) -> Permutation b b' -> last_value n b = last_value n b'.
Proof.
  intros F ND P. assert (F' : Forall (fun l => is_item_line l = true) b') by (eapply Permutation_Forall; eauto). assert (ND' : NoDup (map line_name b')) by (eapply Permutation_NoDup; [apply Permutation_map; exact P|exact ND]).
  destruct (last_value n b) as [v|] eqn:L.
  - rewrite <- L. destruct (last_in b n F v L) as (l & I & Q). rewrite (last_one b l n F ND I Q). symmetry. apply last_one; auto. eapply Permutation_in; eauto.
  - destruct (last_value n b') as [v|] eqn:L'; [|reflexivity]. destruct (last_in b' n F' v L') as (l & I & Q). rewrite <- L, <- L'. rewrite (last_one b' l n F' ND' I Q). apply last_one; auto. eapply Permutation_in; [symmetry; exact P|exact I].
Qed.
Lemma assoc_permuted {B} (ps qs : list (string * B)) p : NoDup (map fst ps) -> Permutation ps qs -> assoc p ps = assoc p qs.
Proof.
  intros ND P. assert (ND' : NoDup (map fst qs)) by (eapply Permutation_NoDup; [apply Permutation_map; exact P|exact ND]).
  assert (U : forall (xs : list (string * B)) b, NoDup (map fst xs) -> In (p, b) xs -> assoc p xs = Some b).
  { induction xs as [|[q c] xs IH]; intros b N I; [contradiction|]. cbn [map fst] in N. apply NoDup_cons_iff in N as [N1 N2]. cbn [assoc]. destruct I as [[= -> ->]|I]; [now rewrite String.eqb_refl|].
    destruct (String.eqb_spec p q) as [->|]; [exfalso; apply N1; apply (in_map fst) in I; exact I|now apply IH]. }
  destruct (assoc p ps) as [b|] eqn:A.
  - symmetry. apply U; [exact ND'|]. eapply Permutation_in; [exact P|]. now apply assoc_some.
  - destruct (assoc p qs) as [b|] eqn:A'; [|reflexivity]. apply assoc_some in A'. rewrite (U ps b ND) in A; [discriminate|]. eapply Permutation_in; [symmetry; exact P|exact A'].
Qed.
Lemma value_shuffled ps ps' : orderly ps -> shuffled ps ps' -> orderly ps' /\ forall p n, value (laid_out ps) p n = value (laid_out ps') p n.
Proof.
  intros OR (qs & P & F2). assert (OQ : orderly qs).
  { destruct OR as (ND & H). split; [eapply Permutation_NoDup; [apply Permutation_map; exact P|exact ND]|]. intros q I. apply H. eapply Permutation_in; [symmetry; exact P|exact I]. }
  assert (E : forall p, assoc p ps = assoc p qs) by (intros p; apply assoc_permuted; [exact (proj1 OR)|exact P]).
  assert (O' : orderly ps').
  { destruct OQ as (ND & H). split.
    - assert (Y : map fst qs = map fst ps') by (clear - F2; induction F2 as [|a b l l' [E _] _ IH]; cbn; congruence). now rewrite <- Y.
    - intros q I. clear - F2 H I. induction F2 as [|a b l l' [E Q] _ IH]; [contradiction|]. destruct I as [->|I].
      + destruct (H a (or_introl eq_refl)) as (FA & NA). split; [eapply Permutation_Forall; eauto|eapply Permutation_NoDup; [apply Permutation_map; exact Q|exact NA]].
      + apply IH; [|exact I]. intros x J. apply H. now right. }
  split; [exact O'|]. intros p n. unfold value. rewrite (part_laid ps p OR), (part_laid ps' p O'), E. clear - F2 OQ. destruct OQ as (_ & H).
  induction F2 as [|a b l l' [E Q] _ IH]; [reflexivity|]. destruct a as [x a], b as [y b]. cbn [fst snd] in *. subst y. cbn [assoc]. destruct (String.eqb p x).
  - destruct (H (x, a) (or_introl eq_refl)) as (FA & NA). exact (last_permuted a b n FA NA Q).
  - apply IH. intros q I. apply H. now right.
Qed.

(** Lines that are added: items with other names, *)
Lemma until_added l n a b : is_item_line l = true -> line_name l <> n -> last_value n (until_section (a ++ l :: b)) = last_value n (until_section (a ++ b)).
Proof.
  intros IL NE. apply not_eq_sym, eqb_neq in NE. induction a as [|x a IH].
  - cbn [app]. destruct l as [| m w c | m t | |]; try discriminate; cbn [line_name] in NE; cbn [until_section last_value]; rewrite NE; now destruct (last_value n (until_section b)).
  - destruct x as [| m w c | m t | |]; cbn [app until_section last_value]; rewrite ?IH; reflexivity.
Qed.
Lemma part_item_added l n a b p : is_item_line l = true -> line_name l <> n ->
  match last_part p (a ++ l :: b), last_part p (a ++ b) with Some x, Some y => last_value n x = last_value n y | None, None => True | _, _ => False end.
Proof.
  intros IL NE. induction a as [|x a IH].
  - cbn [app]. replace (last_part p (l :: b)) with (last_part p b) by (destruct l; try discriminate; reflexivity). now destruct (last_part p b).
  - destruct x as [q c| | | |]; try exact IH. cbn [app last_part].
    destruct (last_part p (a ++ l :: b)) as [y|], (last_part p (a ++ b)) as [z|]; try contradiction; [exact IH|]. destruct (String.eqb p q); [|exact I]. now apply until_added.
Qed.
Lemma value_item_added l n a b p : is_item_line l = true -> line_name l <> n -> value (a ++ l :: b) p n = value (a ++ b) p n.
Proof.
  intros IL NE. unfold value. pose proof (part_item_added l n a b p IL NE) as H. destruct (last_part p (a ++ l :: b)), (last_part p (a ++ b)); try contradiction; auto.
Qed.
(** and whole sections with other names; [r]: the rest of the file, from the next section on *)
Definition from_section (r : list line) : Prop := match r with [] | Sec _ _ :: _ => True | _ => False end.
Definition no_section (b : list line) : Prop := Forall (fun l => match l with Sec _ _ => False | _ => True end) b.
Lemma part_added q c a b r p : no_section b -> from_section r -> p <> q -> last_part p (a ++ Sec q c :: b ++ r) = last_part p (a ++ r).
Proof.
  intros NB FR NE. apply eqb_neq in NE.
  assert (U : forall a, until_section (a ++ Sec q c :: b ++ r) = until_section (a ++ r)).
  { induction a0 as [|x a0 IH]; [destruct r as [|[]]; try contradiction; reflexivity|]. destruct x; cbn [app until_section]; rewrite ?IH; reflexivity. }
  induction a as [|x a IH].
  - cbn [app last_part]. rewrite NE. assert (E : last_part p (b ++ r) = last_part p r) by (clear - NB; induction NB as [|l b H _ IH]; [reflexivity|]; destruct l; try contradiction; exact IH). rewrite E. now destruct (last_part p r).
  - destruct x; try exact IH. cbn [app last_part]. now rewrite IH, U.
Qed.
Lemma value_section_added q c a b r p n : no_section b -> from_section r -> p <> q -> value (a ++ Sec q c :: b ++ r) p n = value (a ++ r) p n.
Proof. intros NB FR NE. unfold value. now rewrite part_added. Qed.
