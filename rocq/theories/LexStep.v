(** Tools to derive facts about token streams: stepping lemmas and finite
    reachability over derivative vectors. *)
From Coq Require Import String Ascii NArith Arith List Bool Lia.
From Verif Require Import Base Regex LexRules FlexTables Flex LexCorrect LexWhole LexLoc.
Import ListNotations.
Local Open Scope N_scope.

(** Token sequence of a text, scanned from a given start condition; locations and
    printed events left out. *)
Definition tokens_from (sc : scond) (bol : bool) (cs : bytes) : option (list token) :=
  let? (its, _, _) := tokenize (S (length cs)) (Lexer (start_of sc) bol cs) loc0 in
  Some (map i_tok its).

(** The token a rule returns (independent of the location). *)
Definition rtok (r : rule) (x : bytes) : list token :=
  match snd (sact r x loc0) with Some t => [t] | None => [] end.

Lemma sact_tok_indep r x l l' : In r rules -> snd (sact r x l) = snd (sact r x l').
Proof.
  intros H. apply rule_nums in H. change (map r_num rules) with nums in H.
  unfold sact, nums in *. cbn [In] in H.
  repeat (destruct H as [H|H]; [rewrite <- H; reflexivity|]). destruct H.
Qed.

Lemma interp_toks ls : forall l evs,
  (forall r x, In (r, x) ls -> In r rules) ->
  map i_tok (fst (fst (interp ls l evs))) = flat_map (fun rx => rtok (fst rx) (snd rx)) ls.
Proof.
  induction ls as [|[r x] ls IH]; intros l evs Hin; cbn [interp]; auto.
  assert (Hin' : forall r0 x0, In (r0, x0) ls -> In r0 rules) by (intros; eapply Hin; right; eauto).
  cbn [flat_map fst snd]. unfold rtok at 1.
  rewrite (sact_tok_indep r x loc0 l (Hin r x (or_introl eq_refl))).
  destruct (sact r x l) as [[l' ev] tk]. cbn [snd].
  destruct tk as [t|].
  - specialize (IH l' [] Hin'). destruct (interp ls l' []) as [[its le] ee].
    cbn [fst map i_tok app] in *. rewrite IH. reflexivity.
  - cbn [app]. apply IH; auto.
Qed.

Lemma tokens_from_lexes sc bol cs :
  exists ls, lexes sc bol cs ls /\
             tokens_from sc bol cs = Some (flat_map (fun rx => rtok (fst rx) (snd rx)) ls).
Proof.
  destruct (tokenize_spec (S (length cs)) sc bol cs loc0 (le_n _)) as (ls & Hl & Ht).
  exists ls. split; auto. unfold tokens_from. rewrite Ht.
  pose proof (interp_toks ls loc0 [] (lexes_in _ _ _ _ Hl)) as H.
  destruct (interp ls loc0 []) as [[its le] ee]. cbn [fst] in H. rewrite H. reflexivity.
Qed.

Definition prepend (ts : list token) (o : option (list token)) : option (list token) :=
  option_map (app ts) o.

(** Scanning starts with the lexeme [x] of rule [r]. *)
Definition takes (sc : scond) (bol : bool) (x rest : bytes) (r : rule) : Prop :=
  x <> [] /\ In r rules /\ active sc bol r = true /\
  best (init_vec sc bol) (x ++ rest) 0 None = Some (r_num r, (length x + r_trail r)%nat).

Lemma takes_longest sc bol x rest r :
  takes sc bol x rest r -> longest_first sc bol (x ++ rest) r (length x + r_trail r).
Proof.
  intros (Hx & Hin & Hact & Hb).
  destruct (best_spec (x ++ rest) (init_vec sc bol) 0 None (init_sorted sc bol))
    as [[H1 _]|(a & k & H1 & H2 & H3)].
  - rewrite Hb in H1. discriminate.
  - rewrite Hb in H1. injection H1 as Ha Hk. subst a. cbn in Hk. subst k.
    apply vmatches_init in H2 as (r' & Hr & Hm).
    assert (r' = r) by (destruct Hm as (A & B & _); eapply rule_unique; eauto). subst r'.
    split; auto. intros r' n' Hm'. apply H3. apply vmatches_init. eauto.
Qed.

Lemma takes_step sc bol x rest r :
  takes sc bol x rest r ->
  tokens_from sc bol (x ++ rest) =
  prepend (rtok r x) (tokens_from (next_sc r sc) (ends_nl x) rest).
Proof.
  intros Ht. pose proof (takes_longest _ _ _ _ _ Ht) as Hl. destruct Ht as (Hx & Hin & _).
  destruct (tokens_from_lexes (next_sc r sc) (ends_nl x) rest) as (ls & Hls & ->).
  destruct (tokens_from_lexes sc bol (x ++ rest)) as (ls2 & Hls2 & ->).
  assert (E : ls2 = (r, x) :: ls).
  { eapply lexes_det; [exact Hls2|]. econstructor; eauto. lia. }
  rewrite E. reflexivity.
Qed.

(** ** Running vectors over text *)

Definition run (v : vec) (w : bytes) : vec := fold_left (fun u c => dv c u) w v.

Lemma run_app v a b : run v (a ++ b) = run (run v a) b.
Proof. unfold run. apply fold_left_app. Qed.

Lemma run_known w : forall v, vknown v -> vknown (run v w).
Proof.
  induction w as [|c w IH]; intros v Hv; [exact Hv|]. apply (IH (dv c v)). apply dv_known; auto.
Qed.

Lemma run_nil w : run [] w = [].
Proof. induction w; cbn; auto. Qed.

Lemma best_run w : forall v rest n last,
  exists last', best v (w ++ rest) n last = best (run v w) rest (n + length w)%nat last'.
Proof.
  induction w as [|c w IH]; intros v rest n last; cbn.
  - exists last. rewrite Nat.add_0_r. reflexivity.
  - destruct (IH (dv c v) rest (S n) (if first_null v =? 0 then last else Some (first_null v, n)))
      as (last' & H). exists last'. rewrite H. f_equal. lia.
Qed.

(** No extension of the match. *)
Lemma best_noext rest : forall v n last,
  (forall p q, rest = p ++ q -> p <> [] -> first_null (run v p) = 0) ->
  best v rest n last = if first_null v =? 0 then last else Some (first_null v, n).
Proof.
  induction rest as [|c rest IH]; intros v n last H; cbn [best]; auto.
  rewrite IH.
  - pose proof (H [c] rest eq_refl ltac:(discriminate)) as H0.
    change (run v [c]) with (dv c v) in H0. rewrite H0. reflexivity.
  - intros p q E Hp. apply (H (c :: p) q); [cbn; congruence | discriminate].
Qed.

Lemma best_word w rest v n last :
  first_null (run v w) <> 0 ->
  (forall p q, rest = p ++ q -> p <> [] -> first_null (run (run v w) p) = 0) ->
  best v (w ++ rest) n last = Some (first_null (run v w), (n + length w)%nat).
Proof.
  intros H1 H2. destruct (best_run w v rest n last) as (last' & ->).
  rewrite best_noext; auto. apply N.eqb_neq in H1. rewrite H1. reflexivity.
Qed.

(** ** Finite reachability *)

(** A byte predicate that only depends on the character class. *)
Definition cls_inv (P : ascii -> bool) : Prop :=
  forall c k, class_of c = Some k -> P c = P (repf k).

Definition cls_check (P : ascii -> bool) : bool :=
  forallb (fun c => match class_of c with Some k => Bool.eqb (P c) (P (repf k)) | None => true end)
          all_bytes.

Lemma cls_check_ok P : cls_check P = true -> cls_inv P.
Proof.
  intros H c k Hk. unfold cls_check in H. rewrite forallb_forall in H.
  specialize (H c (all_bytes_in c)). rewrite Hk in H. apply eqb_prop; auto.
Qed.

Definition mem_vec (v : vec) (S : list vec) : bool := existsb (vec_eqb v) S.

Lemma mem_vec_in v S : mem_vec v S = true -> In v S.
Proof.
  unfold mem_vec. intros H. apply existsb_exists in H as (u & Hin & H).
  apply vec_eqb_eq in H; subst; auto.
Qed.

(** Every byte of [P] leads from [S] into [T]. *)
Definition step_check (P : ascii -> bool) (S T : list vec) : bool :=
  forallb (fun v => forallb (fun kc => negb (P (snd kc)) || mem_vec (dv (snd kc) v) T) reps) S.

Lemma step_check_ok P S T v c :
  cls_inv P -> step_check P S T = true -> vknown v -> In v S -> P c = true -> In (dv c v) T.
Proof.
  intros HP Hs Hv Hin Hc. destruct (class_rep c) as (k & Hk & Hr & Hsame).
  rewrite (dv_same c (repf k) v Hv Hsame).
  unfold step_check in Hs. rewrite forallb_forall in Hs. specialize (Hs _ Hin).
  rewrite forallb_forall in Hs. specialize (Hs _ Hr). cbn [snd] in Hs.
  rewrite <- (HP c k Hk), Hc in Hs. cbn in Hs. apply mem_vec_in; auto.
Qed.

Lemma closed_ok P S w : forall v,
  cls_inv P -> step_check P S S = true -> vknown v -> In v S -> forallb P w = true ->
  In (run v w) S.
Proof.
  induction w as [|c w IH]; intros v HP Hs Hv Hin Hw; cbn in *; auto.
  apply andb_true_iff in Hw as [Hc Hw]. apply IH; auto using dv_known.
  eapply step_check_ok; eauto.
Qed.

(** Bytes outside [P] kill every vector of [S]. *)
Definition dead_check (P : ascii -> bool) (S : list vec) : bool :=
  forallb (fun v => forallb (fun kc => P (snd kc) ||
     match dv (snd kc) v with [] => true | _ => false end) reps) S.

Lemma dead_check_ok P S v c :
  cls_inv P -> dead_check P S = true -> vknown v -> In v S -> P c = false -> dv c v = [].
Proof.
  intros HP Hs Hv Hin Hc. destruct (class_rep c) as (k & Hk & Hr & Hsame).
  rewrite (dv_same c (repf k) v Hv Hsame).
  unfold dead_check in Hs. rewrite forallb_forall in Hs. specialize (Hs _ Hin).
  rewrite forallb_forall in Hs. specialize (Hs _ Hr). cbn [snd] in Hs.
  rewrite <- (HP c k Hk), Hc in Hs. cbn in Hs. destruct (dv (repf k) v); auto; discriminate.
Qed.

(* states reached from [todo] through bytes of [P] *)
Fixpoint explore_vec (P : ascii -> bool) (fuel : nat) (todo seen : list vec) : list vec :=
  match fuel with
  | O => seen
  | S f =>
      match todo with
      | [] => seen
      | v :: todo' =>
          if mem_vec v seen then explore_vec P f todo' seen
          else explore_vec P f
                 (map (fun kc => dv (snd kc) v) (filter (fun kc => P (snd kc)) reps) ++ todo')
                 (v :: seen)
      end
  end.

Definition after (P : ascii -> bool) (S : list vec) : list vec :=
  flat_map (fun v => map (fun kc => dv (snd kc) v) (filter (fun kc => P (snd kc)) reps)) S.

Lemma run_dead v w : v = [] -> first_null (run v w) = 0.
Proof. intros ->. rewrite run_nil. reflexivity. Qed.
