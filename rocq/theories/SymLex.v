(** Tokens of the printed lines: the lexer of Cpp.v run once per format string, with
    the inserted names left symbolic. *)
From Coq Require Import String Ascii ZArith NArith Arith List Bool Lia.
From Verif Require Import Base Fmt Templates Emit Cpp.
Import ListNotations.
Local Open Scope string_scope.
Local Open Scope list_scope.

(** *** Names *)
Fixpoint all_chars (p : ascii -> bool) (s : string) : bool :=
  match s with EmptyString => true | String c r => p c && all_chars p r end.
(** A C++ identifier. *)
Definition ident (s : string) : bool :=
  match s with String c r => is_alpha c && all_chars is_idc r | EmptyString => false end.
(** Text that can stand in a string literal, a comment or a directive. *)
Definition plain_chr (c : ascii) : bool := negb ((c =? nl) || (c =? """") || (c =? "\"))%char.
Definition plain (s : string) : bool := all_chars plain_chr s.
(** An identifier that is not a keyword. *)
Definition name_ok (s : string) : bool :=
  (ident s && match assoc s keywords with None => true | Some _ => false end)%bool.

Lemma sapp_nil_r s : (s ++ "")%string = s.
Proof. induction s; simpl; congruence. Qed.
Lemma sapp_assoc a b c : ((a ++ b) ++ c)%string = (a ++ b ++ c)%string.
Proof. induction a; simpl; congruence. Qed.

(** *** Symbolic strings *)
Inductive sa := SC (s : string) | SV (n : nat).
Definition eva (env : list string) (a : sa) : string := match a with SC s => s | SV n => nth n env "" end.
Fixpoint evs (env : list string) (x : list sa) : string :=
  match x with
  | [] => ""
  | [a] => eva env a
  | a :: r => (eva env a ++ evs env r)%string
  end.
Lemma evs_cons env a r : evs env (a :: r) = (eva env a ++ evs env r)%string.
Proof. destruct r; simpl; [now rewrite sapp_nil_r | reflexivity]. Qed.
Lemma evs_app env x y : evs env (x ++ y) = (evs env x ++ evs env y)%string.
Proof. induction x as [|a x IH]; [reflexivity|]. rewrite <- app_comm_cons, !evs_cons, IH, sapp_assoc. reflexivity. Qed.

Fixpoint ssnoc (x : list sa) (c : ascii) : list sa :=
  match x with
  | [] => [SC (String c "")]
  | [SC s] => [SC (snoc s c)]
  | a :: r => a :: ssnoc r c
  end.
Lemma ssnoc_ev env x c : evs env (ssnoc x c) = snoc (evs env x) c.
Proof.
  induction x as [|a x IH]; [reflexivity|].
  destruct x as [|b x].
  - destruct a; simpl; [reflexivity|]. reflexivity.
  - replace (ssnoc (a :: b :: x) c) with (a :: ssnoc (b :: x) c) by (destruct a; reflexivity).
    rewrite evs_cons, IH, (evs_cons env a). unfold snoc. now rewrite sapp_assoc.
Qed.

(** *** Symbolic lexer *)
Inductive stok := KId (x : list sa) | KStr (x : list sa) | KTok (t : tok).
Inductive smode := Z0 | ZId (x : list sa) | ZNum (s : string) | ZStr (x : list sa) | ZEsc (x : list sa)
  | ZChr (s : string) | ZOp (c : ascii) (p : punct) | ZSlash | ZLine | ZDir.

Definition evm (env : list string) (m : smode) : mode :=
  match m with
  | Z0 => M0 | ZId x => MId (evs env x) | ZNum s => MNum s | ZStr x => MStr (evs env x)
  | ZEsc x => MEsc (evs env x) | ZChr s => MChr s | ZOp c p => MOp c p
  | ZSlash => MSlash | ZLine => MLine | ZDir => MDir
  end.
Definition evt (env : list string) (t : stok) : tok :=
  match t with KId x => classify (evs env x) | KStr x => TStr (evs env x) | KTok t => t end.

Definition sstart (c : ascii) : option (smode * list stok) :=
  match start c with
  | (M0, ts) => Some (Z0, map KTok ts)
  | (MId s, ts) => Some (ZId [SC s], map KTok ts)
  | (MNum s, ts) => Some (ZNum s, map KTok ts)
  | (MStr s, ts) => Some (ZStr [], map KTok ts)
  | (MChr s, ts) => Some (ZChr s, map KTok ts)
  | (MOp a p, ts) => Some (ZOp a p, map KTok ts)
  | (MSlash, ts) => Some (ZSlash, map KTok ts)
  | (MDir, ts) => Some (ZDir, map KTok ts)
  | _ => None
  end.
Definition safter (t : stok) (c : ascii) : option (smode * list stok) :=
  let? (m, ts) := sstart c in Some (m, t :: ts).

Definition sstep (m : smode) (c : ascii) : option (smode * list stok) :=
  match m with
  | Z0 => sstart c
  | ZId x => if is_idc c then Some (ZId (ssnoc x c), []) else safter (KId x) c
  | ZNum s => if is_digit c then Some (ZNum (snoc s c), []) else safter (KTok (TNum s)) c
  | ZStr x =>
      if (c =? """")%char then Some (Z0, [KStr x])
      else if (c =? "\")%char then Some (ZEsc x, [])
      else if (c =? nl)%char then None
      else Some (ZStr (ssnoc x c), [])
  | ZEsc x =>
      if (c =? "n")%char then Some (ZStr (ssnoc x nl), [])
      else if (c =? "t")%char then Some (ZStr (ssnoc x tab), [])
      else if ((c =? """") || (c =? "\"))%char then Some (ZStr (ssnoc x c), [])
      else None
  | ZChr s =>
      if (c =? "'")%char then Some (Z0, [KTok (TChr s)])
      else if ((c =? "\") || (c =? nl))%char then None else Some (ZChr (snoc s c), [])
  | ZOp a p => match double a c with Some q => Some (Z0, [KTok (TP q)]) | None => safter (KTok (TP p)) c end
  | ZSlash => if (c =? "/")%char then Some (ZLine, []) else None
  | ZLine => Some (if (c =? nl)%char then Z0 else ZLine, [])
  | ZDir => Some (if (c =? nl)%char then Z0 else ZDir, [])
  end.

Lemma sstart_ok env c m ts : sstart c = Some (m, ts) -> start c = (evm env m, map (evt env) ts).
Proof.
  unfold sstart, start. intros H.
  assert (G : forall l : list tok, map (evt env) (map KTok l) = l)
    by (intros l; induction l; simpl; congruence).
  destruct (is_blank c); [inversion H; reflexivity|].
  destruct (is_alpha c); [inversion H; reflexivity|].
  destruct (is_digit c); [inversion H; reflexivity|].
  destruct (single c); [inversion H; reflexivity|].
  destruct (starter c); [inversion H; reflexivity|].
  destruct c as [[] [] [] [] [] [] [] []]; inversion H; reflexivity.
Qed.
Lemma safter_ok env t c m ts : safter t c = Some (m, ts) -> after (evt env t) c = (evm env m, map (evt env) ts).
Proof.
  unfold safter, after. destruct (sstart c) as [[m' ts']|] eqn:E; [|discriminate]. intros H; inversion H; subst.
  rewrite (sstart_ok env _ _ _ E). reflexivity.
Qed.
Lemma sstep_ok env m c m' ts : sstep m c = Some (m', ts) -> step (evm env m) c = (evm env m', map (evt env) ts).
Proof.
  destruct m; simpl; intros H.
  - now apply sstart_ok.
  - destruct (is_idc c); [inversion H; simpl; now rewrite ssnoc_ev | exact (safter_ok env (KId x) c m' ts H)].
  - destruct (is_digit c); [inversion H; reflexivity | exact (safter_ok env (KTok (TNum s)) c m' ts H)].
  - destruct (c =? """")%char; [inversion H; reflexivity|].
    destruct (c =? "\")%char; [inversion H; reflexivity|].
    destruct (c =? nl)%char; [discriminate|]. inversion H; simpl; now rewrite ssnoc_ev.
  - destruct (c =? "n")%char; [inversion H; simpl; now rewrite ssnoc_ev|].
    destruct (c =? "t")%char; [inversion H; simpl; now rewrite ssnoc_ev|].
    destruct ((c =? """") || (c =? "\"))%char; [inversion H; simpl; now rewrite ssnoc_ev | discriminate].
  - destruct (c =? "'")%char; [inversion H; reflexivity|].
    destruct ((c =? "\") || (c =? nl))%char; [discriminate | inversion H; reflexivity].
  - destruct (double c0 c); [inversion H; reflexivity | exact (safter_ok env (KTok (TP p)) c m' ts H)].
  - destruct (c =? "/")%char; [inversion H; reflexivity | discriminate].
  - destruct (c =? nl)%char; inversion H; reflexivity.
  - destruct (c =? nl)%char; inversion H; reflexivity.
Qed.

Fixpoint slit (m : smode) (s : string) : option (smode * list stok) :=
  match s with
  | EmptyString => Some (m, [])
  | String c r => let? (m1, t1) := sstep m c in let? (m2, t2) := slit m1 r in Some (m2, t1 ++ t2)
  end.
Lemma slit_ok env s : forall m m' ts, slit m s = Some (m', ts) -> run (evm env m) s = (evm env m', map (evt env) ts).
Proof.
  induction s as [|c s IH]; intros m m' ts H; simpl in *; [inversion H; reflexivity|].
  destruct (sstep m c) as [[m1 t1]|] eqn:E; [|discriminate].
  destruct (slit m1 s) as [[m2 t2]|] eqn:F; [|discriminate]. inversion H; subst.
  rewrite (sstep_ok env _ _ _ _ E), (IH _ _ _ F), map_app. reflexivity.
Qed.

(** What an inserted text is: a name that is no keyword, or any text that may stand in a
    string literal. *)
Inductive akind := AId | ATxt.
Definition kind_ok (k : akind) (s : string) : bool := match k with AId => name_ok s | ATxt => plain s end.
Fixpoint args_ok (ks : list akind) (args : list string) : bool :=
  match ks, args with
  | [], [] => true
  | k :: r, a :: b => (kind_ok k a && args_ok r b)%bool
  | _, _ => false
  end.

Definition sarg (ks : list akind) (m : smode) (n : nat) : option (smode * list stok) :=
  let? k := nth_error ks n in
  match m with
  | Z0 => match k with AId => Some (ZId [SV n], []) | ATxt => None end
  | ZId x => match k with AId => Some (ZId (x ++ [SV n]), []) | ATxt => None end
  | ZOp _ p => match k with AId => Some (ZId [SV n], [KTok (TP p)]) | ATxt => None end
  | ZStr x => Some (ZStr (x ++ [SV n]), [])
  | ZLine => Some (ZLine, [])
  | ZDir => Some (ZDir, [])
  | _ => None
  end.
Fixpoint srun (ks : list akind) (m : smode) (ps : list piece) : option (smode * list stok) :=
  match ps with
  | [] => Some (m, [])
  | p :: r =>
      let? (m1, t1) := match p with Lit s => slit m s | Arg n => sarg ks m n end in
      let? (m2, t2) := srun ks m1 r in Some (m2, t1 ++ t2)
  end.

(** *** Running over names *)
Lemma alpha_facts c : is_alpha c = true -> is_blank c = false /\ is_digit c = false /\ double "-" c = None.
Proof. destruct c as [[] [] [] [] [] [] [] []]; try discriminate; repeat split; reflexivity. Qed.
Lemma alpha_start c : is_alpha c = true -> start c = (MId (String c ""), []).
Proof. intros H. destruct (alpha_facts c H) as (A & _ & _). unfold start. now rewrite A, H. Qed.
Lemma alpha_double a c : is_alpha c = true -> double a c = None.
Proof.
  intros H. destruct c as [[] [] [] [] [] [] [] []]; try discriminate H;
  destruct a as [[] [] [] [] [] [] [] []]; reflexivity.
Qed.
Lemma run_app m a b : run m (a ++ b)%string = let (m1, t1) := run m a in let (m2, t2) := run m1 b in (m2, t1 ++ t2).
Proof.
  revert m; induction a as [|c a IH]; intros m; simpl.
  - now destruct (run m b).
  - destruct (step m c) as [m1 t1]. rewrite IH. destruct (run m1 a) as [m2 t2]. destruct (run m2 b) as [m3 t3].
    now rewrite app_assoc.
Qed.
Lemma run_idc s : forall a, all_chars is_idc s = true -> run (MId a) s = (MId (a ++ s)%string, []).
Proof.
  induction s as [|c s IH]; intros a H; simpl in *; [now rewrite sapp_nil_r|].
  apply andb_prop in H as [H1 H2]. rewrite H1, IH by exact H2. unfold snoc. now rewrite sapp_assoc.
Qed.
Lemma ident_idc s : ident s = true -> all_chars is_idc s = true.
Proof.
  destruct s as [|c s]; [discriminate|]. simpl. intros H. apply andb_prop in H as [H1 H2].
  rewrite H2. unfold is_idc. now rewrite H1.
Qed.
Lemma run_ident s : ident s = true -> run M0 s = (MId s, []).
Proof.
  destruct s as [|c s]; [discriminate|]. cbn [ident run step]. intros H. apply andb_prop in H as [H1 H2].
  rewrite alpha_start by exact H1. now rewrite (run_idc _ _ H2).
Qed.
Lemma run_op_ident a p s : ident s = true -> run (MOp a p) s = (MId s, [TP p]).
Proof.
  destruct s as [|c s]; [discriminate|]. cbn [ident run step]. intros H. apply andb_prop in H as [H1 H2].
  rewrite alpha_double by exact H1. unfold after. rewrite alpha_start by exact H1. now rewrite (run_idc _ _ H2).
Qed.
Lemma plain_chr_facts c : plain_chr c = true -> (c =? """")%char = false /\ (c =? "\")%char = false /\ (c =? nl)%char = false.
Proof.
  unfold plain_chr. destruct (c =? nl)%char, (c =? """")%char, (c =? "\")%char; try discriminate; auto.
Qed.
Lemma run_str s : forall a, plain s = true -> run (MStr a) s = (MStr (a ++ s)%string, []).
Proof.
  induction s as [|c s IH]; intros a H; simpl in *; [now rewrite sapp_nil_r|].
  apply andb_prop in H as [H1 H2]. apply plain_chr_facts in H1 as (A & B & C). rewrite A, B, C.
  rewrite IH by exact H2. unfold snoc. now rewrite sapp_assoc.
Qed.
Lemma run_line s : plain s = true -> run MLine s = (MLine, []).
Proof.
  induction s as [|c s IH]; intros H; simpl in *; [reflexivity|].
  apply andb_prop in H as [H1 H2]. apply plain_chr_facts in H1 as (A & B & C). now rewrite C, IH.
Qed.
Lemma run_dir s : plain s = true -> run MDir s = (MDir, []).
Proof.
  induction s as [|c s IH]; intros H; simpl in *; [reflexivity|].
  apply andb_prop in H as [H1 H2]. apply plain_chr_facts in H1 as (A & B & C). now rewrite C, IH.
Qed.
Lemma all_chars_imp (p q : ascii -> bool) s : (forall c, p c = true -> q c = true) -> all_chars p s = true -> all_chars q s = true.
Proof.
  intros H. induction s; simpl; [reflexivity|]. intros G. apply andb_prop in G as [A B].
  rewrite H by exact A. now apply IHs.
Qed.
Lemma idc_plain c : is_idc c = true -> plain_chr c = true.
Proof. destruct c as [[] [] [] [] [] [] [] []]; try discriminate; reflexivity. Qed.
Lemma ident_plain s : ident s = true -> plain s = true.
Proof. intros H. eapply all_chars_imp; [exact idc_plain | now apply ident_idc]. Qed.
Lemma name_ok_ident s : name_ok s = true -> ident s = true.
Proof. unfold name_ok. intros H. now apply andb_prop in H as [H _]. Qed.
Lemma kind_plain k s : kind_ok k s = true -> plain s = true.
Proof. destruct k; simpl; [intros; now apply ident_plain, name_ok_ident | auto]. Qed.

Lemma args_ok_nth ks : forall args n k, args_ok ks args = true -> nth_error ks n = Some k ->
  nth_error args n = Some (nth n args "") /\ kind_ok k (nth n args "") = true.
Proof.
  induction ks as [|k0 ks IH]; intros args n k H E; [destruct n; discriminate|].
  destruct args as [|a args]; [discriminate|]. simpl in H. apply andb_prop in H as [H1 H2].
  destruct n; simpl in *; [inversion E; subst; auto | now apply IH].
Qed.

Lemma sarg_ok ks args m n m' ts : args_ok ks args = true -> sarg ks m n = Some (m', ts) ->
  nth_error args n = Some (nth n args "") /\
  run (evm args m) (nth n args "") = (evm args m', map (evt args) ts).
Proof.
  unfold sarg. intros A H. destruct (nth_error ks n) as [k|] eqn:E; [|discriminate].
  destruct (args_ok_nth ks args n k A E) as [N K]. split; [exact N|].
  destruct m; try discriminate.
  - destruct k; [|discriminate]. inversion H; subst. simpl. now apply run_ident, name_ok_ident.
  - destruct k; [|discriminate]. inversion H; subst. simpl. rewrite evs_app. simpl.
    now apply run_idc, ident_idc, name_ok_ident.
  - inversion H; subst. simpl. rewrite evs_app. simpl. apply run_str. now apply kind_plain in K.
  - destruct k; [|discriminate]. inversion H; subst. simpl. now apply run_op_ident, name_ok_ident.
  - inversion H; subst. simpl. apply run_line. now apply kind_plain in K.
  - inversion H; subst. simpl. apply run_dir. now apply kind_plain in K.
Qed.

Lemma srun_ok ks args : args_ok ks args = true -> forall ps m m' ts, srun ks m ps = Some (m', ts) ->
  exists t, fill ps args = Some t /\ run (evm args m) t = (evm args m', map (evt args) ts).
Proof.
  intros A. induction ps as [|p ps IH]; intros m m' ts H; simpl in *.
  - inversion H; subst. exists ""%string. auto.
  - destruct (match p with Lit s => slit m s | Arg n => sarg ks m n end) as [[m1 t1]|] eqn:E; [|discriminate].
    destruct (srun ks m1 ps) as [[m2 t2]|] eqn:F; [|discriminate]. inversion H; subst.
    destruct (IH _ _ _ F) as (t & T1 & T2). destruct p as [s|n].
    + exists (s ++ t)%string. rewrite T1. split; [reflexivity|].
      rewrite run_app, (slit_ok args _ _ _ _ E), T2, map_app. reflexivity.
    + destruct (sarg_ok ks args m n m1 t1 A E) as [N R]. exists (nth n args "" ++ t)%string.
      rewrite N, T1. split; [reflexivity|]. rewrite run_app, R, T2, map_app. reflexivity.
Qed.

(** *** Which identifiers are keywords *)
Lemma name_ok_classify s : name_ok s = true -> classify s = TId s.
Proof.
  unfold name_ok, classify. intros H. apply andb_prop in H as [_ H].
  destruct (assoc s keywords); [discriminate | reflexivity].
Qed.
Lemma assoc_none {A} x (l : list (string * A)) : (forall k v, In (k, v) l -> x <> k) -> assoc x l = None.
Proof.
  induction l as [|[k v] l IH]; intros H; simpl; [reflexivity|].
  destruct (String.eqb_spec x k) as [E|E].
  - exfalso. exact (H k v (or_introl eq_refl) E).
  - apply IH. intros k' v' G. apply (H k' v'). now right.
Qed.
Lemma prefix_app p s : prefix p (p ++ s)%string = true.
Proof. induction p as [|c p IH]; simpl; [now destruct s|]. destruct (ascii_dec c c); [exact IH | congruence]. Qed.
Definition no_kw_prefix (p : string) : bool := forallb (fun k => negb (prefix p (fst k))) keywords.
Lemma classify_prefix p s : no_kw_prefix p = true -> classify (p ++ s)%string = TId (p ++ s)%string.
Proof.
  intros H. unfold classify. rewrite assoc_none; [reflexivity|]. intros k v I E.
  unfold no_kw_prefix in H. rewrite forallb_forall in H. specialize (H _ I). simpl in H. rewrite <- E, prefix_app in H. discriminate.
Qed.
Fixpoint srev (s acc : string) : string := match s with EmptyString => acc | String c r => srev r (String c acc) end.
Lemma srev_app s : forall t acc, srev (s ++ t)%string acc = srev t (srev s acc).
Proof. induction s as [|c s IH]; intros t acc; simpl; [reflexivity|]. apply IH. Qed.
Lemma srev_acc s : forall acc, srev s acc = (srev s "" ++ acc)%string.
Proof.
  induction s as [|c s IH]; intros acc; simpl; [reflexivity|].
  rewrite IH, (IH (String c "")), sapp_assoc. reflexivity.
Qed.
Definition no_kw_suffix (p : string) : bool := forallb (fun k => negb (prefix (srev p "") (srev (fst k) ""))) keywords.
Lemma classify_suffix p s : no_kw_suffix p = true -> classify (s ++ p)%string = TId (s ++ p)%string.
Proof.
  intros H. unfold classify. rewrite assoc_none; [reflexivity|]. intros k v I E.
  unfold no_kw_suffix in H. rewrite forallb_forall in H. specialize (H _ I). simpl in H.
  rewrite <- E, srev_app, (srev_acc p (srev s "")), prefix_app in H. discriminate.
Qed.

(** *** Tokens with the keywords decided *)
Inductive ntok := NId (x : list sa) | NStr (x : list sa) | NTok (t : tok).
Definition evn (env : list string) (t : ntok) : tok :=
  match t with NId x => TId (evs env x) | NStr x => TStr (evs env x) | NTok t => t end.
Definition norm1 (ks : list akind) (t : stok) : option ntok :=
  match t with
  | KTok t => Some (NTok t)
  | KStr x => Some (NStr x)
  | KId [SC s] => Some (NTok (classify s))
  | KId [SV n] => match nth_error ks n with Some AId => Some (NId [SV n]) | _ => None end
  | KId (SC p :: r) => if no_kw_prefix p then Some (NId (SC p :: r)) else None
  | KId [a; SC p] => if no_kw_suffix p then Some (NId [a; SC p]) else None
  | KId _ => None
  end.
Fixpoint norm (ks : list akind) (l : list stok) : option (list ntok) :=
  match l with
  | [] => Some []
  | t :: r => let? a := norm1 ks t in let? b := norm ks r in Some (a :: b)
  end.
Lemma norm1_ok ks args t a : args_ok ks args = true -> norm1 ks t = Some a -> evt args t = evn args a.
Proof.
  intros A H. destruct t as [x|x|t]; [|inversion H; reflexivity|inversion H; reflexivity].
  destruct x as [|a1 [|a2 x]]; [discriminate| |].
  - destruct a1 as [s|n]; [inversion H; reflexivity|]. simpl in H.
    destruct (nth_error ks n) as [[]|] eqn:E; try discriminate. inversion H; subst.
    destruct (args_ok_nth ks args n AId A E) as [_ K]. simpl. now apply name_ok_classify.
  - destruct a1 as [s|n].
    + unfold norm1 in H. destruct (no_kw_prefix s) eqn:E; [|discriminate]. inversion H; subst.
      unfold evt, evn. rewrite evs_cons. now apply classify_prefix.
    + destruct a2 as [s|]; [|discriminate]. destruct x; [|discriminate]. simpl in H.
      destruct (no_kw_suffix s) eqn:E; [|discriminate]. inversion H; subst. simpl. now apply classify_suffix.
Qed.
Lemma norm_ok ks args l : forall r, args_ok ks args = true -> norm ks l = Some r -> map (evt args) l = map (evn args) r.
Proof.
  induction l as [|t l IH]; intros r A H; simpl in H; [inversion H; reflexivity|].
  destruct (norm1 ks t) as [a|] eqn:E; [|discriminate]. destruct (norm ks l) as [b|] eqn:F; [|discriminate].
  inversion H; subst. simpl. now rewrite (norm1_ok _ _ _ _ A E), (IH b A eq_refl).
Qed.

(** *** Commands *)
(** Symbolic tokens of the line printed by a template. *)
Definition ctoks (ks : list akind) (t : template) : option (list ntok) :=
  let? ps := t in
  match srun ks Z0 (ps ++ [Lit NL]) with Some (Z0, ts) => norm ks ts | _ => None end.

Definition lexes (cs : list cmd) (ts : list tok) : Prop :=
  exists t, render T_cpp cs = Some t /\ run M0 t = (M0, ts).

Lemma fill_app ps qs args : fill (ps ++ qs) args = let? a := fill ps args in let? b := fill qs args in Some (a ++ b)%string.
Proof.
  induction ps as [|p ps IH]; simpl.
  - now destruct (fill qs args).
  - destruct p as [s|n].
    + rewrite IH. destruct (fill ps args); [|reflexivity]. destruct (fill qs args); [|reflexivity]. now rewrite sapp_assoc.
    + destruct (nth_error args n); [|reflexivity]. rewrite IH. destruct (fill ps args); [|reflexivity].
      destruct (fill qs args); [|reflexivity]. now rewrite sapp_assoc.
Qed.

Lemma lexes_cmd ks t args ts : ctoks ks t = Some ts -> args_ok ks args = true ->
  lexes [Cmd T_cpp t args] (map (evn args) ts).
Proof.
  unfold ctoks. intros H A. destruct t as [ps|]; [|discriminate].
  destruct (srun ks Z0 (ps ++ [Lit NL])) as [[m l]|] eqn:E; [|discriminate].
  destruct m; try discriminate.
  destruct (srun_ok ks args A _ _ _ _ E) as (x & F & R). exists x.
  rewrite (norm_ok _ _ _ _ A H) in R. split; [|exact R].
  rewrite fill_app in F. unfold render, println, format. simpl.
  destruct (fill ps args) as [a|]; [|discriminate]. simpl in F. inversion F. now rewrite !sapp_nil_r.
Qed.
Lemma lexes_nil : lexes [] [].
Proof. exists ""%string. auto. Qed.
Lemma render_app to a b : render to (a ++ b) = let? x := render to a in let? y := render to b in Some (x ++ y)%string.
Proof.
  induction a as [|c a IH]; simpl; [now destruct (render to b)|].
  destruct (to_eqb (c_to c) to); [|exact IH].
  destruct (println (c_t c) (c_args c)); [|reflexivity]. rewrite IH.
  destruct (render to a); [|reflexivity]. destruct (render to b); [|reflexivity]. now rewrite sapp_assoc.
Qed.
Lemma lexes_app a b x y : lexes a x -> lexes b y -> lexes (a ++ b) (x ++ y).
Proof.
  intros (s & A1 & A2) (t & B1 & B2). exists (s ++ t)%string.
  rewrite render_app, A1, B1, run_app, A2, B2. auto.
Qed.
Lemma lexes_cons c b x y : lexes [c] x -> lexes b y -> lexes (c :: b) (x ++ y).
Proof. apply (lexes_app [c] b). Qed.
Lemma lexes_skip c : to_eqb (c_to c) T_cpp = false -> lexes [c] [].
Proof. intros H. exists ""%string. simpl. rewrite H. auto. Qed.
Lemma lexes_skip_cons c b y : to_eqb (c_to c) T_cpp = false -> lexes b y -> lexes (c :: b) y.
Proof. intros H G. apply (lexes_app [c] b [] y); [now apply lexes_skip | exact G]. Qed.
Lemma lexes_flat {A} (f : A -> list cmd) (g : A -> list tok) l :
  (forall a, In a l -> lexes (f a) (g a)) -> lexes (flat_map f l) (flat_map g l).
Proof.
  induction l as [|a l IH]; intros H; simpl; [apply lexes_nil|].
  apply lexes_app; [apply H; now left | apply IH; intros; apply H; now right].
Qed.

Lemma lexes_lex cs ts : lexes cs ts -> exists t, render T_cpp cs = Some t /\ lex t = Some ts.
Proof. intros (t & A & B). exists t. split; [exact A|]. unfold lex. now rewrite B. Qed.

