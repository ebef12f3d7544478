(** The positions of LRSim.v against the grammar of Grammar.v. *)
From Coq Require Import String Ascii ZArith NArith Arith List Bool Lia.
From Verif Require Import Base Flex BisonTables Items Decimal Bison Grammar LR LRSim Parse.
Import ListNotations.
Local Open Scope list_scope.

(** Tokens read so far for the current member. *)
Definition mtoks (m : mpart) : list token :=
  match m with
  | M0 => []
  | MUns => [tk_unsigned]
  | MTy t => type_tokens t
  | MTyName t n => type_tokens t ++ [tk_name n]
  | MTyOpen t n => type_tokens t ++ [tk_name n; tk_lbrace]
  | MTyVal t n v => type_tokens t ++ [tk_name n; tk_lbrace; dvalue_token v]
  | MTyClosed t n d => type_tokens t ++ tk_name n :: dflt_tokens d
  | MUs t => [tk_name t]
  | MUsName t n => [tk_name t; tk_name n]
  | MUsOpen t n => [tk_name t; tk_name n; tk_lbrace]
  | MUsVal t n v => [tk_name t; tk_name n; tk_lbrace; dvalue_token v]
  | MUsClosed t n d => tk_name t :: tk_name n :: dflt_tokens d
  | MVec => [tk_vector]
  | MVecLt => [tk_vector; tk_lt]
  | MVecName t => [tk_vector; tk_lt; tk_name t]
  | MVecGt t => [tk_vector; tk_lt; tk_name t; tk_gt]
  | MVecDecl t n => [tk_vector; tk_lt; tk_name t; tk_gt; tk_name n]
  end.

Definition shead (n : string) : list token := [tk_struct; tk_name n; tk_lbrace].
Definition ehead (c : bool) (n : string) (es : list entry) : list token :=
  enum_head c n ++ tk_lbrace :: concat (map closed_entry es).

Definition ptoks (p : pst) : list token :=
  match p with
  | PTop => []
  | PEnum => [tk_enum]
  | PClass => [tk_enum; tk_class]
  | PHead c n => enum_head c n
  | PEBody c n es => ehead c n es
  | PEName c n es x => ehead c n es ++ [tk_name x]
  | PEEq c n es x => ehead c n es ++ [tk_name x; tk_equals]
  | PEEnt c n es x k => ehead c n es ++ [tk_name x; tk_equals; constant_token k]
  | PEEnd c n es t => enum_head c n ++ tk_lbrace :: entries_tokens es t ++ [tk_rbrace]
  | PStruct => [tk_struct]
  | PSHead n => [tk_struct; tk_name n]
  | PSBody n ms m => shead n ++ concat (map member_tokens ms) ++ mtoks m
  | PSEnd n ms => shead n ++ concat (map member_tokens ms) ++ [tk_rbrace]
  end.

Definition pcalls (p : pst) : list call :=
  match p with
  | PTop | PEnum | PClass | PStruct => []
  | PHead c n => [CEnum n c]
  | PEBody c n es | PEName c n es _ | PEEq c n es _ | PEEnd c n es _ => CEnum n c :: map entry_call es
  | PEEnt c n es x k => CEnum n c :: map entry_call es ++ [entry_call (Entry x (Some k))]
  | PSHead n => [CStruct n]
  | PSBody n ms _ | PSEnd n ms => CStruct n :: map member_call ms
  end.

Definition wfp (p : pst) : Prop :=
  match p with
  | PEEnd _ _ es _ => es <> []
  | PSEnd _ ms => ms <> []
  | PSBody _ _ (MTyClosed _ _ d) | PSBody _ _ (MUsClosed _ _ d) => d <> NoDefault
  | _ => True
  end.

Lemma entries_closed es : es <> [] -> entries_tokens es true = concat (map closed_entry es).
Proof.
  induction es as [|e es IH]; intros H; [congruence|]. cbn [map concat].
  destruct es as [|e2 es]; [cbn; rewrite app_nil_r; reflexivity|].
  change (entries_tokens (e :: e2 :: es) true) with (entry_tokens e ++ tk_comma :: entries_tokens (e2 :: es) true).
  rewrite IH by discriminate. unfold closed_entry at 2. rewrite <- app_assoc. reflexivity.
Qed.

Lemma entries_open es e : entries_tokens (es ++ [e]) false = concat (map closed_entry es) ++ entry_tokens e.
Proof.
  induction es as [|e1 es IH]; [cbn [app map concat entries_tokens]; apply app_nil_r|].
  cbn [app map concat]. destruct es as [|e2 es].
  - cbn [app map concat] in *. rewrite app_nil_r. unfold closed_entry. rewrite <- app_assoc.
    change (entries_tokens [e1; e] false) with (entry_tokens e1 ++ tk_comma :: entries_tokens [e] false).
    cbn [entries_tokens]. rewrite app_nil_r. reflexivity.
  - change ((e2 :: es) ++ [e]) with (e2 :: (es ++ [e])) in *.
    change (entries_tokens (e1 :: e2 :: es ++ [e]) false) with
      (entry_tokens e1 ++ tk_comma :: entries_tokens (e2 :: es ++ [e]) false).
    rewrite IH. unfold closed_entry at 2. rewrite <- !app_assoc. reflexivity.
Qed.

Lemma concat_snoc {A B} (f : A -> list B) l x : concat (map f (l ++ [x])) = concat (map f l) ++ f x.
Proof. rewrite map_app, concat_app. cbn. rewrite app_nil_r. reflexivity. Qed.

Lemma good_kw k v : good_token (Tok k v) -> (k < 24)%N -> v = None.
Proof. intros [_ H] Hk. cbn in H. destruct v; [lia|reflexivity]. Qed.
Lemma good_txt k v : good_token (Tok k v) -> (24 <= k)%N -> exists s, v = Some s.
Proof. intros [_ H] Hk. cbn in H. destruct v; [eauto|lia]. Qed.

(** Every token by its kind. *)
Lemma good_ind' (P : token -> Prop) :
  P tk_lbrace -> P tk_rbrace -> P tk_equals -> P tk_comma -> P tk_semi -> P tk_lt -> P tk_gt ->
  P tk_enum -> P tk_class -> P tk_struct -> P tk_int -> P tk_short -> P tk_long -> P tk_unsigned ->
  P tk_float -> P tk_double -> P tk_bool -> P tk_true -> P tk_false -> P tk_string -> P tk_vector ->
  (forall s, P (tk_name s)) -> (forall s, P (tk_enum_value s)) -> (forall s, P (tk_value s)) ->
  (forall s, P (tk_hex s)) -> (forall s, P (tk_fvalue s)) -> (forall s, P (tk_str s)) ->
  (forall s, P (tk_char s)) -> forall t, good_token t -> P t.
Proof. intros. pattern t. revert t H27. apply good_ind; [|intros s]; repeat first [apply Forall_nil | apply Forall_cons; [first [assumption | exact (H20 s) | exact (H21 s) | exact (H22 s) | exact (H23 s) | exact (H24 s) | exact (H25 s) | exact (H26 s)]|]]. Qed.

Lemma tc (A : list token) x y : A ++ x :: y = (A ++ [x]) ++ y.
Proof. rewrite <- app_assoc. reflexivity. Qed.

Lemma nil_iff {A} (l : list A) x r : l = x :: r -> l <> [].
Proof. congruence. Qed.

(** One transition. *)
Lemma delta_sound p t p' ds cs : good_token t -> wfp p -> delta p t = Some (p', ds, cs) ->
  ptoks p ++ [t] = file_tokens ds ++ ptoks p' /\
  pcalls p ++ cs = file_calls ds ++ pcalls p' /\ Forall wf_def ds /\ wfp p'.
Proof.
  intros Hg Hw. revert p' ds cs. pattern t. revert t Hg.
  apply good_ind'; intros; revert H;
    (destruct p; cbn [delta mdelta const_of dvalue_of type_of uns_of t_kind kw tk_lbrace tk_rbrace tk_equals tk_comma tk_semi tk_lt tk_gt
  tk_enum tk_class tk_struct tk_int tk_short tk_long tk_unsigned tk_float tk_double tk_bool tk_true tk_false
  tk_string tk_vector tk_name tk_enum_value tk_value tk_hex tk_fvalue tk_str tk_char text t_val]; try discriminate);
    try (destruct m; cbn [mdelta type_of uns_of dvalue_of const_of t_kind text t_val]; try discriminate);
    try (lazymatch goal with |- context [is_nil ?l] => destruct l eqn:El; cbn [is_nil]; [discriminate|]; rewrite <- El in *; apply nil_iff in El end);
    intros [= <- <- <-];
    cbn [ptoks pcalls file_tokens file_calls map concat app wfp mtoks] in *;
    (split; [|split; [|split; [repeat constructor; auto|auto]]]); try reflexivity.
  all: try discriminate.
  all: try (intros HH; apply app_eq_nil in HH as [_ HH]; discriminate HH).
  all: unfold ehead; rewrite ?entries_open, ?map_app, ?concat_app, ?map_app; rewrite ?entries_closed by assumption.
  all: cbn [map concat def_tokens def_calls member_tokens member_call closed_entry entry_tokens en_name en_val
            type_tokens dflt_tokens dvalue_token constant_token dflt_text]; rewrite ?app_nil_r.
  all: rewrite <- ?app_assoc; cbn [app]; rewrite <- ?app_assoc; cbn [app]; rewrite <- ?app_assoc; try reflexivity.
Qed.

Fixpoint drun (p : pst) (ts : list token) : option (pst * list def * list call) :=
  match ts with
  | [] => Some (p, [], [])
  | t :: r =>
      let? (p1, ds, cs) := delta p t in
      let? (p2, ds', cs') := drun p1 r in
      Some (p2, ds ++ ds', cs ++ cs')
  end.

Lemma drun_app a b : forall p,
  drun p (a ++ b) =
  let? (p1, ds, cs) := drun p a in
  let? (p2, ds', cs') := drun p1 b in Some (p2, ds ++ ds', cs ++ cs').
Proof.
  induction a as [|t a IH]; intros p; cbn [app drun].
  - destruct (drun p b) as [[[? ?] ?]|]; reflexivity.
  - destruct (delta p t) as [[[p1 ds] cs]|]; [|reflexivity]. rewrite IH.
    destruct (drun p1 a) as [[[p2 ds2] cs2]|]; [|reflexivity].
    destruct (drun p2 b) as [[[p3 ds3] cs3]|]; [|reflexivity]. rewrite !app_assoc. reflexivity.
Qed.

Lemma drun_sound ts : forall p p' ds cs, Forall good_token ts -> wfp p -> drun p ts = Some (p', ds, cs) ->
  ptoks p ++ ts = file_tokens ds ++ ptoks p' /\
  pcalls p ++ cs = file_calls ds ++ pcalls p' /\ Forall wf_def ds /\ wfp p'.
Proof.
  induction ts as [|t ts IH]; intros p p' ds cs Hg Hw; cbn [drun].
  - intros [= <- <- <-]. rewrite !app_nil_r. auto.
  - inversion Hg; subst. destruct (delta p t) as [[[p1 ds1] cs1]|] eqn:Ed; [|discriminate].
    destruct (drun p1 ts) as [[[p2 ds2] cs2]|] eqn:Er; [|discriminate]. intros [= <- <- <-].
    destruct (delta_sound p t p1 ds1 cs1) as (A & B & C & D); auto.
    destruct (IH p1 p2 ds2 cs2) as (A' & B' & C' & D'); auto.
    rewrite tc, A, app_assoc, B. unfold file_tokens, file_calls in *. rewrite !map_app, !concat_app.
    rewrite <- !app_assoc, A', B'. repeat split; auto. apply Forall_app. auto.
Qed.

Lemma drun_member n ms m :
  drun (PSBody n ms M0) (member_tokens m) = Some (PSBody n (ms ++ [m]) M0, [], [member_call m]).
Proof.
  destruct m as [ty x d|ty x d|ty x]; [destruct ty| |reflexivity].
  all: destruct d as [| |v]; [reflexivity|reflexivity|destruct v; reflexivity].
Qed.

Lemma drun_members n ms : forall ms0,
  drun (PSBody n ms0 M0) (concat (map member_tokens ms)) =
  Some (PSBody n (ms0 ++ ms) M0, [], map member_call ms).
Proof.
  induction ms as [|m ms IH]; intros ms0; cbn [map concat].
  - cbn [drun]. rewrite app_nil_r. reflexivity.
  - rewrite drun_app, drun_member, IH. rewrite <- app_assoc. reflexivity.
Qed.

Lemma drun_closed c n es e :
  drun (PEBody c n es) (closed_entry e) = Some (PEBody c n (es ++ [e]), [], [entry_call e]).
Proof. destruct e as [x [[s|s|s]|]]; reflexivity. Qed.

Lemma drun_entries c n es : forall es0,
  drun (PEBody c n es0) (concat (map closed_entry es)) =
  Some (PEBody c n (es0 ++ es), [], map entry_call es).
Proof.
  induction es as [|m ms IH]; intros es0; cbn [map concat].
  - cbn [drun]. rewrite app_nil_r. reflexivity.
  - rewrite drun_app, drun_closed, IH. rewrite <- app_assoc. reflexivity.
Qed.

Lemma not_nil {A} (l : list A) : l <> [] -> is_nil l = false.
Proof. destruct l; [congruence|reflexivity]. Qed.

Lemma drun_last c n es e :
  drun (PEBody c n es) (entry_tokens e ++ [tk_rbrace; tk_semi]) =
  Some (PTop, [DefEnum c n (es ++ [e]) false], [entry_call e]).
Proof. destruct e as [x [[s|s|s]|]]; reflexivity. Qed.

Lemma drun_def d : wf_def d -> drun PTop (def_tokens d) = Some (PTop, [d], def_calls d).
Proof.
  destruct d as [c n es t|n ms]; cbn [wf_def def_tokens def_calls]; intros Hw.
  - change (tk_lbrace :: ?x) with ([tk_lbrace] ++ x). rewrite (app_assoc (enum_head c n)), drun_app.
    assert (E : drun PTop (enum_head c n ++ [tk_lbrace]) = Some (PEBody c n [], [], [CEnum n c]))
      by (destruct c; reflexivity).
    rewrite E. destruct t.
    + rewrite entries_closed by auto. rewrite drun_app, drun_entries. cbn [app].
      change [tk_rbrace; tk_semi] with ([tk_rbrace] ++ [tk_semi]). rewrite drun_app.
      cbn [drun delta t_kind kw tk_rbrace]. rewrite (not_nil es Hw). cbn. rewrite app_nil_r. reflexivity.
    + destruct (exists_last Hw) as (es' & e & ->).
      rewrite entries_open, <- app_assoc, drun_app, drun_entries. cbn [app]. rewrite drun_last.
      rewrite map_app. reflexivity.
  - rewrite drun_app. cbn [drun delta t_kind kw tk_struct tk_name tk_lbrace text t_val app].
    rewrite drun_app, drun_members. cbn [app].
    change [tk_rbrace; tk_semi] with ([tk_rbrace] ++ [tk_semi]). rewrite drun_app.
    cbn [drun delta mdelta t_kind kw tk_rbrace]. rewrite (not_nil ms Hw). cbn. rewrite app_nil_r. reflexivity.
Qed.

Lemma drun_file ds : Forall wf_def ds -> drun PTop (file_tokens ds) = Some (PTop, ds, file_calls ds).
Proof.
  induction 1 as [|d ds Hd Hds IH]; [reflexivity|]. unfold file_tokens, file_calls in *. cbn [map concat].
  rewrite drun_app, drun_def, IH by auto. reflexivity.
Qed.

(** What the run does is determined by [drun]. *)
Lemma tparse_all its : forall p d fin p' ds cs, drun p (map i_tok its) = Some (p', ds, cs) ->
  tparse p d its fin =
  match p', (length ds + d)%nat with
  | PTop, S _ => (cs, [], concat (map i_evs its) ++ snd fin, 0%Z)
  | _, _ => (cs ++ pending p', [error_text (fst fin) (msg 0 (expect p' (length ds + d)))],
             concat (map i_evs its) ++ snd fin, 1%Z)
  end.
Proof.
  induction its as [|i its IH]; intros p d fin p' ds cs; cbn [map drun tparse].
  - intros [= <- <- <-]. destruct p; try reflexivity.
  - destruct (delta p (i_tok i)) as [[[p1 ds1] cs1]|]; [|discriminate].
    destruct (drun p1 (map i_tok its)) as [[[p2 ds2] cs2]|] eqn:E; [|discriminate].
    intros [= <- <- <-]. rewrite (IH p1 (length ds1 + d)%nat fin _ _ _ E).
    rewrite app_length. replace (length ds1 + length ds2 + d)%nat with (length ds2 + (length ds1 + d))%nat by lia.
    cbn [concat]. destruct p2; try (rewrite <- !app_assoc; reflexivity).
    destruct (length ds2 + (length ds1 + d))%nat; rewrite <- !app_assoc; reflexivity.
Qed.

Lemma tparse_stuck its : forall p d fin, drun p (map i_tok its) = None ->
  exists its1 i its2 p' ds cs, its = its1 ++ i :: its2 /\ drun p (map i_tok its1) = Some (p', ds, cs) /\
    delta p' (i_tok i) = None /\
    tparse p d its fin =
    (cs ++ pending p',
     [error_text (i_loc i) (msg (Z.of_N (t_kind (i_tok i))) (expect p' (length ds + d)))],
     concat (map i_evs its1) ++ i_evs i, 1%Z).
Proof.
  induction its as [|i its IH]; intros p d fin; cbn [map drun tparse]; [discriminate|].
  destruct (delta p (i_tok i)) as [[[p1 ds1] cs1]|] eqn:Ed.
  - destruct (drun p1 (map i_tok its)) as [[[p2 ds2] cs2]|] eqn:E; [discriminate|]. intros _.
    destruct (IH p1 (length ds1 + d)%nat fin E) as (its1 & j & its2 & p' & ds & cs & -> & H1 & H2 & H3).
    exists (i :: its1), j, its2, p', (ds1 ++ ds), (cs1 ++ cs). rewrite H3. split; [reflexivity|].
    cbn [map drun concat]. rewrite Ed, H1. split; [reflexivity|]. split; [exact H2|].
    rewrite app_length. replace (length ds1 + length ds + d)%nat with (length ds + (length ds1 + d))%nat by lia.
    rewrite <- !app_assoc. reflexivity.
  - intros _. exists [], i, its, p, [], []. auto.
Qed.

(** Every position can be completed. *)
Ltac good := repeat constructor; cbn; try lia; try discriminate.

Lemma finish_struct n ms : ms <> [] ->
  drun (PSBody n ms M0) [tk_rbrace; tk_semi] = Some (PTop, [DefStruct n ms], []).
Proof. intros H. cbn [drun delta mdelta t_kind kw tk_rbrace]. rewrite not_nil by auto. reflexivity. Qed.

Definition finish_member (m : mpart) : list token :=
  match m with
  | M0 => [tk_int; tk_name ""; tk_semi]
  | MUns => [tk_int; tk_name ""; tk_semi]
  | MTy _ | MUs _ => [tk_name ""; tk_semi]
  | MTyName _ _ | MUsName _ _ => [tk_semi]
  | MTyOpen _ _ | MUsOpen _ _ => [tk_rbrace; tk_semi]
  | MTyVal _ _ _ | MUsVal _ _ _ => [tk_rbrace; tk_semi]
  | MTyClosed _ _ _ | MUsClosed _ _ _ => [tk_semi]
  | MVec => [tk_lt; tk_name ""; tk_gt; tk_name ""; tk_semi]
  | MVecLt => [tk_name ""; tk_gt; tk_name ""; tk_semi]
  | MVecName _ => [tk_gt; tk_name ""; tk_semi]
  | MVecGt _ => [tk_name ""; tk_semi]
  | MVecDecl _ _ => [tk_semi]
  end.

Lemma finish_member_ok n ms m : exists mb,
  drun (PSBody n ms m) (finish_member m) = Some (PSBody n (ms ++ [mb]) M0, [], [member_call mb]).
Proof. destruct m; eexists; reflexivity. Qed.

Definition finish (p : pst) : list token :=
  let e := [tk_rbrace; tk_semi] in
  match p with
  | PTop => [tk_enum; tk_name ""; tk_lbrace; tk_name ""] ++ e
  | PEnum | PClass => [tk_name ""; tk_lbrace; tk_name ""] ++ e
  | PHead _ _ => [tk_lbrace; tk_name ""] ++ e
  | PEBody _ _ _ => tk_name "" :: e
  | PEName _ _ _ _ | PEEnt _ _ _ _ _ => e
  | PEEq _ _ _ _ => tk_value "" :: e
  | PEEnd _ _ _ _ | PSEnd _ _ => [tk_semi]
  | PStruct => tk_name "" :: tk_lbrace :: finish_member M0 ++ e
  | PSHead _ => tk_lbrace :: finish_member M0 ++ e
  | PSBody _ _ m => finish_member m ++ e
  end.

Lemma finish_good p : Forall good_token (finish p).
Proof. destruct p as [| | | | | | | | | | |n ms m|]; try (good; fail). destruct m; good. Qed.

Lemma finish_ok p : exists d cs, drun p (finish p) = Some (PTop, [d], cs).
Proof.
  destruct p as [| | | | | | | | | | |n ms m|]; try (do 2 eexists; reflexivity).
  destruct (finish_member_ok n ms m) as (mb & E). cbn [finish].
  rewrite drun_app, E. rewrite finish_struct by (intros H; apply app_eq_nil in H as [_ H]; discriminate).
  do 2 eexists. reflexivity.
Qed.

Lemma good_tokens_def d : Forall good_token (def_tokens d).
Proof.
  destruct d as [c n es t|n ms]; cbn [def_tokens].
  - apply Forall_app. split; [destruct c; good|]. constructor; [good|]. apply Forall_app. split; [|good].
    induction es as [|e es IH]; [constructor|].
    assert (He : Forall good_token (entry_tokens e)) by (destruct e as [x [[s|s|s]|]]; good).
    destruct es as [|e2 es].
    + cbn [entries_tokens]. apply Forall_app. split; [exact He|]. destruct t; good.
    + change (entries_tokens (e :: e2 :: es) t) with (entry_tokens e ++ tk_comma :: entries_tokens (e2 :: es) t).
      apply Forall_app. split; [exact He|]. constructor; [good|exact IH].
  - apply Forall_app. split; [good|]. apply Forall_app. split; [|good].
    induction ms as [|m ms IH]; [constructor|]. cbn [map concat]. apply Forall_app. split; [|exact IH].
    destruct m as [ty x [| |[]]|ty x [| |[]]|ty x]; try (good; fail); destruct ty; good.
Qed.

Lemma good_tokens_file ds : Forall good_token (file_tokens ds).
Proof.
  induction ds as [|d ds IH]; [constructor|]. unfold file_tokens in *. cbn [map concat].
  apply Forall_app. split; [apply good_tokens_def|exact IH].
Qed.

Lemma wfp_top : wfp PTop.
Proof. exact I. Qed.

(** A prefix that can be read is the beginning of a valid file. *)
Lemma drun_viable ts p ds cs : Forall good_token ts -> drun PTop ts = Some (p, ds, cs) -> viable ts.
Proof.
  intros Hg H. destruct (finish_ok p) as (d & cs' & Hf).
  assert (Ha : drun PTop (ts ++ finish p) = Some (PTop, ds ++ [d], cs ++ cs'))
    by (rewrite drun_app, H, Hf; reflexivity).
  destruct (drun_sound _ _ _ _ _ (proj2 (Forall_app _ _ _) (conj Hg (finish_good p))) wfp_top Ha) as (A & _ & C & _).
  cbn in A. rewrite app_nil_r in A. exists (ds ++ [d]), (finish p). split; [|symmetry; exact A].
  split; [intros E; apply app_eq_nil in E as [_ E]; discriminate|exact C].
Qed.

Lemma viable_drun ts : viable ts -> exists p ds cs, drun PTop ts = Some (p, ds, cs).
Proof.
  intros (ds & more & [_ Hw] & E). pose proof (drun_file ds Hw) as H. rewrite E, drun_app in H.
  destruct (drun PTop ts) as [[[p ds1] cs1]|]; [eauto|discriminate].
Qed.

(** Names in the message can really follow. *)
Lemma expect_sound p d k : wfp p -> In k (expect p d) ->
  (k = 0%Z /\ p = PTop /\ d <> O) \/
  exists t, good_token t /\ Z.of_N (t_kind t) = k /\ delta p t <> None.
Proof.
  intros Hw Hk.
  assert (G : forall t, good_token t -> Z.of_N (t_kind t) = k -> delta p t <> None ->
    (k = 0%Z /\ p = PTop /\ d <> O) \/ exists t, good_token t /\ Z.of_N (t_kind t) = k /\ delta p t <> None) by eauto.
  assert (Hcases : (k = 0%Z /\ p = PTop /\ d <> O) \/
     exists t, In t [tk_lbrace; tk_rbrace; tk_semi; tk_lt; tk_gt; tk_enum; tk_class; tk_struct; tk_int;
       tk_short; tk_long; tk_name ""; tk_value ""; tk_hex ""; tk_char ""] /\ Z.of_N (t_kind t) = k /\ delta p t <> None).
  { destruct p; cbn [expect] in Hk.
    12: destruct m.
    all: try (destruct d).
    all: try (destruct es as [|e0 es0]; cbn [is_nil] in Hk).
    all: try (destruct ms as [|m0 ms0]; cbn [is_nil] in Hk).
    all: cbn [In] in Hk; repeat (destruct Hk as [Hk|Hk]; [subst k|]); try contradiction.
    all: try (left; repeat split; auto; discriminate).
    all: right.
    all: first
     [ exists tk_lbrace; split; [cbn; tauto|split; [reflexivity|discriminate]]
     | exists tk_rbrace; split; [cbn; tauto|split; [reflexivity|discriminate]]
     | exists tk_semi; split; [cbn; tauto|split; [reflexivity|discriminate]]
     | exists tk_lt; split; [cbn; tauto|split; [reflexivity|discriminate]]
     | exists tk_gt; split; [cbn; tauto|split; [reflexivity|discriminate]]
     | exists tk_enum; split; [cbn; tauto|split; [reflexivity|discriminate]]
     | exists tk_class; split; [cbn; tauto|split; [reflexivity|discriminate]]
     | exists tk_struct; split; [cbn; tauto|split; [reflexivity|discriminate]]
     | exists tk_int; split; [cbn; tauto|split; [reflexivity|discriminate]]
     | exists tk_short; split; [cbn; tauto|split; [reflexivity|discriminate]]
     | exists tk_long; split; [cbn; tauto|split; [reflexivity|discriminate]]
     | exists (tk_name ""); split; [cbn; tauto|split; [reflexivity|discriminate]]
     | exists (tk_value ""); split; [cbn; tauto|split; [reflexivity|discriminate]]
     | exists (tk_hex ""); split; [cbn; tauto|split; [reflexivity|discriminate]]
     | exists (tk_char ""); split; [cbn; tauto|split; [reflexivity|discriminate]] ]. }
  destruct Hcases as [H|(t & Ht & H1 & H2)]; [left; exact H|].
  right. exists t. repeat split; auto;
  cbn [In] in Ht; repeat (destruct Ht as [Ht|Ht]; [subst t; cbn; lia|]); contradiction.
Qed.

(** The partial definition in the terms of the grammar. *)
Lemma mtoks_prefix m : (forall ty x, m <> MTyClosed ty x NoDefault) -> (forall ty x, m <> MUsClosed ty x NoDefault) ->
  exists mb q, member_tokens mb = mtoks m ++ q /\ q <> [].
Proof.
  intros H1 H2. destruct m as [| |t|t n|t n|t n v|t n d|t|t n|t n|t n v|t n d| | |t|t|t n]; cbn [mtoks].
  - exists (MVector "" ""). eexists. split; [reflexivity|discriminate].
  - exists (MSimple unsigned_int_E "" NoDefault). eexists. split; [reflexivity|discriminate].
  - exists (MSimple t "" NoDefault). eexists. split; [reflexivity|discriminate].
  - exists (MSimple t n NoDefault), [tk_semi]. split; [cbn [member_tokens]; rewrite <- app_assoc; reflexivity|discriminate].
  - exists (MSimple t n EmptyDefault), [tk_rbrace; tk_semi]. split; [cbn [member_tokens]; rewrite <- app_assoc; reflexivity|discriminate].
  - exists (MSimple t n (Default v)), [tk_rbrace; tk_semi]. split; [cbn [member_tokens]; rewrite <- app_assoc; reflexivity|discriminate].
  - exists (MSimple t n d), [tk_semi]. split; [cbn [member_tokens]; rewrite <- app_assoc; reflexivity|discriminate].
  - exists (MUser t "" NoDefault). eexists. split; [reflexivity|discriminate].
  - exists (MUser t n NoDefault). eexists. split; [reflexivity|discriminate].
  - exists (MUser t n EmptyDefault). eexists. split; [reflexivity|discriminate].
  - exists (MUser t n (Default v)). eexists. split; [reflexivity|discriminate].
  - exists (MUser t n d), [tk_semi]. split; [reflexivity|discriminate].
  - exists (MVector "" ""). eexists. split; [reflexivity|discriminate].
  - exists (MVector "" ""). eexists. split; [reflexivity|discriminate].
  - exists (MVector t ""). eexists. split; [reflexivity|discriminate].
  - exists (MVector t ""). eexists. split; [reflexivity|discriminate].
  - exists (MVector t n). eexists. split; [reflexivity|discriminate].
Qed.

Lemma unfinished_at p : wfp p -> unfinished (ptoks p) (pcalls p ++ pending p).
Proof.
  intros Hw. destruct p; cbn [ptoks pcalls pending]; rewrite ?app_nil_r.
  - constructor.
  - constructor.
  - constructor.
  - constructor.
  - unfold ehead. pose proof (U_enum_body c n es _ _ EP_none) as H. rewrite !app_nil_r in H. exact H.
  - unfold ehead. pose proof (U_enum_body c n es _ _ (EP_name x)) as H. rewrite <- app_assoc. exact H.
  - unfold ehead. pose proof (U_enum_body c n es _ _ (EP_eq x)) as H. rewrite app_nil_r in H. rewrite <- app_assoc. exact H.
  - unfold ehead. pose proof (U_enum_body c n es _ _ (EP_full x k)) as H. rewrite <- app_assoc. exact H.
  - apply U_enum_end. exact Hw.
  - constructor.
  - constructor.
  - destruct (mtoks_prefix m) as (mb & q & E & Hq).
    + intros ty x ->. cbn in Hw. congruence.
    + intros ty x ->. cbn in Hw. congruence.
    + eapply U_struct_body; eauto.
  - apply U_struct_end. exact Hw.
Qed.
