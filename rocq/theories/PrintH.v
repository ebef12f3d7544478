(** The generated headers, read back: what they declare. *)
From Coq Require Import String Ascii ZArith NArith Arith List Bool Lia.
From Verif Require Import Base Map Items Fmt Templates Emit Cpp CppH SymLex SymParse Ast HeadSpec PrintXa PrintEnum PrintFile.
Import ListNotations.
Local Open Scope string_scope.
Local Open Scope list_scope.

(** *** Lines of the header *)
Definition hlexes (cs : list cmd) (ts : list tok) : Prop := exists t, render T_h cs = Some t /\ run M0 t = (M0, ts).
Lemma hlexes_of t args ts : lexes [Cmd T_cpp t args] ts -> hlexes [Cmd T_h t args] ts.
Proof. exact (fun H => H). Qed.
Lemma hlexes_nil : hlexes [] [].
Proof. exists ""%string. auto. Qed.
Lemma hlexes_app a b x y : hlexes a x -> hlexes b y -> hlexes (a ++ b) (x ++ y).
Proof.
  intros (s & A1 & A2) (t & B1 & B2). exists (s ++ t)%string.
  rewrite render_app, A1, B1, run_app, A2, B2. auto.
Qed.
Definition no_h (cs : list cmd) : bool := forallb (fun c => negb (to_eqb (c_to c) T_h)) cs.
Lemma hlexes_other cs : no_h cs = true -> hlexes cs [].
Proof.
  induction cs as [|c cs IH]; intros H; [apply hlexes_nil|]. unfold no_h in *. cbn [forallb] in H. apply andb_prop in H as [H1 H2].
  destruct (IH H2) as (t & A & B). exists t. cbn [render]. apply negb_true_iff in H1. now rewrite H1.
Qed.
Lemma no_h_app a b : no_h (a ++ b) = (no_h a && no_h b)%bool.
Proof. apply forallb_app. Qed.
Lemma no_h_join a b : no_h a = true -> no_h b = true -> no_h (a ++ b) = true.
Proof. rewrite no_h_app. intros A B. now rewrite A, B. Qed.
Lemma no_h_cons c b : no_h [c] = true -> no_h b = true -> no_h (c :: b) = true.
Proof. apply (no_h_join [c]). Qed.
Lemma no_h_flat {A} (f : A -> list cmd) l : (forall a, no_h (f a) = true) -> no_h (flat_map f l) = true.
Proof. intros H. induction l as [|a l IH]; [reflexivity|]. cbn [flat_map]. now rewrite no_h_app, H, IH. Qed.
Lemma no_h_map {A} (f : A -> cmd) l : (forall a, no_h [f a] = true) -> no_h (map f l) = true.
Proof. intros H. induction l as [|a l IH]; [reflexivity|]. cbn [map]. change (f a :: map f l) with ([f a] ++ map f l). now rewrite no_h_app, H, IH. Qed.

(** *** Members of a class *)
Definition PM (a : access) (ts : list tok) (ms : list (access * hmember)) (a' : access) : Prop :=
  exists k, k <= length ts /\
    forall f rest, p_members (k + f) a (ts ++ rest) = let? (l, r) := p_members f a' rest in Some (ms ++ l, r).
Lemma PM_nil a : PM a [] [] a.
Proof. exists 0. split; [auto|]. intros f rest. cbn. now destruct (p_members f a rest) as [[l r]|]. Qed.
Lemma PM_app a b c x y s t : PM a s x b -> PM b t y c -> PM a (s ++ t) (x ++ y) c.
Proof.
  intros (k & A1 & A2) (j & B1 & B2). exists (k + j). rewrite app_length. split; [lia|]. intros f rest.
  rewrite <- app_assoc, <- Nat.add_assoc, A2, B2. destruct (p_members f c rest) as [[l r]|]; [now rewrite app_assoc | reflexivity].
Qed.
Lemma PM_flat {A} a (g : A -> list tok) (h : A -> list (access * hmember)) l :
  (forall x, In x l -> PM a (g x) (h x) a) -> PM a (flat_map g l) (flat_map h l) a.
Proof.
  induction l as [|x l IH]; intros H; cbn; [apply PM_nil|].
  apply PM_app with a; [apply H; now left | apply IH; intros; apply H; now right].
Qed.
Lemma PM_one a t ts m : (forall rest, p_close (t :: ts ++ rest) = None /\ p_access (t :: ts ++ rest) = None /\
  p_hmember (t :: ts ++ rest) = Some (m, rest)) -> PM a (t :: ts) [(a, m)] a.
Proof.
  intros H. exists 1. split; [cbn; lia|]. intros f rest. destruct (H rest) as (A & B & C).
  cbn [Nat.add p_members app]. now rewrite A, B, C.
Qed.
Lemma PM_acc a a' t ts : (forall rest, p_close (t :: ts ++ rest) = None /\ p_access (t :: ts ++ rest) = Some (a', rest)) -> PM a (t :: ts) [] a'.
Proof.
  intros H. exists 1. split; [cbn; lia|]. intros f rest. destruct (H rest) as (A & B).
  cbn [Nat.add p_members app]. rewrite A, B. now destruct (p_members f a' rest) as [[l r]|].
Qed.
Ltac pm_one := apply PM_one; intros; repeat split; reflexivity.
Ltac pm_acc := apply PM_acc; intros; repeat split; reflexivity.
(** Splits off the first [k] tokens. *)
Ltac pm_split k :=
  match goal with |- PM ?a ?ts ?ms ?b =>
    let x := eval cbv [firstn] in (firstn k ts) in
    let y := eval cbv [skipn] in (skipn k ts) in
    change (PM a (x ++ y) ms b) end.
Ltac pm_label k := pm_split k; eapply (PM_app _ _ _ []); [pm_acc|].
Ltac pm_member k := pm_split k; match goal with |- PM ?a _ (?m :: ?r) ?b => eapply (PM_app _ _ _ [m] r); [pm_one|] end.

(** *** Declarations of a header *)
Definition PH (ts : list tok) (ds : list hdecl) : Prop :=
  length ds <= length ts /\ forall f rest, p_hfile (length ds + f) (ts ++ rest) = let? l := p_hfile f rest in Some (ds ++ l).
Definition declares (cs : list cmd) (ds : list hdecl) : Prop := exists ts, hlexes cs ts /\ PH ts ds.
Lemma PH_nil : PH [] [].
Proof. split; [auto|]. intros f rest. cbn. now destruct (p_hfile f rest). Qed.
Lemma PH_app a b x y : PH a x -> PH b y -> PH (a ++ b) (x ++ y).
Proof.
  intros (A1 & A2) (B1 & B2). split; [rewrite !app_length; lia|].
  intros f rest. rewrite <- app_assoc, app_length, <- Nat.add_assoc, A2, B2.
  destruct (p_hfile f rest); [now rewrite app_assoc | reflexivity].
Qed.
Lemma PH_one t ts d : (forall f rest, p_hdecl (length (t :: ts) + f) (t :: ts ++ rest) = Some (d, rest)) -> PH (t :: ts) [d].
Proof.
  intros H. split; [cbn; lia|]. intros f rest. cbn [length Nat.add p_hfile app]. rewrite app_length.
  specialize (H (length rest) rest). cbn [length Nat.add] in H. rewrite H. reflexivity.
Qed.
Lemma declares_nil : declares [] [].
Proof. exists []. auto using hlexes_nil, PH_nil. Qed.
Lemma declares_app a b x y : declares a x -> declares b y -> declares (a ++ b) (x ++ y).
Proof. intros (s & A1 & A2) (t & B1 & B2). exists (s ++ t). auto using hlexes_app, PH_app. Qed.
Lemma declares_silent cs : hlexes cs [] -> declares cs [].
Proof. intros H. exists []. auto using PH_nil. Qed.
Lemma declares_map {A} (f : A -> list cmd) (g : A -> hdecl) l : (forall a, In a l -> declares (f a) [g a]) -> declares (flat_map f l) (map g l).
Proof.
  induction l as [|a l IH]; intros H; cbn; [apply declares_nil|].
  apply (declares_app _ _ [_]); [apply H; now left | apply IH; intros; apply H; now right].
Qed.
Lemma declares_read cs ds : declares cs ds -> exists t, render T_h cs = Some t /\ read_h t = Some ds.
Proof.
  intros (ts & (t & R & X) & L & P). exists t. split; [exact R|]. unfold read_h, lex. rewrite X.
  specialize (P (length ts - length ds) []). rewrite app_nil_r in P.
  replace (length ds + (length ts - length ds)) with (length ts) in P by lia. rewrite P.
  destruct (length ts - length ds); cbn; now rewrite app_nil_r.
Qed.

(** A class printed as a head line, member lines and a closing line. *)
Lemma p_close_end rest : p_close (TP p_rbrace :: TP p_semi :: rest) = Some rest.
Proof. reflexivity. Qed.
Lemma PM_end a ts ms b f rest : PM a ts ms b -> length ts < f -> p_members f a (ts ++ TP p_rbrace :: TP p_semi :: rest) = Some (ms, rest).
Proof.
  intros (k & A & B) L. replace f with (k + S (f - 1 - k)) by lia. rewrite B. cbn [p_members]. rewrite p_close_end. now rewrite app_nil_r.
Qed.
Lemma PH_class n b t hd ts ms a : PM a_private ts ms a ->
  (forall f rest, p_hdecl f (t :: hd ++ rest) = let? (l, r) := p_members f a_private rest in Some (HClass n b l, r)) ->
  PH ((t :: hd) ++ ts ++ [TP p_rbrace; TP p_semi]) [HClass n b ms].
Proof.
  intros M H. cbn [app]. apply PH_one. intros f rest.
  replace (t :: (hd ++ ts ++ [TP p_rbrace; TP p_semi]) ++ rest) with (t :: hd ++ ts ++ TP p_rbrace :: TP p_semi :: rest)
    by (rewrite <- !app_assoc; reflexivity).
  rewrite H, (PM_end _ _ _ _ _ _ M); [reflexivity|]. cbn [length]. rewrite !app_length. cbn. lia.
Qed.

Definition mprints (cs : list cmd) (a : access) (ms : list (access * hmember)) (b : access) : Prop := exists ts, hlexes cs ts /\ PM a ts ms b.
Lemma mprints_nil a : mprints [] a [] a.
Proof. exists []. auto using hlexes_nil, PM_nil. Qed.
Lemma mprints_app a b c x y s t : mprints s a x b -> mprints t b y c -> mprints (s ++ t) a (x ++ y) c.
Proof. intros (u & A1 & A2) (v & B1 & B2). exists (u ++ v). split; [now apply hlexes_app | now apply PM_app with b]. Qed.
Lemma mprints_flat {A} a (f : A -> list cmd) (g : A -> list (access * hmember)) l :
  (forall x, In x l -> mprints (f x) a (g x) a) -> mprints (flat_map f l) a (flat_map g l) a.
Proof.
  induction l as [|x l IH]; intros H; cbn; [apply mprints_nil|].
  apply mprints_app with a; [apply H; now left | apply IH; intros; apply H; now right].
Qed.
Lemma mprints_other cs a : no_h cs = true -> mprints cs a [] a.
Proof. intros H. exists []. split; [now apply hlexes_other | apply PM_nil]. Qed.
Lemma mprints_behind c cs a ms b : mprints [c] a ms b -> no_h cs = true -> mprints (c :: cs) a ms b.
Proof. intros H N. rewrite <- (app_nil_r ms). apply (mprints_app _ _ _ _ _ [c] cs H). now apply mprints_other. Qed.
Ltac mp_tac ks k := eexists; split; [apply hlexes_of; lex_tac ks | toks_tac; k].

(** The commands of a function body do not go to the header. *)
Lemma no_h_if (b : bool) x y : no_h x = true -> no_h y = true -> no_h (if b then x else y) = true.
Proof. now destruct b. Qed.
Ltac no_h_tac :=
  repeat match goal with
    | |- no_h (_ ++ _) = true => apply no_h_join
    | |- no_h (if _ then _ else _) = true => apply no_h_if; reflexivity
    | |- no_h (flat_map _ _) = true => apply no_h_flat; intros
    | |- no_h (map _ _) = true => apply no_h_map; intros
    | |- no_h [] = true => reflexivity
    | |- no_h (_ :: ?l) = true => lazymatch l with [] => reflexivity | _ => apply no_h_cons end
    end.
Lemma no_h_xa_rd_s m : no_h (xa_read_simple m) = true. Proof. unfold xa_read_simple. now destruct (ss_type m). Qed.
Lemma no_h_xa_rd_c m : no_h (fst (xa_read_complex m)) = true. Proof. unfold xa_read_complex. now destruct (sc_type m). Qed.
Lemma no_h_xa_wr_s nd m : no_h (xa_write_simple nd m) = true. Proof. unfold xa_write_simple. now destruct (ss_type m). Qed.
Lemma no_h_xa_wr_c nd m : no_h (fst (xa_write_complex nd m)) = true. Proof. unfold xa_write_complex. now destruct (sc_type m). Qed.
Lemma no_h_xm_rd_s m : no_h (xm_read_simple m) = true. Proof. unfold xm_read_simple. now destruct (ss_type m). Qed.
Lemma no_h_xm_rd_c m : no_h (fst (xm_read_complex m)) = true. Proof. unfold xm_read_complex. now destruct (sc_type m). Qed.
Lemma no_h_xm_wr_s nd m : no_h (xm_write_simple nd m) = true. Proof. unfold xm_write_simple. now destruct (ss_type m). Qed.
Lemma no_h_xm_wr_c nd m : no_h (fst (xm_write_complex nd m)) = true. Proof. unfold xm_write_complex. now destruct (sc_type m). Qed.
Lemma no_h_ni_rd_e m : no_h (ni_read_enum m) = true. Proof. unfold ni_read_enum. now destruct (sc_type m). Qed.
Lemma no_h_ni_rd_c m : no_h (fst (ni_read_complex m)) = true. Proof. unfold ni_read_complex. now destruct (sc_type m). Qed.
Lemma no_h_ni_wr_s nd m : no_h [ni_write_simple nd m] = true. Proof. unfold ni_write_simple. now destruct (ss_type m). Qed.
Lemma no_h_ni_wr_c nd m : no_h (fst (ni_write_complex nd m)) = true. Proof. unfold ni_write_complex. now destruct (sc_type m). Qed.

(** *** The function of one struct *)
Lemma m_reader b s cls : name_ok (s_name s) = true -> mprints (fst (struct_reader b s cls)) a_protected (reader_work b (s_name s)) a_protected.
Proof.
  intros N. destruct b; cbn [struct_reader reader_work fst]; [| |apply mprints_nil|].
  - unfold xa_reader. cbn [fst app]. apply mprints_behind; [mp_tac [AId] pm_one|].
    no_h_tac; auto using no_h_xa_rd_s, no_h_xa_rd_c.
  - unfold xm_reader. cbn [fst app]. apply mprints_behind; [mp_tac [AId] pm_one|].
    no_h_tac; auto using no_h_xm_rd_s, no_h_xm_rd_c.
  - unfold ni_reader. cbn [fst app]. apply mprints_behind; [mp_tac [AId] pm_one|].
    destruct (s_simple s) as [|m ms]; no_h_tac; auto using no_h_ni_rd_e, no_h_ni_rd_c.
Qed.
Lemma m_writer b s cls nd : name_ok (s_name s) = true -> mprints (fst (struct_writer b s cls nd)) a_protected (writer_work b (s_name s)) a_protected.
Proof.
  intros N. destruct b; cbn [struct_writer writer_work fst]; [| |apply mprints_nil|].
  - unfold xa_writer. cbn [fst app]. apply mprints_behind; [mp_tac [AId] pm_one|].
    no_h_tac; auto using no_h_xa_wr_s, no_h_xa_wr_c.
  - unfold xm_writer. cbn [fst app]. apply mprints_behind; [mp_tac [AId] pm_one|].
    no_h_tac; auto using no_h_xm_wr_s, no_h_xm_wr_c.
  - unfold ni_writer. cbn [fst app]. apply mprints_behind; [mp_tac [AId] pm_one|].
    no_h_tac; auto using no_h_ni_wr_s, no_h_ni_wr_c.
Qed.

(** *** The entry points *)
Lemma m_entries th tcpp cls f p ss :
  (forall t, name_ok t = true -> mprints [Cmd T_h th [t]] a_public [h_entry f p t] a_public) ->
  forallb struct_ok ss = true ->
  mprints (entries th tcpp cls ss) a_public (map (h_entry f p) (map s_name (tops ss))) a_public.
Proof.
  intros H. induction ss as [|s ss IH]; intros G; [apply mprints_nil|].
  cbn [forallb] in G. apply andb_prop in G as [G1 G2]. apply struct_ok_inv in G1 as (N & _ & _). specialize (IH G2).
  unfold entries, tops in *. cbn [flat_map filter]. destruct (Nat.eqb (s_incoming s) 0); [|exact IH].
  cbn [map]. apply (mprints_app _ a_public _ [_] _ [_; _]); [|exact IH]. apply mprints_behind; [auto|reflexivity].
Qed.

(** *** The two classes *)
Ltac close_tac := apply hlexes_of; lex_const.
Section Classes.
  Variable b : backend.
  Variable ss : list struct_S.
  Hypothesis SS : forallb struct_ok ss = true.
  Let names := map s_name ss.
  Let ents := map s_name (tops ss).

  Lemma names_in s : In s ss -> name_ok (s_name s) = true.
  Proof. intros I. rewrite forallb_forall in SS. now destruct (struct_ok_inv s (SS s I)) as (N & _). Qed.
  Lemma m_readers cls : mprints (flat_map (fun s => fst (struct_reader b s cls)) ss) a_protected (flat_map (reader_work b) names) a_protected.
  Proof.
    unfold names. rewrite flat_map_concat_map, (flat_map_concat_map (reader_work b)), map_map, <- !flat_map_concat_map.
    apply mprints_flat. intros s I. apply m_reader. now apply names_in.
  Qed.
  Lemma m_writers cls nd : mprints (flat_map (fun s => fst (struct_writer b s cls nd)) ss) a_protected (flat_map (writer_work b) names) a_protected.
  Proof.
    unfold names. rewrite flat_map_concat_map, (flat_map_concat_map (writer_work b)), map_map, <- !flat_map_concat_map.
    apply mprints_flat. intros s I. apply m_writer. now apply names_in.
  Qed.
  (** Head line with the first members, lines with the others, closing line. *)
  Lemma declares_class hc t hd st ms0 cs ms ec n base a :
    hlexes [hc] ((t :: hd) ++ st) -> PM a_private st ms0 a_public -> mprints cs a_public ms a -> hlexes [ec] [TP p_rbrace; TP p_semi] ->
    (forall f rest, p_hdecl f (t :: hd ++ rest) = let? (l, r) := p_members f a_private rest in Some (HClass n base l, r)) ->
    declares (hc :: cs ++ [ec]) [HClass n base (ms0 ++ ms)].
  Proof.
    intros A B (ts & C1 & C2) D H. exists ((t :: hd) ++ (st ++ ts) ++ [TP p_rbrace; TP p_semi]). split.
    - change (hc :: cs ++ [ec]) with ([hc] ++ cs ++ [ec]).
      replace ((t :: hd) ++ (st ++ ts) ++ [TP p_rbrace; TP p_semi]) with (((t :: hd) ++ st) ++ ts ++ [TP p_rbrace; TP p_semi])
        by (rewrite <- !app_assoc; reflexivity).
      apply hlexes_app; [exact A|]. now apply hlexes_app.
    - eapply PH_class; [|exact H]. eapply PM_app; eauto.
  Qed.
  Ltac class_head ks k :=
    match goal with |- hlexes [Cmd T_h ?t ?args] _ =>
      let l := eval vm_compute in (ctoks ks t) in
      match l with Some ?l =>
        let ts := constr:(map (evn args) l) in
        let ts := eval cbv [map evn evs eva nth] in ts in
        let h := eval cbv [hd firstn] in (hd (TNum "") ts) in
        let a := eval cbv [tl firstn] in (tl (firstn k ts)) in
        let b := eval cbv [skipn] in (skipn k ts) in
        match goal with |- hlexes _ (?x :: ?y ++ ?z) => unify x h; unify y a; unify z b end;
        apply hlexes_of; apply (lexes_cmd ks t args l); [vm_compute; reflexivity | args_tac]
      end end.
  Lemma d_reader_h cls : name_ok cls = true ->
    declares ([Cmd T_h (t_class_h (templates_of b)) [cls]; Cmd T_cpp (t_ctor_cpp (templates_of b)) [cls]] ++
             entries (t_rff_h (templates_of b)) (t_rff_cpp (templates_of b)) cls ss ++ [Cmd T_h (t_prot_h (templates_of b)) []] ++
             flat_map (fun s => fst (struct_reader b s cls)) ss ++
             [Cmd T_h (t_end_h (templates_of b)) []; Cmd T_cpp (t_end_cpp (templates_of b)) []])
            [reader_class b ents names cls].
  Proof.
    intros C.
    assert (M : mprints ([Cmd T_cpp (t_ctor_cpp (templates_of b)) [cls]] ++ entries (t_rff_h (templates_of b)) (t_rff_cpp (templates_of b)) cls ss ++
      [Cmd T_h (t_prot_h (templates_of b)) []] ++ flat_map (fun s => fst (struct_reader b s cls)) ss) a_public
      ([] ++ map (h_entry "read_from_file" "struct_to_fill") ents ++ [] ++ flat_map (reader_work b) names) a_protected).
    { apply mprints_app with a_public; [now apply mprints_other|].
      apply mprints_app with a_public; [apply m_entries; [|exact SS]; intros t T; destruct b; mp_tac [AId] pm_one|].
      apply mprints_app with a_protected; [destruct b; mp_tac ([] : list akind) pm_acc|]. apply m_readers. }
    rewrite <- (app_nil_r [reader_class _ _ _ _]).
    replace (_ ++ _) with (((Cmd T_h (t_class_h (templates_of b)) [cls] :: ([Cmd T_cpp (t_ctor_cpp (templates_of b)) [cls]] ++ entries (t_rff_h (templates_of b)) (t_rff_cpp (templates_of b)) cls ss ++
      [Cmd T_h (t_prot_h (templates_of b)) []] ++ flat_map (fun s => fst (struct_reader b s cls)) ss) ++ [Cmd T_h (t_end_h (templates_of b)) []])) ++ [Cmd T_cpp (t_end_cpp (templates_of b)) []])
      by list_eq.
    apply declares_app; [|apply declares_silent, hlexes_other; reflexivity].
    unfold reader_class. rewrite (app_assoc (reader_data b)).
    destruct b.
    all: match goal with |- declares _ [HClass _ _ (?m0 ++ _)] => eapply (declares_class _ _ _ _ m0); [| |exact M| |] end.
    all: cbn [templates_of xml_templates ini_templates t_class_h t_end_h reader_data app].
    - class_head [AId] 3.
    - pm_label 2. pm_one.
    - close_tac.
    - reflexivity.
    - class_head [AId] 3.
    - pm_label 2. pm_one.
    - close_tac.
    - reflexivity.
    - class_head [AId] 3.
    - pm_label 2. pm_member 31. pm_member 3. pm_member 5. pm_member 5. pm_label 2. pm_one.
    - close_tac.
    - reflexivity.
    - class_head [AId] 3.
    - pm_label 2. pm_member 31. pm_member 3. pm_member 5. pm_member 5. pm_label 2. pm_one.
    - close_tac.
    - reflexivity.
  Qed.
  Lemma d_writer_h cls rd nd : name_ok cls = true -> name_ok rd = true ->
    declares ([Cmd T_h (t_wclass_h (templates_of b)) [cls; rd]; Cmd T_cpp (t_wctor_cpp (templates_of b)) [cls; rd]] ++
             entries (t_wtf_h (templates_of b)) (t_wtf_cpp (templates_of b)) cls ss ++ [Cmd T_h (t_wprot_h (templates_of b)) []] ++
             flat_map (fun s => fst (struct_writer b s cls nd)) ss ++
             [Cmd T_h (t_wend_h (templates_of b)) []; Cmd T_cpp (t_wend_cpp (templates_of b)) []])
            [writer_class b ents names cls rd].
  Proof.
    intros C R.
    assert (M : mprints ([Cmd T_cpp (t_wctor_cpp (templates_of b)) [cls; rd]] ++ entries (t_wtf_h (templates_of b)) (t_wtf_cpp (templates_of b)) cls ss ++
      [Cmd T_h (t_wprot_h (templates_of b)) []] ++ flat_map (fun s => fst (struct_writer b s cls nd)) ss) a_public
      ([] ++ map (h_entry "write_to_file" "struct_to_read") ents ++ [] ++ flat_map (writer_work b) names) a_protected).
    { apply mprints_app with a_public; [now apply mprints_other|].
      apply mprints_app with a_public; [apply m_entries; [|exact SS]; intros t T; destruct b; mp_tac [AId] pm_one|].
      apply mprints_app with a_protected; [destruct b; mp_tac ([] : list akind) pm_acc|]. apply m_writers. }
    rewrite <- (app_nil_r [writer_class _ _ _ _ _]).
    replace (_ ++ _) with (((Cmd T_h (t_wclass_h (templates_of b)) [cls; rd] :: ([Cmd T_cpp (t_wctor_cpp (templates_of b)) [cls; rd]] ++ entries (t_wtf_h (templates_of b)) (t_wtf_cpp (templates_of b)) cls ss ++
      [Cmd T_h (t_wprot_h (templates_of b)) []] ++ flat_map (fun s => fst (struct_writer b s cls nd)) ss) ++ [Cmd T_h (t_wend_h (templates_of b)) []])) ++ [Cmd T_cpp (t_wend_cpp (templates_of b)) []])
      by list_eq.
    apply declares_app; [|apply declares_silent, hlexes_other; reflexivity].
    unfold writer_class. rewrite (app_assoc (writer_data b)).
    destruct b.
    all: match goal with |- declares _ [HClass _ _ (?m0 ++ _)] => eapply (declares_class _ _ _ _ m0); [| |exact M| |] end.
    all: cbn [templates_of xml_templates ini_templates t_wclass_h t_wend_h writer_data app].
    - class_head [AId; AId] 6.
    - pm_label 2. pm_member 5. pm_label 2. pm_one.
    - close_tac.
    - reflexivity.
    - class_head [AId; AId] 6.
    - pm_label 2. pm_member 5. pm_label 2. pm_one.
    - close_tac.
    - reflexivity.
    - class_head [AId; AId] 6.
    - pm_label 2. pm_member 5. pm_member 9. pm_label 2. pm_one.
    - close_tac.
    - reflexivity.
    - class_head [AId; AId] 6.
    - pm_label 2. pm_member 5. pm_member 9. pm_label 2. pm_one.
    - close_tac.
    - reflexivity.
  Qed.
End Classes.

(** *** The header of the structs *)
Lemma hlexes_info t stamp info : t = Some [Arg 0] -> stfx_info stamp = Some info -> plain stamp = true -> hlexes [Cmd T_h t [info]] [].
Proof. intros. apply hlexes_of. eapply lexes_info; eauto. Qed.
Lemma hlexes_texts t inputs : ctoks [ATxt] t = Some [] -> forallb plain inputs = true -> hlexes (includes T_h t inputs) [].
Proof.
  intros H. induction inputs as [|f l IH]; intros G; cbn; [apply hlexes_nil|].
  cbn [forallb] in G. apply andb_prop in G as [G1 G2]. apply (hlexes_app [_] _ [] []); [|auto].
  apply hlexes_of, (lexes_silent [ATxt]); [exact H | args_tac].
Qed.
Lemma no_h_includes t inputs : no_h (includes T_cpp t inputs) = true.
Proof. unfold includes. apply no_h_map. reflexivity. Qed.
Lemma declares_skip cs d ds : no_h cs = true -> declares d ds -> declares (cs ++ d) ds.
Proof. intros N. apply (declares_app _ _ []). apply declares_silent. now apply hlexes_other. Qed.
Lemma declares_eq cs cs' ds ds' : declares cs ds -> cs = cs' -> ds = ds' -> declares cs' ds'.
Proof. intros; subst; assumption. Qed.
Ltac h_silent ks := apply declares_silent, hlexes_of; lex_silent ks.

Definition struct_header (b : backend) (ss : list struct_S) (o : output_spec) : list hdecl :=
  reader_class b (map s_name (tops ss)) (map s_name ss) (o_reader o) ::
  (if o_only_read o then [] else [writer_class b (map s_name (tops ss)) (map s_name ss) (o_writer o) (o_reader o)]).
Lemma h_struct_files b i inputs o cpp h stamp info :
  forallb struct_ok (map snd (i_structs i)) = true -> name_ok (o_reader o) = true -> name_ok (o_writer o) = true -> forallb plain inputs = true ->
  plain h = true -> plain stamp = true -> stfx_info stamp = Some info ->
  declares (fst (struct_files b i inputs o cpp h info)) (struct_header b (map snd (i_structs i)) o).
Proof.
  intros SS R W I H S F. unfold struct_files. cbn [fst]. set (ss := map snd (i_structs i)) in *.
  apply declares_skip; [reflexivity|]. apply declares_skip; [apply no_h_map; reflexivity|].
  apply declares_skip; [now destruct (skipped _)|]. apply declares_skip; [apply no_h_includes|].
  apply (declares_app [_; _; _] _ [] _).
  { apply (declares_app [_] _ [] []); [destruct b; h_silent [ATxt]|].
    apply (declares_app [_] [_] [] []); [apply declares_silent, (hlexes_info _ stamp); auto; destruct b; reflexivity|].
    destruct b; h_silent ([] : list akind). }
  apply (declares_app _ _ [] _); [apply declares_silent, hlexes_texts; auto; destruct b; reflexivity|].
  apply (declares_app _ _ [] _); [destruct b; h_silent ([] : list akind)|].
  pose proof (d_reader_h b ss SS (o_reader o) R) as D1.
  pose proof (d_writer_h b ss SS (o_writer o) (o_reader o) (o_no_delta o) W R) as D2.
  unfold struct_header. destruct (o_only_read o).
  - eapply declares_eq; [exact D1 | list_eq | reflexivity].
  - eapply declares_eq; [exact (declares_app _ _ _ _ D1 D2) | list_eq | reflexivity].
Qed.

(** *** The header of the enumerations *)
Definition PN (ts : list tok) (ms : list hmember) : Prop :=
  exists k, k <= length ts /\ forall f rest, p_space (k + f) (ts ++ rest) = let? (l, r) := p_space f rest in Some (ms ++ l, r).
Lemma PN_nil : PN [] [].
Proof. exists 0. split; [auto|]. intros f rest. cbn. now destruct (p_space f rest) as [[l r]|]. Qed.
Lemma PN_app s t x y : PN s x -> PN t y -> PN (s ++ t) (x ++ y).
Proof.
  intros (k & A1 & A2) (j & B1 & B2). exists (k + j). rewrite app_length. split; [lia|]. intros f rest.
  rewrite <- app_assoc, <- Nat.add_assoc, A2, B2. destruct (p_space f rest) as [[l r]|]; [now rewrite app_assoc | reflexivity].
Qed.
Lemma PN_one t ts m : (forall rest, p_close (t :: ts ++ rest) = None /\ p_hmember (t :: ts ++ rest) = Some (m, rest)) -> PN (t :: ts) [m].
Proof.
  intros H. exists 1. split; [cbn; lia|]. intros f rest. destruct (H rest) as (A & B). cbn [Nat.add p_space app]. now rewrite A, B.
Qed.
Definition nprints (cs : list cmd) (ms : list hmember) : Prop := exists ts, hlexes cs ts /\ PN ts ms.
Lemma nprints_nil : nprints [] [].
Proof. exists []. auto using hlexes_nil, PN_nil. Qed.
Lemma nprints_app s t x y : nprints s x -> nprints t y -> nprints (s ++ t) (x ++ y).
Proof. intros (u & A1 & A2) (v & B1 & B2). exists (u ++ v). auto using hlexes_app, PN_app. Qed.
Lemma nprints_flat {A} (f : A -> list cmd) (g : A -> list hmember) l : (forall x, In x l -> nprints (f x) (g x)) -> nprints (flat_map f l) (flat_map g l).
Proof.
  induction l as [|x l IH]; intros H; cbn; [apply nprints_nil|].
  apply nprints_app; [apply H; now left | apply IH; intros; apply H; now right].
Qed.
Lemma nprints_other cs : no_h cs = true -> nprints cs [].
Proof. intros H. exists []. split; [now apply hlexes_other | apply PN_nil]. Qed.
Ltac np_tac ks := eexists; split; [apply hlexes_of; lex_tac ks | toks_tac; apply PN_one; split; reflexivity].

Lemma no_h_from e : no_h (from_cmds e) = true.
Proof. unfold from_cmds. no_h_tac. now destruct (e_class e). Qed.
Lemma no_h_to e : no_h (to_cmds e) = true.
Proof. unfold to_cmds. no_h_tac. now destruct (e_class e). Qed.
Lemma n_enum e : name_ok (e_name e) = true -> nprints (process_enum e) (enum_decls (e_name e)).
Proof.
  intros N. rewrite process_enum_split. apply (nprints_app [_] _ [_] [_]); [np_tac [AId]|].
  apply (nprints_app _ _ [] _); [apply nprints_other, no_h_from|].
  apply (nprints_app [_] _ [_] []); [np_tac [AId] | apply nprints_other, no_h_to].
Qed.
Lemma d_formatter e : name_ok (e_name e) = true -> declares (fmt_templates e) [enum_formatter (e_name e)].
Proof.
  intros N. unfold fmt_templates. eexists. split; [apply hlexes_of; lex_tac [AId]|]. toks_tac. apply PH_one. reflexivity.
Qed.
Lemma h_enum_files i inputs cpp h stamp info :
  forallb enum_ok (map snd (i_enums i)) = true -> forallb plain inputs = true ->
  plain h = true -> plain stamp = true -> stfx_info stamp = Some info ->
  declares (enum_files i inputs cpp h info) (enum_header (map e_name (map snd (i_enums i)))).
Proof.
  intros E I H SP F. unfold enum_files. set (es := map snd (i_enums i)) in *.
  assert (N : forall e, In e es -> name_ok (e_name e) = true).
  { intros e J. rewrite forallb_forall in E. now destruct (enum_ok_inv e (E e J)). }
  apply declares_skip; [reflexivity|]. apply declares_skip; [apply no_h_includes|]. apply declares_skip; [reflexivity|].
  apply (declares_app [_; _; _; _; _] _ [] _).
  { apply (declares_app [_] _ [] []); [h_silent [ATxt]|].
    apply (declares_app [_] _ [] []); [now apply declares_silent, (hlexes_info _ stamp)|].
    do 2 (apply (declares_app [_] _ [] []); [h_silent ([] : list akind)|]). h_silent ([] : list akind). }
  apply (declares_app _ _ [] _); [apply declares_silent, hlexes_texts; auto|].
  apply (declares_app [_] _ [] _); [h_silent ([] : list akind)|].
  unfold enum_header.
  assert (M : nprints (flat_map process_enum es) (flat_map enum_decls (map e_name es))).
  { rewrite (flat_map_concat_map enum_decls), map_map, <- flat_map_concat_map. apply nprints_flat. auto using n_enum. }
  assert (D : declares ([Cmd T_h pi_107 []] ++ flat_map process_enum es ++ [Cmd T_h pi_115 []]) [HSpace "stfx" (flat_map enum_decls (map e_name es))]).
  { destruct M as (ts & M1 & k & M2 & M3).
    exists ([TKw k_namespace; TId "stfx"; TP p_lbrace] ++ ts ++ [TP p_rbrace; TP p_semi]). split.
    - apply hlexes_app; [apply hlexes_of; lex_const|]. apply hlexes_app; [exact M1 | apply hlexes_of; lex_const].
    - cbn [app]. apply PH_one. intros f rest. cbn [p_hdecl app]. rewrite <- app_assoc. cbn [app].
      set (g := length _ + f). assert (G : k < g) by (unfold g; cbn [length]; rewrite app_length; lia).
      replace g with (k + S (g - 1 - k)) by lia. rewrite M3. cbn [p_space]. rewrite p_close_end. now rewrite app_nil_r. }
  rewrite map_map.
  eapply declares_eq; [exact (declares_app _ _ _ _ D (declares_map fmt_templates (fun e => enum_formatter (e_name e)) es (fun e J => d_formatter e (N e J)))) | list_eq | reflexivity].
Qed.

(** The two headers, as texts. *)
Lemma read_struct_header b i inputs o cpp h stamp info :
  forallb struct_ok (map snd (i_structs i)) = true -> spec_ok o = true -> forallb plain inputs = true ->
  plain h = true -> plain stamp = true -> stfx_info stamp = Some info ->
  exists t, render T_h (fst (struct_files b i inputs o cpp h info)) = Some t /\ read_h t = Some (struct_header b (map snd (i_structs i)) o).
Proof.
  intros S O. unfold spec_ok in O. rewrite !andb_true_iff in O. destruct O as [[R W] _]. intros. apply declares_read. apply (h_struct_files b i inputs o cpp h stamp info); assumption.
Qed.
Lemma read_enum_header i inputs cpp h stamp info :
  forallb enum_ok (map snd (i_enums i)) = true -> forallb plain inputs = true ->
  plain h = true -> plain stamp = true -> stfx_info stamp = Some info ->
  exists t, render T_h (enum_files i inputs cpp h info) = Some t /\ read_h t = Some (enum_header (map e_name (map snd (i_enums i)))).
Proof. intros. apply declares_read. apply (h_enum_files i inputs cpp h stamp info); assumption. Qed.

(** *** Declarations against definitions *)
Lemma flat_one {A B} (f : A -> B) l : flat_map (fun x => [f x]) l = map f l.
Proof. induction l; cbn; congruence. Qed.
Lemma flat_map_map {A B C} (f : A -> B) (g : B -> list C) l : flat_map g (map f l) = flat_map (fun x => g (f x)) l.
Proof. induction l; cbn; congruence. Qed.
Lemma flat_flat {A B C} (f : A -> list B) (g : B -> list C) l : flat_map g (flat_map f l) = flat_map (fun x => flat_map g (f x)) l.
Proof. induction l; cbn; [reflexivity|]. now rewrite flat_map_app, IHl. Qed.
Lemma map_flat {A B C} (f : A -> list B) (g : B -> C) l : map g (flat_map f l) = flat_map (fun x => map g (f x)) l.
Proof. induction l; cbn; [reflexivity|]. now rewrite map_app, IHl. Qed.
Lemma reader_sigs b ss cls : decl_sigs (reader_class b (map s_name (tops ss)) (map s_name ss) cls) = map def_sig (reader_funs b ss cls).
Proof.
  unfold reader_class, reader_funs, decl_sigs. rewrite !flat_map_app, !flat_map_map, flat_flat, map_cons, map_app, map_map, map_flat.
  replace (flat_map _ (reader_data b)) with ([] : list signature) by (destruct b; reflexivity).
  cbn [flat_map app h_ctor snd member_sig map]. f_equal. f_equal.
  - rewrite <- flat_one. apply flat_map_ext. intros s. destruct b; reflexivity.
  - rewrite ?flat_map_map. apply flat_map_ext. intros s. destruct b; reflexivity.
Qed.
Lemma writer_sigs b ss cls rd nd : decl_sigs (writer_class b (map s_name (tops ss)) (map s_name ss) cls rd) = map def_sig (writer_funs b ss cls rd nd).
Proof.
  unfold writer_class, writer_funs, decl_sigs. rewrite !flat_map_app, !flat_map_map, flat_flat, map_cons, map_app, map_map, map_flat.
  replace (flat_map _ (writer_data b)) with ([] : list signature) by (destruct b; reflexivity).
  cbn [flat_map app h_ctor snd member_sig map]. f_equal. f_equal.
  - rewrite <- flat_one. apply flat_map_ext. intros s. destruct b; reflexivity.
  - rewrite ?flat_map_map. apply flat_map_ext. intros s. destruct b; reflexivity.
Qed.
Lemma struct_sigs b ss o : flat_map decl_sigs (struct_header b ss o) = map def_sig (file_funs b ss o).
Proof.
  unfold struct_header, file_funs. cbn [flat_map]. rewrite map_app, <- reader_sigs. f_equal.
  destruct (o_only_read o); [reflexivity|]. cbn [flat_map]. now rewrite app_nil_r, <- writer_sigs.
Qed.
Lemma enum_sigs es : flat_map decl_sigs (enum_header (map e_name es)) = map def_sig (flat_map enum_funs es).
Proof.
  unfold enum_header. cbn [flat_map]. rewrite (flat_map_map enum_formatter).
  assert (Z : forall l : list string, flat_map (fun x => decl_sigs (enum_formatter x)) l = []) by (induction l; auto).
  rewrite Z, app_nil_r. cbn [decl_sigs]. rewrite flat_flat, flat_map_map, map_flat. apply flat_map_ext. reflexivity.
Qed.
