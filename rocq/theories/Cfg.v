(** The context-free grammar of src/lex_parse/struct_yacc.y:85-195, production by
    production, and its equivalence with the abstract syntax of Grammar.v. *)
From Coq Require Import String Ascii ZArith NArith Arith List Bool Lia.
From Verif Require Import Base Flex Items Grammar.
Import ListNotations.
Local Open Scope string_scope.
Local Open Scope list_scope.

Inductive nonterm :=
| file_content | parts | part
| block_start | block_end | comma | semicolon | equals | lessthan | greaterthan
| true_ | false_ | unsigned_ | int_ | short_ | long_ | std_string_ | std_vector_
| enum_ | class_ | struct_ | float_ | double_ | bool_
| name | enum_part | enum_start | enum_block | enum_block_ents | enum_ent
| struct_part | struct_start | struct_block_ents | struct_block_ent
| simple_type_ | simple_default_value | value | struct_block_vector.

Inductive sym := T (k : N) | X (a : nonterm).

(** struct_yacc.y:85-195 *)
Definition productions (a : nonterm) : list (list sym) :=
  match a with
  | file_content => [[X parts]]
  | parts => [[X part]; [X part; X parts]]
  | part => [[X enum_part]; [X struct_part]]
  | block_start => [[T 3]] | block_end => [[T 4]] | comma => [[T 6]] | semicolon => [[T 7]]
  | equals => [[T 5]] | lessthan => [[T 8]] | greaterthan => [[T 9]]
  | true_ => [[T 20]] | false_ => [[T 21]] | unsigned_ => [[T 16]] | int_ => [[T 13]]
  | short_ => [[T 14]] | long_ => [[T 15]] | std_string_ => [[T 22]] | std_vector_ => [[T 23]]
  | enum_ => [[T 10]] | class_ => [[T 11]] | struct_ => [[T 12]] | float_ => [[T 17]]
  | double_ => [[T 18]] | bool_ => [[T 19]]
  | name => [[T 24]]
  | enum_part => [[X enum_start; X enum_block]]
  | enum_start => [[X enum_; T 24]; [X enum_; X class_; X name]]
  | enum_block => [[X block_start; X enum_block_ents; X block_end; X semicolon]]
  | enum_block_ents => [[X enum_ent]; [X enum_ent; X comma; X enum_block_ents]; [X enum_ent; X comma]]
  | enum_ent => [[X name]; [X name; X equals; T 26]; [X name; X equals; T 27]; [X name; X equals; T 30]]
  | struct_part => [[X struct_start; X block_start; X struct_block_ents; X block_end; X semicolon]]
  | struct_start => [[X struct_; X name]]
  | struct_block_ents => [[X struct_block_ent]; [X struct_block_ent; X struct_block_ents]]
  | struct_block_ent =>
      [[X simple_type_; X name; X semicolon]; [X simple_type_; X name; X simple_default_value; X semicolon];
       [X name; X name; X semicolon]; [X name; X name; X simple_default_value; X semicolon];
       [X struct_block_vector; X name; X semicolon]]
  | simple_type_ =>
      [[X bool_]; [X int_]; [X short_]; [X long_]; [X unsigned_; X int_]; [X unsigned_; X short_];
       [X unsigned_; X long_]; [X float_]; [X double_]; [X std_string_]]
  | simple_default_value => [[X block_start; X block_end]; [X block_start; X value; X block_end]]
  | value => [[T 26]; [T 28]; [X true_]; [X false_]; [T 25]; [T 29]; [T 30]]
  | struct_block_vector => [[X std_vector_; X lessthan; X name; X greaterthan]]
  end%N.

Inductive derives : list sym -> list token -> Prop :=
| dv_nil : derives [] []
| dv_tok : forall k t r ts, t_kind t = k -> derives r ts -> derives (T k :: r) (t :: ts)
| dv_nt : forall a rhs r ts1 ts2, In rhs (productions a) -> derives rhs ts1 -> derives r ts2 ->
    derives (X a :: r) (ts1 ++ ts2).

Definition in_language (ts : list token) : Prop := derives [X file_content] ts.

(** Meaning of each nonterminal. *)
Definition sem (a : nonterm) (ts : list token) : Prop :=
  match a with
  | file_content | parts => exists ds, wf_file ds /\ ts = file_tokens ds
  | part => exists d, wf_def d /\ ts = def_tokens d
  | block_start => ts = [tk_lbrace] | block_end => ts = [tk_rbrace] | comma => ts = [tk_comma]
  | semicolon => ts = [tk_semi] | equals => ts = [tk_equals] | lessthan => ts = [tk_lt]
  | greaterthan => ts = [tk_gt] | true_ => ts = [tk_true] | false_ => ts = [tk_false]
  | unsigned_ => ts = [tk_unsigned] | int_ => ts = [tk_int] | short_ => ts = [tk_short]
  | long_ => ts = [tk_long] | std_string_ => ts = [tk_string] | std_vector_ => ts = [tk_vector]
  | enum_ => ts = [tk_enum] | class_ => ts = [tk_class] | struct_ => ts = [tk_struct]
  | float_ => ts = [tk_float] | double_ => ts = [tk_double] | bool_ => ts = [tk_bool]
  | name => exists s, ts = [tk_name s]
  | enum_part => exists c n es t, es <> [] /\ ts = def_tokens (DefEnum c n es t)
  | enum_start => exists c n, ts = enum_head c n
  | enum_block => exists es t, es <> [] /\ ts = tk_lbrace :: entries_tokens es t ++ [tk_rbrace; tk_semi]
  | enum_block_ents => exists es t, es <> [] /\ ts = entries_tokens es t
  | enum_ent => exists e, ts = entry_tokens e
  | struct_part => exists n ms, ms <> [] /\ ts = def_tokens (DefStruct n ms)
  | struct_start => exists n, ts = [tk_struct; tk_name n]
  | struct_block_ents => exists ms, ms <> [] /\ ts = concat (map member_tokens ms)
  | struct_block_ent => exists m, ts = member_tokens m
  | simple_type_ => exists t, ts = type_tokens t
  | simple_default_value => exists d, d <> NoDefault /\ ts = dflt_tokens d
  | value => exists v, ts = [dvalue_token v]
  | struct_block_vector => exists t, ts = [tk_vector; tk_lt; tk_name t; tk_gt]
  end.

Fixpoint sems (xs : list sym) (ts : list token) : Prop :=
  match xs with
  | [] => ts = []
  | T k :: r => exists t ts', ts = t :: ts' /\ t_kind t = k /\ good_token t /\ sems r ts'
  | X a :: r => exists ts1 ts2, ts = ts1 ++ ts2 /\ sem a ts1 /\ sems r ts2
  end.

Lemma kind_kw k t : t_kind t = k -> (k < 24)%N -> good_token t -> t = kw k.
Proof. destruct t as [k' [s|]]; cbn; intros <- H [_ G]; cbn in G; [lia|reflexivity]. Qed.
Lemma kind_txt k t : t_kind t = k -> (24 <= k)%N -> good_token t -> exists s, t = Tok k (Some s).
Proof. destruct t as [k' [s|]]; cbn; intros <- H [_ G]; cbn in G; [eauto|lia]. Qed.

Ltac inv1 :=
  repeat match goal with
  | H : exists _, _ |- _ => destruct H
  | H : _ /\ _ |- _ => destruct H
  | H : ?x = _ |- _ => is_var x; subst x
  | H : t_kind ?t = _, G : good_token ?t |- _ =>
      first [apply kind_kw in H; [subst t; clear G | vm_compute; reflexivity | exact G]
            |apply kind_txt in H; [clear G; destruct H; subst t | vm_compute; discriminate | exact G]]
  end.

Lemma prod_sem a rhs ts : In rhs (productions a) -> sems rhs ts -> sem a ts.
Proof.
  destruct a; cbn [productions In]; intros Hin Hs;
    repeat (destruct Hin as [<-|Hin]; [|try contradiction]);
    cbn [sems sem] in *; inv1; try reflexivity.
  - eexists. split; [eassumption|]. apply app_nil_r.
  - match goal with d : def |- _ => exists [d]; split; [split; [discriminate|apply Forall_cons; [assumption|apply Forall_nil]]|] end.
    unfold file_tokens. cbn. reflexivity.
  - match goal with d : def, ds : list def |- _ => exists (d :: ds) end.
    match goal with H : wf_file _ |- _ => destruct H end.
    split; [split; [discriminate|constructor; auto]|]. unfold file_tokens. cbn [map concat]. rewrite app_nil_r. reflexivity.
  - eexists (DefEnum _ _ _ _). split; [|rewrite app_nil_r; reflexivity]. assumption.
  - eexists (DefStruct _ _). split; [|rewrite app_nil_r; reflexivity]. assumption.
  - eexists. reflexivity.
  - do 4 eexists. split; [eassumption|]. rewrite app_nil_r. reflexivity.
  - exists false. eexists. reflexivity.
  - exists true. eexists. reflexivity.
  - do 2 eexists. split; [eassumption|]. cbn. reflexivity.
  - match goal with e : entry |- _ => exists [e], false; split; [discriminate|] end. reflexivity.
  - match goal with e : entry, es : list entry, b : bool |- _ => exists (e :: es), b end.
    split; [discriminate|]. rewrite app_nil_r.
    match goal with H : ?l <> [] |- _ => destruct l; [congruence|] end. reflexivity.
  - match goal with e : entry |- _ => exists [e], true; split; [discriminate|] end. reflexivity.
  - eexists (Entry _ None). reflexivity.
  - eexists (Entry _ (Some (CInt _))). reflexivity.
  - eexists (Entry _ (Some (CHex _))). reflexivity.
  - eexists (Entry _ (Some (CChar _))). reflexivity.
  - do 2 eexists. split; [eassumption|]. cbn. reflexivity.
  - eexists. reflexivity.
  - match goal with m : member |- _ => exists [m] end. split; [discriminate|reflexivity].
  - match goal with m : member, ms : list member |- _ => exists (m :: ms) end. split; [discriminate|].
    cbn. rewrite app_nil_r. reflexivity.
  - eexists (MSimple _ _ NoDefault). cbn. reflexivity.
  - eexists (MSimple _ _ _). cbn. reflexivity.
  - eexists (MUser _ _ NoDefault). reflexivity.
  - eexists (MUser _ _ _). cbn. reflexivity.
  - eexists (MVector _ _). reflexivity.
  - exists bool_E. reflexivity.
  - exists int_E. reflexivity.
  - exists short_E. reflexivity.
  - exists long_E. reflexivity.
  - exists unsigned_int_E. reflexivity.
  - exists unsigned_short_E. reflexivity.
  - exists unsigned_long_E. reflexivity.
  - exists float_E. reflexivity.
  - exists double_E. reflexivity.
  - exists std_string_E. reflexivity.
  - exists EmptyDefault. split; [discriminate|reflexivity].
  - eexists (Default _). split; [discriminate|reflexivity].
  - eexists (DInt _). reflexivity.
  - eexists (DFlt _). reflexivity.
  - exists DTrue. reflexivity.
  - exists DFalse. reflexivity.
  - eexists (DEnum _). reflexivity.
  - eexists (DStr _). reflexivity.
  - eexists (DChar _). reflexivity.
  - eexists. reflexivity.
Qed.

Lemma derives_sems xs ts : derives xs ts -> Forall good_token ts -> sems xs ts.
Proof.
  induction 1 as [|k t r ts Hk Hd IH|a rhs r ts1 ts2 Hin Hd1 IH1 Hd2 IH2]; intros Hg; cbn [sems].
  - reflexivity.
  - inversion Hg; subst. exists t, ts. auto.
  - apply Forall_app in Hg as [G1 G2]. exists ts1, ts2. repeat split; auto. eapply prod_sem; eauto.
Qed.

(** Derivations. *)
Lemma dv_one a rhs ts : In rhs (productions a) -> derives rhs ts -> derives [X a] ts.
Proof. intros. rewrite <- (app_nil_r ts). eapply dv_nt; eauto. constructor. Qed.
Lemma dv_cons a r ts1 ts2 : derives [X a] ts1 -> derives r ts2 -> derives (X a :: r) (ts1 ++ ts2).
Proof.
  intros H1 H2. inversion H1 as [| |a' rhs r' t1 t2 Hin Hd Hn]; subst. inversion Hn; subst.
  rewrite app_nil_r. eapply dv_nt; eauto.
Qed.
Lemma dv_t k t r ts : t_kind t = k -> derives r ts -> derives (T k :: r) ([t] ++ ts).
Proof. intros. constructor; auto. Qed.

Ltac leaf := eapply dv_one; [left; reflexivity|]; apply dv_tok; [reflexivity|apply dv_nil].
Ltac snoc := match goal with |- derives _ ?ts => rewrite <- (app_nil_r ts) end.

Lemma d_name s : derives [X name] [tk_name s]. Proof. leaf. Qed.
Lemma d_lb : derives [X block_start] [tk_lbrace]. Proof. leaf. Qed.
Lemma d_rb : derives [X block_end] [tk_rbrace]. Proof. leaf. Qed.
Lemma d_comma : derives [X comma] [tk_comma]. Proof. leaf. Qed.
Lemma d_semi : derives [X semicolon] [tk_semi]. Proof. leaf. Qed.
Lemma d_equals : derives [X equals] [tk_equals]. Proof. leaf. Qed.
Lemma d_lt : derives [X lessthan] [tk_lt]. Proof. leaf. Qed.
Lemma d_gt : derives [X greaterthan] [tk_gt]. Proof. leaf. Qed.
Lemma d_true : derives [X true_] [tk_true]. Proof. leaf. Qed.
Lemma d_false : derives [X false_] [tk_false]. Proof. leaf. Qed.
Lemma d_uns : derives [X unsigned_] [tk_unsigned]. Proof. leaf. Qed.
Lemma d_int : derives [X int_] [tk_int]. Proof. leaf. Qed.
Lemma d_short : derives [X short_] [tk_short]. Proof. leaf. Qed.
Lemma d_long : derives [X long_] [tk_long]. Proof. leaf. Qed.
Lemma d_str : derives [X std_string_] [tk_string]. Proof. leaf. Qed.
Lemma d_vec : derives [X std_vector_] [tk_vector]. Proof. leaf. Qed.
Lemma d_enum : derives [X enum_] [tk_enum]. Proof. leaf. Qed.
Lemma d_class : derives [X class_] [tk_class]. Proof. leaf. Qed.
Lemma d_struct : derives [X struct_] [tk_struct]. Proof. leaf. Qed.
Lemma d_float : derives [X float_] [tk_float]. Proof. leaf. Qed.
Lemma d_double : derives [X double_] [tk_double]. Proof. leaf. Qed.
Lemma d_bool : derives [X bool_] [tk_bool]. Proof. leaf. Qed.
Create HintDb dv.
#[local] Hint Resolve d_name d_lb d_rb d_comma d_semi d_equals d_lt d_gt d_true d_false d_uns d_int d_short d_long
  d_str d_vec d_enum d_class d_struct d_float d_double d_bool dv_nil : dv.

(** [prod n]: use the [n]-th production. *)
Ltac pick n := match n with O => left; reflexivity | S ?m => right; pick m end.
Ltac prod n := eapply dv_one; [cbn [productions]; pick n|].
Ltac seq1 := first
  [ apply (dv_cons _ [] _ []); [solve [auto with dv]|apply dv_nil]
  | apply (dv_cons _ _ [_]); [solve [auto with dv]|]
  | apply dv_tok; [reflexivity|]
  | apply dv_nil ].
Ltac seqs := repeat seq1.

Lemma d_type t : derives [X simple_type_] (type_tokens t).
Proof.
  destruct t; cbn [type_tokens].
  - prod 0%nat; seqs. - prod 1%nat; seqs. - prod 2%nat; seqs. - prod 3%nat; seqs. - prod 4%nat; seqs.
  - prod 5%nat; seqs. - prod 6%nat; seqs. - prod 7%nat; seqs. - prod 8%nat; seqs. - prod 9%nat; seqs.
Qed.
Lemma d_value v : derives [X value] [dvalue_token v].
Proof.
  destruct v; cbn [dvalue_token].
  - prod 0%nat; seqs. - prod 1%nat; seqs. - prod 2%nat; seqs. - prod 3%nat; seqs. - prod 4%nat; seqs.
  - prod 5%nat; seqs. - prod 6%nat; seqs.
Qed.
#[local] Hint Resolve d_type d_value : dv.
Lemma d_dflt d : d <> NoDefault -> derives [X simple_default_value] (dflt_tokens d).
Proof. destruct d; cbn [dflt_tokens]; intros H; [congruence| |]. - prod 0%nat; seqs. - prod 1%nat; seqs. Qed.
Lemma d_vector t : derives [X struct_block_vector] [tk_vector; tk_lt; tk_name t; tk_gt].
Proof. prod 0%nat; seqs. Qed.
Lemma d_member m : derives [X struct_block_ent] (member_tokens m).
Proof.
  destruct m as [ty n d|t n d|t n]; cbn [member_tokens].
  - destruct d as [| |v].
    + prod 0%nat. apply dv_cons; [apply d_type|]. cbn. seqs.
    + prod 1%nat. apply dv_cons; [apply d_type|]. apply (dv_cons _ _ [_]); [auto with dv|].
      apply (dv_cons _ _ (dflt_tokens EmptyDefault)); [apply d_dflt; discriminate|]. seqs.
    + prod 1%nat. apply dv_cons; [apply d_type|]. apply (dv_cons _ _ [_]); [auto with dv|].
      apply (dv_cons _ _ (dflt_tokens (Default v))); [apply d_dflt; discriminate|]. seqs.
  - destruct d as [| |v].
    + prod 2%nat. cbn. seqs.
    + prod 3%nat. do 2 (apply (dv_cons _ _ [_]); [auto with dv|]).
      apply (dv_cons _ _ (dflt_tokens EmptyDefault)); [apply d_dflt; discriminate|]. seqs.
    + prod 3%nat. do 2 (apply (dv_cons _ _ [_]); [auto with dv|]).
      apply (dv_cons _ _ (dflt_tokens (Default v))); [apply d_dflt; discriminate|]. seqs.
  - prod 4%nat. apply (dv_cons _ _ [_; _; _; _]); [apply d_vector|]. seqs.
Qed.
Lemma d_members ms : ms <> [] -> derives [X struct_block_ents] (concat (map member_tokens ms)).
Proof.
  induction ms as [|m ms IH]; intros H; [congruence|]. cbn [map concat].
  destruct ms as [|m2 ms].
  - cbn. rewrite app_nil_r. prod 0%nat. apply d_member.
  - prod 1%nat. apply dv_cons; [apply d_member|]. apply IH. discriminate.
Qed.
Lemma d_entry e : derives [X enum_ent] (entry_tokens e).
Proof.
  destruct e as [n [[s|s|s]|]]; cbn.
  - prod 1%nat; seqs. - prod 2%nat; seqs. - prod 3%nat; seqs. - prod 0%nat; seqs.
Qed.
Lemma d_entries es t : es <> [] -> derives [X enum_block_ents] (entries_tokens es t).
Proof.
  induction es as [|e es IH]; intros H; [congruence|].
  destruct es as [|e2 es].
  - cbn [entries_tokens]. destruct t.
    + prod 2%nat. apply dv_cons; [apply d_entry|]. seqs.
    + rewrite app_nil_r. prod 0%nat. apply d_entry.
  - change (entries_tokens (e :: e2 :: es) t) with (entry_tokens e ++ tk_comma :: entries_tokens (e2 :: es) t).
    prod 1%nat. apply dv_cons; [apply d_entry|]. apply (dv_cons _ _ [_]); [auto with dv|]. apply IH. discriminate.
Qed.
Lemma d_ehead c n : derives [X enum_start] (enum_head c n).
Proof. destruct c; cbn. - prod 1%nat; seqs. - prod 0%nat; seqs. Qed.
Lemma d_def d : wf_def d -> derives [X part] (def_tokens d).
Proof.
  destruct d as [c n es t|n ms]; cbn [wf_def def_tokens]; intros H.
  - prod 0%nat. prod 0%nat. apply dv_cons; [apply d_ehead|].
    prod 0%nat. apply (dv_cons _ _ [_]); [auto with dv|]. apply dv_cons; [apply d_entries; auto|]. seqs.
  - prod 1%nat. prod 0%nat. apply (dv_cons _ _ [_; _] (tk_lbrace :: _)).
    + prod 0%nat; seqs.
    + apply (dv_cons _ _ [_]); [auto with dv|]. apply dv_cons; [apply d_members; auto|]. seqs.
Qed.
Lemma d_file ds : wf_file ds -> derives [X parts] (file_tokens ds).
Proof.
  intros [Hn Hw]. induction Hw as [|d ds Hd Hw IH]; [congruence|]. unfold file_tokens in *. cbn [map concat].
  destruct ds as [|d2 ds].
  - cbn. rewrite app_nil_r. prod 0%nat. apply d_def. auto.
  - prod 1%nat. apply dv_cons; [apply d_def; auto|]. apply IH. discriminate.
Qed.

Theorem language ts : Forall good_token ts ->
  (in_language ts <-> exists ds, wf_file ds /\ ts = file_tokens ds).
Proof.
  intros Hg. split.
  - intros H. apply derives_sems in H; [|exact Hg]. cbn [sems sem] in H.
    destruct H as (ts1 & ts2 & -> & H & ->). rewrite app_nil_r. exact H.
  - intros (ds & Hw & ->). prod 0%nat. apply d_file. exact Hw.
Qed.
