(** The text of the enum file, read back: for every enum the two functions of Ast.v. *)
From Coq Require Import String Ascii ZArith NArith Arith List Bool Lia.
From Verif Require Import Base Map Items Fmt Templates Emit Cpp SymLex SymParse Ast.
Import ListNotations.
Local Open Scope string_scope.
Local Open Scope list_scope.

Definition enum_ok (e : enum_S) : bool :=
  name_ok (e_name e) && forallb (fun l => name_ok (el_name l)) (e_lines e).

(** *** Brace initialisers with one pair per line *)
Lemma p_init_pairs {A} (ent : A -> list tok) (ex : A -> expr) l :
  (forall a, In a l -> forall f rest, p_init (3 + f) (ent a ++ rest) =
     let? (r, x) := p_init (2 + f) rest in Some (ex a :: r, x)) ->
  forall f rest, p_init (3 + length l + f) (flat_map ent l ++ TP p_rbrace :: rest) = Some (map ex l, rest).
Proof.
  induction l as [|a l IH]; intros H f rest; [reflexivity|].
  cbn [flat_map map length]. rewrite <- app_assoc. replace (3 + S (length l) + f) with (3 + (S (length l) + f)) by lia.
  rewrite H by (now left). replace (2 + (S (length l) + f)) with (3 + length l + f) by lia.
  rewrite IH; [reflexivity|]. intros b I. apply H. now right.
Qed.
Lemma flat_map_len {A} (ent : A -> list tok) k l : (forall a, k <= length (ent a)) -> k * length l <= length (flat_map ent l).
Proof. intros H. induction l as [|a l IH]; simpl; [lia|]. rewrite app_length. specialize (H a). lia. Qed.

(** The declaration of such a map. *)
Lemma PS_map {A} hd t x (ent : A -> list tok) (ex : A -> expr) l :
  (forall f X, p_stmt (K0 + f) (hd ++ X) =
     let? (l, r2) := p_init (S (length X)) X in
     match r2 with TP p_semi :: r3 => Some (SDecl t x (Some (EList l)), r3) | _ => None end) ->
  (forall X, at_else (hd ++ X) = false /\ at_end (hd ++ X) = false) ->
  (forall a, In a l -> forall f rest, p_init (3 + f) (ent a ++ rest) =
     let? (r, x) := p_init (2 + f) rest in Some (ex a :: r, x)) ->
  (forall a, 2 <= length (ent a)) ->
  PS K0 (hd ++ flat_map ent l ++ [TP p_rbrace; TP p_semi]) [SDecl t x (Some (EList (map ex l)))].
Proof.
  intros H G I L. apply PS_one.
  - intros f rest _. rewrite <- !app_assoc, H. cbn [app].
    set (m := length (flat_map ent l ++ _)).
    assert (M : 2 + 2 * length l <= m).
    { unfold m. rewrite app_length. simpl. pose proof (flat_map_len ent 2 l L). lia. }
    replace (S m) with (3 + length l + (m - 2 - length l)) by lia.
    now rewrite (p_init_pairs ent ex l I).
  - intros rest. rewrite <- app_assoc. apply G.
Qed.

Definition ent_from (e : enum_S) (l : enum_line) : list tok :=
  if e_class e then [TP p_lbrace; TId (e_name e); TP p_scope; TId (el_name l); TP p_comma; TStr (el_name l); TP p_rbrace; TP p_comma]
  else [TP p_lbrace; TId (el_name l); TP p_comma; TStr (el_name l); TP p_rbrace; TP p_comma].
Definition ent_to (e : enum_S) (l : enum_line) : list tok :=
  if e_class e then [TP p_lbrace; TStr (el_name l); TP p_comma; TId (e_name e); TP p_scope; TId (el_name l); TP p_rbrace; TP p_comma]
  else [TP p_lbrace; TStr (el_name l); TP p_comma; TId (el_name l); TP p_rbrace; TP p_comma].

Lemma enum_ok_inv e : enum_ok e = true -> name_ok (e_name e) = true /\ forall l, In l (e_lines e) -> name_ok (el_name l) = true.
Proof. unfold enum_ok. rewrite andb_true_iff, forallb_forall. tauto. Qed.

Lemma lexes_map {A} (f : A -> cmd) (g : A -> list tok) l :
  (forall a, In a l -> lexes [f a] (g a)) -> lexes (map f l) (flat_map g l).
Proof.
  induction l as [|a l IH]; intros H; simpl; [apply lexes_nil|].
  apply lexes_cons; [apply H; now left | apply IH; intros; apply H; now right].
Qed.
Lemma lex_from e : enum_ok e = true ->
  lexes (map (fun l => if e_class e then Cmd T_cpp pi_154 [e_name e; el_name l] else Cmd T_cpp pi_158 [el_name l]) (e_lines e))
        (flat_map (ent_from e) (e_lines e)).
Proof.
  intros H. apply enum_ok_inv in H as [N L]. apply lexes_map. intros l I. specialize (L l I). unfold ent_from.
  destruct (e_class e); [exact (lexes_cmd [AId; AId] pi_154 [e_name e; el_name l] _ eq_refl ltac:(args_tac))
                        | exact (lexes_cmd [AId] pi_158 [el_name l] _ eq_refl ltac:(args_tac))].
Qed.
Lemma lex_to e : enum_ok e = true ->
  lexes (map (fun l => if e_class e then Cmd T_cpp pi_178 [e_name e; el_name l] else Cmd T_cpp pi_182 [el_name l]) (e_lines e))
        (flat_map (ent_to e) (e_lines e)).
Proof.
  intros H. apply enum_ok_inv in H as [N L]. apply lexes_map. intros l I. specialize (L l I). unfold ent_to.
  destruct (e_class e); [exact (lexes_cmd [AId; AId] pi_178 [e_name e; el_name l] _ eq_refl ltac:(args_tac))
                        | exact (lexes_cmd [AId] pi_182 [el_name l] _ eq_refl ltac:(args_tac))].
Qed.

Lemma p_init_nested f r l rest : p_init f r = Some (l, TP p_comma :: rest) ->
  p_init (S f) (TP p_lbrace :: r) = let? (x, y) := p_init f rest in Some (EList l :: x, y).
Proof. intros H. cbn [p_init]. rewrite H. reflexivity. Qed.
Lemma init_from e l f rest : p_init (3 + f) (ent_from e l ++ rest) =
  let? (r, x) := p_init (2 + f) rest in Some (EList [e_enumerator e (el_name l); EStr (el_name l)] :: r, x).
Proof. unfold ent_from, e_enumerator. destruct (e_class e); apply p_init_nested; reflexivity. Qed.
Lemma init_to e l f rest : p_init (3 + f) (ent_to e l ++ rest) =
  let? (r, x) := p_init (2 + f) rest in Some (EList [EStr (el_name l); e_enumerator e (el_name l)] :: r, x).
Proof. unfold ent_to, e_enumerator. destruct (e_class e); apply p_init_nested; reflexivity. Qed.

Definition from_cmds (e : enum_S) : list cmd :=
  let n := e_name e in
  Cmd T_cpp pi_146 [n] :: (Cmd T_cpp pi_148 [n] ::
  map (fun l => if e_class e then Cmd T_cpp pi_154 [n; el_name l] else Cmd T_cpp pi_158 [el_name l]) (e_lines e) ++
  [Cmd T_cpp pi_161 []; Cmd T_cpp pi_162 [n]]) ++ [Cmd T_cpp pi_163 []].
Definition to_cmds (e : enum_S) : list cmd :=
  let n := e_name e in
  Cmd T_cpp pi_169 [n] :: (Cmd T_cpp pi_170 [] :: Cmd T_cpp pi_172 [n] ::
  map (fun l => if e_class e then Cmd T_cpp pi_178 [n; el_name l] else Cmd T_cpp pi_182 [el_name l]) (e_lines e) ++
  [Cmd T_cpp pi_185 []; Cmd T_cpp pi_186 [n]]) ++ [Cmd T_cpp pi_206 []].
Lemma process_enum_split e : process_enum e =
  Cmd T_h pi_144 [e_name e] :: from_cmds e ++ Cmd T_h pi_167 [e_name e] :: to_cmds e.
Proof. unfold process_enum, from_cmds, to_cmds. list_eq. Qed.

Lemma d_from e : enum_ok e = true -> defines (from_cmds e) [s_from_e_fun e].
Proof.
  intros H. pose proof (lex_from e H) as LF. apply enum_ok_inv in H as [N L].
  unfold from_cmds, s_from_e_fun, s_map.
  eapply defines_eq; [ eapply (defines_fun0 (Cmd T_cpp pi_146 [e_name e]) _ _
     ([_] ++ [_]) (Cmd T_cpp pi_163 [])) | reflexivity | reflexivity ].
  - lex_tac [AId].
  - rewrite app_comm_cons.
    change [Cmd T_cpp pi_161 []; Cmd T_cpp pi_162 [e_name e]] with ([Cmd T_cpp pi_161 []] ++ [Cmd T_cpp pi_162 [e_name e]]).
    rewrite app_assoc. apply prints_app.
    + eapply prints_flatly.
      * cbn [app]. apply lexes_cons; [lex_tac [AId]|]. apply lexes_app; [exact LF | apply (lexes_const pi_161 [TP p_rbrace; TP p_semi]); reflexivity].
      * toks_tac. apply PS_map.
        -- reflexivity.
        -- split; reflexivity.
        -- intros; apply init_from.
        -- intros a. unfold ent_from. destruct (e_class e); simpl; lia.
      * simpl; lia.
    + print_tac [AId] ltac:(ps_one).
  - lex_const.
  - reflexivity.
  - reflexivity.
Qed.
Lemma d_to e : enum_ok e = true -> defines (to_cmds e) [s_to_e_fun e].
Proof.
  intros H. pose proof (lex_to e H) as LT. apply enum_ok_inv in H as [N L].
  unfold to_cmds, s_to_e_fun, s_map.
  eapply defines_eq; [ eapply (defines_fun0 (Cmd T_cpp pi_169 [e_name e]) _ _
     ([_] ++ [_] ++ [_]) (Cmd T_cpp pi_206 [])) | reflexivity | reflexivity ].
  - lex_tac [AId].
  - apply prints_cons; [print_tac ([] : list akind) ltac:(ps_one)|]. rewrite app_comm_cons.
    change [Cmd T_cpp pi_185 []; Cmd T_cpp pi_186 [e_name e]] with ([Cmd T_cpp pi_185 []] ++ [Cmd T_cpp pi_186 [e_name e]]).
    rewrite app_assoc. apply prints_app.
    + eapply prints_flatly.
      * cbn [app]. apply lexes_cons; [lex_tac [AId]|]. apply lexes_app; [exact LT | apply (lexes_const pi_185 [TP p_rbrace; TP p_semi]); reflexivity].
      * toks_tac. apply PS_map.
        -- reflexivity.
        -- split; reflexivity.
        -- intros; apply init_to.
        -- intros a. unfold ent_to. destruct (e_class e); simpl; lia.
      * simpl; lia.
    + print_tac [AId] ltac:(ps_one).
  - lex_const.
  - reflexivity.
  - reflexivity.
Qed.
Lemma d_enum e : enum_ok e = true -> defines (process_enum e) (enum_funs e).
Proof.
  intros H. rewrite process_enum_split. apply defines_skip; [reflexivity|].
  apply (defines_app _ _ [_] [_]); [now apply d_from|]. apply defines_skip; [reflexivity | now apply d_to].
Qed.
