(** The text printed by the n_ini back end, read back. *)
From Coq Require Import String Ascii ZArith NArith Arith List Bool Lia.
From Verif Require Import Base Map Items Fmt Templates Emit Cpp SymLex SymParse Ast PrintXa.
Import ListNotations.
Local Open Scope string_scope.
Local Open Scope list_scope.

Lemma p_ni_rd_simple m : simple_ok m = true ->
  prints [Cmd T_cpp ini_354 [ss_name m; convert (ss_type m)]] (ni_rd_simple m).
Proof.
  unfold simple_ok. intros N. unfold ni_rd_simple, ni_item.
  destruct (ss_type m);
  (eapply prints_flatly;
   [ eapply (lexes_inst 1); [reflexivity|]; eapply (lexes_cmd [AId; ATxt]); [vm_compute; reflexivity | args_tac]
   | toks_tac; ps_split 10; ps_one | simpl; lia ]).
Qed.
Lemma p_ni_rd_enum m : complex_ok m = true -> prints (ni_read_enum m) (ni_rd_enum m).
Proof.
  unfold complex_ok. intros N. apply andb_prop in N as [N T]. unfold ni_read_enum, ni_rd_enum, ni_item.
  destruct (sc_type m); try apply prints_nil. print_tac [AId] ltac:(ps_split 10; ps_one).
Qed.
Lemma plain_underline s : plain s = true -> plain (underline_to_space s) = true.
Proof.
  induction s as [|c s IH]; intros H; [reflexivity|]. unfold plain in *. cbn [all_chars underline_to_space] in *.
  apply andb_prop in H as [H1 H2]. rewrite (IH H2), andb_true_r. destruct (c =? "_")%char; [reflexivity | exact H1].
Qed.
Lemma p_ni_rd_complex m : complex_ok m = true -> prints (fst (ni_read_complex m)) (ni_rd_complex m).
Proof.
  unfold complex_ok. intros N. apply andb_prop in N as [N T]. unfold ni_read_complex, ni_rd_complex.
  pose proof (plain_underline _ (ident_plain _ (name_ok_ident _ N))) as U.
  destruct (sc_type m); cbn [fst].
  - apply prints_cons with (x := []) (y := []); [silent_tac [AId] | apply prints_skip; [reflexivity | apply prints_nil]].
  - apply prints_cons with (x := []) (y := []); [silent_tac [AId] | apply prints_skip; [reflexivity | apply prints_nil]].
  - apply prints_nil.
  - print_tac [AId; AId; ATxt] ltac:(ps_one).
  - apply prints_cons with (x := []) (y := []); [silent_tac [AId] | apply prints_skip; [reflexivity | apply prints_nil]].
Qed.
Lemma p_ni_wr_simple nd m : simple_ok m = true -> prints [ni_write_simple nd m] (ni_wr_simple nd m).
Proof.
  unfold simple_ok. intros N. unfold ni_write_simple, ni_wr_simple, if_changed.
  destruct nd, (ss_type m); print_tac [AId] ltac:(ps_one).
Qed.
Lemma p_ni_wr_complex nd m : complex_ok m = true -> prints (fst (ni_write_complex nd m)) (ni_wr_complex nd m).
Proof.
  unfold complex_ok. intros N. apply andb_prop in N as [N T]. unfold ni_write_complex, ni_wr_complex, if_changed.
  pose proof (plain_underline _ (ident_plain _ (name_ok_ident _ N))) as U.
  destruct (sc_type m); cbn [fst].
  - apply prints_cons with (x := []) (y := []); [silent_tac [AId] | apply prints_skip; [reflexivity | apply prints_nil]].
  - apply prints_cons with (x := []) (y := []); [silent_tac [AId] | apply prints_skip; [reflexivity | apply prints_nil]].
  - destruct nd; print_tac [AId] ltac:(ps_one).
  - print_tac [AId; AId; ATxt] ltac:(ps_split 4; ps_split 16; ps_split 4; ps_one).
  - apply prints_cons with (x := []) (y := []); [silent_tac [AId] | apply prints_skip; [reflexivity | apply prints_nil]].
Qed.

Lemma prints_map {A} (f : A -> cmd) (g : A -> list stmt) l :
  (forall a, In a l -> prints [f a] (g a)) -> prints (map f l) (flat_map g l).
Proof.
  induction l as [|a l IH]; intros H; simpl; [apply prints_nil|].
  apply prints_cons; [apply H; now left | apply IH; intros; apply H; now right].
Qed.

Lemma prints_wrap_if hc hd bc c ss tc :
  lexes hc hd -> prints bc ss -> lexes tc [TP p_rbrace] ->
  (forall f X, p_stmt (S (S f)) (hd ++ X) =
     let? (a, r3) := p_stmts f X in
     match r3 with
     | TKw k_else :: r4 => let? (b, r5) := p_body (S f) r4 in Some (SIf c a b, r5)
     | _ => Some (SIf c a [], r3)
     end) ->
  (forall X, at_else (hd ++ X) = false /\ at_end (hd ++ X) = false) -> 3 <= length hd ->
  prints (hc ++ bc ++ tc) [SIf c ss []].
Proof.
  intros A (n & ts & B1 & B2 & B3 & B4) C D E F. exists (n + length ss + 3), (hd ++ ts ++ [TP p_rbrace]).
  split; [|split; [|split]].
  - apply lexes_app; [exact A | now apply lexes_app].
  - now apply PS_if.
  - rewrite !app_length. simpl. lia.
  - rewrite !app_length. simpl. unfold K0 in *. lia.
Qed.

Lemma d_ini_wr s cls nd : struct_ok s = true -> name_ok cls = true ->
  defines (fst (ni_writer s cls nd)) [ni_wr_fun s cls nd].
Proof.
  intros H C. apply struct_ok_inv in H as (N & S1 & S2). unfold ni_writer, ni_wr_fun, ni_wr_body.
  cbn [fst app]. apply defines_skip; [reflexivity|].
  eapply defines_eq;
  [ eapply (defines_fun0 (Cmd T_cpp ini_458 [cls; s_name s]) _
      ([Cmd T_cpp ini_462 []] ++ [Cmd T_cpp ini_463 []] ++ (if nd then [] else [Cmd T_cpp ini_466 [s_name s]]) ++
       [Cmd T_cpp ini_468 []] ++ map (ni_write_simple nd) (s_simple s) ++
       flat_map (fun m => fst (ni_write_complex nd m)) (s_complex s))
      ([s_rv] ++ [SDecl t_str "lower_path" None] ++ dflt_decl nd (s_name s) ++ [s_section] ++
       flat_map (ni_wr_simple nd) (s_simple s) ++ flat_map (ni_wr_complex nd) (s_complex s))
      (Cmd T_cpp ini_598 [])) | list_eq | list_eq ].
  - lex_tac [AId; AId].
  - apply prints_app; [print_tac ([] : list akind) ltac:(ps_one)|].
    apply prints_app; [print_tac ([] : list akind) ltac:(ps_one)|].
    apply prints_app; [destruct nd; [apply prints_nil | print_tac [AId] ltac:(ps_one)] |].
    apply prints_app; [print_tac ([] : list akind) ltac:(ps_one)|].
    apply prints_app; [apply prints_map; auto using p_ni_wr_simple | apply prints_flat; auto using p_ni_wr_complex].
  - lex_const.
  - reflexivity.
  - reflexivity.
Qed.

Lemma p_stmt_if0 g c r X : p_expr efuel 0 r = Some (c, TP p_rpar :: X) ->
  p_stmt (S g) (TKw k_if :: TP p_lpar :: r) =
  let? (a, r3) := p_body g X in
  match r3 with
  | TKw k_else :: r4 => let? (b, r5) := p_body g r4 in Some (SIf c a b, r5)
  | _ => Some (SIf c a [], r3)
  end.
Proof. intros H. cbn [p_stmt]. rewrite H. reflexivity. Qed.
Lemma p_body_block g X : p_body (S g) (TP p_lbrace :: X) = p_stmts g X.
Proof. reflexivity. Qed.
Lemma p_stmt_if f c r X : p_expr efuel 0 r = Some (c, TP p_rpar :: TP p_lbrace :: X) ->
  p_stmt (S (S f)) (TKw k_if :: TP p_lpar :: r) =
  let? (a, r3) := p_stmts f X in
  match r3 with
  | TKw k_else :: r4 => let? (b, r5) := p_body (S f) r4 in Some (SIf c a b, r5)
  | _ => Some (SIf c a [], r3)
  end.
Proof. intros H. rewrite (p_stmt_if0 _ _ _ _ H), p_body_block. reflexivity. Qed.
Definition if_found : list tok :=
  [TKw k_if; TP p_lpar; TId "found_items"; TP p_ne; TId "m_lookup"; TP p_dot; TId "under"; TP p_dot; TId "cend"; TP p_lpar; TP p_rpar; TP p_rpar; TP p_lbrace].
Lemma p_scalars s : struct_ok s = true ->
  prints match s_simple s with
         | [] => []
         | ms =>
             [Cmd T_cpp ini_310 []; Cmd T_cpp ini_311 []; Cmd T_cpp ini_312 []; Cmd T_cpp ini_313 []] ++
             map (fun m => Cmd T_cpp ini_354 [ss_name m; convert (ss_type m)]) ms ++
             flat_map ni_read_enum (s_complex s) ++ [Cmd T_cpp ini_381 []]
         end (ni_rd_scalars s).
Proof.
  intros H. apply struct_ok_inv in H as (N & S1 & S2). unfold ni_rd_scalars, ni_rd_items.
  destruct (s_simple s) as [|m ms] eqn:M; [apply prints_nil|]. rewrite <- M in *. clear M m ms.
  apply (prints_app [Cmd T_cpp ini_310 []] _ [_] [_]); [print_tac ([] : list akind) ltac:(ps_one)|].
  pose proof (prints_wrap_if [Cmd T_cpp ini_311 []; Cmd T_cpp ini_312 []] if_found
    ([Cmd T_cpp ini_313 []] ++ map (fun m => Cmd T_cpp ini_354 [ss_name m; convert (ss_type m)]) (s_simple s) ++
       flat_map ni_read_enum (s_complex s))
    (EBin b_ne (EId ["found_items"]) (ECall (EMem false e_under "cend") []))
    ([SDecl t_auto "items" (Some (EMem false (e_second "found_items") "items"))] ++
       flat_map ni_rd_simple (s_simple s) ++ flat_map ni_rd_enum (s_complex s)) [Cmd T_cpp ini_381 []]) as W.
  rewrite <- !app_assoc in W. apply W; clear W.
  - apply (lexes_app [_] [_] (removelast if_found) [TP p_lbrace]); lex_const.
  - apply prints_app; [print_tac ([] : list akind) ltac:(ps_one)|].
    apply prints_app; [apply prints_map; auto using p_ni_rd_simple | apply prints_flat; auto using p_ni_rd_enum].
  - lex_const.
  - intros f X. apply p_stmt_if. reflexivity.
  - split; reflexivity.
  - simpl; lia.
Qed.

Lemma d_ini_rd s cls : struct_ok s = true -> name_ok cls = true ->
  defines (fst (ni_reader s cls)) [ni_rd_fun s cls].
Proof.
  intros H C. pose proof (p_scalars s H) as PSC. apply struct_ok_inv in H as (N & S1 & S2).
  unfold ni_reader, ni_rd_fun, ni_rd_body. cbn [fst app]. apply defines_skip; [reflexivity|].
  set (sc := match s_simple s with [] => [] | _ => _ end) in *.
  set (chs := if has_children (s_complex s) then _ else _).
  set (cm := flat_map (fun m => fst (ni_read_complex m)) (s_complex s)).
  assert (I : prints (sc ++ chs ++ cm) (ni_rd_inner s)).
  { unfold ni_rd_inner. apply prints_app; [exact PSC|]. apply prints_app; [|apply prints_flat; auto using p_ni_rd_complex].
    unfold chs. destruct (has_children (s_complex s)); [print_tac ([] : list akind) ltac:(ps_one) | apply prints_nil]. }
  clearbody sc chs cm.
  eapply defines_eq;
  [ eapply (defines_fun0 (Cmd T_cpp ini_301 [cls; s_name s]) _
      ([Cmd T_cpp ini_305 []] ++ [Cmd T_cpp ini_306 []; Cmd T_cpp ini_307 []] ++ (sc ++ chs ++ cm) ++
       [Cmd T_cpp ini_440 []; Cmd T_cpp ini_442 []; Cmd T_cpp ini_443 []] ++ [Cmd T_cpp ini_444 []] ++ [Cmd T_cpp ini_445 []])
      ([s_rv] ++ [STry (ni_rd_inner s) [s_set (EId ["rv"]) (EBool false)]])
      (Cmd T_cpp ini_446 [])) | list_eq | list_eq ].
  - lex_tac [AId; AId].
  - apply prints_app; [print_tac ([] : list akind) ltac:(ps_one)|].
    destruct I as (n & ts & B1 & B2 & B3 & B4).
    set (ct := [TId "rv"; TP p_eq; TKw k_false; TP p_semi]).
    assert (CT : PS K0 ct [s_set (EId ["rv"]) (EBool false)]) by (unfold ct; ps_one).
    exists (max (n + length (ni_rd_inner s)) (K0 + 1) + 2), ([TKw k_try; TP p_lbrace] ++ ts ++ catch_head ++ ct ++ [TP p_rbrace]).
    split; [|split; [|split]].
    + apply lexes_app; [apply (lexes_app [_] [_] [_] [_]); lex_const|].
      apply lexes_app; [exact B1|].
      apply lexes_app; [apply (lexes_app [_] [_; _] [_] (tl catch_head)); [lex_const|]; apply (lexes_app [_] [_] (removelast (tl catch_head)) [_]); lex_const|].
      apply lexes_app; lex_const.
    + exact (PS_try n ts (ni_rd_inner s) ct _ B2 CT).
    + rewrite !app_length. simpl. lia.
    + rewrite !app_length. simpl. unfold K0 in *. lia.
  - lex_const.
  - reflexivity.
  - reflexivity.
Qed.

Lemma d_ini_ctor cls : name_ok cls = true -> defines [Cmd T_cpp ini_107 [cls]] [x_ctor cls].
Proof. intros C. fun_tac [AId]. Qed.
Lemma d_ini_rff cls t : name_ok cls = true -> name_ok t = true -> defines [Cmd T_cpp ini_120 [cls; t]] [ini_rff cls t].
Proof. intros C T. fun_tac [AId; AId]. Qed.
Lemma d_ini_wctor cls rd : name_ok cls = true -> name_ok rd = true -> defines [Cmd T_cpp ini_224 [cls; rd]] [x_wctor cls rd].
Proof. intros C T. fun_tac [AId; AId]. Qed.
Lemma d_ini_wtf cls t : name_ok cls = true -> name_ok t = true -> defines [Cmd T_cpp ini_239 [cls; t]] [ini_wtf cls t].
Proof. intros C T. fun_tac [AId; AId]. Qed.
