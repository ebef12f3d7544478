(** Parsing the tokens of the printed lines: composition of statements into bodies,
    functions and files, for unbounded numbers of lines. *)
From Coq Require Import String Ascii ZArith NArith Arith List Bool Lia.
From Verif Require Import Base Fmt Templates Emit Cpp SymLex.
Import ListNotations.
Local Open Scope string_scope.
Local Open Scope list_scope.

Definition at_else (ts : list tok) : bool := match ts with TKw k_else :: _ => true | _ => false end.
Definition at_end (ts : list tok) : bool := match ts with TP p_rbrace :: _ => true | _ => false end.

(** [ts] is a sequence of statements [ss]: wherever statements are expected, the parser
    given at least [n] fuel per level reads exactly [ss] and goes on behind [ts]. *)
Definition PS (n : nat) (ts : list tok) (ss : list stmt) : Prop :=
  (forall rest, at_else rest = false -> at_else (ts ++ rest) = false) /\
  forall f rest, n <= f -> at_else rest = false ->
    p_stmts (length ss + f) (ts ++ rest) = let? (l, r) := p_stmts f rest in Some (ss ++ l, r).

Definition K0 : nat := 40.

Lemma p_stmts_cons f ts s r : at_end ts = false -> p_stmt f ts = Some (s, r) ->
  p_stmts (S f) ts = let? (l, r') := p_stmts f r in Some (s :: l, r').
Proof.
  intros H E. cbn [p_stmts]. destruct ts as [|t ts]; [now rewrite E|].
  destruct t; try (now rewrite E). destruct p; try (now rewrite E). discriminate.
Qed.

Lemma PS_nil n : PS n [] [].
Proof. split; [auto|]. intros f rest _ _. simpl. now destruct (p_stmts f rest) as [[l r]|]. Qed.
Lemma PS_one ts s : (forall f rest, at_else rest = false -> p_stmt (K0 + f) (ts ++ rest) = Some (s, rest)) ->
  (forall rest, at_else (ts ++ rest) = false /\ at_end (ts ++ rest) = false) -> PS K0 ts [s].
Proof.
  intros H G. split; [intros; apply G|]. intros f rest L E.
  cbn [length]. replace (1 + f) with (S (K0 + (f - K0))) by lia.
  rewrite (p_stmts_cons _ _ s rest (proj2 (G rest)) (H _ _ E)).
  replace (K0 + (f - K0)) with f by lia. reflexivity.
Qed.
Lemma PS_weak n m ts ss : PS n ts ss -> n <= m -> PS m ts ss.
Proof. intros [A B] L. split; [exact A|]. intros f rest M E. apply B; [lia | exact E]. Qed.
Lemma PS_app n a b x y : PS n a x -> PS n b y -> PS n (a ++ b) (x ++ y).
Proof.
  intros [A1 A2] [B1 B2]. split.
  - intros rest H. rewrite <- app_assoc. auto.
  - intros f rest L E. rewrite <- app_assoc, app_length, <- Nat.add_assoc, A2, B2 by (auto; lia).
    destruct (p_stmts f rest) as [[l r]|]; [now rewrite app_assoc | reflexivity].
Qed.
Lemma PS_flat {A} n (f : A -> list tok) (g : A -> list stmt) l :
  (forall a, In a l -> PS n (f a) (g a)) -> PS n (flat_map f l) (flat_map g l).
Proof.
  induction l as [|a l IH]; intros H; simpl; [apply PS_nil|].
  apply PS_app; [apply H; now left | apply IH; intros; apply H; now right].
Qed.
(** All of a body, up to and including the closing brace. *)
Lemma PS_body n ts ss f rest : PS n ts ss -> S n + length ss <= f -> p_stmts f (ts ++ TP p_rbrace :: rest) = Some (ss, rest).
Proof.
  intros [_ B] L. replace f with (length ss + (S (f - 1 - length ss))) by lia.
  rewrite B by (auto; lia). simpl. now rewrite app_nil_r.
Qed.

(** *** Lines that print statements *)
Definition prints (cs : list cmd) (ss : list stmt) : Prop :=
  exists n ts, lexes cs ts /\ PS n ts ss /\ length ss <= length ts /\ n + length ss <= K0 + length ts.
Lemma prints_flatly cs ts ss : lexes cs ts -> PS K0 ts ss -> length ss <= length ts -> prints cs ss.
Proof. intros. exists K0, ts. repeat split; auto; try apply H0. lia. Qed.
Lemma prints_nil : prints [] [].
Proof. apply (prints_flatly _ []); auto using lexes_nil, PS_nil. Qed.
Lemma prints_app a b x y : prints a x -> prints b y -> prints (a ++ b) (x ++ y).
Proof.
  intros (n & s & A1 & A2 & A3 & A4) (m & t & B1 & B2 & B3 & B4). exists (max n m), (s ++ t).
  split; [now apply lexes_app | split; [apply PS_app; eapply PS_weak; eauto; lia |]]. rewrite !app_length. lia.
Qed.
Lemma prints_cons c b x y : prints [c] x -> prints b y -> prints (c :: b) (x ++ y).
Proof. apply (prints_app [c] b). Qed.
Lemma prints_skip c b y : to_eqb (c_to c) T_cpp = false -> prints b y -> prints (c :: b) y.
Proof. intros H (n & t & B1 & B2). exists n, t. split; [now apply lexes_skip_cons | exact B2]. Qed.
Lemma prints_flat {A} (f : A -> list cmd) (g : A -> list stmt) l :
  (forall a, In a l -> prints (f a) (g a)) -> prints (flat_map f l) (flat_map g l).
Proof.
  induction l as [|a l IH]; intros H; simpl; [apply prints_nil|].
  apply prints_app; [apply H; now left | apply IH; intros; apply H; now right].
Qed.
Lemma prints_silent cs : lexes cs [] -> prints cs [].
Proof. intros H. apply (prints_flatly _ []); auto using PS_nil. Qed.

(** *** Lines that print a file of function definitions *)
Definition at_semi (ts : list tok) : bool := match ts with TP p_semi :: _ => true | _ => false end.
Definition PF (ts : list tok) (fs : list fdef) : Prop :=
  (forall rest, at_semi rest = false -> at_semi (ts ++ rest) = false) /\ length fs <= length ts /\
  forall f rest, at_semi rest = false ->
    p_file (length fs + f) (ts ++ rest) = let? l := p_file f rest in Some (fs ++ l).
Definition defines (cs : list cmd) (fs : list fdef) : Prop := exists ts, lexes cs ts /\ PF ts fs.
Lemma PF_nil : PF [] [].
Proof. split; [auto|split; [auto|]]. intros f rest _. simpl. now destruct (p_file f rest). Qed.
Lemma PF_app a b x y : PF a x -> PF b y -> PF (a ++ b) (x ++ y).
Proof.
  intros (A1 & A2 & A3) (B1 & B2 & B3). split; [|split].
  - intros rest H. rewrite <- app_assoc. auto.
  - rewrite !app_length. lia.
  - intros f rest H. rewrite <- app_assoc, app_length, <- Nat.add_assoc, A3, B3 by auto.
    destruct (p_file f rest); [now rewrite app_assoc | reflexivity].
Qed.
Lemma defines_nil : defines [] [].
Proof. exists []. split; [apply lexes_nil | apply PF_nil]. Qed.
Lemma defines_app a b x y : defines a x -> defines b y -> defines (a ++ b) (x ++ y).
Proof. intros (s & A1 & A2) (t & B1 & B2). exists (s ++ t). split; [now apply lexes_app | now apply PF_app]. Qed.
Lemma defines_cons c b x y : defines [c] x -> defines b y -> defines (c :: b) (x ++ y).
Proof. apply (defines_app [c] b). Qed.
Lemma defines_skip c b y : to_eqb (c_to c) T_cpp = false -> defines b y -> defines (c :: b) y.
Proof. intros H (t & B1 & B2). exists t. split; [now apply lexes_skip_cons | exact B2]. Qed.
Lemma defines_silent cs : lexes cs [] -> defines cs [].
Proof. intros H. exists []. split; [exact H | apply PF_nil]. Qed.
Lemma defines_flat {A} (f : A -> list cmd) (g : A -> list fdef) l :
  (forall a, In a l -> defines (f a) (g a)) -> defines (flat_map f l) (flat_map g l).
Proof.
  induction l as [|a l IH]; intros H; simpl; [apply defines_nil|].
  apply defines_app; [apply H; now left | apply IH; intros; apply H; now right].
Qed.

Lemma p_file_cons f ts : ts <> [] ->
  p_file (S f) ts = let? (d, r) := p_fdef (64 + length ts) ts in let? l := p_file f r in Some (d :: l).
Proof. destruct ts; [congruence | reflexivity]. Qed.

(** A function printed as a head, a body and a tail line. *)
Lemma PF_fun (n : nat) hd body tl tl_ss ty q ps ini ss ts :
  PS n body ss -> length ss <= length body -> PS K0 tl tl_ss -> length tl_ss <= length tl ->
  (forall f rest, p_fdef f (hd ++ rest) =
     let? (b, r) := p_stmts f rest in Some (FDef ty q ps ini b, match r with TP p_semi :: r' => r' | _ => r end)) ->
  (forall rest, at_semi (hd ++ rest) = false) ->
  ts = hd ++ body ++ tl ++ [TP p_rbrace; TP p_semi] ->
  n + length ss <= 40 + length body ->
  PF ts [FDef ty q ps ini (ss ++ tl_ss)].
Proof.
  intros B BL T TL H S0 -> F. split; [|split].
  - intros rest _. rewrite <- app_assoc. apply S0.
  - rewrite !app_length. simpl. lia.
  - intros f rest E. cbn [length Nat.add].
    rewrite p_file_cons by (destruct hd; simpl; [destruct body; simpl; [destruct tl; discriminate|discriminate] | discriminate]).
    rewrite <- app_assoc, H, <- !app_assoc.
    set (g := 64 + _).
    assert (G : g = 66 + length hd + length body + length tl + length rest).
    { unfold g. rewrite !app_length. simpl. lia. }
    destruct B as [_ B]. destruct T as [T1 T].
    replace g with (length ss + (length tl_ss + (S (g - length ss - length tl_ss - 1)))) by lia.
    rewrite B by (try apply T1; auto; lia).
    rewrite T by (auto; unfold K0; lia).
    simpl. rewrite app_nil_r. reflexivity.
Qed.

(** The whole file. *)
Lemma defines_read cs fs : defines cs fs -> exists t, render T_cpp cs = Some t /\ read_cpp t = Some fs.
Proof.
  intros (ts & L & P1 & P2 & P3). destruct (lexes_lex _ _ L) as (t & R & X). exists t. split; [exact R|].
  unfold read_cpp. rewrite X. specialize (P3 (length ts - length fs) []). rewrite app_nil_r in P3.
  replace (length fs + (length ts - length fs)) with (length ts) in P3 by lia. rewrite P3 by reflexivity.
  destruct (length ts - length fs); simpl; now rewrite app_nil_r.
Qed.

(** A function printed by a single line. *)
Lemma PF_one ts d :
  (forall f rest, at_semi rest = false -> p_fdef (64 + f) (ts ++ rest) = Some (d, rest)) ->
  (forall rest, at_semi (ts ++ rest) = false) -> ts <> [] -> PF ts [d].
Proof.
  intros H S0 N. split; [intros; apply S0 | split; [destruct ts; [congruence | simpl; lia] |]].
  intros f rest E. cbn [length Nat.add]. rewrite p_file_cons by (destruct ts; [congruence | discriminate]).
  now rewrite H.
Qed.

(** *** Tactics *)
Ltac args_tac := cbn [args_ok kind_ok]; repeat match goal with |- (_ && _)%bool = true => apply andb_true_intro; split end; solve [assumption | reflexivity].
Ltac lex_tac ks := eapply (lexes_cmd ks); [vm_compute; reflexivity | args_tac].
Ltac toks_tac := cbv [map evn evs eva nth].
Ltac rest_tac :=
  first [ reflexivity
        | match goal with H : at_else ?r = false |- _ =>
            destruct r as [|[| [] | | | |[]] ?]; try discriminate H; reflexivity end
        | match goal with H : at_semi ?r = false |- _ =>
            destruct r as [|[| [] | | | |[]] ?]; try discriminate H; reflexivity end ].
Ltac ps_one := apply PS_one; [intros ? ? ?; rest_tac | intros; split; reflexivity].
(** Splits off the first [k] tokens as the first statement. *)
Ltac ps_split k :=
  match goal with |- PS ?n ?ts (?s :: ?r) =>
    let a := eval cbv [firstn] in (firstn k ts) in
    let b := eval cbv [skipn] in (skipn k ts) in
    change (PS n (a ++ b) ([s] ++ r)); apply PS_app; [ps_one | ] end.
Ltac print_tac ks ps := eapply prints_flatly; [lex_tac ks | toks_tac; ps | simpl; lia].
Lemma lexes_silent ks t args : ctoks ks t = Some [] -> args_ok ks args = true -> lexes [Cmd T_cpp t args] [].
Proof. intros H A. exact (lexes_cmd ks t args [] H A). Qed.
Ltac lex_silent ks := apply (lexes_silent ks); [vm_compute; reflexivity | args_tac].
Ltac silent_tac ks := apply prints_silent; lex_silent ks.

Lemma PS_return : PS K0 [TKw k_return; TId "rv"; TP p_semi] [SReturn (EId ["rv"])].
Proof. ps_one. Qed.
(** Head line (which may already hold statements), body lines, and the tail line
    [return rv; };] *)
Lemma defines_fun hc hd st ss0 bc ss tc ty q ps ini :
  lexes [hc] (hd ++ st) -> PS K0 st ss0 -> length ss0 <= length st -> prints bc ss ->
  lexes [tc] [TKw k_return; TId "rv"; TP p_semi; TP p_rbrace; TP p_semi] ->
  (forall f rest, p_fdef f (hd ++ rest) =
     let? (b, r) := p_stmts f rest in Some (FDef ty q ps ini b, match r with TP p_semi :: r' => r' | _ => r end)) ->
  (forall rest, at_semi (hd ++ rest) = false) ->
  defines (hc :: bc ++ [tc]) [FDef ty q ps ini ((ss0 ++ ss) ++ [SReturn (EId ["rv"])])].
Proof.
  intros A S1 S2 (n & bt & B1 & B2 & B3 & B4) C D E.
  exists (hd ++ (st ++ bt) ++ [TKw k_return; TId "rv"; TP p_semi; TP p_rbrace; TP p_semi]). split.
  - rewrite <- !app_assoc. rewrite app_assoc. apply lexes_cons; [exact A | now apply lexes_app].
  - eapply (PF_fun (max K0 n) hd (st ++ bt) [TKw k_return; TId "rv"; TP p_semi]); eauto.
    + apply PS_app; eapply PS_weak; eauto; lia.
    + rewrite !app_length. lia.
    + apply PS_return.
    + simpl; lia.
    + rewrite !app_length. unfold K0 in *. lia.
Qed.
Lemma defines_fun0 hc hd bc ss tc ty q ps ini :
  lexes [hc] hd -> prints bc ss ->
  lexes [tc] [TKw k_return; TId "rv"; TP p_semi; TP p_rbrace; TP p_semi] ->
  (forall f rest, p_fdef f (hd ++ rest) =
     let? (b, r) := p_stmts f rest in Some (FDef ty q ps ini b, match r with TP p_semi :: r' => r' | _ => r end)) ->
  (forall rest, at_semi (hd ++ rest) = false) ->
  defines (hc :: bc ++ [tc]) [FDef ty q ps ini (ss ++ [SReturn (EId ["rv"])])].
Proof.
  intros A. replace hd with (hd ++ []) in A by apply app_nil_r. intros.
  eapply (defines_fun hc hd [] []); eauto. apply PS_nil.
Qed.
(** One line that prints one function. *)
Lemma defines_one c ts d : lexes [c] ts ->
  (forall f rest, at_semi rest = false -> p_fdef (64 + f) (ts ++ rest) = Some (d, rest)) ->
  (forall rest, at_semi (ts ++ rest) = false) -> ts <> [] -> defines [c] [d].
Proof. intros. exists ts. split; [assumption | now apply PF_one]. Qed.
Ltac fun_tac ks := eapply defines_one; [lex_tac ks | toks_tac; intros ? ? ?; rest_tac | reflexivity | discriminate].
Lemma defines_eq cs cs' fs fs' : defines cs fs -> cs = cs' -> fs = fs' -> defines cs' fs'.
Proof. intros; subst; assumption. Qed.
Ltac list_eq := repeat (progress (cbn [app]; rewrite <- ?app_assoc)); reflexivity.
Lemma lexes_const t ts : ctoks [] t = Some (map NTok ts) -> lexes [Cmd T_cpp t []] ts.
Proof.
  intros H. replace ts with (map (evn []) (map NTok ts)) at 1; [now apply (lexes_cmd [])|].
  clear H. induction ts as [|a l IH]; [reflexivity|]. cbn [map evn]. now rewrite IH.
Qed.
Ltac lex_const := apply lexes_const; vm_compute; reflexivity.

(** *** Statements whose body is printed by further lines *)
Lemma p_stmt_try f X : p_stmt (S f) (TKw k_try :: TP p_lbrace :: X) =
  let? (a, r') := p_stmts f X in
  match r' with
  | TKw k_catch :: TP p_lpar :: r2 =>
      let? (_, r3) := p_type r2 in
      match r3 with
      | TP p_rpar :: TP p_lbrace :: r4 => let? (b, r5) := p_stmts f r4 in Some (STry a b, r5)
      | _ => None
      end
  | _ => None
  end.
Proof. reflexivity. Qed.
(** try { ... } catch (std::exception &) { ... } *)
Definition catch_head : list tok :=
  [TP p_rbrace; TKw k_catch; TP p_lpar; TId "std"; TP p_scope; TId "exception"; TP p_amp; TP p_rpar; TP p_lbrace].
Lemma PS_try n ts ss ct cs : PS n ts ss -> PS K0 ct cs ->
  PS (max (n + length ss) (K0 + length cs) + 2) ([TKw k_try; TP p_lbrace] ++ ts ++ catch_head ++ ct ++ [TP p_rbrace]) [STry ss cs].
Proof.
  intros B C. split; [reflexivity|]. intros f rest L E. cbn [length Nat.add app].
  rewrite (p_stmts_cons f _ (STry ss cs) rest); [reflexivity | reflexivity |].
  destruct f as [|f]; [lia|]. rewrite p_stmt_try. rewrite <- !app_assoc. unfold catch_head. cbn [app].
  rewrite (PS_body n ts ss f _ B) by lia.
  change (p_type (TId "std" :: TP p_scope :: TId "exception" :: TP p_amp :: ?r)) with
    (Some (CT ["std"; "exception"] [] RRef, r)). cbv iota beta.
  rewrite (PS_body K0 ct cs f _ C) by lia. reflexivity.
Qed.
(** if (...) { ... } without else; [hd] ends with the opening brace *)
Lemma PS_if n hd c ts ss : PS n ts ss ->
  (forall f X, p_stmt (S (S f)) (hd ++ X) =
     let? (a, r3) := p_stmts f X in
     match r3 with
     | TKw k_else :: r4 => let? (b, r5) := p_body (S f) r4 in Some (SIf c a b, r5)
     | _ => Some (SIf c a [], r3)
     end) ->
  (forall X, at_else (hd ++ X) = false /\ at_end (hd ++ X) = false) ->
  PS (n + length ss + 3) (hd ++ ts ++ [TP p_rbrace]) [SIf c ss []].
Proof.
  intros B H G. split; [intros; rewrite <- app_assoc; apply G|]. intros f rest L E. cbn [length Nat.add].
  rewrite <- !app_assoc. rewrite (p_stmts_cons f _ (SIf c ss []) rest); [reflexivity | apply G |].
  destruct f as [|[|f]]; try lia. rewrite H. cbn [app].
  rewrite (PS_body n ts ss f _ B) by lia.
  destruct rest as [|[| [] | | | |] r]; try reflexivity. discriminate E.
Qed.

(** *** Arguments inserted as fixed text *)
Fixpoint inst (k : nat) (s : string) (ps : list piece) : list piece :=
  match ps with
  | [] => []
  | Arg n :: r => (if Nat.eqb n k then Lit s else Arg n) :: inst k s r
  | p :: r => p :: inst k s r
  end.
Lemma fill_inst k s ps args : nth_error args k = Some s -> fill (inst k s ps) args = fill ps args.
Proof.
  intros H. induction ps as [|[x|n] ps IH]; simpl; [reflexivity | now rewrite IH |].
  destruct (Nat.eqb_spec n k) as [->|N]; simpl; rewrite IH; [now rewrite H | reflexivity].
Qed.
Lemma lexes_inst k s t args ts : nth_error args k = Some s ->
  lexes [Cmd T_cpp (option_map (inst k s) t) args] ts -> lexes [Cmd T_cpp t args] ts.
Proof.
  intros H (x & R & L). exists x. split; [|exact L]. revert R. unfold render, println, format. simpl.
  destruct t as [ps|]; simpl; [|auto]. now rewrite (fill_inst _ _ _ _ H).
Qed.
