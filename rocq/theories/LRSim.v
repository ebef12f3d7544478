(** Simulation between the LALR stack machine and unfinished definitions. *)
From Coq Require Import String Ascii ZArith NArith Arith List Bool Lia.
From Verif Require Import Base Flex BisonTables Items Decimal Bison Grammar LR.
Import ListNotations.
Local Open Scope Z_scope.

(** Beginning of a struct member. *)
Inductive mpart :=
| M0
| MUns
| MTy (t : simple_type)
| MTyName (t : simple_type) (n : string)
| MTyOpen (t : simple_type) (n : string)
| MTyVal (t : simple_type) (n : string) (v : dvalue)
| MTyClosed (t : simple_type) (n : string) (d : dflt_spec)
| MUs (t : string)
| MUsName (t n : string)
| MUsOpen (t n : string)
| MUsVal (t n : string) (v : dvalue)
| MUsClosed (t n : string) (d : dflt_spec)
| MVec
| MVecLt
| MVecName (t : string)
| MVecGt (t : string)
| MVecDecl (t n : string).

(** Position inside a definition. *)
Inductive pst :=
| PTop
| PEnum
| PClass
| PHead (c : bool) (n : string)
| PEBody (c : bool) (n : string) (es : list entry)
| PEName (c : bool) (n : string) (es : list entry) (x : string)
| PEEq (c : bool) (n : string) (es : list entry) (x : string)
| PEEnt (c : bool) (n : string) (es : list entry) (x : string) (k : constant)
| PEEnd (c : bool) (n : string) (es : list entry) (t : bool)
| PStruct
| PSHead (n : string)
| PSBody (n : string) (ms : list member) (m : mpart)
| PSEnd (n : string) (ms : list member).

Definition nov (s : Z) : Z * sval := (s, VNone).
Definition base (d : nat) : stack := repeat (nov 5) d ++ [nov 0].
Fixpoint ents (n : nat) (tl : stack) : stack :=
  match n with O => tl | S n' => nov 55 :: nov 26 :: ents n' tl end.

Definition mstack (m : mpart) (tl : stack) : stack :=
  match m with
  | M0 => tl
  | MUns => nov 36 :: tl
  | MTy t => (48, VType t) :: tl
  | MTyName t n => (64, VStr n) :: (48, VType t) :: tl
  | MTyOpen t n => nov 73 :: (64, VStr n) :: (48, VType t) :: tl
  | MTyVal t n v => (92, VStr (dvalue_text v)) :: nov 73 :: (64, VStr n) :: (48, VType t) :: tl
  | MTyClosed t n d => (78, VStr (dflt_text d)) :: (64, VStr n) :: (48, VType t) :: tl
  | MUs t => (45, VStr t) :: tl
  | MUsName t n => (61, VStr n) :: (45, VStr t) :: tl
  | MUsOpen t n => nov 73 :: (61, VStr n) :: (45, VStr t) :: tl
  | MUsVal t n v => (92, VStr (dvalue_text v)) :: nov 73 :: (61, VStr n) :: (45, VStr t) :: tl
  | MUsClosed t n d => (75, VStr (dflt_text d)) :: (61, VStr n) :: (45, VStr t) :: tl
  | MVec => nov 41 :: tl
  | MVecLt => nov 60 :: nov 41 :: tl
  | MVecName t => (72, VStr t) :: nov 60 :: nov 41 :: tl
  | MVecGt t => (49, VStr t) :: tl
  | MVecDecl t n => (65, VStr n) :: (49, VStr t) :: tl
  end.

Definition stack_of (p : pst) (d : nat) : stack :=
  let b := base d in
  match p with
  | PTop => b
  | PEnum => nov 6 :: b
  | PClass => nov 16 :: nov 6 :: b
  | PHead _ _ => nov 9 :: b
  | PEBody _ _ es => ents (length es) (nov 20 :: nov 9 :: b)
  | PEName _ _ es x => (24, VStr x) :: ents (length es) (nov 20 :: nov 9 :: b)
  | PEEq _ _ es x => nov 51 :: (24, VStr x) :: ents (length es) (nov 20 :: nov 9 :: b)
  | PEEnt _ _ es _ _ => nov 26 :: ents (length es) (nov 20 :: nov 9 :: b)
  | PEEnd _ _ _ _ => nov 53 :: nov 25 :: nov 20 :: nov 9 :: b
  | PStruct => nov 7 :: b
  | PSHead _ => nov 11 :: b
  | PSBody _ ms m => mstack m (repeat (nov 47) (length ms) ++ nov 22 :: nov 11 :: b)
  | PSEnd _ _ => nov 62 :: nov 46 :: nov 22 :: nov 11 :: b
  end.

Definition text (t : token) : string := match t_val t with Some s => s | None => "" end.

Definition const_of (t : token) : option constant :=
  match t_kind t with
  | 26%N => Some (CInt (text t)) | 27%N => Some (CHex (text t)) | 30%N => Some (CChar (text t))
  | _ => None
  end.

Definition dvalue_of (t : token) : option dvalue :=
  match t_kind t with
  | 26%N => Some (DInt (text t)) | 28%N => Some (DFlt (text t)) | 20%N => Some DTrue
  | 21%N => Some DFalse | 25%N => Some (DEnum (text t)) | 29%N => Some (DStr (text t))
  | 30%N => Some (DChar (text t))
  | _ => None
  end.

Definition type_of (k : N) : option simple_type :=
  match k with
  | 13%N => Some int_E | 14%N => Some short_E | 15%N => Some long_E | 17%N => Some float_E
  | 18%N => Some double_E | 19%N => Some bool_E | 22%N => Some std_string_E
  | _ => None
  end.
Definition uns_of (k : N) : option simple_type :=
  match k with
  | 13%N => Some unsigned_int_E | 14%N => Some unsigned_short_E | 15%N => Some unsigned_long_E
  | _ => None
  end.

Definition is_nil {A} (l : list A) : bool := match l with [] => true | _ => false end.

Definition trans := option (pst * list def * list call).

Definition mdelta (n : string) (ms : list member) (m : mpart) (t : token) : trans :=
  let k := t_kind t in
  let x := text t in
  let go m' : trans := Some (PSBody n ms m', [], []) in
  let fin mb : trans := Some (PSBody n (ms ++ [mb]) M0, [], [member_call mb]) in
  match m with
  | M0 =>
      match k with
      | 4%N => if is_nil ms then None else Some (PSEnd n ms, [], [])
      | 16%N => go MUns
      | 23%N => go MVec
      | 24%N => go (MUs x)
      | _ => match type_of k with Some ty => go (MTy ty) | None => None end
      end
  | MUns => match uns_of k with Some ty => go (MTy ty) | None => None end
  | MTy ty => match k with 24%N => go (MTyName ty x) | _ => None end
  | MTyName ty nm =>
      match k with 7%N => fin (MSimple ty nm NoDefault) | 3%N => go (MTyOpen ty nm) | _ => None end
  | MTyOpen ty nm =>
      match k with
      | 4%N => go (MTyClosed ty nm EmptyDefault)
      | _ => match dvalue_of t with Some v => go (MTyVal ty nm v) | None => None end
      end
  | MTyVal ty nm v => match k with 4%N => go (MTyClosed ty nm (Default v)) | _ => None end
  | MTyClosed ty nm d => match k with 7%N => fin (MSimple ty nm d) | _ => None end
  | MUs tn => match k with 24%N => go (MUsName tn x) | _ => None end
  | MUsName tn nm =>
      match k with 7%N => fin (MUser tn nm NoDefault) | 3%N => go (MUsOpen tn nm) | _ => None end
  | MUsOpen tn nm =>
      match k with
      | 4%N => go (MUsClosed tn nm EmptyDefault)
      | _ => match dvalue_of t with Some v => go (MUsVal tn nm v) | None => None end
      end
  | MUsVal tn nm v => match k with 4%N => go (MUsClosed tn nm (Default v)) | _ => None end
  | MUsClosed tn nm d => match k with 7%N => fin (MUser tn nm d) | _ => None end
  | MVec => match k with 8%N => go MVecLt | _ => None end
  | MVecLt => match k with 24%N => go (MVecName x) | _ => None end
  | MVecName tn => match k with 9%N => go (MVecGt tn) | _ => None end
  | MVecGt tn => match k with 24%N => go (MVecDecl tn x) | _ => None end
  | MVecDecl tn nm => match k with 7%N => fin (MVector tn nm) | _ => None end
  end.

Definition delta (p : pst) (t : token) : trans :=
  let k := t_kind t in
  let x := text t in
  match p with
  | PTop =>
      match k with
      | 10%N => Some (PEnum, [], []) | 12%N => Some (PStruct, [], []) | _ => None
      end
  | PEnum =>
      match k with
      | 11%N => Some (PClass, [], [])
      | 24%N => Some (PHead false x, [], [CEnum x false])
      | _ => None
      end
  | PClass => match k with 24%N => Some (PHead true x, [], [CEnum x true]) | _ => None end
  | PHead c n => match k with 3%N => Some (PEBody c n [], [], []) | _ => None end
  | PEBody c n es =>
      match k with
      | 24%N => Some (PEName c n es x, [], [])
      | 4%N => if is_nil es then None else Some (PEEnd c n es true, [], [])
      | _ => None
      end
  | PEName c n es y =>
      let e := Entry y None in
      match k with
      | 5%N => Some (PEEq c n es y, [], [])
      | 6%N => Some (PEBody c n (es ++ [e]), [], [entry_call e])
      | 4%N => Some (PEEnd c n (es ++ [e]) false, [], [entry_call e])
      | _ => None
      end
  | PEEq c n es y =>
      match const_of t with
      | Some v => Some (PEEnt c n es y v, [], [entry_call (Entry y (Some v))])
      | None => None
      end
  | PEEnt c n es y v =>
      let e := Entry y (Some v) in
      match k with
      | 6%N => Some (PEBody c n (es ++ [e]), [], [])
      | 4%N => Some (PEEnd c n (es ++ [e]) false, [], [])
      | _ => None
      end
  | PEEnd c n es tr => match k with 7%N => Some (PTop, [DefEnum c n es tr], []) | _ => None end
  | PStruct => match k with 24%N => Some (PSHead x, [], [CStruct x]) | _ => None end
  | PSHead n => match k with 3%N => Some (PSBody n [] M0, [], []) | _ => None end
  | PSBody n ms m => mdelta n ms m t
  | PSEnd n ms => match k with 7%N => Some (PTop, [DefStruct n ms], []) | _ => None end
  end.

(** Reported although the next token turns out to be wrong. *)
Definition pending (p : pst) : list call :=
  match p with PEName _ _ _ x => [CEnumLine x false "-"] | _ => [] end.

(** Stack machine on one lookahead. *)
Definition accepts (stk : stack) (kv : Z * sval) (cs : list call) (stk' : stack) (n : nat) : Prop :=
  exists f n1 cs1 mid f2 n2 cs2,
    feed f (fst kv) (snd kv) stk = Some (n1, cs1, FShift mid) /\
    settle f2 mid = Some (n2, cs2, stk') /\ cs = cs1 ++ cs2 /\ n = (n1 + n2)%nat.

(** Names offered by the message, in order. *)
Definition expect (p : pst) (d : nat) : list Z :=
  match p with
  | PTop => match d with O => [10; 12] | S _ => [0] end
  | PEnum => [11; 24]
  | PClass | PStruct => [24]
  | PHead _ _ | PSHead _ => [3]
  | PEBody _ _ es => if is_nil es then [24] else [4]
  | PEName _ _ _ _ | PEEnt _ _ _ _ _ => [4]
  | PEEq _ _ _ _ => [26; 27; 30]
  | PEEnd _ _ _ _ | PSEnd _ _ => [7]
  | PSBody _ ms m =>
      match m with
      | M0 => if is_nil ms then [] else [4]
      | MUns => [13; 14; 15]
      | MTy _ | MUs _ | MVecLt | MVecGt _ => [24]
      | MTyName _ _ | MUsName _ _ => [3; 7]
      | MTyOpen _ _ | MUsOpen _ _ => []
      | MTyVal _ _ _ | MUsVal _ _ _ => [4]
      | MTyClosed _ _ _ | MUsClosed _ _ _ | MVecDecl _ _ => [7]
      | MVec => [8]
      | MVecName _ => [9]
      end
  end.

Definition message (k : Z) (ex : list Z) : option string :=
  let? u := zget yy_sname k in
  let? names := get_names ex in
  Some ("syntax error, unexpected " ++ u ++
        match names with [] => "" | _ => ", expecting " ++ or_names names end)%string.

Definition rejects (stk : stack) (kv : Z * sval) (cs : list call) (ex : list Z) (n : nat) : Prop :=
  exists f n1 stk',
    feed f (fst kv) (snd kv) stk = Some (n1, cs, FErr stk') /\
    forallb (fun x => no_error_shift (fst x)) stk' = true /\
    (let? (s, _) := nth_error stk' 0 in expected_tokens s 4) = Some ex /\ n = S n1.

(** One reduction in front. *)
Lemma feed_red k v stk s x r stk1 cs1 f n cs y :
  nth_error stk 0 = Some (s, x) -> (s =? yyfinal_) = false ->
  zget yydefact_ s = Some r -> (r =? 0) = false ->
  match zget yypact_ s with
  | None => false
  | Some p =>
      (p =? yypact_ninf_) || ((p + k <? 0) || (yylast_ <? p + k)) ||
      match zget yycheck_ (p + k) with Some ck => negb (ck =? k) | None => false end
  end = true ->
  red1 r stk = Some (stk1, cs1) ->
  feed f k v stk1 = Some (n, cs, y) ->
  feed (S f) k v stk = Some (S n, cs1 ++ cs, y).
Proof.
  intros H0 H1 H2 H3 H4 H5 H6. cbn [feed]. rewrite H0, H1, H2, H3, H5, H6.
  destruct (zget yypact_ s) as [p|]; [|discriminate].
  destruct (p =? yypact_ninf_); [reflexivity|].
  destruct ((p + k <? 0) || (yylast_ <? p + k)); [reflexivity|].
  cbn in H4. destruct (zget yycheck_ (p + k)) as [ck|]; [|discriminate].
  rewrite H4. reflexivity.
Qed.

(** Collapsing the lists at their end. *)
Lemma collapse_enum k v m : forall b f n cs y,
  feed f k v (nov 25 :: nov 20 :: b) = Some (n, cs, y) ->
  feed (S m + f) k v (nov 71 :: ents (S m) (nov 20 :: b)) = Some (S m + n, cs, y)%nat.
Proof.
  induction m as [|m IH]; intros b f n cs y H.
  - change (S 0 + f)%nat with (S f). change cs with ([] ++ cs).
    eapply feed_red; [reflexivity| reflexivity | reflexivity | reflexivity | reflexivity | reflexivity | exact H].
  - change (S (S m) + f)%nat with (S (S m + f)). change cs with ([] ++ cs).
    eapply feed_red; [reflexivity| reflexivity | reflexivity | reflexivity | reflexivity | reflexivity |].
    apply IH. exact H.
Qed.

Lemma collapse_struct k v m : forall b f n cs y,
  feed f k v (nov 46 :: nov 22 :: b) = Some (n, cs, y) ->
  feed (S m + f) k v (nov 63 :: repeat (nov 47) (S m) ++ nov 22 :: b) = Some (S m + n, cs, y)%nat.
Proof.
  induction m as [|m IH]; intros b f n cs y H.
  - change (S 0 + f)%nat with (S f). change cs with ([] ++ cs).
    eapply feed_red; [reflexivity| reflexivity | reflexivity | reflexivity | reflexivity | reflexivity | exact H].
  - change (S (S m) + f)%nat with (S (S m + f)). change cs with ([] ++ cs).
    eapply feed_red; [reflexivity| reflexivity | reflexivity | reflexivity | reflexivity | reflexivity |].
    apply IH. exact H.
Qed.

Lemma collapse_parts k v m : forall f n cs y,
  feed f k v [nov 4; nov 0] = Some (n, cs, y) ->
  feed (S m + f) k v (nov 13 :: repeat (nov 5) (S m) ++ [nov 0]) = Some (S m + n, cs, y)%nat.
Proof.
  induction m as [|m IH]; intros f n cs y H.
  - change (S 0 + f)%nat with (S f). change cs with ([] ++ cs).
    eapply feed_red; [reflexivity| reflexivity | reflexivity | reflexivity | reflexivity | reflexivity | exact H].
  - change (S (S m) + f)%nat with (S (S m + f)). change cs with ([] ++ cs).
    eapply feed_red; [reflexivity| reflexivity | reflexivity | reflexivity | reflexivity | reflexivity |].
    apply IH. exact H.
Qed.

(** Well-behaved stacks do not recover. *)
Definition calm (stk : stack) : bool := forallb (fun x => no_error_shift (fst x)) stk.
Lemma calm_base d : calm (base d) = true.
Proof.
  unfold calm, base. rewrite forallb_app. apply andb_true_iff. split; [|reflexivity].
  induction d; cbn [repeat forallb]; [reflexivity|]. rewrite IHd. reflexivity.
Qed.
Lemma calm_ents n tl : calm tl = true -> calm (ents n tl) = true.
Proof. intros H. induction n; cbn [ents]; [exact H|exact IHn]. Qed.
Lemma calm_repeat n tl : calm tl = true -> calm (repeat (nov 47) n ++ tl) = true.
Proof. intros H. induction n; cbn [repeat app]; [exact H|exact IHn]. Qed.

Definition etop (m : nat) : Z * sval := nov (match m with O => 25 | S _ => 71 end).
Definition stop (m : nat) : Z * sval := nov (match m with O => 46 | S _ => 63 end).
Definition ptop (m : nat) : Z * sval := nov (match m with O => 4 | S _ => 13 end).

Lemma feed_etop k v m b f n cs y :
  feed f k v (nov 25 :: nov 20 :: b) = Some (n, cs, y) ->
  feed (m + f) k v (etop m :: ents m (nov 20 :: b)) = Some (m + n, cs, y)%nat.
Proof. destruct m; [intros H; exact H|apply collapse_enum]. Qed.
Lemma feed_stop k v m b f n cs y :
  feed f k v (nov 46 :: nov 22 :: b) = Some (n, cs, y) ->
  feed (m + f) k v (stop m :: repeat (nov 47) m ++ nov 22 :: b) = Some (m + n, cs, y)%nat.
Proof. destruct m; [intros H; exact H|apply collapse_struct]. Qed.
Lemma feed_ptop k v m f n cs y :
  feed f k v [nov 4; nov 0] = Some (n, cs, y) ->
  feed (m + f) k v (ptop m :: base m) = Some (m + n, cs, y)%nat.
Proof. destruct m; [intros H; exact H|apply collapse_parts]. Qed.

(** Reductions that start a collapse. *)
Ltac red1_ := eapply feed_red; [reflexivity | reflexivity | reflexivity | reflexivity | | | eassumption].

Definition defers (s k : Z) : bool :=
  match zget yypact_ s with
  | None => false
  | Some p =>
      (p =? yypact_ninf_) || ((p + k <? 0) || (yylast_ <? p + k)) ||
      match zget yycheck_ (p + k) with Some ck => negb (ck =? k) | None => false end
  end.

Lemma red_55 k v m b f n cs y : defers 55 k = true ->
  feed f k v (etop m :: ents m (nov 20 :: b)) = Some (n, cs, y) ->
  feed (S f) k v (ents (S m) (nov 20 :: b)) = Some (S n, cs, y).
Proof. intros Hd H. change cs with ([] ++ cs). red1_; [exact Hd|]. destruct m; reflexivity. Qed.
Lemma red_26 k v m b f n cs y : defers 26 k = true ->
  feed f k v (etop m :: ents m (nov 20 :: b)) = Some (n, cs, y) ->
  feed (S f) k v (nov 26 :: ents m (nov 20 :: b)) = Some (S n, cs, y).
Proof. intros Hd H. change cs with ([] ++ cs). red1_; [exact Hd|]. destruct m; reflexivity. Qed.
Lemma red_24 k v x m b f n cs y : defers 24 k = true ->
  feed f k v (nov 26 :: ents m (nov 20 :: b)) = Some (n, cs, y) ->
  feed (S f) k v ((24, VStr x) :: ents m (nov 20 :: b)) = Some (S n, CEnumLine x false "-" :: cs, y).
Proof.
  intros Hd H. change (CEnumLine x false "-" :: cs) with ([CEnumLine x false "-"] ++ cs).
  red1_; [exact Hd|]. destruct m; reflexivity.
Qed.
Lemma red_47 k v m b f n cs y : defers 47 k = true ->
  feed f k v (stop m :: repeat (nov 47) m ++ nov 22 :: b) = Some (n, cs, y) ->
  feed (S f) k v (repeat (nov 47) (S m) ++ nov 22 :: b) = Some (S n, cs, y).
Proof. intros Hd H. change cs with ([] ++ cs). red1_; [exact Hd|]. destruct m; reflexivity. Qed.
Lemma red_5 k v m f n cs y : defers 5 k = true ->
  feed f k v (ptop m :: base m) = Some (n, cs, y) ->
  feed (S f) k v (base (S m)) = Some (S n, cs, y).
Proof. intros Hd H. change cs with ([] ++ cs). red1_; [exact Hd|]. destruct m; reflexivity. Qed.

Lemma len_ents m tl : length (ents m tl) = (2 * m + length tl)%nat.
Proof. induction m; cbn [ents length]; lia. Qed.
Lemma len_base d : length (base d) = S d.
Proof. unfold base. rewrite app_length, repeat_length. cbn. lia. Qed.

(** What a transition has to match. *)
Definition sim_at (p : pst) (d : nat) (t : token) : Prop :=
  match delta p t with
  | Some (p', ds, cs) =>
      exists n, accepts (stack_of p d) (la_of (Some t)) cs (stack_of p' (length ds + d)) n /\
        (0 < n /\ n + length (stack_of p' (length ds + d)) <= length (stack_of p d) + 8)%nat
  | None =>
      exists n, rejects (stack_of p d) (la_of (Some t)) (pending p) (expect p d) n /\
        (n <= length (stack_of p d) + 8)%nat
  end.

Ltac kcases H := cbn in H; repeat (destruct H as [H|H]; [subst|]); try contradiction.

Ltac len := cbn [length app]; rewrite ?len_ents, ?len_base, ?app_length, ?repeat_length, ?app_length; cbn [length]; rewrite ?len_base; lia.

Ltac acc :=
  eexists; split;
  [ unfold accepts; exists 9%nat; do 3 eexists; exists 9%nat; do 2 eexists;
    split; [vm_compute; reflexivity|]; split; [vm_compute; reflexivity|]; split; reflexivity
  | split; [cbn; lia| len]].

Ltac rej :=
  eexists; split;
  [ unfold rejects; exists 9%nat; do 2 eexists;
    split; [vm_compute; reflexivity|]; split; [|split; [vm_compute; reflexivity|reflexivity]]
  | len].


Lemma good_ind (P : token -> Prop) :
  Forall (fun k => P (Tok k None)) ([3; 4; 5; 6; 7; 8; 9; 10; 11; 12; 13; 14; 15; 16; 17; 18; 19; 20; 21; 22; 23]%N) ->
  (forall s, Forall (fun k => P (Tok k (Some s))) ([24; 25; 26; 27; 28; 29; 30]%N)) ->
  forall t, good_token t -> P t.
Proof.
  intros H1 H2 [k v] [Hk Hv]. cbn [t_kind t_val] in *. destruct v as [s|].
  - specialize (H2 s). rewrite Forall_forall in H2. apply H2. cbn [In]. lia.
  - rewrite Forall_forall in H1. apply H1. cbn [In]. lia.
Qed.

Ltac kinds_tac := apply good_ind; [| intros ?s]; repeat (constructor; [| ]); try constructor.

Lemma base_top d : exists s b, base d = nov s :: b /\ (s = 0 \/ s = 5) /\ calm (nov s :: b) = true.
Proof.
  pose proof (calm_base d) as Hc. destruct d as [|d].
  - exists 0, []. auto.
  - exists 5, (base d). auto.
Qed.

Ltac len' := cbn [length app]; lia.

Ltac acc' :=
  eexists; split;
  [ unfold accepts; exists 9%nat; do 3 eexists; exists 9%nat; do 2 eexists;
    split; [vm_compute; reflexivity|]; split; [vm_compute; reflexivity|]; split; reflexivity
  | split; len'].

Ltac rej' :=
  eexists; split;
  [ unfold rejects; exists 9%nat; do 2 eexists;
    split; [vm_compute; reflexivity|]; split; [|split; [vm_compute; reflexivity|reflexivity]]
  | len'].

Ltac sims Hc := lazymatch goal with |- context [accepts] => acc' | |- context [rejects] => rej'; exact Hc end.

(** States whose moves look at nothing below the base. *)
Lemma sim_head p d :
  match p with PEnum | PClass | PHead _ _ | PStruct | PSHead _ => True | _ => False end ->
  forall t, good_token t -> sim_at p d t.
Proof.
  intros Hp. destruct (base_top d) as (s0 & b & Eb & Hs & Hc).
  destruct p; try contradiction; kinds_tac; unfold sim_at; cbn [delta t_kind pending expect].
  all: cbn [length Nat.add app]; cbn [stack_of length ents mstack repeat app]; rewrite Eb; clear Hp Eb.
  all: destruct Hs; subst s0.
  all: sims Hc.
Qed.

Lemma sim_end p d :
  match p with PEEnd _ _ _ _ | PSEnd _ _ => True | _ => False end ->
  forall t, good_token t -> sim_at p d t.
Proof.
  intros Hp. destruct (base_top d) as (s0 & b & Eb & Hs & Hc).
  assert (Eb1 : base (S d) = nov 5 :: nov s0 :: b) by (change (base (S d)) with (nov 5 :: base d); congruence).
  destruct p; try contradiction; kinds_tac; unfold sim_at; cbn [delta t_kind pending expect].
  all: cbn [length Nat.add app]; cbn [stack_of length ents mstack repeat app]; rewrite ?Eb1, ?Eb; clear Hp Eb Eb1.
  all: destruct Hs; subst s0.
  all: sims Hc.
Qed.

Lemma members_top n d : exists s b,
  repeat (nov 47) n ++ nov 22 :: nov 11 :: base d = nov s :: b /\ (s = 22 \/ s = 47) /\
  calm (nov s :: b) = true.
Proof.
  assert (Hc : calm (repeat (nov 47) n ++ nov 22 :: nov 11 :: base d) = true)
    by (apply calm_repeat; apply (calm_base d)).
  destruct n as [|n]; cbn [repeat app] in *; eauto 10.
Qed.

Lemma sim_member n ms m d : m <> M0 -> forall t, good_token t -> sim_at (PSBody n ms m) d t.
Proof.
  intros Hm. destruct (members_top (length ms) d) as (s0 & b & Eb & Hs & Hc).
  assert (El : forall x, length (ms ++ [x]) = S (length ms)) by (intros; rewrite app_length; cbn; lia).
  destruct m; try contradiction; clear Hm; kinds_tac; unfold sim_at;
    cbn [delta mdelta t_kind pending expect uns_of type_of dvalue_of].
  all: cbn [length Nat.add app]; cbn [stack_of mstack]; rewrite ?El; cbn [repeat app]; rewrite Eb; clear Eb El.
  all: destruct Hs; subst s0.
  all: sims Hc.
Qed.

Lemma entries_top n d : exists s b,
  ents n (nov 20 :: nov 9 :: base d) = nov s :: b /\ (s = 20 \/ s = 55) /\
  calm (nov s :: b) = true.
Proof.
  assert (Hc : calm (ents n (nov 20 :: nov 9 :: base d)) = true)
    by (apply calm_ents; apply (calm_base d)).
  destruct n as [|n]; cbn [ents] in *; eauto 10.
Qed.

Lemma sim_eq c n es x d : forall t, good_token t -> sim_at (PEEq c n es x) d t.
Proof.
  destruct (entries_top (length es) d) as (s0 & b & Eb & Hs & Hc).
  kinds_tac; unfold sim_at; cbn [delta const_of t_kind pending expect].
  all: cbn [length Nat.add app]; cbn [stack_of]; rewrite Eb; clear Eb.
  all: destruct Hs; subst s0.
  all: sims Hc.
Qed.

(** Closing the body of an enum. *)
Lemma close_enum m d :
  feed (m + 1) 4 VNone (etop m :: ents m (nov 20 :: nov 9 :: base d)) =
  Some ((m + 1)%nat, [], FShift (nov 52 :: nov 25 :: nov 20 :: nov 9 :: base d)).
Proof. apply feed_etop. generalize (base d). intros b. vm_compute. reflexivity. Qed.

Lemma close_struct m d :
  feed (m + 1) 4 VNone (stop m :: repeat (nov 47) m ++ nov 22 :: nov 11 :: base d) =
  Some ((m + 1)%nat, [], FShift (nov 52 :: nov 46 :: nov 22 :: nov 11 :: base d)).
Proof. apply feed_stop. generalize (base d). intros b. vm_compute. reflexivity. Qed.

Lemma feed_stuck s x k v stk : (s =? yyfinal_) = false -> zget yydefact_ s = Some 0 ->
  defers s k = true -> feed 1 k v ((s, x) :: stk) = Some (O, [], FErr ((s, x) :: stk)).
Proof.
  intros Hf Hr Hd. cbn [feed nth_error]. rewrite Hf, Hr. unfold defers in Hd. cbn [Z.eqb].
  destruct (zget yypact_ s) as [p|]; [|discriminate].
  destruct (p =? yypact_ninf_); [reflexivity|].
  destruct ((p + k <? 0) || (yylast_ <? p + k)); [reflexivity|].
  cbn in Hd. destruct (zget yycheck_ (p + k)) as [ck|]; [|discriminate].
  rewrite Hd. reflexivity.
Qed.

Lemma bad_enum m d k v : defers 25 k = true ->
  feed (m + 1) k v (etop m :: ents m (nov 20 :: nov 9 :: base d)) =
  Some ((m + 0)%nat, [], FErr (nov 25 :: nov 20 :: nov 9 :: base d)).
Proof. intros H. apply feed_etop. apply feed_stuck; auto. Qed.

Lemma bad_struct m d k v : defers 46 k = true ->
  feed (m + 1) k v (stop m :: repeat (nov 47) m ++ nov 22 :: nov 11 :: base d) =
  Some ((m + 0)%nat, [], FErr (nov 46 :: nov 22 :: nov 11 :: base d)).
Proof. intros H. apply feed_stop. apply feed_stuck; auto. Qed.

Lemma bad_top m k v : defers 4 k = true -> defers 3 k = true ->
  feed (m + 2) k v (ptop m :: base m) = Some ((m + 1)%nat, [], FErr [nov 3; nov 0]).
Proof.
  intros H4 H. apply feed_ptop. change (@nil call) with (@nil call ++ []). eapply feed_red.
  1-4: reflexivity. exact H4. reflexivity. apply feed_stuck; auto.
Qed.

Ltac lens := cbn [length app]; rewrite ?len_ents, ?app_length, ?repeat_length; cbn [length]; lia.

Lemma sim_entry c n es x v d : forall t, good_token t -> sim_at (PEEnt c n es x v) d t.
Proof.
  assert (El : forall y, length (es ++ [y]) = S (length es)) by (intros; rewrite app_length; cbn; lia).
  pose proof (calm_base d) as Hc.
  kinds_tac; unfold sim_at; cbn [delta t_kind pending expect].
  all: cbn [length Nat.add app]; cbn [stack_of]; rewrite ?El; cbn [ents].
  all: lazymatch goal with
    | |- context [rejects] =>
        eexists; split;
        [do 3 eexists; split; [cbn [fst snd la_of t_kind t_val]; eapply red_26; [reflexivity|]; apply bad_enum; reflexivity|];
         split; [exact Hc|split; reflexivity]
        |lens]
    | |- context [nov 53] =>
        eexists; split;
        [do 4 eexists; exists 9%nat; do 2 eexists; split;
          [cbn [fst snd la_of t_kind t_val]; eapply red_26; [reflexivity|]; apply close_enum|];
         split; [generalize (base d); intros b0; vm_compute; reflexivity|split; reflexivity]
        |split; [lia|lens]]
    | |- _ => idtac end.
  destruct (entries_top (length es) d) as (s0 & b & Eb & Hs & Hc'). rewrite Eb. clear Eb El.
  destruct Hs; subst s0; sims Hc'.
Qed.

Lemma sim_name c n es x d : forall t, good_token t -> sim_at (PEName c n es x) d t.
Proof.
  assert (El : forall y, length (es ++ [y]) = S (length es)) by (intros; rewrite app_length; cbn; lia).
  pose proof (calm_base d) as Hc.
  kinds_tac; unfold sim_at; cbn [delta t_kind pending expect].
  all: cbn [length Nat.add app]; cbn [stack_of]; rewrite ?El; cbn [ents].
  all: lazymatch goal with
    | |- context [rejects] =>
        eexists; split;
        [do 3 eexists; split; [cbn [fst snd la_of t_kind t_val]; eapply red_24; [reflexivity|]; eapply red_26; [reflexivity|]; apply bad_enum; reflexivity|];
         split; [exact Hc|split; reflexivity]
        |lens]
    | |- context [nov 53] =>
        eexists; split;
        [do 4 eexists; exists 9%nat; do 2 eexists; split;
          [cbn [fst snd la_of t_kind t_val]; eapply red_24; [reflexivity|]; eapply red_26; [reflexivity|]; apply close_enum|];
         split; [generalize (base d); intros b0; vm_compute; reflexivity|split; reflexivity]
        |split; [lia|lens]]
    | |- _ => idtac end.
  all: destruct (entries_top (length es) d) as (s0 & b & Eb & Hs & Hc'); rewrite Eb; clear Eb El.
  all: destruct Hs; subst s0; sims Hc'.
Qed.

Lemma sim_body c n es d : forall t, good_token t -> sim_at (PEBody c n es) d t.
Proof.
  pose proof (calm_base d) as Hc.
  destruct es as [|e es].
  - kinds_tac; unfold sim_at; cbn [delta is_nil t_kind pending expect].
    all: cbn [length Nat.add app]; cbn [stack_of length ents]; generalize dependent (base d); intros b Hc; sims Hc.
  - kinds_tac; unfold sim_at; cbn [delta is_nil t_kind pending expect].
    all: cbn [length Nat.add app]; cbn [stack_of length].
    all: lazymatch goal with
    | |- context [rejects] =>
        eexists; split;
        [do 3 eexists; split; [cbn [fst snd la_of t_kind t_val]; eapply red_55; [reflexivity|]; apply bad_enum; reflexivity|];
         split; [exact Hc|split; reflexivity]
        |lens]
    | |- context [nov 53] =>
        eexists; split;
        [do 4 eexists; exists 9%nat; do 2 eexists; split;
          [cbn [fst snd la_of t_kind t_val]; eapply red_55; [reflexivity|]; apply close_enum|];
         split; [generalize (base d); intros b0; vm_compute; reflexivity|split; reflexivity]
        |split; [lia|lens]]
    | |- _ => idtac end.
    cbn [ents]. generalize (ents (length es) (nov 20 :: nov 9 :: base d)). intros b. acc'.
Qed.

Lemma sim_m0 n ms d : forall t, good_token t -> sim_at (PSBody n ms M0) d t.
Proof.
  pose proof (calm_base d) as Hc.
  destruct ms as [|m ms].
  - kinds_tac; unfold sim_at; cbn [delta mdelta type_of is_nil t_kind pending expect].
    all: cbn [length Nat.add app]; cbn [stack_of mstack repeat app length]; generalize dependent (base d); intros b Hc; sims Hc.
  - kinds_tac; unfold sim_at; cbn [delta mdelta type_of is_nil t_kind pending expect].
    all: cbn [length Nat.add app]; cbn [stack_of mstack length].
    all: lazymatch goal with
    | |- context [rejects] =>
        eexists; split;
        [do 3 eexists; split; [cbn [fst snd la_of t_kind t_val]; eapply red_47; [reflexivity|]; apply bad_struct; reflexivity|];
         split; [exact Hc|split; reflexivity]
        |lens]
    | |- context [nov 62] =>
        eexists; split;
        [do 4 eexists; exists 9%nat; do 2 eexists; split;
          [cbn [fst snd la_of t_kind t_val]; eapply red_47; [reflexivity|]; apply close_struct|];
         split; [generalize (base d); intros b0; vm_compute; reflexivity|split; reflexivity]
        |split; [lia|lens]]
    | |- _ => idtac end.
    all: cbn [repeat app]; generalize (repeat (nov 47) (length ms) ++ nov 22 :: nov 11 :: base d); intros b; acc'.
Qed.

Lemma sim_top d : forall t, good_token t -> sim_at PTop d t.
Proof.
  destruct d as [|d].
  - kinds_tac; unfold sim_at; cbn [delta t_kind pending expect].
    all: cbn [length Nat.add app]; cbn [stack_of base repeat app]; sims (eq_refl true).
  - kinds_tac; unfold sim_at; cbn [delta t_kind pending expect].
    all: cbn [length Nat.add app]; cbn [stack_of].
    all: lazymatch goal with
    | |- context [rejects] =>
        eexists; split;
        [do 3 eexists; split; [cbn [fst snd la_of t_kind t_val]; eapply red_5; [reflexivity|]; apply bad_top; reflexivity|];
         split; [reflexivity|split; reflexivity]
        |rewrite len_base; lia]
    | |- _ => idtac end.
    all: change (base (S d)) with (nov 5 :: base d); generalize (base d); intros b; acc'.
Qed.

Theorem sim_token p d t : good_token t -> sim_at p d t.
Proof.
  intros Ht. destruct p; try (apply sim_head; [exact I|exact Ht]); try (apply sim_end; [exact I|exact Ht]).
  - apply sim_top; auto.
  - apply sim_body; auto.
  - apply sim_name; auto.
  - apply sim_eq; auto.
  - apply sim_entry; auto.
  - destruct m; try (apply sim_member; [discriminate|exact Ht]). apply sim_m0; auto.
Qed.

(** End of input. *)
Definition sim_eof_at (p : pst) (d : nat) : Prop :=
  match p, d with
  | PTop, S d' =>
      exists n f, feed f 0 VNone (stack_of p d) = Some (n, [], FShift [nov 12; nov 3; nov 0]) /\
        (0 < n /\ n <= length (stack_of p d) + 8)%nat
  | _, _ =>
      exists n, rejects (stack_of p d) (la_of None) (pending p) (expect p d) n /\
        (n <= length (stack_of p d) + 8)%nat
  end.

Theorem sim_eof p d : sim_eof_at p d.
Proof.
  pose proof (calm_base d) as Hc. unfold sim_eof_at.
  destruct p; cbn [pending expect].
  - destruct d as [|d].
    + cbn [stack_of base repeat app]. sims (eq_refl true).
    + exists (S (d + 2)), (S (d + 2)). split; [|cbn [stack_of]; rewrite len_base; lia].
      cbn [stack_of]. apply red_5; [reflexivity|]. apply feed_ptop. vm_compute. reflexivity.
  - cbn [stack_of]. generalize dependent (base d). intros b Hc. sims Hc.
  - cbn [stack_of]. generalize dependent (base d). intros b Hc. sims Hc.
  - cbn [stack_of]. generalize dependent (base d). intros b Hc. sims Hc.
  - destruct es as [|e es].
    + cbn [stack_of ents length is_nil]. generalize dependent (base d). intros b Hc. sims Hc.
    + eexists; split.
      * do 3 eexists; split; [cbn [stack_of length la_of fst snd]; eapply red_55; [reflexivity|]; apply bad_enum; reflexivity|].
        split; [exact Hc|split; reflexivity].
      * cbn [stack_of]. lens.
  - eexists; split.
    + do 3 eexists; split; [cbn [stack_of la_of fst snd]; eapply red_24; [reflexivity|]; eapply red_26; [reflexivity|]; apply bad_enum; reflexivity|].
      split; [exact Hc|split; reflexivity].
    + cbn [stack_of]. lens.
  - destruct (entries_top (length es) d) as (s0 & b & Eb & Hs & Hc'). cbn [stack_of]. rewrite Eb. sims Hc'.
  - eexists; split.
    + do 3 eexists; split; [cbn [stack_of la_of fst snd]; eapply red_26; [reflexivity|]; apply bad_enum; reflexivity|].
      split; [exact Hc|split; reflexivity].
    + cbn [stack_of]. lens.
  - cbn [stack_of]. generalize dependent (base d). intros b Hc. sims Hc.
  - cbn [stack_of]. generalize dependent (base d). intros b Hc. sims Hc.
  - cbn [stack_of]. generalize dependent (base d). intros b Hc. sims Hc.
  - destruct m; cbn [stack_of mstack].
    2-17: destruct (members_top (length ms) d) as (s0 & b & Eb & Hs & Hc'); rewrite Eb; sims Hc'.
    destruct ms as [|m ms].
    + cbn [repeat app length is_nil]. generalize dependent (base d). intros b Hc. sims Hc.
    + eexists; split.
      * do 3 eexists; split; [cbn [length la_of fst snd]; eapply red_47; [reflexivity|]; apply bad_struct; reflexivity|].
        split; [exact Hc|split; reflexivity].
      * lens.
  - cbn [stack_of]. generalize dependent (base d). intros b Hc. sims Hc.
Qed.

(** The machine always reads its next token in these stacks. *)
Lemma reads_stack p d : reads (stack_of p d) = true.
Proof.
  destruct p; cbn [stack_of]; try reflexivity.
  - destruct d; reflexivity.
  - destruct es; reflexivity.
  - destruct m; try reflexivity. cbn [mstack]. destruct ms; reflexivity.
Qed.
