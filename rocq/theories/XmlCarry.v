(** What becomes of an object that is written as an element, saved, loaded and read into
    another object, said member by member without elements. *)
From Coq Require Import String Ascii ZArith NArith Arith List Bool Lia.
From Verif Require Import Base Map Items Grammar Fmt Decimal Templates Emit Cpp Xml Val CppSem SymLex Ast StoreDefs ResolveProps Prog Header EnumSem DecText EnumCall EnumRound XmlSpec XmlRdSimple XmlRead XmlReader XmlCall XmlWriter.
Import ListNotations.
Local Open Scope string_scope.
Local Open Scope list_scope.

Section Carry.
Variables (L : lang) (b : form) (delta : bool).

(** A scalar that was written with text [s]: line ends are those of the xml standard; an
    element with a blank text has no text. *)
Definition shown (s : string) : item :=
  match b with
  | Attributes => Present (Some (newlines s))
  | Elements => Present (if blank s then None else Some (newlines s))
  end.
Definition read_scalar (m : member) (i : item) (old : val) : option val :=
  match m with
  | MSimple t _ _ => read_simple L b t i old
  | MUser u _ _ => read_enum_item L u i old
  | MVector _ _ => None
  end.
Definition carry_scalar (m : member) (d v old : val) : option val :=
  let? o := left_out L delta d v in
  if o then read_scalar m Absent old
  else let? s := text_of L b v in read_scalar m (shown s) old.
Definition carry_member (ds : list (string * val)) (sub : list (string * (val * (val -> option val)))) (m : member) (old : val) : option val :=
  let n := member_name m in
  let? (v, c) := assoc n sub in
  if is_scalar L m then let? d := assoc n ds in carry_scalar m d v old else c old.
Fixpoint carry_members ds sub (ms : list member) (os : list (string * val)) : option (list (string * val)) :=
  match ms, os with
  | m :: r, (n, old) :: q =>
      let? v := carry_member ds sub m old in let? l := carry_members ds sub r q in Some ((n, v) :: l)
  | _, _ => Some []
  end.
(** Elements of a vector are read into new objects. *)
Fixpoint carry_items (u : string) (cs : list (val -> option val)) : option (list val) :=
  match cs with
  | [] => Some []
  | c :: r => let? d := default_fields L u in let? v := c (VStruct u d) in let? l := carry_items u r in Some (v :: l)
  end.
Fixpoint carry (v : val) : val -> option val := fun old =>
  match v, old with
  | VStruct u fs, VStruct t os =>
      let? ms := find_struct (l_defs L) u in
      let? ds := default_fields L u in
      option_map (VStruct t) (carry_members ds (map (fun p => (fst p, (snd p, carry (snd p)))) fs) ms os)
  | VVec u l, VVec t l0 => option_map (fun l' => VVec t (l0 ++ l')) (carry_items u (map carry l))
  | _, _ => None
  end.

(** *** Finding what was written *)
Lemma attr_app n a a' : attr n (a ++ a') = match attr n a with Some s => Some s | None => attr n a' end.
Proof. induction a as [|[k s] a IH]; cbn; [reflexivity|]. now destruct (String.eqb n k). Qed.
Lemma attr_none n a : ~ In n (map fst a) -> attr n a = None.
Proof. induction a as [|[k s] a IH]; cbn; [reflexivity|]. intros H. destruct (String.eqb_spec n k) as [->|]; tauto. Qed.
Definition elem_named (n : string) (x : node) : Prop := exists a k, x = Elem n a k.
Lemma first_named_app {A} n (l l' : list (node * A)) : first_named n (l ++ l') = match first_named n l with Some x => Some x | None => first_named n l' end.
Proof. induction l as [|[[m a k|s] r] l IH]; cbn; auto. now destruct (String.eqb n m). Qed.
Lemma first_named_none {A} n (f : node -> A) l : (forall x, In x l -> exists m, elem_named m x /\ m <> n) -> first_named n (map (fun x => (x, f x)) l) = None.
Proof.
  induction l as [|x l IH]; cbn; intros H; [reflexivity|]. destruct (H x) as (m & (a & k & ->) & N); [now left|].
  destruct (String.eqb_spec n m) as [->|]; [congruence|]. apply IH. auto.
Qed.

Lemma write_member_names ds sub m a k : write_member L b delta ds sub m = Some (a, k) ->
  (forall n, In n (map fst a) -> n = member_name m) /\ (forall x, In x k -> elem_named (member_name m) x).
Proof.
  unfold write_member. destruct (assoc (member_name m) sub) as [[v c]|]; [|discriminate]. destruct (is_scalar L m).
  - destruct (assoc (member_name m) ds) as [d|]; [|discriminate]. unfold write_scalar. destruct (left_out L delta d v) as [[|]|]; [|destruct (text_of L b v)|]; try discriminate.
    + intros [= <- <-]. cbn. tauto.
    + destruct b; intros [= <- <-]; cbn; intuition (subst; auto). eexists _, _; eauto.
  - destruct c as [[a' k']|]; [|discriminate]. intros [= <- <-]. cbn. intuition (subst; auto). eexists _, _; eauto.
Qed.
Lemma write_members_in ds sub ms : forall a k, write_members L b delta ds sub ms = Some (a, k) ->
  (forall n, In n (map fst a) -> In n (map member_name ms)) /\ (forall x, In x k -> exists n, elem_named n x /\ In n (map member_name ms)).
Proof.
  induction ms as [|m ms IH]; intros a k; cbn [write_members map].
  - intros [= <- <-]. cbn. tauto.
  - destruct (write_member L b delta ds sub m) as [[am km]|] eqn:W; [|discriminate]. destruct (write_members L b delta ds sub ms) as [[ar kr]|]; [|discriminate].
    intros [= <- <-]. destruct (write_member_names _ _ _ _ _ W) as (N1 & N2). destruct (IH _ _ eq_refl) as (I1 & I2). split.
    + intros n. rewrite map_app, in_app_iff. intros [J|J]; [left; symmetry; now apply N1|right; now apply I1].
    + intros x. rewrite in_app_iff. intros [J|J]; [exists (member_name m); split; [now apply N2|now left]|].
      destruct (I2 x J) as (n & E & I). exists n. split; [exact E|now right].
Qed.
Lemma written_found ds sub ms : NoDup (map member_name ms) -> forall a k m, write_members L b delta ds sub ms = Some (a, k) -> In m ms ->
  exists am km, write_member L b delta ds sub m = Some (am, km) /\ attr (member_name m) a = attr (member_name m) am /\
    forall A (f : node -> A), first_named (member_name m) (map (fun x => (x, f x)) (map reload k)) = first_named (member_name m) (map (fun x => (x, f x)) (map reload km)).
Proof.
  induction ms as [|m0 ms IH]; cbn [map]; intros ND a k m; [contradiction|]. apply NoDup_cons_iff in ND as [N ND]. cbn [write_members].
  destruct (write_member L b delta ds sub m0) as [[a0 k0]|] eqn:W; [|discriminate]. destruct (write_members L b delta ds sub ms) as [[ar kr]|] eqn:WS; [|discriminate].
  intros [= <- <-] I. destruct (write_member_names _ _ _ _ _ W) as (N1 & N2). destruct (write_members_in _ _ _ _ _ WS) as (I1 & I2). destruct I as [->|I].
  - exists a0, k0. split; [exact W|]. split.
    + rewrite attr_app. rewrite (attr_none _ ar) by auto. now destruct (attr (member_name m) a0).
    + intros A f. rewrite !map_app, first_named_app. rewrite (first_named_none (member_name m) f (map reload kr)).
      * now destruct (first_named _ _).
      * intros x J. apply in_map_iff in J as (y & <- & J). destruct (I2 y J) as (n & (a & k & ->) & I). exists n. split; [eexists _, _; reflexivity|congruence].
  - destruct (IH ND ar kr m eq_refl I) as (am & km & W' & A1 & A2). exists am, km. split; [exact W'|].
    assert (NE : member_name m <> member_name m0) by (intros E; apply N; rewrite <- E; now apply in_map). split.
    + rewrite attr_app, attr_none; [exact A1|]. intros J. apply N1 in J. congruence.
    + intros A f. rewrite !map_app, first_named_app, (first_named_none (member_name m) f (map reload k0)); [apply A2|].
      intros x J. apply in_map_iff in J as (y & <- & J). destruct (N2 y J) as (a & k & ->). exists (member_name m0). split; [eexists _, _; reflexivity|congruence].
Qed.

(** Saving and loading an element without texts of its own. *)
Definition no_text (k : list node) : Prop := forall x, In x k -> exists n, elem_named n x.
Lemma reload_kids nm a k : no_text k -> reload (Elem nm a k) = Elem nm (map (fun p => (fst p, newlines (snd p))) a) (map reload k).
Proof.
  intros H. cbn [reload]. f_equal. induction k as [|x k IH]; [reflexivity|]. cbn [flat_map map].
  destruct (H x (or_introl eq_refl)) as (n & a' & k' & ->). cbn [app]. f_equal. apply IH. intros y I. apply H. now right.
Qed.
Lemma attr_newlines n a : attr n (map (fun p : string * string => (fst p, newlines (snd p))) a) = option_map newlines (attr n a).
Proof. induction a as [|[k s] a IH]; cbn; [reflexivity|]. now destruct (String.eqb n k). Qed.

Lemma assoc_map {A B} (f : A -> B) n l : assoc n (map (fun p => (fst p, f (snd p))) l) = option_map f (assoc n l).
Proof. induction l as [|[k v] l IH]; cbn; [reflexivity|]. now destruct (String.eqb n k). Qed.

(** *** The theorem *)
Section Schema.
Variables (rd wr : string).
Hypothesis OK : header_ok rd wr (l_defs L) = true.
Hypothesis LL : (0 < l_long L)%Z.
Hypothesis LF : lits_fit L.

Lemma defaults u ms : find_struct (l_defs L) u = Some ms -> exists d, default_fields L u = Some d /\ fits L (VStruct u d) (TStruct u) = true.
Proof.
  intros F. apply (struct_iff rd wr _ OK) in F. destruct (init_struct rd wr (l_defs L) OK L eq_refl LL LF u ms F) as (d & I & FI).
  exists d. unfold default_fields. now rewrite I.
Qed.
Lemma names_distinct u ms : find_struct (l_defs L) u = Some ms -> NoDup (map member_name ms).
Proof. intros F. apply (struct_iff rd wr _ OK) in F. now destruct (struct_parts rd wr _ OK u ms F). Qed.

Lemma fits_as_struct v u : fits L v (TStruct u) = true -> exists fs, v = VStruct u fs.
Proof. intros F. pose proof (fits_ty L v _ F) as T. destruct v; try discriminate T; cbn in T; [subst; cbn in F; discriminate|]. injection T as ->. eauto. Qed.
Lemma fits_as_vec v u : fits L v (TVec u) = true -> exists l, v = VVec u l /\ forall w, In w l -> fits L w (TStruct u) = true.
Proof.
  intros F. pose proof (fits_ty L v _ F) as T. destruct v; try discriminate T; cbn in T; [subst; cbn in F; discriminate|]. injection T as ->.
  exists l. split; [reflexivity|]. cbn [fits] in F. apply andb_true_iff in F as [_ F]. now apply forallb_forall.
Qed.

Definition carried (f : nat) : Prop := forall u fs os nm a k, vheight (VStruct u fs) < f ->
  fits L (VStruct u fs) (TStruct u) = true -> fits L (VStruct u os) (TStruct u) = true -> write_val L b delta (VStruct u fs) = Some (a, k) ->
  option_map (VStruct u) (read_struct L b (reload (Elem nm a k)) u os) = carry (VStruct u fs) (VStruct u os).

Lemma items_carried f u ms : find_struct (l_defs L) u = Some ms -> carried f -> forall l k, (forall w, In w l -> fits L w (TStruct u) = true /\ vheight w < f) ->
  write_items u (map (write_val L b delta) l) = Some k ->
  no_text k /\ read_items L u (map (fun x => (x, reading_of L b x)) (map reload k)) = carry_items u (map carry l).
Proof.
  intros FS IH. induction l as [|w l IHl]; intros k H; cbn [map write_items carry_items].
  - intros [= <-]. split; [intros x []|reflexivity].
  - destruct (write_val L b delta w) as [[a0 k0]|] eqn:W; [|discriminate]. destruct (write_items u _) as [kr|] eqn:WR; [|discriminate]. intros [= <-].
    destruct (IHl kr) as (NT & E); [intros y I; apply H; now right|reflexivity|]. split.
    { intros x [<-|I]; [exists u; eexists _, _; reflexivity|now apply NT]. }
    destruct (H w (or_introl eq_refl)) as (FW & HW). destruct (fits_as_struct w u FW) as (fs & ->).
    destruct (defaults u ms FS) as (d & D & FD). specialize (IH u fs d u a0 k0 HW FW FD W). rewrite D, <- IH.
    cbn [map]. rewrite <- E. clear IH E. assert (RE : exists a' k', reload (Elem u a0 k0) = Elem u a' k') by (eexists _, _; reflexivity).
    destruct RE as (a' & k' & RE). rewrite RE. cbn [read_items]. rewrite D. fold (read_struct L b (Elem u a' k') u d). destruct (read_struct L b (Elem u a' k') u d); reflexivity.
Qed.

Theorem carry_ok f : carried f.
Proof.
  induction f as [|f IH]; intros u fs os nm a k HV FV FO W; [lia|].
  destruct (fits_struct L u fs FV) as (ms & FS & FF). destruct (fits_struct L u os FO) as (ms' & FS' & FF'). assert (ms' = ms) by congruence. subst ms'.
  pose proof (names_distinct u ms FS) as ND. destruct (defaults u ms FS) as (d & D & FD).
  destruct (fits_struct L u d FD) as (ms' & FS2 & FFD). assert (ms' = ms) by congruence. subst ms'. clear FS' FS2.
  cbn [write_val] in W. rewrite FS, D in W. set (sub := map (fun p => (fst p, (snd p, write_val L b delta (snd p)))) fs) in W.
  rewrite (read_struct_unfold L b _ u os ms FS). cbn [carry]. rewrite FS, D. f_equal.
  assert (NT : no_text k). { intros x I. destruct (write_members_in _ _ _ _ _ W) as (_ & I2). destruct (I2 x I) as (n & E & _). eauto. }
  rewrite (reload_kids nm a k NT). cbn [attrs_of kids_of].
  assert (MEM : forall m old ty, In m ms -> member_type L m = Some ty -> fits L old ty = true ->
    read_member L b (map (fun p => (fst p, newlines (snd p))) a) (map (fun x => (x, reading_of L b x)) (map reload k)) m old =
    carry_member d (map (fun p => (fst p, (snd p, carry (snd p)))) fs) m old).
  { intros m old ty I MT FI.
    destruct (written_found d sub (in_order ms) (in_order_names ms ND) a k m W (proj2 (in_order_in m ms) I)) as (am & km & WM & AE & KE).
    destruct (fields_fit_member L ms ND fs FF m I) as (v & ty' & AV & MT' & FI'). assert (ty' = ty) by congruence. subst ty'.
    destruct (fields_fit_member L ms ND d FFD m I) as (dv & ty' & AD & MT2 & FID). assert (ty' = ty) by congruence. subst ty'. clear MT' MT2.
    unfold carry_member. rewrite (assoc_map (fun v => (v, carry v))), AV. cbn [option_map].
    unfold write_member in WM. unfold sub in WM. rewrite (assoc_map (fun v => (v, write_val L b delta v))), AV in WM. cbn [option_map] in WM.
    assert (SC : is_scalar L m = true -> read_member L b (map (fun p => (fst p, newlines (snd p))) a) (map (fun x => (x, reading_of L b x)) (map reload k)) m old =
      (let? d0 := assoc (member_name m) d in carry_scalar m d0 v old)).
    { intros S. rewrite S in WM. rewrite AD in WM |- *. unfold write_scalar in WM. unfold carry_scalar.
      assert (RM : forall i, find_item b (member_name m) (map (fun p => (fst p, newlines (snd p))) a) (map (fun x => (x, reading_of L b x)) (map reload k)) = i ->
        read_member L b (map (fun p => (fst p, newlines (snd p))) a) (map (fun x => (x, reading_of L b x)) (map reload k)) m old = read_scalar m i old).
      { intros i <-. destruct m as [st x df|t x df|t x]; cbn [read_member read_scalar member_name is_scalar] in S |- *; [reflexivity| |discriminate].
        destruct (user_type L t) as [[]|]; try discriminate. reflexivity. }
      destruct (left_out L delta dv v) as [[|]|]; [| |discriminate].
      - injection WM as <- <-. apply RM. unfold find_item. rewrite attr_newlines, AE, KE. cbn. now destruct b.
      - destruct (text_of L b v) as [s|]; [|discriminate]. apply RM. unfold find_item, shown. rewrite attr_newlines, AE, KE.
        destruct b; injection WM as <- <-; cbn; rewrite String.eqb_refl; cbn; [reflexivity|]. now destruct (blank s). }
    destruct (is_scalar L m) eqn:S; [now apply SC|]. clear SC.
    assert (HH : vheight v < f).
    { apply assoc_some in AV. cbn [vheight] in HV. assert (vheight v <= list_max (map (fun p => vheight (snd p)) fs)); [|lia].
      apply list_max_in. apply in_map_iff. exists (member_name m, v). auto. }
    destruct (write_val L b delta v) as [[a0 k0]|] eqn:WV; [|discriminate]. injection WM as <- <-.
    specialize (KE reading (reading_of L b)).
    assert (KE' : first_named (member_name m) (map (fun x => (x, reading_of L b x)) (map reload k)) = Some (reload (Elem (member_name m) a0 k0), reading_of L b (reload (Elem (member_name m) a0 k0)))).
    { rewrite KE. cbn. now rewrite String.eqb_refl. }
    clear KE. destruct m as [st x df|t x df|t x]; cbn [member_name is_scalar member_type read_member] in *; [discriminate| |].
    - rewrite MT in S |- *. rewrite KE'.
      assert (ty = TStruct t). { unfold user_type in MT. destruct (find_struct (l_defs L) t); [congruence|]. destruct (find_enum (l_defs L) t); [|discriminate]. injection MT as <-. discriminate S. }
      subst ty. destruct (fits_as_struct v t FI') as (fs' & ->). destruct (fits_as_struct old t FI) as (os' & ->).
      apply (IH t fs' os' x a0 k0 HH FI' FI WV).
    - injection MT as <-. rewrite KE'. destruct (fits_as_vec v t FI') as (l & -> & FL). destruct (fits_as_vec old t FI) as (l0 & -> & _). cbn [write_val] in WV.
      destruct (write_items t (map (write_val L b delta) l)) as [ks|] eqn:WI; [|discriminate]. injection WV as <- <-.
      destruct l as [|w l].
      + cbn in WI. injection WI as <-. reflexivity.
      + destruct (fits_as_struct w t (FL w (or_introl eq_refl))) as (fw & ->).
        destruct (fits_struct L t fw (FL _ (or_introl eq_refl))) as (mt & FT & _).
        destruct (items_carried f t mt FT IH (VStruct t fw :: l) ks) as (NT' & E); [|exact WI|].
        { intros w I'. split; [now apply FL|]. eapply Nat.le_lt_trans; [|exact HH]. cbn [vheight]. apply list_max_in. now apply in_map. }
        rewrite (reload_kids x [] ks NT'). cbn [map reading_of as_items]. cbn [map] in E. rewrite E. reflexivity. }
  clear - MEM FF'. revert FF'. assert (INC : incl ms ms) by apply incl_refl. revert INC.
  enough (G : forall l, incl l ms -> forall os, fields_fit L l (map (fun p => (fst p, fits L (snd p))) os) = true ->
    read_members L b (map (fun p => (fst p, newlines (snd p))) a) (map (fun x => (x, reading_of L b x)) (map reload k)) l os =
    carry_members d (map (fun p => (fst p, (snd p, carry (snd p)))) fs) l os) by (intros INC FF'; exact (G ms INC os FF')).
  induction l as [|m l IHl]; intros INC [|[n old] q] FF'; cbn [map fields_fit fst snd] in FF'; try discriminate; [reflexivity|].
  rewrite !andb_true_iff in FF'. destruct FF' as ((_ & F1) & F2). destruct (member_type L m) as [ty|] eqn:MT; [|discriminate].
  cbn [read_members carry_members]. rewrite (MEM m old ty (INC m (or_introl eq_refl)) MT F1).
  destruct (carry_member _ _ m old); [|reflexivity]. rewrite (IHl (fun x I => INC x (or_intror I)) q F2). reflexivity.
Qed.
End Schema.
End Carry.
