(** The meaning of the generated enum functions s_from_e and s_to_e. *)
From Coq Require Import String Ascii ZArith NArith Arith List Bool Lia.
From Verif Require Import Base Map Items Grammar Fmt Decimal Templates Emit Cpp Xml Val CppSem SymLex Ast StoreDefs DecText Prog Header.
Import ListNotations.
Local Open Scope string_scope.
Local Open Scope list_scope.

(** *** Specification
    [vs]: the enumerators with their values, in order. *)
Fixpoint name_of (vs : list (string * Z)) (z : Z) : option string :=
  match vs with
  | [] => None
  | (x, y) :: r => if (z =? y)%Z then Some x else name_of r z
  end.
(** The text of a value: the first enumerator with that value, else a number. *)
Definition enum_text (vs : list (string * Z)) (z : Z) : string :=
  match name_of vs z with Some x => x | None => zdec (wrap 32 true z) end.
(** Reading a text: the new value ([None]: undefined behaviour) and the result. *)
Inductive enum_read := ERead (z : Z) (found : bool) | EKeep | EUB.
Definition read_enum (L : lang) (n : string) (vs : list (string * Z)) (s : string) : enum_read :=
  match assoc s vs with
  | Some z => ERead z true
  | None =>
      match scan_dec s with
      | Some z => if in_int z then (if enum_holds L n z then ERead z false else EUB) else EKeep
      | None => EKeep
      end
  end.

Ltac crunch := cbn [ev run_args method map_method str_method std_fun fun_call binary veq lift vbool negb truth value_index val_member
  option_map Z.eqb String.eqb Ascii.eqb Bool.eqb andb orb assoc lookup s_scopes s_this s_tree s_world].

(** *** Initialiser lists *)
Lemma run_list_cons ex c r s : run_list ex (c :: r) s =
  match ex c s with
  | Ok k s => match k with CNext => run_list ex r s | _ => Ok k s end
  | Exc s => Exc s | UB => UB | Bad => Bad | Fuel => Fuel
  end.
Proof. reflexivity. Qed.

Lemma map_find_insert_enum t z (l : list (val * val)) u y w :
  (forall k v, In (k, v) l -> exists q, k = VEnum t q) ->
  map_find (VEnum t z) (map_insert l (VEnum u y, w)) =
  match map_find (VEnum t z) l with Some v => Some v | None => if (z =? y)%Z then Some w else None end.
Proof.
  intros A. unfold map_insert. cbn [fst].
  assert (K : forall a, map_find (VEnum u y) l = map_find (VEnum a y) l).
  { intros a. clear A. induction l as [|[k v] l IH]; [reflexivity|]. cbn [map_find]. rewrite IH. destruct k; reflexivity. }
  assert (T : map_find (VEnum t z) (l ++ [(VEnum u y, w)]) =
    match map_find (VEnum t z) l with Some v => Some v | None => if (z =? y)%Z then Some w else None end).
  { clear A K. induction l as [|[k v] l IH]; cbn [app map_find]; [reflexivity|]. destruct (key_eqb (VEnum t z) k); auto. }
  destruct (map_find (VEnum u y) l) as [v|] eqn:E; [|exact T].
  destruct (map_find (VEnum t z) l) eqn:F; [reflexivity|]. destruct (Z.eqb_spec z y); [|reflexivity].
  subst. rewrite (K t) in E. congruence.
Qed.

Definition from_pairs (n : string) (vs : list (string * Z)) : list (val * val) :=
  map (fun p => (VEnum n (snd p), VCStr (Some (fst p)))) vs.
Definition to_pairs (n : string) (vs : list (string * Z)) : list (val * val) :=
  map (fun p => (VCStr (Some (fst p)), VEnum n (snd p))) vs.

Lemma from_map n vs : forall acc, (forall k v, In (k, v) acc -> exists z x, k = VEnum n z /\ v = VCStr (Some x)) ->
  let m := fold_left map_insert (from_pairs n vs) acc in
  (forall k v, In (k, v) m -> exists z x, k = VEnum n z /\ v = VCStr (Some x)) /\
  forall z, map_find (VEnum n z) m =
    match map_find (VEnum n z) acc with Some v => Some v | None => option_map (fun x => VCStr (Some x)) (name_of vs z) end.
Proof.
  induction vs as [|[x y] vs IH]; intros acc A; cbn [from_pairs map fold_left name_of fst snd].
  - split; [exact A|]. intros z. destruct (map_find _ acc); reflexivity.
  - destruct (IH (map_insert acc (VEnum n y, VCStr (Some x)))) as [I1 I2].
    { unfold map_insert. cbn [fst]. destruct (map_find (VEnum n y) acc); [exact A|]. intros k v I.
      apply in_app_or in I as [I|[[= <- <-]|[]]]; eauto. }
    split; [exact I1|]. intros z. cbv zeta in I2. unfold from_pairs in I2. rewrite I2. rewrite map_find_insert_enum.
    + destruct (map_find (VEnum n z) acc); [reflexivity|]. destruct (z =? y)%Z; reflexivity.
    + intros k v I. destruct (A k v I) as (q & _ & -> & _). eauto.
Qed.
Lemma to_map n vs : forall acc, fold_left map_insert (to_pairs n vs) acc = acc ++ to_pairs n vs.
Proof.
  induction vs as [|[x y] vs IH]; intros acc; cbn [to_pairs map fold_left fst snd]; [now rewrite app_nil_r|].
  assert (E : map_insert acc (VCStr (Some x), VEnum n y) = acc ++ [(VCStr (Some x), VEnum n y)]).
  { unfold map_insert. cbn [fst].
    assert (map_find (VCStr (Some x)) acc = None) as ->; [|reflexivity]. clear IH.
    induction acc as [|[k v] acc IH]; [reflexivity|]. cbn. exact IH. }
  rewrite E. unfold to_pairs in IH. rewrite IH, <- app_assoc. reflexivity.
Qed.

Definition std_pair (p : val * val) : val * val :=
  (match fst p with VCStr (Some x) => VStr x | k => k end, match snd p with VCStr (Some x) => VStr x | k => k end).
Lemma from_types L n m : (forall k v, In (k, v) m -> exists z x, k = VEnum n z /\ v = VCStr (Some x)) ->
  map_types L (TEnum n) TStd m = Yes (map std_pair m).
Proof.
  induction m as [|[k v] m IH]; intros A; [reflexivity|]. cbn [map_types fold_right map].
  change (fold_right _ (Yes []) m) with (map_types L (TEnum n) TStd m). rewrite IH by (intros; apply A; now right).
  destruct (A k v (or_introl eq_refl)) as (z & x & -> & ->). cbn. now rewrite String.eqb_refl.
Qed.
Lemma to_types L n vs : map_types L TStd (TEnum n) (to_pairs n vs) = Yes (map std_pair (to_pairs n vs)).
Proof.
  induction vs as [|[x z] vs IH]; [reflexivity|]. cbn [map_types fold_right map to_pairs].
  change (fold_right _ (Yes []) (map _ vs)) with (map_types L TStd (TEnum n) (to_pairs n vs)). rewrite IH.
  cbn. now rewrite String.eqb_refl.
Qed.
Lemma from_std n m z : (forall k v, In (k, v) m -> exists z x, k = VEnum n z /\ v = VCStr (Some x)) ->
  map_find (VEnum n z) (map std_pair m) =
  match map_find (VEnum n z) m with Some (VCStr (Some x)) => Some (VStr x) | _ => None end.
Proof.
  induction m as [|[k v] m IH]; intros A; [reflexivity|]. cbn [map map_find].
  destruct (A k v (or_introl eq_refl)) as (q & x & -> & ->). cbn [std_pair fst snd key_eqb].
  destruct (z =? q)%Z; [reflexivity|]. apply IH. intros; apply A; now right.
Qed.
Lemma to_std n vs s : map_find (VStr s) (map std_pair (to_pairs n vs)) = option_map (VEnum n) (assoc s vs).
Proof.
  induction vs as [|[x z] vs IH]; [reflexivity|]. cbn. destruct (String.eqb s x); [reflexivity|]. exact IH.
Qed.

(** *** Evaluation of the initialisers *)
Section Eval.
  Variables (rd wr : string) (ds : list def) (L : lang).
  Hypothesis OK : header_ok rd wr ds = true.
  Hypothesis LD : l_defs L = ds.
  Variable call : list string -> list arg -> st -> res val.
  Variable mf : string -> bool.
  Variable wf : nat.
  Variables (c : bool) (n : string) (es : list entry) (t : bool).
  Hypothesis IN : In (DefEnum c n es t) ds.
  Hypothesis MF : mf n = false.
  Let vs := enum_values L 0 es.
  Let e := enum_of c n es.
  Let FINE : type_fine rd wr n.
  Proof. destruct (ok_parts rd wr ds OK) as (_ & F & _). exact (F _ IN). Qed.

  (** No variable of these scopes is an enumerator's name. *)
  Definition clear_of (s : st) : Prop := forall x z, In (x, z) vs -> c = false ->
    lookup x (s_scopes s) = None /\ assoc x (s_this s) = None.

  Lemma ev_enumerator s x z : clear_of s -> In (x, z) vs -> ev L call "stfx" mf (e_enumerator e x) s = Ok (VEnum n z) s.
  Proof.
    intros C I. unfold e_enumerator. cbn [e enum_of e_class e_name]. destruct c eqn:CC.
    - cbn [ev]. rewrite (scoped_enumerator rd wr ds OK L LD n true es t x z); auto. 
    - cbn [ev]. destruct (C x z I CC) as [-> ->].
      rewrite (plain_enumerator_found rd wr ds OK L LD n es t x z); auto.
  Qed.
  Lemma names_fine x z : In (x, z) vs -> name_ok x = true.
  Proof.
    intros I. destruct (enum_parts rd wr ds OK c n es t IN) as (_ & N & _).
    assert (In x (map en_name es)) as J by (rewrite <- (enum_values_names L 0 es); apply (in_map fst) in I; exact I).
    apply in_map_iff in J as (y & <- & J). auto.
  Qed.
  Lemma cut_name x z : In (x, z) vs -> cut x = x.
  Proof. intros I. apply cut_id, ident_no_nul, name_ok_ident. eauto using names_fine. Qed.

  Lemma run_from s : clear_of s -> forall acc,
    run_pairs (ev L call "stfx" mf) (map (fun l => EList [e_enumerator e (el_name l); EStr (el_name l)]) (e_lines e)) s acc =
    Ok (fold_left map_insert (from_pairs n vs) acc) s.
  Proof.
    intros C. cbn [e enum_of e_lines]. unfold vs. rewrite map_map.
    assert (G : forall es' z0 acc, (forall x z, In (x, z) (enum_values L z0 es') -> In (x, z) vs) ->
      run_pairs (ev L call "stfx" mf) (map (fun x => EList [e_enumerator e (el_name (entry_line x)); EStr (el_name (entry_line x))]) es') s acc =
      Ok (fold_left map_insert (from_pairs n (enum_values L z0 es')) acc) s).
    { induction es' as [|x es' IH]; intros z0 acc I; [reflexivity|]. cbn [map enum_values].
      assert (El : el_name (entry_line x) = en_name x) by (unfold entry_line; destruct (en_val x); reflexivity). rewrite El.
      set (z := match en_val x with Some c => l_const L c | None => z0 end).
      assert (J : In (en_name x, z) vs) by (apply I; cbn; left; reflexivity).
      cbn [run_pairs]. rewrite (ev_enumerator s _ _ C J). cbn [ev]. rewrite (cut_name _ _ J).
      rewrite (IH (z + 1)%Z); [reflexivity|]. intros y w Y. apply I. cbn. right. exact Y. }
    intros acc. apply G. auto.
  Qed.
  Lemma run_to s : clear_of s -> forall acc,
    run_pairs (ev L call "stfx" mf) (map (fun l => EList [EStr (el_name l); e_enumerator e (el_name l)]) (e_lines e)) s acc =
    Ok (fold_left map_insert (to_pairs n vs) acc) s.
  Proof.
    intros C. cbn [e enum_of e_lines]. unfold vs. rewrite map_map.
    assert (G : forall es' z0 acc, (forall x z, In (x, z) (enum_values L z0 es') -> In (x, z) vs) ->
      run_pairs (ev L call "stfx" mf) (map (fun x => EList [EStr (el_name (entry_line x)); e_enumerator e (el_name (entry_line x))]) es') s acc =
      Ok (fold_left map_insert (to_pairs n (enum_values L z0 es')) acc) s).
    { induction es' as [|x es' IH]; intros z0 acc I; [reflexivity|]. cbn [map enum_values].
      assert (El : el_name (entry_line x) = en_name x) by (unfold entry_line; destruct (en_val x); reflexivity). rewrite El.
      set (z := match en_val x with Some c => l_const L c | None => z0 end).
      assert (J : In (en_name x, z) vs) by (apply I; cbn; left; reflexivity).
      cbn [run_pairs]. cbn [ev]. fold ev. rewrite (ev_enumerator s _ _ C J). rewrite (cut_name _ _ J).
      rewrite (IH (z + 1)%Z); [reflexivity|]. intros y w Y. apply I. cbn. right. exact Y. }
    intros acc. apply G. auto.
  Qed.
  Lemma tostr_ne : String.eqb (n_tostr n) "e" = false /\ String.eqb "e" (n_tostr n) = false.
  Proof. split; apply eqb_neq; unfold n_tostr; destruct n as [|a [|a' n']]; cbn; congruence. Qed.
  Lemma strto_ne x : (String.length x < 5)%nat -> String.eqb (n_strto n) x = false /\ String.eqb x (n_strto n) = false.
  Proof.
    intros H. split; apply eqb_neq; unfold n_strto; intros E; apply (f_equal String.length) in E; cbn in E; lia.
  Qed.
  Lemma type_named s : is_local n s = false -> is_member n s = false -> named_type L mf [n] s = Some (TEnum n).
  Proof.
    intros A B. unfold named_type. rewrite A, B, MF. cbn [orb].
    rewrite (tf_reserved _ _ _ FINE "size_t") by (cbn; tauto).
    rewrite (tf_reserved _ _ _ FINE "read_item_S") by (cbn; tauto). cbn [andb].
    apply (user_enum rd wr ds OK L LD n c es t IN).
  Qed.
  Lemma enumerator_clear x z y : In (x, z) vs -> c = false -> In y ["e"; "s"; "rv"; "s_from_e"; "s_to_e"; "std"; n_tostr n; n_strto n] ->
    String.eqb x y = false.
  Proof.
    intros I C Y. destruct (enum_parts rd wr ds OK c n es t IN) as (_ & _ & N). specialize (N C).
    assert (In x (map en_name es)) as J by (rewrite <- (enum_values_names L 0 es); apply (in_map fst) in I; exact I).
    apply in_map_iff in J as (q & <- & J). specialize (N q J). unfold enumerator_ok in N.
    apply negb_true_iff, mem_not in N. apply eqb_neq. congruence.
  Qed.

  Lemma from_body z tr w : exists s1, s_world s1 = w /\
    exec_list L call "stfx" mf wf (fd_body (s_from_e_fun e)) (St [[("e", VEnum n z)]] tr [] w) =
    Ok (CRet (VStr (enum_text vs z))) s1.
  Proof.
    destruct tostr_ne as [T1 T2].
    set (s0 := St [[("e", VEnum n z)]] tr [] w).
    set (sd := St [[(n_tostr n, VUndef (TOther "map")); ("e", VEnum n z)]] tr [] w).
    assert (CL : clear_of sd).
    { intros x y I C. cbn. rewrite (enumerator_clear x y (n_tostr n) I C) by (cbn; tauto).
      rewrite (enumerator_clear x y "e" I C) by (cbn; tauto). auto. }
    destruct (from_map n vs [] ltac:(intros ? ? [])) as [M1 M2]. cbn [map_find] in M2.
    set (m := fold_left map_insert (from_pairs n vs) []) in *.
    set (sm := St [[(n_tostr n, VMap (map std_pair m)); ("e", VEnum n z)]] tr [] w).
    assert (D : exec L call "stfx" mf wf (s_map e [n] ["std"; "string"] (n_tostr n)
        (fun l => EList [e_enumerator e (el_name l); EStr (el_name l)])) s0 = Ok CNext sm).
    { unfold s_map. cbn [exec]. unfold exec_decl. cbn [ct_args ct_name names_eqb]. 
      change (String.eqb "std" "std") with true. change (String.eqb "map" "map") with true. cbn [andb].
      rewrite type_named; [|unfold is_local, s0; cbn [s_scopes lookup assoc]; now rewrite (tf_reserved _ _ _ FINE "e") by (cbn; tauto)|reflexivity].
      change (named_type L mf ["std"; "string"] s0) with (Some TStd). cbn iota.
      unfold declare. cbn [s0 s_scopes]. cbn [assoc]. rewrite T1. change (set_scopes s0 _) with sd.
      rewrite run_from by exact CL. fold m. rewrite (from_types L n m M1). cbn [lift].
      unfold put_lv, get_root. cbn [lv_this lv_root sd s_scopes lookup assoc]. rewrite String.eqb_refl. cbn [put_path lv_path].
      cbn [update assoc]. rewrite String.eqb_refl. cbn [set_assoc]. rewrite String.eqb_refl. reflexivity. }
    assert (F : map_find (VEnum n z) (map std_pair m) = option_map VStr (name_of vs z)).
    { rewrite from_std by exact M1. rewrite M2. destruct (name_of vs z); reflexivity. }
    cbn [s_from_e_fun fd_body]. change (e_name e) with n. unfold exec_list. rewrite run_list_cons, D. rewrite run_list_cons.
    set (rv := VStr (enum_text vs z)).
    assert (V : ev L call "stfx" mf (ECond (e_found (n_tostr n) "e") (EIdx (EId [n_tostr n]) (EId ["e"]))
       (ECall (EId ["std"; "to_string"]) [ECast [""; "int"] (EId ["e"])])) sm = Ok rv sm).
    { assert (LM : lookup (n_tostr n) (s_scopes sm) = Some (VMap (map std_pair m))).
      { cbn. now rewrite String.eqb_refl. }
      assert (LE : lookup "e" (s_scopes sm) = Some (VEnum n z)) by (cbn [sm s_scopes lookup assoc]; rewrite T2; reflexivity).
      assert (NT : named_type L mf [""; "int"] sm = Some (TNum KInt)) by reflexivity.
      unfold e_found, e_dot. clearbody sm.
      unfold rv, enum_text. destruct (name_of vs z) as [x|] eqn:N; cbn [option_map] in F.
      - repeat (progress (crunch; rewrite ?LM, ?LE, ?F)). reflexivity.
      - repeat (progress (crunch; rewrite ?LM, ?LE, ?F, ?NT)). reflexivity. }
    cbn [exec]. unfold exec_decl. cbn [ct_args t_str ct_ref ct_name names_eqb].
    change (named_type L mf ["std"; "string"] sm) with (Some TStd).
    change (String.eqb "std" "") with false. cbn [andb]. cbn iota.
    rewrite V. unfold rv. cbn [conv lift]. unfold declare_as, declare. cbn [sm s_scopes assoc].
    change (String.eqb "rv" "e") with false.
    assert (R1 : String.eqb "rv" (n_tostr n) = false).
    { apply eqb_neq. unfold n_tostr. intros E. apply (f_equal String.length) in E. clear -E.
      assert (G : forall a b, String.length (a ++ b)%string = (String.length a + String.length b)%nat).
      { induction a; cbn; intros; [reflexivity|]. now rewrite IHa. }
      rewrite G in E. cbn in E. lia. }
    rewrite R1. rewrite run_list_cons. eexists. split; [|cbn; reflexivity]. reflexivity.
  Qed.
  Lemma app_len a b : String.length (a ++ b)%string = (String.length a + String.length b)%nat.
  Proof. induction a; cbn; intros; [reflexivity|]. now rewrite IHa. Qed.
  Lemma n_ne_strto : String.eqb n (n_strto n) = false.
  Proof. apply eqb_neq. unfold n_strto. intros E. apply (f_equal String.length) in E. rewrite app_len in E. cbn in E. lia. Qed.

  Definition to_result (old : val) (x : string) (r : res ctl) (w : world) : Prop :=
    match read_enum L n vs x with
    | ERead z f => exists s1, r = Ok (CRet (vbool f)) s1 /\ s_world s1 = w /\ lookup "e" (s_scopes s1) = Some (VEnum n z)
    | EKeep => exists s1, r = Ok (CRet (vbool false)) s1 /\ s_world s1 = w /\ lookup "e" (s_scopes s1) = Some old
    | EUB => r = UB
    end.
  Local Ltac lk := repeat match goal with v := _ |- _ => progress unfold v end;
    cbn [s_scopes set_scopes lookup assoc update set_assoc lv_this lv_root lv_path put_path get_path s_tree s_this s_world].
  Lemma to_body x old tr w : ty_of old = TEnum n ->
    to_result old x (exec_list L call "stfx" mf wf (fd_body (s_to_e_fun e)) (St [[("s", VStr x); ("e", old)]] tr [] w)) w.
  Proof.
    intros TY.
    assert (ST : forall y, In y ["s"; "e"; "i"; "rv"] -> String.eqb (n_strto n) y = false /\ String.eqb y (n_strto n) = false).
    { intros y Y. apply strto_ne. cbn in Y. destruct Y as [<-|[<-|[<-|[<-|[]]]]]; cbn; lia. }
    pose proof (ST "s" ltac:(cbn; tauto)) as [S1 S2]. pose proof (ST "e" ltac:(cbn; tauto)) as [E1 E2].
    pose proof (ST "i" ltac:(cbn; tauto)) as [I1 I2]. pose proof (ST "rv" ltac:(cbn; tauto)) as [R1 R2]. clear ST.
    pose proof n_ne_strto as NN.
    assert (FR : forall y, In y reserved -> String.eqb n y = false) by apply (tf_reserved _ _ _ FINE).
    set (s0 := St [[("s", VStr x); ("e", old)]] tr [] w).
    set (m := map std_pair (to_pairs n vs)).
    set (fr := fun rv old => [(n_strto n, VMap m); ("rv", rv); ("s", VStr x); ("e", old)]).
    set (sa := St [[("rv", vbool false); ("s", VStr x); ("e", old)]] tr [] w).
    set (sd := St [[(n_strto n, VUndef (TOther "map")); ("rv", vbool false); ("s", VStr x); ("e", old)]] tr [] w).
    set (sm := St [fr (vbool false) old] tr [] w).
    assert (A : exec L call "stfx" mf wf (SDecl t_bool "rv" (Some (EList [EBool false]))) s0 = Ok CNext sa) by reflexivity.
    assert (CL : clear_of sd).
    { intros y q I C. cbn.
      rewrite !(enumerator_clear y q _ I C) by (cbn; tauto). auto. }
    assert (D : exec L call "stfx" mf wf (s_map e ["std"; "string"] [n] (n_strto n)
        (fun l => EList [EStr (el_name l); e_enumerator e (el_name l)])) sa = Ok CNext sm).
    { unfold s_map. cbn [exec]. unfold exec_decl. cbn [ct_args ct_name names_eqb].
      change (String.eqb "std" "std") with true. change (String.eqb "map" "map") with true. cbn [andb].
      change (named_type L mf ["std"; "string"] sa) with (Some TStd). cbn iota.
      rewrite type_named; [|unfold is_local, sa; cbn [s_scopes lookup assoc]; now rewrite !FR by (cbn; tauto)|reflexivity].
      unfold declare. cbn [sa s_scopes]. cbn [assoc]. rewrite S1, E1, R1. change (set_scopes sa _) with sd.
      rewrite run_to by exact CL. rewrite to_map. cbn [app]. rewrite to_types. cbn [lift].
      unfold put_lv, get_root. cbn [lv_this lv_root sd s_scopes lookup assoc]. rewrite String.eqb_refl. cbn [put_path lv_path].
      cbn [update assoc]. rewrite String.eqb_refl. cbn [set_assoc]. rewrite String.eqb_refl. reflexivity. }
    assert (F : map_find (VStr x) m = option_map (VEnum n) (assoc x vs)) by apply to_std.
    cbn [s_to_e_fun fd_body]. change (e_name e) with n. unfold exec_list. rewrite run_list_cons, A, run_list_cons, D, run_list_cons.
    assert (C : ev L call "stfx" mf (e_found (n_strto n) "s") sm =
      Ok (vbool (match assoc x vs with Some _ => true | None => false end)) sm).
    { assert (LM : lookup (n_strto n) (s_scopes sm) = Some (VMap m)) by (lk; now rewrite String.eqb_refl).
      assert (LE : lookup "s" (s_scopes sm) = Some (VStr x)) by (cbn [sm s_scopes fr lookup assoc]; rewrite S2; reflexivity).
      unfold e_found, e_dot. clearbody sm. destruct (assoc x vs); cbn [option_map] in F;
        repeat (progress (crunch; rewrite ?LM, ?LE, ?F)); reflexivity. }
    cbn [exec]. fold exec. rewrite C. unfold to_result, read_enum.
    destruct (assoc x vs) as [z|] eqn:AX; cbn [option_map] in F.
    - exists (St [fr (vbool true) (VEnum n z)] tr [] w). split; [|split; [reflexivity|cbn [s_scopes fr lookup assoc]; rewrite E2; reflexivity]].
      set (sp := set_scopes sm ([] :: s_scopes sm)).
      assert (G : run_list (exec L call "stfx" mf wf)
          [s_set (EId ["e"]) (EIdx (EId [n_strto n]) (EId ["s"])); s_set (EId ["rv"]) (EBool true)] sp =
          Ok CNext (St [[]; fr (vbool true) (VEnum n z)] tr [] w)).
      { assert (LM : lookup (n_strto n) (s_scopes sp) = Some (VMap m)) by (lk; now rewrite String.eqb_refl).
        assert (LS : lookup "s" (s_scopes sp) = Some (VStr x)) by (lk; rewrite S2; reflexivity).
        assert (X : ev L call "stfx" mf (EIdx (EId [n_strto n]) (EId ["s"])) sp = Ok (VEnum n z) sp).
        { clearbody sp. repeat (progress (crunch; rewrite ?LM, ?LS, ?F)). reflexivity. }
        assert (LV1 : lvalue (EId ["e"]) sp = Some (LV false "e" [])) by (unfold lvalue, is_local; lk; now rewrite E2).
        assert (GT : get_lv (LV false "e" []) sp = Some old) by (unfold get_lv, get_root; lk; now rewrite E2).
        assert (PT : put_lv (LV false "e" []) (VEnum n z) sp = Some (St [[]; fr (vbool false) (VEnum n z)] tr [] w)).
        { unfold put_lv, get_root. lk. now rewrite E2. }
        rewrite run_list_cons. unfold s_set at 1. cbn [exec]. cbn [ev]. fold ev. cbn [ev] in X. rewrite X, LV1. unfold assign. rewrite GT, TY.
        cbn [conv]. rewrite String.eqb_refl. cbn [lift]. unfold store. rewrite PT.
        set (sq := St [[]; fr (vbool false) (VEnum n z)] tr [] w).
        assert (LV2 : lvalue (EId ["rv"]) sq = Some (LV false "rv" [])) by (unfold lvalue, is_local; lk; now rewrite R2).
        assert (GT2 : get_lv (LV false "rv" []) sq = Some (vbool false)) by (unfold get_lv, get_root; lk; now rewrite R2).
        assert (PT2 : put_lv (LV false "rv" []) (vbool true) sq = Some (St [[]; fr (vbool true) (VEnum n z)] tr [] w)).
        { unfold put_lv, get_root. lk. now rewrite R2. }
        rewrite run_list_cons. unfold s_set at 1. cbn [exec]. cbn [ev]. rewrite LV2. unfold assign. rewrite GT2. cbn [ty_of vbool conv to_kind Z.eqb lift].
        unfold store. change (VNum KBool 1) with (vbool true). rewrite PT2. reflexivity. }
      cbn [vbool truth Z.eqb negb lift]. unfold scoped. fold sp. rewrite G.
      rewrite run_list_cons. cbn [exec]. cbn [ev].
      change (leave (length (s_scopes sm)) _) with (St [fr (vbool true) (VEnum n z)] tr [] w).
      cbn [s_ret exec ev]. cbn [s_scopes lookup fr assoc]. rewrite R2. reflexivity.
    - cbn [vbool truth Z.eqb negb lift].
      assert (RET : forall r s', run_list (exec L call "stfx" mf wf) [s_ret] (St [fr (vbool false) s'] tr [] w) = r ->
         r = Ok (CRet (vbool false)) (St [fr (vbool false) s'] tr [] w)).
      { intros r s' <-. rewrite run_list_cons. cbn [s_ret exec ev]. cbn [s_scopes lookup fr assoc]. rewrite R2. reflexivity. }
      set (sp := set_scopes sm ([] :: s_scopes sm)). set (sq := set_scopes sp ([] :: s_scopes sp)).
      assert (LS : lookup "s" (s_scopes sq) = Some (VStr x)) by (lk; rewrite S2; reflexivity).
      set (tb := [SDecl (CT [""; "int"] [] RVal) "i" (Some (ECall (EId ["std"; "stoi"]) [EId ["s"]]));
                  s_set (EId ["e"]) (ECall (EId [n]) [EId ["i"]])]).
      assert (SC : ev L call "stfx" mf (ECall (EId ["std"; "stoi"]) [EId ["s"]]) sq = lift (sto_num L KInt x) sq).
      { clearbody sq. repeat (progress (crunch; rewrite ?LS)). destruct (lvalue _ sq); reflexivity. }
      assert (Q : match scan_dec x with
                  | Some z => if in_int z then sto_num L KInt x = Yes (VNum KInt z) else sto_num L KInt x = MExc
                  | None => sto_num L KInt x = MExc end).
      { unfold sto_num. cbn [signed bits]. destruct (scan_dec x) as [z|]; [|reflexivity]. unfold in_int.
        change (32 - 1)%Z with 31%Z. destruct ((- 2 ^ 31 <=? z) && (z <? 2 ^ 31))%Z; reflexivity. }
      assert (EX : sto_num L KInt x = MExc -> exists s1,
        (do (k, s) <- scoped sm (run_list (exec L call "stfx" mf wf) [STry tb []]);
         match k with CNext => run_list (exec L call "stfx" mf wf) [s_ret] s | _ => Ok k s end) = Ok (CRet (vbool false)) s1 /\
        s_world s1 = w /\ lookup "e" (s_scopes s1) = Some old).
      { intros ME. exists sm. split; [|split; [reflexivity|lk; now rewrite E2]].
        unfold scoped at 1. fold sp. rewrite run_list_cons. cbn [exec]. fold exec. unfold scoped at 1. fold sq. unfold tb.
        rewrite run_list_cons. cbn [exec]. fold exec. unfold exec_decl. cbn [ct_args ct_ref ct_name names_eqb String.eqb Ascii.eqb Bool.eqb andb].
        change (named_type L mf [""; "int"] sq) with (Some (TNum KInt)). cbn iota. rewrite SC, ME. cbn [lift].
        apply RET. reflexivity. }
      destruct (scan_dec x) as [z|]; [|now apply EX]. destruct (in_int z) eqn:II; [|now apply EX]. clear EX.
      assert (SH : exec L call "stfx" mf wf (SDecl (CT [""; "int"] [] RVal) "i" (Some (ECall (EId ["std"; "stoi"]) [EId ["s"]]))) sq =
        Ok CNext (St [[("i", VNum KInt z)]; []; fr (vbool false) old] tr [] w)).
      { cbn [exec]. unfold exec_decl. cbn [ct_args ct_ref ct_name names_eqb String.eqb Ascii.eqb Bool.eqb andb].
        change (named_type L mf [""; "int"] sq) with (Some (TNum KInt)). cbn iota. rewrite SC, Q. cbn [lift].
        cbn [conv]. assert (to_kind L KInt z = z) as ->.
        { cbn [to_kind bits signed]. apply wrap_signed; [lia|]. unfold in_int in II. lia. }
        reflexivity. }
      set (si := St [[("i", VNum KInt z)]; []; fr (vbool false) old] tr [] w) in *.
      assert (CA : ev L call "stfx" mf (ECall (EId [n]) [EId ["i"]]) si = lift (enum_cast L n (VNum KInt z)) si).
      { assert (LO : is_local n si = false).
        { unfold is_local, si. cbn [s_scopes lookup assoc fr]. rewrite NN. now rewrite !FR by (cbn; tauto). }
        cbn [ev run_args]. change (lookup "i" (s_scopes si)) with (Some (VNum KInt z)). cbn iota. cbn [fun_call].
        rewrite LO, MF. rewrite (user_enum rd wr ds OK L LD n c es t IN). reflexivity. }
      unfold enum_cast in CA.
      destruct (enum_holds L n z) eqn:EH;
        [exists (St [fr (vbool false) (VEnum n z)] tr [] w); split; [|split; [reflexivity|lk; now rewrite E2]]|];
        (unfold scoped at 1; fold sp; rewrite run_list_cons; cbn [exec]; fold exec; unfold scoped at 1; fold sq; unfold tb;
         rewrite run_list_cons, SH, run_list_cons; unfold s_set; cbn [exec]; cbn [ev]; fold ev; cbn [ev] in CA; rewrite CA; clear CA);
        [|reflexivity].
      cbn [lift].
      assert (LV1 : lvalue (EId ["e"]) si = Some (LV false "e" [])) by (unfold lvalue, is_local; lk; now rewrite E2).
      assert (GT : get_lv (LV false "e" []) si = Some old) by (unfold get_lv, get_root; lk; now rewrite E2).
      assert (PT : put_lv (LV false "e" []) (VEnum n z) si = Some (St [[("i", VNum KInt z)]; []; fr (vbool false) (VEnum n z)] tr [] w)).
      { unfold put_lv, get_root. lk. now rewrite E2. }
      rewrite LV1. unfold assign. rewrite GT, TY. cbn [conv]. rewrite String.eqb_refl. cbn [lift]. unfold store. rewrite PT.
      apply RET. reflexivity.
  Qed.
End Eval.
