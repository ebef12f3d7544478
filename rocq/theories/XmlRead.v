(** The generated xml readers compute [read_struct]. *)
From Coq Require Import String Ascii ZArith NArith Arith List Bool Lia.
From Verif Require Import Base Map Items Grammar Fmt Decimal Templates Emit Cpp Xml Val CppSem SymLex Ast StoreDefs ResolveProps Prog Header EnumSem DecText EnumCall XmlSpec XmlRdSimple.
Import ListNotations.
Local Open Scope string_scope.
Local Open Scope list_scope.

Lemma assoc_set_same {A} n (v : A) l : assoc n (set_assoc n v l) = Some v.
Proof.
  induction l as [|[k w] l IH]; cbn; [now rewrite String.eqb_refl|]. destruct (String.eqb n k) eqn:E; cbn; rewrite E; [reflexivity|exact IH].
Qed.
Lemma assoc_set_other {A} m n (v : A) l : String.eqb m n = false -> assoc m (set_assoc n v l) = assoc m l.
Proof.
  intros N. induction l as [|[k w] l IH]; cbn; [now rewrite N|]. destruct (String.eqb_spec n k) as [->|]; cbn; [now rewrite N|].
  destruct (String.eqb m k); auto.
Qed.
Lemma set_assoc_twice {A} n (v w : A) l : set_assoc n w (set_assoc n v l) = set_assoc n w l.
Proof.
  induction l as [|[k u] l IH]; cbn; [now rewrite String.eqb_refl|]. destruct (String.eqb n k) eqn:E; cbn; rewrite E; [reflexivity|now rewrite IH].
Qed.

(** Names that are no variables of a reader function. *)
Definition no_local (u : string) : Prop :=
  forall x, In x ["rv"; "el"; "data"; "*data"; "ch_el"; "item"; "s"; "size_t"; "read_item_S"; "m_delta_only"] -> String.eqb u x = false.

Section C.
  Variables (L : lang) (call : list string -> list arg -> st -> res val) (cls : string) (mf : string -> bool) (wf : nat) (b : form).
  Notation ex := (run_list (exec L call cls mf wf)).
  Hypothesis EN : enumerator L "tinyxml2" "XML_SUCCESS" = None.

  (** What a call of the reader function for an element [y] does. *)
  Definition rd_ok (y : node) : Prop := forall u fs p lv lv' l s,
    reader_or_writer (s_this s) -> at_path (s_tree s) p = Some y -> get_lv l s = Some (VStruct u fs) -> fits L (VStruct u fs) (TStruct u) = true ->
    call [cls; pre_do u] [(lv, VEl (Some p)); (lv', VPtr (Some l))] s =
    match read_struct L b y u fs with
    | Some fs' => match put_lv l (VStruct u fs') s with Some s' => Ok (vbool true) s' | None => Bad end
    | None => UB
    end.
  Hypothesis EC : forall u c es, find_enum (l_defs L) u = Some (c, es) -> forall lv v x l old s, text_arg v x -> get_lv l s = Some old -> ty_of old = TEnum u ->
    to_call L u es l x s (call ["stfx"; "s_to_e"] [(lv, v); (Some l, old)] s).
  Hypothesis MF : forall u, find_struct (l_defs L) u <> None -> mf (pre_do u) = true.

  Notation sub x := (map (fun k => (k, reading_of L b k)) (kids_of x)).

  Ltac sem0 := cbn [exec ev run_list run_args exec_list scoped leave length Nat.sub skipn
  e_meth e_data e_id s_set e_cstr e_dot
  lvalue is_local is_member get_lv get_root put_lv get_path put_path get_acc put_acc lv_this lv_root lv_path app
  lookup update assoc set_assoc String.eqb Ascii.eqb Bool.eqb eqb andb orb negb frame base rst this_of
  s_scopes s_tree s_this s_world set_scopes set_tree set_this set_world declare declare_as store
  method el_method at_path fst snd ty_of query_type put_query put_query_as query attrs_of kids_of
  named_type exec_decl ct_args ct_ref ct_name names_eqb pointer_type option_map
  lift conv binary veq vbool truth Z.eqb nkind_eqb fkind_eqb].
  Ltac walk_with tac := repeat (first [progress tac | rewrite EN
    | match goal with H : cut ?n = ?n |- context [cut ?n] => rewrite H
      | H : attr ?n ?a = _ |- context [attr ?n ?a] => rewrite H
      | H : first_child ?n ?a = _ |- context [first_child ?n ?a] => rewrite H
      | H : nth_error ?n ?a = _ |- context [nth_error ?n ?a] => rewrite H
      | H : get_text ?n = _ |- context [get_text ?n] => rewrite H
      | H : mf ?n = _ |- context [mf ?n] => rewrite H
      | H : user_type L ?n = _ |- context [user_type L ?n] => rewrite H
      | H : init _ _ _ ?n = _ |- context [init _ _ _ ?n] => rewrite H
      | H : ty_of ?n = _ |- context [ty_of ?n] => rewrite H
      | H : no_local ?n |- context [is_local ?n ?s] =>
          let X := fresh in
          assert (X : is_local n s = false) by
            (unfold is_local; cbn [rst frame base this_of set_scopes s_scopes lookup assoc]; repeat rewrite H by (cbn; tauto); reflexivity);
          rewrite X; clear X
      | H : no_local ?n |- context [String.eqb ?n "size_t"] => rewrite (H "size_t") by (cbn; tauto)
      | H : no_local ?n |- context [String.eqb ?n "read_item_S"] => rewrite (H "read_item_S") by (cbn; tauto)
      | H : no_local ?n |- context [is_member ?n ?s] =>
          let X := fresh in
          assert (X : is_member n s = false) by
            (unfold is_member; cbn [rst frame base this_of set_scopes s_this assoc]; repeat rewrite H by (cbn; tauto); reflexivity);
          rewrite X; clear X
      | H : assoc ?n ?fs = _ |- context [assoc ?n ?fs] => rewrite H end
    | rewrite andb_false_r | rewrite String.eqb_refl
    | progress unfold xa_query, put_query, fun_call, scoped, declare_as, sc_type, sc_name, sc_tname, assign, store, pre_do, String.append]).
  Ltac walk := walk_with sem.
  Ltac walk0 := walk_with sem0.
  Ltac enum_call q FE AS TY SA c TC :=
    match goal with |- context [call ["stfx"; "s_to_e"] ?args ?s] => match args with [(?lv, ?v); (Some ?l, ?old)] =>
      let H := fresh in
      assert (H : get_lv l s = Some old) by (sem; rewrite AS; reflexivity);
      pose proof (EC _ _ _ FE lv v q l old s (or_intror eq_refl) H TY : to_call L _ _ l q s (call ["stfx"; "s_to_e"] args s)) as EX; clear H; unfold to_call in EX;
      destruct (read_enum L _ _ q);
      [match type of EX with forall s', put_lv ?l ?v ?s = Some s' -> _ =>
         eassert (PE : put_lv l v s = Some _) by (sem; rewrite AS; reflexivity); specialize (EX _ PE) end | |];
      rewrite EX; unfold after, rst, leave; sem; rewrite ?SA; try (exists c; split; [exact TC|]); reflexivity
    end end.

  Ltac rd_call RD FI v AS :=
    match goal with |- context [call ?q ?args ?s] => match args with [(?lv, VEl (Some ?p)); (?lv', VPtr (Some ?l))] =>
      let G := fresh in let A := fresh in
      assert (G : get_lv l s = Some v) by (sem; rewrite ?AS; reflexivity);
      eassert (A : at_path (s_tree s) p = Some _) by (sem; repeat (match goal with H : nth_error ?n ?a = _ |- context [nth_error ?n ?a] => rewrite H end; sem); reflexivity);
      let O := fresh in
      assert (O : reader_or_writer (s_this s)) by first [exact (ex_intro _ None eq_refl) | exact (ex_intro _ (Some _) eq_refl)];
      pose proof (RD _ _ p lv lv' l s O A G FI) as RC; clear O;
      match type of RC with call ?q' ?args' ?s = _ => change (call q' args' s) with (call q args s) in RC end;
      clear G A;
      match type of RC with context [read_struct L b ?y ?u ?f] => destruct (read_struct L b y u f) as [fs'|] eqn:RS end;
      [match type of RC with context [put_lv ?l ?v ?s] =>
        let P := fresh in eassert (P : put_lv l v s = Some _) by (sem; rewrite ?AS; reflexivity); rewrite P in RC; clear P end|]; rewrite RC
    end end.

  Lemma enum_ok_a k o c t fs x w u n ce es old : k <> FM -> b = Attributes -> ty_of c = TEl -> assoc n fs = Some old -> cut n = n -> ty_of old = TEnum u ->
    find_enum (l_defs L) u = Some (ce, es) ->
    after k o t fs x w n (read_enum_item L u (find_item b n (attrs_of x) (sub x)) old)
      (ex (xa_rd_complex (Complex enum_E u n)) (rst k o c t fs x w)).
  Proof.
    intros K -> TC AS CU TY FE. pose proof (set_assoc_same _ _ _ AS) as SA. unfold find_item, read_enum_item.
    destruct (attr n (attrs_of x)) as [q|] eqn:AT.
    - rewrite FE. destruct o as [dv|]; destruct k; try congruence; unfold xa_rd_complex, xa_query; walk; enum_call q FE AS TY SA c TC.
    - destruct o as [dv|]; destruct k; try congruence; unfold xa_rd_complex, xa_query; walk; unfold after, rst, leave; sem; rewrite ?SA; exists c; split; auto.
  Qed.
  Lemma enum_ok_m o c t fs x w u n ce es old : b = Elements -> ty_of c = TEl -> assoc n fs = Some old -> cut n = n -> ty_of old = TEnum u ->
    find_enum (l_defs L) u = Some (ce, es) -> user_type L "find_element" = None -> mf "find_element" = false ->
    after FM o t fs x w n (read_enum_item L u (find_item b n (attrs_of x) (sub x)) old)
      (ex (xm_rd_complex (Complex enum_E u n)) (rst FM o c t fs x w)).
  Proof.
    intros -> TC AS CU TY FE UT NF. pose proof (set_assoc_same _ _ _ AS) as SA. unfold find_item, read_enum_item.
    pose proof (first_child_named (reading_of L Elements) n (kids_of x)) as FC. destruct (first_child n (kids_of x)) as [i|] eqn:F.
    2:{ rewrite FC. destruct o as [dv|]; unfold xm_rd_complex, s_find, if_child; walk; unfold after, rst, leave; sem; rewrite ?SA; eexists; (split; [|reflexivity]); reflexivity. }
    destruct FC as (a & k & NE & ->). destruct (get_text (Elem n a k)) as [q|] eqn:AT.
    - rewrite FE. destruct o as [dv|]; unfold xm_rd_complex, s_find, if_child, xm_str; walk; enum_call q FE AS TY SA (VEl (Some [i])) (eq_refl TEl).
    - destruct o as [dv|]; unfold xm_rd_complex, s_find, if_child, xm_str; walk; unfold after, rst, leave; sem; rewrite ?SA; eexists; (split; [|reflexivity]); reflexivity.
  Qed.

  (** Members of struct types; both back ends *)
  Lemma struct_ok k o c t fs x w u n fs0 : k <> F0 -> ty_of c = TEl -> assoc n fs = Some (VStruct u fs0) -> cut n = n ->
    fits L (VStruct u fs0) (TStruct u) = true -> (forall y, In y (kids_of x) -> rd_ok y) ->
    after k o t fs x w n
      (match first_named n (sub x) with None => Some (VStruct u fs0) | Some (_, r) => option_map (VStruct u) (as_struct r u fs0) end)
      (ex (xm_rd_complex (Complex struct_E u n)) (rst k o c t fs x w)).
  Proof.
    intros K TC AS CU FI RD. pose proof (set_assoc_same _ _ _ AS) as SA.
    assert (M : mf (pre_do u) = true).
    { apply MF. cbn in FI. destruct (find_struct (l_defs L) u); [congruence|]. rewrite andb_false_r in FI. discriminate. }
    pose proof (first_child_named (reading_of L b) n (kids_of x)) as FC. destruct (first_child n (kids_of x)) as [i|] eqn:F.
    2:{ rewrite FC. destruct o as [dv|]; destruct k; try congruence; unfold xm_rd_complex, s_child, if_child; walk;
        unfold after, rst, leave; sem; rewrite ?SA; eexists; (split; [|reflexivity]); reflexivity. }
    destruct FC as (a & ks & NE & ->). specialize (RD _ (nth_error_In _ _ NE)).
    cbn [pre_do String.append] in M.
    destruct o as [dv|]; destruct k; try congruence; unfold xm_rd_complex, s_child, if_child; walk;
    rd_call RD FI (VStruct u fs0) AS; unfold read_struct in RS; rewrite RS; unfold after, rst, leave; sem;
    try (eexists; (split; [|reflexivity])); reflexivity.
  Qed.

  (** Vectors of structs *)
  Definition item_body (n u : string) : list stmt :=
    [SDecl (CT [u] [] RVal) "s" None;
     SIf (EBin b_eq (ECall (EId [pre_do u]) [EId ["item"]; EAddr (EId ["s"])]) (EBool true))
       [SExpr (ECall (EMem false (e_data n) "push_back") [EId ["s"]])] []].
  Definition ist k o i t fs x w : st := St [[]; frame k (VEl (Some [i])) t fs] x (this_of o) w.
  Lemma items_ok k o t x w u n d i m a ks : k <> F0 -> cut n = n -> no_local u -> mf u = false -> user_type L u = Some (TStruct u) ->
    init L (init_fuel L) false (TStruct u) = Some (VStruct u d) -> fits L (VStruct u d) (TStruct u) = true ->
    nth_error (kids_of x) i = Some (Elem m a ks) -> (forall y, In y ks -> rd_ok y) -> forall ks' pre fs l, ks = pre ++ ks' -> assoc n fs = Some (VVec u l) ->
    run_for (ex (item_body n u)) "item" (map (fun j => VEl (Some ([i] ++ [j]))) (child_elems (length pre) ks')) (ist k o i t fs x w) =
    match read_items L u (map (fun k => (k, reading_of L b k)) ks') with
    | Some l' => Ok CNext (ist k o i t (set_assoc n (VVec u (l ++ l')) fs) x w)
    | None => UB
    end.
  Proof.
    intros K CU NL NM UT IN FI NE RD.
    assert (DF : default_fields L u = Some d) by (unfold default_fields; now rewrite IN).
    assert (M : mf (pre_do u) = true).
    { apply MF. cbn in FI. destruct (find_struct (l_defs L) u); [congruence|]. rewrite andb_false_r in FI. discriminate. }
    cbn [pre_do String.append] in M.
    induction ks' as [|y ks' IH]; intros pre fs l E AS.
    - cbn. rewrite app_nil_r, set_assoc_same; auto.
    - destruct y as [my ya yk|ty].
      2:{ cbn [child_elems map read_items]. replace (S (length pre)) with (length (pre ++ [Text ty])) by (rewrite app_length; cbn; lia).
          apply IH; [|exact AS]. rewrite <- app_assoc. exact E. }
      cbn [child_elems map read_items]. rewrite DF.
      assert (NY : nth_error ks (length pre) = Some (Elem my ya yk)) by (rewrite E, nth_error_app2, Nat.sub_diag by lia; reflexivity).
      specialize (RD (Elem my ya yk) (nth_error_In _ _ NY)). cbn [run_for].
      assert (STEP : (do (k0, s1) <- scoped (ist k o i t fs x w) (fun s => need s' <- declare "item" (VEl (Some ([i] ++ [length pre]))) s; ex (item_body n u) s');
                Ok k0 s1) = match read_struct L b (Elem my ya yk) u d with
                   | Some fs' => Ok CNext (ist k o i t (set_assoc n (VVec u (l ++ [VStruct u fs'])) fs) x w)
                   | None => UB end).
      { destruct o as [dv|]; destruct k; try congruence; unfold item_body, ist; walk0.
        all: rd_call RD FI (VStruct u d) AS; [walk0; unfold leave, rst; walk0|]; reflexivity. }
      change (as_struct (reading_of L b (Elem my ya yk)) u d) with (read_struct L b (Elem my ya yk) u d).
      match type of STEP with (do (k0, s1) <- ?a; Ok k0 s1) = _ => assert (ST : a = match read_struct L b (Elem my ya yk) u d with
                   | Some fs' => Ok CNext (ist k o i t (set_assoc n (VVec u (l ++ [VStruct u fs'])) fs) x w)
                   | None => UB end) by (rewrite <- STEP; destruct a; reflexivity) end.
      rewrite ST. destruct (read_struct L b (Elem my ya yk) u d) as [fs'|]; [|reflexivity].
      specialize (IH (pre ++ [Elem my ya yk]) (set_assoc n (VVec u (l ++ [VStruct u fs'])) fs) (l ++ [VStruct u fs'])).
      rewrite app_length in IH. cbn [length] in IH. rewrite Nat.add_1_r in IH. rewrite IH; [|rewrite <- app_assoc; exact E|apply assoc_set_same].
      destruct (read_items L u (map (fun k => (k, reading_of L b k)) ks')) as [l'|]; [|reflexivity].
      now rewrite set_assoc_twice, <- app_assoc.
  Qed.

  Lemma rd_item_ok k o t x w u n d i m a ks fs l : k <> F0 -> cut n = n -> no_local u -> mf u = false -> user_type L u = Some (TStruct u) ->
    init L (init_fuel L) false (TStruct u) = Some (VStruct u d) -> fits L (VStruct u d) (TStruct u) = true ->
    nth_error (kids_of x) i = Some (Elem m a ks) -> (forall y, In y ks -> rd_ok y) -> assoc n fs = Some (VVec u l) ->
    exec L call cls mf wf (rd_item n u) (ist k o i t fs x w) =
    match read_items L u (map (fun k => (k, reading_of L b k)) ks) with
    | Some l' => Ok CNext (ist k o i t (set_assoc n (VVec u (l ++ l')) fs) x w)
    | None => UB
    end.
  Proof.
    intros K CU NL NM UT IN FI NE RD AS.
    pose proof (items_ok k o t x w u n d i m a ks K CU NL NM UT IN FI NE RD ks [] fs l eq_refl AS) as IT.
    change (exec L call cls mf wf (rd_item n u) (ist k o i t fs x w)) with
      (do (v, s) <- ev L call cls mf (EId ["ch_el"]) (ist k o i t fs x w);
       match v with
       | VUndef _ | VEl None => UB
       | _ => need vs <- range L mf (CT [""; "auto"] [] RVal) v s; run_for (ex (item_body n u)) "item" vs s
       end).
    assert (E : ev L call cls mf (EId ["ch_el"]) (ist k o i t fs x w) = Ok (VEl (Some [i])) (ist k o i t fs x w)) by (destruct k; try congruence; reflexivity).
    rewrite E. unfold range. cbn [ct_name names_eqb]. change (names_eqb [""; "auto"] [""; "auto"]) with true. cbn iota.
    change (s_tree (ist k o i t fs x w)) with x. cbn [at_path]. rewrite NE. exact IT.
  Qed.

  Lemma vector_ok k o c t fs x w u n d l : k <> F0 -> ty_of c = TEl -> assoc n fs = Some (VVec u l) -> cut n = n ->
    no_local u -> mf u = false -> user_type L u = Some (TStruct u) ->
    init L (init_fuel L) false (TStruct u) = Some (VStruct u d) -> fits L (VStruct u d) (TStruct u) = true ->
    (forall y z, In y (kids_of x) -> In z (kids_of y) -> rd_ok z) ->
    after k o t fs x w n
      (match first_named n (sub x) with None => Some (VVec u l) | Some (_, r) => option_map (fun l' => VVec u (l ++ l')) (as_items r u) end)
      (ex (xm_rd_complex (Complex vector_E u n)) (rst k o c t fs x w)).
  Proof.
    intros K TC AS CU NL NM UT IN FI RD. pose proof (set_assoc_same _ _ _ AS) as SA.
    pose proof (first_child_named (reading_of L b) n (kids_of x)) as FC. destruct (first_child n (kids_of x)) as [i|] eqn:F.
    2:{ rewrite FC. destruct o as [dv|]; destruct k; try congruence; unfold xm_rd_complex, s_child, if_child; walk;
        unfold after, rst, leave; sem; rewrite ?SA; eexists; (split; [|reflexivity]); reflexivity. }
    destruct FC as (a & ks & NE & ->).
    pose proof (rd_item_ok k o t x w u n d i n a ks fs l K CU NL NM UT IN FI NE (fun z => RD _ z (nth_error_In _ _ NE)) AS) as IT.
    cbn [as_items reading_of]. change (fix reading_of (x : node) : reading := _) with (reading_of L b).
    destruct o as [dv|]; destruct k; try congruence; unfold xm_rd_complex, s_child, if_child; walk;
    match goal with |- context [exec _ _ _ _ _ (rd_item ?n ?u) ?s] =>
      match type of IT with exec _ _ _ _ _ _ ?s' = _ => change s with s' end end;
    rewrite IT; (destruct (read_items L u _) as [l'|]; unfold after, ist, rst, leave; sem;
      [eexists; split; [|reflexivity]; reflexivity | reflexivity]).
  Qed.

  (** *** Any member *)
  Hypothesis LL : (0 < l_long L)%Z.
  Hypothesis UF : user_type L "find_element" = None.
  Hypothesis MFF : mf "find_element" = false.

  Definition struct_good (u : string) : Prop := user_type L u = Some (TStruct u) /\ no_local u /\ mf u = false /\
    exists d, init L (init_fuel L) false (TStruct u) = Some (VStruct u d) /\ fits L (VStruct u d) (TStruct u) = true.
  Definition member_good (m : member) : Prop :=
    cut (member_name m) = member_name m /\
    match m with
    | MSimple _ _ _ => True
    | MUser u _ _ => (exists c es, user_type L u = Some (TEnum u) /\ find_enum (l_defs L) u = Some (c, es) /\ kind_in (l_defs L) u = enum_E)
                     \/ (user_type L u = Some (TStruct u) /\ kind_in (l_defs L) u = struct_E)
    | MVector u _ => struct_good u
    end.
  Definition rd_simple (m : struct_simple) : list stmt := match b with Attributes => xa_rd_simple m | Elements => xm_rd_simple m end.
  Definition rd_complex (m : struct_complex) : list stmt := match b with Attributes => xa_rd_complex m | Elements => xm_rd_complex m end.
  Definition rd_stmts (m : member) : list stmt :=
    match m with
    | MSimple t n d => rd_simple (Simple t n (dflt_text d))
    | MUser u n _ => rd_complex (Complex (kind_in (l_defs L) u) u n)
    | MVector u n => rd_complex (Complex vector_E u n)
    end.
  Definition k_ok (k : fkd) (m : member) : Prop :=
    match b, k with
    | Elements, FM => True
    | Attributes, F0 => is_scalar L m = true
    | Attributes, FA => is_simple m = false
    | _, _ => False
    end.
  Definition member_fits (fs : list (string * val)) (m : member) : Prop :=
    exists old ty, assoc (member_name m) fs = Some old /\ member_type L m = Some ty /\ fits L old ty = true.

  Lemma ty_eqb_eq t u : ty_eqb t u = true -> t = u.
  Proof.
    destruct t, u; cbn; try discriminate; try (intros H; apply String.eqb_eq in H; now subst).
    - destruct k, k0; cbn; discriminate || reflexivity.
    - destruct k, k0; cbn; discriminate || reflexivity.
    - reflexivity.
  Qed.
  Lemma fits_ty v t : fits L v t = true -> ty_of v = t.
  Proof.
    destruct v; cbn [fits ty_of]; try discriminate; rewrite ?andb_true_iff; intros H; symmetry; apply ty_eqb_eq; tauto.
  Qed.

  Lemma member_step k o c t fs x w m old : ty_of c = TEl -> member_good m -> k_ok k m -> assoc (member_name m) fs = Some old -> member_fits fs m ->
    (forall y, In y (kids_of x) -> rd_ok y) -> (forall y z, In y (kids_of x) -> In z (kids_of y) -> rd_ok z) ->
    after k o t fs x w (member_name m) (read_member L b (attrs_of x) (sub x) m old) (ex (rd_stmts m) (rst k o c t fs x w)).
  Proof.
    intros TC (CU & MG) KO AS (old' & ty & AS' & MT & FI) RD1 RD2. rewrite AS in AS'. injection AS' as <-.
    destruct m as [st n df|u n df|u n]; cbn [member_name member_type rd_stmts read_member] in *.
    - injection MT as <-. apply fits_ty in FI. unfold k_ok in KO. unfold rd_simple. destruct b, k; try contradiction; try discriminate.
      + now apply xa_simple_ok.
      + now apply xm_simple_ok.
    - destruct MG as [(ce & es & UT & FE & KI)|(UT & KI)]; rewrite UT in MT |- *; injection MT as <-; rewrite KI; pose proof (fits_ty _ _ FI) as TY.
      + assert (HB : (b = Attributes /\ k <> FM) \/ (b = Elements /\ k = FM))
          by (unfold k_ok in KO; destruct b, k; try contradiction; [left|left|right]; split; congruence).
        destruct HB as [[HB HK]|[HB ->]].
        * replace (rd_complex (Complex enum_E u n)) with (xa_rd_complex (Complex enum_E u n)) by (unfold rd_complex; now rewrite HB).
          eapply enum_ok_a; eauto.
        * replace (rd_complex (Complex enum_E u n)) with (xm_rd_complex (Complex enum_E u n)) by (unfold rd_complex; now rewrite HB).
          eapply enum_ok_m; eauto.
      + destruct old; try discriminate.
        2:{ cbn in TY. injection TY as ->. 
        assert (K : k <> F0).
        { unfold k_ok, is_scalar in KO. rewrite UT in KO. destruct b, k; try contradiction; try discriminate. }
        replace (rd_complex (Complex struct_E u n)) with (xm_rd_complex (Complex struct_E u n)) by (unfold rd_complex; destruct b; reflexivity).
        eapply struct_ok in RD1; eauto. }
        exfalso. cbn [fits] in FI. apply andb_true_iff in FI as [F1 F2]. apply ty_eqb_eq in F2. subst. discriminate.
    - destruct MG as (UT & NL & NM & d & IN & FD). injection MT as <-. pose proof (fits_ty _ _ FI) as TY. destruct old; try discriminate.
      { exfalso. cbn [fits] in FI. apply andb_true_iff in FI as [F1 F2]. apply ty_eqb_eq in F2. subst. discriminate. }
      cbn in TY. injection TY as ->.
      assert (K : k <> F0).
      { unfold k_ok in KO. destruct b, k; try contradiction; try discriminate. }
      replace (rd_complex (Complex vector_E u n)) with (xm_rd_complex (Complex vector_E u n)) by (unfold rd_complex; destruct b; reflexivity).
      eapply vector_ok in RD2; eauto.
  Qed.
End C.
