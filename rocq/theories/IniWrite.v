(** The statements of the generated n_ini writer functions: what they do for one member. *)
From Coq Require Import String Ascii ZArith NArith Arith List Bool Lia.
From Verif Require Import Base Map Items Grammar Fmt Decimal Templates Emit Cpp Xml Val Rx CppSem SymLex Ast StoreDefs ResolveProps Prog Header Link EnumSem DecText EnumCall EnumRound XmlSpec XmlRdSimple XmlRead XmlReader XmlCall XmlWrite XmlWriter IniSpec IniRead IniReader IniCall IniLines.
Import ListNotations.
Local Open Scope string_scope.
Local Open Scope list_scope.

(** *** Format strings *)
Fixpoint no_brace (s : string) : bool := match s with String c r => (negb (c =? "{")%char && negb (c =? "}")%char && no_brace r)%bool | EmptyString => true end.
Lemma fill_addc c ps args : fill (addc c ps) args = let? t := fill ps args in Some (String c t).
Proof. destruct ps as [|[s|n] ps]; cbn [addc fill]; [reflexivity| |destruct (nth_error args n); [|reflexivity]]; destruct (fill ps args); reflexivity. Qed.
Lemma fmt_name n x : no_brace n = true -> fmt_fill (n_fmt n) [x] = Some (n ++ " " ++ x)%string.
Proof.
  unfold fmt_fill, n_fmt. induction n as [|c n IH]; cbn [String.append no_brace].
  - intros _. cbn. now rewrite sapp_nil_r.
  - rewrite !andb_true_iff, !negb_true_iff. intros [[A B] C]. specialize (IH C). cbn [pieces]. rewrite A, B.
    destruct (pieces NoArg (n ++ " {}")) as [ps|]; [|discriminate]. rewrite fill_addc, IH. reflexivity.
Qed.
Lemma cut_app a c : cut a = a -> cut c = c -> cut (a ++ c) = (a ++ c)%string.
Proof.
  induction a as [|x a IH]; cbn [String.append cut]; [auto|]. destruct (x =? ascii_of_nat 0)%char; [discriminate|]. intros [= H] C. now rewrite IH.
Qed.
Lemma cut_fmt n : cut n = n -> cut (n_fmt n) = n_fmt n.
Proof. intros C. now apply cut_app. Qed.
Lemma fmt_section p : fmt_fill "[{}]" [p] = Some ("[" ++ p ++ "]")%string.
Proof. reflexivity. Qed.

(** *** The state of a writer function *)
Definition out_to (fn : string) (fl : list (string * CppSem.content)) (wi : option string) (o : string) : world :=
  World (set_assoc fn (CText o) fl) wi (Some (fn, o)).
Definition wthis (dl : bool) (k : lookups) (key v : string) : scope := this_of [("m_delta_only", vbool dl); ("m_file", VFile true)] k key v.
Definition iframe (nd : bool) (t : string) (fs d : list (string * val)) (lp path : string) : scope :=
  dd nd t d ++ [("lower_path", VStr lp); ("rv", vbool true); ("path", VStr path); ("data", VPtr (Some (LV false "*data" []))); ("*data", VStruct t fs)].

Section W.
  Variables (L : lang) (call : list string -> list arg -> st -> res val) (cls : string) (mf : string -> bool) (wf : nat).
  Variables (nd dl : bool) (k : lookups) (key vv : string) (fn : string) (fl : list (string * CppSem.content)) (wi : option string) (tr : node).
  Notation ex := (run_list (exec L call cls mf wf)).
  Notation delta := (negb nd && dl)%bool.
  Notation th := (wthis dl k key vv).
  Hypothesis EC : forall u c es, find_enum (l_defs L) u = Some (c, es) -> forall lv z s,
    call ["stfx"; "s_from_e"] [(lv, VEnum u z)] s = Ok (VStr (enum_text (enum_values L 0 es) z)) s.
  Hypothesis MF : forall u, find_struct (l_defs L) u <> None -> mf (pre_wr u) = true.

  (** What a call of the writer function for an object does. *)
  Definition iwr_ok (v : val) : Prop := forall u fs o path pv lv lv' l sc tr, v = VStruct u fs -> text_arg pv path ->
    let s := St sc tr th (out_to fn fl wi o) in get_lv l s = Some v -> fits L v (TStruct u) = true ->
    call [cls; pre_wr u] [(lv, pv); (lv', VPtr (Some l))] s =
    match obj_text L delta v path with
    | Some x => Ok (vbool true) (St sc tr th (out_to fn fl wi (o ++ x)))
    | None => UB
    end.

  Definition ist (pre : bool) t fs d lp path o : st :=
    St ((if pre then [[]] else []) ++ [iframe nd t fs d lp path]) tr th (out_to fn fl wi o).

  Ltac wsem := cbn [exec ev run_list run_args exec_list scoped leave length Nat.sub skipn
    e_data e_dflt e_id s_set e_dot e_changed s_println e_nonempty s_dot s_section
    lvalue is_local is_member get_lv get_root put_lv get_path put_path get_acc put_acc lv_this lv_root lv_path app
    lookup update assoc set_assoc String.eqb Ascii.eqb Bool.eqb eqb andb orb negb iframe dd ist wthis this_of out_to
    s_scopes s_tree s_this s_world set_scopes set_tree set_this set_world declare declare_as store
    method str_method fst snd ty_of w_files w_in w_out fmt_println fmt_texts
    named_type exec_decl ct_args ct_ref ct_name names_eqb pointer_type option_map
    lift conv binary truth Z.eqb nkind_eqb fkind_eqb].
  Ltac wwalk := repeat (first [progress wsem
    | progress change (truth (vbool true)) with (@Yes bool true) | progress change (truth (vbool false)) with (@Yes bool false)
    | match goal with H : cut ?n = ?n |- context [cut ?n] => rewrite H
      | H : mf ?n = _ |- context [mf ?n] => rewrite H
      | H : user_type L ?n = _ |- context [user_type L ?n] => rewrite H
      | H : assoc ?n ?fs = _ |- context [assoc ?n ?fs] => rewrite H end
    | rewrite String.eqb_refl
    | progress unfold is_local, is_member, get_lv, put_lv, get_root, fun_call, scoped, declare_as, assign, store, leave]).

  Lemma ichanged_ok n ss ty v dv t fs d lp path o : assoc n fs = Some v -> assoc n d = Some dv -> scalar_ty ty = true ->
    fits L v ty = true -> fits L dv ty = true ->
    ex (if_changed nd n ss) (ist false t fs d lp path o) =
    match left_out L delta dv v with
    | None => UB
    | Some true => Ok CNext (ist false t fs d lp path o)
    | Some false => if nd then ex ss (ist false t fs d lp path o)
                    else match in_block (ist false t fs d lp path o) (ex ss (ist true t fs d lp path o)) with
                         | Ok CNext s1 => Ok CNext s1
                         | r => r
                         end
    end.
  Proof.
    intros AS AD S FV FD. pose proof (scalar_veq L v dv ty S FV FD) as VE. unfold left_out, if_changed, ist. destruct nd; [reflexivity|].
    cbn [negb andb]. cbn [run_list exec].
    match goal with |- context [ev L call cls mf (e_changed n) ?q] => change q with (St ([] ++ [iframe false t fs d lp path]) tr th (out_to fn fl wi o)) end.
    set (s0 := St ([] ++ [iframe false t fs d lp path]) tr th (out_to fn fl wi o)).
    set (s1 := St ([[]] ++ [iframe false t fs d lp path]) tr th (out_to fn fl wi o)).
    assert (E : ev L call cls mf (e_changed n) s0 =
              (if dl then match scalar_eq L v dv with Some r => Ok (vbool (negb r)) s0 | None => UB end else Ok (vbool true) s0)).
    { unfold s0. destruct dl; wwalk; [change (veq L (vbool true) (vbool false)) with (@Yes bool false)|change (veq L (vbool false) (vbool false)) with (@Yes bool true); reflexivity].
      wwalk. change (truth (vbool false)) with (@Yes bool false). wwalk. rewrite VE. destruct (scalar_eq L v dv) as [[|]|]; reflexivity. }
    rewrite E. destruct dl.
    - destruct (scalar_eq L v dv) as [[|]|]; [reflexivity| |reflexivity].
      change (lift (truth (vbool (negb false))) s0) with (Ok true s0). cbn iota beta. unfold scoped. change (set_scopes s0 _) with s1. unfold in_block.
      destruct (ex ss s1) as [[]| | | |]; reflexivity.
    - change (lift (truth (vbool true)) s0) with (Ok true s0). cbn iota beta. unfold scoped. change (set_scopes s0 _) with s1. unfold in_block.
      destruct (ex ss s1) as [[]| | | |]; reflexivity.
  Qed.

  Lemma set_file o o' : World (set_assoc fn (CText o') (set_assoc fn (CText o) fl)) wi (Some (fn, o')) = out_to fn fl wi o'.
  Proof. unfold out_to. now rewrite set_assoc_twice. Qed.
  Lemma bool_int z : to_kind L KBool z = z -> to_kind L KInt z = z.
  Proof. cbn [to_kind]. destruct (z =? 0)%Z eqn:E; intros <-; reflexivity. Qed.
  Lemma iprint_ok pre t fs d lp path o n v ty e : assoc n fs = Some v -> cut n = n -> no_brace n = true -> fits L v ty = true -> scalar_ty ty = true ->
    e = (match ty with TNum KBool => ECast [""; "int"] (e_data n) | _ => e_data n end) ->
    (forall u, ty = TEnum u -> exists c es, find_enum (l_defs L) u = Some (c, es)) ->
    ex [s_println [EStr (n_fmt n); e]] (ist pre t fs d lp path o) =
    match shown_text L v with
    | Some s => Ok CNext (ist pre t fs d lp path (o ++ item_line n s))
    | None => UB
    end.
  Proof.
    intros AS CU NB FI SC -> EN. assert (TY := fits_ty L v _ FI). pose proof (cut_fmt n CU) as CF. subst ty.
    destruct v; try discriminate SC; cbn [ty_of] in *; cbn [shown_text]; unfold ist, iframe.
    - destruct t0 as [[]|[]| | | | | | |]; try discriminate SC; destruct pre, nd; wwalk; reflexivity.
    - assert (KB : k0 = KBool -> to_kind L KInt z = z).
      { intros ->. cbn [fits] in FI. apply andb_true_iff in FI as [_ FI]. apply Z.eqb_eq in FI. now apply bool_int. }
      destruct k0, pre, nd; wwalk; rewrite ?KB by reflexivity; rewrite fmt_name by exact NB; wwalk; rewrite set_file, sapp_assoc; reflexivity.
    - destruct k0, pre, nd; wwalk; rewrite fmt_name by exact NB; wwalk; rewrite set_file, sapp_assoc; reflexivity.
    - destruct pre, nd; wwalk; rewrite fmt_name by exact NB; wwalk; rewrite set_file, sapp_assoc; reflexivity.
    - destruct (EN _ eq_refl) as (c & es & FE). rewrite FE. destruct pre, nd; wwalk; rewrite (EC _ _ _ FE); wwalk; rewrite fmt_name by exact NB; wwalk; rewrite set_file, sapp_assoc; reflexivity.
  Qed.

  (** *** One member *)
  Definition iwr_stmts (m : member) : list stmt :=
    match m with
    | MSimple st n d => ni_wr_simple nd (Simple st n (dflt_text d))
    | MUser u n _ => ni_wr_complex nd (Complex (kind_in (l_defs L) u) u n)
    | MVector u n => ni_wr_complex nd (Complex vector_E u n)
    end.
  Notation sub fs := (map (fun p => (fst p, (snd p, obj_text L delta (snd p)))) fs).
  Lemma assoc_isub n fs v : assoc n fs = Some v -> assoc n (sub fs) = Some (v, obj_text L delta v).
  Proof. induction fs as [|[a x] fs IH]; cbn; [discriminate|]. destruct (String.eqb n a); [now intros [= ->]|exact IH]. Qed.
  Lemma idot_ok t fs d p path o : ex [s_dot "lower_path"] (ist false t fs d p path o) = Ok CNext (ist false t fs d (dotted p) path o).
  Proof. unfold ist, iframe. unfold s_dot, e_nonempty, dotted. destruct p as [|c p], nd; wwalk; reflexivity. Qed.

  Definition good_name (n : string) : Prop := cut n = n /\ no_brace n = true.
  Lemma imember_ok t fs d lp path o m : member_good L mf m -> good_name (member_name m) -> member_fits L fs m -> member_fits L d m ->
    (forall v, assoc (member_name m) fs = Some v -> iwr_ok v) ->
    match member_text L delta path d (sub fs) m with
    | Some x => exists lp', ex (iwr_stmts m) (ist false t fs d lp path o) = Ok CNext (ist false t fs d lp' path (o ++ x))
    | None => ex (iwr_stmts m) (ist false t fs d lp path o) = UB
    end.
  Proof.
    intros MG [CN NB] (v & ty & AS & MT & FI) (dv & ty' & AD & MT' & FD) CO. assert (ty' = ty) by congruence. subst ty'.
    unfold member_text. rewrite (assoc_isub _ _ _ AS). cbn [fst snd].
    assert (SCALAR : forall e, scalar_ty ty = true -> e = (match ty with TNum KBool => ECast [""; "int"] (e_data (member_name m)) | _ => e_data (member_name m) end) ->
       (forall u, ty = TEnum u -> exists c es, find_enum (l_defs L) u = Some (c, es)) ->
       match (let? d0 := assoc (member_name m) d in scalar_line L delta (member_name m) d0 v) with
       | Some x => exists lp', ex (if_changed nd (member_name m) [s_println [EStr (n_fmt (member_name m)); e]]) (ist false t fs d lp path o) = Ok CNext (ist false t fs d lp' path (o ++ x))
       | None => ex (if_changed nd (member_name m) [s_println [EStr (n_fmt (member_name m)); e]]) (ist false t fs d lp path o) = UB
       end).
    { intros e SC E EN. rewrite AD. rewrite (ichanged_ok _ _ ty v dv t fs d lp path o AS AD SC FI FD). unfold scalar_line.
      destruct (left_out L delta dv v) as [[|]|]; [exists lp; now rewrite sapp_nil_r| |reflexivity].
      rewrite !(iprint_ok _ t fs d lp path o _ v ty e AS CN NB FI SC E EN). 
      destruct (shown_text L v) as [x|]; [|destruct nd; reflexivity]. exists lp. destruct nd; reflexivity. }
    destruct m as [st n df|u n df|u n]; cbn [member_name] in *.
    - cbn [is_scalar iwr_stmts]. unfold ni_wr_simple. cbn [ss_name ss_type]. apply SCALAR; injection MT as <-; destruct st; try reflexivity; discriminate.
    - destruct MG as (_ & [(c & es & UT & FE & KE)|(UT & KE)]).
      + cbn [is_scalar iwr_stmts]. rewrite KE, UT. unfold ni_wr_complex. cbn [sc_name sc_type]. cbn [member_type] in MT. rewrite UT in MT. injection MT as <-.
        apply SCALAR; [reflexivity|reflexivity|]. intros u0 [= <-]. eauto.
      + cbn [is_scalar is_struct_member iwr_stmts]. rewrite KE, UT. cbn [member_type] in MT. rewrite UT in MT. injection MT as <-.
        assert (exists fs0, v = VStruct u fs0) as (fs0 & ->).
        { pose proof (fits_ty L v _ FI) as TY. destruct v; cbn [ty_of] in TY; try discriminate TY; [subst; discriminate FI|]. injection TY as ->. eauto. }
        assert (FS : find_struct (l_defs L) u <> None) by (unfold user_type in UT; destruct (find_struct (l_defs L) u); [discriminate|destruct (find_enum (l_defs L) u); discriminate]).
        assert (M := MF u FS). assert (CU := cut_under n CN). specialize (CO _ AS).
        unfold ni_wr_complex. cbn [sc_name sc_type sc_tname].
        change (ex [?a; ?b; ?c; ?e] ?s) with (ex ([a] ++ [b] ++ [c] ++ [e]) s).
        assert (E1 : ex [s_set (EId ["lower_path"]) (EId ["path"])] (ist false t fs d lp path o) = Ok CNext (ist false t fs d path path o)) by (unfold ist, iframe; destruct nd; reflexivity).
        assert (E3 : ex [SExpr (EBin b_add_assign (EId ["lower_path"]) (EStr (underline_to_space n)))] (ist false t fs d (dotted path) path o) = Ok CNext (ist false t fs d (sub_path path n) path o)).
        { unfold ist, iframe. destruct nd; wwalk; reflexivity. }
        assert (GL : get_lv (LV false "*data" [AFld n]) (ist false t fs d (sub_path path n) path o) = Some (VStruct u fs0)) by (unfold ist, iframe; destruct nd; wwalk; reflexivity).
        specialize (CO u fs0 o (sub_path path n) (VStr (sub_path path n)) (Some (LV false "lower_path" [])) None (LV false "*data" [AFld n]) [iframe nd t fs d (sub_path path n) path] tr eq_refl (or_introl eq_refl) GL FI).
        assert (E4 : ex [SExpr (ECall (EId [pre_wr u]) [EId ["lower_path"]; EAddr (e_data n)])] (ist false t fs d (sub_path path n) path o) =
          match call [cls; pre_wr u] [(Some (LV false "lower_path" []), VStr (sub_path path n)); (None, VPtr (Some (LV false "*data" [AFld n])))] (ist false t fs d (sub_path path n) path o) with
          | Ok _ s => Ok CNext s | Exc s => Exc s | UB => UB | Bad => Bad | Fuel => Fuel end).
        { assert (AR : run_args (ev L call cls mf) [EId ["lower_path"]; EAddr (e_data n)] (ist false t fs d (sub_path path n) path o) =
             Ok [(Some (LV false "lower_path" []), VStr (sub_path path n)); (None, VPtr (Some (LV false "*data" [AFld n])))] (ist false t fs d (sub_path path n) path o)).
          { unfold ist, iframe. destruct nd; wwalk; reflexivity. }
          assert (NLc : is_local (pre_wr u) (ist false t fs d (sub_path path n) path o) = false) by (unfold ist, iframe; destruct nd; reflexivity).
          cbn [run_list exec ev]. rewrite AR. unfold fun_call. rewrite NLc, M. destruct (call _ _ _); reflexivity. }
        rewrite !run_list_app, E1, run_list_app, idot_ok, run_list_app, E3, E4. unfold ist at 1 3. cbn [app]. rewrite CO.
        destruct (obj_text L delta (VStruct u fs0) (sub_path path n)) as [x|]; [|reflexivity]. exists (sub_path path n). reflexivity.
    - cbn [is_scalar is_struct_member iwr_stmts ni_wr_complex sc_type]. exists lp. rewrite sapp_nil_r. reflexivity.
  Qed.
End W.
