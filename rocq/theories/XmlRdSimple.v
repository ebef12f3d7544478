(** The generated xml readers: frames, and members of built-in types. *)
From Coq Require Import String Ascii ZArith NArith Arith List Bool Lia.
From Verif Require Import Base Map Items Grammar Fmt Decimal Templates Emit Cpp Xml Val CppSem SymLex Ast StoreDefs ResolveProps Prog Header EnumSem DecText EnumCall XmlSpec.
Import ListNotations.
Local Open Scope string_scope.
Local Open Scope list_scope.

(** *** Elementary facts *)
Lemma wrap_wrap b s z : (0 < b)%Z -> wrap b s (wrap b s z) = wrap b s z.
Proof.
  intros B. unfold wrap. assert (P : (0 < 2 ^ b)%Z) by (apply Z.pow_pos_nonneg; lia).
  pose proof (Z.mod_pos_bound z (2 ^ b) P) as M.
  destruct s; cbn [andb].
  - destruct (2 ^ (b - 1) <=? z mod 2 ^ b)%Z eqn:E.
    + rewrite <- (Z_mod_plus_full (z mod 2 ^ b - 2 ^ b) 1 (2 ^ b)). replace (z mod 2 ^ b - 2 ^ b + 1 * 2 ^ b)%Z with (z mod 2 ^ b)%Z by lia.
      rewrite Z.mod_mod by lia. now rewrite E.
    + rewrite Z.mod_mod by lia. now rewrite E.
  - now rewrite Z.mod_mod by lia.
Qed.
Lemma to_kind_twice L k z : (0 < l_long L)%Z -> to_kind L k (to_kind L k z) = to_kind L k z.
Proof.
  intros H. destruct k; cbn [to_kind]; try (apply wrap_wrap; cbn [bits]; lia). destruct (z =? 0)%Z; reflexivity.
Qed.

Lemma first_child_named {A} (g : node -> A) n ks :
  match first_child n ks with
  | Some i => exists a k, nth_error ks i = Some (Elem n a k) /\ first_named n (map (fun k => (k, g k)) ks) = Some (Elem n a k, g (Elem n a k))
  | None => first_named n (map (fun k => (k, g k)) ks) = None
  end.
Proof.
  induction ks as [|y ks IH]; [reflexivity|]. cbn [first_child map first_named]. destruct y as [m a k|s].
  - destruct (String.eqb_spec n m) as [->|]; [exists a, k; auto|]. destruct (first_child n ks); exact IH.
  - destruct (first_child n ks); exact IH.
Qed.
Lemma get_text_none {A} (x : A) : get_text (Text "") = None.
Proof. reflexivity. Qed.

Lemma at_path_app p : forall x q, at_path x (p ++ q) = match at_path x p with Some y => at_path y q | None => None end.
Proof. induction p as [|i p IH]; intros x q; [reflexivity|]. cbn. destruct (nth_error (kids_of x) i); [apply IH|reflexivity]. Qed.
Lemma upd_nth_same {A} (l : list A) i a f : nth_error l i = Some a -> f a = a -> upd_nth i f l = l.
Proof.
  revert i. induction l as [|b l IH]; intros [|i]; cbn; try discriminate.
  - intros [= ->] ->. reflexivity.
  - intros H F. now rewrite IH.
Qed.
Lemma upd_path_same p : forall x y f, at_path x p = Some y -> f y = y -> upd_path p f x = x.
Proof.
  induction p as [|i p IH]; intros x y f; cbn [at_path upd_path].
  - now intros [= ->].
  - destruct x as [n a k|s]; [|reflexivity]. cbn [kids_of]. destruct (nth_error k i) as [z|] eqn:E; [|discriminate].
    intros H F. rewrite (upd_nth_same k i z); [reflexivity|exact E|]. eapply IH; eauto.
Qed.

(** *** The frame of a reader function: parameters and local variables *)
Inductive fkd := F0 | FA | FM.
Definition base (t : string) (fs : list (string * val)) : scope :=
  [("el", VEl (Some [])); ("data", VPtr (Some (LV false "*data" []))); ("*data", VStruct t fs)].
Definition frame (k : fkd) (c : val) (t : string) (fs : list (string * val)) : scope :=
  match k with
  | F0 => ("rv", vbool true) :: base t fs
  | FA => ("ch_el", c) :: ("rv", vbool true) :: base t fs
  | FM => ("rv", vbool true) :: ("ch_el", c) :: base t fs
  end.
(** The object the functions are called on: a reader, or a writer with its m_delta_only. *)
Definition this_of (q : option val) : scope := match q with None => [] | Some v => [("m_delta_only", v)] end.
Definition reader_or_writer (th : scope) : Prop := exists q, th = this_of q.
Definition rst k q c t fs x w : st := St [frame k c t fs] x (this_of q) w.

Ltac sem := cbn [exec ev run_list run_args exec_list scoped leave length Nat.sub skipn
  e_meth e_data e_id s_set e_cstr e_dot
  lvalue is_local is_member get_lv get_root put_lv get_path put_path get_acc put_acc lv_this lv_root lv_path app
  lookup update assoc set_assoc String.eqb Ascii.eqb Bool.eqb eqb andb orb negb frame base rst this_of
  s_scopes s_tree s_this s_world set_scopes set_tree set_this set_world declare declare_as store
  method el_method at_path fst snd ty_of query_type put_query put_query_as query attrs_of kids_of
  named_type init init_fuel exec_decl ct_args ct_ref ct_name names_eqb pointer_type option_map
  lift conv binary veq vbool truth Z.eqb nkind_eqb fkind_eqb].

Section S.
  Variables (L : lang) (call : list string -> list arg -> st -> res val) (cls : string) (mf : string -> bool) (wf : nat).
  Notation ex := (run_list (exec L call cls mf wf)).
  Hypothesis LL : (0 < l_long L)%Z.
  Hypothesis EN : enumerator L "tinyxml2" "XML_SUCCESS" = None.
  Definition after (k : fkd) (q : option val) t fs x w n (r : option val) (a : res ctl) : Prop :=
    match r with Some v => exists c, ty_of c = TEl /\ a = Ok CNext (rst k q c t (set_assoc n v fs) x w) | None => a = UB end.

  Lemma xa_simple_ok {A} o c t fs x w ty n d old (sub : list (node * A)) : ty_of c = TEl -> assoc n fs = Some old -> cut n = n -> ty_of old = kind_of ty ->
    after F0 o t fs x w n (read_simple L Attributes ty (find_item Attributes n (attrs_of x) sub) old)
      (ex (xa_rd_simple (Simple ty n d)) (rst F0 o c t fs x w)).
  Proof.
    intros TC AS CU TY. pose proof (set_assoc_same _ _ _ AS) as SA. unfold find_item.
    destruct o as [dv|]; destruct ty; cbn [xa_rd_simple ss_type ss_name read_simple kind_of] in *; unfold after, xa_conv, xa_query, read_number, read_converted, read_float;
    (destruct (attr n (attrs_of x)) as [q|] eqn:AT);
    repeat (first [progress sem | rewrite EN | rewrite CU | rewrite AS | rewrite TY | rewrite AT
       | progress unfold put_query, put_query_as, scan_as, assign, scoped, declare_as, store, leave, rst
       | match goal with |- context [to_int ?q] => destruct (to_int q) | |- context [to_unsigned ?q] => destruct (to_unsigned q)
         | |- context [to_bool ?q] => destruct (to_bool q) | |- context [l_xread L ?k ?q] => destruct (l_xread L k q) end
       | progress rewrite SA]);
    rewrite ?(to_kind_twice L _ _ LL); try (exists c; split; [exact TC|]); reflexivity.
  Qed.

  Lemma xm_simple_ok {A} o c t fs x w ty n d old (g : node -> A) : ty_of c = TEl -> assoc n fs = Some old -> cut n = n -> ty_of old = kind_of ty ->
    user_type L "find_element" = None -> mf "find_element" = false ->
    after FM o t fs x w n (read_simple L Elements ty (find_item Elements n (attrs_of x) (map (fun k => (k, g k)) (kids_of x))) old)
      (ex (xm_rd_simple (Simple ty n d)) (rst FM o c t fs x w)).
  Proof.
    intros TC AS CU TY UT MF. pose proof (set_assoc_same _ _ _ AS) as SA. unfold find_item.
    pose proof (first_child_named g n (kids_of x)) as FC. destruct (first_child n (kids_of x)) as [i|] eqn:F.
    2:{ rewrite FC. destruct o as [dv|]; destruct ty; unfold xm_rd_simple; cbn [ss_type ss_name read_simple kind_of] in *;
        unfold s_find, if_child, read_number, read_converted, read_float;
        repeat (first [progress sem | rewrite EN | rewrite CU | rewrite MF | rewrite UT | rewrite F | rewrite TC | progress unfold xm_rd_simple, s_find, if_child, fun_call, assign, scoped, store, leave, after, rst | progress rewrite SA]);
        (eexists; split; [|reflexivity]; reflexivity). }
    destruct FC as (a & k & NE & ->).
    destruct o as [dv|]; destruct ty; unfold xm_rd_simple; cbn [ss_type ss_name read_simple kind_of] in *;
    unfold after, read_number, read_converted, read_float;
    (destruct (get_text (Elem n a k)) as [q|] eqn:AT);
        repeat (first [progress sem | rewrite EN | rewrite CU | rewrite MF | rewrite UT | rewrite F | rewrite TC | rewrite NE | rewrite AS | rewrite TY | rewrite AT
           | progress unfold xm_rd_simple, xm_conv, xm_text, xm_str, s_find, if_child, fun_call, assign, scoped, declare_as, store, leave, after, rst, put_query, put_query_as, scan_as
          | match goal with |- context [to_int ?q] => destruct (to_int q) | |- context [to_unsigned ?q] => destruct (to_unsigned q)
           | |- context [to_bool ?q] => destruct (to_bool q) | |- context [l_xread L ?k ?q] => destruct (l_xread L k q) end
           | progress rewrite SA]);
    rewrite ?(to_kind_twice L _ _ LL); try (eexists; split; [|reflexivity]); try reflexivity.
  Qed.
End S.
