(** From an enumeration value to its text and back. *)
From Coq Require Import String Ascii ZArith NArith Arith List Bool Lia.
From Verif Require Import Base Map Items Grammar Fmt Decimal Templates Emit Cpp Xml Val CppSem SymLex Ast StoreDefs ResolveProps Prog Header EnumSem DecText EnumCall.
Import ListNotations.
Local Open Scope string_scope.
Local Open Scope list_scope.

Lemma name_of_in vs z x : name_of vs z = Some x -> In (x, z) vs.
Proof.
  induction vs as [|[y w] vs IH]; cbn; [discriminate|]. destruct (Z.eqb_spec z w) as [->|]; [intros [= ->]; auto|auto].
Qed.
Lemma name_of_none vs z : name_of vs z = None <-> ~ In z (map snd vs).
Proof.
  induction vs as [|[y w] vs IH]; cbn; [tauto|]. destruct (Z.eqb_spec z w) as [->|N]; [split; [discriminate|tauto]|].
  rewrite IH. intuition.
Qed.

Section Round.
  Variables (b : backend) (enums : list enum_S) (ss : list struct_S) (o : output_spec) (ds : list def) (L : lang).
  Hypothesis G : setting b enums ss o ds L.
  Variables (c : bool) (n : string) (es : list entry) (t : bool).
  Hypothesis IN : In (DefEnum c n es t) ds.
  Let vs := enum_values L 0 es.
  Let OK := g_ok _ _ _ _ _ _ G.

  Lemma values_nodup : NoDup (map fst vs).
  Proof. unfold vs. rewrite enum_values_names. apply (enum_parts _ _ _ OK _ _ _ _ IN). Qed.
  Lemma value_name x z : In (x, z) vs -> ident x = true.
  Proof. intros I. apply name_ok_ident. eapply (names_fine _ _ ds L OK c n es t IN). exact I. Qed.

  (** A value the program can hold: one with an enumerator, or any int that the
      enumeration has room for. *)
  Definition can_hold (z : Z) : Prop := In z (map snd vs) \/ in_int z = true /\ enum_holds L n z = true.
  Definition has_name (z : Z) : bool := existsb (Z.eqb z) (map snd vs).
  Lemma has_name_of z : has_name z = match name_of vs z with Some _ => true | None => false end.
  Proof.
    unfold has_name. destruct (name_of vs z) as [x|] eqn:N.
    - apply existsb_exists. exists z. split; [|apply Z.eqb_refl]. apply name_of_in in N. now apply (in_map snd) in N.
    - apply not_true_iff_false. intros H. apply existsb_exists in H as (y & I & E). apply Z.eqb_eq in E as <-. now apply name_of_none in N.
  Qed.

  Lemma text_back z : can_hold z -> read_enum L n vs (enum_text vs z) = ERead z (has_name z).
  Proof.
    intros H. rewrite has_name_of. unfold read_enum, enum_text. destruct (name_of vs z) as [x|] eqn:N.
    - now rewrite (Header.assoc_in x z vs values_nodup (name_of_in _ _ _ N)).
    - destruct H as [H|[H1 H2]]; [now apply name_of_none in N|].
      assert (W : wrap 32 true z = z).
      { apply wrap_signed; [lia|]. unfold in_int in H1. change (32 - 1)%Z with 31%Z. lia. }
      rewrite W. rewrite Header.assoc_none, scan_dec_zdec, H1, H2; [reflexivity|].
      intros I. apply in_map_iff in I as ([x w] & E & I). cbn in E. apply (ident_not_zdec x z); [eapply value_name; eauto|exact E].
  Qed.

  Lemma round lv l old z f f' wf s s' : can_hold z -> get_lv l s = Some old -> ty_of old = TEnum n -> put_lv l (VEnum n z) s = Some s' ->
    exists x, call_fun L (prog b enums ss o) wf (S f) ["stfx"; "s_from_e"] [(lv, VEnum n z)] s = Ok (VStr x) s /\
    call_fun L (prog b enums ss o) wf (S f') ["stfx"; "s_to_e"] [(None, VStr x); (Some l, old)] s = Ok (vbool (has_name z)) s'.
  Proof.
    intros H GL TY PU. exists (enum_text vs z). split; [eapply call_from; eauto|].
    pose proof (call_to b enums ss o ds L G wf c n es t IN None (VStr (enum_text vs z)) (enum_text vs z) l old f' s (or_introl eq_refl) GL TY) as C.
    unfold to_call in C. fold vs in C. rewrite (text_back z H) in C. auto.
  Qed.

  (** Texts that are no enumerator. *)
  Lemma unknown_text lv v x l old f wf s : text_arg v x -> ~ In x (map en_name es) -> get_lv l s = Some old -> ty_of old = TEnum n ->
    let r := call_fun L (prog b enums ss o) wf (S f) ["stfx"; "s_to_e"] [(lv, v); (Some l, old)] s in
    match scan_dec x with
    | None => r = Ok (vbool false) s
    | Some z => if in_int z then if enum_holds L n z then forall s', put_lv l (VEnum n z) s = Some s' -> r = Ok (vbool false) s'
                                 else r = UB
                else r = Ok (vbool false) s
    end.
  Proof.
    intros TA N GL TY r. pose proof (call_to b enums ss o ds L G wf c n es t IN lv v x l old f s TA GL TY) as C. fold vs r in C.
    unfold to_call, read_enum in C. rewrite Header.assoc_none in C by (unfold vs; now rewrite enum_values_names).
    destruct (scan_dec x) as [z|]; [|exact C]. destruct (in_int z); [|exact C]. destruct (enum_holds L n z); exact C.
  Qed.
  Lemma known_text lv v x z l old f wf s s' : text_arg v x -> In (x, z) vs -> get_lv l s = Some old -> ty_of old = TEnum n ->
    put_lv l (VEnum n z) s = Some s' ->
    call_fun L (prog b enums ss o) wf (S f) ["stfx"; "s_to_e"] [(lv, v); (Some l, old)] s = Ok (vbool true) s'.
  Proof.
    intros TA I GL TY PU. pose proof (call_to b enums ss o ds L G wf c n es t IN lv v x l old f s TA GL TY) as C. fold vs in C.
    unfold to_call, read_enum in C. fold vs in C. rewrite (Header.assoc_in x z vs values_nodup I) in C. auto.
  Qed.
  Lemma class_holds z : c = true -> enum_holds L n z = in_int z.
  Proof.
    intros ->. unfold enum_holds. rewrite (g_defs _ _ _ _ _ _ G), (find_enum_some ds n true es t (names_nodup _ _ _ OK) IN). reflexivity.
  Qed.
End Round.
