(** Consequences of [header_ok] (Prog.v) for the lookups of Val.v. *)
From Coq Require Import String Ascii ZArith NArith Arith List Bool Lia.
From Verif Require Import Base Map Items Grammar Fmt Decimal Templates Emit Cpp Xml Val CppSem SymLex Ast StoreDefs ResolveProps Prog.
Import ListNotations.
Local Open Scope string_scope.
Local Open Scope list_scope.

Lemma nodup_app {A} (l r : list A) : NoDup (l ++ r) <-> NoDup l /\ NoDup r /\ forall x, In x l -> ~ In x r.
Proof.
  induction l as [|a l IH]; cbn.
  - split; [intros H; repeat split; auto; constructor | tauto].
  - rewrite !NoDup_cons_iff, IH, in_app_iff. split.
    + intros (N & A1 & A2 & A3). repeat split; auto. intros x [->|X]; auto.
    + intros ((N & A1) & A2 & A3). repeat split; auto. intros [X|X]; [auto | exact (A3 a (or_introl eq_refl) X)].
Qed.
Lemma def_name_scope d : In (def_name d) (scope_names d).
Proof. destruct d as [[] | ]; cbn; auto. Qed.
Lemma scope_nodup ds : NoDup (flat_map scope_names ds) -> NoDup (map def_name ds).
Proof.
  induction ds as [|d ds IH]; cbn [flat_map map]; intros H; [constructor|].
  apply nodup_app in H as (_ & H2 & H3). constructor; [|auto]. intros X. apply in_map_iff in X as (e & E & I).
  apply (H3 (def_name d) (def_name_scope d)). apply in_flat_map. exists e. split; [auto|]. rewrite <- E. apply def_name_scope.
Qed.

(** *** find_struct, find_enum *)
Lemma find_struct_in ds n ms : find_struct ds n = Some ms -> In (DefStruct n ms) ds.
Proof.
  induction ds as [|d ds IH]; cbn; [discriminate|]. destruct d as [c m es t|m l]; cbn; [auto|].
  destruct (String.eqb_spec n m); [intros [= ->]; subst; auto | auto].
Qed.
Lemma find_struct_some ds n ms : NoDup (map def_name ds) -> In (DefStruct n ms) ds -> find_struct ds n = Some ms.
Proof.
  induction ds as [|d ds IH]; cbn [map]; intros N; [contradiction|]. inversion N as [|? ? NI ND]; subst. intros [->|I].
  - cbn. now rewrite String.eqb_refl.
  - cbn. destruct d as [c m es t|m l]; cbn; [auto|]. destruct (String.eqb_spec n m); [|auto].
    subst m. exfalso. apply NI. apply (in_map def_name) in I. exact I.
Qed.
Lemma find_enum_in ds n c es : find_enum ds n = Some (c, es) -> exists t, In (DefEnum c n es t) ds.
Proof.
  induction ds as [|d ds IH]; cbn; [discriminate|]. destruct d as [c' m es' t|m l]; cbn.
  - destruct (String.eqb_spec n m); [intros [= -> ->]; subst; eauto | intros H; destruct (IH H); eauto].
  - intros H; destruct (IH H); eauto.
Qed.
Lemma find_enum_some ds n c es t : NoDup (map def_name ds) -> In (DefEnum c n es t) ds -> find_enum ds n = Some (c, es).
Proof.
  induction ds as [|d ds IH]; cbn [map]; intros N; [contradiction|]. inversion N as [|? ? NI ND]; subst. intros [->|I].
  - cbn. now rewrite String.eqb_refl.
  - cbn. destruct d as [c' m es' t'|m l]; cbn; [|auto]. destruct (String.eqb_spec n m); [|auto].
    subst m. exfalso. apply NI. apply (in_map def_name) in I. exact I.
Qed.
Lemma find_struct_none ds n : ~ In n (map def_name ds) -> find_struct ds n = None.
Proof.
  intros H. destruct (find_struct ds n) eqn:E; [|reflexivity]. exfalso. apply H. apply find_struct_in in E.
  apply (in_map def_name) in E. exact E.
Qed.
Lemma enum_no_struct ds n c es t : NoDup (map def_name ds) -> In (DefEnum c n es t) ds -> find_struct ds n = None.
Proof.
  intros N I. destruct (find_struct ds n) eqn:E; [|reflexivity]. exfalso. apply find_struct_in in E.
  induction ds as [|d ds IH]; [contradiction|]. cbn [map] in N. inversion N as [|? ? NI ND]; subst.
  destruct I as [->|I]; destruct E as [E|E]; try discriminate; [| |auto].
  - apply NI. apply (in_map def_name) in E. exact E.
  - subst d. apply NI. apply (in_map def_name) in I. exact I.
Qed.
Lemma find_struct_app a b n : find_struct (a ++ b) n = match find_struct a n with Some m => Some m | None => find_struct b n end.
Proof. induction a as [|d a IH]; [reflexivity|]. cbn. destruct (def_struct n d); auto. Qed.

Section Header.
  Variables (rd wr : string) (ds : list def).
  Hypothesis OK : header_ok rd wr ds = true.
  Variable L : lang.
  Hypothesis LD : l_defs L = ds.

  Lemma ok_parts : NoDup (flat_map scope_names ds) /\ (forall d, In d ds -> type_fine rd wr (def_name d)) /\
    defs_ok [] ds ds = true /\ class_ok rd = true /\ class_ok wr = true /\ String.eqb rd wr = false.
  Proof.
    pose proof OK as H. unfold header_ok in H. rewrite !andb_true_iff, negb_true_iff, distinct_nodup, forallb_forall in H.
    destruct H as (((((A & B) & C) & D) & E) & F). split; [auto|]. split; [intros d I; now apply type_ok_fine, B | auto].
  Qed.
  Lemma names_nodup : NoDup (map def_name ds).
  Proof. apply scope_nodup, ok_parts. Qed.
  Lemma struct_iff n ms : find_struct ds n = Some ms <-> In (DefStruct n ms) ds.
  Proof. split; [apply find_struct_in | apply find_struct_some, names_nodup]. Qed.
  Lemma enum_iff n c es : find_enum ds n = Some (c, es) <-> exists t, In (DefEnum c n es t) ds.
  Proof. split; [apply find_enum_in | intros [t H]; eapply find_enum_some; [apply names_nodup | exact H]]. Qed.
  Lemma user_struct n ms : In (DefStruct n ms) ds -> user_type L n = Some (TStruct n).
  Proof. intros H. unfold user_type. rewrite LD. apply struct_iff in H. now rewrite H. Qed.
  Lemma user_enum n c es t : In (DefEnum c n es t) ds -> user_type L n = Some (TEnum n).
  Proof.
    intros H. unfold user_type. rewrite LD, (enum_no_struct ds n c es t names_nodup H).
    rewrite (find_enum_some ds n c es t names_nodup H). reflexivity.
  Qed.

  Lemma defs_ok_in all l : forall known, defs_ok known all l = true -> forall d, In d l -> exists k r, l = k ++ d :: r /\ def_ok (known ++ k) all d = true.
  Proof.
    induction l as [|x l IH]; intros known H d I; [contradiction|]. cbn [defs_ok] in H. apply andb_prop in H as [H1 H2].
    destruct I as [->|I].
    - exists [], l. rewrite app_nil_r. auto.
    - destruct (IH _ H2 d I) as (k & r & -> & D). exists (x :: k), r. split; [reflexivity|]. now rewrite <- app_assoc in D.
  Qed.
  Lemma def_in d : In d ds -> exists k r, ds = k ++ d :: r /\ def_ok k ds d = true.
  Proof. intros I. destruct ok_parts as (_ & _ & D & _). destruct (defs_ok_in ds ds [] D d I) as (k & r & E & F). eauto. Qed.

  Lemma enum_parts c n es t : In (DefEnum c n es t) ds ->
    NoDup (map en_name es) /\ (forall x, In x es -> name_ok (en_name x) = true) /\
    (c = false -> forall x, In x es -> enumerator_ok n (en_name x) = true).
  Proof.
    intros I. destruct (def_in _ I) as (k & r & _ & D). cbn [def_ok] in D.
    rewrite !andb_true_iff, distinct_nodup, forallb_forall in D. destruct D as ((A & B) & C). repeat split; auto.
    intros -> x X. cbn in C. rewrite forallb_forall in C. auto.
  Qed.
  Lemma struct_parts n ms : In (DefStruct n ms) ds ->
    NoDup (map member_name ms) /\ exists k r, ds = k ++ DefStruct n ms :: r /\ forall m, In m ms -> member_ok k n ds m = true.
  Proof.
    intros I. destruct (def_in _ I) as (k & r & E & D). cbn [def_ok] in D.
    rewrite andb_true_iff, distinct_nodup, forallb_forall in D. destruct D. split; eauto.
  Qed.

  (** *** Enumerators *)
  Lemma enum_values_names z es : map fst (enum_values L z es) = map en_name es.
  Proof. revert z. induction es as [|e es IH]; intros z; cbn; [reflexivity|]. now rewrite IH. Qed.
  Lemma assoc_none {A} x (l : list (string * A)) : ~ In x (map fst l) -> assoc x l = None.
  Proof.
    induction l as [|[k a] l IH]; cbn; intros H; [reflexivity|]. destruct (String.eqb_spec x k) as [->|]; [tauto|]. apply IH. tauto.
  Qed.
  Lemma assoc_in {A} x (a : A) l : NoDup (map fst l) -> In (x, a) l -> assoc x l = Some a.
  Proof.
    induction l as [|[k b] l IH]; cbn [map fst]; intros N; [contradiction|]. apply NoDup_cons_iff in N as [NI ND]. intros [[= -> ->]|I]; cbn.
    - now rewrite String.eqb_refl.
    - destruct (String.eqb_spec x k) as [->|]; [|auto]. exfalso. apply NI. apply (in_map fst) in I. exact I.
  Qed.
  Lemma assoc_some {A} x (a : A) l : assoc x l = Some a -> In (x, a) l.
  Proof.
    induction l as [|[k b] l IH]; cbn; [discriminate|]. destruct (String.eqb_spec x k) as [->|]; [intros [= ->]; auto | auto].
  Qed.

  Lemma scoped_enumerator n c es t x z : In (DefEnum c n es t) ds -> In (x, z) (enum_values L 0 es) -> enumerator L n x = Some (VEnum n z).
  Proof.
    intros I J. unfold enumerator. rewrite LD, (find_enum_some ds n c es t names_nodup I).
    rewrite (assoc_in x z); [reflexivity | | exact J]. rewrite enum_values_names. apply (enum_parts _ _ _ _ I).
  Qed.
  Lemma plain_found l n es t x z : NoDup (flat_map scope_names l) -> In (DefEnum false n es t) l -> In (x, z) (enum_values L 0 es) ->
    plain_enumerator L l x = Some (VEnum n z).
  Proof.
    induction l as [|d l IH]; cbn [flat_map]; intros N I J; [contradiction|]. apply nodup_app in N as (N1 & N2 & N3).
    assert (X : In x (map en_name es)) by (rewrite <- (enum_values_names 0 es); apply (in_map fst) in J; exact J).
    destruct I as [->|I].
    - cbn. rewrite (assoc_in x z); [reflexivity | | exact J]. rewrite enum_values_names. cbn [scope_names] in N1. now inversion N1.
    - cbn. destruct d as [[] m es' t'|m ms]; try (apply IH; auto; fail).
      rewrite assoc_none; [apply IH; auto|]. rewrite enum_values_names. intros Y. apply (N3 x); [now right|].
      apply in_flat_map. eexists. split; [exact I|]. now right.
  Qed.
  Lemma plain_enumerator_found n es t x z : In (DefEnum false n es t) ds -> In (x, z) (enum_values L 0 es) ->
    plain_enumerator L (l_defs L) x = Some (VEnum n z).
  Proof. rewrite LD. apply plain_found, ok_parts. Qed.
End Header.
