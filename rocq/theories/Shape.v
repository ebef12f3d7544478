(** Headers that differ only in the constants in them: the generated program is the same. *)
From Coq Require Import String Ascii ZArith NArith Arith List Bool Lia.
From Verif Require Import Base Map Items Grammar ParseLang Fmt Decimal Templates Emit Main Cpp Xml Val CppSem SymLex Ast Store Resolve StoreDefs ResolveProps Prog Header Link HeadSpec PrintH MainProps RunProps Pipeline.
Import ListNotations.
Local Open Scope string_scope.
Local Open Scope list_scope.

(** Equal up to initialisers, the constants of enumerators, and a comma behind the last. *)
Definition same_member (m m' : member) : Prop :=
  match m, m' with
  | MSimple t n _, MSimple t' n' _ => t = t' /\ n = n'
  | MUser t n _, MUser t' n' _ => t = t' /\ n = n'
  | MVector t n, MVector t' n' => t = t' /\ n = n'
  | _, _ => False
  end.
Definition same_def (d d' : def) : Prop :=
  match d, d' with
  | DefEnum c n es _, DefEnum c' n' es' _ => c = c' /\ n = n' /\ map en_name es = map en_name es'
  | DefStruct n ms, DefStruct n' ms' => n = n' /\ Forall2 same_member ms ms'
  | _, _ => False
  end.
Definition same_shape : list def -> list def -> Prop := Forall2 same_def.

Lemma same_member_sym m m' : same_member m m' -> same_member m' m.
Proof. destruct m, m'; cbn; try tauto; intros [-> ->]; auto. Qed.
Lemma Forall2_sym {A} (R S : A -> A -> Prop) l l' : (forall a b, R a b -> S b a) -> Forall2 R l l' -> Forall2 S l' l.
Proof. intros H. induction 1; constructor; auto. Qed.
Lemma same_def_sym d d' : same_def d d' -> same_def d' d.
Proof.
  destruct d, d'; cbn; try tauto; [intros (-> & -> & ->); auto|]. intros [-> H]. split; [reflexivity|]. revert H. apply Forall2_sym, same_member_sym.
Qed.
Lemma same_shape_sym ds ds' : same_shape ds ds' -> same_shape ds' ds.
Proof. apply Forall2_sym, same_def_sym. Qed.

Lemma Forall2_map_eq {A B} (f : A -> B) (R : A -> A -> Prop) l l' : (forall a b, R a b -> f a = f b) -> Forall2 R l l' -> map f l = map f l'.
Proof. intros H. induction 1; cbn; [reflexivity|]. f_equal; auto. Qed.
Lemma Forall2_flat_map_eq {A B} (f : A -> list B) (R : A -> A -> Prop) l l' : (forall a b, R a b -> f a = f b) -> Forall2 R l l' -> flat_map f l = flat_map f l'.
Proof. intros H. induction 1; cbn; [reflexivity|]. f_equal; auto. Qed.
Lemma Forall2_forallb {A} (f g : A -> bool) (R : A -> A -> Prop) l l' : (forall a b, R a b -> f a = g b) -> Forall2 R l l' -> forallb f l = forallb g l'.
Proof. intros H. induction 1; cbn; [reflexivity|]. f_equal; auto. Qed.
Lemma Forall2_existsb {A} (f g : A -> bool) (R : A -> A -> Prop) l l' : (forall a b, R a b -> f a = g b) -> Forall2 R l l' -> existsb f l = existsb g l'.
Proof. intros H. induction 1; cbn; [reflexivity|]. f_equal; auto. Qed.
Lemma Forall2_in_l {A} (R : A -> A -> Prop) l l' a : Forall2 R l l' -> In a l -> exists b, In b l' /\ R a b.
Proof. induction 1 as [|x y l l' XY _ IH]; [contradiction|]. intros [->|I]; [exists y; cbn; auto|]. destruct (IH I) as (b & J & H). exists b; cbn; auto. Qed.

Lemma same_name m m' : same_member m m' -> member_name m = member_name m'.
Proof. destruct m, m'; cbn; tauto. Qed.
Lemma same_def_name d d' : same_def d d' -> def_name d = def_name d'.
Proof. destruct d, d'; cbn; tauto. Qed.
Lemma same_kind ds ds' t : same_shape ds ds' -> kind_in ds t = kind_in ds' t.
Proof.
  intros S. unfold kind_in. rewrite (Forall2_existsb (is_struct t) (is_struct t) same_def ds ds'), (Forall2_existsb (is_enum t) (is_enum t) same_def ds ds'); auto.
  - intros [] []; cbn; try tauto. now intros (_ & -> & _).
  - intros [] []; cbn; try tauto. now intros (-> & _).
Qed.
Lemma same_resolved ds ds' ms ms' : same_shape ds ds' -> Forall2 same_member ms ms' -> resolved_members ds ms = resolved_members ds' ms'.
Proof.
  intros S H. unfold resolved_members. induction H as [|m m' ms ms' M _ IH]; [reflexivity|]. cbn [flat_map]. rewrite IH. f_equal.
  destruct m, m'; cbn in M; try contradiction; destruct M as [-> ->]; [reflexivity|now rewrite (same_kind ds ds' _ S)|reflexivity].
Qed.
Lemma same_scope d d' : same_def d d' -> scope_names d = scope_names d'.
Proof. destruct d as [c n es t|n ms], d' as [c' n' es' t'|n' ms']; cbn; try tauto; [intros (-> & -> & ->); reflexivity|intros [-> _]; reflexivity]. Qed.
Lemma same_find ds ds' t : same_shape ds ds' -> match find_struct ds t, find_struct ds' t with Some ms, Some ms' => Forall2 same_member ms ms' | None, None => True | _, _ => False end.
Proof.
  induction 1 as [|d d' ds ds' D _ IH]; [exact I|]. cbn [find_struct]. destruct d, d'; cbn in D; try contradiction; [exact IH|]. destruct D as [-> D]. unfold def_struct. destruct (String.eqb _ _); [exact D|exact IH].
Qed.
Lemma same_member_ok k k' n all all' m m' : same_shape k k' -> same_shape all all' -> same_member m m' -> member_ok k n all m = member_ok k' n all' m'.
Proof.
  intros K A M. unfold member_ok. rewrite (same_name m m' M). f_equal. destruct m as [ty x d|t x d|t x], m' as [ty' x' d'|t' x' d'|t' x']; cbn in M; try contradiction; destruct M as [-> ->].
  - reflexivity.
  - now rewrite (same_kind k k' _ K).
  - pose proof (same_find all all' t' A). destruct (find_struct all t'), (find_struct all' t'); tauto.
Qed.
Lemma names_forallb (p : string -> bool) es es' : map en_name es = map en_name es' -> forallb (fun x => p (en_name x)) es = forallb (fun x => p (en_name x)) es'.
Proof. revert es'. induction es as [|e es IH]; intros [|e' es']; try discriminate; [reflexivity|]. cbn. intros [= -> H]. now rewrite (IH es'). Qed.
Lemma same_def_ok k k' all all' d d' : same_shape k k' -> same_shape all all' -> same_def d d' -> def_ok k all d = def_ok k' all' d'.
Proof.
  intros K A D. destruct d as [c n es t|n ms], d' as [c' n' es' t'|n' ms']; cbn in D; try tauto.
  - destruct D as (-> & -> & E). cbn [def_ok]. rewrite E, (names_forallb name_ok es es' E), (names_forallb (enumerator_ok n') es es' E). reflexivity.
  - destruct D as (-> & M). cbn [def_ok]. rewrite (Forall2_map_eq member_name same_member ms ms' same_name M). f_equal. apply (Forall2_forallb _ _ same_member); [|exact M].
    intros a b. now apply same_member_ok.
Qed.
Lemma same_defs_ok all all' ds ds' : same_shape all all' -> same_shape ds ds' -> forall k k', same_shape k k' -> defs_ok k all ds = defs_ok k' all' ds'.
Proof.
  intros A. induction 1 as [|d d' ds ds' D _ IH]; intros k k' K; [reflexivity|]. cbn [defs_ok]. rewrite (same_def_ok k k' all all' d d' K A D). f_equal. apply IH. apply Forall2_app; [exact K|]. constructor; [exact D|constructor].
Qed.
Lemma same_header rd wr ds ds' : same_shape ds ds' -> header_ok rd wr ds = header_ok rd wr ds'.
Proof.
  intros S. unfold header_ok. rewrite (Forall2_flat_map_eq scope_names same_def ds ds' same_scope S), (same_defs_ok ds ds' ds ds' S S [] [] (Forall2_nil _)).
  rewrite (Forall2_forallb (fun d => type_ok rd wr (def_name d)) (fun d => type_ok rd wr (def_name d)) same_def ds ds'); auto. intros a b H. now rewrite (same_def_name a b H).
Qed.
Lemma same_used ds ds' n : same_shape ds ds' -> used ds n -> used ds' n.
Proof.
  intros S (m & ms & x & I & H). destruct (Forall2_in_l _ _ _ _ S I) as (d & J & D). destruct d as [|m' ms']; [contradiction|]. destruct D as [<- D]. exists m, ms', x. split; [exact J|].
  destruct H as [H|[v H]]; destruct (Forall2_in_l _ _ _ _ D H) as (b & B & C); destruct b as [|t' n' d'|t' n']; try contradiction; destruct C as [<- <-]; [left; exact B|right; now exists d'].
Qed.

(** *** The structs and enums of the generator *)
Definition like_enum (e e' : enum_S) : Prop := e_name e = e_name e' /\ e_class e = e_class e' /\ map el_name (e_lines e) = map el_name (e_lines e').
Definition like_simple (a b : struct_simple) : Prop := ss_type a = ss_type b /\ ss_name a = ss_name b.
Definition like_struct (s s' : struct_S) : Prop :=
  s_name s = s_name s' /\ s_complex s = s_complex s' /\ s_incoming s = s_incoming s' /\ Forall2 like_simple (s_simple s) (s_simple s').

Lemma line_name x : el_name (entry_line x) = en_name x.
Proof. unfold entry_line. now destruct (en_val x). Qed.
Lemma lines_names es : map el_name (map entry_line es) = map en_name es.
Proof. rewrite map_map. apply map_ext, line_name. Qed.
Lemma map_via {A B C} (g : A -> B) (f : B -> C) l l' : map g l = map g l' -> map (fun a => f (g a)) l = map (fun a => f (g a)) l'.
Proof. intros H. rewrite <- (map_map g f l), <- (map_map g f l'). now rewrite H. Qed.
Lemma like_enum_funs e e' : like_enum e e' -> enum_funs e = enum_funs e'.
Proof.
  intros (N & C & L). unfold enum_funs, s_from_e_fun, s_to_e_fun, s_map. cbv zeta. rewrite N.
  assert (X : forall x, e_enumerator e x = e_enumerator e' x) by (intros x; unfold e_enumerator; now rewrite N, C).
  rewrite (map_via el_name (fun x => EList [e_enumerator e x; EStr x]) _ _ L), (map_via el_name (fun x => EList [EStr x; e_enumerator e x]) _ _ L).
  rewrite (map_ext _ (fun l => EList [e_enumerator e' (el_name l); EStr (el_name l)])) by (intros; now rewrite X).
  rewrite (map_ext (fun a => EList [EStr (el_name a); e_enumerator e (el_name a)]) (fun l => EList [EStr (el_name l); e_enumerator e' (el_name l)])) by (intros; now rewrite X). reflexivity.
Qed.
Lemma like_flat {B} (f : struct_simple -> list B) l l' : (forall a b, like_simple a b -> f a = f b) -> Forall2 like_simple l l' -> flat_map f l = flat_map f l'.
Proof. apply Forall2_flat_map_eq. Qed.
Ltac like := intros [? ? ?] [? ? ?] [X Y]; cbn in X, Y; subst; reflexivity.
Lemma like_rd b s s' cls : like_struct s s' -> rd_fun b s cls = rd_fun b s' cls.
Proof.
  intros (N & C & I & H). destruct b; cbn [rd_fun]; try reflexivity.
  - unfold xa_rd_fun, xa_rd_body. rewrite N, C, (like_flat xa_rd_simple _ _ ltac:(like) H). reflexivity.
  - unfold xm_rd_fun, xm_rd_body. rewrite N, C, (like_flat xm_rd_simple _ _ ltac:(like) H). reflexivity.
  - unfold ni_rd_fun, ni_rd_body, ni_rd_inner, ni_rd_scalars, ni_rd_items. rewrite N, C, (like_flat ni_rd_simple _ _ ltac:(like) H). destruct H; reflexivity.
Qed.
Lemma like_wr b s s' cls nd : like_struct s s' -> wr_fun b s cls nd = wr_fun b s' cls nd.
Proof.
  intros (N & C & I & H). destruct b; cbn [wr_fun]; try reflexivity.
  - unfold xa_wr_fun, xa_wr_body. rewrite N, C, (like_flat (xa_wr_simple nd) _ _ ltac:(like) H). reflexivity.
  - unfold xm_wr_fun, xm_wr_body. rewrite N, C, (like_flat (xm_wr_simple nd) _ _ ltac:(like) H). reflexivity.
  - unfold ni_wr_fun, ni_wr_body. rewrite N, C, (like_flat (ni_wr_simple nd) _ _ ltac:(like) H). reflexivity.
Qed.
Lemma like_tops ss ss' : Forall2 like_struct ss ss' -> Forall2 like_struct (tops ss) (tops ss').
Proof. unfold tops. induction 1 as [|s s' ss ss' S _ IH]; [constructor|]. cbn [filter]. pose proof S as (_ & _ & -> & _). destruct (Nat.eqb (s_incoming s') 0); [constructor; assumption|exact IH]. Qed.
Lemma like_file b ss ss' o : Forall2 like_struct ss ss' -> file_funs b ss o = file_funs b ss' o.
Proof.
  intros H. pose proof (like_tops _ _ H) as T. unfold file_funs, reader_funs, writer_funs.
  rewrite (Forall2_flat_map_eq (fun s => rd_fun b s (o_reader o)) like_struct ss ss') by (auto; intros; now apply like_rd).
  rewrite (Forall2_flat_map_eq (fun s => wr_fun b s (o_writer o) (o_no_delta o)) like_struct ss ss') by (auto; intros; now apply like_wr).
  rewrite (Forall2_map_eq (fun s => rff_fun b (o_reader o) (s_name s)) like_struct (tops ss) (tops ss')) by (auto; intros ? ? (-> & _); reflexivity).
  rewrite (Forall2_map_eq (fun s => wtf_fun b (o_writer o) (s_name s)) like_struct (tops ss) (tops ss')) by (auto; intros ? ? (-> & _); reflexivity). reflexivity.
Qed.
Lemma like_header b ss ss' o : Forall2 like_struct ss ss' -> struct_header b ss o = struct_header b ss' o.
Proof.
  intros H. pose proof (like_tops _ _ H) as T. unfold struct_header.
  rewrite (Forall2_map_eq s_name like_struct ss ss'), (Forall2_map_eq s_name like_struct (tops ss) (tops ss')) by (auto; intros ? ? (-> & _); reflexivity). reflexivity.
Qed.

(** *** The items for the other definitions *)
Section Other.
Variables ds ds' : list def.
Hypothesis S : same_shape ds ds'.
Hypothesis N : NoDup (map def_name ds).
Definition other_enum (e : enum_S) : enum_S :=
  match find_enum ds' (e_name e) with Some (c, es) => enum_of c (e_name e) es | None => e end.
Definition other_struct (s : struct_S) : struct_S :=
  match find_struct ds' (s_name s) with Some ms => StructS (s_name s) (simples ms) (resolved_members ds' ms) (s_incoming s) | None => s end.
Lemma N' : NoDup (map def_name ds').
Proof. rewrite <- (Forall2_map_eq def_name same_def ds ds' same_def_name S). exact N. Qed.
Lemma same_simples ms ms' : Forall2 same_member ms ms' -> Forall2 like_simple (simples ms) (simples ms').
Proof.
  unfold simples. induction 1 as [|m m' ms ms' M _ IH]; [constructor|]. cbn [flat_map]. apply Forall2_app; [|exact IH].
  destruct m, m'; cbn in M; try contradiction; destruct M as [-> ->]; repeat constructor.
Qed.
Lemma enum_like c n es t : In (DefEnum c n es t) ds -> exists es' t', In (DefEnum c n es' t') ds' /\ find_enum ds' n = Some (c, es') /\ map en_name es = map en_name es'.
Proof.
  intros I. destruct (Forall2_in_l _ _ _ _ S I) as (d & J & D). destruct d as [c' n' es' t'|]; [|contradiction]. destruct D as (<- & <- & E). exists es', t'. split; [exact J|]. split; [|exact E].
  exact (find_enum_some ds' n c es' t' N' J).
Qed.
Lemma struct_like n ms : In (DefStruct n ms) ds -> exists ms', In (DefStruct n ms') ds' /\ find_struct ds' n = Some ms' /\ Forall2 same_member ms ms'.
Proof.
  intros I. destruct (Forall2_in_l _ _ _ _ S I) as (d & J & D). destruct d as [|n' ms']; [contradiction|]. destruct D as (<- & E). exists ms'. split; [exact J|]. split; [|exact E].
  exact (find_struct_some ds' n ms' N' J).
Qed.
Lemma other_linked enums ss : linked ds enums ss -> linked ds' (map other_enum enums) (map other_struct ss) /\
  Forall2 like_enum enums (map other_enum enums) /\ Forall2 like_struct ss (map other_struct ss).
Proof.
  intros [LE LN LS LT LM].
  assert (EN : forall e, e_name (other_enum e) = e_name e) by (intros e; unfold other_enum; now destruct (find_enum ds' (e_name e)) as [[c es]|]).
  assert (SN : forall s, s_name (other_struct s) = s_name s) by (intros s; unfold other_struct; now destruct (find_struct ds' (s_name s))).
  split; [constructor|split].
  - intros e. rewrite in_map_iff. split.
    + intros (e0 & <- & I). apply LE in I as (c & n & es & t & I & ->). destruct (enum_like c n es t I) as (es' & t' & J & F & _). exists c, n, es', t'. split; [exact J|].
      unfold other_enum. cbn [enum_of e_name]. now rewrite F.
    + intros (c & n & es' & t' & J & ->). destruct (Forall2_in_l _ _ _ _ (same_shape_sym _ _ S) J) as (d & I & D). destruct d as [c2 n2 es t|]; [|contradiction]. destruct D as (<- & <- & _).
      exists (enum_of c n es). split; [|apply LE; eauto 8]. unfold other_enum. cbn [enum_of e_name]. now rewrite (find_enum_some ds' n c es' t' N' J).
  - rewrite map_map, (map_ext (fun x => e_name (other_enum x)) e_name EN). exact LN.
  - intros n. split.
    + intros (ms' & J). destruct (Forall2_in_l _ _ _ _ (same_shape_sym _ _ S) J) as (d & I & D). destruct d as [|n2 ms]; [contradiction|]. destruct D as (<- & _).
      destruct (proj1 (LS n) (ex_intro _ ms I)) as (s & Is & <-). exists (other_struct s). split; [now apply in_map|apply SN].
    + intros (s & I & <-). apply in_map_iff in I as (s0 & <- & I). rewrite SN. destruct (proj2 (LS (s_name s0)) (ex_intro _ s0 (conj I eq_refl))) as (ms & J). destruct (struct_like _ _ J) as (ms' & J' & _). eauto.
  - intros s I. apply in_map_iff in I as (s0 & <- & I). destruct (LT s0 I) as (ms & J & _). destruct (struct_like _ _ J) as (ms' & J' & F & _). exists ms'. rewrite SN. split; [exact J'|].
    unfold other_struct. rewrite F. now split.
  - rewrite map_map, (map_ext (fun x => s_name (other_struct x)) s_name SN). exact LM.
  - assert (A : forall e, In e enums -> like_enum e (other_enum e)).
    { intros e I. apply LE in I as (c & n & es & t & I & ->). destruct (enum_like c n es t I) as (es' & t' & J & F & M). unfold other_enum. cbn [enum_of e_name]. rewrite F.
      split; [reflexivity|]. split; [reflexivity|]. cbn [enum_of e_lines]. now rewrite !lines_names. }
    clear - A. induction enums as [|e l IH]; constructor; [apply A; now left|apply IH; intros; apply A; now right].
  - assert (A : forall s, In s ss -> like_struct s (other_struct s)).
    { intros s I. destruct (LT s I) as (ms & J & SI & CO). destruct (struct_like _ _ J) as (ms' & J' & F & M). unfold other_struct. rewrite F.
      split; [reflexivity|]. cbn [s_complex s_incoming s_simple]. split; [rewrite CO; now apply same_resolved|]. split; [reflexivity|]. rewrite SI. now apply same_simples. }
    clear - A. induction ss as [|s l IH]; constructor; [apply A; now left|apply IH; intros; apply A; now right].
Qed.
Lemma has_program_shape E b ins d o w : has_program E b ds ins d o w -> has_program E b ds' ins d o w.
Proof.
  intros (enums & ss & te & ts & he & hs & L & T & A1 & A2 & A3 & A4 & A5 & A6 & A7 & A8 & A9). destruct (other_linked enums ss L) as (L' & LE & LS).
  exists (map other_enum enums), (map other_struct ss), te, ts, he, hs. split; [exact L'|]. split.
  - intros s I. apply in_map_iff in I as (s0 & <- & I). destruct (Forall2_in_l _ _ _ _ LS I) as (s1 & _ & _). 
    assert (X : s_name (other_struct s0) = s_name s0 /\ s_incoming (other_struct s0) = s_incoming s0) by (unfold other_struct; now destruct (find_struct ds' (s_name s0))).
    destruct X as [-> ->]. rewrite (T s0 I). split; intros H U; apply H.
    + exact (same_used ds' ds _ (same_shape_sym _ _ S) U).
    + exact (same_used ds ds' _ S U).
  - rewrite <- (Forall2_flat_map_eq enum_funs like_enum _ _ like_enum_funs LE), <- (like_file b _ _ o LS), <- (like_header b _ _ o LS).
    rewrite <- (Forall2_map_eq e_name like_enum enums (map other_enum enums)) by (auto; intros ? ? (-> & _); reflexivity). auto 20.
Qed.
End Other.
Lemma same_closed ds ds' : same_shape ds ds' -> closed ds -> closed ds'.
Proof.
  intros S C n ms t x d I J. destruct (Forall2_in_l _ _ _ _ (same_shape_sym _ _ S) I) as (d0 & I0 & D). destruct d0 as [|n0 ms0]; [contradiction|]. destruct D as [<- D].
  destruct (Forall2_in_l _ _ _ _ D J) as (m & M & X). destruct m as [|t0 x0 v|]; try contradiction. destruct X as [<- <-]. rewrite <- (same_kind ds ds' t S). exact (C n ms0 t x v I0 M).
Qed.
