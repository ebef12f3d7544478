(** The store without the constants in it: initialisers of members, values of enumerators.
    The store goes through the same states with and without them, and the generator never
    looks at them. *)
From Coq Require Import String Ascii ZArith NArith Arith List Bool Lia.
From Verif Require Import Base Map Items Grammar Store Resolve Fmt Templates Emit Shape.
Import ListNotations.
Local Open Scope string_scope.
Local Open Scope list_scope.

Definition erase_line (l : enum_line) : enum_line := EnumLine (el_name l) false "".
Definition erase_enum (e : enum_S) : enum_S := EnumS (e_name e) (e_class e) (map erase_line (e_lines e)).
Definition erase_simple (m : struct_simple) : struct_simple := Simple (ss_type m) (ss_name m) "".
Definition erase_struct (s : struct_S) : struct_S := StructS (s_name s) (map erase_simple (s_simple s)) (s_complex s) (s_incoming s).
Definition vmap {A B} (f : A -> B) (m : list (string * A)) : list (string * B) := map (fun p => (fst p, f (snd p))) m.
Definition erase (i : info) : info :=
  Info (vmap erase_struct (i_structs i)) (vmap erase_enum (i_enums i)) (i_cur_struct i) (i_cur_enum i) (i_parse_rv i).
Definition erase_heap (h : heap) : heap := Heap (erase (h_self h)) (erase (h_common h)).
Definition erase_call (c : call) : call :=
  match c with
  | CEnumLine n _ _ => CEnumLine n false ""
  | CSimple t n _ => CSimple t n ""
  | c => c
  end.

(** *** The maps *)
Lemma vmap_find {A B} (f : A -> B) n m : mfind n (vmap f m) = option_map f (mfind n m).
Proof. induction m as [|[k a] m IH]; [reflexivity|]. cbn. destruct (String.eqb n k); [reflexivity|exact IH]. Qed.
Lemma vmap_set {A B} (f : A -> B) n a m : mset n (f a) (vmap f m) = vmap f (mset n a m).
Proof. induction m as [|[k b] m IH]; [reflexivity|]. cbn. destruct (String.compare n k); cbn; [reflexivity|reflexivity|]. now f_equal. Qed.
Lemma vmap_upd {A B} (f : A -> B) n g g' m : (forall a, g' (f a) = f (g a)) -> mupd n g' (vmap f m) = vmap f (mupd n g m).
Proof. intros H. induction m as [|[k b] m IH]; [reflexivity|]. cbn. destruct (String.eqb n k); cbn; [now rewrite H|]. now f_equal. Qed.
Lemma vmap_snd {A B} (f : A -> B) m : map snd (vmap f m) = map f (map snd m).
Proof. unfold vmap. now rewrite !map_map. Qed.

(** *** The store *)
Lemma erase_type i n : get_item_type (erase i) n = get_item_type i n.
Proof. unfold get_item_type. cbn. rewrite !vmap_find. destruct (mfind n (i_structs i)); [reflexivity|]. now destruct (mfind n (i_enums i)). Qed.
Lemma erase_set_structs i m : erase (set_structs i m) = set_structs (erase i) (vmap erase_struct m).
Proof. reflexivity. Qed.
Lemma erase_set_enums i m : erase (set_enums i m) = set_enums (erase i) (vmap erase_enum m).
Proof. reflexivity. Qed.
Lemma erase_obj h w : obj (erase_heap h) w = erase (obj h w).
Proof. now destruct w. Qed.
Lemma erase_set_obj h w i : set_obj (erase_heap h) w (erase i) = erase_heap (set_obj h w i).
Proof. now destruct w. Qed.
Lemma erase_apply c h : apply_call (erase_call c) (erase_heap h) =
  match apply_call c h with Some (h', r, m) => Some (erase_heap h', r, m) | None => None end.
Proof.
  destruct c as [n cls|n init v|n|ty n d|ty tn n]; cbn [erase_call apply_call].
  - cbn [erase_heap h_self h_common]. rewrite erase_type. destruct (get_item_type (h_self h) n); try reflexivity.
    pose proof (vmap_set erase_enum n (EnumS n cls []) (i_enums (h_self h))) as V. change (erase_enum (EnumS n cls [])) with (EnumS n cls []) in V.
    cbn [erase i_enums i_structs i_parse_rv]. rewrite V. reflexivity.
  - change (i_cur_enum (h_self (erase_heap h))) with (i_cur_enum (h_self h)). destruct (i_cur_enum (h_self h)) as [[w k]|]; [|reflexivity].
    unfold add_enum_line. rewrite erase_obj. cbn [erase i_enums]. rewrite vmap_find. destruct (mfind k (i_enums (obj h w))); [|reflexivity]. cbn [option_map].
    f_equal. f_equal. f_equal. fold (erase (obj h w)). rewrite <- erase_set_obj, erase_set_enums. f_equal. f_equal. apply vmap_upd.
    intros x. unfold erase_enum. cbn. now rewrite map_app.
  - cbn [erase_heap h_self h_common]. rewrite erase_type. destruct (get_item_type (h_self h) n); try reflexivity.
    pose proof (vmap_set erase_struct n (StructS n [] [] 0) (i_structs (h_self h))) as V. change (erase_struct (StructS n [] [] 0)) with (StructS n [] [] 0) in V.
    cbn [erase i_enums i_structs i_parse_rv]. rewrite V. reflexivity.
  - change (i_cur_struct (h_self (erase_heap h))) with (i_cur_struct (h_self h)). destruct (i_cur_struct (h_self h)) as [[w k]|]; [|reflexivity].
    unfold add_simple. rewrite erase_obj. cbn [erase i_structs]. rewrite vmap_find. destruct (mfind k (i_structs (obj h w))); [|reflexivity]. cbn [option_map].
    f_equal. f_equal. f_equal. fold (erase (obj h w)). rewrite <- erase_set_obj, erase_set_structs. f_equal. f_equal. apply vmap_upd.
    intros x. unfold erase_struct. cbn. now rewrite map_app.
  - change (i_cur_struct (h_self (erase_heap h))) with (i_cur_struct (h_self h)). destruct (i_cur_struct (h_self h)) as [[w k]|]; [|reflexivity].
    unfold add_complex. rewrite erase_obj. cbn [erase i_structs]. rewrite vmap_find. destruct (mfind k (i_structs (obj h w))); [|reflexivity]. cbn [option_map].
    f_equal. f_equal. f_equal. fold (erase (obj h w)). rewrite <- erase_set_obj, erase_set_structs. f_equal. f_equal. apply vmap_upd. reflexivity.
Qed.
Lemma erase_calls cs : forall h, apply_calls (map erase_call cs) (erase_heap h) =
  match apply_calls cs h with Some (h', m) => Some (erase_heap h', m) | None => None end.
Proof.
  induction cs as [|c cs IH]; intros h; [reflexivity|]. cbn [map apply_calls]. rewrite erase_apply. destruct (apply_call c h) as [[[h1 r] m]|]; [|reflexivity].
  rewrite IH. destruct (apply_calls cs h1) as [[h2 m2]|]; reflexivity.
Qed.
Lemma shape_calls ds ds' : same_shape ds ds' -> map erase_call (file_calls ds) = map erase_call (file_calls ds').
Proof.
  unfold file_calls. induction 1 as [|d d' ds ds' D _ IH]; [reflexivity|]. cbn [map concat]. rewrite !map_app, IH. f_equal.
  destruct d as [c n es t|n ms], d' as [c' n' es' t'|n' ms']; cbn in D; try contradiction.
  - destruct D as (-> & -> & D). cbn [def_calls map erase_call]. f_equal. rewrite !map_map.
    transitivity (map (fun n => CEnumLine n false "") (map en_name es)); [rewrite map_map|rewrite D, map_map]; apply map_ext; intros e; unfold entry_call; now destruct (en_val e).
  - destruct D as [-> D]. cbn [def_calls map erase_call]. f_equal. rewrite !map_map. revert D. apply Forall2_map_eq.
    intros m m'. destruct m, m'; cbn; try tauto; now intros [-> ->].
Qed.
(** Files with the same definitions up to constants, read into stores that are the same up to constants. *)
Lemma shape_files ds ds' h h' k k' m m' : same_shape ds ds' -> erase_heap h = erase_heap h' ->
  apply_calls (file_calls ds) h = Some (k, m) -> apply_calls (file_calls ds') h' = Some (k', m') -> erase_heap k = erase_heap k' /\ m = m'.
Proof.
  intros S H A A'. pose proof (erase_calls (file_calls ds) h) as X. pose proof (erase_calls (file_calls ds') h') as X'.
  rewrite A in X. rewrite A' in X'. rewrite (shape_calls _ _ S), H in X. rewrite X in X'. split; congruence.
Qed.

(** *** Resolution *)
Lemma erase_fix i c : fix_member (erase i) c = fix_member i c.
Proof. unfold fix_member. now rewrite erase_type. Qed.
Lemma erase_fails i c : fix_fails (erase i) c = fix_fails i c.
Proof. unfold fix_fails. now rewrite erase_type. Qed.
Lemma erase_fixup i : fixup (erase i) = (erase (fst (fixup i)), snd (fixup i)).
Proof.
  unfold fixup. cbn [fst snd]. f_equal.
  - rewrite erase_set_structs. f_equal. cbn [erase i_structs]. unfold vmap. rewrite !map_map. apply map_ext. intros [k s]. cbn. f_equal.
    unfold fix_struct, erase_struct. cbn. f_equal. apply map_ext. intros c. apply erase_fix.
  - f_equal. cbn [erase i_structs].
    assert (H : forall l, existsb (fun p => existsb (fix_fails (erase i)) (s_complex (snd p))) (vmap erase_struct l) = existsb (fun p => existsb (fix_fails i) (s_complex (snd p))) l).
    { induction l as [|[k s] l IH]; [reflexivity|]. cbn [vmap map existsb fst snd]. unfold vmap in IH. rewrite IH. f_equal.
      cbn [erase_struct s_complex]. induction (s_complex s) as [|c cs IC]; [reflexivity|]. cbn [existsb]. rewrite IC. f_equal. apply erase_fails. }
    apply H.
Qed.
Lemma erase_top i : find_top (erase i) = erase (find_top i).
Proof.
  unfold find_top. rewrite erase_set_structs. f_equal. cbn [erase i_structs].
  replace (flat_map (fun p => s_complex (snd p)) (vmap erase_struct (i_structs i))) with (flat_map (fun p => s_complex (snd p)) (i_structs i))
    by (unfold vmap; induction (i_structs i) as [|[k s] l IH]; [reflexivity|]; cbn; now rewrite IH).
  generalize (flat_map (fun p => s_complex (snd p)) (i_structs i)) as cs. intros cs. generalize (i_structs i) as m. induction cs as [|c cs IH]; intros m; [reflexivity|].
  cbn [fold_left]. rewrite <- IH. f_equal. unfold count_member. destruct (sc_type c); try reflexivity; apply vmap_upd; reflexivity.
Qed.
Lemma erase_copy i : copy_info (erase i) = erase (copy_info i).
Proof. reflexivity. Qed.
Lemma erase_rv i rv : set_rv (erase i) rv = erase (set_rv i rv).
Proof. reflexivity. Qed.

(** *** The generator *)
Lemma erase_process_enum e : process_enum (erase_enum e) = process_enum e.
Proof. unfold process_enum. cbn [erase_enum e_name e_class e_lines]. rewrite !map_map. reflexivity. Qed.
Lemma flat_map_map {A B C} (f : A -> B) (g : B -> list C) l : flat_map g (map f l) = flat_map (fun a => g (f a)) l.
Proof. induction l as [|a l IH]; [reflexivity|]. cbn. now rewrite IH. Qed.
Lemma erase_enum_files i inputs cpp h s : enum_files (erase i) inputs cpp h s = enum_files i inputs cpp h s.
Proof.
  unfold enum_files. cbn [erase i_enums]. rewrite vmap_snd. generalize (map snd (i_enums i)) as es. intros es. rewrite !flat_map_map.
  rewrite (flat_map_ext (fun a => process_enum (erase_enum a)) process_enum erase_process_enum). reflexivity.
Qed.
Lemma erase_reader b s cls : struct_reader b (erase_struct s) cls = struct_reader b s cls.
Proof.
  destruct b; unfold struct_reader; try reflexivity;
  [unfold xa_reader|unfold xm_reader|unfold ni_reader]; cbn [erase_struct s_name s_simple s_complex]; rewrite ?flat_map_map, ?map_map; try reflexivity;
  destruct (s_simple s) as [|x l]; [reflexivity|]; cbn [map]; rewrite ?map_map; reflexivity.
Qed.
Lemma erase_writer b s cls nd : struct_writer b (erase_struct s) cls nd = struct_writer b s cls nd.
Proof.
  destruct b; unfold struct_writer;
  [unfold xa_writer|unfold xm_writer| |unfold ni_writer]; cbn [erase_struct s_name s_simple s_complex]; rewrite ?flat_map_map, ?map_map; reflexivity.
Qed.
Lemma forallb_map' {A B} (f : A -> B) (p : B -> bool) l : forallb p (map f l) = forallb (fun a => p (f a)) l.
Proof. induction l as [|a l IH]; [reflexivity|]. cbn. now rewrite IH. Qed.
Lemma forallb_ext' {A} (p q : A -> bool) l : (forall a, p a = q a) -> forallb p l = forallb q l.
Proof. intros H. induction l as [|a l IH]; [reflexivity|]. cbn. now rewrite H, IH. Qed.
Lemma erase_struct_files b i inputs o cpp h s : struct_files b (erase i) inputs o cpp h s = struct_files b i inputs o cpp h s.
Proof.
  unfold struct_files, entries. cbn [erase i_structs]. rewrite vmap_snd. generalize (map snd (i_structs i)) as l. intros l. rewrite !flat_map_map, !forallb_map'.
  rewrite (flat_map_ext (fun a => fst (struct_reader b (erase_struct a) (o_reader o))) (fun a => fst (struct_reader b a (o_reader o)))) by (intros a; now rewrite erase_reader).
  rewrite (flat_map_ext (fun a => fst (struct_writer b (erase_struct a) (o_writer o) (o_no_delta o))) (fun a => fst (struct_writer b a (o_writer o) (o_no_delta o)))) by (intros a; now rewrite erase_writer).
  rewrite (forallb_ext' (fun a => snd (struct_reader b (erase_struct a) (o_reader o))) (fun a => snd (struct_reader b a (o_reader o)))) by (intros a; now rewrite erase_reader).
  rewrite (forallb_ext' (fun a => snd (struct_writer b (erase_struct a) (o_writer o) (o_no_delta o))) (fun a => snd (struct_writer b a (o_writer o) (o_no_delta o)))) by (intros a; now rewrite erase_writer).
  reflexivity.
Qed.
