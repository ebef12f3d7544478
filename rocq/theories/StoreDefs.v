(** What definitions do to the item store. *)
From Coq Require Import String Ascii ZArith NArith Arith List Bool Lia.
From Verif Require Import Base Map Flex Items Bison Grammar ParseCorrect ParseLang LexGap Store Resolve StoreProps.
Import ListNotations.
Local Open Scope string_scope.
Local Open Scope list_scope.
Local Arguments mkeys : simpl never.

(** ** Specification: what a definition declares *)
Definition def_name (d : def) : string :=
  match d with DefEnum _ n _ _ => n | DefStruct n _ => n end.
Definition entry_line (e : entry) : enum_line :=
  match en_val e with
  | None => EnumLine (en_name e) false "-"
  | Some c => EnumLine (en_name e) true (constant_text c)
  end.
Definition simples (ms : list member) : list struct_simple :=
  flat_map (fun m => match m with MSimple ty n d => [Simple ty n (dflt_text d)] | _ => [] end) ms.
Definition complexes (ms : list member) : list struct_complex :=
  flat_map (fun m => match m with
                     | MSimple _ _ _ => []
                     | MUser t n _ => [Complex enum_or_struct_E t n]
                     | MVector t n => [Complex vector_E t n] end) ms.
Definition declares_enum (ds : list def) (n : string) (e : enum_S) : Prop :=
  exists c es t, In (DefEnum c n es t) ds /\ e = EnumS n c (map entry_line es).
Definition declares_struct (ds : list def) (n : string) (s : struct_S) : Prop :=
  exists ms, In (DefStruct n ms) ds /\ s = StructS n (simples ms) (complexes ms) 0.

(** A text that the parser accepts as the definitions [ds]. *)
Definition text_of (cs : bytes) (ds : list def) : Prop :=
  exists its le ee, scan_text cs = Some (its, le, ee) /\ wf_file ds /\ map i_tok its = file_tokens ds.

(** ** apply_calls *)
Lemma apply_calls_app a : forall b h,
  apply_calls (a ++ b) h =
  let? (h1, m1) := apply_calls a h in let? (h2, m2) := apply_calls b h1 in Some (h2, m1 ++ m2).
Proof.
  induction a as [|c a IH]; intros b h; cbn [apply_calls app].
  - destruct (apply_calls b h) as [[h2 m2]|]; reflexivity.
  - destruct (apply_call c h) as [[[h1 r] m1]|]; [|reflexivity]. rewrite IH.
    destruct (apply_calls a h1) as [[h2 m2]|]; [|reflexivity].
    destruct (apply_calls b h2) as [[h3 m3]|]; [|reflexivity]. rewrite app_assoc. reflexivity.
Qed.

Lemma run_outs_calls o : forall h h' m, apply_calls (calls_of o) h = Some (h', m) ->
  exists sm, run_outs o h = Some (h', sm) /\ messages sm = m.
Proof.
  induction o as [|x o IH]; intros h h' m; cbn [calls_of flat_map run_outs].
  - cbn. intros [= <- <-]. exists []. auto.
  - destruct x as [e|c|s]; cbn [app].
    + intros H. destruct (IH _ _ _ H) as (sm & -> & Hm). eexists. split; [reflexivity|exact Hm].
    + cbn [apply_calls]. destruct (apply_call c h) as [[[h1 r] m1]|]; [|discriminate].
      fold (calls_of o). destruct (apply_calls (calls_of o) h1) as [[h2 m2]|] eqn:E; [|discriminate].
      intros [= <- <-]. destruct (IH _ _ _ E) as (sm & -> & <-). eexists. split; [reflexivity|].
      unfold messages. rewrite flat_map_app. f_equal. clear. induction m1 as [|a m1 IH]; cbn; [auto|f_equal; auto].
    + intros H. destruct (IH _ _ _ H) as (sm & -> & Hm). eexists. split; [reflexivity|exact Hm].
Qed.

Lemma run_outs_reach o : forall b h, reach b h -> exists h' sm, run_outs o h = Some (h', sm) /\ reach b h'.
Proof.
  intros b h R. destruct (reach_calls b h (calls_of o) R) as (h' & m & E & R').
  destruct (run_outs_calls _ _ _ _ E) as (sm & -> & _). eauto.
Qed.

(** Reading files is always possible and stays within [reach]. *)
Lemma input_reach f b h : reach b h -> exists h' r m, process_input_file f h = Some (h', r, m) /\ reach b h'.
Proof.
  intros R. destruct f as [cs|]; cbn [process_input_file]; [|eauto].
  destruct (text_terminate cs) as (o & rv & _ & ->); [|lia].
  destruct (run_outs_reach o b h R) as (h' & sm & -> & R'). do 3 eexists. split; [reflexivity|].
  apply R_rv, R'.
Qed.

Lemma inputs_reach fs : forall b h, reach b h ->
  exists h' rs m, process_input_files fs h = Some (h', rs, m) /\ reach b h' /\ length rs = length fs.
Proof.
  induction fs as [|f fs IH]; intros b h R; cbn [process_input_files]; [do 3 eexists; eauto|].
  destruct (input_reach f b h R) as (h1 & r & m & -> & R1).
  destruct (IH b h1 R1) as (h2 & rs & m2 & -> & R2 & L). do 3 eexists. split; [reflexivity|].
  split; [exact R2|]. cbn; auto.
Qed.

Lemma input_text cs ds h h' m : text_of cs ds -> apply_calls (file_calls ds) h = Some (h', m) ->
  exists sm, process_input_file (Some cs) h = Some (Heap (set_rv (h_self h') 0) (h_common h'), true, sm) /\
    messages sm = m.
Proof.
  intros (its & le & ee & Hs & Hw & Ht) Hc. cbn [process_input_file].
  destruct (text_accept cs its le ee (8 * length cs + 11) ds Hs) as (o & -> & Ho & _); [lia|exact Hw|exact Ht|].
  rewrite <- Ho in Hc. destruct (run_outs_calls _ _ _ _ Hc) as (sm & -> & Hm).
  eexists. split; [reflexivity|exact Hm].
Qed.

(** ** A fresh definition *)
Lemma mupd_mset {A} n (f : A -> A) a m : mupd n f (mset n a m) = mset n (f a) m.
Proof.
  induction m as [|[k b] m IH]; cbn.
  - rewrite String.eqb_refl. reflexivity.
  - destruct (String.compare n k) eqn:E; cbn.
    + rewrite String.eqb_refl; auto.
    + rewrite String.eqb_refl; auto.
    + destruct (String.eqb_spec n k); [subst; rewrite compare_refl in E; discriminate|]. f_equal. exact IH.
Qed.
Lemma mfind_mset_same {A} n (a : A) m : mfind n (mset n a m) = Some a.
Proof.
  induction m as [|[k b] m IH]; cbn.
  - rewrite String.eqb_refl. reflexivity.
  - destruct (String.compare n k) eqn:E; cbn; rewrite ?String.eqb_refl; auto.
    destruct (String.eqb_spec n k); [subst; rewrite compare_refl in E; discriminate|]. exact IH.
Qed.

Definition add_def (d : def) (i : info) : info :=
  match d with
  | DefEnum c n es _ =>
      Info (i_structs i) (mset n (EnumS n c (map entry_line es)) (i_enums i)) None (Some (HSelf, n)) (i_parse_rv i)
  | DefStruct n ms =>
      Info (mset n (StructS n (simples ms) (complexes ms) 0) (i_structs i)) (i_enums i) (Some (HSelf, n)) None (i_parse_rv i)
  end.

Lemma entries_fresh es : forall ls i c n cls,
  apply_calls (map entry_call es)
    (Heap (Info (i_structs i) (mset n (EnumS n cls ls) (i_enums i)) None (Some (HSelf, n)) (i_parse_rv i)) c) =
  Some (Heap (Info (i_structs i) (mset n (EnumS n cls (ls ++ map entry_line es)) (i_enums i)) None (Some (HSelf, n))
         (i_parse_rv i)) c, []).
Proof.
  induction es as [|e es IH]; intros ls i c n cls; cbn [map apply_calls]; [rewrite app_nil_r; reflexivity|].
  assert (E : apply_call (entry_call e)
     (Heap (Info (i_structs i) (mset n (EnumS n cls ls) (i_enums i)) None (Some (HSelf, n)) (i_parse_rv i)) c) =
     Some (Heap (Info (i_structs i) (mset n (EnumS n cls (ls ++ [entry_line e])) (i_enums i)) None (Some (HSelf, n))
         (i_parse_rv i)) c, true, [])).
  { unfold entry_call, entry_line. destruct (en_val e) as [v|]; cbn; rewrite mfind_mset_same; unfold set_enums; cbn;
      rewrite mupd_mset; reflexivity. }
  rewrite E. rewrite IH. rewrite <- app_assoc. reflexivity.
Qed.

Lemma members_fresh ms : forall ls lc i c n,
  apply_calls (map member_call ms)
    (Heap (Info (mset n (StructS n ls lc 0) (i_structs i)) (i_enums i) (Some (HSelf, n)) None (i_parse_rv i)) c) =
  Some (Heap (Info (mset n (StructS n (ls ++ simples ms) (lc ++ complexes ms) 0) (i_structs i)) (i_enums i)
         (Some (HSelf, n)) None (i_parse_rv i)) c, []).
Proof.
  induction ms as [|e ms IH]; intros ls lc i c n; cbn [map apply_calls];
    [rewrite !app_nil_r; reflexivity|].
  destruct e as [ty x d|t x d|t x]; cbn [member_call apply_call h_self i_cur_struct];
    unfold add_simple, add_complex; cbn [obj h_self i_structs]; rewrite mfind_mset_same;
    unfold set_obj, set_structs; cbn [h_self h_common i_structs i_enums i_cur_struct i_cur_enum i_parse_rv];
    rewrite mupd_mset; cbn [s_name s_simple s_complex s_incoming]; rewrite IH; cbn [app simples complexes flat_map];
    rewrite <- !app_assoc; reflexivity.
Qed.

Lemma def_fresh d i c : get_item_type i (def_name d) = unknown_E ->
  apply_calls (def_calls d) (Heap i c) = Some (Heap (add_def d i) c, []).
Proof.
  intros E. destruct d as [cls n es t|n ms]; cbn [def_name] in E; cbn [def_calls apply_calls apply_call h_self];
    rewrite E; cbn [h_common]; [rewrite entries_fresh|rewrite members_fresh]; reflexivity.
Qed.

(** ** Distinct names *)
Lemma add_def_keys d i n : get_item_type (add_def d i) n = unknown_E <->
  n <> def_name d /\ get_item_type i n = unknown_E.
Proof.
  rewrite !type_unknown. destruct d as [cls x es t|x ms]; cbn; rewrite mset_keys; intuition congruence.
Qed.

Lemma add_def_sorted d i : sorted (i_structs i) -> sorted (i_enums i) ->
  sorted (i_structs (add_def d i)) /\ sorted (i_enums (add_def d i)).
Proof. destruct d; cbn; auto using mset_sorted. Qed.

Lemma defs_fresh ds : forall i c, NoDup (map def_name ds) ->
  (forall d, In d ds -> get_item_type i (def_name d) = unknown_E) ->
  apply_calls (file_calls ds) (Heap i c) = Some (Heap (fold_left (fun i d => add_def d i) ds i) c, []).
Proof.
  induction ds as [|d ds IH]; intros i c Hn Hf; [reflexivity|].
  unfold file_calls. cbn [map concat]. rewrite apply_calls_app, def_fresh by (apply Hf; cbn; auto).
  inversion Hn; subst. cbn [fold_left]. fold (file_calls ds). rewrite IH; auto.
  intros d' Hd'. apply add_def_keys. split; [|apply Hf; cbn; auto].
  intros E. apply H1. rewrite <- E. apply in_map; auto.
Qed.

Lemma fold_defs_find ds : forall i, NoDup (map def_name ds) ->
  (forall d, In d ds -> get_item_type i (def_name d) = unknown_E) ->
  sorted (i_structs i) -> sorted (i_enums i) ->
  (forall n s, mfind n (i_structs (fold_left (fun i d => add_def d i) ds i)) = Some s <->
     mfind n (i_structs i) = Some s \/ declares_struct ds n s) /\
  (forall n e, mfind n (i_enums (fold_left (fun i d => add_def d i) ds i)) = Some e <->
     mfind n (i_enums i) = Some e \/ declares_enum ds n e).
Proof.
  induction ds as [|d ds IH]; intros i Hn Hf S1 S2.
  - cbn. split; intros n x; (split; [auto|]); intros [H|H]; auto.
    + destruct H as (ms & [] & _).
    + destruct H as (cl & es & t & [] & _).
  - inversion Hn as [|? ? Hd Hn']; subst. cbn [fold_left].
    destruct (add_def_sorted d i S1 S2) as [S1' S2'].
    destruct (IH (add_def d i) Hn') as [H1 H2]; auto.
    { intros d' Hd'. apply add_def_keys. split; [|apply Hf; cbn; auto].
      intros E. apply Hd. rewrite <- E. apply in_map; auto. }
    pose proof (Hf d (or_introl eq_refl)) as Hfd. apply type_unknown in Hfd as [Hk1 Hk2].
    rewrite <- mfind_none in Hk1. rewrite <- mfind_none in Hk2.
    split.
    + intros n s. rewrite H1. destruct d as [cls x es t|x ms]; cbn [add_def i_structs def_name] in *.
      * split; (intros [H|H]; [auto|right]).
        -- destruct H as (ms & Hi & E). exists ms. cbn; auto.
        -- destruct H as (ms & [Hi|Hi] & E); [discriminate|]. exists ms; auto.
      * rewrite mfind_mset by auto. destruct (String.eqb_spec n x) as [->|Hx].
        -- split.
           ++ intros [[= <-]|H]; [right; exists ms; cbn; auto|].
              destruct H as (ms' & Hi & E). exfalso. apply Hd. apply (in_map def_name) in Hi. exact Hi.
           ++ intros [H|(ms' & [Hi|Hi] & E)]; [congruence| |].
              ** injection Hi as ->. subst; auto.
              ** exfalso. apply Hd. apply (in_map def_name) in Hi. exact Hi.
        -- split; (intros [H|H]; [auto|right]).
           ++ destruct H as (ms' & Hi & E). exists ms'. cbn; auto.
           ++ destruct H as (ms' & [Hi|Hi] & E); [congruence|]. exists ms'; auto.
    + intros n s. rewrite H2. destruct d as [cls x es t|x ms]; cbn [add_def i_enums def_name] in *.
      * rewrite mfind_mset by auto. destruct (String.eqb_spec n x) as [->|Hx].
        -- split.
           ++ intros [[= <-]|H]; [right; exists cls, es, t; cbn; auto|].
              destruct H as (c' & es' & t' & Hi & E). exfalso. apply Hd. apply (in_map def_name) in Hi. exact Hi.
           ++ intros [H|(c' & es' & t' & [Hi|Hi] & E)]; [congruence| |].
              ** injection Hi as -> -> ->. subst; auto.
              ** exfalso. apply Hd. apply (in_map def_name) in Hi. exact Hi.
        -- split; (intros [H|H]; [auto|right]).
           ++ destruct H as (c' & es' & t' & Hi & E). exists c', es', t'. cbn; auto.
           ++ destruct H as (c' & es' & t' & [Hi|Hi] & E); [congruence|]. exists c', es', t'; auto.
      * split; (intros [H|H]; [auto|right]).
        -- destruct H as (c' & es' & t' & Hi & E). exists c', es', t'. cbn; auto.
        -- destruct H as (c' & es' & t' & [Hi|Hi] & E); [discriminate|]. exists c', es', t'; auto.
Qed.

(** ** Several files are one sequence of definitions *)
Lemma set_rv_calls cs rv : forall i c,
  apply_calls cs (Heap (set_rv i rv) c) =
  let? (h, m) := apply_calls cs (Heap i c) in Some (Heap (set_rv (h_self h) rv) (h_common h), m).
Proof.
  induction cs as [|x cs IH]; intros i c; cbn [apply_calls]; [reflexivity|].
  assert (E : apply_call x (Heap (set_rv i rv) c) =
     let? (h, r, m) := apply_call x (Heap i c) in Some (Heap (set_rv (h_self h) rv) (h_common h), r, m)).
  { destruct x as [n cls|n ini v|n|ty n d|ty tn n]; cbn [apply_call h_self set_rv i_cur_enum i_cur_struct].
    - change (get_item_type (set_rv i rv) n) with (get_item_type i n). destruct (get_item_type i n); reflexivity.
    - destruct (i_cur_enum i) as [[[] k]|]; cbn; [destruct (mfind k _)|destruct (mfind k _)|]; reflexivity.
    - change (get_item_type (set_rv i rv) n) with (get_item_type i n). destruct (get_item_type i n); reflexivity.
    - destruct (i_cur_struct i) as [[[] k]|]; cbn; [destruct (mfind k _)|destruct (mfind k _)|]; reflexivity.
    - destruct (i_cur_struct i) as [[[] k]|]; cbn; [destruct (mfind k _)|destruct (mfind k _)|]; reflexivity. }
  rewrite E. destruct (apply_call x (Heap i c)) as [[[[i1 c1] r] m]|]; [|reflexivity]. cbn [h_self h_common].
  rewrite IH. destruct (apply_calls cs (Heap i1 c1)) as [[[i2 c2] m2]|]; reflexivity.
Qed.

Lemma inputs_text files dss : Forall2 text_of files dss -> forall b h, reach b h ->
  exists h' m sm, apply_calls (file_calls (concat dss)) h = Some (h', m) /\
    process_input_files (map Some files) h =
      Some (match files with [] => h | _ => Heap (set_rv (h_self h') 0) (h_common h') end,
            map (fun _ => true) files, sm) /\
    messages sm = m.
Proof.
  induction 1 as [|cs ds files dss Ht Hts IH]; intros b h R.
  - do 3 eexists. split; [reflexivity|]. split; reflexivity.
  - destruct (reach_calls b h (file_calls ds) R) as (h1 & m1 & E1 & R1).
    destruct (input_text cs ds h h1 m1 Ht E1) as (sm1 & P1 & M1).
    destruct (IH b (Heap (set_rv (h_self h1) 0) (h_common h1)) (R_rv _ _ _ R1)) as (h2 & m2 & sm2 & E2 & P2 & M2).
    destruct h1 as [i1 c1]; cbn [h_self h_common] in *. rewrite set_rv_calls in E2.
    destruct (apply_calls (file_calls (concat dss)) (Heap i1 c1)) as [[[i3 c3] m3]|] eqn:E3; [|discriminate].
    injection E2 as <- <-. cbn [h_self h_common] in *.
    exists (Heap i3 c3), (m1 ++ m3), (sm1 ++ sm2). split; [|split].
    + unfold file_calls in *. cbn [concat]. rewrite map_app, concat_app, apply_calls_app, E1, E3. reflexivity.
    + cbn [map process_input_files]. rewrite P1, P2. destruct files; cbn; [|reflexivity].
      clear M1 M2. inversion Hts; subst. cbn in E3. injection E3 as <- <- <-. reflexivity.
    + unfold messages in *. rewrite flat_map_app, M1, M2. reflexivity.
Qed.
