(** The program that consists of the generated files: what is assumed of the names in the
    headers, and which function a call finds. *)
From Coq Require Import String Ascii ZArith NArith Arith List Bool Lia.
From Verif Require Import Base Map Items Grammar Fmt Decimal Templates Emit Cpp Xml Val CppSem SymLex Ast StoreDefs ResolveProps.
Import ListNotations.
Local Open Scope string_scope.
Local Open Scope list_scope.

(** *** Names in the headers
    Identifiers with a meaning of their own in the generated functions: local variables,
    parameters, members and functions of the generated classes, namespaces. *)
Definition reserved : list string :=
  ["rv"; "el"; "data"; "default_data"; "ch_el"; "i"; "ui"; "pt"; "item"; "s"; "itr"; "ch_ch_el"; "filename";
   "struct_to_fill"; "struct_to_read"; "er"; "doc"; "doc_w"; "ch"; "e"; "path"; "lower_path"; "items"; "found_items";
   "file"; "current_lookup"; "buflen"; "buf"; "line"; "pos"; "res"; "regex"; "key"; "value"; "new_item"; "delta_only";
   "m_delta_only"; "m_lookup"; "m_multiline_string_key"; "m_multiline_string_value"; "m_file";
   "read_from_file"; "write_to_file"; "find_element"; "s_from_e"; "s_to_e"; "size_t"; "read_item_S";
   "std"; "tinyxml2"; "fmt"; "stfx"].
Definition mem (x : string) (l : list string) : bool := existsb (String.eqb x) l.
(** A type name that generated code can use everywhere: not hidden by anything the
    generator declares itself. *)
Definition type_ok (rd wr n : string) : bool :=
  (name_ok n && negb (mem n reserved) && negb (prefix "do_" n) && negb (String.eqb n rd) && negb (String.eqb n wr))%bool.
(** An enumerator of an unscoped enumeration [n] is named without it in the two
    functions of the enumeration. *)
Definition enumerator_ok (n x : string) : bool :=
  negb (mem x ["e"; "s"; "rv"; "s_from_e"; "s_to_e"; "std"; n_tostr n; n_strto n]).
Definition class_ok (c : string) : bool := (name_ok c && negb (mem c ["std"; "tinyxml2"; "fmt"; "stfx"]))%bool.

(** Names in the scope of the headers: types and unscoped enumerators. *)
Definition scope_names (d : def) : list string :=
  match d with DefEnum false n es _ => n :: map en_name es | _ => [def_name d] end.
(** A type that can be used for a member when [known] are the definitions so far. *)
Definition member_ok (known : list def) (self : string) (all : list def) (m : member) : bool :=
  (name_ok (member_name m) &&
   match m with
   | MSimple _ _ _ => true
   | MUser t _ _ => match kind_in known t with struct_E | enum_E => true | _ => false end
   | MVector t _ => match find_struct all t with Some _ => true | None => false end
   end)%bool.
Definition def_ok (known all : list def) (d : def) : bool :=
  match d with
  | DefEnum c n es _ => (distinct (map en_name es) && forallb (fun x => name_ok (en_name x)) es &&
                        (c || forallb (fun x => enumerator_ok n (en_name x)) es))%bool
  | DefStruct n ms => (distinct (map member_name ms) && forallb (member_ok known n all) ms)%bool
  end.
Fixpoint defs_ok (known all ds : list def) : bool :=
  match ds with
  | [] => true
  | d :: r => (def_ok known all d && defs_ok (known ++ [d]) all r)%bool
  end.
(** Headers that compile, and whose names do not get in the way of generated names. *)
Definition header_ok (rd wr : string) (ds : list def) : bool :=
  (distinct (flat_map scope_names ds) && forallb (fun d => type_ok rd wr (def_name d)) ds && defs_ok [] ds ds &&
   class_ok rd && class_ok wr && negb (String.eqb rd wr))%bool.

(** *** The structs and enums the generator works on, and the definitions *)
Definition enum_of (c : bool) (n : string) (es : list entry) : enum_S := EnumS n c (map entry_line es).
Record linked (ds : list def) (enums : list enum_S) (ss : list struct_S) : Prop := Linked {
  lk_enums : forall e, In e enums <-> exists c n es t, In (DefEnum c n es t) ds /\ e = enum_of c n es;
  lk_enum_names : NoDup (map e_name enums);
  lk_structs : forall n, (exists ms, In (DefStruct n ms) ds) <-> (exists s, In s ss /\ s_name s = n);
  lk_struct : forall s, In s ss -> exists ms, In (DefStruct (s_name s) ms) ds /\
                s_simple s = simples ms /\ s_complex s = resolved_members ds ms;
  lk_struct_names : NoDup (map s_name ss)
}.

(** *** Elementary facts *)
Lemma mem_in x l : mem x l = true <-> In x l.
Proof.
  unfold mem. rewrite existsb_exists. split; [intros (y & H & E); apply String.eqb_eq in E; now subst | intros H].
  exists x. split; [auto | apply String.eqb_refl].
Qed.
Lemma mem_not x l : mem x l = false <-> ~ In x l.
Proof. rewrite <- mem_in, not_true_iff_false. tauto. Qed.
Lemma distinct_nodup l : distinct l = true <-> NoDup l.
Proof.
  induction l as [|x l IH]; cbn [distinct]; [split; [constructor|reflexivity]|].
  rewrite andb_true_iff, negb_true_iff, IH. change (existsb (String.eqb x) l) with (mem x l). rewrite mem_not.
  split; [intros []; now constructor | intros H; inversion H; auto].
Qed.
Lemma names_eqb_refl a : names_eqb a a = true.
Proof. induction a; cbn; [auto|]. now rewrite String.eqb_refl. Qed.
Lemma names_eqb_spec a : forall b, names_eqb a b = true <-> a = b.
Proof.
  induction a as [|x a IH]; intros [|y b]; cbn; split; try discriminate; auto.
  - rewrite andb_true_iff, String.eqb_eq, IH. intros []; congruence.
  - intros [= -> ->]. rewrite String.eqb_refl. apply IH. reflexivity.
Qed.
Lemma names_eqb2 a b c d : names_eqb [a; b] [c; d] = (String.eqb a c && String.eqb b d)%bool.
Proof. cbn. now rewrite andb_true_r. Qed.
Lemma eqb_neq a b : a <> b -> String.eqb a b = false.
Proof. apply String.eqb_neq. Qed.
Lemma append_inj p a b : String.eqb (p ++ a)%string (p ++ b)%string = String.eqb a b.
Proof. induction p as [|c p IH]; [reflexivity|]. cbn [String.append String.eqb]. now rewrite Ascii.eqb_refl. Qed.
Lemma prefix_append p a : prefix p (p ++ a)%string = true.
Proof. induction p as [|c p IH]; [destruct a; reflexivity|]. cbn [String.append prefix]. destruct (ascii_dec c c); [auto|congruence]. Qed.

Record type_fine (rd wr n : string) : Prop := TypeFine {
  tf_name : name_ok n = true; tf_reserved : forall x, In x reserved -> String.eqb n x = false;
  tf_do : prefix "do_" n = false; tf_rd : String.eqb n rd = false; tf_wr : String.eqb n wr = false }.
Lemma type_ok_fine rd wr n : type_ok rd wr n = true -> type_fine rd wr n.
Proof.
  unfold type_ok. rewrite !andb_true_iff, !negb_true_iff, mem_not. intros ((((A & B) & C) & D) & E).
  constructor; auto. intros x I. apply eqb_neq. congruence.
Qed.

(** Exactly one function of a list. *)
Lemma filter_none {A} (p : A -> bool) l : (forall a, In a l -> p a = false) -> filter p l = [].
Proof.
  induction l as [|a l IH]; intros H; [reflexivity|]. cbn [filter]. rewrite (H a (or_introl eq_refl)).
  apply IH. intros; apply H; now right.
Qed.
Lemma filter_one {A K} (key : A -> K) (p : A -> bool) l a :
  NoDup (map key l) -> In a l -> p a = true -> (forall b, In b l -> p b = true -> key b = key a) -> filter p l = [a].
Proof.
  induction l as [|x l IH]; intros N I T U; [contradiction|]. cbn [map] in N. inversion N as [|? ? NI ND]; subst.
  cbn [filter]. destruct I as [->|I].
  - rewrite T. f_equal. apply filter_none. intros b B. destruct (p b) eqn:E; [|reflexivity]. exfalso. apply NI.
    rewrite <- (U b (or_intror B) E). now apply in_map.
  - destruct (p x) eqn:E.
    + exfalso. apply NI. rewrite (U x (or_introl eq_refl) E). now apply in_map.
    + apply IH; auto. intros b B. apply U. now right.
Qed.
Lemma flat_map_one {A B} (f : A -> B) l : flat_map (fun a => [f a]) l = map f l.
Proof. induction l; cbn; congruence. Qed.
Lemma filter_map {A B} (f : A -> B) p l : filter p (map f l) = map f (filter (fun a => p (f a)) l).
Proof. induction l as [|a l IH]; [reflexivity|]. cbn. destruct (p (f a)); cbn; now rewrite IH. Qed.

(** *** Which function a call finds *)
(** One reader and one writer function per struct (all back ends but plain ini). *)
Definition one_rd (b : backend) (s : struct_S) (cls : string) : fdef :=
  match b with B_xml_attrib => xa_rd_fun s cls | B_xml => xm_rd_fun s cls | _ => ni_rd_fun s cls end.
Definition one_wr (b : backend) (s : struct_S) (cls : string) (nd : bool) : fdef :=
  match b with B_xml_attrib => xa_wr_fun s cls nd | B_xml => xm_wr_fun s cls nd | _ => ni_wr_fun s cls nd end.
Definition rd_name (b : backend) (t : string) : string :=
  match b with B_xml_attrib | B_xml => pre_do t | _ => pre_rd t end.
Lemma rd_fun_one b s cls : b <> B_ini -> rd_fun b s cls = [one_rd b s cls].
Proof. destruct b; try congruence; reflexivity. Qed.
Lemma wr_fun_one b s cls nd : b <> B_ini -> wr_fun b s cls nd = [one_wr b s cls nd].
Proof. destruct b; try congruence; reflexivity. Qed.
Lemma one_rd_name b s cls : fd_name (one_rd b s cls) = [cls; rd_name b (s_name s)].
Proof. destruct b; reflexivity. Qed.
Lemma one_wr_name b s cls nd : fd_name (one_wr b s cls nd) = [cls; pre_wr (s_name s)].
Proof. destruct b; reflexivity. Qed.

Lemma rd_name_do b t : prefix "do_" (rd_name b t) = true.
Proof. destruct b; apply (prefix_append "do_"). Qed.
Lemma pre_wr_do t : prefix "do_" (pre_wr t) = true.
Proof. apply (prefix_append "do_"). Qed.

Section Program.
  Variables (b : backend) (enums : list enum_S) (ss : list struct_S) (o : output_spec).
  Hypothesis BI : b <> B_ini.
  Definition prog : list fdef := flat_map enum_funs enums ++ file_funs b ss o.
  Let R := o_reader o.
  Let W := o_writer o.
  Hypothesis CR : class_ok R = true.
  Hypothesis CW : class_ok W = true.
  Hypothesis RW : String.eqb R W = false.
  Hypothesis NS : NoDup (map s_name ss).
  Hypothesis NE : NoDup (map e_name enums).

  Lemma class_not_stfx c : class_ok c = true -> String.eqb c "stfx" = false.
  Proof.
    unfold class_ok. rewrite andb_true_iff, negb_true_iff, mem_not. intros [_ H]. apply eqb_neq. intros ->.
    apply H. cbn. tauto.
  Qed.
  Lemma enum_part d : In d (flat_map enum_funs enums) -> exists f, fd_name d = ["stfx"; f] /\ (f = "s_from_e" \/ f = "s_to_e").
  Proof.
    intros H. apply in_flat_map in H as (e & _ & [<-|[<-|[]]]); eexists; (split; [reflexivity | auto]).
  Qed.
  Lemma reader_part d : In d (reader_funs b ss R) ->
    (fd_name d = [R; R] /\ fd_params d = []) \/ fd_name d = [R; "read_from_file"] \/
    (exists s, In s ss /\ d = one_rd b s R).
  Proof.
    unfold reader_funs. intros [<-|H]; [left; split; reflexivity|]. right. apply in_app_or in H as [H|H].
    - left. apply in_map_iff in H as (s & <- & _). destruct b; reflexivity.
    - right. apply in_flat_map in H as (s & I & J). rewrite (rd_fun_one b s R BI) in J. destruct J as [<-|[]]. eauto.
  Qed.
  Lemma writer_part d : In d (writer_funs b ss W R (o_no_delta o)) ->
    (fd_name d = [W; W] /\ exists x, fd_params d = [(t_bool, x)]) \/ fd_name d = [W; "write_to_file"] \/
    (exists s, In s ss /\ d = one_wr b s W (o_no_delta o)).
  Proof.
    unfold writer_funs. intros [<-|H]; [left; split; [reflexivity | eexists; reflexivity]|]. right. apply in_app_or in H as [H|H].
    - left. apply in_map_iff in H as (s & <- & _). destruct b; reflexivity.
    - right. apply in_flat_map in H as (s & I & J). rewrite (wr_fun_one b s W _ BI) in J. destruct J as [<-|[]]. eauto.
  Qed.

  (** The filter of [call_fun], by class. *)
  Lemma find_stfx f p : f = "s_from_e" \/ f = "s_to_e" ->
    filter (fun d => (names_eqb (fd_name d) ["stfx"; f] && p d)%bool) prog =
    filter (fun d => (names_eqb (fd_name d) ["stfx"; f] && p d)%bool) (flat_map enum_funs enums).
  Proof.
    intros F. unfold prog. rewrite filter_app. rewrite <- app_nil_r. f_equal. apply filter_none. intros d H.
    assert (exists c m, fd_name d = [c; m] /\ (c = R \/ c = W)) as (c & m & -> & C).
    { unfold file_funs in H. apply in_app_or in H as [H|H].
      - apply reader_part in H as [[H _]|[H|(s & _ & ->)]]; [exists R, R; auto | exists R, "read_from_file"; auto|].
        rewrite one_rd_name. eauto.
      - destruct (o_only_read o); [contradiction|].
        apply writer_part in H as [[H _]|[H|(s & _ & ->)]]; [exists W, W; auto | exists W, "write_to_file"; auto|].
        rewrite one_wr_name. eauto. }
    rewrite names_eqb2. destruct C as [->| ->]; [rewrite (class_not_stfx _ CR) | rewrite (class_not_stfx _ CW)]; reflexivity.
  Qed.
  Lemma no_enum_part c m p : class_ok c = true ->
    filter (fun d => (names_eqb (fd_name d) [c; m] && p d)%bool) (flat_map enum_funs enums) = [].
  Proof.
    intros C. apply filter_none. intros d H. apply enum_part in H as (f & -> & _). rewrite names_eqb2.
    rewrite String.eqb_sym, (class_not_stfx c C). reflexivity.
  Qed.
  Lemma find_reader m p :
    filter (fun d => (names_eqb (fd_name d) [R; m] && p d)%bool) prog =
    filter (fun d => (names_eqb (fd_name d) [R; m] && p d)%bool) (reader_funs b ss R).
  Proof.
    unfold prog, file_funs. rewrite !filter_app, (no_enum_part R m p CR). cbn [app]. rewrite <- app_nil_r. f_equal.
    destruct (o_only_read o); [reflexivity|]. apply filter_none. intros d H.
    assert (exists x, fd_name d = [W; x]) as (x & ->).
    { apply writer_part in H as [[H _]|[H|(s & _ & ->)]]; eauto. rewrite one_wr_name. eauto. }
    rewrite names_eqb2. unfold R, W in *. rewrite String.eqb_sym, RW. reflexivity.
  Qed.
  Lemma find_writer m p : o_only_read o = false ->
    filter (fun d => (names_eqb (fd_name d) [W; m] && p d)%bool) prog =
    filter (fun d => (names_eqb (fd_name d) [W; m] && p d)%bool) (writer_funs b ss W R (o_no_delta o)).
  Proof.
    intros O. unfold prog, file_funs. rewrite !filter_app, (no_enum_part W m p CW), O. cbn [app].
    rewrite filter_none; [reflexivity|]. intros d H.
    assert (exists x, fd_name d = [R; x]) as (x & ->).
    { apply reader_part in H as [[H _]|[H|(s & _ & ->)]]; eauto. rewrite one_rd_name. eauto. }
    rewrite names_eqb2. unfold R, W in *. rewrite RW. reflexivity.
  Qed.

  Lemma rd_name_inj s t : String.eqb (rd_name b s) (rd_name b t) = String.eqb s t.
  Proof. destruct b; apply append_inj. Qed.
  Lemma rd_name_file t : String.eqb "read_from_file" (rd_name b t) = false.
  Proof. destruct b; reflexivity. Qed.
  Lemma find_rd s p : In s ss -> p (one_rd b s R) = true -> (forall d, fd_params d = [] -> p d = false) ->
    filter (fun d => (names_eqb (fd_name d) [R; rd_name b (s_name s)] && p d)%bool) prog = [one_rd b s R].
  Proof.
    intros I P Z. rewrite find_reader. unfold reader_funs. cbn [filter].
    rewrite (Z (x_ctor R) eq_refl), andb_false_r. rewrite filter_app.
    rewrite filter_none; cbn [app].
    2:{ intros d H. apply in_map_iff in H as (x & <- & _).
        assert (fd_name (rff_fun b R (s_name x)) = [R; "read_from_file"]) as -> by (destruct b; reflexivity).
        rewrite names_eqb2, rd_name_file, andb_false_r. reflexivity. }
    rewrite (flat_map_ext _ (fun s => [one_rd b s R])) by (intros; now apply rd_fun_one).
    rewrite flat_map_one, filter_map.
    rewrite (filter_one s_name _ ss s NS I); [reflexivity | |].
    - now rewrite one_rd_name, names_eqb_refl, P.
    - intros x X H. apply andb_prop in H as [H _]. rewrite one_rd_name, names_eqb2 in H.
      apply andb_prop in H as [_ H]. rewrite rd_name_inj in H. now apply String.eqb_eq.
  Qed.
  Lemma find_wr s p : In s ss -> o_only_read o = false -> p (one_wr b s W (o_no_delta o)) = true ->
    (forall d x, fd_params d = [(t_bool, x)] -> p d = false) ->
    filter (fun d => (names_eqb (fd_name d) [W; pre_wr (s_name s)] && p d)%bool) prog = [one_wr b s W (o_no_delta o)].
  Proof.
    intros I O P Z. rewrite find_writer by auto. unfold writer_funs. cbn [filter].
    rewrite (Z (x_wctor W R) _ eq_refl), andb_false_r. rewrite filter_app.
    rewrite filter_none; cbn [app].
    2:{ intros d H. apply in_map_iff in H as (x & <- & _).
        assert (fd_name (wtf_fun b W (s_name x)) = [W; "write_to_file"]) as -> by (destruct b; reflexivity).
        rewrite names_eqb2, andb_false_r. reflexivity. }
    rewrite (flat_map_ext _ (fun s => [one_wr b s W (o_no_delta o)])) by (intros; now apply wr_fun_one).
    rewrite flat_map_one, filter_map.
    rewrite (filter_one s_name _ ss s NS I); [reflexivity | |].
    - now rewrite one_wr_name, names_eqb_refl, P.
    - intros x X H. apply andb_prop in H as [H _]. rewrite one_wr_name, names_eqb2 in H.
      apply andb_prop in H as [_ H]. unfold pre_wr in H. rewrite append_inj in H. now apply String.eqb_eq.
  Qed.

  (** Names that are no member functions. *)
  Lemma method_reader m : is_method prog R m = true -> m = R \/ m = "read_from_file" \/ exists s, In s ss /\ m = rd_name b (s_name s).
  Proof.
    unfold is_method. rewrite existsb_exists. intros (d & I & E). apply names_eqb_spec in E.
    unfold prog in I. apply in_app_or in I as [I|I].
    { apply enum_part in I as (f & F & _). rewrite F in E. injection E as E _. pose proof (class_not_stfx R CR) as X.
      rewrite <- E in X. cbn in X. discriminate. }
    unfold file_funs in I. apply in_app_or in I as [I|I].
    - apply reader_part in I as [[H _]|[H|(s & J & ->)]].
      + left. congruence.
      + right; left. congruence.
      + right; right. exists s. rewrite one_rd_name in E. split; [auto|congruence].
    - exfalso. destruct (o_only_read o); [contradiction|].
      assert (exists x, fd_name d = [W; x]) as (x & X).
      { apply writer_part in I as [[H _]|[H|(s & _ & ->)]]; eauto. rewrite one_wr_name. eauto. }
      rewrite X in E. injection E as E _. unfold R, W in *. rewrite E in RW. rewrite String.eqb_refl in RW. discriminate.
  Qed.
  Lemma method_writer m : is_method prog W m = true -> m = W \/ m = "write_to_file" \/ exists s, In s ss /\ m = pre_wr (s_name s).
  Proof.
    unfold is_method. rewrite existsb_exists. intros (d & I & E). apply names_eqb_spec in E.
    unfold prog in I. apply in_app_or in I as [I|I].
    { apply enum_part in I as (f & F & _). rewrite F in E. injection E as E _. pose proof (class_not_stfx W CW) as X.
      rewrite <- E in X. cbn in X. discriminate. }
    unfold file_funs in I. apply in_app_or in I as [I|I].
    - exfalso. assert (exists x, fd_name d = [R; x]) as (x & X).
      { apply reader_part in I as [[H _]|[H|(s & _ & ->)]]; eauto. rewrite one_rd_name. eauto. }
      rewrite X in E. injection E as E _. unfold R, W in *. rewrite E in RW. rewrite String.eqb_refl in RW. discriminate.
    - destruct (o_only_read o); [contradiction|].
      apply writer_part in I as [[H _]|[H|(s & J & ->)]].
      + left. congruence.
      + right; left. congruence.
      + right; right. exists s. rewrite one_wr_name in E. split; [auto|congruence].
  Qed.
  Lemma method_stfx m : is_method prog "stfx" m = true -> m = "s_from_e" \/ m = "s_to_e".
  Proof.
    unfold is_method. rewrite existsb_exists. intros (d & I & E). apply names_eqb_spec in E.
    unfold prog in I. apply in_app_or in I as [I|I].
    { apply enum_part in I as (f & F & G). rewrite F in E. injection E as <-. auto. }
    exfalso. assert (exists c m', fd_name d = [c; m'] /\ (c = R \/ c = W)) as (c & m' & X & C).
    { unfold file_funs in I. apply in_app_or in I as [I|I].
      - apply reader_part in I as [[H _]|[H|(s & _ & ->)]]; eauto. rewrite one_rd_name. eauto.
      - destruct (o_only_read o); [contradiction|].
        apply writer_part in I as [[H _]|[H|(s & _ & ->)]]; eauto. rewrite one_wr_name. eauto. }
    rewrite X in E. injection E as E _.
    destruct C as [->| ->]; [pose proof (class_not_stfx R CR) as Y | pose proof (class_not_stfx W CW) as Y];
      rewrite E in Y; discriminate.
  Qed.
  Lemma type_no_method c n : type_fine R W n -> c = R \/ c = W \/ c = "stfx" -> is_method prog c n = false.
  Proof.
    intros F C. apply not_true_iff_false. intros H. destruct F as [_ F D E1 E2].
    destruct C as [->|[->| ->]].
    - apply method_reader in H as [->|[->|(s & _ & ->)]].
      + rewrite String.eqb_refl in E1. discriminate.
      + specialize (F "read_from_file" ltac:(cbn; tauto)). discriminate.
      + rewrite rd_name_do in D. discriminate.
    - apply method_writer in H as [->|[->|(s & _ & ->)]].
      + rewrite String.eqb_refl in E2. discriminate.
      + specialize (F "write_to_file" ltac:(cbn; tauto)). discriminate.
      + rewrite pre_wr_do in D. discriminate.
    - apply method_stfx in H as [->| ->].
      + specialize (F "s_from_e" ltac:(cbn; tauto)). discriminate.
      + specialize (F "s_to_e" ltac:(cbn; tauto)). discriminate.
  Qed.
  Lemma is_rd s : In s ss -> is_method prog R (rd_name b (s_name s)) = true.
  Proof.
    intros I. unfold is_method, prog, file_funs, reader_funs. rewrite existsb_app. apply orb_true_intro. right.
    rewrite existsb_app. apply orb_true_intro. left. cbn [existsb]. apply orb_true_intro. right.
    rewrite existsb_app. apply orb_true_intro. right. apply existsb_exists. exists (one_rd b s R). split.
    - apply in_flat_map. exists s. split; [auto|]. rewrite rd_fun_one by auto. now left.
    - rewrite one_rd_name. apply names_eqb_refl.
  Qed.
  Lemma is_wr s : In s ss -> o_only_read o = false -> is_method prog W (pre_wr (s_name s)) = true.
  Proof.
    intros I O. unfold is_method, prog, file_funs, writer_funs. rewrite existsb_app. apply orb_true_intro. right.
    rewrite existsb_app. apply orb_true_intro. right. rewrite O. cbn [existsb]. apply orb_true_intro. right.
    rewrite existsb_app. apply orb_true_intro. right. apply existsb_exists. exists (one_wr b s W (o_no_delta o)). split.
    - apply in_flat_map. exists s. split; [auto|]. rewrite wr_fun_one by auto. now left.
    - rewrite one_wr_name. apply names_eqb_refl.
  Qed.
End Program.
