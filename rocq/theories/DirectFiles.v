(** The preprocessor lines of the four files. *)
From Coq Require Import String Ascii ZArith NArith Arith List Bool Lia.
From Verif Require Import Base Map Items Fmt Templates Emit Cpp SymLex PrintXa PrintEnum PrintFile Direct.
Import ListNotations.
Local Open Scope string_scope.
Local Open Scope list_scope.

(** *** Inserted texts *)
Fixpoint one_line (s : string) : bool := match s with EmptyString => true | String c r => negb (c =? nl)%char && one_line r end.
Lemma plain_one_line s : plain s = true -> one_line s = true.
Proof.
  unfold plain. induction s as [|c s IH]; [reflexivity|]. cbn [all_chars one_line]. intros H. apply andb_prop in H as [H1 H2].
  rewrite (IH H2), andb_true_r. unfold plain_chr in H1. rewrite !negb_orb in H1. apply andb_prop in H1 as [H1 _]. now apply andb_prop in H1 as [H1 _].
Qed.
Lemma idc_fine c : is_idc c = true -> negb ((c =? nl) || (c =? "#"))%char = true.
Proof. destruct c as [[] [] [] [] [] [] [] []]; (reflexivity || discriminate). Qed.
Lemma fine_idc s : all_chars is_idc s = true -> fine s = true.
Proof.
  induction s as [|c s IH]; [reflexivity|]. cbn [all_chars fine]. intros H. apply andb_prop in H as [H1 H2].
  now rewrite (idc_fine c H1), IH.
Qed.
Lemma fine_name s : name_ok s = true -> fine s = true.
Proof.
  unfold name_ok. intros H. apply andb_prop in H as [H _]. destruct s as [|c s]; [discriminate|]. cbn [ident] in H. apply andb_prop in H as [H1 H2].
  apply fine_idc. cbn [all_chars]. rewrite H2, andb_true_r. unfold is_idc. now rewrite H1.
Qed.
Lemma fine_spaces s : fine s = true -> fine (underline_to_space s) = true.
Proof.
  induction s as [|c s IH]; [reflexivity|]. cbn [fine underline_to_space]. intros H. apply andb_prop in H as [H1 H2]. rewrite (IH H2), andb_true_r.
  destruct (c =? "_")%char; [reflexivity|exact H1].
Qed.
Lemma calm_one_line s t : one_line s = true -> calm false t = true -> calm false (s ++ t) = true.
Proof.
  induction s as [|c s IH]; intros H G; [exact G|]. cbn [one_line calm String.append] in *. apply andb_prop in H as [H1 H2].
  apply negb_true_iff in H1. rewrite H1. destruct ((c =? " ") || (c =? tab))%char; [auto|]. destruct (c =? "#")%char; cbn [negb andb]; auto.
Qed.

(** *** Single lines *)
Lemma lines_one s t : one_line s = true -> lines (s ++ t) = match lines t with l :: ls => (s ++ l)%string :: ls | [] => [s] end.
Proof.
  intros H. induction s as [|c s IH]; [cbn [String.append]; destruct (lines_some t) as (l & ls & ->); reflexivity|].
  cbn [one_line] in H. apply andb_prop in H as [H1 H2]. apply negb_true_iff in H1. cbn [String.append lines]. rewrite H1, (IH H2).
  destruct (lines_some t) as (l & ls & ->). reflexivity.
Qed.
(** #include "f", and an empty line behind it or not. *)
Lemma include_at to t f : t = Some [Lit "#include """; Arg 0; Lit """"] \/ t = Some [Lit "#include """; Arg 0; Lit (String dquote NL)] ->
  one_line f = true -> tops_at (Cmd to t [f]) [include_file f].
Proof.
  intros [->| ->] O s F; unfold directives, include_file.
  - assert (s = "#include """ ++ f ++ """")%string as -> by (injection F as <-; reflexivity). rewrite (lines_one "#include """) by reflexivity. rewrite (lines_one f _ O). reflexivity.
  - assert (s = "#include """ ++ f ++ String dquote NL)%string as -> by (injection F as <-; reflexivity).
    rewrite (lines_one "#include """) by reflexivity. rewrite (lines_one f _ O). reflexivity.
Qed.
Lemma dirs_includes to t inputs cs m : t = Some [Lit "#include """; Arg 0; Lit """"] -> forallb plain inputs = true -> dirs to cs m ->
  dirs to (includes to t inputs ++ cs) (map include_file inputs ++ m).
Proof.
  intros T P D. induction inputs as [|f l IH]; [exact D|]. cbn [forallb] in P. apply andb_prop in P as [P1 P2].
  change (map include_file (f :: l) ++ m) with ([include_file f] ++ (map include_file l ++ m)).
  change (includes to t (f :: l) ++ cs) with (Cmd to t [f] :: (includes to t l ++ cs)).
  apply dirs_cons; [destruct to; reflexivity|apply include_at; auto using plain_one_line|auto].
Qed.
Lemma dirs_other_includes to to' t inputs cs m : to_eqb to' to = false -> dirs to cs m -> dirs to (includes to' t inputs ++ cs) m.
Proof. intros E D. induction inputs as [|f l IH]; [exact D|]. cbn [includes map app]. apply dirs_skip; [exact E|exact IH]. Qed.
(** Comments. *)
Lemma comment_at to t f : t = Some [Lit "// "; Arg 0] \/ t = Some [Lit "// "; Arg 0; Lit NL] -> one_line f = true -> tops_at (Cmd to t [f]) [].
Proof.
  intros [->| ->] O s F; apply calm_directives; injection F as <-.
  - change (calm false (f ++ "") = true). now apply calm_one_line.
  - change (calm false (f ++ NL) = true). now apply calm_one_line.
Qed.
Lemma info_at to t stamp info : t = Some [Arg 0] -> stfx_info stamp = Some info -> plain stamp = true -> tops_at (Cmd to t [info]) [].
Proof.
  intros -> I P s [= <-]. rewrite sapp_nil_r. unfold stfx_info, format, pi_19 in I. cbn in I. injection I as <-.
  apply calm_directives. cbn. apply calm_one_line; [now apply plain_one_line|reflexivity].
Qed.

(** *** The functions *)
Lemma quiet_flat {A} (f : A -> list cmd) l : (forall a, In a l -> forallb quiet (f a) = true) -> forallb quiet (flat_map f l) = true.
Proof.
  intros H. induction l as [|a l IH]; [reflexivity|]. cbn [flat_map]. rewrite forallb_app, H by now left. apply IH. intros; apply H; now right.
Qed.
Lemma quiet_map {A} (f : A -> cmd) l : (forall a, In a l -> quiet (f a) = true) -> forallb quiet (map f l) = true.
Proof. intros H. rewrite forallb_forall. intros c I. apply in_map_iff in I as (a & <- & I). auto. Qed.
Lemma quiet_cons c l : quiet c = true -> forallb quiet l = true -> forallb quiet (c :: l) = true.
Proof. intros A B. cbn [forallb]. now rewrite A. Qed.
Lemma quiet_join a b : forallb quiet a = true -> forallb quiet b = true -> forallb quiet (a ++ b) = true.
Proof. intros A B. now rewrite forallb_app, A. Qed.
Ltac q_one := unfold quiet; apply andb_true_intro; split; [vm_compute; reflexivity|cbn [c_args forallb]; repeat (apply andb_true_intro; split); auto using fine_spaces].
Ltac q_all := repeat lazymatch goal with
  | |- forallb quiet (_ ++ _) = true => apply quiet_join
  | |- forallb quiet (_ :: _) = true => apply quiet_cons
  | |- forallb quiet [] = true => reflexivity
  | |- quiet (if ?c then _ else _) = true => destruct c
  | |- quiet (Cmd _ (if ?c then _ else _) _) = true => destruct c
  | |- quiet _ = true => q_one
  | |- forallb quiet (if ?c then _ else _) = true => destruct c
  end.
Lemma q_convert t : fine (convert t) = true.
Proof. destruct t; reflexivity. Qed.

Section Struct.
  Variable s : struct_S.
  Hypothesis OK : struct_ok s = true.
  Lemma f_name : fine (s_name s) = true.
  Proof. unfold struct_ok in OK. apply andb_prop in OK as [H _]. apply andb_prop in H as [H _]. now apply fine_name. Qed.
  Lemma f_simple m : In m (s_simple s) -> fine (ss_name m) = true.
  Proof. unfold struct_ok in OK. apply andb_prop in OK as [H _]. apply andb_prop in H as [_ H]. rewrite forallb_forall in H. intros I. now apply fine_name, H. Qed.
  Lemma f_complex m : In m (s_complex s) -> fine (sc_name m) = true /\ fine (sc_tname m) = true.
  Proof.
    unfold struct_ok in OK. apply andb_prop in OK as [_ H]. rewrite forallb_forall in H. intros I. specialize (H m I).
    unfold complex_ok in H. apply andb_prop in H as [H1 H2]. split; now apply fine_name.
  Qed.
  Variable cls : string.
  Hypothesis C : fine cls = true.
  Lemma q_reader b : forallb quiet (fst (struct_reader b s cls)) = true.
  Proof.
    pose proof f_name as FN. destruct b; cbn [struct_reader fst]; [unfold xa_reader|unfold xm_reader|reflexivity|unfold ni_reader]; cbn [fst]; q_all.
    - apply quiet_flat. intros m I. pose proof (f_simple m I). unfold xa_read_simple. destruct (ss_type m); q_all.
    - apply quiet_flat. intros m I. pose proof (f_complex m I) as []. unfold xa_read_complex. destruct (sc_type m); cbn [fst]; q_all.
    - apply quiet_flat. intros m I. pose proof (f_simple m I). unfold xm_read_simple. destruct (ss_type m); q_all.
    - apply quiet_flat. intros m I. pose proof (f_complex m I) as []. unfold xm_read_complex. destruct (sc_type m); cbn [fst]; q_all.
    - pose proof f_simple as FS. destruct (s_simple s) as [|m0 ms]; [reflexivity|]. q_all.
      + apply quiet_map. intros m I. pose proof (FS m I). pose proof (q_convert (ss_type m)). q_one.
      + apply quiet_flat. intros m I. pose proof (f_complex m I) as []. unfold ni_read_enum. destruct (sc_type m); q_all.
    - apply quiet_flat. intros m I. pose proof (f_complex m I) as []. unfold ni_read_complex. destruct (sc_type m); cbn [fst]; q_all.
  Qed.
  Lemma q_writer b nd : forallb quiet (fst (struct_writer b s cls nd)) = true.
  Proof.
    pose proof f_name as FN. destruct b; cbn [struct_writer fst]; [unfold xa_writer|unfold xm_writer|reflexivity|unfold ni_writer]; cbn [fst]; q_all.
    - apply quiet_flat. intros m I. pose proof (f_simple m I). unfold xa_write_simple. destruct (ss_type m); q_all.
    - apply quiet_flat. intros m I. pose proof (f_complex m I) as []. unfold xa_write_complex. destruct (sc_type m); cbn [fst]; q_all.
    - apply quiet_flat. intros m I. pose proof (f_simple m I). unfold xm_write_simple. destruct (ss_type m); q_all.
    - apply quiet_flat. intros m I. pose proof (f_complex m I) as []. unfold xm_write_complex. destruct (sc_type m); cbn [fst]; q_all.
    - apply quiet_map. intros m I. pose proof (f_simple m I). unfold ni_write_simple. destruct (ss_type m); q_all.
    - apply quiet_flat. intros m I. pose proof (f_complex m I) as []. unfold ni_write_complex. destruct (sc_type m); cbn [fst]; q_all.
  Qed.
End Struct.

Lemma q_enum e : enum_ok e = true -> forallb quiet (process_enum e) = true.
Proof.
  unfold enum_ok. intros H. apply andb_prop in H as [H1 H2]. apply fine_name in H1. rewrite forallb_forall in H2. unfold process_enum. cbv zeta. q_all.
  - apply quiet_map. intros l I. pose proof (fine_name _ (H2 l I)). q_all.
  - apply quiet_map. intros l I. pose proof (fine_name _ (H2 l I)). q_all.
Qed.
Lemma q_formatter e : enum_ok e = true -> forallb quiet (fmt_templates e) = true.
Proof. unfold enum_ok. intros H. apply andb_prop in H as [H1 _]. apply fine_name in H1. unfold fmt_templates. q_all. Qed.
Lemma q_entries th tc cls ss : (forall t, fine t = true -> quiet (Cmd T_h th [t]) = true /\ quiet (Cmd T_cpp tc [cls; t]) = true) ->
  forallb struct_ok ss = true -> forallb quiet (entries th tc cls ss) = true.
Proof.
  intros Q H. rewrite forallb_forall in H. unfold entries. apply quiet_flat. intros s I. pose proof (f_name s (H s I)) as F.
  destruct (Q _ F) as [Q1 Q2]. destruct (Nat.eqb (s_incoming s) 0); [|reflexivity]. cbn [forallb]. now rewrite Q1, Q2.
Qed.
Lemma dirs_all to cs : forallb quiet cs = true -> dirs to cs [].
Proof. intros Q. rewrite <- (app_nil_r cs). apply dirs_quiets; [exact Q|apply dirs_nil]. Qed.
(** A line without inserted text. *)
Lemma dirs_closed to t s l cs m k : format t [] = Some s -> directives s = l -> k = l ++ m -> dirs to cs m -> dirs to (Cmd to t [] :: cs) k.
Proof.
  intros F E -> D. apply dirs_cons; [destruct to; reflexivity| |exact D]. intros x X. cbn in X. rewrite F in X. now injection X as <-.
Qed.
Lemma dirs_include to t f cs m : t = Some [Lit "#include """; Arg 0; Lit """"] \/ t = Some [Lit "#include """; Arg 0; Lit (String dquote NL)] ->
  plain f = true -> dirs to cs m -> dirs to (Cmd to t [f] :: cs) (include_file f :: m).
Proof.
  intros T P D. change (include_file f :: m) with ([include_file f] ++ m). apply dirs_cons; [destruct to; reflexivity| |exact D].
  apply include_at; auto using plain_one_line.
Qed.
Lemma dirs_comment to t f cs m : t = Some [Lit "// "; Arg 0] \/ t = Some [Lit "// "; Arg 0; Lit NL] -> plain f = true -> dirs to cs m -> dirs to (Cmd to t [f] :: cs) m.
Proof.
  intros T P D. change m with ([] ++ m). apply dirs_cons; [destruct to; reflexivity| |exact D]. apply comment_at; auto using plain_one_line.
Qed.
Lemma dirs_info to t stamp info cs m : t = Some [Arg 0] -> stfx_info stamp = Some info -> plain stamp = true -> dirs to cs m -> dirs to (Cmd to t [info] :: cs) m.
Proof.
  intros T I P D. change m with ([] ++ m). apply dirs_cons; [destruct to; reflexivity| |exact D]. eapply info_at; eauto.
Qed.
(** The step for the first line of the list. *)
Ltac step := cbn [app];
  lazymatch goal with
  | |- dirs T_h (Cmd T_cpp _ _ :: _) _ => apply dirs_skip; [reflexivity|]
  | |- dirs T_cpp (Cmd T_h _ _ :: _) _ => apply dirs_skip; [reflexivity|]
  | |- dirs T_h (includes T_cpp _ _ ++ _) _ => apply dirs_other_includes; [reflexivity|]
  | |- dirs T_cpp (includes T_h _ _ ++ _) _ => apply dirs_other_includes; [reflexivity|]
  | |- dirs _ (includes _ _ _ ++ _) _ => apply dirs_includes; [reflexivity|assumption|]
  | |- dirs _ (Cmd _ _ [] :: _) _ => eapply dirs_closed; [vm_compute; reflexivity|vm_compute; reflexivity|cbn [app]; reflexivity|]
  | |- dirs _ (Cmd _ _ [_] :: _) _ => first [apply dirs_comment; [auto; fail|assumption|]|eapply dirs_info; [reflexivity|eassumption|assumption|]|apply dirs_include; [auto; fail|assumption|]]
  end.

Section Files.
  Variables (b : backend) (i : info) (inputs : list string) (o : output_spec) (cpp h stamp inf : string).
  Hypothesis PI : forallb plain inputs = true.
  Hypothesis PC : plain cpp = true.
  Hypothesis PH : plain h = true.
  Hypothesis PS : plain stamp = true.
  Hypothesis SI : stfx_info stamp = Some inf.

  Section Enums.
    Hypothesis EO : forallb enum_ok (map snd (i_enums i)) = true.
    Lemma enums_quiet : forallb quiet (flat_map process_enum (map snd (i_enums i)) ++ [Cmd T_h pi_115 []] ++ flat_map fmt_templates (map snd (i_enums i))) = true.
    Proof.
      rewrite forallb_forall in EO. repeat apply quiet_join; [apply quiet_flat; intros e I; now apply q_enum, EO|reflexivity|apply quiet_flat; intros e I; now apply q_formatter, EO].
    Qed.
    Lemma enum_h_dirs : dirs T_h (enum_files i inputs cpp h inf) (enum_h_includes inputs).
    Proof.
      unfold enum_files, enum_h_includes. cbv zeta. rewrite <- (app_nil_r (map include_file inputs)).
      do 12 step.
      apply dirs_quiets with (a := [Cmd T_h pi_106 []; Cmd T_h pi_107 []]); [reflexivity|]. apply dirs_all, enums_quiet.
    Qed.
    Lemma enum_cpp_dirs : dirs T_cpp (enum_files i inputs cpp h inf) (enum_cpp_includes h inputs).
    Proof.
      unfold enum_files, enum_cpp_includes. cbv zeta. rewrite <- (app_nil_r (map include_file inputs)).
      do 12 step.
      apply dirs_quiets with (a := [Cmd T_h pi_106 []; Cmd T_h pi_107 []]); [reflexivity|]. apply dirs_all, enums_quiet.
    Qed.
  End Enums.

  Section Structs.
    Let ss := map snd (i_structs i).
    Hypothesis SO : forallb struct_ok ss = true.
    Hypothesis OK : spec_ok o = true.
    Let t := templates_of b.
    Let rd := o_reader o.
    Let wr := o_writer o.
    Lemma rd_fine : fine rd = true.
    Proof. unfold spec_ok in OK. apply andb_prop in OK as [H _]. apply andb_prop in H as [H _]. now apply fine_name. Qed.
    Lemma wr_fine : fine wr = true.
    Proof. unfold spec_ok in OK. apply andb_prop in OK as [H _]. apply andb_prop in H as [_ H]. now apply fine_name. Qed.
    Lemma file_plain : plain (o_enum_file o ++ ".h") = true.
    Proof. unfold spec_ok in OK. apply andb_prop in OK as [_ H]. now rewrite plain_app, H. Qed.
    Definition class_cmds : list cmd :=
      [Cmd T_h (t_class_h t) [rd]; Cmd T_cpp (t_ctor_cpp t) [rd]] ++
      entries (t_rff_h t) (t_rff_cpp t) rd ss ++ [Cmd T_h (t_prot_h t) []] ++
      flat_map (fun s => fst (struct_reader b s rd)) ss ++
      [Cmd T_h (t_end_h t) []; Cmd T_cpp (t_end_cpp t) []] ++
      (if o_only_read o then [] else
         [Cmd T_h (t_wclass_h t) [wr; rd]; Cmd T_cpp (t_wctor_cpp t) [wr; rd]] ++
         entries (t_wtf_h t) (t_wtf_cpp t) wr ss ++ [Cmd T_h (t_wprot_h t) []] ++
         flat_map (fun s => fst (struct_writer b s wr (o_no_delta o))) ss ++
         [Cmd T_h (t_wend_h t) []; Cmd T_cpp (t_wend_cpp t) []]).
    Lemma class_quiet : forallb quiet class_cmds = true.
    Proof.
      pose proof rd_fine as F1. pose proof wr_fine as F2. assert (S : forall s, In s ss -> struct_ok s = true) by (now rewrite forallb_forall in SO).
      unfold class_cmds.
      assert (H1 : forallb quiet (flat_map (fun s => fst (struct_reader b s rd)) ss) = true) by (apply quiet_flat; intros s I; apply q_reader; auto).
      assert (H2 : forallb quiet (flat_map (fun s => fst (struct_writer b s wr (o_no_delta o))) ss) = true) by (apply quiet_flat; intros s I; apply q_writer; auto).
      assert (H3 : forallb quiet (entries (t_rff_h t) (t_rff_cpp t) rd ss) = true).
      { apply q_entries; [|exact SO]. intros x X. unfold t. destruct b; cbn [templates_of xml_templates ini_templates t_rff_h t_rff_cpp]; split; q_one. }
      assert (H4 : forallb quiet (entries (t_wtf_h t) (t_wtf_cpp t) wr ss) = true).
      { apply q_entries; [|exact SO]. intros x X. unfold t. destruct b; cbn [templates_of xml_templates ini_templates t_wtf_h t_wtf_cpp]; split; q_one. }
      clearbody ss. unfold t in *. destruct b; cbn [templates_of xml_templates ini_templates t_class_h t_ctor_cpp t_prot_h t_end_h t_end_cpp t_wclass_h t_wctor_cpp t_wprot_h t_wend_h t_wend_cpp]; q_all; assumption.
    Qed.
    Lemma struct_files_parts : fst (struct_files b i inputs o cpp h inf) =
      [Cmd T_cpp (t_name_cpp t) [cpp]; Cmd T_cpp (t_info_cpp t) [inf]; Cmd T_cpp (t_inc_h t) [h];
       Cmd T_cpp (t_std_cpp t) []] ++ map (fun x => Cmd T_cpp x []) (t_lib_cpp t (o_only_read o)) ++
      [if skipped (o_enum_file o) then Cmd T_cpp (t_no_enum t) []
       else Cmd T_cpp (t_inc_enum t) [(o_enum_file o ++ ".h")%string]] ++
      includes T_cpp (t_in_cpp t) inputs ++
      [Cmd T_h (t_name_h t) [h]; Cmd T_h (t_info_h t) [inf]; Cmd T_h (t_std_h t) []] ++
      includes T_h (t_in_h t) inputs ++ [Cmd T_h (t_blank_h t) []] ++ class_cmds.
    Proof. reflexivity. Qed.
    Lemma struct_h_dirs : dirs T_h (fst (struct_files b i inputs o cpp h inf)) (struct_h_includes b inputs).
    Proof.
      rewrite struct_files_parts. pose proof class_quiet as Q. set (cc := class_cmds) in *. clearbody cc. unfold struct_h_includes. rewrite <- (app_nil_r (map include_file inputs)).
      unfold t. destruct b; destruct (o_only_read o); destruct (skipped (o_enum_file o));
        cbn [templates_of xml_templates ini_templates t_name_cpp t_info_cpp t_inc_h t_std_cpp t_lib_cpp t_no_enum t_inc_enum t_in_cpp t_name_h t_info_h t_std_h t_in_h t_blank_h map];
        repeat step; apply dirs_all; exact Q.
    Qed.
    Lemma struct_cpp_dirs : dirs T_cpp (fst (struct_files b i inputs o cpp h inf)) (struct_cpp_includes b (o_only_read o) h (o_enum_file o) inputs).
    Proof.
      rewrite struct_files_parts. pose proof class_quiet as Q. set (cc := class_cmds) in *. clearbody cc. unfold struct_cpp_includes. rewrite <- (app_nil_r (map include_file inputs)).
      pose proof file_plain as FP. fold (skipped (o_enum_file o)).
      unfold t. destruct b; destruct (o_only_read o); destruct (skipped (o_enum_file o));
        cbn [templates_of xml_templates ini_templates t_name_cpp t_info_cpp t_inc_h t_std_cpp t_lib_cpp t_no_enum t_inc_enum t_in_cpp t_name_h t_info_h t_std_h t_in_h t_blank_h map];
        repeat step; apply dirs_all; exact Q.
    Qed.
  End Structs.
End Files.
