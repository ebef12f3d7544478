(** What follows from the headers: no function is declared twice, which structs the
    classes serve, what the formatter of an enumeration prints. *)
From Coq Require Import String Ascii ZArith NArith Arith List Bool Lia.
From Verif Require Import Base Map Items Grammar Fmt Decimal Emit Cpp CppH Xml Val CppSem SymLex Ast HeadSpec PrintH Prog Header EnumSem EnumCall Link Main Pipeline.
Import ListNotations.
Local Open Scope string_scope.
Local Open Scope list_scope.

Lemma nodup_app {A} (a b : list A) : NoDup a -> NoDup b -> (forall x, In x a -> In x b -> False) -> NoDup (a ++ b).
Proof.
  induction a as [|x a IH]; intros N1 N2 D; [exact N2|]. inversion N1; subst. cbn [app]. constructor.
  - intros I. apply in_app_or in I as [I|I]; [contradiction|]. apply (D x); cbn; auto.
  - apply IH; auto. intros y I J. apply (D y); cbn; auto.
Qed.
Lemma nodup_flat {A B K} (k : A -> K) (f : A -> list B) l : NoDup (map k l) -> (forall a, NoDup (f a)) ->
  (forall a b x, In x (f a) -> In x (f b) -> k a = k b) -> NoDup (flat_map f l).
Proof.
  intros N F D. induction l as [|a l IH]; [constructor|]. cbn [flat_map]. cbn [map] in N. inversion N as [|? ? X Y]; subst.
  apply nodup_app; [apply F|now apply IH|]. intros x I J. apply in_flat_map in J as (b & J1 & J2).
  apply X. rewrite (D a b x I J2). now apply in_map.
Qed.
Lemma nodup_filter {A B} (f : A -> B) p l : NoDup (map f l) -> NoDup (map f (filter p l)).
Proof.
  induction l as [|a l IH]; cbn; [auto|]. intros N. inversion N as [|? ? X Y]; subst. destruct (p a); cbn; [|auto].
  constructor; [|auto]. intros I. apply X. apply in_map_iff in I as (b & E & I). apply filter_In in I as [I _]. rewrite <- E. now apply in_map.
Qed.
Lemma map_id {A} (l : list A) : map (fun x => x) l = l.
Proof. induction l; cbn; congruence. Qed.

(** *** Overloads *)
(** The overloads of a class: constructor, entry points, functions for a struct. *)
Lemma class_nodup (cls f p : string) (ctor : access * hmember) (data : list (access * hmember)) (es ts : list string) (work : string -> list (access * hmember)) c :
  flat_map (fun m => member_sig cls (snd m)) data = [] ->
  map overload (member_sig cls (snd ctor)) = [([cls; cls], c)] -> length c <> 2 ->
  (forall t, exists g q, map overload (flat_map (fun m => member_sig cls (snd m)) (work t)) = [([cls; ("do_" ++ g ++ t)%string], q)] /\
     length q = 2) \/ (forall t, work t = []) ->
  (forall t u x, In x (map overload (flat_map (fun m => member_sig cls (snd m)) (work t))) ->
     In x (map overload (flat_map (fun m => member_sig cls (snd m)) (work u))) -> t = u) ->
  prefix "do_" f = false -> NoDup es -> NoDup ts ->
  NoDup (map overload (flat_map (fun m => member_sig cls (snd m)) (data ++ [ctor] ++ map (h_entry f p) es ++ flat_map work ts))).
Proof.
  intros D C LC W J F NE NT. rewrite !flat_map_app, D. cbn [app]. rewrite !map_app. cbn [flat_map]. rewrite app_nil_r, C. cbn [app].
  assert (W2 : forall t x, In x (map overload (flat_map (fun m => member_sig cls (snd m)) (work t))) ->
     exists g q, x = ([cls; ("do_" ++ g ++ t)%string], q) /\ length q = 2).
  { intros t x I. destruct W as [W|W].
    - destruct (W t) as (g & q & E & L). rewrite E in I. destruct I as [<-|[]]. eauto.
    - rewrite W in I. destruct I. }
  assert (ENT : map overload (flat_map (fun m => member_sig cls (snd m)) (map (h_entry f p) es)) =
    map (fun t => ([cls; f], [CT ["std"; "string"] [] RRef; CT [t] [] RRef])) es).
  { rewrite flat_map_map. cbn [h_entry snd member_sig]. rewrite flat_one, map_map. reflexivity. }
  rewrite ENT.
  assert (WK : map overload (flat_map (fun m => member_sig cls (snd m)) (flat_map work ts)) =
    flat_map (fun t => map overload (flat_map (fun m => member_sig cls (snd m)) (work t))) ts).
  { rewrite flat_flat, map_flat. reflexivity. }
  rewrite WK. constructor.
  - intros I. apply in_app_or in I as [I|I].
    + apply in_map_iff in I as (t & E & _). injection E as _ <-. cbn in LC. congruence.
    + apply in_flat_map in I as (t & _ & I). apply W2 in I as (g & q & E & L). injection E as _ <-. congruence.
  - apply nodup_app.
    + apply FinFun.Injective_map_NoDup; [|exact NE]. intros x y [= E]. exact E.
    + apply (nodup_flat (fun t => t)); [now rewrite map_id| |exact J].
      intros t. destruct W as [W|W]; [destruct (W t) as (g & q & -> & _); constructor; [intros []|constructor]|rewrite W; constructor].
    + intros x I1 I2. apply in_map_iff in I1 as (t & <- & _). apply in_flat_map in I2 as (u & _ & I2).
      apply W2 in I2 as (g & q & E & _). assert (X : f = ("do_" ++ g ++ u)%string) by congruence. rewrite X, (prefix_append "do_") in F. discriminate F.
Qed.
Lemma reader_nodup b es ts cls : NoDup es -> NoDup ts -> NoDup (map overload (decl_sigs (reader_class b es ts cls))).
Proof.
  intros. unfold reader_class. cbn [decl_sigs]. apply class_nodup with (c := []); [|reflexivity| | | |reflexivity|assumption|assumption].
  - destruct b; reflexivity.
  - discriminate.
  - destruct b; [left|left|right|left]; intros t; try reflexivity; [exists "", [CT ["tinyxml2"; "XMLElement"] [] RPtr; CT [t] [] RPtr]|exists "", [CT ["tinyxml2"; "XMLElement"] [] RPtr; CT [t] [] RPtr]|
      exists "rd_", [h_str; CT [t] [] RRef]]; split; reflexivity.
  - intros t u x. destruct b; cbn; try (intros []; fail); intros [<-|[]] [X|[]]; injection X; congruence.
Qed.
Lemma writer_nodup b es ts cls rd : NoDup es -> NoDup ts -> NoDup (map overload (decl_sigs (writer_class b es ts cls rd))).
Proof.
  intros. unfold writer_class. cbn [decl_sigs]. apply class_nodup with (c := [h_bool]); [|reflexivity| | | |reflexivity|assumption|assumption].
  - destruct b; reflexivity.
  - discriminate.
  - destruct b; [left|left|right|left]; intros t; try reflexivity; [exists "wr_", [CT ["tinyxml2"; "XMLElement"] [] RPtr; CT [t] [] RPtr]|exists "wr_", [CT ["tinyxml2"; "XMLElement"] [] RPtr; CT [t] [] RPtr]|
      exists "wr_", [h_str; CT [t] [] RPtr]]; split; reflexivity.
  - intros t u x. destruct b; cbn; try (intros []; fail); intros [<-|[]] [X|[]]; injection X; congruence.
Qed.
(** Everything a class declares is in the class. *)
Lemma sigs_in_class c bs ms s : In s (decl_sigs (HClass c bs ms)) -> exists f, snd (fst s) = [c; f].
Proof.
  cbn [decl_sigs]. intros I. apply in_flat_map in I as ([a m] & _ & I). destruct m; cbn in I; [|contradiction|contradiction].
  destruct I as [<-|[]]. cbn. eauto.
Qed.
Lemma struct_nodup b ss o : o_reader o <> o_writer o -> NoDup (map s_name ss) ->
  NoDup (map overload (flat_map decl_sigs (struct_header b ss o))).
Proof.
  intros D N. unfold struct_header. cbn [flat_map]. rewrite map_app.
  assert (N2 : NoDup (map s_name (tops ss))) by now apply nodup_filter.
  apply nodup_app; [now apply reader_nodup| |].
  - destruct (o_only_read o); [constructor|]. cbn [flat_map]. rewrite app_nil_r. now apply writer_nodup.
  - intros x I J. apply in_map_iff in I as (s1 & <- & I). apply sigs_in_class in I as (f & E).
    destruct (o_only_read o); [destruct J|]. cbn [flat_map] in J. rewrite app_nil_r in J. apply in_map_iff in J as (s2 & E2 & J).
    apply sigs_in_class in J as (g & E3). unfold overload in E2. injection E2 as E2 _. rewrite E, E3 in E2. congruence.
Qed.
Lemma enum_nodup ns : NoDup ns -> NoDup (map overload (flat_map decl_sigs (enum_header ns))).
Proof.
  intros N. unfold enum_header. cbn [flat_map decl_sigs].
  replace (flat_map decl_sigs (map enum_formatter ns)) with (@nil signature).
  2:{ rewrite flat_map_map. induction ns; [reflexivity|]. cbn. apply IHns. now inversion N. }
  rewrite app_nil_r, flat_flat, map_flat. apply (nodup_flat (fun n => n)); [now rewrite map_id| |].
  - intros n. cbn. repeat constructor; cbn; intuition discriminate.
  - intros x y z. cbn. intros [<-|[<-|[]]] [X|[X|[]]]; try discriminate X; injection X; congruence.
Qed.

(** *** A member function named like its class would be taken for a constructor *)
Definition ctor_only (d : hdecl) : Prop :=
  match d with
  | HClass c _ ms => forall a v ty n ps, In (a, HFun v ty n ps) ms -> (n = c <-> ty = None)
  | _ => True
  end.
Lemma reader_ctor b es ts cls : prefix "do_" cls = false -> cls <> "read_from_file" -> ctor_only (reader_class b es ts cls).
Proof.
  intros D R a v ty n ps I. cbn in I. apply in_app_or in I as [I|[I|I]].
  - destruct b; cbn in I; intuition discriminate.
  - injection I as <- <- <- <- <-. tauto.
  - apply in_app_or in I as [I|I].
    + apply in_map_iff in I as (t & E & _). injection E as <- <- <- <- <-. split; [congruence|discriminate].
    + apply in_flat_map in I as (t & _ & I). destruct b; cbn in I; try tauto; destruct I as [E|[]]; injection E as <- <- <- <- <-;
        (split; [intros X; rewrite <- X in D; refine (_ (eq_true_false_abs _ _ D)); [intros []|apply (prefix_append "do_")]|discriminate]).
Qed.
Lemma writer_ctor b es ts cls rd : prefix "do_" cls = false -> cls <> "write_to_file" -> ctor_only (writer_class b es ts cls rd).
Proof.
  intros D R a v ty n ps I. cbn in I. destruct I as [I|I]; [discriminate|]. apply in_app_or in I as [I|[I|I]].
  - destruct b; cbn in I; intuition discriminate.
  - injection I as <- <- <- <- <-. tauto.
  - apply in_app_or in I as [I|I].
    + apply in_map_iff in I as (t & E & _). injection E as <- <- <- <- <-. split; [congruence|discriminate].
    + apply in_flat_map in I as (t & _ & I). destruct b; cbn in I; try tauto; destruct I as [E|[]]; injection E as <- <- <- <- <-;
        (split; [intros X; rewrite <- X in D; refine (_ (eq_true_false_abs _ _ D)); [intros []|apply (prefix_append "do_")]|discriminate]).
Qed.

(** *** From the files on the disk *)
Section Files.
Variables (E : env) (b : backend) (ds : list def) (ins : list string) (d : string) (o : output_spec) (w : Main.world).
Hypothesis H : has_program E b ds ins d o w.
Definition on_disk (n : string) : option string := Cpp.assoc (join E d n) (Main.w_files w).
Definition file (n ext : string) : option string := Cpp.assoc (join E d n ++ ext)%string (Main.w_files w).

Lemma declared_defined n : n = o_enum_file o \/ n = o_structs_file o ->
  exists tc th fs hs, file n ".cpp" = Some tc /\ file n ".h" = Some th /\ read_cpp tc = Some fs /\ read_h th = Some hs /\
  flat_map decl_sigs hs = map def_sig fs.
Proof.
  destruct H as (enums & ss & te & ts & he & hs & L & _ & A1 & A2 & A3 & A4 & A5 & A6 & A7 & A8 & A9). intros [->| ->].
  - do 4 eexists. repeat (split; [eassumption|]). apply enum_sigs.
  - do 4 eexists. repeat (split; [eassumption|]). apply struct_sigs.
Qed.
Lemma no_overload_twice n : o_reader o <> o_writer o -> n = o_enum_file o \/ n = o_structs_file o ->
  exists th hs, file n ".h" = Some th /\ read_h th = Some hs /\ NoDup (map overload (flat_map decl_sigs hs)).
Proof.
  intros D. destruct H as (enums & ss & te & ts & he & hs & L & _ & A1 & A2 & A3 & A4 & A5 & A6 & A7 & A8 & A9). intros [->| ->].
  - do 2 eexists. repeat (split; [eassumption|]). apply enum_nodup, (lk_enum_names _ _ _ L).
  - do 2 eexists. repeat (split; [eassumption|]). apply struct_nodup; [exact D|apply (lk_struct_names _ _ _ L)].
Qed.
Lemma classes_of : exists th ts es, file (o_structs_file o) ".h" = Some th /\ NoDup ts /\ NoDup es /\
  (forall t, In t ts <-> exists ms, In (DefStruct t ms) ds) /\ (forall t, In t es <-> In t ts /\ ~ used ds t) /\
  read_h th = Some (reader_class b es ts (o_reader o) :: if o_only_read o then [] else [writer_class b es ts (o_writer o) (o_reader o)]).
Proof.
  destruct H as (enums & ss & te & ts & he & hs & L & T & A1 & A2 & A3 & A4 & A5 & A6 & A7 & A8 & A9).
  exists hs, (map s_name ss), (map s_name (tops ss)). split; [exact A7|]. split; [apply (lk_struct_names _ _ _ L)|].
  split; [apply nodup_filter, (lk_struct_names _ _ _ L)|]. split; [|split; [|exact A8]].
  - intros t. rewrite (lk_structs _ _ _ L t), in_map_iff. split; intros (s & X & Y); exists s; auto.
  - intros t. unfold tops. split.
    + intros I. apply in_map_iff in I as (s & <- & I). apply filter_In in I as [I Z]. apply Nat.eqb_eq in Z.
      split; [now apply in_map|]. now apply T.
    + intros [I U]. apply in_map_iff in I as (s & <- & I). apply in_map. apply filter_In. split; [exact I|]. apply Nat.eqb_eq. now apply T.
Qed.
Lemma enums_of : exists th ns, file (o_enum_file o) ".h" = Some th /\ NoDup ns /\
  (forall n, In n ns <-> exists c es t, In (DefEnum c n es t) ds) /\ read_h th = Some (enum_header ns).
Proof.
  destruct H as (enums & ss & te & ts & he & hs & L & _ & A1 & A2 & A3 & A4 & A5 & A6 & A7 & A8 & A9).
  exists he, (map e_name enums). split; [exact A5|]. split; [apply (lk_enum_names _ _ _ L)|]. split; [|exact A6].
  intros n. rewrite in_map_iff. split.
  - intros (e & <- & I). apply (lk_enums _ _ _ L) in I as (c & m & es & t & I & ->). eauto.
  - intros (c & es & t & I). exists (enum_of c n es). split; [reflexivity|]. apply (lk_enums _ _ _ L). eauto 6.
Qed.
End Files.

(** *** The text of a formatted enumeration value *)
(** A string_view has the text of the string it is made from. *)
Definition view_as_text (c : stmt) : stmt :=
  match c with
  | SDecl (CT ["string_view"] [] RVal) x i => SDecl h_str x i
  | _ => c
  end.
(** What the formatter's format function prints for the value [v]; [call]: the functions
    of the program. *)
Definition formatted (L : lang) (call : list string -> list arg -> st -> res val) (wf : nat) (d : hdecl) (v : val) (s : st) : res string :=
  match d with
  | HFormat _ ((_, x) :: _) body out =>
      match exec_list L call "" (fun _ => false) wf (map view_as_text body) (St [[(x, v)]] (s_tree s) (s_this s) (s_world s)) with
      | Ok CNext s1 => match lookup out (s_scopes s1) with Some (VStr t) => Ok t (St (s_scopes s) (s_tree s) (s_this s) (s_world s1)) | _ => Bad end
      | Ok _ _ => Bad
      | Exc s1 => Exc s1
      | UB => UB
      | Bad => Bad
      | Fuel => Fuel
      end
  | _ => Bad
  end.
Lemma formats b enums ss o ds L : setting b enums ss o ds L -> forall wf c n es t, In (DefEnum c n es t) ds ->
  forall z f s, formatted L (call_fun L (prog b enums ss o) wf (S f)) wf (enum_formatter n) (VEnum n z) s =
    Ok (enum_text (enum_values L 0 es) z) s.
Proof.
  intros G wf c n es t I z f s.
  pose proof (fun lv => call_from b enums ss o ds L G wf c n es t I lv z f) as C.
  set (call := call_fun L (prog b enums ss o) wf (S f)) in *. clearbody call.
  unfold formatted, enum_formatter. cbn [map view_as_text h_str]. unfold exec_list. rewrite run_list_cons.
  cbn [exec]. unfold exec_decl. cbn [ct_args ct_ref ct_name names_eqb].
  cbn.
  rewrite C. destruct s. reflexivity.
Qed.
