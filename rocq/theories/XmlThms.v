(** What calls of the generated functions of the xml back ends do: the facts about reading
    and writing put together with the functions that implement them. *)
From Coq Require Import String Ascii ZArith NArith Arith List Bool Lia.
From Verif Require Import Base Map Items Grammar Fmt Decimal Templates Emit Cpp Xml Val CppSem SymLex Ast StoreDefs ResolveProps Prog Header Link EnumSem DecText EnumCall EnumRound XmlSpec XmlRdSimple XmlRead XmlReader XmlCall XmlWrite XmlWriter XmlFile XmlCarry XmlRound XmlProps XmlReadProps.
Import ListNotations.
Local Open Scope string_scope.
Local Open Scope list_scope.

Notation fields := (list (string * val)).
(** A struct of the header that is not a member of another one; only these get functions
    read_from_file and write_to_file. *)
Definition top_of (ss : list struct_S) (t : string) : Prop := exists sr, In sr (tops ss) /\ s_name sr = t.
(** Objects of struct type [t]. *)
Definition object (L : lang) (t : string) (fs : fields) : Prop := fits L (VStruct t fs) (TStruct t) = true.

Section Calls.
  Variables (bk : backend) (enums : list enum_S) (ss : list struct_S) (o : output_spec) (L : lang).
  Let P := prog bk enums ss o.

  (** The object in [l] becomes [r]; [None]: undefined behaviour. *)
  Definition outcome (t : string) (l : lval) (r : option fields) (s : st) : res val :=
    match r with
    | Some gs => match put_lv l (VStruct t gs) s with Some s' => Ok (vbool true) s' | None => Bad end
    | None => UB
    end.
  (** The reader's function for struct [u], called for an element [x] of a document and an
      object with members [os]. *)
  Definition reads (x : node) (u : string) (os : fields) (r : option fields) : Prop :=
    exists f0, forall f wf p lv lv' l s, f0 <= f -> reader_or_writer (s_this s) -> at_path (s_tree s) p = Some x -> get_lv l s = Some (VStruct u os) ->
      call_fun L P wf f [o_reader o; pre_do u] [(lv, VEl (Some p)); (lv', VPtr (Some l))] s = outcome u l r s.
  (** read_from_file, when the file loads as [ks]. *)
  Definition file_reads (ks : list node) (t : string) (os : fields) (r : option fields) : Prop :=
    exists f0, forall f wf a n l s, f0 <= f -> file_arg a n s -> get_lv l s = Some (VStruct t os) -> reader_or_writer (s_this s) -> load L (s_world s) (cut n) = Some ks ->
      call_fun L P wf f [o_reader o; "read_from_file"] [a; (Some l, VStruct t os)] s = outcome t l r s.
  (** write_to_file, to a file that can be written: what is in the file then; [dl]: delta_only. *)
  Definition file_writes (dl : bool) (t : string) (fs : fields) (r : option (list node)) : Prop :=
    exists f0, forall f wf a n l s, f0 <= f -> file_arg a n s -> get_lv l s = Some (VStruct t fs) -> s_this s = [("m_delta_only", vbool dl)] -> l_writable L (cut n) = true ->
      call_fun L P wf f [o_writer o; "write_to_file"] [a; (Some l, VStruct t fs)] s =
      match r with
      | Some d => Ok (vbool true) (set_world s (World (set_assoc (cut n) (CDoc d) (w_files (s_world s))) (w_in (s_world s)) (w_out (s_world s))))
      | None => UB
      end.
  (** write_to_file for an object with members [fs], and then read_from_file of the same file
      into an object with members [os]. *)
  Definition writes_reads (dl : bool) (t : string) (fs os : fields) (r : option fields) : Prop :=
    exists f0, forall f wf wf' a n l s a' n' l' s', f0 <= f ->
      file_arg a n s -> get_lv l s = Some (VStruct t fs) -> s_this s = [("m_delta_only", vbool dl)] -> l_writable L (cut n) = true ->
      exists w, call_fun L P wf f [o_writer o; "write_to_file"] [a; (Some l, VStruct t fs)] s = Ok (vbool true) (set_world s w) /\
      (file_arg a' n' s' -> get_lv l' s' = Some (VStruct t os) -> reader_or_writer (s_this s') -> s_world s' = w -> cut n' = cut n ->
       call_fun L P wf' f [o_reader o; "read_from_file"] [a'; (Some l', VStruct t os)] s' = outcome t l' r s').
End Calls.

Section Thms.
  Variables (bk : backend) (b : form) (enums : list enum_S) (ss : list struct_S) (o : output_spec) (ds : list def) (L : lang).
  Hypothesis X : xml_setting bk b enums ss o ds L.
  Notation reads := (reads bk enums ss o L).
  Notation file_reads := (file_reads bk enums ss o L).
  Notation file_writes := (file_writes bk enums ss o L).
  Notation writes_reads := (writes_reads bk enums ss o L).

  Lemma reads_struct x u os : object L u os -> reads x u os (read_struct L b x u os).
  Proof.
    intros F. exists (S (height x)). intros f wf p lv lv' l s LE TH AP GL. unfold outcome.
    exact (rd_call_ok bk b enums ss o ds L X wf f x ltac:(lia) u os p lv lv' l s TH AP GL F).
  Qed.
  Lemma reads_file ks t os ms : top_of ss t -> find_struct (l_defs L) t = Some ms -> object L t os -> (root ks = None -> ms <> []) ->
    file_reads ks t os (match root ks with Some x => read_struct L b x t os | None => None end).
  Proof.
    intros (sr & TOP & SN) MS F NE. exists (S (S (match root ks with Some x => height x | None => 0 end))). intros f wf a n l s LE FA GL TH LD. destruct f as [|f]; [lia|].
    pose proof (read_file_ok bk b enums ss o ds L X wf t sr TOP SN ms MS f a n l os s FA GL TH F ltac:(lia)) as R. unfold read_file_result in R. rewrite LD in R. unfold outcome.
    destruct (root ks) as [x|] eqn:RT.
    - rewrite R; [reflexivity|]. intros ks' x' [= <-] E. assert (x' = x) by congruence. subst. lia.
    - destruct ms as [|m ms]; [now destruct (NE eq_refl)|]. apply R. intros ks' x' [= <-] E. congruence.
  Qed.

  (** *** Reading *)
  Theorem absent_keeps x u os ms m : object L u os -> find_struct (l_defs L) u = Some ms -> In m ms -> absent L b m x ->
    exists r, reads x u os r /\ forall gs, r = Some gs -> assoc (member_name m) gs = assoc (member_name m) os.
  Proof. intros F FS I A. exists (read_struct L b x u os). split; [now apply reads_struct|]. intros gs. exact (absent_unchanged bk b enums ss o ds L X x u os gs ms m F FS I A). Qed.
  (** A member that is absent is never the reason for undefined behaviour, but for the short
      and long types as attributes. *)
  Theorem absent_undefined x u os ms m : b = Attributes -> object L u os -> find_struct (l_defs L) u = Some ms -> In m ms -> converted m = true -> absent L b m x ->
    reads x u os None.
  Proof. intros B F FS I C A. rewrite <- (absent_converted bk b enums ss o ds L X x u os ms m B F FS I C A). now apply reads_struct. Qed.
  Lemma all_absent_read a k ms : forall os, map fst os = map member_name ms ->
    (forall m old, In m ms -> In (member_name m, old) os -> read_member L b a k m old = Some old) -> read_members L b a k ms os = Some os.
  Proof.
    induction ms as [|m ms IH]; intros [|[n old] os] K H; try discriminate; [reflexivity|]. cbn [map fst] in K. injection K as -> K. cbn [read_members].
    rewrite (H m old (or_introl eq_refl) (or_introl eq_refl)), (IH os K); [reflexivity|]. intros m' old' I J. apply H; now right.
  Qed.
  Theorem absent_defined x u os ms : object L u os -> find_struct (l_defs L) u = Some ms ->
    (forall m, In m ms -> absent L b m x /\ (b = Attributes -> converted m = false)) -> reads x u os (Some os).
  Proof.
    intros F FS A. assert (E : read_struct L b x u os = Some os); [|rewrite <- E; now apply reads_struct].
    rewrite (unfold_read b L x u os ms FS). destruct (parts bk b enums ss o ds L X u os F) as (ms' & d & FS' & _ & ND & K & M). assert (ms' = ms) by congruence. subst ms'.
    apply all_absent_read; [exact K|]. intros m old I J. destruct (A m I) as (AB & NC). destruct (M m I) as (ty & v & dv & MT & _).
    destruct (is_scalar L m) eqn:S.
    - pose proof (absent_item L b m x (reading_of L b) AB S) as FI. destruct m as [st n df|t n df|t n]; cbn [read_member member_name is_scalar converted member_type] in *; [| |discriminate].
      + rewrite FI. destruct b; destruct st; try reflexivity; now discriminate (NC eq_refl).
      + rewrite FI. destruct (user_type L t) as [[]|]; try discriminate. reflexivity.
    - pose proof (absent_kid L b m x (reading_of L b) AB S) as FK. destruct m as [st n df|t n df|t n]; cbn [read_member member_name is_scalar member_type] in *; [discriminate| |now rewrite FK].
      rewrite FK. unfold user_type in *. destruct (find_struct (l_defs L) t); [reflexivity|]. destruct (find_enum (l_defs L) t); discriminate.
  Qed.
  Theorem unknown_ignored u x y os : more L u x y -> object L u os -> exists r, reads x u os r /\ reads y u os r.
  Proof.
    intros MO F. exists (read_struct L b x u os). split; [now apply reads_struct|]. rewrite (proj1 (more_same bk b enums ss o ds L X) u x y MO os). now apply reads_struct.
  Qed.
  Theorem unknown_ignored_file ks ks' t x y os ms : top_of ss t -> find_struct (l_defs L) t = Some ms -> root ks = Some x -> root ks' = Some y -> more L t x y -> object L t os ->
    exists r, file_reads ks t os r /\ file_reads ks' t os r.
  Proof.
    intros TO MS R1 R2 MO F. exists (read_struct L b x t os). split.
    - pose proof (reads_file ks t os ms TO MS F) as H. rewrite R1 in H. apply H. discriminate.
    - rewrite (proj1 (more_same bk b enums ss o ds L X) t x y MO os). pose proof (reads_file ks' t os ms TO MS F) as H. rewrite R2 in H. apply H. discriminate.
  Qed.
  (** The elements of a vector: one for each child element, read on top of a new object. *)
  Theorem vector_grows x u os : object L u os ->
    exists r, reads x u os r /\ forall gs, r = Some gs -> forall ms n t, find_struct (l_defs L) u = Some ms -> In (MVector t n) ms ->
    exists l l', assoc n os = Some (VVec t l) /\ assoc n gs = Some (VVec t (l ++ l')) /\
    Forall2 (fun e w => exists d fs, default_fields L t = Some d /\ reads e t d (Some fs) /\ w = VStruct t fs)
      (match find (is_named n) (kids_of x) with Some c => filter is_elem (kids_of c) | None => [] end) l'.
  Proof.
    intros F. exists (read_struct L b x u os). split; [now apply reads_struct|]. intros gs R ms n t FS I.
    destruct (vector_appends bk b enums ss o ds L X x u os gs ms n t F FS I R) as (l & l' & A & B & FA). exists l, l'. split; [exact A|]. split; [exact B|].
    destruct (default_fields L t) as [d|] eqn:D.
    - assert (FD : object L t d). { assert (NF : find_struct (l_defs L) t <> None) by (intros N; unfold default_fields, init_fuel in D; cbn [init] in D; now rewrite N in D).
        destruct (find_struct (l_defs L) t) as [mt|] eqn:FT; [|congruence]. destruct (r_defaults bk b enums ss o ds L X t mt FT) as (d' & D' & F'). assert (d' = d) by congruence. now subst. }
      clear -FA FD X. induction FA as [|e w es ws (d' & fs & [= <-] & R & ->) H IH]; constructor; [|exact IH]. exists d, fs. split; [reflexivity|]. split; [|reflexivity]. rewrite <- R. now apply reads_struct.
    - clear -FA. induction FA as [|e w es ws (d' & fs & H & _) _ IH]; [constructor|discriminate].
  Qed.
  Theorem vector_doubles x u os : object L u os -> exists r, reads x u os r /\ forall gs, r = Some gs ->
    exists hs, reads x u gs (Some hs) /\ forall ms n t, find_struct (l_defs L) u = Some ms -> In (MVector t n) ms ->
    exists l l', assoc n os = Some (VVec t l) /\ assoc n gs = Some (VVec t (l ++ l')) /\ assoc n hs = Some (VVec t (l ++ l' ++ l')).
  Proof.
    intros F. exists (read_struct L b x u os). split; [now apply reads_struct|]. intros gs R.
    destruct (read_twice bk b enums ss o ds L X x u os gs F R) as (hs & R2 & V). exists hs. split; [|exact V]. rewrite <- R2. apply reads_struct.
    exact (read_fits bk b enums ss o ds L X _ x (Nat.lt_succ_diag_r _) u os gs F R).
  Qed.
  Theorem reads_object x u os : object L u os -> exists r, reads x u os r /\ forall gs, r = Some gs -> object L u gs.
  Proof.
    intros F. exists (read_struct L b x u os). split; [now apply reads_struct|]. intros gs R. exact (read_fits bk b enums ss o ds L X _ x (Nat.lt_succ_diag_r _) u os gs F R).
  Qed.
  (** *** The file *)
  Lemma read_any_name nm nm' a k t os : read_struct L b (Elem nm a k) t os = read_struct L b (Elem nm' a k) t os.
  Proof. reflexivity. Qed.
  Theorem any_root ks t os ms nm nm' a k : top_of ss t -> find_struct (l_defs L) t = Some ms -> object L t os -> root ks = Some (Elem nm a k) ->
    exists r, reads (Elem nm' a k) t os r /\ file_reads ks t os r.
  Proof.
    intros TO MS F R. exists (read_struct L b (Elem nm a k) t os). split.
    - rewrite (read_any_name nm nm'). now apply reads_struct.
    - pose proof (reads_file ks t os ms TO MS F) as H. rewrite R in H. apply H. discriminate.
  Qed.
  Theorem no_root ks t os ms : top_of ss t -> find_struct (l_defs L) t = Some ms -> ms <> [] -> object L t os -> root ks = None -> file_reads ks t os None.
  Proof. intros TO MS NE F R. pose proof (reads_file ks t os ms TO MS F (fun _ => NE)) as H. now rewrite R in H. Qed.
  Theorem no_file t os a n l s f wf ms : top_of ss t -> find_struct (l_defs L) t = Some ms -> object L t os -> file_arg a n s -> get_lv l s = Some (VStruct t os) -> reader_or_writer (s_this s) ->
    load L (s_world s) (cut n) = None ->
    call_fun L (prog bk enums ss o) wf (S (S f)) [o_reader o; "read_from_file"] [a; (Some l, VStruct t os)] s = Ok (vbool false) s.
  Proof.
    intros (sr & TOP & SN) MS F FA GL TH LD.
    pose proof (read_file_ok bk b enums ss o ds L X wf t sr TOP SN ms MS (S f) a n l os s FA GL TH F ltac:(lia)) as R. unfold read_file_result in R. rewrite LD in R. apply R. discriminate.
  Qed.

  (** *** Writing *)
  Hypothesis OR : o_only_read o = false.
  Hypothesis L64 : b = Elements -> l_long L = 64%Z.
  Notation del dl := (negb (o_no_delta o) && dl)%bool.
  Lemma object_struct t fs : object L t fs -> exists ms, find_struct (l_defs L) t = Some ms.
  Proof. intros F. destruct (fits_struct L t fs F) as (ms & MS & _). eauto. Qed.
  Lemma writes_file dl t fs : top_of ss t -> object L t fs ->
    file_writes dl t fs (option_map (fun c => [Elem t (fst c) (snd c)]) (write_val L b (del dl) (VStruct t fs))).
  Proof.
    intros (sr & TOP & SN) F. destruct (object_struct t fs F) as (ms & MS). exists (S (S (vheight (VStruct t fs)))). intros f wf a n l s LE FA GL TH WR. destruct f as [|f]; [lia|].
    pose proof (write_file_ok bk b enums ss o ds L X wf t sr TOP SN ms MS OR L64 dl f a n l fs s FA GL TH F ltac:(lia)) as W. unfold write_file_result, save in W. rewrite WR in W.
    destruct (write_val L b (del dl) (VStruct t fs)) as [[at_ ks]|]; exact W.
  Qed.
  Theorem no_write dl t fs at_ ks a n l s f wf : top_of ss t -> object L t fs -> file_arg a n s -> get_lv l s = Some (VStruct t fs) -> s_this s = [("m_delta_only", vbool dl)] ->
    l_writable L (cut n) = false -> write_val L b (del dl) (VStruct t fs) = Some (at_, ks) -> vheight (VStruct t fs) < f ->
    call_fun L (prog bk enums ss o) wf (S f) [o_writer o; "write_to_file"] [a; (Some l, VStruct t fs)] s = Ok (vbool false) s.
  Proof.
    intros (sr & TOP & SN) F FA GL TH WR WV H. destruct (object_struct t fs F) as (ms & MS).
    pose proof (write_file_ok bk b enums ss o ds L X wf t sr TOP SN ms MS OR L64 dl f a n l fs s FA GL TH F H) as W. unfold write_file_result, save in W. rewrite WR, WV in W.
    rewrite W. now destruct s.
  Qed.
  Theorem written_then_read dl t fs os at_ ks : top_of ss t -> object L t fs -> object L t os -> write_val L b (del dl) (VStruct t fs) = Some (at_, ks) ->
    writes_reads dl t fs os (read_struct L b (reload (Elem t at_ ks)) t os).
  Proof.
    intros TO F FO WV. destruct (object_struct t fs F) as (ms & MS). destruct (writes_file dl t fs TO F) as (f1 & HW). rewrite WV in HW. cbn [option_map fst snd] in HW.
    destruct (reads_file (kids_of (reload (Elem "" [] [Elem t at_ ks]))) t os ms TO MS FO) as (f2 & HR); [discriminate|]. rewrite reload_root in HR.
    exists (f1 + f2). intros f wf wf' a n l s a' n' l' s' LE FA GL TH WR. eexists. split; [exact (HW f wf a n l s ltac:(lia) FA GL TH WR)|].
    intros FA' GL' TH' WO CN. apply (HR f wf' a' n' l' s'); [lia|assumption..|]. unfold load. rewrite WO, CN. cbn [w_files]. now rewrite assoc_set_same.
  Qed.
  Lemma del_off dl : o_no_delta o = true \/ dl = false -> del dl = false.
  Proof. intros [-> | ->]; [reflexivity|apply andb_false_r]. Qed.
  Lemma fresh_of os t : (forall u l, within (VVec u l) (VStruct t os) -> l = []) -> fresh L false (VStruct t os).
  Proof. intros H. split; [exact H|discriminate]. Qed.

  Theorem full_round dl t fs os : o_no_delta o = true \/ dl = false -> lits_fresh L false -> top_of ss t -> object L t fs -> storable L b false (VStruct t fs) ->
    object L t os -> (forall u l, within (VVec u l) (VStruct t os) -> l = []) -> writes_reads dl t fs os (Some fs).
  Proof.
    intros DL LR TO F ST FO EV. destruct (write_read bk b enums ss o ds L X false t fs os t LR F ST FO (fresh_of os t EV)) as (at_ & ks & gs & WV & RS & AL).
    apply alike_full in AL. injection AL as <-. rewrite <- RS. apply written_then_read; auto. now rewrite (del_off dl DL).
  Qed.
  Theorem delta_round dl t fs os : lits_fresh L (del dl) -> top_of ss t -> object L t fs -> storable L b (del dl) (VStruct t fs) ->
    object L t os -> fresh L (del dl) (VStruct t os) -> exists gs, writes_reads dl t fs os (Some gs) /\ alike L (del dl) (VStruct t fs) (VStruct t gs).
  Proof.
    intros LR TO F ST FO FR. destruct (write_read bk b enums ss o ds L X _ t fs os t LR F ST FO FR) as (at_ & ks & gs & WV & RS & AL).
    exists gs. split; [|exact AL]. rewrite <- RS. now apply written_then_read.
  Qed.
  Theorem left_out_undefined dl t fs os m d x : b = Attributes -> o_no_delta o = false -> dl = true -> top_of ss t -> object L t fs -> object L t os ->
    writable L true (VStruct t fs) -> scalar_in L (VStruct t fs) m d x -> converted m = true -> scalar_eq L x d = Some true -> writes_reads dl t fs os None.
  Proof.
    intros B ND DL TO F FO WR SI CV EQ. assert (D : del dl = true) by now rewrite ND, DL.
    pose proof (proj2 (writable_iff bk b enums ss o ds L X true (VStruct t fs) (TStruct t) (conj F I)) WR) as W.
    destruct (write_val L b true (VStruct t fs)) as [[at_ ks]|] eqn:WV; [|congruence].
    rewrite <- (left_out_overwritten bk b enums ss o ds L X t fs os t at_ ks m d x B F FO SI CV EQ WV). apply written_then_read; auto. now rewrite D.
  Qed.
  Hypothesis LB : (32 <= l_long L)%Z.
  Theorem longs_file dl t fs os : o_no_delta o = true \/ dl = false -> lits_fresh L false -> top_of ss t -> object L t fs ->
    (forall m d x, scalar_in L (VStruct t fs) m d x -> keeps_but_long L b x) -> object L t os -> (forall u l, within (VVec u l) (VStruct t os) -> l = []) ->
    exists r, writes_reads dl t fs os r /\ (r = Some fs <-> forall m d x, scalar_in L (VStruct t fs) m d x -> fits32 x).
  Proof.
    intros DL LR TO F KB FO EV. destruct (longs_restored bk b enums ss o ds L X LB t fs os t LR F KB FO (fresh_of os t EV)) as (at_ & ks & WV & IFF).
    exists (read_struct L b (reload (Elem t at_ ks)) t os). split; [|exact IFF]. apply written_then_read; auto. now rewrite (del_off dl DL).
  Qed.
  Theorem long_undefined dl t fs os m d z : b = Elements -> o_no_delta o = true \/ dl = false -> top_of ss t -> object L t fs -> object L t os -> writable L false (VStruct t fs) ->
    scalar_in L (VStruct t fs) m d (VNum KLong z) -> in_int z = false -> writes_reads dl t fs os None.
  Proof.
    intros B DL TO F FO WR SI N.
    pose proof (proj2 (writable_iff bk b enums ss o ds L X false (VStruct t fs) (TStruct t) (conj F I)) WR) as W.
    destruct (write_val L b false (VStruct t fs)) as [[at_ ks]|] eqn:WV; [|congruence].
    rewrite <- (long_overflows bk b enums ss o ds L X LB t fs os t at_ ks m d z B F FO SI N WV). apply written_then_read; auto. now rewrite (del_off dl DL).
  Qed.
  (** A long member of the top-level struct, as attribute *)
  Theorem long_value dl t fs os ms n df z : b = Attributes -> o_no_delta o = true \/ dl = false -> top_of ss t -> object L t fs -> object L t os -> writable L false (VStruct t fs) ->
    find_struct (l_defs L) t = Some ms -> In (MSimple long_E n df) ms -> assoc n fs = Some (VNum KLong z) ->
    exists r, writes_reads dl t fs os r /\ forall gs, r = Some gs -> assoc n gs = Some (VNum KLong (wrap 32 true z)).
  Proof.
    intros B DL TO F FO WR MS IM AX.
    pose proof (proj2 (writable_iff bk b enums ss o ds L X false (VStruct t fs) (TStruct t) (conj F I)) WR) as W.
    destruct (write_val L b false (VStruct t fs)) as [[at_ ks]|] eqn:WV; [|congruence].
    exists (read_struct L b (reload (Elem t at_ ks)) t os). split; [apply written_then_read; auto; now rewrite (del_off dl DL)|]. intros gs R.
    destruct (parts bk b enums ss o ds L X t fs F) as (ms' & d & FS' & D & _ & _ & M). assert (ms' = ms) by congruence. subst ms'.
    destruct (M _ IM) as (ty & v & dv & _ & _ & AD & _). destruct (parts bk b enums ss o ds L X t os FO) as (ms' & d' & FS2 & _ & _ & _ & M2). assert (ms' = ms) by congruence. subst ms'.
    destruct (M2 _ IM) as (_ & old & _ & _ & AO & _). cbn [member_name] in AD, AO.
    destruct (scalar_back bk b enums ss o ds L X false t fs os t at_ ks (MSimple long_E n df) (VNum KLong z) dv old F FO WV ms d MS D IM eq_refl AX AD AO) as [H _].
    rewrite R in H. destruct H as (y & C & A). cbn [member_name] in A. rewrite A, <- C. rewrite B. now rewrite (carry_long_a L LB false n df dv z old eq_refl).
  Qed.
  Theorem string_value dl t fs os ms n df s old : o_no_delta o = true \/ dl = false -> top_of ss t -> object L t fs -> object L t os -> writable L false (VStruct t fs) ->
    find_struct (l_defs L) t = Some ms -> In (MSimple std_string_E n df) ms -> assoc n fs = Some (VStr s) -> assoc n os = Some old ->
    exists r, writes_reads dl t fs os r /\ forall gs, r = Some gs ->
      assoc n gs = Some (match b with Elements => if blank (cut s) then old else VStr (newlines (cut s)) | Attributes => VStr (newlines (cut s)) end).
  Proof.
    intros DL TO F FO WR MS IM AX AO.
    pose proof (proj2 (writable_iff bk b enums ss o ds L X false (VStruct t fs) (TStruct t) (conj F I)) WR) as W.
    destruct (write_val L b false (VStruct t fs)) as [[at_ ks]|] eqn:WV; [|congruence].
    exists (read_struct L b (reload (Elem t at_ ks)) t os). split; [apply written_then_read; auto; now rewrite (del_off dl DL)|]. intros gs R.
    exact (string_back bk b enums ss o ds L X t fs os t at_ ks gs ms n df s old F FO MS IM AX AO WV R).
  Qed.

  (** *** What is in the file *)
  (** [describes delta v a k]: attributes [a] and children [k] describe object [v]. *)
  Inductive describes (delta : bool) : val -> list (string * string) -> list node -> Prop :=
  | d_struct u fs ms dd a k : find_struct (l_defs L) u = Some ms -> default_fields L u = Some dd ->
      (* nothing but members *)
      (forall n, In n (map fst a) -> In n (map member_name ms)) -> (forall y, In y k -> exists n, elem_named n y /\ In n (map member_name ms)) ->
      (* a scalar is there exactly if it is not left out *)
      (forall m x d, In m ms -> is_scalar L m = true -> assoc (member_name m) fs = Some x -> assoc (member_name m) dd = Some d ->
         find_item b (member_name m) a (map (fun y => (y, tt)) k) = if (delta && match scalar_eq L x d with Some e => e | None => false end)%bool then Absent else Present (text_of L b x)) ->
      (* structs and vectors are always there *)
      (forall m x, In m ms -> is_scalar L m = false -> assoc (member_name m) fs = Some x ->
         exists a' k', first_named (member_name m) (map (fun y => (y, tt)) k) = Some (Elem (member_name m) a' k', tt) /\ describes delta x a' k') ->
      describes delta (VStruct u fs) a k
  | d_vec u l k : Forall2 (fun x y => exists a' k', y = Elem u a' k' /\ describes delta x a' k') l k -> describes delta (VVec u l) [] k.
  Lemma write_describes delta v t : obj_type L v t -> forall a k, write_val L b delta v = Some (a, k) -> describes delta v a k.
  Proof.
    revert v t. apply (obj_ind bk b enums ss o ds L X (fun v => forall a k, write_val L b delta v = Some (a, k) -> describes delta v a k)).
    - intros u fs ms d F FS D IH a k WV. destruct (written_exactly bk b enums ss o ds L X delta u fs a k ms d F WV FS D) as (N1 & N2 & M).
      destruct (parts bk b enums ss o ds L X u fs F) as (ms' & d' & FS' & D' & _ & _ & PM). assert (ms' = ms) by congruence. assert (d' = d) by congruence. subst ms' d'.
      apply (d_struct delta u fs ms d a k FS D N1 N2).
      + intros m x dv I S AX AD. specialize (M m x dv I AX AD). now rewrite S in M.
      + intros m x I S AX. destruct (PM m I) as (ty & v & dv & _ & _ & AD & _). specialize (M m x dv I AX AD). rewrite S in M. destruct M as (a' & k' & W' & FN).
        exists a', k'. split; [exact FN|]. exact (IH m x I S AX a' k' W').
    - intros u l IH a k. cbn [write_val]. destruct (write_items u (map (write_val L b delta) l)) as [k0|] eqn:W; [|discriminate]. intros [= <- <-]. apply d_vec.
      revert k0 W. induction l as [|x l IL]; intros k0; cbn [map write_items]; [intros [= <-]; constructor|].
      destruct (write_val L b delta x) as [[a' k']|] eqn:WX; [|discriminate]. destruct (write_items u (map (write_val L b delta) l)) as [k1|]; [|discriminate]. intros [= <-].
      constructor; [exists a', k'; split; [reflexivity|]; apply (IH x (or_introl eq_refl)); exact WX|]. apply IL; [intros w I; apply IH; now right|reflexivity].
  Qed.
  Theorem file_content dl t fs : top_of ss t -> object L t fs -> writable L (del dl) (VStruct t fs) ->
    exists a k, file_writes dl t fs (Some [Elem t a k]) /\ describes (del dl) (VStruct t fs) a k.
  Proof.
    intros TO F WR. pose proof (proj2 (writable_iff bk b enums ss o ds L X (del dl) (VStruct t fs) (TStruct t) (conj F I)) WR) as W.
    pose proof (writes_file dl t fs TO F) as HW. destruct (write_val L b (del dl) (VStruct t fs)) as [[at_ ks]|] eqn:WV; [|congruence]. exists at_, ks. split; [exact HW|].
    exact (write_describes _ _ _ (conj F I) _ _ WV).
  Qed.
  Theorem file_undefined dl t fs : top_of ss t -> object L t fs -> ~ writable L (del dl) (VStruct t fs) -> file_writes dl t fs None.
  Proof.
    intros TO F NW. pose proof (writable_iff bk b enums ss o ds L X (del dl) (VStruct t fs) (TStruct t) (conj F I)) as W.
    pose proof (writes_file dl t fs TO F) as HW. destruct (write_val L b (del dl) (VStruct t fs)) as [[at_ ks]|] eqn:WV; [|exact HW]. exfalso. apply NW, W. discriminate.
  Qed.
End Thms.
