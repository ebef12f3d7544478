(** What calls of the generated functions of the n_ini back end do: the facts about reading
    and writing put together with the functions that implement them. *)
From Coq Require Import String Ascii ZArith NArith Arith List Bool Lia.
From Verif Require Import Base Map Items Grammar Fmt Decimal Templates Emit Cpp Xml Val Rx CppSem SymLex Ast StoreDefs ResolveProps Prog Header Link EnumSem DecText EnumCall EnumRound XmlSpec XmlRdSimple XmlRead XmlReader XmlCall XmlWriter XmlFile XmlCarry XmlRound XmlProps XmlReadProps XmlThms
  IniSpec IniRead IniReader IniCall IniLines IniFile IniEntry IniWrite IniWriter IniScan IniKeep IniRound IniBack.
Import ListNotations.
Local Open Scope string_scope.
Local Open Scope list_scope.

(** *** Readers *)
(** What an object of the reader class holds; the writer class is derived from it. *)
Record reader := Reader { r_look : lookups; r_key : string; r_val : string }.
Definition new_reader : reader := Reader (Look [] []) "" "".
(** ... after a file with the text [t] has been read *)
Definition has_read (t : string) (rd : reader) : reader :=
  let x := scan_text t (Scan (r_look rd) None (r_key rd) (r_val rd)) in Reader (x_look x) (x_key x) (x_val x).
(** Readers that are new or have read any files. *)
Inductive used : reader -> Prop :=
| used_new : used new_reader
| used_again t rd : used rd -> used (has_read t rd).
Lemma used_named rd : used rd -> named (r_look rd).
Proof. induction 1 as [|t rd U IH]; [reflexivity|]. unfold has_read. cbn [r_look]. now apply named_text. Qed.

(** *** Text in a text *)
Definition in_text (a t : string) : Prop := exists x y, t = (x ++ a ++ y)%string.
Lemma in_text_app a x t y : in_text a t -> in_text a (x ++ t ++ y).
Proof. intros (p & q & ->). exists (x ++ p)%string, (q ++ y)%string. now rewrite !sapp_assoc. Qed.
Lemma in_text_trans a b c : in_text a b -> in_text b c -> in_text a c.
Proof. intros H (x & y & ->). now apply in_text_app. Qed.
Lemma cut_in s : in_text (CppSem.cut s) s.
Proof.
  assert (H : exists r, s = (CppSem.cut s ++ r)%string).
  { induction s as [|c s (r & IH)]; [exists ""; reflexivity|]. cbn. destruct (c =? zero)%char; [exists (String c s); reflexivity|]. exists r. cbn. congruence. }
  destruct H as (r & H). exists "", r. exact H.
Qed.
Lemma no_comment_in s : in_text (no_comment s) s.
Proof.
  assert (H : exists r, s = (no_comment s ++ r)%string).
  { induction s as [|c s (r & IH)]; [exists ""; reflexivity|]. cbn. destruct (c =? "%")%char; [exists (String c s); reflexivity|]. exists r. cbn. congruence. }
  destruct H as (r & H). exists "", r. exact H.
Qed.
Lemma chunks_in : forall s room a l, In l (chunks room a s) -> in_text l (a ++ s).
Proof.
  induction s as [|c s IH]; intros room a l I; cbn [chunks] in I.
  - rewrite sapp_nil_r. destruct a; [contradiction|]. destruct I as [<-|[]]. exists "", "". now rewrite sapp_nil_r.
  - destruct (_ || _)%bool.
    + destruct I as [<-|I]; [exists "", s; cbn; now rewrite snoc_append|]. apply IH in I as (x & y & E). cbn in E. subst s. exists (snoc a c ++ x)%string, y. now rewrite sapp_assoc, snoc_append.
    + apply IH in I. now rewrite snoc_append in I.
Qed.
Lemma plus_found c r gs : forall s t g, rx_match (RItem c true :: r) s (Some t) gs = Some g -> exists w u, s = (w ++ u)%string /\ rx_match r u (Some (t ++ w)%string) gs = Some g.
Proof.
  induction s as [|a s IH]; intros t g H; [discriminate|].
  change ((if rclass_has c a then match rx_match (RItem c true :: r) s (Some (snoc t a)) gs with Some g => Some g | None => rx_match r s (Some (snoc t a)) gs end else None) = Some g) in H.
  destruct (rclass_has c a); [|discriminate]. destruct (rx_match (RItem c true :: r) s (Some (snoc t a)) gs) as [g'|] eqn:E.
  - injection H as ->. apply IH in E as (w & u & -> & M). exists (String a w), u. split; [reflexivity|]. now rewrite <- snoc_append.
  - exists (String a ""), s. split; [reflexivity|]. exact H.
Qed.
Lemma section_named s p r : search "\[(.+)\]" s = Some (p :: r) -> in_text ("[" ++ p ++ "]") s.
Proof.
  unfold search. change (rx_compile "\[(.+)\]") with (Some [RItem (RChar "[") false; ROpen; RItem RAny true; RClose; RItem (RChar "]") false]).
  induction s as [|a s IH]; [discriminate|]. unfold rx_search; fold rx_search.
  destruct (rx_match _ (String a s) None []) as [g|] eqn:M.
  - intros [= ->]. change ((if rclass_has (RChar "[") a then rx_match [RItem RAny true; RClose; RItem (RChar "]") false] s (Some "") [] else None) = Some (p :: r)) in M.
    destruct (rclass_has (RChar "[") a) eqn:A; [|discriminate]. apply plus_found in M as (w & u & -> & M).
    cbn [rx_match app] in M. destruct u as [|b u]; [discriminate|]. destruct (rclass_has (RChar "]") b) eqn:B; [|discriminate]. injection M as <- _. cbn in A, B. apply Ascii.eqb_eq in A, B. subst.
    exists "", u. cbn. now rewrite sapp_assoc.
  - intros H. apply IH in H as (x & y & ->). exists (String a x), y. reflexivity.
Qed.

Section Calls.
  Variables (enums : list enum_S) (ss : list struct_S) (o : output_spec) (L : lang).
  Let P := prog B_n_ini enums ss o.
  Definition reader_this (rest : scope) (rd : reader) : scope := this_of rest (r_look rd) (r_key rd) (r_val rd).
  (** read_from_file of a file that holds [x], for a reader [rd] and an object with members
      [os]: the result and the object; [None]: undefined behaviour. *)
  Definition ini_reads (x : string) (t : string) (os : fields) (rd : reader) (r : option (bool * fields)) : Prop :=
    exists f0, forall f wf rest a n l s, f0 <= f -> f0 <= wf -> rest_of rest -> name_arg a n s -> lv_this l = false -> get_lv l s = Some (VStruct t os) ->
      s_this s = reader_this rest rd -> assoc (cut n) (w_files (s_world s)) = Some (CText x) ->
      call_fun L P wf f [o_reader o; "read_from_file"] [a; (Some l, VStruct t os)] s =
      match r with
      | Some (rv, gs) =>
          match put_lv l (VStruct t gs) (St (s_scopes s) (s_tree s) (reader_this rest (has_read x rd)) (World (w_files (s_world s)) None None)) with
          | Some s' => Ok (vbool rv) s'
          | None => Bad
          end
      | None => UB
      end.
  (** write_to_file, to a file that can be written: what is in the file then; [dl]: delta_only. *)
  Definition ini_writes (dl : bool) (t : string) (fs : fields) (r : option string) : Prop :=
    exists f0, forall f wf a n l m rd s, f0 <= f -> name_arg a n s -> lv_this l = false -> get_lv l s = Some (VStruct t fs) ->
      s_this s = reader_this [("m_delta_only", vbool dl); ("m_file", VFile m)] rd -> l_writable L (cut n) = true ->
      call_fun L P wf f [o_writer o; "write_to_file"] [a; (Some l, VStruct t fs)] s =
      match r with
      | Some x => Ok (vbool true) (St (s_scopes s) (s_tree s) (reader_this [("m_delta_only", vbool dl); ("m_file", VFile true)] rd)
                                      (World (set_assoc (cut n) (CText x) (w_files (s_world s))) None None))
      | None => UB
      end.
End Calls.

Section Thms.
  Variables (enums : list enum_S) (ss : list struct_S) (o : output_spec) (ds : list def) (L : lang).
  Hypothesis X : ini_setting enums ss o ds L.
  Notation ini_reads := (ini_reads enums ss o L).
  Notation ini_writes := (ini_writes enums ss o L).
  Notation del dl := (negb (o_no_delta o) && dl)%bool.

  Definition read_members_of (k : lookups) (t : string) (os : fields) : option (bool * fields) :=
    match read_obj L k (VStruct t os) "" with Some (rv, VStruct _ gs) => Some (rv, gs) | _ => None end.
  Lemma read_obj_struct k v p rv w : read_obj L k v p = Some (rv, w) -> exists u fs gs, v = VStruct u fs /\ w = VStruct u gs.
  Proof.
    destruct v as [| | | | | | |u fs| | | | | | | | | | | | | |]; try discriminate. cbn [read_obj]. destruct (find_struct (l_defs L) u) as [ms|]; [|discriminate].
    destruct (match assoc p (k_under k) with Some its => _ | None => _ end) as [f|f|]; [| |discriminate].
    - destruct (read_structs _ _ _ _ _) as [[r f2]|]; [|discriminate]. intros [= _ <-]. eauto.
    - intros [= _ <-]. eauto.
  Qed.
  Theorem reads_any x t os rd : top_of ss t -> object L t os -> ini_reads x t os rd (read_members_of (r_look (has_read x rd)) t os).
  Proof.
    intros (sr & TOP & SN) F. exists (S (S (String.length x + vheight (VStruct t os)))). intros f wf rest a n l s LE LW RO NA LT GL TH FI. destruct f as [|f]; [lia|].
    rewrite (ini_read_file enums ss o ds L X wf t sr TOP SN f a n l os rest (r_look rd) (r_key rd) (r_val rd) s RO NA LT GL TH F).
    - unfold ini_read_result. rewrite FI. unfold read_members_of, has_read, reader_this. cbn [r_look r_key r_val].
      destruct (read_obj L _ (VStruct t os) "") as [[rv w]|] eqn:E; [|reflexivity]. apply read_obj_struct in E as (u & f1 & gs & [= <- <-] & ->). reflexivity.
    - intros d. rewrite FI. discriminate.
    - intros y. rewrite FI. intros [= <-]. lia.
    - lia.
  Qed.
  Theorem no_ini_file t os a n l rest rd f wf s : top_of ss t -> object L t os -> rest_of rest -> name_arg a n s -> lv_this l = false -> get_lv l s = Some (VStruct t os) -> s_this s = reader_this rest rd ->
    assoc (cut n) (w_files (s_world s)) = None -> vheight (VStruct t os) < f ->
    call_fun L (prog B_n_ini enums ss o) wf (S f) [o_reader o; "read_from_file"] [a; (Some l, VStruct t os)] s = Ok (vbool false) s.
  Proof.
    intros (sr & TOP & SN) F RO NA LT GL TH FI HV.
    rewrite (ini_read_file enums ss o ds L X wf t sr TOP SN f a n l os rest (r_look rd) (r_key rd) (r_val rd) s RO NA LT GL TH F); [|congruence..|exact HV].
    unfold ini_read_result. now rewrite FI.
  Qed.

  (** *** Members that never change *)
  Theorem top_kept x t os rd : used rd -> top_of ss t -> object L t os ->
    exists r, ini_reads x t os rd r /\ forall rv gs, r = Some (rv, gs) -> forall ms m, find_struct (l_defs L) t = Some ms -> In m ms -> is_struct_member L m = false ->
      assoc (member_name m) gs = assoc (member_name m) os.
  Proof.
    intros U T F. eexists. split; [exact (reads_any x t os rd T F)|]. intros rv gs E ms m FS I SM. unfold read_members_of in E.
    destruct (read_obj L _ (VStruct t os) "") as [[rv' w]|] eqn:R; [|discriminate]. pose proof (read_obj_struct _ _ _ _ _ R) as (u & f1 & gs' & [= <- <-] & ->). injection E as -> ->.
    destruct (read_keeps enums ss o ds L X _ [] "" (VStruct t os) t rv (VStruct t gs) F R t os eq_refl) as (gs' & ms' & [= <-] & FS' & K).
    assert (ms' = ms) by congruence. subst ms'. apply K; auto. right. left. cbn [fold_left]. apply (used_named (has_read x rd)). now constructor.
  Qed.
  Theorem deep_kept x t os rd : top_of ss t -> object L t os ->
    exists r, ini_reads x t os rd r /\ forall rv gs, r = Some (rv, gs) -> forall ns u fs ms, member_at ns (VStruct t os) = Some (VStruct u fs) -> find_struct (l_defs L) u = Some ms ->
      exists fs', member_at ns (VStruct t gs) = Some (VStruct u fs') /\
      forall m, In m ms -> is_struct_member L m = false -> is_scalar L m = false \/ existsb is_simple ms = false -> assoc (member_name m) fs' = assoc (member_name m) fs.
  Proof.
    intros T F. eexists. split; [exact (reads_any x t os rd T F)|]. intros rv gs E ns u fs ms AT FS. unfold read_members_of in E.
    destruct (read_obj L _ (VStruct t os) "") as [[rv' w]|] eqn:R; [|discriminate]. pose proof (read_obj_struct _ _ _ _ _ R) as (u1 & f1 & gs' & [= <- <-] & ->). injection E as -> ->.
    destruct (read_keeps enums ss o ds L X _ ns "" (VStruct t os) t rv (VStruct t gs) F R u fs AT) as (gs' & ms' & A & FS' & K).
    assert (ms' = ms) by congruence. subst ms'. exists gs'. split; [exact A|]. intros m I SM H. apply K; auto. tauto.
  Qed.
  (** Sections that no line of the file names, for a new reader. *)
  Definition names_section (l : string) (p : string) : Prop := exists r, search "\[(.+)\]" (no_comment (cut l)) = Some (p :: r).
  Lemma keys_put c n v k p : assoc p (k_under (put_item c n v k)) = None <-> assoc p (k_under k) = None.
  Proof.
    unfold put_item. destruct c as [s|]; [|reflexivity]. destruct (assoc s (k_under k)) as [its|] eqn:E; [|reflexivity]. cbn [k_under].
    destruct (String.eqb_spec p s) as [->|N]; [rewrite assoc_set_same, E; split; discriminate|rewrite assoc_set_other; [reflexivity|now apply eqb_neq]].
  Qed.
  Lemma unnamed_line p l s : ~ (exists r, search "\[(.+)\]" (no_comment l) = Some (p :: r)) -> assoc p (k_under (x_look s)) = None -> assoc p (k_under (x_look (scan_line l s))) = None.
  Proof.
    intros N H. unfold scan_line. destruct (no_comment l) as [|c r]; [exact H|].
    assert (F : assoc p (k_under (x_look (flush c s))) = None) by (unfold flush; destruct (_ && _)%bool; [cbn [x_look]; now apply keys_put|exact H]). set (s' := flush c s) in *.
    destruct (c =? "[")%char.
    - destruct (search "\[(.+)\]" (String c r)) as [[|k q]|] eqn:E; try exact F. cbn [x_look k_under]. rewrite assoc_set_other; [exact F|]. apply eqb_neq. intros ->. apply N. eauto.
    - destruct (c =? " ")%char; [exact F|]. destruct (search "(\w+) (.+)" (String c r)) as [[|k [|v q]]|]; try (destruct (search "(\w+)" (String c r)) as [[|k' q']|]; exact F).
      cbn [x_look]. now apply keys_put.
  Qed.
  Lemma unnamed_text p t s : (forall l, In l (chunks 79 "" t) -> ~ names_section l p) -> assoc p (k_under (x_look s)) = None -> assoc p (k_under (x_look (scan_text t s))) = None.
  Proof.
    unfold scan_text. generalize (chunks 79 "" t). intros ls. revert s. induction ls as [|l ls IH]; intros s N H; [exact H|]. cbn [fold_left]. apply IH; [intros l' I; apply N; now right|].
    apply unnamed_line; [|exact H]. exact (N l (or_introl eq_refl)).
  Qed.
  Theorem unnamed_kept x t os ns u fs ms : top_of ss t -> object L t os -> member_at ns (VStruct t os) = Some (VStruct u fs) -> find_struct (l_defs L) u = Some ms ->
    ~ in_text ("[" ++ section_of ns ++ "]") x ->
    exists r, ini_reads x t os new_reader r /\ forall rv gs, r = Some (rv, gs) ->
      exists fs', member_at ns (VStruct t gs) = Some (VStruct u fs') /\ forall m, In m ms -> is_struct_member L m = false -> assoc (member_name m) fs' = assoc (member_name m) fs.
  Proof.
    intros T F AT FS N. eexists. split; [exact (reads_any x t os new_reader T F)|]. intros rv gs E. unfold read_members_of in E.
    destruct (read_obj L _ (VStruct t os) "") as [[rv' w]|] eqn:R; [|discriminate]. pose proof (read_obj_struct _ _ _ _ _ R) as (u1 & f1 & gs' & [= <- <-] & ->). injection E as -> ->.
    destruct (read_keeps enums ss o ds L X _ ns "" (VStruct t os) t rv (VStruct t gs) F R u fs AT) as (gs' & ms' & A & FS' & K).
    assert (ms' = ms) by congruence. subst ms'. exists gs'. split; [exact A|]. intros m I SM. apply K; auto. right. left. apply unnamed_text; [|reflexivity].
    intros l IL (r & SE). apply N. apply section_named in SE. eapply in_text_trans; [exact SE|]. eapply in_text_trans; [apply no_comment_in|]. eapply in_text_trans; [apply cut_in|]. exact (chunks_in x 79 "" l IL).
  Qed.

  (** *** The result: that of the last struct member, if there is one *)
  Lemma structs_last p (sub : list (string * (string -> result))) : forall l rv gs rv' gs', read_structs p sub l rv gs = Some (rv', gs') ->
    match rev l with [] => rv' = rv | m :: _ => exists f v, assoc (member_name m) sub = Some f /\ f (sub_path p (member_name m)) = Some (rv', v) end.
  Proof.
    induction l as [|m l IH]; intros rv gs rv' gs' E; cbn [read_structs] in E; [now injection E as -> _|].
    destruct (assoc (member_name m) sub) as [f|] eqn:A; [|discriminate]. destruct (f (sub_path p (member_name m))) as [[r v]|] eqn:F; [|discriminate]. specialize (IH _ _ _ _ E). cbn [rev].
    destruct (rev l) as [|m' l']; cbn [app]; [subst; eauto|exact IH].
  Qed.
  Theorem last_result x t os rd ms m : used rd -> top_of ss t -> object L t os -> find_struct (l_defs L) t = Some ms ->
    hd_error (rev (filter (is_struct_member L) ms)) = Some m ->
    exists r w, ini_reads x t os rd r /\ assoc (member_name m) os = Some w /\
      forall rv gs, r = Some (rv, gs) -> exists w', read_obj L (r_look (has_read x rd)) w (underline_to_space (member_name m)) = Some (rv, w').
  Proof.
    intros U T F FS LA. destruct (j_parts enums ss o ds L X t os F) as (ms' & d & FS' & D & ND & K & PM). assert (ms' = ms) by congruence. subst ms'.
    assert (I : In m ms). { destruct (rev (filter (is_struct_member L) ms)) as [|y ys] eqn:E; [discriminate|]. injection LA as ->. assert (J : In m (rev (filter (is_struct_member L) ms))) by (rewrite E; now left). apply in_rev, filter_In in J as [J _]. exact J. }
    destruct (PM m I) as (ty & w & dv & MT & AW & _). eexists _, w. split; [exact (reads_any x t os rd T F)|]. split; [exact AW|]. intros rv gs E. unfold read_members_of in E.
    set (k := r_look (has_read x rd)) in *. cbn [read_obj] in E. rewrite FS in E. assert (NM : assoc "" (k_under k) = None) by (apply (used_named (has_read x rd)); now constructor). rewrite NM in E.
    destruct (read_structs "" _ (filter (is_struct_member L) ms) true os) as [[rv' f2]|] eqn:RS; [|discriminate]. injection E as -> ->.
    apply structs_last in RS. destruct (rev (filter (is_struct_member L) ms)) as [|y ys]; [discriminate|]. injection LA as ->. destruct RS as (f & v & A & B).
    rewrite sub_assoc, AW in A. injection A as <-. exists v. exact B.
  Qed.

  (** *** Undefined behaviour of reading: only from enums *)
  (** Every int is a value of the enum. *)
  Definition roomy (e : string) : Prop := forall z, in_int z = true -> enum_holds L e z = true.
  Definition enums_roomy : Prop := forall u ms e n df, find_struct (l_defs L) u = Some ms -> In (MUser e n df) ms -> user_type L e = Some (TEnum e) -> roomy e.
  Lemma scalars_defined its ms : enums_roomy -> forall l fs, incl l ms -> (forall m, In m l -> is_scalar L m = true /\ assoc (member_name m) fs <> None) -> (exists u, find_struct (l_defs L) u = Some ms) ->
    read_scalars L its l fs <> Undefined.
  Proof.
    intros ER l. induction l as [|m l IH]; intros fs INC H (u & FS); cbn [read_scalars]; [discriminate|]. assert (INC' : incl l ms) by (intros y Y; apply INC; now right).
    destruct (assoc (member_name m) its) as [s|]; [|apply IH; eauto; intros m' I; apply H; now right]. destruct (H m (or_introl eq_refl)) as [SM AN]. destruct (assoc (member_name m) fs) as [old|]; [|congruence].
    assert (RT : read_text L m s old <> Undefined).
    { destruct m as [st n d|e n d|e n]; cbn [read_text is_scalar] in *; [destruct (text_value L st s); discriminate| |discriminate].
      destruct (user_type L e) as [[]|] eqn:UT; try discriminate. assert (n0 = e) as -> by (unfold user_type in UT; destruct (find_struct (l_defs L) e); [discriminate|]; destruct (find_enum (l_defs L) e); congruence).
      unfold user_type in UT. destruct (find_struct (l_defs L) e) eqn:FE0; [discriminate|]. destruct (find_enum (l_defs L) e) as [[c es]|] eqn:FE; [|discriminate].
      assert (RM : roomy e) by (apply (ER u ms e n d FS (INC _ (or_introl eq_refl))); unfold user_type; now rewrite FE0, FE).
      unfold read_enum. destruct (assoc s (enum_values L 0 es)); [discriminate|]. destruct (scan_dec s) as [z|]; [|discriminate]. destruct (in_int z) eqn:II; [|discriminate]. rewrite (RM z II). discriminate. }
    destruct (read_text L m s old) as [v|v|]; [|discriminate|congruence]. apply IH; eauto. intros m' I. destruct (H m' (or_intror I)) as [A B]. split; [exact A|].
    destruct (string_dec (member_name m') (member_name m)) as [->|N]; [rewrite assoc_set_same; discriminate|rewrite assoc_set_other; [exact B|now apply eqb_neq]].
  Qed.
  Lemma read_structs_defined p (sub : list (string * (string -> result))) : forall l rv gs, (forall m, In m l -> exists f : string -> result, assoc (member_name m) sub = Some f /\ f (sub_path p (member_name m)) <> None) -> read_structs p sub l rv gs <> None.
  Proof.
    induction l as [|m l IH]; intros rv gs H; cbn [read_structs]; [discriminate|]. destruct (H m (or_introl eq_refl)) as (f & -> & NN). destruct (f (sub_path p (member_name m))) as [[r v]|]; [|congruence].
    apply IH. intros m' I. apply H. now right.
  Qed.
  Lemma read_defined k : enums_roomy -> forall f v u p, vheight v < f -> fits L v (TStruct u) = true -> read_obj L k v p <> None.
  Proof.
    intros ER. induction f as [|f IH]; intros v u p HV F; [lia|]. destruct (fits_as_struct L v u F) as (fs & ->). destruct (j_parts enums ss o ds L X u fs F) as (ms & d & FS & D & ND & K & PM).
    cbn [read_obj]. rewrite FS. assert (S1 : match assoc p (k_under k) with Some its => read_scalars L its (section_members L ms) fs | None => Done fs end <> Undefined).
    { destruct (assoc p (k_under k)) as [its|]; [|discriminate].
      assert (INS : forall m, In m (section_members L ms) -> In m ms /\ is_scalar L m = true).
      { intros m I. unfold section_members in I. destruct (existsb is_simple ms); [|contradiction]. apply filter_In in I as [I S]. split; [now apply in_order_in|exact S]. }
      apply (scalars_defined its ms ER); [intros m I; apply INS, I| |eauto]. intros m I. destruct (INS m I) as [A B]. split; [exact B|]. destruct (PM m A) as (? & ? & ? & _ & C & _). congruence. }
    destruct (match assoc p (k_under k) with Some its => _ | None => _ end) as [f1|f1|]; [|discriminate|congruence].
    destruct (read_structs p _ (filter (is_struct_member L) ms) true f1) as [[rv f2]|] eqn:RS; [discriminate|]. exfalso. revert RS. apply read_structs_defined. intros m I. apply filter_In in I as [I SM].
    destruct (PM m I) as (ty & w & dv & MT & AW & _ & FW & _). destruct (struct_value L m w ty SM MT FW) as (u1 & f3 & -> & ->). rewrite sub_assoc, AW. eexists. split; [reflexivity|].
    apply (IH _ u1); [|exact FW]. pose proof (field_height u fs _ _ AW). lia.
  Qed.
  Theorem reading_defined x t os rd : enums_roomy -> top_of ss t -> object L t os -> exists rv gs, ini_reads x t os rd (Some (rv, gs)).
  Proof.
    intros ER T F. pose proof (reads_any x t os rd T F) as R. unfold read_members_of in R. pose proof (read_defined (r_look (has_read x rd)) ER (S (vheight (VStruct t os))) (VStruct t os) t "" ltac:(lia) F) as N.
    destruct (read_obj L _ (VStruct t os) "") as [[rv w]|] eqn:E; [|congruence]. apply read_obj_struct in E as (u1 & f1 & gs & [= <- <-] & ->). eauto.
  Qed.

  (** *** Reading keeps objects well typed *)
  Lemma ini_kind_idem k z : to_kind L k (to_kind L k z) = to_kind L k z.
  Proof.
    pose proof (i_long _ _ _ _ _ X) as LL. destruct k; cbn [to_kind]; try (apply wrap_idem; cbn; lia). now destruct (z =? 0)%Z.
  Qed.
  Lemma text_fits m ty s old v : is_scalar L m = true -> member_type L m = Some ty -> fits L old ty = true -> read_text L m s old = Done v -> fits L v ty = true.
  Proof.
    intros S MT F R. destruct m as [st n df|u n df|u n]; cbn [read_text member_type is_scalar] in *; [| |discriminate].
    - injection MT as <-.
      assert (NUM : forall k j, read_as L k j s = Some v -> fits L v (TNum j) = true).
      { intros k j H. unfold read_as in H. destruct (number L k s) as [z|]; [|discriminate]. injection H as <-. cbn [fits]. now rewrite ini_kind_idem, Z.eqb_refl, ty_eqb_refl by reflexivity. }
      destruct (text_value L st s) as [w|] eqn:E; [|discriminate]. injection R as ->.
      destruct st; cbn [text_value kind_of] in *; try (eapply NUM; exact E);
        try (destruct (l_sto L _ s); [|discriminate]); now inversion E.
    - rewrite MT in S. destruct ty; try discriminate.
      assert (n0 = u) as ->. { unfold user_type in MT. destruct (find_struct (l_defs L) u); [discriminate|]. destruct (find_enum (l_defs L) u); congruence. }
      destruct (find_enum (l_defs L) u) as [[c es]|]; [|discriminate]. destruct (read_enum L u (enum_values L 0 es) s); try congruence. injection R as <-. cbn. apply String.eqb_refl.
  Qed.
  Definition typed (ms : list member) (fs : fields) : Prop := map fst fs = map member_name ms /\
    forall m, In m ms -> exists v ty, assoc (member_name m) fs = Some v /\ member_type L m = Some ty /\ fits L v ty = true.
  Lemma typed_set ms fs m v ty : NoDup (map member_name ms) -> typed ms fs -> In m ms -> member_type L m = Some ty -> fits L v ty = true -> typed ms (set_assoc (member_name m) v fs).
  Proof.
    intros ND [K T] I MT F. split; [rewrite set_assoc_keys; [exact K|rewrite K; now apply in_map]|]. intros m' I'. destruct (String.eqb_spec (member_name m') (member_name m)) as [E|N].
    - apply (j_name_inj ms m' m ND I' I) in E. subst m'. exists v, ty. rewrite assoc_set_same. auto.
    - rewrite assoc_set_other by now apply eqb_neq. now apply T.
  Qed.
  Lemma typed_scalars its ms : NoDup (map member_name ms) -> forall l fs, (forall m, In m l -> In m ms /\ is_scalar L m = true) -> typed ms fs ->
    match read_scalars L its l fs with Done f | Thrown f => typed ms f | Undefined => True end.
  Proof.
    intros ND. induction l as [|m l IH]; intros fs INC T; cbn [read_scalars]; [exact T|]. assert (INC' : forall m, In m l -> In m ms /\ is_scalar L m = true) by (intros y Y; apply INC; now right).
    destruct (assoc (member_name m) its) as [s|]; [|now apply IH]. destruct (INC m (or_introl eq_refl)) as [I S]. destruct (proj2 T m I) as (old & ty & A & MT & F). rewrite A.
    destruct (read_text L m s old) as [v|v|] eqn:R; auto. apply IH; [exact INC'|]. eapply typed_set; eauto. eapply text_fits; eauto.
  Qed.
  Lemma typed_structs p (sub : list (string * (string -> result))) ms : NoDup (map member_name ms) -> (forall m (f : string -> result) r v, In m ms -> assoc (member_name m) sub = Some f -> f (sub_path p (member_name m)) = Some (r, v) -> exists ty, member_type L m = Some ty /\ fits L v ty = true) ->
    forall l rv fs rv' fs', incl l ms -> typed ms fs -> read_structs p sub l rv fs = Some (rv', fs') -> typed ms fs'.
  Proof.
    intros ND SUB. induction l as [|m l IH]; intros rv fs rv' fs' INC T E; cbn [read_structs] in E; [injection E as _ <-; exact T|].
    assert (I : In m ms) by (apply INC; now left). destruct (assoc (member_name m) sub) as [f|] eqn:A; [|discriminate]. destruct (f (sub_path p (member_name m))) as [[r v]|] eqn:F; [|discriminate].
    destruct (SUB m f r v I A F) as (ty & MT & FV). eapply IH; [intros y Y; apply INC; now right| |exact E]. eapply typed_set; eauto.
  Qed.
  Lemma typed_fits u ms fs : find_struct (l_defs L) u = Some ms -> NoDup (map member_name ms) -> typed ms fs -> fits L (VStruct u fs) (TStruct u) = true.
  Proof.
    intros FS ND [K T]. cbn [fits ty_eqb]. rewrite String.eqb_refl, FS. cbn [andb]. apply fields_make; [exact K|]. intros m v I J. destruct (T m I) as (w & ty & A & MT & F).
    rewrite (Header.assoc_in (member_name m) v fs) in A; [|rewrite K; exact ND|exact J]. injection A as ->. eauto.
  Qed.
  Lemma ini_read_fits k : forall f v u p rv w, vheight v < f -> fits L v (TStruct u) = true -> read_obj L k v p = Some (rv, w) -> fits L w (TStruct u) = true.
  Proof.
    induction f as [|f IH]; intros v u p rv w HV F R; [lia|]. destruct (fits_as_struct L v u F) as (fs & ->). destruct (j_parts enums ss o ds L X u fs F) as (ms & d & FS & D & ND & K & PM).
    assert (T : typed ms fs) by (split; [exact K|intros m I; destruct (PM m I) as (ty & v & _ & MT & A & _ & FV & _); exists v, ty; auto]).
    cbn [read_obj] in R. rewrite FS in R.
    assert (T1 : match match assoc p (k_under k) with Some its => read_scalars L its (section_members L ms) fs | None => Done fs end with Done f | Thrown f => typed ms f | Undefined => True end).
    { destruct (assoc p (k_under k)) as [its|]; [|exact T]. apply typed_scalars; [exact ND| |exact T]. intros m I. unfold section_members in I. destruct (existsb is_simple ms); [|contradiction]. apply filter_In in I as [I S]. split; [now apply in_order_in|exact S]. }
    destruct (match assoc p (k_under k) with Some its => _ | None => _ end) as [f1|f1|]; [| |discriminate].
    - destruct (read_structs p _ (filter (is_struct_member L) ms) true f1) as [[rv' f2]|] eqn:RS; [|discriminate]. injection R as _ <-. apply (typed_fits u ms); auto.
      eapply typed_structs; [exact ND| |intros m I; apply filter_In in I as [I _]; exact I|exact T1|exact RS].
      intros m g r v I A G. rewrite sub_assoc in A. destruct (PM m I) as (ty & v0 & dv & MT & A0 & _ & F0 & _). rewrite A0 in A. injection A as <-. exists ty. split; [exact MT|].
      pose proof (read_obj_struct _ _ _ _ _ G) as (u1 & f3 & f4 & -> & ->). pose proof (fits_ty L _ _ F0) as TY. cbn in TY. subst ty.
      refine (IH _ u1 _ _ _ _ F0 G). pose proof (field_height u fs _ _ A0). lia.
    - injection R as _ <-. now apply (typed_fits u ms).
  Qed.
  Theorem ini_reads_object x t os rd : top_of ss t -> object L t os -> exists r, ini_reads x t os rd r /\ forall rv gs, r = Some (rv, gs) -> object L t gs.
  Proof.
    intros T F. eexists. split; [exact (reads_any x t os rd T F)|]. intros rv gs E. unfold read_members_of in E.
    destruct (read_obj L _ (VStruct t os) "") as [[rv' w]|] eqn:R; [|discriminate]. pose proof (read_obj_struct _ _ _ _ _ R) as (u1 & f1 & gs' & [= <- <-] & ->). injection E as -> ->.
    exact (ini_read_fits _ (S (vheight (VStruct t os))) (VStruct t os) t "" rv (VStruct t gs) ltac:(lia) F R).
  Qed.

  (** Nothing reports a failed conversion, if the last struct member has no section in the file
      and no members of struct types. *)
  Theorem result_true x t os ms m u ms' : top_of ss t -> object L t os -> find_struct (l_defs L) t = Some ms ->
    hd_error (rev (filter (is_struct_member L) ms)) = Some m -> member_type L m = Some (TStruct u) -> find_struct (l_defs L) u = Some ms' -> existsb (is_struct_member L) ms' = false ->
    ~ in_text ("[" ++ underline_to_space (member_name m) ++ "]") x ->
    exists r, ini_reads x t os new_reader r /\ forall rv gs, r = Some (rv, gs) -> rv = true.
  Proof.
    intros T F FS LA MT FS' NS N. destruct (last_result x t os new_reader ms m used_new T F FS LA) as (r & w & R & AW & H). exists r. split; [exact R|]. intros rv gs E. destruct (H rv gs E) as (w' & RO).
    destruct (read_obj_struct _ _ _ _ _ RO) as (u1 & f1 & g1 & -> & ->). destruct (j_parts enums ss o ds L X t os F) as (ms2 & d & FS2 & D & ND & K & PM). assert (ms2 = ms) by congruence. subst ms2.
    assert (I : In m ms). { destruct (rev (filter (is_struct_member L) ms)) as [|y ys] eqn:E2; [discriminate|]. injection LA as ->. assert (J : In m (rev (filter (is_struct_member L) ms))) by (rewrite E2; now left). apply in_rev, filter_In in J as [J _]. exact J. }
    destruct (PM m I) as (ty & v & dv & MT' & A & _ & FV & _). assert (ty = TStruct u) by congruence. assert (v = VStruct u1 f1) by congruence. subst ty v. pose proof (fits_ty L _ _ FV) as TY. cbn in TY. injection TY as ->.
    cbn [read_obj] in RO. rewrite FS' in RO.
    assert (NA : assoc (underline_to_space (member_name m)) (k_under (r_look (has_read x new_reader))) = None).
    { apply unnamed_text; [|reflexivity]. intros l IL (q & SE). apply N. apply section_named in SE. eapply in_text_trans; [exact SE|]. eapply in_text_trans; [apply no_comment_in|]. eapply in_text_trans; [apply cut_in|]. exact (chunks_in x 79 "" l IL). }
    rewrite NA in RO. assert (NF : filter (is_struct_member L) ms' = []).
    { apply filter_none. intros y Y. apply not_true_iff_false. intros SY. apply not_true_iff_false in NS. apply NS. apply existsb_exists. eauto. }
    rewrite NF in RO. cbn [read_structs] in RO. now injection RO as <- _.
  Qed.

  (** *** Writing *)
  Hypothesis OR : o_only_read o = false.
  Theorem writes_any dl t fs : top_of ss t -> object L t fs -> ini_writes dl t fs (obj_text L (del dl) (VStruct t fs) "").
  Proof.
    intros (sr & TOP & SN) F. exists (S (S (vheight (VStruct t fs)))). intros f wf a n l m rd s LE NA LT GL TH WR. destruct f as [|f]; [lia|].
    rewrite (ini_write_file enums ss o ds L X OR wf t sr TOP SN f a n l fs dl m (r_look rd) (r_key rd) (r_val rd) s NA LT GL TH F ltac:(lia)).
    unfold ini_write_result. now rewrite WR.
  Qed.
  Theorem ini_no_write dl t fs a n l m rd f wf s : top_of ss t -> object L t fs -> name_arg a n s -> lv_this l = false -> get_lv l s = Some (VStruct t fs) ->
    s_this s = reader_this [("m_delta_only", vbool dl); ("m_file", VFile m)] rd -> l_writable L (cut n) = false -> vheight (VStruct t fs) < f ->
    call_fun L (prog B_n_ini enums ss o) wf (S f) [o_writer o; "write_to_file"] [a; (Some l, VStruct t fs)] s =
    Ok (vbool false) (set_this s (reader_this [("m_delta_only", vbool dl); ("m_file", VFile false)] rd)).
  Proof.
    intros (sr & TOP & SN) F NA LT GL TH WR HV.
    rewrite (ini_write_file enums ss o ds L X OR wf t sr TOP SN f a n l fs dl m (r_look rd) (r_key rd) (r_val rd) s NA LT GL TH F HV).
    unfold ini_write_result. now rewrite WR.
  Qed.
  (** Everything that is to be written, and everything it is compared with, is initialised. *)
  Definition all_inited (delta : bool) (v : val) : Prop := forall ns u fs ms d m x dv, member_at ns v = Some (VStruct u fs) -> find_struct (l_defs L) u = Some ms -> default_fields L u = Some d ->
    In m ms -> is_scalar L m = true -> assoc (member_name m) fs = Some x -> assoc (member_name m) d = Some dv -> inited x /\ (delta = true -> inited dv).
  Lemma scalar_line_defined delta m ty n d v : is_scalar L m = true -> member_type L m = Some ty -> fits L v ty = true -> fits L d ty = true ->
    scalar_line L delta n d v <> None <-> inited v /\ (delta = true -> inited d).
  Proof.
    intros S MT FV FD. unfold scalar_line, left_out.
    destruct (scalar_type L m ty S MT) as [[k ->]|[[k ->]|[->|(e & c & es & -> & FE)]]].
    - destruct (fits_num L v k FV) as [->|(z & -> & _)], (fits_num L d k FD) as [->|(y & -> & _)]; destruct delta; cbn; try (destruct (z =? y)%Z); intuition discriminate.
    - destruct (fits_flt L v k FV) as [->|(z & ->)], (fits_flt L d k FD) as [->|(y & ->)]; destruct delta; cbn; try (destruct (l_feq L k z y)); intuition discriminate.
    - destruct (fits_std L v FV) as (z & ->), (fits_std L d FD) as (y & ->); destruct delta; cbn; try (destruct (String.eqb z y)); intuition discriminate.
    - destruct (fits_enum L v e FV) as [->|(z & ->)], (fits_enum L d e FD) as [->|(y & ->)]; destruct delta; cbn; try (destruct (z =? y)%Z); cbn; rewrite ?FE; intuition discriminate.
  Qed.
  Lemma members_text_defined delta p d sub l : members_text L delta p d sub l <> None <-> forall m, In m l -> member_text L delta p d sub m <> None.
  Proof.
    induction l as [|m l IH]; cbn [members_text]; [split; [contradiction|discriminate]|]. destruct (member_text L delta p d sub m) as [a|] eqn:E.
    - destruct (members_text L delta p d sub l) as [b|]; split; try congruence.
      + intros _ y [<-|I]; [congruence|]. apply IH; [discriminate|exact I].
      + intros H. exfalso. apply (proj2 IH); [|reflexivity]. intros y I. apply H. now right.
    - split; [congruence|]. intros H. exfalso. exact (H m (or_introl eq_refl) E).
  Qed.
  Lemma obj_text_defined delta : forall f v u p, vheight v < f -> fits L v (TStruct u) = true -> obj_text L delta v p <> None <-> all_inited delta v.
  Proof.
    induction f as [|f IH]; intros v u p HV F; [lia|]. destruct (fits_as_struct L v u F) as (fs & ->). destruct (j_parts enums ss o ds L X u fs F) as (ms & d & FS & D & ND & K & PM).
    cbn [obj_text]. rewrite FS, D. set (sub := map (fun q => (fst q, (snd q, obj_text L delta (snd q)))) fs).
    assert (E1 : (let? s := members_text L delta p d sub (in_order ms) in Some (section_line p ++ s)%string) <> None <-> members_text L delta p d sub (in_order ms) <> None) by (destruct (members_text L delta p d sub (in_order ms)); split; congruence).
    rewrite E1, members_text_defined.
    assert (W : forall m, In m ms -> exists ty v dv, member_type L m = Some ty /\ assoc (member_name m) fs = Some v /\ assoc (member_name m) d = Some dv /\ fits L v ty = true /\ fits L dv ty = true /\
      member_text L delta p d sub m = if is_scalar L m then scalar_line L delta (member_name m) dv v else if is_struct_member L m then obj_text L delta v (sub_path p (member_name m)) else Some "").
    { intros m I. destruct (PM m I) as (ty & v & dv & MT & A1 & A2 & F1 & F2). exists ty, v, dv. repeat split; auto. unfold member_text, sub. now rewrite (sub_assoc (fun v => (v, obj_text L delta v))), A1, A2. }
    split.
    - intros H ns u' fs' ms' d' m x dv AT FS' D' I S AX AD. destruct ns as [|n ns]; cbn [member_at] in AT.
      + injection AT as <- <-. assert (ms' = ms) by congruence. assert (d' = d) by congruence. subst ms' d'. destruct (W m I) as (ty & v & dv' & MT & A1 & A2 & F1 & F2 & E). assert (v = x) by congruence. assert (dv' = dv) by congruence. subst v dv'.
        apply (scalar_line_defined delta m ty (member_name m) dv x S MT F1 F2). specialize (H m (proj2 (in_order_in m ms) I)). now rewrite E, S in H.
      + destruct (assoc n fs) as [w|] eqn:AW; [|discriminate].
        assert (exists m', In m' ms /\ member_name m' = n) as (m' & I' & <-).
        { apply assoc_some in AW. apply (in_map fst) in AW. rewrite K in AW. apply in_map_iff in AW as (m' & Y1 & Y2). eauto. }
        destruct (W m' I') as (ty & w' & dv' & MT & A1 & A2 & F1 & F2 & E). assert (w' = w) by congruence. subst w'.
        assert (SM : is_struct_member L m' = true).
        { destruct w as [| | | | | | |u3 f3| | | | | | | | | | | | | |]; try (destruct ns; discriminate). pose proof (fits_ty L _ _ F1) as TY. cbn in TY. subst ty. exact (type_struct_member L m' u3 MT). }
        destruct (struct_value L m' w ty SM MT F1) as (u1 & f1 & -> & ->). specialize (H m' (proj2 (in_order_in m' ms) I')). rewrite E, (struct_no_scalar L m' SM), SM in H.
        assert (HH : vheight (VStruct u1 f1) < f) by (pose proof (field_height u fs _ _ AW); lia).
        exact (proj1 (IH _ u1 _ HH F1) H ns u' fs' ms' d' m x dv AT FS' D' I S AX AD).
    - intros H m I. apply (proj1 (in_order_in m ms)) in I. destruct (W m I) as (ty & w & dv & MT & A1 & A2 & F1 & F2 & ->). destruct (is_scalar L m) eqn:S.
      + apply (scalar_line_defined delta m ty (member_name m) dv w S MT F1 F2). exact (H [] u fs ms d m w dv eq_refl FS D I S A1 A2).
      + destruct (is_struct_member L m) eqn:SM; [|discriminate]. destruct (struct_value L m w ty SM MT F1) as (u1 & f1 & -> & ->).
        assert (HH : vheight (VStruct u1 f1) < f) by (pose proof (field_height u fs _ _ A1); lia). apply (proj2 (IH _ u1 _ HH F1)).
        intros ns u' fs' ms' d' m' x dv' AT. apply (H (member_name m :: ns) u' fs' ms' d' m' x dv'). cbn [member_at]. now rewrite A1.
  Qed.
  Theorem writing_defined dl t fs : top_of ss t -> object L t fs ->
    exists r, ini_writes dl t fs r /\ (r <> None <-> all_inited (del dl) (VStruct t fs)).
  Proof.
    intros T F. exists (obj_text L (del dl) (VStruct t fs) ""). split; [now apply writes_any|]. exact (obj_text_defined (del dl) (S (vheight (VStruct t fs))) (VStruct t fs) t "" ltac:(lia) F).
  Qed.
  (** What is in the text: the section line of each nested struct and the line of each scalar. *)
  Lemma member_in_text delta p d sub : forall l t m a, members_text L delta p d sub l = Some t -> In m l -> member_text L delta p d sub m = Some a -> in_text a t.
  Proof.
    induction l as [|m' l IH]; intros t m a T I MT; [contradiction|]. cbn [members_text] in T. destruct (member_text L delta p d sub m') as [x|] eqn:E; [|discriminate].
    destruct (members_text L delta p d sub l) as [y|]; [|discriminate]. injection T as <-. destruct I as [->|I].
    - assert (x = a) by congruence. subst. exists "", y. reflexivity.
    - destruct (IH y m a eq_refl I MT) as (b & c & ->). exists (x ++ b)%string, c. now rewrite sapp_assoc.
  Qed.
  Lemma text_shows delta : forall ns v u0 p t, fits L v (TStruct u0) = true -> obj_text L delta v p = Some t -> forall u fs, member_at ns v = Some (VStruct u fs) ->
    in_text (section_line (fold_left sub_path ns p)) t /\
    forall ms d m x dv s, find_struct (l_defs L) u = Some ms -> default_fields L u = Some d -> In m ms -> is_scalar L m = true -> assoc (member_name m) fs = Some x -> assoc (member_name m) d = Some dv ->
      left_out L delta dv x = Some false -> shown_text L x = Some s -> in_text (item_line (member_name m) s) t.
  Proof.
    induction ns as [|n ns IH]; intros v u0 p t F T u fs AT.
    - cbn [member_at fold_left] in *. injection AT as ->. pose proof (fits_ty L _ _ F) as TY. cbn in TY. injection TY as ->. cbn [obj_text] in T.
      destruct (find_struct (l_defs L) u0) as [ms|] eqn:FS; [|discriminate]. destruct (default_fields L u0) as [d|] eqn:D; [|discriminate].
      destruct (members_text L delta p d _ (in_order ms)) as [tm|] eqn:TM; [|discriminate]. injection T as <-. split; [exists "", tm; reflexivity|].
      intros ms' d' m x dv s [= <-] [= <-] I S AX AD LO SH. replace (section_line p ++ tm)%string with (section_line p ++ tm ++ "")%string by (now rewrite sapp_nil_r). apply in_text_app.
      eapply member_in_text; [exact TM|apply in_order_in; exact I|]. unfold member_text. rewrite (sub_assoc (fun v => (v, obj_text L delta v))), AX, S, AD. unfold scalar_line. now rewrite LO, SH.
    - cbn [member_at fold_left] in *. destruct v as [| | | | | | |u1 f1| | | | | | | | | | | | | |]; try discriminate. destruct (assoc n f1) as [w|] eqn:AW; [|discriminate].
      pose proof (fits_ty L _ _ F) as TY. cbn in TY. injection TY as ->. destruct (j_parts enums ss o ds L X u0 f1 F) as (ms & d & FS & D & ND & K & PM).
      assert (exists m', In m' ms /\ member_name m' = n) as (m' & I' & <-).
      { apply assoc_some in AW. apply (in_map fst) in AW. rewrite K in AW. apply in_map_iff in AW as (m' & Y1 & Y2). eauto. }
      destruct (PM m' I') as (ty & w' & dv' & MT & A1 & A2 & F1 & F2). assert (w' = w) by congruence. subst w'.
      assert (SM : is_struct_member L m' = true).
      { destruct w as [| | | | | | |u3 f3| | | | | | | | | | | | | |]; try (destruct ns; discriminate). pose proof (fits_ty L _ _ F1) as TY. cbn in TY. subst ty. exact (type_struct_member L m' u3 MT). }
      destruct (struct_value L m' w ty SM MT F1) as (u2 & f2 & -> & ->). cbn [obj_text] in T. rewrite FS, D in T. destruct (members_text L delta p d _ (in_order ms)) as [tm|] eqn:TM; [|discriminate]. injection T as <-.
      assert (exists a, obj_text L delta (VStruct u2 f2) (sub_path p (member_name m')) = Some a) as (a & OT).
      { assert (N : members_text L delta p d (map (fun q => (fst q, (snd q, obj_text L delta (snd q)))) f1) (in_order ms) <> None) by congruence.
        rewrite members_text_defined in N. specialize (N m' (proj2 (in_order_in m' ms) I')). unfold member_text in N. rewrite (sub_assoc (fun v => (v, obj_text L delta v))), AW, (struct_no_scalar L m' SM), SM in N.
        destruct (obj_text L delta (VStruct u2 f2) (sub_path p (member_name m'))); [eauto|congruence]. }
      assert (IT : in_text a tm).
      { eapply member_in_text; [exact TM|apply in_order_in; exact I'|]. unfold member_text. now rewrite (sub_assoc (fun v => (v, obj_text L delta v))), AW, (struct_no_scalar L m' SM), SM. }
      assert (UP : forall q, in_text q a -> in_text q (section_line p ++ tm)).
      { intros q (b & c & ->). destruct IT as (b' & c' & ->). exists (section_line p ++ b' ++ b)%string, (c ++ c')%string. now rewrite !sapp_assoc. }
      destruct (IH _ u2 _ a F1 OT u fs AT) as [S1 S2]. split; [now apply UP|]. intros. apply UP. eapply S2; eauto.
  Qed.
  Theorem writes_shows dl t fs x : top_of ss t -> object L t fs -> obj_text L (del dl) (VStruct t fs) "" = Some x -> forall ns u fs1, member_at ns (VStruct t fs) = Some (VStruct u fs1) ->
    in_text (section_line (section_of ns)) x /\
    forall ms d m v dv s, find_struct (l_defs L) u = Some ms -> default_fields L u = Some d -> In m ms -> is_scalar L m = true -> assoc (member_name m) fs1 = Some v -> assoc (member_name m) d = Some dv ->
      left_out L (del dl) dv v = Some false -> shown_text L v = Some s -> in_text (item_line (member_name m) s) x.
  Proof. intros T F E ns u fs1 AT. exact (text_shows (del dl) ns (VStruct t fs) t "" x F E u fs1 AT). Qed.

  (** *** Writing and reading back *)
  Lemma carries_inited delta v u : fits L v (TStruct u) = true -> carries L delta v "" -> all_inited delta v.
  Proof.
    intros F C ns u' fs ms d m x dv AT FS D I S AX AD. destruct (C ns u' fs ms d AT FS D) as (_ & _ & CM). destruct (CM m x dv I S AX AD) as [LO|[LO LK]]; unfold left_out in LO.
    - destruct delta; [|discriminate]. destruct x, dv; try discriminate LO; split; cbn; auto.
    - split; [destruct LK as [LK|(? & -> & _)]; [destruct x; cbn in *; auto|exact Logic.I]|]. intros ->. destruct x, dv; try discriminate LO; cbn; auto.
  Qed.
  Theorem round_trip dl t fs os rd : (32 <= l_long L)%Z -> used rd -> top_of ss t -> object L t fs -> object L t os -> carries L (del dl) (VStruct t fs) "" ->
    exists x gs, ini_writes dl t fs (Some x) /\ ini_reads x t os rd (Some (true, gs)) /\ comes_back L (del dl) "" (VStruct t fs) (VStruct t os) (VStruct t gs).
  Proof.
    intros LB U T F FO CA. pose proof (writes_any dl t fs T F) as W.
    pose proof (proj2 (obj_text_defined (del dl) (S (vheight (VStruct t fs))) (VStruct t fs) t "" ltac:(lia) F) (carries_inited (del dl) _ t F CA)) as DF.
    destruct (obj_text L (del dl) (VStruct t fs) "") as [x|] eqn:E; [|congruence].
    destruct (file_back enums ss o ds L X LB (del dl) t fs os (r_look rd) (r_key rd) (r_val rd) x F FO CA (used_named rd U) E) as (gs & R & CB).
    exists x, gs. split; [exact W|]. split; [|exact CB]. pose proof (reads_any x t os rd T FO) as RA. unfold read_members_of, has_read in RA. cbn [r_look] in RA. rewrite R in RA. exact RA.
  Qed.
  Lemma way_section ns v u u' fs : ns <> [] -> fits L v (TStruct u) = true -> member_at ns v = Some (VStruct u' fs) -> section_of ns <> "".
  Proof.
    intros NE F AT. pose proof (way_idents enums ss o ds L X ns v u u' fs F AT) as W. destruct ns as [|n ns _] using rev_ind; [congruence|]. rewrite section_snoc. apply Forall_app in W as [_ W]. inversion W; subst. now apply sub_path_cons.
  Qed.

  Lemma at_fits : forall ns v q u f, fits L v (TStruct q) = true -> member_at ns v = Some (VStruct u f) -> fits L (VStruct u f) (TStruct u) = true.
  Proof.
    induction ns as [|n ns IH]; intros v q u f F AT; cbn [member_at] in AT.
    - injection AT as ->. pose proof (fits_ty L _ _ F) as TY. cbn in TY. now injection TY as ->.
    - destruct v as [| | | | | | |u1 f1| | | | | | | | | | | | | |]; try discriminate. destruct (assoc n f1) as [w|] eqn:AW; [|discriminate]. pose proof (fits_ty L _ _ F) as TY. cbn in TY. injection TY as ->.
      destruct (j_parts enums ss o ds L X q f1 F) as (ms & d & FS & D & ND & K & PM).
      assert (exists m', In m' ms /\ member_name m' = n) as (m' & I' & <-) by (apply assoc_some in AW; apply (in_map fst) in AW; rewrite K in AW; apply in_map_iff in AW as (m' & Y1 & Y2); eauto).
      destruct (PM m' I') as (ty & w' & dv' & MT & A1 & _ & F1 & _). assert (w' = w) by congruence. subst w'.
      destruct w as [| | | | | | |u3 f3| | | | | | | | | | | | | |]; try (destruct ns; discriminate). pose proof (fits_ty L _ _ F1) as TY. cbn in TY. subst ty. exact (IH _ u3 u f F1 AT).
  Qed.

  (** *** The constructor of the writer class *)
  Lemma find_ini_wctor p : p (x_wctor (o_writer o) (o_reader o)) = true -> (forall d, length (fd_params d) = 2 \/ length (fd_params d) = 3 -> p d = false) ->
    filter (fun d => (names_eqb (fd_name d) [o_writer o; o_writer o] && p d)%bool) (prog B_n_ini enums ss o) = [x_wctor (o_writer o) (o_reader o)].
  Proof.
    intros P1 P2. rewrite (find_writer B_n_ini enums ss o ltac:(discriminate) (i_cw enums ss o ds L X) (i_rw enums ss o ds L X) _ _ OR).
    unfold writer_funs. cbn [filter]. rewrite P1. cbn [x_wctor fd_name]. rewrite names_eqb_refl. cbn [andb]. f_equal. apply filter_none.
    intros d H. rewrite P2; [apply andb_false_r|]. apply in_app_or in H as [H|H].
    - apply in_map_iff in H as (x & <- & _). left. reflexivity.
    - apply in_flat_map in H as (x & _ & J). rewrite wr_fun_one in J by discriminate. destruct J as [<-|[]]. cbn. auto.
  Qed.
  Theorem ini_ctor_ok wf f lv dl old fl rd s : s_this s = reader_this [("m_delta_only", old); ("m_file", fl)] rd -> ty_of old = TNum KBool -> (forall l, lv = Some l -> get_lv l s = Some (vbool dl)) ->
    call_fun L (prog B_n_ini enums ss o) wf (S f) [o_writer o; o_writer o] [(lv, vbool dl)] s = Ok VVoid (set_this s (reader_this [("m_delta_only", vbool dl); ("m_file", fl)] rd)).
  Proof.
    intros TH TY LV. cbn [call_fun]. rewrite (find_ini_wctor (fun d => params_fit (fd_params d) [(lv, vbool dl)] s)).
    2:{ reflexivity. }
    2:{ intros [q n ps i bd]. cbn [fd_params]. destruct ps as [|p1 [|p2 [|p3 ps]]]; intros [H|H]; try discriminate H; cbn [params_fit]; apply andb_false_r. }
    assert (ST : String.eqb (o_writer o) "stfx" = false) by (apply class_not_stfx; exact (i_cw enums ss o ds L X)).
    unfold enter, x_wctor. cbn [fd_name fd_params undef_arg fst snd t_bool ct_ref vbool orb bind_params bind_param b_vars b_el b_back app map distinct existsb negb andb forallb].
    unfold param_visible. cbn [fst t_bool ct_name andb]. unfold seen_this. rewrite ST, TH. cbn [fd_body exec_list fd_type].
    assert (B : run_list (exec L (call_fun L (prog B_n_ini enums ss o) wf f) (o_writer o) (is_method (prog B_n_ini enums ss o) (o_writer o)) wf) [s_set (EId ["m_delta_only"]) (EId ["delta_only"])]
       (St [[("delta_only", vbool dl)]] (Text "") (reader_this [("m_delta_only", old); ("m_file", fl)] rd) (s_world s)) = Ok CNext (St [[("delta_only", vbool dl)]] (Text "") (reader_this [("m_delta_only", vbool dl); ("m_file", fl)] rd) (s_world s))).
    { cbn. rewrite TY. destruct dl; reflexivity. }
    use_exec B. unfold return_to. reflexivity.
  Qed.
End Thms.
