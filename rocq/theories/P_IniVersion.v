(** Property theorems about what is in n_ini files that generated writers wrote, and about
    reading them with another version of the header: C100. *)
From Coq Require Import String Ascii ZArith NArith Arith List Bool Lia Permutation.
From Verif Require Import Base Map Items Grammar ParseLang Fmt Decimal Templates Emit Main Cpp Xml Val Rx CppSem SymLex Ast Store Resolve StoreDefs ResolveProps Prog Header Link EnumSem DecText EnumCall EnumRound XmlSpec XmlRdSimple XmlRead XmlReader XmlCall XmlWriter XmlFile XmlCarry XmlRound XmlProps XmlReadProps XmlThms
  IniSpec IniRead IniReader IniCall IniLines IniFile IniEntry IniWrite IniWriter IniScan IniKeep IniRound IniBack IniThms IniCase IniText IniMean IniVersions
  MainProps RunProps Pipeline Lexable ConfSpec ConfRead ConfRound P_Main P_Xml P_Ini P_Conf P_Whole P_Serve P_IniText.
Import ListNotations.
Local Open Scope string_scope.
Local Open Scope list_scope.

Lemma written enums ss o ds L : ini_setting enums ss o ds L -> o_only_read o = false ->
  forall dl t fs, let delta := (negb (o_no_delta o) && dl)%bool in top_of ss t -> object L t fs -> on_lines L delta (VStruct t fs) "" ->
  exists x, obj_text L delta (VStruct t fs) "" = Some x /\ ini_writes enums ss o L dl t fs (Some x).
Proof.
  intros X OR dl t fs delta T O OL. pose proof (writes_any enums ss o ds L X OR dl t fs T O) as W. fold delta in W.
  assert (D : obj_text L delta (VStruct t fs) "" <> None).
  { apply (obj_text_defined enums ss o ds L X delta (S (vheight (VStruct t fs))) (VStruct t fs) t "" ltac:(lia) O). intros ns u f ms d m x dv AT FS DF I S AX AD.
    destruct (j_parts enums ss o ds L X u f (at_fits enums ss o ds L X ns _ t u f O AT)) as (ms' & d' & FS' & D' & _ & _ & PM). assert (ms' = ms) by congruence. assert (d' = d) by congruence. subst ms' d'.
    destruct (PM m I) as (ty & x' & dv' & MT & A1 & A2 & F1 & F2). assert (x' = x) by congruence. assert (dv' = dv) by congruence. subst x' dv'.
    apply (proj1 (scalar_line_defined L delta m ty "" dv x S MT F1 F2)). unfold scalar_line.
    destruct (OL ns u f ms d AT FS DF) as (_ & _ & H). destruct (H m x dv I S AX AD) as [E|[E (s & SH & _)]]; rewrite E; [discriminate|]. rewrite SH. discriminate. }
  destruct (obj_text L delta (VStruct t fs) "") as [x|] eqn:E; [|congruence]. eauto.
Qed.
(** *** C100.  The file has exactly the items of the scalars that are not left out. *)
Theorem C100_written : forall enums ss o ds L, ini_setting enums ss o ds L -> o_only_read o = false ->
  forall dl t fs, let delta := (negb (o_no_delta o) && dl)%bool in top_of ss t -> object L t fs -> on_lines L delta (VStruct t fs) "" ->
  exists ls, ini_writes enums ss o L dl t fs (Some (file_text ls)) /\ well_formed ls /\
    (forall ns n, Forall (fun n => ident n = true) ns -> value ls (IniKeep.section_of ns) n = gives L delta (VStruct t fs) ns n) /\
    forall p n s, value ls p n = Some s -> exists ns, p = IniKeep.section_of ns /\ gives L delta (VStruct t fs) ns n = Some s.
Proof.
  intros enums ss o ds L X OR dl t fs delta T O OL. destruct (written enums ss o ds L X OR dl t fs T O OL) as (x & E & W). fold delta in E.
  destruct (file_lines enums ss o ds L X delta t fs x O OL E) as (ls & -> & SH & V & B & _).
  exists ls. split; [exact W|]. split; [exact (short_finished ls SH)|]. split; [exact V|]. intros p n s E'. destruct (B p n s E') as (ns & -> & FN). exists ns. split; [reflexivity|]. now rewrite <- (V ns n FN).
Qed.

(** What another version makes of it: each of its scalar members that is an item there, at the
    same place, is converted from that text; all others keep their values. *)
Definition taken (L M : lang) (delta : bool) (v old new : val) : Prop :=
  forall ns u fs ms, member_at ns old = Some (VStruct u fs) -> find_struct (l_defs M) u = Some ms ->
  exists gs, member_at ns new = Some (VStruct u gs) /\
    forall m a, In m ms -> is_struct_member M m = false -> assoc (member_name m) fs = Some a ->
    match (if is_item M ms m then gives L delta v ns (member_name m) else None) with
    | None => assoc (member_name m) gs = Some a
    | Some s => exists x, read_text M m s a = Done x /\ assoc (member_name m) gs = Some x
    end.
Theorem C100_versions : forall enums ss o ds L enums' ss' o' ds' M, ini_setting enums ss o ds L -> ini_setting enums' ss' o' ds' M -> o_only_read o = false ->
  forall dl t fs os, let delta := (negb (o_no_delta o) && dl)%bool in top_of ss t -> top_of ss' t -> object L t fs -> object M t os -> on_lines L delta (VStruct t fs) "" ->
  (forall ns u f ms m s a, member_at ns (VStruct t os) = Some (VStruct u f) -> find_struct (l_defs M) u = Some ms -> In m ms -> is_item M ms m = true -> assoc (member_name m) f = Some a ->
    gives L delta (VStruct t fs) ns (member_name m) = Some s -> exists x, read_text M m s a = Done x) ->
  exists x gs, ini_writes enums ss o L dl t fs (Some x) /\ ini_reads enums' ss' o' M x t os new_reader (Some (true, gs)) /\ taken L M delta (VStruct t fs) (VStruct t os) (VStruct t gs) /\ object M t gs.
Proof.
  intros enums ss o ds L enums' ss' o' ds' M X X' OR dl t fs os delta T T' O O' OL RD. destruct (C100_written enums ss o ds L X OR dl t fs T O OL) as (ls & W & WF & V & _). fold delta in V.
  assert (WI : forall ns u f, member_at ns (VStruct t os) = Some (VStruct u f) -> Forall (fun n => ident n = true) ns) by (intros ns u f AT; exact (way_idents enums' ss' o' ds' M X' ns (VStruct t os) t u f O' AT)).
  destruct (C99_new_reader enums' ss' o' ds' M X' t os ls T' O' WF) as (gs & R & TK & OG).
  { intros ns u f ms m s a AT FS I J A E. fold (IniKeep.section_of ns) in E. rewrite (V ns (member_name m) (WI ns u f AT)) in E. exact (RD ns u f ms m s a AT FS I J A E). }
  exists (file_text ls), gs. split; [exact W|]. split; [exact R|]. split; [|exact OG]. intros ns u f ms AT FS. destruct (TK ns u f ms AT FS) as (g & A1 & A2). exists g. split; [exact A1|].
  intros m a I S A. specialize (A2 m a I S A). fold (IniKeep.section_of ns) in A2. now rewrite (V ns (member_name m) (WI ns u f AT)) in A2.
Qed.

(** Members of the same built-in type or the same enumeration: the value itself. *)
Definition same_ini_machine (L M : lang) : Prop := l_long L = l_long M /\ (32 <= l_long L)%Z /\ (forall k s, l_sto L k s = l_sto M k s) /\ forall c, l_const L c = l_const M c.
Definition same_item (L M : lang) (m m' : member) : Prop :=
  exists n d d', (exists st, m = MSimple st n d /\ m' = MSimple st n d') \/ (exists e, m = MUser e n d /\ m' = MUser e n d' /\ find_enum (l_defs L) e = find_enum (l_defs M) e).
Definition value_at (L : lang) (delta : bool) (v : val) (ns : list string) (n : string) : option val :=
  match ns with
  | [] => None
  | _ =>
      match member_at ns v with
      | Some (VStruct u fs) =>
          let? ms := find_struct (l_defs L) u in
          let? d := default_fields L u in
          if existsb (fun m => (String.eqb n (member_name m) && is_scalar L m)%bool) ms then
            let? x := assoc n fs in
            let? dv := assoc n d in
            match left_out L delta dv x with Some false => Some x | _ => None end
          else None
      | _ => None
      end
  end.
Lemma gives_value L delta v ns n : gives L delta v ns n = let? x := value_at L delta v ns n in shown_text L x.
Proof.
  unfold gives, value_at, at_way, item_in. destruct ns as [|k ns]; [reflexivity|]. destruct (member_at (k :: ns) v) as [w|]; [|reflexivity]. destruct w as [| | | | | | |u fs| | | | | | | | | | | | | |]; try reflexivity.
  destruct (find_struct (l_defs L) u) as [ms|]; [|reflexivity]. destruct (default_fields L u) as [d|]; [|reflexivity]. destruct (existsb _ ms); [|reflexivity].
  destruct (assoc n fs) as [x|]; [|reflexivity]. destruct (assoc n d) as [dv|]; [|reflexivity]. now destruct (left_out L delta dv x) as [[|]|].
Qed.
Lemma same_read L M m m' s a : same_ini_machine L M -> same_item L M m m' -> read_text L m s a = read_text M m' s a.
Proof.
  intros (LE & LB & ST & CO) (n & d & d' & [(st & -> & ->)|(e & -> & -> & FE)]); cbn [read_text].
  - assert (NU : forall k j, read_as M k j s = read_as L k j s) by (intros k0 j; unfold read_as, number, to_kind, bits; rewrite LE; reflexivity).
    assert (TV : text_value M st s = text_value L st s); [|now rewrite TV]. destruct st; cbn [text_value]; rewrite ?NU, <- ?ST; reflexivity.
  - assert (EV : forall es z, enum_values L z es = enum_values M z es) by (induction es as [|x es IH]; intros z; cbn [enum_values]; [reflexivity|]; destruct (en_val x); rewrite ?CO, IH; reflexivity).
    rewrite FE. destruct (find_enum (l_defs M) e) as [[c es]|] eqn:F; [|reflexivity]. unfold read_enum. rewrite EV. destruct (assoc s (enum_values M 0 es)); [reflexivity|]. destruct (scan_dec s) as [z|]; [|reflexivity].
    destruct (in_int z); [|reflexivity]. unfold enum_holds. rewrite FE, F. destruct c; [reflexivity|]. now rewrite EV.
Qed.
(** Both versions have the same type wherever both have an item. *)
Definition same_types (L M : lang) (t : string) (fs os : fields) : Prop :=
  forall ns u f ms m u' f' ms' m', member_at ns (VStruct t fs) = Some (VStruct u f) -> find_struct (l_defs L) u = Some ms -> In m ms -> is_scalar L m = true ->
    member_at ns (VStruct t os) = Some (VStruct u' f') -> find_struct (l_defs M) u' = Some ms' -> In m' ms' -> is_item M ms' m' = true -> member_name m = member_name m' -> same_item L M m m'.
Lemma same_text enums ss o ds L enums' ss' o' ds' M (X : ini_setting enums ss o ds L) (X' : ini_setting enums' ss' o' ds' M) (SM : same_ini_machine L M) delta t fs os
  (O : object L t fs) (CA : carries_plainly L delta (VStruct t fs) "") (SAME : same_types L M t fs os) : forall ns u f ms m x,
  member_at ns (VStruct t os) = Some (VStruct u f) -> find_struct (l_defs M) u = Some ms -> In m ms -> is_item M ms m = true ->
  value_at L delta (VStruct t fs) ns (member_name m) = Some x -> exists s, shown_text L x = Some s /\ forall a, read_text M m s a = Done x.
Proof.
  intros ns u' f' ms' m' x AT' FS' I' J' V. unfold value_at in V. destruct ns as [|k ns]; [discriminate|]. destruct (member_at (k :: ns) (VStruct t fs)) as [w|] eqn:AT; [|discriminate].
    destruct w as [| | | | | | |u f| | | | | | | | | | | | | |]; try discriminate. destruct (find_struct (l_defs L) u) as [ms|] eqn:FS; [|discriminate]. destruct (default_fields L u) as [d|] eqn:DF; [|discriminate].
    destruct (existsb (fun m0 => (String.eqb (member_name m') (member_name m0) && is_scalar L m0)%bool) ms) eqn:EX; [|discriminate]. apply existsb_exists in EX as (m & I & E). apply andb_true_iff in E as [E S]. apply String.eqb_eq in E. symmetry in E.
    destruct (assoc (member_name m') f) as [y|] eqn:AX; [|discriminate]. destruct (assoc (member_name m') d) as [dv|] eqn:AD; [|discriminate]. destruct (left_out L delta dv y) as [[|]|] eqn:LO; try discriminate. injection V as ->.
    pose proof (SAME (k :: ns) u f ms m u' f' ms' m' AT FS I S AT' FS' I' J' E) as SI.
    destruct (CA (k :: ns) u f ms d AT FS DF) as (_ & _ & H). rewrite <- E in AX, AD. destruct (H m x dv I S AX AD) as [H1|[_ H1]]; [congruence|].
    destruct (keeps_line enums ss o ds L X (member_name m) x H1) as (s & SH & _). exists s. split; [exact SH|]. intros a.
    destruct (j_parts enums ss o ds L X u f (at_fits enums ss o ds L X _ _ t u f O AT)) as (ms2 & d2' & FS2 & _ & _ & _ & PM). assert (ms2 = ms) by congruence. subst ms2.
    destruct (PM _ I) as (ty & x' & dv' & MT & A1 & _ & F1 & _). assert (x' = x) by congruence. subst x'.
    rewrite <- (IniBack.text_read enums ss o ds L X (proj1 (proj2 SM)) m ty x s a S MT F1 (or_introl H1) SH). symmetry. exact (same_read L M m m' s a SM SI).
Qed.
Theorem C100_same_types : forall enums ss o ds L enums' ss' o' ds' M, ini_setting enums ss o ds L -> ini_setting enums' ss' o' ds' M -> o_only_read o = false -> same_ini_machine L M ->
  forall dl t fs os, let delta := (negb (o_no_delta o) && dl)%bool in top_of ss t -> top_of ss' t -> object L t fs -> object M t os -> carries_plainly L delta (VStruct t fs) "" ->
  same_types L M t fs os ->
  exists x gs, ini_writes enums ss o L dl t fs (Some x) /\ ini_reads enums' ss' o' M x t os new_reader (Some (true, gs)) /\ object M t gs /\
  forall ns u f ms, member_at ns (VStruct t os) = Some (VStruct u f) -> find_struct (l_defs M) u = Some ms ->
  exists g, member_at ns (VStruct t gs) = Some (VStruct u g) /\ forall m, In m ms -> is_struct_member M m = false ->
    assoc (member_name m) g = match (if is_item M ms m then value_at L delta (VStruct t fs) ns (member_name m) else None) with Some x => Some x | None => assoc (member_name m) f end.
Proof.
  intros enums ss o ds L enums' ss' o' ds' M X X' OR SM dl t fs os delta T T' O O' CA SAME.
  pose proof (same_text enums ss o ds L enums' ss' o' ds' M X X' SM delta t fs os O CA SAME) as KEY.
  destruct (C100_versions enums ss o ds L enums' ss' o' ds' M X X' OR dl t fs os T T' O O' (carries_lines enums ss o ds L X delta _ _ CA)) as (x & gs & W & R & TK & OG).
  { intros ns u f ms m s a AT FS I J A G. fold delta in G. rewrite gives_value in G. destruct (value_at L delta (VStruct t fs) ns (member_name m)) as [y|] eqn:V; [|discriminate].
    destruct (KEY ns u f ms m y AT FS I J V) as (s' & SH & RT). assert (s' = s) by congruence. subst s'. eauto. }
  exists x, gs. split; [exact W|]. split; [exact R|]. split; [exact OG|]. intros ns u f ms AT FS. destruct (TK ns u f ms AT FS) as (g & A1 & A2). exists g. split; [exact A1|]. intros m I S.
  destruct (j_parts enums' ss' o' ds' M X' u f (at_fits enums' ss' o' ds' M X' _ _ t u f O' AT)) as (ms2 & d2' & FS2 & _ & _ & _ & PM). assert (ms2 = ms) by congruence. subst ms2.
  destruct (PM m I) as (ty & a & dv' & MT & A & _). specialize (A2 m a I S A). destruct (is_item M ms m) eqn:J; [|now rewrite A]. fold delta in A2. rewrite gives_value in A2.
  destruct (value_at L delta (VStruct t fs) ns (member_name m)) as [y|] eqn:V; [|now rewrite A]. destruct (KEY ns u f ms m y AT FS I J V) as (s & SH & RT). rewrite SH in A2. destruct A2 as (z & RZ & AZ). rewrite RT in RZ. now injection RZ as ->.
Qed.
(** With the functions that two runs of stfx leave on the disk. *)
Theorem C100_programs : forall E ds ins d o w E' ds' ins' d' o' w', has_program E B_n_ini ds ins d o w -> has_program E' B_n_ini ds' ins' d' o' w' ->
  header_ok (o_reader o) (o_writer o) ds = true -> header_ok (o_reader o') (o_writer o') ds' = true -> class_ok B_n_ini o -> class_ok B_n_ini o' -> o_only_read o = false ->
  exists P P', program_in E d o w = Some P /\ program_in E' d' o' w' = Some P' /\ forall L M, fitting ds L -> fitting ds' M -> 
  (forall u ms m, In (DefStruct u ms) ds -> In m ms -> is_scalar L m = true -> member_name m <> "items" /\ member_name m <> "data") ->
  (forall u ms m, In (DefStruct u ms) ds' -> In m ms -> is_scalar M m = true -> member_name m <> "items" /\ member_name m <> "data") ->
  forall dl t fs os, let delta := (negb (o_no_delta o) && dl)%bool in top_level ds t -> top_level ds' t -> object L t fs -> object M t os -> on_lines L delta (VStruct t fs) "" ->
  (forall ns u f ms m s a, member_at ns (VStruct t os) = Some (VStruct u f) -> find_struct (l_defs M) u = Some ms -> In m ms -> is_item M ms m = true -> assoc (member_name m) f = Some a ->
    gives L delta (VStruct t fs) ns (member_name m) = Some s -> exists x, read_text M m s a = Done x) ->
  exists x gs, ini_saves P o L dl t fs x /\ ini_loads_any P' o' M x t os new_reader (Some (true, gs)) /\ taken L M delta (VStruct t fs) (VStruct t os) (VStruct t gs) /\ object M t gs.
Proof.
  intros E ds ins d o w E' ds' ins' d' o' w' H H' OK OK' NF NF' OR. destruct (program_of _ _ _ _ _ _ _ H) as (enums & ss & LK & PI & TOP). destruct (program_of _ _ _ _ _ _ _ H') as (enums' & ss' & LK' & PI' & TOP').
  eexists _, _. split; [exact PI|]. split; [exact PI'|]. intros L M (D & LL & LF) (D' & LL' & LF') NM NM' dl t fs os delta T T' O O' OL RD.
  assert (X : ini_setting enums ss o ds L).
  { destruct NF as [N1 N2]. constructor; [constructor; auto; discriminate|exact LL|exact LF| |].
    - intros u ms m I J S. destruct (NM u ms m I J S). split; now apply String.eqb_neq.
    - split; apply String.eqb_neq; congruence. }
  assert (X' : ini_setting enums' ss' o' ds' M).
  { destruct NF' as [N1 N2]. constructor; [constructor; auto; discriminate|exact LL'|exact LF'| |].
    - intros u ms m I J S. destruct (NM' u ms m I J S). split; now apply String.eqb_neq.
    - split; apply String.eqb_neq; congruence. }
  exact (C100_versions enums ss o ds L enums' ss' o' ds' M X X' OR dl t fs os (TOP t T) (TOP' t T') O O' OL RD).
Qed.

(** A long that becomes an int: a number that does not fit stops the reading, and what stands
    behind it in the file is lost too. *)
Definition ldefs : list def :=
  [DefStruct "inner" [MSimple long_E "l" EmptyDefault; MSimple int_E "x" EmptyDefault]; DefStruct "outer" [MUser "inner" "i" EmptyDefault]].
Definition ldefs' : list def :=
  [DefStruct "inner" [MSimple int_E "l" EmptyDefault; MSimple int_E "x" EmptyDefault]; DefStruct "outer" [MUser "inner" "i" EmptyDefault]].
Definition lout (k : nkind) (l x : Z) : fields := [("i", VStruct "inner" [("l", VNum k l); ("x", VNum KInt x)])].
Lemma l_setting : ini_setting (enums_of ldefs) (structs_of ldefs) (zo false) ldefs (lang_of ldefs).
Proof. case_setting ldefs. Qed.
Lemma l_setting' : ini_setting (enums_of ldefs') (structs_of ldefs') (zo false) ldefs' (lang_of ldefs').
Proof. case_setting ldefs'. Qed.
Lemma l_top : top_of (structs_of ldefs) "outer".
Proof. case_top. Qed.
Lemma l_top' : top_of (structs_of ldefs') "outer".
Proof. case_top. Qed.
Theorem C100_narrower_refuted : exists x,
  ini_writes (enums_of ldefs) (structs_of ldefs) (zo false) (lang_of ldefs) false "outer" (lout KLong 4294967299 7) (Some x) /\
  ini_reads (enums_of ldefs') (structs_of ldefs') (zo false) (lang_of ldefs') x "outer" (lout KInt 0 0) new_reader (Some (false, lout KInt 0 0)).
Proof.
  exists (lines [""; "[i]"; "l 4294967299"; "x 7"]). split.
  - assert (W : obj_text (lang_of ldefs) (negb (o_no_delta (zo false)) && false) (VStruct "outer" (lout KLong 4294967299 7)) "" = Some (lines [""; "[i]"; "l 4294967299"; "x 7"])) by (vm_compute; reflexivity).
    rewrite <- W. refine (writes_any (enums_of ldefs) (structs_of ldefs) (zo false) ldefs (lang_of ldefs) l_setting eq_refl false "outer" _ l_top _). vm_compute; reflexivity.
  - assert (R : read_members_of (lang_of ldefs') (r_look (has_read (lines [""; "[i]"; "l 4294967299"; "x 7"]) new_reader)) "outer" (lout KInt 0 0) = Some (false, lout KInt 0 0)) by (vm_compute; reflexivity).
    rewrite <- R. refine (reads_any (enums_of ldefs') (structs_of ldefs') (zo false) ldefs' (lang_of ldefs') l_setting' _ "outer" _ new_reader l_top' _). vm_compute; reflexivity.
Qed.

(** *** Cases *)
(** Another version of the header of IniCase: members moved, dropped ("l", "bo", "fl", "us") and new ("n", "extra"). *)
Definition vdefs : list def :=
  [DefEnum true "en" [Entry "a" (Some (CInt "3")); Entry "b" None] false;
   DefStruct "inner" [MUser "en" "k" EmptyDefault; MSimple std_string_E "st" EmptyDefault; MSimple int_E "n" (Default (DInt "4")); MSimple int_E "x" EmptyDefault];
   DefStruct "mid" [MUser "inner" "deep_down" EmptyDefault; MSimple double_E "f" EmptyDefault];
   DefStruct "outer" [MUser "inner" "extra" EmptyDefault; MUser "inner" "i" EmptyDefault; MUser "mid" "my_mid" EmptyDefault; MSimple int_E "top" EmptyDefault]].
Definition vL : lang := lang_of vdefs.
Definition vin (k : Z) (st : string) (n x : Z) : val := VStruct "inner" [("k", VEnum "en" k); ("st", VStr st); ("n", VNum KInt n); ("x", VNum KInt x)].
Definition vout (e i d : val) (f top : Z) : fields := [("extra", e); ("i", i); ("my_mid", VStruct "mid" [("deep_down", d); ("f", VFlt KDouble f)]); ("top", VNum KInt top)].
Lemma v_setting : ini_setting (enums_of vdefs) (structs_of vdefs) (zo false) vdefs vL.
Proof. case_setting vdefs. Qed.
Lemma v_top : top_of (structs_of vdefs) "outer".
Proof. case_top. Qed.
Definition vold : fields := vout (vin 4 "extra" 1 2) (vin 3 "old" 5 6) (vin 3 "older" 8 9) 1 30.
Definition vgot : fields := vout (vin 4 "extra" 1 2) (vin 77 "w" 5 1) (vin 4 "two words [x]" 8 (-5)) 12 30.
Lemma v_same : same_types zL vL "outer" zv vold.
Proof.
  intros ns u f ms m u' f' ms' m' AT FS I S AT' FS' I' J' E. apply ways_all in AT. apply ways_all in AT'. vm_compute in AT. vm_compute in AT'.
  repeat (destruct AT as [AT|AT]; [injection AT as <- <- <-; repeat (destruct AT' as [AT'|AT']; [try discriminate AT'; injection AT' as <- <-; vm_compute in FS; injection FS as <-; vm_compute in FS'; injection FS' as <-; cbn in I, I';
    repeat (destruct I as [<-|I]; [try discriminate S; repeat (destruct I' as [<-|I']; [try discriminate J'; try discriminate E; first [eexists _, _, _; left; eexists; split; reflexivity|eexists _, _, _; right; eexists; split; [reflexivity|split; reflexivity]]|]); contradiction|]); contradiction|]); contradiction|]).
  contradiction.
Qed.
Example C100_case : same_ini_machine zL vL /\ carries_plainly zL false (VStruct "outer" zv) "" /\ object vL "outer" vold /\
  exists x, ini_writes zen zss (zo false) zL false "outer" zv (Some x) /\ ini_reads (enums_of vdefs) (structs_of vdefs) (zo false) vL x "outer" vold new_reader (Some (true, vgot)).
Proof.
  split; [split; [reflexivity|split; [discriminate|split; reflexivity]]|]. split; [apply zv_plainly|]. split; [vm_compute; reflexivity|].
  assert (exists x, obj_text zL (negb (o_no_delta (zo false)) && false) (VStruct "outer" zv) "" = Some x /\ read_members_of vL (r_look (has_read x new_reader)) "outer" vold = Some (true, vgot)) as (x & W & R)
    by (eexists; split; [vm_compute; reflexivity|vm_compute; reflexivity]).
  exists x. rewrite <- W, <- R. split.
  - refine (writes_any zen zss (zo false) zdefs zL (z_setting false) eq_refl false "outer" zv z_top _). vm_compute; reflexivity.
  - refine (reads_any (enums_of vdefs) (structs_of vdefs) (zo false) vdefs vL v_setting _ "outer" _ new_reader v_top _). vm_compute; reflexivity.
Qed.
(** The values the file has, by the specification. *)
Example C100_gives : gives zL false (VStruct "outer" zv) ["my_mid"; "deep_down"] "st" = Some "two words [x]" /\ gives zL false (VStruct "outer" zv) ["i"] "k" = Some "77" /\
  gives zL true (VStruct "outer" zv) ["i"] "bo" = None /\ gives zL false (VStruct "outer" zv) [] "top" = None /\ gives zL false (VStruct "outer" zv) ["my_mid"; "deep_down"] "k" = Some "b".
Proof. repeat split; vm_compute; reflexivity. Qed.
(** An unsigned number that does not fit the new type is taken all the same, modulo the size. *)
Example C100_unsigned : read_text vL (MSimple unsigned_short_E "x" EmptyDefault) "65536" (VNum KUShort 9) = Done (VNum KUShort 0).
Proof. vm_compute. reflexivity. Qed.
Print Assumptions C100_written.
Print Assumptions C100_versions.
Print Assumptions C100_same_types.
Print Assumptions C100_programs.
Print Assumptions C100_narrower_refuted.
