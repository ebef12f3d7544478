(** A concrete header, for the examples beside the theorems about ini files. *)
From Coq Require Import String Ascii ZArith NArith Arith List Bool Lia.
From Verif Require Import Base Map Items Grammar ParseLang Fmt Decimal Templates Emit Main Cpp Xml Val CppSem SymLex Ast Store Resolve StoreDefs ResolveProps Prog Header EnumSem DecText EnumCall EnumRound Link
  XmlSpec XmlReader XmlCall XmlWriter XmlFile XmlCarry XmlRound XmlProps XmlReadProps XmlThms
  IniSpec IniRead IniReader IniCall IniLines IniFile IniEntry IniWrite IniWriter IniScan IniKeep IniRound IniBack IniThms.
Import ListNotations.
Local Open Scope string_scope.
Local Open Scope list_scope.

(** All structs in an object and the ways to them. *)
Fixpoint ways (v : val) : list (list string * val) :=
  match v with
  | VStruct u fs => ([], v) :: flat_map (fun p => map (fun w => (fst p :: fst w, snd w)) (ways (snd p))) fs
  | _ => []
  end.
Lemma ways_all : forall ns v u fs, member_at ns v = Some (VStruct u fs) -> In (ns, VStruct u fs) (ways v).
Proof.
  induction ns as [|n ns IH]; intros v u fs H; cbn [member_at] in H.
  - injection H as ->. now left.
  - destruct v as [| | | | | | |u1 f1| | | | | | | | | | | | | |]; try discriminate. destruct (assoc n f1) as [w|] eqn:A; [|discriminate]. cbn [ways]. right. apply in_flat_map.
    exists (n, w). split; [now apply assoc_some|]. cbn [fst snd]. apply in_map_iff. exists (ns, VStruct u fs). split; [reflexivity|now apply IH].
Qed.

(** *** Nested structs, an enumeration and most scalar types; "flags": only an enum member *)
Definition zdefs : list def :=
  [DefEnum true "en" [Entry "a" (Some (CInt "3")); Entry "b" None] false;
   DefStruct "inner" [MSimple int_E "x" (Default (DInt "4")); MSimple long_E "l" (Default (DInt "0")); MSimple bool_E "bo" (Default DTrue); MSimple std_string_E "st" (Default (DStr """def""")); MUser "en" "k" EmptyDefault];
   DefStruct "flags" [MUser "en" "only" EmptyDefault];
   DefStruct "mid" [MSimple double_E "f" EmptyDefault; MUser "inner" "deep_down" EmptyDefault; MVector "inner" "v"];
   DefStruct "outer" [MSimple int_E "top" EmptyDefault; MUser "en" "e" EmptyDefault; MUser "mid" "my_mid" EmptyDefault; MUser "flags" "fl" EmptyDefault; MUser "inner" "i" EmptyDefault; MSimple unsigned_short_E "us" EmptyDefault]].
Definition z_lit (t : ty) (v : dvalue) : val :=
  match t, v with
  | TNum k, DInt "4" => VNum k 4 | TNum k, DTrue => VNum k 1 | TNum k, _ => VNum k 0
  | TStd, DStr """def""" => VStr "def" | TStd, _ => VStr "" | TFlt k, _ => VFlt k 0 | TEnum n, _ => VEnum n 0 | t, _ => VUndef t
  end.
Definition lang_of (ds : list def) : lang := Lang ds 64 z_lit (fun c => match c with CInt "3" => 3%Z | _ => 0%Z end) (fun _ => 0%Z)
  (fun _ => Z.eqb) (fun _ c => zdec c) (fun _ s => scan_dec s) (fun _ c => zdec c) (fun _ s => scan_dec s) (fun s => None) (fun n => negb (String.eqb n "readonly")).
Definition zL : lang := lang_of zdefs.
Definition zo (nd : bool) : output_spec := OutputSpec "" "enums" "structs" "ini_reader_C" "ini_writer_C" ft_n_ini false nd.
Definition info_of (ds : list def) : info := find_top (fst (fixup (fold_left (fun i d => add_def d i) ds info0))).
Definition enums_of (ds : list def) := map snd (i_enums (info_of ds)).
Definition structs_of (ds : list def) := map snd (i_structs (info_of ds)).
Definition zen := enums_of zdefs.
Definition zss := structs_of zdefs.
Ltac all_lits := intros n ms m ty v I J MT D; cbn in I;
  repeat (destruct I as [I|I]; [try discriminate I; injection I as <- <-; cbn in J; repeat (destruct J as [<-|J]; [cbn in MT, D; try discriminate; injection D as <-; injection MT as <-; vm_compute; reflexivity|]); contradiction|]); contradiction.
Ltac case_setting ds := split;
  [split; [discriminate|vm_compute; reflexivity|
     exact (built_linked ds _ (built_add [] ds info0 built_start (names_nodup (o_reader (zo false)) (o_writer (zo false)) ds eq_refl)) (names_nodup (o_reader (zo false)) (o_writer (zo false)) ds eq_refl))|reflexivity]
  |reflexivity|all_lits
  |intros u ms m I J S; cbn in I; repeat (destruct I as [I|I]; [try discriminate I; injection I as <- <-; cbn in J; repeat (destruct J as [<-|J]; [split; reflexivity|]); contradiction|]); contradiction
  |split; reflexivity].
Ltac case_top := match goal with |- top_of ?l ?n => destruct (find (fun s => String.eqb (s_name s) n) (tops l)) as [s|] eqn:E; [|vm_compute in E; discriminate]; apply find_some in E as [I N]; exists s; split; [exact I|now apply String.eqb_eq] end.
Lemma z_setting nd : ini_setting zen zss (zo nd) zdefs zL.
Proof. case_setting zdefs. Qed.
Lemma z_top : top_of zss "outer".
Proof. case_top. Qed.

Definition zin (x l bo : Z) (st : string) (k : Z) : val := VStruct "inner" [("x", VNum KInt x); ("l", VNum KLong l); ("bo", VNum KBool bo); ("st", VStr st); ("k", VEnum "en" k)].
Definition zout (top e f : Z) (dd : val) (on : Z) (i : val) (us : Z) : fields :=
  [("top", VNum KInt top); ("e", VEnum "en" e); ("my_mid", VStruct "mid" [("f", VFlt KDouble f); ("deep_down", dd); ("v", VVec "inner" [])]); ("fl", VStruct "flags" [("only", VEnum "en" on)]); ("i", i); ("us", VNum KUShort us)].
Definition zdef_in : val := zin 4 0 1 "def" 0.
Definition znew : fields := zout 0 0 0 zdef_in 0 zdef_in 0.
Definition zv : fields := zout 7 3 12 (zin (-5) 4294967299 0 "two words [x]" 4) 3 (zin 1 2 1 "w" 77) 65535.
(** [zv] after reading it into a new object: the scalars of "outer" and "flags" are lost *)
Definition zback : fields := zout 0 0 12 (zin (-5) 4294967299 0 "two words [x]" 4) 0 (zin 1 2 1 "w" 77) 0.
Lemma z_new : default_fields zL "outer" = Some znew /\ object zL "outer" znew /\ object zL "outer" zv.
Proof. repeat split; vm_compute; reflexivity. Qed.
Ltac small := cbn; repeat apply le_n_S; apply Nat.le_0_l.
Ltac case_carries :=
  let ns := fresh "ns" in let u := fresh "u" in let fs := fresh "fs" in let ms := fresh "ms" in let d := fresh "d" in let AT := fresh "AT" in let FS := fresh "FS" in let D := fresh "D" in
  intros ns u fs ms d AT FS D; apply ways_all in AT; vm_compute in AT;
  repeat (destruct AT as [AT|AT]; [injection AT as <- <- <-; vm_compute in FS; injection FS as <-; vm_compute in D; injection D as <-;
    split; [vm_compute; lia|]; split; [reflexivity|]; intros m x dv I S AX AD; cbn in I;
    repeat (destruct I as [<-|I]; [try discriminate S; cbn in AX, AD; injection AX as <-; injection AD as <-;
      first [left; reflexivity|right; split; [reflexivity|]; cbn [line_keeps];
        first [eexists _, _; split; [reflexivity|]; split; [first [left; vm_compute; tauto|right; split; vm_compute; reflexivity]|vm_compute; lia]
              |split; [split; [reflexivity|split; [discriminate|vm_compute; lia]]|vm_compute; reflexivity]
              |split; [reflexivity|split; [discriminate|vm_compute; lia]]|vm_compute; lia]]|]); contradiction|]); contradiction.
Lemma zv_plainly delta : carries_plainly zL delta (VStruct "outer" zv) "".
Proof. destruct delta; case_carries. Qed.
Lemma zv_carries delta : carries zL delta (VStruct "outer" zv) "".
Proof. apply plainly_carries, zv_plainly. Qed.

(** *** Calls *)
Definition at_ini (v : val) (n : string) (this : scope) (w : world) : st := St [[("n", VStr n); ("v", v)]] (Text "") this w.
Definition nothing : world := World [] None None.
Definition ini_wrote ds nd (dl : bool) (n : string) (fs : fields) : res val :=
  call_fun (lang_of ds) (prog B_n_ini (enums_of ds) (structs_of ds) (zo nd)) 999 20 ["ini_writer_C"; "write_to_file"] [(Some (LV false "n" []), VStr n); (Some (LV false "v" []), VStruct "outer" fs)]
    (at_ini (VStruct "outer" fs) n (reader_this [("m_delta_only", vbool dl); ("m_file", VFile false)] new_reader) nothing).
Definition ini_read ds (n : string) (w : world) (rd : scope) (os : fields) : res val :=
  call_fun (lang_of ds) (prog B_n_ini (enums_of ds) (structs_of ds) (zo false)) 999 20 ["ini_reader_C"; "read_from_file"] [(Some (LV false "n" []), VStr n); (Some (LV false "v" []), VStruct "outer" os)]
    (at_ini (VStruct "outer" os) n rd w).
Definition ini_text (r : res val) : option string :=
  match r with Ok (VNum KBool 1%Z) s => match assoc "out.ini" (w_files (s_world s)) with Some (CText x) => Some x | _ => None end | _ => None end.
Definition ini_there (r : res val) : option (Z * fields) :=
  match r with Ok (VNum KBool z) s => match lookup "v" (s_scopes s) with Some (VStruct _ gs) => Some (z, gs) | _ => None end | _ => None end.
Definition new_this : scope := reader_this [] new_reader.
Definition reads_text ds x os : res val := ini_read ds "in.ini" (World [("in.ini", CText x)] None None) new_this os.
Definition ini_both ds nd dl fs os : option (Z * fields) :=
  match ini_text (ini_wrote ds nd dl "out.ini" fs) with Some x => ini_there (reads_text ds x os) | None => None end.
Definition lines (l : list string) : string := fold_right (fun a b => (a ++ NL ++ b)%string) "" l.

(** *** An enum member after a struct member *)
Definition wdefs : list def :=
  [DefEnum true "en" [Entry "a" (Some (CInt "3")); Entry "b" None] false;
   DefStruct "leaf" [MSimple int_E "x" (Default (DInt "4")); MUser "en" "k" EmptyDefault];
   DefStruct "mid" [MSimple int_E "y" EmptyDefault; MUser "leaf" "lf" EmptyDefault; MUser "en" "k" EmptyDefault];
   DefStruct "outer" [MUser "mid" "m" EmptyDefault]].
Definition wout (y x k1 k2 : Z) : fields := [("m", VStruct "mid" [("y", VNum KInt y); ("lf", VStruct "leaf" [("x", VNum KInt x); ("k", VEnum "en" k1)]); ("k", VEnum "en" k2)])].
Lemma w_setting nd : ini_setting (enums_of wdefs) (structs_of wdefs) (zo nd) wdefs (lang_of wdefs).
Proof. case_setting wdefs. Qed.
Lemma w_top : top_of (structs_of wdefs) "outer".
Proof. case_top. Qed.

(** *** An unscoped enumeration with a small range *)
Definition udefs : list def :=
  [DefEnum false "sm" [Entry "a" None; Entry "b" None] false;
   DefStruct "inner" [MSimple int_E "x" (Default (DInt "4")); MUser "sm" "k" EmptyDefault];
   DefStruct "outer" [MUser "inner" "i" EmptyDefault; MUser "inner" "j" EmptyDefault]].
Definition uout (x k y l : Z) : fields := [("i", VStruct "inner" [("x", VNum KInt x); ("k", VEnum "sm" k)]); ("j", VStruct "inner" [("x", VNum KInt y); ("k", VEnum "sm" l)])].
Lemma u_setting nd : ini_setting (enums_of udefs) (structs_of udefs) (zo nd) udefs (lang_of udefs).
Proof. case_setting udefs. Qed.
Lemma u_top : top_of (structs_of udefs) "outer".
Proof. case_top. Qed.
