(** The line loop of the generated n_ini read_from_file computes [scan_text]. *)
From Coq Require Import String Ascii ZArith NArith Arith List Bool Lia.
From Verif Require Import Base Map Items Grammar Fmt Decimal Templates Emit Cpp Xml Val Rx CppSem SymLex Ast EnumCall XmlSpec XmlRdSimple XmlRead XmlReader IniSpec IniRead.
Import ListNotations.
Local Open Scope string_scope.
Local Open Scope list_scope.

(** *** Library functions *)
Fixpoint closes (rs : list ritem) : nat := match rs with [] => 0 | RClose :: r => S (closes r) | _ :: r => closes r end.
Lemma rx_match_groups rs : forall s cur gs g, rx_match rs s cur gs = Some g -> length g = length gs + closes rs.
Proof.
  induction rs as [|[| |c [|]] rs IH]; intros s cur gs g; cbn [rx_match closes].
  - intros [= <-]. lia.
  - apply IH.
  - destruct cur as [t|]; [|discriminate]. intros H. apply IH in H. rewrite app_length in H. cbn in H. lia.
  - revert cur. induction s as [|a s IHs]; intros cur; [discriminate|]. destruct (rclass_has c a); [|discriminate].
    match goal with |- match ?x with _ => _ end = _ -> _ => destruct x eqn:E end.
    + intros [= <-]. exact (IHs _ E).
    + apply IH.
  - destruct s as [|a s]; [discriminate|]. destruct (rclass_has c a); [|discriminate]. apply IH.
Qed.
Lemma rx_search_groups rs s : forall g, rx_search rs s = Some g -> length g = closes rs.
Proof.
  induction s as [|a s IH]; intros g; cbn [rx_search]; destruct (rx_match rs _ None []) as [g'|] eqn:E; try discriminate.
  - intros [= <-]. apply rx_match_groups in E. exact E.
  - intros [= <-]. apply rx_match_groups in E. exact E.
  - apply IH.
Qed.

Lemma find_comment s i : match find_chr "%" s i with Some j => exists n, j = i + n /\ substring 0 n s = no_comment s | None => no_comment s = s end.
Proof.
  revert i. induction s as [|c s IH]; intros i; [reflexivity|]. cbn [find_chr no_comment]. rewrite Ascii.eqb_sym. destruct (c =? "%")%char eqn:E.
  - exists 0. split; [lia|reflexivity].
  - specialize (IH (S i)). destruct (find_chr "%" s (S i)) as [j|].
    + destruct IH as (n & -> & H). exists (S n). split; [lia|]. cbn. now rewrite H.
    + now rewrite IH.
Qed.

(** *** The frame of read_from_file *)
Definition this_of (rest : scope) (k : lookups) (key v : string) : scope :=
  ("m_lookup", look_val k) :: ("m_multiline_string_key", VStr key) :: ("m_multiline_string_value", VStr v) :: rest.
Definition cur_lv (c : option string) : lval :=
  match c with None => LV true "m_lookup" [] | Some s => LV true "m_lookup" [AFld "under"; AKey s] end.
Definition cur_ok (x : scan) : Prop := match x_cur x with Some s => assoc s (k_under (x_look x)) <> None | None => True end.
Definition blk (buf : val) (c : option string) : scope :=
  [("buf", buf); ("buflen", VNum KInt 80); ("current_lookup", VPtr (Some (cur_lv c)))].
Definition bs (rv fn obj : val) : scope := [("file", VFile true); ("rv", rv); ("filename", fn); ("struct_to_fill", obj)].

Section Lines.
  Variables (L : lang) (call : list string -> list arg -> st -> res val) (cls : string) (mf : string -> bool) (wf : nat).
  Notation ex := (run_list (exec L call cls mf wf)).
  Variables (rest : scope) (rv fn obj : val) (tr : node).
  Hypothesis NS : mf "size_t" = false.
  Hypothesis NR : mf "read_item_S" = false.
  Hypothesis RS : assoc "size_t" rest = None.
  Hypothesis RR : assoc "read_item_S" rest = None.
  Hypothesis NP : enumerator L "std" "string" = None.

  Definition lst (vs : scope) (buf : val) (x : scan) (w : world) : st :=
    St [vs; blk buf (x_cur x); bs rv fn obj] tr (this_of rest (x_look x) (x_key x) (x_val x)) w.

  Ltac sem2 := cbn [exec ev run_list run_args exec_list scoped leave length Nat.sub skipn
    e_dot e_data e_id s_set e_under e_key e_val e_line0 e_search e_res t_str
    lvalue simple_key is_local is_member get_lv get_root put_lv get_path put_path get_acc put_acc lv_this lv_root lv_path app
    lookup update assoc set_assoc String.eqb Ascii.eqb Bool.eqb eqb andb orb negb
    lst blk bs this_of x_cur x_look x_key x_val
    s_scopes s_tree s_this s_world set_scopes set_tree set_this set_world declare declare_as store
    method map_method str_method fst snd ty_of val_member fun_call std_fun look_val item_val
    named_type exec_decl ct_args ct_ref ct_name t_auto names_eqb option_map items_val init init_fuel
    lift conv binary veq vbool truth Z.eqb nkind_eqb fkind_eqb].
  Ltac walk := repeat (first [progress sem2 | rewrite NS | rewrite NR | rewrite RS | rewrite RR
    | progress unfold lst, blk, bs, this_of, is_local, is_member, get_lv, put_lv, get_root, assign, store, scoped, leave, fun_call, named_type]).

  Definition line_vars (l : string) (p : option nat) : scope := [("pos", VSize p); ("line", VStr l)].
  Definition line_1 := firstn 3 ini_line.
  Definition line_2 := firstn 1 (skipn 3 ini_line).
  Definition line_3 := firstn 1 (skipn 4 ini_line).
  Definition line_4 := firstn 2 (skipn 5 ini_line).
  Definition line_5 := skipn 7 ini_line.
  Lemma line_parts : ini_line = line_1 ++ line_2 ++ line_3 ++ line_4 ++ line_5.
  Proof. reflexivity. Qed.

  Lemma line_1_ok l x w : exists p, ex line_1 (lst [] (VCStr (Some l)) x w) = Ok CNext (lst (line_vars (no_comment l) p) (VCStr (Some l)) x w).
  Proof.
    pose proof (find_comment l 0) as F. exists (find_chr "%" l 0). unfold line_1, ini_line. cbn [firstn]. walk.
    destruct (find_chr "%" l 0) as [j|].
    - destruct F as (n & -> & F). cbn [Nat.add]. walk. change (digits_val 0 false "0") with (Some 0%Z). walk. rewrite F. reflexivity.
    - walk. rewrite F. reflexivity.
  Qed.

  Lemma line_2_ok l p buf x w : ex line_2 (lst (line_vars l p) buf x w) =
    Ok (match l with EmptyString => CCont | _ => CNext end) (lst (line_vars l p) buf x w).
  Proof.
    unfold line_2, ini_line, line_vars. cbn [firstn skipn]. walk. change (digits_val 0 false "0") with (Some 0%Z). walk.
    destruct l as [|c l]; walk; reflexivity.
  Qed.

  (** Setting an item of the current section. *)
  Definition cur_path (c : option string) : list acc := match c with None => [] | Some s => [AFld "under"; AKey s] end.
  Lemma put_item_ok sc c n v k key val w : (forall s, c = Some s -> assoc s (k_under k) <> None) ->
    assign_elem L (LV true "m_lookup" (cur_path c ++ [AFld "items"; AKey n])) (VStr v) (St sc tr (this_of rest k key val) w) =
    Ok (VStr v) (St sc tr (this_of rest (put_item c n v k) key val) w).
  Proof.
    intros CO. unfold assign_elem. destruct c as [s|]; cbn [cur_path put_item].
    - destruct (assoc s (k_under k)) as [its|] eqn:A; [|exfalso; now apply (CO s)]. walk. rewrite find_under, A. walk. rewrite find_str.
      destruct (assoc n its) as [old|]; walk; rewrite ?find_under, ?A; walk; rewrite ?find_str; walk; rewrite set_str; fold (items_val (set_assoc n v its)); 
        fold (item_val (set_assoc n v its) []); rewrite set_under; reflexivity.
    - walk. rewrite find_str. destruct (assoc n (k_top k)) as [old|]; walk; rewrite ?find_str; walk; rewrite set_str; reflexivity.
  Qed.

  Lemma cur_lv_is c : cur_lv c = LV true "m_lookup" (cur_path c).
  Proof. destruct c; reflexivity. Qed.
  Lemma get_items c n k key val sc w : (forall s, c = Some s -> assoc s (k_under k) <> None) ->
    exists its, get_lv (LV true "m_lookup" (cur_path c ++ [AFld n])) (St sc tr (this_of rest k key val) w) = 
      (if String.eqb n "items" then Some (items_val its) else get_lv (LV true "m_lookup" (cur_path c ++ [AFld n])) (St sc tr (this_of rest k key val) w)).
  Proof.
    intros CO. destruct (String.eqb n "items") eqn:E; [|exists []; reflexivity]. apply String.eqb_eq in E as ->. destruct c as [s|]; cbn [cur_path].
    - destruct (assoc s (k_under k)) as [its|] eqn:A; [|exfalso; now apply (CO s)]. exists its. walk. rewrite find_under, A. reflexivity.
    - exists (k_top k). reflexivity.
  Qed.
  (** current_lookup->items[key] = value, as a statement *)
  Lemma set_item_ok (e1 e2 : expr) vs buf x w n v : cur_ok x -> let s0 := St (vs ++ [blk buf (x_cur x); bs rv fn obj]) tr (this_of rest (x_look x) (x_key x) (x_val x)) w in
    (forall u, In u vs -> assoc "current_lookup" u = None) ->
    simple_key e1 s0 = Some n -> ev L call cls mf e2 s0 = Ok (VStr v) s0 ->
    exec L call cls mf wf (s_set (EIdx (EMem true (EId ["current_lookup"]) "items") e1) e2) s0 =
    Ok CNext (St (vs ++ [blk buf (x_cur x); bs rv fn obj]) tr (this_of rest (put_item (x_cur x) n v (x_look x)) (x_key x) (x_val x)) w).
  Proof.
    intros CO s0 NC SK EV. unfold cur_ok in CO.
    assert (CO' : forall s, x_cur x = Some s -> assoc s (k_under (x_look x)) <> None) by (intros s E; now rewrite E in CO).
    cbn [exec s_set ev]. rewrite EV. cbn [lvalue].
    assert (LK : lookup "current_lookup" (s_scopes s0) = Some (VPtr (Some (cur_lv (x_cur x))))).
    { subst s0. cbn [s_scopes]. clear EV SK. induction vs as [|u vs IH]; [reflexivity|]. cbn [app lookup]. rewrite (NC u (or_introl eq_refl)). apply IH. intros u' I. apply NC. now right. }
    assert (G1 : get_lv (LV false "current_lookup" []) s0 = Some (VPtr (Some (LV true "m_lookup" (cur_path (x_cur x)))))) by (unfold get_lv, get_root; cbn [lv_this lv_root lv_path]; rewrite LK, cur_lv_is; reflexivity).
    unfold is_local. rewrite LK, G1. cbn [lv_this lv_root lv_path].
    destruct (get_items (x_cur x) "items" (x_look x) (x_key x) (x_val x) (s_scopes s0) w CO') as (its & GI). cbn [String.eqb Ascii.eqb Bool.eqb] in GI.
    change (St (s_scopes s0) tr (this_of rest (x_look x) (x_key x) (x_val x)) w) with s0 in GI.
    rewrite GI. unfold items_val. rewrite SK. cbn [lv_this lv_root lv_path]. rewrite <- app_assoc. cbn [app].
    subst s0. cbn [s_scopes]. rewrite (put_item_ok _ _ _ _ _ _ _ _ CO'). reflexivity.
  Qed.

  Ltac use_ex E := match type of E with ?l = _ => match l with exec _ _ _ _ _ ?q _ =>
    match goal with |- context [exec ?a1 ?a2 ?a3 ?a4 ?a5 q ?a6] => change (exec a1 a2 a3 a4 a5 q a6) with l end end end; rewrite E.
  Lemma line_3_ok c r p buf x w : cur_ok x -> ex line_3 (lst (line_vars (String c r) p) buf x w) = Ok CNext (lst (line_vars (String c r) p) buf (flush c x) w).
  Proof.
    intros CO. unfold line_3, ini_line, line_vars, flush. cbn [firstn skipn].
    set (body := [s_set _ e_val; _; _]).
    destruct x as [lk cu key va]. cbn [x_cur x_look x_key x_val] in *. walk. change (digits_val 0 false "0") with (Some 0%Z). walk.
    destruct key as [|a key]; [walk; reflexivity|]. walk. change (Z.of_nat (String.length (String a key)) =? 0)%Z with false. walk. change (digits_val 0 false "0") with (Some 0%Z). walk. cbn [value_index Z.to_nat String.get]. walk.
    destruct (c =? " ")%char; walk; [reflexivity|]. subst body. cbn [run_list].
    pose proof (set_item_ok e_key e_val [[]; [("pos", VSize p); ("line", VStr (String c r))]] buf (Scan lk cu (String a key) va) w (String a key) va CO) as SI.
    cbv zeta in SI. specialize (SI ltac:(intros u [<-|[<-|[]]]; reflexivity) eq_refl eq_refl).
use_ex SI.
    walk. reflexivity.
  Qed.
  Definition line_vars2 (l : string) (p : option nat) (re rs : val) : scope := ("regex", rs) :: ("res", re) :: line_vars l p.
  Lemma line_4_ok l p buf x w : ex line_4 (lst (line_vars l p) buf x w) =
    Ok CNext (lst (line_vars2 l p (VUndef (TOther "match")) (VUndef (TOther "regex"))) buf x w).
  Proof. unfold line_4, ini_line, line_vars. cbn [firstn skipn]. walk. reflexivity. Qed.

  Definition rs_section := [RItem (RChar "[") false; ROpen; RItem RAny true; RClose; RItem (RChar "]") false].
  Definition rs_pair := [ROpen; RItem RWord true; RClose; RItem (RChar " ") false; ROpen; RItem RAny true; RClose].
  Definition rs_word := [ROpen; RItem RWord true; RClose].
  Lemma c_section : rx_compile "\[(.+)\]" = Some rs_section.
  Proof. reflexivity. Qed.
  Lemma c_pair : rx_compile "(\w+) (.+)" = Some rs_pair.
  Proof. reflexivity. Qed.
  Lemma c_word : rx_compile "(\w+)" = Some rs_word.
  Proof. reflexivity. Qed.
  Definition scan_rest (c : ascii) (r : string) (s : scan) : scan :=
    let l := String c r in
    if (c =? "[")%char then
      match rx_search rs_section l with
      | Some (k :: _) => Scan (Look (k_top (x_look s)) (set_assoc k [] (k_under (x_look s)))) (Some k) (x_key s) (x_val s)
      | _ => s
      end
    else if (c =? " ")%char then Scan (x_look s) (x_cur s) (x_key s) (x_val s ++ l)%string
    else
      match rx_search rs_pair l with
      | Some (k :: v :: _) => Scan (put_item (x_cur s) k v (x_look s)) (x_cur s) (x_key s) (x_val s)
      | _ => match rx_search rs_word l with Some (k :: _) => Scan (x_look s) (x_cur s) k NL | _ => s end
      end.
  Lemma scan_line_is line s : scan_line line s = match no_comment line with EmptyString => s | String c r => scan_rest c r (flush c s) end.
  Proof. unfold scan_line, search. rewrite c_section, c_pair, c_word. reflexivity. Qed.

  Lemma put_section sc n k key val w :
    assign_elem L (LV true "m_lookup" [AFld "under"; AKey n]) read_item (St sc tr (this_of rest k key val) w) =
    Ok read_item (St sc tr (this_of rest (Look (k_top k) (set_assoc n [] (k_under k))) key val) w).
  Proof.
    unfold assign_elem, read_item. walk. rewrite find_under. destruct (assoc n (k_under k)) as [its|]; walk; change (VStruct "read_item_S" [("items", VMap []); ("under", VMap [])]) with (item_val [] []); rewrite set_under; reflexivity.
  Qed.

  Lemma cut_section : cut "\[(.+)\]" = "\[(.+)\]".
  Proof. reflexivity. Qed.
  Lemma cut_pair : cut "(\w+) (.+)" = "(\w+) (.+)".
  Proof. reflexivity. Qed.
  Lemma cut_word : cut "(\w+)" = "(\w+)".
  Proof. reflexivity. Qed.
  Lemma one : digits_val 0 false "1" = Some 1%Z.
  Proof. reflexivity. Qed.
  Lemma two : digits_val 0 false "2" = Some 2%Z.
  Proof. reflexivity. Qed.
  Definition sw_body (n : nat) : list stmt :=
    match line_5 with [SSwitch _ cs] => match nth_error cs n with Some (_, b) => b | None => [] end | _ => [] end.
  Lemma nat_1 : Pos.to_nat 1 = 1%nat.
  Proof. reflexivity. Qed.
  Lemma nat_2 : Pos.to_nat 2 = 2%nat.
  Proof. reflexivity. Qed.
  Ltac walk5 := repeat (first [progress walk | rewrite cut_section | rewrite cut_pair | rewrite cut_word | rewrite c_section | rewrite c_pair | rewrite c_word | rewrite one | rewrite two
    | rewrite nat_1 | rewrite nat_2 | progress cbn [value_index nth_error Z.to_nat Pos.eqb]
    | match goal with H : rx_search ?a ?b = _ |- context [rx_search ?a ?b] => rewrite H end]).
  Ltac use_assign E := match type of E with ?l = _ => match l with assign_elem _ ?q _ _ =>
    match goal with |- context [assign_elem ?a1 q ?a2 ?a3] => change (assign_elem a1 q a2 a3) with l end end end; rewrite E.
  Definition sst vs l p re rs buf x w : st := St (vs ++ [line_vars2 l p re rs; blk buf (x_cur x); bs rv fn obj]) tr (this_of rest (x_look x) (x_key x) (x_val x)) w.
  Lemma body_1 l p buf x w : exists re' rs', ex (sw_body 0) (sst [[]] l p (VUndef (TOther "match")) (VUndef (TOther "regex")) buf x w) =
    Ok CBreak (sst [[]] l p re' rs' buf (match rx_search rs_section l with
      | Some (k :: _) => Scan (Look (k_top (x_look x)) (set_assoc k [] (k_under (x_look x)))) (Some k) (x_key x) (x_val x)
      | _ => x
      end) w).
  Proof.
    pose proof (rx_search_groups rs_section l) as RG. destruct x as [lk cu key va]. cbn [x_cur x_look x_key x_val] in *.
    unfold sw_body, line_5, ini_line, sst, line_vars2, line_vars. cbn [skipn nth_error x_cur x_look x_key x_val app].
    destruct (rx_search rs_section l) as [[|g [|g2 gs]]|] eqn:RS1; try (specialize (RG _ eq_refl); discriminate RG).
    - walk5.
      pose proof (put_section ([("new_item", read_item); ("key", VStr g)] :: [] :: [line_vars2 l p (VMatch [l; g]) (VRegex "\[(.+)\]"); blk buf cu; bs rv fn obj]) g lk key va w) as PS.
      use_assign PS. walk5. eexists. eexists. reflexivity.
    - walk5. eexists. eexists. reflexivity.
  Qed.

  Lemma body_2 l p re rs buf x w : ex (sw_body 1) (sst [[]] l p re rs buf x w) =
    Ok CBreak (sst [[]] l p re rs buf (Scan (x_look x) (x_cur x) (x_key x) (x_val x ++ l)) w).
  Proof.
    destruct x as [lk cu key va]. unfold sw_body, line_5, ini_line, sst, line_vars2, line_vars. cbn [skipn nth_error x_cur x_look x_key x_val app]. walk5. reflexivity.
  Qed.
  Lemma body_3 l p buf x w : cur_ok x -> exists re' rs', ex (sw_body 2) (sst [[]] l p (VUndef (TOther "match")) (VUndef (TOther "regex")) buf x w) =
    Ok CBreak (sst [[]] l p re' rs' buf (match rx_search rs_pair l with
      | Some (k :: v :: _) => Scan (put_item (x_cur x) k v (x_look x)) (x_cur x) (x_key x) (x_val x)
      | _ => match rx_search rs_word l with Some (k :: _) => Scan (x_look x) (x_cur x) k NL | _ => x end
      end) w).
  Proof.
    intros CO. pose proof (rx_search_groups rs_pair l) as RG. pose proof (rx_search_groups rs_word l) as RW. destruct x as [lk cu key va]. cbn [x_cur x_look x_key x_val] in *.
    unfold sw_body, line_5, ini_line, sst, line_vars2, line_vars. cbn [skipn nth_error x_cur x_look x_key x_val app].
    destruct (rx_search rs_pair l) as [[|g [|g2 [|g3 gs]]]|] eqn:RS1; try (specialize (RG _ eq_refl); discriminate RG).
    - set (i := s_set (EIdx (EMem true (EId ["current_lookup"]) "items") (EId ["key"])) (EId ["value"])). walk5.
      pose proof (set_item_ok (EId ["key"]) (EId ["value"]) [[("value", VStr g2); ("key", VStr g)]; []; line_vars2 l p (VMatch [l; g; g2]) (VRegex "(\w+) (.+)")] buf (Scan lk cu key va) w g g2 CO) as SI.
      cbv zeta in SI. specialize (SI ltac:(intros u [<-|[<-|[<-|[]]]]; reflexivity) eq_refl eq_refl). subst i. use_ex SI. walk5. eexists. eexists. reflexivity.
    - destruct (rx_search rs_word l) as [[|g [|g2 gs]]|] eqn:RS2; try (specialize (RW _ eq_refl); discriminate RW).
      + walk5. eexists. eexists. reflexivity.
      + walk5. eexists. eexists. reflexivity.
  Qed.
  Lemma line_5_ok c r p buf x w : cur_ok x -> exists sc,
    ex line_5 (lst (line_vars2 (String c r) p (VUndef (TOther "match")) (VUndef (TOther "regex"))) buf x w) = Ok CNext (lst sc buf (scan_rest c r x) w).
  Proof.
    intros CO.
    destruct (body_1 (String c r) p buf x w) as (re1 & rs1 & B1).
    pose proof (body_2 (String c r) p (VUndef (TOther "match")) (VUndef (TOther "regex")) buf x w) as B2.
    destruct (body_3 (String c r) p buf x w CO) as (re3 & rs3 & B3).
    assert (E : exec L call cls mf wf (SSwitch e_line0 [(Some (EChr "["), sw_body 0); (Some (EChr " "), sw_body 1); (None, sw_body 2)]) (lst (line_vars2 (String c r) p (VUndef (TOther "match")) (VUndef (TOther "regex"))) buf x w) =
      match (if (c =? "[")%char then ex (sw_body 0) (sst [[]] (String c r) p (VUndef (TOther "match")) (VUndef (TOther "regex")) buf x w)
       else if (c =? " ")%char then ex (sw_body 1) (sst [[]] (String c r) p (VUndef (TOther "match")) (VUndef (TOther "regex")) buf x w)
       else ex (sw_body 2) (sst [[]] (String c r) p (VUndef (TOther "match")) (VUndef (TOther "regex")) buf x w))
      with Ok CBreak s1 => Ok CNext (leave 3 s1) | Ok _ _ => Bad | Exc s' => Exc s' | UB => UB | Bad => Bad | Fuel => Fuel end).
    { remember (sw_body 0) as b0. remember (sw_body 1) as b1. remember (sw_body 2) as b2. cbn [exec default_last rev app forallb fst andb].
      assert (EL : ev L call cls mf e_line0 (lst (line_vars2 (String c r) p (VUndef (TOther "match")) (VUndef (TOther "regex"))) buf x w) =
        Ok (VChr c) (lst (line_vars2 (String c r) p (VUndef (TOther "match")) (VUndef (TOther "regex"))) buf x w)) by reflexivity.
      rewrite EL. unfold scoped. cbn [run_switch ev lift veq].
      change (set_scopes (lst (line_vars2 (String c r) p (VUndef (TOther "match")) (VUndef (TOther "regex"))) buf x w) ([] :: s_scopes (lst (line_vars2 (String c r) p (VUndef (TOther "match")) (VUndef (TOther "regex"))) buf x w)))
        with (sst [[]] (String c r) p (VUndef (TOther "match")) (VUndef (TOther "regex")) buf x w).
      change (length (s_scopes (lst (line_vars2 (String c r) p (VUndef (TOther "match")) (VUndef (TOther "regex"))) buf x w))) with 3.
      destruct (c =? "[")%char eqn:C1; [rewrite B1; reflexivity|]. cbn [lift veq]. destruct (c =? " ")%char eqn:C2; [rewrite B2; reflexivity|].
      rewrite B3. reflexivity. }
    change line_5 with [SSwitch e_line0 [(Some (EChr "["), sw_body 0); (Some (EChr " "), sw_body 1); (None, sw_body 2)]]. cbn [run_list]. rewrite E, B1, B2, B3.
    unfold scan_rest. destruct (c =? "[")%char; [|destruct (c =? " ")%char]; eexists; reflexivity.
  Qed.
End Lines.
