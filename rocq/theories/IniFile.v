(** The line loop and read_from_file of the generated n_ini reader. *)
From Coq Require Import String Ascii ZArith NArith Arith List Bool Lia.
From Verif Require Import Base Map Items Grammar Fmt Decimal Templates Emit Cpp Xml Val Rx CppSem SymLex Ast StoreDefs ResolveProps Prog Header Link EnumSem DecText EnumCall XmlSpec XmlRdSimple XmlRead XmlReader XmlCall XmlWriter XmlFile IniSpec IniRead IniReader IniCall IniLines.
Import ListNotations.
Local Open Scope string_scope.
Local Open Scope list_scope.

(** *** The current section is there *)
Lemma assoc_set {A} m n (v : A) l : assoc m (set_assoc n v l) = if String.eqb m n then Some v else assoc m l.
Proof.
  destruct (String.eqb_spec m n) as [->|E]; [apply assoc_set_same|]. apply assoc_set_other. now apply eqb_neq.
Qed.
Lemma put_item_under c n v k s : assoc s (k_under k) <> None -> assoc s (k_under (put_item c n v k)) <> None.
Proof.
  destruct c as [c|]; cbn [put_item]; [|auto]. destruct (assoc c (k_under k)) as [its|]; [|auto]. cbn [k_under]. rewrite assoc_set.
  destruct (String.eqb s c); [discriminate|auto].
Qed.
Lemma flush_ok c x : cur_ok x -> cur_ok (flush c x).
Proof.
  unfold flush, cur_ok. destruct (_ && _)%bool; [|auto]. cbn [x_cur x_look]. destruct (x_cur x) as [s|]; [|auto]. apply put_item_under.
Qed.
Lemma rest_ok c r x : cur_ok x -> cur_ok (scan_rest c r x).
Proof.
  intros CO. unfold scan_rest. destruct (c =? "[")%char; [|destruct (c =? " ")%char; [exact CO|]].
  - destruct (rx_search rs_section _) as [[|g gs]|]; try exact CO. unfold cur_ok. cbn. rewrite assoc_set_same. discriminate.
  - assert (W : cur_ok (match rx_search rs_word (String c r) with Some (k :: _) => Scan (x_look x) (x_cur x) k NL | _ => x end)) by (destruct (rx_search rs_word _) as [[|g gs]|]; exact CO).
    destruct (rx_search rs_pair _) as [[|g [|g2 gs]]|]; try exact W. unfold cur_ok in *. cbn [x_cur x_look]. destruct (x_cur x) as [s|]; [|auto]. now apply put_item_under.
Qed.
Lemma scan_line_ok l x : cur_ok x -> cur_ok (scan_line l x).
Proof. intros CO. rewrite scan_line_is. destruct (no_comment l); [exact CO|]. now apply rest_ok, flush_ok. Qed.

(** *** Lines and fgets *)
Lemma snoc_append a c r : (snoc a c ++ r)%string = (a ++ String c r)%string.
Proof. unfold snoc. apply sapp_assoc. Qed.
Lemma chunks_line s : forall room a, 0 < room -> s <> "" -> chunks room a s =
  let (l, r) := take_line room s in (a ++ l)%string :: chunks 79 "" r.
Proof.
  induction s as [|c s IH]; intros room a R NE; [congruence|]. destruct room as [|room]; [lia|]. cbn [chunks take_line].
  destruct (c =? nl)%char; cbn [orb].
  - reflexivity.
  - destruct room as [|room]; cbn [Nat.leb].
    + destruct s; reflexivity.
    + replace (S (S room) - 1)%nat with (S room) by lia. destruct s as [|d s].
      * cbn. destruct (snoc a c) eqn:E; [destruct a; discriminate|]. rewrite <- E. reflexivity.
      * rewrite IH by (lia || discriminate). destruct (take_line (S room) (String d s)) as [l r]. now rewrite snoc_append.
Qed.
Lemma take_line_less s : forall n, 0 < n -> s <> "" -> String.length (snd (take_line n s)) < String.length s.
Proof.
  induction s as [|c s IH]; intros n N NE; [congruence|]. destruct n as [|n]; [lia|]. cbn [take_line]. destruct (c =? nl)%char; [cbn; lia|].
  destruct n as [|n]; [destruct s; cbn; lia|]. destruct s as [|d s]; [cbn; lia|].
  specialize (IH (S n) ltac:(lia) ltac:(discriminate)). destruct (take_line (S n) (String d s)) as [l r]. cbn [snd] in *. cbn [String.length] in *. lia.
Qed.

Section Loop.
  Variables (L : lang) (call : list string -> list arg -> st -> res val) (cls : string) (mf : string -> bool) (wf : nat).
  Notation ex := (run_list (exec L call cls mf wf)).
  Variables (rest : scope) (rv fn obj : val) (tr : node).
  Hypothesis NS : mf "size_t" = false.
  Hypothesis NR : mf "read_item_S" = false.
  Hypothesis RS : assoc "size_t" rest = None.
  Hypothesis RR : assoc "read_item_S" rest = None.
  Notation lst := (lst rest rv fn obj tr).

  Lemma line_ok l x w : cur_ok x -> exists k sc, (k = CNext \/ k = CCont) /\ 
    ex ini_line (lst [] (VCStr (Some l)) x w) = Ok k (lst sc (VCStr (Some l)) (scan_line l x) w).
  Proof.
    intros CO. rewrite line_parts, scan_line_is, !run_list_app.
    destruct (line_1_ok L call cls mf wf rest rv fn obj tr NS RS l x w) as (p & ->). 
    rewrite run_list_app, line_2_ok. destruct (no_comment l) as [|c r]; [exists CCont; eexists; split; [now right|reflexivity]|].
    rewrite run_list_app. rewrite line_3_ok by exact CO. rewrite run_list_app, line_4_ok. 
    destruct (line_5_ok L call cls mf wf rest rv fn obj tr NR RR c r p (VCStr (Some l)) (flush c x) w (flush_ok c x CO)) as (sc & ->).
    exists CNext, sc. auto.
  Qed.

  Definition outer (buf : val) (x : scan) (w : world) : st :=
    St [blk buf (x_cur x); bs rv fn obj] tr (this_of rest (x_look x) (x_key x) (x_val x)) w.
  Definition e_more := EBin b_ne ENull (ECall (EId ["std"; "fgets"]) [EId ["buf"]; EId ["buflen"]; EId ["file"]]).
  Definition a_buf (v : val) : Prop := v = VUndef TCStr \/ exists s, v = VCStr (Some s).
  Lemma more_ok buf x fs out t : a_buf buf ->
    ev L call cls mf e_more (outer buf x (World fs (Some t) out)) =
    match t with
    | EmptyString => Ok (vbool false) (outer buf x (World fs (Some t) out))
    | _ => let (a, b) := take_line 79 t in Ok (vbool true) (outer (VCStr (Some (cut a))) x (World fs (Some b) out))
    end.
  Proof.
    intros AB. destruct t as [|c t]; [destruct AB as [->|(s & ->)]; reflexivity|]. 
    assert (E : ev L call cls mf e_more (outer buf x (World fs (Some (String c t)) out)) =
      do (v, s) <- std_fun L "fgets" [(Some (LV false "buf" []), buf); (Some (LV false "buflen" []), VNum KInt 80); (Some (LV false "file" []), VFile true)] (outer buf x (World fs (Some (String c t)) out));
      lift (binary L b_ne VNull v) s) by (destruct AB as [->|(s & ->)]; reflexivity).
    rewrite E. unfold std_fun. cbn [s_world outer w_in w_files w_out String.eqb Ascii.eqb Bool.eqb eqb].
    change (Z.to_nat (80 - 1)) with 79. destruct (take_line 79 (String c t)) as [a b]. destruct AB as [->|(s & ->)]; reflexivity.
  Qed.
  Lemma loop_ok fs out n : forall t buf x, String.length t < n -> cur_ok x -> a_buf buf -> exists buf',
    run_while n (ev L call cls mf e_more) (ex ini_line) (outer buf x (World fs (Some t) out)) =
    Ok CNext (outer buf' (scan_text t x) (World fs (Some "") out)).
  Proof.
    induction n as [|n IH]; intros t buf x LT CO AB; [lia|]. cbn [run_while]. rewrite more_ok by exact AB.
    destruct t as [|c t]; [exists buf; reflexivity|]. pose proof (take_line_less (String c t) 79 ltac:(lia) ltac:(discriminate)) as LS.
    pose proof (chunks_line (String c t) 79 "" ltac:(lia) ltac:(discriminate)) as CH.
    unfold scan_text. destruct (take_line 79 (String c t)) as [a b] eqn:TL. cbn [snd] in LS. rewrite CH. cbn [fold_left String.append].
    assert (T : lift (truth (vbool true)) (outer (VCStr (Some (cut a))) x (World fs (Some b) out)) = Ok true (outer (VCStr (Some (cut a))) x (World fs (Some b) out))) by reflexivity.
    rewrite T. unfold scoped.
    change (set_scopes (outer (VCStr (Some (cut a))) x (World fs (Some b) out)) ([] :: s_scopes (outer (VCStr (Some (cut a))) x (World fs (Some b) out))))
      with (lst [] (VCStr (Some (cut a))) x (World fs (Some b) out)).
    destruct (line_ok (cut a) x (World fs (Some b) out) CO) as (k & sc & K & ->).
    change (leave (length (s_scopes (outer (VCStr (Some (cut a))) x (World fs (Some b) out)))) (lst sc (VCStr (Some (cut a))) (scan_line (cut a) x) (World fs (Some b) out)))
      with (outer (VCStr (Some (cut a))) (scan_line (cut a) x) (World fs (Some b) out)).
    destruct (IH b (VCStr (Some (cut a))) (scan_line (cut a) x)) as (buf' & IHb); [lia|now apply scan_line_ok|right; eauto|]. exists buf'.
    destruct K as [->| ->]; exact IHb.
  Qed.
End Loop.
