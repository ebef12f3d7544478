(** The text printed by the xml back end, read back. *)
From Coq Require Import String Ascii ZArith NArith Arith List Bool Lia.
From Verif Require Import Base Map Items Fmt Templates Emit Cpp SymLex SymParse Ast PrintXa.
Import ListNotations.
Local Open Scope string_scope.
Local Open Scope list_scope.

Lemma p_xm_rd_simple m : simple_ok m = true -> prints (xm_read_simple m) (xm_rd_simple m).
Proof.
  unfold simple_ok. intros N. unfold xm_read_simple, xm_rd_simple.
  destruct (ss_type m); print_tac [AId] ltac:(ps_split 9; ps_one).
Qed.
Lemma p_xm_rd_complex m : complex_ok m = true -> prints (fst (xm_read_complex m)) (xm_rd_complex m).
Proof.
  unfold complex_ok. intros N. apply andb_prop in N as [N T]. unfold xm_read_complex, xm_rd_complex.
  destruct (sc_type m); cbn [fst].
  - apply prints_cons with (x := []) (y := []); [silent_tac [AId] | apply prints_skip; [reflexivity | apply prints_nil]].
  - apply prints_cons with (x := []) (y := []); [silent_tac [AId] | apply prints_skip; [reflexivity | apply prints_nil]].
  - print_tac [AId] ltac:(ps_split 9; ps_one).
  - print_tac [AId; AId] ltac:(ps_split 9; ps_one).
  - print_tac [AId; AId] ltac:(ps_split 9; ps_one).
Qed.
Lemma p_xm_wr_simple nd m : simple_ok m = true -> prints (xm_write_simple nd m) (xm_wr_simple nd m).
Proof.
  unfold simple_ok. intros N. unfold xm_write_simple, xm_wr_simple, xm_value, if_changed.
  destruct nd; destruct (ss_type m); [print_tac [AId] ltac:(ps_split 9; ps_one) ..| | | | | | | | | |];
  print_tac [AId] ltac:(ps_one).
Qed.
Lemma p_xm_wr_complex nd m : complex_ok m = true -> prints (fst (xm_write_complex nd m)) (xm_wr_complex nd m).
Proof.
  unfold complex_ok. intros N. apply andb_prop in N as [N T]. unfold xm_write_complex, xm_wr_complex, if_changed.
  destruct (sc_type m); cbn [fst].
  - apply prints_cons with (x := []) (y := []); [silent_tac [AId] | apply prints_skip; [reflexivity | apply prints_nil]].
  - apply prints_cons with (x := []) (y := []); [silent_tac [AId] | apply prints_skip; [reflexivity | apply prints_nil]].
  - destruct nd; [print_tac [AId] ltac:(ps_split 9; ps_one) | print_tac [AId] ltac:(ps_one)].
  - print_tac [AId; AId] ltac:(ps_split 9; ps_one).
  - print_tac [AId; AId] ltac:(ps_split 9; ps_one).
Qed.

Ltac head_tac k :=
  match goal with |- lexes [Cmd T_cpp ?t ?args] _ =>
    let l := eval vm_compute in (ctoks [AId; AId] t) in
    match l with Some ?l =>
      let ts := constr:(map (evn args) l) in
      let ts := eval cbv [map evn evs eva nth] in ts in
      let a := eval cbv [firstn] in (firstn k ts) in
      let b := eval cbv [skipn] in (skipn k ts) in
      instantiate (1 := b); instantiate (1 := a);
      apply (lexes_cmd [AId; AId] t args l); [vm_compute; reflexivity | args_tac]
    end end.

Lemma d_xm_reader s cls : struct_ok s = true -> name_ok cls = true ->
  defines (fst (xm_reader s cls)) [xm_rd_fun s cls].
Proof.
  intros H C. apply struct_ok_inv in H as (N & S1 & S2). unfold xm_reader, xm_rd_fun, xm_rd_body.
  cbn [fst app]. apply defines_skip; [reflexivity|].
  eapply defines_eq;
  [ eapply (defines_fun (Cmd T_cpp xm_219 [cls; s_name s]) _ _ [s_ch_el]
      ([Cmd T_cpp xm_225 []] ++ flat_map xm_read_simple (s_simple s) ++
       flat_map (fun m => fst (xm_read_complex m)) (s_complex s))
      ([s_rv] ++ flat_map xm_rd_simple (s_simple s) ++ flat_map xm_rd_complex (s_complex s))
      (Cmd T_cpp xm_396 [])) | list_eq | list_eq ].
  - head_tac 16.
  - ps_one.
  - simpl; lia.
  - apply prints_app; [print_tac ([] : list akind) ltac:(ps_one)|].
    apply prints_app; apply prints_flat; auto using p_xm_rd_simple, p_xm_rd_complex.
  - lex_const.
  - reflexivity.
  - reflexivity.
Qed.
Lemma d_xm_writer s cls nd : struct_ok s = true -> name_ok cls = true ->
  defines (fst (xm_writer s cls nd)) [xm_wr_fun s cls nd].
Proof.
  intros H C. apply struct_ok_inv in H as (N & S1 & S2). unfold xm_writer, xm_wr_fun, xm_wr_body.
  cbn [fst app]. apply defines_skip; [reflexivity|].
  eapply defines_eq;
  [ eapply (defines_fun (Cmd T_cpp xm_412 [cls; s_name s]) _ _ [s_ch_el]
      ([Cmd T_cpp xm_417 []] ++ (if nd then [] else [Cmd T_cpp xm_420 [s_name s]]) ++
       flat_map (xm_write_simple nd) (s_simple s) ++
       flat_map (fun m => fst (xm_write_complex nd m)) (s_complex s))
      ([s_rv] ++ dflt_decl nd (s_name s) ++ flat_map (xm_wr_simple nd) (s_simple s) ++ flat_map (xm_wr_complex nd) (s_complex s))
      (Cmd T_cpp xm_573 [])) | list_eq | list_eq ].
  - head_tac 16.
  - ps_one.
  - simpl; lia.
  - apply prints_app; [print_tac ([] : list akind) ltac:(ps_one)|].
    apply prints_app; [destruct nd; [apply prints_nil | print_tac [AId] ltac:(ps_one)] |].
    apply prints_app; apply prints_flat; auto using p_xm_wr_simple, p_xm_wr_complex.
  - lex_const.
  - reflexivity.
  - reflexivity.
Qed.
