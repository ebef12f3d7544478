(** The text printed by the xml_attrib back end, read back: for every struct the reader
    and writer functions are the trees of Ast.v. *)
From Coq Require Import String Ascii ZArith NArith Arith List Bool Lia.
From Verif Require Import Base Map Items Fmt Templates Emit Cpp SymLex SymParse Ast.
Import ListNotations.
Local Open Scope string_scope.
Local Open Scope list_scope.

Definition simple_ok (m : struct_simple) : bool := name_ok (ss_name m).
Definition complex_ok (m : struct_complex) : bool := name_ok (sc_name m) && name_ok (sc_tname m).
(** All names of a struct are C++ names. *)
Definition struct_ok (s : struct_S) : bool :=
  name_ok (s_name s) && forallb simple_ok (s_simple s) && forallb complex_ok (s_complex s).

Lemma p_rv : prints [Cmd T_cpp xa_26 []] [s_rv].
Proof. print_tac ([] : list akind) ltac:(ps_one). Qed.
Lemma p_rv' : prints [Cmd T_cpp xa_150 []] [s_rv].
Proof. print_tac ([] : list akind) ltac:(ps_one). Qed.
Lemma p_ch_el cs : prints (if has_children cs then [Cmd T_cpp xa_83 []] else []) (ch_el_decl cs).
Proof. unfold ch_el_decl. destruct (has_children cs); [print_tac ([] : list akind) ltac:(ps_one) | apply prints_nil]. Qed.
Lemma p_ch_el' cs : prints (if has_children cs then [Cmd T_cpp xa_241 []] else []) (ch_el_decl cs).
Proof. unfold ch_el_decl. destruct (has_children cs); [print_tac ([] : list akind) ltac:(ps_one) | apply prints_nil]. Qed.

Lemma p_xa_rd_simple m : simple_ok m = true -> prints (xa_read_simple m) (xa_rd_simple m).
Proof.
  unfold simple_ok. intros N. unfold xa_read_simple, xa_rd_simple.
  destruct (ss_type m); print_tac [AId] ltac:(ps_one).
Qed.
Lemma p_xa_rd_complex m : complex_ok m = true -> prints (fst (xa_read_complex m)) (xa_rd_complex m).
Proof.
  unfold complex_ok. intros N. apply andb_prop in N as [N T]. unfold xa_read_complex, xa_rd_complex.
  destruct (sc_type m); cbn [fst].
  - apply prints_cons with (x := []) (y := []); [silent_tac [AId] | apply prints_skip; [reflexivity | apply prints_nil]].
  - apply prints_cons with (x := []) (y := []); [silent_tac [AId] | apply prints_skip; [reflexivity | apply prints_nil]].
  - print_tac [AId] ltac:(ps_one).
  - print_tac [AId; AId] ltac:(ps_split 9; ps_one).
  - print_tac [AId; AId] ltac:(ps_split 9; ps_one).
Qed.
Lemma p_xa_wr_simple nd m : simple_ok m = true -> prints (xa_write_simple nd m) (xa_wr_simple nd m).
Proof.
  unfold simple_ok. intros N. unfold xa_write_simple, xa_wr_simple, xa_value.
  destruct (ss_type m), nd; print_tac [AId] ltac:(ps_one).
Qed.
Lemma p_xa_wr_complex nd m : complex_ok m = true -> prints (fst (xa_write_complex nd m)) (xa_wr_complex nd m).
Proof.
  unfold complex_ok. intros N. apply andb_prop in N as [N T]. unfold xa_write_complex, xa_wr_complex.
  destruct (sc_type m); cbn [fst].
  - apply prints_cons with (x := []) (y := []); [silent_tac [AId] | apply prints_skip; [reflexivity | apply prints_nil]].
  - apply prints_cons with (x := []) (y := []); [silent_tac [AId] | apply prints_skip; [reflexivity | apply prints_nil]].
  - destruct nd; print_tac [AId] ltac:(ps_one).
  - print_tac [AId; AId] ltac:(ps_split 9; ps_one).
  - print_tac [AId; AId] ltac:(ps_split 9; ps_one).
Qed.

Lemma struct_ok_inv s : struct_ok s = true ->
  name_ok (s_name s) = true /\ (forall m, In m (s_simple s) -> simple_ok m = true) /\
  (forall m, In m (s_complex s) -> complex_ok m = true).
Proof.
  unfold struct_ok. rewrite !andb_true_iff, !forallb_forall. tauto.
Qed.

Lemma d_xa_reader s cls : struct_ok s = true -> name_ok cls = true ->
  defines (fst (xa_reader s cls)) [xa_rd_fun s cls].
Proof.
  intros H C. apply struct_ok_inv in H as (N & S1 & S2). unfold xa_reader, xa_rd_fun, xa_rd_body.
  cbn [fst app]. apply defines_skip; [reflexivity|].
  eapply defines_eq;
  [ eapply (defines_fun0 (Cmd T_cpp xa_22 [cls; s_name s]) _
      ([Cmd T_cpp xa_26 []] ++ flat_map xa_read_simple (s_simple s) ++
       (if has_children (s_complex s) then [Cmd T_cpp xa_83 []] else []) ++
       flat_map (fun m => fst (xa_read_complex m)) (s_complex s))
      ([s_rv] ++ flat_map xa_rd_simple (s_simple s) ++ ch_el_decl (s_complex s) ++
       flat_map xa_rd_complex (s_complex s)) (Cmd T_cpp xa_134 [])) | list_eq | list_eq ].
  - lex_tac [AId; AId].
  - apply prints_app; [apply p_rv|]. apply prints_app; [apply prints_flat; auto using p_xa_rd_simple|].
    apply prints_app; [apply p_ch_el|]. apply prints_flat; auto using p_xa_rd_complex.
  - lex_const.
  - reflexivity.
  - reflexivity.
Qed.
Lemma d_xa_writer s cls nd : struct_ok s = true -> name_ok cls = true ->
  defines (fst (xa_writer s cls nd)) [xa_wr_fun s cls nd].
Proof.
  intros H C. apply struct_ok_inv in H as (N & S1 & S2). unfold xa_writer, xa_wr_fun, xa_wr_body.
  cbn [fst app]. apply defines_skip; [reflexivity|].
  eapply defines_eq;
  [ eapply (defines_fun0 (Cmd T_cpp xa_147 [cls; s_name s]) _
      ([Cmd T_cpp xa_150 []] ++ (if nd then [] else [Cmd T_cpp xa_153 [s_name s]]) ++
       flat_map (xa_write_simple nd) (s_simple s) ++
       (if has_children (s_complex s) then [Cmd T_cpp xa_241 []] else []) ++
       flat_map (fun m => fst (xa_write_complex nd m)) (s_complex s))
      ([s_rv] ++ dflt_decl nd (s_name s) ++ flat_map (xa_wr_simple nd) (s_simple s) ++ ch_el_decl (s_complex s) ++
       flat_map (xa_wr_complex nd) (s_complex s)) (Cmd T_cpp xa_294 [])) | list_eq | list_eq ].
  - lex_tac [AId; AId].
  - apply prints_app; [apply p_rv'|].
    apply prints_app; [destruct nd; [apply prints_nil | print_tac [AId] ltac:(ps_one)] |].
    apply prints_app; [apply prints_flat; auto using p_xa_wr_simple|].
    apply prints_app; [apply p_ch_el'|]. apply prints_flat; auto using p_xa_wr_complex.
  - lex_const.
  - reflexivity.
  - reflexivity.
Qed.

(** *** The entry points, shared with the xml back end *)
Lemma d_x_ctor cls : name_ok cls = true -> defines [Cmd T_cpp xm_93 [cls]] [x_ctor cls].
Proof. intros C. fun_tac [AId]. Qed.
Lemma d_x_rff cls t : name_ok cls = true -> name_ok t = true -> defines [Cmd T_cpp xm_106 [cls; t]] [x_rff cls t].
Proof. intros C T. fun_tac [AId; AId]. Qed.
Lemma d_x_wctor cls rd : name_ok cls = true -> name_ok rd = true -> defines [Cmd T_cpp xm_149 [cls; rd]] [x_wctor cls rd].
Proof. intros C T. fun_tac [AId; AId]. Qed.
Lemma d_x_wtf cls t : name_ok cls = true -> name_ok t = true -> defines [Cmd T_cpp xm_164 [cls; t]] [x_wtf cls t].
Proof. intros C T. fun_tac [AId; AId]. Qed.
