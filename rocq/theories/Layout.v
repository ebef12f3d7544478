(** Headers in any layout: spellings of tokens, with gaps between them. *)
From Coq Require Import String Ascii NArith Arith List Bool Lia.
From Verif Require Import Base Regex LexRules FlexTables Flex LexCorrect LexWhole LexLoc LexStep
  LexProps LexBlank LexMore LexGap Items Bison Grammar Store StoreDefs.
Import ListNotations.
Local Open Scope N_scope.

(** *** Punctuation *)
Definition punct_token (c : ascii) : token :=
  Tok (if is 123 c then 3 else if is 125 c then 4 else if is 61 c then 5 else if is 44 c then 6
       else if is 59 c then 7 else if is 60 c then 8 else 9) None.
Definition puncts : list N := [123; 125; 61; 44; 59; 60; 62].
Lemma tokens_punct bol c rest : punct c = true ->
  tokens_from INITIAL bol (c :: rest) = prepend [punct_token c] (tokens_from INITIAL false rest).
Proof.
  intros P. change (c :: rest) with ([c] ++ rest).
  assert (H : exists n, In n puncts /\ c = ascii_of_N n).
  { unfold punct in P. repeat (apply orb_prop in P as [P|P]); apply is_char in P; subst c;
      (eexists; split; [|reflexivity]); unfold puncts; cbn [In]; auto 10. }
  destruct H as (n & I & ->). unfold puncts in I. cbn [In] in I.
  repeat (destruct I as [<-|I];
    [match goal with |- context [ascii_of_N ?k] =>
       let S := eval vm_compute in (after (is k) init2) in
       let r := eval vm_compute in (first_null (hd [] S)) in
       rewrite (one_lexeme INITIAL INITIAL bol false [ascii_of_N k] rest r S);
       [reflexivity|discriminate|fin|fin|discriminate|destruct bol; fin|fin
       |apply (step_check_ok (is k) init2); [apply cls_check_ok; fin|fin|apply init_known|apply init2_in|reflexivity]
       |fin|apply (dead_noext S); [fin|apply init_run_known|
          apply (step_check_ok (is k) init2); [apply cls_check_ok; fin|fin|apply init_known|apply init2_in|reflexivity]]|fin|fin] end|]).
  destruct I.
Qed.

Lemma no_nl_word l : forallb ident_char l = true -> forallb not_nl l = true.
Proof.
  intros H. rewrite forallb_forall in *. intros d I. specialize (H d I). unfold not_nl. destruct (is 10 d) eqn:E; [|reflexivity].
  apply is_char in E. subst d. discriminate.
Qed.
Lemma identifier_chars w : identifier w -> forallb ident_char w = true.
Proof. destruct w as [|c w]; [intros []|]. intros [A B]. cbn. unfold ident_char at 1. now rewrite A, B. Qed.

(** *** Qualified names *)
Definition CC : bytes := [":"%char; ":"%char].
Definition qual_token (w : bytes) : token :=
  let s := string_of_list_ascii w in
  if String.eqb s "std::string" then Tok 22 None else if String.eqb s "std::vector" then Tok 23 None else Tok 25 (Some s).
Definition quS1 : list vec := Eval vm_compute in after ident_start idT2.
Definition quS : list vec := Eval vm_compute in explore_vec ident_char 4999 quS1 [].
Lemma qual_run bol a b : identifier a -> identifier b -> In (run (init_vec INITIAL bol) (a ++ CC ++ b)) quS.
Proof.
  intros A B. destruct b as [|c b]; [destruct B|]. destruct B as [B1 B2]. rewrite run_app. cbn [CC app]. rewrite !run_cons.
  pose proof (id_run bol a A) as I. pose proof (init_run_known INITIAL bol a) as K. set (v := run (init_vec INITIAL bol) a) in *.
  pose proof (step_check_ok colon idS idT1 v ":"%char cls_colon id_colon1 K I eq_refl) as I1.
  pose proof (step_check_ok colon idT1 idT2 _ ":"%char cls_colon id_colon2 (dv_known _ _ K) I1 eq_refl) as I2.
  apply (closed_ok ident_char); [exact cls_ident_char|fin|apply dv_known, dv_known, dv_known, K| |exact B2].
  apply (step_check_ok ident_start idT2); [exact cls_ident_start|fin|apply dv_known, dv_known, K|exact I2|exact B1].
Qed.
Definition qual_rules : list N := [28; 29; 31].
Lemma qual_null : forallb (fun v => existsb (N.eqb (first_null v)) qual_rules) quS = true. Proof. fin. Qed.
Lemma tokens_qualified bol a b rest : identifier a -> identifier b -> starts ident_char rest = false ->
  tokens_from INITIAL bol ((a ++ CC ++ b) ++ rest) = prepend [qual_token (a ++ CC ++ b)] (tokens_from INITIAL false rest).
Proof.
  intros A B Rs. pose proof (qual_run bol a b A B) as I. pose proof (init_run_known INITIAL bol (a ++ CC ++ b)) as K.
  assert (NL' : ends_nl (a ++ CC ++ b) = false).
  { apply no_newline_ends. unfold no_newline. rewrite !forallb_app, (no_nl_word a), (no_nl_word b) by now apply identifier_chars. reflexivity. }
  assert (NE : a ++ CC ++ b <> []) by (destruct a; discriminate).
  set (w := a ++ CC ++ b) in *. set (v := run (init_vec INITIAL bol) w) in *.
  assert (NX : forall p q, rest = p ++ q -> p <> [] -> first_null (run v p) = 0).
  { intros p q E Hp. destruct p as [|c p]; [congruence|]. rewrite E in Rs. cbn in Rs. rewrite run_cons. apply run_dead.
    apply (dead_check_ok ident_char quS); [exact cls_ident_char|fin|exact K|exact I|exact Rs]. }
  pose proof qual_null as Q. rewrite forallb_forall in Q. specialize (Q _ I). apply existsb_exists in Q as (k & Ik & Ek). apply N.eqb_eq in Ek.
  pose proof (run_sorted w _ (init_sorted INITIAL bol)) as Hsort. fold v in Hsort.
  destruct (first_null_spec v Hsort) as [[H0 _]|(H0 & (r & Hr1 & Hr2) & Hmin)].
  { exfalso. rewrite H0 in Ek. subst k. unfold qual_rules in Ik. cbn [In] in Ik. intuition discriminate. }
  assert (M : exists ru, r_num ru = k /\ rule_matches INITIAL bol w ru (length w)).
  { apply vmatches_init. apply run_vmatches. exists r. rewrite <- Ek. auto. }
  assert (Act : forall n0 s0, active INITIAL bol (R n0 s0) = true) by (intros; destruct bol; reflexivity).
  assert (KW : forall n s, In (R n (lit s)) rules -> w = list_ascii_of_string s -> k <= n).
  { intros n s Hns Hws. rewrite <- Ek.
    assert (Hm : vmatches (init_vec INITIAL bol) w n (length w)).
    { apply vmatches_init. exists (R n (lit s)). split; auto. split; [exact Hns|]. split; [apply Act|]. split; auto. rewrite firstn_all. apply lit_lang; auto. }
    apply run_vmatches in Hm as (r0 & G1 & G2). eapply Hmin; eauto. }
  destruct M as (ru & Hnum & Hru & Hact & _ & Hl). rewrite firstn_all in Hl.
  assert (R28 : In (R 28 (lit "std::string")) rules) by (unfold rules; cbn [In]; tauto).
  assert (R29 : In (R 29 (lit "std::vector")) rules) by (unfold rules; cbn [In]; tauto).
  unfold qual_rules in Ik. cbn [In] in Ik. destruct Ik as [<-|[<-|[<-|[]]]].
  - assert (ru = R 28 (lit "std::string")) as -> by (apply (rule_unique INITIAL bol); auto).
    apply lit_lang in Hl. rewrite (takes_step INITIAL bol w rest (R 28 (lit "std::string"))), NL' by (apply takes_intro; auto; discriminate).
    rewrite Hl at 1 2. reflexivity.
  - assert (ru = R 29 (lit "std::vector")) as -> by (apply (rule_unique INITIAL bol); auto).
    apply lit_lang in Hl. rewrite (takes_step INITIAL bol w rest (R 29 (lit "std::vector"))), NL' by (apply takes_intro; auto; discriminate).
    rewrite Hl at 1 2. reflexivity.
  - assert (ru = R 31 (Seq (plus ID) (Seq (lit "::") (plus ID)))) as -> by (apply (rule_unique INITIAL bol); auto; unfold rules; cbn [In]; tauto).
    rewrite (takes_step INITIAL bol w rest (R 31 (Seq (plus ID) (Seq (lit "::") (plus ID))))), NL' by (apply takes_intro; auto; discriminate).
    unfold qual_token. destruct (String.eqb_spec (string_of_list_ascii w) "std::string") as [E|E].
    { exfalso. assert (X : 31 <= 28); [|lia]. eapply KW; [exact R28|]. rewrite <- E. now rewrite list_ascii_of_string_of_list_ascii. }
    destruct (String.eqb_spec (string_of_list_ascii w) "std::vector") as [E'|E'].
    { exfalso. assert (X : 31 <= 29); [|lia]. eapply KW; [exact R29|]. rewrite <- E'. now rewrite list_ascii_of_string_of_list_ascii. }
    reflexivity.
Qed.

(** *** Hexadecimal numbers, characters, floats with a suffix *)
Definition hexdigit (c : ascii) : bool := between 48 57 c || between 65 70 c || between 97 102 c.
Lemma cls_hex : cls_inv hexdigit. Proof. apply cls_check_ok; fin. Qed.
Definition hexS0 : list vec := Eval vm_compute in after (is 48) init2.
Definition hexS1 : list vec := Eval vm_compute in after (is 120) hexS0.
Definition hexS2 : list vec := Eval vm_compute in after hexdigit hexS1.
Definition hexS : list vec := Eval vm_compute in explore_vec hexdigit 999 hexS2 [].
Lemma cls_48 : cls_inv (is 48). Proof. apply cls_check_ok; fin. Qed.
Lemma cls_120 : cls_inv (is 120). Proof. apply cls_check_ok; fin. Qed.
Definition OX : bytes := ["0"%char; "x"%char].
Lemma tokens_hex bol hs rest : hs <> [] -> forallb hexdigit hs = true -> starts hexdigit rest = false ->
  tokens_from INITIAL bol ((OX ++ hs) ++ rest) = prepend [Tok 27 (Some (string_of_list_ascii (OX ++ hs)))] (tokens_from INITIAL false rest).
Proof.
  intros NE H R. destruct hs as [|h hs]; [congruence|]. cbn in H. apply andb_prop in H as [H0 H].
  assert (I : In (run (init_vec INITIAL bol) (OX ++ h :: hs)) hexS).
  { cbn [OX app]. rewrite !run_cons. pose proof (init_known INITIAL bol) as K.
    pose proof (step_check_ok (is 48) init2 hexS0 _ "0"%char cls_48 ltac:(fin) K (init2_in bol) eq_refl) as I0.
    pose proof (step_check_ok (is 120) hexS0 hexS1 _ "x"%char cls_120 ltac:(fin) (dv_known _ _ K) I0 eq_refl) as I1.
    apply (closed_ok hexdigit); [exact cls_hex|fin|apply dv_known, dv_known, dv_known, K| |exact H].
    apply (step_check_ok hexdigit hexS1); [exact cls_hex|fin|apply dv_known, dv_known, K|exact I1|exact H0]. }
  rewrite (one_lexeme INITIAL INITIAL bol false (OX ++ h :: hs) rest 33 hexS);
    [reflexivity|discriminate|fin|fin|discriminate|destruct bol; fin|fin|exact I|fin| |fin|].
  - intros p q E Hp. destruct p as [|e p]; [congruence|]. rewrite E in R. cbn in R. rewrite run_cons. apply run_dead.
    apply (dead_check_ok hexdigit hexS); [exact cls_hex|fin|apply init_run_known|exact I|exact R].
  - apply no_newline_ends. unfold no_newline. rewrite forallb_forall. intros d J. unfold not_nl. destruct (is 10 d) eqn:E; [|reflexivity]. apply is_char in E. subst d.
    exfalso. cbn [OX app In] in J. destruct J as [J|[J|[J|J]]]; try discriminate J; [subst h; discriminate H0|]. rewrite forallb_forall in H. discriminate (H _ J).
Qed.

Definition AP : ascii := ascii_of_N 39.
Definition chS1 : list vec := Eval vm_compute in after (is 39) init2.
Definition chS2 : list vec := Eval vm_compute in after not_nl chS1.
Definition chS3 : list vec := Eval vm_compute in after (is 39) chS2.
Lemma cls_39 : cls_inv (is 39). Proof. apply cls_check_ok; fin. Qed.
Lemma tokens_char bol c rest : not_nl c = true ->
  tokens_from INITIAL bol ([AP; c; AP] ++ rest) = prepend [Tok 30 (Some (string_of_list_ascii [AP; c; AP]))] (tokens_from INITIAL false rest).
Proof.
  intros N. pose proof (init_known INITIAL bol) as K.
  assert (I : In (run (init_vec INITIAL bol) [AP; c; AP]) chS3).
  { rewrite !run_cons.
    pose proof (step_check_ok (is 39) init2 chS1 _ AP cls_39 ltac:(fin) K (init2_in bol) eq_refl) as I0.
    pose proof (step_check_ok not_nl chS1 chS2 _ c cls_not_nl ltac:(fin) (dv_known _ _ K) I0 N) as I1.
    exact (step_check_ok (is 39) chS2 chS3 _ AP cls_39 ltac:(fin) (dv_known _ _ (dv_known _ _ K)) I1 eq_refl). }
  rewrite (one_lexeme INITIAL INITIAL bol false [AP; c; AP] rest 36 chS3);
    [reflexivity|discriminate|fin|fin|discriminate|destruct bol; fin|fin|exact I|fin| |fin|].
  - apply (dead_noext chS3); [fin|apply init_run_known|exact I].
  - apply no_newline_ends. cbn. now rewrite N.
Qed.

Definition F_ : ascii := "f"%char.
Definition numFf : list vec := Eval vm_compute in after (is 102) numF.
Lemma cls_102 : cls_inv (is 102). Proof. apply cls_check_ok; fin. Qed.
Lemma float_run bol ds1 c ds2 : ds1 <> [] -> ds2 <> [] -> forallb digit ds1 = true -> forallb digit ds2 = true ->
  nondigit_sep c = true -> In (run (init_vec INITIAL bol) (ds1 ++ c :: ds2)) numF.
Proof.
  intros H1 H2 D1 D2 Hc. rewrite run_app. destruct ds2 as [|d ds2]; [congruence|]. cbn in D2. apply andb_prop in D2 as [Hd D2]. rewrite !run_cons.
  apply (closed_ok digit); [exact cls_digit|fin|apply dv_known, dv_known, init_run_known| |exact D2].
  apply (step_check_ok digit numD); [exact cls_digit|fin|apply dv_known, init_run_known| |exact Hd].
  apply (step_check_ok nondigit_sep numS); [exact cls_nds|fin|apply init_run_known|now apply num_run|exact Hc].
Qed.
Lemma no_nl_digits l : forallb digit l = true -> forallb not_nl l = true.
Proof.
  intros H. rewrite forallb_forall in *. intros d I. specialize (H d I). unfold not_nl. destruct (is 10 d) eqn:E; [|reflexivity].
  apply is_char in E. subst d. discriminate.
Qed.
Lemma tokens_float_f bol ds1 c ds2 rest : ds1 <> [] -> ds2 <> [] -> forallb digit ds1 = true -> forallb digit ds2 = true ->
  nondigit_sep c = true ->
  tokens_from INITIAL bol (((ds1 ++ c :: ds2) ++ [F_]) ++ rest) =
  prepend [Tok 28 (Some (string_of_list_ascii ((ds1 ++ c :: ds2) ++ [F_])))] (tokens_from INITIAL false rest).
Proof.
  intros H1 H2 D1 D2 Hc. set (x := (ds1 ++ c :: ds2) ++ [F_]).
  assert (I : In (run (init_vec INITIAL bol) x) numFf).
  { unfold x. rewrite run_app. apply (step_check_ok (is 102) numF); [exact cls_102|fin|apply init_run_known|now apply float_run|reflexivity]. }
  rewrite (one_lexeme INITIAL INITIAL bol false x rest 34 numFf);
    [reflexivity|unfold x; destruct ds1; discriminate|fin|fin|discriminate|destruct bol; fin|fin|exact I|fin| |fin|].
  - apply (dead_noext numFf); [fin|apply init_run_known|exact I].
  - apply no_newline_ends. unfold no_newline, x. rewrite !forallb_app. cbn [forallb]. rewrite (no_nl_digits ds1), (no_nl_digits ds2) by assumption.
    unfold not_nl. destruct (is 10 c) eqn:E; [apply is_char in E; subst c; discriminate|reflexivity].
Qed.
