(** Parsing against the context-free grammar, and the empty file. *)
From Coq Require Import String Ascii ZArith NArith Arith List Bool Lia.
From Verif Require Import Base Flex Items Bison Grammar Cfg GramSim ParseSpec ParseCorrect LexProps LexGap.
Import ListNotations.
Local Open Scope list_scope.

Lemma tokens_language its fin fuel : Forall (fun i => good_token (i_tok i)) its ->
  (8 * length its + 11 <= fuel)%nat ->
  ((exists o, run_tokens its fin fuel = Some (o, 0%Z)) <-> in_language (map i_tok its)).
Proof.
  intros Hg Hf. rewrite (language (map i_tok its)) by (apply Forall_map; exact Hg).
  split.
  - intros [o Ho]. destruct (tokens_spec its fin Hg) as (o' & rv & Hr & Hs).
    rewrite (Hr fuel Hf) in Ho. injection Ho as <- ->.
    destruct Hs as [(_ & _ & _ & ds & H1 & H2 & _)|(H & _)]; [eauto|discriminate].
  - intros (ds & Hw & Ht). destruct (tokens_accept its fin fuel ds Hf Hw Ht) as (o & Ho & _). eauto.
Qed.

Lemma text_language cs its le ee fuel : scan_text cs = Some (its, le, ee) ->
  (8 * length cs + 11 <= fuel)%nat ->
  ((exists o, parse_bytes fuel cs = Some (o, 0%Z)) <-> in_language (map i_tok its)).
Proof.
  intros Hs Hf. rewrite (language (map i_tok its)) by (apply Forall_map; eapply tokenize_good; eauto).
  split.
  - intros [o Ho]. destruct (text_spec cs its le ee Hs) as (o' & rv & Hr & Hsp).
    rewrite (Hr fuel Hf) in Ho. injection Ho as <- ->.
    destruct Hsp as [(_ & _ & _ & ds & H1 & H2 & _)|(H & _)]; [eauto|discriminate].
  - intros (ds & Hw & Ht). destruct (text_accept cs its le ee fuel ds Hs Hf Hw Ht) as (o & Ho & _). eauto.
Qed.

Lemma text_terminate cs : exists o rv, (rv = 0 \/ rv = 1)%Z /\
  forall fuel, (8 * length cs + 11 <= fuel)%nat -> parse_bytes fuel cs = Some (o, rv).
Proof.
  destruct (scan_text cs) as [[[its le] ee]|] eqn:E; [|apply scan_text_defined in E; contradiction].
  destruct (text_spec cs its le ee E) as (o & rv & Hr & [[H _]|[H _]]); exists o, rv; auto.
Qed.

Lemma no_tokens cs le ee : scan_text cs = Some ([], le, ee) ->
  forall fuel, (8 * length cs + 11 <= fuel)%nat ->
  exists o, parse_bytes fuel cs = Some (o, 1%Z) /\ calls_of o = [] /\
    errs_of o = [error_text le "syntax error, unexpected end of file, expecting enum or struct"].
Proof.
  intros Hs fuel Hf. destruct (tokenize_yields _ _ _ _ _ _ Hs) as [Hy _].
  pose proof (Parse.run_total _ _ _ _ _ (Forall_nil _) Hy) as H. cbn in H.
  destruct H as (o & Hr & H1 & H2 & _). exists o. split; [apply Hr; cbn; lia|]. split; [exact H1|exact H2].
Qed.

Lemma gap_rejected cs bol : gap true cs bol ->
  forall fuel, (8 * length cs + 11 <= fuel)%nat ->
  exists o le, parse_bytes fuel cs = Some (o, 1%Z) /\ calls_of o = [] /\
    errs_of o = [error_text le "syntax error, unexpected end of file, expecting enum or struct"].
Proof.
  intros Hg fuel Hf.
  destruct (scan_text cs) as [[[its le] ee]|] eqn:E; [|apply scan_text_defined in E; contradiction].
  pose proof (scan_text_gap cs bol its le ee Hg E) as ->.
  destruct (no_tokens cs le ee E fuel Hf) as (o & H). eauto.
Qed.

(** The example used beside the theorems. *)
Definition nl_ : string := String (ascii_of_N 10) EmptyString.
Definition sample_text : bytes := list_ascii_of_string
  ("enum class Color { red = 0x1, green, };" ++ nl_ ++
   "struct Pen { Color c{Color::red}; int w{3}; std::vector<Pen> more; }; // done" ++ nl_)%string.
Definition sample_file : list def :=
  [DefEnum true "Color" [Entry "red" (Some (CHex "0x1")); Entry "green" None] true;
   DefStruct "Pen" [MUser "Color" "c" (Default (DEnum "Color::red"));
                    MSimple int_E "w" (Default (DInt "3")); MVector "Pen" "more"]].

(** What is said to be possible can follow. *)
Lemma expected_can_follow its fin fuel o rv : Forall (fun i => good_token (i_tok i)) its ->
  (8 * length its + 11 <= fuel)%nat -> run_tokens its fin fuel = Some (o, rv) -> rv <> 0%Z ->
  exists its1 l k ex,
    ((exists i its2, its = its1 ++ i :: its2 /\ l = i_loc i /\ k = t_kind (i_tok i)) \/
     (its = its1 /\ l = fst fin /\ k = 0%N)) /\
    errs_of o = [error_text l (complaint k ex)] /\
    forall x, In x ex -> can_follow (map i_tok its1) x.
Proof.
  intros Hg Hf Hr Hn. destruct (tokens_reject its fin fuel o rv Hg Hf Hr Hn) as [_ H].
  destruct H as [ds u uc its1 i its2 ex ? ? ? ? ? ? Hx|ds u uc ex ? ? ? ? ? Hx].
  - exists its1, (i_loc i), (t_kind (i_tok i)), ex. split; [left; eauto 10|]. auto.
  - exists its, (fst fin), 0%N, ex. split; [right; auto|]. auto.
Qed.
