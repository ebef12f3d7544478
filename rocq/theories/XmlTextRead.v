(** The parser of tinyxml2 (XmlText.v) reads every text of XmlTextSpec.v as the document it
    stands for. *)
From Coq Require Import String Ascii ZArith NArith Arith List Bool Lia.
From Verif Require Import Base Fmt Decimal Cpp Xml Val CppSem SymLex DecText MainProps XmlText XmlTextSpec.
Import ListNotations.
Local Open Scope string_scope.
Local Open Scope list_scope.

(** *** Characters *)
Ltac by_code := let c := fresh in intros c; destruct c as [[] [] [] [] [] [] [] []]; vm_compute; auto; intros H; discriminate H.
Lemma space_no_name : forall c, is_space c = true -> name_char c = false.
Proof. by_code. Qed.
Lemma start_no_space : forall c, name_start c = true -> is_space c = false.
Proof. by_code. Qed.
Lemma start_name c : name_start c = true -> name_char c = true.
Proof. unfold name_char. intros ->. reflexivity. Qed.

(** What follows a name. *)
Definition stops (s : string) : Prop := match s with String c _ => name_char c = false | EmptyString => True end.
Lemma stops_blanks b s : blanks b -> stops s -> stops (b ++ s).
Proof. unfold blanks. destruct b as [|c b]; cbn; [auto|]. rewrite andb_true_iff. intros [H _] _. now apply space_no_name. Qed.
Lemma take_name_app n r : all_chars name_char n = true -> stops r -> take_name (n ++ r) = (n, r).
Proof.
  intros N S. induction n as [|c n IH]; cbn in *.
  - destruct r as [|d r]; [reflexivity|]. cbn in *. now rewrite S.
  - apply andb_true_iff in N as [-> N]. now rewrite (IH N).
Qed.
Lemma name_app n r : xml_name n -> stops r -> parse_name (n ++ r) = Some (n, r) /\ skip_space (n ++ r) = (n ++ r)%string.
Proof.
  destruct n as [|c n]; cbn [xml_name]; [intros []|]. intros [H A] S. cbn [append parse_name]. rewrite H. split.
  - f_equal. change (String c (n ++ r)) with (String c n ++ r)%string. apply take_name_app; [|exact S]. cbn. now rewrite A, (start_name c H).
  - apply skip_not. now apply start_no_space.
Qed.

(** *** Attributes *)
Lemma stops_attrs s l r : attrs_text s l -> stops r -> stops (s ++ r).
Proof.
  destruct 1 as [|b n b1 b2 q s w r0 l B NB]; [auto|]. intros _. destruct b as [|c b]; [congruence|]. cbn. unfold blanks in B. cbn in B.
  apply andb_true_iff in B as [B _]. now apply space_no_name.
Qed.
Lemma attr_none n l : ~ In n (map fst l) -> attr n l = None.
Proof.
  induction l as [|[k v] l IH]; cbn; [auto|]. intros H. destruct (String.eqb_spec n k) as [->|]; [exfalso; auto|]. apply IH. auto.
Qed.
Lemma parse_attr_app n b1 b2 q s w r : xml_name n -> blanks b1 -> blanks b2 -> q = dquote \/ q = quote -> spells q s w ->
  parse_attr (n ++ b1 ++ "=" ++ b2 ++ String q (s ++ String q r)) = Got (n, newlines w, r).
Proof.
  intros N B1 B2 Q SP. unfold parse_attr.
  destruct (name_app n (b1 ++ "=" ++ b2 ++ String q (s ++ String q r)) N) as [-> _]; [apply stops_blanks; [exact B1|reflexivity]|].
  rewrite (space_skip b1 _ B1). cbn [append]. rewrite skip_not by reflexivity. rewrite Ascii.eqb_refl.
  rewrite (space_skip b2 _ B2). rewrite skip_not by (destruct Q as [->| ->]; reflexivity).
  assert ((q =? dquote)%char || (q =? "'")%char = true)%bool as -> by (destruct Q as [->| ->]; reflexivity).
  rewrite until_char by (apply (spells_stop q s w); [tauto|exact SP]). now rewrite (value_spells q s w SP).
Qed.
Lemma parse_attrs_app s l : attrs_text s l -> forall f acc b e r, blanks b -> (forall n, In n (map fst acc) -> ~ In n (map fst l)) ->
  (length l < f)%nat -> parse_attrs f acc (s ++ b ++ (if e : bool then "/>" else ">") ++ r) = Got (acc ++ l, e, r).
Proof.
  induction 1 as [|b0 n b1 b2 q s w r0 l B0 NB N B1 B2 Q SP AT IH NI]; intros f acc b e r B D F; (destruct f as [|f]; [cbn in F; lia|]).
  - cbn [append]. cbn [parse_attrs]. rewrite (space_skip b _ B). destruct e; cbn; now rewrite app_nil_r.
  - cbn [parse_attrs]. rewrite !append_assoc, (space_skip b0 _ B0).
    set (R := (r0 ++ b ++ (if e then "/>" else ">") ++ r)%string).
    assert (EQ : (n ++ b1 ++ "=" ++ b2 ++ String q (s ++ String q r0) ++ b ++ (if e then "/>" else ">") ++ r)%string =
                 (n ++ b1 ++ "=" ++ b2 ++ String q (s ++ String q R))%string).
    { f_equal. f_equal. f_equal. f_equal. cbn [append]. f_equal. rewrite append_assoc. reflexivity. }
    rewrite EQ. clear EQ. pose proof (parse_attr_app n b1 b2 q s w R N B1 B2 Q SP) as PA.
    destruct (name_app n (b1 ++ "=" ++ b2 ++ String q (s ++ String q R)) N) as [_ ->]; [apply stops_blanks; [exact B1|reflexivity]|].
    destruct n as [|c n]; [destruct N|]. cbn [append] in *. destruct N as [N0 N]. rewrite N0, PA.
    rewrite attr_none. 2:{ intros I. apply (D _ I). now left. }
    unfold R. rewrite IH; [now rewrite <- app_assoc|exact B| |cbn in F; lia].
    intros m I. rewrite map_app, in_app_iff in I. destruct I as [I|[<-|[]]]; [|exact NI]. intros J. apply (D _ I). now right.
Qed.
Lemma attrs_length s l : attrs_text s l -> (length l <= String.length s)%nat.
Proof.
  induction 1 as [|b n b1 b2 q s w r l B NB N B1 B2 Q SP AT IH NI]; [cbn; lia|]. cbn [length]. rewrite !length_app. cbn [String.length]. rewrite length_app. cbn [String.length]. lia.
Qed.

(** *** Nodes *)
(** The result does not depend on the fuel beyond the length. *)
Definition goes (room : nat) (top : bool) (s : string) (res : got (list node * ending)) : Prop :=
  forall f decl, (String.length s < f)%nat -> parse_nodes f room top decl s = res.

Ltac plus_room := match goal with |- parse_nodes ?f _ _ _ _ = _ => destruct f as [|f]; [cbn in *; lia|] end.
(** The first thing that is not a blank is a tag, if there is any. *)
Definition tagged (s : string) : Prop := match skip_space s with String c _ => c = "<"%char | EmptyString => True end.
Lemma goes_blanks room top b s res : blanks b -> tagged s -> goes room top s res -> goes room top (b ++ s) res.
Proof.
  intros B NS G f decl F. assert (L : (String.length s < f)%nat) by (rewrite length_app in F; lia). specialize (G f decl L). rewrite <- G.
  destruct f as [|f]; [lia|]. cbn [parse_nodes]. rewrite (space_skip b s B). unfold tagged in NS. destruct (skip_space s) as [|c t]; [reflexivity|]. subst c.
  rewrite Ascii.eqb_refl. reflexivity.
Qed.
Lemma until_free p c s : not_char ">" p -> free_of (p ++ ">") c -> until (p ++ ">") (c ++ (p ++ ">") ++ s) = Some (c, s).
Proof. intros N [_ F]. now apply until_stop. Qed.
Lemma goes_comment room top c s res : free_of "-->" c -> goes room top s res -> goes room top ("<!--" ++ c ++ "-->" ++ s) res.
Proof.
  intros C G f decl F. destruct f as [|f]; [lia|]. cbn [parse_nodes append]. rewrite skip_not by reflexivity.
  assert (H : until "-->" (c ++ "-->" ++ s) = Some (c, s)) by (apply (until_free "--"); [reflexivity|exact C]). cbn [append] in H.
  assert (PN : forall x, prefix "" x = true) by (intros x; destruct x; reflexivity).
  cbn -[until]. rewrite ?PN. cbn -[until]. rewrite H. apply G. cbn [append String.length] in F. rewrite length_app in F. cbn in F. lia.
Qed.
Lemma prefix_nil x : prefix "" x = true.
Proof. destruct x; reflexivity. Qed.
Lemma prefix_other c d p r : c <> d -> prefix (String c p) (String d r) = false.
Proof. intros N. cbn. destruct (ascii_dec c d); congruence. Qed.
Lemma goes_cdata room top c s res : free_of "]]>" c -> goes room top s res -> goes room top ("<![CDATA[" ++ c ++ "]]>" ++ s) (cons_node (Text (newlines c)) res).
Proof.
  intros C G f decl F. destruct f as [|f]; [lia|]. cbn [parse_nodes append]. rewrite skip_not by reflexivity.
  assert (H : until "]]>" (c ++ "]]>" ++ s) = Some (c, s)) by (apply (until_free "]]"); [reflexivity|exact C]). cbn [append] in H.
  cbn -[until cons_node value_of]. rewrite ?prefix_nil. cbn -[until cons_node value_of]. rewrite H, value_raw. rewrite G; [reflexivity|].
  cbn [append String.length] in F. rewrite length_app in F. cbn in F. lia.
Qed.
Lemma free_char d c : (forall x y, c <> (x ++ String d y)%string) -> not_char d c.
Proof.
  unfold not_char. induction c as [|a c IH]; intros H; [reflexivity|]. cbn. apply andb_true_intro. split.
  - apply negb_true_iff, Ascii.eqb_neq. intros ->. exact (H "" c eq_refl).
  - apply IH. intros x y ->. exact (H (String a x) y eq_refl).
Qed.
Lemma not_char_app d a b : not_char d a -> not_char d b -> not_char d (a ++ b).
Proof. unfold not_char. intros A B. now rewrite all_app, A, B. Qed.
Lemma goes_type room c s res : free_of ">" c -> goes room true s res -> goes room true ("<!DOCTYPE" ++ c ++ ">" ++ s) res.
Proof.
  intros C G f decl F. destruct f as [|f]; [lia|]. cbn [parse_nodes append]. rewrite skip_not by reflexivity.
  assert (H : until ">" ("DOCTYPE" ++ c ++ ">" ++ s) = Some (("DOCTYPE" ++ c)%string, s)).
  { rewrite <- append_assoc. apply until_char, not_char_app; [reflexivity|]. apply free_char, C. } cbn [append] in H.
  cbn -[until]. rewrite ?prefix_nil. cbn -[until]. rewrite H. apply G. cbn [append String.length] in F. rewrite length_app in F. cbn in F. lia.
Qed.
Lemma goes_decl room c s res : free_of "?>" c -> (forall f, (String.length s < f)%nat -> parse_nodes f room true true s = res) ->
  forall f, (String.length ("<?" ++ c ++ "?>" ++ s) < f)%nat -> parse_nodes f room true true ("<?" ++ c ++ "?>" ++ s) = res.
Proof.
  intros C G f F. destruct f as [|f]; [lia|]. cbn [parse_nodes append]. rewrite skip_not by reflexivity.
  assert (H : until "?>" (c ++ "?>" ++ s) = Some (c, s)) by (apply (until_free "?"); [reflexivity|exact C]). cbn [append] in H.
  cbn -[until]. rewrite ?prefix_nil. cbn -[until]. rewrite H. apply G. cbn [append String.length] in F. rewrite length_app in F. cbn in F. lia.
Qed.

Lemma elem_starts d s x : elem_text d s x -> exists c r, s = String "<" (String c r) /\ name_start c = true.
Proof.
  destruct 1 as [d n s a b N|d n s a b t k b' N]; destruct n as [|c n]; try destruct N as []; eexists _, _; split; try reflexivity; assumption.
Qed.
Lemma body_starts d s l : body_text d false s l -> s = "" \/ exists r, s = String "<" r.
Proof.
  inversion 1; subst; auto; right.
  - destruct (elem_starts _ _ _ H0) as (c & r0 & -> & _). eexists. reflexivity.
  - eexists. reflexivity.
  - eexists. reflexivity.
Qed.
(** A start or end tag. *)
Lemma start_other c : name_start c = true -> ("?" =? c)%char = false /\ ("!" =? c)%char = false /\ ("/" =? c)%char = false.
Proof. destruct c as [[] [] [] [] [] [] [] []]; vm_compute; auto; intros H; discriminate H. Qed.
Lemma prefix_tag c d r p : ("?" =? c)%char = false -> ("!" =? c)%char = false -> d = "?"%char \/ d = "!"%char -> prefix (String "<" (String d p)) (String "<" (String c r)) = false.
Proof.
  intros A B D. cbn [prefix]. destruct (ascii_dec "<" "<"); [|reflexivity]. apply Ascii.eqb_neq in A, B. destruct (ascii_dec d c) as [->|]; [|reflexivity]. destruct D; congruence.
Qed.
Lemma tag_step f room top decl c r : ("?" =? c)%char = false -> ("!" =? c)%char = false -> is_space c = false ->
  parse_nodes (S f) room top decl (String "<" (String c r)) =
    let closing := ("/" =? c)%char in
    match parse_name (if closing then r else String c r) with
    | None => Err
    | Some (n, u) =>
        let! (a, sealed, u) := parse_attrs (S (String.length u)) [] u in
        if sealed : bool then cons_node (Elem n a []) (parse_nodes f room top false u)
        else if closing then Got ([], Close n u)
        else match room with
             | O | S O => Err
             | S room' =>
                 let! (k, e) := parse_nodes f room' false false u in
                 match e with
                 | Close m u => if String.eqb n m then cons_node (Elem n a k) (parse_nodes f room top false u) else Err
                 | AtEnd => Err
                 end
             end
    end.
Proof.
  intros Q X SP. cbn [parse_nodes]. rewrite (skip_not "<" _) by reflexivity.
  rewrite !prefix_tag by (auto; fail). rewrite Ascii.eqb_refl, (skip_not c r SP). cbn [starts drop]. reflexivity.
Qed.
Lemma name_split n r : xml_name n -> exists c m, (n ++ r)%string = String c m /\ name_start c = true.
Proof. destruct n as [|c n]; [intros []|]. intros [H _]. exists c, (n ++ r)%string. auto. Qed.

Lemma reads :
  (forall d s x, elem_text d s x -> forall room top R res, (d < room)%nat -> goes room top R res -> goes room top (s ++ R) (cons_node x res)) /\
  (forall d b s l, body_text d b s l -> forall room n b' R, (d < room)%nat -> xml_name n -> blanks b' ->
     goes room false (s ++ "</" ++ n ++ b' ++ ">" ++ R) (Got (l, Close n R))).
Proof.
  apply text_min.
  - intros d n s a b N AT B room top R res RM G f decl F. destruct f as [|f]; [lia|].
    rewrite !append_assoc in F |- *. change ("<" ++ n ++ s ++ b ++ "/>" ++ R)%string with (String "<" (n ++ s ++ b ++ "/>" ++ R)) in F |- *.
    assert (ST : stops (s ++ b ++ "/>" ++ R)) by (apply (stops_attrs s a _ AT), stops_blanks; [exact B|reflexivity]).
    destruct (name_split n (s ++ b ++ "/>" ++ R) N) as (c & m & E & NS). destruct (name_app n (s ++ b ++ "/>" ++ R) N ST) as [PN _].
    pose proof (start_other c NS) as (O1 & O2 & O3). rewrite E in PN, F |- *. rewrite tag_step; auto using start_no_space. cbv zeta. rewrite O3, PN.
    rewrite (parse_attrs_app s a AT _ [] b true R B); [|intros x []|rewrite length_app; pose proof (attrs_length s a AT); lia].
    rewrite G; [reflexivity|]. rewrite <- E in F. cbn [String.length] in F. rewrite !length_app in F. cbn [String.length append] in F. lia.
  - intros d n s a b t k b' N AT B BT IH B' room top R res RM G f decl F. destruct f as [|f]; [lia|].
    rewrite !append_assoc in F |- *. set (T := (t ++ "</" ++ n ++ b' ++ ">" ++ R)%string) in F |- *. change ("<" ++ n ++ s ++ b ++ ">" ++ T)%string with (String "<" (n ++ s ++ b ++ ">" ++ T)) in F |- *.
    assert (ST : stops (s ++ b ++ ">" ++ T)) by (apply (stops_attrs s a _ AT), stops_blanks; [exact B|reflexivity]).
    destruct (name_split n (s ++ b ++ ">" ++ T) N) as (c & m & E & NS). destruct (name_app n (s ++ b ++ ">" ++ T) N ST) as [PN _].
    pose proof (start_other c NS) as (O1 & O2 & O3). rewrite E in PN, F |- *. rewrite tag_step; auto using start_no_space. cbv zeta. rewrite O3, PN.
    rewrite (parse_attrs_app s a AT _ [] b false T B); [|intros x []|rewrite length_app; pose proof (attrs_length s a AT); lia].
    rewrite <- E in F. cbn [String.length] in F. rewrite !length_app in F. cbn [String.length append] in F.
    destruct room as [|[|room]]; [lia|lia|]. rewrite (IH (S room) n b' R ltac:(lia) N B'); [|unfold T in F; lia].
    rewrite String.eqb_refl. rewrite G; [reflexivity|]. unfold T in F. rewrite !length_app in F. cbn [String.length] in F. lia.
  - intros d room n b' R RM N B' f decl F. destruct f as [|f]; [cbn in F; lia|]. change ("" ++ "</" ++ n ++ b' ++ ">" ++ R)%string with (String "<" (String "/" (n ++ b' ++ ">" ++ R))).
    rewrite tag_step by reflexivity. cbv zeta. rewrite Ascii.eqb_refl.
    assert (ST : stops (b' ++ ">" ++ R)) by (apply stops_blanks; [exact B'|reflexivity]). destruct (name_app n _ N ST) as [-> _].
    pose proof (parse_attrs_app "" [] at_end (S (String.length (b' ++ ">" ++ R))) [] b' false R B') as PA. cbn [append] in PA. cbn [append]. rewrite PA; [reflexivity|intros x []|cbn; lia].
  - intros d b s l B BT IH room n b' R RM N B'. rewrite append_assoc. apply goes_blanks; [exact B| |now apply IH].
    destruct (body_starts d s l BT) as [->|[r ->]]; reflexivity.
  - intros d s w r l SP NB BT IH room n b' R RM N B' f decl F. rewrite append_assoc. destruct f as [|f]; [lia|].
    set (T := (r ++ "</" ++ n ++ b' ++ ">" ++ R)%string).
    assert (TS : exists u, T = String "<" u /\ u <> "").
    { unfold T. destruct (body_starts d r l BT) as [->|[u ->]]; [eexists; split; [reflexivity|discriminate]|]. cbn [append]. eexists. split; [reflexivity|]. destruct u; discriminate. }
    destruct TS as (u & TE & U0). pose proof (spells_stop "<" s w ltac:(auto) SP) as NC.
    assert (SK : exists c v, skip_space (s ++ T) = String c v /\ c <> "<"%char).
    { unfold blank in NB. unfold not_char in NC. clear F SP. induction s as [|c s IHs]; [discriminate|]. cbn in NB, NC |- *. apply andb_true_iff in NC as [NC1 NC].
      destruct (is_space c) eqn:SPC; [auto|]. eexists _, _. split; [reflexivity|]. apply negb_true_iff in NC1. now apply Ascii.eqb_neq in NC1. }
    destruct SK as (c & v & SK & CN). cbn [parse_nodes]. rewrite SK. rewrite !prefix_other by congruence.
    apply Ascii.eqb_neq in CN. rewrite CN, TE, until_char by exact NC.
    destruct (String.eqb_spec u "") as [|_]; [contradiction|]. rewrite (value_spells "<" s w SP).
    rewrite <- TE. unfold T. rewrite IH; auto. rewrite append_assoc, length_app in F. fold T in F. fold T.
    destruct s; [discriminate NB|]. cbn [String.length] in F. lia.
  - intros d s x r l ET IH1 BT IH2 room n b' R RM N B'. rewrite append_assoc. apply (IH1 room false _ (Got (l, Close n R)) RM). now apply IH2.
  - intros d c r l C BT IH room n b' R RM N B'. rewrite !append_assoc. apply goes_comment; auto.
  - intros d c r l C BT IH room n b' R RM N B'. rewrite !append_assoc. apply (goes_cdata room false c _ (Got (l, Close n R))); auto.
Qed.

(** *** Documents *)
Lemma misc_tagged m s : misc_text m -> tagged s -> tagged (m ++ s).
Proof.
  intros M T. induction M as [|b m B M IH|c m C M IH|c m C M IH]; [exact T| |reflexivity|reflexivity].
  rewrite append_assoc. unfold tagged. rewrite (space_skip b _ B). exact IH.
Qed.
Lemma decl_tagged m s : decl_text m -> tagged s -> tagged (m ++ s).
Proof.
  intros M T. induction M as [|b m B M IH|c m C M IH]; [exact T| |reflexivity].
  rewrite append_assoc. unfold tagged. rewrite (space_skip b _ B). exact IH.
Qed.
Lemma goes_misc room m s res : misc_text m -> tagged s -> goes room true s res -> goes room true (m ++ s) res.
Proof.
  intros M T G. induction M as [|b m B M IH|c m C M IH|c m C M IH]; [exact G| | |]; rewrite !append_assoc.
  - apply goes_blanks; auto using misc_tagged.
  - now apply goes_comment.
  - now apply goes_type.
Qed.
Lemma goes_decls room m s res : decl_text m -> tagged s -> goes room true s res ->
  forall f, (String.length (m ++ s) < f)%nat -> parse_nodes f room true true (m ++ s) = res.
Proof.
  intros M T G. induction M as [|b m B M IH|c m C M IH]; intros f F.
  - now apply G.
  - rewrite append_assoc in F |- *. assert (TT : tagged (m ++ s)) by now apply decl_tagged. assert (L : (String.length (m ++ s) < f)%nat) by (rewrite (length_app b) in F; lia).
    rewrite <- (IH f L). destruct f as [|f]; [lia|]. cbn [parse_nodes]. rewrite (space_skip b _ B). unfold tagged in TT. destruct (skip_space (m ++ s)) as [|c t]; [reflexivity|]. subst c.
    rewrite Ascii.eqb_refl. reflexivity.
  - rewrite !append_assoc in F |- *. now apply goes_decl.
Qed.
Lemma no_nul_app a b : no_nul (a ++ b) = (no_nul a && no_nul b)%bool.
Proof. apply all_app. Qed.
Lemma class_no_nul f s : f nul = false -> all_chars f s = true -> no_nul s = true.
Proof.
  unfold no_nul. intros N. induction s as [|c s IH]; [reflexivity|]. cbn. rewrite !andb_true_iff. intros [A B]. split; [|auto].
  apply negb_true_iff, Ascii.eqb_neq. intros ->. change (f nul = true) in A. congruence.
Qed.
Lemma blanks_no_nul b : blanks b -> no_nul b = true.
Proof. now apply class_no_nul. Qed.
Lemma name_no_nul n : xml_name n -> no_nul n = true.
Proof.
  destruct n as [|c n]; [intros []|]. intros [A B]. apply (class_no_nul name_char); [reflexivity|]. cbn. now rewrite (start_name c A), B.
Qed.
Ltac no_nuls := repeat first [rewrite no_nul_app | progress cbn [append] | match goal with |- context [no_nul (String ?c ?s)] => change (no_nul (String c s)) with (negb (c =? nul)%char && no_nul s)%bool end].
Lemma attrs_no_nul s l : attrs_text s l -> no_nul s = true.
Proof.
  induction 1 as [|b n b1 b2 q s w r l B NB N B1 B2 Q SP AT IH NI]; [reflexivity|].
  rewrite !no_nul_app, (blanks_no_nul b), (name_no_nul n), (blanks_no_nul b1), (blanks_no_nul b2) by assumption.
  change (no_nul (String q (s ++ String q r))) with (negb (q =? nul)%char && no_nul (s ++ String q r))%bool. rewrite no_nul_app, (spells_no_nul q s w SP).
  change (no_nul (String q r)) with (negb (q =? nul)%char && no_nul r)%bool. rewrite IH. destruct Q as [->| ->]; reflexivity.
Qed.
Lemma text_no_nul : (forall d s x, elem_text d s x -> no_nul s = true) /\ (forall d b s l, body_text d b s l -> no_nul s = true).
Proof.
  apply text_min; intros; rewrite ?no_nul_app; repeat match goal with
    | H : xml_name _ |- _ => apply name_no_nul in H; rewrite H
    | H : attrs_text _ _ |- _ => apply attrs_no_nul in H; rewrite H
    | H : blanks _ |- _ => apply blanks_no_nul in H; rewrite H
    | H : spells _ _ _ |- _ => apply spells_no_nul in H; rewrite H
    | H : free_of _ _ |- _ => destruct H as [H _]; rewrite H
    | H : no_nul _ = true |- _ => rewrite H; clear H end; reflexivity.
Qed.
Lemma misc_no_nul m : misc_text m -> no_nul m = true.
Proof.
  induction 1 as [|b m B M IH|c m [C _] M IH|c m [C _] M IH]; rewrite ?no_nul_app; [reflexivity| | |]; rewrite IH, ?C; [now rewrite (blanks_no_nul b B)|reflexivity|reflexivity].
Qed.
Lemma decl_no_nul m : decl_text m -> no_nul m = true.
Proof.
  induction 1 as [|b m B M IH|c m [C _] M IH]; rewrite ?no_nul_app; [reflexivity| |]; rewrite IH, ?C; [now rewrite (blanks_no_nul b B)|reflexivity].
Qed.

Lemma goes_end room : goes room true "" (Got ([], AtEnd)).
Proof. intros f decl F. destruct f as [|f]; [cbn in F; lia|]. reflexivity. Qed.
Lemma elem_tagged d s x r : elem_text d s x -> tagged (s ++ r).
Proof. intros H. destruct (elem_starts d s x H) as (c & t & -> & _). reflexivity. Qed.
Lemma prefix_bom_tagged t : tagged t -> prefix bom t = false.
Proof.
  unfold tagged, bom. destruct t as [|c t]; [reflexivity|]. cbn [prefix]. destruct (ascii_dec (ascii_of_nat 239) c) as [<-|]; [|reflexivity]. discriminate.
Qed.
Lemma decl_skip c r : decl_text c -> exists c', decl_text c' /\ (skip_space (c ++ r) = (c' ++ r)%string \/ c' = "" /\ skip_space (c ++ r) = skip_space r).
Proof.
  induction 1 as [|b m B M (c' & D & H)|c m C M IH].
  - exists "". split; [constructor|]. right. auto.
  - exists c'. rewrite append_assoc, (space_skip b _ B). auto.
  - exists ("<?" ++ c ++ "?>" ++ m)%string. split; [now constructor|]. left. reflexivity.
Qed.
Lemma misc_skip c r : misc_text c -> exists c', misc_text c' /\ (skip_space (c ++ r) = (c' ++ r)%string \/ c' = "" /\ skip_space (c ++ r) = skip_space r).
Proof.
  induction 1 as [|b m B M (c' & D & H)|c m C M IH|c m C M IH].
  - exists "". split; [constructor|]. right. auto.
  - exists c'. rewrite append_assoc, (space_skip b _ B). auto.
  - exists ("<!--" ++ c ++ "-->" ++ m)%string. split; [now constructor|]. left. reflexivity.
  - exists ("<!DOCTYPE" ++ c ++ ">" ++ m)%string. split; [now constructor|]. left. reflexivity.
Qed.
Theorem text_read limit d s x : doc_text d s x -> (S d < limit)%nat -> parse_text limit s = Got [x].
Proof.
  destruct 1 as [b m c m1 s x m2 B M C M1 ET M2]. intros LM. unfold parse_text.
  assert (EL : forall r, skip_space (s ++ r) = (s ++ r)%string) by (intros r; destruct (elem_starts d s x ET) as (e & t & -> & _); reflexivity).
  assert (EN : forall a b r, (a ++ b ++ s ++ r)%string <> "") by (intros a b0 r; destruct (elem_starts d s x ET) as (e & t & -> & _); destruct a, b0; discriminate).
  assert (TG : forall c m1, decl_text c -> misc_text m1 -> tagged (c ++ m1 ++ s ++ m2)).
  { intros c' m1' C' M1'. apply decl_tagged; [exact C'|]. apply misc_tagged; [exact M1'|]. now apply (elem_tagged d s x). }
  assert (G : forall c m1, decl_text c -> misc_text m1 -> forall f room, (d < room)%nat -> (String.length (c ++ m1 ++ s ++ m2) < f)%nat -> parse_nodes f room true true (c ++ m1 ++ s ++ m2) = Got ([x], AtEnd)).
  { intros c' m1' C' M1' f room RM F. apply goes_decls; [exact C'| | |exact F].
    - apply misc_tagged; [exact M1'|]. now apply (elem_tagged d s x).
    - apply goes_misc; [exact M1'|now apply (elem_tagged d s x)|]. apply (proj1 reads d s x ET room true m2 (Got ([], AtEnd)) RM).
      assert (EE : m2 = (m2 ++ "")%string) by now rewrite append_nil_r. rewrite EE. apply goes_misc; [exact M2|reflexivity|apply goes_end]. }
  assert (NN : no_nul (b ++ m ++ c ++ m1 ++ s ++ m2) = true).
  { rewrite !no_nul_app, (blanks_no_nul b B), (decl_no_nul c C), (misc_no_nul m1 M1), (misc_no_nul m2 M2), (proj1 text_no_nul d s x ET).
    destruct M as [->| ->]; reflexivity. }
  rewrite (cut_id _ NN), (space_skip b _ B).
  destruct limit as [|[|room]]; [lia|lia|].
  assert (K : forall t, t <> "" -> (forall f, (String.length t < f)%nat -> parse_nodes f (S room) true true t = Got ([x], AtEnd)) ->
    match t with
    | EmptyString => Err
    | _ => let! (l, _) := parse_nodes (S (String.length t)) (S room) true true t in Got l
    end = Got [x]).
  { intros t N H. destruct t as [|e t]; [congruence|]. now rewrite H by lia. }
  destruct M as [->| ->].
  - change ("" ++ c ++ m1 ++ s ++ m2)%string with (c ++ m1 ++ s ++ m2)%string.
    assert (exists c' m1', decl_text c' /\ misc_text m1' /\ skip_space (c ++ m1 ++ s ++ m2) = (c' ++ m1' ++ s ++ m2)%string) as (c' & m1' & C' & M1' & ->).
    { destruct (decl_skip c (m1 ++ s ++ m2) C) as (c' & C' & [E|[-> E]]); [now exists c', m1|]. exists "".
      destruct (misc_skip m1 (s ++ m2) M1) as (m1' & M1' & [E'|[H0 E']]); exists m1'; (split; [exact C'|split; [exact M1'|]]); rewrite E, E'; [reflexivity|rewrite H0; apply EL]. }
    rewrite prefix_bom_tagged by auto. apply K; [apply EN|]. intros f F. apply G; auto; lia.
  - replace (skip_space (bom ++ c ++ m1 ++ s ++ m2)) with (bom ++ c ++ m1 ++ s ++ m2)%string by reflexivity. rewrite prefix_app. change 3%nat with (String.length bom). rewrite drop_app.
    apply K; [apply EN|]. intros f F. apply G; auto; lia.
Qed.

(** *** A file without root *)
Theorem prolog_read limit c m : decl_text c -> misc_text m -> blank (c ++ m) = false -> (1 < limit)%nat -> parse_text limit (c ++ m) = Got [].
Proof.
  intros C M NB LI. unfold parse_text.
  assert (NN : no_nul (c ++ m) = true) by now rewrite no_nul_app, (decl_no_nul c C), (misc_no_nul m M).
  rewrite (cut_id _ NN).
  assert (exists c' m', decl_text c' /\ misc_text m' /\ skip_space (c ++ m) = (c' ++ m')%string) as (c' & m' & C' & M' & E).
  { destruct (decl_skip c m C) as (c' & C' & [E|[-> E]]); [now exists c', m|]. exists "".
    destruct (misc_skip m "" M) as (m' & M' & [E'|[H0 E']]); rewrite append_nil_r in E'; exists m'; (split; [exact C'|split; [exact M'|]]); rewrite E, E'; [now rewrite append_nil_r|now rewrite H0]. }
  assert (NE : skip_space (c ++ m) <> "").
  { intros Z. rewrite <- not_true_iff_false in NB. apply NB. unfold blank. revert Z. clear. generalize (c ++ m)%string. intros s. induction s as [|a s IH]; [auto|]. cbn. destruct (is_space a); [auto|discriminate]. }
  rewrite E in *. assert (TM : tagged m').
  { assert (T0 : tagged "") by exact I. pose proof (misc_tagged m' "" M' T0) as T. now rewrite append_nil_r in T. }
  rewrite prefix_bom_tagged by now apply decl_tagged.
  destruct (c' ++ m')%string as [|a t] eqn:EQ; [congruence|]. rewrite <- EQ. destruct limit as [|[|room]]; [lia|lia|].
  rewrite (goes_decls (S room) c' m' (Got ([], AtEnd)) C' TM); [reflexivity| |lia].
  assert (EE : m' = (m' ++ "")%string) by now rewrite append_nil_r. rewrite EE. apply goes_misc; [exact M'|exact I|apply goes_end].
Qed.
