(** Texts that are cut off: what the parser makes of the beginning of a text. *)
From Coq Require Import String Ascii ZArith NArith Arith List Bool Lia.
From Verif Require Import Base Fmt Decimal Cpp Xml Val CppSem SymLex DecText MainProps XmlText XmlTextSpec XmlTextRead XmlPrint.
Import ListNotations.
Local Open Scope string_scope.
Local Open Scope list_scope.

(** *** More text behind does not change what was read *)
Lemma skip_ext s q c r : skip_space s = String c r -> skip_space (s ++ q) = String c (r ++ q).
Proof. induction s as [|d s IH]; cbn; [discriminate|]. destruct (is_space d); [exact IH|]. intros [= <- <-]. reflexivity. Qed.
Lemma skip_length s : (String.length (skip_space s) <= String.length s)%nat.
Proof. induction s as [|d s IH]; cbn; [lia|]. destruct (is_space d); cbn; lia. Qed.
Lemma prefix_ext a : forall s q, (String.length a <= String.length s)%nat -> prefix a (s ++ q) = prefix a s.
Proof.
  induction a as [|c a IH]; intros s q L; [now rewrite !prefix_nil|]. destruct s as [|d s]; cbn in L; [lia|]. cbn [append prefix].
  destruct (ascii_dec c d); [|reflexivity]. apply IH. lia.
Qed.
Lemma prefix_length a s : prefix a s = true -> (String.length a <= String.length s)%nat.
Proof. intros H. apply prefix_inv in H as [r ->]. rewrite length_app. lia. Qed.
Lemma drop_ext n : forall s q, (n <= String.length s)%nat -> drop n (s ++ q) = (drop n s ++ q)%string.
Proof. induction n as [|n IH]; intros s q L; [reflexivity|]. destruct s as [|c s]; cbn in *; [lia|]. apply IH. lia. Qed.
Lemma drop_length n : forall s, (n <= String.length s)%nat -> String.length (drop n s) = (String.length s - n)%nat.
Proof. induction n as [|n IH]; intros s L; [cbn; lia|]. destruct s as [|c s]; cbn in *; [lia|]. apply IH. lia. Qed.
Lemma until_ext stop q : forall s a b, until stop s = Some (a, b) -> until stop (s ++ q) = Some (a, (b ++ q)%string) /\ (String.length b + String.length stop <= String.length s)%nat.
Proof.
  induction s as [|c s IH]; intros a b; cbn [until].
  - destruct (prefix stop "") eqn:P; [|discriminate]. apply prefix_inv in P as [r P]. symmetry in P. destruct stop; [|discriminate P]. intros [= <- <-]. split; [|cbn; lia].
    cbn [append drop String.length]. destruct q; reflexivity.
  - destruct (prefix stop (String c s)) eqn:P.
    + intros [= <- <-]. pose proof (prefix_length _ _ P) as L. cbn [append]. change (String c (s ++ q)) with (String c s ++ q)%string.
      cbn [until append]. change (String c (s ++ q)) with (String c s ++ q)%string. rewrite prefix_ext, P by exact L. rewrite drop_ext by exact L. split; [reflexivity|]. rewrite drop_length by exact L. lia.
    + destruct (until stop s) as [[a' b']|]; [|discriminate]. intros [= <- <-]. destruct (IH a' b' eq_refl) as [E L]. cbn [append until].
      change (String c (s ++ q)) with (String c s ++ q)%string. rewrite prefix_ext, P by (cbn; lia). rewrite E. split; [reflexivity|cbn; lia].
Qed.
Lemma until_split stop : forall s a b, until stop s = Some (a, b) -> s = (a ++ stop ++ b)%string.
Proof.
  induction s as [|c s IH]; intros a b; cbn [until].
  - destruct (prefix stop "") eqn:P; [|discriminate]. intros [= <- <-]. apply prefix_inv in P as [r P]. symmetry in P. destruct stop; [|discriminate P]. reflexivity.
  - destruct (prefix stop (String c s)) eqn:P.
    + intros [= <- <-]. apply prefix_inv in P as [r P]. rewrite P. now rewrite drop_app.
    + destruct (until stop s) as [[a' b']|]; [|discriminate]. intros [= <- <-]. cbn. now rewrite (IH a' b' eq_refl).
Qed.
Lemma take_ext q : forall s n u, take_name s = (n, u) -> u <> "" -> take_name (s ++ q) = (n, (u ++ q)%string).
Proof.
  induction s as [|c s IH]; intros n u; cbn; [intros [= <- <-]; congruence|]. destruct (name_char c); [|now intros [= <- <-]].
  destruct (take_name s) as [a b]. intros [= <- <-] N. now rewrite (IH a b eq_refl N).
Qed.
Lemma take_length : forall s n u, take_name s = (n, u) -> (String.length u <= String.length s)%nat.
Proof.
  induction s as [|c s IH]; intros n u; cbn; [intros [= <- <-]; cbn; lia|]. destruct (name_char c); [|intros [= <- <-]; cbn; lia].
  destruct (take_name s) as [a b]. intros [= <- <-]. specialize (IH a b eq_refl). lia.
Qed.
Lemma name_ext q s n u : parse_name s = Some (n, u) -> u <> "" -> parse_name (s ++ q) = Some (n, (u ++ q)%string).
Proof.
  destruct s as [|c s]; [discriminate|]. cbn [parse_name append]. destruct (name_start c); [|discriminate]. intros [= E] N. f_equal.
  exact (take_ext q (String c s) n u E N).
Qed.
Lemma name_length s n u : parse_name s = Some (n, u) -> (String.length u <= String.length s)%nat.
Proof.
  destruct s as [|c s]; [discriminate|]. cbn [parse_name]. destruct (name_start c); [|discriminate]. intros [= E]. exact (take_length (String c s) n u E).
Qed.
Lemma attr_ext q s : match parse_attr s with
  | Got (n, v, u) => parse_attr (s ++ q) = Got (n, v, (u ++ q)%string) /\ (String.length u < String.length s)%nat
  | Other => parse_attr (s ++ q) = Other
  | Err => True
  end.
Proof.
  unfold parse_attr. destruct (parse_name s) as [[n u]|] eqn:PN; [|exact I]. destruct (skip_space u) as [|e u1] eqn:S1; [exact I|].
  assert (U0 : u <> "") by (intros ->; discriminate). rewrite (name_ext q s n u PN U0), (skip_ext u q e u1 S1). pose proof (name_length s n u PN). pose proof (skip_length u) as L1. rewrite S1 in L1. cbn in L1.
  destruct (e =? "=")%char; [|exact I]. destruct (skip_space u1) as [|c u2] eqn:S2; [exact I|]. rewrite (skip_ext u1 q c u2 S2). pose proof (skip_length u1) as L2. rewrite S2 in L2. cbn in L2.
  destruct ((c =? dquote) || (c =? "'"))%char%bool; [|exact I]. destruct (until (String c "") u2) as [[t u3]|] eqn:UN; [|exact I].
  destruct (until_ext (String c "") q u2 t u3 UN) as [-> L3]. cbn in L3. destruct (value_of true t); [|exact I|reflexivity]. split; [reflexivity|lia].
Qed.
Lemma attrs_ext q : forall f l s f', (String.length s < f)%nat -> (f <= f')%nat -> match parse_attrs f l s with
  | Got (a, e, u) => parse_attrs f' l (s ++ q) = Got (a, e, (u ++ q)%string) /\ (String.length u < String.length s)%nat
  | Other => parse_attrs f' l (s ++ q) = Other
  | Err => True
  end.
Proof.
  induction f as [|f IH]; intros l s f' L F; [lia|]. destruct f' as [|f']; [lia|]. cbn [parse_attrs]. destruct (skip_space s) as [|c r] eqn:S1; [exact I|].
  rewrite (skip_ext s q c r S1). pose proof (skip_length s) as L1. rewrite S1 in L1. cbn in L1. destruct (name_start c).
  - pose proof (attr_ext q (String c r)) as A. change (String c (r ++ q)) with (String c r ++ q)%string. destruct (parse_attr (String c r)) as [[[n v] u]| |]; [|exact I|now rewrite A].
    destruct A as [-> L2]. cbn in L2. destruct (attr n l); [exact I|]. specialize (IH (l ++ [(n, v)]) u f' ltac:(lia) ltac:(lia)).
    destruct (parse_attrs f (l ++ [(n, v)]) u) as [[[a e] u']| |]; [|exact I|exact IH]. destruct IH as [-> L3]. split; [reflexivity|lia].
  - destruct (c =? ">")%char; [split; [reflexivity|lia]|]. destruct (c =? "/")%char; [|exact I]. destruct r as [|d r]; [exact I|]. cbn [starts append andb].
    destruct (">" =? d)%char; [|exact I]. cbn [drop]. split; [reflexivity|]. cbn in L1. lia.
Qed.

(** The nodes of an element: as soon as the end tag was read, or something that is not
    modelled, more text does not matter. *)
Lemma bang_ext a t q : (2 <= String.length t)%nat -> prefix "<!" t = false -> prefix (String "<" (String "!" a)) (t ++ q) = false.
Proof.
  intros L P. destruct t as [|c [|d t]]; cbn in L; [lia|lia|]. cbn [append prefix] in P |- *. destruct (ascii_dec "<" c); [|reflexivity]. destruct (ascii_dec "!" d); [|reflexivity].
  rewrite prefix_nil in P. discriminate P.
Qed.
Lemma prefix_part a : forall t q, prefix a (t ++ q) = true -> prefix a t = false -> exists w, a = (t ++ w)%string.
Proof.
  induction a as [|c a IH]; intros t q; [rewrite !prefix_nil; discriminate|]. destruct t as [|d t]; [intros _ _; eexists; reflexivity|]. cbn [append prefix].
  destruct (ascii_dec c d) as [->|]; [|discriminate]. intros A B. destruct (IH t q A B) as [w ->]. now exists w.
Qed.
Lemma bang_until a t q v u : (2 <= String.length t)%nat -> until ">" (drop 2 t) = Some (v, u) -> until ">" (drop 2 a) = None -> prefix a t = false -> prefix a (t ++ q) = false.
Proof.
  intros L U N P. destruct (prefix a (t ++ q)) eqn:E; [|reflexivity]. destruct (prefix_part a t q E P) as [w ->]. rewrite drop_ext in N by exact L.
  destruct (until_ext ">" w _ _ _ U) as [X _]. congruence.
Qed.
Lemma nodes_ext q : forall f room decl decl' s f', (String.length s < f)%nat -> (f <= f')%nat -> match parse_nodes f room false decl s with
  | Got (l, Close n u) => parse_nodes f' room false decl' (s ++ q) = Got (l, Close n (u ++ q)) /\ (String.length u < String.length s)%nat
  | Other => parse_nodes f' room false decl' (s ++ q) = Other
  | _ => True
  end.
Proof.
  assert (CN : forall x X Y (s u : string), (String.length u < String.length s)%nat ->
    match X with Got (l, Close n v) => Y = Got (l, Close n (v ++ q)%string) /\ (String.length v < String.length u)%nat | Other => Y = Other | _ => True end ->
    match cons_node x X with Got (l, Close n v) => cons_node x Y = Got (l, Close n (v ++ q)%string) /\ (String.length v < String.length s)%nat | Other => cons_node x Y = Other | _ => True end).
  { intros x X Y s u L. unfold cons_node. destruct X as [[l [|n v]]| |]; try (intros; exact I); [|now intros ->]. intros [-> H]. split; [reflexivity|lia]. }
  induction f as [|f IH]; intros room decl decl' s f' L F; [lia|]. destruct f' as [|f']; [lia|]. cbn [parse_nodes]. destruct (skip_space s) as [|c r] eqn:S1; [exact I|].
  rewrite (skip_ext s q c r S1). pose proof (skip_length s) as L1. rewrite S1 in L1. change (String c (r ++ q)) with (String c r ++ q)%string. assert (exists t, t = String c r) as (t & Et) by eauto. rewrite <- Et in *.
  destruct (prefix "<?" t) eqn:P1. { destruct (until "?>" (drop 2 t)) as [[? ?]|]; exact I. }
  destruct (prefix "<!--" t) eqn:P2.
  { pose proof (prefix_length _ _ P2) as LP. cbn [String.length] in LP. rewrite (prefix_ext "<?"), P1, (prefix_ext "<!--"), P2 by (cbn [String.length]; lia).
    rewrite drop_ext by lia. destruct (until "-->" (drop 4 t)) as [[v u]|] eqn:UN; [|exact I]. destruct (until_ext _ q _ _ _ UN) as [-> L2]. rewrite drop_length in L2 by lia.
    specialize (IH room false false u f' ltac:(cbn in L2; lia) ltac:(lia)). destruct (parse_nodes f room false false u) as [[l [|n u']]| |]; try exact IH; try exact I. destruct IH as [-> L3]. split; [reflexivity|cbn in L2; lia]. }
  destruct (prefix "<![CDATA[" t) eqn:P3.
  { pose proof (prefix_length _ _ P3) as LP. cbn [String.length] in LP. rewrite (prefix_ext "<?"), P1, (prefix_ext "<!--"), P2, (prefix_ext "<![CDATA["), P3 by (cbn [String.length]; lia).
    rewrite drop_ext by lia. destruct (until "]]>" (drop 9 t)) as [[v u]|] eqn:UN; [|exact I]. destruct (until_ext _ q _ _ _ UN) as [-> L2]. rewrite drop_length in L2 by lia.
    destruct (value_of false v) as [v'| |]; [|exact I|reflexivity]. apply (CN (Text v') _ _ s u); [cbn in L2; lia|]. apply IH; [cbn in L2; lia|lia]. }
  destruct (prefix "<!" t) eqn:P4.
  { destruct (until ">" (drop 2 t)) as [[v u]|] eqn:UN; [|exact I]. pose proof (prefix_length _ _ P4) as LP. cbn [String.length] in LP. destruct (until_ext _ q _ _ _ UN) as [UE L2].
    rewrite (prefix_ext "<?"), P1 by exact LP. rewrite (bang_until "<!--" t q v u LP UN eq_refl P2), (bang_until "<![CDATA[" t q v u LP UN eq_refl P3).
    rewrite (prefix_ext "<!"), P4, drop_ext, UE by exact LP. reflexivity. }
  destruct (c =? "<")%char eqn:CL.
  - apply Ascii.eqb_eq in CL. subst c. destruct r as [|d r]; [exact I|].
    assert (LP : (2 <= String.length t)%nat) by (rewrite Et; cbn; lia).
    rewrite (prefix_ext "<?"), P1 by exact LP. rewrite (bang_ext "--" t q LP P4), (bang_ext "[CDATA[" t q LP P4), (bang_ext "" t q LP P4).
    destruct (skip_space (String d r)) as [|e r1] eqn:S2; [exact I|]. pose proof (skip_length (String d r)) as L2. rewrite S2 in L2. cbn [String.length] in L2.
    rewrite (skip_ext _ q _ _ S2). cbn [starts]. set (closing := ("/" =? e)%char).
    assert (NE : (if closing then drop 1 (String e (r1 ++ q)) else String e (r1 ++ q)) = ((if closing then drop 1 (String e r1) else String e r1) ++ q)%string) by (destruct closing; reflexivity).
    rewrite NE. clear NE. set (w := if closing then drop 1 (String e r1) else String e r1). assert (LW : (String.length w < String.length t)%nat) by (rewrite Et; unfold w; destruct closing; cbn in *; lia).
    destruct (parse_name w) as [[n u]|] eqn:PN; [|exact I]. pose proof (name_length _ _ _ PN) as L3.
    pose proof (attrs_ext q (S (String.length u)) [] u (S (String.length (u ++ q))) ltac:(lia) ltac:(rewrite length_app; lia)) as AE.
    assert (U0 : match parse_attrs (S (String.length u)) [] u with Err => True | _ => u <> "" end) by (destruct u; [exact I|destruct (parse_attrs _ _ _); auto; discriminate]).
    destruct (parse_attrs (S (String.length u)) [] u) as [[[a sealed] u1]| |]; [|exact I|rewrite (name_ext q _ _ _ PN U0), AE; reflexivity].
    rewrite (name_ext q _ _ _ PN U0). destruct AE as [-> L4]. destruct sealed.
    + apply (CN (Elem n a []) _ _ s u1); [lia|]. apply IH; lia.
    + destruct closing; [split; [reflexivity|lia]|]. destruct room as [|[|room]]; [exact I|exact I|].
      pose proof (IH (S room) false false u1 f' ltac:(lia) ltac:(lia)) as I1. destruct (parse_nodes f (S room) false false u1) as [[k [|m u2]]| |]; [exact I| |exact I|now rewrite I1].
      destruct I1 as [-> L5]. destruct (String.eqb n m); [|exact I]. apply (CN (Elem n a k) _ _ s u2); [lia|]. apply IH; lia.
  - assert (CL' : c <> "<"%char) by (now apply Ascii.eqb_neq). rewrite Et. cbn [append]. rewrite !prefix_other by congruence.
    destruct (until "<" s) as [[v u]|] eqn:UN; [|exact I]. destruct (until_ext _ q _ _ _ UN) as [-> L2]. cbn in L2. destruct (String.eqb_spec u "") as [|U0]; [exact I|].
    assert (String.eqb (u ++ q) "" = false) as -> by (destruct u; [congruence|reflexivity]).
    destruct (value_of true v) as [v'| |]; [|exact I|reflexivity].
    change (String "<" (u ++ q)) with (String "<" u ++ q)%string. apply (CN (Text v') _ _ s (String "<" u)).
    + pose proof (until_split _ _ _ _ UN) as E. destruct v as [|e v]; [|rewrite E, length_app; cbn; lia]. exfalso. cbn [append] in E. rewrite E in S1. rewrite Et in S1. injection S1 as ? ?. congruence.
    + pose proof (until_split _ _ _ _ UN) as E. apply IH; [|lia]. destruct v as [|e v]; [exfalso; cbn [append] in E; rewrite E in S1; rewrite Et in S1; injection S1 as ? ?; congruence|].
      rewrite E, length_app in L. cbn in L |- *. lia.
Qed.

(** An element that is cut off is no document. *)
Lemma no_nul_part a b : no_nul (a ++ b) = true -> no_nul a = true.
Proof. rewrite no_nul_app, andb_true_iff. tauto. Qed.
Lemma append_left a b c : (a ++ b)%string = (a ++ c)%string -> b = c.
Proof. induction a as [|x a IH]; [auto|]. cbn. intros [= H]. auto. Qed.
Lemma append_nil a b : (a ++ b)%string = "" -> b = "".
Proof. destruct a; [auto|discriminate]. Qed.
Lemma cut_nodes d s x p r room f : elem_text d s x -> s = (p ++ r)%string -> r <> "" -> p <> "" -> (d < room)%nat -> (String.length p < f)%nat ->
  parse_nodes f room true true p = Err.
Proof.
  intros ET E R0 P0 RM F. destruct (elem_starts d s x ET) as (c & v & EC & NS). destruct p as [|c0 p]; [congruence|]. rewrite EC in E. cbn [append] in E. injection E as <- E.
  destruct f as [|f]; [lia|]. destruct p as [|c1 p]; [reflexivity|]. cbn [append] in E. injection E as <- E.
  pose proof (start_other c NS) as (O1 & O2 & O3). rewrite tag_step; auto using start_no_space. cbv zeta. rewrite O3.
  destruct (parse_name (String c p)) as [[n u]|] eqn:PN; [|reflexivity]. pose proof (name_length _ _ _ PN) as L3. cbn [String.length] in F, L3.
  pose proof (attrs_ext r (S (String.length u)) [] u (S (String.length (u ++ r))) ltac:(lia) ltac:(rewrite length_app; lia)) as AE.
  assert (U0 : match parse_attrs (S (String.length u)) [] u with Err => True | _ => u <> "" end) by (destruct u; [exact I|destruct (parse_attrs _ _ _); auto; discriminate]).
  destruct ET as [d n0 s a b N AT B|d n0 s a b t k b' N AT B BT B'].
  - assert (ST : stops (s ++ b ++ "/>")) by (apply (stops_attrs s a _ AT), stops_blanks; [exact B|reflexivity]). destruct (name_app n0 _ N ST) as [PF _].
    cbn [append] in EC. injection EC as EC. rewrite EC, E in PF. change (String c (p ++ r)) with (String c p ++ r)%string in PF.
    pose proof (parse_attrs_app s a AT (S (String.length (s ++ b ++ "/>"))) [] b true "" B) as PA.
    rewrite append_nil_r in PA. specialize (PA ltac:(intros y []) ltac:(rewrite length_app; pose proof (attrs_length s a AT); lia)).
    destruct (parse_attrs (S (String.length u)) [] u) as [[[a' sealed] u1]| |]; [|reflexivity|].
    + rewrite (name_ext r _ _ _ PN U0) in PF. injection PF as -> PF. rewrite <- PF in PA. destruct AE as [AE _]. rewrite AE in PA. injection PA as _ _ PA. apply append_nil in PA. congruence.
    + rewrite (name_ext r _ _ _ PN U0) in PF. injection PF as -> PF. rewrite <- PF in PA. congruence.
  - set (T := (t ++ "</" ++ n0 ++ b' ++ ">")%string) in *. assert (ST : stops (s ++ b ++ ">" ++ T)) by (apply (stops_attrs s a _ AT), stops_blanks; [exact B|reflexivity]). destruct (name_app n0 _ N ST) as [PF _].
    cbn [append] in EC. injection EC as EC. cbn [append] in PF. rewrite EC, E in PF. change (String c (p ++ r)) with (String c p ++ r)%string in PF.
    pose proof (parse_attrs_app s a AT (S (String.length (s ++ b ++ ">" ++ T))) [] b false T B) as PA.
    specialize (PA ltac:(intros y []) ltac:(rewrite length_app; pose proof (attrs_length s a AT); lia)).
    destruct (parse_attrs (S (String.length u)) [] u) as [[[a' sealed] u1]| |]; [|reflexivity|].
    + rewrite (name_ext r _ _ _ PN U0) in PF. injection PF as -> PF. cbn [append] in PA. rewrite <- PF in PA. destruct AE as [AE L4]. rewrite AE in PA. injection PA as -> -> PA.
      destruct room as [|[|room]]; [lia|reflexivity|].
      pose proof (nodes_ext r f (S room) false false u1 (S f + String.length T) ltac:(lia) ltac:(lia)) as NE.
      pose proof (proj2 reads _ _ _ _ BT (S room) n0 b' "" ltac:(lia) N B' (S f + String.length T) false) as FULL.
      assert (TE : (t ++ "</" ++ n0 ++ b' ++ ">" ++ "")%string = T) by reflexivity. rewrite TE in FULL. specialize (FULL ltac:(lia)). rewrite PA in NE.
      destruct (parse_nodes f (S room) false false u1) as [[k' [|m u2]]| |]; [reflexivity| |reflexivity|congruence].
      destruct NE as [NE _]. rewrite FULL in NE. injection NE as _ _ NE. symmetry in NE. apply append_nil in NE. congruence.
    + rewrite (name_ext r _ _ _ PN U0) in PF. injection PF as -> PF. cbn [append] in PA. rewrite <- PF in PA. congruence.
Qed.
Theorem cut_off limit d s x p r b m : elem_text d s x -> s = (p ++ r)%string -> r <> "" -> (S d < limit)%nat -> blanks b -> m = "" \/ m = bom -> parse_text limit (b ++ m ++ p) = Err.
Proof.
  intros ET E R0 LI B M. unfold parse_text.
  assert (NN : no_nul (b ++ m ++ p) = true).
  { rewrite !no_nul_app, (blanks_no_nul b B). pose proof (proj1 text_no_nul d s x ET) as N. rewrite E in N. rewrite (no_nul_part p r N). destruct M as [->| ->]; reflexivity. }
  rewrite (cut_id _ NN), (space_skip b _ B). destruct limit as [|[|room]]; [lia|lia|].
  assert (PS : skip_space p = p /\ prefix bom p = false).
  { destruct p as [|c p]; [split; reflexivity|]. destruct (elem_starts d s x ET) as (c' & v & EC & _). rewrite EC in E. injection E as <- _. split; reflexivity. }
  destruct PS as [PS PB].
  assert (K : match p with EmptyString => Err | _ => let! (l, _) := parse_nodes (S (String.length p)) (S room) true true p in Got l end = Err).
  { assert (CN : p <> "" -> parse_nodes (S (String.length p)) (S room) true true p = Err) by (intros P0; apply (cut_nodes d s x p r); auto; lia).
    destruct p as [|c p]; [reflexivity|]. rewrite CN by discriminate. reflexivity. }
  destruct M as [->| ->].
  - cbn [append]. rewrite PS, PB. exact K.
  - replace (skip_space (bom ++ p)) with (bom ++ p)%string by reflexivity. rewrite prefix_app. change 3%nat with (String.length bom). rewrite drop_app. exact K.
Qed.
(** What SaveFile writes: all of it, possibly without the line end, or it is not read. *)
Theorem printed_cut limit x p r : is_elem x = true -> printable x -> (S (opens x) < limit)%nat -> printed [x] = (p ++ r)%string ->
  parse_text limit p = if (String.length r <=? 1)%nat then Got (kids_of (reload (Elem "" [] [x]))) else Err.
Proof.
  intros E P L EQ. destruct (elem_print x E P (Printer false true None 0) (opens x) (le_n _)) as (s & p' & PN & ET & _).
  assert (PR : printed [x] = (s ++ String nl "")%string).
  { unfold printed. cbn [print_nodes]. rewrite PN. cbn [fst]. unfold seal, new_line. cbn [p_just p_first p_depth spaces append Nat.eqb]. now rewrite append_nil_r. }
  assert (RE : kids_of (reload (Elem "" [] [x])) = [reload x]) by (destruct x; [reflexivity|discriminate]). rewrite RE.
  destruct (Nat.leb_spec (String.length r) 1) as [L1|L1].
  - assert (exists m2, misc_text m2 /\ p = (s ++ m2)%string) as (m2 & M2 & ->).
    { destruct r as [|c [|d r]]; [|  |cbn in L1; lia].
      - exists (String nl ""). rewrite append_nil_r in EQ. rewrite <- EQ. split; [|exact PR]. apply (ms_blank (String nl "") ""); [reflexivity|constructor].
      - exists "". split; [constructor|]. rewrite append_nil_r. rewrite PR in EQ. clear -EQ. revert p EQ. induction s as [|a s IH]; intros [|b p] EQ; cbn [append] in EQ; auto.
        + injection EQ as _ EQ. destruct p; discriminate.
        + injection EQ as _ EQ. destruct s; discriminate.
        + injection EQ as -> EQ. now rewrite (IH p EQ). }
    apply (text_read limit (opens x)); [|exact L]. apply (doc_ (opens x) "" "" "" "" s (reload x) m2); auto; try constructor.
  - assert (exists q, r = (q ++ String nl "")%string /\ q <> "" /\ s = (p ++ q)%string) as (q & -> & Q0 & ES).
    { rewrite PR in EQ. clear -EQ L1. revert p EQ. induction s as [|a s IH]; intros [|b p] EQ; cbn [append] in EQ.
      - rewrite <- EQ in L1. cbn in L1. lia.
      - injection EQ as _ EQ. apply (f_equal String.length) in EQ. rewrite length_app in EQ. cbn in EQ. lia.
      - exists (String a s). split; [now rewrite <- EQ|]. split; [discriminate|reflexivity].
      - injection EQ as -> EQ. destruct (IH p EQ) as (q & A & B & C). exists q. split; [exact A|]. split; [exact B|]. cbn. now rewrite C. }
    exact (cut_off limit (opens x) s (reload x) p q "" "" ET ES Q0 L eq_refl (or_introl eq_refl)).
Qed.

(** *** A higher limit for the depth *)
Lemma room_more : forall f room room' top decl s r, (room <= room')%nat -> parse_nodes f room top decl s = Got r -> parse_nodes f room' top decl s = Got r.
Proof.
  assert (CN : forall x X Y r, (forall r, X = Got r -> Y = Got r) -> cons_node x X = Got r -> cons_node x Y = Got r).
  { intros x X Y r H. unfold cons_node. destruct X as [p| |]; try discriminate. now rewrite (H p eq_refl). }
  induction f as [|f IH]; intros room room' top decl s r L; [discriminate|]. cbn [parse_nodes]. destruct (skip_space s) as [|c v]; [auto|].
  destruct (prefix "<?" (String c v)); [destruct (until "?>" _) as [[? ?]|]; [|discriminate]; destruct (top && decl)%bool; [eauto|discriminate]|].
  destruct (prefix "<!--" (String c v)); [destruct (until "-->" _) as [[? ?]|]; [eauto|discriminate]|].
  destruct (prefix "<![CDATA[" (String c v)); [destruct (until "]]>" _) as [[? ?]|]; [|discriminate]; destruct (value_of false _); try discriminate; apply CN; eauto|].
  destruct (prefix "<!" (String c v)); [destruct (until ">" _) as [[? ?]|]; [|discriminate]; destruct top; [eauto|discriminate]|].
  destruct (c =? "<")%char.
  - destruct (parse_name _) as [[n u]|]; [|discriminate]. destruct (parse_attrs _ _ _) as [[[a sealed] u1]| |]; try discriminate. destruct sealed; [apply CN; eauto|].
    destruct (starts "/" _); [auto|]. destruct room as [|[|room]]; try discriminate. destruct room' as [|[|room']]; try lia.
    destruct (parse_nodes f (S room) false false u1) as [[k e]| |] eqn:E; try discriminate. rewrite (IH (S room) (S room') _ _ _ _ ltac:(lia) E).
    destruct e as [|m u2]; [discriminate|]. destruct (String.eqb n m); [|discriminate]. apply CN. intros q. apply IH. lia.
  - destruct (until "<" s) as [[w u]|]; [|discriminate]. destruct (String.eqb u ""); [discriminate|]. destruct (value_of true w); try discriminate. apply CN; eauto.
Qed.
Theorem limit_more limit limit' s ks : (limit <= limit')%nat -> parse_text limit s = Got ks -> parse_text limit' s = Got ks.
Proof.
  intros L. unfold parse_text. match goal with |- match ?X with _ => _ end = _ -> _ => destruct X as [|c t]; [auto|] end.
  destruct limit as [|[|room]]; try discriminate. destruct limit' as [|[|room']]; try lia.
  match goal with |- match ?X with _ => _ end = _ -> _ => destruct X as [[l e]| |] eqn:E; try discriminate end. intros [= <-].
  now rewrite (room_more _ (S room) (S room') _ _ _ _ ltac:(lia) E).
Qed.
