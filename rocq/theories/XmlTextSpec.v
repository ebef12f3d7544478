(** XML texts and the documents they stand for, said without the parser, and the parser reads
    all of them. *)
From Coq Require Import String Ascii ZArith NArith Arith List Bool Lia.
From Verif Require Import Base Fmt Decimal Cpp Xml Val CppSem SymLex DecText MainProps XmlText.
Import ListNotations.
Local Open Scope string_scope.
Local Open Scope list_scope.

(** *** Texts *)
Definition nul : ascii := ascii_of_nat 0.
Definition quote : ascii := "'".
(** Nothing but spaces, tabs and line ends. *)
Definition blanks (s : string) : Prop := all_chars is_space s = true.
Definition xml_name (n : string) : Prop :=
  match n with EmptyString => False | String c r => name_start c = true /\ all_chars name_char r = true end.
(** [spells stop s w]: the text [s], in which [stop] does not occur, stands for [w]: the five
    entities are resolved, all other characters stand for themselves. *)
Inductive spells (stop : ascii) : string -> string -> Prop :=
| sp_end : spells stop "" ""
| sp_char c s w : c <> stop -> c <> "&"%char -> c <> nul -> spells stop s w -> spells stop (String c s) (String c w)
| sp_entity e c s w : In (e, c) [("lt", "<"%char); ("gt", ">"%char); ("amp", "&"%char); ("quot", dquote); ("apos", quote)] -> spells stop s w ->
    spells stop ("&" ++ e ++ ";" ++ s) (String c w).
(** Attributes of a tag: blanks in front of each of them, and around '='. *)
Inductive attrs_text : string -> list (string * string) -> Prop :=
| at_end : attrs_text "" []
| at_cons b n b1 b2 q s w r l : blanks b -> b <> "" -> xml_name n -> blanks b1 -> blanks b2 -> q = dquote \/ q = quote ->
    spells q s w -> attrs_text r l -> ~ In n (map fst l) ->
    attrs_text (b ++ n ++ b1 ++ "=" ++ b2 ++ String q (s ++ String q r)) ((n, newlines w) :: l).
(** A text in which [stop] does not occur. *)
Definition free_of (stop c : string) : Prop := no_nul c = true /\ forall x y, c <> (x ++ stop ++ y)%string.
(** [elem_text d s x]: an element, with at most [d] elements that are not of the form <.../>
    inside of each other.  [body_text d b s l]: what is between two tags; if [b] is false it is
    empty or starts with a tag, a comment or <![CDATA[. *)
Inductive elem_text : nat -> string -> node -> Prop :=
| el_sealed d n s a b : xml_name n -> attrs_text s a -> blanks b -> elem_text d ("<" ++ n ++ s ++ b ++ "/>") (Elem n a [])
| el_open d n s a b t k b' : xml_name n -> attrs_text s a -> blanks b -> body_text d true t k -> blanks b' ->
    elem_text (S d) ("<" ++ n ++ s ++ b ++ ">" ++ t ++ "</" ++ n ++ b' ++ ">") (Elem n a k)
with body_text : nat -> bool -> string -> list node -> Prop :=
| bd_end d : body_text d false "" []
| bd_blank d b s l : blanks b -> body_text d false s l -> body_text d true (b ++ s) l
| bd_text d s w r l : spells "<" s w -> blank s = false -> body_text d false r l -> body_text d true (s ++ r) (Text (newlines w) :: l)
| bd_elem d s x r l : elem_text d s x -> body_text d true r l -> body_text d false (s ++ r) (x :: l)
| bd_comment d c r l : free_of "-->" c -> body_text d true r l -> body_text d false ("<!--" ++ c ++ "-->" ++ r) l
| bd_cdata d c r l : free_of "]]>" c -> body_text d true r l -> body_text d false ("<![CDATA[" ++ c ++ "]]>" ++ r) (Text (newlines c) :: l).
Scheme elem_text_min := Minimality for elem_text Sort Prop
  with body_text_min := Minimality for body_text Sort Prop.
Combined Scheme text_min from elem_text_min, body_text_min.

(** Before and after the root: blanks, comments and <!DOCTYPE ...>. *)
Inductive misc_text : string -> Prop :=
| ms_end : misc_text ""
| ms_blank b s : blanks b -> misc_text s -> misc_text (b ++ s)
| ms_comment c s : free_of "-->" c -> misc_text s -> misc_text ("<!--" ++ c ++ "-->" ++ s)
| ms_type c s : free_of ">" c -> misc_text s -> misc_text ("<!DOCTYPE" ++ c ++ ">" ++ s).
Inductive decl_text : string -> Prop :=
| dc_end : decl_text ""
| dc_blank b s : blanks b -> decl_text s -> decl_text (b ++ s)
| dc_decl c s : free_of "?>" c -> decl_text s -> decl_text ("<?" ++ c ++ "?>" ++ s).
Inductive doc_text (d : nat) : string -> node -> Prop :=
| doc_ b m c m1 s x m2 : blanks b -> m = "" \/ m = bom -> decl_text c -> misc_text m1 -> elem_text d s x -> misc_text m2 ->
    doc_text d (b ++ m ++ c ++ m1 ++ s ++ m2) x.

(** *** Strings *)
Lemma space_skip b s : blanks b -> skip_space (b ++ s) = skip_space s.
Proof. unfold blanks. induction b as [|c b IH]; cbn [all_chars skip_space append]; [auto|]. rewrite andb_true_iff. intros [-> H]. auto. Qed.
Lemma skip_not c s : is_space c = false -> skip_space (String c s) = String c s.
Proof. intros H. cbn. now rewrite H. Qed.
Lemma drop_app a s : drop (String.length a) (a ++ s) = s.
Proof. induction a; cbn; auto. Qed.
Lemma prefix_app a s : prefix a (a ++ s) = true.
Proof. induction a as [|c a IH]; cbn; [now destruct s|]. destruct (ascii_dec c c); [auto|congruence]. Qed.
Lemma prefix_inv a s : prefix a s = true -> exists r, s = (a ++ r)%string.
Proof.
  revert s. induction a as [|c a IH]; intros s; [intros _; now exists s|]. destruct s as [|d s]; cbn; [discriminate|].
  destruct (ascii_dec c d) as [->|]; [|discriminate]. intros H. destruct (IH s H) as [r ->]. eauto.
Qed.
Lemma length_app a b : String.length (a ++ b) = (String.length a + String.length b)%nat.
Proof. induction a; cbn; auto. Qed.
Lemma all_app f a b : all_chars f (a ++ b) = (all_chars f a && all_chars f b)%bool.
Proof. induction a as [|c a IH]; cbn; [reflexivity|]. now rewrite IH, andb_assoc. Qed.

Definition not_char (c : ascii) (s : string) : Prop := all_chars (fun d => negb (d =? c)%char) s = true.
Lemma until_char c s r : not_char c s -> until (String c "") (s ++ String c r) = Some (s, r).
Proof.
  unfold not_char. induction s as [|d s IH]; cbn [all_chars append until prefix String.length drop].
  - intros _. destruct (ascii_dec c c); [|congruence]. now destruct r.
  - rewrite andb_true_iff, negb_true_iff. intros [N H]. destruct (ascii_dec c d) as [->|]; [now rewrite Ascii.eqb_refl in N|].
    cbn [append] in IH. now rewrite (IH H).
Qed.
Lemma prefix_within p s t : not_char ">" p -> prefix (p ++ ">") (s ++ t) = true -> (exists y, s = (p ++ ">" ++ y)%string) \/ exists y, (p ++ ">")%string = (s ++ y)%string /\ y <> "".
Proof.
  revert s. induction p as [|c p IH]; intros s; cbn [append].
  - intros _. destruct s as [|d s]; [right; exists ">"; split; [reflexivity|discriminate]|]. cbn [append prefix]. destruct (ascii_dec ">" d) as [<-|]; [|discriminate]. left. now exists s.
  - unfold not_char. cbn [all_chars]. rewrite andb_true_iff. intros [_ N]. destruct s as [|d s]; [right; exists (String c (p ++ ">")); split; [reflexivity|discriminate]|]. cbn [append prefix].
    destruct (ascii_dec c d) as [<-|]; [|discriminate]. intros H. destruct (IH s N H) as [[y ->]|(y & E & Y)]; [left; now exists y|right]. exists y. now rewrite E.
Qed.
Lemma app_last_inv (p s y : string) : (p ++ ">")%string = (s ++ y)%string -> y <> "" -> exists z, y = (z ++ ">")%string /\ p = (s ++ z)%string.
Proof.
  revert s. induction p as [|c p IH]; intros s; cbn.
  - destruct s as [|d s]; cbn; [intros <- _; exists ""; auto|]. intros H Y. injection H as -> H. destruct s; cbn in H; [congruence|discriminate].
  - destruct s as [|d s]; cbn; [intros <- _; exists (String c p); auto|]. intros H Y. injection H as -> H. destruct (IH s H Y) as (z & -> & ->). exists z. auto.
Qed.
Lemma until_stop p c s : not_char ">" p -> (forall x y, c <> (x ++ (p ++ ">") ++ y)%string) -> until (p ++ ">") (c ++ (p ++ ">") ++ s) = Some (c, s).
Proof.
  intros N. induction c as [|d c IH]; intros F.
  - cbn [append]. assert (U : forall st t, until st t = if prefix st t then Some ("", drop (String.length st) t) else match t with EmptyString => None | String c r => match until st r with Some (a, b) => Some (String c a, b) | None => None end end) by (intros st t; destruct t; reflexivity).
    rewrite U, prefix_app, drop_app. reflexivity.
  - cbn [append until]. destruct (prefix (p ++ ">") (String d (c ++ (p ++ ">") ++ s))) eqn:P.
    + exfalso. change (String d (c ++ (p ++ ">") ++ s)) with (String d c ++ (p ++ ">") ++ s)%string in P.
      destruct (prefix_within _ _ _ N P) as [[y E]|(y & E & Y)].
      * apply (F "" y). cbn [append]. rewrite E, append_assoc. reflexivity.
      * destruct (app_last_inv _ _ _ E Y) as (z & -> & ->). clear E Y.
        (* the end of the stop text would have to be a '>' of its beginning *)
        set (u := String d c) in *. assert (L : (0 < String.length u)%nat) by (cbn; lia). clearbody u. clear IH F.
        rewrite append_assoc in P. apply prefix_inv in P as [r P]. rewrite !append_assoc in P.
        assert (G : forall a b c d : string, (a ++ b)%string = (a ++ c)%string -> b = c) by (intros a; induction a as [|x a IH]; cbn; intros b0 c0 d0 H; [exact H|injection H as H; eauto]).
        apply G in P; [|exact ""]. clear G.
        (* u ++ z ++ ">" ++ s = z ++ ">" ++ r, with no '>' in u ++ z *)
        assert (NC : forall a, not_char ">" a -> forall b s r, (a ++ s)%string = (b ++ ">" ++ r)%string -> (String.length b < String.length a)%nat -> False).
        { clear. induction a as [|x a IH]; intros A b s r E L; [cbn in L; lia|]. unfold not_char in A. cbn in A. apply andb_true_iff in A as [A1 A2].
          destruct b as [|y b]; cbn in E; injection E as -> E; [now rewrite Ascii.eqb_refl in A1|]. apply (IH A2 b s r E). cbn in L. lia. }
        rewrite <- append_assoc in P. apply (NC (u ++ z)%string N z (">" ++ s)%string r P). rewrite length_app. lia.
    + rewrite IH; [reflexivity|]. intros x y E. apply (F (String d x) y). now rewrite E.
Qed.

(** *** Values *)
Lemma spells_no_nul stop s w : spells stop s w -> no_nul s = true.
Proof.
  unfold no_nul. induction 1 as [|c s w C1 C2 C3 H IH|e c s w I H IH]; [reflexivity| |].
  - cbn [all_chars]. rewrite IH, andb_true_r, negb_true_iff. now apply Ascii.eqb_neq.
  - destruct I as [I|[I|[I|[I|[I|[]]]]]]; injection I as <- <-; exact IH.
Qed.
Lemma spells_stop stop s w : stop = dquote \/ stop = quote \/ stop = "<"%char -> spells stop s w -> not_char stop s.
Proof.
  intros ST. unfold not_char. induction 1 as [|c s w C1 C2 C3 H IH|e c s w I H IH]; [reflexivity| |].
  - cbn [all_chars]. rewrite IH, andb_true_r, negb_true_iff. now apply Ascii.eqb_neq.
  - destruct I as [I|[I|[I|[I|[I|[]]]]]]; injection I as <- <-; destruct ST as [->|[->| ->]]; exact IH.
Qed.
Lemma get_skip orig q e s : get_str true orig q (String.length e) (e ++ s) = get_str true orig q 0 s.
Proof. induction e as [|c e IH]; [reflexivity|exact IH]. Qed.
Lemma newlines_cons c t : newlines (String c t) =
  (if ((c =? cr) || (c =? nl))%char%bool
   then String nl (newlines (match t with String d r => if ((c =? cr) && (d =? nl) || (c =? nl) && (d =? cr))%char%bool then r else t | _ => t end))
   else String c (newlines t)).
Proof.
  cbn [newlines]. destruct t as [|d r].
  - destruct (c =? cr)%char eqn:A; cbn [orb]; [reflexivity|]. destruct (c =? nl)%char eqn:B; [apply Ascii.eqb_eq in B as ->; reflexivity|reflexivity].
  - destruct (c =? cr)%char eqn:A; cbn [orb andb].
    + apply Ascii.eqb_eq in A as ->. change (cr =? nl)%char with false. cbn [andb orb]. destruct (d =? nl)%char; reflexivity.
    + destruct (c =? nl)%char eqn:B; cbn [andb]; [|reflexivity]. apply Ascii.eqb_eq in B as ->. destruct (d =? cr)%char; reflexivity.
Qed.
Definition tail (s : string) : string := match s with String _ r => r | EmptyString => EmptyString end.
Lemma get_spells stop s w : spells stop s w -> forall orig q,
  get_str true orig q 0 s = Got (newlines w) /\
  (forall c, c = cr \/ c = nl -> starts c s = starts c w) /\
  (starts cr s = true \/ starts nl s = true -> get_str true orig q 1 s = Got (newlines (tail w))).
Proof.
  induction 1 as [|c s w C1 C2 C3 H IH|e c s w I H IH]; intros orig q.
  - split; [reflexivity|split; [reflexivity|]]. intros [E|E]; discriminate E.
  - split; [|split; [reflexivity|intros _; apply IH]].
    cbn [get_str]. rewrite newlines_cons.
    destruct (IH orig (S q)) as (A & B & C).
    assert (T : forall d, d = cr \/ d = nl -> starts d s = true -> exists w', w = String d w').
    { intros d D E. rewrite (B d D) in E. destruct w as [|x w']; [discriminate|]. cbn in E. apply Ascii.eqb_eq in E as ->. eauto. }
    assert (F : forall d, d = cr \/ d = nl -> starts d s = false -> match w with String x _ => (x =? d)%char = false | _ => True end).
    { intros d D E. rewrite (B d D) in E. destruct w as [|x w']; [exact I|]. cbn in E. now rewrite Ascii.eqb_sym. }
    destruct (c =? cr)%char eqn:K1; cbn [orb andb].
    + apply Ascii.eqb_eq in K1 as ->. change (cr =? nl)%char with false. destruct (starts nl s) eqn:S1.
      * rewrite (C (or_intror eq_refl)). destruct (T nl (or_intror eq_refl) S1) as [w' ->]. rewrite Ascii.eqb_refl. reflexivity.
      * rewrite A. specialize (F nl (or_intror eq_refl) S1). destruct w as [|x w']; [reflexivity|]. rewrite F. reflexivity.
    + destruct (c =? nl)%char eqn:K2; cbn [orb andb].
      * apply Ascii.eqb_eq in K2 as ->. destruct (starts cr s) eqn:S1.
        -- rewrite (C (or_introl eq_refl)). destruct (T cr (or_introl eq_refl) S1) as [w' ->]. rewrite Ascii.eqb_refl. reflexivity.
        -- rewrite A. specialize (F cr (or_introl eq_refl) S1). destruct w as [|x w']; [reflexivity|]. rewrite F. reflexivity.
      * apply Ascii.eqb_neq in C2. rewrite C2. cbn [andb]. now rewrite A.
  - assert (EC : (c =? cr)%char = false /\ (c =? nl)%char = false /\ get_str true orig q 0 ("&" ++ e ++ ";" ++ s) = (let! t := get_str true orig (S q) (String.length (e ++ ";")) ((e ++ ";") ++ s) in Got (String c t))).
    { destruct I as [I|[I|[I|[I|[I|[]]]]]]; injection I as <- <-; (split; [reflexivity|split; [reflexivity|destruct s; reflexivity]]). }
    destruct EC as (E1 & E2 & E3). split; [|split].
    + rewrite E3, get_skip. destruct (IH orig (S q)) as (-> & _). rewrite newlines_cons, E1, E2. reflexivity.
    + intros d [->| ->]; cbn [append starts]; symmetry; rewrite Ascii.eqb_sym; assumption.
    + intros [X|X]; discriminate X.
Qed.
Lemma value_spells stop s w : spells stop s w -> value_of true s = Got (newlines w).
Proof. intros H. exact (proj1 (get_spells stop s w H s 0)). Qed.
Lemma raw_step orig s : forall q, get_str false orig q 0 s = Got (newlines s) /\ (starts cr s = true \/ starts nl s = true -> get_str false orig q 1 s = Got (newlines (tail s))).
Proof.
  induction s as [|c s IH]; intros q; [split; [reflexivity|intros [E|E]; discriminate E]|]. split; [|intros _; apply IH].
  cbn [get_str]. rewrite newlines_cons. destruct (IH (S q)) as (A & C).
  destruct (c =? cr)%char eqn:K1; cbn [orb andb].
  - apply Ascii.eqb_eq in K1 as ->. change (cr =? nl)%char with false. destruct (starts nl s) eqn:S1.
    + rewrite (C (or_intror eq_refl)). destruct s as [|x s]; [discriminate|]. cbn [starts] in S1. rewrite Ascii.eqb_sym, S1. reflexivity.
    + rewrite A. destruct s as [|x s]; [reflexivity|]. cbn [starts] in S1. rewrite (Ascii.eqb_sym x), S1. reflexivity.
  - destruct (c =? nl)%char eqn:K2; cbn [orb andb].
    + apply Ascii.eqb_eq in K2 as ->. destruct (starts cr s) eqn:S1.
      * rewrite (C (or_introl eq_refl)). destruct s as [|x s]; [discriminate|]. cbn [starts] in S1. rewrite (Ascii.eqb_sym x), S1. reflexivity.
      * rewrite A. destruct s as [|x s]; [reflexivity|]. cbn [starts] in S1. rewrite (Ascii.eqb_sym x), S1. reflexivity.
    + now rewrite A.
Qed.
Lemma value_raw s : value_of false s = Got (newlines s).
Proof. apply raw_step. Qed.
