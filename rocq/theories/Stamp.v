(** The time stamp of the build (timestamp.cpp) and where it gets to: two builds of the program
    do the same, up to one line of each file and one line on the console. *)
From Coq Require Import String Ascii ZArith NArith Arith List Bool Lia.
From Verif Require Import Base Map Flex Items Bison Store Resolve Fmt Decimal Templates MainTemplates Emit Val StoreProps StoreDefs Main MainProps RunProps SymLex.
Import ListNotations.
Local Open Scope string_scope.
Local Open Scope list_scope.

(** *** timestamp.cpp:11, version.h:3 *)
Definition stamp_of (date time : string) : string :=
  ("stfx built at : " ++ date ++ " " ++ time ++ ", Software Version : " ++ "25.01")%string.
(** What the compiler puts for __DATE__ and __TIME__: "Mmm dd yyyy", the first digit of the day
    a space if it is 0, and "hh:mm:ss"; or, if it does not know them, question marks. *)
Definition months : list string := ["Jan"; "Feb"; "Mar"; "Apr"; "May"; "Jun"; "Jul"; "Aug"; "Sep"; "Oct"; "Nov"; "Dec"].
Definition decimal (c : ascii) : Prop := (48 <= nat_of_ascii c <= 57)%nat.
Inductive date_text : string -> Prop :=
| dt_known m d1 d2 y1 y2 y3 y4 : In m months -> decimal d1 \/ d1 = " "%char -> Forall decimal [d2; y1; y2; y3; y4] ->
    date_text (m ++ String " " (String d1 (String d2 (String " " (String y1 (String y2 (String y3 (String y4 ""))))))))
| dt_unknown : date_text "??? ?? ????".
Inductive time_text : string -> Prop :=
| tt_known h1 h2 m1 m2 s1 s2 : Forall decimal [h1; h2; m1; m2; s1; s2] ->
    time_text (String h1 (String h2 (String ":" (String m1 (String m2 (String ":" (String s1 (String s2 ""))))))))
| tt_unknown : time_text "??:??:??".

(** *** The lines of a file that tell where it comes from, for the file name [n]; headers for ini
    files have an empty line [gap] there. *)
Definition head_of (stamp n gap : string) : string :=
  ("// " ++ n ++ NL ++ gap ++ "//" ++ NL ++ "// Automatically generated using stfx" ++ NL ++
   "// Do not directly edit this file, use stfx to re-create this file." ++ NL ++ "//" ++ NL ++ "// License : MIT License" ++ NL ++ "//" ++ NL ++
   "// " ++ stamp ++ NL ++ NL)%string.
(** Two contents of a file that differ in the stamp only; a file that was opened but not
    written is empty. *)
Definition restamped (s s' x y : string) : Prop :=
  x = "" /\ y = "" \/ exists n gap rest, (gap = "" \/ gap = NL) /\ x = (head_of s n gap ++ rest)%string /\ y = (head_of s' n gap ++ rest)%string.
Definition same_but_stamp (s s' : string) (f f' : list (string * string)) : Prop :=
  Forall2 (fun p q => fst p = fst q /\ restamped s s' (snd p) (snd q)) f f'.
(** The same run of another build. *)
Definition built_as (E : env) (s : string) : env :=
  Env s (e_sep E) (e_exists E) (e_canonical E) (e_mkdirs E) (e_disk E) (e_write E) (e_conf E) (e_type_name E).
(** The files agree up to the stamp, and the console does from the second line on. *)
Definition other_build (s s' : string) (w w' : world) : Prop :=
  same_but_stamp s s' (w_files w) (w_files w') /\
  exists l, w_log w = Line (s ++ NL) :: l /\ w_log w' = Line (s' ++ NL) :: l.
Definition builds (s s' : string) {A} (r r' : ran A) : Prop :=
  match r, r' with
  | Go a w, Go a' w' => a = a' /\ other_build s s' w w'
  | Stop w, Stop w' => other_build s s' w w'
  | _, _ => False
  end.

(** *** Texts *)
Definition stamped_cmds (c1 c2 : template) (n1 : string) (mid : list cmd) (h1 h2 : template) (n2 : string) (tl : list cmd) (info : string) : list cmd :=
  [Cmd T_cpp c1 [n1]; Cmd T_cpp c2 [info]] ++ mid ++ [Cmd T_h h1 [n2]; Cmd T_h h2 [info]] ++ tl.
Lemma enum_files_stamp i inputs cpp h : exists mid tl, Forall (fun c => c_to c = T_cpp) mid /\
  forall info, enum_files i inputs cpp h info = stamped_cmds pi_87 pi_88 cpp mid pi_97 pi_98 h tl info.
Proof.
  eexists ([Cmd T_cpp pi_89 [h]; Cmd T_cpp pi_90 []] ++ includes T_cpp pi_93 inputs ++ [Cmd T_cpp pi_95 []]), _. split.
  - apply Forall_app. split; [repeat constructor|]. apply Forall_app. split; [|repeat constructor].
    apply Forall_forall. intros c I. apply in_map_iff in I as (x & <- & _). reflexivity.
  - intros info. unfold enum_files, stamped_cmds. rewrite <- !app_assoc. cbn [app]. reflexivity.
Qed.
Definition name_line (c : template) : Prop := c = Some [Lit "// "; Arg 0] \/ c = Some [Lit "// "; Arg 0; Lit NL].
Lemma struct_files_stamp b i inputs o cpp h : exists c1 c2 h1 h2 mid tl ok, Forall (fun c => c_to c = T_cpp) mid /\
  name_line c1 /\ c2 = Some [Arg 0] /\ name_line h1 /\ h2 = Some [Arg 0] /\
  forall info, struct_files b i inputs o cpp h info = (stamped_cmds c1 c2 cpp mid h1 h2 h tl info, ok).
Proof.
  set (t := templates_of b).
  exists (t_name_cpp t), (t_info_cpp t), (t_name_h t), (t_info_h t).
  eexists ([Cmd T_cpp (t_inc_h t) [h]; Cmd T_cpp (t_std_cpp t) []] ++ map (fun x => Cmd T_cpp x []) (t_lib_cpp t (o_only_read o)) ++
   [if skipped (o_enum_file o) then Cmd T_cpp (t_no_enum t) [] else Cmd T_cpp (t_inc_enum t) [(o_enum_file o ++ ".h")%string]] ++ includes T_cpp (t_in_cpp t) inputs), _, _.
  split; [|split; [destruct b; now left|]; split; [destruct b; reflexivity|]; split; [destruct b; (now left) || (now right)|]; split; [destruct b; reflexivity|]].
  - apply Forall_app. split; [repeat constructor|]. apply Forall_app. split; [apply Forall_forall; intros c I; apply in_map_iff in I as (x & <- & _); reflexivity|].
    apply Forall_app. split; [destruct (skipped _); repeat constructor|]. apply Forall_forall. intros c I. apply in_map_iff in I as (x & <- & _). reflexivity.
  - intros info. unfold struct_files, stamped_cmds. fold t. rewrite <- !app_assoc. cbn [app]. reflexivity.
Qed.
Lemma only_to (to : target) cs : Forall (fun c => c_to c <> to) cs -> render to cs = Some "".
Proof.
  induction 1 as [|c cs N _ IH]; [reflexivity|]. cbn [render]. assert (to_eqb (c_to c) to = false) as ->; [destruct (c_to c), to; try reflexivity; congruence|exact IH].
Qed.
Lemma info_text_of s : stfx_info s = Some ("//" ++ NL ++ "// Automatically generated using stfx" ++ NL ++
   "// Do not directly edit this file, use stfx to re-create this file." ++ NL ++ "//" ++ NL ++ "// License : MIT License" ++ NL ++ "//" ++ NL ++
   "// " ++ s ++ NL)%string.
Proof. reflexivity. Qed.
Lemma some_inj {A} (x y : A) : Some x = Some y -> x = y.
Proof. congruence. Qed.
Lemma head_text to c1 c2 n : name_line c1 -> c2 = Some [Arg 0] -> exists gap, (gap = "" \/ gap = NL) /\ forall s info r x, stfx_info s = Some info ->
  render to r = Some x -> render to (Cmd to c1 [n] :: Cmd to c2 [info] :: r) = Some (head_of s n gap ++ x)%string.
Proof.
  intros N ->. assert (T : to_eqb to to = true) by now destruct to.
  assert (P2 : forall i, println (Some [Arg 0]) [i] = Some (i ++ NL)%string) by (intros i; rewrite println_fits by reflexivity; cbn; reflexivity).
  assert (P1 : exists gap, (gap = "" \/ gap = NL) /\ println c1 [n] = Some ("// " ++ n ++ NL ++ gap)%string).
  { destruct N as [->| ->]; [exists ""|exists NL]; (split; [auto|]; rewrite println_fits by reflexivity; cbn; rewrite ?append_assoc; reflexivity). }
  destruct P1 as (gap & G & P1). exists gap. split; [exact G|]. intros s info r x SI R. rewrite info_text_of in SI. apply some_inj in SI. subst info.
  cbn [render c_to c_t c_args]. rewrite T, P1, P2, R. f_equal. unfold head_of. rewrite !append_assoc. reflexivity.
Qed.
Lemma skip_to to a r : Forall (fun c => c_to c <> to) a -> render to (a ++ r) = render to r.
Proof.
  induction 1 as [|c a N _ IH]; [reflexivity|]. cbn [app render]. assert (to_eqb (c_to c) to = false) as ->; [destruct (c_to c), to; try reflexivity; congruence|exact IH].
Qed.
Lemma texts_stamp s s' c1 c2 n1 mid h1 h2 n2 tl info info' : Forall (fun c => c_to c = T_cpp) mid -> name_line c1 -> c2 = Some [Arg 0] -> name_line h1 -> h2 = Some [Arg 0] ->
  stfx_info s = Some info -> stfx_info s' = Some info' ->
  let cs := stamped_cmds c1 c2 n1 mid h1 h2 n2 tl in Forall good_cmd (cs info) ->
  exists a b c a' b', render T_cpp (cs info) = Some a /\ render T_h (cs info) = Some b /\ render T_out (cs info) = Some c /\
    render T_cpp (cs info') = Some a' /\ render T_h (cs info') = Some b' /\ render T_out (cs info') = Some c /\ restamped s s' a a' /\ restamped s s' b b'.
Proof.
  intros M N1 E1 N2 E2 I1 I2 cs G.
  assert (GM : Forall good_cmd mid /\ Forall good_cmd tl).
  { unfold cs, stamped_cmds in G. apply Forall_app in G as [_ G]. apply Forall_app in G as [G1 G]. apply Forall_app in G as [_ G]. auto. }
  destruct GM as [GM GT]. destruct (head_text T_cpp c1 c2 n1 N1 E1) as (g & G0 & H). destruct (head_text T_h h1 h2 n2 N2 E2) as (g' & G0' & H').
  destruct (render_good T_cpp (mid ++ tl)) as [x X]; [now apply Forall_app|]. destruct (render_good T_h tl GT) as [y Y]. destruct (render_good T_out tl GT) as [z Z].
  assert (XC : forall i, render T_cpp (mid ++ [Cmd T_h h1 [n2]; Cmd T_h h2 [i]] ++ tl) = Some x).
  { intros i. rewrite render_app, skip_to by (repeat constructor; discriminate). now rewrite <- render_app. }
  assert (SK : forall to i, to <> T_cpp -> render to (cs i) = render to ([Cmd T_h h1 [n2]; Cmd T_h h2 [i]] ++ tl)).
  { intros to i NT. unfold cs, stamped_cmds. rewrite skip_to by (repeat constructor; cbn; congruence). apply skip_to. eapply Forall_impl; [|exact M]. cbn. intros c ->. congruence. }
  assert (ZO : forall i, render T_out (cs i) = Some z) by (intros i; rewrite SK by discriminate; rewrite skip_to by (repeat constructor; discriminate); exact Z).
  exists (head_of s n1 g ++ x)%string, (head_of s n2 g' ++ y)%string, z, (head_of s' n1 g ++ x)%string, (head_of s' n2 g' ++ y)%string.
  split; [exact (H s info _ x I1 (XC info))|]. split; [rewrite SK by discriminate; exact (H' s info tl y I1 Y)|]. split; [apply ZO|].
  split; [exact (H s' info' _ x I2 (XC info'))|]. split; [rewrite SK by discriminate; exact (H' s' info' tl y I2 Y)|]. split; [apply ZO|].
  split; right; [exists n1, g, x|exists n2, g', y]; auto.
Qed.

(** *** Runs *)
Section Builds.
Variables (E : env) (s' : string).
Let s := e_stamp E.
Let E' := built_as E s'.
Notation same := (other_build s s').
Notation alike := (builds s s').

Lemma bind_b {A B} (r r' : ran A) (k k' : A -> world -> ran B) : alike r r' -> (forall a w w', same w w' -> alike (k a w) (k' a w')) ->
  alike (match r with Go a w => k a w | Stop w => Stop w end) (match r' with Go a w => k' a w | Stop w => Stop w end).
Proof. destruct r, r'; cbn; try contradiction; [|auto]. intros [-> S] K. now apply K. Qed.
Lemma say_b t args w w' : same w w' -> alike (say t args w) (say t args w').
Proof.
  intros [F (l & L & L')]. unfold say. destruct (println t args) as [x|]; [|split; eauto]. cbn. split; [reflexivity|]. split; [exact F|].
  exists (l ++ [Line x]). rewrite L, L'. auto.
Qed.
Lemma set_b p x y f : forall f', same_but_stamp s s' f f' -> restamped s s' x y -> same_but_stamp s s' (set_assoc p x f) (set_assoc p y f').
Proof.
  induction f as [|[k v] f IH]; intros f' F R; inversion F as [|q [k' v'] l l' [K V] T]; subst; cbn in *.
  - constructor; [split; [reflexivity|exact R]|constructor].
  - subst k'. destruct (String.eqb _ _); constructor; try (split; [reflexivity|assumption]); auto. now apply IH.
Qed.
Lemma put_b p x y w w' : same w w' -> restamped s s' x y -> same (put_file p x w) (put_file p y w').
Proof. intros [F L] R. split; [now apply set_b|exact L]. Qed.
Lemma empty_b : restamped s s' "" "".
Proof. now left. Qed.
Lemma open_b cpp h t1 t2 t3 t4 cs cs' ok fail w w' :
  (exists a b c a' b', render T_cpp cs = Some a /\ render T_h cs = Some b /\ render T_out cs = Some c /\
    render T_cpp cs' = Some a' /\ render T_h cs' = Some b' /\ render T_out cs' = Some c /\ restamped s s' a a' /\ restamped s s' b b') ->
  same w w' -> alike (open_both E cpp h t1 t2 t3 t4 cs ok fail w) (open_both E' cpp h t1 t2 t3 t4 cs' ok fail w').
Proof.
  intros (a & b & c & a' & b' & A & B & C & A' & B' & C' & RA & RB) S. unfold open_both. change (e_write E') with (e_write E).
  assert (FN : forall x, file_name E' x = file_name E x) by (intros x; induction x as [|k x IH]; cbn [file_name]; [reflexivity|]; rewrite IH; reflexivity). rewrite !FN.
  destruct (e_write E cpp).
  - apply bind_b; [apply say_b, put_b; [exact S|exact empty_b]|]. intros _ w1 w1' S1. destruct (e_write E h).
    + apply bind_b; [apply say_b, put_b; [exact S1|exact empty_b]|]. intros _ w2 w2' S2. apply bind_b; [|intros _ w3 w3' S3; split; auto].
      unfold write_all. rewrite A, B, C, A', B', C'. split; [reflexivity|].
      destruct (put_b h b b' _ _ (put_b cpp a a' _ _ S2 RA) RB) as [F (l & L & L')]. split; [exact F|]. exists (l ++ [Line c]). cbn [w_log] in *. rewrite L, L'. auto.
    + apply bind_b; [now apply say_b|]. intros _ w2 w2' S2. split; auto.
  - apply bind_b; [now apply say_b|]. intros _ w2 w2' S2. split; auto.
Qed.
Lemma dir_b base o w w' : same w w' -> alike (out_dir E base o w) (out_dir E' base o w').
Proof.
  intros S. unfold out_dir. change (e_mkdirs E') with (e_mkdirs E). change (e_canonical E') with (e_canonical E). change (join E') with (join E).
  destruct (String.eqb (o_dir o) ""); [split; auto|]. destruct (e_mkdirs E _); [|exact S]. destruct (e_canonical E _); [split; auto|exact S].
Qed.
Lemma file_name_b x : file_name E' x = file_name E x.
Proof. induction x as [|k x IH]; cbn [file_name]; [reflexivity|]. rewrite IH. reflexivity. Qed.
Lemma before_name_b x : before_name E' x = before_name E x.
Proof. induction x as [|k x IH]; cbn [before_name]; [reflexivity|]. rewrite IH. reflexivity. Qed.
Lemma parent_b x : parent E' x = parent E x.
Proof. unfold parent. rewrite before_name_b. reflexivity. Qed.
Lemma extension_b x : extension E' x = extension E x.
Proof. unfold extension. rewrite file_name_b. reflexivity. Qed.
Lemma h_path_b d n : h_path E' d n = h_path E d n.
Proof. unfold h_path, replace_ext. change (cpp_path E' d n) with (cpp_path E d n). now rewrite extension_b. Qed.
Lemma items_b b base i inputs o w w' : same w w' -> alike (process_items E b base i inputs o w) (process_items E' b base i inputs o w').
Proof.
  intros S. unfold process_items. change (e_stamp E') with s'. fold s. destruct (stfx_info s) as [info|] eqn:SI; [|rewrite info_text_of in SI; discriminate].
  destruct (stfx_info s') as [info'|] eqn:SI'; [|rewrite info_text_of in SI'; discriminate].
  apply bind_b; [now apply say_b|]. intros _ w1 w1' S1. destruct (fixup i) as [i1 r1]. apply bind_b.
  - destruct (skipped (o_enum_file o)); [apply bind_b; [now apply say_b|]; intros _ w2 w2' S2; split; auto|].
    unfold process_all_enums. apply bind_b; [now apply dir_b|]. intros dir w2 w2' S2. rewrite h_path_b, !file_name_b. change (cpp_path E') with (cpp_path E).
    apply open_b; [|exact S2]. destruct (enum_files_stamp (find_top i1) inputs (file_name E (cpp_path E dir (o_enum_file o))) (file_name E (h_path E dir (o_enum_file o)))) as (mid & tl & M & EQ).
    rewrite !EQ. apply texts_stamp; auto; try (now left). rewrite <- EQ. apply good_enum_files.
  - intros r2 w2 w2' S2. apply bind_b; [|intros r3 w3 w3' S3; split; auto].
    destruct (skipped (o_structs_file o)); [apply bind_b; [now apply say_b|]; intros _ w3 w3' S3; split; auto|].
    unfold process_all_structs. apply bind_b; [now apply dir_b|]. intros dir w3 w3' S3. rewrite h_path_b, !file_name_b. change (cpp_path E') with (cpp_path E). cbv zeta.
    destruct (struct_files_stamp b (find_top i1) inputs o (file_name E (cpp_path E dir (o_structs_file o))) (file_name E (h_path E dir (o_structs_file o)))) as (c1 & c2 & h1 & h2 & mid & tl & ok & M & N1 & E1 & N2 & E2 & EQ).
    pose proof (good_struct_files b (find_top i1) inputs o (file_name E (cpp_path E dir (o_structs_file o))) (file_name E (h_path E dir (o_structs_file o))) info) as G.
    rewrite !EQ in *. cbn [fst snd] in *. apply open_b; [|exact S3]. now apply texts_stamp.
Qed.
Lemma output_b msg shown t base i inputs o w w' : same w w' -> alike (output E msg shown t base i inputs o w) (output E' msg shown t base i inputs o w').
Proof.
  intros S. unfold output. destruct (backend_of t) as [b|].
  - apply bind_b; [now apply items_b|]. intros [i1 r1] w1 w1' S1. split; auto.
  - apply bind_b; [now apply say_b|]. intros _ w1 w1' S1. split; auto.
Qed.
Lemma unread_b q f : forall f', same_but_stamp s s' f f' -> Cpp.assoc q f = None -> Cpp.assoc q f' = None.
Proof.
  induction f as [|[k v] f IH]; intros f' F; inversion F as [|p [k' v'] l l' [K V] T]; subst; cbn in *; [auto|]. subst k'. destruct (String.eqb _ _); [discriminate|auto].
Qed.
Lemma input_b p h w w' : Cpp.assoc p (w_files w) = None -> same w w' -> alike (input_file E p h w) (input_file E' p h w').
Proof.
  intros U S. unfold input_file, content. rewrite U. destruct S as [F (l & L & L')]. rewrite (unread_b p _ _ F U). change (e_disk E') with (e_disk E).
  destruct (process_input_file (e_disk E p) h) as [[[h' ok] m]|]; [|split; eauto]. destruct (log_all p m) as [x|]; [|split; eauto].
  cbn. split; [reflexivity|]. split; [exact F|]. exists (l ++ x). cbn [w_log]. rewrite L, L'. auto.
Qed.
Lemma inputs_b base good bad fs : fits_args good 1 = true -> fits_args bad 1 = true -> forall b h w w', reach b h -> (forall f, In f fs -> Cpp.assoc (join E base f) (w_files w) = None) -> same w w' ->
  alike (input_files E base good bad fs h w) (input_files E' base good bad fs h w').
Proof.
  intros G B. induction fs as [|f fs IH]; intros b h w w' R U S; cbn [input_files]; [split; auto|]. change (join E') with (join E).
  pose proof (input_b (join E base f) h w w' (U f (or_introl eq_refl)) S) as X.
  destruct (input_file_run E (join E base f) b h w R) as (h1 & r & l & Q & R1 & _). rewrite Q in *.
  destruct (input_file E' (join E base f) h w') as [[h2 r2] w2|w2]; [|contradiction]. destruct X as [[= <- <-] S1].
  rewrite !say_good by (destruct r; assumption). eapply IH; [exact R1| |].
  - intros g I. cbn [w_files]. apply U. now right.
  - destruct S1 as [F (k & L & L')]. split; [exact F|]. cbn [w_log] in *. exists (k ++ [Line (line_text (if r then good else bad) [join E base f] ++ NL)]). rewrite L, L'. auto.
Qed.
Lemma sections_b base common shown ss : forall c w w', reach true (Heap (copy_info c) c) ->
  (forall x f, In x ss -> In f (fst x) -> Cpp.assoc (join E base f) (w_files w) = None /\ ~ In (join E base f) (flat_map (paths_of E base) (map snd ss))) -> same w w' ->
  alike (sections E base common shown ss c w) (sections E' base common shown ss c w').
Proof.
  induction ss as [|[fs [t o]] ss IH]; intros c w w' R U S; cbn [sections]; [split; auto|].
  pose proof (inputs_b base mn_189 mn_193 fs eq_refl eq_refl _ _ w w' R (fun f I => proj1 (U _ f (or_introl eq_refl) I)) S) as X.
  destruct (input_files_run E base mn_189 mn_193 fs eq_refl eq_refl true _ w R) as (h & w1 & Q & F1 & R1 & _). rewrite Q in *.
  destruct (input_files E' base mn_189 mn_193 fs (Heap (copy_info c) c) w') as [h' w1'|w1']; [|contradiction]. destruct X as [<- S1].
  pose proof (output_b mn_230 shown t base (h_self h) (common ++ fs) o w1 w1' S1) as Y.
  destruct (output_run E mn_230 shown t base (h_self h) (common ++ fs) o w1 eq_refl) as [Z1 Z2]. destruct (blocked E base (t, o)).
  - destruct (Z2 eq_refl) as (w2 & Q2 & _). rewrite Q2 in *. destruct (output E' mn_230 shown t base (h_self h) (common ++ fs) o w1') as [|w2']; [contradiction|exact Y].
  - destruct (Z1 eq_refl) as (i1 & w2 & Q2 & _ & SB & _). rewrite Q2 in *. destruct (output E' mn_230 shown t base (h_self h) (common ++ fs) o w1') as [i1' w2'|w2']; [|contradiction].
    destruct Y as [_ S2]. apply IH; [destruct h as [hs hc]; exact (R_next_section _ R1)| |exact S2].
    intros x f I J. destruct (U x f (or_intror I) J) as [U1 U2]. cbn [map snd flat_map] in U2. split.
    + rewrite (SB (join E base f)); [now rewrite F1|]. intros K. apply U2. apply in_or_app. now left.
    + intros K. apply U2. apply in_or_app. now right.
Qed.
(** No input of a section is an output of the same run. *)
Definition inputs_kept (p : string) (c : conf) : Prop :=
  forall x f, In x (c_non c) -> In f (fst x) -> ~ In (join E (parent E p) f) (flat_map (paths_of E (parent E p)) (outputs c)).
Lemma header_b p w w' : w_files w = [] -> same w w' -> alike (process_single_header E p w) (process_single_header E' p w').
Proof.
  intros NF S. unfold process_single_header. apply bind_b; [apply input_b; [now rewrite NF|exact S]|]. intros [h ok] w1 w1' S1.
  apply bind_b; [|intros _ w2 w2' S2; split; auto]. rewrite parent_b, file_name_b. destruct ok; [|now apply say_b].
  apply bind_b; [now apply say_b|]. intros _ w2 w2' S2. apply bind_b; [now apply items_b|]. intros [i r] w3 w3' S3. now apply say_b.
Qed.
Lemma conf_b p w w' : w_files w = [] -> (forall c, e_conf E (e_disk E p) = CRead c -> inputs_kept p c) -> same w w' ->
  alike (process_stfx_file E p w) (process_stfx_file E' p w').
Proof.
  intros NF K S. unfold process_stfx_file. change (e_conf E') with (e_conf E). rewrite parent_b.
  assert (C1 : content E p w = e_disk E p) by (unfold content; now rewrite NF).
  assert (C2 : content E' p w' = e_disk E p).
  { unfold content. destruct S as [F _]. rewrite (unread_b p _ _ F); [reflexivity|now rewrite NF]. }
  rewrite C1, C2. destruct (e_conf E (e_disk E p)) as [|c|] eqn:EC; [apply bind_b; [now apply say_b|]; intros _ w1 w1' S1; split; auto| |exact S].
  specialize (K c eq_refl). unfold inputs_kept, outputs in K. cbn [flat_map] in K.
  pose proof (inputs_b (parent E p) mn_128 mn_132 (c_in c) eq_refl eq_refl _ _ w w' R_start (fun f _ => ltac:(now rewrite NF)) S) as X.
  destruct (input_files_run E (parent E p) mn_128 mn_132 (c_in c) eq_refl eq_refl false _ w R_start) as (h & w1 & Q & F1 & R1 & _). rewrite Q in *.
  destruct (input_files E' (parent E p) mn_128 mn_132 (c_in c) (Heap info0 info0) w') as [h' w1'|w1']; [|contradiction]. destruct X as [<- S1].
  pose proof (say_b mn_137 [] w1 w1' S1) as X. rewrite !say_good in * by reflexivity. destruct X as [_ S2].
  set (v := World (w_files w1) _) in *. set (v' := World (w_files w1') _) in *. assert (FV : w_files v = []) by (unfold v; cbn; congruence). clearbody v v'.
  destruct (c_out c) as [t o].
  pose proof (output_b mn_172 t t (parent E p) (h_self h) (c_in c) o v v' S2) as Y.
  destruct (output_run E mn_172 t t (parent E p) (h_self h) (c_in c) o v eq_refl) as [Z1 Z2]. destruct (blocked E (parent E p) (t, o)).
  - destruct (Z2 eq_refl) as (w3 & Q3 & _). rewrite Q3 in *. destruct (output E' mn_172 t t (parent E p) (h_self h) (c_in c) o v') as [|w3']; [contradiction|exact Y].
  - destruct (Z1 eq_refl) as (i1 & w3 & Q3 & I1 & SB & _). rewrite Q3 in *. destruct (output E' mn_172 t t (parent E p) (h_self h) (c_in c) o v') as [i1' w3'|w3']; [|contradiction].
    destruct Y as [<- S3]. apply bind_b; [|intros _ w4 w4' S4; split; auto]. apply sections_b; [| |exact S3].
    + destruct h as [hs hc]. cbn [h_self] in I1. destruct I1 as [->| ->]; [exact (R_first_section _ R1)|exact (R_first_section _ (R_top _ _ (R_fixup _ _ R1)))].
    + intros x f I J. specialize (K x f I J). split; [|intros Z; apply K, in_or_app; now right].
      rewrite (SB (join E (parent E p) f)); [now rewrite FV|]. intros Z. apply K, in_or_app. now left.
Qed.
Theorem stfx_builds argv0 args : (forall a rest p c, args = a :: rest -> e_canonical E a = Some p -> e_conf E (e_disk E p) = CRead c -> inputs_kept p c) ->
  alike (stfx E argv0 args) (stfx E' argv0 args).
Proof.
  intros K. unfold stfx. rewrite !start_say. change (e_exists E') with (e_exists E). change (e_canonical E') with (e_canonical E).
  assert (S0 : same (w_first E) (w_first E')).
  { split; [constructor|]. exists []. unfold w_first. cbn [w_log]. split; reflexivity. }
  assert (NF : w_files (w_first E) = []) by reflexivity.
  destruct args as [|a rest]; [apply bind_b; [now apply say_b|]; intros _ w1 w1' S1; split; auto|].
  destruct (e_exists E a); [|apply bind_b; [now apply say_b|]; intros _ w1 w1' S1; split; auto].
  destruct (e_canonical E a) as [p|] eqn:C; [|exact S0]. rewrite extension_b.
  apply bind_b; [|intros rv w1 w1' S1; apply bind_b; [now apply say_b|]; intros _ w2 w2' S2; split; auto].
  destruct (String.eqb (extension E p) ".stfx"); [|now apply header_b]. apply conf_b; auto. intros c EC. exact (K a rest p c eq_refl C EC).
Qed.
End Builds.
