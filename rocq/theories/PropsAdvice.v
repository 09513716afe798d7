(** C66: the advice given with a shadowing error. *)
From Verif Require Import Base Utf8 Errors Lex Ast Parse Descriptor ParseApi Paths Resolver ErrText Compiler CompilerProofs CompilerHistory WalkG3 Meaning
  PropsParse PropsLoc PropsLines PropsPaths PropsImport PropsCompiler PropsDefault PropsName Utf8Spec SynSpec Utf8Lossy.

Section Advice.
Variables (k : cfg) (sort : list location -> list location) (google : bytes -> bytes) (lk : linker) (fs : filesystem).
Definition default_at (includes : list bytes) : nat -> resolver := default_rs k sort google includes (fun _ => fs).

(** A name that paths resolve to: ordinary UTF-8 components separated by slashes. *)
Definition ordinary (n : bytes) : Prop := exists ns, ns <> [] /\ Forall PropsPaths.plain ns /\ Forall (fun s => utf8_valid s = true) ns /\ n = join_slash ns.
(** The file system gives the same answer for paths that differ in ["."] components and repeated slashes only. *)
Definition ignores_dots : Prop := forall d n d' n', ordinary n -> ordinary n' ->
  real_components (path_join d n) = real_components (path_join d' n') -> fs (path_join d n) = fs (path_join d' n').

(** After some calls, opening [path] fails because it is shadowed by [shadow]. *)
Definition shadowed (includes : list bytes) (path n shadow : bytes) : Prop :=
  exists ok c fuel p c', history (default_at includes) lk ok c /\
    open_file (default_at includes) lk fuel path c = Done (inr (EFileShadowed n p shadow), c').
(** Passing the shadowing path instead, again and again. *)
Inductive follows (includes : list bytes) : bytes -> list bytes -> Prop :=
| fo_end path : follows includes path []
| fo_next path n shadow rest : shadowed includes path n shadow -> follows includes shadow rest -> follows includes path (shadow :: rest).

Lemma resolve_ordinary d path n : include_resolve_path d path = Some n -> ordinary n.
Proof. intros H. apply C42_resolve_path_iff in H. destruct H as (ns & H1 & H2 & H3 & H4 & _). exists ns. auto. Qed.
Lemma missing_dec n d : missing k sort fs n d \/ ~ missing k sort fs n d.
Proof.
  destruct (C48_open_total k sort fs n (path_join d n)) as (r & E & _). unfold missing. rewrite E. destruct r as [f|e].
  - right. intros (e & E' & _). discriminate.
  - destruct (is_file_not_found e) eqn:En; [left; eauto|right]. intros (e' & [= <-] & E'). congruence.
Qed.
Lemma resolve_first includes path n : r_resolve (default_resolver k sort fs google includes) path = Some n ->
  exists pre d post, includes = pre ++ d :: post /\ (forall x, In x pre -> include_resolve_path x path = None) /\ include_resolve_path d path = Some n.
Proof.
  intros H. destruct (C49_default_resolve k sort google includes fs path) as [H1 H2].
  destruct (first_split (fun d => include_resolve_path d path = None) includes) as [(pre & d & post & E & A & B)|A].
  - intros d. destruct (include_resolve_path d path); [right; discriminate|now left].
  - exists pre, d, post. split; [exact E|]. split; [exact A|]. rewrite <- (H1 _ _ _ E A B). exact H.
  - rewrite (H2 A) in H. discriminate.
Qed.
Lemma open_first includes n f s : r_open (default_resolver k sort fs google includes) n = Done (inl f) -> pf_path f = Some s ->
  exists pre d post, includes = pre ++ d :: post /\ (forall x, In x pre -> missing k sort fs n x) /\ file_open k sort fs n (path_join d n) = Done (inl f) /\ s = path_join d n.
Proof.
  intros H Hs. destruct (C49_default_open k sort google includes fs n) as (H1 & H2 & H3).
  destruct (first_split (missing k sort fs n) includes (missing_dec n)) as [(pre & d & post & E & A & B)|A].
  - exists pre, d, post. rewrite (H1 _ _ _ E A B) in H. split; [exact E|]. split; [exact A|]. split; [exact H|].
    destruct (C48_open_total k sort fs n (path_join d n)) as (r & Er & Hr). rewrite Er in H. injection H as ->. destruct Hr as (_ & Hp & _). congruence.
  - exfalso. destruct (existsb (bytes_eqb n) bundled) eqn:E.
    + rewrite H2 in H; [|exact A|now apply existsb_In]. unfold file_from_source in H. destruct (parse _ _ _ _) as [[[d|e] a]| |]; cbn [obind] in H; [|discriminate..]. injection H as <-. discriminate Hs.
    + rewrite H3 in H; [discriminate|exact A|]. intros Hn. apply existsb_In in Hn. congruence.
Qed.
Lemma file_open_other n p n' p' f : file_open k sort fs n p = Done (inl f) -> fs p = fs p' -> exists f', file_open k sort fs n' p' = Done (inl f').
Proof.
  unfold file_open. intros H <-. revert H. generalize i32_max. intros M. destruct (fs p) as [e|h]; [discriminate|]. destruct (fs_len h) as [e|m]; [discriminate|].
  destruct (M <? m); [discriminate|]. destruct (fs_read h) as [e|content]; [discriminate|]. cbv zeta. destruct (utf8_valid _); [|discriminate].
  destruct (parse k sort n _) as [[[d|e] a]| |] eqn:E; cbn [obind]; [|discriminate..]. intros _. apply (C65_name k sort n n') in E. destruct E as [_ ->]. cbn [obind]. eauto.
Qed.

(** What a shadowing error means. *)
Lemma shadowed_inv includes path n p s ok c fuel c' : sorting sort -> linker_ok lk -> history (default_at includes) lk ok c ->
  open_file (default_at includes) lk fuel path c = Done (inr (EFileShadowed n p s), c') ->
  p = path /\ r_resolve (default_resolver k sort fs google includes) path = Some n /\
  exists f, r_open (default_resolver k sort fs google includes) n = Done (inl f) /\ pf_path f = Some s /\ path_eq s path = false.
Proof.
  intros Hs Hl Hh Ho. destruct (C49_default_well_behaved k sort google includes (fun _ => fs) Hs) as (Hn & _ & _ & _ & _ & Hf & _).
  fold (default_at includes) in *. pose proof (history_Inv _ lk Hn Hl _ _ Hh) as HI.
  pose proof Ho as Ho'. eapply open_file_spec in Ho'; eauto. destruct Ho' as (_ & _ & [[Ho' _]|(_ & Hx & _)]); [|discriminate Hx].
  assert (Q : forall m, fails (default_at includes) m (EFileShadowed n p s) -> False) by (intros m H; destruct (Hf _ _ H) as [_ []]).
  assert (R : forall m b, requested (default_at includes) c path = Some (m, b) -> b = true -> r_resolve (default_resolver k sort fs google includes) path = Some m).
  { intros m b0 H ->. unfold requested in H. change (r_resolve (default_at includes (c_tick c)) path) with (r_resolve (default_resolver k sort fs google includes) path) in H. destruct (r_resolve _ path); [congruence|]. destruct (path_to_file_name _); discriminate. }
  inversion Ho'; subst; try discriminate.
  - exfalso; eauto.
  - split; [reflexivity|]. split; [eauto|]. match goal with H : lookup _ _ = Some ?m |- _ => apply lookup_In in H; rename H into Hm; rename m into mm end.
    pose proof (inv_from _ _ HI) as HF. assert (G : exists f, opened (default_at includes) n f /\ fm_path mm = pf_path f).
    { clear -Hm HF. induction HF as [|d km pool fs0 [H1 H2] HF IH]; [destruct Hm|]. destruct Hm as [-> |Hm]; [|auto]. cbn [fst snd] in *. destruct H2 as (f & G). exists f. intuition congruence. }
    destruct G as (f & [t Hf'] & Hp). exists f. split; [exact Hf'|]. split; congruence.
  - split; [reflexivity|]. split; [eauto|]. match goal with H : opened _ _ ?f |- _ => destruct H as [t Hf']; exists f; split; [exact Hf'|]; split; assumption end.
  - exfalso. match goal with H : loop_err _ _ _ _ _ _ |- _ => inversion H; subst end. match goal with H : load_err _ _ _ _ _ |- _ => inversion H; subst end. eauto.
Qed.

Lemma split_cmp {A} (a a' c c' : list A) x x' : a ++ x :: c = a' ++ x' :: c' ->
  (exists m, a' = a ++ x :: m) \/ (a = a' /\ x = x') \/ (exists m, a = a' ++ x' :: m).
Proof.
  revert a'. induction a as [|y a IH]; intros [|y' a'] E; cbn [app] in E; injection E as E1 E2; subst.
  - auto.
  - left. eexists. reflexivity.
  - right; right. eexists. reflexivity.
  - destruct (IH _ E2) as [[m ->]|[[-> ->]|[m ->]]]; [left; exists m; reflexivity|auto|right; right; exists m; reflexivity].
Qed.
Lemma resolve_join d n : ordinary n -> include_resolve_path d (path_join d n) = Some n.
Proof.
  intros (ns & H1 & H2 & H3 & ->). apply C42_resolve_path_iff. exists ns. split; [exact H1|]. split; [exact H2|]. split; [exact H3|]. split; [reflexivity|].
  unfold real_components at 1. rewrite components_join by assumption. rewrite filter_app, filter_normal. reflexivity.
Qed.
(** The [i]-th include directory is the first one that has [n], and [s] is its path there. *)
Definition found (includes : list bytes) (i : nat) (n s : bytes) : Prop :=
  exists pre d post f, includes = pre ++ d :: post /\ length pre = i /\ (forall x, In x pre -> missing k sort fs n x) /\
    file_open k sort fs n (path_join d n) = Done (inl f) /\ s = path_join d n.
Lemma file_not_missing n d f : file_open k sort fs n (path_join d n) = Done (inl f) -> ~ missing k sort fs n d.
Proof. intros H (e & E & _). congruence. Qed.

Hypotheses (Hsort : sorting sort) (Hlk : linker_ok lk).
Lemma shadowed_found includes path n s : shadowed includes path n s ->
  r_resolve (default_resolver k sort fs google includes) path = Some n /\ ordinary n /\ path_eq s path = false /\ exists i, found includes i n s.
Proof.
  intros (ok & c & fuel & p & c' & Hh & Ho). destruct (shadowed_inv _ _ _ _ _ _ _ _ _ Hsort Hlk Hh Ho) as (-> & Hr & f & Hf & Hp & He).
  split; [exact Hr|]. destruct (resolve_first _ _ _ Hr) as (pre & d & post & _ & _ & Hd). split; [eapply resolve_ordinary; eauto|]. split; [exact He|].
  destruct (open_first _ _ _ _ Hf Hp) as (pre' & d' & post' & E & A & B & C). exists (length pre'), pre', d', post', f. auto.
Qed.
(** An existing path is shadowed by an earlier directory. *)
Lemma shadowed_earlier includes path n s pre d post : shadowed includes path n s ->
  includes = pre ++ d :: post -> (forall x, In x pre -> include_resolve_path x path = None) -> include_resolve_path d path = Some n -> ~ missing k sort fs n d ->
  forall i, found includes i n s -> (i < length pre)%nat.
Proof.
  intros Hs E Hpre Hd Hm i (pre' & d' & post' & f & E' & <- & A & B & C). destruct (shadowed_found _ _ _ _ Hs) as (_ & _ & He & _).
  rewrite E in E'. apply split_cmp in E'. destruct E' as [[m ->]|[[-> ->]|[m ->]]].
  - exfalso. apply Hm, A. apply in_or_app. right. now left.
  - exfalso. subst s. destruct (C42_resolve_then_open_agree _ _ _ Hd) as [G _]. apply path_eq_iff in G. congruence.
  - rewrite app_length. cbn [length]. lia.
Qed.
Lemma step includes i n s n2 s2 : ignores_dots -> found includes i n s -> ordinary n -> shadowed includes s n2 s2 ->
  forall i2, found includes i2 n2 s2 -> (i2 + 2 <= i)%nat.
Proof.
  intros Hd Hfd Ho Hs i2 Hfd2. destruct (shadowed_found _ _ _ _ Hs) as (Hr & Ho2 & He & _).
  destruct (resolve_first _ _ _ Hr) as (pre1 & d1 & post1 & E1 & A1 & B1).
  pose proof Hfd as (pre & d & post & f & E & <- & A & B & ->).
  assert (H1 : ~ missing k sort fs n2 d1).
  { destruct (C42_resolve_then_open_agree _ _ _ B1) as [G _]. destruct (file_open_other _ _ n2 (path_join d1 n2) _ B) as [f' Hf']; [apply Hd; auto|]. eapply file_not_missing; eauto. }
  pose proof (shadowed_earlier _ _ _ _ _ _ _ Hs E1 A1 B1 H1 _ Hfd2) as Hlt.
  rewrite E in E1. apply split_cmp in E1. destruct E1 as [[m ->]|[[<- <-]|[m ->]]].
  - exfalso. specialize (A1 d). rewrite resolve_join in A1 by exact Ho. discriminate A1. apply in_or_app. right. now left.
  - exfalso. rewrite resolve_join in B1 by exact Ho. injection B1 as <-. destruct Hfd2 as (pre2 & d2 & post2 & f2 & E2 & <- & A2 & B2 & _).
    rewrite E in E2. apply split_cmp in E2. destruct E2 as [[m ->]|[[-> ->]|[m ->]]]; [rewrite app_length in Hlt; cbn [length] in Hlt; lia|lia|].
    eapply file_not_missing; [exact B2|]. apply A. apply in_or_app. right. now left.
  - rewrite app_length. cbn [length]. lia.
Qed.
Lemma follows_bound includes : ignores_dots -> forall l i n s, found includes i n s -> ordinary n -> follows includes s l -> (2 * length l <= i)%nat.
Proof.
  intros Hd. induction l as [|s2 l IH]; intros i n s Hf Ho H; [cbn; lia|]. inversion H as [|? n2 ? ? Hs Hr]; subst.
  destruct (shadowed_found _ _ _ _ Hs) as (_ & Ho2 & _ & i2 & Hf2). pose proof (step _ _ _ _ _ _ Hd Hf Ho Hs _ Hf2). pose proof (IH _ _ _ Hf2 Ho2 Hr). cbn [length]. lia.
Qed.
Lemma found_lt includes i n s : found includes i n s -> (i < length includes)%nat.
Proof. intros (pre & d & post & f & -> & <- & _). rewrite app_length. cbn [length]. lia. Qed.

(** *** The first advice: pass the shadowing path *)
(** Following it ends: after at most half as many steps as there are include directories (rounded up), the path is not shadowed.
    If every include directory that [path] lies in has the file, then rounded down: with at most three directories, the first step is the last. *)
Theorem C66_pass_the_shadow includes path l : ignores_dots -> follows includes path l ->
  (2 * length l <= length includes + 1)%nat /\
  ((forall d n, In d includes -> include_resolve_path d path = Some n -> ~ missing k sort fs n d) -> (2 * length l <= length includes)%nat).
Proof.
  intros Hd H. destruct H as [|path n s l Hs Hl]; [cbn; lia|]. destruct (shadowed_found _ _ _ _ Hs) as (Hr & Ho & _ & i & Hf).
  pose proof (follows_bound _ Hd _ _ _ _ Hf Ho Hl). pose proof (found_lt _ _ _ _ Hf). cbn [length]. split; [lia|]. intros Hx.
  destruct (resolve_first _ _ _ Hr) as (pre & d & post & E & A & B).
  assert (Hi : In d includes) by (rewrite E; apply in_or_app; right; now left).
  pose proof (shadowed_earlier _ _ _ _ _ _ _ Hs E A B (Hx _ _ Hi B) _ Hf). rewrite E in *. rewrite app_length in *. cbn [length] in *. lia.
Qed.

(** The path advised lies in an include directory, and the file that shadows is there. *)
Theorem C66_shadow_exists includes path n s : shadowed includes path n s ->
  path_eq s path = false /\ exists pre d post f, includes = pre ++ d :: post /\ s = path_join d n /\ (forall x, In x pre -> missing k sort fs n x) /\
    file_open k sort fs n s = Done (inl f) /\ exists n', r_resolve (default_resolver k sort fs google includes) s = Some n'.
Proof.
  intros Hs. destruct (shadowed_found _ _ _ _ Hs) as (_ & Ho & He & i & pre & d & post & f & E & _ & A & B & C). split; [exact He|]. exists pre, d, post, f. split; [exact E|]. split; [exact C|]. split; [exact A|].
  split; [rewrite C; exact B|]. destruct (C49_default_resolve k sort google includes fs s) as [H1 _].
  destruct (first_split (fun d => include_resolve_path d s = None) includes) as [(pre' & d' & post' & E' & A' & B')|A'].
  - intros x. destruct (include_resolve_path x s); [right; discriminate|now left].
  - rewrite (H1 _ _ _ E' A' B'). destruct (include_resolve_path d' s); [eauto|congruence].
  - exfalso. specialize (A' d). rewrite C, resolve_join in A' by exact Ho. discriminate A'. rewrite E. apply in_or_app. right. now left.
Qed.

(** *** The second advice: put the directory of [path] first *)
(** Then [path] is not shadowed, if the directory has the file; if it does not, the advice cannot help, wherever the directory is put. *)
Theorem C66_reorder d rest path n : include_resolve_path d path = Some n ->
  (~ missing k sort fs n d -> forall n' s, ~ shadowed (d :: rest) path n' s) /\
  (ignores_dots -> missing k sort fs n d -> forall i s fuel, found rest i n s ->
     exists c', open_file (default_at (d :: rest)) lk fuel path compiler_new = Done (inr (EFileShadowed n path s), c')).
Proof.
  intros Hd. split.
  - intros Hm n' s Hs. pose proof Hs as Hs'. apply shadowed_found in Hs'. destruct Hs' as (Hr & _ & _ & i & Hf).
    destruct (C49_default_resolve k sort google (d :: rest) fs path) as [H1 _]. cbn zeta in H1. rewrite (H1 [] d rest eq_refl) in Hr; [|intros ? []|congruence].
    rewrite Hd in Hr. injection Hr as <-. pose proof (shadowed_earlier _ _ _ _ [] d rest Hs eq_refl (fun x (H : In x []) => match H with end) Hd Hm i Hf). cbn in *. lia.
  - intros Hdots Hm i s fuel (pre & d' & post & f & -> & _ & A & B & ->).
    destruct (C49_default_resolve k sort google (d :: pre ++ d' :: post) fs path) as [H1 _]. destruct (C49_default_open k sort google (d :: pre ++ d' :: post) fs n) as [H2 _].
    specialize (H1 [] d _ eq_refl (fun x (H : In x []) => match H with end) ltac:(congruence)). specialize (H2 (d :: pre) d' post eq_refl).
    assert (H3 : forall d0, In d0 (d :: pre) -> missing k sort fs n d0) by (intros x [<-|Hx]; [exact Hm|apply A; exact Hx]).
    specialize (H2 H3 (file_not_missing _ _ _ B)). rewrite B in H2.
    unfold open_file. cbn [compiler_new c_tick]. change (default_at (d :: pre ++ d' :: post) 0) with (default_resolver k sort fs google (d :: pre ++ d' :: post)). rewrite H1, Hd.
    unfold open_named. cbn [tick compiler_new c_files lookup]. unfold call_open. cbn [c_tick tick]. match goal with |- context [r_open (default_at ?l ?t) n] => change (default_at l t) with (default_resolver k sort fs google l) end.
    rewrite H2. cbn [obind].
    destruct (C48_open_total k sort fs n (path_join d' n)) as (r & Er & Hr). rewrite B in Er. injection Er as <-. destruct Hr as (_ & -> & _). unfold check_shadow.
    destruct (path_eq (path_join d' n) path) eqn:Ep; [|eexists; reflexivity]. exfalso. apply path_eq_iff in Ep.
    destruct (C42_resolve_then_open_agree _ _ _ Hd) as [G _]. pose proof (resolve_ordinary _ _ _ Hd) as Ho.
    destruct (file_open_other _ _ n (path_join d n) _ B) as [f' Hf']; [apply Hdots; auto; congruence|]. eapply file_not_missing; eauto.
Qed.
End Advice.
Print Assumptions C66_pass_the_shadow.
Print Assumptions C66_shadow_exists.
Print Assumptions C66_reorder.

(** *** The text of the advice *)
(** It names the two paths, the shadowing one first (with replacement characters for what is not UTF-8). *)
Theorem C66_text k sort google lk fs includes path n p s ok c fuel c' : sorting sort -> linker_ok lk ->
  history (default_at k sort google fs includes) lk ok c ->
  open_file (default_at k sort google fs includes) lk fuel path c = Done (inr (EFileShadowed n p s), c') ->
  exists path' s', lossy path path' /\ lossy s s' /\
    error_help (EFileShadowed n p s) = Some (b "either pass '" ++ s' ++ b "' as the input file, or re-order the include paths so that '" ++ path' ++ b "' comes first").
Proof.
  intros Hs Hl Hh Ho. destruct (shadowed_inv _ _ _ _ _ _ _ _ _ _ _ _ _ _ Hs Hl Hh Ho) as (-> & _).
  exists (path_display path), (path_display s). split; [apply lossy_spec|]. split; [apply lossy_spec|]. cbn [error_help]. unfold quoted. rewrite <- !app_assoc. reflexivity.
Qed.
Print Assumptions C66_text.

(** ** Examples *)
(** Empty files at the given places, and nothing else. *)
Definition empty_files (l : list bytes) : filesystem := fun p =>
  if existsb (path_eq p) l then inr {| fs_len := inr 0; fs_read := inr [] |} else inl IoNotFound.
Lemma empty_files_dots l : ignores_dots (empty_files l).
Proof.
  intros d n d' n' _ _ E. unfold empty_files. enough (G : forall x, path_eq (path_join d n) x = path_eq (path_join d' n') x).
  { induction l as [|x l IH]; [reflexivity|]. cbn [existsb]. rewrite G. destruct (path_eq (path_join d' n') x); [reflexivity|exact IH]. }
  intros x. pose proof (path_eq_iff (path_join d n) x) as H1. pose proof (path_eq_iff (path_join d' n') x) as H2. rewrite E in H1.
  destruct (path_eq (path_join d n) x), (path_eq (path_join d' n') x); try reflexivity; exfalso; intuition congruence.
Qed.
Definition ex_shadow (fs : filesystem) (includes : list bytes) (path : bytes) : option (bytes * bytes) :=
  match open_file (default_at ex_k0 loc_sort ex_google fs includes) ex_lk 9 path compiler_new with Done (inr (EFileShadowed n _ s), _) => Some (n, s) | _ => None end.
Lemma ex_shadowed fs includes path n s : ex_shadow fs includes path = Some (n, s) -> shadowed ex_k0 loc_sort ex_google ex_lk fs includes path n s.
Proof.
  unfold ex_shadow. destruct (open_file _ _ _ _ _) as [[[u|[]] c']| |] eqn:E; try discriminate. intros [= <- <-]. exists [], compiler_new, 9%nat, path0, c'. split; [constructor|exact E].
Qed.
(** Four directories, one inside another: the advice has to be followed twice, which is the bound. *)
Definition ex_places := empty_files [b "z/q/f.proto"; b "p/q/f.proto"; b "r/f.proto"].
Definition ex_dirs := [b "z"; b "p"; b "p/q"; b "r"].
Example C66_ex_twice : follows ex_k0 loc_sort ex_google ex_lk ex_places ex_dirs (b "r/f.proto") [b "p/q/f.proto"; b "z/q/f.proto"] /\
  ex_shadow ex_places ex_dirs (b "z/q/f.proto") = None.
Proof.
  split; [|lazy; reflexivity].
  eapply fo_next with (n := b "f.proto"); [apply ex_shadowed; lazy; reflexivity|]. eapply fo_next with (n := b "q/f.proto"); [apply ex_shadowed; lazy; reflexivity|]. constructor.
Qed.
(** A path that does not exist is reported as shadowed by a directory that comes after it, and putting its directory first does not help. *)
Example C66_ex_nonexistent : ex_shadow (empty_files [b "inc2/foo.proto"]) [b "inc1"; b "inc2"] (b "inc1/foo.proto") = Some (b "foo.proto", b "inc2/foo.proto").
Proof. lazy. reflexivity. Qed.
Example C66_ex_missing : missing ex_k0 loc_sort (empty_files [b "inc2/foo.proto"]) (b "foo.proto") (b "inc1") /\ include_resolve_path (b "inc1") (b "inc1/foo.proto") = Some (b "foo.proto") /\
  found ex_k0 loc_sort (empty_files [b "inc2/foo.proto"]) [b "inc2"] 0 (b "foo.proto") (b "inc2/foo.proto").
Proof.
  split; [eexists; split; [lazy; reflexivity|reflexivity]|]. split; [reflexivity|]. exists [], (b "inc2"), []. eexists. split; [reflexivity|]. split; [reflexivity|]. split; [intros x []|]. split; [lazy; reflexivity|reflexivity].
Qed.
Example C66_ex_reordered : ex_shadow (empty_files [b "inc1/foo.proto"; b "inc2/foo.proto"]) [b "inc2"; b "inc1"] (b "inc1/foo.proto") = Some (b "foo.proto", b "inc2/foo.proto") /\
  ex_shadow (empty_files [b "inc1/foo.proto"; b "inc2/foo.proto"]) [b "inc1"; b "inc2"] (b "inc1/foo.proto") = None /\
  ex_shadow (empty_files [b "inc1/foo.proto"; b "inc2/foo.proto"]) [b "inc2"; b "inc1"] (b "inc2/foo.proto") = None.
Proof. split; [|split]; lazy; reflexivity. Qed.
