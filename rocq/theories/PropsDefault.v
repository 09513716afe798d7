(** C48: opening files. C49: the default resolver. C50: [open_files] and [compile]. *)
From Coq Require Import Sorting.Permutation.
From Verif Require Import Base Utf8 Errors Lex Ast Parse Lines Descriptor Generate ParseApi PropsLines LexSafe Stream Grammar Walk WalkG3 Meaning
  GenProofs PropsParse PropsLoc Paths Resolver Compiler CompilerProofs CompilerHistory PropsImport PropsCompiler.

(** ** C48: [File::open] *)
(** The bytes of a regular file: its length is that of its contents. *)
Definition regular (fs : filesystem) (path content : bytes) : Prop :=
  exists h, fs path = inr h /\ fs_len h = inr (len content) /\ fs_read h = inr content.
(** The operating system fails to open the file. *)
Definition cannot_open (fs : filesystem) (path : bytes) (e : iokind) : Prop := fs path = inl e.

Definition with_path (path : bytes) (f : pfile) : pfile :=
  {| pf_path := Some path; pf_source := pf_source f; pf_desc := pf_desc f; pf_encoded := pf_encoded f |}.

Lemma firstn_len {A} (l : list A) M : len l <= M -> firstn (N.to_nat M) l = l.
Proof. intros H. apply firstn_all2. unfold len in H. lia. Qed.

Lemma parse_err_name k sort name src e a : parse k sort name src = Done (inr e, a) -> pe_name e = name.
Proof.
  unfold parse. destruct (i32_max <? len src); [cbn; now intros [= <- _]|]. destruct (parse_file k src) as [[[f|errs] x]| |]; cbn [obind]; try discriminate.
  - destruct (generate_file k sort f name src) as [[d|errs]| |]; cbn [obind]; try discriminate. destruct errs; cbn; [discriminate|now intros [= <- _]].
  - destruct errs; cbn; [discriminate|now intros [= <- _]].
Qed.
Section C48.
Variables (k : cfg) (sort : list location -> list location) (fs : filesystem).

(** Opening a regular file is parsing its contents, and recording the path; contents of more than 2^31 - 1 bytes,
    or that are not UTF-8, are reported as such. *)
Theorem C48_open_regular name path content : regular fs path content ->
  (2147483647 < len content -> file_open k sort fs name path = Done (inr (EFileTooLarge name))) /\
  (len content <= 2147483647 -> utf8_valid content = false -> file_open k sort fs name path = Done (inr (EFileInvalidUtf8 name))) /\
  (len content <= 2147483647 -> utf8_valid content = true -> exists r, file_from_source k sort name content = Done r /\
     file_open k sort fs name path = Done (match r with inl f => inl (with_path path f) | inr e => inr e end) /\
     match r with
     | inl f => pf_name f = name /\ pf_source f = Some content /\ pf_path f = None
     | inr e => exists pe, e = EParse pe /\ pe_name pe = name
     end).
Proof.
  intros (h & E1 & E2 & E3). unfold file_open. rewrite E1, E2, E3. change 2147483647 with i32_max. generalize (firstn_len content i32_max). generalize i32_max. intros M HM.
  split; [|split]; intros H.
  - rewrite (proj2 (N.ltb_lt _ _) H). reflexivity.
  - intros Hu. rewrite (proj2 (N.ltb_ge _ _) H), (HM H), Hu. reflexivity.
  - intros Hu. rewrite (proj2 (N.ltb_ge _ _) H), (HM H), Hu. unfold file_from_source.
    destruct (C01_parse_total k sort name content) as (r & a & E & _). rewrite E. cbn [obind]. destruct r as [d|e]; (eexists; split; [reflexivity|]).
    + split; [reflexivity|]. destruct (parse_ok_inv _ _ _ _ _ _ E) as (_ & f & _ & _ & (ls & _ & Ed)). repeat split. unfold pf_name. cbn [pf_desc]. rewrite Ed. reflexivity.
    + split; [reflexivity|]. exists e. split; [reflexivity|]. eapply parse_err_name; eauto.
Qed.

(** What the operating system reports is classified. *)
Theorem C48_open_fails name path e : cannot_open fs path e ->
  exists err, file_open k sort fs name path = Done (inr err) /\ err_file err = Some name /\
    (is_file_not_found err = true <-> e = IoNotFound) /\ (is_parse err = true <-> e = IoInvalidData) /\ (is_io err = true <-> e = IoOther).
Proof.
  intros E. unfold file_open. rewrite E. eexists. split; [reflexivity|]. destruct e; cbn; intuition discriminate.
Qed.

(** For any file system: never a panic; a file carries the name and the path it was asked for; an error names the file,
    and is of exactly one of the three classes. *)
Theorem C48_open_total name path : exists r, file_open k sort fs name path = Done r /\
  match r with
  | inl f => pf_name f = name /\ pf_path f = Some path /\ pf_encoded f = None /\ exists src, from_text k sort name src f /\ utf8_valid src = true
  | inr e => err_file e = Some name /\ (is_file_not_found e = true -> e = EFileNotFound name) /\ is_file_not_found e || is_parse e || is_io e = true
  end.
Proof.
  assert (Hio : forall e, err_file (map_io_err name path e) = Some name /\ (is_file_not_found (map_io_err name path e) = true -> map_io_err name path e = EFileNotFound name) /\
     is_file_not_found (map_io_err name path e) || is_parse (map_io_err name path e) || is_io (map_io_err name path e) = true).
  { intros []; cbn; repeat split; auto; discriminate. }
  unfold file_open. generalize i32_max. intros M. destruct (fs path) as [e|h]; [eexists; split; [reflexivity|apply Hio]|].
  destruct (fs_len h) as [e|n]; [eexists; split; [reflexivity|apply Hio]|]. destruct (M <? n); [eexists; split; [reflexivity|cbn; repeat split; auto; discriminate]|].
  destruct (fs_read h) as [e|content]; [eexists; split; [reflexivity|apply Hio]|]. cbv zeta. destruct (utf8_valid _) eqn:Eu; [|eexists; split; [reflexivity|apply Hio]].
  destruct (C01_parse_total k sort name (firstn (N.to_nat M) content)) as (r & a & E & _). rewrite E. cbn [obind]. destruct r as [d|e]; (eexists; split; [reflexivity|]); cbn beta iota.
  - destruct (parse_ok_inv _ _ _ _ _ _ E) as (_ & f & _ & _ & (ls & _ & Ed)). split; [unfold pf_name; cbn [pf_desc]; rewrite Ed; reflexivity|]. split; [reflexivity|]. split; [reflexivity|].
    eexists. split; [split; [reflexivity|exists a; exact E]|exact Eu].
  - split; [cbn; f_equal; eapply parse_err_name; eauto|]. split; [discriminate|reflexivity].
Qed.
End C48.
Print Assumptions C48_open_regular.
Print Assumptions C48_open_fails.
Print Assumptions C48_open_total.

(** ** C49: the default resolver *)
(** The files bundled with the library. *)
Definition bundled : list bytes :=
  map (fun s => b "google/protobuf/" ++ s ++ b ".proto")
    [b "any"; b "api"; b "descriptor"; b "duration"; b "empty"; b "field_mask"; b "source_context"; b "struct"; b "timestamp"; b "type"; b "wrappers"; b "compiler/plugin"].

Section C49.
Variables (k : cfg) (sort : list location -> list location) (google : bytes -> bytes) (includes : list bytes).

(** [File::open] reports that there is no such file in the directory. *)
Definition missing (fs : filesystem) (name dir : bytes) : Prop :=
  exists e, file_open k sort fs name (path_join dir name) = Done (inr e) /\ is_file_not_found e = true.

Lemma existsb_In n l : existsb (bytes_eqb n) l = true <-> In n l.
Proof.
  rewrite existsb_exists. split.
  - intros (x & Hx & E). apply bytes_eqb_eq in E. now subst.
  - intros H. exists n. split; auto. now apply bytes_eqb_eq.
Qed.
Lemma google_names_bundled : google_names = bundled.
Proof. reflexivity. Qed.

(** The file in the first include directory that has one; a bundled file only if no directory has it; and nothing else. *)
Theorem C49_default_open fs name :
  let r := r_open (default_resolver k sort fs google includes) name in
  (forall pre dir post, includes = pre ++ dir :: post -> (forall d, In d pre -> missing fs name d) -> ~ missing fs name dir ->
     r = file_open k sort fs name (path_join dir name)) /\
  ((forall d, In d includes -> missing fs name d) -> In name bundled -> r = file_from_source k sort name (google name)) /\
  ((forall d, In d includes -> missing fs name d) -> ~ In name bundled -> r = Done (inr (EFileNotFound name))).
Proof.
  unfold default_resolver. cbn [r_open chain_resolver]. 
  assert (Hskip : forall ds rest, (forall d, In d ds -> missing fs name d) -> chain_open (map (include_resolver k sort fs) ds ++ rest) name = chain_open rest name).
  { induction ds as [|d ds IH]; intros rest H; [reflexivity|]. cbn [map app chain_open include_resolver r_open]. destruct (H d (or_introl eq_refl)) as (e & E & En). rewrite E. cbn [obind]. rewrite En.
    apply IH. intros; apply H; now right. }
  split; [|split].
  - intros pre dir post -> Hp Hd. rewrite map_app, <- app_assoc, Hskip by exact Hp. cbn [map app chain_open include_resolver r_open].
    destruct (C48_open_total k sort fs name (path_join dir name)) as (r & E & _). rewrite E in *. cbn [obind]. destruct r as [f|e]; [reflexivity|].
    destruct (is_file_not_found e) eqn:En; [|reflexivity]. exfalso. apply Hd. exists e. auto.
  - intros H Hn. rewrite Hskip by exact H. cbn [chain_open google_resolver r_open]. rewrite google_names_bundled, (proj2 (existsb_In name bundled) Hn).
    unfold file_from_source. destruct (C01_parse_total k sort name (google name)) as (r & a & E & _). rewrite E. cbn [obind]. destruct r; reflexivity.
  - intros H Hn. rewrite Hskip by exact H. cbn [chain_open google_resolver r_open]. rewrite google_names_bundled. destruct (existsb (bytes_eqb name) bundled) eqn:E; [apply existsb_In in E; tauto|]. reflexivity.
Qed.

(** Paths are resolved against the include directories, in order; the bundled files have none. *)
Theorem C49_default_resolve fs path :
  let r := r_resolve (default_resolver k sort fs google includes) path in
  (forall pre dir post, includes = pre ++ dir :: post -> (forall d, In d pre -> include_resolve_path d path = None) -> include_resolve_path dir path <> None ->
     r = include_resolve_path dir path) /\
  ((forall d, In d includes -> include_resolve_path d path = None) -> r = None).
Proof.
  unfold default_resolver. cbn [r_resolve chain_resolver].
  assert (Hskip : forall ds rest, (forall d, In d ds -> include_resolve_path d path = None) -> chain_resolve (map (include_resolver k sort fs) ds ++ rest) path = chain_resolve rest path).
  { induction ds as [|d ds IH]; intros rest H; [reflexivity|]. cbn [map app chain_resolve include_resolver r_resolve]. rewrite (H d (or_introl eq_refl)). apply IH. intros; apply H; now right. }
  split.
  - intros pre dir post -> Hp Hd. rewrite map_app, <- app_assoc, Hskip by exact Hp. cbn [map app chain_resolve include_resolver r_resolve].
    destruct (include_resolve_path dir path); [reflexivity|congruence].
  - intros H. rewrite Hskip by exact H. reflexivity.
Qed.

(** The resolver of [Compiler::new], over a file system that may change between calls. *)
Definition default_rs (fs : nat -> filesystem) : nat -> resolver := fun t => default_resolver k sort (fs t) google includes.

Lemma first_split {A} (Q : A -> Prop) (l : list A) : (forall d, Q d \/ ~ Q d) ->
  (exists pre d post, l = pre ++ d :: post /\ (forall x, In x pre -> Q x) /\ ~ Q d) \/ (forall x, In x l -> Q x).
Proof.
  intros Hdec. induction l as [|d ds IH]; [right; intros d []|]. destruct (Hdec d) as [Hd|Hd].
  - destruct IH as [(pre & dir & post & -> & H1 & H2)|H]; [left; exists (d :: pre), dir, post; split; [reflexivity|split; [intros x [<-|Hx]; auto|exact H2]]|right; intros x [<-|Hx]; auto].
  - left. exists [], d, ds. split; [reflexivity|]. split; [intros x []|exact Hd].
Qed.
Lemma default_cases fs name :
  (exists dir, In dir includes /\ ~ missing fs name dir /\ r_open (default_resolver k sort fs google includes) name = file_open k sort fs name (path_join dir name)) \/
  (In name bundled /\ r_open (default_resolver k sort fs google includes) name = file_from_source k sort name (google name)) \/
  r_open (default_resolver k sort fs google includes) name = Done (inr (EFileNotFound name)).
Proof.
  destruct (C49_default_open fs name) as (H1 & H2 & H3).
  assert (Hdec : forall d, missing fs name d \/ ~ missing fs name d).
  { intros d. destruct (C48_open_total k sort fs name (path_join d name)) as (r & E & _). unfold missing. rewrite E. destruct r as [f|e].
    - right. intros (e & E' & _). discriminate.
    - destruct (is_file_not_found e) eqn:En; [left; eauto|right]. intros (e' & [= <-] & E'). congruence. }
  assert (Hsplit : (exists pre dir post, includes = pre ++ dir :: post /\ (forall d, In d pre -> missing fs name d) /\ ~ missing fs name dir) \/ (forall d, In d includes -> missing fs name d)).
  { apply (first_split (missing fs name)). exact Hdec. }
  destruct Hsplit as [(pre & dir & post & E & A & B)|A].
  - left. exists dir. split; [rewrite E; apply in_or_app; right; now left|]. split; [exact B|]. eapply H1; eauto.
  - right. destruct (existsb (bytes_eqb name) bundled) eqn:E; [apply existsb_In in E; left; auto|right; apply H3; auto]. intros Hn. apply existsb_In in Hn. congruence.
Qed.
Lemma default_spec fs name : exists r, r_open (default_resolver k sort fs google includes) name = Done r /\
  match r with
  | inl f => pf_name f = name /\ exists src, from_text k sort name src f
  | inr e => err_file e = Some name /\ (is_file_not_found e = true -> e = EFileNotFound name) /\ is_file_not_found e || is_parse e || is_io e = true
  end.
Proof.
  destruct (default_cases fs name) as [(dir & _ & _ & ->)|[[_ ->] | ->]].
  - destruct (C48_open_total k sort fs name (path_join dir name)) as (r & E & H). exists r. split; [exact E|]. destruct r; [|exact H]. destruct H as (H1 & _ & _ & src & H2 & _). eauto.
  - unfold file_from_source. destruct (C01_parse_total k sort name (google name)) as (r & a & E & _). rewrite E. cbn [obind]. destruct r as [d|e]; (eexists; split; [reflexivity|]).
    + destruct (parse_ok_inv _ _ _ _ _ _ E) as (_ & f & _ & _ & (ls & _ & Ed)). split; [unfold pf_name; cbn [pf_desc]; rewrite Ed; reflexivity|]. exists (google name). split; [reflexivity|]. exists a. exact E.
    + split; [cbn; f_equal; eapply parse_err_name; eauto|]. split; [discriminate|reflexivity].
  - eexists. split; [reflexivity|]. cbn. auto.
Qed.

(** It meets all that the theorems about the compiler ask of a resolver. *)
Theorem C49_default_well_behaved fs : sorting sort ->
  named (default_rs fs) /\ reports_not_found (default_rs fs) /\
  (forall t n, exists r, r_open (default_rs fs t) n = Done r) /\
  (forall n f i, opened (default_rs fs) n f -> exists sp, find_import_span f i = Done sp) /\
  (forall n f, opened (default_rs fs) n f -> exists src, from_text k sort n src f) /\
  (forall n e, fails (default_rs fs) n e -> err_file e = Some n /\
     match e with EParse _ | EOpenFile _ _ _ | EFileTooLarge _ | EFileInvalidUtf8 _ | EFileNotFound _ => True | _ => False end) /\
  (forall t path, r_resolve (default_rs fs t) path = r_resolve (default_rs fs 0) path).
Proof.
  intros Hs. assert (Hop : forall n f, opened (default_rs fs) n f -> pf_name f = n /\ exists src, from_text k sort n src f).
  { intros n f [t H]. destruct (default_spec (fs t) n) as (r & E & Hr). unfold default_rs in H. rewrite E in H. injection H as ->. exact Hr. }
  split; [intros n f H; now apply Hop|]. split.
  { intros n e [t H] En. destruct (default_spec (fs t) n) as (r & E & Hr). unfold default_rs in H. rewrite E in H. injection H as ->. now apply Hr. }
  split; [intros t n; destruct (default_spec (fs t) n) as (r & E & _); exists r; exact E|].
  split; [intros n f i H; destruct (Hop _ _ H) as (_ & src & Hsrc); eapply find_total; eauto|].
  split; [intros n f H; now apply Hop|]. split.
  - intros n e [t H]. unfold default_rs in H. split.
    { destruct (default_spec (fs t) n) as (r & E & Hr). rewrite E in H. injection H as ->. apply Hr. }
    destruct (default_spec (fs t) n) as (r & E & Hr). rewrite E in H. injection H as ->. destruct Hr as (H1 & H2 & H3). destruct e; auto; try discriminate H3; try (specialize (H2 eq_refl); discriminate H2).
    (* a custom error *)
    destruct (default_cases (fs t) n) as [(dir & _ & _ & E')|[[_ E']|E']]; rewrite E' in E; [|unfold file_from_source in E|discriminate].
    + unfold file_open in E. generalize dependent i32_max. intros M E. destruct (fs t _) as [[]|h]; [discriminate..|]. destruct (fs_len h) as [[]|]; [discriminate..|]. destruct (M <? n0); [discriminate|].
      destruct (fs_read h) as [[]|c]; [discriminate..|]. cbv zeta in E. destruct (utf8_valid _); [|discriminate]. destruct (parse _ _ _ _) as [[[|] ?]| |]; discriminate.
    + destruct (parse _ _ _ _) as [[[|] ?]| |]; discriminate.
  - intros t path. unfold default_rs, default_resolver. cbn [r_resolve chain_resolver]. induction includes as [|d ds IH]; [reflexivity|]. cbn [map app chain_resolve include_resolver r_resolve].
    destruct (include_resolve_path d path); auto.
Qed.
End C49.
Print Assumptions C49_default_open.
Print Assumptions C49_default_resolve.
Print Assumptions C49_default_well_behaved.

(** ** C50: [open_files] and [compile] *)
Section C50.
Variables (rs : nat -> resolver) (lk : linker).

(** Opening a list of files is opening them one by one, up to the first error. *)
Theorem C50_open_files_sequential fuel c :
  open_files rs lk fuel [] c = Done (inl tt, c) /\
  (forall p, open_files rs lk fuel [p] c = open_file rs lk fuel p c) /\
  (forall ps qs c', open_files rs lk fuel ps c = Done (inl tt, c') -> open_files rs lk fuel (ps ++ qs) c = open_files rs lk fuel qs c') /\
  (forall ps qs e c', open_files rs lk fuel ps c = Done (inr e, c') -> open_files rs lk fuel (ps ++ qs) c = Done (inr e, c')).
Proof.
  split; [reflexivity|]. split.
  { intros p. cbn [open_files]. destruct (open_file rs lk fuel p c) as [[[[]|e] c']| |]; reflexivity. }
  split.
  - intros ps qs. revert c. induction ps as [|p ps IH]; intros c c'; cbn [open_files app]; [now intros [= <-]|].
    destruct (open_file rs lk fuel p c) as [[[u|e] c1]| |]; cbn [obind]; try discriminate. apply IH.
  - intros ps qs e. revert c. induction ps as [|p ps IH]; intros c c'; cbn [open_files app]; [discriminate|].
    destruct (open_file rs lk fuel p c) as [[[u|e'] c1]| |]; cbn [obind]; try discriminate; [apply IH|auto].
Qed.

Lemma open_files_err fuel ps : forall c e c', open_files rs lk fuel ps c = Done (inr e, c') ->
  exists pre p post c1, ps = pre ++ p :: post /\ open_files rs lk fuel pre c = Done (inl tt, c1) /\ open_file rs lk fuel p c1 = Done (inr e, c').
Proof.
  induction ps as [|p ps IH]; intros c e c'; cbn [open_files]; [discriminate|]. destruct (open_file rs lk fuel p c) as [[[[]|e'] c1]| |] eqn:E; cbn [obind]; try discriminate.
  - intros H. destruct (IH _ _ _ H) as (pre & q & post & c2 & -> & H1 & H2). exists (p :: pre), q, post, c2. split; [reflexivity|]. split; [|exact H2]. cbn [open_files]. rewrite E. exact H1.
  - intros [= <- <-]. exists [], p, ps, c. split; [reflexivity|]. split; [reflexivity|exact E].
Qed.

(** The name a path stands for does not change over time. *)
Definition stable_paths : Prop := forall t path, r_resolve (rs t) path = r_resolve (rs 0) path.

Lemma requested_stable c path : stable_paths -> requested rs c path = requested rs compiler_new path.
Proof. intros H. unfold requested. rewrite H. reflexivity. Qed.

Lemma open_files_ok fuel ps : named rs -> linker_ok lk -> stable rs -> stable_paths -> forall ok c c',
  clean_history rs lk ok c -> open_files rs lk fuel ps c = Done (inl tt, c') ->
  exists ok', clean_history rs lk ok' c' /\ (forall n, In n ok' <-> In n ok \/ exists p isr, In p ps /\ requested rs compiler_new p = Some (n, isr)) /\
    (forall p, In p ps -> requested rs compiler_new p <> None) /\
    (forall n, In n (names c') <-> In n (names c) \/ exists p m isr, In p ps /\ requested rs compiler_new p = Some (m, isr) /\ reaches rs m n) /\
    c_include_imports c' = c_include_imports c /\ c_include_source_info c' = c_include_source_info c.
Proof.
  intros Hn Hl Hst Hsp. induction ps as [|p ps IH]; intros ok c c' Hh; cbn [open_files].
  - intros [= <-]. exists ok. split; [exact Hh|]. split; [intros n; split; [auto|intros [H|(q & i & [] & _)]; exact H]|]. split; [intros q []|].
    split; [intros n; split; [auto|intros [H|(q & m & i & [] & _)]; exact H]|]. split; reflexivity.
  - destruct (open_file rs lk fuel p c) as [[[[]|e] c1]| |] eqn:E; cbn [obind]; try discriminate. intros Ho.
    assert (Hr : exists n isr, requested rs c p = Some (n, isr)).
    { pose proof (history_Inv rs lk Hn Hl _ _ (clean_history_history _ _ _ _ Hh)) as HI. eapply open_file_spec in E; eauto. destruct E as (_ & _ & n & isr & H & _). eauto. }
    destruct Hr as (n & isr & Hr). pose proof (ch_open _ _ _ _ _ _ _ _ _ Hh Hr E) as Hh1.
    pose proof (history_Inv rs lk Hn Hl _ _ (clean_history_history _ _ _ _ Hh)) as HI.
    assert (Hfl : c_include_imports c1 = c_include_imports c /\ c_include_source_info c1 = c_include_source_info c).
    { pose proof E as E1. eapply open_file_spec in E1; eauto. destruct E1 as (_ & _ & n1 & i1 & _ & E1). destruct (lookup n1 (c_files c)); [tauto|]. destruct E1 as (? & ? & ? & ?). tauto. }
    destruct (open_names rs lk Hn Hl Hst _ _ _ _ _ _ HI Hr E) as [_ Hnm]. rewrite (requested_stable _ _ Hsp) in Hr.
    destruct (IH _ _ _ Hh1 Ho) as (ok' & H1 & H2 & H3 & H4 & H5 & H6). exists ok'. split; [exact H1|]. split; [|split; [|split; [|split]]].
    + intros m. rewrite H2. cbn [In]. split.
      * intros [[<-|H]|(q & i & H & Hq)]; [right; exists p, isr; auto|auto|right; exists q, i; auto].
      * intros [H|(q & i & [<-|H] & Hq)]; [auto| |right; exists q, i; auto]. rewrite Hr in Hq. injection Hq as -> ->. auto.
    + intros q [<-|Hq]; [congruence|auto].
    + intros m. rewrite H4, Hnm. cbn [In]. split.
      * intros [[H|H]|(q & m' & i & H & Hq & Hm)]; [auto|right; exists p, n, isr; auto|right; exists q, m', i; auto].
      * intros [H|(q & m' & i & [<-|H] & Hq & Hm)]; [auto| |right; exists q, m', i; auto]. rewrite Hr in Hq. injection Hq as <- <-. auto.
    + rewrite H5. apply Hfl.
    + rewrite H6. apply Hfl.
Qed.

(** The result of [compile]: every given path names a file; the files are the import closure of those,
    once each, imports first, and they are what a compiler with both options set returns. *)
Theorem C50_compile fuel paths ds : named rs -> linker_ok lk -> stable rs -> stable_paths ->
  compile rs lk fuel paths = Done (inl ds) ->
  (forall p, In p paths -> exists n isr, requested rs compiler_new p = Some (n, isr)) /\
  (forall n, In n (map fd_name ds) <-> exists p m isr, In p paths /\ requested rs compiler_new p = Some (m, isr) /\ reaches rs m n) /\
  NoDup (map fd_name ds) /\
  (forall pre d post, ds = pre ++ d :: post -> forall i, In i (d_dependency d) -> In i (map fd_name pre)) /\
  exists ok c, clean_history rs lk ok c /\ (forall n, In n ok <-> exists p isr, In p paths /\ requested rs compiler_new p = Some (n, isr)) /\
    file_descriptor_set (include_imports true (include_source_info true c)) = Done ds.
Proof.
  intros Hn Hl Hst Hsp. unfold compile. set (c0 := include_imports true (include_source_info true compiler_new)).
  destruct (open_files rs lk fuel paths c0) as [[[[]|e] c]| |] eqn:E; cbn [obind]; try discriminate.
  assert (Hh0 : clean_history rs lk [] c0) by (apply ch_imports, ch_source_info, ch_new).
  destruct (open_files_ok fuel paths Hn Hl Hst Hsp _ _ _ Hh0 E) as (ok & H1 & H2 & H3 & H4 & H5 & H6).
  destruct (file_descriptor_set c) as [ds'| |] eqn:Ed; cbn [obind]; try discriminate. intros [= ->].
  pose proof (clean_history_history _ _ _ _ H1) as Hh. pose proof (history_Inv rs lk Hn Hl _ _ Hh) as HI.
  destruct (C30_output_topological rs lk Hn Hl _ _ Hh) as (ds2 & E2 & Htop & _). rewrite Ed in E2. injection E2 as <-. change (c_include_imports c0) with true in H5. change (c_include_source_info c0) with true in H6.
  assert (En : map fd_name ds = names c).
  { rewrite (fds_Done rs) in Ed by exact HI. injection Ed as <-. rewrite H5, H6. cbn [orb]. rewrite map_id, filter_true. reflexivity. }
  split; [|split; [|split; [|split]]].
  - intros p Hp. specialize (H3 p Hp). destruct (requested rs compiler_new p) as [[n isr]|]; [eauto|congruence].
  - intros n. rewrite En, H4. split; [intros [[]|H]; exact H|auto].
  - rewrite En. apply HI.
  - exact (Htop H5).
  - exists ok, c. split; [exact H1|]. split.
    + intros n. rewrite H2. split; [intros [[]|H]; exact H|auto].
    + replace (include_imports true (include_source_info true c)) with c; [exact Ed|]. destruct c; cbn in *. subst. reflexivity.
Qed.

(** An error of [compile] is that of the first path that cannot be opened. *)
Theorem C50_compile_error fuel paths e : compile rs lk fuel paths = Done (inr e) ->
  exists pre p post c c', paths = pre ++ p :: post /\
    open_files rs lk fuel pre (include_imports true (include_source_info true compiler_new)) = Done (inl tt, c) /\ open_file rs lk fuel p c = Done (inr e, c').
Proof.
  unfold compile. set (c0 := include_imports true _). destruct (open_files rs lk fuel paths c0) as [[[[]|e'] c]| |] eqn:E; cbn [obind]; try discriminate.
  - destruct (file_descriptor_set c); discriminate.
  - intros [= ->]. destruct (open_files_err _ _ _ _ _ E) as (pre & p & post & c1 & H1 & H2 & H3). exists pre, p, post, c1, c. auto.
Qed.

Lemma open_files_total (U : list bytes) : named rs -> linker_ok lk ->
  (forall a f, opened rs a f -> In a U) ->
  (forall t a, exists r, r_open (rs t) a = Done r) ->
  (forall a f i, opened rs a f -> exists sp, find_import_span f i = Done sp) ->
  forall paths ok c0, history rs lk ok c0 ->
  exists r c', (forall fuel, (length U <= fuel)%nat -> open_files rs lk fuel paths c0 = Done (r, c')) /\ exists ok', history rs lk ok' c'.
Proof.
  intros Hn Hl HU Ht Hs paths. induction paths as [|p ps IH]; intros ok c0 Hh; cbn [open_files]; [exists (inl tt), c0; eauto|].
  destruct (C33_open_file_terminates rs lk U HU Ht Hs p c0) as (r & c1 & E). pose proof (E (length U) (le_n _)) as E0. destruct r as [[]|e].
  - assert (Hh1 : exists ok', history rs lk ok' c1).
    { pose proof (history_Inv rs lk Hn Hl _ _ Hh) as HI. pose proof E0 as E1. eapply open_file_spec in E1; eauto. destruct E1 as (_ & _ & n & isr & Hr & _). exists (n :: ok). eapply h_open; eauto. }
    destruct Hh1 as (ok' & Hh1). destruct (IH _ _ Hh1) as (r & c2 & H1 & H2). exists r, c2. split; [|exact H2]. intros fuel Hf. rewrite (E fuel Hf). cbn [obind]. now apply H1.
  - exists (inr e), c1. split; [intros fuel Hf; rewrite (E fuel Hf); reflexivity|]. exists ok. eapply h_fail; eauto.
Qed.

(** With finitely many files [compile] terminates without panic. *)
Theorem C50_compile_total (U : list bytes) : named rs -> linker_ok lk ->
  (forall a f, opened rs a f -> In a U) ->
  (forall t a, exists r, r_open (rs t) a = Done r) ->
  (forall a f i, opened rs a f -> exists sp, find_import_span f i = Done sp) ->
  forall paths, exists r, forall fuel, (length U <= fuel)%nat -> compile rs lk fuel paths = Done r.
Proof.
  intros Hn Hl HU Ht Hs paths. unfold compile. set (c0 := include_imports true _).
  assert (Hh : history rs lk [] c0) by (apply h_imports, h_source_info, h_new). clearbody c0.
  destruct (open_files_total U Hn Hl HU Ht Hs paths _ _ Hh) as (r & c' & H1 & ok' & H2). destruct r as [[]|e].
  - destruct (C38_accessors_never_panic rs lk Hn Hl _ _ H2) as (_ & (ds & Hds) & _). exists (inl ds). intros fuel Hf. rewrite (H1 fuel Hf). cbn [obind]. now rewrite Hds.
  - exists (inr e). intros fuel Hf. rewrite (H1 fuel Hf). reflexivity.
Qed.
End C50.
Print Assumptions C50_open_files_sequential.
Print Assumptions C50_compile.
Print Assumptions C50_compile_error.
Print Assumptions C50_compile_total.

(** ** The default resolver, over a file system that does not change *)
Section Default.
Variables (k : cfg) (sort : list location -> list location) (google : bytes -> bytes) (includes : list bytes) (fs : filesystem) (lk : linker).
Hypothesis Hsort : sorting sort.
Hypothesis Hlk : linker_ok lk.
Let rs := default_rs k sort google includes (fun _ => fs).

(** What [compile(files, includes)] returns. *)
Theorem C50_compile_default fuel paths ds : compile rs lk fuel paths = Done (inl ds) ->
  (forall p, In p paths -> exists n isr, requested rs compiler_new p = Some (n, isr)) /\
  (forall n, In n (map fd_name ds) <-> exists p m isr, In p paths /\ requested rs compiler_new p = Some (m, isr) /\ reaches rs m n) /\
  NoDup (map fd_name ds) /\
  (forall pre d post, ds = pre ++ d :: post -> forall i, In i (d_dependency d) -> In i (map fd_name pre)).
Proof.
  intros H. destruct (C49_default_well_behaved k sort google includes (fun _ => fs) Hsort) as (H1 & _ & _ & _ & _ & _ & H7).
  assert (Hst : stable rs) by (intros t n; reflexivity).
  destruct (C50_compile rs lk fuel paths ds H1 Hlk Hst H7 H) as (A1 & A2 & A3 & A4 & _). auto.
Qed.

(** Only finitely many files can be opened. *)
Lemma default_finite (U : list bytes) : (forall n, ~ In n U -> forall d, In d includes -> missing k sort fs n d) ->
  forall a f, opened rs a f -> In a (U ++ bundled).
Proof.
  intros HU a f Ho. apply in_or_app. destruct (existsb (bytes_eqb a) U) eqn:E; [left; now apply existsb_In|right].
  assert (Hn : ~ In a U) by (intros Hin; apply existsb_In in Hin; congruence).
  destruct (existsb (bytes_eqb a) bundled) eqn:E2; [now apply existsb_In|exfalso].
  assert (Hb : ~ In a bundled) by (intros Hin; apply existsb_In in Hin; congruence).
  destruct (C49_default_open k sort google includes fs a) as (_ & _ & H). specialize (H (HU a Hn) Hb). destruct Ho as [t Ho]. unfold rs, default_rs in Ho. rewrite H in Ho. discriminate.
Qed.

(** It terminates, without panic, if only finitely many file names exist below the include directories. *)
Theorem C50_compile_default_total (U : list bytes) :
  (forall n, ~ In n U -> forall d, In d includes -> missing k sort fs n d) ->
  forall paths, exists r, forall fuel, (length U + length bundled <= fuel)%nat -> compile rs lk fuel paths = Done r.
Proof.
  intros HU paths. destruct (C49_default_well_behaved k sort google includes (fun _ => fs) Hsort) as (H1 & _ & H3 & H4 & _ & _ & _).
  destruct (C50_compile_total rs lk (U ++ bundled) H1 Hlk) with (paths := paths) as (r & Hr); auto; [exact (default_finite U HU)|].
  exists r. intros fuel Hf. apply Hr. rewrite app_length. exact Hf.
Qed.
End Default.
Print Assumptions C50_compile_default.
Print Assumptions C50_compile_default_total.

(** ** Examples *)
(** A file system: [inc/a.proto] imports a bundled file, which [inc2] shadows; [inc/big] is longer than allowed; [inc/bin] is not UTF-8. *)
Definition ex_fs : filesystem := fun p =>
  let reg c := inr {| fs_len := inr (len c); fs_read := inr c |} in
  if bytes_eqb p (b "inc/a.proto") then reg (b "import ""google/protobuf/any.proto"";")
  else if bytes_eqb p (b "inc2/google/protobuf/any.proto") then reg (b "package mine;")
  else if bytes_eqb p (b "inc/big") then inr {| fs_len := inr 2147483648; fs_read := inl IoOther |}
  else if bytes_eqb p (b "inc/bin") then reg [255]
  else if bytes_eqb p (b "inc/locked") then inl IoOther
  else inl IoNotFound.
Definition ex_google : bytes -> bytes := fun n => b "package google.protobuf;".

Example C48_ex_regular : regular ex_fs (b "inc/a.proto") (b "import ""google/protobuf/any.proto"";").
Proof. eexists. repeat split. Qed.
Example C48_ex_locked : file_open ex_k0 loc_sort ex_fs (b "locked") (b "inc/locked") = Done (inr (EOpenFile (b "locked") (b "inc/locked") IoOther)).
Proof. unfold file_open. reflexivity. Qed.
Example C48_ex_big : file_open ex_k0 loc_sort ex_fs (b "big") (b "inc/big") = Done (inr (EFileTooLarge (b "big"))).
Proof. reflexivity. Qed.
Example C48_ex_bin : file_open ex_k0 loc_sort ex_fs (b "bin") (b "inc/bin") = Done (inr (EFileInvalidUtf8 (b "bin"))).
Proof.
  destruct (C48_open_regular ex_k0 loc_sort ex_fs (b "bin") (b "inc/bin") [255]) as (_ & H & _); [eexists; repeat split|]. apply H; [vm_compute; discriminate|reflexivity].
Qed.
Lemma ex_missing n d : ex_fs (path_join d n) = inl IoNotFound -> missing ex_k0 loc_sort ex_fs n d.
Proof. intros E. exists (EFileNotFound n). split; [|reflexivity]. unfold file_open. rewrite E. reflexivity. Qed.
(** The package of the file the resolver gives. *)
Definition package_of (r : result pfile) : option bytes := match r with Done (inl f) => d_package (pf_desc f) | _ => None end.
Lemma ex_shadow_missing : missing ex_k0 loc_sort ex_fs (b "google/protobuf/any.proto") (b "inc").
Proof. apply ex_missing. vm_compute. reflexivity. Qed.
(** A bundled file is used if no include directory has it, and is shadowed otherwise. *)
Example C49_ex_bundled : package_of (r_open (default_resolver ex_k0 loc_sort ex_fs ex_google [b "inc"]) (b "google/protobuf/any.proto")) = Some (b "google.protobuf").
Proof.
  destruct (C49_default_open ex_k0 loc_sort ex_google [b "inc"] ex_fs (b "google/protobuf/any.proto")) as (_ & H & _). rewrite H; [vm_compute; reflexivity| |unfold bundled; cbn [map In]; left; reflexivity].
  intros d [<-|[]]. exact ex_shadow_missing.
Qed.
Example C49_ex_shadowed : package_of (r_open (default_resolver ex_k0 loc_sort ex_fs ex_google [b "inc"; b "inc2"]) (b "google/protobuf/any.proto")) = Some (b "mine").
Proof.
  assert (Hr : regular ex_fs (path_join (b "inc2") (b "google/protobuf/any.proto")) (b "package mine;")) by (eexists; repeat split).
  destruct (C48_open_regular ex_k0 loc_sort ex_fs (b "google/protobuf/any.proto") _ _ Hr) as (_ & _ & H3).
  destruct H3 as (r & E1 & E2 & _); [vm_compute; discriminate|reflexivity|].
  destruct (C49_default_open ex_k0 loc_sort ex_google [b "inc"; b "inc2"] ex_fs (b "google/protobuf/any.proto")) as (H & _). rewrite (H [b "inc"] (b "inc2") []); [|reflexivity|intros d [<-|[]]; exact ex_shadow_missing|].
  - rewrite E2. vm_compute in E1. injection E1 as <-. reflexivity.
  - intros (e & E & He). rewrite E2 in E. vm_compute in E1. injection E1 as <-. cbn beta iota in E. clear -E. discriminate E.
Qed.
(** [compile] on the example resolver of PropsCompiler: two roots, their imports, imports first. *)
Example C50_ex_compile : exists ds, compile ex_rs ex_lk 9 [b "b.proto"; b "a.proto"] = Done (inl ds) /\ map fd_name ds = [b "c.proto"; b "b.proto"; b "a.proto"].
Proof. eexists. split; vm_compute; reflexivity. Qed.
Example C50_ex_error : exists c', compile ex_rs ex_lk 9 [b "b.proto"; b "x.proto"; b "a.proto"] = Done (inr c') /\ is_file_not_found c' = true.
Proof. eexists. split; vm_compute; reflexivity. Qed.
Example C50_ex_stable : stable ex_rs /\ stable_paths ex_rs.
Proof. split; [exact ex_stable|]. intros t p. reflexivity. Qed.
