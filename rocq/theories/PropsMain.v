(** C52: the command line program. *)
From Coq Require Import Sorting.Permutation.
From Verif Require Import Base Utf8 Errors Lex Ast Parse Lines Descriptor Generate ParseApi PropsLines LexSafe Stream Grammar Walk WalkG3 Meaning
  GenProofs PropsParse PropsLoc Paths Resolver DescSet Compiler CompilerProofs CompilerHistory PropsImport PropsCompiler PropsDescSet PropsDefault Main.

(** The directories searched: those given, else the current one. *)
Definition search_dirs (a : args) : list bytes := match a_includes a with [] => [b "."] | l => l end.

Section C52.
Variables (k : cfg) (sort : list location -> list location) (google : bytes -> bytes).
Variables (fs : filesystem) (write : bytes -> bytes -> option iokind) (lk : linker).
Variables (enc : file_desc -> bytes) (redec : bool -> bytes -> bytes) (dec : bytes -> option file_desc).
Hypothesis Hsort : sorting sort.
Hypothesis Hlk : linker_ok lk.
Let run fuel a := main k sort google (fun _ => fs) write lk enc redec fuel a.
Let rs (a : args) := default_rs k sort google (search_dirs a) (fun _ => fs).

Lemma open_all_files r fuel ps : forall c, open_all lk r fuel ps c = open_files r lk fuel ps c.
Proof. induction ps as [|p ps IH]; intros c; cbn [open_all open_files]; [reflexivity|]. destruct (open_file r lk fuel p c) as [[[u|e] c']| |]; cbn [obind]; auto. Qed.

Definition start (a : args) : cst := include_source_info (a_include_source_info a) (include_imports (a_include_imports a) compiler_new).
Lemma run_eq fuel a : run fuel a = obind (open_files (rs a) lk fuel (a_files a) (start a)) (fun '(res, c) =>
  match res with
  | inr e => Done (CompileError e, [])
  | inl _ => match a_output a with
             | None => Done (Success, [])
             | Some o => obind (encode_file_descriptor_set enc redec c) (fun bs => Done (match write o bs with None => Success | Some e => WriteError e end, [(o, bs)]))
             end
  end).
Proof. unfold run, main. rewrite open_all_files. reflexivity. Qed.

Lemma Forall2_In_l {A B} (R : A -> B -> Prop) l1 l2 : Forall2 R l1 l2 -> forall x, In x l1 -> exists y, In y l2 /\ R x y.
Proof. induction 1; intros z []; [subst; eexists; split; [left; reflexivity|auto]|]. destruct (IHForall2 _ H1) as (w & ? & ?). exists w. split; [right|]; auto. Qed.
(** The contract of prost's encoder and decoder, for the files that the program has loaded when it writes the output (see C40). *)
Definition codable (fuel : nat) (a : args) : Prop := forall c, open_files (rs a) lk fuel (a_files a) (start a) = Done (inl tt, c) ->
  forall d, In d (c_pool c) ->
  (dec (enc d) = Some d /\ len (enc d) < 2 ^ 64) /\
  forall clear, dec (redec clear (enc d)) = Some (if clear then clear_source_info d else d) /\ len (redec clear (enc d)) < 2 ^ 64.

Lemma start_history a : clean_history (rs a) lk [] (start a).
Proof. apply ch_source_info, ch_imports, ch_new. Qed.

(** If the program does not report an error of the compiler, then every file given names a file that could be compiled, and
    nothing is written unless an output is asked for. Then exactly one file is written, and it decodes to a set of
    files, each once, imports first: with [--include_imports] those given and all they import directly or indirectly,
    else only those given. A decoded set of its own works as a resolver for all its files. *)
Theorem C52_output fuel a ending writes : codable fuel a -> run fuel a = Done (ending, writes) -> (forall e, ending <> CompileError e) ->
  (forall p, In p (a_files a) -> exists n isr, requested (rs a) compiler_new p = Some (n, isr)) /\
  match a_output a with
  | None => ending = Success /\ writes = []
  | Some o => exists bs set, writes = [(o, bs)] /\
      ending = match write o bs with None => Success | Some e => WriteError e end /\
      desc_set_decode dec bs = Some set /\
      let ds := map fst set in
      NoDup (map fd_name ds) /\
      (forall n, In n (map fd_name ds) <->
         if a_include_imports a then exists p m isr, In p (a_files a) /\ requested (rs a) compiler_new p = Some (m, isr) /\ reaches (rs a) m n
         else exists p isr, In p (a_files a) /\ requested (rs a) compiler_new p = Some (n, isr)) /\
      (forall d, In d ds -> exists f, opened (rs a) (fd_name d) f /\ d_dependency d = d_dependency (pf_desc f)) /\
      (a_include_source_info a = false -> forall d, In d ds -> d_source_info d = None) /\
      (forall pre d post, ds = pre ++ d :: post -> forall e, In e (d :: post) -> ~ In (fd_name e) (d_dependency d)) /\
      (a_include_imports a = true -> forall d i, In d ds -> In i (d_dependency d) -> In i (map fd_name ds)) /\
      forall d, In d ds -> exists f, r_open (desc_set_resolver set) (fd_name d) = Done (inl f) /\ pf_desc f = d
  end.
Proof.
  intros Hcod. rewrite run_eq. intros H Hne. destruct (C49_default_well_behaved k sort google (search_dirs a) (fun _ => fs) Hsort) as (Hn & _ & _ & _ & _ & _ & Hsp).
  fold (rs a) in Hn, Hsp. assert (Hst : stable (rs a)) by (intros t n; reflexivity).
  destruct (open_files (rs a) lk fuel (a_files a) (start a)) as [[[[]|e] c]| |] eqn:E; cbn [obind] in H; try discriminate; [|injection H as <- <-; exfalso; eapply Hne; reflexivity].
  destruct (open_files_ok (rs a) lk fuel _ Hn Hlk Hst Hsp _ _ _ (start_history a) E) as (ok & H1 & H2 & H3 & H4 & H5 & H6).
  split; [intros p Hp; specialize (H3 p Hp); destruct (requested (rs a) compiler_new p) as [[n isr]|]; [eauto|congruence]|].
  pose proof (clean_history_history _ _ _ _ H1) as Hh. pose proof (history_Inv (rs a) lk Hn Hlk _ _ Hh) as HI.
  destruct (a_output a) as [o|]; [|injection H as <- <-; auto].
  destruct (C40_encoded_set_agrees (rs a) lk enc redec dec Hn Hlk _ _ Hh) as (ds & bs & set & Ed & Eb & Es & <- & Hop); [intros; now apply (Hcod c E)|intros; now apply (Hcod c E)|].
  rewrite Eb in H. cbn [obind] in H. injection H as <- <-. exists bs, set. split; [reflexivity|]. split; [reflexivity|]. split; [exact Es|]. cbv zeta.
  change (c_include_imports (start a)) with (a_include_imports a) in H5. change (c_include_source_info (start a)) with (a_include_source_info a) in H6.
  destruct (C32_is_import_exact (rs a) lk Hn Hlk _ _ Hh) as (ms & all & sel & _ & Ea & Esel & _ & _ & _ & Hsel).
  destruct (C31_no_duplicates_and_complete (rs a) lk Hn Hlk _ _ Hh) as (all' & Ea' & Hnd & Hcl & Hok). rewrite Ea in Ea'. injection Ea' as <-.
  assert (Eall : map fd_name all = names c).
  { rewrite (fds_Done (rs a)) in Ea by (eapply (history_Inv (rs a) lk Hn Hlk), h_imports; eauto). cbn [c_include_imports include_imports orb c_pool] in Ea. rewrite filter_true in Ea. injection Ea as <-.
    rewrite map_map. unfold names. apply map_ext. intros d. now destruct (c_include_source_info _). }
  assert (Eds : map fst set = if a_include_imports a then all else sel).
  { rewrite <- H5. assert (Ec : include_imports (c_include_imports c) c = c) by (destruct c; reflexivity). destruct (c_include_imports c); rewrite Ec in *; congruence. }
  assert (Hsub : forall d, In d (map fst set) -> In d all).
  { rewrite Eds. destruct (a_include_imports a); [auto|]. intros d Hd. rewrite Hsel in Hd. apply filter_In in Hd. tauto. }
  split; [|split; [|split; [|split; [|split; [|split]]]]].
  - rewrite Eds. destruct (a_include_imports a); [exact Hnd|]. rewrite Hsel. clear -Hnd. induction all as [|x l IH]; cbn [filter map] in *; [constructor|]. inversion Hnd; subst.
    destruct (existsb _ ok); auto. cbn [map]. constructor; auto. intros Hc. apply H1. apply in_map_iff in Hc. destruct Hc as (y & <- & Hy). apply filter_In in Hy. apply in_map. tauto.
  - intros n. rewrite Eds. destruct (a_include_imports a).
    + rewrite Eall, H4. split; [intros [[]|Hx]; exact Hx|auto].
    + rewrite Hsel. split.
      * intros Hx. apply in_map_iff in Hx. destruct Hx as (d & <- & Hd). apply filter_In in Hd. destruct Hd as [_ Hd]. apply existsb_In in Hd. apply H2 in Hd. destruct Hd as [[]|Hd]; exact Hd.
      * intros Hx. assert (Hx' : In n ok) by (apply H2; auto). destruct (Hok _ Hx') as (d & Hd & <-). apply in_map. apply filter_In. split; [exact Hd|]. now apply existsb_In.
  - intros d Hd. rewrite (fds_Done (rs a)) in Ed by exact HI. injection Ed as Ed. rewrite <- Ed in Hd. apply in_map_iff in Hd. destruct Hd as (d0 & <- & Hd0). apply filter_In in Hd0. destruct Hd0 as [Hd0 _].
    destruct (Forall2_In_l _ _ _ (inv_from _ _ HI) _ Hd0) as (km & _ & _ & f & Hf & _ & Hdep & _). exists f. destruct (c_include_source_info c); split; auto.
  - intros Ef d Hd. rewrite (fds_Done (rs a)) in Ed by exact HI. injection Ed as Ed. rewrite <- Ed in Hd. apply in_map_iff in Hd. destruct Hd as (d0 & <- & _). rewrite H6, Ef. reflexivity.
  - destruct (C30_output_topological (rs a) lk Hn Hlk _ _ Hh) as (ds2 & E2 & _ & Ht & _). rewrite Ed in E2. injection E2 as <-. exact Ht.
  - intros Ei d i Hd Hi. rewrite Eds, Ei in *. destruct (Hcl d i Hd Hi) as (e & He & <-). now apply in_map.
  - exact Hop.
Qed.

(** If the program reports an error of the compiler, it is that of the first file that cannot be opened, and nothing is written. *)
Theorem C52_error fuel a e writes : run fuel a = Done (CompileError e, writes) ->
  writes = [] /\
  exists pre p post c c', a_files a = pre ++ p :: post /\
    open_files (rs a) lk fuel pre (start a) = Done (inl tt, c) /\ open_file (rs a) lk fuel p c = Done (inr e, c').
Proof.
  rewrite run_eq. destruct (open_files (rs a) lk fuel (a_files a) (start a)) as [[[[]|e'] c]| |] eqn:E; cbn [obind]; try discriminate.
  - destruct (a_output a) as [o|]; [|discriminate]. destruct (encode_file_descriptor_set enc redec c) as [bs| |]; cbn [obind]; try discriminate. destruct (write o bs); discriminate.
  - intros [= -> <-]. split; [reflexivity|]. destruct (open_files_err _ _ _ _ _ _ _ E) as (pre & p & post & c1 & H1 & H2 & H3). exists pre, p, post, c1, c. auto.
Qed.

(** The options do not affect what can be compiled. *)
Lemma open_files_flags r fuel ps : named r -> forall ok c, history r lk ok c -> forall ys yi,
  open_files r lk fuel ps (include_source_info ys (include_imports yi c))
  = obind (open_files r lk fuel ps c) (fun '(x, c') => Done (x, include_source_info ys (include_imports yi c'))).
Proof.
  intros Hn. induction ps as [|p ps IH]; intros ok c Hh ys yi; cbn [open_files]; [reflexivity|].
  destruct (C39_options_only_filter r lk Hn Hlk _ _ (h_imports _ _ yi _ _ Hh)) as (_ & _ & _ & _ & H1). rewrite (proj1 (H1 ys fuel p)).
  destruct (C39_options_only_filter r lk Hn Hlk _ _ Hh) as (_ & _ & _ & _ & H2). rewrite (proj2 (H2 yi fuel p)).
  destruct (open_file r lk fuel p c) as [[[[]|e] c']| |] eqn:E; cbn [obind]; try reflexivity.
  assert (Hr : exists n isr, requested r c p = Some (n, isr)).
  { pose proof (history_Inv r lk Hn Hlk _ _ Hh) as HI. eapply open_file_spec in E; eauto. destruct E as (_ & _ & n & isr & H & _). eauto. }
  destruct Hr as (n & isr & Hr). eapply IH. eapply h_open; eauto.
Qed.

(** The program agrees with the library: it fails with the error of [compile] on the files and include directories
    given, or [compile] succeeds; and then the file written decodes to the files [compile] returns, without those that
    were not given, unless imports are asked for, and without the source info, unless that is asked for. *)
Theorem C52_compile fuel a : codable fuel a ->
  match compile (rs a) lk fuel (a_files a) with
  | Done (inr e) => run fuel a = Done (CompileError e, [])
  | Done (inl ds) => exists ending writes, run fuel a = Done (ending, writes) /\
      forall o, a_output a = Some o -> exists bs set, writes = [(o, bs)] /\ desc_set_decode dec bs = Some set /\
        let given d := exists p isr, In p (a_files a) /\ requested (rs a) compiler_new p = Some (fd_name d, isr) in
        let stripped := if a_include_source_info a then ds else map clear_source_info ds in
        (a_include_imports a = true -> map fst set = stripped) /\
        (a_include_imports a = false -> exists keep, (forall d, In d ds -> (keep (fd_name d) = true <-> given d)) /\ map fst set = filter (fun d => keep (fd_name d)) stripped)
  | Panic => run fuel a = Panic
  | NoFuel => run fuel a = NoFuel
  end.
Proof.
  intros Hcod. destruct (C49_default_well_behaved k sort google (search_dirs a) (fun _ => fs) Hsort) as (Hn & _ & _ & _ & _ & _ & Hsp).
  fold (rs a) in Hn, Hsp. assert (Hst : stable (rs a)) by (intros t n; reflexivity).
  unfold compile. change (include_imports true (include_source_info true compiler_new)) with (include_source_info true (include_imports true compiler_new)).
  unfold codable in Hcod. rewrite run_eq. unfold start in *. rewrite !(open_files_flags _ _ _ Hn [] compiler_new) in * by constructor.
  destruct (open_files (rs a) lk fuel (a_files a) compiler_new) as [[[[]|e] c]| |] eqn:E; cbn [obind] in *; [|reflexivity..]. specialize (Hcod _ eq_refl). cbn [c_pool include_source_info include_imports] in Hcod.
  destruct (open_files_ok (rs a) lk fuel _ Hn Hlk Hst Hsp _ _ _ (ch_new _ _) E) as (ok & H1 & H2 & H3 & H4 & _).
  pose proof (clean_history_history _ _ _ _ H1) as Hh.
  destruct (C32_is_import_exact (rs a) lk Hn Hlk _ _ (h_source_info _ _ true _ _ Hh)) as (_ & all & sel & _ & Ea & Es & _ & _ & _ & Hsel).
  change (include_source_info true (include_imports true c)) with (include_imports true (include_source_info true c)). rewrite Ea. cbn [obind].
  set (ca := include_source_info (a_include_source_info a) (include_imports (a_include_imports a) c)).
  assert (Hha : history (rs a) lk ok ca) by (apply h_source_info, h_imports, Hh).
  destruct (C40_encoded_set_agrees (rs a) lk enc redec dec Hn Hlk _ _ Hha) as (ds & bs & set & Ed & Eb & Et & <- & _); [intros; now apply Hcod|intros; now apply Hcod|].
  rewrite Eb. cbn [obind]. destruct (a_output a) as [o|]; [|do 2 eexists; split; [reflexivity|discriminate]].
  do 2 eexists. split; [reflexivity|]. intros o' [= <-]. exists bs, set. split; [reflexivity|]. split; [exact Et|]. cbv zeta.
  assert (Hmain : map fst set = let l := if a_include_imports a then all else sel in if a_include_source_info a then l else map clear_source_info l).
  { cbv zeta. destruct (C39_options_only_filter (rs a) lk Hn Hlk _ _ (h_imports _ _ (a_include_imports a) _ _ Hh)) as (full & F1 & F2 & _).
    assert (Ef : full = if a_include_imports a then all else sel).
    { change (include_source_info true (include_imports (a_include_imports a) c)) with (include_imports (a_include_imports a) (include_source_info true c)) in F1. destruct (a_include_imports a); congruence. }
    rewrite <- Ef. unfold ca in Ed. destruct (a_include_source_info a); congruence. }
  cbv zeta in Hmain. split; intros Ei; rewrite Ei in Hmain.
  - exact Hmain.
  - exists (fun n => existsb (bytes_eqb n) ok). split.
    + intros d _. rewrite existsb_In, H2. split; [intros [[]|Hx]; exact Hx|auto].
    + rewrite Hmain, Hsel. destruct (a_include_source_info a); [reflexivity|]. clear. induction all as [|x l IH]; cbn [filter map]; [reflexivity|].
      change (fd_name (clear_source_info x)) with (fd_name x). destruct (existsb (bytes_eqb (fd_name x)) ok); cbn [map]; congruence.
Qed.

(** It always ends, and never panics, if only finitely many file names exist below the include directories. *)
Theorem C52_total a (U : list bytes) :
  (forall n, ~ In n U -> forall d, In d (search_dirs a) -> missing k sort fs n d) ->
  exists r, forall fuel, (length U + length bundled <= fuel)%nat -> run fuel a = Done r.
Proof.
  intros HU. destruct (C49_default_well_behaved k sort google (search_dirs a) (fun _ => fs) Hsort) as (Hn & _ & H3 & H4 & _).
  fold (rs a) in Hn, H3, H4. pose proof (default_finite k sort google (search_dirs a) fs U HU) as Hfin. fold (rs a) in Hfin.
  destruct (open_files_total (rs a) lk _ Hn Hlk Hfin H3 H4 (a_files a) [] (start a)) as (r & c & H1 & ok & H2); [apply h_source_info, h_imports, h_new|].
  rewrite app_length in H1. destruct (C38_accessors_never_panic (rs a) lk Hn Hlk _ _ H2) as (_ & _ & He). destruct (He enc redec) as (bs & Hbs).
  destruct r as [[]|e]; [destruct (a_output a) as [o|] eqn:Eo|].
  - eexists. intros fuel Hf. rewrite run_eq, (H1 fuel Hf). cbn [obind]. rewrite Eo, Hbs. reflexivity.
  - eexists. intros fuel Hf. rewrite run_eq, (H1 fuel Hf). cbn [obind]. rewrite Eo. reflexivity.
  - eexists. intros fuel Hf. rewrite run_eq, (H1 fuel Hf). reflexivity.
Qed.
End C52.
Print Assumptions C52_output.
Print Assumptions C52_error.
Print Assumptions C52_compile.
Print Assumptions C52_total.

(** ** Examples *)
Definition ex_args (file : bytes) (imports : bool) : args :=
  {| a_files := [b "inc/a.proto"; file]; a_includes := [b "inc"]; a_output := Some (b "out"); a_include_source_info := false; a_include_imports := imports |}.
Definition ex_pool : list file_desc := c_pool (state_of (open_files (default_rs ex_k0 loc_sort ex_google [b "inc"] (fun _ => ex_fs)) ex_lk 9
  [b "inc/a.proto"; b "a.proto"] compiler_new)).
(** A toy encoding: the name of the file, preceded by a zero byte if the source info has been removed. *)
Definition ex_enc : file_desc -> bytes := fd_name.
Definition ex_redec : bool -> bytes -> bytes := fun clear e => if clear then 0 :: e else e.
Definition toy_dec (pool : list file_desc) : bytes -> option file_desc := fun n => match n with
  | 0 :: n => option_map clear_source_info (find (fun d => bytes_eqb (fd_name d) n) pool)
  | n => find (fun d => bytes_eqb (fd_name d) n) pool end.
Definition ex_dec := toy_dec ex_pool.
Definition ex_main a := main ex_k0 loc_sort ex_google (fun _ => ex_fs) (fun _ _ => None) ex_lk ex_enc ex_redec 9 a.

Example C52_ex_imports : exists bs, ex_main (ex_args (b "a.proto") true) = Done (Success, [(b "out", bs)]) /\
  option_map (map (fun e => (fd_name (fst e), d_source_info (fst e)))) (desc_set_decode ex_dec bs) = Some [(b "google/protobuf/any.proto", None); (b "a.proto", None)].
Proof. eexists. split; [lazy; reflexivity|lazy; reflexivity]. Qed.
Example C52_ex_roots : exists bs, ex_main (ex_args (b "a.proto") false) = Done (Success, [(b "out", bs)]) /\
  option_map (map (fun e => fd_name (fst e))) (desc_set_decode ex_dec bs) = Some [b "a.proto"].
Proof. eexists. split; [lazy; reflexivity|lazy; reflexivity]. Qed.
Example C52_ex_error : exists e, ex_main (ex_args (b "locked") false) = Done (CompileError e, []) /\ is_io e = true.
Proof. eexists. split; [lazy; reflexivity|lazy; reflexivity]. Qed.
Lemma ex_pool_names : map fd_name ex_pool = [b "google/protobuf/any.proto"; b "a.proto"].
Proof. lazy. reflexivity. Qed.
Lemma find_name (l : list file_desc) d : NoDup (map fd_name l) -> In d l -> find (fun e => bytes_eqb (fd_name e) (fd_name d)) l = Some d.
Proof.
  induction l as [|x l IH]; [intros _ []|]. intros Hn [H|H]; cbn [find map] in *; inversion Hn; subst.
  - now rewrite bytes_eqb_refl.
  - destruct (bytes_eqb (fd_name x) (fd_name d)) eqn:E; [|auto]. apply bytes_eqb_eq in E. exfalso. apply H2. rewrite E. now apply in_map.
Qed.
Lemma toy_codec pool : map fd_name pool = [b "google/protobuf/any.proto"; b "a.proto"] -> forall d, In d pool ->
  (toy_dec pool (ex_enc d) = Some d /\ len (ex_enc d) < 2 ^ 64) /\
  forall clear, toy_dec pool (ex_redec clear (ex_enc d)) = Some (if clear then clear_source_info d else d) /\ len (ex_redec clear (ex_enc d)) < 2 ^ 64.
Proof.
  intros Hnames d Hd.
  assert (Hf : In (fd_name d) [b "google/protobuf/any.proto"; b "a.proto"]) by (rewrite <- Hnames; exact (in_map fd_name _ _ Hd)).
  assert (Hl : len (fd_name d) < 100) by (destruct Hf as [<-|[<-|[]]]; reflexivity).
  assert (Hz : forall n, fd_name d <> 0 :: n) by (intros n E; rewrite E in Hf; destruct Hf as [Hf|[Hf|[]]]; discriminate).
  assert (Hd1 : find (fun e => bytes_eqb (fd_name e) (fd_name d)) pool = Some d).
  { apply find_name; auto. rewrite Hnames. repeat constructor; cbn [In]; intuition discriminate. }
  assert (Hd2 : toy_dec pool (fd_name d) = Some d) by (unfold toy_dec; destruct (fd_name d) as [|[|p] n] eqn:E; auto; exfalso; eapply Hz; eauto).
  assert (H64 : 101 < 2 ^ 64) by reflexivity. revert H64. generalize (2 ^ 64). intros M HM.
  assert (Hg : (toy_dec pool (ex_enc d) = Some d /\ len (ex_enc d) < M) /\ toy_dec pool (0 :: ex_enc d) = Some (clear_source_info d) /\ len (0 :: ex_enc d) < M).
  { unfold ex_enc. split; [split; [exact Hd2|lia]|]. split; [unfold toy_dec; rewrite Hd1; reflexivity|rewrite len_cons; lia]. }
  split; [apply Hg|]. intros []; apply Hg.
Qed.
Example C52_ex_codable : codable ex_k0 loc_sort ex_google ex_fs ex_lk ex_enc ex_redec ex_dec 9 (ex_args (b "a.proto") true) /\ map fd_name ex_pool = [b "google/protobuf/any.proto"; b "a.proto"].
Proof.
  split; [|exact ex_pool_names]. intros c E.
  assert (Ep : c_pool c = ex_pool).
  { unfold start, ex_args in E. cbn [a_files a_include_source_info a_include_imports search_dirs a_includes] in E.
    assert (Hn : named (default_rs ex_k0 loc_sort ex_google [b "inc"] (fun _ => ex_fs))) by (apply C49_default_well_behaved; exact loc_sort_sorting).
    rewrite (open_files_flags ex_lk ex_linker _ _ _ Hn [] compiler_new) in E by constructor.
    unfold ex_pool. destruct (open_files _ ex_lk 9 _ compiler_new) as [[[[]|e] c']| |]; cbn [obind] in E; try discriminate. injection E as <-. reflexivity. }
  rewrite Ep. clear. intros d Hd. exact (toy_codec ex_pool ex_pool_names d Hd).
Qed.
