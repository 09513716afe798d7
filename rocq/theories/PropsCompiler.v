(** Properties of the compiler: C30-C39, C44 (compiler part), C45.

    Vocabulary (CompilerProofs.v, CompilerHistory.v): [history rs lk ok c] - some
    sequence of API calls on a fresh compiler, with a resolver [rs] that may answer
    differently at every call and a linker [lk], led to state [c], and [ok] lists the names
    of the files opened successfully; [requested rs c path] - the name [open_file]
    looks up for [path]; [imports rs a m] - the resolver at some moment returned a
    file for [a] that imports [m]; [reaches] - its reflexive transitive closure;
    [named] - files carry the name they were asked for; [linker_ok] - the
    assumption on prost-reflect. *)
From Coq Require Import Permutation Relations.
From Verif Require Import Base Utf8 Errors Lex Ast Comments Parse Lines Descriptor Generate ParseApi Paths Resolver Compiler CompilerProofs CompilerHistory.

(** ** A concrete compiler run, used to show that hypotheses can be met:
    a.proto imports b.proto and c.proto, b.proto imports c.proto; x.proto
    imports y.proto which does not exist; p and q import each other. *)
Definition ex_desc (n : bytes) (deps : list bytes) : file_desc :=
  {| d_name := Some n; d_package := None; d_dependency := deps; d_public := []; d_weak := []; d_message := [];
     d_enum := []; d_service := []; d_extension := []; d_options := None;
     d_source_info := Some [{| loc_path := []; loc_span := [0;0;1]%Z; loc_leading := None; loc_trailing := None; loc_detached := [] |}];
     d_syntax := None |}.
Definition ex_files : list (bytes * list bytes) :=
  [(b "a.proto", [b "b.proto"; b "c.proto"]); (b "b.proto", [b "c.proto"]); (b "c.proto", []);
   (b "x.proto", [b "c.proto"; b "y.proto"]); (b "p.proto", [b "q.proto"]); (b "q.proto", [b "p.proto"]);
   (b "d.proto", [b "c.proto"; b "c.proto"])].
Definition ex_resolver : resolver :=
  {| r_resolve := fun _ => None;
     r_open := fun n =>
       match find (fun e => bytes_eqb (fst e) n) ex_files with
       | Some (_, deps) => Done (inl (file_from_desc (ex_desc n deps)))
       | None => Done (inr (EFileNotFound n))
       end |}.
Definition ex_rs : nat -> resolver := fun _ => ex_resolver.
Definition ex_lk : linker := fun pool d _ =>
  if existsb (bytes_eqb (fd_name d)) (map fd_name pool) then inr (Some (fd_name d)) else inl (pool ++ [d]).

Lemma ex_opened a f : opened ex_rs a f -> In a (map fst ex_files) /\ exists deps, f = file_from_desc (ex_desc a deps).
Proof.
  intros [t H]. unfold ex_rs, ex_resolver in H. cbn [r_open] in H.
  destruct (find (fun e => bytes_eqb (fst e) a) ex_files) as [[k deps]|] eqn:E; [|discriminate].
  apply find_some in E. destruct E as [E1 E2]. apply bytes_eqb_eq in E2. cbn [fst] in E2. subst k.
  injection H as <-. split; [|eauto]. apply (in_map fst) in E1. exact E1.
Qed.
Lemma ex_named : named ex_rs.
Proof. intros a f H. apply ex_opened in H. destruct H as (_ & deps & ->). reflexivity. Qed.
Lemma ex_stable : stable ex_rs.
Proof. intros t n. reflexivity. Qed.
Lemma ex_linker : linker_ok ex_lk.
Proof.
  intros pool d enc pool' H. unfold ex_lk in H. destruct (existsb _ _); [discriminate|].
  injection H as <-. right. exists d. auto.
Qed.
Lemma ex_total t a : exists r, r_open (ex_rs t) a = Done r.
Proof. unfold ex_rs, ex_resolver. cbn [r_open]. destruct (find (fun e : bytes * list bytes => bytes_eqb (fst e) a) ex_files) as [[k deps]|]; eauto. Qed.
Lemma ex_span a f i : opened ex_rs a f -> exists sp, find_import_span f i = Done sp.
Proof. intros H. apply ex_opened in H. destruct H as (_ & deps & ->). exists None. reflexivity. Qed.

(** open a.proto; open missing x.proto (fails after the first import); open b.proto. *)
Definition state_of (r : cres unit) : cst := match r with Done (_, c) => c | _ => compiler_new end.
Definition ex_c1 : cst := state_of (open_file ex_rs ex_lk 9 (b "a.proto") compiler_new).
Definition ex_c2 : cst := state_of (open_file ex_rs ex_lk 9 (b "x.proto") ex_c1).
Definition ex_run : cst := state_of (open_file ex_rs ex_lk 9 (b "b.proto") ex_c2).
Lemma ex_history : history ex_rs ex_lk [b "b.proto"; b "a.proto"] ex_run.
Proof.
  eapply (h_open _ _ 9 (b "b.proto") ex_c2 ex_run _ false); [|vm_compute; reflexivity|vm_compute; reflexivity].
  eapply (h_fail _ _ 9 (b "x.proto") ex_c1 ex_c2); [|vm_compute; reflexivity].
  eapply (h_open _ _ 9 (b "a.proto") compiler_new ex_c1 _ false); [apply h_new|vm_compute; reflexivity|vm_compute; reflexivity].
Qed.
Example ex_run_names : map fd_name (c_pool ex_run) = [b "c.proto"; b "b.proto"; b "a.proto"].
Proof. vm_compute. reflexivity. Qed.

Lemma F2_length {A B} (R : A -> B -> Prop) l1 l2 : Forall2 R l1 l2 -> length l1 = length l2.
Proof. induction 1; simpl; congruence. Qed.
Lemma filter_true {A} (l : list A) : filter (fun _ => true) l = l.
Proof. induction l; simpl; congruence. Qed.

Section Props.
Variables (rs : nat -> resolver) (lk : linker).

(** *** C30: output is in topological order *)
(** With imports included every file comes after all its imports; with any
    setting no file of the output precedes (or is) one that it is imported by. *)
Theorem C30_output_topological :
  named rs -> linker_ok lk ->
  forall ok c, history rs lk ok c ->
  exists ds, file_descriptor_set c = Done ds /\
    (c_include_imports c = true ->
       forall pre d post, ds = pre ++ d :: post -> forall i, In i (d_dependency d) -> In i (map fd_name pre)) /\
    (forall pre d post, ds = pre ++ d :: post -> forall e, In e (d :: post) -> ~ In (fd_name e) (d_dependency d)) /\
    exists ms, files c = Done ms /\
      (c_include_imports c = true -> map fm_name ms = map fd_name ds).
Proof.
  intros Hn Hl ok c Hh. pose proof (history_Inv rs lk Hn Hl _ _ Hh) as HI.
  eexists. split; [apply (fds_Done rs); auto|].
  set (g := fun d => if c_include_source_info c then d else clear_source_info d).
  assert (Hgn : forall d, fd_name (g d) = fd_name d) by (intros d; unfold g; now destruct (c_include_source_info c)).
  assert (Hgd : forall d, d_dependency (g d) = d_dependency d) by (intros d; unfold g; now destruct (c_include_source_info c)).
  assert (Hgm : forall l, map fd_name (map g l) = map fd_name l).
  { intros l. rewrite map_map. apply map_ext. auto. }
  split; [|split].
  - intros Hii. rewrite Hii. cbn [orb].
    assert (Hft : filter (fun _ : file_desc => true) (c_pool c) = c_pool c).
    { apply filter_true. }
    rewrite Hft. intros pre d post E i Hi.
    apply map_eq_app in E. destruct E as (l1 & l2 & E1 & <- & E2).
    apply map_eq_cons in E2. destruct E2 as (d0 & l3 & -> & <- & <-).
    rewrite Hgd in Hi. rewrite Hgm. eapply (inv_topo _ _ HI); eauto.
  - intros pre d post E e He Hd.
    apply map_eq_app in E. destruct E as (l1 & l2 & E1 & <- & E2).
    apply map_eq_cons in E2. destruct E2 as (d0 & l3 & -> & <- & <-).
    rewrite Hgd in Hd.
    (* split the pool at d0 *)
    assert (Hsplit : forall (p : file_desc -> bool) l a x z, filter p l = a ++ x :: z ->
              exists a' z', l = a' ++ x :: z' /\ incl z z').
    { clear. intros p. induction l as [|y l IH]; intros a x z E; simpl in E; [destruct a; discriminate|].
      destruct (p y) eqn:Ep.
      - destruct a as [|a0 a].
        + injection E as -> <-. exists [], l. split; auto. intros w Hw. apply filter_In in Hw. tauto.
        + injection E as -> E. destruct (IH _ _ _ E) as (a' & z' & -> & Hi). exists (a0 :: a'), z'. auto.
      - destruct (IH _ _ _ E) as (a' & z' & -> & Hi). exists (y :: a'), z'. auto. }
    apply Hsplit in E1. destruct E1 as (a' & z' & Ep & Hincl).
    pose proof (inv_topo _ _ HI _ _ _ Ep _ Hd) as Hbefore.
    pose proof (inv_nodup _ _ HI) as Hnd. unfold names in Hnd. rewrite Ep, map_app in Hnd. simpl in Hnd.
    assert (Hafter : In (fd_name e) (fd_name d0 :: map fd_name z')).
    { destruct He as [<-|He]; [rewrite Hgn; simpl; auto|]. right.
      apply (in_map fd_name) in He. rewrite Hgm in He. apply in_map_iff in He.
      destruct He as (e0 & <- & He0). apply in_map. apply Hincl. auto. }
    clear - Hnd Hbefore Hafter. induction (map fd_name a') as [|k l IH]; [destruct Hbefore|].
    simpl in Hnd. inversion Hnd; subst. destruct Hbefore as [->|Hb]; [|auto].
    apply H1. apply in_or_app. right. exact Hafter.
  - eexists. split; [apply (files_Done rs); auto|]. intros Hii. rewrite Hii. cbn [orb].
    rewrite (Forall2_meta_name rs _ _ (inv_from _ _ HI)). rewrite Hgm. f_equal. symmetry. apply filter_true.
Qed.

(** *** C31: no duplicates, imports complete *)
Theorem C31_no_duplicates_and_complete :
  named rs -> linker_ok lk ->
  forall ok c, history rs lk ok c ->
  exists ds, file_descriptor_set (include_imports true c) = Done ds /\ NoDup (map fd_name ds) /\
    (forall d i, In d ds -> In i (d_dependency d) -> exists e, In e ds /\ fd_name e = i) /\
    (forall n, In n ok -> exists e, In e ds /\ fd_name e = n).
Proof.
  intros Hn Hl ok c Hh. apply (h_imports rs lk true) in Hh.
  pose proof (history_Inv rs lk Hn Hl _ _ Hh) as HI.
  destruct (C30_output_topological Hn Hl ok _ Hh) as (ds & E & Htop & _).
  exists ds. split; [exact E|]. rewrite (fds_Done rs) in E by auto.
  set (c' := include_imports true c) in *.
  assert (En : map fd_name ds = names c').
  { injection E as <-. rewrite map_map. unfold names.
    replace (filter _ (c_pool c')) with (c_pool c').
    - apply map_ext. intros d. now destruct (c_include_source_info c).
    - symmetry. apply filter_true. }
  split; [|split].
  - rewrite En. apply (inv_nodup _ _ HI).
  - intros d i Hd Hi. apply in_split in Hd. destruct Hd as (pre & post & Ed).
    pose proof (Htop eq_refl _ _ _ Ed _ Hi) as Hb. apply in_map_iff in Hb. destruct Hb as (e & <- & He).
    exists e. split; auto. rewrite Ed. apply in_or_app; auto.
  - intros n Hin. destruct (history_flag rs lk Hn Hl _ _ Hh) as (_ & H2 & _). apply H2 in Hin.
    rewrite <- En in Hin. apply in_map_iff in Hin. destruct Hin as (e & <- & He). eauto.
Qed.

(** *** C32: the import flag is exact *)
Theorem C32_is_import_exact :
  named rs -> linker_ok lk ->
  forall ok c, history rs lk ok c ->
  exists ms all sel,
    files c = Done ms /\
    file_descriptor_set (include_imports true c) = Done all /\
    file_descriptor_set (include_imports false c) = Done sel /\
    map fm_name ms = map fd_name all /\
    (forall m, In m ms -> (fm_is_import m = false <-> In (fm_name m) ok)) /\
    (forall m, In m ms -> fm_is_import m = true -> exists a, imports rs a (fm_name m)) /\
    sel = filter (fun d => existsb (bytes_eqb (fd_name d)) ok) all.
Proof.
  intros Hn Hl ok c Hh. pose proof (history_Inv rs lk Hn Hl _ _ Hh) as HI.
  destruct (history_flag rs lk Hn Hl _ _ Hh) as (F1 & F2 & F3).
  pose proof (history_Inv rs lk Hn Hl _ _ (h_imports rs lk true _ _ Hh)) as HI1.
  pose proof (history_Inv rs lk Hn Hl _ _ (h_imports rs lk false _ _ Hh)) as HI2.
  do 3 eexists. split; [apply (files_Done rs); auto|]. split; [apply (fds_Done rs); auto|].
  split; [apply (fds_Done rs); auto|].
  set (g := fun d => if c_include_source_info c then d else clear_source_info d).
  assert (Hgn : forall d, fd_name (g d) = fd_name d) by (intros d; unfold g; now destruct (c_include_source_info c)).
  cbn [c_include_source_info c_include_imports include_imports c_pool orb].
  fold g.
  assert (Hft : filter (fun _ : file_desc => true) (c_pool c) = c_pool c).
  { apply filter_true. }
  rewrite Hft. split; [|split; [|split]].
  - rewrite (Forall2_meta_name rs _ _ (inv_from _ _ HI)), map_map. apply map_ext. intros; now rewrite Hgn.
  - intros m Hm. apply in_map_iff in Hm. destruct Hm as ([k v] & <- & Hkv). cbn [snd].
    pose proof (inv_nodup _ _ HI) as Hnd. rewrite <- (inv_keys _ _ HI) in Hnd.
    pose proof (NoDup_lookup _ Hnd _ Hkv) as Hlk0. cbn [fst snd] in Hlk0.
    assert (Hk : fm_name v = k).
    { pose proof (inv_from _ _ HI) as Hf. clear - Hf Hkv.
      induction Hf as [|d km pool fs [H1 H2] Hf IH]; [destruct Hkv|].
      destruct Hkv as [->|Hkv]; [|auto]. destruct H2 as (f & _ & _ & _ & _ & E & _). simpl in *. congruence. }
    rewrite Hk. apply F1. exact Hlk0.
  - intros m Hm Him. apply in_map_iff in Hm. destruct Hm as ([k v] & <- & Hkv). cbn [snd] in *.
    pose proof (inv_nodup _ _ HI) as Hnd. rewrite <- (inv_keys _ _ HI) in Hnd.
    pose proof (NoDup_lookup _ Hnd _ Hkv) as Hlk0. cbn [fst snd] in Hlk0.
    assert (Hk : fm_name v = k).
    { pose proof (inv_from _ _ HI) as Hf. clear - Hf Hkv.
      induction Hf as [|d km pool fs [H1 H2] Hf IH]; [destruct Hkv|].
      destruct Hkv as [->|Hkv]; [|auto]. destruct H2 as (f & _ & _ & _ & _ & E & _). simpl in *. congruence. }
    rewrite Hk. eapply F3; eauto. rewrite <- (F1 _ _ Hlk0). congruence.
  - assert (Hsel : forall l, incl l (c_pool c) ->
      map g (filter (fun d => opened_flag (include_imports false c) (fd_name d)) l)
      = filter (fun d => existsb (bytes_eqb (fd_name d)) ok) (map g l)).
    { induction l as [|d l IH]; intros Hi; simpl; [reflexivity|]. rewrite Hgn.
      assert (Hd : opened_flag (include_imports false c) (fd_name d) = existsb (bytes_eqb (fd_name d)) ok).
      { destruct (Inv_pool_lookup rs c d HI) as (m & Hm & _); [apply Hi; simpl; auto|].
        unfold opened_flag. cbn [c_files include_imports]. rewrite Hm. apply F1 in Hm.
        destruct (fm_is_import m); simpl.
        - symmetry. apply existsb_false_not. rewrite existsb_bytes. intros H1. apply Hm in H1. discriminate.
        - symmetry. apply existsb_bytes. apply Hm. reflexivity. }
      rewrite Hd. destruct (existsb (bytes_eqb (fd_name d)) ok); simpl; rewrite IH; auto;
        intros z Hz; apply Hi; simpl; auto. }
    apply Hsel. apply incl_refl.
Qed.

(** *** C33: import cycles *)
(** Reported cycles are real: the message is a chain of files, starting at the
    requested one, each importing the next, ending with a name already in it. *)
Theorem C33_reported_cycles_are_real :
  named rs -> linker_ok lk ->
  (forall a e, fails rs a e -> forall x y, e <> ECircularImport x y) ->
  forall ok c fuel path x cycle c', history rs lk ok c ->
  open_file rs lk fuel path c = Done (inr (ECircularImport x cycle), c') ->
  exists n isr l, requested rs c path = Some (n, isr) /\
    hd x l = n /\ In x l /\ chain (imports rs) (l ++ [x]) /\
    cycle = flat_map (fun m => m ++ b " -> ") l ++ x.
Proof.
  intros Hn Hl Hres ok c fuel path x cycle c' Hh Ho.
  pose proof (history_Inv rs lk Hn Hl _ _ Hh) as HI.
  eapply open_file_spec in Ho; eauto. destruct Ho as (_ & _ & [[Ho _]|(_ & Ho & _)]); [|discriminate].
  inversion Ho; subst.
  - exfalso. eapply Hres; eauto.
  - exists n, isr. 
    match goal with H : loop_err _ _ _ _ _ _ |- _ => inversion H; subst end.
    match goal with H : load_err _ _ _ _ _ |- _ => inversion H; subst end.
    + exists ([n] ++ mids). repeat split; auto.
      simpl. destruct (mids ++ [x]) as [|h t] eqn:E; [exact I|]. split; [|assumption].
      exists f. split; auto. destruct mids; simpl in E; injection E as <- <-; simpl in *; congruence.
    + exfalso. eapply Hres; eauto.
Qed.

(** A file on, or leading to, an import cycle can never be opened. *)
Theorem C33_cycles_never_open :
  named rs -> linker_ok lk -> stable rs ->
  forall ok c fuel path n isr c', history rs lk ok c ->
  requested rs c path = Some (n, isr) ->
  (exists m k, reaches rs n m /\ imports rs m k /\ reaches rs k m) ->
  open_file rs lk fuel path c <> Done (inl tt, c').
Proof.
  intros Hn Hl Hst ok c fuel path n isr c' Hh Hreq (m & k & H1 & H2 & H3) Ho.
  pose proof (history_Inv rs lk Hn Hl _ _ Hh) as HI.
  destruct (open_names rs lk Hn Hl Hst _ _ _ _ _ _ HI Hreq Ho) as [Hin _].
  eapply open_file_spec in Ho; eauto. destruct Ho as (HI' & _).
  exact (no_cycle rs Hst c' n m k HI' Hin H1 H2 H3).
Qed.

(** With finitely many files, [open_file] terminates (fuel: the number of
    files) and does not panic, and more fuel changes nothing. *)
Theorem C33_open_file_terminates :
  forall U : list bytes,
  (forall a f, opened rs a f -> In a U) ->
  (forall t a, exists r, r_open (rs t) a = Done r) ->
  (forall a f i, opened rs a f -> exists sp, find_import_span f i = Done sp) ->
  forall path c, exists r c', forall fuel, (length U <= fuel)%nat -> open_file rs lk fuel path c = Done (r, c').
Proof.
  intros U HU Ht Hs path c.
  destruct (open_file_total rs lk U HU Ht Hs (length U) path c (le_n _)) as (r & c' & E).
  exists r, c'. intros fuel Hf. eapply open_file_mono; eauto. discriminate.
Qed.

(** *** C34: duplicate imports *)
Theorem C34_no_duplicate_imports :
  named rs -> linker_ok lk ->
  forall ok c, history rs lk ok c ->
  (exists ds, file_descriptor_set (include_imports true c) = Done ds /\ forall d, In d ds -> NoDup (d_dependency d)) /\
  (forall fuel path sp src text x c',
     (forall a e, fails rs a e -> forall u v t w, e <> EDuplicateImport u v t w) ->
     open_file rs lk fuel path c = Done (inr (EDuplicateImport sp src text x), c') ->
     exists f i j, opened rs src f /\ (i < j)%nat /\
       nth_error (d_dependency (pf_desc f)) i = Some x /\ nth_error (d_dependency (pf_desc f)) j = Some x).
Proof.
  intros Hn Hl ok c Hh. split.
  - apply (h_imports rs lk true) in Hh. pose proof (history_Inv rs lk Hn Hl _ _ Hh) as HI.
    eexists. split; [apply (fds_Done rs); auto|]. intros d Hd. apply in_map_iff in Hd.
    destruct Hd as (d0 & <- & Hd0). apply filter_In in Hd0. destruct Hd0 as [Hd0 _].
    destruct (Inv_pool_lookup rs _ d0 HI Hd0) as (m & _ & f & _ & _ & _ & _ & _ & Hnd).
    destruct (c_include_source_info (include_imports true c)); exact Hnd.
  - intros fuel path sp src text x c' Hres Ho. pose proof (history_Inv rs lk Hn Hl _ _ Hh) as HI.
    assert (Hfind : forall f i, nth_error (d_dependency (pf_desc f)) i = Some x ->
              In x (firstn i (d_dependency (pf_desc f))) ->
              exists i0 j0, (i0 < j0)%nat /\ nth_error (d_dependency (pf_desc f)) i0 = Some x /\
                nth_error (d_dependency (pf_desc f)) j0 = Some x).
    { intros f i H1 H2. apply In_nth_error in H2. destruct H2 as [i0 H2].
      assert (Hlt : (i0 < i)%nat).
      { assert (i0 < length (firstn i (d_dependency (pf_desc f))))%nat by (apply nth_error_Some; congruence).
        rewrite firstn_length in H. lia. }
      exists i0, i. repeat split; auto.
      rewrite <- H2. symmetry. rewrite <- (firstn_skipn i (d_dependency (pf_desc f))) at 2.
      rewrite nth_error_app1; auto. apply nth_error_Some. congruence. }
    eapply open_file_spec in Ho; eauto. destruct Ho as (_ & _ & [[Ho _]|(_ & Ho & _)]); [|discriminate].
    inversion Ho; subst.
    + exfalso. eapply Hres; eauto.
    + match goal with H : loop_err _ _ _ _ _ _ |- _ => inversion H; subst end.
      * match goal with H : opened rs ?m ?g, H1 : nth_error (d_dependency (pf_desc ?g)) _ = _, H2 : In _ (firstn _ (d_dependency (pf_desc ?g))) |- _ =>
             destruct (Hfind _ _ H1 H2) as (i0 & j0 & A & B & C); exists g, i0, j0; rewrite (Hn m g); auto end.
      * match goal with H : load_err _ _ _ _ _ |- _ => inversion H; subst end.
        -- match goal with H : opened rs ?m ?g, H1 : nth_error (d_dependency (pf_desc ?g)) _ = _, H2 : In _ (firstn _ (d_dependency (pf_desc ?g))) |- _ =>
             destruct (Hfind _ _ H1 H2) as (i0 & j0 & A & B & C); exists g, i0, j0; rewrite (Hn m g); auto end.
        -- exfalso. eapply Hres; eauto.
Qed.

(** *** C35: failing calls corrupt nothing *)
Theorem C35_failure_preserves_state :
  named rs -> linker_ok lk ->
  forall ok c fuel path e c', history rs lk ok c ->
  open_file rs lk fuel path c = Done (inr e, c') ->
  history rs lk ok c' /\
  (exists old extra, files c = Done old /\ files c' = Done (old ++ extra) /\
     (forall m, In m extra -> fm_is_import m = true) /\
     (forall n isr m, requested rs c path = Some (n, isr) -> In m extra -> fm_name m <> n)) /\
  (exists old extra, file_descriptor_set (include_imports true c) = Done old /\
     file_descriptor_set (include_imports true c') = Done (old ++ extra)) /\
  (c_include_imports c = false -> file_descriptor_set c' = file_descriptor_set c).
Proof.
  intros Hn Hl ok c fuel path e c' Hh Ho.
  assert (Hh' : history rs lk ok c') by (eapply h_fail; eauto).
  pose proof (history_Inv rs lk Hn Hl _ _ Hh) as HI.
  pose proof (history_Inv rs lk Hn Hl _ _ Hh') as HI'.
  assert (Hx : exists n, (forall n' isr, requested rs c path = Some (n', isr) -> n' = n) /\ ext (new_import rs n) c c').
  { eapply open_file_spec in Ho; eauto. destruct Ho as (_ & _ & [[_ (n & isr & Hr & Hx)]|(Hr & _ & ->)]).
    - exists n. split; auto. congruence.
    - exists []. split; [congruence|]. apply ext_tick. }
  destruct Hx as (n & Hreq & Hx).
  split; [exact Hh'|].
  pose proof Hx as (ds & ms & X1 & X2 & X3 & X4 & X5 & X6 & X7).
  split; [|split].
  - exists (map snd (c_files c)), (map snd ms). split; [apply (files_Done rs); auto|].
    split; [rewrite (files_Done rs c') by auto; rewrite X2, map_app; reflexivity|]. split.
    + intros m Hm. apply in_map_iff in Hm. destruct Hm as (km & <- & Hkm). rewrite Forall_forall in X3. auto.
    + intros n' isr m Hr Hm. apply Hreq in Hr. subst n'.
      pose proof (inv_from _ _ HI') as Hf. rewrite X1, X2 in Hf.
      apply Forall2_app_inv_l in Hf. destruct Hf as (l1 & l2 & Hf1 & Hf2 & El).
      assert (El' : l1 = c_files c /\ l2 = ms).
      { assert (length l1 = length (c_files c)).
        { apply F2_length in Hf1. rewrite <- Hf1.
          pose proof (F2_length _ _ _ (inv_from _ _ HI)). lia. }
        clear - El H. revert El H. generalize (c_files c). induction l1 as [|x l1 IH]; intros [|y l]; simpl; intros E H; try discriminate; auto.
        injection E as <- E. destruct (IH l E) as [-> ->]; auto. }
      destruct El' as [-> ->]. rewrite <- X4 in X5. clear - Hf2 X5 Hm.
      induction Hf2 as [|d km pool fs [H1 H2] Hf2 IH]; [destruct Hm|].
      simpl in X5. inversion X5; subst. destruct Hm as [<-|Hm]; [|auto].
      destruct H2 as (f & _ & _ & _ & _ & E & _). rewrite E, <- H1. destruct H3 as [H3 _]. exact H3.
  - pose proof (history_Inv rs lk Hn Hl _ _ (h_imports rs lk true _ _ Hh)) as HI1.
    pose proof (history_Inv rs lk Hn Hl _ _ (h_imports rs lk true _ _ Hh')) as HI2.
    do 2 eexists. split; [apply (fds_Done rs); auto|].
    rewrite (fds_Done rs) by auto. cbn [c_include_source_info c_include_imports include_imports c_pool orb].
    rewrite X1, X7, filter_app, map_app. reflexivity.
  - intros Eii. rewrite !(fds_Done rs) by auto. rewrite X1, X6, X7, Eii, filter_app, map_app. cbn [orb].
    f_equal. rewrite <- app_nil_r. f_equal.
    + f_equal. apply filter_ext_in. intros d Hd.
      destruct (Inv_pool_lookup rs c d HI Hd) as (m & Hm & _). unfold opened_flag.
      rewrite (ext_lookup_old _ _ _ _ _ Hx Hm), Hm. reflexivity.
    + assert (Hnil : filter (fun d => opened_flag c' (fd_name d)) ds = []).
      { assert (Hall : forall d, In d ds -> opened_flag c' (fd_name d) = false).
        { intros d Hd. unfold opened_flag.
          assert (Hnone : lookup (fd_name d) (c_files c) = None).
          { apply lookup_None. rewrite (inv_keys _ _ HI). intros Hin.
            pose proof (inv_nodup _ _ HI') as Hnd. unfold names in Hnd. rewrite X1, map_app in Hnd.
            clear - Hnd Hd Hin. unfold names in Hin. induction (map fd_name (c_pool c)) as [|k l IH]; [destruct Hin|].
            simpl in Hnd. inversion Hnd; subst. destruct Hin as [->|Hin]; [|auto].
            apply H1. apply in_or_app. right. now apply in_map. }
          destruct (lookup (fd_name d) (c_files c')) as [m|] eqn:E; [|reflexivity].
          destruct (ext_lookup_new _ _ _ _ Hx Hnone _ E) as [-> _]. reflexivity. }
        clear - Hall. induction ds as [|d ds IH]; simpl; [reflexivity|].
        rewrite Hall by (simpl; auto). apply IH. intros; apply Hall; simpl; auto. }
      rewrite Hnil. reflexivity.
Qed.

(** *** C36: a successful open loads exactly the import closure *)
Theorem C36_loads_exactly_closure :
  named rs -> linker_ok lk -> stable rs ->
  forall ok c fuel path n isr c', history rs lk ok c ->
  requested rs c path = Some (n, isr) ->
  open_file rs lk fuel path c = Done (inl tt, c') ->
  exists old new, files c = Done old /\ files c' = Done new /\
    forall m, In m (map fm_name new) <-> In m (map fm_name old) \/ reaches rs n m.
Proof.
  intros Hn Hl Hst ok c fuel path n isr c' Hh Hreq Ho.
  pose proof (history_Inv rs lk Hn Hl _ _ Hh) as HI.
  pose proof (history_Inv rs lk Hn Hl _ _ (h_open _ _ _ _ _ _ _ _ _ Hh Hreq Ho)) as HI'.
  destruct (open_names rs lk Hn Hl Hst _ _ _ _ _ _ HI Hreq Ho) as [_ Hnm].
  do 2 eexists. split; [apply (files_Done rs); auto|]. split; [apply (files_Done rs); auto|].
  rewrite (Forall2_meta_name rs _ _ (inv_from _ _ HI)), (Forall2_meta_name rs _ _ (inv_from _ _ HI')).
  exact Hnm.
Qed.

(** Opening the same files in any order (all successfully) gives the same files. *)
Theorem C36_order_independent :
  named rs -> linker_ok lk -> stable rs ->
  forall ok1 c1 ok2 c2, clean_history rs lk ok1 c1 -> clean_history rs lk ok2 c2 ->
  (forall n, In n ok1 <-> In n ok2) ->
  exists ms1 ms2, files c1 = Done ms1 /\ files c2 = Done ms2 /\
    Permutation (map fm_name ms1) (map fm_name ms2) /\
    (forall m1 m2, In m1 ms1 -> In m2 ms2 -> fm_name m1 = fm_name m2 -> fm_is_import m1 = fm_is_import m2).
Proof.
  intros Hn Hl Hst ok1 c1 ok2 c2 H1 H2 Hok.
  pose proof (clean_history_history _ _ _ _ H1) as Hh1. pose proof (clean_history_history _ _ _ _ H2) as Hh2.
  pose proof (history_Inv rs lk Hn Hl _ _ Hh1) as HI1. pose proof (history_Inv rs lk Hn Hl _ _ Hh2) as HI2.
  destruct (C32_is_import_exact Hn Hl _ _ Hh1) as (ms1 & ? & ? & F1 & _ & _ & _ & G1 & _).
  destruct (C32_is_import_exact Hn Hl _ _ Hh2) as (ms2 & ? & ? & F2 & _ & _ & _ & G2 & _).
  exists ms1, ms2. split; auto. split; auto. split.
  - rewrite (files_Done rs) in F1, F2 by auto. injection F1 as <-. injection F2 as <-.
    rewrite (Forall2_meta_name rs _ _ (inv_from _ _ HI1)), (Forall2_meta_name rs _ _ (inv_from _ _ HI2)).
    apply NoDup_Permutation; [apply (inv_nodup _ _ HI1)|apply (inv_nodup _ _ HI2)|].
    intros m. change (In m (names c1) <-> In m (names c2)).
    rewrite (clean_names rs lk Hn Hl Hst _ _ H1), (clean_names rs lk Hn Hl Hst _ _ H2).
    split; intros (n & A & B); exists n; split; auto; apply Hok; auto.
  - intros m1 m2 A B E. apply G1 in A. apply G2 in B. rewrite E in A. rewrite Hok in A. 
    destruct (fm_is_import m1), (fm_is_import m2); auto.
    + destruct B as [B _]. destruct A as [_ A]. symmetry. symmetry. apply A. apply B. reflexivity.
    + destruct A as [A _]. destruct B as [_ B]. symmetry. apply B. apply A. reflexivity.
Qed.

(** *** C37: opening a loaded file changes only its import flag *)
Theorem C37_open_loaded_file :
  named rs -> linker_ok lk ->
  forall ok c fuel path n isr m ms, history rs lk ok c ->
  requested rs c path = Some (n, isr) ->
  files c = Done ms -> In m ms -> fm_name m = n ->
  (isr = true -> forall a, fm_path m = Some a -> path_eq a path = true) ->
  exists c', open_file rs lk fuel path c = Done (inl tt, c') /\
    files c' = Done (map (fun m' => if bytes_eqb (fm_name m') n
                                    then {| fm_name := n; fm_path := fm_path m'; fm_is_import := false |} else m') ms) /\
    file_descriptor_set (include_imports true c') = file_descriptor_set (include_imports true c).
Proof.
  intros Hn Hl ok c fuel path n isr m ms Hh Hreq Hf Hm Hname Hsh.
  pose proof (history_Inv rs lk Hn Hl _ _ Hh) as HI.
  rewrite (files_Done rs) in Hf by auto. injection Hf as <-.
  pose proof (inv_nodup _ _ HI) as Hnd. rewrite <- (inv_keys _ _ HI) in Hnd.
  assert (Hkeys : forall km, In km (c_files c) -> fm_name (snd km) = fst km).
  { pose proof (inv_from _ _ HI) as Hfr. clear - Hfr. induction Hfr as [|d km pool fs [H1 H2] Hfr IH]; [intros ? []|].
    intros km' [<-|Hin]; auto. destruct H2 as (f & _ & _ & _ & _ & E & _). congruence. }
  assert (Hlook : lookup n (c_files c) = Some m).
  { apply in_map_iff in Hm. destruct Hm as (km & <- & Hkm). rewrite <- Hname, (Hkeys _ Hkm).
    apply NoDup_lookup; auto. }
  assert (Ho : open_file rs lk fuel path c =
     Done (inl tt, set_files (insert n {| fm_name := fm_name m; fm_path := fm_path m; fm_is_import := false |} (c_files c)) (tick c))).
  { assert (Hon : open_named rs lk fuel path n isr (tick c) =
      Done (inl tt, set_files (insert n {| fm_name := fm_name m; fm_path := fm_path m; fm_is_import := false |} (c_files c)) (tick c))).
    { unfold open_named. cbn [c_files tick]. rewrite Hlook.
      assert (Hs : (if isr then check_shadow n (fm_path m) path else None) = None).
      { destruct isr; auto. unfold check_shadow. destruct (fm_path m) as [a|]; auto.
        rewrite (Hsh eq_refl a eq_refl). reflexivity. }
      rewrite Hs. reflexivity. }
    unfold open_file. unfold requested in Hreq. destruct (r_resolve (rs (c_tick c)) path).
    - injection Hreq as -> <-. exact Hon.
    - destruct (path_to_file_name (components path)); [|discriminate]. injection Hreq as -> <-. exact Hon. }
  eexists. split; [exact Ho|].
  pose proof (history_Inv rs lk Hn Hl _ _ (h_open _ _ _ _ _ _ _ _ _ Hh Hreq Ho)) as HI'.
  split.
  - rewrite (files_Done rs) by auto. cbn [c_files set_files]. f_equal.
    clear - Hlook Hnd Hkeys Hname. revert Hlook Hnd Hkeys. generalize (c_files c) as l.
    induction l as [|[k v] l IH]; simpl; [discriminate|]. intros Hlook Hnd Hkeys.
    inversion Hnd; subst. pose proof (Hkeys (k, v) (or_introl eq_refl)) as Hk. cbn [fst snd] in Hk. rewrite Hk.
    destruct (bytes_eqb k (fm_name m)) eqn:E; cbn [map snd].
    + injection Hlook as ->. f_equal.
      apply bytes_eqb_eq in E. subst k.
      assert (Hout : forall km, In km l -> bytes_eqb (fm_name (snd km)) (fm_name m) = false).
      { intros km Hin. apply bytes_eqb_neq. rewrite (Hkeys km) by auto. intros E. apply H1. rewrite <- E. now apply in_map. }
      clear - Hout. induction l as [|km l IH]; simpl; auto. rewrite Hout by (simpl; auto). f_equal. apply IH.
      intros; apply Hout; simpl; auto.
    + f_equal. apply IH; auto.
  - unfold file_descriptor_set, emitted. cbn. reflexivity.
Qed.

(** *** C38: accessors do not panic *)
Theorem C38_accessors_never_panic :
  named rs -> linker_ok lk ->
  forall ok c, history rs lk ok c ->
  (exists ms, files c = Done ms) /\ (exists ds, file_descriptor_set c = Done ds) /\
  forall enc redec, exists bs, encode_file_descriptor_set enc redec c = Done bs.
Proof.
  intros Hn Hl ok c Hh. pose proof (history_Inv rs lk Hn Hl _ _ Hh) as HI.
  split; [eexists; apply (files_Done rs); auto|]. split; [eexists; apply (fds_Done rs); auto|].
  intros enc redec. unfold encode_file_descriptor_set.
  destruct (c_include_imports c && c_include_source_info c); [eauto|].
  erewrite ofilter_Done by (intros; apply (emitted_Done rs); auto). simpl. eauto.
Qed.

(** *** C39: the output options only filter *)
Theorem C39_options_only_filter :
  named rs -> linker_ok lk ->
  forall ok c, history rs lk ok c ->
  exists full,
    file_descriptor_set (include_source_info true c) = Done full /\
    file_descriptor_set (include_source_info false c) = Done (map clear_source_info full) /\
    (forall yes, files (include_source_info yes c) = files c /\ files (include_imports yes c) = files c) /\
    (forall yes fuel path,
       open_file rs lk fuel path (include_source_info yes c)
         = obind (open_file rs lk fuel path c) (fun '(r, c') => Done (r, include_source_info yes c')) /\
       open_file rs lk fuel path (include_imports yes c)
         = obind (open_file rs lk fuel path c) (fun '(r, c') => Done (r, include_imports yes c'))).
Proof.
  intros Hn Hl ok c Hh.
  pose proof (history_Inv rs lk Hn Hl _ _ (h_source_info rs lk true _ _ Hh)) as HI1.
  pose proof (history_Inv rs lk Hn Hl _ _ (h_source_info rs lk false _ _ Hh)) as HI2.
  eexists. split; [apply (fds_Done rs); auto|]. split; [rewrite (fds_Done rs) by auto|].
  { cbn. rewrite map_map. reflexivity. }
  split; [intros yes; split; reflexivity|].
  intros yes fuel path.
  (* the operations commute with any change of the flags *)
  assert (Hcomm : forall (h : cst -> cst),
    (forall c, c_pool (h c) = c_pool c /\ c_files (h c) = c_files c /\ c_tick (h c) = c_tick c) ->
    (forall c, tick (h c) = h (tick c)) -> (forall m c, set_files m (h c) = h (set_files m c)) ->
    (forall p c, set_pool p (h c) = h (set_pool p c)) ->
    open_file rs lk fuel path (h c) = obind (open_file rs lk fuel path c) (fun '(r, c') => Done (r, h c'))).
  { intros h H1 H2 H3 H4.
    assert (Hc : forall f c, check_file lk f (h c) = let '(r, c') := check_file lk f c in (r, h c')).
    { intros f c0. unfold check_file. destruct (H1 c0) as (-> & _).
      destruct (lk (c_pool c0) (pf_desc f) (pf_encoded f)); [now rewrite H4|reflexivity]. }
    assert (Hcall : forall n c0, call_open rs n (h c0) = obind (call_open rs n c0) (fun '(r, c') => Done (r, h c'))).
    { intros n c0. unfold call_open. destruct (H1 c0) as (_ & _ & ->).
      destruct (r_open (rs (c_tick c0)) n); simpl; auto. now rewrite H2. }
    assert (Hloop : forall add f stack, (forall x c0, add x stack (h c0) = obind (add x stack c0) (fun '(r, c') => Done (r, h c'))) ->
       forall deps i already c0, import_loop add f stack deps i already (h c0)
         = obind (import_loop add f stack deps i already c0) (fun '(r, c') => Done (r, h c'))).
    { intros add f stack Hadd. induction deps as [|x deps IH]; intros i already c0; simpl; [reflexivity|].
      destruct (existsb (bytes_eqb x) already).
      - destruct (duplicated_import x f i); reflexivity.
      - rewrite Hadd. destruct (add x stack c0) as [[r c1]| |]; simpl; auto.
        destruct r as [u|e]; auto. destruct (into_import_error e f i); reflexivity. }
    assert (Hadd : forall fl x stack c0, add_import rs lk fl x stack (h c0)
       = obind (add_import rs lk fl x stack c0) (fun '(r, c') => Done (r, h c'))).
    { induction fl as [|fl IH]; intros x stack c0; simpl; [reflexivity|].
      destruct (existsb (fun n => bytes_eqb n x) stack); [reflexivity|].
      destruct (H1 c0) as (_ & -> & _). destruct (lookup x (c_files c0)); [reflexivity|].
      rewrite Hcall. destruct (call_open rs x c0) as [[r c1]| |]; simpl; auto.
      destruct r as [f|e]; auto. rewrite Hloop by auto.
      destruct (import_loop (add_import rs lk fl) f (stack ++ [x]) (d_dependency (pf_desc f)) 0 [] c1) as [[r c2]| |]; simpl; auto.
      destruct r as [u|e]; auto. rewrite Hc. destruct (check_file lk f c2) as [[p|e] c3]; simpl; auto.
      destruct (H1 c3) as (_ & -> & _). now rewrite H3. }
    assert (Hon : forall n isr c0, open_named rs lk fuel path n isr (h c0)
       = obind (open_named rs lk fuel path n isr c0) (fun '(r, c') => Done (r, h c'))).
    { intros n isr c0. unfold open_named. destruct (H1 c0) as (_ & -> & _).
      destruct (lookup n (c_files c0)) as [m|].
      - destruct (if isr then check_shadow n (fm_path m) path else None); simpl; auto. now rewrite H3.
      - rewrite Hcall. destruct (call_open rs n c0) as [[r c1]| |]; simpl; auto.
        destruct r as [f|e]; auto.
        destruct (if isr then check_shadow n (pf_path f) path else None); auto.
        rewrite Hloop by auto.
        destruct (import_loop (add_import rs lk fuel) f [n] (d_dependency (pf_desc f)) 0 [] c1) as [[r c2]| |]; simpl; auto.
        destruct r as [u|e]; auto. rewrite Hc. destruct (check_file lk f c2) as [[p|e] c3]; simpl; auto.
        destruct (H1 c3) as (_ & -> & _). now rewrite H3. }
    unfold open_file. destruct (H1 c) as (_ & _ & ->). rewrite H2.
    destruct (r_resolve (rs (c_tick c)) path); [apply Hon|].
    destruct (path_to_file_name (components path)); [apply Hon|reflexivity]. }
  split; apply Hcomm; intros; repeat split; reflexivity.
Qed.

(** The two settings are off for a new [Compiler] and are what they were last
    set to; opening files does not touch them. *)
Inductive settings : bool -> bool -> cst -> Prop :=
| set_new : settings false false compiler_new
| set_open i s fuel path c c' r : settings i s c -> open_file rs lk fuel path c = Done (r, c') -> settings i s c'
| set_imports i s yes c : settings i s c -> settings yes s (include_imports yes c)
| set_source_info i s yes c : settings i s c -> settings i yes (include_source_info yes c).
Theorem C39_settings :
  named rs -> linker_ok lk ->
  forall i s c, settings i s c ->
  file_descriptor_set c = file_descriptor_set (include_imports i (include_source_info s c)) /\
  forall enc redec, encode_file_descriptor_set enc redec c = encode_file_descriptor_set enc redec (include_imports i (include_source_info s c)).
Proof.
  intros Hn Hl i s c H. assert (G : (exists ok, history rs lk ok c) /\ c = include_imports i (include_source_info s c)); [|destruct G as [_ <-]; auto].
  induction H as [|i s fuel path c c' r H [(ok & Hh) IH] E|i s yes c H [(ok & Hh) IH]|i s yes c H [(ok & Hh) IH]].
  - split; [exists []; apply h_new|reflexivity].
  - split.
    + destruct r as [[]|e]; [|exists ok; eapply h_fail; eauto]. destruct (requested rs c path) as [[n isr]|] eqn:Er; [exists (n :: ok); eapply h_open; eauto|].
      exfalso. unfold open_file in E. unfold requested in Er. destruct (r_resolve (rs (c_tick c)) path); [discriminate Er|]. destruct (path_to_file_name (components path)); [discriminate Er|]. discriminate E.
    + destruct (C39_options_only_filter Hn Hl ok c Hh) as (_ & _ & _ & _ & Hc1). destruct (C39_options_only_filter Hn Hl ok _ (h_source_info rs lk s _ _ Hh)) as (_ & _ & _ & _ & Hc2).
      pose proof (proj2 (Hc2 i fuel path)) as E2. rewrite (proj1 (Hc1 s fuel path)), <- IH, E in E2. cbn [obind] in E2. injection E2 as E2. exact E2.
  - split; [exists ok; now apply h_imports|]. rewrite IH. reflexivity.
  - split; [exists ok; now apply h_source_info|]. rewrite IH. reflexivity.
Qed.


(** *** C44 (compiler part): no silent substitution *)
Theorem C44_no_silent_shadowing :
  named rs -> linker_ok lk ->
  forall ok c fuel path n c', history rs lk ok c ->
  requested rs c path = Some (n, true) ->
  open_file rs lk fuel path c = Done (inl tt, c') ->
  exists ms m, files c' = Done ms /\ In m ms /\ fm_name m = n /\ fm_is_import m = false /\
    (forall a, fm_path m = Some a -> path_eq a path = true).
Proof.
  intros Hn Hl ok c fuel path n c' Hh Hreq Ho.
  pose proof (history_Inv rs lk Hn Hl _ _ Hh) as HI.
  pose proof (h_open _ _ _ _ _ _ _ _ _ Hh Hreq Ho) as Hh'.
  pose proof (history_Inv rs lk Hn Hl _ _ Hh') as HI'.
  assert (Hex : exists m, lookup n (c_files c') = Some m /\ (forall a, fm_path m = Some a -> path_eq a path = true)).
  { eapply open_file_spec in Ho; eauto. destruct Ho as (_ & _ & n' & isr' & Hreq' & Ho).
    rewrite Hreq in Hreq'. injection Hreq' as <- <-.
    destruct (lookup n (c_files c)) as [m|] eqn:El.
    - destruct Ho as (_ & -> & _ & _ & Hs). rewrite lookup_insert, bytes_eqb_refl. eexists. split; [reflexivity|].
      simpl. auto.
    - destruct Ho as (f & d & c1 & B1 & B2 & B3 & B4 & B5 & _ & _ & Hs). rewrite B5, lookup_app.
      destruct (lookup n (c_files c1)) as [m|] eqn:E1.
      + destruct (ext_lookup_new _ _ _ _ B2 El _ E1) as [_ [E _]]. congruence.
      + simpl. rewrite bytes_eqb_refl. eexists. split; [reflexivity|]. simpl. auto. }
  destruct Hex as (m & Hm & Hs).
  exists (map snd (c_files c')), m. split; [apply (files_Done rs); auto|].
  pose proof (lookup_In _ _ _ Hm) as Hin.
  split; [apply in_map_iff; exists (n, m); auto|].
  destruct (history_flag rs lk Hn Hl _ _ Hh') as (F1 & _ & _).
  split; [|split; [|exact Hs]].
  - pose proof (inv_from _ _ HI') as Hf. clear - Hf Hin.
    induction Hf as [|d km pool fs [H1 H2] Hf IH]; [destruct Hin|].
    destruct Hin as [->|Hin]; [|auto]. destruct H2 as (f & _ & _ & _ & _ & E & _). simpl in *. congruence.
  - apply (F1 _ _ Hm). simpl; auto.
Qed.

(** *** C45: missing files *)
(** The resolver reports missing files as documented ([Error::file_not_found]). *)
Definition reports_not_found : Prop :=
  forall a e, fails rs a e -> is_file_not_found e = true -> e = EFileNotFound a.

(** A not-found error is either about the requested path, whose name the
    resolver does not know, or names an import the resolver does not know,
    and the file that imports it, which is the requested file or reached from it. *)
Theorem C45_missing_files :
  named rs -> linker_ok lk -> reports_not_found ->
  forall ok c fuel path e c', history rs lk ok c ->
  open_file rs lk fuel path c = Done (inr e, c') -> is_file_not_found e = true ->
  (e = EFileNotIncluded path /\
     forall n isr, requested rs c path = Some (n, isr) -> fails rs n (EFileNotFound n)) \/
  (exists n isr src text x sp, requested rs c path = Some (n, isr) /\ e = EImportNotFound sp src text x /\
     err_file e = Some src /\ reaches rs n src /\ imports rs src x /\ fails rs x (EFileNotFound x)).
Proof.
  intros Hn Hl Hr ok c fuel path e c' Hh Ho Hnf.
  pose proof (history_Inv rs lk Hn Hl _ _ Hh) as HI.
  eapply open_file_spec in Ho; eauto. destruct Ho as (_ & _ & [[Ho _]|(Hq & -> & _)]).
  2:{ left. split; auto. intros n isr Hq'. congruence. }
  assert (Hf : forall a y, fails rs a (EFileNotFound y) -> a = y).
  { intros a y H. pose proof (Hr _ _ H eq_refl) as E0. injection E0 as ->. reflexivity. }
  inversion Ho; subst; try discriminate.
  - left. split; auto. intros; congruence.
  - left. split; auto. intros n' isr' Hq. rewrite H in Hq. injection Hq as <- <-.
    pose proof (Hr _ _ H1 H2) as ->. assumption.
  - congruence.
  - right. match goal with H : loop_err _ _ _ _ _ _ |- _ => inversion H; subst end; try discriminate.
    + exists n, isr, (pf_name f), (pf_text f), y, sp. 
      pose proof (Hf _ _ H4) as ->. rewrite (Hn n f) by auto.
      repeat split; auto; try constructor. exists f. split; auto. eapply nth_error_In; eauto.
    + assert (Hi : imports rs n x) by (exists f; auto).
      match goal with H : load_err _ _ _ _ _ |- _ => inversion H; subst end; try discriminate.
      * pose proof (Hf _ _ H9) as ->. exists n, isr, (pf_name f0), (pf_text f0), y, sp.
        rewrite (Hn m f0) by auto. repeat split; auto.
        -- econstructor 2; eauto.
        -- exists f0. split; auto. eapply nth_error_In; eauto.
      * exfalso. match goal with Hfl : fails rs _ e, Hne : forall y, e <> EFileNotFound y |- _ => eapply Hne; exact (Hr _ _ Hfl Hnf) end.
Qed.

(** If a name reached from the requested one is unknown to a stable resolver,
    the call fails. *)
Theorem C45_missing_import_fails :
  named rs -> linker_ok lk -> stable rs ->
  forall ok c fuel path n isr m c', history rs lk ok c ->
  requested rs c path = Some (n, isr) ->
  reaches rs n m -> fails rs m (EFileNotFound m) ->
  open_file rs lk fuel path c <> Done (inl tt, c').
Proof.
  intros Hn Hl Hst ok c fuel path n isr m c' Hh Hreq Hnm Hf Ho.
  pose proof (history_Inv rs lk Hn Hl _ _ Hh) as HI.
  destruct (open_names rs lk Hn Hl Hst _ _ _ _ _ _ HI Hreq Ho) as [_ Hiff].
  assert (Hin : In m (names c')) by (apply Hiff; auto).
  pose proof (history_Inv rs lk Hn Hl _ _ (h_open _ _ _ _ _ _ _ _ _ Hh Hreq Ho)) as HI'.
  unfold names in Hin. apply in_map_iff in Hin. destruct Hin as (d & <- & Hd).
  destruct (Inv_pool_lookup rs c' d HI' Hd) as (_ & _ & f & [t Hof] & _).
  destruct Hf as [u Hf]. rewrite Hst in Hof, Hf. congruence.
Qed.
End Props.

(** The three predicates on errors exclude one another. *)
Theorem C45_error_classes_exclusive e :
  (is_file_not_found e = true -> is_parse e = false /\ is_io e = false) /\
  (is_parse e = true -> is_io e = false).
Proof. destruct e; simpl; repeat split; intros; try reflexivity; discriminate. Qed.

(** C38, negative: a resolver returning a file with another name makes [files]
    and [file_descriptor_set] panic after a successful [open_file]. *)
Definition bad_resolver : nat -> resolver := fun _ =>
  {| r_resolve := fun _ => None; r_open := fun _ => Done (inl (file_from_desc (ex_desc (b "other.proto") []))) |}.
Theorem C38_misnamed_file_panics :
  exists c, history bad_resolver ex_lk [b "a.proto"] c /\ files c = Panic /\ file_descriptor_set c = Panic.
Proof.
  exists (state_of (open_file bad_resolver ex_lk 1 (b "a.proto") compiler_new)). split; [|split].
  - eapply (h_open _ _ 1 (b "a.proto") compiler_new _ _ false); [apply h_new|vm_compute; reflexivity|vm_compute; reflexivity].
  - vm_compute. reflexivity.
  - vm_compute. reflexivity.
Qed.

(** ** The theorems applied to the concrete run *)
Example C30_example : exists ds, file_descriptor_set ex_run = Done ds.
Proof. destruct (C30_output_topological ex_rs ex_lk ex_named ex_linker _ _ ex_history) as (ds & H & _). eauto. Qed.
Example C32_example : exists ms, files ex_run = Done ms /\
  map (fun m => (fm_name m, fm_is_import m)) ms = [(b "c.proto", true); (b "b.proto", false); (b "a.proto", false)].
Proof. eexists. split; vm_compute; reflexivity. Qed.
Example C33_example_cycle : exists c', open_file ex_rs ex_lk 9 (b "p.proto") ex_run =
  Done (inr (ECircularImport (b "p.proto") (b "p.proto -> q.proto -> p.proto")), c').
Proof. eexists. vm_compute. reflexivity. Qed.
Example C33_example_terminates path : exists r c', forall fuel, (7 <= fuel)%nat -> open_file ex_rs ex_lk fuel path ex_run = Done (r, c').
Proof.
  apply (C33_open_file_terminates ex_rs ex_lk (map fst ex_files)).
  - intros a f H. apply ex_opened in H. tauto.
  - apply ex_total.
  - apply ex_span.
Qed.
Example C34_example : exists c', open_file ex_rs ex_lk 9 (b "d.proto") ex_run =
  Done (inr (EDuplicateImport None (b "d.proto") [] (b "c.proto")), c').
Proof. eexists. vm_compute. reflexivity. Qed.
Example C45_example : exists c', open_file ex_rs ex_lk 9 (b "x.proto") compiler_new =
  Done (inr (EImportNotFound None (b "x.proto") [] (b "y.proto")), c') /\ map fd_name (c_pool c') = [b "c.proto"].
Proof. eexists. split; vm_compute; reflexivity. Qed.

Example C39_settings_example : settings ex_rs ex_lk true false (include_imports true ex_c2).
Proof.
  apply set_imports with (i := false). apply set_open with (fuel := 9%nat) (path := b "x.proto") (c := ex_c1) (r := inr (EImportNotFound None (b "x.proto") [] (b "y.proto"))); [|vm_compute; reflexivity].
  apply (set_open _ _ _ _ 9 (b "a.proto") compiler_new ex_c1 (inl tt)); [apply set_new|vm_compute; reflexivity].
Qed.

Print Assumptions C30_output_topological.
Print Assumptions C31_no_duplicates_and_complete.
Print Assumptions C32_is_import_exact.
Print Assumptions C33_reported_cycles_are_real.
Print Assumptions C33_cycles_never_open.
Print Assumptions C33_open_file_terminates.
Print Assumptions C34_no_duplicate_imports.
Print Assumptions C35_failure_preserves_state.
Print Assumptions C36_loads_exactly_closure.
Print Assumptions C36_order_independent.
Print Assumptions C37_open_loaded_file.
Print Assumptions C38_accessors_never_panic.
Print Assumptions C38_misnamed_file_panics.
Print Assumptions C39_options_only_filter.
Print Assumptions C39_settings.
Print Assumptions C44_no_silent_shadowing.
Print Assumptions C45_missing_files.
Print Assumptions C45_missing_import_fails.
Print Assumptions C45_error_classes_exclusive.
