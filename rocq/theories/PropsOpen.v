(** C60: what can be compiled is compiled. *)
From Coq Require Import Permutation Relations.
From Verif Require Import Base Utf8 Errors Lex Ast Comments Parse Lines Descriptor Generate ParseApi Paths Resolver Compiler CompilerProofs CompilerHistory PropsCompiler PropsDefault OpenSpec.

Section Open.
Variable rs : nat -> resolver.
Variable lk : linker.

Lemma stable_one n f g : stable rs -> opened rs n f -> opened rs n g -> f = g.
Proof. intros Hst [t Ht] [u Hu]. rewrite Hst in Ht, Hu. congruence. Qed.
Lemma stable_not n f e : stable rs -> opened rs n f -> fails rs n e -> False.
Proof. intros Hst [t Ht] [u Hu]. rewrite Hst in Ht, Hu. congruence. Qed.
Lemma nodup_dup {A} (l : list A) i x : NoDup l -> nth_error l i = Some x -> In x (firstn i l) -> False.
Proof.
  intros H Hn Hi. rewrite <- (firstn_skipn i l) in H. assert (Hs : In x (skipn i l)).
  { clear - Hn. revert l Hn. induction i as [|i IH]; intros [|y l]; cbn; try discriminate; [intros [= ->]; now left|auto]. }
  clear Hn. revert Hi H. generalize (firstn i l) (skipn i l) Hs. clear. intros p q Hq Hp H. induction p as [|y p IH]; [destruct Hp|]. cbn in H. inversion H as [|? ? H1 H2]; subst.
  destruct Hp as [->|Hp]; [|auto]. apply H1. apply in_or_app. now right.
Qed.
Lemma chain_reaches l : forall x y, chain (imports rs) (x :: l ++ [y]) -> exists k, imports rs x k /\ reaches rs k y.
Proof.
  induction l as [|z l IH]; intros x y; cbn [app chain].
  - intros [H _]. exists y. split; [exact H|constructor].
  - intros [H1 H2]. exists z. split; [exact H1|]. destruct (IH _ _ H2) as (k & H3 & H4). econstructor 2; eauto.
Qed.
Lemma chain_tail {A} (R : A -> A -> Prop) p : forall q, chain R (p ++ q) -> chain R q.
Proof. induction p as [|x p IH]; intros q; [auto|]. cbn [app chain]. destruct (p ++ q) eqn:E; [apply app_eq_nil in E; destruct E as [_ ->]; intros _; exact I|]. intros [_ H]. apply IH. now rewrite E. Qed.
Lemma chain_all l : forall x z y, chain (imports rs) (x :: l ++ [z]) -> In y l -> reaches rs x y.
Proof.
  induction l as [|u l IH]; [intros ? ? ? _ []|]. intros x z y H [ ->|Hy]; cbn [app chain] in H; destruct H as [H1 H2]; [econstructor 2; [exact H1|constructor]|econstructor 2; [exact H1|exact (IH _ _ _ H2 Hy)]].
Qed.
(** An import cycle below [n]. *)
Lemma chain_cycle n l x : chain (imports rs) (n :: l ++ [x]) -> In x (n :: l) -> exists k, reaches rs n x /\ imports rs x k /\ reaches rs k x.
Proof.
  intros H Hx. assert (Hr : reaches rs n x) by (destruct Hx as [ ->|Hx]; [constructor|eapply chain_all; eauto]).
  apply in_split in Hx. destruct Hx as (p & q & E). rewrite app_comm_cons, E, <- app_assoc in H. apply chain_tail in H. cbn [app] in H. destruct (chain_reaches _ _ _ H) as (k & H1 & H2). eauto.
Qed.

(** *** C60 *)
(** With finitely many files and a resolver that answers and always answers the same: a file is opened
    exactly if it and everything it imports is there. The state of the compiler (which files are
    loaded already, which calls failed) does not matter. *)
Theorem C60_opens_exactly U : named rs -> linker_ok lk -> stable rs ->
  (forall a f, opened rs a f -> In a U) ->
  (forall t a, exists r, r_open (rs t) a = Done r) ->
  (forall a f i, opened rs a f -> exists sp, find_import_span f i = Done sp) ->
  forall ok c path fuel, history rs lk ok c -> (length U <= fuel)%nat ->
  (forall n isr, requested rs c path = Some (n, isr) -> links rs lk n) ->
  (exists c', open_file rs lk fuel path c = Done (inl tt, c')) <-> openable rs c path.
Proof.
  intros Hn Hl Hst HU Ht Hs ok c path fuel Hh Hf Hlinks. pose proof (history_Inv rs lk Hn Hl _ _ Hh) as HI. split.
  - intros (c' & Ho). pose proof Ho as Ho2. eapply open_file_spec in Ho; eauto. destruct Ho as (HI' & _ & n & isr & Hreq & Hrest). exists n, isr. split; [exact Hreq|].
    destruct (open_names rs lk Hn Hl Hst _ _ _ _ _ _ HI Hreq Ho2) as [Hin Hnm]. split; [split|].
    + intros m Hm. assert (Hc : In m (names c')) by (apply Hnm; auto). unfold names in Hc. apply in_map_iff in Hc. destruct Hc as (d & <- & Hd).
      destruct (Inv_pool_lookup rs c' d HI' Hd) as (mt & _ & f & H1 & _ & H2 & _ & _ & H3). exists f. split; [exact H1|]. now rewrite <- H2.
    + intros m k Hm Hk Hkm. exact (no_cycle rs Hst c' n m k HI' Hin Hm Hk Hkm).
    + intros -> f a Hof Hp. destruct (lookup n (c_files c)) as [mt|] eqn:El.
      * destruct Hrest as (_ & _ & _ & _ & Hsh). apply (Hsh eq_refl). assert (Hc : In n (names c)) by (rewrite <- (inv_keys _ _ HI); apply lookup_Some_iff; eauto).
        unfold names in Hc. apply in_map_iff in Hc. destruct Hc as (d & E & Hd). destruct (Inv_pool_lookup rs c d HI Hd) as (mt' & Em & g & H1 & _ & _ & H4 & _). rewrite E in *.
        rewrite El in Em. injection Em as <-. rewrite H4, <- Hp. f_equal. eapply stable_one; eauto.
      * destruct Hrest as (g & d & c1 & H1 & _ & _ & _ & _ & _ & _ & Hsh). apply (Hsh eq_refl). rewrite <- Hp. f_equal. eapply stable_one; eauto.
  - intros (n & isr & Hreq & (Hall & Hcyc) & Hsh). specialize (Hlinks _ _ Hreq). destruct (C33_open_file_terminates rs lk U HU Ht Hs path c) as (r & c' & Ho). specialize (Ho fuel Hf).
    destruct r as [[]|e]; [eauto|]. exfalso. eapply open_file_spec in Ho; eauto. destruct Ho as (_ & _ & [[Ho _]|(Hq & _)]); [|congruence].
    assert (Hrefl : reaches rs n n) by constructor. destruct (Hall n Hrefl) as (f0 & Hf0 & Hnd0).
    inversion Ho as [Hq|n1 i1 e1 Hq Hni Hfl _|n1 i1 e1 Hq Hni Hfl _|n1 mt a Hq El Ea Ep|n1 f a Hq Hni Hof Ea Ep|n1 i1 f e1 Hq Hni Hof Hloop|n1 i1 f pool fl Hq Hni Hof Hpool Hlk]; try subst e; rewrite Hreq in Hq; try discriminate Hq; injection Hq as E1 E2; subst n1 isr.
    + exact (stable_not _ _ _ Hst Hf0 Hfl).
    + exact (stable_not _ _ _ Hst Hf0 Hfl).
    + assert (Hc : In n (names c)) by (rewrite <- (inv_keys _ _ HI); apply lookup_Some_iff; eauto).
      unfold names in Hc. apply in_map_iff in Hc. destruct Hc as (d & E & Hd). destruct (Inv_pool_lookup rs c d HI Hd) as (mt' & Em & g & H1 & _ & _ & H4 & _). rewrite E in *.
      rewrite El in Em. injection Em as <-. assert (path_eq a path = true) by (apply (Hsh eq_refl g a H1); congruence). congruence.
    + rewrite (Hsh eq_refl f a Hof Ea) in Ep. discriminate.
    + assert (f = f0) by (eapply stable_one; eauto). subst f0.
      destruct Hloop as [i x sp H1 H2 H3|i x y sp H1 H2 H3|x e Hx He Hne].
      * exact (nodup_dup _ _ _ Hnd0 H1 H2).
      * apply nth_error_In in H1. destruct (Hall x) as (g & Hg & _); [econstructor 2; [exists f; eauto|constructor]|]. exact (stable_not _ _ _ Hst Hg H2).
      * assert (Hi : imports rs n x) by (exists f; auto).
        destruct He as [mids z A B C|m g i z sp A B C D E|m g i z y sp A B C D E|m e A B C|m g pool fl A B C D].
        -- destruct (chain_cycle n mids z) as (k & K1 & K2 & K3); [|exact A|exact (Hcyc _ _ K1 K2 K3)].
           destruct mids as [|h t]; cbn [app hd chain] in *; subst; auto.
        -- destruct (Hall m) as (g' & Hg & Hnd); [econstructor 2; eauto|]. assert (g = g') by (eapply stable_one; eauto). subst g'. exact (nodup_dup _ _ _ Hnd C D).
        -- apply nth_error_In in C. destruct (Hall z) as (g' & Hg & _); [econstructor 2; [exact Hi|]; apply clos_rt_rt1n; apply clos_rt1n_rt in A; eapply rt_trans; [exact A|]; constructor; exists g; auto|]. exact (stable_not _ _ _ Hst Hg D).
        -- destruct (Hall m) as (g & Hg & _); [econstructor 2; eauto|]. exact (stable_not _ _ _ Hst Hg B).
        -- destruct (Hlinks m g pool) as (p' & Hp); [econstructor 2; eauto|exact B|exact C|]. congruence.
    + destruct (Hlinks n f pool Hrefl Hof Hpool) as (p' & Hp). congruence.
Qed.

(** [compile] succeeds exactly if every path stands for a file that can be opened; order and repetition of
    the paths do not matter. *)
Theorem C60_compile_exactly U : named rs -> linker_ok lk -> stable rs -> stable_paths rs ->
  (forall a f, opened rs a f -> In a U) ->
  (forall t a, exists r, r_open (rs t) a = Done r) ->
  (forall a f i, opened rs a f -> exists sp, find_import_span f i = Done sp) ->
  forall paths fuel, (length U <= fuel)%nat ->
  (forall n, links rs lk n) ->
  (exists ds, compile rs lk fuel paths = Done (inl ds)) <-> (forall path, In path paths -> openable rs compiler_new path).
Proof.
  intros Hn Hl Hst Hsp HU Ht Hs paths fuel Hf Hlinks.
  assert (Hop : forall c path, openable rs c path <-> openable rs compiler_new path) by (intros c path; unfold openable; now rewrite (requested_stable rs c path Hsp)).
  assert (Hfiles : forall c ok, history rs lk ok c -> ((exists c', open_files rs lk fuel paths c = Done (inl tt, c') /\ exists ok', history rs lk ok' c') <-> forall path, In path paths -> openable rs compiler_new path)).
  { induction paths as [|p ps IH]; intros c ok Hh; cbn [open_files].
    - split; [intros _ p []|]. intros _. eauto.
    - pose proof (C60_opens_exactly U Hn Hl Hst HU Ht Hs ok c p fuel Hh Hf (fun n _ _ => Hlinks n)) as H. rewrite Hop in H. split.
      + intros (c' & E & ok' & Hh'). destruct (open_file rs lk fuel p c) as [[[[]|e] c1]| |] eqn:E1; cbn [obind] in E; try discriminate E.
        assert (Hr : exists n isr, requested rs c p = Some (n, isr)) by (destruct H as [(n & isr & Hq & _) _]; [eauto|]; rewrite <- (requested_stable rs c p Hsp) in Hq; eauto).
        destruct Hr as (n & isr & Hr). intros q [<-|Hq]; [apply H; eauto|]. apply (IH c1 _ (h_open _ _ _ _ _ _ _ _ _ Hh Hr E1)); eauto.
      + intros Ha. destruct H as [_ (c1 & E1)]; [apply Ha; now left|]. rewrite E1. cbn [obind].
        assert (Hr : exists n isr, requested rs c p = Some (n, isr)) by (destruct (Ha p (or_introl eq_refl)) as (n & isr & Hq & _); rewrite <- (requested_stable rs c p Hsp) in Hq; eauto).
        destruct Hr as (n & isr & Hr). apply (IH c1 _ (h_open _ _ _ _ _ _ _ _ _ Hh Hr E1)). intros q Hq. apply Ha. now right. }
  assert (Hh0 : history rs lk [] (include_imports true (include_source_info true compiler_new))) by (apply h_imports, h_source_info, h_new).
  rewrite <- (Hfiles _ _ Hh0). unfold compile. set (c0 := include_imports true (include_source_info true compiler_new)) in *. split.
  - intros (ds & E). destruct (open_files rs lk fuel paths c0) as [[[[]|e] c]| |] eqn:E1; cbn [obind] in E; try discriminate E.
    exists c. split; [reflexivity|]. clear - E1 Hh0 Hn Hl. clearbody c0. revert c0 Hh0 E1. generalize (@nil bytes) as ok. induction paths as [|p ps IH]; cbn [open_files]; intros ok c0 Hh0 E1.
    + injection E1 as <-. eauto.
    + destruct (open_file rs lk fuel p c0) as [[[[]|e] c1]| |] eqn:E2; cbn [obind] in E1; try discriminate E1.
      pose proof (history_Inv rs lk Hn Hl _ _ Hh0) as HI. pose proof E2 as E3. eapply open_file_spec in E3; eauto. destruct E3 as (_ & _ & n & isr & Hr & _). eapply (IH (n :: ok) c1); [eapply h_open; eauto|exact E1].
  - intros (c & E & ok' & Hh). rewrite E. cbn [obind]. destruct (C38_accessors_never_panic rs lk Hn Hl _ _ Hh) as (_ & (ds & Ed) & _). rewrite Ed. cbn [obind]. eauto.
Qed.
End Open.
Print Assumptions C60_opens_exactly.
Print Assumptions C60_compile_exactly.

(** The hypotheses are met by the resolver of PropsCompiler.v; a.proto can be opened, also after a failed call. *)
Lemma ex_links n : links ex_rs ex_lk n.
Proof.
  intros m f pool _ _ (_ & _ & _ & Hn). unfold ex_lk. destruct (existsb (bytes_eqb (fd_name (pf_desc f))) (map fd_name pool)) eqn:E; [|eauto].
  exfalso. apply Hn. apply existsb_exists in E. destruct E as (x & Hx & Ex). apply bytes_eqb_eq in Ex. subst x. exact Hx.
Qed.
Example C60_example :
  named ex_rs /\ linker_ok ex_lk /\ stable ex_rs /\ stable_paths ex_rs /\
  (forall a f, opened ex_rs a f -> In a (map fst ex_files)) /\ (forall n, links ex_rs ex_lk n) /\
  openable ex_rs ex_run (b "a.proto") /\ ~ openable ex_rs ex_run (b "x.proto") /\ ~ openable ex_rs ex_run (b "p.proto") /\ ~ openable ex_rs ex_run (b "d.proto") /\
  (forall path, In path [b "b.proto"; b "a.proto"; b "b.proto"] -> openable ex_rs compiler_new path).
Proof.
  assert (HU : forall a f, opened ex_rs a f -> In a (map fst ex_files)) by (intros a f H; exact (proj1 (ex_opened a f H))).
  assert (Hsp : stable_paths ex_rs) by (intros t p; reflexivity).
  pose proof (fun path => C60_opens_exactly ex_rs ex_lk _ ex_named ex_linker ex_stable HU ex_total ex_span _ _ path 9%nat ex_history ltac:(cbn; lia) (fun n _ _ => ex_links n)) as H.
  split; [exact ex_named|]. split; [exact ex_linker|]. split; [exact ex_stable|]. split; [exact Hsp|]. split; [exact HU|]. split; [exact ex_links|].
  split; [apply H; eexists; vm_compute; reflexivity|]. split; [intros Hx; apply H in Hx; destruct Hx as (c' & E); vm_compute in E; discriminate E|]. split; [intros Hx; apply H in Hx; destruct Hx as (c' & E); vm_compute in E; discriminate E|]. split; [intros Hx; apply H in Hx; destruct Hx as (c' & E); vm_compute in E; discriminate E|].
  apply (C60_compile_exactly ex_rs ex_lk _ ex_named ex_linker ex_stable Hsp HU ex_total ex_span _ 9%nat ltac:(cbn; lia) ex_links). eexists. vm_compute. reflexivity.
Qed.
