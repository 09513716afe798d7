(** Consequences of the compiler invariants for whole histories of API calls. *)
From Coq Require Import Permutation Relations.
From Verif Require Import Base Utf8 Errors Lex Ast Comments Parse Lines Descriptor Generate ParseApi Paths Resolver Compiler CompilerProofs.

(** ** Histories of API calls on one [Compiler]; the list is the names of the
    files that were opened successfully, most recent first. Every call may use
    any fuel. *)
Inductive history (rs : nat -> resolver) (lk : linker) : list bytes -> cst -> Prop :=
| h_new : history rs lk [] compiler_new
| h_open fuel path c c' n isr ok :
    history rs lk ok c -> requested rs c path = Some (n, isr) ->
    open_file rs lk fuel path c = Done (inl tt, c') -> history rs lk (n :: ok) c'
| h_fail fuel path c c' e ok :
    history rs lk ok c -> open_file rs lk fuel path c = Done (inr e, c') -> history rs lk ok c'
| h_imports yes c ok : history rs lk ok c -> history rs lk ok (include_imports yes c)
| h_source_info yes c ok : history rs lk ok c -> history rs lk ok (include_source_info yes c).

(** Histories without a failing call. *)
Inductive clean_history (rs : nat -> resolver) (lk : linker) : list bytes -> cst -> Prop :=
| ch_new : clean_history rs lk [] compiler_new
| ch_open fuel path c c' n isr ok :
    clean_history rs lk ok c -> requested rs c path = Some (n, isr) ->
    open_file rs lk fuel path c = Done (inl tt, c') -> clean_history rs lk (n :: ok) c'
| ch_imports yes c ok : clean_history rs lk ok c -> clean_history rs lk ok (include_imports yes c)
| ch_source_info yes c ok : clean_history rs lk ok c -> clean_history rs lk ok (include_source_info yes c).

(** A resolver that gives the same answer for the same name every time. *)
Definition stable (rs : nat -> resolver) : Prop :=
  forall t n, r_open (rs t) n = r_open (rs 0%nat) n.

Lemma clean_history_history rs lk ok c : clean_history rs lk ok c -> history rs lk ok c.
Proof.
  induction 1; [apply h_new|eapply h_open; eauto|apply h_imports; auto|apply h_source_info; auto].
Qed.

Section H.
Variable rs : nat -> resolver.
Variable lk : linker.
Hypothesis Hnamed : named rs.
Hypothesis Hlk : linker_ok lk.

Lemma Inv_flags c c' : Inv rs c -> c_pool c' = c_pool c -> c_files c' = c_files c -> Inv rs c'.
Proof.
  intros [A B C D] H1 H2. constructor; unfold names in *; rewrite ?H1, ?H2; auto.
Qed.

Lemma history_Inv ok c : history rs lk ok c -> Inv rs c.
Proof.
  induction 1.
  - apply Inv_new.
  - eapply open_file_spec in H1; eauto. tauto.
  - eapply open_file_spec in H0; eauto. tauto.
  - eapply Inv_flags; eauto.
  - eapply Inv_flags; eauto.
Qed.

(** *** No panic in the accessors *)
Lemma omap_Done {A B} (f : A -> out B) l :
  (forall x, In x l -> exists y, f x = Done y) -> exists ys, omap f l = Done ys.
Proof.
  induction l as [|x l IH]; intros H; simpl; [eauto|].
  destruct (H x) as [y ->]; [simpl; auto|]. simpl.
  destruct IH as [ys ->]; [intros; apply H; simpl; auto|]. simpl. eauto.
Qed.

Lemma omap_lookup (c : cst) (pool : list file_desc) (fs : list (bytes * meta)) :
  Forall2 (fun d km => fst km = fd_name d /\ lookup (fd_name d) (c_files c) = Some (snd km)) pool fs ->
  omap (fun d => index_files c (fd_name d)) pool = Done (map snd fs).
Proof.
  induction 1 as [|d km pool fs [H1 H2] _ IH]; simpl; [reflexivity|].
  unfold index_files at 1. rewrite H2. simpl. rewrite IH. reflexivity.
Qed.

Lemma NoDup_lookup (fs : list (bytes * meta)) : NoDup (map fst fs) ->
  forall km, In km fs -> lookup (fst km) fs = Some (snd km).
Proof.
  induction fs as [|[k v] fs IH]; simpl; intros Hnd km Hin; [contradiction|].
  inversion Hnd; subst. destruct Hin as [<-|Hin]; simpl.
  - now rewrite bytes_eqb_refl.
  - destruct (bytes_eqb k (fst km)) eqn:E; [|auto].
    apply bytes_eqb_eq in E. subst. exfalso. apply H1. now apply in_map.
Qed.

Lemma Inv_lookup_pool c : Inv rs c ->
  Forall2 (fun d km => fst km = fd_name d /\ lookup (fd_name d) (c_files c) = Some (snd km)) (c_pool c) (c_files c).
Proof.
  intros HI. pose proof (inv_from _ _ HI) as Hf. pose proof (inv_nodup _ _ HI) as Hnd.
  rewrite <- (inv_keys _ _ HI) in Hnd. pose proof (NoDup_lookup _ Hnd) as Hl. clear Hnd.
  assert (Hg : forall pool fs, Forall2 (fun d km => fst km = fd_name d /\ from_resolver rs d (snd km)) pool fs ->
     (forall km, In km fs -> lookup (fst km) (c_files c) = Some (snd km)) ->
     Forall2 (fun d km => fst km = fd_name d /\ lookup (fd_name d) (c_files c) = Some (snd km)) pool fs).
  { clear. induction 1 as [|d km pool fs [H1 _] Hf IH]; intros Hl; constructor.
    - split; auto. rewrite <- H1. apply Hl. simpl; auto.
    - apply IH. intros; apply Hl; simpl; auto. }
  auto.
Qed.

Lemma files_Done c : Inv rs c -> files c = Done (map snd (c_files c)).
Proof. intros HI. unfold files. apply omap_lookup. now apply Inv_lookup_pool. Qed.

Lemma Forall2_meta_name pool fs :
  Forall2 (fun d km => fst km = fd_name d /\ from_resolver rs d (snd km)) pool fs ->
  map fm_name (map snd fs) = map fd_name pool.
Proof.
  induction 1 as [|d km pool fs [H1 H2] Hf IH]; simpl; [reflexivity|].
  destruct H2 as (f & _ & _ & _ & _ & E & _). rewrite E. f_equal. exact IH.
Qed.

Definition opened_flag (c : cst) (n : bytes) : bool :=
  match lookup n (c_files c) with Some m => negb (fm_is_import m) | None => false end.

Lemma ofilter_Done {A} (f : A -> out bool) (g : A -> bool) l :
  (forall x, In x l -> f x = Done (g x)) -> ofilter f l = Done (filter g l).
Proof.
  induction l as [|x l IH]; intros H; simpl; [reflexivity|].
  rewrite H by (simpl; auto). simpl. rewrite IH by (intros; apply H; simpl; auto). reflexivity.
Qed.

Lemma Forall2_conj {A B} (P Q : A -> B -> Prop) l l' :
  Forall2 P l l' -> Forall2 Q l l' -> Forall2 (fun x y => P x y /\ Q x y) l l'.
Proof.
  intros H. induction H; intros H2; inversion H2; subst; constructor; auto.
Qed.
Lemma Forall2_In_l {A B} (P : A -> B -> Prop) l l' x : Forall2 P l l' -> In x l -> exists y, In y l' /\ P x y.
Proof.
  intros H. induction H as [|a c l l' H1 H2 IH]; intros Hin; [destruct Hin|].
  destruct Hin as [<-|Hin]; [exists c; simpl; auto|]. destruct (IH Hin) as (y & A1 & A2). exists y; simpl; auto.
Qed.
Lemma Inv_pool_lookup c d : Inv rs c -> In d (c_pool c) ->
  exists m, lookup (fd_name d) (c_files c) = Some m /\ from_resolver rs d m.
Proof.
  intros HI Hin. pose proof (Forall2_conj _ _ _ _ (Inv_lookup_pool _ HI) (inv_from _ _ HI)) as H.
  apply (Forall2_In_l _ _ _ d) in H; auto. destruct H as (km & _ & (_ & H1) & (_ & H2)). eauto.
Qed.

Lemma emitted_Done c d : Inv rs c -> In d (c_pool c) ->
  emitted c d = Done (c_include_imports c || opened_flag c (fd_name d)).
Proof.
  intros HI Hin. destruct (Inv_pool_lookup c d HI Hin) as (m & Hm & _).
  unfold emitted, opened_flag, index_files. rewrite Hm.
  destruct (c_include_imports c); reflexivity.
Qed.

Lemma fds_Done c : Inv rs c ->
  file_descriptor_set c = Done (map (fun d => if c_include_source_info c then d else clear_source_info d)
     (filter (fun d => c_include_imports c || opened_flag c (fd_name d)) (c_pool c))).
Proof.
  intros HI. unfold file_descriptor_set.
  erewrite ofilter_Done by (intros; apply emitted_Done; auto). reflexivity.
Qed.

(** *** The import flag tells exactly the opened files *)
Lemma ext_lookup_old P c c' n m : ext P c c' -> lookup n (c_files c) = Some m -> lookup n (c_files c') = Some m.
Proof.
  intros (ds & ms & _ & A2 & _) H. rewrite A2, lookup_app, H. reflexivity.
Qed.
Lemma ext_lookup_new P c c' n : ext P c c' -> lookup n (c_files c) = None ->
  forall m, lookup n (c_files c') = Some m -> fm_is_import m = true /\ P n.
Proof.
  intros (ds & ms & _ & A2 & A3 & A4 & A5 & _) H m. rewrite A2, lookup_app, H.
  intros Hm. apply lookup_In in Hm. split.
  - rewrite Forall_forall in A3. apply (A3 _ Hm).
  - rewrite <- A4 in A5. rewrite Forall_forall in A5. apply A5. apply (in_map fst) in Hm. exact Hm.
Qed.

Lemma history_flag ok c : history rs lk ok c ->
  (forall n m, lookup n (c_files c) = Some m -> (fm_is_import m = false <-> In n ok)) /\
  (forall n, In n ok -> In n (names c)) /\
  (forall n m, lookup n (c_files c) = Some m -> ~ In n ok -> exists y, imports rs y n).
Proof.
  induction 1 as [|fuel path c c' n isr ok Hh [IH1 [IH2 IH3]] Hreq Ho|fuel path c c' e ok Hh [IH1 [IH2 IH3]] Ho|yes c ok Hh [IH1 [IH2 IH3]]|yes c ok Hh [IH1 [IH2 IH3]]].
  - simpl. repeat split; try discriminate; try contradiction.
  - pose proof (history_Inv _ _ Hh) as HI. assert (Ho' := Ho). 
    eapply open_file_spec in Ho; eauto. destruct Ho as (HI' & _ & n' & isr' & Hreq' & Ho).
    rewrite Hreq in Hreq'. injection Hreq' as <- <-.
    destruct (lookup n (c_files c)) as [m0|] eqn:El.
    + destruct Ho as (A1 & A2 & _). rewrite A2. 
      assert (Hnn : names c' = names c) by (unfold names; now rewrite A1).
      split; [|split].
      * intros n1 m1. rewrite lookup_insert. destruct (bytes_eqb n n1) eqn:E.
        -- intros Hm. injection Hm as <-. apply bytes_eqb_eq in E. subst. simpl. tauto.
        -- intros Hm. apply bytes_eqb_neq in E. rewrite (IH1 _ _ Hm). simpl. intuition congruence.
      * rewrite Hnn. intros n1 [<-|H1]; auto. rewrite <- (inv_keys _ _ HI). apply lookup_Some_iff. eauto.
      * intros n1 m1. rewrite lookup_insert. destruct (bytes_eqb n n1) eqn:E.
        -- apply bytes_eqb_eq in E. subst. intros _ Hn. exfalso. apply Hn. simpl; auto.
        -- intros Hm Hn. eapply IH3; eauto. intros H1. apply Hn. simpl; auto.
    + destruct Ho as (f & d & c1 & B1 & B2 & B3 & B4 & B5 & _).
      assert (Hl1 : lookup n (c_files c1) = None).
      { destruct (lookup n (c_files c1)) eqn:E; [|reflexivity].
        eapply ext_lookup_new in E; eauto. destruct E as [_ [E _]]. congruence. }
      split; [|split].
      * intros n1 m1. rewrite B5, lookup_app. destruct (lookup n1 (c_files c1)) as [m2|] eqn:E1.
        -- intros Hm. injection Hm as <-. destruct (lookup n1 (c_files c)) as [m3|] eqn:E2.
           ++ pose proof (ext_lookup_old _ _ _ _ _ B2 E2) as E3. rewrite E1 in E3. injection E3 as ->.
              rewrite (IH1 _ _ E2). simpl. split; auto. intros [<-|H1]; auto. congruence.
           ++ pose proof (ext_lookup_new _ _ _ _ B2 E2 _ E1) as [E3 [E4 _]].
              split; [congruence|]. intros [H1|H1]; [congruence|]. exfalso.
              apply IH2 in H1. rewrite <- (inv_keys _ _ HI) in H1. apply lookup_None in E2. auto.
        -- simpl. destruct (bytes_eqb n n1) eqn:E; [|discriminate]. intros Hm. injection Hm as <-. simpl.
           apply bytes_eqb_eq in E. tauto.
      * intros n1 [<-|H1]; unfold names; rewrite B3, map_app, in_app_iff; simpl; auto.
        left. eapply ext_names; eauto.
      * intros n1 m1. rewrite B5, lookup_app. destruct (lookup n1 (c_files c1)) as [m2|] eqn:E1.
        -- intros _ Hn. destruct (lookup n1 (c_files c)) as [m3|] eqn:E2.
           ++ eapply IH3; eauto. intros H1; apply Hn; simpl; auto.
           ++ pose proof (ext_lookup_new _ _ _ _ B2 E2 _ E1) as [E3 [E4 [E5 E6]]]. exact E6.
        -- simpl. destruct (bytes_eqb n n1) eqn:E; [|discriminate]. intros _ Hn. exfalso. apply Hn.
           apply bytes_eqb_eq in E. simpl; auto.
  - pose proof (history_Inv _ _ Hh) as HI.
    eapply open_file_spec in Ho; eauto. destruct Ho as (HI' & _ & Ho).
    assert (Hx : exists n, ext (new_import rs n) c c').
    { destruct Ho as [(_ & n & isr & _ & Ho)|(_ & _ & ->)]; [eauto|]. exists []. apply ext_tick. }
    destruct Hx as [n Hx]. split; [|split].
    + intros n1 m1 Hm. destruct (lookup n1 (c_files c)) as [m2|] eqn:E2.
      * pose proof (ext_lookup_old _ _ _ _ _ Hx E2) as E3. rewrite Hm in E3. injection E3 as ->. auto.
      * pose proof (ext_lookup_new _ _ _ _ Hx E2 _ Hm) as [E3 [E4 _]]. split; [congruence|].
        intros H1. exfalso. apply IH2 in H1. rewrite <- (inv_keys _ _ HI) in H1. apply lookup_None in E2. auto.
    + intros n1 H1. eapply ext_names; eauto.
    + intros n1 m1 Hm Hn. destruct (lookup n1 (c_files c)) as [m2|] eqn:E2.
      * eapply IH3; eauto.
      * pose proof (ext_lookup_new _ _ _ _ Hx E2 _ Hm) as [_ [_ [_ E6]]]. exact E6.
  - auto.
  - auto.
Qed.

(** *** Stable resolvers: loaded files are closed under imports *)
Hypothesis Hstable : stable rs.

Lemma opened_fun a f g : opened rs a f -> opened rs a g -> f = g.
Proof. intros [t H] [u H']. rewrite Hstable in H, H'. congruence. Qed.

Lemma pool_imports c d m : Inv rs c -> In d (c_pool c) -> imports rs (fd_name d) m -> In m (d_dependency d).
Proof.
  intros HI Hin (f & Ho & Hm). destruct (Inv_pool_lookup c d HI Hin) as (md & _ & g & Hg & _ & Hd & _).
  rewrite (opened_fun _ _ _ Ho Hg) in Hm. congruence.
Qed.

Lemma imports_before c pre d post m : Inv rs c -> c_pool c = pre ++ d :: post ->
  imports rs (fd_name d) m -> In m (map fd_name pre).
Proof.
  intros HI E Hm. apply (inv_topo _ _ HI pre d post E). apply pool_imports with (c := c); auto.
  rewrite E. apply in_elt.
Qed.

Lemma names_closed c n m : Inv rs c -> In n (names c) -> reaches rs n m -> In m (names c).
Proof.
  intros HI Hn H. induction H as [|x y z Hxy Hyz IH]; auto.
  apply IH. unfold names in Hn. apply in_map_iff in Hn. destruct Hn as (d & <- & Hd).
  apply in_split in Hd. destruct Hd as (pre & post & E).
  unfold names. rewrite E, map_app, in_app_iff. left. eapply imports_before; eauto.
Qed.

(** A loaded file is on no import cycle. *)
Lemma no_cycle c n m k : Inv rs c -> In n (names c) -> reaches rs n m -> imports rs m k -> reaches rs k m -> False.
Proof.
  intros HI Hn Hnm Hmk Hkm.
  assert (Hm : In m (names c)) by (eapply names_closed; eauto).
  unfold names in Hm. apply in_map_iff in Hm. destruct Hm as (d & Ed & Hd).
  apply in_split in Hd. destruct Hd as (pre & post & E).
  (* everything reached from m by at least one step is in pre *)
  assert (Hpre : forall x, reaches rs k x -> In x (map fd_name pre)).
  { intros x Hx. apply clos_rt1n_rt, clos_rt_rtn1 in Hx. induction Hx as [|y z Hyz Hky IH].
    - subst m. eapply imports_before; eauto.
    - apply in_map_iff in IH. destruct IH as (d2 & <- & Hd2).
      apply in_split in Hd2. destruct Hd2 as (p1 & p2 & ->).
      rewrite map_app, in_app_iff. left. eapply imports_before with (post := p2 ++ d :: post); [exact HI| |exact Hyz].
      rewrite E. rewrite <- app_assoc. reflexivity. }
  pose proof (inv_nodup _ _ HI) as Hnd. unfold names in Hnd. rewrite E, map_app in Hnd. simpl in Hnd.
  apply NoDup_remove_2 in Hnd. apply Hnd. rewrite Ed. apply in_or_app. left. auto.
Qed.

Lemma open_names fuel path c c' n isr : Inv rs c -> requested rs c path = Some (n, isr) ->
  open_file rs lk fuel path c = Done (inl tt, c') ->
  In n (names c') /\ forall m, In m (names c') <-> In m (names c) \/ reaches rs n m.
Proof.
  intros HI Hreq Ho. pose proof Ho as Ho'. eapply open_file_spec in Ho; eauto.
  destruct Ho as (HI' & _ & n' & isr' & Hreq' & Ho). rewrite Hreq in Hreq'. injection Hreq' as <- <-.
  assert (Hn : In n (names c')).
  { destruct (lookup n (c_files c)) as [m0|] eqn:El.
    - destruct Ho as (A1 & A2 & _). unfold names; rewrite A1. change (In n (names c)).
      rewrite <- (inv_keys _ _ HI). apply lookup_Some_iff. eauto.
    - destruct Ho as (f & d & c1 & B1 & B2 & B3 & B4 & B5 & _). unfold names. rewrite B3, map_app, in_app_iff.
      simpl. auto. }
  split; auto. intros m. split.
  - intros Hm. destruct (lookup n (c_files c)) as [m0|] eqn:El.
    + destruct Ho as (A1 & _). left. unfold names in *. now rewrite A1 in Hm.
    + destruct Ho as (f & d & c1 & B1 & B2 & B3 & B4 & B5 & _).
      unfold names in Hm. rewrite B3, map_app, in_app_iff in Hm. destruct Hm as [Hm|[<-|[]]].
      * destruct B2 as (ds & ms & C1 & _ & _ & _ & C2 & _). rewrite C1, map_app, in_app_iff in Hm.
        destruct Hm as [Hm|Hm]; [left; auto|right]. rewrite Forall_forall in C2. apply C2 in Hm.
        destruct Hm as (_ & Hm & _). exact Hm.
      * right. rewrite B4. constructor.
  - intros [Hm|Hm].
    + destruct (lookup n (c_files c)) as [m0|] eqn:El.
      * destruct Ho as (A1 & _). unfold names in *. now rewrite A1.
      * destruct Ho as (f & d & c1 & B1 & B2 & B3 & B4 & B5 & _). unfold names. rewrite B3, map_app, in_app_iff.
        left. eapply ext_names; eauto.
    + eapply names_closed; eauto.
Qed.

Lemma clean_names ok c : clean_history rs lk ok c ->
  forall m, In m (names c) <-> exists n, In n ok /\ reaches rs n m.
Proof.
  induction 1; intros m.
  - simpl. split; [contradiction|]. intros (n & [] & _).
  - pose proof (history_Inv _ _ (clean_history_history _ _ _ _ H)) as HI.
    destruct (open_names fuel path c c' n isr HI H0 H1) as [_ Hnm]. rewrite Hnm, IHclean_history.
    split.
    + intros [(n1 & A & B)|A]; [exists n1|exists n]; simpl; auto.
    + intros (n1 & [<-|A] & B); [auto|left; eauto].
  - apply IHclean_history.
  - apply IHclean_history.
Qed.
End H.

(** ** Termination and absence of panics *)
Section Term.
Variable rs : nat -> resolver.
Variable lk : linker.
(** Every file the resolver ever returns has a name in the finite list [U]. *)
Variable U : list bytes.
Hypothesis HU : forall a f, opened rs a f -> In a U.
(** The resolver itself terminates without panicking. *)
Hypothesis Htot : forall t a, exists r, r_open (rs t) a = Done r.
(** Locations of returned files do not make [find_import_span] panic. *)
Hypothesis Hspan : forall a f i, opened rs a f -> exists sp, find_import_span f i = Done sp.

Lemma add_import_total fuel : forall n stack c,
  NoDup stack -> incl stack U -> (length U < fuel + length stack)%nat ->
  exists r c', add_import rs lk fuel n stack c = Done (r, c').
Proof.
  induction fuel as [|fuel IH]; intros n stack c Hnd Hincl Hf.
  - exfalso. apply NoDup_incl_length in Hincl; auto. lia.
  - simpl. destruct (existsb (fun m => bytes_eqb m n) stack) eqn:Ec; [eauto|].
    destruct (lookup n (c_files c)); [eauto|].
    unfold call_open. destruct (Htot (c_tick c) n) as [r Hr]. rewrite Hr. cbn [obind].
    destruct r as [f|e]; [|eauto].
    assert (Ho : opened rs n f) by (eexists; eauto).
    apply existsb_false_not in Ec. rewrite existsb_bytes_r in Ec.
    assert (Hloop : forall deps i already c0,
      exists r c', import_loop (add_import rs lk fuel) f (stack ++ [n]) deps i already c0 = Done (r, c')).
    { induction deps as [|x deps IHd]; intros i already c0; simpl; [eauto|].
      destruct (existsb (bytes_eqb x) already).
      - unfold duplicated_import. destruct (Hspan _ _ i Ho) as [sp ->]. simpl. eauto.
      - destruct (IH x (stack ++ [n]) c0) as (r & c' & ->).
        + apply NoDup_snoc; auto.
        + apply incl_app; auto. intros z [<-|[]]. eauto.
        + rewrite app_length; simpl; lia.
        + simpl. destruct r as [u|e]; [apply IHd|].
          unfold into_import_error. destruct e; simpl; eauto.
          destruct (Hspan _ _ i Ho) as [sp ->]. simpl. eauto. }
    destruct (Hloop (d_dependency (pf_desc f)) 0%nat [] (tick c)) as (r & c' & ->). simpl.
    destruct r as [u|e]; [|eauto].
    destruct (check_file lk f c') as [[p|e] c2]; eauto.
Qed.

Lemma open_file_total fuel path c : (length U <= fuel)%nat ->
  exists r c', open_file rs lk fuel path c = Done (r, c').
Proof.
  intros Hf. unfold open_file.
  assert (Hgo : forall n isr, exists r c', open_named rs lk fuel path n isr (tick c) = Done (r, c')).
  { intros n isr. unfold open_named. destruct (lookup n (c_files (tick c))).
    { destruct (if isr then check_shadow n (fm_path m) path else None); eauto. }
    unfold call_open. destruct (Htot (c_tick (tick c)) n) as [r Hr]. rewrite Hr. cbn [obind].
    destruct r as [f|e]; [|eauto].
    assert (Ho : opened rs n f) by (eexists; eauto).
    destruct (if isr then check_shadow n (pf_path f) path else None); [eauto|].
    assert (Hloop : forall deps i already c0,
      exists r c', import_loop (add_import rs lk fuel) f [n] deps i already c0 = Done (r, c')).
    { induction deps as [|x deps IHd]; intros i already c0; simpl; [eauto|].
      destruct (existsb (bytes_eqb x) already).
      - unfold duplicated_import. destruct (Hspan _ _ i Ho) as [sp ->]. simpl. eauto.
      - destruct (add_import_total fuel x [n] c0) as (r & c' & ->).
        + repeat constructor. intros [].
        + intros z [<-|[]]. eauto.
        + simpl; lia.
        + simpl. destruct r as [u|e]; [apply IHd|].
          unfold into_import_error. destruct e; simpl; eauto.
          destruct (Hspan _ _ i Ho) as [sp ->]. simpl. eauto. }
    destruct (Hloop (d_dependency (pf_desc f)) 0%nat [] (tick (tick c))) as (r & c' & ->). simpl.
    destruct r as [u|e]; [|eauto].
    destruct (check_file lk f c') as [[p|e] c2]; eauto. }
  destruct (r_resolve (rs (c_tick c)) path) as [n|]; [apply Hgo|].
  destruct (path_to_file_name (components path)) as [n|]; [apply Hgo|eauto].
Qed.
End Term.

(** ** The result does not depend on the fuel once it suffices. *)
Section Mono.
Variable rs : nat -> resolver.
Variable lk : linker.

Lemma import_loop_mono (a1 a2 : bytes -> list bytes -> cst -> cres unit) f stack :
  (forall x c (v : cres unit), a1 x stack c = v -> v <> NoFuel -> a2 x stack c = v) ->
  forall deps i already c (v : cres unit), import_loop a1 f stack deps i already c = v -> v <> NoFuel ->
    import_loop a2 f stack deps i already c = v.
Proof.
  intros Ha. induction deps as [|x deps IH]; intros i already c v H Hv; simpl in *; auto.
  destruct (existsb (bytes_eqb x) already); auto.
  destruct (a1 x stack c) as [[r c1]| |] eqn:E; simpl in H.
  - erewrite Ha; [|exact E|discriminate]. simpl. destruct r; auto.
  - erewrite Ha; [|exact E|discriminate]. simpl. auto.
  - congruence.
Qed.

Lemma add_import_mono fuel : forall fuel' n stack c (v : cres unit),
  (fuel <= fuel')%nat -> add_import rs lk fuel n stack c = v -> v <> NoFuel -> add_import rs lk fuel' n stack c = v.
Proof.
  induction fuel as [|fuel IH]; intros fuel' n stack c v Hle H Hv; simpl in H; [congruence|].
  destruct fuel' as [|fuel']; [lia|]. simpl.
  destruct (existsb (fun m => bytes_eqb m n) stack); auto.
  destruct (lookup n (c_files c)); auto.
  destruct (call_open rs n c) as [[r c0]| |]; simpl in *; auto.
  destruct r as [f|e]; auto.
  destruct (import_loop (add_import rs lk fuel) f (stack ++ [n]) (d_dependency (pf_desc f)) 0 [] c0) as [[r c1]| |] eqn:E;
    simpl in H.
  - erewrite import_loop_mono; [ | |exact E|discriminate]; [exact H|].
    intros. eapply IH; eauto. lia.
  - erewrite import_loop_mono; [ | |exact E|discriminate]; [exact H|].
    intros. eapply IH; eauto. lia.
  - congruence.
Qed.

Lemma open_file_mono fuel fuel' path c (v : cres unit) :
  (fuel <= fuel')%nat -> open_file rs lk fuel path c = v -> v <> NoFuel -> open_file rs lk fuel' path c = v.
Proof.
  intros Hle H Hv. unfold open_file in *.
  assert (Hg : forall n isr v, open_named rs lk fuel path n isr (tick c) = v -> v <> NoFuel ->
               open_named rs lk fuel' path n isr (tick c) = v).
  { clear - Hle. unfold open_named. intros n isr v H Hv. destruct (lookup n (c_files (tick c))); auto.
    destruct (call_open rs n (tick c)) as [[r c0]| |]; simpl in *; auto.
    destruct r as [f|e]; auto.
    destruct (if isr then check_shadow n (pf_path f) path else None); auto.
    destruct (import_loop (add_import rs lk fuel) f [n] (d_dependency (pf_desc f)) 0 [] c0) as [[r c1]| |] eqn:E;
      simpl in H.
    - erewrite import_loop_mono; [ | |exact E|discriminate]; [exact H|].
      intros. eapply add_import_mono; eauto.
    - erewrite import_loop_mono; [ | |exact E|discriminate]; [exact H|].
      intros. eapply add_import_mono; eauto.
    - congruence. }
  destruct (r_resolve (rs (c_tick c)) path); [now apply Hg|].
  destruct (path_to_file_name (components path)); [now apply Hg|exact H].
Qed.
End Mono.
