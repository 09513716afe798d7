(** Invariants of the compiler model over arbitrary histories. *)
From Coq Require Import Permutation Relations.
From Verif Require Import Base Utf8 Errors Lex Ast Comments Parse Lines Descriptor Generate ParseApi Paths Resolver Compiler.

(** ** Specification vocabulary *)

(** The resolver answers, at some moment, that [a] is the file [f] / fails with [e]. *)
Definition opened (rs : nat -> resolver) (a : bytes) (f : pfile) : Prop :=
  exists t, r_open (rs t) a = Done (inl f).
Definition fails (rs : nat -> resolver) (a : bytes) (e : error) : Prop :=
  exists t, r_open (rs t) a = Done (inr e).
(** [a] (as the resolver gave it at some moment) imports [m]. *)
Definition imports (rs : nat -> resolver) (a m : bytes) : Prop :=
  exists f, opened rs a f /\ In m (d_dependency (pf_desc f)).
(** [m] is [a] or reached from [a] by following imports. *)
Definition reaches (rs : nat -> resolver) : bytes -> bytes -> Prop :=
  clos_refl_trans_1n _ (imports rs).

(** A resolver whose files carry the name they were asked for. *)
Definition named (rs : nat -> resolver) : Prop :=
  forall a f, opened rs a f -> pf_name f = a.

(** What is assumed of the linker (prost-reflect): adding a file either changes
    nothing, because a file with its name is already there, or appends one file
    with the same name and the same imports. *)
Definition linker_ok (lk : linker) : Prop :=
  forall pool d enc pool', lk pool d enc = inl pool' ->
    (pool' = pool /\ In (fd_name d) (map fd_name pool)) \/
    (exists d', pool' = pool ++ [d'] /\ fd_name d' = fd_name d /\ d_dependency d' = d_dependency d).

(** Consecutive elements are related. *)
Fixpoint chain {A} (R : A -> A -> Prop) (l : list A) : Prop :=
  match l with
  | x :: (y :: _) as r => R x y /\ chain R r
  | _ => True
  end.

(** Every file comes after the files it imports. *)
Definition topological (pool : list file_desc) : Prop :=
  forall pre d post, pool = pre ++ d :: post -> incl (d_dependency d) (map fd_name pre).

(** ** Assoc-list lemmas *)
Lemma lookup_app n m m' :
  lookup n (m ++ m') = match lookup n m with Some v => Some v | None => lookup n m' end.
Proof. induction m as [|[k v] m IH]; simpl; [reflexivity|]. destruct (bytes_eqb k n); auto. Qed.

Lemma lookup_In n m v : lookup n m = Some v -> In (n, v) m.
Proof.
  induction m as [|[k w] m IH]; simpl; [discriminate|].
  destruct (bytes_eqb k n) eqn:E; intro H.
  - apply bytes_eqb_eq in E. injection H as ->. subst. auto.
  - auto.
Qed.
Lemma lookup_None n m : lookup n m = None <-> ~ In n (map fst m).
Proof.
  induction m as [|[k w] m IH]; simpl; [split; auto|].
  destruct (bytes_eqb k n) eqn:E.
  - apply bytes_eqb_eq in E. subst. split; [discriminate|]. intros H; exfalso; apply H; auto.
  - apply bytes_eqb_neq in E. rewrite IH. split; [intros H [H1|H1]; auto|]. intros H H1; apply H; auto.
Qed.
Lemma lookup_Some_iff n m : (exists v, lookup n m = Some v) <-> In n (map fst m).
Proof.
  destruct (lookup n m) eqn:E.
  - split; [intros _|eauto]. apply lookup_In in E. apply (in_map fst) in E. exact E.
  - apply lookup_None in E. split; [intros [v H]; discriminate|contradiction].
Qed.
Lemma insert_absent n v m : lookup n m = None -> insert n v m = m ++ [(n, v)].
Proof.
  induction m as [|[k w] m IH]; simpl; [reflexivity|].
  destruct (bytes_eqb k n); [discriminate|]. intros H. now rewrite IH.
Qed.
Lemma insert_keys n v m w : lookup n m = Some w -> map fst (insert n v m) = map fst m.
Proof.
  induction m as [|[k x] m IH]; simpl; [discriminate|].
  destruct (bytes_eqb k n) eqn:E; simpl; [reflexivity|]. intros H. now rewrite IH.
Qed.
Lemma lookup_insert n v m n' :
  lookup n' (insert n v m) = if bytes_eqb n n' then Some v else lookup n' m.
Proof.
  induction m as [|[k x] m IH]; simpl.
  - reflexivity.
  - destruct (bytes_eqb k n) eqn:E; simpl.
    + apply bytes_eqb_eq in E; subst. now destruct (bytes_eqb n n').
    + rewrite IH. destruct (bytes_eqb k n') eqn:E'; [|reflexivity].
      apply bytes_eqb_eq in E'. subst.
      destruct (bytes_eqb n n') eqn:E2; [|reflexivity].
      apply bytes_eqb_eq in E2; subst. rewrite bytes_eqb_refl in E. discriminate.
Qed.
Lemma insert_In n v m x : In x (insert n v m) -> x = (n, v) \/ In x m.
Proof.
  induction m as [|[k w] m IH]; simpl; [intuition congruence|].
  destruct (bytes_eqb k n) eqn:E; simpl.
  - apply bytes_eqb_eq in E; subst. intuition.
  - intuition.
Qed.

Lemma existsb_bytes x l : existsb (bytes_eqb x) l = true <-> In x l.
Proof.
  rewrite existsb_exists. split.
  - intros (y & H & E). apply bytes_eqb_eq in E. now subst.
  - intros H. exists x. split; auto. apply bytes_eqb_refl.
Qed.
Lemma existsb_bytes_r x l : existsb (fun n => bytes_eqb n x) l = true <-> In x l.
Proof.
  rewrite existsb_exists. split.
  - intros (y & H & E). apply bytes_eqb_eq in E. now subst.
  - intros H. exists x. split; auto. apply bytes_eqb_refl.
Qed.
Lemma existsb_false_not {A} (p : A -> bool) l : existsb p l = false <-> ~ existsb p l = true.
Proof. destruct (existsb p l); split; congruence. Qed.

Lemma NoDup_app_intro {A} (l l' : list A) :
  NoDup l -> NoDup l' -> (forall x, In x l -> ~ In x l') -> NoDup (l ++ l').
Proof.
  induction l as [|a l IH]; simpl; intros H1 H2 H3; auto.
  inversion H1; subst. constructor.
  - rewrite in_app_iff. intros [H|H]; [auto|]. apply (H3 a); auto.
  - apply IH; [assumption|assumption|]. intros x Hx. apply H3. right; exact Hx.
Qed.
Lemma NoDup_snoc {A} (l : list A) x : NoDup l -> ~ In x l -> NoDup (l ++ [x]).
Proof.
  intros H1 H2. apply NoDup_app_intro; auto.
  - repeat constructor; auto.
  - intros y Hy [->|[]]. auto.
Qed.

Lemma topological_nil : topological [].
Proof. intros pre d post H. destruct pre; discriminate. Qed.
Lemma topological_snoc pool d :
  topological pool -> incl (d_dependency d) (map fd_name pool) -> topological (pool ++ [d]).
Proof.
  intros HT HI pre x post H.
  destruct post as [|y post] using rev_ind.
  - apply app_inj_tail in H. destruct H as [-> ->]. exact HI.
  - clear IHpost. change (pre ++ x :: post ++ [y]) with (pre ++ (x :: post) ++ [y]) in H.
    rewrite app_assoc in H. apply app_inj_tail in H. destruct H as [-> _].
    apply (HT pre x post). reflexivity.
Qed.

(** ** The invariant *)
Section Inv.
Variable rs : nat -> resolver.
Variable lk : linker.

Definition names (c : cst) : list bytes := map fd_name (c_pool c).

(** Where a file of the pool and its metadata come from. *)
Definition from_resolver (d : file_desc) (m : meta) : Prop :=
  exists f, opened rs (fd_name d) f /\ pf_name f = fd_name d /\ d_dependency d = d_dependency (pf_desc f) /\
            fm_path m = pf_path f /\ fm_name m = fd_name d /\ NoDup (d_dependency d).

Record Inv (c : cst) : Prop := {
  inv_keys : map fst (c_files c) = names c;
  inv_nodup : NoDup (names c);
  inv_topo : topological (c_pool c);
  inv_from : Forall2 (fun d km => fst km = fd_name d /\ from_resolver d (snd km)) (c_pool c) (c_files c) }.

Lemma Inv_new : Inv compiler_new.
Proof. constructor; simpl; [reflexivity|constructor|apply topological_nil|constructor]. Qed.
Lemma Inv_tick c : Inv c -> Inv (tick c).
Proof. intros []. constructor; auto. Qed.

(** [c'] extends [c] by imported files satisfying [P]. *)
Definition ext (P : bytes -> Prop) (c c' : cst) : Prop :=
  exists ds ms, c_pool c' = c_pool c ++ ds /\ c_files c' = c_files c ++ ms /\
    Forall (fun km => fm_is_import (snd km) = true) ms /\
    map fst ms = map fd_name ds /\
    Forall P (map fd_name ds) /\
    c_include_imports c' = c_include_imports c /\ c_include_source_info c' = c_include_source_info c.

Lemma ext_refl P c : ext P c c.
Proof. exists [], []. repeat split; auto; try (rewrite app_nil_r; auto); constructor. Qed.
Lemma ext_tick P c : ext P c (tick c).
Proof. exists [], []. repeat split; auto; simpl; try (rewrite app_nil_r; auto); constructor. Qed.
Lemma ext_trans P c c' c'' : ext P c c' -> ext P c' c'' -> ext P c c''.
Proof.
  intros (d1 & m1 & A1 & A2 & A3 & A4 & A5 & A6 & A7) (d2 & m2 & B1 & B2 & B3 & B4 & B5 & B6 & B7).
  exists (d1 ++ d2), (m1 ++ m2).
  rewrite B1, B2, A1, A2, !app_assoc. repeat split; auto.
  - apply Forall_app; auto.
  - rewrite !map_app; congruence.
  - rewrite map_app. apply Forall_app; auto.
  - congruence.
  - congruence.
Qed.
Lemma ext_weaken (P Q : bytes -> Prop) c c' : (forall x, P x -> Q x) -> ext P c c' -> ext Q c c'.
Proof.
  intros H (d1 & m1 & A1 & A2 & A3 & A4 & A5 & A6 & A7). exists d1, m1. repeat split; auto.
  eapply Forall_impl; [|exact A5]. auto.
Qed.
Lemma ext_names P c c' : ext P c c' -> incl (names c) (names c').
Proof.
  intros (d1 & m1 & A1 & _) x Hx. unfold names. rewrite A1, map_app, in_app_iff. auto.
Qed.

(** The pool a file is added to: its imports are there, it is not, and everything in it has its imports before it. *)
Definition linkable (pool : list file_desc) (f : pfile) : Prop :=
  topological pool /\ NoDup (map fd_name pool) /\ incl (d_dependency (pf_desc f)) (map fd_name pool) /\ ~ In (pf_name f) (map fd_name pool).

(** Where errors of [add_import name stack] come from. *)
Inductive load_err (stack : list bytes) (n : bytes) : error -> Prop :=
| le_cycle mids x :
    In x (stack ++ mids) -> hd x mids = n -> chain (imports rs) (mids ++ [x]) ->
    load_err stack n (ECircularImport x (flat_map (fun m => m ++ arrow) (stack ++ mids) ++ x))
| le_dup m f i x sp :
    reaches rs n m -> opened rs m f -> nth_error (d_dependency (pf_desc f)) i = Some x ->
    In x (firstn i (d_dependency (pf_desc f))) -> find_import_span f i = Done sp ->
    load_err stack n (EDuplicateImport sp (pf_name f) (pf_text f) x)
| le_missing m f i x y sp :
    reaches rs n m -> opened rs m f -> nth_error (d_dependency (pf_desc f)) i = Some x ->
    fails rs x (EFileNotFound y) -> find_import_span f i = Done sp ->
    load_err stack n (EImportNotFound sp (pf_name f) (pf_text f) y)
| le_resolver m e :
    reaches rs n m -> fails rs m e -> (forall y, e = EFileNotFound y -> m = n) ->
    load_err stack n e
| le_check m f pool fl :
    reaches rs n m -> opened rs m f -> linkable pool f -> lk pool (pf_desc f) (pf_encoded f) = inr fl ->
    load_err stack n (ECheck fl).

(** Errors of the loop over the imports of file [f], opened as [n]. *)
Inductive loop_err (stack : list bytes) (n : bytes) (f : pfile) : error -> Prop :=
| pe_dup i x sp :
    nth_error (d_dependency (pf_desc f)) i = Some x ->
    In x (firstn i (d_dependency (pf_desc f))) -> find_import_span f i = Done sp ->
    loop_err stack n f (EDuplicateImport sp (pf_name f) (pf_text f) x)
| pe_missing i x y sp :
    nth_error (d_dependency (pf_desc f)) i = Some x ->
    fails rs x (EFileNotFound y) -> find_import_span f i = Done sp ->
    loop_err stack n f (EImportNotFound sp (pf_name f) (pf_text f) y)
| pe_other x e :
    In x (d_dependency (pf_desc f)) -> load_err stack x e -> (forall y, e <> EFileNotFound y) ->
    loop_err stack n f e.

Lemma loop_err_load stack n f e :
  opened rs n f -> loop_err (stack ++ [n]) n f e -> load_err stack n e.
Proof.
  intros Ho H. destruct H as [i x sp H1 H2 H3 | i x y sp H1 H2 H3 | x e Hx He Hn].
  - eapply le_dup; eauto. constructor.
  - eapply le_missing; eauto. constructor.
  - assert (Hi : imports rs n x) by (exists f; auto).
    destruct He as [mids z A B C | m g i z sp A B C D E | m g i z y sp A B C D E | m e A B C | m g pool fl A B C D].
    + rewrite <- app_assoc. apply le_cycle.
      * rewrite <- app_assoc in A. exact A.
      * reflexivity.
      * simpl. destruct (mids ++ [z]) as [|h t] eqn:E; [exact I|]. split; [|exact C].
        destruct mids; simpl in *; injection E as <- <-; congruence.
    + eapply le_dup; eauto. econstructor 2; eauto.
    + eapply le_missing; eauto. econstructor 2; eauto.
    + eapply le_resolver with (m := m); eauto.
      * econstructor 2; eauto.
      * intros y ->. exfalso. eapply Hn; reflexivity.
    + eapply le_check; eauto. econstructor 2; eauto.
Qed.

Hypothesis Hnamed : named rs.
Hypothesis Hlk : linker_ok lk.

Definition add_post (P : bytes -> Prop) (stack : list bytes) (n : bytes) (c : cst)
    (r : unit + error) (c' : cst) : Prop :=
  Inv c' /\ ext (fun x => ~ In x stack /\ reaches rs n x) c c' /\ (c_tick c <= c_tick c')%nat /\
  match r with
  | inl _ => In n (names c')
  | inr e => load_err stack n e
  end.

(** Finishing a file: linking it and recording its metadata. *)
Lemma check_file_Inv n f c c' imp r :
  Inv c -> opened rs n f -> ~ In n (names c) -> incl (d_dependency (pf_desc f)) (names c) ->
  NoDup (d_dependency (pf_desc f)) ->
  check_file lk f c = (r, c') ->
  match r with
  | inr e => c' = c /\ exists pool fl, linkable pool f /\ lk pool (pf_desc f) (pf_encoded f) = inr fl /\ e = ECheck fl
  | inl p =>
    let m := {| fm_name := n; fm_path := p; fm_is_import := imp |} in
    let c'' := set_files (insert n m (c_files c')) c' in
    exists d, c_pool c'' = c_pool c ++ [d] /\ fd_name d = n /\ p = pf_path f /\
      c_files c'' = c_files c ++ [(n, m)] /\ Inv c'' /\
      c_include_imports c'' = c_include_imports c /\ c_include_source_info c'' = c_include_source_info c /\
      c_tick c'' = c_tick c
  end.
Proof.
  intros HI Ho Hn Hd Hnd. unfold check_file.
  destruct (lk (c_pool c) (pf_desc f) (pf_encoded f)) as [pool'|fl] eqn:E; intros H; injection H as <- <-.
  - destruct (Hlk _ _ _ _ E) as [[-> Hin] | (d' & -> & Hname & Hdeps)].
    + exfalso. apply Hn. unfold names.
      pose proof (Hnamed n f Ho) as Hf. unfold pf_name in Hf. rewrite Hf in Hin. exact Hin.
    + pose proof (Hnamed n f Ho) as Hf. unfold pf_name in Hf.
      assert (Hl : lookup n (c_files c) = None).
      { apply lookup_None. rewrite (inv_keys _ HI). exact Hn. }
      exists d'. cbn [c_pool c_files set_files set_pool c_include_imports c_include_source_info c_tick].
      rewrite insert_absent by exact Hl.
      repeat split; auto; try congruence.
      * unfold names; simpl. rewrite !map_app, (inv_keys _ HI). simpl. unfold names. congruence.
      * unfold names; simpl. rewrite map_app; simpl. apply NoDup_snoc; [apply (inv_nodup _ HI)|].
        rewrite Hname, Hf. exact Hn.
      * simpl. apply topological_snoc; [apply (inv_topo _ HI)|]. rewrite Hdeps. exact Hd.
      * simpl. apply Forall2_app; [apply (inv_from _ HI)|]. constructor; [|constructor].
        simpl. split; [congruence|]. exists f. unfold pf_name. simpl.
        rewrite Hname, Hf. repeat split; auto. rewrite Hdeps. exact Hnd.
  - split; [reflexivity|]. exists (c_pool c), fl. split; [|auto]. split; [apply (inv_topo _ HI)|]. split; [apply (inv_nodup _ HI)|]. split; [exact Hd|]. rewrite (Hnamed n f Ho). exact Hn.
Qed.

Lemma call_open_inv n c r c' :
  call_open rs n c = Done (r, c') -> r_open (rs (c_tick c)) n = Done r /\ c' = tick c.
Proof.
  unfold call_open. destruct (r_open (rs (c_tick c)) n); simpl; try discriminate.
  intros H; injection H as <- <-. auto.
Qed.

Lemma reaches_trans a x z : reaches rs a x -> reaches rs x z -> reaches rs a z.
Proof.
  intros H1 H2. apply clos_rt_rt1n. apply clos_rt1n_rt in H1. apply clos_rt1n_rt in H2.
  eapply rt_trans; eauto.
Qed.

Lemma import_loop_spec add stack n f :
  opened rs n f ->
  (forall x c r c', Inv c -> add x stack c = Done (r, c') -> add_post (fun _ => True) stack x c r c') ->
  forall deps i already c r c',
    Inv c ->
    (exists pre, d_dependency (pf_desc f) = pre ++ deps /\ length pre = i /\
       (forall x, In x already <-> In x pre) /\ NoDup pre /\ incl pre (names c)) ->
    import_loop add f stack deps i already c = Done (r, c') ->
    Inv c' /\ ext (fun x => ~ In x stack /\ reaches rs n x /\ exists y, imports rs y x) c c' /\ (c_tick c <= c_tick c')%nat /\
    match r with
    | inl _ => incl (d_dependency (pf_desc f)) (names c') /\ NoDup (d_dependency (pf_desc f))
    | inr e => loop_err stack n f e
    end.
Proof.
  intros Ho Hadd. induction deps as [|x deps IH]; intros i already c r c' HI (pre & E1 & E2 & E3 & E4 & E5) H; simpl in H.
  - injection H as <- <-. split; [auto|]. split; [apply ext_refl|]. split; [lia|].
    rewrite app_nil_r in E1. rewrite E1. auto.
  - assert (Hnth : nth_error (d_dependency (pf_desc f)) i = Some x).
    { rewrite E1, nth_error_app2 by lia. replace (i - length pre)%nat with 0%nat by lia. reflexivity. }
    assert (Hfirst : firstn i (d_dependency (pf_desc f)) = pre).
    { rewrite E1, firstn_app. replace (i - length pre)%nat with 0%nat by lia. subst i.
      rewrite firstn_all. simpl. apply app_nil_r. }
    assert (Hindep : In x (d_dependency (pf_desc f))) by (eapply nth_error_In; eauto).
    assert (Himp : imports rs n x) by (exists f; auto).
    destruct (existsb (bytes_eqb x) already) eqn:Edup.
    + unfold duplicated_import in H.
      destruct (find_import_span f i) as [sp| |] eqn:Esp; simpl in H; try discriminate.
      injection H as <- <-. split; [auto|]. split; [apply ext_refl|]. split; [lia|].
      eapply pe_dup; eauto. rewrite Hfirst. apply E3. now apply existsb_bytes.
    + apply existsb_false_not in Edup. rewrite existsb_bytes in Edup.
      destruct (add x stack c) as [[res c1]| |] eqn:Ea; simpl in H; try discriminate.
      destruct (Hadd _ _ _ _ HI Ea) as (HI1 & Hx1 & Ht1 & Hr1).
      assert (Hext1 : ext (fun z => ~ In z stack /\ reaches rs n z /\ exists y, imports rs y z) c c1).
      { eapply ext_weaken; [|exact Hx1]. cbv beta. intros z [A B]. repeat split; auto.
        - econstructor 2; eauto.
        - apply clos_rt1n_rt in B. apply clos_rt_rtn1 in B. inversion B; subst; eauto. }
      destruct res as [u|e].
      * edestruct IH as (A & B & B' & C); [exact HI1| |exact H|].
        -- exists (pre ++ [x]). rewrite <- app_assoc. repeat split; auto.
           ++ rewrite app_length; simpl; lia.
           ++ intros Hz. apply in_or_app.
              destruct Hz as [->|Hz]; [right; left; reflexivity|left; apply E3; exact Hz].
           ++ intros Hz. apply in_app_or in Hz.
              destruct Hz as [Hz|[->|[]]]; simpl; [right; apply E3|left]; auto.
           ++ apply NoDup_snoc; auto. rewrite <- (E3 x). exact Edup.
           ++ apply incl_app.
              ** intros z Hz. eapply ext_names; [exact Hx1|]. apply E5; auto.
              ** intros z [<-|[]]. exact Hr1.
        -- split; [exact A|]. split; [eapply ext_trans; eauto|]. split; [lia|]. exact C.
      * destruct (into_import_error e f i) as [e'| |] eqn:Ee; simpl in H; try discriminate.
        injection H as <- <-. split; [auto|]. split; [auto|]. split; [auto|].
        unfold into_import_error in Ee.
        destruct e; try (injection Ee as <-; eapply pe_other; eauto; intros; discriminate).
        destruct (find_import_span f i) as [sp| |] eqn:Esp; simpl in Ee; try discriminate.
        injection Ee as <-. eapply pe_missing; eauto.
        inversion Hr1; subst.
        assert (m = x) by eauto. subst. assumption.
Qed.

Lemma add_import_spec fuel : forall n stack c r c',
  Inv c -> add_import rs lk fuel n stack c = Done (r, c') ->
  add_post (fun _ => True) stack n c r c'.
Proof.
  induction fuel as [|fuel IH]; intros n stack c r c' HI H; simpl in H; [discriminate|].
  destruct (existsb (fun m => bytes_eqb m n) stack) eqn:Ec.
  { injection H as <- <-. split; [auto|]. split; [apply ext_refl|]. split; [lia|].
    apply existsb_bytes_r in Ec. replace stack with (stack ++ []) at 2 by apply app_nil_r.
    apply le_cycle; simpl; auto. rewrite app_nil_r; exact Ec. }
  apply existsb_false_not in Ec. rewrite existsb_bytes_r in Ec.
  destruct (lookup n (c_files c)) as [m|] eqn:El.
  { injection H as <- <-. split; [auto|]. split; [apply ext_refl|]. split; [lia|].
    rewrite <- (inv_keys _ HI). apply lookup_Some_iff. eauto. }
  destruct (call_open rs n c) as [[r0 c0]| |] eqn:Eo; simpl in H; try discriminate.
  apply call_open_inv in Eo. destruct Eo as [Eo ->].
  assert (HI0 : Inv (tick c)) by (apply Inv_tick; auto).
  destruct r0 as [f|e].
  2:{ injection H as <- <-. split; [auto|]. split; [apply ext_tick|]. split; [simpl; lia|].
      eapply le_resolver with (m := n); [constructor|eexists; eauto|auto]. }
  assert (Ho : opened rs n f) by (eexists; eauto).
  destruct (import_loop (add_import rs lk fuel) f (stack ++ [n]) (d_dependency (pf_desc f)) 0 [] (tick c))
    as [[res c1]| |] eqn:Eloop; simpl in H; try discriminate.
  destruct (import_loop_spec (add_import rs lk fuel) (stack ++ [n]) n f Ho) with (4 := Eloop) as (A & B & B' & C).
  { intros x c2 r2 c2' H2 H3. eapply IH; eauto. }
  { exact HI0. }
  { exists []. repeat split; auto; simpl; try tauto; try constructor. intros z []. }
  assert (Hext : ext (fun x => ~ In x stack /\ reaches rs n x) c c1).
  { eapply ext_trans; [apply ext_tick|]. eapply ext_weaken; [|exact B].
    cbv beta. intros z (Z1 & Z2 & _). split; [|exact Z2]. intros Hz. apply Z1. apply in_or_app; auto. }
  destruct res as [u|e].
  2:{ injection H as <- <-. split; [auto|]. split; [auto|]. split; [simpl in B'; lia|].
      eapply loop_err_load; eauto. }
  destruct C as [C1 C2].
  destruct (check_file lk f c1) as [res2 c2] eqn:Ech.
  assert (Hn1 : ~ In n (names c1)).
  { destruct B as (ds & ms & B1 & _ & _ & _ & B2 & _). unfold names. rewrite B1, map_app, in_app_iff.
    intros [Hz|Hz].
    - simpl in Hz. apply lookup_None in El. rewrite (inv_keys _ HI) in El. auto.
    - rewrite Forall_forall in B2. apply B2 in Hz. destruct Hz as [Hz _]. apply Hz. apply in_or_app; simpl; auto. }
  pose proof (check_file_Inv n f c1 c2 true res2 A Ho Hn1 C1 C2 Ech) as Hch.
  destruct res2 as [p|e].
  - cbv zeta in Hch. destruct Hch as (d & D1 & D2 & D3 & D4 & D5 & D6 & D7 & D8).
    injection H as <- <-. split; [exact D5|]. split; [|split; [simpl in *; lia|]].
    + eapply ext_trans; [exact Hext|]. exists [d], [(n, {| fm_name := n; fm_path := p; fm_is_import := true |})].
      repeat split; auto; simpl.
      * congruence.
      * constructor; [|constructor]. rewrite D2. split; [exact Ec|constructor].
    + unfold names. rewrite D1, map_app, in_app_iff. right. simpl. auto.
  - destruct Hch as (-> & pool & fl & D0 & D1 & ->). injection H as <- <-.
    split; [auto|]. split; [auto|]. split; [simpl in *; lia|].
    eapply le_check; eauto. constructor.
Qed.

(** ** [open_file] *)

(** The name [open_file] looks up for a path, and whether it was resolved by
    the resolver. *)
Definition requested (c : cst) (path : bytes) : option (bytes * bool) :=
  match r_resolve (rs (c_tick c)) path with
  | Some n => Some (n, true)
  | None => match path_to_file_name (components path) with Some n => Some (n, false) | None => None end
  end.

Inductive open_err (path : bytes) (c : cst) : error -> Prop :=
| oe_not_included : requested c path = None -> open_err path c (EFileNotIncluded path)
| oe_missing n isr e : requested c path = Some (n, isr) -> ~ In n (names c) ->
    fails rs n e -> is_file_not_found e = true -> open_err path c (EFileNotIncluded path)
| oe_resolver n isr e : requested c path = Some (n, isr) -> ~ In n (names c) ->
    fails rs n e -> is_file_not_found e = false -> open_err path c e
| oe_shadow_old n m a : requested c path = Some (n, true) -> lookup n (c_files c) = Some m ->
    fm_path m = Some a -> path_eq a path = false -> open_err path c (EFileShadowed n path a)
| oe_shadow_new n f a : requested c path = Some (n, true) -> ~ In n (names c) -> opened rs n f ->
    pf_path f = Some a -> path_eq a path = false -> open_err path c (EFileShadowed n path a)
| oe_imports n isr f e : requested c path = Some (n, isr) -> ~ In n (names c) -> opened rs n f ->
    loop_err [n] n f e -> open_err path c e
| oe_check n isr f pool fl : requested c path = Some (n, isr) -> ~ In n (names c) -> opened rs n f -> linkable pool f ->
    lk pool (pf_desc f) (pf_encoded f) = inr fl -> open_err path c (ECheck fl).

(** New import files added by opening [n]. *)
Definition new_import (n x : bytes) : Prop := x <> n /\ reaches rs n x /\ exists y, imports rs y x.

Lemma open_file_spec fuel path c r c' :
  Inv c -> open_file rs lk fuel path c = Done (r, c') ->
  Inv c' /\ (c_tick c <= c_tick c')%nat /\
  match r with
  | inl _ =>
    exists n isr, requested c path = Some (n, isr) /\
    match lookup n (c_files c) with
    | Some m =>
      c_pool c' = c_pool c /\
      c_files c' = insert n {| fm_name := fm_name m; fm_path := fm_path m; fm_is_import := false |} (c_files c) /\
      c_include_imports c' = c_include_imports c /\ c_include_source_info c' = c_include_source_info c /\
      (isr = true -> forall a, fm_path m = Some a -> path_eq a path = true)
    | None =>
      exists f d c1, opened rs n f /\ ext (new_import n) c c1 /\
        c_pool c' = c_pool c1 ++ [d] /\ fd_name d = n /\
        c_files c' = c_files c1 ++ [(n, {| fm_name := n; fm_path := pf_path f; fm_is_import := false |})] /\
        c_include_imports c' = c_include_imports c /\ c_include_source_info c' = c_include_source_info c /\
        (isr = true -> forall a, pf_path f = Some a -> path_eq a path = true)
    end
  | inr e =>
    open_err path c e /\
    (exists n isr, requested c path = Some (n, isr) /\ ext (new_import n) c c') \/
    requested c path = None /\ e = EFileNotIncluded path /\ c' = tick c
  end.
Proof.
  intros HI H. unfold open_file in H. 
  assert (Hgo : forall n isr, requested c path = Some (n, isr) ->
    open_named rs lk fuel path n isr (tick c) = Done (r, c') -> 
    Inv c' /\ (c_tick c <= c_tick c')%nat /\
  match r with
  | inl _ =>
    exists n isr, requested c path = Some (n, isr) /\
    match lookup n (c_files c) with
    | Some m =>
      c_pool c' = c_pool c /\
      c_files c' = insert n {| fm_name := fm_name m; fm_path := fm_path m; fm_is_import := false |} (c_files c) /\
      c_include_imports c' = c_include_imports c /\ c_include_source_info c' = c_include_source_info c /\
      (isr = true -> forall a, fm_path m = Some a -> path_eq a path = true)
    | None =>
      exists f d c1, opened rs n f /\ ext (new_import n) c c1 /\
        c_pool c' = c_pool c1 ++ [d] /\ fd_name d = n /\
        c_files c' = c_files c1 ++ [(n, {| fm_name := n; fm_path := pf_path f; fm_is_import := false |})] /\
        c_include_imports c' = c_include_imports c /\ c_include_source_info c' = c_include_source_info c /\
        (isr = true -> forall a, pf_path f = Some a -> path_eq a path = true)
    end
  | inr e =>
    open_err path c e /\
    (exists n isr, requested c path = Some (n, isr) /\ ext (new_import n) c c') \/
    requested c path = None /\ e = EFileNotIncluded path /\ c' = tick c
  end).
  { clear H. intros n isr Hreq H. unfold open_named in H.
    assert (HI0 : Inv (tick c)) by (apply Inv_tick; auto).
    assert (Hsh : forall ap e, (if isr then check_shadow n ap path else None) = Some e ->
              isr = true /\ exists a, ap = Some a /\ path_eq a path = false /\ e = EFileShadowed n path a).
    { intros ap e He. destruct isr; [|discriminate]. split; auto. unfold check_shadow in He.
      destruct ap as [a|]; [|discriminate]. destruct (path_eq a path) eqn:Ep; [discriminate|].
      injection He as <-. eauto. }
    assert (Hns : forall ap, (if isr then check_shadow n ap path else None) = None ->
              isr = true -> forall a, ap = Some a -> path_eq a path = true).
    { intros ap He -> a ->. unfold check_shadow in He. destruct (path_eq a path); [reflexivity|discriminate]. }
    change (c_files (tick c)) with (c_files c) in H.
    destruct (lookup n (c_files c)) as [m|] eqn:El.
    - destruct (if isr then check_shadow n (fm_path m) path else None) as [e|] eqn:Esh.
      + injection H as <- <-. split; [auto|]. split; [simpl; lia|]. left.
        apply Hsh in Esh. destruct Esh as (-> & a & A1 & A2 & ->).
        split; [eapply oe_shadow_old; eauto|]. exists n, true. split; auto. apply ext_tick.
      + injection H as <- <-. cbn [c_tick set_files tick]. split; [|split; [lia|]].
        * constructor; simpl.
          -- erewrite insert_keys by eauto. apply (inv_keys _ HI).
          -- apply (inv_nodup _ HI).
          -- apply (inv_topo _ HI).
          -- pose proof (inv_from _ HI) as Hf. pose proof (inv_keys _ HI) as Hk. pose proof (inv_nodup _ HI) as Hnd.
             clear - Hf El. unfold names in *. revert El. induction Hf as [|d [k v] dp fs [Hk1 Hfr] Hf IH]; simpl; [discriminate|].
             destruct (bytes_eqb k n) eqn:Ekn.
             ++ intros Hm. injection Hm as <-. constructor; auto.
             ++ intros Hm. constructor; auto.
        * exists n, isr. split; auto. rewrite El. cbn. repeat split; auto. apply Hns; auto.
    - assert (Hnn : ~ In n (names c)).
      { apply lookup_None in El. rewrite (inv_keys _ HI) in El. exact El. }
      destruct (call_open rs n (tick c)) as [[r0 c0]| |] eqn:Eo; simpl in H; try discriminate.
      apply call_open_inv in Eo. destruct Eo as [Eo ->].
      assert (HI1 : Inv (tick (tick c))) by (apply Inv_tick; auto).
      assert (Hx1 : ext (new_import n) c (tick (tick c))).
      { eapply ext_trans; apply ext_tick. }
      destruct r0 as [f|e].
      2:{ injection H as <- <-. split; [auto|]. split; [simpl; lia|]. left. split; [|eauto].
          destruct (is_file_not_found e) eqn:Enf.
          - eapply oe_missing; eauto. eexists; eauto.
          - eapply oe_resolver; eauto. eexists; eauto. }
      assert (Ho : opened rs n f) by (eexists; eauto).
      destruct (if isr then check_shadow n (pf_path f) path else None) as [e|] eqn:Esh.
      { injection H as <- <-. split; [auto|]. split; [simpl; lia|]. left.
        apply Hsh in Esh. destruct Esh as (-> & a & A1 & A2 & ->).
        split; [eapply oe_shadow_new; eauto|]. eauto. }
      destruct (import_loop (add_import rs lk fuel) f [n] (d_dependency (pf_desc f)) 0 [] (tick (tick c)))
        as [[res c1]| |] eqn:Eloop; simpl in H; try discriminate.
      destruct (import_loop_spec (add_import rs lk fuel) [n] n f Ho) with (4 := Eloop) as (A & B & B' & C).
      { intros x c2 r2 c2' H2 H3. eapply add_import_spec; eauto. }
      { exact HI1. }
      { exists []. repeat split; auto; simpl; try tauto; try constructor. intros z []. }
      assert (Hx2 : ext (new_import n) c c1).
      { eapply ext_trans; [exact Hx1|]. eapply ext_weaken; [|exact B]. cbv beta.
        intros z (Z1 & Z2 & Z3). repeat split; auto. intros ->. apply Z1. simpl; auto. }
      destruct res as [u|e].
      2:{ injection H as <- <-. split; [auto|]. split; [simpl in *; lia|]. left. split; [|eauto].
          eapply oe_imports; eauto. }
      destruct C as [C1 C2].
      destruct (check_file lk f c1) as [res2 c2] eqn:Ech.
      assert (Hn1 : ~ In n (names c1)).
      { destruct Hx2 as (ds & ms & B1 & _ & _ & _ & B2 & _). unfold names. rewrite B1, map_app, in_app_iff.
        intros [Hz|Hz]; [auto|]. rewrite Forall_forall in B2. apply B2 in Hz. destruct Hz as [Hz _]. auto. }
      pose proof (check_file_Inv n f c1 c2 false res2 A Ho Hn1 C1 C2 Ech) as Hch.
      destruct res2 as [p|e].
      + cbv zeta in Hch. destruct Hch as (d & D1 & D2 & D3 & D4 & D5 & D6 & D7 & D8).
        injection H as <- <-. split; [exact D5|]. split; [simpl in *; lia|].
        exists n, isr. split; auto. rewrite El. exists f, d, c1. subst p.
        destruct Hx2 as (ds & ms & F1 & F2 & F3 & F4 & F5 & F6 & F7).
        repeat split; auto; try congruence.
        * exists ds, ms. repeat split; auto.
        * eapply Hns; eauto.
      + destruct Hch as (-> & pool & fl & D0 & D1 & ->). injection H as <- <-.
        split; [auto|]. split; [simpl in *; lia|]. left. split; [|eauto]. eapply oe_check; eauto. }
  unfold requested in *.
  destruct (r_resolve (rs (c_tick c)) path) as [n|] eqn:Er.
  - eapply Hgo; eauto.
  - destruct (path_to_file_name (components path)) as [n|] eqn:Ep.
    + eapply Hgo; eauto.
    + injection H as <- <-. split; [apply Inv_tick; auto|]. split; [simpl; lia|]. right. auto.
Qed.

End Inv.
