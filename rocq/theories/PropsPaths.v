(** Properties of the include directories and of chained resolvers:
    C41 and C42 (and the path lemma behind C43). *)
From Verif Require Import Base Utf8 Errors Lex Ast Comments Parse Lines Descriptor Generate ParseApi Paths Resolver.

(** ** Specification *)

(** A plain file name: what an ordinary path component may be. *)
Definition plain (s : bytes) : Prop :=
  s <> [] /\ ~ In slash s /\ s <> b "." /\ s <> b "..".

(** The components of a path, ignoring ["."]. *)
Definition no_cur (c : comp) : bool := match c with CurDir => false | _ => true end.
Definition real_components (p : bytes) : list comp := filter no_cur (components p).

(** ** Lemmas *)
Lemma split_slash_nil l : split_slash l <> [].
Proof. destruct l as [|c r]; simpl; [discriminate|]. destruct (split_slash r); [discriminate|]. destruct (c =? slash); discriminate. Qed.

Lemma split_slash_app x y :
  split_slash (x ++ [slash] ++ y) = split_slash x ++ split_slash y.
Proof.
  induction x as [|c x IH]; simpl.
  - destruct (split_slash y) eqn:E; [destruct (split_slash_nil _ E)|]. reflexivity.
  - simpl in IH. rewrite IH. destruct (split_slash x) as [|s ss] eqn:E; [destruct (split_slash_nil _ E)|].
    simpl. destruct (c =? slash); reflexivity.
Qed.

Lemma split_slash_no s : ~ In slash s -> split_slash s = [s].
Proof.
  induction s as [|c s IH]; simpl; intro H; [reflexivity|].
  rewrite IH by tauto. destruct (c =? slash) eqn:E; [|reflexivity].
  apply N.eqb_eq in E. subst. tauto.
Qed.

Lemma split_slash_parts l s : In s (split_slash l) -> ~ In slash s.
Proof.
  revert s. induction l as [|c l IH]; simpl; intros s H.
  - destruct H as [<-|[]]. simpl. tauto.
  - destruct (split_slash l) as [|t ss] eqn:E; [destruct (split_slash_nil _ E)|].
    destruct (c =? slash) eqn:Ec.
    + destruct H as [<-|H]; [simpl; tauto|auto].
    + apply N.eqb_neq in Ec. destruct H as [<-|H]; [|apply IH; simpl; auto].
      simpl. intros [H|H]; [congruence|]. eapply IH; [|exact H]. simpl; auto.
Qed.

Lemma seg_comp_plain s : plain s -> seg_comp s = [Normal s].
Proof.
  intros (H1 & _ & H2 & H3). unfold seg_comp.
  rewrite (proj2 (bytes_eqb_neq s []) H1), (proj2 (bytes_eqb_neq s _) H2), (proj2 (bytes_eqb_neq s _) H3). reflexivity.
Qed.

Lemma seg_comp_cases s : seg_comp s = [] \/ seg_comp s = [ParentDir] \/
  (seg_comp s = [Normal s] /\ s <> [] /\ s <> b "." /\ s <> b "..").
Proof.
  unfold seg_comp. destruct (bytes_eqb s []) eqn:E1; auto.
  destruct (bytes_eqb s (b ".")) eqn:E2; auto. destruct (bytes_eqb s (b "..")) eqn:E3; auto.
  right; right. repeat split; try (apply bytes_eqb_neq; assumption).
Qed.

Lemma components_normal p s : In (Normal s) (components p) -> plain s.
Proof.
  assert (Hb : In (Normal s) (flat_map seg_comp (split_slash p)) -> plain s).
  { intros H. apply in_flat_map in H. destruct H as (t & Ht & H).
    destruct (seg_comp_cases t) as [E|[E|(E & H1 & H2 & H3)]]; rewrite E in H; simpl in H.
    - tauto.
    - destruct H as [H|[]]; discriminate.
    - destruct H as [H|[]]. injection H as <-. repeat split; auto. eapply split_slash_parts; eauto. }
  unfold components. intros H.
  destruct (is_absolute p); [destruct H as [H|H]; [discriminate|auto]|].
  destruct (split_slash p) as [|t ss]; [auto|].
  destruct (bytes_eqb t (b ".")); [destruct H as [H|H]; [discriminate|auto]|auto].
Qed.

Lemma join_slash_split ns : ns <> [] -> Forall plain ns -> split_slash (join_slash ns) = ns.
Proof.
  induction ns as [|s ns IH]; intros Hn H; [congruence|]. inversion H; subst.
  destruct ns as [|t ns].
  - apply split_slash_no. apply H2.
  - change (join_slash (s :: t :: ns)) with (s ++ [slash] ++ join_slash (t :: ns)).
    rewrite split_slash_app, IH by (auto; discriminate). rewrite split_slash_no by apply H2. reflexivity.
Qed.

Lemma join_slash_hd ns : ns <> [] -> Forall plain ns ->
  exists c r, join_slash ns = c :: r /\ c <> slash.
Proof.
  destruct ns as [|s ns]; intros Hn H; [congruence|]. inversion H; subst.
  destruct H2 as (H1 & H2 & _). destruct s as [|c s]; [congruence|].
  exists c. destruct ns; simpl; eexists; (split; [reflexivity|]); intros ->; apply H2; simpl; auto.
Qed.

Lemma join_slash_abs ns : ns <> [] -> Forall plain ns -> is_absolute (join_slash ns) = false.
Proof.
  intros Hn H. destruct (join_slash_hd ns Hn H) as (c & r & -> & Hc). simpl. now apply N.eqb_neq.
Qed.

Lemma flat_seg ns : Forall plain ns -> flat_map seg_comp ns = map Normal ns.
Proof. induction 1; simpl; auto. rewrite seg_comp_plain by auto. simpl. congruence. Qed.

Lemma components_join_slash ns : ns <> [] -> Forall plain ns -> components (join_slash ns) = map Normal ns.
Proof.
  intros Hn H. unfold components. rewrite join_slash_abs, join_slash_split by auto.
  rewrite (flat_seg ns) by auto. destruct ns as [|s ns]; [reflexivity|].
  inversion H; subst. destruct H2 as (_ & _ & H2 & _). apply bytes_eqb_neq in H2. now rewrite H2.
Qed.

(** Joining plain components to any base appends them. *)
Lemma components_join base ns : ns <> [] -> Forall plain ns ->
  components (path_join base (join_slash ns)) = components base ++ map Normal ns.
Proof.
  intros Hn H. unfold path_join. rewrite join_slash_abs by auto.
  destruct base as [|c base']; [rewrite components_join_slash by auto; reflexivity|].
  set (base := c :: base'). assert (Hb : base <> []) by discriminate.
  assert (Hsep : forall x, x ++ [slash] = base ->
     components (base ++ join_slash ns) = components base ++ map Normal ns).
  { intros x <-. rewrite <- app_assoc. unfold components.
    rewrite split_slash_app, join_slash_split by auto.
    change (x ++ [slash]) with (x ++ [slash] ++ []). rewrite split_slash_app.
    rewrite !flat_map_app. rewrite (flat_seg ns) by auto.
    change (split_slash []) with [@nil N]. change (flat_map seg_comp [[]]) with (@nil comp).
    rewrite !app_nil_r.
    destruct x as [|y x].
    - cbn. reflexivity.
    - assert (Ha : forall z, is_absolute ((y :: x) ++ z) = (y =? slash)) by reflexivity.
      rewrite !Ha.
      destruct (y =? slash) eqn:Ey; [reflexivity|].
      destruct (split_slash (y :: x)) as [|t ss] eqn:E; [destruct (split_slash_nil _ E)|].
      cbn [app]. destruct (bytes_eqb t (b ".")); reflexivity. }
  destruct (last base 0 =? slash) eqn:E.
  - apply N.eqb_eq in E. apply (Hsep (removelast base)).
    rewrite <- E. symmetry. apply app_removelast_last. exact Hb.
  - unfold components. rewrite split_slash_app, join_slash_split by auto.
    rewrite flat_map_app, (flat_seg ns) by auto.
    unfold base. change (is_absolute ((c :: base') ++ [slash] ++ join_slash ns)) with (c =? slash).
    change (is_absolute (c :: base')) with (c =? slash).
    destruct (c =? slash) eqn:Ey; [reflexivity|].
    destruct (split_slash (c :: base')) as [|t ss] eqn:Es; [destruct (split_slash_nil _ Es)|].
    cbn [app]. destruct (bytes_eqb t (b ".")); reflexivity.
Qed.

Lemma comp_eqb_eq x y : comp_eqb x y = true <-> x = y.
Proof.
  destruct x, y; simpl; split; intro H; try discriminate; auto.
  - apply bytes_eqb_eq in H. congruence.
  - injection H as ->. apply bytes_eqb_refl.
Qed.

Lemma path_eq_loop_iff fuel l r : (length l + length r < fuel)%nat ->
  (path_eq_loop fuel l r = true <-> filter no_cur l = filter no_cur r).
Proof.
  revert l r. induction fuel as [|f IH]; intros l r Hf; [lia|].
  destruct l as [|x l], r as [|y r]; simpl in *.
  - tauto.
  - destruct y; simpl; try (split; discriminate). rewrite IH by (simpl; lia). simpl. tauto.
  - destruct x; simpl; try (split; discriminate). rewrite IH by (simpl; lia). simpl. tauto.
  - assert (Hne : forall z w, (if comp_eqb z w then path_eq_loop f l r else false) = true <->
              z :: filter no_cur l = w :: filter no_cur r).
    { intros z w. destruct (comp_eqb z w) eqn:E.
      - apply comp_eqb_eq in E. subst. rewrite IH by (simpl; lia). split; congruence.
      - split; [discriminate|]. intros H. injection H as -> H.
        rewrite (proj2 (comp_eqb_eq w w) eq_refl) in E. discriminate. }
    destruct x; try (rewrite IH by (simpl; lia); simpl; tauto);
      destruct y; try (rewrite IH by (simpl; lia); simpl; tauto); apply Hne.
Qed.

Lemma path_eq_iff l r : path_eq l r = true <-> real_components l = real_components r.
Proof. apply path_eq_loop_iff. lia. Qed.

Lemma iter_after_iff fuel : forall l p, (length l + length p < fuel)%nat ->
  match iter_after fuel l p with
  | Some rel => filter no_cur l = filter no_cur p ++ filter no_cur rel /\ incl rel l /\
                match rel with CurDir :: _ => False | _ => True end
  | None => forall suf, filter no_cur l <> filter no_cur p ++ suf
  end.
Proof.
  induction fuel as [|f IH]; intros l p Hf; [lia|].
  assert (Hcur : forall l', l = CurDir :: l' -> (length l' + length p < f)%nat ->
    match iter_after f l' p with
    | Some rel => filter no_cur l = filter no_cur p ++ filter no_cur rel /\ incl rel l /\
                  match rel with CurDir :: _ => False | _ => True end
    | None => forall suf, filter no_cur l <> filter no_cur p ++ suf
    end).
  { intros l' -> H. specialize (IH l' p H). destruct (iter_after f l' p); [|exact IH].
    destruct IH as (H1 & H2 & H3). repeat split; auto. intros z Hz; simpl; auto. }
  simpl. destruct l as [|x l], p as [|y p]; simpl in *.
  - repeat split; auto. apply incl_refl.
  - destruct y; simpl; try (intros suf; discriminate).
    specialize (IH [] p). simpl in IH. apply IH. lia.
  - destruct x; try (apply (Hcur l eq_refl); simpl; lia); simpl; repeat split; auto; apply incl_refl.
  - assert (Hne : forall z w, no_cur z = true -> no_cur w = true -> x = z -> y = w ->
       match (if comp_eqb z w then iter_after f l p else None) with
       | Some rel => z :: filter no_cur l = (w :: filter no_cur p) ++ filter no_cur rel /\
                     incl rel (z :: l) /\ match rel with CurDir :: _ => False | _ => True end
       | None => forall suf, z :: filter no_cur l <> (w :: filter no_cur p) ++ suf
       end).
    { intros z w Hz Hw -> ->. destruct (comp_eqb z w) eqn:E.
      - apply comp_eqb_eq in E. subst w. specialize (IH l p). destruct (iter_after f l p).
        + destruct IH as (H1 & H2 & H3); [lia|]. rewrite H1. repeat split; auto. intros q Hq; simpl; auto.
        + intros suf H. injection H as H. eapply IH; [lia|exact H].
      - intros suf H. simpl in H. injection H as -> H. rewrite (proj2 (comp_eqb_eq w w) eq_refl) in E. discriminate. }
    destruct x; try (apply (Hcur l eq_refl); simpl; lia);
      (destruct y; [apply Hne; reflexivity | | apply Hne; reflexivity | apply Hne; reflexivity]);
      (match goal with |- context [iter_after f ?a p] => specialize (IH a p); simpl in IH; apply IH; lia end).
Qed.

Fixpoint name_go (acc : bytes) (ns : list bytes) : bytes :=
  match ns with
  | [] => acc
  | s :: t => name_go ((if bytes_eqb acc [] then acc else acc ++ [slash]) ++ s) t
  end.
Lemma file_name_loop_spec cs : forall name r, file_name_loop cs name = Some r <->
  exists ns, cs = map Normal ns /\ Forall (fun s => utf8_valid s = true) ns /\ r <> [] /\
    r = name_go name ns.
Proof.
  induction cs as [|c cs IH]; intros name r; simpl.
  - destruct (bytes_eqb name []) eqn:E.
    + apply bytes_eqb_eq in E. subst. split; [discriminate|].
      intros (ns & H1 & _ & H2 & H3). destruct ns; [|discriminate]. simpl in H3. congruence.
    + apply bytes_eqb_neq in E. split.
      * intros H. injection H as <-. exists []. repeat split; auto.
      * intros (ns & H1 & _ & H2 & H3). destruct ns; [|discriminate]. simpl in H3. congruence.
  - destruct c; try (split; [discriminate|]; intros (ns & H1 & _); destruct ns; discriminate).
    destruct (utf8_valid name0) eqn:E.
    + rewrite IH. split; intros (ns & H1 & H2 & H3 & H4).
      * exists (name0 :: ns). repeat split; auto. simpl. congruence.
      * destruct ns as [|s ns]; [discriminate|]. simpl in H1. injection H1 as <- H1.
        inversion H2; subst. exists ns. auto.
    + split; [discriminate|]. intros (ns & H1 & H2 & _). destruct ns as [|s ns]; [discriminate|].
      injection H1 as <- H1. inversion H2; subst. congruence.
Qed.

Lemma name_go_join ns : Forall plain ns -> forall acc, acc <> [] ->
  name_go acc ns
  = match ns with [] => acc | _ => acc ++ [slash] ++ join_slash ns end.
Proof.
  induction 1 as [|s ns Hs H IH]; intros acc Ha; [reflexivity|].
  cbn [name_go]. rewrite (proj2 (bytes_eqb_neq acc []) Ha). rewrite IH.
  - destruct ns; simpl; [now rewrite <- app_assoc|]. now rewrite <- !app_assoc.
  - destruct acc; [congruence|discriminate].
Qed.

Lemma path_to_file_name_iff cs name : (forall s, In (Normal s) cs -> plain s) ->
  (path_to_file_name cs = Some name <->
   exists ns, cs = map Normal ns /\ ns <> [] /\ Forall (fun s => utf8_valid s = true) ns /\ name = join_slash ns).
Proof.
  intros Hp. unfold path_to_file_name. rewrite file_name_loop_spec.
  assert (Hpl : forall ns, cs = map Normal ns -> Forall plain ns).
  { intros ns ->. apply Forall_forall. intros s Hs. apply Hp. now apply in_map. }
  assert (Hgo : forall ns, ns <> [] -> Forall plain ns ->
    name_go [] ns = join_slash ns).
  { intros [|s ns] Hn H; [congruence|]. inversion H; subst. cbn [name_go app]. rewrite (bytes_eqb_refl []). cbn [app].
    rewrite name_go_join by (auto; apply H2). destruct ns; reflexivity. }
  split; intros (ns & H1 & H2 & H3 & H4).
  - exists ns. destruct ns as [|s ns]; [simpl in H4; congruence|]. repeat split; auto; try discriminate.
    rewrite Hgo in H4; auto. discriminate.
  - exists ns. repeat split; auto.
    + subst name. destruct (join_slash_hd ns H2 (Hpl _ H1)) as (c & r & -> & _). discriminate.
    + rewrite Hgo; auto.
Qed.

Lemma filter_normal ns : filter no_cur (map Normal ns) = map Normal ns.
Proof. induction ns; simpl; congruence. Qed.

(** A leading ["."] is the only [CurDir] component. *)
Lemma components_cur p : exists h t, components p = h ++ t /\ (h = [] \/ h = [CurDir]) /\ ~ In CurDir t.
Proof.
  assert (Hb : ~ In CurDir (flat_map seg_comp (split_slash p))).
  { intros H. apply in_flat_map in H. destruct H as (s & _ & H).
    destruct (seg_comp_cases s) as [E|[E|(E & _)]]; rewrite E in H; simpl in H; intuition discriminate. }
  unfold components. destruct (is_absolute p).
  - exists [], (RootDir :: flat_map seg_comp (split_slash p)). repeat split; auto. simpl. intuition discriminate.
  - destruct (split_slash p) as [|s ss] eqn:E.
    + exists [], (flat_map seg_comp []). auto.
    + destruct (bytes_eqb s (b ".")).
      * exists [CurDir], (flat_map seg_comp (s :: ss)). auto.
      * exists [], (flat_map seg_comp (s :: ss)). auto.
Qed.

Lemma filter_notin cs : ~ In CurDir cs -> filter no_cur cs = cs.
Proof.
  induction cs as [|c cs IH]; simpl; intro H; [reflexivity|]. destruct c; simpl; solve [f_equal; tauto | tauto].
Qed.

Lemma iter_after_incl fuel l p rel : iter_after fuel l p = Some rel -> exists pre, l = pre ++ rel.
Proof.
  revert l p. induction fuel as [|f IH]; intros l p H; [discriminate|].
  simpl in H. destruct l as [|x l], p as [|y p]; simpl in H.
  - injection H as <-. exists []. reflexivity.
  - destruct y; try discriminate. eauto.
  - destruct x; try (injection H as <-; exists []; reflexivity).
    destruct (IH _ _ H) as (pre & ->). exists (CurDir :: pre). reflexivity.
  - assert (Hs : forall q, iter_after f l q = Some rel -> exists pre, x :: l = pre ++ rel).
    { intros q Hq. destruct (IH _ _ Hq) as (pre & ->). exists (x :: pre). reflexivity. }
    destruct x; try (eapply Hs; eauto; fail);
      destruct y; try (eapply IH; eassumption);
      match type of H with (if ?c then _ else _) = _ => destruct c; [|discriminate] end; eapply Hs; eauto.
Qed.

(** ** C42 *)

(** [resolve_path] succeeds exactly when the path is the include directory
    followed by one or more ordinary UTF-8 components (up to ["."]), and then
    returns these components separated by slashes; opening the returned name
    below the same include directory opens the same path, so [open_file] does
    not consider it shadowed. *)
Theorem C42_resolve_path_iff include path name :
  include_resolve_path include path = Some name <->
  exists ns, ns <> [] /\ Forall plain ns /\ Forall (fun s => utf8_valid s = true) ns /\
    name = join_slash ns /\
    real_components path = real_components include ++ map Normal ns.
Proof.
  unfold include_resolve_path, strip_prefix, real_components.
  pose proof (iter_after_iff (S (length (components path) + length (components include)))
                (components path) (components include) (Nat.lt_succ_diag_r _)) as HI.
  destruct (iter_after _ _ _) as [rel|] eqn:Ei.
  - destruct HI as (H1 & H2 & H3). rewrite path_to_file_name_iff.
    2:{ intros s Hs. apply (components_normal path). auto. }
    split.
    + intros (ns & -> & Hn & Hu & ->). exists ns. rewrite filter_normal in H1.
      repeat split; auto. apply Forall_forall. intros s Hs. apply (components_normal path). apply H2. now apply in_map.
    + intros (ns & Hn & Hp & Hu & -> & E). exists ns. repeat split; auto.
      rewrite H1 in E. apply app_inv_head in E.
      (* [rel] has no CurDir *)
      apply iter_after_incl in Ei. destruct Ei as (pre & Epre).
      destruct (components_cur path) as (h & t & Ec & Hh & Ht). rewrite Ec in Epre.
      assert (Hrel : ~ In CurDir rel).
      { destruct Hh as [-> | ->]; simpl in Epre.
        - intros H. apply Ht. rewrite Epre. apply in_or_app; auto.
        - destruct pre as [|x pre].
          + simpl in Epre. subst rel. destruct H3.
          + simpl in Epre. injection Epre as _ Epre. intros H. apply Ht. rewrite Epre. apply in_or_app; auto. }
      rewrite filter_notin in E by assumption. exact E.
  - split; [discriminate|]. intros (ns & _ & _ & _ & _ & E). exfalso. eapply HI; eauto.
Qed.

Theorem C42_resolve_then_open_agree include path name :
  include_resolve_path include path = Some name ->
  real_components (path_join include name) = real_components path /\
  check_shadow name (Some (path_join include name)) path = None /\
  include_resolve_path include (path_join include name) = Some name.
Proof.
  intros H. pose proof H as H0. apply C42_resolve_path_iff in H. destruct H as (ns & Hn & Hp & Hu & -> & E).
  assert (Er : real_components (path_join include (join_slash ns)) = real_components path).
  { unfold real_components at 1. rewrite components_join by auto.
    rewrite filter_app, filter_normal. symmetry. exact E. }
  split; [exact Er|]. split.
  - unfold check_shadow. rewrite (proj2 (path_eq_iff _ _) Er). reflexivity.
  - apply C42_resolve_path_iff. exists ns. rewrite Er. auto.
Qed.

(** Two distinct names never resolve to the same path: the file opened for a
    name is determined by it, and paths outside the directory are refused. *)
Theorem C42_outside_not_resolved include path :
  (forall suffix, real_components path <> real_components include ++ suffix) ->
  include_resolve_path include path = None.
Proof.
  intros H. destruct (include_resolve_path include path) as [n|] eqn:E; [|reflexivity].
  apply C42_resolve_path_iff in E. destruct E as (ns & _ & _ & _ & _ & E). exfalso. eapply H; eauto.
Qed.

Example C42_example :
  include_resolve_path (b "./inc") (b "inc/./dir/a.proto") = Some (b "dir/a.proto") /\
  path_join (b "./inc") (b "dir/a.proto") = b "./inc/dir/a.proto" /\
  include_resolve_path (b "./inc") (b "other/a.proto") = None.
Proof. repeat split. Qed.

(** ** C41: chains *)
Definition not_found (x : result pfile) : Prop := exists e, x = Done (inr e) /\ is_file_not_found e = true.

Theorem C41_first_hit_wins rs name :
  (exists pre r post, rs = pre ++ r :: post /\
     (forall p, In p pre -> not_found (r_open p name)) /\ ~ not_found (r_open r name) /\
     r_open (chain_resolver rs) name = r_open r name) \/
  ((forall p, In p rs -> not_found (r_open p name)) /\
   r_open (chain_resolver rs) name = Done (inr (EFileNotFound name))).
Proof.
  simpl. induction rs as [|r rs IH]; simpl.
  - right. split; [intros p []|reflexivity].
  - assert (Hhit : ~ not_found (r_open r name) ->
      (obind (r_open r name) (fun x => match x with inl f => Done (inl f)
         | inr e => if is_file_not_found e then chain_open rs name else Done (inr e) end) = r_open r name)).
    { intros H. destruct (r_open r name) as [[f|e]| |] eqn:E; simpl; auto.
      destruct (is_file_not_found e) eqn:Ee; auto. exfalso. apply H. exists e. auto. }
    destruct (r_open r name) as [[f|e]| |] eqn:E; simpl.
    + left. exists [], r, rs. rewrite E. repeat split; auto; [intros p []|]. intros (e & H & _); discriminate.
    + destruct (is_file_not_found e) eqn:Ee.
      * assert (Hr : not_found (r_open r name)) by (rewrite E; exists e; auto).
        destruct IH as [(pre & q & post & -> & H1 & H2 & H3)|[H1 H2]].
        -- left. exists (r :: pre), q, post. repeat split; auto. intros p [<-|Hp]; auto.
        -- right. split; auto. intros p [<-|Hp]; auto.
      * left. exists [], r, rs. rewrite E. repeat split; auto; [intros p []|].
        intros (e' & H & H'). congruence.
    + left. exists [], r, rs. rewrite E. repeat split; auto; [intros p []|]. intros (e & H & _); discriminate.
    + left. exists [], r, rs. rewrite E. repeat split; auto; [intros p []|]. intros (e & H & _); discriminate.
Qed.

Theorem C41_first_resolved_path_wins rs path :
  (exists pre r post, rs = pre ++ r :: post /\ (forall p, In p pre -> r_resolve p path = None) /\
     r_resolve r path <> None /\ r_resolve (chain_resolver rs) path = r_resolve r path) \/
  ((forall p, In p rs -> r_resolve p path = None) /\ r_resolve (chain_resolver rs) path = None).
Proof.
  simpl. induction rs as [|r rs IH]; simpl.
  - right. split; [intros p []|reflexivity].
  - destruct (r_resolve r path) as [n|] eqn:E.
    + left. exists [], r, rs. rewrite E. repeat split; auto; [intros p []|discriminate].
    + destruct IH as [(pre & q & post & -> & H1 & H2 & H3)|[H1 H2]].
      * left. exists (r :: pre), q, post. repeat split; auto. intros p [<-|Hp]; auto.
      * right. split; auto. intros p [<-|Hp]; auto.
Qed.

Theorem C41_nesting_is_flattening pre mid post :
  (forall path, r_resolve (chain_resolver (pre ++ [chain_resolver mid] ++ post)) path
              = r_resolve (chain_resolver (pre ++ mid ++ post)) path) /\
  (forall name, r_open (chain_resolver (pre ++ [chain_resolver mid] ++ post)) name
              = r_open (chain_resolver (pre ++ mid ++ post)) name).
Proof.
  split.
  - intros path. simpl. induction pre as [|r pre IH]; simpl.
    + induction mid as [|m mid IHm]; simpl; [reflexivity|]. destruct (r_resolve m path); auto.
    + destruct (r_resolve r path); auto.
  - intros name. simpl. induction pre as [|r pre IH]; simpl.
    + induction mid as [|m mid IHm]; simpl; [reflexivity|].
      destruct (r_open m name) as [[f|e]| |]; simpl; auto.
      destruct (is_file_not_found e) eqn:E; auto. simpl. rewrite E. reflexivity.
    + destruct (r_open r name) as [[f|e]| |]; simpl; auto. destruct (is_file_not_found e); auto.
Qed.

Print Assumptions C41_first_hit_wins.
Print Assumptions C41_first_resolved_path_wins.
Print Assumptions C41_nesting_is_flattening.
Print Assumptions C42_resolve_path_iff.
Print Assumptions C42_resolve_then_open_agree.
Print Assumptions C42_outside_not_resolved.
