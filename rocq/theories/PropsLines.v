(** C13: offsets map to the right line and column (generate/lines.rs). *)
From Verif Require Import Base Ast Lines.

(** ** Specification: for the text before an offset, the number of newline
    bytes in it, and the number of bytes after the last of them. *)
Fixpoint newlines (l : bytes) : nat :=
  match l with [] => 0%nat | c :: r => if c =? 10 then S (newlines r) else newlines r end.
Definition last_line (l : bytes) : bytes := rev (take_while (fun c => negb (c =? 10)) (rev l)).
Definition before (src : bytes) (offset : N) : bytes := firstn (N.to_nat offset) src.
Definition line_of (src : bytes) (offset : N) : Z := Z.of_nat (newlines (before src offset)).
Definition column_of (src : bytes) (offset : N) : Z := Z.of_nat (length (last_line (before src offset))).

Example line_of_ex : (line_of (b "ab" ++ [10] ++ b "cd") 4, column_of (b "ab" ++ [10] ++ b "cd") 4) = (1, 1)%Z.
Proof. reflexivity. Qed.

(** ** Lemmas *)
Lemma newlines_app x y : newlines (x ++ y) = (newlines x + newlines y)%nat.
Proof. induction x as [|c x IH]; simpl; [reflexivity|]. rewrite IH. destruct (c =? 10); lia. Qed.

Lemma last_line_none l : newlines l = 0%nat -> last_line l = l.
Proof.
  intros H. unfold last_line. rewrite <- (rev_involutive l) at 2. f_equal.
  assert (Hr : newlines (rev l) = 0%nat).
  { induction l as [|c l IH]; simpl in *; [reflexivity|]. rewrite newlines_app. simpl. destruct (c =? 10); [lia|]. rewrite IH by lia. lia. }
  clear H. induction (rev l) as [|c r IH]; simpl in *; [reflexivity|].
  destruct (c =? 10); simpl in *; [lia|]. f_equal. auto.
Qed.

Lemma take_while_app_stop p x c y : p c = false -> take_while p (x ++ c :: y) = take_while p x.
Proof. intros H. induction x as [|d x IH]; simpl; [now rewrite H|]. destruct (p d); congruence. Qed.

Lemma last_line_app pre post : newlines post = 0%nat -> last_line (pre ++ 10 :: post) = post.
Proof.
  intros H. rewrite <- (last_line_none post) at 2 by auto. unfold last_line. rewrite rev_app_distr. simpl.
  rewrite <- app_assoc. simpl. now rewrite take_while_app_stop.
Qed.

(** The [j]-th line start is one past the [j]-th newline. *)
Lemma starts_nth src : forall off ls, line_starts off src = Done ls -> forall j y,
  nth_error ls j = Some y <->
  exists pre post, src = pre ++ 10 :: post /\ newlines pre = j /\ y = Z.of_N (off + len pre + 1).
Proof.
  induction src as [|c src IH]; intros off ls H j y; simpl in H.
  - injection H as <-. split.
    + destruct j; discriminate.
    + intros (pre & post & E & _). destruct pre; discriminate.
  - destruct (c =? 10) eqn:Ec.
    + apply N.eqb_eq in Ec. subst c. unfold index_to_i32 in H. destruct (off + 1 <=? i32_max); [|discriminate].
      simpl in H. destruct (line_starts (off + 1) src) as [xs| |] eqn:E; try discriminate.
      injection H as <-. destruct j as [|j]; simpl.
      * split.
        -- intros H. injection H as <-. exists [], src. repeat split. unfold len. simpl. f_equal. lia.
        -- intros (pre & post & E1 & E2 & ->). destruct pre as [|d pre].
           ++ unfold len. simpl. f_equal. f_equal. lia.
           ++ simpl in E1. injection E1 as <- E1. simpl in E2. lia.
      * rewrite (IH _ _ E). split; intros (pre & post & E1 & E2 & ->).
        -- exists (10 :: pre), post. subst src. repeat split; simpl; try lia. unfold len. simpl. f_equal. lia.
        -- destruct pre as [|d pre]; [simpl in E2; lia|]. simpl in E1. injection E1 as <- ->. simpl in E2.
           exists pre, post. repeat split; try lia. unfold len. simpl. f_equal. lia.
    + rewrite (IH _ _ H). split; intros (pre & post & E1 & E2 & ->).
      * exists (c :: pre), post. subst src. repeat split; simpl; [now rewrite Ec|]. unfold len. simpl. f_equal. lia.
      * destruct pre as [|d pre]; simpl in E1; injection E1 as -> E1; [discriminate|]. simpl in E2. rewrite Ec in E2.
        exists pre, post. repeat split; auto. unfold len. simpl. f_equal. lia.
Qed.

Lemma lines_total src : forall off, off + len src <= i32_max -> exists ls, line_starts off src = Done ls.
Proof.
  induction src as [|c src IH]; intros off H; simpl; [eauto|].
  rewrite len_cons in H.
  destruct (IH (off + 1)) as (ls & ->); [lia|].
  destruct (c =? 10); [|eauto]. unfold index_to_i32. destruct (off + 1 <=? i32_max) eqn:E2; [simpl; eauto|].
  apply N.leb_gt in E2. lia.
Qed.

Lemma starts_length src : forall off ls, line_starts off src = Done ls -> length ls = newlines src.
Proof.
  induction src as [|c src IH]; intros off ls H; simpl in H.
  - injection H as <-. reflexivity.
  - simpl. destruct (c =? 10).
    + unfold index_to_i32 in H. destruct (off + 1 <=? i32_max); [|discriminate]. simpl in H.
      destruct (line_starts (off + 1) src) as [xs| |] eqn:E; try discriminate. injection H as <-. simpl. f_equal. eauto.
    + eauto.
Qed.

(** Line starts increase strictly: the precondition of [binary_search]. *)
Lemma line_starts_sorted src ls : lines_new src = Done ls ->
  forall i j x y, (i < j)%nat -> nth_error ls i = Some x -> nth_error ls j = Some y -> (x < y)%Z.
Proof.
  intros H i j x y Hij Hx Hy. unfold lines_new in H.
  apply (starts_nth _ _ _ H) in Hx. apply (starts_nth _ _ _ H) in Hy.
  destruct Hx as (p1 & q1 & E1 & <- & ->), Hy as (p2 & q2 & E2 & <- & ->).
  assert (length p1 < length p2)%nat; [|unfold len; lia].
  rewrite E1 in E2. clear E1. revert p2 E2 Hij. induction p1 as [|c p1 IH]; intros [|d p2] E2 Hij; simpl in *; try lia.
  injection E2 as -> E2. apply -> Nat.succ_lt_mono. apply (IH _ E2). destruct (d =? 10); lia.
Qed.

Lemma bs_spec ls x : (forall i j u v, (i < j)%nat -> nth_error ls i = Some u -> nth_error ls j = Some v -> (u < v)%Z) ->
  match binary_search ls x with
  | inl i => nth_error ls (N.to_nat i) = Some x
  | inr i => (N.to_nat i <= length ls)%nat /\
             (forall j y, nth_error ls j = Some y -> (j < N.to_nat i)%nat -> (y < x)%Z) /\
             (forall j y, nth_error ls j = Some y -> (N.to_nat i <= j)%nat -> (x < y)%Z)
  end.
Proof.
  induction ls as [|y ls IH]; intros Hs; simpl.
  - repeat split; [lia| |]; intros j z Hj; destruct j; discriminate.
  - destruct (Z.eqb_spec y x) as [->|Hne]; [reflexivity|].
    destruct (Z.ltb_spec x y) as [Hlt|Hge].
    + repeat split; [simpl; lia|intros; simpl in *; lia|].
      intros [|j] z Hz _; simpl in Hz; [injection Hz as <-; lia|].
      specialize (Hs 0%nat (S j) y z ltac:(lia) eq_refl Hz). lia.
    + assert (Hs' : forall i j u v, (i < j)%nat -> nth_error ls i = Some u -> nth_error ls j = Some v -> (u < v)%Z).
      { intros i j u v Hij Hu Hv. apply (Hs (S i) (S j) u v); auto. lia. }
      specialize (IH Hs'). destruct (binary_search ls x) as [i|i].
      * replace (N.to_nat (i + 1)) with (S (N.to_nat i)) by lia. exact IH.
      * replace (N.to_nat (i + 1)) with (S (N.to_nat i)) by lia. destruct IH as (H1 & H2 & H3).
        repeat split; [simpl; lia| |].
        -- intros [|j] z Hz Hj; simpl in Hz; [injection Hz as <-; lia|]. eapply H2; eauto. lia.
        -- intros [|j] z Hz Hj; [lia|]. simpl in Hz. eapply H3; eauto. lia.
Qed.

Lemma firstn_prefix {A} (pre post : list A) n : (length pre <= n)%nat ->
  firstn n (pre ++ post) = pre ++ firstn (n - length pre) post.
Proof. intros H. rewrite firstn_app, firstn_all2 by lia. reflexivity. Qed.

Lemma split_nl l : forall j, (j < newlines l)%nat -> exists pre post, l = pre ++ 10 :: post /\ newlines pre = j.
Proof.
  induction l as [|c l IH]; intros j Hj; simpl in Hj; [lia|]. destruct (c =? 10) eqn:E.
  - apply N.eqb_eq in E. subst. destruct j as [|j]; [exists [], l; auto|].
    destruct (IH j) as (p & q & -> & <-); [lia|]. exists (10 :: p), q. auto.
  - destruct (IH j) as (p & q & -> & <-); [lia|]. exists (c :: p), q. split; auto. simpl. now rewrite E.
Qed.

Theorem C13_resolve src o :
  len src <= i32_max -> o <= len src ->
  exists ls, lines_new src = Done ls /\ resolve ls o = Done (line_of src o, column_of src o).
Proof.
  intros Hlen Ho. destruct (lines_total src 0) as (ls & Els); [lia|]. exists ls. split; [exact Els|].
  assert (Hsorted := line_starts_sorted src ls Els).
  pose proof (bs_spec ls (Z.of_N o) Hsorted) as Hbs.
  pose proof (starts_nth src 0 ls Els) as Hnth. pose proof (starts_length _ _ _ Els) as Hll.
  assert (Hcount : (newlines src <= length src)%nat).
  { clear. induction src as [|c src IH]; simpl; [lia|]. destruct (c =? 10); lia. }
  unfold resolve. unfold index_to_i32 at 1. rewrite (proj2 (N.leb_le _ _)) by lia. simpl.
  unfold line_of, column_of. set (p := before src o).
  destruct (binary_search ls (Z.of_N o)) as [i|i].
  - apply Hnth in Hbs. destruct Hbs as (pre & post & E1 & E2 & E3).
    assert (Ep : p = pre ++ [10]).
    { unfold p, before. subst src. replace (N.to_nat o) with (length pre + 1)%nat by (unfold len in *; lia).
      rewrite firstn_prefix by lia. replace (_ - _)%nat with 1%nat by lia. reflexivity. }
    rewrite Ep, newlines_app, last_line_app by reflexivity. simpl.
    assert (Hi : i + 1 <= i32_max).
    { subst src. rewrite newlines_app, app_length in Hcount. unfold len in Hlen. rewrite app_length in Hlen. simpl in *. lia. }
    unfold index_to_i32. rewrite (proj2 (N.leb_le _ _) Hi). simpl. f_equal. f_equal. lia.
  - destruct Hbs as (H0 & H1 & H2).
    assert (Hplen : length p = N.to_nat o).
    { unfold p, before. rewrite firstn_length. unfold len in Ho. lia. }
    assert (Hsrc : src = p ++ skipn (N.to_nat o) src) by (unfold p, before; now rewrite firstn_skipn).
    assert (En : newlines p = N.to_nat i).
    { destruct (Nat.lt_trichotomy (newlines p) (N.to_nat i)) as [Hc|[Hc|Hc]]; auto; exfalso.
      - destruct (nth_error ls (newlines p)) as [y|] eqn:Ey.
        2:{ apply nth_error_None in Ey. lia. }
        pose proof (H1 _ _ Ey Hc) as Hy. apply Hnth in Ey. destruct Ey as (pre & post & E1 & E2 & ->).
        assert (Ep : p = (pre ++ [10]) ++ firstn (N.to_nat o - length (pre ++ [10])) post).
        { unfold p, before. rewrite E1. change (pre ++ 10 :: post) with (pre ++ [10] ++ post). rewrite app_assoc.
          apply firstn_prefix. rewrite app_length. simpl. unfold len in Hy. lia. }
        rewrite Ep, !newlines_app in E2. simpl in E2. lia.
      - destruct (split_nl p (N.to_nat i) Hc) as (pre & post & E1 & E2).
        assert (Ey : nth_error ls (N.to_nat i) = Some (Z.of_N (0 + len pre + 1))).
        { apply Hnth. rewrite Hsrc, E1. exists pre, (post ++ skipn (N.to_nat o) src). rewrite <- app_assoc. auto. }
        pose proof (H2 _ _ Ey (le_n _)) as Hy. rewrite E1, app_length in Hplen. unfold len in Hy. simpl in Hplen. lia. }
    destruct (i =? 0) eqn:Ei.
    + apply N.eqb_eq in Ei. subst i. simpl in En. rewrite En, last_line_none by auto. simpl. f_equal. f_equal. lia.
    + apply N.eqb_neq in Ei.
      assert (Hi : i <= i32_max). { unfold len in *. lia. }
      unfold index_to_i32. rewrite (proj2 (N.leb_le _ _) Hi). simpl.
      destruct (split_nl p (N.to_nat (i - 1))) as (pre & post & E1 & E2); [lia|].
      assert (Ey : nth_error ls (N.to_nat (i - 1)) = Some (Z.of_N (0 + len pre + 1))).
      { apply Hnth. rewrite Hsrc, E1. exists pre, (post ++ skipn (N.to_nat o) src). rewrite <- app_assoc. auto. }
      rewrite Ey. rewrite En. rewrite E1, newlines_app in En. simpl in En.
      rewrite E1, last_line_app by lia. rewrite E1, app_length in Hplen. simpl in Hplen. unfold len.
      f_equal. f_equal; lia.
Qed.

(** A span is encoded with three numbers iff it stays on one line. *)
Theorem C13_resolve_span src s e :
  len src <= i32_max -> s <= e -> e <= len src ->
  exists ls, lines_new src = Done ls /\
    resolve_span ls (s, e) = Done
      (if (line_of src s =? line_of src e)%Z
       then [line_of src s; column_of src s; column_of src e]
       else [line_of src s; column_of src s; line_of src e; column_of src e]) /\
    (line_of src s <= line_of src e)%Z /\
    ((line_of src s = line_of src e)%Z -> (column_of src s <= column_of src e)%Z).
Proof.
  intros H1 H2 H3. destruct (C13_resolve src s) as (ls & E & R1); [auto|lia|].
  destruct (C13_resolve src e) as (ls' & E' & R2); auto. rewrite E in E'. injection E' as <-.
  exists ls. split; auto. split; [|].
  { unfold resolve_span. simpl. rewrite R1, R2. simpl. reflexivity. }
  assert (Hp : exists m, before src e = before src s ++ m).
  { exists (skipn (N.to_nat s) (before src e)). unfold before.
    rewrite <- (firstn_skipn (N.to_nat s) (firstn (N.to_nat e) src)) at 1. f_equal.
    rewrite firstn_firstn. f_equal. lia. }
  destruct Hp as (m & Em). unfold line_of, column_of. rewrite Em, newlines_app. split; [lia|].
  intros Hl. assert (Hm : newlines m = 0%nat) by lia.
  destruct (Nat.eq_dec (newlines (before src s)) 0) as [Hz|Hz].
  - rewrite !last_line_none by (rewrite ?newlines_app; lia). rewrite app_length. lia.
  - destruct (split_nl (before src s) (newlines (before src s) - 1)) as (p & q & Eb & En); [lia|].
    rewrite Eb in *. rewrite newlines_app in *. simpl in *. rewrite <- app_assoc. simpl.
    rewrite !last_line_app by (rewrite ?newlines_app; lia). rewrite app_length. lia.
Qed.

Print Assumptions C13_resolve.
Print Assumptions C13_resolve_span.
