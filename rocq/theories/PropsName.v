(** C65: the name given to [parse] is only a label, and the freedom of the
    unstable sort shows only among locations with a shared path. *)
From Coq Require Import Permutation Sorted.
From Verif Require Import Base Utf8 Errors Lex Ast Comments Parse Lines Descriptor Generate ParseApi Stream Grammar Walk WalkG3 Meaning AstWfG GenProofs PropsParse PropsLoc PathSpec PropsPath PropsErr.

(** A descriptor, or an error, of a file with another name. *)
Definition named_desc (name : bytes) (d : file_desc) : file_desc :=
  {| d_name := Some name; d_package := d_package d; d_dependency := d_dependency d; d_public := d_public d; d_weak := d_weak d; d_message := d_message d; d_enum := d_enum d;
     d_service := d_service d; d_extension := d_extension d; d_options := d_options d; d_source_info := d_source_info d; d_syntax := d_syntax d |}.
Definition named_error (name : bytes) (e : parse_error) : parse_error :=
  {| pe_kind := pe_kind e; pe_related := pe_related e; pe_name := name; pe_source := pe_source e |}.

Definition relabel (name : bytes) (m : G file_desc) : G file_desc :=
  fun p => obind (m p) (fun '(d, p', errs, locs) => Done (named_desc name d, p', errs, locs)).
Lemma bind_relabel {A} name (m : G A) (f g : A -> G file_desc) : (forall a p, g a p = relabel name (f a) p) -> forall p, gbind m g p = relabel name (gbind m f) p.
Proof.
  intros H p. unfold relabel, gbind. destruct (m p) as [[[[a p1] e1] l1]| |]; [|reflexivity|reflexivity]. rewrite H. unfold relabel. destruct (f a p1) as [[[[d p2] e2] l2]| |]; reflexivity.
Qed.
Lemma descriptor_named k ls sy name name' f p : generate_file_descriptor k ls sy name' f p = relabel name' (generate_file_descriptor k ls sy name f) p.
Proof.
  revert p. unfold generate_file_descriptor. apply bind_relabel. intros _. apply bind_relabel. intros package. apply bind_relabel. intros [[deps pub] weak]. apply bind_relabel. intros s. apply bind_relabel. intros _. apply bind_relabel. intros options.
  apply bind_relabel. intros _. apply bind_relabel. intros _ p. reflexivity.
Qed.
Definition renamed (name : bytes) (r : file_desc + parse_error) : file_desc + parse_error := match r with inl d => inl (named_desc name d) | inr e => inr (named_error name e) end.
Lemma parse_renamed k sort name name' src : parse k sort name' src = obind (parse k sort name src) (fun '(r, a) => Done (renamed name' r, a)).
Proof.
  unfold parse. destruct (i32_max <? len src); [reflexivity|]. destruct (parse_file k src) as [[[f|errs] a]| |]; cbn [obind]; [| |reflexivity|reflexivity].
  - unfold generate_file. destruct (lines_new src) as [ls| |]; cbn [obind]; [|reflexivity|reflexivity]. rewrite (descriptor_named k ls _ name name'). unfold relabel.
    destruct (generate_file_descriptor k ls (fi_syntax f) name f []) as [[[[d p] errs] locs]| |]; cbn [obind]; [|reflexivity|reflexivity]. destruct errs as [|e errs]; reflexivity.
  - destruct errs; reflexivity.
Qed.

(** The outcomes for two names are the same up to the name. *)
Theorem C65_name k sort name name' src :
  (forall d a, parse k sort name src = Done (inl d, a) -> d_name d = Some name /\ parse k sort name' src = Done (inl (named_desc name' d), a)) /\
  (forall e a, parse k sort name src = Done (inr e, a) -> pe_name e = name /\ parse k sort name' src = Done (inr (named_error name' e), a)).
Proof.
  rewrite (parse_renamed k sort name name' src). split.
  - intros d a E. rewrite E. cbn [obind renamed]. split; [|reflexivity]. destruct (parse_ok_inv _ _ _ _ _ _ E) as (_ & f & _ & _ & (ls & _ & ->)). reflexivity.
  - intros e a E. split; [|rewrite E; reflexivity]. pose proof (parse_renamed k sort name name src) as R. rewrite E in R. cbn [obind renamed] in R. injection R as R. rewrite R. reflexivity.
Qed.
Print Assumptions C65_name.

(** Two sorting functions. *)
Lemma path_le_anti p : forall q, path_le p q -> path_le q p -> p = q.
Proof. induction p as [|x p IH]; intros [|y q]; cbn [path_le]; try tauto. intros [H|[-> H]] [H'|[E H']]; try lia. f_equal. auto. Qed.
Lemma sorted_paths l : forall l', StronglySorted path_le l -> StronglySorted path_le l' -> Permutation l l' -> l = l'.
Proof.
  induction l as [|x l IH]; intros [|y l'] H H' Hp; auto.
  - apply Permutation_nil in Hp. discriminate.
  - symmetry in Hp. apply Permutation_nil in Hp. discriminate.
  - inversion H as [|? ? H1 H2]; inversion H' as [|? ? H1' H2']; subst. rewrite Forall_forall in H2, H2'. assert (x = y).
    { assert (I1 : In x (y :: l')) by (eapply Permutation_in; [exact Hp|now left]). assert (I2 : In y (x :: l)) by (eapply Permutation_in; [symmetry; exact Hp|now left]).
      destruct I1 as [->|I1]; auto. destruct I2 as [->|I2]; auto. apply path_le_anti; auto. }
    subst y. f_equal. apply IH; auto. eapply Permutation_cons_inv. exact Hp.
Qed.
Lemma sorted_map l : StronglySorted (fun x y => path_le (loc_path x) (loc_path y)) l -> StronglySorted path_le (map loc_path l).
Proof. induction 1 as [|x l H IH F]; cbn; constructor; auto. now apply Forall_map. Qed.

Theorem C65_unstable_sort k sort sort' name src : sorting sort -> sorting sort' ->
  (forall e a, parse k sort name src = Done (inr e, a) -> parse k sort' name src = Done (inr e, a)) /\
  (forall d a, parse k sort name src = Done (inl d, a) -> exists d' locs locs', parse k sort' name src = Done (inl d', a) /\ with_source_info d' None = with_source_info d None /\
     d_source_info d = Some locs /\ d_source_info d' = Some locs' /\ Permutation locs locs' /\ map loc_path locs = map loc_path locs' /\
     forall i x, nth_error locs i = Some x -> ~ shared (loc_path x) -> nth_error locs' i = Some x).
Proof.
  intros Hs Hs'.
  assert (K : parse k sort' name src = obind (parse k sort name src) (fun '(r, a) => match r with inr e => Done (inr e, a) | inl _ => parse k sort' name src end)).
  { unfold parse. destruct (i32_max <? len src); [reflexivity|]. destruct (parse_file k src) as [[[f|errs] a]| |]; cbn [obind]; [| |reflexivity|reflexivity].
    - unfold generate_file. destruct (lines_new src) as [ls| |]; cbn [obind]; [|reflexivity|reflexivity].
      destruct (generate_file_descriptor k ls (fi_syntax f) name f []) as [[[[d p] errs] locs]| |]; cbn [obind]; [|reflexivity|reflexivity]. destruct errs as [|e errs]; reflexivity.
    - destruct errs; reflexivity. }
  split; [intros e a E; rewrite K, E; reflexivity|]. clear K. intros d a E.
  assert (K : exists d0 l0, d = with_source_info d0 (Some (sort l0)) /\ parse k sort' name src = Done (inl (with_source_info d0 (Some (sort' l0))), a)).
  { revert E. unfold parse. destruct (i32_max <? len src); [discriminate|]. destruct (parse_file k src) as [[[f|errs] a0]| |]; cbn [obind]; [| |discriminate|discriminate].
    - unfold generate_file. destruct (lines_new src) as [ls| |]; cbn [obind]; [|discriminate|discriminate].
      destruct (generate_file_descriptor k ls (fi_syntax f) name f []) as [[[[d0 p] errs] locs]| |]; cbn [obind]; [|discriminate|discriminate]. destruct errs as [|e errs]; cbn [obind].
      + intros E. injection E as <- <-. eauto.
      + destruct (parse_error_new (e :: errs) name src); cbn [obind]; discriminate.
    - destruct (parse_error_new errs name src); cbn [obind]; discriminate. }
  destruct K as (d0 & l0 & -> & E'). exists (with_source_info d0 (Some (sort' l0))), (sort l0), (sort' l0). split; [exact E'|]. split; [reflexivity|]. split; [reflexivity|]. split; [reflexivity|].
  destruct (Hs l0) as [P1 S1]. destruct (Hs' l0) as [P2 S2]. assert (Hp : Permutation (sort l0) (sort' l0)) by (rewrite <- P1; exact P2).
  assert (Em : map loc_path (sort l0) = map loc_path (sort' l0)) by (apply sorted_paths; [now apply sorted_map|now apply sorted_map|now apply Permutation_map]).
  split; [exact Hp|]. split; [exact Em|]. intros i x Hi Hn. destruct (C57_distinct_paths _ _ _ _ _ _ Hs' E') as (locs & El & Hd). cbn in El. injection El as <-.
  assert (Hx : In x (sort' l0)) by (eapply Permutation_in; [exact Hp|eapply nth_error_In, Hi]). apply In_nth_error in Hx. destruct Hx as (j & Hj).
  assert (i = j) as ->; [|exact Hj]. apply (Hd i j (loc_path x)); [rewrite <- Em, nth_error_map, Hi; reflexivity|rewrite nth_error_map, Hj; reflexivity|exact Hn].
Qed.
Print Assumptions C65_unstable_sort.

(** The hypotheses are met by two sorting functions that do give different lists; the names differ. *)
Definition rev_sort (l : list location) : list location := loc_sort (rev l).
Lemma rev_sorting : sorting rev_sort.
Proof. intros l. destruct (loc_sort_sorting (rev l)) as [H1 H2]. split; [rewrite <- H1; apply Permutation_rev|exact H2]. Qed.
Example C65_example : ok_result ex_shared = true /\
  match parse ex_k0 loc_sort (b "a.proto") ex_shared, parse ex_k0 rev_sort (b "a.proto") ex_shared with
  | Done (inl d, _), Done (inl d', _) => match d_source_info d, d_source_info d' with
      | Some l, Some l' => (map loc_span l <> map loc_span l') /\ map loc_path l = map loc_path l' | _, _ => False end
  | _, _ => False end.
Proof. vm_compute. repeat split; try discriminate; intros H; discriminate H. Qed.
Example C65_name_example : exists d a, parse ex_k0 loc_sort (b "a.proto") ex_shared = Done (inl d, a) /\ d_name (named_desc (b "b.proto") d) = Some (b "b.proto").
Proof. destruct (parse ex_k0 loc_sort (b "a.proto") ex_shared) as [[[d|e] a]| |] eqn:E; [eexists _, _; split; reflexivity| | |]; exfalso; revert E; vm_compute; discriminate. Qed.
