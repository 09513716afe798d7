(** C57: a location is found by its path. *)
From Coq Require Import Sorting.Permutation.
From Verif Require Import Base SynSpec Utf8 Errors Lex LexSafe Ast Comments AttachSpec Parse Lines Descriptor Generate ParseApi Stream Grammar Walk WalkG3 Meaning Erase AstWf
  GenProofs AstWfG PropsParse DescSpec PropsDesc LocSpec PropsLoc LocTree PropsTree PathSpec PathOnce.

(** Locations at different places of the list have different paths, unless the path is shared. *)
Definition distinct (l : list (list Z)) : Prop :=
  forall i j p, nth_error l i = Some p -> nth_error l j = Some p -> ~ shared p -> i = j.
Lemma once_distinct l : once l -> distinct l.
Proof.
  induction 1 as [|p l Hp H IH]; intros [|i] [|j] q; cbn [nth_error]; try discriminate; auto.
  - intros [= ->] Hj Hn. apply nth_error_In in Hj. tauto.
  - intros Hj [= ->] Hn. apply nth_error_In in Hj. tauto.
  - intros Hi Hj Hn. f_equal. eapply IH; eauto.
Qed.
Lemma once_in p l : once (p :: l) -> In p l -> shared p.
Proof. intros H. now inversion H. Qed.
Lemma once_perm l l' : Permutation l l' -> once l -> once l'.
Proof.
  induction 1 as [|x l l' Hp IH|x y l|l1 l2 l3 H1 IH1 H2 IH2]; intros H; auto.
  - inversion H as [|? ? Hx Hl]; subst. constructor; [|auto]. intros Hi. apply Hx. eapply Permutation_in; [apply Permutation_sym, Hp|exact Hi].
  - inversion H as [|? ? Hy Hl]; subst. inversion Hl as [|? ? Hx Hl']; subst. constructor; [|constructor; [|exact Hl']].
    + intros [<-|Hi]; [apply Hy; now left|auto].
    + intros Hi. apply Hy. now right.
Qed.
Lemma pa_mk ls l : map loc_path (map (mk ls) l) = pa l.
Proof. rewrite map_map. unfold pa. apply map_ext. intros [[p sp] c]. reflexivity. Qed.

Theorem C57_distinct_paths k sort name src d a : sorting sort -> parse k sort name src = Done (inl d, a) ->
  exists locs, d_source_info d = Some locs /\ distinct (map loc_path locs).
Proof.
  intros Hsort E. destruct (parse_ok_inv _ _ _ _ _ _ E) as (Hn & f & Ha & Hok & (ls & El & Ed)).
  exists (sort (map (mk ls) (l_file k (fi_syntax f) f))). split; [rewrite Ed; reflexivity|]. apply once_distinct.
  destruct (Hsort (map (mk ls) (l_file k (fi_syntax f) f))) as [Hp _]. eapply once_perm; [apply Permutation_map, Hp|]. rewrite pa_mk. apply file_once.
Qed.
Print Assumptions C57_distinct_paths.

(** Elements and their names do not have a shared path. *)
Lemma element_even kd p : element kd p -> Nat.even (length p) = true.
Proof. induction 1; try reflexivity; rewrite app_length, Nat.add_comm; exact IHelement. Qed.
Lemma shared_odd p : shared p -> Nat.even (length p) = false.
Proof.
  intros H. destruct H as [| |? ? H ?|? ? H ?|? H|? H|? H|? H]; try reflexivity; apply element_even in H; rewrite app_length, Nat.add_comm; cbn [length Nat.add]; rewrite Nat.even_succ, <- Nat.negb_even, H; reflexivity.
Qed.
Lemma element_unshared kd p : element kd p -> ~ shared p.
Proof. intros H1 H2. apply element_even in H1. apply shared_odd in H2. congruence. Qed.
Lemma name_unshared p : ~ shared (p ++ [1%Z]).
Proof.
  assert (G : forall q, shared q -> last q 0%Z <> 1%Z); [|intros H; apply G in H; now rewrite last_last in H].
  intros q H. destruct H as [| |? ? ? H|? ? ? H| | | |]; rewrite ?last_last; try discriminate; cbn [In] in H; lia.
Qed.

(** Every part of the file that is not one of the shared lists has exactly one location. *)
Theorem C57_one_location k sort name src d a p e : sorting sort -> parse k sort name src = Done (inl d, a) -> part (is_p2 d) (EFile d) p e -> ~ shared p ->
  exists locs i y, d_source_info d = Some locs /\ nth_error locs i = Some y /\ loc_path y = p /\ forall j x, nth_error locs j = Some x -> loc_path x = p -> j = i.
Proof.
  intros Hs E Hp Hn. destruct (C51_every_part _ _ _ _ _ _ _ _ Hs E Hp) as (locs & y & E1 & Hy & Py & _). destruct (C57_distinct_paths _ _ _ _ _ _ Hs E) as (locs' & E2 & H).
  rewrite E1 in E2. injection E2 as <-. apply In_nth_error in Hy. destruct Hy as (i & Hi). exists locs, i, y. repeat split; auto.
  intros j x Hj Px. apply (H j i p); [now rewrite nth_error_map, Hj; cbn; rewrite Px|now rewrite nth_error_map, Hi; cbn; rewrite Py|exact Hn].
Qed.
Print Assumptions C57_one_location.

(** The message, field, enum, value, oneof, service or method that a path leads to has at most one location, and so does its name. *)
Theorem C57_element_once k sort name src d a kd p : sorting sort -> parse k sort name src = Done (inl d, a) -> element kd p ->
  exists locs, d_source_info d = Some locs /\
    (forall i j x y, nth_error locs i = Some x -> nth_error locs j = Some y -> loc_path x = p -> loc_path y = p -> i = j) /\
    (forall i j x y, nth_error locs i = Some x -> nth_error locs j = Some y -> loc_path x = p ++ [1%Z] -> loc_path y = p ++ [1%Z] -> i = j).
Proof.
  intros Hs E Hk. destruct (C57_distinct_paths _ _ _ _ _ _ Hs E) as (locs & E1 & H). exists locs. split; [exact E1|].
  split; intros i j x y Hi Hj Px Py; (eapply (H i j); [rewrite nth_error_map, Hi; cbn; rewrite Px; reflexivity|rewrite nth_error_map, Hj; cbn; rewrite Py; reflexivity|]); [eapply element_unshared, Hk|apply name_unshared].
Qed.
Print Assumptions C57_element_once.

(** Every shared path is listed twice in some file; the other paths of this file once. *)
Definition ex_shared : bytes :=
  b "option a = 1; option b = 2; message M { option a = 1; option b = 2; reserved 1; reserved 2; reserved 'x'; reserved 'y'; extensions 10; extensions 11; optional int32 f = 3 [json_name = 'q']; " ++
  b "oneof o { option a = 1; option b = 2; int32 g = 4; } extend M { optional M u = 10; } extend M { optional M v = 11; } " ++
  b "enum E { option a = 1; option b = 2; reserved 1; reserved 2; reserved 'x'; reserved 'y'; Z = 0; } } " ++
  b "extend M { optional M u = 10; } extend M { optional M v = 11; } service S { option a = 1; option b = 2; rpc R(M) returns (M) { option a = 1; option b = 2; } }".
Definition times (l : list (list Z)) (p : list Z) : nat := count_occ (list_eq_dec Z.eq_dec) l p.
Definition ex_twice : list (list Z) :=
  [[8]; [7]; [4; 0; 5]; [4; 0; 6]; [4; 0; 7]; [4; 0; 9]; [4; 0; 10]; [4; 0; 4; 0; 3]; [4; 0; 4; 0; 4]; [4; 0; 4; 0; 5]; [4; 0; 8; 0; 2]; [6; 0; 3]; [6; 0; 2; 0; 4]; [4; 0; 2; 0; 10]]%Z.
Example C57_example : ok_result ex_shared = true /\ map (times (loc_paths ex_shared)) ex_twice = repeat 2%nat 14 /\
  forallb (fun p => Nat.eqb (times (loc_paths ex_shared) p) (if in_dec (list_eq_dec Z.eq_dec) p ex_twice then 2 else 1)) (loc_paths ex_shared) = true /\
  length (loc_paths ex_shared) = 112%nat.
Proof. split; [|split; [|split]]; vm_compute; reflexivity. Qed.
Example C57_example_shared : Forall shared ex_twice.
Proof.
  assert (M : element KMessage [4; 0]%Z) by constructor.
  assert (E : element KEnum ([4; 0] ++ [4; 0])%Z) by now constructor.
  assert (S : element KService [6; 0]%Z) by constructor.
  repeat apply Forall_cons; [constructor|constructor|apply (sh_message [4; 0]%Z 5%Z M)|apply (sh_message [4; 0]%Z 6%Z M)|apply (sh_message [4; 0]%Z 7%Z M)|apply (sh_message [4; 0]%Z 9%Z M)|apply (sh_message [4; 0]%Z 10%Z M)|
    apply (sh_enum _ 3%Z E)|apply (sh_enum _ 4%Z E)|apply (sh_enum _ 5%Z E)|apply (sh_oneof [4; 0; 8; 0]%Z), (el_oneof [4; 0]%Z), M|apply (sh_service _ S)|apply (sh_method ([6; 0] ++ [2; 0])%Z), el_method, S|
    apply (sh_json [4; 0; 2; 0]%Z), (el_field [4; 0]%Z), M|constructor]; cbn; tauto.
Qed.
