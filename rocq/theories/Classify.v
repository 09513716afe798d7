(** The classification functions of the parser (Parse.v) agree with the words and
    tables of the grammar (Grammar.v). *)
From Verif Require Import Base Utf8 Utf8Spec Errors Lex Ast Parse Paths Grammar.

Lemma token_eqb_eq x y : token_eqb x y = true <-> x = y.
Proof.
  destruct x, y; cbn; try (split; [discriminate|congruence]); try (split; reflexivity).
  all: try (rewrite bytes_eqb_eq; split; congruence). rewrite N.eqb_eq. split; congruence.
Qed.
Lemma token_eqb_refl x : token_eqb x x = true.
Proof. now apply token_eqb_eq. Qed.

Lemma is_alpha_iff c : is_alpha c = true <-> letter c.
Proof. unfold is_alpha, is_upper, is_lower, letter. now rewrite Bool.orb_true_iff, !in_range_true. Qed.
Lemma word_char_iff c : is_alnum c || (c =? 95) = true <-> word_char c.
Proof. unfold is_alnum, is_digit, word_char. rewrite !Bool.orb_true_iff, in_range_true, is_alpha_iff, N.eqb_eq. tauto. Qed.
Lemma word_chars r : forallb (fun c => is_alnum c || (c =? 95)) r = true <-> Forall word_char r.
Proof. rewrite forallb_forall, Forall_forall. split; intros H x Hx; apply word_char_iff; auto. Qed.
Lemma ident_iff v : is_valid_ident v = true <-> word v.
Proof.
  unfold is_valid_ident, word. destruct v as [|c r]; [split; [discriminate|]; intros (? & ? & ? & _); discriminate|].
  rewrite Bool.andb_true_iff, is_alpha_iff, word_chars. split; [eauto|]. intros (? & ? & [= <- <-] & H); auto.
Qed.
Lemma group_name_iff v : is_valid_group_name v = true <-> capitalised v.
Proof.
  unfold is_valid_group_name, capitalised. destruct v as [|c r]; [split; [discriminate|]; intros (? & ? & ? & _); discriminate|].
  unfold is_upper. rewrite Bool.andb_true_iff, in_range_true, word_chars. split; [eauto|]. intros (? & ? & [= <- <-] & H); auto.
Qed.
Lemma scalar_of_some s t : scalar_of s = Some t <-> In (s, t) scalar_names.
Proof.
  unfold scalar_of, scalar_names. cbn [In]. split.
  - repeat match goal with |- context [bytes_eqb s ?x] => destruct (bytes_eqb s x) eqn:E; [apply bytes_eqb_eq in E; subst s; intros [= <-]; tauto|clear E] end. discriminate.
  - intros H. repeat (destruct H as [H|H]; [injection H as <- <-; reflexivity|]). destruct H.
Qed.
Lemma scalar_of_none s : scalar_of s = None <-> ~ In s (map fst scalar_names).
Proof.
  split.
  - intros H Hi. apply in_map_iff in Hi. destruct Hi as ((x & t) & <- & Hi). apply scalar_of_some in Hi. cbn [fst] in H. congruence.
  - intros H. destruct (scalar_of s) as [t|] eqn:E; [|reflexivity]. apply scalar_of_some in E. destruct H. apply in_map_iff. now exists (s, t).
Qed.
Lemma label_of_some t l : label_of t = Some l <-> exists s, t = TIdent s /\ In (s, l) label_names.
Proof.
  unfold label_of, label_names. cbn [In]. split.
  - repeat match goal with |- context [token_eqb t ?x] => destruct (token_eqb t x) eqn:E; [apply token_eqb_eq in E; subst t; intros [= <-]; eexists; split; [reflexivity|tauto]|clear E] end. discriminate.
  - intros (s & -> & H). repeat (destruct H as [H|H]; [injection H as <- <-; reflexivity|]). destruct H.
Qed.
(** [is_valid_import] accepts exactly the relative paths made of safe components. *)
Lemma split_on_ne l : split_on 47 l <> [].
Proof. destruct l as [|c r]; cbn; [discriminate|]. destruct (c =? 47); [discriminate|]. destruct (split_on 47 r); discriminate. Qed.
Lemma split_on_join l : join_slash (split_on 47 l) = l.
Proof.
  induction l as [|c r IH]; [reflexivity|]. cbn [split_on]. pose proof (split_on_ne r) as Hn. destruct (c =? 47) eqn:E.
  - apply N.eqb_eq in E. subst c. destruct (split_on 47 r) eqn:Er; [congruence|]. cbn [join_slash app]. unfold slash. f_equal. exact IH.
  - destruct (split_on 47 r) as [|x xs] eqn:Er; [congruence|]. destruct xs; cbn [join_slash app] in *; f_equal; exact IH.
Qed.
Lemma split_on_no l : Forall (fun s => ~ In 47 s) (split_on 47 l).
Proof.
  induction l as [|c r IH]; cbn [split_on]; [constructor; auto|]. destruct (c =? 47) eqn:E; [constructor; auto|].
  destruct (split_on 47 r) as [|x xs]; inversion IH; subst; constructor; auto; apply N.eqb_neq in E; cbn; intuition.
Qed.
Lemma split_on_unique ns : ns <> [] -> Forall (fun s => ~ In 47 s) ns -> split_on 47 (join_slash ns) = ns.
Proof.
  induction ns as [|s ns IH]; [congruence|]. intros _ H. inversion H; subst. clear H.
  assert (G : forall t, ~ In 47 s -> split_on 47 (s ++ 47 :: t) = s :: split_on 47 t).
  { clear. induction s as [|c s IH]; intros t Hs; cbn [app split_on]; [reflexivity|]. destruct (c =? 47) eqn:E; [apply N.eqb_eq in E; subst; destruct Hs; now left|]. rewrite IH; auto. intros Hc. apply Hs. now right. }
  assert (G1 : ~ In 47 s -> split_on 47 s = [s]).
  { clear. induction s as [|c s IH]; intros Hs; cbn [split_on]; [reflexivity|]. destruct (c =? 47) eqn:E; [apply N.eqb_eq in E; subst; destruct Hs; now left|]. rewrite IH; auto. intros Hc. apply Hs. now right. }
  destruct ns as [|y ns]; cbn [join_slash]; [auto|]. cbn [app]. unfold slash. rewrite G by auto. f_equal. apply IH; auto. discriminate.
Qed.
Lemma valid_import_iff v : is_valid_import v = true <-> relative_path v.
Proof.
  unfold is_valid_import, relative_path. split.
  - intros H. apply andb_prop in H. destruct H as [H _]. exists (split_on 47 v). split; [apply split_on_ne|]. split; [|symmetry; apply split_on_join].
    rewrite forallb_forall in H. pose proof (split_on_no v) as Hn. rewrite Forall_forall in *. intros s Hs. specialize (H s Hs). specialize (Hn s Hs).
    repeat (apply andb_prop in H; destruct H as [H ?]). apply Bool.negb_true_iff in H, H0, H1, H2. unfold safe_component. apply bytes_eqb_neq in H0, H1. repeat split; auto.
    + intros ->. discriminate.
    + intros Hi. apply Bool.not_true_iff_false in H2. apply H2. apply existsb_exists. exists 92. split; auto.
  - intros (ns & Hn & Hs & ->). rewrite split_on_unique; auto; [|eapply Forall_impl; [|exact Hs]; intros s Hx; apply Hx]. apply andb_true_intro. split.
    + apply forallb_forall. intros s Hi. rewrite Forall_forall in Hs. destruct (Hs s Hi) as (H1 & H2 & H3 & H4 & H5).
      rewrite (proj2 (bytes_eqb_neq s _) H2), (proj2 (bytes_eqb_neq s _) H3). destruct s as [|c s]; [congruence|]. cbn [length Nat.eqb negb andb]. rewrite !Bool.andb_true_r.
      apply Bool.negb_true_iff. apply Bool.not_true_iff_false. intros Hx. apply existsb_exists in Hx. destruct Hx as (x & Hx1 & Hx2). apply N.eqb_eq in Hx2. subst x. auto.
    + destruct ns as [|s ns]; [congruence|]. inversion Hs; subst. destruct H1 as (H1 & _ & _ & H4 & _). destruct s as [|c s]; [congruence|].
      apply Bool.negb_true_iff. unfold head_is. destruct ns; cbn [join_slash app]; apply N.eqb_neq; intros ->; apply H4; now left.
Qed.

