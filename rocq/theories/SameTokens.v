(** Lemmas for C05: accepted texts with equal tokens have a common respelling. *)
From Coq Require Import ZifyBool ZifyN.
From Verif Require Import Base SynSpec Utf8 Errors Lex Ast Comments Parse Lines Descriptor Generate ParseApi LexSpec PropsLex1 LexSafe Stream PropsLex Utf8Spec StrSpec PropsStr CommentSpec PropsComment.
From Verif Require Import Grammar Walk WalkG3 Meaning Erase AstWfG GenProofs PropsParse Complete1 Complete2 Complete3 PropsComplete PropsTokens PropsAggregate SpaceSpec Insert.

(** In mode [m] the text [s], followed by nothing or a blank, is the token [t]. *)
Definition spells (k : cfg) (m : bool) (t : token) (s : bytes) : Prop :=
  forall rest pos, gap rest -> exists s', lex_next k (canon m (s ++ rest) pos) = Done (Some (Some t), s') /\ l_rest s' = rest /\ l_errs s' = [].

Lemma float_scan ideal s rest : (exists r, In (r, KFloat) patterns /\ matches r s) -> gap rest -> exists c s0, s = c :: s0 /\ is_skip c = false /\ scan ideal (s ++ rest) = (KFloat, s).
Proof.
  intros (r & Hi & Hm) G. destruct s as [|c s].
  { exfalso. pose proof (C07_scan_longest [32]) as H. specialize (H ltac:(discriminate)). change (scan true [32]) with (KErr, [32]) in H. cbn [fst snd] in H. destruct H as [[_ [_ H]]|[(r0 & H & _) _]].
    - apply (H r KFloat [] [32] Hi Hm). reflexivity.
    - unfold patterns in H. cbn [In] in H. repeat (destruct H as [H|H]; [discriminate H|]). destruct H. }
  assert (Et : scan true (c :: s) = (KFloat, c :: s)).
  { destruct (scan true (c :: s)) as [kd sl] eqn:E. pose proof (C07_scan_longest (c :: s) ltac:(discriminate)) as H. rewrite E in H. cbn [fst snd] in H. destruct H as [[_ [_ H]]|[_ [(y & Ey) H]]].
    - exfalso. apply (H r KFloat (c :: s) [] Hi Hm). symmetry. apply app_nil_r.
    - destruct (H r KFloat (c :: s) [] Hi Hm (eq_sym (app_nil_r _))) as [Hx|[Hx Hk]]; [|now subst]. exfalso. apply (f_equal (@length _)) in Ey. rewrite app_length in Ey. lia. }
  assert (Eg : scan true (c :: s ++ rest) = (KFloat, c :: s)).
  { apply scan_apart; [|exact Et|discriminate|discriminate]. destruct G as [->|(r' & ->)]; reflexivity. }
  exists c, s. split; [reflexivity|]. split.
  - destruct (is_skip c) eqn:Es; [|reflexivity]. exfalso. revert Et. unfold scan. unfold is_skip in Es.
    assert (Hc : c = 32 \/ c = 9 \/ c = 11 \/ c = 12 \/ c = 13) by lia.
    destruct Hc as [ -> |[ -> |[ -> |[ -> | -> ]]]]; cbn; discriminate.
  - cbn [app]. destruct ideal; [exact Eg|]. rewrite scan_false_eq, Eg. reflexivity.
Qed.
Lemma float_spells k m t s : (exists r, In (r, KFloat) patterns /\ matches r s) -> (forall sp, cb_float m sp s = (t, [])) -> spells k m (TFloat t) s.
Proof.
  intros Hp Hc rest pos G. destruct (float_scan (munch_ideal k) s rest Hp G) as (c & s0 & Es & Hk & Hs). rewrite Es in Hs |- *. cbn [app] in Hs |- *.
  pose proof (lex_blanks k m [] c (s0 ++ rest) pos (Forall_nil _) Hk) as E. cbn [app] in E. rewrite E, Hs. cbv beta iota zeta. rewrite <- Es, Hc. eexists. split; [reflexivity|]. cbn [l_rest l_errs]. split; [|reflexivity].
  rewrite Es. cbn [length skipn]. apply skip_app.
Qed.
Definition f_ending (s : bytes) : Prop := exists v c, s = v ++ [c] /\ (c = N_of_ascii "f" \/ c = N_of_ascii "F").
Lemma cb_plain m s sp : ~ f_ending s -> cb_float m sp s = (s, []).
Proof.
  intros H. unfold cb_float. destruct (rev s) as [|f rv] eqn:E; [reflexivity|]. destruct ((f =? 102) || (f =? 70)) eqn:Ef; [|reflexivity]. exfalso. apply H. apply (f_equal (@rev _)) in E. rewrite rev_involutive in E. cbn [rev] in E.
  exists (rev rv), f. split; [exact E|]. change (N_of_ascii "f") with 102. change (N_of_ascii "F") with 70. lia.
Qed.
Lemma cb_suffix v c sp : c = N_of_ascii "f" \/ c = N_of_ascii "F" -> cb_float true sp (v ++ [c]) = (v, []).
Proof.
  intros H. unfold cb_float. rewrite rev_app_distr. cbn [rev app]. change (N_of_ascii "f") with 102 in H. change (N_of_ascii "F") with 70 in H. replace ((c =? 102) || (c =? 70)) with true by lia. now rewrite rev_involutive.
Qed.
Lemma plain_spells k m t : PropsAggregate.plain k t -> (forall x, t <> TFloat x) -> spells k m t (token_display k t).
Proof.
  intros Hp Hf rest pos G. destruct (relex k t (canon m (token_display k t ++ rest) pos) rest Hp G eq_refl) as (t' & s' & E & E1 & E2 & _ & Es). destruct Es as [ <- |(x & y & -> & _)]; [eauto|destruct (Hf x eq_refl)].
Qed.

(** A token written in two texts has a spelling that does for both. *)
Lemma common_spelling k m1 m2 t s1 s2 n1 n2 : is_trivia t = false -> written k m1 t s1 n1 -> written k m2 t s2 n2 -> exists s, spells k m1 t s /\ spells k m2 t s.
Proof.
  intros Ht H1 H2. destruct t as [v|n|x|v| | | | | | | | | | | | | | | | | | |]; cbn [written] in H1, H2; try discriminate Ht;
    try (match goal with |- exists s, spells _ _ ?u s /\ _ => exists (token_display k u); split; apply plain_spells; [exact I|discriminate|exact I|discriminate] end).
  - destruct H1 as (-> & H & _). exists (token_display k (TIdent s1)). split; apply plain_spells; try exact H; discriminate.
  - assert (Hn : n < 2 ^ 64) by (destruct H1 as [(_ & H & _)|(_ & -> & _)]; [exact H|reflexivity]). exists (token_display k (TInt n)). split; apply plain_spells; try exact Hn; discriminate.
  - destruct H1 as [P1 [[E1 F1]|[M1 (c1 & E1 & F1)]]].
    + exists s1. subst x. split; apply float_spells; auto; intros sp; now apply cb_plain.
    + destruct H2 as [P2 [[E2 F2]|[M2 (c2 & E2 & F2)]]].
      * exists s2. subst x. split; apply float_spells; auto; intros sp; now apply cb_plain.
      * exists s1. subst m1 m2. split; apply float_spells; auto; intros sp; rewrite E1; now apply cb_suffix.
  - destruct H1 as (q & body & -> & Hq & Hd). exists (q :: body ++ [q]).
    assert (K : forall m, spells k m (TStr v) (q :: body ++ [q])).
    { intros m rest pos G. destruct (C10_string_complete k (canon m ((q :: body ++ [q]) ++ rest) pos) q body v rest Hq Hd) as (s' & E & E1 & E2 & _); [cbn [canon l_rest app]; now rewrite <- app_assoc|]. eauto. }
    split; apply K.
Qed.

Definition text_of (ss : list bytes) : bytes := flat_map (fun s => 32 :: s) ss.
Lemma text_gap ss : gap (text_of ss). Proof. destruct ss; [now left|right]. cbn. eauto. Qed.
Lemma spells_blank k m t s : spells k m t s -> forall rest pos, gap rest -> exists s', lex_next k (canon m (32 :: s ++ rest) pos) = Done (Some (Some t), s') /\ l_rest s' = rest /\ l_errs s' = [].
Proof.
  intros H rest pos G. destruct (H rest (pos + 1) G) as (s' & E & E1 & E2).
  destruct (lx_same _ _ _ _ (lexes_det _ _ _ _ E) {| l_rest := s ++ rest; l_start := pos; l_end := pos + 1; l_errs := []; l_tfm := m; l_assert := false |} eq_refl eq_refl) as (s2 & F & F1 & _ & _ & F2).
  exists s2. split; [rewrite <- F; exact (lex_blank k (canon m (s ++ rest) pos) (s ++ rest))|]. rewrite F1, F2; auto.
Qed.
Lemma text_lexes k ts : Forall (fun t => is_trivia t = false) ts -> forall ms ss, Forall2 (fun p s => spells k (fst p) (snd p) s) (combine ms ts) ss -> length ms = length ts ->
  forall pos, mclean k ms (text_of ss) pos /\ map fst (sigs (stream k (text_of ss) pos)) = map Some ts.
Proof.
  induction 1 as [|t ts Ht F IH]; intros ms ss H El pos.
  - destruct ms; [|discriminate]. inversion H; subst. cbn [text_of flat_map]. split.
    + eapply mc_end. unfold lex_next. cbn. reflexivity.
    + reflexivity.
  - destruct ms as [|m ms]; [discriminate|]. cbn [combine] in H. inversion H as [|p s ps ss' H1 H2]; subst. cbn [fst snd] in H1. cbn [text_of flat_map]. change (flat_map (fun s => 32 :: s) ss') with (text_of ss').
    destruct (spells_blank k m t s H1 (text_of ss') pos (text_gap ss')) as (s' & E & E1 & E2). change ((32 :: s) ++ text_of ss') with (32 :: s ++ text_of ss'). destruct (IH ms ss' H2 ltac:(cbn in El; congruence) (l_end s')) as [I1 I2]. split.
    + eapply mc_tok; [exact E|exact Ht|exact E2|]. rewrite E1. exact I1.
    + pose proof (lexes_det _ _ _ _ E) as L. destruct (lx_same _ _ _ _ L (canon true (32 :: s ++ text_of ss') pos) eq_refl eq_refl) as (s2 & F1 & F2 & F3 & F4 & _).
      pose proof (stream_step _ _ _ _ F1) as St. cbn [canon l_rest l_end] in St. rewrite St, sigs_cons. unfold significant at 1. cbn [fst]. rewrite Ht. cbn [negb map fst]. rewrite F2, F4, E1, I2. reflexivity.
Qed.

(** Two accepted texts with the same tokens: one text that is clean under the marks of both. *)
Lemma respelling k src1 src2 ts1 ts2 : 
  sigs (stream k src1 0) = map inj ts1 -> mclean k (marks ts1) src1 0 -> sigs (stream k src2 0) = map inj ts2 -> mclean k (marks ts2) src2 0 ->
  map fst (sigs (stream k src1 0)) = map fst (sigs (stream k src2 0)) ->
  exists src3, map fst (sigs (stream k src3 0)) = map (fun x => Some (tk_tok x)) ts1 /\ mclean k (marks ts1) src3 0 /\ mclean k (marks ts2) src3 0.
Proof.
  intros S1 M1 S2 M2 E.
  assert (W1 : Forall (fun x => is_trivia (tk_tok x) = false /\ exists s n, written k (tk_mark x) (tk_tok x) s n) ts1).
  { pose proof (mclean_written k _ _ _ M1 [] eq_refl ts1 S1 eq_refl) as W. rewrite Forall_forall in W |- *. intros x Hx. split; [|destruct (W x Hx) as (? & s & n & _ & _ & H); eauto].
    assert (Hs : significant (inj x) = true) by (apply (sigs_significant (stream k src1 0)); rewrite S1; now apply in_map). unfold significant, inj in Hs. cbn [fst] in Hs. now destruct (is_trivia (tk_tok x)). }
  assert (W2 : Forall (fun x => exists s n, written k (tk_mark x) (tk_tok x) s n) ts2).
  { pose proof (mclean_written k _ _ _ M2 [] eq_refl ts2 S2 eq_refl) as W. rewrite Forall_forall in W |- *. intros x Hx. destruct (W x Hx) as (? & s & n & _ & _ & H); eauto. }
  assert (Et : map tk_tok ts1 = map tk_tok ts2).
  { rewrite S1, S2, !map_map in E. clear - E. revert ts2 E. induction ts1 as [|x ts1 IH]; intros [|y ts2] E; try discriminate; [reflexivity|]. cbn [map] in *. unfold inj in E at 1 3. cbn [fst] in E. injection E as E1 E2. rewrite E1. f_equal. auto. }
  assert (K : exists ss, Forall2 (fun p s => spells k (fst p) (snd p) s) (combine (marks ts1) (map tk_tok ts1)) ss /\ Forall2 (fun p s => spells k (fst p) (snd p) s) (combine (marks ts2) (map tk_tok ts1)) ss).
  { clear - W1 W2 Et. revert ts2 W2 Et. induction W1 as [|x ts1 [Ht (s1 & n1 & H1)] W1 IH]; intros [|y ts2] W2 Et; try discriminate.
    - exists []. split; constructor.
    - cbn [map] in Et. injection Et as Ex Et. destruct (Forall_inv W2) as (s2 & n2 & H2). destruct (IH ts2 (Forall_inv_tail W2) Et) as (ss & I1 & I2). rewrite <- Ex in H2. destruct (common_spelling k _ _ _ _ _ _ _ Ht H1 H2) as (s & K1 & K2).
      exists (s :: ss). cbn [map marks combine]. split; constructor; auto. }
  destruct K as (ss & K1 & K2). exists (text_of ss).
  assert (Ft : Forall (fun t => is_trivia t = false) (map tk_tok ts1)) by (apply Forall_map; eapply Forall_impl; [|exact W1]; cbn; tauto).
  destruct (text_lexes k _ Ft (marks ts1) ss K1) with (pos := 0) as [A1 A2]; [unfold marks; now rewrite !map_length|].
  destruct (text_lexes k _ Ft (marks ts2) ss K2) with (pos := 0) as [B1 _]; [unfold marks; rewrite map_length; rewrite Et; now rewrite map_length|].
  split; [|auto]. rewrite A2, map_map. reflexivity.
Qed.
Lemma same_tokens_same_tree k src1 src2 f1 f2 : accepted k src1 f1 -> accepted k src2 f2 -> map fst (sigs (stream k src1 0)) = map fst (sigs (stream k src2 0)) -> er_file f1 = er_file f2.
Proof.
  intros (ts1 & G1 & S1 & M1) (ts2 & G2 & S2 & M2) E. destruct (respelling k src1 src2 ts1 ts2 S1 M1 S2 M2 E) as (src3 & A & B1 & B2).
  assert (A2 : map fst (sigs (stream k src3 0)) = map (fun x => Some (tk_tok x)) ts2). { rewrite A. rewrite S1, S2, !map_map in E. exact E. }
  destruct (parse_file_complete k src3 _ _ _ G1 (conj A B1)) as (g1 & a1 & P1 & R1). destruct (parse_file_complete k src3 _ _ _ G2 (conj A2 B2)) as (g2 & a2 & P2 & R2). congruence.
Qed.

(** C05: two sources with the same significant tokens (values; layout, comments and
    spelling may differ), both accepted: their descriptors differ in nothing but source info. *)
Theorem C05_both_accepted k sort sort' name src1 src2 d1 d2 a1 a2 :
  parse k sort name src1 = Done (inl d1, a1) -> parse k sort' name src2 = Done (inl d2, a2) ->
  map fst (sigs (stream k src1 0)) = map fst (sigs (stream k src2 0)) -> with_source_info d1 None = with_source_info d2 None.
Proof.
  intros E1 E2 E. destruct (parse_ok_inv _ _ _ _ _ _ E1) as (_ & f1 & H1 & _ & (ls1 & _ & ->)). destruct (parse_ok_inv _ _ _ _ _ _ E2) as (_ & f2 & H2 & _ & (ls2 & _ & ->)).
  pose proof (same_tokens_same_tree k src1 src2 f1 f2 H1 H2 E) as Er. pose proof (er_den k name f2 f1 Er) as Ed. exact Ed.
Qed.
Print Assumptions C05_both_accepted.

(** Both are accepted, and neither is free of errors outside text format: the theorems about one accepted source do not apply. *)
Definition c05_c : bytes := b "option (o) = { x: 1.5 y: 2.5f # c" ++ [10] ++ b "}; message M { }".
Definition c05_d : bytes := b "option (o) = { x: 1.5F y: 2.5 } ; // d" ++ [10] ++ b "message M{}".
Example C05_both_example : ok_result c05_c = true /\ ok_result c05_d = true /\ map fst (sigs (stream ex_k0 c05_c 0)) = map fst (sigs (stream ex_k0 c05_d 0)) /\
  ~ clean ex_k0 false c05_c 0 /\ ~ clean ex_k0 false c05_d 0.
Proof. vm_compute. repeat split; discriminate. Qed.
