(** A file with a second package declaration at its very end: the parser
    reports that, and nothing else. *)
From Coq Require Import ZifyBool ZifyN.
From Verif Require Import Base SynSpec Utf8 Errors Lex LexSpec PropsLex1 LexSafe Stream Ast Comments Parse Grammar Utf8Spec Classify Walk WalkG1 WalkG3 Meaning Erase Complete1 Complete2 Complete3 Kept Keeps.
Import Parse.

(** [s2] is [s], but with the errors [e]. *)
Definition twin (e : list perr) (s s2 : pst) : Prop :=
  p_peek s2 = p_peek s /\ p_cm s2 = p_cm s /\ rest_of s2 = rest_of s /\ l_start (p_lex s2) = l_start (p_lex s) /\ pos_of s2 = pos_of s /\ tfm s2 = tfm s /\ errs s2 = e.
(** If [m] reports nothing, it does the same beside other errors. *)
Definition same {A} (m : P A) : Prop := forall e s s2, twin e s s2 -> match m s with POk a s' => errs s' = [] -> exists s2', m s2 = POk a s2' /\ twin e s' s2' | _ => True end.
Lemma same_ret {A} (a : A) : same (ret a).
Proof. intros e s s2 H _. exists s2. auto. Qed.
Lemma same_fail {A} : same (@fail A).
Proof. intros e s s2 H. exact I. Qed.
Lemma same_bind {A B} (m : P A) (f : A -> P B) : same m -> (forall a, keeps (f a)) -> (forall a, same (f a)) -> same (bind m f).
Proof.
  intros Hm Hk Hf e s s2 H. unfold bind. specialize (Hm e s s2 H). destruct (m s) as [a s'|s'| |]; auto. specialize (Hk a s'). specialize (Hf a e s'). destruct (f a s') as [c t|t| |]; auto.
  intros Ht. destruct Hm as (s2' & E2 & H2).
  - destruct (errs s') as [|x l] eqn:E; [reflexivity|]. exfalso. exact (keptx_more _ _ (Hk ltac:(discriminate)) ltac:(discriminate) Ht).
  - rewrite E2. destruct (Hf s2' H2 Ht) as (t2 & E3 & H3). eauto.
Qed.
Lemma same_get {B} (f : pst -> P B) : (forall s, keeps (f s)) -> (forall e s s2, twin e s s2 -> forall a s', f s s = POk a s' -> errs s' = [] -> exists s2', f s2 s2 = POk a s2' /\ twin e s' s2') -> same (bind get f).
Proof. intros _ H e s s2 Hs. unfold bind, get. specialize (H e s s2 Hs). destruct (f s s) as [a s'|s'| |]; auto. Qed.
Lemma same_loop {A B} (f : A -> P (A + B)) : (forall a, keeps (f a)) -> (forall a, same (f a)) -> forall a, same (loop f a).
Proof.
  intros Hk H. assert (Hkl : forall n a, keeps (loopf n f a)). { induction n as [|n IH]; intros a; [intros s _; exact I|]. cbn [loopf]. apply keeps_bind; [apply Hk|]. intros [a2|v]; [apply IH|kall]. }
  assert (G : forall n a, same (loopf n f a)).
  { induction n as [|n IH]; intros a; [intros e s s2 _; exact I|]. cbn [loopf]. apply same_bind; [apply H| |].
    - intros [a'|v]; [apply Hkl|kall].
    - intros [a'|v]; [apply IH|apply same_ret]. }
  intros a e s s2 Hs. unfold loop. replace (measure s2) with (measure s); [now apply G|]. unfold measure. destruct Hs as (-> & _ & -> & _). reflexivity.
Qed.
Lemma same_next k : same (next_ k).
Proof.
  intros e s s2 Hs. unfold next_, bind, get, dassert, lexer_next, lexer_span, add_error, ret.
  destruct Hs as (T1 & T2 & T3 & T4 & T5 & T6 & T7).
  set (u := set_lex s (with_assert (p_lex s) (l_assert (p_lex s) || negb (negb (is_some (p_peek s)))))). set (u2 := set_lex s2 (with_assert (p_lex s2) (l_assert (p_lex s2) || negb (negb (is_some (p_peek s2)))))).
  destruct (lex_next k (p_lex u)) as [[r l]| |] eqn:E; auto. pose proof (lexes_det _ _ _ _ E) as L.
  assert (Hu : l_rest (p_lex u2) = l_rest (p_lex u) /\ l_end (p_lex u2) = l_end (p_lex u) /\ l_tfm (p_lex u2) = l_tfm (p_lex u) /\ l_errs (p_lex u2) = e) by (cbn; auto). destruct Hu as (U1 & U2 & U3 & U4).
  destruct (lx_same _ _ _ _ L (p_lex u2) U1 U2) as (l2 & E2 & L1 & L2 & L3 & L4).
  pose proof (lx_tfm _ _ _ _ (lexes_det _ _ _ _ E2)) as L5. pose proof (lx_tfm _ _ _ _ L) as L6.
  assert (Hfin : l_errs l = [] -> twin e (set_lex u l) (set_lex u2 l2)).
  { intros He. unfold twin. cbn [set_lex p_peek p_cm p_lex]. split; [exact T1|]. split; [exact T2|]. split; [exact L1|]. split; [exact L2|]. split; [exact L3|]. split; [congruence|]. rewrite <- U4. apply L4; [exact He|]. congruence. }
  destruct r as [[t|]|].
  - intros He. rewrite E2. cbn [set_lex p_lex] in *. rewrite L2, L3. eexists. split; [reflexivity|]. apply Hfin, He.
  - cbn [set_lex set_cm with_errs p_lex l_errs]. intros He. exfalso. apply app_eq_nil in He. destruct He as [_ He]. discriminate He.
  - intros He. rewrite E2. eexists. split; [reflexivity|]. apply Hfin, He.
Qed.
Lemma same_setpeek x : same (fun s => POk tt (set_peek s x)).
Proof. intros e s s2 (T1 & T2 & T3 & T4 & T5 & T6 & T7) He. eexists. split; [reflexivity|]. unfold twin. cbn. auto 8. Qed.
Lemma same_peek_of {B} (f : option (option (token * span)) -> P B) : (forall x, same (f x)) -> same (s <- get ;; f (p_peek s)).
Proof. intros H e s s2 Hs. unfold bind, get. rewrite (proj1 Hs). apply H, Hs. Qed.
Lemma same_peek_comments k : same (peek_comments k).
Proof.
  unfold peek_comments. apply (same_peek_of (fun x => (match x with None => x <- next_ k ;; (fun s => POk tt (set_peek s x)) | Some _ => ret tt end) ;;; s <- get ;; match p_peek s with None => ret None | Some (Some ts) => ret (Some ts) | Some None => fail end)).
  intros x. apply same_bind.
  - destruct x; [apply same_ret|]. apply same_bind; [apply same_next|intros y; kall|apply same_setpeek].
  - intros _. kall.
  - intros _. apply (same_peek_of (fun y => match y with None => ret None | Some (Some ts) => ret (Some ts) | Some None => fail end)). intros [[ts|]|]; [apply same_ret|apply same_fail|apply same_ret].
Qed.
Lemma same_bump : same bump.
Proof.
  unfold bump. apply (same_peek_of (fun x => match x with Some (Some (t, sp)) => (fun s => POk tt (set_peek (if is_trivia t then s else set_cm s c_reset) None)) ;;; ret sp | _ => panic end)).
  intros [[[t sp]|]|]; [|intros e s s2 _; exact I|intros e s s2 _; exact I]. apply same_bind; [|intros _; kall|intros _; apply same_ret].
  intros e s s2 (T1 & T2 & T3 & T4 & T5 & T6 & T7) He. eexists. split; [reflexivity|]. unfold twin. destruct (is_trivia t); cbn; auto 8.
Qed.
Lemma same_cm f : same (cm f).
Proof.
  intros e s s2 (T1 & T2 & T3 & T4 & T5 & T6 & T7). unfold cm. rewrite T2. destruct (f (p_cm s)) as [c ok]. unfold dassert. intros He. eexists. split; [reflexivity|]. unfold twin. cbn. auto 8.
Qed.
Lemma same_span {B} (f : span -> P B) : (forall x, same (f x)) -> same (sp <- lexer_span ;; f sp).
Proof. intros H e s s2 Hs. unfold bind, lexer_span. destruct Hs as (T1 & T2 & T3 & T4 & T5 & T6 & T7). rewrite T4, T5. apply H. unfold twin. auto 8. Qed.
Ltac ks := kall; auto using quiet_keeps, quiet_peek_comments, quiet_peek_loop, quiet_peek_skip.
Ltac sames := repeat first [apply same_ret | apply same_fail | apply same_bump | apply same_cm | apply same_peek_comments | (apply same_bind; [|intros; ks|intros])
  | (apply same_loop; [intros; ks|intros]) | match goal with |- same (match ?x with _ => _ end) => destruct x end].
Lemma same_peek k : same (peek k).
Proof.
  assert (Hl : same (peek_loop k)) by (unfold peek_loop; sames). assert (Hs : same (peek_skip_comments k)) by (unfold peek_skip_comments; sames).
  unfold peek. apply same_span. intros sp. destruct ((s_start sp =? 0) && (s_end sp =? 0)); [exact Hl|]. sames; auto.
Qed.

Section Dup.
Variable k : cfg.
Variable src : bytes.
Context {CS : comspec}.
Notation rem := (remg k src false).
Notation go m s Q := (wpe m s nope Q).

Definition duplicate (es : list perr) : Prop := exists x y, es = [DuplicatePackage x y].
Lemma dup_loop_go fuel l0 p ts0 tp f0 s (Q : file -> pst -> Prop) : length (flat_map st_packages l0) = 1%nat -> g_many (g_statement k) ts0 l0 -> g_statement k tp (StPackage p) -> (measure s < S fuel)%nat -> rem (ts0 ++ tp) s ->
  fi_package f0 = None -> (forall f s', duplicate (errs s') -> Q f s') -> go (loop (file_step k fuel) f0) s Q.
Proof.
  intros Hl G Gp HN H F HQ.
  apply (loop_wpe _ (fun f s' => (measure s' <= measure s)%nat /\ ((exists ts l, g_many (g_statement k) ts l /\ length (pkgs f ++ flat_map st_packages l) = 1%nat /\ rem (ts ++ tp) s') \/ (exists s0 e, rem [] s0 /\ duplicate e /\ twin e s0 s')))).
  2:{ split; [auto|]. left. exists ts0, l0. split; [exact G|]. split; [|exact H]. unfold pkgs. rewrite F. exact Hl. }
  clear f0 F H l0 ts0 Hl G. intros f s1 (M1 & [(ts & l & G & Hl & H)|(s0 & e & H0 & He & Htw)]).
  - destruct G as [|ts1 x ts2 l Gx G].
    + cbn [app flat_map] in *. rewrite app_nil_r in Hl. unfold file_step, wpe at 1.
      assert (K : go (parse_statement k fuel) s1 (fun r s' => exists x', r = Some x' /\ er_statement x' = er_statement (StPackage p) /\ rem [] s' /\ (measure s' < measure s1)%nat)).
      { eapply (statement_go k src fuel tp (StPackage p) []); [exact Gp|apply mark0_nil|lia|rewrite app_nil_r; exact H|]. intros x' s6 E6 H6 M6. eauto 6. }
      unfold wpe in K at 1. destruct (parse_statement k fuel s1) as [r s6|s6| |]; try contradiction. destruct K as (x' & -> & E & H6 & M6).
      assert (Hp' : exists p', x' = StPackage p') by (destruct x'; cbn in E; try discriminate E; eauto). destruct Hp' as (p' & ->).
      unfold pkgs in Hl. unfold add_statement. cbn [fi_package]. destruct (fi_package f) as [old|] eqn:Ef; [|cbn in Hl; discriminate Hl]. unfold bind, add_error, ret.
      cbn [set_lex with_errs p_lex l_errs p_peek l_rest]. split; [split|].
      * unfold measure in *. cbn [set_lex with_errs p_lex l_errs p_peek l_rest]. lia.
      * right. exists s6. eexists. split; [exact H6|]. split; [|unfold twin; cbn [set_lex with_errs p_lex p_peek p_cm l_errs l_rest l_start l_end l_tfm]; split; [reflexivity|]; split; [reflexivity|]; split; [reflexivity|]; split; [reflexivity|]; split; [reflexivity|]; split; reflexivity].
        assert (E6 : errs s6 = []) by apply H6. rewrite E6. eexists. eexists. reflexivity.
      * unfold measure in *. cbn [set_lex with_errs p_lex l_errs p_peek l_rest]. lia.
    + rewrite <- app_assoc in H. unfold file_step, wpe at 1.
      assert (K : go (parse_statement k fuel) s1 (fun r s' => exists x', r = Some x' /\ er_statement x' = er_statement x /\ rem (ts2 ++ tp) s' /\ (measure s' < measure s1)%nat)).
      { eapply (statement_go k src fuel); [exact Gx| |lia|exact H|]; [|intros x' s6 E6 H6 M6; eauto 6].
        apply mark0_app; [eapply mark0_many; [apply mark0_statement|exact G]|eapply mark0_statement; exact Gp]. }
      unfold wpe in K at 1. destruct (parse_statement k fuel s1) as [r s6|s6| |]; try contradiction. destruct K as (x' & -> & E & H6 & M6).
      destruct (st_er _ _ E) as (T1 & _). apply (f_equal (@length _)) in T1. rewrite !map_length in T1. cbn [flat_map] in Hl. rewrite !app_length in Hl.
      match goal with |- match ?m s6 with _ => _ end => enough (KK : go m s6 (fun r s' => match r with inl a => ((measure s' <= measure s)%nat /\ ((exists ts l, g_many (g_statement k) ts l /\ length (pkgs a ++ flat_map st_packages l) = 1%nat /\ rem (ts ++ tp) s') \/ (exists s0 e, rem [] s0 /\ duplicate e /\ twin e s0 s'))) /\ (measure s' < measure s1)%nat | inr _ => False end)) end.
      { unfold wpe in KK. destruct ((f' <- add_statement f x';; ret (inl f')) s6) as [[a|a] s7|s7| |]; auto. contradiction. }
      apply wpe_bind, add_statement_go; [rewrite app_length; lia|]. intros f' U1 U2 U3 U4 U5. apply wpe_ret. split; [|exact M6]. split; [lia|]. left. exists ts2, l. split; [exact G|]. split; [|exact H6]. rewrite U2, !app_length. lia.
  - unfold file_step, wpe at 1.
    assert (K : exists s2, parse_statement k fuel s1 = POk None s2 /\ errs s2 = e).
    { assert (K : go (peek k) s0 (fun r s' => r = None /\ errs s' = [])) by (eapply peek_go; [exact H0|]; intros r s6 H6 Hr Hs M6; apply seen_nil in Hs; subst r; split; [reflexivity|apply H6]).
      unfold wpe in K. pose proof (same_peek k e s0 s1 Htw) as Hsame. destruct (peek k s0) as [r s6|s6| |]; try contradiction. destruct K as [-> K]. destruct (Hsame K) as (s2 & E2 & T2). exists s2. split; [|apply T2].
      unfold parse_statement, bind. rewrite E2. reflexivity. }
    destruct K as (s2 & -> & E2). apply HQ. now rewrite E2.
Qed.

Lemma dup_go ss sx sxs ts0 l0 tp p : g_syntax ss sx sxs -> g_many (g_statement k) ts0 l0 -> length (flat_map st_packages l0) = 1%nat -> g_statement k tp (StPackage p) -> lexes_to k src (ss ++ ts0 ++ tp) ->
  go (parse_file_p k src) (p_init src) (fun _ s' => duplicate (errs s')).
Proof.
  intros Gs G Hl Gp (Hs & Hc).
  assert (Ht : mark0 (ts0 ++ tp)) by (apply mark0_app; [eapply mark0_many; [apply mark0_statement|exact G]|eapply mark0_statement; exact Gp]).
  assert (H : rem (ss ++ ts0 ++ tp) (p_init src)).
  { assert (Hm : mark0 (ss ++ ts0 ++ tp)) by (apply mark0_app; [destruct Gs; reflexivity|exact Ht]).
    split; [|split; [reflexivity|exact Hm]]. split; [apply init_inv|]. split; [reflexivity|]. split; [|exact Hc].
    change (sg k (p_init src)) with (sigs (stream k src 0)). exact Hs. }
  unfold parse_file_p. apply wpe_bind. eapply peek_go; [exact H|]. intros r s1 H1 Hr Hseen M1. rewrite (init_measure src) in M1.
  assert (Hloop : forall f0 s2, rem (ts0 ++ tp) s2 -> (measure s2 <= 2 * length src)%nat -> fi_package f0 = None -> go (loop (file_step k (S (2 * length src))) f0) s2 (fun _ s' => duplicate (errs s'))).
  { intros f0 s2 H2 M2 F. eapply dup_loop_go; [exact Hl|exact G|exact Gp|lia|exact H2|exact F|auto]. }
  apply wpe_bind. remember (ss) as SS eqn:ES in Gs. destruct Gs as [|st sp ts1 v e c sx Gv Ev Hcom].
  - subst ss. cbn [app] in *. destruct r as [[t sp]|]; [|apply wpe_ret, Hloop; auto].
    replace (token_eqb t (kw "syntax")) with false; [apply wpe_ret, Hloop; auto|]. symmetry.
    inversion G as [E1 E2|ts1 x ts2 l' Gx G' E1 E2]; subst; [cbn in Hl; discriminate Hl|].
    assert (Hd : t <> kw "syntax"). { destruct Gx as [| ? ? Gx| ? ? Gx| ? ? Gx| ? ? Gx| ? ? Gx| ? ? Gx| ? ? Gx]; try destruct Gx; unfold seen in Hseen; cbn in Hseen; injection Hseen as ->; discriminate. }
    destruct (token_eqb t (kw "syntax")) eqn:Et; auto. apply token_eqb_eq in Et. contradiction.
  - rewrite <- ES, <- !app_assoc in Hseen. pose proof Hseen as Hs1. apply seen_cons in Hs1. destruct Hs1 as (sp' & ->). cbn [tk_tok fst] in *. change (token_eqb (kw "syntax") (kw "syntax")) with true. cbn match. apply wpe_bind.
    eapply (syntax_go k src ss sx (Some (join_span st e, c))); [rewrite <- ES; apply (g_sx st sp ts1 v e c sx Gv Ev Hcom)|rewrite <- ES; discriminate|exact Ht|exact H1|].
    intros [[sx' sp1] c'] s2 E2 H2 M2. cbn [fst] in E2. subst sx'. apply wpe_ret, Hloop; auto. lia.
Qed.
Theorem parse_file_dup ss sx sxs ts0 l0 tp p : g_syntax ss sx sxs -> g_many (g_statement k) ts0 l0 -> length (flat_map st_packages l0) = 1%nat -> g_statement k tp (StPackage p) -> lexes_to k src (ss ++ ts0 ++ tp) ->
  exists x y a, parse_file k src = Done (inr [DuplicatePackage x y], a).
Proof.
  intros H1 H2 H3 H4 H5. pose proof (dup_go _ _ _ _ _ _ _ H1 H2 H3 H4 H5) as G. unfold wpe in G. unfold parse_file. destruct (parse_file_p k src (p_init src)) as [f' s|s| |]; try contradiction.
  destruct G as (x & y & E). rewrite E. eauto.
Qed.
End Dup.
