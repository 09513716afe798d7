(** The text before the first unexpected token (or before the unexpected end)
    can be completed to a file of the grammar. The parser walks along with the
    grammar: whenever it reports an unexpected token or end, the tokens consumed
    so far start some sentence, whose remainder consists of simple tokens. *)
From Coq Require Import ZifyBool ZifyN.
From Verif Require Import Base Utf8 Errors Lex LexSpec PropsLex1 LexSafe Stream Ast Comments AttachSpec Attach Parse Grammar Utf8Spec Classify SynSpec LexErr Walk WalkG1 Kept Keeps.

(** Tokens a completion is made of; their texts are those of [token_display]. *)
Definition is_simple (t : token) : bool :=
  match t with
  | TIdent v => is_valid_ident v
  | TInt v => v =? 1
  | TStr v => bytes_eqb v (b "a") || bytes_eqb v (b "proto2")
  | TFloat _ | TLineComment _ | TBlockComment _ | TNewline | TMinus | TPlus | TSlash => false
  | _ => true
  end.
Definition simple (x : tk) : Prop := is_simple (tk_tok x) = true.

Section Viable.
Variable k : cfg.
Variable src : bytes.
(** The sentences in question. *)
Variable sentence : list tk -> Prop.
#[local] Existing Instance any_comments.

(** The tokens [TS] start a sentence that goes on with simple tokens; [m] is the mode the next token is read in. *)
Definition viable (m : bool) (TS : list tk) : Prop :=
  exists post, Forall simple post /\ hd false (marks post) = m /\ sentence (TS ++ post).
Notation V := (viable false).
Definition sim (post : list tk) : Prop := Forall simple post /\ hd false (marks post) = false.
Lemma cut TS post : V (TS ++ post) -> sim post -> V TS.
Proof.
  intros (p & H1 & H2 & H3) [H4 H5]. exists (post ++ p). split; [now apply Forall_app|]. split; [|now rewrite app_assoc]. destruct post; auto.
Qed.
Lemma cut_true TS post : V (TS ++ post) -> Forall simple post -> hd false (marks post) = true -> viable true TS.
Proof.
  intros (p & H1 & H2 & H3) H4 H5. exists (post ++ p). split; [now apply Forall_app|]. split; [|now rewrite app_assoc]. destruct post; [discriminate H5|exact H5].
Qed.

(** What holds of an error that is the first. *)
Definition fine (e : perr) : Prop :=
  match e with
  | UnexpectedToken _ _ sp => exists TS m r u, readto k src TS r /\ trail k m r u /\ s_start sp + len u = len src /\ viable m TS
  | UnexpectedEof _ => exists TS m r, readto k src TS r /\ trail k m r [] /\ viable m TS
  | _ => True
  end.
Definition stuck (s : pst) : Prop := errs s <> [] /\ forall e, hd_error (errs s) = Some e -> unx e = true -> fine e.
Lemma stuck_kept s s' : stuck s -> keptx (errs s) (errs s') -> stuck s'.
Proof.
  intros [H1 H2] H. split; [eapply keptx_more; eauto|]. destruct (errs s) as [|e x]; [congruence|]. cbn [keptx] in H. destruct (unx e) eqn:Ee.
  - intros e' He Hu. rewrite H in He. injection He as <-. now apply H2.
  - destruct H as (e' & He & Hn). intros e2 He2 Hu. congruence.
Qed.
Lemma stuck_quiet s s' : errs s = [] -> errs s' <> [] -> keptx (errs s) (errs s') -> stuck s'.
Proof. intros H1 H2 H. split; [exact H2|]. rewrite H1 in H. cbn [keptx] in H. intros e He Hu. rewrite (H e He) in Hu. discriminate Hu. Qed.

Definition wv {A} (m : P A) (s : pst) (Q : A -> pst -> Prop) : Prop :=
  match m s with POk a s' => stuck s' \/ Q a s' | PErr s' => stuck s' | _ => True end.
Lemma wv_conseq {A} (m : P A) s (Q Q' : A -> pst -> Prop) : wv m s Q -> (forall a s', Q a s' -> Q' a s') -> wv m s Q'.
Proof. unfold wv. intros H HQ. destruct (m s); auto. destruct H; auto. Qed.
Lemma wv_bind {A B} (m : P A) (f : A -> P B) s Q : wv m s (fun a s' => wv (f a) s' Q) -> (forall a, keeps (f a)) -> wv (bind m f) s Q.
Proof.
  unfold wv, bind. intros H Hk. destruct (m s) as [a s'|s'| |]; auto. destruct H as [H|H]; [|exact H]. pose proof (Hk a s' (proj1 H)) as Hs. destruct (f a s') as [c t|t| |]; auto; [left|]; eapply stuck_kept; eauto.
Qed.
Lemma wv_ret {A} (a : A) s (Q : A -> pst -> Prop) : Q a s -> wv (ret a) s Q.
Proof. right. auto. Qed.
Lemma wv_loop {A B} (f : A -> P (A + B)) (J : A -> pst -> Prop) Q :
  (forall a s, J a s -> wv (f a) s (fun r s' => match r with inl a' => J a' s' | inr v => Q v s' end)) -> (forall a, keeps (f a)) ->
  forall a s, J a s -> wv (loop f a) s Q.
Proof.
  intros H Hk. unfold loop. assert (G : forall n a s, J a s -> wv (loopf n f a) s Q).
  { induction n as [|n IH]; intros a s Hi; [exact I|]. cbn [loopf]. apply wv_bind.
    - eapply wv_conseq; [apply H, Hi|]. intros [a'|v] s' Hr; [apply IH, Hr|now apply wv_ret].
    - clear - Hk. intros [a'|v]; [|kall]. revert a'. induction n as [|n IH]; intros a'; [intros s _; exact I|]. cbn [loopf]. apply keeps_bind; [apply Hk|]. intros [a2|v]; [apply IH|kall]. }
  intros a s Hi. apply (G (S (measure s)) a s Hi).
Qed.

(** The parser has consumed [TS] and may have looked ahead. *)
Definition ctx (m : bool) (TS : list tk) (s : pst) : Prop := Inv k src s /\ errs s = [] /\ tfm s = m /\ behind k src m s TS.
Lemma ctx_pk m TS s s' : ctx m TS s -> pk k src s s' -> errs s' = [] -> ctx m TS s'.
Proof.
  intros (H1 & H2 & H3 & H4) Hp He. pose proof (pk_tfm _ _ _ _ Hp) as Ht. split; [apply (pk_inv _ _ _ _ Hp)|]. split; [exact He|]. split; [congruence|].
  pose proof (pk_pre _ _ _ _ Hp He TS) as Hb. rewrite Ht, H3 in Hb. auto.
Qed.
Lemma wv_looks {A} (m : P A) TS md s (R : A -> pst -> Prop) (Q : A -> pst -> Prop) : ctx md TS s -> quiet m ->
  wpe m s (fun s' => errs s' <> []) (fun a s' => pk k src s s' /\ R a s') -> (forall a s', ctx md TS s' -> R a s' -> Q a s') -> wv m s Q.
Proof.
  intros Hc Hq Hw HQ. unfold wv. specialize (Hq s). unfold wpe in Hw. destruct (m s) as [a s'|s'| |]; auto.
  - destruct Hw as [Hp HR]. destruct (errs s') as [|e l] eqn:Ee; [right; apply HQ; auto; eapply ctx_pk; eauto|]. left. apply (stuck_quiet s); [apply Hc| |]; rewrite Ee; [discriminate|exact Hq].
  - apply (stuck_quiet s); [apply Hc|exact Hw|exact Hq].
Qed.
Lemma peek_looks m TS s (Q : option (token * span) -> pst -> Prop) : ctx m TS s -> (forall r s', ctx m TS s' -> peeked s' r -> Q r s') -> wv (peek k) s Q.
Proof.
  intros Hc HQ. eapply (wv_looks _ TS m s (fun r s' => peeked s' r) Q Hc (quiet_peek k)); [|exact HQ]. eapply wpe_conseq; [eapply (peek_wpe k src s _ (fun s' => errs s' <> [])); [apply Hc| |]|..]; cycle 2.
  - intros a s' H. exact H.
  - auto.
  - intros r s' H1 H2. split; auto.
  - intros s' (_ & H & _). exact H.
Qed.
Lemma skip_looks m TS s (Q : option (token * span) -> pst -> Prop) : ctx m TS s -> (forall r s', ctx m TS s' -> peeked s' r -> Q r s') -> wv (peek_skip_comments k) s Q.
Proof.
  intros Hc HQ. eapply (wv_looks _ TS m s (fun r s' => peeked s' r) Q Hc (quiet_peek_skip k)); [|exact HQ]. eapply wpe_conseq; [eapply (peek_skip_wpe k src s _ (fun s' => errs s' <> [])); [apply Hc| |]|..]; cycle 2.
  - intros a s' H. exact H.
  - auto.
  - intros r s' H1 H2. split; auto.
  - intros s' (_ & H & _). exact H.
Qed.
(** Looking again finds the same. *)
Lemma peeked_same s s' r r' : pk k src s s' -> peeked s r -> peeked s' r' -> r' = r.
Proof.
  intros Hp H1 H2. apply (peeked_sg k) in H1, H2. rewrite (pk_sg _ _ _ _ Hp), H2 in H1. destruct r as [[t sp]|], r' as [[t' sp']|]; try discriminate; auto. cbn in H1. injection H1 as -> ->. reflexivity.
Qed.
Lemma peek_again m TS s r (Q : option (token * span) -> pst -> Prop) : ctx m TS s -> peeked s r -> (forall s', ctx m TS s' -> peeked s' r -> Q r s') -> wv (peek k) s Q.
Proof.
  intros Hc Hr HQ. eapply (wv_looks _ TS m s (fun r' s' => r' = r /\ peeked s' r) Q Hc (quiet_peek k)); [|intros a s' C [-> R]; auto]. eapply wpe_conseq; [eapply (peek_wpe k src s _ (fun s' => errs s' <> [])); [apply Hc| |]|..]; cycle 2.
  - intros a s' H. exact H.
  - auto.
  - intros r' s' H1 H2. pose proof (peeked_same _ _ _ _ H1 Hr H2) as ->. auto.
  - intros s' (_ & H & _). exact H.
Qed.
Lemma leading_looks m TS s t sp (Q : list bytes * option bytes -> pst -> Prop) : ctx m TS s -> pkd s t sp -> (forall l s', ctx m TS s' -> pkd s' t sp -> Q l s') -> wv (parse_leading_comments k) s Q.
Proof.
  intros Hc Hr HQ. eapply (wv_looks _ TS m s (fun _ s' => pkd s' t sp) Q Hc (quiet_leading k)); [|exact HQ]. eapply leading_wpe0; [apply Hc|exact Hr|]. auto.
Qed.
Lemma leading_any m TS s (Q : list bytes * option bytes -> pst -> Prop) : ctx m TS s -> (forall l s', ctx m TS s' -> Q l s') -> wv (parse_leading_comments k) s Q.
Proof.
  intros Hc HQ. eapply (wv_looks _ TS m s (fun _ _ => True) Q Hc (quiet_leading k)); [|auto]. unfold parse_leading_comments. apply wpe_bind. apply (peek_ignore_wpe k src); [apply Hc|]. intros s' Hp _. unfold wpe, c_take_leading. split; [|exact I].
  eapply pk_trans; [exact Hp|]. apply pk_cm; [apply (pk_inv _ _ _ _ Hp)|]. auto.
Qed.
Lemma trailing_looks m TS s lead (Q : acomments -> pst -> Prop) : ctx m TS s -> (forall l s', ctx m TS s' -> Q l s') -> wv (parse_trailing_comment k lead) s Q.
Proof.
  intros Hc HQ. eapply (wv_looks _ TS m s (fun _ _ => True) Q Hc (quiet_trailing k lead)); [|auto]. eapply (trailing_wpe k src); [apply Hc|]. auto.
Qed.
Lemma dassert_looks m TS s c (Q : unit -> pst -> Prop) : ctx m TS s -> (forall s', ctx m TS s' -> p_peek s' = p_peek s -> p_lex s' = p_lex s -> Q tt s') -> c = true -> wv (dassert c) s Q.
Proof.
  intros Hc HQ Hb. eapply (wv_looks _ TS m s (fun _ s' => p_peek s' = p_peek s /\ p_lex s' = p_lex s) Q Hc (quiet_dassert c)); [|intros [] s' C [H1 H2]; auto]. eapply (dassert_wpe k src); [exact Hb|apply Hc|]. auto.
Qed.
Lemma bump_ctx m TS s t sp (Q : span -> pst -> Prop) : ctx m TS s -> pkd s t sp -> (forall s', ctx m (TS ++ [(t, sp, m)]) s' -> p_peek s' = None -> readto k src (TS ++ [(t, sp, m)]) (rest_of s') -> Q sp s') -> wv bump s Q.
Proof.
  intros Hc Hp HQ. pose proof (bump_wpe k src s t sp (fun _ => False) (fun x s' => x = sp /\ ctx m (TS ++ [(t, sp, m)]) s' /\ p_peek s' = None /\ readto k src (TS ++ [(t, sp, m)]) (rest_of s')) (proj1 Hc) Hp) as H. unfold wpe, wv in *.
  match type of H with ?X -> _ => assert (HX : X) end.
  { intros s' Ha Hn Hl _ _. split; [reflexivity|]. destruct Hc as (H1 & H2 & H3 & H4).
    assert (Hrd : readto k src (TS ++ [(t, sp, m)]) (rest_of s')).
    { unfold behind in H4. destruct Hp as [Hp Ht]. rewrite Hp in H4. destruct H4 as (r & w & u & R1 & R2 & R3 & R4 & _). rewrite Hl. eapply rt_snoc; eauto. }
    split; [|split; [exact Hn|exact Hrd]]. split; [apply (av_inv _ _ _ _ _ _ _ (Ha true))|]. rewrite Hl. split; [exact H2|]. split; [exact H3|].
    unfold behind. rewrite Hn. exists (rest_of s'). split; [exact Hrd|constructor]. }
  specialize (H HX). clear HX. destruct (bump s) as [x s'| | |]; try contradiction. destruct H as (-> & H1 & H2 & H3). right. auto.
Qed.

(** Reporting an unexpected token. *)
Lemma unexpected_v {A} m TS s e (Q : A -> pst -> Prop) : ctx m TS s -> viable m TS -> wv (unexpected_token k e) s Q.
Proof.
  intros Hc Hv. unfold unexpected_token. apply wv_bind; [|kall]. eapply skip_looks; [exact Hc|]. clear s Hc. intros r s Hc Hr. destruct Hc as (H1 & H2 & H3 & H4). destruct r as [[t sp]|].
  - unfold wv, bind, add_error, fail. cbn [set_lex p_lex with_errs l_errs]. rewrite H2. cbn [app]. split; cbn [set_lex p_lex with_errs l_errs]; [discriminate|]. intros e0 [= <-] _. cbn [fine].
    destruct Hr as [Hr Ht]. pose proof (iv_peek _ _ _ H1) as Hsp. rewrite Hr in Hsp. unfold behind in H4. rewrite Hr in H4. destruct H4 as (r & w & u & R1 & R2 & R3 & R4 & R5). exists TS, m, r, u. subst sp.
    split; [exact R1|]. split; [eapply tr_drop; eauto|]. auto.
  - unfold wv, bind, add_error, fail. cbn [set_lex p_lex with_errs l_errs]. rewrite H2. cbn [app]. split; cbn [set_lex p_lex with_errs l_errs]; [discriminate|]. intros e0 [= <-] _. cbn [fine].
    destruct Hr as [Hr Hx]. unfold behind in H4. rewrite Hr, Hx in H4. destruct H4 as (r & R1 & R2). exists TS, m, r. auto.
Qed.
Lemma add_error_v {A} m TS s e (f : P A) (Q : A -> pst -> Prop) : ctx m TS s -> unx e = false -> keeps f -> wv (add_error e ;;; f) s Q.
Proof.
  intros (_ & H2 & _) He Hk. apply wv_bind; [|intros _; exact Hk]. left. split; cbn [set_lex p_lex with_errs l_errs]; rewrite H2; [discriminate|]. intros e0 [= <-] Hu. congruence.
Qed.

(** *** Specifications *)
(** From [TS] the action reads tokens that [g] relates to its result; every such text keeps the sentence viable. *)
Definition spec {A} (m : P A) (g : list tk -> A -> Prop) : Prop := forall TS s, ctx false TS s -> (forall ts a, g ts a -> V (TS ++ ts)) ->
  wv m s (fun a s' => exists ts, ctx false (TS ++ ts) s' /\ g ts a).
Lemma wv_call {A B} (m : P A) g (f : A -> P B) TS s (Q : B -> pst -> Prop) : spec m g -> ctx false TS s -> (forall ts a, g ts a -> V (TS ++ ts)) -> (forall a, keeps (f a)) ->
  (forall a s' ts, ctx false (TS ++ ts) s' -> g ts a -> wv (f a) s' Q) -> wv (bind m f) s Q.
Proof. intros Hm Hc HK Hk HQ. apply wv_bind; [|exact Hk]. eapply wv_conseq; [apply Hm; eauto|]. intros a s' (ts & H1 & H2). eapply HQ; eauto. Qed.
Lemma cutK {A} (g : list tk -> A -> Prop) TS : (forall ts a, g ts a -> V (TS ++ ts)) -> forall r post a, g (r ++ post) a -> sim post -> V (TS ++ r).
Proof. intros HK r post a H Hs. apply (cut _ post); [|exact Hs]. rewrite <- app_assoc. eapply HK; eauto. Qed.
Lemma cut0 {A} (g : list tk -> A -> Prop) TS : (forall ts a, g ts a -> V (TS ++ ts)) -> forall post a, g post a -> sim post -> V TS.
Proof. intros HK post a H Hs. apply (cut _ post); [|exact Hs]. eapply HK; eauto. Qed.
(** A specification that ignores the result. *)
Definition specx {A B} (m : P A) (g : list tk -> B -> Prop) : Prop := forall TS s, ctx false TS s -> (forall ts x, g ts x -> V (TS ++ ts)) ->
  wv m s (fun _ s' => exists ts x, ctx false (TS ++ ts) s' /\ g ts x).
Lemma wv_callx {A B D} (m : P A) (g : list tk -> B -> Prop) (f : A -> P D) TS s (Q : D -> pst -> Prop) : specx m g -> ctx false TS s -> (forall ts x, g ts x -> V (TS ++ ts)) -> (forall a, keeps (f a)) ->
  (forall a s' ts x, ctx false (TS ++ ts) s' -> g ts x -> wv (f a) s' Q) -> wv (bind m f) s Q.
Proof. intros Hm Hc HK Hk HQ. apply wv_bind; [|exact Hk]. eapply wv_conseq; [apply Hm; eauto|]. intros a s' (ts & x & H1 & H2). eapply HQ; eauto. Qed.
Lemma spec_x {A} (m : P A) g : spec m g -> specx m g.
Proof. intros H TS s C K. eapply wv_conseq; [apply H; eauto|]. intros a s' (ts & H1 & H2). eauto. Qed.
Lemma wv_error m TS s e (Q : unit -> pst -> Prop) : ctx m TS s -> unx e = false -> wv (add_error e) s Q.
Proof.
  intros (_ & H2 & _) He. left. split; cbn [set_lex p_lex with_errs l_errs]; rewrite H2; [discriminate|]. intros e0 [= <-] Hu. congruence.
Qed.
Lemma skip_again m TS s r (Q : option (token * span) -> pst -> Prop) : ctx m TS s -> peeked s r -> (forall s', ctx m TS s' -> peeked s' r -> Q r s') -> wv (peek_skip_comments k) s Q.
Proof.
  intros Hc Hr HQ. eapply (wv_looks _ TS m s (fun r' s' => r' = r /\ peeked s' r) Q Hc (quiet_peek_skip k)); [|intros a s' C [-> R]; auto]. eapply wpe_conseq; [eapply (peek_skip_wpe k src s _ (fun s' => errs s' <> [])); [apply Hc| |]|..]; cycle 2.
  - intros a s' H. exact H.
  - auto.
  - intros r' s' H1 H2. pose proof (peeked_same _ _ _ _ H1 Hr H2) as ->. auto.
  - intros s' (_ & H & _). exact H.
Qed.

End Viable.
