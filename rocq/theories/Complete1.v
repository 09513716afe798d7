(** Completeness of the parser: it accepts every sentence of the grammar.
    Token access, leaves, options, ranges. *)
From Coq Require Import ZifyBool ZifyN.
From Verif Require Import Base Utf8 Errors Lex LexSpec PropsLex1 LexSafe Stream Ast Comments Parse Grammar Utf8Spec Classify Walk WalkG1 Meaning Erase.
Import Parse.

Definition nope : pst -> Prop := fun _ => False.

Section Complete.
Variable k : cfg.
Variable src : bytes.
Context {CS : comspec}.
Notation Inv := (Inv k src).
Notation pk := (pk k src).
Notation sg := (sg k).
Notation go m s Q := (wpe m s nope Q).

(** What remains to be read are the tokens [us] (their spans are ignored), without lexical errors. *)
Definition rem0 (us : list tk) (s : pst) : Prop :=
  Inv s /\ errs s = [] /\ map fst (sg s) = map (fun x => Some (tk_tok x)) us /\ mclean_s k (marks us) s.
Definition mark0 (us : list tk) : Prop := hd false (marks us) = false.
Definition remg (m : bool) (us : list tk) (s : pst) : Prop := rem0 us s /\ tfm s = m /\ hd false (marks us) = m.
Notation rem := (remg false).

(** The lookahead is the first of the remaining tokens. *)
Definition seen (us : list tk) (r : option (token * span)) : Prop := option_map fst r = first_tok us.
Lemma seen_cons x us r : seen (x :: us) r -> exists sp, r = Some (tk_tok x, sp).
Proof. unfold seen. destruct r as [[t sp]|]; cbn; [|discriminate]. intros [= <-]. eauto. Qed.
Lemma seen_nil r : seen [] r -> r = None.
Proof. unfold seen. destruct r as [[t sp]|]; cbn; [discriminate|auto]. Qed.

Lemma peeked_seen us s r : map fst (sg s) = map (fun x => Some (tk_tok x)) us -> peeked s r -> seen us r.
Proof.
  intros E Hr. unfold seen. destruct r as [[t sp]|].
  - rewrite (sg_pkd k _ _ _ Hr) in E. destruct us as [|x us]; [discriminate|]. cbn in *. congruence.
  - rewrite (sg_end k _ Hr) in E. now destruct us.
Qed.
Lemma pk_remg m us s s' : pk s s' -> remg m us s -> remg m us s'.
Proof.
  intros P ((A & B & C & D) & E & F). destruct (pk_fwd _ _ _ _ P (marks us)) as [G1 G2]; [congruence|auto|].
  split; [|split; [rewrite (pk_tfm _ _ _ _ P); auto|auto]]. split; [apply (pk_inv _ _ _ _ P)|]. split; [congruence|]. split; [|auto]. now rewrite <- (pk_sg _ _ _ _ P).
Qed.
Lemma no_peek_err m us s s' : remg m us s -> peek_err k src s s' -> False.
Proof. intros H (P & Hn & _). apply Hn. pose proof (pk_remg _ _ _ _ P H) as ((_ & E & _) & _). exact E. Qed.

Lemma peek_go m us s (Q : _ -> pst -> Prop) : remg m us s ->
  (forall r s', remg m us s' -> peeked s' r -> seen us r -> (measure s' <= measure s)%nat -> Q r s') -> go (peek k) s Q.
Proof.
  intros H HQ. apply (peek_wpe k src); [apply H| |intros s' P; exact (no_peek_err _ _ _ _ H P)]. intros r s' P Hr. pose proof (pk_remg _ _ _ _ P H) as H'.
  apply HQ; auto; [|apply (pk_meas _ _ _ _ P)]. eapply peeked_seen; eauto. apply H'.
Qed.
Lemma skip_go m us s (Q : _ -> pst -> Prop) : remg m us s ->
  (forall r s', remg m us s' -> peeked s' r -> seen us r -> (measure s' <= measure s)%nat -> Q r s') -> go (peek_skip_comments k) s Q.
Proof.
  intros H HQ. apply (peek_skip_wpe k src); [apply H| |intros s' P; exact (no_peek_err _ _ _ _ H P)]. intros r s' P Hr. pose proof (pk_remg _ _ _ _ P H) as H'.
  apply HQ; auto; [|apply (pk_meas _ _ _ _ P)]. eapply peeked_seen; eauto. apply H'.
Qed.
Lemma bump_go0 x us s sp (Q : _ -> pst -> Prop) : rem0 (x :: us) s -> peeked s (Some (tk_tok x, sp)) ->
  (forall s', rem0 us s' -> tfm s' = tfm s -> p_peek s' = None -> (measure s' < measure s)%nat -> Q sp s') -> go bump s Q.
Proof.
  intros (A & B & C & D) Hp HQ. eapply (bump_wpe k src); [exact A|exact Hp|]. intros s' Ha H1 H2 H3 H4. apply HQ; [|now rewrite H2|exact H1|lia].
  split; [apply (av_inv _ _ _ _ _ _ _ (Ha false))|]. split; [now rewrite H2|]. split.
  - pose proof (av_sg _ _ _ _ _ _ _ (Ha false)) as E. cbn [map app] in E. rewrite E in C. cbn in C. congruence.
  - apply (H4 (tk_mark x)). exact D.
Qed.
Lemma bump_go m x us s sp (Q : _ -> pst -> Prop) : remg m (x :: us) s -> peeked s (Some (tk_tok x, sp)) -> hd false (marks us) = m ->
  (forall s', remg m us s' -> p_peek s' = None -> (measure s' < measure s)%nat -> Q sp s') -> go bump s Q.
Proof.
  intros (A & B & C) Hp Hm HQ. eapply bump_go0; [exact A|exact Hp|]. intros s' H1 H2 H3 H4. apply HQ; auto. split; [auto|]. split; [congruence|auto].
Qed.
Lemma expect_go t sp us s (Q : _ -> pst -> Prop) : rem (sym t sp ++ us) s -> mark0 us ->
  (forall sp' s', rem us s' -> (measure s' < measure s)%nat -> Q sp' s') -> go (expect_eq k t) s Q.
Proof.
  intros H Hm HQ. unfold expect_eq. apply wpe_bind. eapply skip_go; [exact H|]. intros r s1 H1 Hr Hs M1. apply seen_cons in Hs. destruct Hs as (sp' & ->).
  cbn [tk_tok fst]. rewrite token_eqb_refl. eapply bump_go; [exact H1|exact Hr|exact Hm|]. intros s2 H2 _ M2. apply HQ; auto. lia.
Qed.
Lemma ignore_go m us s (Q : _ -> pst -> Prop) : remg m us s -> (forall s', remg m us s' -> (measure s' <= measure s)%nat -> Q tt s') -> go (peek_ignore k) s Q.
Proof. intros H HQ. apply (peek_ignore_wpe k src); [apply H|]. intros s' P _. apply HQ; [eapply pk_remg; eauto|apply (pk_meas _ _ _ _ P)]. Qed.
Lemma lead_go us s (Q : _ -> pst -> Prop) : rem us s -> (forall l s', rem us s' -> (measure s' <= measure s)%nat -> Q l s') -> go (parse_leading_comments k) s Q.
Proof.
  intros H HQ. unfold parse_leading_comments. apply wpe_bind. eapply ignore_go; [exact H|]. intros s1 H1 M1. unfold wpe, c_take_leading. apply HQ; [|exact M1].
  eapply pk_remg; [|exact H1]. apply pk_cm; [apply H1|]. apply (iv_cm _ _ _ (proj1 (proj1 H1))) || auto.
Qed.
Lemma trail_go us s lead (Q : _ -> pst -> Prop) : rem us s -> (forall c s', rem us s' -> (measure s' <= measure s)%nat -> Q c s') -> go (parse_trailing_comment k lead) s Q.
Proof.
  intros H HQ. apply (trailing_wpe k src); [apply H|]. intros c s' P. apply HQ; [eapply pk_remg; eauto|apply (pk_meas _ _ _ _ P)].
Qed.

(** [m] parses every phrase of [g] that is followed by tokens satisfying [T],
    with a result equal up to positions and comments. *)
Definition complete {A E} (er : A -> E) (g : list tk -> A -> Prop) (T : list tk -> Prop) (m : P A) : Prop :=
  forall ts a us s (Q : A -> pst -> Prop), g ts a -> T us -> mark0 us -> rem (ts ++ us) s ->
    (forall a' s', er a' = er a -> rem us s' -> (measure s' < measure s)%nat -> Q a' s') -> go m s Q.
Definition complete_if {A E} (er : A -> E) (g : list tk -> A -> Prop) (T : A -> list tk -> Prop) (m : P A) : Prop :=
  forall ts a us s (Q : A -> pst -> Prop), g ts a -> T a us -> mark0 us -> rem (ts ++ us) s ->
    (forall a' s', er a' = er a -> rem us s' -> (measure s' < measure s)%nat -> Q a' s') -> go m s Q.
Lemma complete_iff {A E} (er : A -> E) g T m : complete er g T m -> complete_if er g (fun _ => T) m.
Proof. intros H ts a us s Q. apply H. Qed.
Definition any (us : list tk) : Prop := True.
Definition next_is (l : list token) (us : list tk) : Prop := exists t, first_tok us = Some t /\ In t l.

Lemma mark0_app ts us : mark0 ts -> mark0 us -> mark0 (ts ++ us).
Proof. destruct ts; auto. Qed.
Lemma mark0_sym t sp : mark0 (sym t sp).
Proof. reflexivity. Qed.
Lemma mark0_nil : mark0 [].
Proof. reflexivity. Qed.
Lemma mark0_many {A} (item : list tk -> A -> Prop) ts l : (forall ts a, item ts a -> mark0 ts) -> g_many item ts l -> mark0 ts.
Proof. intros H. induction 1; [apply mark0_nil|]. apply mark0_app; eauto. Qed.
Lemma mark0_sep {A} sep (item : list tk -> A -> Prop) ts l : (forall ts a, item ts a -> mark0 ts) -> g_sep sep item ts l -> mark0 ts.
Proof. intros H. destruct 1; eauto. apply mark0_app; [eauto|reflexivity]. Qed.
Lemma mark0_ident ts a : g_ident ts a -> mark0 ts. Proof. now destruct 1. Qed.
Lemma mark0_full ts a : g_full_ident ts a -> mark0 ts. Proof. apply mark0_sep, mark0_ident. Qed.
Lemma mark0_tname ts a : g_type_name ts a -> mark0 ts. Proof. destruct 1; [eapply mark0_full; eauto|reflexivity]. Qed.
Lemma mark0_int ts a : g_int ts a -> mark0 ts. Proof. now destruct 1. Qed.
Lemma mark0_string ts a : g_string ts a -> mark0 ts. Proof. now destruct 1. Qed.
Lemma mark0_utf8 ts a : g_utf8_string ts a -> mark0 ts. Proof. destruct 1. eapply mark0_string; eauto. Qed.
Lemma mark0_idstr ts a : g_ident_string ts a -> mark0 ts. Proof. destruct 1. eapply mark0_utf8; eauto. Qed.
Lemma mark0_part ts a : g_optname_part ts a -> mark0 ts. Proof. destruct 1; [eapply mark0_ident; eauto|reflexivity]. Qed.
Lemma mark0_optval ts a : g_optval k ts a -> mark0 ts. Proof. destruct 1; try reflexivity; [eapply mark0_int|eapply mark0_string]; eauto. Qed.
Lemma mark0_obody ts a : g_option_body k ts a -> mark0 ts. Proof. destruct 1. apply mark0_app; [|reflexivity]. eapply mark0_sep; [apply mark0_part|eauto]. Qed.
Lemma mark0_option ts a : g_option k ts a -> mark0 ts. Proof. now destruct 1. Qed.
Lemma mark0_ol ts a : g_options_list k ts a -> mark0 ts. Proof. now destruct 1. Qed.
Lemma mark0_oo ts a : g_opt_options k ts a -> mark0 ts. Proof. destruct 1; [reflexivity|eapply mark0_ol; eauto]. Qed.
Lemma mark0_range ts a : g_range ts a -> mark0 ts. Proof. destruct 1; try apply mark0_app; try reflexivity; eapply mark0_int; eauto. Qed.
Lemma mark0_reserved ts a : g_reserved ts a -> mark0 ts. Proof. now destruct 1. Qed.
Lemma mark0_ext ts a : g_extensions k ts a -> mark0 ts. Proof. now destruct 1. Qed.
Lemma mark0_fty ts a : g_field_type ts a -> mark0 ts. Proof. destruct 1; [reflexivity|eapply mark0_tname; eauto]. Qed.
Lemma mark0_label ts a : g_label ts a -> mark0 ts. Proof. now destruct 1. Qed.

Ltac mk := repeat first [exact I | assumption | reflexivity | apply mark0_app | apply mark0_sym | apply mark0_nil
  | eapply mark0_ident; eassumption | eapply mark0_full; eassumption | eapply mark0_tname; eassumption | eapply mark0_int; eassumption
  | eapply mark0_string; eassumption | eapply mark0_utf8; eassumption | eapply mark0_idstr; eassumption | eapply mark0_part; eassumption
  | eapply mark0_optval; eassumption | eapply mark0_obody; eassumption | eapply mark0_option; eassumption | eapply mark0_ol; eassumption
  | eapply mark0_oo; eassumption | eapply mark0_range; eassumption | eapply mark0_reserved; eassumption | eapply mark0_ext; eassumption
  | eapply mark0_fty; eassumption | eapply mark0_label; eassumption
  | eapply mark0_sep; [|eassumption]; first [exact mark0_ident|exact mark0_part|exact mark0_obody|exact mark0_range|exact mark0_idstr]].
(** Names the head token of the lookahead. *)
Ltac see Hs := first [apply seen_cons in Hs; let sp := fresh "sp'" in destruct Hs as (sp & ->); cbn [tk_tok fst] in * | apply seen_nil in Hs; subst].
Ltac asc := match goal with H : remg _ (_ ++ _) _ |- _ => rewrite <- ?app_assoc in H end.

Lemma ident_go : complete er_ident g_ident any (parse_ident k).
Proof.
  intros ts a us s Q G _ Hm H HQ. destruct G as [v sp]. unfold parse_ident. apply wpe_bind. eapply skip_go; [exact H|]. intros r s1 H1 Hr Hs M1. see Hs.
  apply wpe_bind. eapply bump_go; [exact H1|exact Hr|exact Hm|]. intros s2 H2 _ M2. apply wpe_ret, HQ; auto. lia.
Qed.
Lemma int_go : complete er_int g_int any (parse_int k).
Proof.
  intros ts a us s Q G _ Hm H HQ. unfold parse_int. 
  assert (T : forall s1 v sp (neg : option span), rem (sym (TInt v) sp ++ us) s1 -> (measure s1 <= measure s)%nat -> i_neg a = is_some neg -> i_val a = v ->
    go (t2 <- peek_skip_comments k ;; match t2 with
      | Some (TInt v, e) => bump ;;; ret {| i_neg := is_some neg; i_val := v; i_span := match neg with None => e | Some st => join_span st e end |}
      | _ => unexpected_token k (b "an integer") end) s1 Q).
  { intros s1 v sp neg H1 M1 E1 E2. apply wpe_bind. eapply skip_go; [exact H1|]. intros r s2 H2 Hr Hs M2. see Hs.
    apply wpe_bind. eapply bump_go; [exact H2|exact Hr|exact Hm|]. intros s3 H3 _ M3. apply wpe_ret, HQ; auto; [|lia]. unfold er_int. cbn. congruence. }
  destruct G as [v sp|st v sp]; apply wpe_bind; (eapply skip_go; [exact H|]); intros r s1 H1 Hr Hs M1; see Hs; apply wpe_bind.
  - apply wpe_ret. eapply T; [exact H1|exact M1|reflexivity|reflexivity].
  - apply wpe_bind. eapply bump_go; [exact H1|exact Hr|reflexivity|]. intros s2 H2 _ M2. apply wpe_ret. eapply T; [exact H2|lia|reflexivity|reflexivity].
Qed.

(** Loops over lists of phrases. *)
Lemma many_loop {X S B} (item : list tk -> X -> Prop) (f : S -> P (S + B)) (J : S -> list X -> Prop) (T : X -> list tk -> Prop) us s0 (Q : B -> pst -> Prop) ts l acc s :
  g_many item ts l -> mark0 us -> (forall l' x, l = l' ++ [x] -> T x us) -> (forall ts x, item ts x -> mark0 ts) -> (forall y ts x us', item ts x -> T y (ts ++ us')) ->
  (forall acc x l ts us' s, item ts x -> J acc (x :: l) -> mark0 us' -> T x us' -> rem (ts ++ us') s -> (measure s <= measure s0)%nat ->
     go (f acc) s (fun r s' => match r with inl acc' => J acc' l /\ rem us' s' /\ (measure s' < measure s)%nat | inr _ => False end)) ->
  (forall acc s, J acc [] -> rem us s -> (measure s <= measure s0)%nat -> go (f acc) s (fun r s' => match r with inl _ => False | inr v => Q v s' end)) ->
  J acc l -> rem (ts ++ us) s -> (measure s <= measure s0)%nat -> go (loop f acc) s Q.
Proof.
  intros G Hm HT Hi HiT Hstep Hend HJ H Ms. remember l as L eqn:EL. rewrite EL in HJ, G.
  apply (loop_wpe _ (fun acc s => (measure s <= measure s0)%nat /\ exists ts pre l, L = pre ++ l /\ g_many item ts l /\ J acc l /\ rem (ts ++ us) s)).
  2:{ split; [auto|]. exists ts, [], l. auto. }
  clear ts l acc G HJ s H Ms EL. intros acc s (Ms & ts & pre & l & EL & G & HJ & H). destruct G as [|ts x ts' l Hx G].
  - eapply wpe_conseq; [apply Hend; eauto| |auto]. intros [a'|v] s'; tauto.
  - rewrite <- app_assoc in H. eapply wpe_conseq; [eapply Hstep; [exact Hx|exact HJ| | |exact H|exact Ms]| |auto].
    + apply mark0_app; auto. eapply mark0_many; eauto.
    + inversion G; subst; [eapply HT; eauto|]. rewrite <- app_assoc. eauto.
    + intros [a'|v] s'; [|tauto]. intros (A & B1 & C). split; [|auto]. split; [lia|]. exists ts', (pre ++ [x]), l. rewrite <- app_assoc. auto.
Qed.

(** The tail of a separated list. *)
Definition g_tail {A} (sep : token) (item : list tk -> A -> Prop) (ts : list tk) (a : A) : Prop := exists sp ts', ts = sym sep sp ++ ts' /\ item ts' a.
Lemma sep_many {A} sep (item : list tk -> A -> Prop) ts l : g_sep sep item ts l ->
  exists ts1 a ts2 l', ts = ts1 ++ ts2 /\ l = a :: l' /\ item ts1 a /\ g_many (g_tail sep item) ts2 l'.
Proof.
  induction 1 as [ts a H|ts a sp ts' l H H1 IH].
  - exists ts, a, [], []. rewrite app_nil_r. repeat split; auto. constructor.
  - destruct IH as (ts1 & a1 & ts2 & l' & -> & -> & I1 & I2). exists ts, a, (sym sep sp ++ ts1 ++ ts2), (a1 :: l'). repeat split; auto.
    rewrite app_assoc. constructor; auto. exists sp, ts1. auto.
Qed.
Lemma sep_go {A E B} (er : A -> E) (item : list tk -> A -> Prop) (T : A -> list tk -> Prop) (p : P A) sep (fin : option (token * span) -> list A -> P (list A + B)) us (Q : B -> pst -> Prop) ts l s :
  complete_if er item T p -> g_sep sep item ts l -> (forall ts a, item ts a -> mark0 ts) -> (forall a us', first_tok us' = Some sep -> T a us') ->
  (forall l' a, l = l' ++ [a] -> T a us) -> mark0 us -> first_tok us <> Some sep -> rem (ts ++ us) s ->
  (forall x r s', seen us x -> rem us s' -> peeked s' x -> map er r = map er l -> (measure s' < measure s)%nat -> go (fin x r) s' (fun r s' => match r with inl _ => False | inr v => Q v s' end)) ->
  go (x <- p ;; loop (fun r => t <- peek_skip_comments k ;; if at_ t sep then bump ;;; x <- p ;; ret (inl (r ++ [x])) else fin t r) [x]) s Q.
Proof.
  intros Hp G Hi HTs HT Hm Hns H Hfin. apply sep_many in G. destruct G as (ts1 & a & ts2 & l' & -> & -> & G1 & G2). asc. apply wpe_bind.
  assert (Hm2 : mark0 (ts2 ++ us)). { apply mark0_app; auto. eapply mark0_many; [|exact G2]. intros ? ? (? & ? & -> & _). reflexivity. }
  eapply Hp; [exact G1| |exact Hm2|exact H|].
  { inversion G2; subst; [exact (HT [] a eq_refl)|]. match goal with H : g_tail _ _ _ _ |- _ => destruct H as (? & ? & -> & _) end. now apply HTs. }
  intros a1 s1 E1 H1 M1.
  eapply (many_loop (g_tail sep item) _ (fun acc rest => map er acc ++ map er rest = er a :: map er l') T us s1); [exact G2|exact Hm|intros l0 x ->; exact (HT (a :: l0) x eq_refl)| | | | | |exact H1|lia].
  - intros ? ? (? & ? & -> & _). reflexivity.
  - intros ? ? ? ? (? & ? & -> & _). now apply HTs.
  - intros acc x rest ts us' s2 (sp & ts' & -> & Gx) HJ Hm' HT' H2 M2. asc. apply wpe_bind. eapply skip_go; [exact H2|]. intros r s3 H3 Hr Hs M3. see Hs.
    cbn [at_]. rewrite token_eqb_refl. apply wpe_bind. eapply bump_go; [exact H3|exact Hr|apply mark0_app; eauto|]. intros s4 H4 _ M4.
    apply wpe_bind. eapply Hp; [exact Gx|exact HT'|exact Hm'|exact H4|]. intros x' s5 Ex H5 M5. apply wpe_ret. split; [|split; [exact H5|lia]].
    rewrite map_app, <- app_assoc. cbn [map app]. rewrite Ex. exact HJ.
  - intros acc s2 HJ H2 M2. cbn [map] in HJ. rewrite app_nil_r in HJ. apply wpe_bind. eapply skip_go; [exact H2|]. intros r s3 H3 Hr Hs M3.
    replace (at_ r sep) with false.
    + apply Hfin; auto. lia.
    + destruct r as [[t sp]|]; cbn [at_]; auto. destruct (token_eqb t sep) eqn:Et; auto. apply token_eqb_eq in Et. subst t. exfalso. apply Hns. symmetry. exact Hs.
  - cbn [map app]. now rewrite E1.
Qed.

(** The same loop followed by more. *)
Lemma loop_bind {A B C} (m : P A) (f : A -> P B) (g : B -> P C) s Er Q : wpe (bind (bind m f) g) s Er Q -> wpe (bind m (fun a => bind (f a) g)) s Er Q.
Proof. unfold wpe, bind. destruct (m s); auto. Qed.

Definition follows (terms : list expected_token) (us : list tk) : Prop := exists t, first_tok us = Some t /\ existsb (fun e => et_matches e t) terms = true /\ t <> TDot.
Lemma seen_term terms us r : follows terms us -> seen us r -> at_terminator r terms = true /\ at_ r TDot = false.
Proof.
  intros (t & E & H & Hd) Hs. unfold seen in Hs. destruct r as [[t' sp]|]; cbn in *; rewrite E in Hs; [|discriminate]. injection Hs as ->. split; [exact H|].
  destruct (token_eqb t TDot) eqn:Et; auto. apply token_eqb_eq in Et. contradiction.
Qed.
Lemma full_go terms : complete er_full g_full_ident (follows terms) (parse_full_ident k terms).
Proof.
  intros ts a us s Q G HT Hm H HQ. unfold parse_full_ident.
  eapply (sep_go er_ident g_ident (fun _ => any)); [apply complete_iff, ident_go|exact G|exact mark0_ident|intros; exact I|intros; exact I|exact Hm| |exact H|].
  - destruct HT as (t & E & _ & Hd). congruence.
  - intros x r s1 Hs H1 Hr E M. cbv beta. destruct (seen_term _ _ _ HT Hs) as [-> _]. 
    assert (Hne : r <> []). { intros ->. pose proof (g_sep_ne _ _ _ _ G). destruct a; [congruence|discriminate]. }
    apply wpe_bind, (dassert_wpe k src); [destruct r; [congruence|reflexivity]|apply H1|]. intros s2 P _ _. apply wpe_ret. apply HQ; [exact E|eapply pk_remg; eauto|].
    pose proof (pk_meas _ _ _ _ P). lia.
Qed.
Lemma tname_go terms : complete er_tname g_type_name (follows terms) (parse_type_name k terms).
Proof.
  intros ts a us s Q G HT Hm H HQ. unfold parse_type_name. apply wpe_bind. eapply peek_go; [exact H|]. intros r s1 H1 Hr Hs M1. destruct G as [ts n G|sp ts n G].
  - assert (Hd : exists v sp, r = Some (TIdent v, sp)).
    { inversion G as [? ? Gi|? ? ? ? ? Gi]; subst; inversion Gi; subst; apply seen_cons in Hs; destruct Hs as (sp' & ->); do 2 eexists; reflexivity. }
    destruct Hd as (v & sp & ->). apply wpe_bind, wpe_ret. apply wpe_bind. eapply full_go; [exact G| | |exact H1|]; [exact HT|exact Hm|]. intros n' s2 E H2 M2.
    apply wpe_ret, HQ; [|exact H2|lia]. unfold er_tname. cbn [tn_dot tn_name]. now rewrite E.
  - asc. see Hs. asc. apply wpe_bind, wpe_bind. eapply bump_go; [exact H1|exact Hr|mk|]. intros s2 H2 _ M2. apply wpe_ret. apply wpe_bind.
    eapply full_go; [exact G| | |exact H2|]; [exact HT|exact Hm|]. intros n' s3 E H3 M3. apply wpe_ret, HQ; [|exact H3|lia]. unfold er_tname. cbn [tn_dot tn_name]. now rewrite E.
Qed.

(** ** Strings *)
Definition no_string (us : list tk) : Prop := forall v, first_tok us <> Some (TStr v).
Lemma string_many ts a : g_string ts a -> exists v sp ts' l, ts = sym (TStr v) sp ++ ts' /\ g_many (fun ts x => exists sp, ts = sym (TStr x) sp) ts' l /\ st_val a = v ++ concat l.
Proof.
  induction 1 as [v sp|v sp ts r H IH].
  - exists v, sp, [], []. rewrite app_nil_r. cbn. rewrite app_nil_r. repeat split; constructor.
  - destruct IH as (v' & sp' & ts' & l & -> & G & E). exists v, sp, (sym (TStr v') sp' ++ ts'), (v' :: l). split; auto. split; [|cbn; now rewrite E].
    constructor; eauto.
Qed.
Lemma string_go : complete er_string g_string no_string (parse_string k).
Proof.
  intros ts a us s Q G HT Hm H HQ. apply string_many in G. destruct G as (v & sp & ts' & l & -> & G & E). asc. unfold parse_string.
  assert (Hm2 : mark0 (ts' ++ us)). { apply mark0_app; auto. eapply mark0_many; [|exact G]. intros ? ? (? & ->). reflexivity. }
  apply wpe_bind. eapply skip_go; [exact H|]. intros r s1 H1 Hr Hs M1. see Hs. apply wpe_bind, wpe_bind. eapply bump_go; [exact H1|exact Hr|exact Hm2|]. intros s2 H2 _ M2. apply wpe_ret.
  eapply (many_loop _ _ (fun acc rest => st_val acc ++ concat rest = st_val a) (fun _ => any) us s2); [exact G|exact Hm|intros; exact I| |intros; exact I| | | |exact H2|lia].
  - intros ? ? (? & ->). reflexivity.
  - intros acc x rest ts us' s3 (sp3 & ->) HJ Hm' _ H3 M3. apply wpe_bind. eapply skip_go; [exact H3|]. intros r s4 H4 Hr4 Hs4 M4. see Hs4.
    apply wpe_bind. eapply bump_go; [exact H4|exact Hr4|exact Hm'|]. intros s5 H5 _ M5. apply wpe_ret. split; [|split; [auto|lia]]. cbn in *. now rewrite <- app_assoc.
  - intros acc s3 HJ H3 M3. cbn in HJ. rewrite app_nil_r in HJ. apply wpe_bind. eapply skip_go; [exact H3|]. intros r s4 H4 Hr4 Hs4 M4.
    assert (F : Q acc s4). { apply HQ; auto; [|lia]. unfold er_string. now rewrite HJ. }
    destruct r as [[t sp4]|]; [|exact F]. destruct t; try exact F. exfalso. eapply HT. symmetry. exact Hs4.
  - cbn. auto.
Qed.
Lemma utf8_go : complete fst g_utf8_string no_string (parse_utf8_string k).
Proof.
  intros ts a us s Q G HT Hm H HQ. destruct G as [ts r G Hu]. unfold parse_utf8_string. apply wpe_bind. eapply string_go; [exact G| | |exact H|]; [exact HT|exact Hm|].
  intros r' s1 E H1 M1. assert (E' : st_val r' = st_val r) by (unfold er_string in E; congruence). rewrite E'. apply utf8_valid_iff in Hu. rewrite Hu. apply wpe_ret, HQ; auto.
Qed.
Lemma idstr_go : complete er_ident g_ident_string no_string (parse_ident_string k).
Proof.
  intros ts a us s Q G HT Hm H HQ. destruct G as [ts v sp G Hw]. unfold parse_ident_string. apply wpe_bind. eapply utf8_go; [exact G| | |exact H|]; [exact HT|exact Hm|].
  intros [v' sp'] s1 E H1 M1. cbn [fst] in E. subst v'. apply wpe_bind. apply ident_iff in Hw. rewrite Hw. apply wpe_ret, wpe_ret, HQ; auto.
Qed.

(** ** Options *)
Lemma follows_tok t sp us : t <> TDot -> follows [ETTok t] (sym t sp ++ us).
Proof. intros H. exists t. cbn. rewrite token_eqb_refl. auto. Qed.
Lemma part_go : complete er_part g_optname_part any (parse_option_name_part k).
Proof.
  intros ts a us s Q G _ Hm H HQ. unfold parse_option_name_part. apply wpe_bind. eapply peek_go; [exact H|]. intros r s1 H1 Hr Hs M1. destruct G as [ts i G|st ts n e G].
  - assert (Hd : exists v sp, r = Some (TIdent v, sp)) by (inversion G; subst; see Hs; eauto). destruct Hd as (v & sp & ->).
    apply wpe_bind. eapply ident_go; [exact G| | |exact H1|]; [exact I|exact Hm|]. intros a' s2 E H2 M2. apply wpe_ret, HQ; [cbn; now rewrite E|exact H2|lia].
  - rewrite <- !app_assoc in *. see Hs. apply wpe_bind. eapply bump_go; [exact H1|exact Hr|mk|]. intros s2 H2 _ M2.
    apply wpe_bind. eapply tname_go; [exact G| | |exact H2|]; [ | |]; [apply follows_tok; discriminate|mk|]. intros n' s3 E3 H3 M3.
    apply wpe_bind. eapply expect_go; [exact H3|exact Hm|]. intros e' s4 H4 M4. apply wpe_ret, HQ; [cbn; now rewrite E3|exact H4|lia].
Qed.

Definition agg_step (acc : bytes) (t : token) : bytes := (match acc with [] => [] | _ => acc ++ b " " end) ++ token_display k t.
Lemma text_go ts e us s (Q : _ -> pst -> Prop) : g_aggregate ts -> rem0 (ts ++ (TRightBrace, e, true) :: us) s -> p_peek s = None ->
  (forall s', rem0 ((TRightBrace, e, true) :: us) s' -> tfm s' = false -> (exists e', pkd s' TRightBrace e') -> (measure s' <= measure s)%nat -> Q (aggregate_text k (map tk_tok ts)) s') ->
  go (parse_text_format_message k) s Q.
Proof.
  intros [Hb Hmk] H Hp HQ. unfold parse_text_format_message. apply wpe_bind. unfold get. unfold wpe at 1.
  apply wpe_bind, (dassert_wpe k src); [now rewrite Hp|apply H|]. intros s1 P Hp1 Hl1. apply wpe_bind. unfold wpe at 1, set_tfm. fold (tfm_on true s1).
  assert (H1 : remg true (ts ++ (TRightBrace, e, true) :: us) (tfm_on true s1)).
  { destruct H as (A & B & C & D). split; [|split; [reflexivity|]].
    - split; [apply tfm_on_inv, (pk_inv _ _ _ _ P)|]. split; [cbn; now rewrite Hl1|]. split; [rewrite tfm_on_sg, <- (pk_sg _ _ _ _ P); exact C|].
      apply tfm_on_mclean. unfold mclean_s in *. now rewrite Hp1, Hl1.
    - destruct ts as [|x ts]; [reflexivity|]. now inversion Hmk. }
  assert (M1 : (measure (tfm_on true s1) <= measure s)%nat) by (rewrite tfm_on_measure; apply (pk_meas _ _ _ _ P)).
  apply wpe_bind.
  apply (loop_wpe _ (fun a s2 => (measure s2 <= measure s)%nat /\ exists ts2, remg true (ts2 ++ (TRightBrace, e, true) :: us) s2 /\ Forall (fun x => tk_mark x = true) ts2 /\
     balanced (fst a) (map tk_tok ts2) /\ fold_left agg_step (map tk_tok ts2) (snd a) = aggregate_text k (map tk_tok ts))).
  2:{ split; [exact M1|]. exists ts. split; [exact H1|]. split; [exact Hmk|]. split; [exact Hb|reflexivity]. }
  clear - HQ. intros [level acc] s2 (M2 & ts2 & H2 & Hmk & Hb & Ef). cbn [fst snd] in *. apply wpe_bind. eapply peek_go; [exact H2|]. intros r s3 H3 Hr Hs M3.
  destruct ts2 as [|x ts2]; cbn [app] in *; see Hs.
  - cbn [map] in Hb. unfold balanced in Hb. subst level. cbn [N.eqb]. apply wpe_ret, wpe_bind. unfold wpe at 1, set_tfm. apply wpe_ret. cbn in Ef. subst acc. fold (tfm_on false s3). apply HQ.
    + destruct H3 as ((A & B & C & D) & _). split; [now apply tfm_on_inv|]. repeat split; auto.
    + reflexivity.
    + exists sp'. exact Hr.
    + rewrite tfm_on_measure. lia.
  - inversion Hmk as [|? ? Hx Hmk']; subst. cbn [map fold_left] in *.
    assert (Hh : hd false (marks (ts2 ++ (TRightBrace, e, true) :: us)) = true) by (destruct ts2; [reflexivity|now inversion Hmk']).
    assert (Hgo : forall level' (QQ : _ -> pst -> Prop), balanced level' (map tk_tok ts2) ->
      (forall s', (measure s' < measure s2)%nat -> remg true (ts2 ++ (TRightBrace, e, true) :: us) s' -> QQ (inl (level', agg_step acc (tk_tok x))) s') ->
      go (bump ;;; ret (inl (B := bytes) (level', (match acc with [] => [] | _ => acc ++ [32] end) ++ token_display k (tk_tok x)))) s3 QQ).
    { intros level' QQ Hb' HQQ. apply wpe_bind. eapply bump_go; [exact H3|exact Hr|exact Hh|]. intros s4 H4 _ M4. apply wpe_ret, HQQ; [lia|exact H4]. }
    destruct (tk_tok x); cbn [balanced] in Hb; try destruct Hb as [Hb1 Hb]; try (rewrite (proj2 (N.eqb_neq level 0) Hb1));
      (eapply Hgo; [exact Hb|]; intros s4 M4 H4; cbn [fst snd]; split; [|exact M4]; split; [lia|]; exists ts2; auto).
Qed.
Lemma optval_go : complete er_optval (g_optval k) no_string (parse_option_value k).
Proof.
  intros ts a us s Q G HT Hm H HQ. unfold parse_option_value. apply wpe_bind. eapply skip_go; [exact H|]. intros r s1 H1 Hr Hs M1.
  assert (Hid : forall v sp s2 (F : ident -> optval), rem (sym (TIdent v) sp ++ us) s2 -> (measure s2 <= measure s)%nat -> (forall i, id_val i = v -> er_optval (F i) = er_optval a) ->
    go (i <- parse_ident k ;; ret (F i)) s2 Q).
  { intros v sp s2 F H2 M2 HF. apply wpe_bind. eapply ident_go; [constructor|exact I|exact Hm|exact H2|]. intros i s3 E H3 M3. apply wpe_ret, HQ; [|exact H3|lia]. apply HF. unfold er_ident in E. cbn in E. congruence. }
  destruct G as [v sp|st v sp|ts i G|v sp|st v sp|ts x G|st ts e G].
  - see Hs. eapply (Hid v sp _ (fun i => OVIdent false i sp')); [exact H1|exact M1|]. intros i <-. reflexivity.
  - rewrite <- app_assoc in H1. see Hs. apply wpe_bind. eapply bump_go; [exact H1|exact Hr|mk|]. intros s2 H2 _ M2. apply wpe_bind. eapply skip_go; [exact H2|]. intros r3 s3 H3 Hr3 Hs3 M3. see Hs3.
    eapply (Hid v sp _ (fun i => OVIdent true i _)); [exact H3|lia|]. intros i <-. reflexivity.
  - destruct G as [v sp|st v sp].
    + see Hs. apply wpe_bind. eapply bump_go; [exact H1|exact Hr|mk|]. intros s2 H2 _ M2. apply wpe_ret, HQ; [reflexivity|exact H2|lia].
    + rewrite <- app_assoc in H1. see Hs. apply wpe_bind. eapply bump_go; [exact H1|exact Hr|mk|]. intros s2 H2 _ M2. apply wpe_bind. eapply skip_go; [exact H2|]. intros r3 s3 H3 Hr3 Hs3 M3. see Hs3.
      apply wpe_bind. eapply bump_go; [exact H3|exact Hr3|mk|]. intros s4 H4 _ M4. apply wpe_ret, HQ; [reflexivity|exact H4|lia].
  - see Hs. apply wpe_bind. eapply bump_go; [exact H1|exact Hr|mk|]. intros s2 H2 _ M2. apply wpe_ret, HQ; [reflexivity|exact H2|lia].
  - rewrite <- app_assoc in H1. see Hs. apply wpe_bind. eapply bump_go; [exact H1|exact Hr|mk|]. intros s2 H2 _ M2. apply wpe_bind. eapply skip_go; [exact H2|]. intros r3 s3 H3 Hr3 Hs3 M3. see Hs3.
    apply wpe_bind. eapply bump_go; [exact H3|exact Hr3|mk|]. intros s4 H4 _ M4. apply wpe_ret, HQ; [reflexivity|exact H4|lia].
  - assert (Hd : exists v sp, r = Some (TStr v, sp)) by (destruct G; see Hs; eauto). destruct Hd as (v & sp & ->). 
    apply wpe_bind. eapply string_go; [exact G| | |exact H1|]; [exact HT|exact Hm|]. intros x' s2 E H2 M2. apply wpe_ret, HQ; [cbn; now rewrite E|exact H2|lia].
  - rewrite <- !app_assoc in H1. see Hs. apply wpe_bind. destruct H1 as (H1 & Ht1 & _). eapply bump_go0; [exact H1|exact Hr|]. intros s2 H2 Ht2 Hp2 M2.
    apply wpe_bind. eapply text_go; [exact G|exact H2|exact Hp2|]. intros s3 H3 Ht3 (e' & Hp3) M3.
    apply wpe_bind. unfold expect_eq. apply wpe_bind, (peek_skip_hit_wpe k _ _ TRightBrace e'); [exact Hp3|]. cbn [token_eqb].
    eapply bump_go0; [exact H3|exact Hp3|]. intros s4 H4 Ht4 _ M4. apply wpe_ret, HQ; [reflexivity| |lia]. split; [exact H4|]. split; [congruence|exact Hm].
Qed.
Lemma first_sym t sp us : first_tok (sym t sp ++ us) = Some t.
Proof. reflexivity. Qed.
Lemma obody_go : complete er_optbody (g_option_body k) no_string (parse_option_body k).
Proof.
  intros ts a us s Q G HT Hm H HQ. destruct G as [ts n sp ts' v G1 G2]. rewrite <- !app_assoc in H. unfold parse_option_body. apply loop_bind, wpe_bind.
  eapply (sep_go er_part g_optname_part (fun _ => any)); [apply complete_iff, part_go|exact G1|exact mark0_part|intros; exact I|intros; exact I| | |exact H|]; [reflexivity|rewrite first_sym; discriminate|].
  intros x r s1 Hs H1 Hr E M. see Hs. cbn [at_ token_eqb]. apply wpe_bind. eapply bump_go; [exact H1|exact Hr|mk|]. intros s2 H2 _ M2. apply wpe_ret.
  apply wpe_bind. eapply optval_go; [exact G2| | |exact H2|]; [exact HT|exact Hm|]. intros v' s3 E3 H3 M3. apply wpe_ret, HQ; [|exact H3|lia]. unfold er_optbody. cbn. now rewrite E, E3.
Qed.
Lemma no_string_sym t sp us : (forall v, t <> TStr v) -> no_string (sym t sp ++ us).
Proof. intros H v [= E]. now apply (H v). Qed.
Ltac ns := apply no_string_sym; discriminate.
Lemma option_go : complete er_option (g_option k) any (parse_option k).
Proof.
  intros ts a us s Q G _ Hm H HQ. destruct G as [st ts o e c G _]. rewrite <- !app_assoc in H. unfold parse_option. apply wpe_bind. eapply lead_go; [exact H|]. intros lead s0 H0 M0.
  apply wpe_bind. eapply expect_go; [exact H0|mk|]. intros st' s1 H1 M1. apply wpe_bind. eapply obody_go; [exact G| | |exact H1|]; [ns|reflexivity|]. intros o' s2 E2 H2 M2.
  apply wpe_bind. eapply expect_go; [exact H2|exact Hm|]. intros e' s3 H3 M3. apply wpe_bind. eapply trail_go; [exact H3|]. intros c' s4 H4 M4.
  apply wpe_ret, HQ; [|exact H4|lia]. unfold er_option. cbn. now rewrite E2.
Qed.
Lemma ol_go : complete er_ol (g_options_list k) any (parse_options_list k).
Proof.
  intros ts a us s Q G _ Hm H HQ. destruct G as [st ts os e G]. rewrite <- !app_assoc in H. unfold parse_options_list. apply wpe_bind. eapply expect_go; [exact H|mk|]. intros st' s1 H1 M1.
  apply loop_bind, wpe_bind.
  eapply (sep_go er_optbody (g_option_body k) (fun _ => no_string)); [apply complete_iff, obody_go|exact G|exact mark0_obody| | | | |exact H1|].
  - intros _ us' E v. congruence.
  - intros. ns.
  - reflexivity.
  - rewrite first_sym. discriminate.
  - intros x r s2 Hs H2 Hr E M. see Hs. cbn [at_ token_eqb]. apply wpe_bind. eapply bump_go; [exact H2|exact Hr|exact Hm|]. intros s3 H3 _ M3. apply wpe_ret, wpe_ret, HQ; [|exact H3|lia].
    unfold er_ol. cbn. now rewrite E.
Qed.
(** Optional options, followed by [term]. *)
Lemma oo_go term ex ts a us s (Q : _ -> pst -> Prop) : term <> TLeftBracket -> g_opt_options k ts a -> first_tok us = Some term -> mark0 us -> rem (ts ++ us) s ->
  (forall a' s', er_optlist a' = er_optlist a -> rem us s' -> (measure s' <= measure s)%nat -> Q a' s') -> go (parse_opt_options k term ex) s Q.
Proof.
  intros Hterm G HT Hm H HQ. unfold parse_opt_options. apply wpe_bind. eapply skip_go; [exact H|]. intros r s1 H1 Hr Hs M1. destruct G as [|ts o G].
  - cbn [app] in *. unfold seen in Hs. rewrite HT in Hs. destruct r as [[t sp]|]; [|discriminate]. cbn in Hs. injection Hs as ->. cbn [at_].
    replace (token_eqb term TLeftBracket) with false by (destruct (token_eqb term TLeftBracket) eqn:E; auto; apply token_eqb_eq in E; contradiction).
    rewrite token_eqb_refl. apply wpe_ret, HQ; auto.
  - assert (Hd : exists sp, r = Some (TLeftBracket, sp)) by (destruct G; see Hs; eauto). destruct Hd as (sp & ->). cbn [at_ token_eqb].
    apply wpe_bind. eapply ol_go; [exact G| | |exact H1|]; [exact I|exact Hm|]. intros o' s2 E H2 M2. apply wpe_ret, HQ; [cbn; now rewrite E|exact H2|lia].
Qed.

(** ** Ranges *)
Definition after (r : rrange) (us : list tk) : Prop := rr_end r = RENone -> first_tok us = Some TComma \/ first_tok us = Some TSemicolon.
Lemma range_go : complete_if er_range g_range after (parse_reserved_range k).
Proof.
  intros ts a us s Q G HT Hm H HQ. unfold parse_reserved_range. destruct G as [ts i G|ts i sp ts' j G G2|ts i sp e G]; rewrite <- ?app_assoc in H; apply wpe_bind; (eapply int_go; [exact G| | |exact H|]; [exact I|mk|]);
    intros i' s1 E1 H1 M1; apply wpe_bind; (eapply skip_go; [exact H1|]); intros r s2 H2 Hr Hs M2; apply wpe_bind.
  - destruct (HT eq_refl) as [Hf|Hf]; unfold seen in Hs; rewrite Hf in Hs; (destruct r as [[t sp]|]; [|discriminate]); injection Hs as ->; cbn [at_ token_eqb kw orb]; apply wpe_ret, wpe_ret, HQ; auto; try lia;
      unfold er_range; cbn; now rewrite E1.
  - see Hs. change (at_ (Some (kw "to", sp')) (kw "to")) with true. cbn match. apply wpe_bind. eapply bump_go; [exact H2|exact Hr|mk|]. intros s3 H3 _ M3.
    apply wpe_bind. eapply skip_go; [exact H3|]. intros r4 s4 H4 Hr4 Hs4 M4.
    assert (Gi : go (i0 <- parse_int k ;; ret (REInt i0)) s4 (fun e s' => go (ret {| rr_start := i'; rr_end := e |}) s' Q)).
    { apply wpe_bind. eapply int_go; [exact G2| | |exact H4|]; [exact I|exact Hm|]. intros j' s5 E5 H5 M5. apply wpe_ret, wpe_ret, HQ; [|exact H5|lia]. unfold er_range. cbn. now rewrite E1, E5. }
    destruct G2; see Hs4; exact Gi.
  - see Hs. change (at_ (Some (kw "to", sp')) (kw "to")) with true. cbn match. apply wpe_bind. eapply bump_go; [exact H2|exact Hr|mk|]. intros s3 H3 _ M3.
    apply wpe_bind. eapply skip_go; [exact H3|]. intros r4 s4 H4 Hr4 Hs4 M4. see Hs4. change (token_eqb (kw "max") (kw "max")) with true.
    apply wpe_bind. eapply bump_go; [exact H4|exact Hr4|exact Hm|]. intros s5 H5 _ M5. apply wpe_ret, wpe_ret, HQ; [|exact H5|lia]. unfold er_range. cbn. now rewrite E1.
Qed.

Lemma ranges_go terms ts a us s (Q : _ -> pst -> Prop) : g_sep TComma g_range ts a -> follows terms us -> first_tok us <> Some TComma -> (forall l r, a = l ++ [r] -> after r us) -> mark0 us ->
  rem (ts ++ us) s -> (forall a' s', map er_range a' = map er_range a -> rem us s' -> (measure s' < measure s)%nat -> Q a' s') -> go (parse_reserved_ranges k terms) s Q.
Proof.
  intros G HT Hc Ha Hm H HQ. unfold parse_reserved_ranges.
  eapply (sep_go er_range g_range after); [exact range_go|exact G|exact mark0_range|intros r us' E _; auto|exact Ha|exact Hm|exact Hc|exact H|].
  intros x r s1 Hs H1 Hr E M. cbv beta. destruct (seen_term _ _ _ HT Hs) as [-> _]. apply wpe_ret, HQ; auto.
Qed.
Lemma at_kw_self w sp : at_ (Some (kw w, sp)) (kw w) = true.
Proof. apply token_eqb_refl. Qed.
Lemma reserved_go : complete er_reserved g_reserved any (parse_reserved k).
Proof.
  intros ts a us s Q G _ Hm H HQ. unfold parse_reserved. apply wpe_bind. eapply lead_go; [exact H|]. intros lead s0 H0 M0. destruct G as [st ts l e c G _|st ts l e c G _]; rewrite <- !app_assoc in H0.
  - apply wpe_bind. eapply expect_go; [exact H0|mk|]. intros st' s1 H1 M1. apply wpe_bind. eapply skip_go; [exact H1|]. intros r s2 H2 Hr Hs M2.
    assert (Hd : at_int_or_minus r = true).
    { apply sep_many in G. destruct G as (ts1 & x & ts2 & l' & -> & _ & G & _). rewrite <- !app_assoc in Hs. destruct G as [ts0 i G|ts0 i sp ts0' j G _|ts0 i sp e0 G]; destruct G; rewrite <- ?app_assoc in Hs; see Hs; reflexivity. }
    rewrite Hd. apply wpe_bind. eapply ranges_go; [exact G| | | | |exact H2|]; [apply follows_tok; discriminate|rewrite first_sym; discriminate|intros; intros _; rewrite first_sym; auto|mk|]. intros l' s3 E3 H3 M3.
    apply wpe_bind. eapply expect_go; [exact H3|exact Hm|]. intros e' s4 H4 M4. apply wpe_bind. eapply trail_go; [exact H4|]. intros c' s5 H5 M5.
    apply wpe_ret, HQ; [|exact H5|lia]. unfold er_reserved. cbn. now rewrite E3.
  - apply wpe_bind. eapply expect_go; [exact H0|mk|]. intros st' s1 H1 M1. apply wpe_bind. eapply skip_go; [exact H1|]. intros r s2 H2 Hr Hs M2.
    assert (Hd : exists v sp, r = Some (TStr v, sp)).
    { apply sep_many in G. destruct G as (ts1 & x & ts2 & l' & -> & _ & G & _). rewrite <- !app_assoc in Hs. destruct G as [? ? ? G _]. inversion G as [? ? G' _]; subst. destruct G'; rewrite <- ?app_assoc in Hs; see Hs; eauto. }
    destruct Hd as (v & sp & ->). cbn [at_int_or_minus at_string]. apply wpe_bind. unfold parse_reserved_names.
    eapply (sep_go er_ident g_ident_string (fun _ => no_string)); [apply complete_iff, idstr_go|exact G|exact mark0_idstr|intros x us' E; congruence| | | |exact H2|].
    + intros. ns.
    + reflexivity.
    + rewrite first_sym. discriminate.
    + intros x r s3 Hs3 H3 Hr3 E M3. see Hs3. cbn [at_ token_eqb]. apply wpe_bind. eapply bump_go; [exact H3|exact Hr3|exact Hm|]. intros s4 H4 _ M4. apply wpe_ret.
      apply wpe_bind. eapply trail_go; [exact H4|]. intros c' s5 H5 M5. apply wpe_ret, HQ; [|exact H5|lia]. unfold er_reserved. cbn. now rewrite E.
Qed.
Lemma extensions_go : complete er_extensions (g_extensions k) any (parse_extensions k).
Proof.
  intros ts a us s Q G _ Hm H HQ. destruct G as [st ts l os o e c G1 G2 Ho _]. rewrite <- !app_assoc in H. unfold parse_extensions. apply wpe_bind. eapply lead_go; [exact H|]. intros lead s0 H0 M0.
  apply wpe_bind. eapply expect_go; [exact H0|mk|]. intros st' s1 H1 M1. apply wpe_bind.
  assert (Hf : first_tok (os ++ sym TSemicolon e ++ us) = Some TSemicolon /\ o = None \/ first_tok (os ++ sym TSemicolon e ++ us) = Some TLeftBracket /\ exists l' r, l = l' ++ [r] /\ rr_end r <> RENone).
  { destruct G2 as [|os o' G2]; [left; auto|right]. destruct Ho as [Ho|Ho]; [discriminate|]. split; auto. destruct G2. reflexivity. }
  eapply ranges_go; [exact G1| | | | |exact H1|]; [| | |mk|].
  - destruct Hf as [[E _]|[E _]]; eexists; (split; [exact E|]); split; try reflexivity; discriminate.
  - destruct Hf as [[-> _]|[-> _]]; discriminate.
  - intros l' r -> Hn. destruct Hf as [[-> _]|[_ (l2 & r2 & E2 & Hn2)]]; [auto|]. apply app_inj_tail in E2. destruct E2 as [_ ->]. contradiction.
  - intros l' s2 E2 H2 M2. apply wpe_bind. eapply oo_go; [|exact G2| | |exact H2|]; [discriminate|reflexivity|mk|]. intros o' s3 E3 H3 M3.
    apply wpe_bind. eapply expect_go; [exact H3|exact Hm|]. intros e' s4 H4 M4. apply wpe_bind. eapply trail_go; [exact H4|]. intros c' s5 H5 M5.
    apply wpe_ret, HQ; [|exact H5|lia]. unfold er_extensions. cbn. now rewrite E2, E3.
Qed.
End Complete.
