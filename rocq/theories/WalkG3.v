(** The parser accepts only sentences of the grammar: the file level, and the
    soundness theorem. *)
From Coq Require Import ZifyBool ZifyN.
From Verif Require Import Base Utf8 Errors Lex LexSpec PropsLex1 LexSafe Stream Ast Comments Parse Grammar Utf8Spec Classify SynSpec Utf8Lossy LexErr Walk WalkG1 WalkG2.

Section WalkG3.
Variable k : cfg.
Variable src : bytes.
Notation Inv := (Inv k src).
Notation advg := (advg k src).
Notation adv := (advg false false).
Notation pk := (pk k src).
Notation okn := (okn k src).
Notation wp n m s Q := (wpe m s (bad k src n) Q).
Notation sg := (sg k).
Notation rdy := (rdy k src).
Notation fresh := (fresh k src).
Local Instance com_src3 : comspec := com_of k src.

Ltac okk := match goal with
  | O : okn ?n ?s |- Walk.okn _ _ ?n ?s => exact O
  | O : okn ?n ?s |- Walk.Inv _ _ ?s => exact (proj1 O)
  end.
Ltac jp P := 
  match type of P with Walk.pk _ _ ?s ?s1 =>
    match goal with
    | A : Walk.advg _ _ false false ?s0 ?TS s, O : okn ?n s |- _ =>
      let O2 := fresh "O" in let A2 := fresh "A" in let E := fresh "E" in
      pose proof (pk_okn _ _ _ _ _ O P) as O2; pose proof (adv_pk _ _ _ _ _ _ _ _ A P) as A2; pose proof (pk_errs _ _ _ _ P) as E;
      clear A O P
    end end.
Ltac ja B := 
  match type of B with Walk.advg _ _ _ _ ?s ?ts ?s1 =>
    match goal with
    | A : Walk.advg _ _ false false ?s0 ?TS s, O : okn ?n s |- _ =>
      let O2 := fresh "O" in let A2 := fresh "A" in let E := fresh "E" in
      pose proof (adv_okn _ _ _ _ _ _ _ _ O B) as O2; pose proof (adv_trans _ _ _ _ _ _ _ _ _ _ A B) as A2; pose proof (av_errs _ _ _ _ _ _ _ B) as E;
      clear A O B; rewrite <- ?app_assoc in A2; cbn [app] in A2
    end end.
Ltac start := match goal with O : okn ?n ?s |- _ => let A := fresh "A" in pose proof (adv_refl _ _ false s (proj1 O)) as A end.
(** Report the token in the lookahead. *)
Ltac unexp := match goal with Hr : peeked ?s ?r |- wpe (unexpected_token _ _) ?s _ _ =>
    apply (unexpected_wp k src _ _ _ r); [okk|exact Hr|lazy; reflexivity|
      let t := fresh "t" in let sp := fresh "sp" in let E := fresh "E" in intros t sp E;
      first [discriminate E|clear - E; injection E as <- _; lazy -[bytes_eqb]; reflexivity|subst r; not_listed t|match r with Some (?t', _) => injection E as <- _; not_listed t' end]]
  end.
Ltac unexp_t := match goal with Hr : peeked ?s ?r, L : lists _ _ _ |- wpe (unexpected_token _ _) ?s _ _ =>
    apply (unexpected_wp k src _ _ _ r); [okk|exact Hr|apply L|intros ? ? ->; apply L; unfold not_in; cbn [at_ at_terminator existsb et_matches] in *]
  end.
Ltac use_errs := repeat match goal with H : errs ?x = [] -> _, He : errs ?x = [] |- _ => specialize (H He) end.
Ltac nilr := match goal with A : Walk.advg _ _ false false _ _ _ |- _ => rewrite ?app_nil_r in A end.
Ltac kwstart lead :=
  match goal with Hi : Walk.Inv _ _ ?s, Hm : (measure ?s <= S ?n)%nat, Hrd : Walk.rdy _ _ ?s, Hp : pkd ?s _ _ |- _ =>
    let s1 := fresh "s" in let P := fresh "P" in let Hp1 := fresh "Hp" in let M1 := fresh "M" in let L1 := fresh "L" in
    apply wpe_bind; eapply leading_wpe; [exact Hi|exact Hrd|exact Hp|]; intros lead s1 P Hp1 M1 L1;
    let s2 := fresh "s" in let B := fresh "B" in let M2 := fresh "M" in
    apply wpe_bind; eapply expect_hit_wpe; [apply (pk_inv _ _ _ _ P)|exact Hp1|]; intros s2 B M2;
    let A := fresh "A" in pose proof (pk_adv_trans _ _ _ _ _ _ _ _ P B) as A; 
    let O := fresh "O" in assert (O : okn n s2) by (split; [apply (av_inv _ _ _ _ _ _ _ A)|lia]);
    let E := fresh "E" in pose proof (av_errs _ _ _ _ _ _ _ B) as E;
    clear P B
  end.
(** Steps of the form "run a sub-parser whose lemma is L". *)
Ltac sub L ts a s G := apply wpe_bind; apply L; [try exact _..|okk|]; let B := fresh "B" in intros ts a s B G; ja B.
Ltac ex e s := apply wpe_bind; apply expect_wp; [exact _|okk|]; let B := fresh "B" in intros e s B; ja B.
(** A token after which comments are collected, and its trailing comment. *)
Ltac exf e s F := apply wpe_bind, expect_fr; [exact _|okk|]; let B := fresh "B" in intros e s B F; ja B.
Ltac tr F c s R K := apply wpe_bind; eapply (trailing_fr k src); [okk|exact F|]; let P := fresh "P" in intros c s P R K; jp P.
Ltac fin HQ := apply wpe_ret; eapply HQ; [eassumption|..].
(** Comments are right: the hypothesis from [trailing_fr] applied to that of [leading_wpe]. *)
Ltac comok := match goal with K : forall st, lead_ok _ _ st ?lead -> Walk.com_of _ _ st _ _, L : lead_ok _ _ _ ?lead |- com _ _ _ => exact (K _ L) end.
Ltac con := constructor; auto; try comok.

(** ** Where a package statement stands *)
Fixpoint schain (lo : N) (l : list (option token * span)) : Prop :=
  match l with [] => True | (_, sp) :: l' => lo <= s_start sp /\ s_start sp < s_end sp /\ schain (s_end sp) l' end.
Lemma schain_weaken lo lo' l : lo' <= lo -> schain lo l -> schain lo' l.
Proof. destruct l as [|[t sp] l]; cbn [schain]; [auto|]. intros H (H1 & H2 & H3). repeat split; auto. lia. Qed.
Lemma sigs_schain : schain 0 (sigs (stream k src 0)).
Proof.
  pose proof (stream_tiles k (canon false src 0)) as H. change (tiles 0 src (stream k src 0)) in H. induction H as [|off w x rest t ts Hw Hx H IH]; [exact I|].
  assert (Hl : 0 < len x) by (destruct x; [congruence|rewrite len_cons; lia]).
  unfold sigs. cbn [filter]. fold (sigs ts). destruct (significant _); [cbn [schain s_start s_end fst snd]; repeat split; [lia|lia|exact IH]|eapply schain_weaken; [|exact IH]; lia].
Qed.
Lemma schain_mid lo A t sp B : schain lo (A ++ (t, sp) :: B) -> lo <= s_start sp /\ s_start sp < s_end sp /\ schain (s_end sp) B.
Proof.
  revert lo. induction A as [|[u v] A IH]; cbn [app schain]; intros lo (H1 & H2 & H3); [auto|]. destruct (IH _ H3) as (H4 & H5 & H6). repeat split; auto. lia.
Qed.
Lemma schain_ordered lo A1 t1 s1 A2 B1 t2 s2 B2 : schain lo (A1 ++ (t1, s1) :: A2) -> A1 ++ (t1, s1) :: A2 = B1 ++ (t2, s2) :: B2 -> t1 <> t2 -> s_end s1 <= s_end s2 -> s_end s1 <= s_start s2.
Proof.
  revert lo B1. induction A1 as [|x A1 IH]; intros lo [|y B1] H E Ht Hs; cbn [app] in *.
  - congruence.
  - injection E as <- ->. cbn [schain] in H. destruct H as (_ & _ & H). apply schain_mid in H. lia.
  - injection E as -> <-. cbn [schain] in H. destruct H as (_ & _ & H). apply schain_mid in H. lia.
  - injection E as <- E. destruct x as [u v]. cbn [schain] in H. destruct H as (_ & _ & H). eapply IH; eauto.
Qed.
Lemma pos_mono s s' : Inv s -> Inv s' -> (measure s' <= measure s)%nat -> l_end (p_lex s) <= l_end (p_lex s').
Proof.
  intros H1 H2 Hm. destruct (iv_split _ _ _ H1) as (p & E1 & E2). destruct (iv_split _ _ _ H2) as (q & E3 & E4).
  pose proof (f_equal len E1) as L1. pose proof (f_equal len E3) as L3. rewrite len_app in L1, L3. rewrite E2, E4.
  unfold measure in Hm. assert (Hr : (length (l_rest (p_lex s')) <= length (l_rest (p_lex s)))%nat) by (destruct (p_peek s), (p_peek s'); lia). unfold len in *. lia.
Qed.
(** The package statement [p] ends before [s'], and its keyword does not before [lo]. *)
Definition package_from (lo : N) (p : package) (s' : pst) : Prop :=
  span_ok (len src) (pk_span p) /\ exists p1 st p2 e p3, sigs (stream k src 0) = p1 ++ (Some (kw "package"), st) :: p2 ++ (Some TSemicolon, e) :: p3 /\ pk_span p = join_span st e /\
    lo <= s_end st /\ s_end e <= l_end (p_lex s').
Lemma package_from_at lo p s : package_from lo p s -> package_at k src (pk_span p).
Proof. intros (_ & p1 & st & p2 & e & p3 & H1 & H2 & _). exists p1, st, p2, e, p3. auto. Qed.
Lemma package_from_later lo p s s' : l_end (p_lex s) <= l_end (p_lex s') -> package_from lo p s -> package_from 0 p s'.
Proof. intros H (H0 & p1 & st & p2 & e & p3 & H1 & H2 & H3 & H4). split; [exact H0|]. exists p1, st, p2, e, p3. repeat split; auto; lia. Qed.
Lemma package_from_order lo x y s s' : package_from lo x s -> package_from (l_end (p_lex s)) y s' -> s_end (pk_span x) <= s_start (pk_span y).
Proof.
  intros (_ & p1 & st & p2 & e & p3 & H1 & H2 & H3 & H4) (_ & q1 & st' & q2 & e' & q3 & K1 & K2 & K3 & K4). rewrite H2, K2. unfold join_span. cbn [s_start s_end fst snd].
  assert (H1' : sigs (stream k src 0) = (p1 ++ (Some (kw "package"), st) :: p2) ++ (Some TSemicolon, e) :: p3) by (rewrite H1, <- app_assoc; reflexivity).
  pose proof sigs_schain as C. rewrite H1' in C. eapply schain_ordered; [exact C|rewrite <- H1'; exact K1|discriminate|lia].
Qed.

Lemma package_wp n s sp (Q : _ -> pst -> Prop) : Inv s -> (measure s <= S n)%nat -> rdy s -> pkd s (kw "package") sp ->
  (forall ts a s', adv s ts s' -> ts <> [] -> rdy s' -> package_from (l_end (p_lex s)) a s' -> (errs s' = [] -> g_package ts a) -> Q a s') -> wp n (parse_package k) s Q.
Proof.
  intros Hi Hm Hrd Hp HQ. unfold parse_package. kwstart lead. sub full_ident_wp ts1 nm s2 G1. exf e2 s3 F3.
  assert (He3 : s_end e2 = l_end (p_lex s3)) by apply F3. assert (I3 : Inv s3) by okk. apply wpe_bind; eapply (trailing_fr k src); [okk|exact F3|]; intros c s4 PP R4 K4.
  assert (He2 : s_end e2 <= l_end (p_lex s4)) by (rewrite He3; apply pos_mono; [exact I3|apply (pk_inv _ _ _ _ PP)|apply (pk_meas _ _ _ _ PP)]). jp PP.
  fin HQ; [discriminate|exact R4| |].
  - match goal with A : Walk.advg _ _ _ _ s _ s4 |- _ => rename A into AA end. destruct (iv_suffix _ _ _ Hi) as (L0 & HL). split.
    + destruct (adv_chain _ _ _ _ _ _ _ Hi AA) as (lo & Hch). destruct (chain_span _ _ _ Hch ltac:(discriminate)) as (C1 & C2 & C3). revert C1 C2 C3. cbn [pk_span sym app first_span tk_span fst snd].
      rewrite last_span_cons by (intros Ez; apply app_eq_nil in Ez; destruct Ez; discriminate). rewrite last_span_app by discriminate. cbn [last_span last tk_span fst snd]. intros. split; unfold join_span; cbn [s_start s_end fst snd]; assumption.
    + exists (sigs L0), sp, (map inj ts1), e2, (sg s4). split; [|split; [reflexivity|split]].
      * rewrite HL. unfold sigs at 1. rewrite filter_app. f_equal. change (sg s = inj (kw "package", sp, false) :: map inj ts1 ++ inj (TSemicolon, e2, false) :: sg s4). rewrite (av_sg _ _ _ _ _ _ _ AA). unfold sym. cbn [app map]. rewrite map_app, <- app_assoc. reflexivity.
      * destruct Hp as [Ep _]. pose proof (iv_peek _ _ _ Hi) as Hsp. rewrite Ep in Hsp. subst sp. cbn [s_end snd]. lia.
      * exact He2.
  - intros He. use_errs. con.
Qed.

Lemma import_kind_wp n s (Q : _ -> pst -> Prop) : okn n s -> (forall ts a s', adv s ts s' -> g_import_kind ts a -> Q a s') -> wp n (parse_import_kind k) s Q.
Proof.
  intros O HQ. start. unfold parse_import_kind. apply wpe_bind, peek_skip_wp; [okk|]. intros r s1 PP Hr. jp PP.
  destruct r as [[t sp]|]; [|unexp].
  assert (G : is_str t = false -> wp n (if token_eqb t (kw "weak") then bump ;;; ret (Some (IWeak, sp)) else if token_eqb t (kw "public") then bump ;;; ret (Some (IPublic, sp))
    else unexpected_token k (b "a string literal, 'public' or 'weak'")) s1 Q).
  { intros X0. destruct (token_eqb t (kw "weak")) eqn:X1; [|destruct (token_eqb t (kw "public")) eqn:X2; [|unexp]]; [apply token_eqb_eq in X1|apply token_eqb_eq in X2]; subst t;
      apply wpe_bind; (eapply bump_adv; [okk|exact Hr|]); intros s2 B; ja B; (fin HQ; constructor). }
  destruct t; auto. fin HQ. constructor.
Qed.

Lemma import_wp n s sp (Q : _ -> pst -> Prop) : Inv s -> (measure s <= S n)%nat -> rdy s -> pkd s (kw "import") sp ->
  (forall ts a s', adv s ts s' -> ts <> [] -> rdy s' -> (errs s' = [] -> g_import ts a) -> Q a s') -> wp n (parse_import k) s Q.
Proof.
  intros Hi Hm Hrd Hp HQ. unfold parse_import. kwstart lead. sub import_kind_wp ts1 ik s2 G1.
  apply wpe_bind, utf8_string_wp; [okk|]. intros ts2 [v vsp] s3 B _ Hsp Hat G2. cbn [fst snd] in Hsp, Hat. ja B. apply wpe_bind.
  assert (Gk : forall sx, adv s (sym (kw "import") sp ++ ts1 ++ ts2) sx -> okn n sx -> (errs sx = [] -> g_utf8_string ts2 (v, vsp) /\ relative_path v /\ lead_ok k src sp lead) ->
    wp n (e <- expect_eq k TSemicolon;; c <- parse_trailing_comment k lead;; ret {| im_kind := ik; im_value := v; im_value_span := vsp; im_comments := c; im_span := join_span sp e |}) sx Q).
  { clear - HQ G1. intros s1 A O Hv. exf e1 s2 F2. tr F2 c s3 R3 K3. fin HQ; [discriminate|exact R3|]. intros He. use_errs. destruct Hv as (Hv1 & Hv2 & Hv3). con. }
  destruct (is_valid_import v) eqn:Ev.
  - apply wpe_ret, Gk; [assumption|okk|intros He; use_errs; split; [auto|split; [now apply valid_import_iff|auto]]].
  - apply (add_error_wpe k src); [split; [constructor; [auto|constructor]|destruct Hat as (u & H1 & H2); exists u, v; split; [exact H1|]; split; [exact H2|]; rewrite <- valid_import_iff; congruence]|reflexivity|okk|]. intros s4 B Hne _ _ _ _. specialize (B false). ja B. nilr.
    apply Gk; [assumption|okk|]. intros He. contradiction.
Qed.

Ltac nonnil := solve [discriminate | assumption | let Ez := fresh in intros Ez; repeat (apply app_eq_nil in Ez; destruct Ez as [? Ez]); (discriminate || tauto || congruence)].
Ltac lasts := repeat first [rewrite last_span_cons by nonnil | rewrite last_span_app by nonnil].

Lemma syntax_wp n s sp (Q : _ -> pst -> Prop) : Inv s -> (measure s <= S n)%nat -> rdy s -> pkd s (kw "syntax") sp ->
  (forall ts sx xsp c s', adv s ts s' -> ts <> [] -> rdy s' -> xsp = join_span (first_span ts) (last_span ts) -> (errs s' = [] -> g_syntax ts sx (Some (xsp, c))) -> Q (sx, xsp, c) s') -> wp n (parse_syntax k) s Q.
Proof.
  intros Hi Hm Hrd Hp HQ. unfold parse_syntax. kwstart lead. ex e1 s2. apply wpe_bind, peek_wp; [okk|]. intros r s3 PP Hr. jp PP. apply wpe_bind.
  destruct (at_string r) eqn:X0; [|unexp].
  assert (I3 : Inv s3) by okk. apply wpe_bind, string_wp; [okk|]. intros ts3 v s4 B G3. pose proof (adv_chain _ _ _ _ _ _ _ I3 B) as (lo & Hc).
  destruct (g_string_span _ _ _ _ G3 Hc) as (_ & S1 & S2). pose proof (string_at_adv _ _ _ _ _ _ _ _ I3 B G3) as Hat. ja B.
  assert (Gk : forall sx, st_val v = syntax_text sx -> wp n (e <- expect_eq k TSemicolon;; c <- parse_trailing_comment k lead;; ret (sx, join_span sp e, c)) s4 Q).
  { intros sx Hv. exf e4 s5 F5. tr F5 c s6 R6 K6. apply wpe_ret. eapply HQ; [eassumption|discriminate|exact R6| |intros He; use_errs; econstructor; try eassumption; comok].
    cbn [app sym first_span tk_span fst snd]. lasts. reflexivity. }
  destruct (bytes_eqb (st_val v) (b "proto2")) eqn:X1; [apply bytes_eqb_eq in X1; apply wpe_ret, Gk, X1|].
  destruct (bytes_eqb (st_val v) (b "proto3")) eqn:X2; [apply bytes_eqb_eq in X2; apply wpe_ret, Gk, X2|].
  apply wpe_bind. apply (add_error_wpe k src); [split; [constructor; [split; auto|constructor]|exists (st_val v); split; [exact Hat|]; split; [now apply bytes_eqb_neq|]; split; [now apply bytes_eqb_neq|]; apply lossy_spec]|reflexivity|okk|]. intros s5 B Hne _ _ M5 _. specialize (B false). ja B.
  unfold fail, wpe. match goal with O : okn n s5 |- _ => destruct O end. split; [assumption|]. split; assumption.
Qed.

(** ** Statements *)
Lemma body_last n ts bd e : g_body_n k n ts (bd, e) -> ts <> [] /\ last_span ts = e.
Proof.
  destruct n; [contradiction|]. intros (es & l & _ & -> & _). cbn [snd]. split; [intros Ez; apply app_eq_nil in Ez; destruct Ez; discriminate|]. now rewrite last_span_app by discriminate.
Qed.
Lemma statement_span_ok ts x : g_statement k ts x -> ts <> [] /\ statement_span x = join_span (first_span ts) (last_span ts).
Proof.
  destruct 1 as [sp|ts x H|ts x H|ts x H|ts x H|ts x H|ts x H|ts x H]; try destruct H; cbn [statement_span pk_span im_span op_span ms_span en_span sv_span et_span];
    (split; [discriminate|]); cbn [sym app first_span tk_span fst snd]; try (lasts; reflexivity).
  - destruct sp; reflexivity.
  - destruct H as (n & H). destruct (body_last _ _ _ _ H) as (H1 & H2). lasts. now rewrite H2.
Qed.

(** How a failed statement leaves the parser: something was consumed, or the
    next [skip_until] will consume something. *)
Definition special (s : pst) : Prop := p_peek s = Some None \/ exists t sp, pkd s t sp /\ mem_token t sync_tokens = false.
Definition stuck (N : nat) (s : pst) : Prop := Inv s /\ errs s <> [] /\ ((measure s < N)%nat \/ (measure s <= N)%nat /\ special s).

Lemma statement_wpe fuel s (Q : _ -> pst -> Prop) : Inv s -> rdy s -> (measure s < fuel)%nat ->
  (forall s' , pk s s' -> rdy s' -> sg s' = [] -> p_peek s' = None -> rest_of s' = [] -> Q None s') ->
  (forall ts x s', adv s ts s' -> ts <> [] -> rdy s' -> (errs s' = [] -> g_statement k ts x) -> (forall p, x = StPackage p -> package_from (l_end (p_lex s)) p s') -> Q (Some x) s') ->
  wpe (parse_statement k fuel) s (stuck (measure s)) Q.
Proof.
  intros Hi Hrd Hf HN HQ. unfold parse_statement. apply wpe_bind. apply (peek_wpx k src); [exact Hi| |].
  2:{ intros s1 (P1 & P2 & P3). split; [apply (pk_inv _ _ _ _ P1)|]. split; [exact P2|]. right. split; [apply (pk_meas _ _ _ _ P1)|]. now left. }
  intros r s1 PP Hr Hc Hk. pose proof (pk_inv _ _ _ _ PP) as I1. pose proof (pk_meas _ _ _ _ PP) as M1.
  assert (R1 : rdy s1) by (intros He; eapply (peek_ready k src s); eauto; apply Hrd; exact (pk_errs _ _ _ _ PP He)).
  destruct r as [[t sp]|].
  2:{ destruct Hr as [Hr1 Hr2]. apply wpe_ret, HN; auto. apply sg_end; auto. }
  assert (Mt : exists n, measure s1 = S n /\ (measure s1 <= S n)%nat /\ (S n <= measure s)%nat).
  { destruct Hr as [Hr _]. exists (2 * length (rest_of s1))%nat. unfold measure in *. rewrite Hr in *. lia. }
  destruct Mt as (n & En & Mn & Ms).
  assert (Hbody : forall n s (Q : _ -> pst -> Prop), okn n s -> rdy s -> (measure s < fuel)%nat ->
    (forall ts a s', adv s ts s' -> ts <> [] -> rdy s' -> (errs s' = [] -> g_body k ts a) -> Q a s') -> wp n (parse_message_body k fuel) s Q).
  { clear. intros n s Q O Hrd Hf HQ. apply body_wp; auto. intros ts a s' A Hn Hr Hg. eapply HQ; [exact A|exact Hn|exact Hr|]. intros He. exists fuel. auto. }
  assert (Hdone : forall (m : P (option statement)), wp n m s1 Q -> wpe m s1 (stuck (measure s)) Q).
  { intros m H. eapply wpe_conseq; [exact H|auto|]. intros s2 (B1 & B2 & B3). split; [auto|]. split; [auto|]. left. lia. }
  destruct (token_eqb t TSemicolon) eqn:X1; [apply token_eqb_eq in X1; subst t; apply Hdone|
  destruct (token_eqb t (kw "import")) eqn:X2; [apply token_eqb_eq in X2; subst t; apply Hdone|
  destruct (token_eqb t (kw "package")) eqn:X3; [apply token_eqb_eq in X3; subst t; apply Hdone|
  destruct (token_eqb t (kw "option")) eqn:X4; [apply token_eqb_eq in X4; subst t; apply Hdone|
  destruct (token_eqb t (kw "extend")) eqn:X5; [apply token_eqb_eq in X5; subst t; apply Hdone|
  destruct (token_eqb t (kw "message")) eqn:X6; [apply token_eqb_eq in X6; subst t; apply Hdone|
  destruct (token_eqb t (kw "enum")) eqn:X7; [apply token_eqb_eq in X7; subst t; apply Hdone|
  destruct (token_eqb t (kw "service")) eqn:X8; [apply token_eqb_eq in X8; subst t; apply Hdone|]]]]]]]].
  - apply wpe_bind. eapply bump_fr; [exact I1|exact Hr|]. intros s2 B F2. apply wpe_ret. eapply HQ; [exact (pk_adv_trans _ _ _ _ _ _ _ _ PP B)|discriminate|exact (fresh_rdy _ _ _ _ F2)|intros _; constructor|discriminate].
  - apply wpe_bind. eapply import_wp; [exact I1|exact Mn|exact R1|exact Hr|]. intros ts a s2 B Hn R2 G. apply wpe_ret. eapply HQ; [exact (pk_adv_trans _ _ _ _ _ _ _ _ PP B)|exact Hn|exact R2|intros He; constructor; auto|discriminate].
  - apply wpe_bind. eapply package_wp; [exact I1|exact Mn|exact R1|exact Hr|]. intros ts a s2 B Hn R2 Hs G. apply wpe_ret.
    eapply HQ; [exact (pk_adv_trans _ _ _ _ _ _ _ _ PP B)|exact Hn|exact R2|intros He; constructor; auto|].
    intros p [= <-]. destruct Hs as (Hs & p1 & st & p2 & e & p3 & K1 & K2 & K3 & K4). split; [exact Hs|]. exists p1, st, p2, e, p3. repeat split; auto. pose proof (pos_mono _ _ Hi I1 M1). lia.
  - apply wpe_bind. eapply option_wp; [exact I1|exact Mn|exact R1|exact Hr|]. intros ts a s2 B Hn R2 G. apply wpe_ret. eapply HQ; [exact (pk_adv_trans _ _ _ _ _ _ _ _ PP B)|exact Hn|exact R2|intros He; constructor; auto|discriminate].
  - apply wpe_bind. eapply (extend_wp k src fuel); [exact Hbody|exact I1|exact Mn|lia|exact R1|exact Hr|]. intros ts a s2 B Hn R2 G. apply wpe_ret. eapply HQ; [exact (pk_adv_trans _ _ _ _ _ _ _ _ PP B)|exact Hn|exact R2|intros He; constructor; auto|discriminate].
  - apply wpe_bind. eapply (message_wp k src fuel); [exact Hbody|exact I1|exact Mn|lia|exact R1|exact Hr|]. intros ts a s2 B Hn R2 G. apply wpe_ret. eapply HQ; [exact (pk_adv_trans _ _ _ _ _ _ _ _ PP B)|exact Hn|exact R2|intros He; constructor; auto|discriminate].
  - apply wpe_bind. eapply enum_wp; [exact I1|exact Mn|exact R1|exact Hr|]. intros ts a s2 B Hn R2 G. apply wpe_ret. eapply HQ; [exact (pk_adv_trans _ _ _ _ _ _ _ _ PP B)|exact Hn|exact R2|intros He; constructor; auto|discriminate].
  - apply wpe_bind. eapply service_wp; [exact I1|exact Mn|exact R1|exact Hr|]. intros ts a s2 B Hn R2 G. apply wpe_ret. eapply HQ; [exact (pk_adv_trans _ _ _ _ _ _ _ _ PP B)|exact Hn|exact R2|intros He; constructor; auto|discriminate].
  - unfold unexpected_token. apply wpe_bind, (peek_skip_hit_wpe k _ _ _ _ _ Hr). apply wpe_bind. apply (add_error_wpe k src); [| |exact I1|].
    + split; [constructor; [eapply (pkd_span k src); eauto|constructor]|]. exists t. split; [eapply (peeked_in k src); eauto|]. split; [apply Hr|]. split; [reflexivity|]. split; [lazy; reflexivity|]. clear - X1 X2 X3 X4 X5 X6 X7 X8. not_listed t.
    + reflexivity.
    + intros s2 B Hne _ E2 M2 _. unfold fail, wpe. split; [apply (av_inv _ _ _ _ _ _ _ (B false))|]. split; [auto|]. right. split; [lia|]. right. exists t, sp. split; [destruct Hr; split; auto; congruence|].
      unfold mem_token, sync_tokens. cbn [existsb]. now rewrite X2, X3, X4, X5, X6, X7, X8.
Qed.

(** ** Recovery *)
Lemma peek_None s : p_peek s = Some None -> peek k s = PErr s.
Proof.
  intros E. assert (Ec : peek_comments k s = PErr s) by (unfold peek_comments, bind, get; rewrite E; cbn [ret]; rewrite E; reflexivity).
  unfold peek, bind at 1. cbn [lexer_span]. destruct ((s_start _ =? 0) && (s_end _ =? 0)).
  - unfold peek_loop, loop. cbn [loopf]. unfold bind at 1. unfold bind at 1. now rewrite Ec.
  - unfold bind at 1. now rewrite Ec.
Qed.
Lemma set_peek_inv s : Inv s -> Inv (set_peek s None).
Proof. intros [H1 H2 H3 H4 H5 H6 H7 H8 H9]. split; auto; [exact I|apply (suffix_drop k src s); [reflexivity|reflexivity|exact H7]|discriminate]. Qed.
Lemma skip_wpe Er N s (Q : _ -> pst -> Prop) : stuck N s -> (forall s', Inv s' -> errs s' <> [] -> (measure s' < N)%nat -> Q tt s') -> wpe (skip_until k sync_tokens) s Er Q.
Proof.
  intros Hs HQ. unfold skip_until. apply (loop_wpe _ (fun _ => stuck N)); [|exact Hs]. clear s Hs. intros _ s (Hi & He & Hm).
  destruct Hm as [Hm|[Hm Hsp]].
  - pose proof (peek_wpe k src s (fun r s' => pk s s' /\ peeked s' r) (peek_err k src s) Hi (fun _ _ A B => conj A B) (fun _ A => A)) as H. unfold wpe in *.
    destruct (peek k s) as [r s'|s'| |]; try contradiction.
    + destruct H as [PP Hr]. pose proof (pk_inv _ _ _ _ PP) as I1. pose proof (pk_meas _ _ _ _ PP) as M1.
      assert (E1 : errs s' <> []) by (intros E; apply He; exact (pk_errs _ _ _ _ PP E)).
      destruct r as [[t sp]|]; [|apply HQ; auto; lia]. destruct (mem_token t sync_tokens); [apply HQ; auto; lia|].
      change (wpe (bump ;;; ret (inl tt)) s' Er (fun (r : unit + unit) s2 => match r with inl _ => stuck N s2 /\ (measure s2 < measure s)%nat | inr v => Q v s2 end)).
      apply wpe_bind. eapply bump_wpe; [exact I1|exact Hr|]. intros s2 B _ L2 M2 _. apply wpe_ret. split; [|lia]. split; [apply (av_inv _ _ _ _ _ _ _ (B false))|]. split; [congruence|]. left. lia.
    + destruct H as (PP & H2 & H3). pose proof (pk_meas _ _ _ _ PP) as M1. assert (M2 : measure s' = S (measure (set_peek s' None))) by (unfold measure; rewrite H3; cbn; lia).
      split; [|lia]. split; [apply set_peek_inv, (pk_inv _ _ _ _ PP)|]. split; [exact H2|]. left. lia.
  - destruct Hsp as [Hp|(t & sp & Hp & Hmem)].
    + unfold wpe. rewrite (peek_None _ Hp). assert (M2 : measure s = S (measure (set_peek s None))) by (unfold measure; rewrite Hp; cbn; lia).
      split; [|lia]. split; [now apply set_peek_inv|]. split; [exact He|]. left. lia.
    + unfold wpe. destruct (peek_hit k src s t sp Hi Hp) as (s' & E & H1 & H2 & H3). rewrite E, Hmem.
      change (wpe (bump ;;; ret (inl tt)) s' Er (fun (r : unit + unit) s2 => match r with inl _ => stuck N s2 /\ (measure s2 < measure s)%nat | inr v => Q v s2 end)).
      pose proof (pk_meas _ _ _ _ H1) as M1.
      apply wpe_bind. eapply bump_wpe; [apply (pk_inv _ _ _ _ H1)|destruct Hp; split; [rewrite H2; eassumption|assumption]|]. intros s2 B _ L2 M2 _. apply wpe_ret. split; [|lia].
      split; [apply (av_inv _ _ _ _ _ _ _ (B false))|]. split; [rewrite L2, H3; exact He|]. left. lia.
Qed.

(** ** The file *)
Definition file_of (f0 : file) (sp : span) (l : list statement) : file -> Prop := fun f =>
  fi_span f = sp /\ fi_syntax f = fi_syntax f0 /\ fi_syntax_span f = fi_syntax_span f0 /\
  flat_map st_packages l = (match fi_package f with Some p => [p] | None => [] end) /\
  fi_imports f = flat_map st_imports l /\ fi_options f = flat_map st_options l /\ fi_items f = flat_map st_items l.
Definition finv (f0 : file) (s0 : pst) (f : file) (s : pst) : Prop :=
  Inv s /\ rdy s /\ (measure s <= measure s0)%nat /\ (forall p, fi_package f = Some p -> package_from 0 p s) /\
  (errs s = [] -> exists TS l, adv s0 TS s /\ g_many (g_statement k) TS l /\
     file_of f0 (match TS with [] => fi_span f0 | _ => join_span (fi_span f0) (last_span TS) end) l f).

Lemma add_statement_wpe f0 s0 f ts x s s' : finv f0 s0 f s -> adv s ts s' -> ts <> [] -> rdy s' -> (errs s' = [] -> g_statement k ts x) ->
  (forall p, x = StPackage p -> package_from (l_end (p_lex s)) p s') -> forall Er, wpe (add_statement f x) s' Er (fun f' s2 => finv f0 s0 f' s2 /\ (measure s2 < measure s)%nat).
Proof.
  intros (Hi & Hrd & Hm & Hp & H) B Hn R1 G Hpk Er. pose proof (av_inv _ _ _ _ _ _ _ B) as I1. pose proof (av_meas _ _ _ _ _ _ _ B) as M1.
  assert (M2 : (measure s' < measure s)%nat) by (destruct ts; [congruence|cbn [length] in M1; lia]).
  assert (Ps : l_end (p_lex s) <= l_end (p_lex s')) by (apply pos_mono; auto; lia).
  assert (Gk : forall f', (forall p, fi_package f' = Some p -> package_from 0 p s') ->
     (errs s' = [] -> fi_span f' = join_span (fi_span f) (statement_span x) /\ fi_syntax f' = fi_syntax f /\ fi_syntax_span f' = fi_syntax_span f /\
      (match fi_package f' with Some p => [p] | None => [] end = (match fi_package f with Some p => [p] | None => [] end) ++ st_packages x) /\
      fi_imports f' = fi_imports f ++ st_imports x /\ fi_options f' = fi_options f ++ st_options x /\ fi_items f' = fi_items f ++ st_items x) ->
      finv f0 s0 f' s' /\ (measure s' < measure s)%nat).
  { intros f' Hp' Hf'. split; [|exact M2]. split; [exact I1|]. split; [exact R1|]. split; [lia|]. split; [exact Hp'|]. intros He. destruct (H (av_errs _ _ _ _ _ _ _ B He)) as (TS & l & A & Gl & F).
    specialize (Hf' He). destruct (statement_span_ok _ _ (G He)) as (_ & Hs).
    exists (TS ++ ts), (l ++ [x]). split; [eapply adv_trans; eauto|]. split; [apply g_many_snoc; auto|].
    destruct F as (F1 & F2 & F3 & F4 & F5 & F6 & F7). destruct Hf' as (E1 & E2 & E3 & E4 & E5 & E6 & E7). 
    assert (Hx : forall {A} (g : statement -> list A), flat_map g [x] = g x) by (intros; cbn; apply app_nil_r).
    split; [|repeat split; rewrite ?flat_map_app, ?Hx; congruence].
    rewrite E1, F1, Hs. rewrite last_span_app by auto. destruct (TS ++ ts) eqn:Et; [apply app_eq_nil in Et; tauto|]. destruct TS; reflexivity. }
  unfold add_statement. destruct x; try (apply wpe_ret, Gk; [intros p Ep; eapply package_from_later; [exact Ps|exact (Hp p Ep)]|intros _; cbn [fi_span fi_syntax fi_syntax_span fi_package fi_imports fi_options fi_items st_packages st_imports st_options st_items]; rewrite ?app_nil_r; repeat split; reflexivity]).
  cbn [fi_package]. destruct (fi_package f) as [old|] eqn:Eo.
  - apply wpe_bind. apply (add_error_wpe k src); [| |exact I1|].
    + pose proof (Hp old eq_refl) as P1. pose proof (Hpk _ eq_refl) as P2. split; [constructor; [apply P1|]; constructor; [apply P2|constructor]|]. split; [eapply package_from_at; exact P1|]. split; [eapply package_from_at; exact P2|]. eapply package_from_order; eauto.
    + reflexivity.
    + intros s2 C Hne _ _ M3 _. apply wpe_ret. split; [|lia]. split; [apply (av_inv _ _ _ _ _ _ _ (C false))|]. split; [intros He; contradiction|]. split; [lia|]. cbn [fi_package]. split; [intros p E; eapply package_from_later; [|apply Hp; congruence]; apply pos_mono; [exact Hi|apply (av_inv _ _ _ _ _ _ _ (C false))|lia]|]. intros He. contradiction.
  - apply wpe_ret, Gk; [cbn [fi_package]; intros p [= <-]; eapply package_from_later; [apply N.le_refl|now apply Hpk]|]. intros _. cbn [fi_span fi_syntax fi_syntax_span fi_package fi_imports fi_options fi_items st_packages st_imports st_options st_items].
    rewrite ?app_nil_r. repeat split; reflexivity.
Qed.

Lemma file_loop_wpe fuel f0 s0 (Er : pst -> Prop) (Q : _ -> pst -> Prop) : (measure s0 < fuel)%nat ->
  (forall f s, finv f0 s0 f s -> (errs s = [] -> sg s = [] /\ mclean_s k [] s) -> Q f s) ->
  forall f s, finv f0 s0 f s -> wpe (loop (file_step k fuel) f) s Er Q.
Proof.
  intros Hf HQ. apply (loop_wpe _ (finv f0 s0)). intros f s Hv. pose proof Hv as (Hi & Hrd & Hm & Hp & H).
  assert (G : wpe (parse_statement k fuel) s (stuck (measure s)) (fun x s' => match x with
     | None => pk s s' /\ rdy s' /\ sg s' = [] /\ p_peek s' = None /\ rest_of s' = []
     | Some x => exists ts, adv s ts s' /\ ts <> [] /\ rdy s' /\ (errs s' = [] -> g_statement k ts x) /\ (forall p, x = StPackage p -> package_from (l_end (p_lex s)) p s') end)).
  { apply statement_wpe; [exact Hi|exact Hrd|lia|auto|]. intros ts x s' B1 B2 B5 B3 B4. exists ts. auto. }
  unfold file_step, wpe at 1. unfold wpe in G. destruct (parse_statement k fuel s) as [[x|] s'|s'| |]; try contradiction.
  - destruct G as (ts & B1 & B2 & B5 & B3 & B4). 
    change (wpe (f' <- add_statement f x ;; ret (inl f')) s' Er (fun (r : file + file) s2 => match r with inl a => finv f0 s0 a s2 /\ (measure s2 < measure s)%nat | inr v => Q v s2 end)).
    apply wpe_bind. eapply wpe_conseq; [eapply (add_statement_wpe f0 s0 f ts x s s' Hv B1 B2 B5 B3 B4 Er)| |auto]. cbn beta. intros f' s2 Hr. exact Hr.
  - destruct G as (PP & H0 & H1 & H2 & H3). apply HQ.
    + split; [apply (pk_inv _ _ _ _ PP)|]. split; [exact H0|]. split; [pose proof (pk_meas _ _ _ _ PP); lia|]. split; [intros p Ep; eapply package_from_later; [|exact (Hp p Ep)]; apply pos_mono; [exact Hi|apply (pk_inv _ _ _ _ PP)|apply (pk_meas _ _ _ _ PP)]|]. intros He. destruct (H (pk_errs _ _ _ _ PP He)) as (TS & l & A & Gl & F).
      exists TS, l. split; [eapply adv_pk; eauto|auto].
    + intros He. split; [exact H1|]. unfold mclean_s. rewrite H2, H3. eapply mc_end. reflexivity.
  - change (wpe (s1 <- get ;; dassert (Nat.ltb 0 (length (l_errs (p_lex s1)))) ;;; skip_until k sync_tokens ;;; ret (inl f)) s' Er
       (fun (r : file + file) s2 => match r with inl a => finv f0 s0 a s2 /\ (measure s2 < measure s)%nat | inr v => Q v s2 end)).
    destruct G as (G1 & G2 & G3). apply wpe_bind. unfold get, wpe at 1. apply wpe_bind, (dassert_wpe k src); [destruct (errs s'); [congruence|reflexivity]|exact G1|].
    intros s2 P2 E2 L2. apply wpe_bind. eapply (skip_wpe _ (measure s)).
    + split; [apply (pk_inv _ _ _ _ P2)|]. split; [now rewrite L2|]. destruct G3 as [G3|[G3 G4]]; [left|right; split].
      * pose proof (pk_meas _ _ _ _ P2). lia.
      * pose proof (pk_meas _ _ _ _ P2). lia.
      * unfold special, pkd in *. rewrite E2. exact G4.
    + intros s3 I3 N3 M3. apply wpe_ret. split; [|exact M3]. split; [exact I3|]. split; [intros He; contradiction|]. split; [lia|]. split; [intros p Ep; eapply package_from_later; [|exact (Hp p Ep)]; apply pos_mono; [exact Hi|exact I3|lia]|]. intros He. contradiction.
Qed.

Lemma init_inv : Inv (p_init src).
Proof.
  split; cbn; auto; try discriminate; try lia; try constructor. - exists []. split; reflexivity. - exists []. reflexivity. - apply ends_by_nil.
Qed.
Lemma init_measure : measure (p_init src) = (2 * length src)%nat.
Proof. unfold measure. cbn. lia. Qed.

Lemma init_start : at_start k src (p_init src).
Proof. split; [reflexivity|]. split; [reflexivity|]. split; reflexivity. Qed.

Definition accepted (f : file) : Prop :=
  exists ts, @g_file (com_of k src) k (len src) ts f /\ sigs (stream k src 0) = map inj ts /\ mclean k (marks ts) src 0.

Lemma finish ss sx sxs s0 f0 f s : adv (p_init src) ss s0 -> (errs s = [] -> g_syntax ss sx sxs) -> finv f0 s0 f s -> (errs s = [] -> sg s = [] /\ mclean_s k [] s) ->
  fi_syntax f0 = sx -> fi_syntax_span f0 = sxs ->
  (forall TS, adv s0 TS s -> sg s = [] -> match TS with [] => fi_span f0 | _ => join_span (fi_span f0) (last_span TS) end = match ss ++ TS with [] => (len src, 0) | _ => join_span (first_span (ss ++ TS)) (last_span (ss ++ TS)) end) ->
  errs s = [] -> accepted f.
Proof.
  intros A0 Gs (Hi & Hrd & Hm & Hp & H) He Hsx Hsxs Hspan E. destruct (H E) as (TS & l & A & Gl & F). destruct (He E) as [Hsg Hmc].
  exists (ss ++ TS). pose proof (adv_trans _ _ _ _ _ _ _ _ _ _ A0 A) as AA. split; [|split].
  - destruct F as (F1 & F2 & F3 & F4 & F5 & F6 & F7). rewrite (Hspan TS A Hsg) in F1. 
    replace f with {| fi_span := match ss ++ TS with [] => (len src, 0) | _ => join_span (first_span (ss ++ TS)) (last_span (ss ++ TS)) end;
      fi_syntax := sx; fi_syntax_span := sxs; fi_package := fi_package f; fi_imports := flat_map st_imports l; fi_options := flat_map st_options l; fi_items := flat_map st_items l |}.
    + apply g_fi; auto.
    + destruct f as [a1 a2 a3 a4 a5 a6 a7]; cbn [fi_span fi_syntax fi_syntax_span fi_package fi_imports fi_options fi_items] in *. congruence.
  - pose proof (av_sg _ _ _ _ _ _ _ AA) as Hs. rewrite Hsg, app_nil_r in Hs. exact Hs.
  - destruct (av_mode _ _ _ _ _ _ _ AA E eq_refl) as [_ Hmode]. destruct (Hmode [] eq_refl Hmc) as [_ Hc]. rewrite app_nil_r in Hc. exact Hc.
Qed.

Lemma parse_file_p_wpe : wpe (parse_file_p k src) (p_init src) (fun s => Inv s /\ errs s <> []) (fun f s => Inv s /\ (errs s = [] -> accepted f)).
Proof.
  unfold parse_file_p. apply wpe_bind. apply (peek_wpx k src); [apply init_inv| |].
  2:{ intros s1 (P1 & P2 & P3). split; [apply (pk_inv _ _ _ _ P1)|auto]. }
  intros r s1 PP Hr Hc Hk. assert (R1 : rdy s1) by (intros He; eapply (peek_ready k src (p_init src)); eauto; [apply init_inv|left; apply init_start]).
  pose proof (pk_inv _ _ _ _ PP) as I1. pose proof (pk_meas _ _ _ _ PP) as M1. rewrite init_measure in M1. pose proof (pk_adv _ _ false _ _ PP) as A1.
  assert (Gk : forall ss sx sxs s2 f0, adv (p_init src) ss s2 -> rdy s2 -> (errs s2 = [] -> g_syntax ss sx sxs) -> fi_syntax f0 = sx -> fi_syntax_span f0 = sxs -> fi_package f0 = None -> fi_imports f0 = [] -> fi_options f0 = [] -> fi_items f0 = [] ->
    (forall TS s, adv s2 TS s -> sg s = [] -> match TS with [] => fi_span f0 | _ => join_span (fi_span f0) (last_span TS) end = match ss ++ TS with [] => (len src, 0) | _ => join_span (first_span (ss ++ TS)) (last_span (ss ++ TS)) end) ->
    wpe (loop (file_step k (S (2 * length src))) f0) s2 (fun s => Inv s /\ errs s <> []) (fun f s => Inv s /\ (errs s = [] -> accepted f))).
  { clear - src k. intros ss sx sxs s2 f0 A R2 Gs H1 H2 H3 H4 H5 H6 Hspan. pose proof (av_inv _ _ _ _ _ _ _ A) as I2. pose proof (av_meas _ _ _ _ _ _ _ A) as M2. rewrite init_measure in M2.
    apply (file_loop_wpe (S (2 * length src)) f0 s2); [lia| |].
    - intros f s Hf He. split; [apply Hf|]. eapply finish; eauto. intros Hes. apply Gs. destruct Hf as (_ & _ & _ & _ & Hf). destruct (Hf Hes) as (TS & l & A2 & _). exact (av_errs _ _ _ _ _ _ _ A2 Hes).
    - split; [exact I2|]. split; [exact R2|]. split; [lia|]. split; [rewrite H3; discriminate|]. intros _. exists [], []. split; [now apply adv_refl|]. split; [constructor|]. 
      unfold file_of. rewrite H3, H4, H5, H6. repeat split. }
  apply wpe_bind. destruct r as [[t sp]|].
  - destruct (token_eqb t (kw "syntax")) eqn:X1.
    + apply token_eqb_eq in X1. subst t. assert (Mt : exists n, (measure s1 <= S n)%nat) by (exists (measure s1); lia). destruct Mt as (n & Mn).
      apply wpe_bind. eapply wpe_conseq with (Er := bad k src n); [|intros a s' Ha; exact Ha|intros s' (B1 & B2 & _); split; assumption].
      eapply syntax_wp; [exact I1|exact Mn|exact R1|exact Hr|]. intros ts sx xsp c s2 B Hn R2 Hxsp G. apply wpe_ret. pose proof (adv_trans _ _ _ _ _ _ _ _ _ _ A1 B) as A2. cbn [app] in A2.
      eapply Gk; [exact A2|exact R2|exact G|reflexivity..|]. intros TS s _ _. cbn [fi_span]. destruct (ts ++ TS) eqn:Ets; [apply app_eq_nil in Ets; tauto|]. rewrite <- Ets.
      rewrite first_span_app by auto. destruct TS; [rewrite app_nil_r; exact Hxsp|]. rewrite last_span_app by discriminate. rewrite Hxsp. reflexivity.
    + apply wpe_ret. eapply (Gk [] Proto2 None); [exact A1|exact R1|constructor|reflexivity..|]. intros TS s A Hsg. cbn [fi_span app].
      pose proof (av_sg _ _ _ _ _ _ _ A) as Hs. rewrite Hsg, app_nil_r in Hs. destruct TS as [|x TS].
      * exfalso. destruct Hr as [Hr1 Hr2]. unfold Walk.sg, coming, ahead in Hs. rewrite Hr1 in Hs. cbn [app] in Hs. rewrite sigs_cons in Hs. unfold significant in Hs at 1. cbn [fst] in Hs. rewrite Hr2 in Hs. discriminate.
      * destruct (first_of k src _ _ _ _ _ _ _ Hr A ltac:(discriminate)) as [_ F]. rewrite F. reflexivity.
  - apply wpe_ret. eapply (Gk [] Proto2 None); [exact A1|exact R1|constructor|reflexivity..|]. intros TS s A Hsg. cbn [fi_span app].
    pose proof (av_sg _ _ _ _ _ _ _ A) as Hs. destruct Hr as [Hr1 Hr2]. rewrite sg_end in Hs by auto. destruct TS; [reflexivity|discriminate].
Qed.
End WalkG3.

(** ** Soundness *)
Theorem parse_file_sound k src : exists r a, parse_file k src = Done (r, a) /\ (a = true -> munch_ideal k = false /\ bad_run src /\ exists es, r = inr es) /\
  match r with
  | inl f => accepted k src f
  | inr es => es <> [] /\ Forall (truth k src) es
  end.
Proof.
  pose proof (parse_file_p_wpe k src) as H. unfold wpe in H. unfold parse_file. destruct (parse_file_p k src (p_init src)) as [f s|s| |]; try contradiction.
  - destruct H as [Hi Ha]. pose proof (iv_assert _ _ _ Hi) as Has. pose proof (iv_errs _ _ _ Hi) as Hes. destruct (errs s) eqn:E.
    + eexists _, _. split; [reflexivity|]. split; [|auto]. intros Hat. destruct (Has Hat) as (_ & _ & Hx). congruence.
    + eexists _, _. split; [reflexivity|]. split; [intros Hat; destruct (Has Hat) as (? & ? & _); eauto|]. split; [discriminate|auto].
  - destruct H as [Hi Hne]. eexists _, _. split; [reflexivity|]. split; [intros Hat; destruct (iv_assert _ _ _ Hi Hat) as (? & ? & _); eauto|]. split; [exact Hne|apply (iv_errs _ _ _ Hi)].
Qed.
Print Assumptions parse_file_sound.
