(** The parser accepts only sentences of the grammar: fields, messages, enums,
    services, files. *)
From Coq Require Import ZifyBool ZifyN.
From Verif Require Import Base Utf8 Errors Lex LexSpec PropsLex1 LexSafe Stream Ast Comments Parse Grammar Utf8Spec Classify SynSpec Utf8Lossy LexErr Walk WalkG1.

(** ** Spans of phrases *)
Lemma last_app {A} (l l' : list A) d d' : l' <> [] -> last (l ++ l') d = last l' d'.
Proof.
  intros H. induction l as [|x l IH]; cbn [app].
  - destruct l' as [|a l']; [congruence|]. clear H. revert a. induction l' as [|y l' IH]; intros a; [reflexivity|]. exact (IH y).
  - destruct (l ++ l') eqn:E; [apply app_eq_nil in E; tauto|]. exact IH.
Qed.
Lemma first_span_app ts ts' : ts <> [] -> first_span (ts ++ ts') = first_span ts.
Proof. destruct ts; [congruence|reflexivity]. Qed.
Lemma last_span_app ts ts' : ts' <> [] -> last_span (ts ++ ts') = last_span ts'.
Proof.
  intros H. unfold last_span. destruct (ts ++ ts') eqn:E; [apply app_eq_nil in E; tauto|]. destruct ts'; [congruence|].
  rewrite <- E. now rewrite (last_app ts (t0 :: ts') t t0).
Qed.
Lemma last_span_cons x ts : ts <> [] -> last_span (x :: ts) = last_span ts.
Proof. apply (last_span_app [x]). Qed.
Lemma g_full_ident_span ts n : g_full_ident ts n -> ts <> [] /\ full_ident_span n = Some (join_span (first_span ts) (last_span ts)).
Proof.
  assert (G : g_full_ident ts n -> ts <> [] /\ n <> [] /\ forall d d', id_span (hd d n) = first_span ts /\ id_span (last n d') = last_span ts).
  { intros H. induction H as [ts a H|ts a sp ts' l H H1 IH]; inversion H; subst.
    - split; [discriminate|]. split; [discriminate|]. auto.
    - destruct IH as (I1 & I2 & I3). split; [discriminate|]. split; [discriminate|]. intros d d'. split; [reflexivity|].
      rewrite !last_span_app; [|auto|intros E; apply app_eq_nil in E; tauto]. destruct l; [congruence|]. cbn [last]. apply (I3 d d'). }
  intros H. destruct (G H) as (G1 & G2 & G3). split; auto. unfold full_ident_span. destruct n as [|x n]; [congruence|].
  destruct (G3 x x) as [G4 G5]. cbn [hd] in G4. now rewrite G4, G5.
Qed.
Lemma g_type_name_span ts n : g_type_name ts n -> ts <> [] /\ type_name_span n = Some (join_span (first_span ts) (last_span ts)).
Proof.
  destruct 1 as [ts n H|sp ts n H]; destruct (g_full_ident_span _ _ H) as [H1 H2]; unfold type_name_span; cbn [tn_name tn_dot]; rewrite H2; split; auto; [discriminate|].
  rewrite last_span_app; auto.
Qed.
Lemma chain_span lo hi ts : cspans lo hi ts -> ts <> [] -> lo <= s_start (first_span ts) /\ s_start (first_span ts) <= s_end (last_span ts) /\ s_end (last_span ts) <= hi.
Proof.
  revert lo. induction ts as [|x ts IH]; intros lo H Hn; [congruence|]. apply chain_inv in H. destruct H as (H1 & H2 & H3). destruct ts as [|y ts].
  - apply chain_le in H3. unfold first_span, last_span, last. lia.
  - destruct (IH _ H3 ltac:(discriminate)) as (I1 & I2 & I3). 
    replace (last_span (x :: y :: ts)) with (last_span (y :: ts)) by (symmetry; apply (last_span_app [x]); discriminate).
    cbn [first_span] in *. lia.
Qed.

Section WalkG2.
Variable k : cfg.
Variable src : bytes.
Notation Inv := (Inv k src).
Notation advg := (advg k src).
Notation adv := (advg false false).
Notation pk := (pk k src).
Notation okn := (okn k src).
Notation wp n m s Q := (wpe m s (bad k src n) Q).
Notation sg := (sg k).
Notation rdy := (rdy k src).
Notation fresh := (fresh k src).
Local Instance com_src2 : comspec := com_of k src.

Ltac okk := match goal with
  | O : okn ?n ?s |- Walk.okn _ _ ?n ?s => exact O
  | O : okn ?n ?s |- Walk.Inv _ _ ?s => exact (proj1 O)
  end.
Ltac jp P := 
  match type of P with Walk.pk _ _ ?s ?s1 =>
    match goal with
    | A : Walk.advg _ _ false false ?s0 ?TS s, O : okn ?n s |- _ =>
      let O2 := fresh "O" in let A2 := fresh "A" in let E := fresh "E" in
      pose proof (pk_okn _ _ _ _ _ O P) as O2; pose proof (adv_pk _ _ _ _ _ _ _ _ A P) as A2; pose proof (pk_errs _ _ _ _ P) as E;
      clear A O P
    end end.
Ltac ja B := 
  match type of B with Walk.advg _ _ _ _ ?s ?ts ?s1 =>
    match goal with
    | A : Walk.advg _ _ false false ?s0 ?TS s, O : okn ?n s |- _ =>
      let O2 := fresh "O" in let A2 := fresh "A" in let E := fresh "E" in
      pose proof (adv_okn _ _ _ _ _ _ _ _ O B) as O2; pose proof (adv_trans _ _ _ _ _ _ _ _ _ _ A B) as A2; pose proof (av_errs _ _ _ _ _ _ _ B) as E;
      clear A O B; rewrite <- ?app_assoc in A2; cbn [app] in A2
    end end.
Ltac start := match goal with O : okn ?n ?s |- _ => let A := fresh "A" in pose proof (adv_refl _ _ false s (proj1 O)) as A end.
(** Report the token in the lookahead. *)
Ltac unexp := match goal with Hr : peeked ?s ?r |- wpe (unexpected_token _ _) ?s _ _ =>
    apply (unexpected_wp k src _ _ _ r); [okk|exact Hr|lazy; reflexivity|
      let t := fresh "t" in let sp := fresh "sp" in let E := fresh "E" in intros t sp E;
      first [discriminate E|clear - E; injection E as <- _; lazy -[bytes_eqb]; reflexivity|subst r; not_listed t|match r with Some (?t', _) => injection E as <- _; not_listed t' end]]
  end.
Ltac unexp_t := match goal with Hr : peeked ?s ?r, L : lists _ _ _ |- wpe (unexpected_token _ _) ?s _ _ =>
    apply (unexpected_wp k src _ _ _ r); [okk|exact Hr|apply L|intros ? ? ->; apply L; unfold not_in; cbn [at_ at_terminator existsb et_matches] in *]
  end.
Ltac use_errs := repeat match goal with H : errs ?x = [] -> _, He : errs ?x = [] |- _ => specialize (H He) end.
Ltac nilr := match goal with A : Walk.advg _ _ false false _ _ _ |- _ => rewrite ?app_nil_r in A end.
Ltac kwstart lead :=
  match goal with Hi : Walk.Inv _ _ ?s, Hm : (measure ?s <= S ?n)%nat, Hrd : Walk.rdy _ _ ?s, Hp : pkd ?s _ _ |- _ =>
    let s1 := fresh "s" in let P := fresh "P" in let Hp1 := fresh "Hp" in let M1 := fresh "M" in let L1 := fresh "L" in
    apply wpe_bind; eapply leading_wpe; [exact Hi|exact Hrd|exact Hp|]; intros lead s1 P Hp1 M1 L1;
    let s2 := fresh "s" in let B := fresh "B" in let M2 := fresh "M" in
    apply wpe_bind; eapply expect_hit_wpe; [apply (pk_inv _ _ _ _ P)|exact Hp1|]; intros s2 B M2;
    let A := fresh "A" in pose proof (pk_adv_trans _ _ _ _ _ _ _ _ P B) as A; 
    let O := fresh "O" in assert (O : okn n s2) by (split; [apply (av_inv _ _ _ _ _ _ _ A)|lia]);
    let E := fresh "E" in pose proof (av_errs _ _ _ _ _ _ _ B) as E;
    clear P B
  end.
(** Steps of the form "run a sub-parser whose lemma is L". *)
Ltac sub L ts a s G := apply wpe_bind; apply L; [try exact _..|okk|]; let B := fresh "B" in intros ts a s B G; ja B.
Ltac ex e s := apply wpe_bind; apply expect_wp; [exact _|okk|]; let B := fresh "B" in intros e s B; ja B.
(** A token after which comments are collected, and its trailing comment. *)
Ltac exf e s F := apply wpe_bind, expect_fr; [exact _|okk|]; let B := fresh "B" in intros e s B F; ja B.
Ltac tr F c s R K := apply wpe_bind; eapply (trailing_fr k src); [okk|exact F|]; let P := fresh "P" in intros c s P R K; jp P.
Ltac fin HQ := apply wpe_ret; eapply HQ; [eassumption|..].
(** Comments are right: the hypothesis from [trailing_fr] applied to that of [leading_wpe]. *)
Ltac comok := match goal with K : forall st, lead_ok _ _ st ?lead -> Walk.com_of _ _ st _ _, L : lead_ok _ _ _ ?lead |- com _ _ _ => exact (K _ L) end.
Ltac con := constructor; auto; try comok.

Lemma sg_end s : p_peek s = None -> rest_of s = [] -> sg s = [].
Proof.
  intros H1 H2. unfold Walk.sg, coming, ahead. rewrite H1, H2. pose proof (stream_step k (canon false [] (l_end (p_lex s))) None _ eq_refl) as Hnil.
  cbn [canon l_rest l_end] in Hnil. now rewrite Hnil.
Qed.
Lemma first_of_r m m' s r ts s' : peeked s r -> advg m m' s ts s' -> ts <> [] -> exists t sp, r = Some (t, sp) /\ first_tok ts = Some t /\ first_span ts = sp.
Proof.
  destruct r as [[t sp]|]; intros Hr A Hn.
  - exists t, sp. split; auto. eapply first_of; eauto.
  - exfalso. destruct Hr as [H1 H2]. pose proof (av_sg _ _ _ _ _ _ _ A) as H. rewrite sg_end in H by auto. destruct ts; [congruence|discriminate].
Qed.
Lemma not_kw_of ks ts t : first_tok ts = Some t -> (forall x, In x ks -> t <> TIdent x) -> not_kw ks ts.
Proof. intros E H x Hx E2. rewrite E in E2. injection E2 as E2. now apply (H x). Qed.

Lemma named_wp n terms s (Q : _ -> pst -> Prop) {L : terms_ok k TDot terms} : okn n s ->
  (forall ts a s', adv s ts s' -> ts <> [] -> g_type_name ts a -> Q (TyNamed a, join_span (first_span ts) (last_span ts)) s') -> wp n (parse_named_type k terms) s Q.
Proof.
  intros O HQ. start. unfold parse_named_type. sub type_name_wp ts a s1 G. destruct (g_type_name_span _ _ G) as [Hn Hs]. rewrite Hs.
  apply wpe_ret. now apply HQ.
Qed.
Lemma field_type_wp n terms s (Q : _ -> pst -> Prop) {L : terms_ok k TDot terms} : okn n s ->
  (forall ts a s', adv s ts s' -> ts <> [] -> g_field_type ts a -> Q a s') -> wp n (parse_field_type k terms) s Q.
Proof.
  intros O HQ. start. unfold parse_field_type. apply wpe_bind, peek_wp; [okk|]. intros r s1 P Hr. jp P.
  destruct r as [[t sp]|]; [destruct t|]; try unexp.
  - destruct (scalar_of s0) eqn:Es.
    + apply wpe_bind. eapply bump_adv; [okk|exact Hr|]. intros s2 B. ja B. fin HQ; [discriminate|]. constructor. now apply scalar_of_some.
    + apply named_wp; [exact _|okk|]. intros ts a s2 B Hn G. destruct (first_of k src _ _ _ _ _ _ _ Hr B Hn) as [F _]. ja B. eapply HQ; [eassumption|auto|].
      constructor; auto. intros x Hx. rewrite F. intros [= <-]. now apply scalar_of_none in Es.
  - apply named_wp; [exact _|okk|]. intros ts a s2 B Hn G. destruct (first_of k src _ _ _ _ _ _ _ Hr B Hn) as [F _]. ja B. eapply HQ; [eassumption|auto|].
    constructor; auto. intros x Hx. rewrite F. discriminate.
Qed.

(** Lists of elements in braces: the invariant shared by all loops. *)
Definition elems {X Y} (n : nat) (s : pst) (item : list tk -> X -> Prop) (proj : list X -> Y) (r : Y) (s1 : pst) : Prop :=
  okn n s1 /\ rdy s1 /\ exists TS, adv s TS s1 /\ (errs s1 = [] -> exists l, g_many item TS l /\ r = proj l).
Lemma elems_start {X Y} n s item (proj : list X -> Y) r : okn n s -> rdy s -> r = proj [] -> elems n s item proj r s.
Proof. intros O R ->. split; [okk|]. split; [exact R|]. exists []. split; [apply adv_refl, O|]. intros _. exists []. split; [constructor|reflexivity]. Qed.
Lemma elems_step {X Y} n s item (proj : list X -> Y) r r' s1 s2 s3 ts : elems n s item proj r s1 -> pk s1 s2 -> adv s2 ts s3 -> ts <> [] -> rdy s3 ->
  (errs s3 = [] -> exists a, item ts a /\ forall l, r = proj l -> r' = proj (l ++ [a])) -> elems n s item proj r' s3 /\ (measure s3 < measure s1)%nat.
Proof.
  intros (O & _ & TS & A1 & H) P B Hn R3 Hi. apply (pk_adv_trans _ _ _ _ _ _ _ _ P) in B. pose proof (av_meas _ _ _ _ _ _ _ B) as M. split; [|destruct ts; [congruence|cbn [length] in M; lia]].
  split; [eapply adv_okn; eauto|]. split; [exact R3|]. exists (TS ++ ts). split; [eapply adv_trans; eauto|]. intros He. destruct (Hi He) as (x & G & Hp).
  destruct (H (av_errs _ _ _ _ _ _ _ B He)) as (l & Gl & Hl). exists (l ++ [x]). split; [now apply g_many_snoc|auto].
Qed.
Lemma elems_meas {X Y} n s item (proj : list X -> Y) r s1 : elems n s item proj r s1 -> (measure s1 <= measure s)%nat.
Proof. intros (O & _ & TS & A1 & H). pose proof (av_meas _ _ _ _ _ _ _ A1). lia. Qed.

Lemma elems_exit {X Y} n s item (proj : list X -> Y) r s1 s2 s3 ts : elems n s item proj r s1 -> pk s1 s2 -> adv s2 ts s3 ->
  exists TS, adv s (TS ++ ts) s3 /\ (errs s3 = [] -> exists l, g_many item TS l /\ r = proj l).
Proof.
  intros (O & _ & TS & A1 & H) P B. apply (pk_adv_trans _ _ _ _ _ _ _ _ P) in B. exists TS. split; [eapply adv_trans; eauto|].
  intros He. apply H. exact (av_errs _ _ _ _ _ _ _ B He).
Qed.
Lemma elems_okn {X Y} n s item (proj : list X -> Y) r s1 : elems n s item proj r s1 -> okn n s1.
Proof. intros H. apply H. Qed.
Lemma elems_rdy {X Y} n s item (proj : list X -> Y) r s1 : elems n s item proj r s1 -> rdy s1.
Proof. intros H. apply H. Qed.

Ltac mle := match goal with H : okn ?n ?s |- (measure ?s <= S ?n)%nat => destruct H; lia end.
(** One iteration of such a loop. *)
Ltac estep I P B R := apply wpe_ret; eapply elems_step; [exact I|exact P|exact B|discriminate || assumption|exact R| let He := fresh "He" in intros He; use_errs].
Ltac lp I P Hr := let O := fresh "O" in pose proof (elems_okn _ _ _ _ _ _ I) as O; 
  let M := fresh "M" in pose proof (elems_meas _ _ _ _ _ _ I) as M;
  apply wpe_bind; apply peek_rd; [okk|exact (elems_rdy _ _ _ _ _ _ I)|]; let x := fresh "x" in let s2 := fresh "s" in let Rd := fresh "Rd" in intros x s2 P Hr Rd;
  let M2 := fresh "M" in pose proof (pk_meas _ _ _ _ P) as M2;
  let O2 := fresh "O" in pose proof (pk_okn _ _ _ _ _ O P) as O2.
Ltac hit E := apply at_true in E; let sp := fresh "sp" in destruct E as (sp & ->).

Section WithBody.
Variable fuel : nat.
Variable pbody : P (body * span).
Variable R : list tk -> body * span -> Prop.
Hypothesis Hbody : forall n s (Q : _ -> pst -> Prop), okn n s -> rdy s -> (measure s < fuel)%nat ->
  (forall ts a s', adv s ts s' -> ts <> [] -> rdy s' -> (errs s' = [] -> R ts a) -> Q a s') -> wp n pbody s Q.

Lemma normal_wp n lead st label r s (Q : _ -> pst -> Prop) : okn n s -> (errs s = [] -> lead_ok k src st lead) -> peeked s r -> at_ r (kw "map") = false -> at_ r (kw "group") = false ->
  (forall ts a s', adv s ts s' -> ts <> [] -> rdy s' -> (errs s' = [] -> g_field_rest k R st label ts a) -> Q a s') -> wp n (parse_normal_field k lead st label) s Q.
Proof.
  intros O Hl Hr H1 H2 HQ. start. unfold parse_normal_field. apply wpe_bind, field_type_wp; [exact _|okk|]. intros ts [t tsp] s1 B Hn G.
  destruct (first_of_r _ _ _ _ _ _ Hr B Hn) as (ft & fsp & Er & F1 & _).
  assert (Hk : not_kw [b "map"; b "group"] ts).
  { eapply not_kw_of; [exact F1|]. subst r. intros x [<-|[<-|[]]]; [exact (at_false _ _ _ _ H1 eq_refl)|exact (at_false _ _ _ _ H2 eq_refl)]. }
  ja B. sub ident_wp ts1 a1 s2 G1. inversion G1; subst. ex e2 s3. sub int_wp ts3 a3 s4 G3. sub opt_options_wp ts4 a4 s5 G4. exf e5 s6 F6. tr F6 c s7 R7 K7.
  fin HQ; [intros Ez; apply app_eq_nil in Ez; tauto|exact R7|]. intros He. use_errs. con.
Qed.

Lemma map_wp n lead st label m0 s (Q : _ -> pst -> Prop) : okn n s -> (errs s = [] -> lead_ok k src st lead) -> pkd s (kw "map") m0 ->
  (forall ts a s', adv s ts s' -> ts <> [] -> rdy s' -> (errs s' = [] -> g_field_rest k R st label ts a) -> Q a s') -> wp n (parse_map k lead st label) s Q.
Proof.
  intros O Hl Hr HQ. start. unfold parse_map. apply wpe_bind. eapply expect_hit_wpe; [okk|exact Hr|]. intros s1 B _. ja B. ex e1 s2.
  apply wpe_bind, field_type_wp; [exact _|okk|]. intros ts2 [kt ks] s3 B _ G2. ja B. ex e3 s4. apply wpe_bind, field_type_wp; [exact _|okk|]. intros ts4 [vt vs] s5 B _ G4. ja B. ex e5 s6.
  sub ident_wp ts6 a6 s7 G6. inversion G6; subst. ex e7 s8. sub int_wp ts8 a8 s9 G8. sub opt_options_wp ts9 a9 s10 G9. exf e10 s11 F11. tr F11 c s12 R12 K12.
  fin HQ; [discriminate|exact R12|]. intros He. use_errs. con.
Qed.

Lemma group_wp n lead st label m0 s (Q : _ -> pst -> Prop) : okn n s -> (errs s = [] -> lead_ok k src st lead) -> (measure s <= fuel)%nat -> pkd s (kw "group") m0 ->
  (forall ts a s', adv s ts s' -> ts <> [] -> rdy s' -> (errs s' = [] -> g_field_rest k R st label ts a) -> Q a s') -> wp n (parse_group k pbody lead st label) s Q.
Proof.
  intros O Hl Hf Hr HQ. start. unfold parse_group. apply wpe_bind. eapply expect_hit_wpe; [okk|exact Hr|]. intros s1 B _. ja B.
  assert (I1 : Inv s1) by okk.
  apply wpe_bind, ident_wp; [okk|]. intros ts1 a1 s2 B G1. pose proof (adv_chain _ _ _ _ _ _ _ I1 B) as (lo & Hc). inversion G1; subst. pose proof (adv_in k src _ _ _ _ _ _ I1 B (or_introl eq_refl)) as Hin. ja B.
  apply chain_inv in Hc. destruct Hc as (C1 & C2 & C3). apply chain_le in C3. cbn [tk_span fst snd] in *.
  apply wpe_bind. cbn [id_val id_span].
  assert (Gk : forall sx, adv s (sym (kw "group") m0 ++ sym (TIdent v) sp) sx -> okn n sx -> (errs sx = [] -> capitalised v /\ lead_ok k src st lead) ->
    wp n (expect_eq k TEquals;;; number <- parse_int k;; os <- parse_opt_options k TLeftBrace (b "'{' or '['");; expect_eq k TLeftBrace;;; c <- parse_trailing_comment k lead;; 
      ' (bd, e) <- pbody;; ret {| fd_label := label; fd_name := {| id_val := v; id_span := sp |}; fd_kind := FKGroup m0 bd; fd_number := number; fd_options := os; fd_comments := c; fd_span := join_span st e |}) sx Q).
  { clear - HQ Hbody Hf. intros s1 A O Hv. ex e1 s2. sub int_wp ts3 a3 s4 G3. sub opt_options_wp ts4 a4 s5 G4. exf e5 s6 F6. tr F6 c s7 R7 K7.
    assert (Hms : (measure s7 < fuel)%nat) by (match goal with A : adv s _ s7 |- _ => pose proof (av_meas _ _ _ _ _ _ _ A) as M end; cbn [app length sym] in M; lia).
    apply wpe_bind, Hbody; [okk|exact R7|exact Hms|]. intros ts7 [bd e] s8 B _ R8 G7. ja B. fin HQ; [discriminate|exact R8|]. intros He. use_errs. destruct Hv. con. }
  destruct (is_valid_group_name v) eqn:Ev.
  - apply wpe_ret, Gk; [assumption|okk|]. intros He. use_errs. split; [now apply group_name_iff|assumption].
  - apply (add_error_wpe k src); [split; [constructor; [split; cbn; lia|constructor]|exists v; split; [exact Hin|]; rewrite <- group_name_iff; congruence]|reflexivity|okk|]. intros s3 B Hne _ _ _ _. specialize (B false). ja B. nilr.
    apply Gk; [assumption|okk|]. intros He. contradiction.
Qed.

Lemma label_of_None t : label_of t = None -> forall x, In x [b "optional"; b "required"; b "repeated"] -> t <> TIdent x.
Proof.
  unfold label_of. intros H x Hx ->. destruct Hx as [<-|[<-|[<-|[]]]]; vm_compute in H; discriminate.
Qed.

Lemma field_wp n t0 sp0 s (Q : _ -> pst -> Prop) : okn n s -> rdy s -> (measure s <= fuel)%nat -> pkd s t0 sp0 -> at_dot_or_ident (Some (t0, sp0)) = true ->
  (forall ts a s', adv s ts s' -> ts <> [] -> rdy s' -> (errs s' = [] -> g_field k R ts a) -> Q a s') -> wp n (parse_field k pbody) s Q.
Proof.
  intros O Hrd Hf Hp Hd HQ. start. unfold parse_field. apply wpe_bind. eapply leading_wpe; [okk|exact Hrd|exact Hp|]. intros lead s1 P Hp1 M1 L1. jp P.
  apply wpe_bind. eapply peek_hit_wpe; [okk|exact Hp1|]. intros s2 P Hp2 M2. jp P. apply wpe_bind.
  assert (Gk : forall label ls s3, adv s ls s3 -> okn n s3 -> (errs s3 = [] -> lead_ok k src sp0 lead) -> g_label ls label -> match label with None => ls = [] /\ pkd s3 t0 sp0 /\ label_of t0 = None | Some _ => ls = sym t0 sp0 end ->
    wp n (t2 <- peek k;; (if at_ t2 (kw "map") then parse_map k lead sp0 label else if at_ t2 (kw "group") then parse_group k pbody lead sp0 label else parse_normal_field k lead sp0 label)) s3 Q).
  { clear - HQ Hf Hbody. intros label ls s3 A O Hld Hl Hm.
    assert (Gf : forall ts a s4 s5, pk s3 s4 -> advg false false s4 ts s5 -> ts <> [] -> rdy s5 -> (errs s5 = [] -> g_field_rest k R sp0 label ts a) -> Q a s5).
    { intros ts a s4 s5 P B Hn R5 Hg. apply (pk_adv_trans _ _ _ _ _ _ _ _ P) in B.
      assert (Hfs : first_span (ls ++ ts) = sp0 /\ (label = None -> not_kw [b "optional"; b "required"; b "repeated"] ts)).
      { destruct label as [l|]; [subst ls; split; [reflexivity|discriminate]|]. destruct Hm as (-> & Hp & Hlo). destruct (first_of k src _ _ _ _ _ _ _ Hp B Hn) as [F1 F2].
        split; [exact F2|]. intros _. eapply not_kw_of; [exact F1|]. now apply label_of_None. }
      destruct Hfs as [Hfs Hk]. ja B. eapply HQ; [eassumption|intros Ez; apply app_eq_nil in Ez; tauto|exact R5|]. intros He. constructor 1 with (label := label); auto. rewrite Hfs. auto. }
    apply wpe_bind, peek_wp; [okk|]. intros r s4 P Hr. assert (O4 : okn n s4) by (eapply pk_okn; eauto). assert (L4 : errs s4 = [] -> lead_ok k src sp0 lead) by (intros He; apply Hld; exact (pk_errs _ _ _ _ P He)).
    assert (M4 : (measure s4 <= fuel)%nat) by (pose proof (pk_meas _ _ _ _ P); pose proof (av_meas _ _ _ _ _ _ _ A); lia).
    destruct (at_ r (kw "map")) eqn:E1; [|destruct (at_ r (kw "group")) eqn:E2].
    - apply at_true in E1. destruct E1 as (sp & ->). eapply map_wp; [exact O4|exact L4|exact Hr|]. intros ts a s5 B Hn R5 G. eapply Gf; eauto.
    - apply at_true in E2. destruct E2 as (sp & ->). eapply group_wp; [exact O4|exact L4|exact M4|exact Hr|]. intros ts a s5 B Hn R5 G. eapply Gf; eauto.
    - eapply normal_wp; [exact O4|exact L4|exact Hr|exact E1|exact E2|]. intros ts a s5 B Hn R5 G. eapply Gf; eauto. }
  destruct (label_of t0) as [l|] eqn:El.
  - apply wpe_bind. eapply bump_adv; [okk|exact Hp2|]. intros s3 B. ja B. apply wpe_ret. apply label_of_some in El; destruct El as (x & -> & El); eapply Gk; [eassumption|okk|auto|now constructor|reflexivity].
  - cbn [at_dot_or_ident] in *. destruct t0; try discriminate; apply wpe_ret; (eapply Gk; [eassumption|okk|auto|constructor|auto]).
Qed.

Lemma extend_wp n s sp (Q : _ -> pst -> Prop) : Inv s -> (measure s <= S n)%nat -> (measure s <= fuel)%nat -> rdy s -> pkd s (kw "extend") sp ->
  (forall ts a s', adv s ts s' -> ts <> [] -> rdy s' -> (errs s' = [] -> g_extend k R ts a) -> Q a s') -> wp n (parse_extend k pbody) s Q.
Proof.
  intros Hi Hm Hf Hrd Hp HQ. unfold parse_extend. kwstart lead. sub type_name_wp ts1 nm s2 G1. exf e2 s3 F3. tr F3 c s4 R4 K4.
  assert (M4 : (measure s4 <= fuel)%nat) by (match goal with A : adv s _ s4 |- _ => pose proof (av_meas _ _ _ _ _ _ _ A) end; lia).
  apply wpe_bind. apply (loop_wpe _ (elems n s4 (g_extend_elem k R) somes)); [|apply elems_start; [okk|assumption|reflexivity]].
  intros r s5 I. lp I PP Hr.
  destruct (at_ x TSemicolon) eqn:X1; [|destruct (at_ x TRightBrace) eqn:X2; [|destruct (at_dot_or_ident x) eqn:X3; [|unexp]]].
  - hit X1. apply wpe_bind. eapply bump_fr; [okk|exact Hr|]. intros s7 B F7. pose proof (fresh_rdy _ _ _ _ F7) as R7. estep I PP B R7. eexists. split; [constructor|]. intros l ->. unfold somes. rewrite flat_map_app. symmetry. apply app_nil_r.
  - hit X2. apply wpe_bind. eapply bump_fr; [okk|exact Hr|]. intros s7 B F7. pose proof (fresh_rdy _ _ _ _ F7) as R7. apply wpe_ret. destruct (elems_exit _ _ _ _ _ _ _ _ _ I PP B) as (TS & B2 & HB). ja B2.
    fin HQ; [discriminate|exact R7|]. intros He. destruct (HB He) as (l & Gl & ->). use_errs. con.
  - destruct x as [[t tsp]|]; [|discriminate]. apply wpe_bind. eapply field_wp; [okk|assumption|lia|exact Hr|exact X3|]. intros ts a s7 B Hn R7 G. estep I PP B R7.
    eexists. split; [constructor; exact G|]. intros l ->. unfold somes. now rewrite flat_map_app.
Qed.

Lemma oneof_wp n s sp (Q : _ -> pst -> Prop) : Inv s -> (measure s <= S n)%nat -> (measure s <= fuel)%nat -> rdy s -> pkd s (kw "oneof") sp ->
  (forall ts a s', adv s ts s' -> ts <> [] -> rdy s' -> (errs s' = [] -> g_oneof k R ts a) -> Q a s') -> wp n (parse_oneof k pbody) s Q.
Proof.
  intros Hi Hm Hf Hrd Hp HQ. unfold parse_oneof. kwstart lead. sub ident_wp ts1 nm s2 G1. inversion G1; subst. exf e2 s3 F3. tr F3 c s4 R4 K4.
  assert (M4 : (measure s4 <= fuel)%nat) by (match goal with A : adv s _ s4 |- _ => pose proof (av_meas _ _ _ _ _ _ _ A) end; lia).
  apply wpe_bind. apply (loop_wpe _ (elems n s4 (g_oneof_elem k R) (fun l => (flat_map (fun x => match x with OEField f => [f] | _ => [] end) l, flat_map (fun x => match x with OEOption o => [o] | _ => [] end) l))));
    [|apply elems_start; [okk|assumption|reflexivity]].
  intros [fs os] s5 I. lp I PP Hr.
  destruct (at_ x (kw "option")) eqn:X0; [|destruct (at_ x TSemicolon) eqn:X1; [|destruct (at_ x TRightBrace) eqn:X2; [|destruct (at_dot_or_ident x) eqn:X3; [|unexp]]]].
  - hit X0. apply wpe_bind. eapply option_wp; [okk|mle|assumption|exact Hr|]. intros ts a s7 B Hn R7 G. estep I PP B R7. eexists. split; [apply g_oe_option; exact G|].
    intros l [= -> ->]. rewrite !flat_map_app. cbn. now rewrite app_nil_r.
  - hit X1. apply wpe_bind. eapply bump_fr; [okk|exact Hr|]. intros s7 B F7. pose proof (fresh_rdy _ _ _ _ F7) as R7. estep I PP B R7. eexists. split; [apply g_oe_empty|]. intros l [= -> ->]. rewrite !flat_map_app. cbn. now rewrite !app_nil_r.
  - hit X2. apply wpe_bind. eapply bump_fr; [okk|exact Hr|]. intros s7 B F7. pose proof (fresh_rdy _ _ _ _ F7) as R7. apply wpe_ret. destruct (elems_exit _ _ _ _ _ _ _ _ _ I PP B) as (TS & B2 & HB). ja B2.
    fin HQ; [discriminate|exact R7|]. intros He. destruct (HB He) as (l & Gl & [= -> ->]). use_errs. con.
  - destruct x as [[t tsp]|]; [|discriminate]. apply wpe_bind. eapply field_wp; [okk|assumption|lia|exact Hr|exact X3|]. intros ts a s7 B Hn R7 G.
    pose proof (proj1 (first_of k src _ _ _ _ _ _ _ Hr B Hn)) as F1. estep I PP B R7.
    eexists. split; [apply g_oe_field; [eapply not_kw_of; [exact F1|]|exact G]|].
    + intros y [<-|[]]. exact (at_false _ _ _ _ X0 eq_refl).
    + intros l [= -> ->]. rewrite !flat_map_app. cbn. now rewrite app_nil_r.
Qed.

Lemma message_wp n s sp (Q : _ -> pst -> Prop) : Inv s -> (measure s <= S n)%nat -> (measure s <= fuel)%nat -> rdy s -> pkd s (kw "message") sp ->
  (forall ts a s', adv s ts s' -> ts <> [] -> rdy s' -> (errs s' = [] -> g_message R ts a) -> Q a s') -> wp n (parse_message k pbody) s Q.
Proof.
  intros Hi Hm Hf Hrd Hp HQ. unfold parse_message. kwstart lead. sub ident_wp ts1 nm s2 G1. inversion G1; subst. exf e2 s3 F3. tr F3 c s4 R4 K4.
  assert (M4 : (measure s4 < fuel)%nat) by (match goal with A : adv s _ s4 |- _ => pose proof (av_meas _ _ _ _ _ _ _ A) as M4 end; cbn [app length sym] in M4; lia).
  apply wpe_bind, Hbody; [okk|exact R4|exact M4|]. intros ts7 [bd e] s8 B _ R8 G7. ja B. fin HQ; [discriminate|exact R8|]. intros He. use_errs. con.
Qed.
End WithBody.

Lemma enum_value_wp n v sp0 s (Q : _ -> pst -> Prop) : okn n s -> rdy s -> pkd s (TIdent v) sp0 -> v <> b "option" -> v <> b "reserved" ->
  (forall ts a s', adv s ts s' -> ts <> [] -> rdy s' -> (errs s' = [] -> g_enum_value k ts a) -> Q a s') -> wp n (parse_enum_value k) s Q.
Proof.
  intros O Hrd Hp N1 N2 HQ. start. unfold parse_enum_value. apply wpe_bind. eapply leading_wpe; [okk|exact Hrd|exact Hp|]. intros lead s1 PP Hp1 M1 L1. jp PP.
  apply wpe_bind. unfold parse_ident. apply wpe_bind, (peek_skip_hit_wpe k _ _ _ _ _ Hp1). apply wpe_bind. eapply bump_adv; [okk|exact Hp1|]. intros s2 B. ja B.
  apply wpe_ret. ex e2 s3. sub int_wp ts3 a3 s4 G3. sub opt_options_wp ts4 a4 s5 G4. exf e5 s6 F6. tr F6 c s7 R7 K7. fin HQ; [discriminate|exact R7|]. intros He. use_errs. con.
Qed.

Lemma enum_wp n s sp (Q : _ -> pst -> Prop) : Inv s -> (measure s <= S n)%nat -> rdy s -> pkd s (kw "enum") sp ->
  (forall ts a s', adv s ts s' -> ts <> [] -> rdy s' -> (errs s' = [] -> g_enum k ts a) -> Q a s') -> wp n (parse_enum k) s Q.
Proof.
  intros Hi Hm Hrd Hp HQ. unfold parse_enum. kwstart lead. sub ident_wp ts1 nm s2 G1. inversion G1; subst. exf e2 s3 F3. tr F3 c s4 R4 K4.
  apply wpe_bind. apply (loop_wpe _ (elems n s4 (g_enum_elem k) (fun l => (flat_map (fun x => match x with EEValue f => [f] | _ => [] end) l, 
     flat_map (fun x => match x with EEOption o => [o] | _ => [] end) l, flat_map (fun x => match x with EEReserved o => [o] | _ => [] end) l))));
    [|apply elems_start; [okk|assumption|reflexivity]].
  intros [[vs os] rs] s5 I. lp I PP Hr.
  destruct (at_ x (kw "option")) eqn:X0; [|destruct (at_ x (kw "reserved")) eqn:X1; [|destruct (at_ x TSemicolon) eqn:X2; [|destruct (at_ident x) eqn:X3; [|destruct (at_ x TRightBrace) eqn:X4; [|unexp]]]]].
  - hit X0. apply wpe_bind. eapply option_wp; [okk|mle|assumption|exact Hr|]. intros ts a s7 B Hn R7 G. estep I PP B R7. eexists. split; [apply g_en_option; exact G|].
    intros l [= -> -> ->]. rewrite !flat_map_app. cbn. now rewrite !app_nil_r.
  - hit X1. apply wpe_bind. eapply reserved_wp; [okk|mle|assumption|exact Hr|]. intros ts a s7 B Hn R7 G. estep I PP B R7. eexists. split; [apply g_en_reserved; exact G|].
    intros l [= -> -> ->]. rewrite !flat_map_app. cbn. now rewrite !app_nil_r.
  - hit X2. apply wpe_bind. eapply bump_fr; [okk|exact Hr|]. intros s7 B F7. pose proof (fresh_rdy _ _ _ _ F7) as R7. estep I PP B R7. eexists. split; [apply g_en_empty|]. intros l [= -> -> ->]. rewrite !flat_map_app. cbn. now rewrite !app_nil_r.
  - destruct x as [[t tsp]|]; [|discriminate]. destruct t as [v0| | | | | | | | | | | | | | | | | | | | | |]; try discriminate.
    apply wpe_bind. eapply enum_value_wp; [okk|assumption|exact Hr| | |].
    + intros ->. exact (at_false _ _ _ _ X0 eq_refl eq_refl).
    + intros ->. exact (at_false _ _ _ _ X1 eq_refl eq_refl).
    + intros ts a s7 B Hn R7 G. estep I PP B R7. eexists. split; [apply g_en_value; exact G|]. intros l [= -> -> ->]. rewrite !flat_map_app. cbn. now rewrite !app_nil_r.
  - hit X4. apply wpe_bind. eapply bump_fr; [okk|exact Hr|]. intros s7 B F7. pose proof (fresh_rdy _ _ _ _ F7) as R7. apply wpe_ret. destruct (elems_exit _ _ _ _ _ _ _ _ _ I PP B) as (TS & B2 & HB). ja B2.
    fin HQ; [discriminate|exact R7|]. intros He. destruct (HB He) as (l & Gl & [= -> -> ->]). use_errs. con.
Qed.

Lemma body_wp : forall fuel n s (Q : _ -> pst -> Prop), okn n s -> rdy s -> (measure s < fuel)%nat ->
  (forall ts a s', adv s ts s' -> ts <> [] -> rdy s' -> (errs s' = [] -> g_body_n k fuel ts a) -> Q a s') -> wp n (parse_message_body k fuel) s Q.
Proof.
  induction fuel as [|fuel IH]; intros n s Q O Hrd Hf HQ; [lia|]. cbn [parse_message_body].
  apply wpe_bind. apply (loop_wpe _ (elems n s (g_body_elem k (g_body_n k fuel)) (fun l => (flat_map be_item l, flat_map be_extensions l, flat_map be_option l, flat_map be_reserved l))));
    [|apply elems_start; [okk|assumption|reflexivity]].
  intros [[[its exs] ops] res] s5 I. lp I PP Hr.
  Ltac bproj := intros l [= -> -> -> ->]; rewrite !flat_map_app; cbn [flat_map be_item be_option be_extensions be_reserved app]; now rewrite ?app_nil_r.
  destruct (at_ x (kw "oneof")) eqn:X1; [|destruct (at_ x (kw "enum")) eqn:X2; [|destruct (at_ x (kw "message")) eqn:X3; [|destruct (at_ x (kw "extend")) eqn:X4;
    [|destruct (at_ x (kw "option")) eqn:X5; [|destruct (at_ x (kw "reserved")) eqn:X6; [|destruct (at_ x (kw "extensions")) eqn:X7; [|destruct (at_dot_or_ident x) eqn:X8;
    [|destruct (at_ x TSemicolon) eqn:X9; [|destruct (at_ x TRightBrace) eqn:X10; [|unexp]]]]]]]]]].
  - hit X1. apply wpe_bind. eapply (oneof_wp fuel); [exact IH|okk|mle|lia|assumption|exact Hr|]. intros ts a s7 B Hn R7 G. estep I PP B R7. eexists. split; [apply g_be_oneof; exact G|bproj].
  - hit X2. apply wpe_bind. eapply enum_wp; [okk|mle|assumption|exact Hr|]. intros ts a s7 B Hn R7 G. estep I PP B R7. eexists. split; [apply g_be_enum; exact G|bproj].
  - hit X3. apply wpe_bind. eapply (message_wp fuel); [exact IH|okk|mle|lia|assumption|exact Hr|]. intros ts a s7 B Hn R7 G. estep I PP B R7. eexists. split; [apply g_be_message; exact G|bproj].
  - hit X4. apply wpe_bind. eapply (extend_wp fuel); [exact IH|okk|mle|lia|assumption|exact Hr|]. intros ts a s7 B Hn R7 G. estep I PP B R7. eexists. split; [apply g_be_extend; exact G|bproj].
  - hit X5. apply wpe_bind. eapply option_wp; [okk|mle|assumption|exact Hr|]. intros ts a s7 B Hn R7 G. estep I PP B R7. eexists. split; [apply g_be_option; exact G|bproj].
  - hit X6. apply wpe_bind. eapply reserved_wp; [okk|mle|assumption|exact Hr|]. intros ts a s7 B Hn R7 G. estep I PP B R7. eexists. split; [apply g_be_reserved; exact G|bproj].
  - hit X7. apply wpe_bind. eapply extensions_wp; [okk|mle|assumption|exact Hr|]. intros ts a s7 B Hn R7 G. estep I PP B R7. eexists. split; [apply g_be_extensions; exact G|bproj].
  - destruct x as [[t tsp]|]; [|discriminate]. apply wpe_bind. eapply (field_wp fuel); [exact IH|okk|assumption|lia|exact Hr|exact X8|]. intros ts a s7 B Hn R7 G.
    pose proof (proj1 (first_of k src _ _ _ _ _ _ _ Hr B Hn)) as F1. estep I PP B R7.
    eexists. split; [apply g_be_field; [eapply not_kw_of; [exact F1|]|exact G]|bproj].
    intros y Hy. cbn [In] in Hy. repeat (destruct Hy as [<-|Hy]; [eapply at_false; [eassumption|reflexivity]|]). destruct Hy.
  - hit X9. apply wpe_bind. eapply bump_fr; [okk|exact Hr|]. intros s7 B F7. pose proof (fresh_rdy _ _ _ _ F7) as R7. estep I PP B R7. eexists. split; [apply g_be_empty|bproj].
  - hit X10. apply wpe_bind. eapply bump_fr; [okk|exact Hr|]. intros s7 B F7. pose proof (fresh_rdy _ _ _ _ F7) as R7. apply wpe_ret. destruct (elems_exit _ _ _ _ _ _ _ _ _ I PP B) as (TS & B2 & HB).
    apply wpe_ret. eapply HQ; [exact B2|intros Ez; apply app_eq_nil in Ez; destruct Ez; discriminate|exact R7|]. intros He. destruct (HB He) as (l & Gl & [= -> -> -> ->]).
    cbn [g_body_n]. exists TS, l. auto.
Qed.

(** ** Services *)
Lemma stream_wp n s (Q : _ -> pst -> Prop) : okn n s ->
  (forall cs ts s', adv s ts s' -> match cs with Some sp => ts = sym (kw "stream") sp | None => ts = [] /\ exists r, peeked s' r /\ at_ r (kw "stream") = false end -> Q cs s') ->
  wp n (parse_stream k) s Q.
Proof.
  intros O HQ. start. unfold parse_stream. apply wpe_bind, peek_skip_wp; [okk|]. intros r s1 PP Hr. jp PP.
  destruct (at_ r (kw "stream")) eqn:X1; [|destruct (at_dot_or_ident r) eqn:X2; [|unexp]].
  - hit X1. apply wpe_bind. eapply bump_adv; [okk|exact Hr|]. intros s7 B. ja B. fin HQ. reflexivity.
  - fin HQ. split; auto. exists r. auto.
Qed.
Lemma stream_type_wp {A} n terms s (f : option span -> type_name -> P A) (Q : _ -> pst -> Prop) {L : terms_ok k TDot terms} : okn n s ->
  (forall cs t ts s', adv s ts s' -> g_stream ts cs t -> wp n (f cs t) s' Q) -> wp n (cs <- parse_stream k ;; t <- parse_type_name k terms ;; f cs t) s Q.
Proof.
  intros O HQ. start. apply wpe_bind, stream_wp; [okk|]. intros cs ts s1 B Hc.
  pose proof (adv_okn _ _ _ _ _ _ _ _ O B) as O1. apply wpe_bind, type_name_wp; [exact _|exact O1|]. intros ts' t s2 B2 G. destruct (g_type_name_span _ _ G) as [Hn _].
  eapply HQ; [eapply adv_trans; eassumption|]. destruct cs as [sp|].
  - subst ts. now constructor.
  - destruct Hc as (-> & r & Hr & Ha). destruct (first_of_r _ _ _ _ _ _ Hr B2 Hn) as (ft & fsp & -> & F1 & _). constructor; auto. eapply not_kw_of; [exact F1|].
    intros y [<-|[]]. exact (at_false _ _ _ _ Ha eq_refl).
Qed.

Lemma rpc_end_wp n s (Q : _ -> pst -> Prop) : okn n s -> (forall ts a s', adv s ts s' -> ts <> [] -> fresh (snd a) s' -> (errs s' = [] -> g_rpc_end k ts a) -> Q a s') -> wp n (parse_rpc_end k) s Q.
Proof.
  intros O HQ. start. unfold parse_rpc_end. apply wpe_bind, peek_skip_wp; [okk|]. intros r s1 PP Hr. jp PP.
  destruct r as [[t sp]|]; [destruct t|]; try unexp.
  - apply wpe_bind. eapply bump_fr; [okk|exact Hr|]. intros s4 B F4. pose proof (fresh_rdy _ _ _ _ F4) as R4. ja B.
    apply (loop_wpe _ (elems n s4 (g_rpc_elem k) somes)); [|apply elems_start; [okk|assumption|reflexivity]].
    intros os s5 I. lp I PP Hr6.
    destruct (at_ x (kw "option")) eqn:X1; [|destruct (at_ x TRightBrace) eqn:X2; [|destruct (at_ x TSemicolon) eqn:X3; [|unexp]]].
    + hit X1. apply wpe_bind. eapply option_wp; [okk|mle|assumption|exact Hr6|]. intros ts a s7 B Hn R7 G. estep I PP B R7. eexists. split; [apply g_re_option; exact G|].
      intros l ->. unfold somes. now rewrite flat_map_app.
    + hit X2. apply wpe_bind. eapply bump_fr; [okk|exact Hr6|]. intros s7 B F7. apply wpe_ret. destruct (elems_exit _ _ _ _ _ _ _ _ _ I PP B) as (TS & B2 & HB). ja B2.
      eapply HQ; [eassumption|discriminate|exact F7|]. intros He. destruct (HB He) as (l & Gl & ->). now constructor.
    + hit X3. apply wpe_bind. eapply bump_fr; [okk|exact Hr6|]. intros s7 B F7. pose proof (fresh_rdy _ _ _ _ F7) as R7. estep I PP B R7. eexists. split; [apply g_re_empty|].
      intros l ->. unfold somes. rewrite flat_map_app. symmetry. apply app_nil_r.
  - apply wpe_bind. eapply bump_fr; [okk|exact Hr|]. intros s4 B F4. ja B. fin HQ; [discriminate|exact F4|]. intros _. constructor.
Qed.

Lemma rpc_wp n s sp (Q : _ -> pst -> Prop) : Inv s -> (measure s <= S n)%nat -> rdy s -> pkd s (kw "rpc") sp ->
  (forall ts a s', adv s ts s' -> ts <> [] -> rdy s' -> (errs s' = [] -> g_method k ts a) -> Q a s') -> wp n (parse_service_rpc k) s Q.
Proof.
  intros Hi Hm Hrd Hp HQ. unfold parse_service_rpc. kwstart lead. sub ident_wp ts1 nm s2 G1. inversion G1; subst. ex e2 s3.
  apply stream_type_wp; [exact _|okk|]. intros cs it its s4 B G4. ja B. ex e4 s5. ex e5 s6. ex e6 s7.
  apply stream_type_wp; [exact _|okk|]. intros ss ot ots s8 B G8. ja B. ex e8 s9. apply wpe_bind, rpc_end_wp; [okk|]. intros ts9 [os e] s10 B _ F10 G9. ja B. tr F10 c s11 R11 K11.
  fin HQ; [discriminate|exact R11|]. intros He. use_errs. con.
Qed.

Lemma service_wp n s sp (Q : _ -> pst -> Prop) : Inv s -> (measure s <= S n)%nat -> rdy s -> pkd s (kw "service") sp ->
  (forall ts a s', adv s ts s' -> ts <> [] -> rdy s' -> (errs s' = [] -> g_service k ts a) -> Q a s') -> wp n (parse_service k) s Q.
Proof.
  intros Hi Hm Hrd Hp HQ. unfold parse_service. kwstart lead. sub ident_wp ts1 nm s2 G1. inversion G1; subst. exf e2 s3 F3. tr F3 c s4 R4 K4.
  apply wpe_bind. apply (loop_wpe _ (elems n s4 (g_service_elem k) (fun l => (flat_map (fun x => match x with SEOption o => [o] | _ => [] end) l, flat_map (fun x => match x with SEMethod o => [o] | _ => [] end) l))));
    [|apply elems_start; [okk|assumption|reflexivity]].
  intros [os ms] s5 I. lp I PP Hr.
  destruct (at_ x (kw "rpc")) eqn:X0; [|destruct (at_ x (kw "option")) eqn:X1; [|destruct (at_ x TSemicolon) eqn:X2; [|destruct (at_ x TRightBrace) eqn:X3; [|unexp]]]].
  - hit X0. apply wpe_bind. eapply rpc_wp; [okk|mle|assumption|exact Hr|]. intros ts a s7 B Hn R7 G. estep I PP B R7. eexists. split; [apply g_se_method; exact G|].
    intros l [= -> ->]. rewrite !flat_map_app. cbn. now rewrite !app_nil_r.
  - hit X1. apply wpe_bind. eapply option_wp; [okk|mle|assumption|exact Hr|]. intros ts a s7 B Hn R7 G. estep I PP B R7. eexists. split; [apply g_se_option; exact G|].
    intros l [= -> ->]. rewrite !flat_map_app. cbn. now rewrite !app_nil_r.
  - hit X2. apply wpe_bind. eapply bump_fr; [okk|exact Hr|]. intros s7 B F7. pose proof (fresh_rdy _ _ _ _ F7) as R7. estep I PP B R7. eexists. split; [apply g_se_empty|]. intros l [= -> ->]. rewrite !flat_map_app. cbn. now rewrite !app_nil_r.
  - hit X3. apply wpe_bind. eapply bump_fr; [okk|exact Hr|]. intros s7 B F7. pose proof (fresh_rdy _ _ _ _ F7) as R7. apply wpe_ret. destruct (elems_exit _ _ _ _ _ _ _ _ _ I PP B) as (TS & B2 & HB). ja B2.
    fin HQ; [discriminate|exact R7|]. intros He. destruct (HB He) as (l & Gl & [= -> ->]). use_errs. con.
Qed.

End WalkG2.
