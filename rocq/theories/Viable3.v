(** The walk of Viable1.v through the parser: fields, blocks, services. *)
From Coq Require Import ZifyBool ZifyN.
From Verif Require Import Base Utf8 Errors Lex LexSpec PropsLex1 LexSafe Stream Ast Comments AttachSpec Attach Parse Grammar Utf8Spec Classify SynSpec LexErr Walk WalkG1 WalkG2 Kept Keeps Viable1 Viable2.

Definition w_semi : list tk := sym TSemicolon nsp.
Definition comI st e : com st e noc := I.
Ltac ex := cl expect_v ? ? ->; [reflexivity|intros ? ? ->; rewrite <- ?app_assoc|].
(** A block's elements followed by the closing brace. *)
Section Viable3.
Variable k : cfg.
Variable src : bytes.
Variable sentence : list tk -> Prop.
Notation V := (viable sentence false).
Notation wv := (Viable1.wv k src sentence).
Notation ctx := (Viable1.ctx k src).
Notation spec := (Viable1.spec k src sentence).
Notation specx := (Viable1.specx k src sentence).

Lemma scalar_not_kw v : scalar_of v = None -> forall ts, first_tok ts = Some (TIdent v) -> not_kw (map fst scalar_names) ts.
Proof. intros H ts F s Hs E. rewrite F in E. assert (s = v) as -> by congruence. revert Hs. now apply scalar_of_none. Qed.
Lemma dot_not_kw ts ks : first_tok ts = Some TDot -> not_kw ks ts.
Proof. intros F s _ E. congruence. Qed.

Lemma field_type_r terms TS s r : ctx false TS s -> peeked s r -> (at_dot_or_ident r = false -> V TS) -> (forall ts p, g_field_type ts p -> starts r ts -> V (TS ++ ts)) ->
  wv (match r with Some (TIdent n, sp) => match scalar_of n with Some y => bump ;;; ret (y, sp) | None => parse_named_type k terms end | Some (TDot, _) => parse_named_type k terms | _ => unexpected_token k (b "a field type") end) s
    (fun _ s' => exists ts p, ctx false (TS ++ ts) s' /\ g_field_type ts p /\ starts r ts).
Proof.
  intros C R HV K.
  assert (Hn : forall (Hk : forall ts, starts r ts -> ts <> [] -> not_kw (map fst scalar_names) ts), wv (parse_named_type k terms) s (fun _ s' => exists ts p, ctx false (TS ++ ts) s' /\ g_field_type ts p /\ starts r ts)).
  { intros Hk. assert (Hne : forall ts n, g_type_name ts n -> ts <> []). { intros ts n [ts' n' G|sp ts' n' G]; [|discriminate]. destruct G as [? ? []|? ? ? ? ? [] ?]; discriminate. }
    unfold parse_named_type. apply wv_bind; [|kall]. eapply wv_conseq; [eapply type_name_at; [exact C|exact R|exact HV|]|].
    - intros ts n G S. eapply K; [eapply g_named; [exact G|apply Hk; eauto]|exact S].
    - clear s C R. intros n' s (ts & n & C & G & S). destruct (type_name_span n'); [|exact I]. rx. split; [eapply g_named; [exact G|apply Hk; eauto]|exact S]. }
  destruct r as [[[] sp]|]; try (un; apply HV; reflexivity).
  - match goal with |- context[scalar_of ?v] => destruct (scalar_of v) eqn:E end.
    + bp. rx. split; [apply g_scalar; apply scalar_of_some; exact E|now apply starts_some].
    + apply Hn. intros ts S _. eapply scalar_not_kw; [exact E|]. destruct S as (? & ? & [= <- <-] & F). exact F.
  - apply Hn. intros ts S _. apply dot_not_kw. destruct S as (? & ? & [= <- <-] & F). exact F.
Qed.
Lemma field_type_at terms TS s r : ctx false TS s -> peeked s r -> (at_dot_or_ident r = false -> V TS) -> (forall ts p, g_field_type ts p -> starts r ts -> V (TS ++ ts)) ->
  wv (parse_field_type k terms) s (fun _ s' => exists ts p, ctx false (TS ++ ts) s' /\ g_field_type ts p /\ starts r ts).
Proof. intros C R HV K. unfold parse_field_type. lka R. now apply field_type_r. Qed.
Lemma field_type_v terms : specx (parse_field_type k terms) g_field_type.
Proof.
  intros TS s C K. unfold parse_field_type. lk r R. eapply wv_conseq; [eapply field_type_r; [exact C|exact R|intros _; fin K idtac|intros; eapply K; eauto]|]. intros a s' (ts & p & H1 & H2 & _). eauto.
Qed.

Section WithBody.
Variable pbody : P (body * span).
Variable gb : list tk -> body * span -> Prop.
Hypothesis Hkeep : keeps pbody.
Hypothesis Hbody : specx pbody gb.
Hypothesis Hempty : gb (sym TRightBrace nsp) (Body [] [] [] [], nsp).
#[local] Hint Resolve Hkeep : kd.
#[local] Hint Resolve Hempty : wit.

(** The end of a field. *)
Lemma field_end_v TS s : ctx false TS s -> (forall ts n os o e, g_int ts n -> g_opt_options k os o -> V (TS ++ ts ++ os ++ sym TSemicolon e)) ->
  forall A (f : aint -> option optlist -> span -> acomments -> A) lead,
  wv (number <- parse_int k ;; os <- parse_opt_options k TSemicolon (b "';' or '['") ;; e <- expect_eq k TSemicolon ;; c <- parse_trailing_comment k lead ;; ret (f number os e c)) s
    (fun _ s' => exists ts n os o e, ctx false (TS ++ ts ++ os ++ sym TSemicolon e) s' /\ g_int ts n /\ g_opt_options k os o).
Proof.
  intros C K A f lead. cx int_v a ts n G.
  { intros ts n G. eapply (cut _ _ w_semi); [|simp_]. rewrite <- app_assoc. apply (K ts n [] None nsp G). constructor. }
  cx opt_options_s oo os o Go.
  { intros os o Go. eapply (cut _ _ w_semi); [|simp_]. rewrite <- !app_assoc. eapply K; eauto. }
  ex; [eapply K; eauto|]. tl. apply wv_ret. exists ts, n, os, o. eauto 10.
Qed.
Lemma rest_any st label ts f st' : g_field_rest k gb st label ts f -> exists f', g_field_rest k gb st' label ts f'.
Proof.
  intros [ts1 t tsp sp1 v sp2 ts' n os o e c H1 H2 H3 H4 _|m0 m1 kts kt ksp m2 vts vt vsp m3 v sp1 sp2 ts' n os o e c H1 H2 H3 H4 _|m0 v sp1 sp2 ts' n os o sp3 bts bd e c H1 H2 H3 H4 _]; eexists.
  - eapply g_normal; eauto. apply comI.
  - eapply g_map; eauto. apply comI.
  - eapply g_group; eauto. apply comI.
Qed.
(** What follows the label, whatever the field's start. *)
Definition rest_ label ts (_ : unit) : Prop := exists st f, g_field_rest k gb st label ts f.

Lemma normal_v lead start label TS s r : ctx false TS s -> peeked s r -> at_ r (kw "map") = false -> at_ r (kw "group") = false -> (at_dot_or_ident r = false -> V TS) ->
  (forall ts x, rest_ label ts x -> starts r ts -> V (TS ++ ts)) -> wv (parse_normal_field k lead start label) s (fun _ s' => exists ts x, ctx false (TS ++ ts) s' /\ rest_ label ts x /\ starts r ts).
Proof.
  intros C R E1 E2 HV K. unfold parse_normal_field.
  assert (Hkw : forall ts, starts r ts -> not_kw [b "map"; b "group"] ts).
  { intros ts (t & sp & -> & F) w Hw E. rewrite F in E. cbn [at_] in E1, E2. assert (Ht : t = TIdent w) by congruence. subst t. destruct Hw as [<-|[<-|[]]]; [change (token_eqb (kw "map") (kw "map") = false) in E1; rewrite token_eqb_refl in E1; discriminate E1|change (token_eqb (kw "group") (kw "group") = false) in E2; rewrite token_eqb_refl in E2; discriminate E2]. }
  assert (Kn : forall ts p, g_field_type ts p -> starts r ts -> forall v sp1 sp2 ts' n os o e, g_int ts' n -> g_opt_options k os o -> V (TS ++ ts ++ sym (TIdent v) sp1 ++ sym TEquals sp2 ++ ts' ++ os ++ sym TSemicolon e)).
  { intros ts [t tsp] G S v sp1 sp2 ts' n os o e G1 G2. apply (K _ tt).
    - exists nsp. eexists. eapply g_normal; eauto. apply comI.
    - destruct S as (t0 & sp & -> & F). exists t0, sp. split; [reflexivity|]. destruct ts; [discriminate F|exact F]. }
  apply wv_bind; [|kall]. eapply wv_conseq; [eapply field_type_at; [exact C|exact R|exact HV|]|].
  { intros ts p G S. eapply (cut _ _ (w_name ++ sym TEquals nsp ++ sym (TInt 1) nsp ++ [] ++ w_semi)); [|simp_]. rewrite <- !app_assoc. eapply Kn; eauto with wit. }
  clear s C R. intros [t0 tsp0] s (ts & p & C & G & S). cl ident_v nm ts2 G2.
  { intros ts2 nm G2. destruct G2. eapply (cut _ _ (sym TEquals nsp ++ sym (TInt 1) nsp ++ [] ++ w_semi)); [|simp_]. rewrite <- !app_assoc. eapply Kn; eauto with wit. }
  destruct G2. cl expect_v ? ? ->; [reflexivity|intros ? sp2 ->|].
  { eapply (cut _ _ (sym (TInt 1) nsp ++ [] ++ w_semi)); [|simp_]. rewrite <- !app_assoc. eapply Kn; eauto with wit. }
  eapply wv_conseq; [eapply field_end_v; [exact C|]|].
  - intros ts' n os o e G1 G2. rewrite <- !app_assoc. eapply Kn; eauto.
  - clear s C. intros f s (ts' & n & os & o & e & C & G1 & G2). norm C. eexists. exists tt. split; [exact C|]. split.
    + destruct p. exists nsp. eexists. eapply g_normal; eauto. apply comI.
    + destruct S as (t1 & sp1 & -> & F). exists t1, sp1. split; [reflexivity|]. destruct ts; [discriminate F|exact F].
Qed.
Lemma map_v lead start label : specx (parse_map k lead start label) (fun ts x => rest_ label ts x /\ first_tok ts = Some (kw "map")).
Proof.
  intros TS s C K. unfold parse_map.
  assert (Kn : forall m0 m1 kts kp m2 vts vp m3 v sp1 sp2 ts' n os o e, g_field_type kts kp -> g_field_type vts vp -> g_int ts' n -> g_opt_options k os o ->
     V (TS ++ sym (kw "map") m0 ++ sym TLeftAngle m1 ++ kts ++ sym TComma m2 ++ vts ++ sym TRightAngle m3 ++ sym (TIdent v) sp1 ++ sym TEquals sp2 ++ ts' ++ os ++ sym TSemicolon e)).
  { intros m0 m1 kts [kt ksp] m2 vts [vt vsp] m3 v sp1 sp2 ts' n os o e G1 G2 G3 G4. apply (K _ tt). split; [|reflexivity]. exists nsp. eexists. eapply g_map; eauto. apply comI. }
  ex. { eapply (cut _ _ (sym TLeftAngle nsp ++ w_name ++ sym TComma nsp ++ w_name ++ sym TRightAngle nsp ++ w_name ++ sym TEquals nsp ++ sym (TInt 1) nsp ++ [] ++ w_semi)); [|simp_]. rewrite <- !app_assoc. eapply Kn; eauto with wit. }
  ex. { eapply (cut _ _ (w_name ++ sym TComma nsp ++ w_name ++ sym TRightAngle nsp ++ w_name ++ sym TEquals nsp ++ sym (TInt 1) nsp ++ [] ++ w_semi)); [|simp_]. rewrite <- !app_assoc. eapply Kn; eauto with wit. }
  cx field_type_v [kt0 ks0] kts kp G1. { intros kts kp G1. rewrite <- ?app_assoc. eapply (cut _ _ (sym TComma nsp ++ w_name ++ sym TRightAngle nsp ++ w_name ++ sym TEquals nsp ++ sym (TInt 1) nsp ++ [] ++ w_semi)); [|simp_]. rewrite <- !app_assoc. eapply Kn; eauto with wit. }
  ex. { eapply (cut _ _ (w_name ++ sym TRightAngle nsp ++ w_name ++ sym TEquals nsp ++ sym (TInt 1) nsp ++ [] ++ w_semi)); [|simp_]. rewrite <- !app_assoc. eapply Kn; eauto with wit. }
  cx field_type_v [vt0 vs0] vts vp G2. { intros vts vp G2. rewrite <- ?app_assoc. eapply (cut _ _ (sym TRightAngle nsp ++ w_name ++ sym TEquals nsp ++ sym (TInt 1) nsp ++ [] ++ w_semi)); [|simp_]. rewrite <- !app_assoc. eapply Kn; eauto with wit. }
  ex. { eapply (cut _ _ (w_name ++ sym TEquals nsp ++ sym (TInt 1) nsp ++ [] ++ w_semi)); [|simp_]. rewrite <- !app_assoc. eapply Kn; eauto with wit. }
  cl ident_v nm ts2 G3. { intros ts2 nm G3. destruct G3. rewrite <- ?app_assoc. eapply (cut _ _ (sym TEquals nsp ++ sym (TInt 1) nsp ++ [] ++ w_semi)); [|simp_]. rewrite <- !app_assoc. eapply Kn; eauto with wit. }
  destruct G3. ex. { eapply (cut _ _ (sym (TInt 1) nsp ++ [] ++ w_semi)); [|simp_]. rewrite <- !app_assoc. eapply Kn; eauto with wit. }
  eapply wv_conseq; [eapply field_end_v; [exact C|]|].
  - intros ts' n os o e G4 G5. rewrite <- !app_assoc. eapply Kn; eauto.
  - clear s C. intros f s (ts' & n & os & o & e & C & G4 & G5). norm C. eexists. exists tt. split; [exact C|]. split; [|reflexivity]. destruct kp, vp. exists nsp. eexists. eapply g_map; eauto. apply comI.
Qed.
Lemma group_v lead start label : specx (parse_group k pbody lead start label) (fun ts x => rest_ label ts x /\ first_tok ts = Some (kw "group")).
Proof.
  intros TS s C K. unfold parse_group.
  assert (Kn : forall m0 v sp1 sp2 ts' n os o sp3 bts bp, capitalised v -> g_int ts' n -> g_opt_options k os o -> gb bts bp ->
     V (TS ++ sym (kw "group") m0 ++ sym (TIdent v) sp1 ++ sym TEquals sp2 ++ ts' ++ os ++ sym TLeftBrace sp3 ++ bts)).
  { intros m0 v sp1 sp2 ts' n os o sp3 bts [bd e] G1 G2 G3 G4. apply (K _ tt). split; [|reflexivity]. exists nsp. eexists. eapply g_group; eauto. apply comI. }
  assert (HA : capitalised (b "A")) by now apply group_name_iff.
  ex. { eapply (cut _ _ (sym (TIdent (b "A")) nsp ++ sym TEquals nsp ++ sym (TInt 1) nsp ++ [] ++ sym TLeftBrace nsp ++ sym TRightBrace nsp)); [|simp_]. rewrite <- !app_assoc. eapply Kn; eauto with wit. }
  apply wv_bind; [|kall]. eapply wv_conseq; [eapply ident_v0; [exact C|]|].
  { eapply (cut _ _ (sym (TIdent (b "A")) nsp ++ sym TEquals nsp ++ sym (TInt 1) nsp ++ [] ++ sym TLeftBrace nsp ++ sym TRightBrace nsp)); [|simp_]. rewrite <- !app_assoc. eapply Kn; eauto with wit. }
  clear s C. intros [v vsp] s C. cbn [id_val id_span] in *. norm C. apply wv_bind; [|kall]. destruct (is_valid_group_name v) eqn:E; [|eapply wv_error; [exact C|reflexivity]]. apply group_name_iff in E. apply wv_ret.
  ex. { eapply (cut _ _ (sym (TInt 1) nsp ++ [] ++ sym TLeftBrace nsp ++ sym TRightBrace nsp)); [|simp_]. rewrite <- !app_assoc. eapply Kn; eauto with wit. }
  cx int_v nn ts' n G2. { intros ts' n G2. rewrite <- ?app_assoc. eapply (cut _ _ ([] ++ sym TLeftBrace nsp ++ sym TRightBrace nsp)); [|simp_]. rewrite <- !app_assoc. eapply Kn; eauto with wit. }
  cx opt_options_s oo os o G3. { intros os o G3. rewrite <- ?app_assoc. eapply (cut _ _ (sym TLeftBrace nsp ++ sym TRightBrace nsp)); [|simp_]. rewrite <- !app_assoc. eapply Kn; eauto with wit. }
  ex. { eapply (cut _ _ (sym TRightBrace nsp)); [|simp_]. rewrite <- !app_assoc. eapply Kn; eauto with wit. }
  tl. cx Hbody [bd e] bts bp G4. { intros bts bp G4. rewrite <- ?app_assoc. eapply Kn; eauto. }
  apply wv_ret. eexists. exists tt. split; [exact C|]. split; [|reflexivity]. destruct bp. exists nsp. eexists. eapply g_group; eauto. apply comI.
Qed.
(** A field that begins with the token in sight. *)
Lemma field_v TS s t sp : ctx false TS s -> peeked s (Some (t, sp)) -> at_dot_or_ident (Some (t, sp)) = true -> (forall ts f, g_field k gb ts f -> first_tok ts = Some t -> V (TS ++ ts)) ->
  wv (parse_field k pbody) s (fun _ s' => exists ts f, ctx false (TS ++ ts) s' /\ g_field k gb ts f /\ first_tok ts = Some t).
Proof.
  intros C R Hd K. unfold parse_field. lda R. lka R.
  apply wv_bind; [|kall]. destruct (label_of t) as [l|] eqn:El.
  - apply label_of_some in El. destruct El as (w & -> & Hin). bp. apply wv_ret. lk r2 R2.
    assert (Kl : forall ts x, rest_ (Some (l, sp)) ts x -> V ((TS ++ sym (TIdent w) sp) ++ ts)).
    { intros ts x (st & f & G). rewrite <- app_assoc. destruct (rest_any _ _ _ _ (first_span (sym (TIdent w) sp ++ ts)) G) as [f' G']. eapply (K _ f'); [|reflexivity]. eapply g_fd; [apply g_some_label, Hin|discriminate|exact G']. }
    assert (Hfin : forall ts x, rest_ (Some (l, sp)) ts x -> exists f, g_field k gb (sym (TIdent w) sp ++ ts) f /\ first_tok (sym (TIdent w) sp ++ ts) = Some (TIdent w)).
    { intros ts x (st & f & G). destruct (rest_any _ _ _ _ (first_span (sym (TIdent w) sp ++ ts)) G) as [f' G']. exists f'. split; [|reflexivity]. eapply g_fd; [apply g_some_label, Hin|discriminate|exact G']. }
    assert (Hend : forall ts x s', ctx false ((TS ++ sym (TIdent w) sp) ++ ts) s' -> rest_ (Some (l, sp)) ts x -> exists ts f, ctx false (TS ++ ts) s' /\ g_field k gb ts f /\ first_tok ts = Some (TIdent w)).
    { intros ts x s' C' G. destruct (Hfin _ _ G) as (f & G1 & G2). norm C'. eauto. }
    destruct (at_ r2 (kw "map")) eqn:Em; [|destruct (at_ r2 (kw "group")) eqn:Eg].
    + eapply wv_conseq; [eapply map_v; [exact C|intros ts x [G _]; eapply Kl, G]|]. intros a s' (ts & x & C' & G & _). eapply Hend; eauto.
    + eapply wv_conseq; [eapply group_v; [exact C|intros ts x [G _]; eapply Kl, G]|]. intros a s' (ts & x & C' & G & _). eapply Hend; eauto.
    + eapply wv_conseq; [eapply normal_v; [exact C|exact R2|exact Em|exact Eg| |intros ts x G _; eapply Kl, G]|]. 2:{ intros a s' (ts & x & C' & G & _). eapply Hend; eauto. }
      intros _. eapply (cut _ _ (w_name ++ w_name ++ sym TEquals nsp ++ sym (TInt 1) nsp ++ [] ++ w_semi)); [|simp_]. apply (Kl _ tt). exists nsp. eexists. eapply g_normal; eauto with wit. intros w' [<-|[<-|[]]] E; discriminate E.
  - rewrite Hd. apply wv_ret. lka R2.
    assert (Hkw : forall ts, first_tok ts = Some t -> not_kw [b "optional"; b "required"; b "repeated"] ts).
    { intros ts F w Hw E. rewrite F in E. apply (label_of_None _ El w Hw). congruence. }
    assert (Kl : forall ts x, rest_ None ts x -> first_tok ts = Some t -> V (TS ++ ts)).
    { intros ts x (st & f & G) F. destruct (rest_any _ _ _ _ (first_span ts) G) as [f' G']. eapply (K _ f'); [|exact F]. eapply (g_fd k gb [] None ts); [constructor|auto|exact G']. }
    assert (Hend : forall ts x s', ctx false (TS ++ ts) s' -> rest_ None ts x -> first_tok ts = Some t -> exists ts f, ctx false (TS ++ ts) s' /\ g_field k gb ts f /\ first_tok ts = Some t).
    { intros ts x s' C' (st & f & G) F. destruct (rest_any _ _ _ _ (first_span ts) G) as [f' G']. exists ts, f'. split; [exact C'|]. split; [|exact F]. eapply (g_fd k gb [] None ts); [constructor|auto|exact G']. }
    assert (Hfm : forall w, at_ (Some (t, sp)) (kw w) = true -> t = kw w). { intros w Hw. apply at_true in Hw. destruct Hw as [? [= -> _]]. reflexivity. }
    destruct (at_ (Some (t, sp)) (kw "map")) eqn:Em; [|destruct (at_ (Some (t, sp)) (kw "group")) eqn:Eg].
    + apply Hfm in Em. subst t. eapply wv_conseq; [eapply map_v; [exact C|intros ts x [G F]; eapply Kl; eauto]|]. intros a s' (ts & x & C' & G & F). eapply Hend; eauto.
    + apply Hfm in Eg. subst t. eapply wv_conseq; [eapply group_v; [exact C|intros ts x [G F]; eapply Kl; eauto]|]. intros a s' (ts & x & C' & G & F). eapply Hend; eauto.
    + eapply wv_conseq; [eapply normal_v; [exact C|exact R2|exact Em|exact Eg|intros Hx; rewrite Hd in Hx; discriminate Hx|intros ts x G (t1 & sp1 & [= <- <-] & F); eapply Kl; eauto]|].
      intros a s' (ts & x & C' & G & (t1 & sp1 & [= <- <-] & F)). eapply Hend; eauto.
  Unshelve. all: exact noc.
Qed.

(** A keyword in sight is none of the others. *)
Lemma not_kw_first t sp ts ks : first_tok ts = Some t -> Forall (fun w => at_ (Some (t, sp)) (TIdent w) = false) ks -> not_kw ks ts.
Proof.
  intros F H w Hw E. rewrite F in E. rewrite Forall_forall in H. specialize (H w Hw). assert (t = TIdent w) by congruence. subst t. cbn [at_] in H. rewrite token_eqb_refl in H. discriminate H.
Qed.
Lemma at_look r : at_dot_or_ident r = true -> exists t sp, r = Some (t, sp).
Proof. destruct r as [[t sp]|]; [eauto|discriminate]. Qed.
Lemma extend_v : specx (parse_extend k pbody) (g_extend k gb).
Proof.
  intros TS s C K. unfold parse_extend.
  assert (Kn : forall st ts n sp es l e, g_type_name ts n -> g_many (g_extend_elem k gb) es l -> V (TS ++ sym (kw "extend") st ++ ts ++ sym TLeftBrace sp ++ es ++ sym TRightBrace e)).
  { intros st ts n sp es l e G1 G2. eapply K. eapply g_et; eauto. apply comI. }
  ld. ex. { eapply (cut _ _ (w_name ++ sym TLeftBrace nsp ++ [] ++ sym TRightBrace nsp)); [|simp_]. rewrite <- !app_assoc. eapply Kn; eauto with wit. }
  cx type_name_v tn ts n G1. { intros ts n G1. rewrite <- ?app_assoc. eapply (cut _ _ (sym TLeftBrace nsp ++ [] ++ sym TRightBrace nsp)); [|simp_]. rewrite <- !app_assoc. eapply Kn; eauto with wit. }
  ex. { eapply (cut _ _ ([] ++ sym TRightBrace nsp)); [|simp_]. rewrite <- !app_assoc. eapply Kn; eauto with wit. }
  tl. apply wv_bind; [|kall]. rename a into st. match type of C with ctx _ (_ ++ _ ++ _ ++ sym _ ?x) _ => rename x into sp end.
  set (TS' := TS ++ sym (kw "extend") st ++ ts ++ sym TLeftBrace sp) in *.
  assert (Ke : forall es l, g_many (g_extend_elem k gb) es l -> V (TS' ++ es)).
  { intros es l G2. eapply (cut _ _ (sym TRightBrace nsp)); [|simp_]. unfold TS'. rewrite <- !app_assoc. eapply Kn; eauto. }
  apply (wv_loop k src sentence _ (fun _ s' => exists es l, ctx false (TS' ++ es) s' /\ g_many (g_extend_elem k gb) es l)); [|kall|exists [], []; rewrite app_nil_r; split; [exact C|constructor]].
  clear s C. intros a s (es & l & C & G). lk r R. destruct (at_ r TSemicolon) eqn:E1; [|destruct (at_ r TRightBrace) eqn:E2; [|destruct (at_dot_or_ident r) eqn:E3]].
  - apply at_true in E1. destruct E1 as [sp' ->]. bp. rx. eapply g_many_snoc; [exact G|apply g_ee_empty].
  - apply at_true in E2. destruct E2 as [sp' ->]. bp. apply wv_ret. apply wv_ret. unfold TS' in C. norm C. eexists. eexists. split; [exact C|]. eapply g_et; eauto. apply comI.
  - destruct (at_look _ E3) as (t & sp' & ->). apply wv_bind; [|kall]. eapply wv_conseq; [eapply field_v; [exact C|exact R|exact E3|]|].
    + intros ts' f Gf _. rewrite <- app_assoc. eapply Ke. eapply g_many_snoc; [exact G|apply g_ee_field, Gf].
    + clear s C R. intros f s (ts' & f' & C & Gf & _). norm C. rx. eapply g_many_snoc; [exact G|apply g_ee_field, Gf].
  - un. eapply Ke; eauto.
Qed.
Lemma oneof_v : specx (parse_oneof k pbody) (g_oneof k gb).
Proof.
  intros TS s C K. unfold parse_oneof.
  assert (Kn : forall st v sp0 sp es l e, g_many (g_oneof_elem k gb) es l -> V (TS ++ sym (kw "oneof") st ++ sym (TIdent v) sp0 ++ sym TLeftBrace sp ++ es ++ sym TRightBrace e)).
  { intros st v sp0 sp es l e G2. eapply K. eapply g_oo; eauto. apply comI. }
  ld. ex. { eapply (cut _ _ (w_name ++ sym TLeftBrace nsp ++ [] ++ sym TRightBrace nsp)); [|simp_]. rewrite <- !app_assoc. eapply Kn; eauto with wit. }
  cl ident_v nm ts G1. { intros ts n G1. destruct G1. rewrite <- ?app_assoc. eapply (cut _ _ (sym TLeftBrace nsp ++ [] ++ sym TRightBrace nsp)); [|simp_]. rewrite <- !app_assoc. eapply Kn; eauto with wit. }
  destruct G1 as [v sp0]. ex. { eapply (cut _ _ ([] ++ sym TRightBrace nsp)); [|simp_]. rewrite <- !app_assoc. eapply Kn; eauto with wit. }
  tl. apply wv_bind; [|kall]. match type of C with ctx _ (_ ++ sym _ ?y ++ _ ++ sym _ ?x) _ => rename x into sp; rename y into st end.
  set (TS' := TS ++ sym (kw "oneof") st ++ sym (TIdent v) sp0 ++ sym TLeftBrace sp) in *.
  assert (Ke : forall es l, g_many (g_oneof_elem k gb) es l -> V (TS' ++ es)).
  { intros es l G2. eapply (cut _ _ (sym TRightBrace nsp)); [|simp_]. unfold TS'. rewrite <- !app_assoc. eapply Kn; eauto. }
  assert (Ks : forall es l, g_many (g_oneof_elem k gb) es l -> forall ts x, g_oneof_elem k gb ts x -> V ((TS' ++ es) ++ ts)).
  { intros es l G2 ts x G3. rewrite <- app_assoc. eapply Ke, g_many_snoc; eauto. }
  apply (wv_loop k src sentence _ (fun _ s' => exists es l, ctx false (TS' ++ es) s' /\ g_many (g_oneof_elem k gb) es l)); [|kall|exists [], []; rewrite app_nil_r; split; [exact C|constructor]].
  clear s C. intros [a1 a2] s (es & l & C & G). lk r R. destruct (at_ r (kw "option")) eqn:E0; [|destruct (at_ r TSemicolon) eqn:E1; [|destruct (at_ r TRightBrace) eqn:E2; [|destruct (at_dot_or_ident r) eqn:E3]]].
  - cx option_v oo ts' o Go; [intros; eapply Ks, g_oe_option; eauto|]. rx. eapply g_many_snoc; [exact G|apply g_oe_option, Go].
  - apply at_true in E1. destruct E1 as [sp' ->]. bp. rx. eapply g_many_snoc; [exact G|apply g_oe_empty].
  - apply at_true in E2. destruct E2 as [sp' ->]. bp. apply wv_ret. apply wv_ret. unfold TS' in C. norm C. eexists. eexists. split; [exact C|]. eapply g_oo; eauto. apply comI.
  - destruct (at_look _ E3) as (t & sp' & ->). assert (Hk : forall ts, first_tok ts = Some t -> not_kw [b "option"] ts) by (intros ts F; eapply (not_kw_first t sp'); [exact F|repeat constructor; exact E0]).
    apply wv_bind; [|kall]. eapply wv_conseq; [eapply field_v; [exact C|exact R|exact E3|]|].
    + intros ts' f Gf F. eapply Ks; [exact G|]. apply g_oe_field; [apply Hk, F|exact Gf].
    + clear s C R. intros f s (ts' & f' & C & Gf & F). norm C. rx. eapply g_many_snoc; [exact G|apply g_oe_field; [apply Hk, F|exact Gf]].
  - un. eapply Ke; eauto.
Qed.
Lemma message_v : specx (parse_message k pbody) (g_message gb).
Proof.
  intros TS s C K. unfold parse_message.
  assert (Kn : forall st v sp0 sp ts x, gb ts x -> V (TS ++ sym (kw "message") st ++ sym (TIdent v) sp0 ++ sym TLeftBrace sp ++ ts)).
  { intros st v sp0 sp ts [bd e] G2. eapply K. eapply g_ms; eauto. apply comI. }
  ld. ex. { eapply (cut _ _ (w_name ++ sym TLeftBrace nsp ++ sym TRightBrace nsp)); [|simp_]. rewrite <- !app_assoc. eapply Kn; eauto with wit. }
  cl ident_v nm ts G1. { intros ts n G1. destruct G1. rewrite <- ?app_assoc. eapply (cut _ _ (sym TLeftBrace nsp ++ sym TRightBrace nsp)); [|simp_]. rewrite <- !app_assoc. eapply Kn; eauto with wit. }
  destruct G1 as [v sp0]. ex. { eapply (cut _ _ (sym TRightBrace nsp)); [|simp_]. rewrite <- !app_assoc. eapply Kn; eauto with wit. }
  tl. cx Hbody [bd e] bts bp G4. { intros bts bp G4. rewrite <- ?app_assoc. eapply Kn; eauto. }
  destruct bp. rx. eapply g_ms; eauto. apply comI.
Qed.
End WithBody.

(** *** Enums *)
Lemma enum_value_v TS s v sp0 : ctx false TS s -> peeked s (Some (TIdent v, sp0)) -> v <> b "option" -> v <> b "reserved" -> (forall ts x, g_enum_value k ts x -> V (TS ++ ts)) ->
  wv (parse_enum_value k) s (fun _ s' => exists ts x, ctx false (TS ++ ts) s' /\ g_enum_value k ts x).
Proof.
  intros C R H1 H2 K. unfold parse_enum_value. lda R. apply wv_bind; [|kall]. eapply wv_conseq; [eapply ident_at; [exact C|exact R]|]. clear s C R. intros nm s [-> C]. cbv beta.
  ex. { fin K (eapply g_ev). }
  eapply wv_conseq; [eapply field_end_v; [exact C|]|].
  - intros ts' n os o e G1 G2. rewrite <- !app_assoc. eapply K, g_ev; eauto. apply comI.
  - clear s C. intros f s (ts' & n & os & o & e & C & G1 & G2). norm C. eexists. eexists. split; [exact C|]. eapply g_ev; eauto. apply comI.
Qed.
Lemma enum_v : specx (parse_enum k) (g_enum k).
Proof.
  intros TS s C K. unfold parse_enum.
  assert (Kn : forall st v sp0 sp es l e, g_many (g_enum_elem k) es l -> V (TS ++ sym (kw "enum") st ++ sym (TIdent v) sp0 ++ sym TLeftBrace sp ++ es ++ sym TRightBrace e)).
  { intros st v sp0 sp es l e G2. eapply K. eapply g_en; eauto. apply comI. }
  ld. ex. { eapply (cut _ _ (w_name ++ sym TLeftBrace nsp ++ [] ++ sym TRightBrace nsp)); [|simp_]. rewrite <- !app_assoc. eapply Kn; eauto with wit. }
  cl ident_v nm ts G1. { intros ts n G1. destruct G1. rewrite <- ?app_assoc. eapply (cut _ _ (sym TLeftBrace nsp ++ [] ++ sym TRightBrace nsp)); [|simp_]. rewrite <- !app_assoc. eapply Kn; eauto with wit. }
  destruct G1 as [v sp0]. ex. { eapply (cut _ _ ([] ++ sym TRightBrace nsp)); [|simp_]. rewrite <- !app_assoc. eapply Kn; eauto with wit. }
  tl. apply wv_bind; [|kall]. match type of C with ctx _ (_ ++ sym _ ?y ++ _ ++ sym _ ?x) _ => rename x into sp; rename y into st end.
  set (TS' := TS ++ sym (kw "enum") st ++ sym (TIdent v) sp0 ++ sym TLeftBrace sp) in *.
  assert (Ke : forall es l, g_many (g_enum_elem k) es l -> V (TS' ++ es)).
  { intros es l G2. eapply (cut _ _ (sym TRightBrace nsp)); [|simp_]. unfold TS'. rewrite <- !app_assoc. eapply Kn; eauto. }
  assert (Ks : forall es l, g_many (g_enum_elem k) es l -> forall ts x, g_enum_elem k ts x -> V ((TS' ++ es) ++ ts)).
  { intros es l G2 ts x G3. rewrite <- app_assoc. eapply Ke, g_many_snoc; eauto. }
  apply (wv_loop k src sentence _ (fun _ s' => exists es l, ctx false (TS' ++ es) s' /\ g_many (g_enum_elem k) es l)); [|kall|exists [], []; rewrite app_nil_r; split; [exact C|constructor]].
  clear s C. intros [[a1 a2] a3] s (es & l & C & G). lk r R. destruct (at_ r (kw "option")) eqn:E0; [|destruct (at_ r (kw "reserved")) eqn:E3; [|destruct (at_ r TSemicolon) eqn:E1; [|destruct (at_ident r) eqn:E4; [|destruct (at_ r TRightBrace) eqn:E2]]]].
  - cx option_v oo ts' o Go; [intros; eapply Ks, g_en_option; eauto|]. rx. eapply g_many_snoc; [exact G|apply g_en_option, Go].
  - cx reserved_v oo ts' o Go; [intros; eapply Ks, g_en_reserved; eauto|]. rx. eapply g_many_snoc; [exact G|apply g_en_reserved, Go].
  - apply at_true in E1. destruct E1 as [sp' ->]. bp. rx. eapply g_many_snoc; [exact G|apply g_en_empty].
  - destruct r as [[[] sp']|]; try discriminate E4. apply wv_bind; [|kall]. eapply wv_conseq; [eapply enum_value_v; [exact C|exact R| | |intros; eapply Ks, g_en_value; eauto]|].
    + intros ->. cbn [at_] in E0. change (token_eqb (kw "option") (kw "option") = false) in E0. rewrite token_eqb_refl in E0. discriminate E0.
    + intros ->. cbn [at_] in E3. change (token_eqb (kw "reserved") (kw "reserved") = false) in E3. rewrite token_eqb_refl in E3. discriminate E3.
    + clear s C R. intros f s (ts' & f' & C & Gf). norm C. rx. eapply g_many_snoc; [exact G|apply g_en_value, Gf].
  - apply at_true in E2. destruct E2 as [sp' ->]. bp. apply wv_ret. apply wv_ret. unfold TS' in C. norm C. eexists. eexists. split; [exact C|]. eapply g_en; eauto. apply comI.
  - un. eapply Ke; eauto.
Qed.

(** *** Message bodies *)
Lemma body_v fuel : specx (parse_message_body k fuel) (g_body_n k (S fuel)).
Proof.
  induction fuel as [|f IH]; [intros TS s _ _; exact I|]. intros TS s C K. set (gb := g_body_n k (S f)) in *. 
  assert (Hempty : gb (sym TRightBrace nsp) (Body [] [] [] [], nsp)). { exists [], []. split; [constructor|]. auto. }
  assert (Hkeep : keeps (parse_message_body k f)) by kall.
  assert (Ke : forall es l, g_many (g_body_elem k gb) es l -> V (TS ++ es)).
  { intros es l G2. eapply (cut _ _ (sym TRightBrace nsp)); [|simp_]. rewrite <- !app_assoc. eapply (K _ (_, nsp)). exists es, l. split; [exact G2|]. split; reflexivity. }
  assert (Ks : forall es l, g_many (g_body_elem k gb) es l -> forall ts x, g_body_elem k gb ts x -> V ((TS ++ es) ++ ts)).
  { intros es l G2 ts x G3. rewrite <- app_assoc. eapply Ke, g_many_snoc; eauto. }
  cbn [parse_message_body]. apply wv_bind; [|kall].
  apply (wv_loop k src sentence _ (fun _ s' => exists es l, ctx false (TS ++ es) s' /\ g_many (g_body_elem k gb) es l)); [|kall|exists [], []; rewrite app_nil_r; split; [exact C|constructor]].
  clear s C. intros [[[a1 a2] a3] a4] s (es & l & C & G). lk r R.
  destruct (at_ r (kw "oneof")) eqn:E1; [cx (oneof_v _ _ Hkeep IH Hempty) oo ts' o Go; [intros; eapply Ks, g_be_oneof; eauto|]; rx; eapply g_many_snoc; [exact G|apply g_be_oneof, Go]|].
  destruct (at_ r (kw "enum")) eqn:E2; [cx enum_v oo ts' o Go; [intros; eapply Ks, g_be_enum; eauto|]; rx; eapply g_many_snoc; [exact G|apply g_be_enum, Go]|].
  destruct (at_ r (kw "message")) eqn:E3; [cx (message_v _ _ Hkeep IH Hempty) oo ts' o Go; [intros; eapply Ks, g_be_message; eauto|]; rx; eapply g_many_snoc; [exact G|apply g_be_message, Go]|].
  destruct (at_ r (kw "extend")) eqn:E4; [cx (extend_v _ _ Hkeep IH Hempty) oo ts' o Go; [intros; eapply Ks, g_be_extend; eauto|]; rx; eapply g_many_snoc; [exact G|apply g_be_extend, Go]|].
  destruct (at_ r (kw "option")) eqn:E5; [cx option_v oo ts' o Go; [intros; eapply Ks, g_be_option; eauto|]; rx; eapply g_many_snoc; [exact G|apply g_be_option, Go]|].
  destruct (at_ r (kw "reserved")) eqn:E6; [cx reserved_v oo ts' o Go; [intros; eapply Ks, g_be_reserved; eauto|]; rx; eapply g_many_snoc; [exact G|apply g_be_reserved, Go]|].
  destruct (at_ r (kw "extensions")) eqn:E7; [cx extensions_v oo ts' o Go; [intros; eapply Ks, g_be_extensions; eauto|]; rx; eapply g_many_snoc; [exact G|apply g_be_extensions, Go]|].
  destruct (at_dot_or_ident r) eqn:E8.
  { destruct (at_look _ E8) as (t & sp' & ->). assert (Hk : forall ts, first_tok ts = Some t -> not_kw [b "oneof"; b "enum"; b "message"; b "extend"; b "option"; b "reserved"; b "extensions"] ts) by (intros ts F; eapply (not_kw_first t sp'); [exact F|repeat (apply Forall_cons; [assumption|]); apply Forall_nil]).
    apply wv_bind; [|kall]. eapply wv_conseq; [eapply (field_v _ gb); [exact Hkeep|exact IH|exact Hempty|exact C|exact R|exact E8|]|].
    - intros ts' x Gf F. eapply Ks; [exact G|]. apply g_be_field; [apply Hk, F|exact Gf].
    - clear s C R. intros x s (ts' & f' & C & Gf & F). norm C. rx. eapply g_many_snoc; [exact G|apply g_be_field; [apply Hk, F|exact Gf]]. }
  destruct (at_ r TSemicolon) eqn:E9; [apply at_true in E9; destruct E9 as [sp' ->]; bp; rx; eapply g_many_snoc; [exact G|apply g_be_empty]|].
  destruct (at_ r TRightBrace) eqn:E10; [|un; eapply Ke; eauto].
  apply at_true in E10. destruct E10 as [sp' ->]. bp. apply wv_ret. apply wv_ret. eexists. exists (Body (flat_map be_item l) (flat_map be_extensions l) (flat_map be_option l) (flat_map be_reserved l), sp'). split; [exact C|]. exists es, l. split; [exact G|]. auto.
Qed.
End Viable3.
