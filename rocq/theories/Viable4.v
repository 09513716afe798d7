(** The walk of Viable1.v through the parser: services and files. *)
From Coq Require Import ZifyBool ZifyN.
From Verif Require Import Base Utf8 Errors Lex LexSpec PropsLex1 LexSafe Stream Ast Comments AttachSpec Attach Parse Grammar Utf8Spec Classify SynSpec LexErr Walk WalkG1 WalkG2 WalkG3 Kept Keeps Viable1 Viable2 Viable3.

(** The sequences of statements the walk has in view: those of a file, and those
    where the last statement is a second package declaration (which the parser
    reports as such). *)
Definition packages_ok (l : list statement) : Prop :=
  (length (flat_map st_packages l) <= 1)%nat \/ exists l0 p, l = l0 ++ [StPackage p] /\ length (flat_map st_packages l0) = 1%nat.
Definition sentence (k : cfg) (ts : list tk) : Prop :=
  exists ss sx c ts' l, g_syntax (C := any_comments) ss sx c /\ g_many (g_statement (C := any_comments) k) ts' l /\ ts = ss ++ ts' /\ packages_ok l.

Section Viable4a.
Variable k : cfg.
Variable src : bytes.
Variable sentence : list tk -> Prop.
Notation V := (viable sentence false).
Notation wv := (Viable1.wv k src sentence).
Notation ctx := (Viable1.ctx k src).
Notation spec := (Viable1.spec k src sentence).
Notation specx := (Viable1.specx k src sentence).

(** *** Services *)
(** [stream] and the type name, as one. *)
Lemma stream_v {A} terms TS s (f : option span -> type_name -> P A) (Q : A -> pst -> Prop) : ctx false TS s -> (forall ts c n, g_stream ts c n -> V (TS ++ ts)) -> (forall c n, keeps (f c n)) ->
  (forall a1 a2 s' ts c n, ctx false (TS ++ ts) s' -> g_stream ts c n -> wv (f a1 a2) s' Q) ->
  wv (cs <- parse_stream k ;; it <- parse_type_name k terms ;; f cs it) s Q.
Proof.
  intros C K Hk HQ. unfold parse_stream. apply wv_bind; [|kall; auto].
  assert (HV : V TS). { eapply (cut _ _ w_name); [|simp_]. eapply K. apply wit_stream. }
  sk r R. destruct (at_ r (kw "stream")) eqn:E.
  - apply at_true in E. destruct E as [sp ->]. bp. apply wv_ret. cx type_name_v a ts n G; [intros ts n G; rewrite <- app_assoc; eapply K, g_is_stream, G|]. eapply HQ; [exact C|apply g_is_stream, G].
  - destruct (at_dot_or_ident r) eqn:E2; [|un; exact HV]. apply wv_ret. destruct (at_look _ E2) as (t & sp & ->).
    assert (Hkw : forall ts, starts (Some (t, sp)) ts -> not_kw [b "stream"] ts). { intros ts (t1 & sp1 & [= <- <-] & F). eapply (not_kw_first t sp); [exact F|repeat constructor; exact E]. }
    apply wv_bind; [|apply Hk]. eapply wv_conseq; [eapply type_name_at; [exact C|exact R|intros _; exact HV|]|].
    + intros ts n G S. eapply K, g_no_stream; [exact G|apply Hkw, S].
    + clear s C R. intros a s (ts & n & C & G & S). eapply HQ; [exact C|]. eapply g_no_stream; [exact G|apply Hkw, S].
Qed.
Lemma rpc_end_v : specx (parse_rpc_end k) (g_rpc_end k).
Proof.
  intros TS s C K. unfold parse_rpc_end. sk r R. destruct r as [[[] sp]|]; try (un; fin K idtac).
  - bp. assert (Ke : forall es l, g_many (g_rpc_elem k) es l -> V ((TS ++ sym TLeftBrace sp) ++ es)).
    { intros es l G2. eapply (cut _ _ (sym TRightBrace nsp)); [|simp_]. rewrite <- !app_assoc. eapply K, g_rpc_body, G2. }
    assert (Ks : forall es l, g_many (g_rpc_elem k) es l -> forall ts x, g_rpc_elem k ts x -> V (((TS ++ sym TLeftBrace sp) ++ es) ++ ts)).
    { intros es l G2 ts x G3. rewrite <- app_assoc. eapply Ke, g_many_snoc; eauto. }
    apply (wv_loop k src sentence _ (fun _ s' => exists es l, ctx false ((TS ++ sym TLeftBrace sp) ++ es) s' /\ g_many (g_rpc_elem k) es l)); [|kall|exists [], []; rewrite app_nil_r; split; [exact C|constructor]].
    clear s C. intros a s (es & l & C & G). lk r R. destruct (at_ r (kw "option")) eqn:E0; [|destruct (at_ r TRightBrace) eqn:E2; [|destruct (at_ r TSemicolon) eqn:E1]].
    + cx option_v oo ts' o Go; [intros; eapply Ks, g_re_option; eauto|]. apply wv_ret. exists (es ++ ts'). eexists. rewrite <- !app_assoc. split; [exact C|]. eapply g_many_snoc; [exact G|apply g_re_option, Go].
    + apply at_true in E2. destruct E2 as [sp' ->]. bp. rx. eapply g_rpc_body, G.
    + apply at_true in E1. destruct E1 as [sp' ->]. bp. apply wv_ret. exists (es ++ sym TSemicolon sp'). eexists. rewrite <- !app_assoc. split; [exact C|]. eapply g_many_snoc; [exact G|apply g_re_empty].
    + un. eapply Ke; eauto.
  - bp. rx. apply g_rpc_semi.
Qed.
Lemma rpc_v : specx (parse_service_rpc k) (g_method k).
Proof.
  intros TS s C K. unfold parse_service_rpc.
  assert (Kn : forall st v sp0 p1 its cs it p2 r p3 ots ss ot p4 ets x, g_stream its cs it -> g_stream ots ss ot -> g_rpc_end k ets x ->
    V (TS ++ sym (kw "rpc") st ++ sym (TIdent v) sp0 ++ sym TLeftParen p1 ++ its ++ sym TRightParen p2 ++ sym (kw "returns") r ++ sym TLeftParen p3 ++ ots ++ sym TRightParen p4 ++ ets)).
  { intros st v sp0 p1 its cs it p2 r p3 ots ss ot p4 ets [os e] G1 G2 G3. eapply K. eapply g_me; eauto. apply comI. }
  pose (z9 := sym TRightParen nsp ++ sym TSemicolon nsp). pose (z8 := w_name ++ z9). pose (z7 := sym TLeftParen nsp ++ z8). pose (z6 := sym (kw "returns") nsp ++ z7). pose (z5 := sym TRightParen nsp ++ z6). pose (z4 := w_name ++ z5). pose (z3 := sym TLeftParen nsp ++ z4). pose (z2 := w_name ++ z3).
  ld. ex. { eapply (cut _ _ z2); [|simp_]. rewrite <- !app_assoc. eapply Kn; eauto with wit. }
  cl ident_v nm ts G1. { intros ts n G1. destruct G1. rewrite <- ?app_assoc. eapply (cut _ _ z3); [|simp_]. rewrite <- !app_assoc. eapply Kn; eauto with wit. }
  destruct G1 as [v sp0]. ex. { eapply (cut _ _ z4); [|simp_]. rewrite <- !app_assoc. eapply Kn; eauto with wit. }
  eapply stream_v; [exact C|..|kall|clear s C; intros a1 a2 s its cs it C G2; norm C].
  { intros its cs it G2. eapply (cut _ _ z5); [|simp_]. rewrite <- !app_assoc. eapply Kn; eauto with wit. }
  ex. { eapply (cut _ _ z6); [|simp_]. rewrite <- !app_assoc. eapply Kn; eauto with wit. }
  ex. { eapply (cut _ _ z7); [|simp_]. rewrite <- !app_assoc. eapply Kn; eauto with wit. }
  ex. { eapply (cut _ _ z8); [|simp_]. rewrite <- !app_assoc. eapply Kn; eauto with wit. }
  eapply stream_v; [exact C|..|kall|clear s C; intros b3 b4 s ots ss ot C G3; norm C].
  { intros ots ss ot G3. eapply (cut _ _ z9); [|simp_]. rewrite <- !app_assoc. eapply Kn; eauto with wit. }
  ex. { eapply (cut _ _ (sym TSemicolon nsp)); [|simp_]. rewrite <- !app_assoc. eapply Kn; eauto with wit. }
  cx rpc_end_v [os0 e0] ets [os e] G4. { intros ets x G4. rewrite <- ?app_assoc. eapply Kn; eauto. }
  tl. rx. eapply g_me; eauto. apply comI.
Qed.
Lemma service_v : specx (parse_service k) (g_service k).
Proof.
  intros TS s C K. unfold parse_service.
  assert (Kn : forall st v sp0 sp es l e, g_many (g_service_elem k) es l -> V (TS ++ sym (kw "service") st ++ sym (TIdent v) sp0 ++ sym TLeftBrace sp ++ es ++ sym TRightBrace e)).
  { intros st v sp0 sp es l e G2. eapply K. eapply g_sv; eauto. apply comI. }
  ld. ex. { eapply (cut _ _ (w_name ++ sym TLeftBrace nsp ++ [] ++ sym TRightBrace nsp)); [|simp_]. rewrite <- !app_assoc. eapply Kn; eauto with wit. }
  cl ident_v nm ts G1. { intros ts n G1. destruct G1. rewrite <- ?app_assoc. eapply (cut _ _ (sym TLeftBrace nsp ++ [] ++ sym TRightBrace nsp)); [|simp_]. rewrite <- !app_assoc. eapply Kn; eauto with wit. }
  destruct G1 as [v sp0]. ex. { eapply (cut _ _ ([] ++ sym TRightBrace nsp)); [|simp_]. rewrite <- !app_assoc. eapply Kn; eauto with wit. }
  tl. apply wv_bind; [|kall]. match type of C with ctx _ (_ ++ sym _ ?y ++ _ ++ sym _ ?x) _ => rename x into sp; rename y into st end.
  set (TS' := TS ++ sym (kw "service") st ++ sym (TIdent v) sp0 ++ sym TLeftBrace sp) in *.
  assert (Ke : forall es l, g_many (g_service_elem k) es l -> V (TS' ++ es)).
  { intros es l G2. eapply (cut _ _ (sym TRightBrace nsp)); [|simp_]. unfold TS'. rewrite <- !app_assoc. eapply Kn; eauto. }
  assert (Ks : forall es l, g_many (g_service_elem k) es l -> forall ts x, g_service_elem k ts x -> V ((TS' ++ es) ++ ts)).
  { intros es l G2 ts x G3. rewrite <- app_assoc. eapply Ke, g_many_snoc; eauto. }
  apply (wv_loop k src sentence _ (fun _ s' => exists es l, ctx false (TS' ++ es) s' /\ g_many (g_service_elem k) es l)); [|kall|exists [], []; rewrite app_nil_r; split; [exact C|constructor]].
  clear s C. intros [a1 a2] s (es & l & C & G). lk r R. destruct (at_ r (kw "rpc")) eqn:E3; [|destruct (at_ r (kw "option")) eqn:E0; [|destruct (at_ r TSemicolon) eqn:E1; [|destruct (at_ r TRightBrace) eqn:E2]]].
  - cx rpc_v oo ts' o Go; [intros; eapply Ks, g_se_method; eauto|]. rx. eapply g_many_snoc; [exact G|apply g_se_method, Go].
  - cx option_v oo ts' o Go; [intros; eapply Ks, g_se_option; eauto|]. rx. eapply g_many_snoc; [exact G|apply g_se_option, Go].
  - apply at_true in E1. destruct E1 as [sp' ->]. bp. rx. eapply g_many_snoc; [exact G|apply g_se_empty].
  - apply at_true in E2. destruct E2 as [sp' ->]. bp. apply wv_ret. apply wv_ret. unfold TS' in C. norm C. eexists. eexists. split; [exact C|]. eapply g_sv; eauto. apply comI.
  - un. eapply Ke; eauto.
Qed.

(** *** The head of a file *)
Lemma syntax_v : specx (parse_syntax k) (fun ts (x : syntax * option (span * acomments)) => g_syntax ts (fst x) (snd x)).
Proof.
  intros TS s C K. unfold parse_syntax.
  assert (Kn : forall st sp ts v e sx, g_string ts v -> st_val v = syntax_text sx -> V (TS ++ sym (kw "syntax") st ++ sym TEquals sp ++ ts ++ sym TSemicolon e)).
  { intros st sp ts v e sx G1 G2. eapply (K _ (sx, _)). eapply g_sx; eauto. apply comI. }
  assert (W : g_string (sym (TStr (b "proto2")) nsp) {| st_val := b "proto2"; st_span := nsp |}) by constructor.
  ld. ex. { eapply (cut _ _ (sym TEquals nsp ++ sym (TStr (b "proto2")) nsp ++ sym TSemicolon nsp)); [|simp_]. rewrite <- !app_assoc. eapply (Kn _ _ _ _ _ Proto2); [exact W|reflexivity]. }
  ex. { eapply (cut _ _ (sym (TStr (b "proto2")) nsp ++ sym TSemicolon nsp)); [|simp_]. rewrite <- !app_assoc. eapply (Kn _ _ _ _ _ Proto2); [exact W|reflexivity]. }
  match type of C with ctx _ ?T _ => assert (HV : V T) end.
  { eapply (cut _ _ (sym (TStr (b "proto2")) nsp ++ sym TSemicolon nsp)); [|simp_]. rewrite <- !app_assoc. eapply (Kn _ _ _ _ _ Proto2); [exact W|reflexivity]. }
  lk r R. clear R. match type of C with ctx _ (_ ++ sym _ ?y ++ sym _ ?x) _ => rename x into sp; rename y into st end. apply wv_bind; [|kall].
  apply (wv_conseq _ _ _ _ _ (fun sx s' => exists ts v, ctx false ((TS ++ sym (kw "syntax") st ++ sym TEquals sp) ++ ts) s' /\ g_string ts v /\ st_val v = syntax_text sx)).
  - destruct (at_string r); [|un; exact HV]. apply wv_bind; [|kall]. eapply wv_conseq; [eapply string_v; [exact C|exact HV]|]. clear s C. intros v s (ts & C & G). cbv beta.
    destruct (bytes_eqb (st_val v) (b "proto2")) eqn:E; [apply bytes_eqb_eq in E; apply wv_ret; eauto|]. destruct (bytes_eqb (st_val v) (b "proto3")) eqn:E2; [apply bytes_eqb_eq in E2; apply wv_ret; eauto|]. eapply add_error_v; [exact C|reflexivity|kall].
  - clear s C. intros sx s (ts & v & C & G & E). norm C. ex; [eapply Kn; eauto|]. tl. apply wv_ret. eexists. exists (sx, Some (join_span st a, noc)). split; [exact C|]. eapply g_sx; eauto. apply comI.
Qed.
Lemma package_v : specx (parse_package k) g_package.
Proof.
  intros TS s C K. unfold parse_package. ld. ex; [fin K (eapply g_pk)|]. cx full_ident_v nn ts n G; [intros ts n G; fin K (eapply g_pk)|].
  ex; [eapply K, g_pk; [exact G|apply comI]|]. tl. rx. eapply g_pk; [exact G|apply comI].
Qed.
Lemma rel_a : relative_path (b "a").
Proof. exists [b "a"]. split; [discriminate|]. split; [|reflexivity]. repeat constructor; try discriminate; intros [H|[]]; discriminate H. Qed.
Lemma import_v : specx (parse_import k) g_import.
Proof.
  intros TS s C K. unfold parse_import.
  assert (Kn : forall st ks ik ts v vsp e, g_import_kind ks ik -> g_utf8_string ts (v, vsp) -> relative_path v -> V (TS ++ sym (kw "import") st ++ ks ++ ts ++ sym TSemicolon e)).
  { intros st ks ik ts v vsp e G1 G2 G3. eapply K, g_im; eauto. apply comI. }
  pose proof wit_utf8 as W. pose proof rel_a as Ra. ld. ex. { eapply (cut _ _ ([] ++ sym (TStr (b "a")) nsp ++ sym TSemicolon nsp)); [|simp_]. rewrite <- !app_assoc. eapply Kn; eauto. constructor. }
  apply wv_bind; [|kall]. rename a into st. assert (HV : forall ks ik, g_import_kind ks ik -> V (TS ++ sym (kw "import") st ++ ks)).
  { intros ks ik G. eapply (cut _ _ (sym (TStr (b "a")) nsp ++ sym TSemicolon nsp)); [|simp_]. rewrite <- !app_assoc. eapply Kn; eauto. }
  assert (HV0 : V (TS ++ sym (kw "import") st)). { rewrite <- (app_nil_r (sym _ st)). eapply HV. constructor. }
  apply (wv_conseq _ _ _ _ _ (fun _ s' => exists ks ik, ctx false (TS ++ sym (kw "import") st ++ ks) s' /\ g_import_kind ks ik)).
  - unfold parse_import_kind. sk r R. destruct r as [[t sp]|]; [|un; exact HV0].
    assert (Hx : wv (if token_eqb t (kw "weak") then bump ;;; ret (Some (IWeak, sp)) else if token_eqb t (kw "public") then bump ;;; ret (Some (IPublic, sp)) else unexpected_token k (b "a string literal, 'public' or 'weak'")) s (fun _ s' => exists ks ik, ctx false (TS ++ sym (kw "import") st ++ ks) s' /\ g_import_kind ks ik)).
    { destruct (token_eqb t (kw "weak")) eqn:E; [apply token_eqb_eq in E; subst t; bp; rx; constructor|]. destruct (token_eqb t (kw "public")) eqn:E2; [apply token_eqb_eq in E2; subst t; bp; rx; constructor|]. un. exact HV0. }
    destruct t; try exact Hx. clear Hx. apply wv_ret. exists [], None. rewrite app_nil_r. split; [exact C|constructor].
  - clear s C. intros kd s (ks & ik & C & G). apply wv_bind; [|kall]. eapply wv_conseq; [eapply utf8_v; [exact C|eapply HV, G]|]. clear s C. intros [v vs] s (ts & C & Gs). norm C. apply wv_bind; [|kall].
    destruct (is_valid_import v) eqn:E; [|eapply wv_error; [exact C|reflexivity]]. apply valid_import_iff in E. apply wv_ret. ex; [eapply Kn; eauto|]. tl. rx. eapply g_im; eauto. apply comI.
Qed.
End Viable4a.

(** *** More nesting allowed *)
Section Mono.
Variable k : cfg.
Variables g1 g2 : list tk -> body * span -> Prop.
Hypothesis Hg : forall ts x, g1 ts x -> g2 ts x.
Lemma many_mono {A} (i1 i2 : list tk -> A -> Prop) : (forall ts x, i1 ts x -> i2 ts x) -> forall ts l, g_many i1 ts l -> g_many i2 ts l.
Proof. intros H ts l G. induction G; constructor; auto. Qed.
Lemma rest_mono st label ts f : g_field_rest k g1 st label ts f -> g_field_rest k g2 st label ts f.
Proof. intros []; [eapply g_normal|eapply g_map|eapply g_group]; eauto. Qed.
Lemma field_mono ts f : g_field k g1 ts f -> g_field k g2 ts f.
Proof. intros []. eapply g_fd; eauto. now apply rest_mono. Qed.
Lemma extend_mono ts x : g_extend k g1 ts x -> g_extend k g2 ts x.
Proof. intros []. eapply g_et; eauto. eapply many_mono; [|eauto]. intros ts' y []; constructor. now apply field_mono. Qed.
Lemma message_mono ts x : g_message g1 ts x -> g_message g2 ts x.
Proof. intros []. eapply g_ms; eauto. Qed.
End Mono.

Section Viable4b.
Variable k : cfg.
Variable src : bytes.
Notation V := (viable (sentence k) false).
Notation wv := (Viable1.wv k src (sentence k)).
Notation ctx := (Viable1.ctx k src).
Notation specx := (Viable1.specx k src (sentence k)).

Definition is_package (st : statement) : bool := match st with StPackage _ => true | _ => false end.
Lemma statement_v fuel TS s : ctx false TS s -> (forall ts x, g_statement k ts x -> V (TS ++ ts)) -> V TS ->
  wv (parse_statement k fuel) s (fun o s' => match o with None => errs s' = [] | Some st => exists ts x, ctx false (TS ++ ts) s' /\ g_statement k ts x /\ is_package x = is_package st end).
Proof.
  intros C K HV. unfold parse_statement. set (pbody := parse_message_body k fuel). assert (Hkeep : keeps pbody) by (unfold pbody; kall). assert (Hb : specx pbody (g_body_n k (S fuel))) by apply body_v. clearbody pbody.
  assert (Hm : forall ts x, g_body_n k (S fuel) ts x -> g_body k ts x) by (intros ts x G; exists (S fuel); exact G).
  assert (Hempty : g_body_n k (S fuel) (sym TRightBrace nsp) (Body [] [] [] [], nsp)). { exists [], []. split; [constructor|]. auto. }
  lk r R. destruct r as [[tok sp]|]; [|apply wv_ret; apply C].
  destruct (token_eqb tok TSemicolon) eqn:E1; [apply token_eqb_eq in E1; subst tok; bp; rx; split; [constructor|reflexivity]|].
  destruct (token_eqb tok (kw "import")) eqn:E2; [cx import_v a ts x G; [intros; eapply K, g_st_import; eauto|]; rx; split; [eapply g_st_import; eauto|reflexivity]|].
  destruct (token_eqb tok (kw "package")) eqn:E3; [cx package_v a ts x G; [intros; eapply K, g_st_package; eauto|]; rx; split; [eapply g_st_package; eauto|reflexivity]|].
  destruct (token_eqb tok (kw "option")) eqn:E4; [cx option_v a ts x G; [intros; eapply K, g_st_option; eauto|]; rx; split; [eapply g_st_option; eauto|reflexivity]|].
  destruct (token_eqb tok (kw "extend")) eqn:E5; [cx (extend_v _ _ _ _ _ Hkeep Hb Hempty) a ts x G; [intros; eapply K, g_st_extend, extend_mono; eauto|]; rx; split; [eapply g_st_extend, extend_mono; eauto|reflexivity]|].
  destruct (token_eqb tok (kw "message")) eqn:E6; [cx (message_v _ _ _ _ _ Hkeep Hb Hempty) a ts x G; [intros; eapply K, g_st_message, message_mono; eauto|]; rx; split; [eapply g_st_message, message_mono; eauto|reflexivity]|].
  destruct (token_eqb tok (kw "enum")) eqn:E7; [cx enum_v a ts x G; [intros; eapply K, g_st_enum; eauto|]; rx; split; [eapply g_st_enum; eauto|reflexivity]|].
  destruct (token_eqb tok (kw "service")) eqn:E8; [cx service_v a ts x G; [intros; eapply K, g_st_service; eauto|]; rx; split; [eapply g_st_service; eauto|reflexivity]|].
  un. exact HV.
Qed.
Definition file_at (f : file) (s : pst) : Prop := exists ss sx c ts l, ctx false (ss ++ ts) s /\ g_syntax ss sx c /\ g_many (g_statement k) ts l /\
  match fi_package f with None => flat_map st_packages l = [] | Some _ => length (flat_map st_packages l) = 1%nat end.
Lemma step_v fuel f s : file_at f s -> wv (file_step k fuel f) s (fun r s' => match r with inl f' => file_at f' s' | inr _ => errs s' = [] end).
Proof.
  intros (ss & sx & c & ts & l & C & Gs & Gm & Hp).
  assert (Hl1 : (length (flat_map st_packages l) <= 1)%nat) by (destruct (fi_package f); [lia|rewrite Hp; cbn; lia]).
  assert (H0 : V (ss ++ ts)). { exists []. split; [constructor|]. split; [reflexivity|]. rewrite app_nil_r. exists ss, sx, c, ts, l. split; [exact Gs|]. split; [exact Gm|]. split; [reflexivity|]. left. exact Hl1. }
  assert (HK : forall ts' x, g_statement k ts' x -> V ((ss ++ ts) ++ ts')).
  { intros ts' x G. exists []. split; [constructor|]. split; [reflexivity|]. rewrite app_nil_r, <- app_assoc. exists ss, sx, c, (ts ++ ts'), (l ++ [x]). split; [exact Gs|]. split; [now apply g_many_snoc|]. split; [reflexivity|].
    destruct (flat_map st_packages l) as [|p1 [|p2 q]] eqn:E; [| |cbn in Hl1; lia].
    - left. rewrite flat_map_app, E. destruct x; cbn; lia.
    - destruct x as [|p| | | | | |]; try (left; rewrite flat_map_app, E; cbn; lia). right. exists l, p. rewrite E. auto. }
  pose proof (statement_v fuel _ s C HK H0) as Hs. unfold wv, Viable1.wv, file_step in *. destruct (parse_statement k fuel s) as [[st|] s'|s'| |]; auto.
  - destruct Hs as [Hs|(ts' & x & C' & Gx & Hx)].
    + assert (Hk : keeps (f' <- add_statement f st ;; ret (inl (B := file) f'))) by kall. specialize (Hk s' (proj1 Hs)). destruct ((f' <- add_statement f st ;; ret (inl f')) s') as [a t|t| |]; auto; [left|]; eapply stuck_kept; eauto.
    + change (Viable1.wv k src (sentence k) (f' <- add_statement f st ;; ret (inl (B := file) f')) s' (fun r s'0 => match r with inl f' => file_at f' s'0 | inr _ => errs s'0 = [] end)).
      assert (Hgo : forall f', fi_package f' = fi_package f -> is_package x = false -> file_at f' s').
      { intros f' Hf Hx'. exists ss, sx, c, (ts ++ ts'), (l ++ [x]). rewrite app_assoc. split; [exact C'|]. split; [exact Gs|]. split; [now apply g_many_snoc|]. rewrite Hf, flat_map_app. destruct x; try discriminate Hx'; cbn [flat_map st_packages app]; rewrite app_nil_r; exact Hp. }
      apply wv_bind; [|kall]. unfold add_statement. destruct st; try (apply wv_ret, wv_ret, Hgo; [reflexivity|exact Hx]).
      cbn [fi_package]. destruct (fi_package f) as [old|] eqn:Ef; [eapply add_error_v; [exact C'|reflexivity|kall]|]. apply wv_ret, wv_ret.
      destruct x as [|px| | | | | |]; try discriminate Hx. exists ss, sx, c, (ts ++ ts'), (l ++ [StPackage px]). rewrite app_assoc. split; [exact C'|]. split; [exact Gs|]. split; [now apply g_many_snoc|]. cbn [fi_package]. rewrite flat_map_app, Hp. reflexivity.
  - pose proof (proj1 Hs) as Hn. assert (Hk : keeps (s1 <- get ;; dassert (Nat.ltb 0 (length (l_errs (p_lex s1)))) ;;; skip_until k sync_tokens ;;; ret (inl (B := file) f))) by kall. specialize (Hk s' Hn).
    destruct ((s1 <- get ;; dassert (Nat.ltb 0 (length (l_errs (p_lex s1)))) ;;; skip_until k sync_tokens ;;; ret (inl (B := file) f)) s') as [a t|t| |]; auto; [left|]; eapply stuck_kept; eauto.
Qed.
Lemma file_v : wv (parse_file_p k src) (p_init src) (fun _ s' => errs s' = []).
Proof.
  unfold parse_file_p. assert (C : ctx false [] (p_init src)).
  { split; [apply init_inv|]. split; [reflexivity|]. split; [reflexivity|]. exists src. split; constructor. }
  revert C. generalize (p_init src). intros s C. lk r R. apply wv_bind; [|kall].
  apply (wv_conseq _ _ _ _ _ file_at); [|intros f s' H; eapply (wv_loop k src (sentence k) _ file_at); [intros; now apply step_v|kall|exact H]].
  assert (Hsx : forall ss sx c, g_syntax ss sx c -> V ss).
  { intros ss sx c G. exists []. split; [constructor|]. split; [reflexivity|]. rewrite app_nil_r. exists ss, sx, c, [], []. split; [exact G|]. split; [constructor|]. split; [now rewrite app_nil_r|]. left. cbn. lia. }
  assert (H0 : forall f, fi_package f = None -> file_at f s).
  { intros f Hf. exists [], Proto2, None, [], []. split; [exact C|]. split; [constructor|]. split; [constructor|]. rewrite Hf. reflexivity. }
  destruct r as [[tok sp]|]; [|apply wv_ret, H0; reflexivity]. destruct (token_eqb tok (kw "syntax")); [|apply wv_ret, H0; reflexivity].
  clear H0. cx syntax_v [[sx0 sp0] c0] ss x G; [intros ss [sx c] G; eapply Hsx, G|]. destruct x as [sx c]. apply wv_ret. exists ss, sx, c, [], []. rewrite app_nil_r. split; [exact C|]. split; [exact G|]. split; [constructor|reflexivity].
Qed.
(** What the first error of a rejected file says about the text before it. *)
Theorem first_error_fine es a : parse_file k src = Done (inr es, a) -> forall e, hd_error es = Some e -> unx e = true -> fine k src (sentence k) e.
Proof.
  intros H e He Hu. pose proof file_v as Hv. unfold parse_file in H. unfold wv, Viable1.wv in Hv. destruct (parse_file_p k src (p_init src)) as [f s|s| |]; try discriminate H.
  - destruct (l_errs (p_lex s)) as [|e1 l] eqn:E; [discriminate H|]. injection H as <- _. destruct Hv as [[_ Hv]|Hv]; [rewrite E in Hv; apply Hv; auto|]. congruence.
  - injection H as <- _. apply Hv; auto.
Qed.
End Viable4b.
