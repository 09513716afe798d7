(** Spans of declarations are made of spans of tokens (for C61): a property of
    the tokens' spans that joining preserves holds of the declarations' spans. *)
From Verif Require Import Base Utf8 Errors Lex Ast Parse Grammar Meaning ErrSpec AstWfG Lam.

Lemma last_in {A} (d : A) l : forall x, In (last (x :: l) d) (x :: l).
Proof. induction l as [|y l IH]; intros x; [now left|]. right. apply (IH y). Qed.
Section Q.
Variable Q : span -> Prop.
Hypothesis Qj : forall x y, Q x -> Q y -> Q (join_span x y).
Hypothesis Q0 : Q (0, 0).
Definition on (ts : list tk) : Prop := Forall (fun x => Q (tk_span x)) ts.
Lemma on_app x y : on (x ++ y) <-> on x /\ on y.
Proof. apply Forall_app. Qed.
Lemma on_one t s m r : on ((t, s, m) :: r) <-> Q s /\ on r.
Proof. unfold on. rewrite Forall_cons_iff. reflexivity. Qed.
Lemma on_sym t s : on (sym t s) <-> Q s.
Proof. unfold sym. rewrite on_one. split; [tauto|]. intros H. split; [exact H|constructor]. Qed.
Lemma on_first ts : on ts -> Q (first_span ts).
Proof. destruct 1; cbn [first_span]; auto. Qed.
Lemma on_last ts : on ts -> Q (last_span ts).
Proof.
  intros H. destruct ts as [|x r] eqn:E; cbn [last_span]; [exact Q0|]. unfold on in H. rewrite Forall_forall in H. apply (H (last (x :: r) x)).
  apply last_in.
Qed.
Ltac cut_ := repeat match goal with
  | H : on (_ ++ _) |- _ => apply on_app in H; destruct H
  | H : on (sym _ _) |- _ => apply on_sym in H
  | H : on ((_, _, _) :: _) |- _ => apply on_one in H; destruct H
  end.
Ltac q := cut_; repeat match goal with
  | |- Forall _ [] => constructor
  | |- Forall _ (_ :: _) => apply Forall_cons
  | |- Forall _ (_ ++ _) => apply Forall_app; split
  end; auto.
Section Many.
Context {A : Type}.
Variable item : list tk -> A -> Prop.
Variable R : A -> Prop.
Hypothesis F : forall ts a, item ts a -> on ts -> R a.
Lemma many_on ts l : g_many item ts l -> on ts -> Forall R l.
Proof. induction 1; intros T; constructor; cut_; eauto. Qed.
Lemma sep_on t ts l : g_sep t item ts l -> on ts -> Forall R l.
Proof. induction 1; intros T; constructor; cut_; eauto. Qed.
End Many.
Lemma fm {A} (S : A -> list span) l : Forall (fun a => Forall Q (S a)) l -> Forall Q (flat_map S l).
Proof. induction 1; cbn [flat_map]; [constructor|apply Forall_app; auto]. Qed.
Lemma pick_on {A D} (S : A -> list span) (pick : A -> list D) (g : D -> list span) l : (forall a, Forall Q (S a) -> Forall Q (flat_map g (pick a))) ->
  Forall (fun a => Forall Q (S a)) l -> Forall Q (flat_map g (flat_map pick l)).
Proof. intros H. induction 1; cbn [flat_map]; [constructor|]. rewrite flat_map_app. apply Forall_app; auto. Qed.
Ltac pick S := apply (pick_on S); [let x := fresh in intros x; destruct x; cbn [flat_map app be_item be_option be_reserved be_extensions s_be st_packages st_imports st_options st_items s_st s_fitem]; rewrite ?app_nil_r; auto|].

Lemma last_on {A} (f : A -> span) x l : Forall (fun a => Q (f a)) (x :: l) -> Q (f (last (x :: l) x)).
Proof. intros H. rewrite Forall_forall in H. apply H. apply last_in. Qed.
Lemma ident_on ts i : g_ident ts i -> on ts -> Q (id_span i).
Proof. destruct 1; intros T; cut_; auto. Qed.
Lemma tname_on ts t : g_type_name ts t -> on ts -> Q (tname_span t).
Proof.
  intros H T. assert (E : exists us n, g_full_ident us n /\ on us /\ tn_name t = n /\ match tn_dot t with Some d => Q d | None => True end) by (destruct H; cut_; cbn; eauto 8).
  destruct E as (us & n & H1 & H2 & E & D). unfold tname_span, type_name_span, full_ident_span. rewrite E. destruct n as [|x n]; [exact Q0|].
  pose proof (sep_on _ (fun i => Q (id_span i)) ident_on _ _ _ H1 H2) as G. pose proof (last_on id_span _ _ G). inversion G; subst.
  match goal with H : Q (id_span (last ?m ?y)) |- _ => change (s_start (id_span y), s_end (id_span (last m y))) with (join_span (id_span y) (id_span (last m y))) end. destruct (tn_dot t); auto.
Qed.
Lemma int_on ts i : g_int ts i -> on ts -> Q (i_span i).
Proof. destruct 1; intros T; cut_; cbn [i_span]; auto. Qed.
Lemma str_on ts r : g_string ts r -> on ts -> Q (st_span r).
Proof. induction 1; intros T; cut_; cbn [st_span]; auto. Qed.
Lemma part_on ts x : g_optname_part ts x -> on ts -> Q (optname_part_span x).
Proof. destruct 1; intros T; cut_; cbn [optname_part_span]; auto. eapply ident_on; eauto. Qed.
Lemma optval_on k ts v : g_optval k ts v -> on ts -> Q (optval_span v).
Proof. destruct 1; intros T; cut_; cbn [optval_span fl_span]; auto; [eapply int_on|eapply str_on]; eauto. Qed.
Section G.
Context {CS : comspec}.
Lemma optbody_on k ts o : g_option_body k ts o -> on ts -> Forall Q (s_ob o).
Proof.
  destruct 1 as [ts l s ts' v H1 H2]. intros T. cut_. assert (V : Q (optval_span v)) by (eapply optval_on; eauto). unfold s_ob. cbn [ob_value]. q. 
  unfold body_span, ob_span, ob_name_span. cbn [ob_name ob_value]. destruct l as [|x l]; [exact Q0|]. pose proof (sep_on _ (fun i => Q (optname_part_span i)) part_on _ _ _ H1 H) as G. pose proof (last_on optname_part_span _ _ G). inversion G; subst. auto.
Qed.
Lemma option_on k ts o : g_option k ts o -> on ts -> Forall Q (s_op o).
Proof. destruct 1 as [st ts o e c H _]; intros T. cut_. assert (V : Forall Q (s_ob o)) by (eapply optbody_on; eauto). unfold s_op. cbn [op_span op_body]. unfold s_ob in V. rewrite !Forall_cons_iff in V. destruct V as (? & ? & ?). q. Qed.
Lemma opt_options_on k ts o : g_opt_options k ts o -> on ts -> Forall Q (s_optlist o).
Proof. destruct 1 as [|ts o H]; intros T; [constructor|]. destruct H as [st ts os e H]. cbn [s_optlist ol_span ol_options]. q. apply fm. eapply (sep_on _ _ (optbody_on k)); eauto. Qed.
Lemma range_on ts r : g_range ts r -> on ts -> Forall Q (s_range r).
Proof. destruct 1; intros T; cut_; unfold s_range, rr_span, rr_end_span; cbn [rr_start rr_end]; q; try (apply Qj); try (eapply int_on; eauto); auto. Qed.
Lemma ids_on ts i : g_ident_string ts i -> on ts -> Q (id_span i).
Proof. destruct 1 as [ts v s H _]; intros T. inversion H; subst. cbn [id_span]. eapply str_on; eauto. Qed.
Lemma reserved_on ts r : g_reserved ts r -> on ts -> Forall Q (s_reserved r).
Proof.
  destruct 1 as [st ts l e c H _|st ts l e c H _]; intros T; cut_; unfold s_reserved; cbn [rs_span rs_kind]; q.
  - apply fm. eapply (sep_on _ _ range_on); eauto.
  - apply Forall_map. eapply (sep_on _ _ ids_on); eauto.
Qed.
Lemma extensions_on k ts x : g_extensions k ts x -> on ts -> Forall Q (s_exts x).
Proof. destruct 1 as [st ts l os o e c H1 H2 _ _]; intros T. unfold s_exts. cbn [ex_span ex_ranges ex_options]. q; [apply fm; eapply (sep_on _ _ range_on); eauto|eapply opt_options_on; eauto]. Qed.
Lemma value_on k ts x : g_enum_value k ts x -> on ts -> Forall Q (s_value x).
Proof. destruct 1 as [v s0 s ts i os o e c _ _ H1 H2 _]; intros T. unfold s_value. cbn [ev_span ev_name id_span ev_number ev_options]. q; [eapply int_on; eauto|eapply opt_options_on; eauto]. Qed.
Lemma een_on k ts x : g_enum_elem k ts x -> on ts -> Forall Q (s_een x).
Proof. destruct 1; intros T; cbn [s_een]; [constructor|eapply option_on; eauto|eapply reserved_on; eauto|eapply value_on; eauto]. Qed.
Lemma enum_on k ts x : g_enum k ts x -> on ts -> Forall Q (s_enum x).
Proof.
  destruct 1 as [st v s0 s es l e c H _]; intros T. unfold s_enum, s_options. cbn [en_span en_name id_span en_values en_reserved en_options]. cut_.
  assert (G : Forall (fun a => Forall Q (s_een a)) l) by (eapply (many_on _ _ (een_on k)); eauto). q; pick s_een; auto.
Qed.
Lemma stream_on ts o t : g_stream ts o t -> on ts -> Forall Q (s_opt o) /\ Q (tname_span t).
Proof. destruct 1; intros T; cut_; cbn [s_opt]; split; q; eapply tname_on; eauto. Qed.
Lemma re_on k ts x : g_rpc_elem k ts x -> on ts -> Forall Q (s_re x).
Proof. destruct 1; intros T; cbn [s_re]; [constructor|eapply option_on; eauto]. Qed.
Lemma method_on k ts x : g_method k ts x -> on ts -> Forall Q (s_method x).
Proof.
  destruct 1 as [st v s0 p1 its cs it p2 r p3 ots ss ot p4 ets os e c H1 H2 H3 _]; intros T. cut_. unfold s_method. cbn [me_span me_name id_span me_input me_output me_client me_server me_options].
  assert (E : Forall Q (s_options os) /\ Q e).
  { inversion H3; subst; cut_; (split; [|auto]); [constructor|]. unfold somes, s_options. pick s_re. eapply (many_on _ _ (re_on k)); eauto. }
  destruct E as [E1 E2]. edestruct (stream_on _ _ _ H1); [auto|]. edestruct (stream_on _ _ _ H2); [auto|]. q.
Qed.
Lemma se_on k ts x : g_service_elem k ts x -> on ts -> Forall Q (s_se x).
Proof. destruct 1; intros T; cbn [s_se]; [constructor|eapply option_on; eauto|eapply method_on; eauto]. Qed.
Lemma service_on k ts x : g_service k ts x -> on ts -> Forall Q (s_service x).
Proof.
  destruct 1 as [st v s0 s es l e c H _]; intros T. unfold s_service, s_options. cbn [sv_span sv_name id_span sv_methods sv_options]. cut_.
  assert (G : Forall (fun a => Forall Q (s_se a)) l) by (eapply (many_on _ _ (se_on k)); eauto). q; pick s_se; auto.
Qed.
Lemma ftype_on ts t s : g_field_type ts (t, s) -> on ts -> Q s /\ Forall Q (match t with TyNamed n => [tname_span n] | _ => [s] end).
Proof.
  intros H T. inversion H; subst.
  - cut_. split; auto. destruct t; q. match goal with H : In _ scalar_names |- _ => cbn in H; repeat (destruct H as [H|H]; [discriminate|]); destruct H end.
  - split; [apply Qj; [now apply on_first|now apply on_last]|]. q. eapply tname_on; eauto.
Qed.
Section GB.
Variable k : cfg.
Variable gb : list tk -> body * span -> Prop.
Hypothesis body_ok : forall ts bd e, gb ts (bd, e) -> on ts -> Q e /\ Forall Q (s_body bd).
Lemma field_rest_on start label ts f : g_field_rest k gb start label ts f -> on ts -> Q start -> match label with Some (_, s) => Q s | None => True end -> Forall Q (s_field s_body f).
Proof.
  intros H T Hs Hl. assert (L : Forall Q (s_opt (option_map snd label))) by (destruct label as [[? ?]|]; cbn; q).
  destruct H as [ts t tsp s1 v s2 ts' i os o e c _ H1 H2 H3 _|m0 m1 kts kt ksp m2 vts vt vsp m3 v s1 s2 ts' i os o e c H0 H1 H2 H3 _|m0 v s1 s2 ts' i os o s3 bts bd e c Hg H1 H2 H3 _];
    cut_; unfold s_field; cbn [fd_span fd_name id_span fd_number fd_kind fd_options fd_label s_tail].
  - edestruct (ftype_on _ _ _ H1); [auto|]. change (s_kind (FKNormal t tsp)) with (match t with TyNamed n => [tname_span n] | _ => [tsp] end). q; [eapply int_on; eauto|eapply opt_options_on; eauto].
  - edestruct (ftype_on _ _ _ H0); [auto|]. cbn [s_kind]. q; [eapply int_on; eauto|eapply opt_options_on; eauto].
  - edestruct (body_ok _ _ _ H3); [auto|]. cbn [s_kind]. q; [eapply int_on; eauto|eapply opt_options_on; eauto].
Qed.
Lemma field_on ts f : g_field k gb ts f -> on ts -> Forall Q (s_field s_body f).
Proof.
  destruct 1 as [ls label ts f H1 _ H2]; intros T. pose proof (on_first _ T). cut_. eapply field_rest_on; eauto. destruct H1; cut_; auto.
Qed.
Lemma ee_on ts x : g_extend_elem k gb ts x -> on ts -> Forall Q (s_ee x).
Proof. destruct 1; intros T; cbn [s_ee]; [constructor|eapply field_on; eauto]. Qed.
Lemma extend_on ts x : g_extend k gb ts x -> on ts -> Forall Q (s_extend s_body x).
Proof.
  destruct 1 as [st ts n s es l e c H1 H2 _]; intros T. unfold s_extend. cbn [et_span et_extendee et_fields]. cut_. q; [eapply tname_on; eauto|]. unfold somes. pick s_ee. eapply (many_on _ _ ee_on); eauto.
Qed.
Lemma oe_on ts x : g_oneof_elem k gb ts x -> on ts -> Forall Q (s_oe x).
Proof. destruct 1; intros T; cbn [s_oe]; [constructor|eapply option_on; eauto|eapply field_on; eauto]. Qed.
Lemma oneof_on ts x : g_oneof k gb ts x -> on ts -> Forall Q (s_oneof s_body x).
Proof.
  destruct 1 as [st v s0 s es l e c H _]; intros T. unfold s_oneof, s_options. cbn [oo_span oo_name id_span oo_options oo_fields]. cut_.
  assert (G : Forall (fun a => Forall Q (s_oe a)) l) by (eapply (many_on _ _ oe_on); eauto). q; pick s_oe; auto.
Qed.
Lemma message_on ts x : g_message gb ts x -> on ts -> Forall Q (s_message s_body x).
Proof. destruct 1 as [st v s0 s ts bd e c H _]; intros T. unfold s_message. cbn [ms_span ms_name id_span ms_body]. cut_. edestruct (body_ok _ _ _ H); [auto|]. q. Qed.
Lemma be_on ts x : g_body_elem k gb ts x -> on ts -> Forall Q (s_be x).
Proof.
  destruct 1; intros T; cbn [s_be s_item]; [constructor|eapply oneof_on; eauto|eapply enum_on; eauto|eapply message_on; eauto|eapply extend_on; eauto|eapply option_on; eauto|eapply reserved_on; eauto|eapply extensions_on; eauto|eapply field_on; eauto].
Qed.
End GB.
Lemma body_on_n k d : forall ts bd e, g_body_n k d ts (bd, e) -> on ts -> Q e /\ Forall Q (s_body bd).
Proof.
  induction d as [|d IH]; intros ts bd e H T; [destruct H|]. destruct H as (es & l & H & -> & E). cbn [fst snd] in *. subst bd. cut_. split; [auto|]. cbn [s_body].
  assert (G : Forall (fun a => Forall Q (s_be a)) l) by (eapply (many_on _ _ (be_on k _ IH)); eauto). unfold s_options. q; pick s_be; auto.
Qed.
Lemma body_on k ts bd e : g_body k ts (bd, e) -> on ts -> Q e /\ Forall Q (s_body bd).
Proof. intros [d H]. eapply body_on_n; eauto. Qed.
Lemma st_on k ts x : g_statement k ts x -> on ts -> Forall Q (s_st x).
Proof.
  destruct 1 as [|us x G|us x G|us x G|us x G|us x G|us x G|us x G]; intros T; cbn [s_st]; [constructor| | |eapply option_on; eauto|eapply message_on; eauto; apply body_on|eapply enum_on; eauto|eapply service_on; eauto|eapply extend_on; eauto; apply body_on].
  - destruct G. cbn [pk_span]. q.
  - destruct G as [st ks ik ts v vs e c G1 G2 G3 _]. unfold s_import. cbn [im_span im_kind]. cut_. destruct G1; cbn; q.
Qed.
Theorem file_on k n ts f : Q (n, 0) -> g_file k n ts f -> on ts -> Forall Q (s_file f).
Proof.
  intros Qn H T. destruct H as [ss sx sxs ts l pkg H1 H2 H3]. unfold s_file. cbn [fi_span fi_syntax_span fi_package fi_imports fi_options fi_items].
  apply Forall_cons. { destruct (ss ++ ts) eqn:E; [exact Qn|]. apply Qj; [apply on_first|apply on_last]; rewrite <- E in *; exact T. }
  cut_. assert (G : Forall (fun a => Forall Q (s_st a)) l) by (eapply (many_on _ _ (st_on k)); eauto).
  assert (E : s_opt (option_map pk_span pkg) = flat_map (fun p => [pk_span p]) (flat_map st_packages l)) by (rewrite H3; destruct pkg; reflexivity). rewrite E. unfold s_options.
  q; try (pick s_st; auto). destruct H1; cbn; q.
Qed.
End G.
End Q.
