(** The spans of the declarations of an accepted file are nested: every part
    of a declaration lies inside it. Derived from the grammar. *)
From Verif Require Import Base Utf8 Errors Lex Ast Parse LexSafe Grammar Classify Walk WalkG1 WalkG2 WalkG3 AstWf AstWfG Meaning AstNames.

(** [c] lies inside [P]. *)
Definition inn (P c : span) : Prop := s_start P <= s_start c /\ s_end c <= s_end P.

Definition ns_ob (P : span) (o : optbody) : Prop := inn P (body_span o) /\ inn P (optval_span (ob_value o)).
Definition ns_optlist (P : span) (o : option optlist) : Prop :=
  match o with None => True | Some l => inn P (ol_span l) /\ Forall (ns_ob P) (ol_options l) end.
Definition ns_options (P : span) (l : list option_) : Prop := Forall (fun o => inn P (op_span o)) l.
Definition ns_range (P : span) (r : rrange) : Prop :=
  inn P (rr_span r) /\ inn (rr_span r) (i_span (rr_start r)) /\ inn (rr_span r) (rr_end_span r).
Definition ns_reserved (P : span) (r : reserved) : Prop :=
  match rs_kind r with RKRanges l => Forall (ns_range P) l | RKNames l => Forall (fun i => inn P (id_span i)) l end.
Definition ns_exts (P : span) (x : extensions) : Prop := Forall (ns_range P) (ex_ranges x).
Definition ns_value (v : enum_value) : Prop :=
  inn (ev_span v) (id_span (ev_name v)) /\ inn (ev_span v) (i_span (ev_number v)) /\ ns_optlist (ev_span v) (ev_options v).
Definition ns_enum (e : enum) : Prop :=
  inn (en_span e) (id_span (en_name e)) /\ Forall (fun v => inn (en_span e) (ev_span v) /\ ns_value v) (en_values e) /\
  Forall (ns_reserved (en_span e)) (en_reserved e) /\ ns_options (en_span e) (en_options e).
Definition ns_opt_span (P : span) (o : option span) : Prop := match o with Some sp => inn P sp | None => True end.
Definition ns_method (m : method) : Prop :=
  let P := me_span m in
  inn P (id_span (me_name m)) /\ inn P (tname_span (me_input m)) /\ inn P (tname_span (me_output m)) /\
  ns_opt_span P (me_client m) /\ ns_opt_span P (me_server m) /\ ns_options P (me_options m).
Definition ns_service (s : service) : Prop :=
  inn (sv_span s) (id_span (sv_name s)) /\ Forall (fun m => inn (sv_span s) (me_span m) /\ ns_method m) (sv_methods s) /\ ns_options (sv_span s) (sv_options s).

Section WithBody.
Context {B : Type}.
Variable nb : span -> B -> Prop.
Definition ns_kind (P : span) (x : fkind_ B) : Prop :=
  match x with
  | FKNormal t sp => inn P sp /\ match t with TyNamed n => inn P (tname_span n) | _ => True end
  | FKGroup sp bd => inn P sp /\ nb P bd
  | FKMap sp _ _ _ _ => inn P sp
  end.
Definition ns_field (f : field_ B) : Prop :=
  inn (fd_span f) (id_span (fd_name f)) /\ inn (fd_span f) (i_span (fd_number f)) /\ ns_kind (fd_span f) (fd_kind f) /\
  ns_optlist (fd_span f) (fd_options f) /\ match fd_label f with Some (_, sp) => inn (fd_span f) sp | None => True end.
Definition ns_infield (P : span) (f : field_ B) : Prop := inn P (fd_span f) /\ ns_field f.
Definition ns_message (m : message_ B) : Prop := inn (ms_span m) (id_span (ms_name m)) /\ nb (ms_span m) (ms_body m).
Definition ns_oneof (P : span) (o : oneof_ B) : Prop :=
  inn P (oo_span o) /\ inn (oo_span o) (id_span (oo_name o)) /\ ns_options (oo_span o) (oo_options o) /\ all (ns_infield P) (oo_fields o).
Definition ns_item (P : span) (it : mitem_ B) : Prop :=
  match it with
  | MIField f => ns_infield P f
  | MIEnum e => inn P (en_span e) /\ ns_enum e
  | MIMessage m => inn P (ms_span m) /\ ns_message m
  | MIExtend e => all (ns_infield P) (et_fields e)
  | MIOneof o => ns_oneof P o
  end.
End WithBody.
Fixpoint ns_body (P : span) (bd : body) : Prop :=
  match bd with
  | Body items exts opts res => all (ns_item ns_body P) items /\ Forall (ns_exts P) exts /\ ns_options P opts /\ Forall (ns_reserved P) res
  end.
Definition ns_fitem (P : span) (it : fitem) : Prop :=
  match it with
  | FIEnum e => inn P (en_span e) /\ ns_enum e
  | FIMessage m => inn P (ms_span m) /\ ns_message ns_body m
  | FIExtend e => all (ns_infield ns_body P) (et_fields e)
  | FIService s => inn P (sv_span s) /\ ns_service s
  end.
Definition ns_file (f : file) : Prop :=
  let P := fi_span f in
  match fi_syntax_span f with Some (sp, _) => inn P sp | None => True end /\
  match fi_package f with Some p => inn P (pk_span p) | None => True end /\
  Forall (fun im => inn P (im_span im) /\ match im_kind im with Some (_, sp) => inn P sp | None => True end) (fi_imports f) /\
  ns_options P (fi_options f) /\ Forall (ns_fitem P) (fi_items f).

Ltac sp := unfold inn, join_span, s_start, s_end in *; cbn [fst snd] in *; tle; lia.

Section Many.
Context {A : Type}.
Variable item : list tk -> A -> Prop.
Variable Q : A -> Prop.
Variables L H : N.
Hypothesis F : forall ts a lo hi, item ts a -> tok_in lo hi ts -> L <= lo -> hi <= H -> Q a.
Lemma many_ns ts l : g_many item ts l -> forall lo hi, tok_in lo hi ts -> L <= lo -> hi <= H -> Forall Q l.
Proof.
  induction 1 as [|ts a ts' l H1 H2 IH]; intros lo hi T HL HH; constructor; tsplit.
  - apply (F _ _ _ _ H1 T0); tle; lia.
  - eapply IH; eauto. tle. lia.
Qed.
Lemma sep_ns t ts l : g_sep t item ts l -> forall lo hi, tok_in lo hi ts -> L <= lo -> hi <= H -> Forall Q l.
Proof.
  induction 1 as [ts a H1|ts a s ts' l H1 H2 IH]; intros lo hi T HL HH.
  - constructor; [|constructor]. eauto.
  - tsplit. constructor; [|eapply IH; eauto; tle; lia]. apply (F _ _ _ _ H1 T0); tle; lia.
Qed.
End Many.
Lemma pick_ns {A C} (item : list tk -> A -> Prop) (f : A -> list C) (Q : C -> Prop) L H ts l lo hi :
  g_many item ts l -> (forall ts a lo hi, item ts a -> tok_in lo hi ts -> L <= lo -> hi <= H -> Forall Q (f a)) ->
  tok_in lo hi ts -> L <= lo -> hi <= H -> Forall Q (flat_map f l).
Proof. intros G F T HL HH. apply Forall_flat_map. eapply (many_ns item (fun a => Forall Q (f a)) L H); eauto. Qed.
Ltac one := match goal with
  | |- Forall _ [] => constructor
  | |- Forall _ [_] => constructor; [|constructor]
  end.

Section N.
Context {CS : comspec}.
(** The tokens of the declaration lie inside [P]. *)
Notation "'within' P lo hi" := (s_start P <= lo /\ hi <= s_end P) (at level 10, P at level 9, lo at level 9, hi at level 9).

Lemma tname_ns ts t P lo hi : g_type_name ts t -> tok_in lo hi ts -> within P lo hi -> inn P (tname_span t).
Proof. intros H T W. destruct (tname_in _ _ H _ _ T) as (s & E & S). unfold tname_span. rewrite E. sp. Qed.
Lemma optbody_ns k ts o P lo hi : g_option_body k ts o -> tok_in lo hi ts -> within P lo hi -> ns_ob P o.
Proof.
  destruct 1 as [ts l s ts' v H1 H2]; intros T W. tsplit. pose proof (optval_in _ _ _ H2 _ _ T2). destruct (obname_in _ _ H1 _ _ v T0) as (x & E & X).
  split; [|cbn [ob_value]; sp]. unfold body_span, ob_span. rewrite E. cbn [ob_value]. sp.
Qed.
Lemma option_ns k ts o P lo hi : g_option k ts o -> tok_in lo hi ts -> within P lo hi -> inn P (op_span o).
Proof. destruct 1; intros T W. tsplit. cbn [op_span]. sp. Qed.
Lemma opt_options_ns k ts o P lo hi : g_opt_options k ts o -> tok_in lo hi ts -> within P lo hi -> ns_optlist P o.
Proof.
  destruct 1 as [|ts o H]; intros T W; [exact I|]. destruct H. tsplit. cbn [ns_optlist ol_options ol_span]. split; [sp|].
  eapply (sep_ns _ (ns_ob P) (s_start P) (s_end P)); [|eauto|eauto|sp|sp]. intros us a lo' hi' Ha T' L1 L2. eapply optbody_ns; eauto.
Qed.
Ltac intin H := match type of H with g_int ?ts _ => match goal with T : tok_in _ _ ts |- _ => pose proof (int_in _ _ H _ _ T) end end.
Lemma range_ns ts r P lo hi : g_range ts r -> tok_in lo hi ts -> within P lo hi -> ns_range P r.
Proof.
  destruct 1 as [ts i H|ts i s ts' j H1 H2|ts i s e H]; intros T W; tsplit; unfold ns_range, rr_span, rr_end_span; cbn [rr_start rr_end].
  - intin H. sp.
  - intin H1. intin H2. sp.
  - intin H. sp.
Qed.
Lemma idstr_ns ts i P lo hi : g_ident_string ts i -> tok_in lo hi ts -> within P lo hi -> inn P (id_span i).
Proof. destruct 1 as [ts v s H]. intros T W. inversion H; subst. cbn [id_span]. match goal with G : g_string _ _ |- _ => pose proof (str_in _ _ G _ _ T) end. sp. Qed.
Lemma reserved_ns ts r P lo hi : g_reserved ts r -> tok_in lo hi ts -> within P lo hi -> ns_reserved P r.
Proof.
  destruct 1 as [st ts l e c H _|st ts l e c H _]; intros T W; tsplit; unfold ns_reserved; cbn [rs_kind].
  - eapply (sep_ns _ (ns_range P) (s_start P) (s_end P)); [|eauto|eauto|sp|sp]. intros us a lo' hi' Ha T' L1 L2. eapply range_ns; eauto.
  - eapply (sep_ns _ (fun i => inn P (id_span i)) (s_start P) (s_end P)); [|eauto|eauto|sp|sp]. intros us a lo' hi' Ha T' L1 L2. eapply idstr_ns; eauto.
Qed.
Lemma extensions_ns k ts x P lo hi : g_extensions k ts x -> tok_in lo hi ts -> within P lo hi -> ns_exts P x.
Proof.
  destruct 1 as [st ts l os o e c H1 H2 _ _]; intros T W. tsplit. unfold ns_exts. cbn [ex_ranges].
  eapply (sep_ns _ (ns_range P) (s_start P) (s_end P)); [|eauto|eauto|sp|sp]. intros us a lo' hi' Ha T' L1 L2. eapply range_ns; eauto.
Qed.
Ltac pick P := eapply (pick_ns _ _ _ (s_start P) (s_end P)); [eassumption| |eassumption|sp|sp]; let us := fresh "us" in let a := fresh "a" in let lo' := fresh "lo" in let hi' := fresh "hi" in let Ha := fresh "Ha" in
  intros us a lo' hi' Ha ? ? ?; destruct Ha; cbn [be_item be_extensions be_option be_reserved st_packages st_imports st_items st_options]; one.
Lemma enum_value_ns k ts v P lo hi : g_enum_value k ts v -> tok_in lo hi ts -> within P lo hi -> inn P (ev_span v) /\ ns_value v.
Proof.
  destruct 1 as [v s0 s ts i os o e c _ _ H1 H2 _]; intros T W. tsplit. unfold ns_value. cbn [ev_span ev_name id_span ev_number ev_options].
  intin H1. split; [sp|]. split; [sp|]. split; [sp|]. eapply opt_options_ns; eauto. sp.
Qed.
Lemma enum_ns k ts x P lo hi : g_enum k ts x -> tok_in lo hi ts -> within P lo hi -> inn P (en_span x) /\ ns_enum x.
Proof.
  destruct 1 as [st v s0 s es l e c H _]; intros T W. tsplit. unfold ns_enum. cbn [en_span en_name id_span en_values en_reserved en_options].
  split; [sp|]. split; [sp|]. split; [|split].
  - pick (join_span st e). eapply enum_value_ns; eauto.
  - pick (join_span st e). eapply reserved_ns; eauto.
  - unfold ns_options. pick (join_span st e). eapply option_ns; eauto.
Qed.
Lemma stream_ns ts o t P lo hi : g_stream ts o t -> tok_in lo hi ts -> within P lo hi -> inn P (tname_span t) /\ ns_opt_span P o.
Proof. destruct 1; intros T W; cbn [ns_opt_span]; [split; auto; eapply tname_ns; eauto|]. tsplit. split; [eapply tname_ns; eauto; sp|sp]. Qed.
Lemma method_ns k ts x P lo hi : g_method k ts x -> tok_in lo hi ts -> within P lo hi -> inn P (me_span x) /\ ns_method x.
Proof.
  destruct 1 as [st v s0 p1 its cs it p2 r p3 ots ss ot p4 ets os e c H1 H2 H3 _]; intros T W. tsplit. unfold ns_method.
  cbn [me_span me_name id_span me_input me_output me_client me_server me_options].
  assert (E : ns_options (join_span st e) os /\ s_end p4 <= s_start e /\ s_start e < s_end e /\ s_end e <= hi).
  { inversion H3; subst; tsplit.
    - split; [constructor|sp].
    - split; [|sp]. unfold somes, ns_options. pick (join_span st e). eapply option_ns; eauto. }
  destruct E. assert (K1 : inn (join_span st e) (tname_span it) /\ ns_opt_span (join_span st e) cs) by (eapply stream_ns; [exact H1|eassumption|sp]).
  assert (K2 : inn (join_span st e) (tname_span ot) /\ ns_opt_span (join_span st e) ss) by (eapply stream_ns; [exact H2|eassumption|sp]).
  destruct K1, K2. split; [sp|]. split; [sp|]. auto 10.
Qed.
Lemma service_ns k ts x P lo hi : g_service k ts x -> tok_in lo hi ts -> within P lo hi -> inn P (sv_span x) /\ ns_service x.
Proof.
  destruct 1 as [st v s0 s es l e c H _]; intros T W. tsplit. unfold ns_service. cbn [sv_span sv_name id_span sv_methods sv_options].
  split; [sp|]. split; [sp|]. split.
  - pick (join_span st e). eapply method_ns; eauto.
  - unfold ns_options. pick (join_span st e). eapply option_ns; eauto.
Qed.
Lemma ftype_ns ts t s P lo hi : g_field_type ts (t, s) -> tok_in lo hi ts -> within P lo hi -> inn P s /\ match t with TyNamed n => inn P (tname_span n) | _ => True end.
Proof.
  intros H T W. inversion H; subst.
  - tsplit. split; [sp|]. match goal with H : In _ scalar_names |- _ => cbn in H; repeat (destruct H as [H|H]; [injection H as <- <-; exact I|]); destruct H end.
  - split; [|eapply tname_ns; eauto]. match goal with G : g_type_name _ _ |- _ => destruct (tok_in_ends _ _ _ T (proj1 (tname_ne _ _ G))) end. sp.
Qed.
Section GB.
Variable k : cfg.
Variable gb : list tk -> body * span -> Prop.
Hypothesis body_ok : forall ts bd e lo hi P, gb ts (bd, e) -> tok_in lo hi ts ->
  (lo <= s_start e /\ s_start e < s_end e /\ s_end e <= hi) /\ (s_start P <= lo -> s_end P = s_end e -> ns_body P bd).
Lemma field_rest_ns start label ts f lo hi P : g_field_rest k gb start label ts f -> tok_in lo hi ts ->
  s_start start <= lo -> s_start P <= s_start start -> hi <= s_end P -> match label with Some (_, s) => s_start start <= s_start s /\ s_end s <= lo | None => True end -> ns_infield ns_body P f.
Proof.
  intros H. destruct H as [ts t tsp s1 v s2 ts' i os o e c _ H1 H2 H3 _|m0 m1 kts kt ksp m2 vts vt vsp m3 v s1 s2 ts' i os o e c H0 H1 H2 H3 _|m0 v s1 s2 ts' i os o s3 bts bd e c Hg H1 H2 H3 _];
    intros T Hs Hp Hh Hl; tsplit; unfold ns_infield, ns_field; cbn [fd_span fd_name id_span fd_number fd_kind fd_options fd_label ns_kind].
  - intin H2. assert (K : ns_optlist (join_span start e) o) by (eapply opt_options_ns; eauto; sp).
    destruct (ftype_ns _ _ _ (join_span start e) _ _ H1 T0) as [K1 K2]; [sp|].
    split; [sp|]. split; [sp|]. split; [sp|]. split; [auto|]. split; [auto|]. destruct label as [[? ?]|]; [sp|auto].
  - intin H2. assert (K : ns_optlist (join_span start e) o) by (eapply opt_options_ns; eauto; sp).
    split; [sp|]. split; [sp|]. split; [sp|]. split; [sp|]. split; [auto|]. destruct label as [[? ?]|]; [sp|auto].
  - intin H1. match goal with T : tok_in _ _ bts |- _ => destruct (body_ok _ _ _ _ _ (join_span start e) H3 T) as [Hb He] end.
    assert (K : ns_optlist (join_span start e) o) by (eapply opt_options_ns; eauto; sp).
    split; [sp|]. split; [sp|]. split; [sp|]. split; [split; [sp|apply He; [sp|reflexivity]]|]. split; [auto|]. destruct label as [[? ?]|]; [sp|auto].
Qed.
Lemma field_ns ts f lo hi P : g_field k gb ts f -> tok_in lo hi ts -> within P lo hi -> ns_infield ns_body P f.
Proof.
  destruct 1 as [ls label ts f H1 H2 H3]. intros T [W1 W2]. assert (H : 1 <= len ts) by (destruct H3; rewrite ?len_app; change (len (sym TSemicolon e)) with 1 || change (len (sym TLeftBrace sp3)) with 1; lia). tsplit. destruct H1; cbn [app] in *.
  - destruct ts as [|x ts]; [unfold len in H; cbn in H; lia|]. eapply (field_rest_ns _ _ _ _ (s_start (tk_span x))); eauto; cbn [first_span]; [|lia| |exact I].
    + cbn [tok_in] in *. split; [lia|]. tauto.
    + cbn [tok_in] in *. lia.
  - tsplit. eapply field_rest_ns; eauto; unfold sym, tk_span; cbn [app first_span fst snd]; [change (s_start sp <= m)|change (s_start P <= s_start sp)|change (s_start sp <= s_start sp /\ s_end sp <= m)]; lia.
Qed.
Lemma extend_ns ts x lo hi P : g_extend k gb ts x -> tok_in lo hi ts -> within P lo hi -> all (ns_infield ns_body P) (et_fields x).
Proof.
  destruct 1 as [st ts t s es l e c H1 H2 _]; intros T W. tsplit. cbn [et_fields]. apply all_Forall. unfold somes. pick P. eapply field_ns; eauto.
Qed.
Lemma oneof_ns ts x lo hi P : g_oneof k gb ts x -> tok_in lo hi ts -> within P lo hi -> ns_oneof ns_body P x.
Proof.
  destruct 1 as [st v s0 s es l e c H _]; intros T W. tsplit. unfold ns_oneof. cbn [oo_span oo_name id_span oo_options oo_fields]. split; [sp|]. split; [sp|]. split.
  - unfold ns_options. pick (join_span st e). eapply option_ns; eauto.
  - apply all_Forall. pick P. eapply field_ns; eauto.
Qed.
Lemma message_ns ts x lo hi P : g_message gb ts x -> tok_in lo hi ts -> within P lo hi -> inn P (ms_span x) /\ ns_message ns_body x.
Proof.
  destruct 1 as [st v s0 s ts bd e c H _]; intros T W. tsplit. unfold ns_message. cbn [ms_span ms_name id_span ms_body].
  match goal with T : tok_in _ _ ts |- _ => destruct (body_ok _ _ _ _ _ (join_span st e) H T) as [Hb He] end. split; [sp|]. split; [sp|]. apply He; [sp|reflexivity].
Qed.
End GB.
Lemma body_ns_n k d : forall ts bd e lo hi P, g_body_n k d ts (bd, e) -> tok_in lo hi ts ->
  (lo <= s_start e /\ s_start e < s_end e /\ s_end e <= hi) /\ (s_start P <= lo -> s_end P = s_end e -> ns_body P bd).
Proof.
  induction d as [|d IH]; intros ts bd e lo hi P H T; [destruct H|].
  destruct H as (es & l & H & -> & E). cbn [fst snd] in *. subst bd. tsplit. split; [sp|]. intros W1 W2. cbn [ns_body].
  split; [apply all_Forall|split; [|split]].
  - pick P; cbn [ns_item].
    + eapply oneof_ns; eauto.
    + eapply enum_ns; eauto.
    + eapply message_ns; eauto.
    + eapply extend_ns; eauto.
    + eapply field_ns; eauto.
  - pick P. eapply extensions_ns; eauto.
  - unfold ns_options. pick P. eapply option_ns; eauto.
  - pick P. eapply reserved_ns; eauto.
Qed.
Lemma body_ns k ts bd e lo hi P : g_body k ts (bd, e) -> tok_in lo hi ts ->
  (lo <= s_start e /\ s_start e < s_end e /\ s_end e <= hi) /\ (s_start P <= lo -> s_end P = s_end e -> ns_body P bd).
Proof. intros [d H]. eapply body_ns_n; eauto. Qed.
Lemma file_ns k n ts f lo hi : g_file k n ts f -> tok_in lo hi ts -> ns_file f.
Proof.
  destruct 1 as [ss sx sxs ts l pkg H1 H2 H3]. intros T. unfold ns_file. cbn [fi_span fi_syntax_span fi_package fi_imports fi_options fi_items].
  destruct (ss ++ ts) as [|x us] eqn:E.
  - apply app_eq_nil in E. destruct E; subst. inversion H1; subst. inversion H2 as [|us a us' l' G1 G2 E1 E2]; subst.
    + cbn in H3. destruct pkg; [discriminate|]. repeat split; constructor.
    + exfalso. apply app_eq_nil in E1. destruct E1; subst. clear - G1. inversion G1; subst; match goal with H : _ [] _ |- _ => inversion H end.
  - rewrite <- E in *. assert (Hne : ss ++ ts <> []) by (rewrite E; discriminate). destruct (tok_in_ends _ _ _ T Hne) as (A1 & A2 & A3).
    set (P := join_span (first_span (ss ++ ts)) (last_span (ss ++ ts))) in *.
    assert (T' : tok_in (s_start P) (s_end P) (ss ++ ts)).
    { subst P. clear - T Hne. revert T Hne. generalize (ss ++ ts). intros l T Hne. unfold join_span, s_start, s_end. cbn [fst snd].
      destruct l as [|x l]; [congruence|]. cbn [first_span]. destruct T as (T1 & T2 & T3 & T4). split; [unfold s_start; lia|]. split; [exact T2|]. split; [|exact T4].
      clear T1 T2 T4 Hne. revert x T3. induction l as [|y l IH]; intros x T3; [cbn; reflexivity|]. rewrite last_span_cons by discriminate. destruct T3 as (T1 & T2 & T3 & T4).
      split; [exact T1|]. split; [exact T2|]. split; [apply IH; exact T3|exact T4]. }
    clearbody P. clear A1 A2 A3 T E Hne. tsplit. split; [|split; [|split; [|split]]].
    + destruct H1; auto. tsplit. sp.
    + destruct pkg as [p|]; auto. assert (In p (flat_map st_packages l)) by (rewrite H3; now left).
      assert (F : Forall (fun p => inn P (pk_span p)) (flat_map st_packages l)).
      { pick P. match goal with G : g_package _ _ |- _ => destruct G end. tsplit. cbn [pk_span]. sp. }
      rewrite Forall_forall in F. auto.
    + pick P. match goal with G : g_import _ _ |- _ => destruct G as [st ks ik vts v vs e c G1 G2 G3 _] end. tsplit. cbn [im_span im_kind]. split; [sp|]. destruct G1; auto; tsplit; sp.
    + unfold ns_options. pick P. eapply option_ns; eauto.
    + pick P; cbn [ns_fitem].
      * eapply message_ns; eauto. intros; eapply body_ns; eauto.
      * eapply enum_ns; eauto.
      * eapply service_ns; eauto.
      * eapply extend_ns; eauto. intros; eapply body_ns; eauto.
Qed.
End N.
