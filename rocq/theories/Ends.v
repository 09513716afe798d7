(** Where a declaration ends is determined by its tokens: at the first semicolon outside braces, or
    (for messages, enums, services and extend blocks) at the brace that closes the first one. So no
    declaration is a proper beginning of another, and a list of declarations can be cut off a file. *)
From Coq Require Import ZifyBool ZifyN.
From Verif Require Import Base Errors Lex Ast Comments Parse Grammar.

(** The number of tokens up to the end of a declaration. *)
Fixpoint stop (blk : bool) (lev : N) (ts : list token) : option nat :=
  match ts with
  | [] => None
  | t :: r =>
    match t with
    | TSemicolon => if negb blk && (lev =? 0) then Some 1%nat else option_map S (stop blk lev r)
    | TLeftBrace => option_map S (stop blk (lev + 1) r)
    | TRightBrace => if blk && (lev =? 1) then Some 1%nat else option_map S (stop blk (lev - 1) r)
    | _ => option_map S (stop blk lev r)
    end
  end.
Lemma stop_app blk ts us n : forall lev, stop blk lev ts = Some n -> stop blk lev (ts ++ us) = Some n.
Proof.
  revert n. induction ts as [|t ts IH]; intros n lev H; [discriminate|].
  assert (K : forall l, option_map S (stop blk l ts) = Some n -> option_map S (stop blk l (ts ++ us)) = Some n).
  { intros l E. destruct (stop blk l ts) as [m|] eqn:El; [|discriminate]. now rewrite (IH m l El). }
  cbn [app stop] in *. destruct t; auto.
  - destruct (blk && (lev =? 1)); auto.
  - destruct (negb blk && (lev =? 0)); auto.
Qed.

Definition eff (blk : bool) (lev : N) (ts : list tk) : Prop := forall us, stop blk lev (map tk_tok ts ++ us) = option_map (plus (length ts)) (stop blk lev us).
(** Passed over inside braces; passed over also outside, when looking for a semicolon; passed over everywhere. *)
Definition inner (ts : list tk) : Prop := forall blk lev, lev <> 0 -> eff blk lev ts.
Definition calm (ts : list tk) : Prop := inner ts /\ eff false 0 ts.
Definition flat (ts : list tk) : Prop := forall blk lev, eff blk lev ts.

Lemma eff_nil blk lev : eff blk lev []. Proof. intros us. cbn. now destruct (stop blk lev us). Qed.
Lemma eff_app blk lev x y : eff blk lev x -> eff blk lev y -> eff blk lev (x ++ y).
Proof. intros Hx Hy us. rewrite map_app, <- app_assoc, Hx, Hy, app_length. destruct (stop blk lev us); cbn; [|reflexivity]. f_equal. lia. Qed.
Lemma inner_app x y : inner x -> inner y -> inner (x ++ y). Proof. intros Hx Hy blk lev H. apply eff_app; auto. Qed.
Lemma calm_app x y : calm x -> calm y -> calm (x ++ y). Proof. intros [H1 H2] [H3 H4]. split; [now apply inner_app|now apply eff_app]. Qed.
Lemma flat_app x y : flat x -> flat y -> flat (x ++ y). Proof. intros Hx Hy blk lev. apply eff_app; auto. Qed.
Lemma flat_calm x : flat x -> calm x. Proof. intros H. split; [intros blk lev _|]; apply H. Qed.
Lemma calm_inner x : calm x -> inner x. Proof. now intros [H _]. Qed.
Lemma flat_inner x : flat x -> inner x. Proof. intros H blk lev _. apply H. Qed.
Lemma inner_nil : inner []. Proof. intros blk lev _. apply eff_nil. Qed.
Lemma flat_nil : flat []. Proof. intros blk lev. apply eff_nil. Qed.
Lemma flat_sym t sp : match t with TSemicolon | TLeftBrace | TRightBrace => False | _ => True end -> flat (sym t sp).
Proof. intros H blk lev us. cbn [sym map tk_tok fst app length]. destruct t; try contradiction; cbn [stop]; destruct (stop blk lev us); reflexivity. Qed.
Lemma inner_semi sp : inner (sym TSemicolon sp).
Proof. intros blk lev H us. cbn [sym map tk_tok fst app length stop]. replace (lev =? 0) with false by lia. rewrite andb_false_r. destruct (stop blk lev us); reflexivity. Qed.
Lemma brace_eff blk lev x sp e m : inner x -> (lev <> 0 \/ blk = false) -> eff blk lev (sym TLeftBrace sp ++ x ++ [(TRightBrace, e, m)]).
Proof.
  intros Hx H us. cbn [sym app map tk_tok fst length stop]. rewrite map_app, <- app_assoc, (Hx blk (lev + 1) ltac:(lia)). cbn [map tk_tok fst app stop].
  replace (blk && (lev + 1 =? 1)) with false by (destruct blk; lia). replace (lev + 1 - 1) with lev by lia. rewrite app_length. cbn [length]. destruct (stop blk lev us); cbn; [|reflexivity]. f_equal. lia.
Qed.
Lemma inner_braces x sp e m : inner x -> inner (sym TLeftBrace sp ++ x ++ [(TRightBrace, e, m)]).
Proof. intros H blk lev Hl. apply brace_eff; auto. Qed.
Lemma calm_braces x sp e m : inner x -> calm (sym TLeftBrace sp ++ x ++ [(TRightBrace, e, m)]).
Proof. intros H. split; [now apply inner_braces|apply brace_eff; auto]. Qed.
Lemma balanced_eff blk ts : forall l lev us, lev <> 0 -> balanced l ts -> stop blk (lev + l) (ts ++ us) = option_map (plus (length ts)) (stop blk lev us).
Proof.
  induction ts as [|t ts IH]; intros l lev us Hl H.
  - cbn [balanced] in H. subst l. rewrite N.add_0_r. cbn. now destruct (stop blk lev us).
  - assert (K : forall l', balanced l' ts -> option_map S (stop blk (lev + l') (ts ++ us)) = option_map (plus (length (t :: ts))) (stop blk lev us)).
    { intros l' H'. rewrite (IH l' lev us Hl H'). cbn [length]. now destruct (stop blk lev us). }
    cbn [app stop]. destruct t; cbn [balanced] in H; try (now apply K).
    + rewrite <- N.add_assoc. now apply K.
    + destruct H as [H1 H2]. replace (lev + l =? 1) with false by lia. rewrite andb_false_r. replace (lev + l - 1) with (lev + (l - 1)) by lia. now apply K.
    + replace (lev + l =? 0) with false by lia. rewrite andb_false_r. now apply K.
Qed.
Lemma balanced_inner ts : balanced 0 (map tk_tok ts) -> inner ts.
Proof. intros H blk lev Hl us. rewrite <- (N.add_0_r lev) at 1. rewrite (balanced_eff blk _ 0 lev us Hl H), map_length. reflexivity. Qed.
Lemma many_inner {A} (p : list tk -> A -> Prop) ts l : (forall ts a, p ts a -> inner ts) -> g_many p ts l -> inner ts.
Proof. intros H. induction 1; [apply inner_nil|apply inner_app; eauto]. Qed.
Lemma sep_flat {A} (p : list tk -> A -> Prop) s ts l : match s with TSemicolon | TLeftBrace | TRightBrace => False | _ => True end -> (forall ts a, p ts a -> flat ts) -> g_sep s p ts l -> flat ts.
Proof. intros Hs H. induction 1; [eauto|]. apply flat_app; [eauto|]. apply flat_app; [now apply flat_sym|exact IHg_sep]. Qed.
Lemma sep_calm {A} (p : list tk -> A -> Prop) s ts l : match s with TSemicolon | TLeftBrace | TRightBrace => False | _ => True end -> (forall ts a, p ts a -> calm ts) -> g_sep s p ts l -> calm ts.
Proof. intros Hs H. induction 1; [eauto|]. apply calm_app; [eauto|]. apply calm_app; [now apply flat_calm, flat_sym|exact IHg_sep]. Qed.

Ltac fl := repeat first [apply flat_app | apply flat_sym; exact I | apply flat_nil | solve [eauto 3]].
Ltac ca := repeat first [apply calm_app | apply flat_calm; solve [fl] | solve [eauto 3]].
Ltac inn := repeat first [apply inner_app | apply inner_semi | apply flat_inner; solve [fl] | apply calm_inner; solve [ca] | apply inner_nil | solve [eauto 3]].

Lemma f_ident ts i : g_ident ts i -> flat ts. Proof. destruct 1. fl. Qed.
Lemma f_full ts i : g_full_ident ts i -> flat ts. Proof. apply sep_flat; [exact I|exact f_ident]. Qed.
Local Hint Resolve f_ident f_full : core.
Lemma f_type_name ts i : g_type_name ts i -> flat ts. Proof. destruct 1; fl. Qed.
Lemma f_int ts i : g_int ts i -> flat ts. Proof. destruct 1; fl. Qed.
Lemma f_string ts i : g_string ts i -> flat ts. Proof. induction 1; fl. Qed.
Local Hint Resolve f_type_name f_int f_string : core.
Lemma f_utf8 ts i : g_utf8_string ts i -> flat ts. Proof. destruct 1; fl. Qed.
Local Hint Resolve f_utf8 : core.
Lemma f_ident_string ts i : g_ident_string ts i -> flat ts. Proof. destruct 1; fl. Qed.
Lemma f_optname ts i : g_optname_part ts i -> flat ts. Proof. destruct 1; fl. Qed.
Lemma f_range ts i : g_range ts i -> flat ts. Proof. destruct 1; fl. Qed.
Lemma f_field_type ts i : g_field_type ts i -> flat ts. Proof. destruct 1; fl. Qed.
Lemma f_label ts i : g_label ts i -> flat ts. Proof. destruct 1; fl. Qed.
Lemma f_stream ts i t : g_stream ts i t -> flat ts. Proof. destruct 1; fl. Qed.
Lemma f_import_kind ts i : g_import_kind ts i -> flat ts. Proof. destruct 1; fl. Qed.
Local Hint Resolve f_ident_string f_optname f_range f_field_type f_label f_stream f_import_kind : core.
Lemma f_optnames ts l : g_sep TDot g_optname_part ts l -> flat ts. Proof. apply sep_flat; [exact I|exact f_optname]. Qed.
Lemma f_ranges ts l : g_sep TComma g_range ts l -> flat ts. Proof. apply sep_flat; [exact I|exact f_range]. Qed.
Lemma f_names ts l : g_sep TComma g_ident_string ts l -> flat ts. Proof. apply sep_flat; [exact I|exact f_ident_string]. Qed.
Local Hint Resolve f_optnames f_ranges f_names : core.
Lemma c_optval k ts v : g_optval k ts v -> calm ts.
Proof. destruct 1 as [| | | | | |st ts e [H _]]; [ca..|]. apply calm_braces. now apply balanced_inner. Qed.
Local Hint Resolve c_optval : core.
Lemma c_option_body k ts v : g_option_body k ts v -> calm ts. Proof. destruct 1. ca. Qed.
Local Hint Resolve c_option_body : core.
Lemma c_bodies k ts v : g_sep TComma (g_option_body k) ts v -> calm ts. Proof. apply sep_calm; [exact I|exact (c_option_body k)]. Qed.
Local Hint Resolve c_bodies : core.
Lemma c_options_list k ts v : g_options_list k ts v -> calm ts. Proof. destruct 1. ca. Qed.
Local Hint Resolve c_options_list : core.
Lemma c_opt_options k ts v : g_opt_options k ts v -> calm ts. Proof. destruct 1; ca. Qed.
Local Hint Resolve c_opt_options : core.

Section Comments.
Context {C : comspec}.
Lemma i_option k ts o : g_option k ts o -> inner ts. Proof. destruct 1. inn. Qed.
Lemma i_reserved ts o : g_reserved ts o -> inner ts. Proof. destruct 1; inn. Qed.
Lemma i_extensions k ts o : g_extensions k ts o -> inner ts. Proof. destruct 1; inn. Qed.
Local Hint Resolve i_option i_reserved i_extensions : core.
Section Body.
Variable k : cfg.
Variable gb : list tk -> body * span -> Prop.
Hypothesis Hgb : forall ts r sp, gb ts r -> inner (sym TLeftBrace sp ++ ts).
Lemma i_field_rest st l ts f : g_field_rest k gb st l ts f -> inner ts. Proof. destruct 1; [inn|inn|]. apply inner_app; [inn|]. apply inner_app; [inn|]. apply inner_app; [inn|]. apply inner_app; [inn|]. apply inner_app; [inn|]. eauto. Qed.
Local Hint Resolve i_field_rest : core.
Lemma i_field ts f : g_field k gb ts f -> inner ts. Proof. destruct 1. inn. Qed.
Local Hint Resolve i_field : core.
Lemma i_extend_elem ts f : g_extend_elem k gb ts f -> inner ts. Proof. destruct 1; inn. Qed.
Lemma i_oneof_elem ts f : g_oneof_elem k gb ts f -> inner ts. Proof. destruct 1; inn. Qed.
Lemma i_extend ts f : g_extend k gb ts f -> inner ts.
Proof. destruct 1. apply inner_app; [inn|]. apply inner_app; [inn|]. apply inner_braces. eapply many_inner; [exact i_extend_elem|eassumption]. Qed.
Lemma i_oneof ts f : g_oneof k gb ts f -> inner ts.
Proof. destruct 1. apply inner_app; [inn|]. apply inner_app; [inn|]. apply inner_braces. eapply many_inner; [exact i_oneof_elem|eassumption]. Qed.
Lemma i_message ts f : g_message gb ts f -> inner ts.
Proof. destruct 1. apply inner_app; [inn|]. apply inner_app; [inn|]. eauto. Qed.
End Body.
Lemma i_enum_value k ts f : g_enum_value k ts f -> inner ts. Proof. destruct 1; inn. Qed.
Local Hint Resolve i_enum_value : core.
Lemma i_enum_elem k ts f : g_enum_elem k ts f -> inner ts. Proof. destruct 1; inn. Qed.
Lemma i_enum k ts f : g_enum k ts f -> inner ts.
Proof. destruct 1. apply inner_app; [inn|]. apply inner_app; [inn|]. apply inner_braces. eapply many_inner; [exact (i_enum_elem k)|eassumption]. Qed.
Lemma i_body_elem k (gb : list tk -> body * span -> Prop) : (forall ts r sp, gb ts r -> inner (sym TLeftBrace sp ++ ts)) -> forall ts x, g_body_elem k gb ts x -> inner ts.
Proof. intros H ts x. destruct 1; eauto using i_oneof, i_enum, i_message, i_extend, i_field. apply inner_semi. Qed.
Lemma i_body_n k n : forall ts r (sp : span), g_body_n k n ts r -> exists es e, ts = es ++ sym TRightBrace e /\ inner es.
Proof.
  induction n as [|n IH]; intros ts r sp H; [destruct H|]. destruct H as (es & l & H1 & -> & _). exists es, (snd r). split; [reflexivity|].
  eapply many_inner; [|exact H1]. apply i_body_elem. intros ts r0 sp0 H. destruct (IH ts r0 sp0 H) as (es0 & e & -> & H0). now apply inner_braces.
Qed.
Lemma i_body k ts r : g_body k ts r -> exists es e, ts = es ++ sym TRightBrace e /\ inner es.
Proof. intros (n & H). exact (i_body_n k n ts r (0, 0) H). Qed.
Lemma i_rpc_elem k ts f : g_rpc_elem k ts f -> inner ts. Proof. destruct 1; inn. Qed.
Lemma i_rpc_end k ts f : g_rpc_end k ts f -> inner ts.
Proof. destruct 1; [inn|]. apply inner_braces. eapply many_inner; [exact (i_rpc_elem k)|eassumption]. Qed.
Local Hint Resolve i_rpc_end : core.
Lemma i_method k ts f : g_method k ts f -> inner ts. Proof. destruct 1; inn. Qed.
Local Hint Resolve i_method : core.
Lemma i_service_elem k ts f : g_service_elem k ts f -> inner ts. Proof. destruct 1; inn. Qed.

(** A declaration ends where [stop] says. *)
Definition block_kw (t : token) : bool := match t with TIdent v => bytes_eqb v (b "message") || bytes_eqb v (b "enum") || bytes_eqb v (b "service") || bytes_eqb v (b "extend") | _ => false end.
Definition ends (ts : list tk) : Prop := exists t sp r, ts = (t, sp, false) :: r /\ stop (block_kw t) 0 (map tk_tok ts) = Some (length ts).
Lemma ends_block pre x sp e : flat pre -> inner x -> (exists t s r, pre = (t, s, false) :: r /\ block_kw t = true) -> ends (pre ++ sym TLeftBrace sp ++ x ++ sym TRightBrace e).
Proof.
  intros Hp Hx (t & s & r & -> & Ht). exists t, s, (r ++ sym TLeftBrace sp ++ x ++ sym TRightBrace e). split; [reflexivity|]. rewrite Ht, map_app, (Hp true 0). cbn [sym app map tk_tok fst stop].
  rewrite map_app, (Hx true (0 + 1) ltac:(lia)). cbn [sym map tk_tok fst stop andb N.eqb N.add Pos.eqb option_map]. f_equal. cbn [length]. rewrite !app_length. cbn [length sym]. rewrite ?app_length. cbn [length]. change (length (sym TRightBrace e)) with 1%nat. lia.
Qed.
Lemma ends_simple pre e : calm pre -> (exists t s r, pre = (t, s, false) :: r /\ block_kw t = false) -> ends (pre ++ sym TSemicolon e).
Proof.
  intros [_ Hp] (t & s & r & -> & Ht). exists t, s, (r ++ sym TSemicolon e). split; [reflexivity|]. rewrite Ht, map_app, Hp. cbn [sym map tk_tok fst stop negb andb N.eqb option_map]. f_equal. rewrite app_length. reflexivity.
Qed.
Lemma statement_ends k ts x : g_statement k ts x -> ends ts.
Proof.
  destruct 1 as [sp|ts x H|ts x H|ts x H|ts x H|ts x H|ts x H|ts x H].
  - exists TSemicolon, sp, []. split; reflexivity.
  - destruct H. rewrite app_assoc. apply ends_simple; [ca|eexists _, _, _; split; reflexivity].
  - destruct H. rewrite (app_assoc ks), app_assoc. apply ends_simple; [ca|eexists _, _, _; split; reflexivity].
  - destruct H. rewrite app_assoc. apply ends_simple; [ca|eexists _, _, _; split; reflexivity].
  - destruct H. destruct (i_body k _ _ H) as (es & e0 & -> & Hi). rewrite app_assoc. apply ends_block; [fl|exact Hi|eexists _, _, _; split; reflexivity].
  - destruct H. rewrite app_assoc. apply ends_block; [fl|eapply many_inner; [exact (i_enum_elem k)|eassumption]|eexists _, _, _; split; reflexivity].
  - destruct H. rewrite app_assoc. apply ends_block; [fl|eapply many_inner; [exact (i_service_elem k)|eassumption]|eexists _, _, _; split; reflexivity].
  - destruct H. rewrite app_assoc. apply ends_block; [fl| |eexists _, _, _; split; reflexivity]. eapply many_inner; [|eassumption]. apply i_extend_elem.
    intros ts0 r sp0 H9. destruct (i_body k _ _ H9) as (es0 & e0 & -> & Hi). now apply inner_braces.
Qed.
End Comments.

Lemma ends_same x y u v : ends x -> ends y -> map tk_tok x ++ u = map tk_tok y ++ v -> length x = length y.
Proof.
  intros (t & sp & r & -> & Hx) (t' & sp' & r' & -> & Hy) E. assert (t = t') as -> by (cbn in E; congruence).
  apply (stop_app _ _ u) in Hx. apply (stop_app _ _ v) in Hy. rewrite E in Hx. congruence.
Qed.
(** Whether a declaration is a package declaration is seen from its first token. *)
Lemma package_first {C : comspec} k ts x : g_statement k ts x -> length (st_packages x) = match map tk_tok ts with t :: _ => if token_eqb t (kw "package") then 1%nat else 0%nat | [] => 0%nat end.
Proof. destruct 1 as [sp|ts x H|ts x H|ts x H|ts x H|ts x H|ts x H|ts x H]; [reflexivity|destruct H; reflexivity..]. Qed.
(** A list of declarations that starts another one: the other is it and more. *)
Lemma statements_cut {C D : comspec} k ts l : g_many (@g_statement C k) ts l -> forall us TS L, g_many (@g_statement D k) TS L -> map tk_tok TS = map tk_tok ts ++ us ->
  exists T1 T2 L1 L2, TS = T1 ++ T2 /\ L = L1 ++ L2 /\ g_many (@g_statement D k) T1 L1 /\ g_many (@g_statement D k) T2 L2 /\ map tk_tok T1 = map tk_tok ts /\ map tk_tok T2 = us /\
    length (flat_map st_packages L1) = length (flat_map st_packages l).
Proof.
  induction 1 as [|ts a ts' l H H1 IH]; intros us TS L G E.
  - exists [], TS, [], L. repeat split; auto. constructor.
  - destruct G as [|TA A TS' L G G'].
    + exfalso. destruct (statement_ends k _ _ H) as (t & sp & r & -> & _). discriminate E.
    + rewrite !map_app, <- app_assoc in E. pose proof (ends_same _ _ _ _ (statement_ends k _ _ G) (statement_ends k _ _ H) E) as El.
      assert (E1 : map tk_tok TA = map tk_tok ts /\ map tk_tok TS' = map tk_tok ts' ++ us).
      { clear -E El. revert ts El E. induction TA as [|x TA IH]; intros [|y ts] El E; try discriminate; [split; [reflexivity|exact E]|]. cbn [map app] in E. injection E as E1 E2. destruct (IH ts) as [I1 I2]; [cbn in El; lia|exact E2|]. split; [cbn; congruence|exact I2]. }
      destruct E1 as [E1 E2]. destruct (IH us TS' L G' E2) as (T1 & T2 & L1 & L2 & -> & -> & K1 & K2 & K3 & K4 & K5).
      exists (TA ++ T1), T2, (A :: L1), L2. rewrite app_assoc. repeat split; auto; [now constructor|rewrite !map_app; congruence|].
      cbn [flat_map]. rewrite !app_length, K5, (package_first k _ _ G), (package_first k _ _ H), E1. reflexivity.
Qed.
