(** Declarations denoted by tokens of a source are well-formed (AstWf.v). *)
From Verif Require Import Base SynSpec Utf8 Errors Lex Ast Parse Descriptor Generate LexSafe Stream PropsLex Grammar Utf8Spec Classify Walk WalkG1 WalkG2 WalkG3 AstWf.

(** Integer tokens are 64-bit. *)
Definition int_ok (t : token) : Prop := match t with TInt v => v < 2 ^ 64 | _ => True end.
Lemma radix_loop_bound radix l : forall acc v, acc < 2 ^ 64 -> radix_loop radix acc l = ROk v -> v < 2 ^ 64.
Proof.
  induction l as [|c l IH]; intros acc v Ha; cbn [radix_loop]; [intros [= <-]; auto|]. destruct (digit_val c) as [d|]; [|discriminate]. destruct (d <? radix); [|discriminate].
  destruct (acc * radix + d <=? u64_max) eqn:E; [|discriminate]. apply N.leb_le in E. apply IH. unfold u64_max in E. change (2 ^ 64) with 18446744073709551616. lia.
Qed.
Lemma cb_int_bound radix prefix start slice rest v es a : cb_int radix prefix start slice rest = (v, es, a) -> v < 2 ^ 64.
Proof.
  unfold cb_int, from_str_radix. assert (H0 : 0 < 2 ^ 64) by reflexivity. destruct (skipn prefix slice) as [|c l]; [intros E; now injection E as <- _ _|].
  destruct (radix_loop radix 0 (c :: l)) eqn:Er; intros E; injection E as <- _ _; auto. eapply radix_loop_bound; [|exact Er]. auto.
Qed.
Lemma lex_int_ok k s t s' : lex_next k s = Done (Some (Some t), s') -> int_ok t.
Proof.
  unfold lex_next. destruct (skipn _ (l_rest s)) as [|c r]; [discriminate|]. destruct (scan (munch_ideal k) (c :: r)) as [kind slice] eqn:Es.
  destruct kind; try discriminate; try (intros E; injection E as <- _; exact I).
  - intros E. injection E as <- _. reflexivity.
  - destruct (cb_int _ _ _ _ _) as [[v es] a] eqn:Ec. intros E. injection E as <- _. eapply cb_int_bound; eauto.
  - destruct (cb_int _ _ _ _ _) as [[v es] a] eqn:Ec. intros E. injection E as <- _. eapply cb_int_bound; eauto.
  - destruct (cb_int _ _ _ _ _) as [[v es] a] eqn:Ec. intros E. injection E as <- _. eapply cb_int_bound; eauto.
  - destruct (cb_float _ _ _). intros E. injection E as <- _. exact I.
  - destruct (str_loop _ _ _ _ _ _) as [[[[? ?] ?] ?]| |]; cbn [obind]; try discriminate. intros E. injection E as <- _. exact I.
  - intros E. injection E as E _. subst. destruct t; try exact I. exfalso. eapply scan_punct_not_int; exact Es.
  - destruct (cb_line _ _ _) as [[? ?]| |]; cbn [obind]; try discriminate. intros E. injection E as <- _. exact I.
  - destruct (block_loop _ _ _ _ _ _ _) as [[[[? ?] ?] ?]| |]; cbn [obind]; try discriminate. intros E. injection E as <- _. exact I.
Qed.
Definition tok_ok (x : option token * span) : Prop := match fst x with Some t => int_ok t | None => True end.
Lemma lex_all_ok k s : forall ts s', lex_all k s = Done (ts, s') -> Forall tok_ok ts.
Proof.
  apply (lex_ind k (fun s => forall ts s', lex_all k s = Done (ts, s') -> Forall tok_ok ts)); clear s.
  - intros s s1 H ts s' E. rewrite (lex_all_step _ _ _ _ (lx_eq _ _ _ _ H)) in E. injection E as <- <-. constructor.
  - intros s t s1 H IH ts s' E. rewrite (lex_all_step _ _ _ _ (lx_eq _ _ _ _ H)) in E.
    destruct (lex_all_total k s1) as (ts1 & s2 & E1). rewrite E1 in E. cbn [obind] in E. injection E as <- <-. constructor; [|eauto].
    unfold tok_ok. cbn [fst]. destruct t as [t|]; auto. exact (lex_int_ok _ _ _ _ (lx_eq _ _ _ _ H)).
Qed.

(** Non-empty, ordered tokens between two offsets. *)
Fixpoint tok_in (lo hi : N) (ts : list tk) : Prop :=
  match ts with
  | [] => lo <= hi
  | x :: r => lo <= s_start (tk_span x) /\ s_start (tk_span x) < s_end (tk_span x) /\ tok_in (s_end (tk_span x)) hi r /\ int_ok (tk_tok x)
  end.
Lemma tok_in_le lo hi ts : tok_in lo hi ts -> lo + len ts <= hi.
Proof. revert lo. induction ts as [|x r IH]; cbn [tok_in]; intros lo H; [unfold len; cbn; lia|]. rewrite len_cons. destruct H as (H1 & H2 & H3 & _). apply IH in H3. lia. Qed.
Lemma tok_in_app lo hi a c : tok_in lo hi (a ++ c) -> exists m, tok_in lo m a /\ tok_in m hi c.
Proof.
  revert lo. induction a as [|x a IH]; cbn; intros lo H.
  - exists lo. split; [lia|auto].
  - destruct H as (H1 & H2 & H3 & H4). destruct (IH _ H3) as (m & A & C). exists m. auto.
Qed.
Lemma tok_in_sym lo hi t sp : tok_in lo hi (sym t sp) -> lo <= s_start sp /\ s_start sp < s_end sp /\ s_end sp <= hi.
Proof. cbn. tauto. Qed.
Lemma tok_in_one lo hi t sp m : tok_in lo hi [(t, sp, m)] -> lo <= s_start sp /\ s_start sp < s_end sp /\ s_end sp <= hi.
Proof. cbn. tauto. Qed.
Lemma tok_in_ends lo hi ts : tok_in lo hi ts -> ts <> [] -> lo <= s_start (first_span ts) /\ s_start (first_span ts) < s_end (last_span ts) /\ s_end (last_span ts) <= hi.
Proof.
  revert lo. induction ts as [|x r IH]; [congruence|]. intros lo H _. destruct H as (H1 & H2 & H3 & _). destruct r as [|y r].
  - cbn in *. auto.
  - rewrite last_span_cons by discriminate. destruct (IH _ H3) as (A1 & A2 & A3); [discriminate|]. cbn [first_span] in *. lia.
Qed.
Lemma tiles_tok off l s : tiles off l s -> Forall tok_ok s -> forall ts, sigs s = map inj ts -> tok_in off (off + len l) ts.
Proof.
  induction 1 as [off w Hw|off w lexeme rest t ts Hw Hl Ht IH]; intros Hk us E.
  - destruct us; [|discriminate]. cbn. lia.
  - assert (Hp : 0 < len lexeme) by (destruct lexeme; [congruence|rewrite len_cons; lia]).
    inversion Hk as [|? ? Hk1 Hk2]; subst. specialize (IH Hk2). rewrite !len_app. rewrite sigs_cons in E. destruct (significant _).
    + destruct us as [|[[t' sp] m] us]; [discriminate|]. cbn [map] in E. injection E as E1 E2 E3. unfold tk_span in E2. cbn [fst snd] in E2. subst sp.
      apply IH in E3. cbn [tok_in tk_span fst snd s_start s_end]. rewrite <- N.add_assoc in E3 at 1. split; [lia|]. split; [lia|].
      replace (off + (len w + (len lexeme + len rest))) with (off + len w + len lexeme + len rest) by lia. rewrite N.add_assoc in E3. split; [exact E3|]. subst t. exact Hk1.
    + apply IH in E. destruct us as [|x us]; cbn in *; [lia|]. destruct E as (A & C & D). replace (off + (len w + (len lexeme + len rest))) with (off + len w + len lexeme + len rest) by lia. split; [lia|auto].
Qed.

Lemma sin_ok n sp lo hi : lo <= s_start sp /\ s_start sp < s_end sp /\ s_end sp <= hi -> hi <= n -> span_ok n sp.
Proof. unfold span_ok. lia. Qed.

(** Splitting token ranges. *)
Ltac tsplit := repeat match goal with
  | H : tok_in _ _ (_ ++ _) |- _ => let m := fresh "m" in let A := fresh "T" in let C := fresh "T" in
      apply tok_in_app in H; destruct H as (m & A & C)
  | H : tok_in _ _ (sym _ _) |- _ => apply tok_in_sym in H
  | H : tok_in _ _ [_] |- _ => apply tok_in_one in H
  end.
Ltac tle := repeat match goal with
  | H : tok_in ?lo ?hi ?ts |- _ => lazymatch goal with H' : lo + len ts <= hi |- _ => fail | _ => pose proof (tok_in_le _ _ _ H) end
  end.
Ltac sp := unfold span_ok, join_span, s_start, s_end in *; cbn [fst snd] in *; tle; lia.

Section Many.
Context {A : Type}.
Variable item : list tk -> A -> Prop.
Lemma sep_len t ts l : g_sep t item ts l -> (forall ts a, item ts a -> ts <> []) -> len l <= len ts.
Proof.
  intros H F. assert (P1 : forall ts a, item ts a -> 1 <= len ts). { intros us a Ha. apply F in Ha. destruct us; [congruence|rewrite len_cons; lia]. }
  induction H as [ts a H1|ts a s ts' l H1 H2 IH]; rewrite len_cons; [change (len (@nil A)) with 0; apply P1 in H1; lia|].
  rewrite !len_app. change (len (sym t s)) with 1. apply P1 in H1. lia.
Qed.
Lemma sep_ne t ts l : g_sep t item ts l -> (forall ts a, item ts a -> ts <> []) -> ts <> [] /\ l <> [].
Proof. intros H F. destruct H as [ts a H1|ts a s ts' l H1 H2]; (split; [|discriminate]); apply F in H1; destruct ts; cbn; congruence. Qed.
Lemma many_total {C} (f : A -> list C) (w : C -> N) ts l : g_many item ts l -> (forall ts a, item ts a -> total w (f a) <= len ts) -> total w (flat_map f l) <= len ts.
Proof.
  intros H F. induction H as [|ts a ts' l H1 H2 IH]; cbn [flat_map]; [cbn; lia|]. rewrite len_app. apply F in H1.
  assert (E : forall x y, total w (x ++ y) = total w x + total w y). { unfold total. induction x as [|z x IHx]; intros y; cbn [app fold_right]; [lia|]. rewrite IHx. lia. }
  rewrite E. lia.
Qed.

Variable Q : A -> Prop.
Lemma many_wf n ts l : g_many item ts l -> (forall ts a lo hi, item ts a -> tok_in lo hi ts -> hi <= n -> Q a) ->
  forall lo hi, tok_in lo hi ts -> hi <= n -> Forall Q l.
Proof.
  intros H F. induction H as [|ts a ts' l H1 H2 IH]; intros lo hi T Hn; constructor; tsplit.
  - apply (F _ _ _ _ H1 T0). tle. lia.
  - eauto.
Qed.
Lemma sep_wf n t ts l : g_sep t item ts l -> (forall ts a lo hi, item ts a -> tok_in lo hi ts -> hi <= n -> Q a) ->
  forall lo hi, tok_in lo hi ts -> hi <= n -> Forall Q l.
Proof.
  intros H F. induction H as [ts a H1|ts a s ts' l H1 H2 IH]; intros lo hi T Hn.
  - constructor; [|constructor]. eauto.
  - tsplit. constructor; [|eauto]. apply (F _ _ _ _ H1 T0). tle. lia.
Qed.
End Many.
Lemma total_one {C} (l : list C) : total (fun _ => 1) l = len l.
Proof. unfold total. induction l as [|x l IH]; cbn [fold_right]; auto. rewrite len_cons, IH. lia. Qed.
Lemma many_len {A C} (item : list tk -> A -> Prop) (f : A -> list C) ts l : g_many item ts l -> (forall ts a, item ts a -> len (f a) <= len ts) -> len (flat_map f l) <= len ts.
Proof. intros H F. rewrite <- total_one. apply (many_total item f _ ts l H). intros. rewrite total_one. auto. Qed.

Section N.
Variable n : N.
Context {CS : comspec}.
Notation sok := (span_ok n).

Lemma int_in ts i : g_int ts i -> forall lo hi, tok_in lo hi ts -> lo <= s_start (i_span i) /\ s_start (i_span i) < s_end (i_span i) /\ s_end (i_span i) <= hi.
Proof. destruct 1; intros lo hi T; tsplit; cbn [i_span]; sp. Qed.
Lemma int_ne ts i : g_int ts i -> ts <> [].
Proof. destruct 1; discriminate. Qed.
Lemma str_in ts i : g_string ts i -> forall lo hi, tok_in lo hi ts -> lo <= s_start (st_span i) /\ s_start (st_span i) < s_end (st_span i) /\ s_end (st_span i) <= hi.
Proof. induction 1; intros lo hi T; tsplit; cbn [st_span]; auto. apply IHg_string in T1. sp. Qed.
Lemma str_ne ts i : g_string ts i -> ts <> [].
Proof. destruct 1; discriminate. Qed.
Lemma ident_ne ts i : g_ident ts i -> ts <> [].
Proof. destruct 1; discriminate. Qed.
Lemma tname_in ts t : g_type_name ts t -> forall lo hi, tok_in lo hi ts ->
  exists s, type_name_span t = Some s /\ lo <= s_start s /\ s_start s < s_end s /\ s_end s <= hi.
Proof. intros H lo hi T. destruct (g_type_name_span _ _ H) as [H1 H2]. destruct (tok_in_ends _ _ _ T H1). eexists. split; [exact H2|]. sp. Qed.
Lemma tname_ne ts t : g_type_name ts t -> ts <> [] /\ tn_name t <> [].
Proof. intros H. split; [apply (g_type_name_span _ _ H)|]. destruct H as [ts l H|s ts l H]; cbn; apply (sep_ne _ _ _ _ H ident_ne). Qed.
Lemma tname_wf ts t lo hi : g_type_name ts t -> tok_in lo hi ts -> hi <= n -> wf_tname n t.
Proof. intros H T Hn. split; [apply (tname_ne _ _ H)|]. destruct (tname_in _ _ H _ _ T) as (s & E & S1). exists s. split; auto. eapply sin_ok; eauto. Qed.

(** ** Options *)
Lemma part_in ts x : g_optname_part ts x -> forall lo hi, tok_in lo hi ts ->
  lo <= s_start (optname_part_span x) /\ s_start (optname_part_span x) < s_end (optname_part_span x) /\ s_end (optname_part_span x) <= hi.
Proof. destruct 1 as [ts i H|st ts m e H]; intros lo hi T; [destruct H|]; tsplit; cbn [optname_part_span id_span]; sp. Qed.
Lemma part_ne ts x : g_optname_part ts x -> ts <> [].
Proof. destruct 1 as [ts i H|]; [destruct H; discriminate|discriminate]. Qed.
Lemma part_wf ts x lo hi : g_optname_part ts x -> tok_in lo hi ts -> hi <= n -> wf_part n x.
Proof. destruct 1 as [ts i H|st ts m e H]; intros T Hn; cbn [wf_part]; auto. tsplit. eapply tname_wf; eauto. sp. Qed.
Lemma obname_in ts l : g_sep TDot g_optname_part ts l -> forall lo hi v, tok_in lo hi ts ->
  exists s, ob_name_span {| ob_name := l; ob_value := v |} = Some s /\ lo <= s_start s /\ s_start s < s_end s /\ s_end s <= hi.
Proof.
  intros H lo hi v T.
  assert (G : l <> [] /\ forall d d', lo <= s_start (optname_part_span (hd d l)) /\ s_start (optname_part_span (hd d l)) < s_end (optname_part_span (last l d')) /\ s_end (optname_part_span (last l d')) <= hi).
  { revert lo T. induction H as [ts a H1|ts a s ts' l H1 H2 IH]; intros lo T.
    - split; [discriminate|]. intros. cbn [hd last]. eapply part_in; eauto.
    - tsplit. destruct (IH _ T2) as [G1 G2]. split; [discriminate|]. intros d d'. specialize (G2 d d'). apply (part_in _ _ H1) in T0.
      destruct l as [|y l]; [congruence|]. cbn [hd] in *. change (last (a :: y :: l) d') with (last (y :: l) d'). sp. }
  destruct G as [G1 G2]. unfold ob_name_span. cbn [ob_name]. destruct l as [|x l]; [congruence|]. specialize (G2 x x). cbn [hd] in G2. eexists. split; [reflexivity|]. sp.
Qed.
Lemma optval_in k ts v : g_optval k ts v -> forall lo hi, tok_in lo hi ts ->
  lo <= s_start (optval_span v) /\ s_start (optval_span v) < s_end (optval_span v) /\ s_end (optval_span v) <= hi.
Proof. destruct 1; intros lo hi T; cbn [optval_span]; try (eapply int_in; eauto; fail); try (eapply str_in; eauto; fail); tsplit; cbn [fl_span]; sp. Qed.
Lemma int_bound ts i : g_int ts i -> forall lo hi, tok_in lo hi ts -> i_val i < 2 ^ 64.
Proof. destruct 1; intros lo hi T; cbn [app sym tok_in int_ok tk_tok i_val fst snd] in *; tauto. Qed.
Lemma optbody_wf k ts o lo hi : g_option_body k ts o -> tok_in lo hi ts -> hi <= n -> wf_body_ n o.
Proof.
  destruct 1 as [ts l s ts' v H1 H2]; intros T Hn. tsplit. pose proof (optval_in _ _ _ H2 _ _ T2). destruct (obname_in _ _ H1 _ _ v T0) as (x & E & X).
  split; [|split].
  - cbn [ob_name]. eapply sep_wf; [eauto|apply part_wf|eauto|sp].
  - unfold ob_span. rewrite E. cbn [ob_value]. eexists. split; eauto. sp.
  - cbn [ob_value]. split; [sp|]. destruct H2 as [| |us i Hi| | | |]; try exact I. eapply int_bound; eauto.
Qed.
Lemma optbody_ne k ts o : g_option_body k ts o -> ts <> [].
Proof. destruct 1. destruct ts; discriminate. Qed.
Lemma option_wf k ts o lo hi : g_option k ts o -> tok_in lo hi ts -> hi <= n -> wf_option n o.
Proof. destruct 1; intros T Hn. tsplit. split; cbn [op_body op_span]; [|sp]. eapply optbody_wf; eauto. sp. Qed.
Lemma opt_options_wf k ts o lo hi : g_opt_options k ts o -> tok_in lo hi ts -> hi <= n -> wf_optlist n o.
Proof.
  destruct 1 as [|ts o H]; intros T Hn; [exact I|]. destruct H. tsplit. cbn [wf_optlist ol_options ol_span]. split; [|split].
  - eapply sep_wf; [eauto|intros; eapply optbody_wf; eauto|eauto|sp].
  - apply sep_len in H; [|intros; eapply optbody_ne; eauto]. sp.
  - sp.
Qed.

Ltac subin L H := match type of H with _ ?ts _ _ => idtac | _ ?ts _ => idtac end;
  let K := fresh "K" in
  match goal with T : tok_in ?lo ?hi ?ts |- _ => match type of H with context [ts] => assert (K := L _ _ _ lo hi H T ltac:(sp)) end end; destruct K.
Ltac intin H := match type of H with g_int ?ts _ => match goal with T : tok_in _ _ ts |- _ => pose proof (int_in _ _ H _ _ T) end end.

(** ** Ranges *)
Lemma range_wf ts r lo hi : g_range ts r -> tok_in lo hi ts -> hi <= n -> wf_range n r.
Proof.
  destruct 1 as [ts i H|ts i s ts' j H1 H2|ts i s e H]; intros T Hn; tsplit; unfold wf_range, rr_span, rr_end_span; cbn [rr_start rr_end].
  - intin H. sp.
  - intin H1. intin H2. sp.
  - intin H. sp.
Qed.
Lemma range_ne ts r : g_range ts r -> ts <> [].
Proof. destruct 1 as [ts i H|ts i s ts' j H1 H2|ts i s e H]; [eapply int_ne; eauto| |]; destruct ts; discriminate. Qed.
Lemma idstr_wf ts i lo hi : g_ident_string ts i -> tok_in lo hi ts -> hi <= n -> sok (id_span i).
Proof. destruct 1 as [ts v s H]. intros T Hn. inversion H; subst. cbn [id_span]. eapply sin_ok; [eapply str_in; eauto|auto]. Qed.
Lemma idstr_ne ts i : g_ident_string ts i -> ts <> [].
Proof. destruct 1 as [ts v s H]. inversion H; subst. eapply str_ne; eauto. Qed.
Lemma reserved_wf ts r lo hi : g_reserved ts r -> tok_in lo hi ts -> hi <= n -> wf_reserved n r.
Proof.
  destruct 1 as [st ts l e c H _|st ts l e c H _]; intros T Hn; tsplit; split; cbn [rs_span rs_kind]; try sp.
  - eapply sep_wf; [eauto|apply range_wf|eauto|sp].
  - eapply sep_wf; [eauto|apply idstr_wf|eauto|sp].
Qed.
Lemma reserved_size ts r : g_reserved ts r -> res_size r <= len ts.
Proof.
  destruct 1 as [st ts l e c H _|st ts l e c H _]; cbn [res_size rs_kind]; rewrite !len_app.
  - apply sep_len in H; [|apply range_ne]. lia.
  - apply sep_len in H; [|apply idstr_ne]. lia.
Qed.
Lemma extensions_wf k ts x lo hi : g_extensions k ts x -> tok_in lo hi ts -> hi <= n -> wf_extension n x.
Proof.
  destruct 1 as [st ts l os o e c H1 H2 _ _]; intros T Hn. tsplit. split; [cbn [ex_span]; sp|]. cbn [ex_ranges ex_options]. split.
  - eapply sep_wf; [eauto|apply range_wf|eauto|sp].
  - eapply opt_options_wf; eauto. sp.
Qed.
Lemma extensions_size k ts x : g_extensions k ts x -> len (ex_ranges x) <= len ts.
Proof. destruct 1 as [st ts l os o e c H1 H2 _ _]. cbn [ex_ranges]. rewrite !len_app. apply sep_len in H1; [|apply range_ne]. lia. Qed.

(** Components picked out of a list of elements. *)
Lemma pick_wf {A C} (item : list tk -> A -> Prop) (f : A -> list C) (Q : C -> Prop) ts l lo hi :
  g_many item ts l -> (forall ts a lo hi, item ts a -> tok_in lo hi ts -> hi <= n -> Forall Q (f a)) ->
  tok_in lo hi ts -> hi <= n -> Forall Q (flat_map f l).
Proof. intros H F T Hn. apply Forall_flat_map. eapply many_wf; eauto. Qed.
Ltac one := match goal with
  | |- Forall _ [] => constructor
  | |- Forall _ [_] => constructor; [|constructor]
  end.
Ltac cnt := cbn [total fold_right]; rewrite ?len_cons, ?len_app;
  repeat match goal with |- context [@len ?A []] => change (@len A []) with 0 | |- context [len (sym ?t ?s)] => change (len (sym t s)) with 1 end; try lia.

Lemma option_ne k ts o : g_option k ts o -> 1 <= len ts.
Proof. destruct 1. cnt. Qed.

Lemma options_wf {A} (item : list tk -> A -> Prop) (f : A -> list option_) k ts l lo hi :
  g_many item ts l -> (forall ts a, item ts a -> f a = [] \/ exists o, f a = [o] /\ g_option k ts o) ->
  tok_in lo hi ts -> hi <= n -> wf_options n (flat_map f l).
Proof.
  intros H F T Hn. split.
  - eapply pick_wf; eauto. intros us a lo' hi' Ha T' Hn'. destruct (F _ _ Ha) as [E|(o & E & G)]; rewrite E; one. eapply option_wf; eauto.
  - transitivity (len ts); [|sp]. eapply many_len; eauto. intros us a Ha. destruct (F _ _ Ha) as [E|(o & E & G)]; rewrite E; cnt. apply option_ne in G. lia.
Qed.
Lemma reserveds_wf {A} (item : list tk -> A -> Prop) (f : A -> list reserved) ts l lo hi :
  g_many item ts l -> (forall ts a, item ts a -> f a = [] \/ exists o, f a = [o] /\ g_reserved ts o) ->
  tok_in lo hi ts -> hi <= n -> wf_reserveds n (flat_map f l).
Proof.
  intros H F T Hn. split.
  - eapply pick_wf; eauto. intros us a lo' hi' Ha T' Hn'. destruct (F _ _ Ha) as [E|(o & E & G)]; rewrite E; one. eapply reserved_wf; eauto.
  - transitivity (len ts); [|sp]. eapply many_total; eauto. intros us a Ha. destruct (F _ _ Ha) as [E|(o & E & G)]; rewrite E; cnt. apply reserved_size in G. lia.
Qed.

(** ** Enums and services *)
Lemma enum_value_wf k ts v lo hi : g_enum_value k ts v -> tok_in lo hi ts -> hi <= n -> wf_enum_value n v.
Proof.
  destruct 1 as [v s0 s ts i os o e c _ _ H1 H2 _]; intros T Hn. tsplit. unfold wf_enum_value. cbn [ev_span ev_name id_span ev_number ev_options].
  intin H1. repeat split; try sp. eapply opt_options_wf; eauto. sp.
Qed.
Lemma enum_wf k ts x lo hi : g_enum k ts x -> tok_in lo hi ts -> hi <= n -> wf_enum n x.
Proof.
  destruct 1 as [st v s0 s es l e c H _]; intros T Hn. tsplit. unfold wf_enum. cbn [en_span en_name id_span en_values en_reserved en_options].
  split; [sp|]. split; [sp|]. split; [|split; [|split]].
  - eapply pick_wf; eauto; [|sp]. intros us a lo' hi' Ha T' Hn'. destruct Ha; one. eapply enum_value_wf; eauto.
  - transitivity (len es); [|sp]. eapply many_len; eauto. intros us a Ha. destruct Ha; cnt. destruct H0. cnt.
  - eapply reserveds_wf; eauto; [|sp]. intros us a Ha. destruct Ha; eauto.
  - eapply options_wf; eauto; [|sp]. intros us a Ha. destruct Ha; eauto.
Qed.
Lemma stream_wf ts o t lo hi : g_stream ts o t -> tok_in lo hi ts -> hi <= n -> wf_tname n t /\ wf_opt_span n o.
Proof. destruct 1; intros T Hn; cbn [wf_opt_span]; [split; auto; eapply tname_wf; eauto|]. tsplit. split; [eapply tname_wf; eauto|sp]. Qed.
Lemma method_wf k ts x lo hi : g_method k ts x -> tok_in lo hi ts -> hi <= n -> wf_method n x.
Proof.
  destruct 1 as [st v s0 p1 its cs it p2 r p3 ots ss ot p4 ets os e c H1 H2 H3 _]; intros T Hn. tsplit. unfold wf_method.
  cbn [me_span me_name id_span me_input me_output me_client me_server me_options].
  assert (E : wf_options n os /\ s_end st <= s_start e /\ s_start e < s_end e /\ s_end e <= hi).
  { inversion H3; subst; tsplit.
    - split; [|sp]. split; [constructor|cnt].
    - split; [|sp]. unfold somes. eapply options_wf; eauto; [|sp]. intros us a Ha. destruct Ha; eauto. }
  subin stream_wf H1. subin stream_wf H2.
  destruct E. split; [sp|]. split; [sp|]. auto 10.
Qed.
Lemma service_wf k ts x lo hi : g_service k ts x -> tok_in lo hi ts -> hi <= n -> wf_service n x.
Proof.
  destruct 1 as [st v s0 s es l e c H _]; intros T Hn. tsplit. unfold wf_service. cbn [sv_span sv_name id_span sv_methods sv_options].
  split; [sp|]. split; [sp|]. split; [|split].
  - eapply pick_wf; eauto; [|sp]. intros us a lo' hi' Ha T' Hn'. destruct Ha; one. eapply method_wf; eauto.
  - transitivity (len es); [|sp]. eapply many_len; eauto. intros us a Ha. destruct Ha; cnt. destruct H0. cnt.
  - eapply options_wf; eauto; [|sp]. intros us a Ha. destruct Ha; eauto.
Qed.

(** ** Messages *)
Lemma ftype_wf ts t s lo hi : g_field_type ts (t, s) -> tok_in lo hi ts -> hi <= n -> wf_ty n t /\ sok s.
Proof.
  intros H T Hn. inversion H; subst.
  - tsplit. split; [|sp]. match goal with H : In _ scalar_names |- _ => cbn in H; repeat (destruct H as [H|H]; [injection H as <- <-; exact I|]); destruct H end.
  - split; [cbn [wf_ty]; eapply tname_wf; eauto|]. match goal with G : g_type_name _ _ |- _ => destruct (tok_in_ends _ _ _ T (proj1 (tname_ne _ _ G))) end. sp.
Qed.
Section WithBody.
Variable k : cfg.
Variable gb : list tk -> body * span -> Prop.
Variable wb : body -> Prop.
Hypothesis body_ok : forall ts bd e lo hi, gb ts (bd, e) -> tok_in lo hi ts -> hi <= n -> wb bd /\ lo <= s_start e /\ s_start e < s_end e /\ s_end e <= hi.

Lemma field_rest_wf start label ts f lo hi : g_field_rest k gb start label ts f -> tok_in lo hi ts -> hi <= n ->
  s_start start <= lo -> match label with Some (_, s) => sok s | None => True end -> wf_field n wb f.
Proof.
  intros H. destruct H as [ts t tsp s1 v s2 ts' i os o e c _ H1 H2 H3 _|m0 m1 kts kt ksp m2 vts vt vsp m3 v s1 s2 ts' i os o e c H0 H1 H2 H3 _|m0 v s1 s2 ts' i os o s3 bts bd e c Hg H1 H2 H3 _];
    intros T Hn Hs Hl; tsplit; unfold wf_field; cbn [fd_span fd_name id_span fd_number fd_kind fd_options fd_label wf_kind].
  - intin H2. subin ftype_wf H1.
    assert (wf_optlist n o) by (eapply opt_options_wf; eauto; sp). repeat split; auto; sp.
  - intin H2.
    subin ftype_wf H0. subin ftype_wf H1.
    assert (wf_optlist n o) by (eapply opt_options_wf; eauto; sp). repeat split; auto; sp.
  - intin H1.
    match goal with T : tok_in _ _ bts |- _ => edestruct (body_ok _ _ _ _ _ H3 T) as [Hb He]; [sp|] end.
    assert (wf_optlist n o) by (eapply opt_options_wf; eauto; sp). repeat split; auto; sp.
Qed.
Lemma field_rest_ne start label ts f : g_field_rest k gb start label ts f -> 1 <= len ts.
Proof. destruct 1; cnt. Qed.
Lemma field_ne ts f : g_field k gb ts f -> 1 <= len ts.
Proof. destruct 1 as [ls label ts f H1 H2 H3]. apply field_rest_ne in H3. cnt. Qed.
Lemma field_wf ts f lo hi : g_field k gb ts f -> tok_in lo hi ts -> hi <= n -> wf_field n wb f.
Proof.
  destruct 1 as [ls label ts f H1 H2 H3]. intros T Hn. pose proof (field_rest_ne _ _ _ _ H3) as H. tsplit. destruct H1; cbn [app] in *.
  - destruct ts as [|x ts]; [revert H; cnt|]. eapply (field_rest_wf _ _ _ _ (s_start (tk_span x))); eauto; cbn [first_span]; [|lia|exact I].
    cbn [tok_in] in *. split; [lia|]. tauto.
  - eapply field_rest_wf; eauto; tsplit; [|sp]. unfold sym, tk_span; cbn [app first_span fst snd]. change (s_start sp <= m). lia.
Qed.
Lemma somes_fields (item : list tk -> option field -> Prop) ts l lo hi :
  g_many item ts l -> (forall ts a, item ts (Some a) -> g_field k gb ts a) -> tok_in lo hi ts -> hi <= n ->
  Forall (wf_field n wb) (somes l) /\ len (somes l) <= len ts.
Proof.
  intros H F T Hn. unfold somes. split.
  - eapply pick_wf; eauto. intros us a lo' hi' Ha T' Hn'. destruct a; one. eapply field_wf; eauto.
  - eapply many_len; eauto. intros us a Ha. destruct a; cnt. apply F in Ha. apply field_ne in Ha. lia.
Qed.
Lemma extend_wf ts x lo hi : g_extend k gb ts x -> tok_in lo hi ts -> hi <= n -> wf_extend n wb x.
Proof.
  destruct 1 as [st ts t s es l e c H1 H2 _]; intros T Hn. tsplit. unfold wf_extend. cbn [et_span et_extendee et_fields]. split; [sp|]. split.
  - eapply tname_wf; eauto. sp.
  - match goal with T : tok_in _ _ es |- _ => eapply (proj1 (somes_fields _ _ _ _ _ H2 (fun ts a Ha => ltac:(inversion Ha; auto)) T ltac:(sp))) end.
Qed.
Lemma extend_size ts x : g_extend k gb ts x -> 1 + len (et_fields x) <= len ts.
Proof.
  destruct 1 as [st ts t s es l e c H1 H2 _]. cbn [et_fields]. cnt. apply tname_ne in H1. unfold somes.
  pose proof (many_len _ (fun o : option field => match o with Some x => [x] | None => [] end) _ _ H2) as E. cbv beta in E.
  assert (len (flat_map (fun o : option field => match o with Some x => [x] | None => [] end) l) <= len es).
  { apply E. intros us a Ha. destruct Ha; cnt. apply field_ne in H. lia. }
  lia.
Qed.
Lemma oneof_wf ts x lo hi : g_oneof k gb ts x -> tok_in lo hi ts -> hi <= n -> wf_oneof n wb x.
Proof.
  destruct 1 as [st v s0 s es l e c H _]; intros T Hn. tsplit. unfold wf_oneof. cbn [oo_span oo_name id_span oo_options oo_fields]. split; [sp|]. split; [sp|]. split.
  - eapply options_wf; eauto; [|sp]. intros us a Ha. destruct Ha; eauto.
  - eapply pick_wf; eauto; [|sp]. intros us a lo' hi' Ha T' Hn'. destruct Ha; one. eapply field_wf; eauto.
Qed.
Lemma oneof_size ts x : g_oneof k gb ts x -> 1 + len (oo_fields x) <= len ts.
Proof.
  destruct 1 as [st v s0 s es l e c H _]. cbn [oo_fields]. cnt.
  assert (len (flat_map (fun x : oneof_elem => match x with OEField f => [f] | _ => [] end) l) <= len es).
  { eapply many_len; eauto. intros us a Ha. destruct Ha; cnt. apply field_ne in H1. lia. }
  lia.
Qed.
Lemma message_wf ts x lo hi : g_message gb ts x -> tok_in lo hi ts -> hi <= n -> wf_message n wb x.
Proof.
  destruct 1 as [st v s0 s ts bd e c H _]; intros T Hn. tsplit. unfold wf_message. cbn [ms_span ms_name id_span ms_body].
  match goal with T : tok_in _ _ ts |- _ => edestruct (body_ok _ _ _ _ _ H T) as [Hb He]; [sp|] end. repeat split; auto; sp.
Qed.
Lemma item_wf ts x lo hi : g_body_elem k gb ts x -> tok_in lo hi ts -> hi <= n -> Forall (wf_item n wb) (be_item x) /\ total weight (be_item x) <= len ts.
Proof.
  destruct 1 as [s|ts x H|ts x H|ts x H|ts x H|ts x H|ts x H|ts x H|ts x _ H]; intros T Hn; cbn [be_item total fold_right]; (split; [one; cbn [wf_item]|cbn [weight]]); try lia.
  - eapply oneof_wf; eauto.
  - apply oneof_size in H. lia.
  - eapply enum_wf; eauto.
  - destruct H. cnt.
  - eapply message_wf; eauto.
  - destruct H. cnt.
  - eapply extend_wf; eauto.
  - apply extend_size in H. lia.
  - eapply field_wf; eauto.
  - apply field_ne in H. lia.
Qed.
Lemma item_size ts x : g_body_elem k gb ts x -> total weight (be_item x) <= len ts.
Proof.
  destruct 1 as [s|ts x H|ts x H|ts x H|ts x H|ts x H|ts x H|ts x H|ts x _ H]; cbn [be_item total fold_right weight]; try lia.
  - apply oneof_size in H. lia.
  - destruct H. cnt.
  - destruct H. cnt.
  - apply extend_size in H. lia.
  - apply field_ne in H. lia.
Qed.
End WithBody.

Lemma body_wf_n k d ts bd e lo hi : g_body_n k d ts (bd, e) -> tok_in lo hi ts -> hi <= n ->
  wf_body_n n d bd /\ lo <= s_start e /\ s_start e < s_end e /\ s_end e <= hi.
Proof.
  revert ts bd e lo hi. induction d as [|d IH]; intros ts bd e lo hi H T Hn; [destruct H|].
  destruct H as (es & l & H & -> & E). cbn [fst snd] in *. subst bd. tsplit. split; [|sp]. cbn [wf_body_n bd_items bd_extensions bd_options bd_reserved].
  assert (Hm : m <= n) by sp. split; [|split; [|split; [|split]]].
  - eapply pick_wf; eauto. intros us a lo' hi' Ha T' Hn'. eapply item_wf; eauto.
  - transitivity (len es); [|sp]. eapply many_total; eauto. intros us a Ha. eapply item_size; eauto.
  - split.
    + eapply pick_wf; eauto. intros us a lo' hi' Ha T' Hn'. destruct Ha; cbn [be_extensions]; one. eapply extensions_wf; eauto.
    + transitivity (len es); [|sp]. eapply many_total; eauto. intros us a Ha. destruct Ha; cbn [be_extensions]; cnt. apply extensions_size in H0. lia.
  - eapply options_wf; eauto. intros us a Ha. destruct Ha; cbn [be_option]; eauto.
  - eapply reserveds_wf; eauto. intros us a Ha. destruct Ha; cbn [be_reserved]; eauto.
Qed.
Lemma body_wf k ts bd e lo hi : g_body k ts (bd, e) -> tok_in lo hi ts -> hi <= n ->
  wf_body n bd /\ lo <= s_start e /\ s_start e < s_end e /\ s_end e <= hi.
Proof. intros [d H] T Hn. destruct (body_wf_n _ _ _ _ _ _ _ H T Hn). split; auto. exists d. auto. Qed.

(** ** Files *)
Lemma utf8_in ts v s : g_utf8_string ts (v, s) -> forall lo hi, tok_in lo hi ts -> lo <= s_start s /\ s_start s < s_end s /\ s_end s <= hi.
Proof. inversion 1; subst. eapply str_in; eauto. Qed.
Lemma import_wf ts x lo hi : g_import ts x -> tok_in lo hi ts -> hi <= n -> wf_import n x.
Proof. destruct 1 as [st ks ik ts v vs e c H1 H2 H3 _]; intros T Hn. tsplit. split; cbn [im_span im_kind]; [sp|]. destruct H1; auto; tsplit; sp. Qed.
Lemma file_wf k ts f lo : g_file k n ts f -> tok_in lo n ts -> wf_file n f.
Proof.
  destruct 1 as [ss sx sxs ts l pkg H1 H2 H3]. intros T. unfold wf_file. cbn [fi_span fi_syntax_span fi_package fi_imports fi_options fi_items].
  assert (Hspan : sok match ss ++ ts with [] => (n, 0) | _ => join_span (first_span (ss ++ ts)) (last_span (ss ++ ts)) end
     \/ match ss ++ ts with [] => (n, 0) | _ => join_span (first_span (ss ++ ts)) (last_span (ss ++ ts)) end = (n, 0)).
  { destruct (ss ++ ts) eqn:E; [right; auto|]. left. rewrite <- E in *. destruct (tok_in_ends _ _ _ T); [rewrite E; discriminate|]. sp. }
  split; [exact Hspan|]. clear Hspan. tsplit. split; [|split; [|split; [|split; [|split; [|split]]]]].
  - destruct H1; auto. tsplit. sp.
  - destruct pkg as [p|]; auto. assert (In p (flat_map st_packages l)) by (rewrite H3; now left).
    assert (F : Forall (fun p => sok (pk_span p) /\ pk_name p <> []) (flat_map st_packages l)).
    { eapply pick_wf; eauto; [|sp]. intros us a lo' hi' Ha T' Hn'. destruct Ha; cbn [st_packages]; one. destruct H0. tsplit. cbn [pk_span pk_name]. split; [sp|].
      apply (sep_ne _ _ _ _ H0 ident_ne). }
    rewrite Forall_forall in F. auto.
  - eapply pick_wf; eauto; [|sp]. intros us a lo' hi' Ha T' Hn'. destruct Ha; cbn [st_imports]; one. eapply import_wf; eauto.
  - transitivity (len ts); [|sp]. eapply many_len; eauto. intros us a Ha. destruct Ha; cbn [st_imports]; cnt. destruct H. cnt.
  - eapply options_wf; eauto; [|sp]. intros us a Ha. destruct Ha; cbn [st_options]; eauto.
  - eapply pick_wf; eauto; [|sp]. intros us a lo' hi' Ha T' Hn'. destruct Ha; cbn [st_items]; one; cbn [wf_fitem].
    + eapply message_wf; eauto. intros; eapply body_wf; eauto.
    + eapply enum_wf; eauto.
    + eapply service_wf; eauto.
    + eapply extend_wf; eauto. intros; eapply body_wf; eauto.
  - transitivity (len ts); [|sp]. eapply many_total; eauto. intros us a Ha. destruct Ha; cbn [st_items total fold_right fweight]; try lia.
    + destruct H. cnt.
    + destruct H. cnt.
    + destruct H. cnt.
    + apply (extend_size _ _ _ (body_wf k)) in H. lia.
Qed.
End N.

Lemma accepted_wf k src f : accepted k src f -> wf_file (len src) f.
Proof.
  intros (ts & H & E & _). eapply file_wf; eauto. pose proof (stream_tiles k (lex_init src)) as T. cbn [lex_init l_end l_rest] in T.
  apply (tiles_tok _ _ _ T) in E; [exact E|]. unfold stream. match goal with |- context [lex_all k ?s0] => destruct (lex_all_total k s0) as (us & s1 & El) end. rewrite El. eapply lex_all_ok; eauto.
Qed.
