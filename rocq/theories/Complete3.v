(** Completeness of the parser: message bodies, services, files. *)
From Coq Require Import ZifyBool ZifyN.
From Verif Require Import Base SynSpec Utf8 Errors Lex LexSpec PropsLex1 LexSafe Stream Ast Comments Parse Grammar Utf8Spec Classify Walk WalkG1 WalkG3 Meaning Erase Complete1 Complete2.
Import Parse.

Section Complete.
Variable k : cfg.
Variable src : bytes.
Context {CS : comspec}.
Notation rem := (remg k src false).
Notation go m s Q := (wpe m s nope Q).
Notation complete := (complete k src).
Notation complete_lt := (complete_lt k src).
Notation erf := (er_field er_body).

Ltac see Hs := first [apply seen_cons in Hs; let sp := fresh "sp'" in destruct Hs as (sp & ->); cbn [tk_tok fst] in * | apply seen_nil in Hs; subst].
Ltac mk := repeat first [exact I | assumption | reflexivity | apply mark0_app | apply mark0_sym | apply mark0_nil
  | eapply mark0_ident; eassumption | eapply mark0_full; eassumption | eapply mark0_tname; eassumption | eapply mark0_int; eassumption
  | eapply mark0_string; eassumption | eapply mark0_utf8; eassumption | eapply mark0_option; eassumption
  | eapply mark0_oo; eassumption | eapply mark0_reserved; eassumption | eapply mark0_ext; eassumption
  | eapply mark0_fty; eassumption | eapply mark0_label; eassumption].
Ltac xp H := apply wpe_bind; eapply expect_go; [exact H|mk|].
Ltac bp H Hr := apply wpe_bind; eapply bump_go; [exact H|exact Hr|mk|].
Ltac jn E := cbn [fst snd flat_map app map be_item be_option be_reserved be_extensions] in *; rewrite ?map_app; cbn [map app er_item]; rewrite <- ?app_assoc; cbn [app]; rewrite ?E; auto.
(** Decide the tests on a known lookahead. *)
Ltac ats := repeat match goal with
  | |- context [at_ (Some (?t, ?sp)) ?x] => 
      first [change (at_ (Some (t, sp)) x) with true | change (at_ (Some (t, sp)) x) with false]; cbn match
  | |- context [at_dot_or_ident (Some (?t, ?sp))] => first [change (at_dot_or_ident (Some (t, sp))) with true|change (at_dot_or_ident (Some (t, sp))) with false]; cbn match
  end.

(** ** Message bodies *)
Lemma mark0_be (gb : list tk -> body * span -> Prop) ts a : (forall ts r, gb ts r -> mark0 ts) -> g_body_elem k gb ts a -> mark0 ts.
Proof.
  intros Hb. destruct 1; [reflexivity|eapply mark0_oneof; eauto|eapply mark0_enum; eauto|eapply mark0_message; eauto|eapply mark0_extend; eauto|eapply mark0_option; eauto|eapply mark0_reserved; eauto|eapply mark0_ext; eauto|eapply mark0_field; eauto].
Qed.
Lemma mark0_body n ts r : g_body_n k n ts r -> mark0 ts.
Proof.
  revert ts r. induction n as [|n IH]; intros ts r; cbn [g_body_n]; [tauto|]. intros (es & l & G & -> & _). apply mark0_app; [|reflexivity].
  eapply mark0_many; [|exact G]. intros. eapply mark0_be; eauto.
Qed.

Definition bj (l0 l : list body_elem) (acc : list mitem * list extensions * list option_ * list reserved) : Prop :=
  let '(items, exts, opts, res) := acc in
  map (er_item er_body) items ++ map (er_item er_body) (flat_map be_item l) = map (er_item er_body) (flat_map be_item l0) /\
  map er_extensions exts ++ map er_extensions (flat_map be_extensions l) = map er_extensions (flat_map be_extensions l0) /\
  map er_option opts ++ map er_option (flat_map be_option l) = map er_option (flat_map be_option l0) /\
  map er_reserved res ++ map er_reserved (flat_map be_reserved l) = map er_reserved (flat_map be_reserved l0).

Lemma body_go : forall fuel n, complete_lt fuel er_b (g_body_n k n) (parse_message_body k fuel).
Proof.
  induction fuel as [|fuel IH]; intros n ts a us s Q G Hm HN H HQ; [lia|]. destruct n as [|n]; cbn [g_body_n] in G; [contradiction|].
  destruct G as (es & l & G & -> & Ea). destruct a as [bd e]. cbn [fst snd] in *. subst bd. rewrite <- app_assoc in H. cbn [parse_message_body]. apply wpe_bind.
  specialize (IH n). pose proof (mark0_body n) as Mb.
  eapply (many_loop _ _ _ _ (fun acc rest => bj l rest acc) (fun _ => any) _ s); [exact G| |intros; exact I|intros ? ?; apply mark0_be; exact Mb|intros; exact I| | | |exact H|lia].
  - mk.
  - intros [[[items exts] opts] res] x rest ts0 us' s5 Gx (J1 & J2 & J3 & J4) Hm' _ H5 M5. apply wpe_bind. eapply peek_go; [exact H5|]. intros r s6 H6 Hr Hs M6.
    destruct Gx as [sp1|ts0 o Go|ts0 o Go|ts0 o Go|ts0 o Go|ts0 o Go|ts0 o Go|ts0 o Go|ts0 f Hn Gf].
    + see Hs. ats. bp H6 Hr. intros s7 H7 _ M7. apply wpe_ret. split; [repeat split; assumption|]. split; [exact H7|lia].
    + assert (Hd : exists sp, r = Some (kw "oneof", sp)) by (destruct Go; see Hs; eauto). destruct Hd as (sp1 & ->). ats.
      apply wpe_bind. eapply (oneof_go k src fuel); [exact IH|exact Mb|exact Go|exact Hm'|lia|exact H6|]. intros o' s7 E7 H7 M7. apply wpe_ret. split; [|split; [exact H7|lia]]. repeat split; jn E7.
    + assert (Hd : exists sp, r = Some (kw "enum", sp)) by (destruct Go; see Hs; eauto). destruct Hd as (sp1 & ->). ats.
      apply wpe_bind. eapply (enum_go k src); [exact Go|exact I|exact Hm'|exact H6|]. intros o' s7 E7 H7 M7. apply wpe_ret. split; [|split; [exact H7|lia]]. repeat split; jn E7.
    + assert (Hd : exists sp, r = Some (kw "message", sp)) by (destruct Go; see Hs; eauto). destruct Hd as (sp1 & ->). ats.
      apply wpe_bind. eapply (message_go k src fuel); [exact IH|exact Mb|exact Go|exact Hm'|lia|exact H6|]. intros o' s7 E7 H7 M7. apply wpe_ret. split; [|split; [exact H7|lia]]. repeat split; jn E7.
    + assert (Hd : exists sp, r = Some (kw "extend", sp)) by (destruct Go; see Hs; eauto). destruct Hd as (sp1 & ->). ats.
      apply wpe_bind. eapply (extend_go k src fuel); [exact IH|exact Mb|exact Go|exact Hm'|lia|exact H6|]. intros o' s7 E7 H7 M7. apply wpe_ret. split; [|split; [exact H7|lia]]. repeat split; jn E7.
    + destruct (option_first _ _ _ _ _ Go Hs) as (sp1 & ->). ats.
      apply wpe_bind. eapply option_go; [exact Go| | |exact H6|]; [exact I|exact Hm'|]. intros o' s7 E7 H7 M7. apply wpe_ret. split; [|split; [exact H7|lia]]. repeat split; jn E7.
    + assert (Hd : exists sp, r = Some (kw "reserved", sp)) by (destruct Go; rewrite <- !app_assoc in Hs; see Hs; eauto). destruct Hd as (sp1 & ->). ats.
      apply wpe_bind. eapply reserved_go; [exact Go| | |exact H6|]; [exact I|exact Hm'|]. intros o' s7 E7 H7 M7. apply wpe_ret. split; [|split; [exact H7|lia]]. repeat split; jn E7.
    + assert (Hd : exists sp, r = Some (kw "extensions", sp)) by (destruct Go; see Hs; eauto). destruct Hd as (sp1 & ->). ats.
      apply wpe_bind. eapply extensions_go; [exact Go| | |exact H6|]; [exact I|exact Hm'|]. intros o' s7 E7 H7 M7. apply wpe_ret. split; [|split; [exact H7|lia]]. repeat split; jn E7.
    + destruct (field_first _ _ _ _ _ _ Gf Hs) as (t & sp1 & -> & Hf & Ht).
      do 7 (erewrite (not_kw_at _ _ _ _ _ Hn Hf Ht) by (cbn; tauto)). 
      replace (at_dot_or_ident (Some (t, sp1))) with true by (destruct Ht as [->|(v & ->)]; reflexivity).
      apply wpe_bind. eapply (field_go k src fuel); [exact IH|exact Mb|exact Gf|exact Hm'|lia|exact H6|]. intros f' s7 E7 H7 M7. apply wpe_ret. split; [|split; [exact H7|lia]]. repeat split; jn E7.
  - intros [[[items exts] opts] res] s5 (J1 & J2 & J3 & J4) H5 M5. apply wpe_bind. eapply peek_go; [exact H5|]. intros r s6 H6 Hr Hs M6. see Hs. ats.
    bp H6 Hr. intros s7 H7 _ M7. apply wpe_ret, wpe_ret, HQ; [|exact H7|lia]. unfold er_b. cbn [fst er_body flat_map map] in *. rewrite app_nil_r in J1, J2, J3, J4. now rewrite J1, J2, J3, J4.
  - repeat split; reflexivity.
Qed.

(** ** Services *)
Lemma stream_go ts st t us s (Q : _ -> pst -> Prop) : g_stream ts st t -> mark0 us -> rem (ts ++ us) s ->
  (forall st' s' ts', er_ospan st' = er_ospan st -> g_type_name ts' t -> rem (ts' ++ us) s' -> (measure s' <= measure s)%nat -> Q st' s') -> go (parse_stream k) s Q.
Proof.
  intros G Hm H HQ. unfold parse_stream. apply wpe_bind. eapply skip_go; [exact H|]. intros r s1 H1 Hr Hs M1. destruct G as [ts t G Hn|sp ts t G].
  - destruct (tname_first _ _ _ _ G Hs) as (t0 & sp0 & -> & Hf & Ht). rewrite (not_kw_at _ _ _ sp0 "stream" Hn Hf Ht) by (cbn; auto).
    replace (at_dot_or_ident (Some (t0, sp0))) with true by (destruct Ht as [->|(v & ->)]; reflexivity). apply wpe_ret. eapply HQ; [reflexivity|exact G|exact H1|exact M1].
  - rewrite <- app_assoc in *. see Hs. ats. bp H1 Hr. intros s2 H2 _ M2. apply wpe_ret. eapply HQ; [reflexivity|exact G|exact H2|lia].
Qed.
Lemma mark0_stream ts st t : g_stream ts st t -> mark0 ts.
Proof. destruct 1; [eapply mark0_tname; eauto|reflexivity]. Qed.
Lemma mark0_rpc_elem ts o : g_rpc_elem k ts o -> mark0 ts.
Proof. destruct 1; [reflexivity|eapply mark0_option; eauto]. Qed.
Lemma rpc_end_go : complete (fun x => map er_option (fst x)) (g_rpc_end k) any (parse_rpc_end k).
Proof.
  intros ts a us s Q G _ Hm H HQ. unfold parse_rpc_end. apply wpe_bind. eapply skip_go; [exact H|]. intros r s1 H1 Hr Hs M1. destruct G as [sp|sp es l e G].
  - see Hs. bp H1 Hr. intros s2 H2 _ M2. apply wpe_ret, HQ; [reflexivity|exact H2|lia].
  - rewrite <- !app_assoc in *. see Hs. apply wpe_bind. eapply bump_go; [exact H1|exact Hr| |]; [apply mark0_app; [eapply mark0_many; [apply mark0_rpc_elem|exact G]|reflexivity]|]. intros s2 H2 _ M2.
    eapply (many_loop _ _ _ _ (fun acc rest => map er_option acc ++ map er_option (somes rest) = map er_option (somes l)) (fun _ => any) _ s2); [exact G| |intros; exact I|apply mark0_rpc_elem|intros; exact I| | | |exact H2|lia].
    + mk.
    + intros acc x rest ts0 us' s5 Gx HJ Hm' _ H5 M5. apply wpe_bind. eapply peek_go; [exact H5|]. intros r s6 H6 Hr6 Hs M6. rewrite somes_cons in HJ. destruct Gx as [sp0|ts0 o Go].
      * see Hs. ats. bp H6 Hr6. intros s7 H7 _ M7. apply wpe_ret. split; [exact HJ|]. split; [exact H7|lia].
      * destruct (option_first _ _ _ _ _ Go Hs) as (sp1 & ->). ats. apply wpe_bind. eapply option_go; [exact Go| | |exact H6|]; [exact I|exact Hm'|]. intros o' s7 E7 H7 M7. apply wpe_ret. split; [jn E7|]. split; [exact H7|lia].
    + intros acc s5 HJ H5 M5. apply wpe_bind. eapply peek_go; [exact H5|]. intros r s6 H6 Hr6 Hs M6. see Hs. ats. bp H6 Hr6. intros s7 H7 _ M7. apply wpe_ret, HQ; [|exact H7|lia]. cbn in *. rewrite app_nil_r in HJ. exact HJ.
    + reflexivity.
Qed.
Lemma mark0_rpc_end ts o : g_rpc_end k ts o -> mark0 ts.
Proof. now destruct 1. Qed.
Lemma method_go : complete er_method (g_method k) any (parse_service_rpc k).
Proof.
  intros ts a us s Q G _ Hm H HQ. destruct G as [st v sp0 p1 its cs it p2 r0 p3 ots ss ot p4 ets os e c G1 G2 G3 _]. rewrite <- !app_assoc in H. unfold parse_service_rpc. apply wpe_bind. eapply lead_go; [exact H|]. intros lead s0 H0 M0.
  pose proof (mark0_stream _ _ _ G1) as K1. pose proof (mark0_stream _ _ _ G2) as K2. pose proof (mark0_rpc_end _ _ G3) as K3.
  xp H0. intros st' s1 H1 M1. apply wpe_bind. eapply ident_go; [constructor|exact I| |exact H1|]; [mk|]. intros n' s2 E2 H2 M2.
  xp H2. intros p1' s3 H3 M3. apply wpe_bind. eapply stream_go; [exact G1| |exact H3|]; [mk|]. intros cs' s4 its' E4 Gt4 H4 M4.
  apply wpe_bind. eapply tname_go; [exact Gt4| | |exact H4|]; [apply follows_tok; discriminate|mk|]. intros it' s5 E5 H5 M5.
  xp H5. intros p2' s6 H6 M6. xp H6. intros r' s7 H7 M7. xp H7. intros p3' s8 H8 M8.
  apply wpe_bind. eapply stream_go; [exact G2| |exact H8|]; [mk|]. intros ss' s9 ots' E9 Gt9 H9 M9.
  apply wpe_bind. eapply tname_go; [exact Gt9| | |exact H9|]; [apply follows_tok; discriminate|mk|]. intros ot' s10 E10 H10 M10.
  xp H10. intros p4' s11 H11 M11. apply wpe_bind. eapply rpc_end_go; [exact G3| | |exact H11|]; [exact I|exact Hm|]. intros [os' e'] s12 E12 H12 M12.
  apply wpe_bind. eapply trail_go; [exact H12|]. intros c' s13 H13 M13. apply wpe_ret, HQ; [|exact H13|lia]. unfold er_method. cbn in *. now rewrite E2, E4, E5, E9, E10, E12.
Qed.
Definition se_opt (x : service_elem) := match x with SEOption o => [o] | _ => [] end.
Definition se_met (x : service_elem) := match x with SEMethod o => [o] | _ => [] end.
Lemma mark0_se ts a : g_service_elem k ts a -> mark0 ts.
Proof. destruct 1 as [|? ? G|? ? G]; [reflexivity|eapply mark0_option; eauto|now destruct G]. Qed.
Lemma service_go : complete er_service (g_service k) any (parse_service k).
Proof.
  intros ts a us s Q G _ Hm H HQ. destruct G as [st v sp0 sp es l e c G2 _]. rewrite <- !app_assoc in H. unfold parse_service. apply wpe_bind. eapply lead_go; [exact H|]. intros lead s0 H0 M0.
  xp H0. intros st' s1 H1 M1. apply wpe_bind. eapply ident_go; [constructor|exact I| |exact H1|]; [mk|]. intros n' s2 E2 H2 M2.
  apply wpe_bind. eapply expect_go; [exact H2| |]; [apply mark0_app; [eapply mark0_many; [apply mark0_se|exact G2]|reflexivity]|]. intros b' s3 H3 M3.
  apply wpe_bind. eapply trail_go; [exact H3|]. intros c' s4 H4 M4. apply wpe_bind. fold se_opt se_met in *.
  eapply (many_loop _ _ _ _ (fun acc rest => map er_option (fst acc) ++ map er_option (flat_map se_opt rest) = map er_option (flat_map se_opt l) /\ map er_method (snd acc) ++ map er_method (flat_map se_met rest) = map er_method (flat_map se_met l))
    (fun _ => any) _ s4); [exact G2| |intros; exact I|apply mark0_se|intros; exact I| | | |exact H4|lia].
  - mk.
  - intros [os ms] x rest ts0 us' s5 Gx [J1 J2] Hm' _ H5 M5. apply wpe_bind. eapply peek_go; [exact H5|]. intros r s6 H6 Hr Hs M6. destruct Gx as [sp1|ts0 o Go|ts0 f Gf].
    + see Hs. ats. bp H6 Hr. intros s7 H7 _ M7. apply wpe_ret. split; [split; assumption|]. split; [exact H7|lia].
    + destruct (option_first _ _ _ _ _ Go Hs) as (sp1 & ->). ats. apply wpe_bind. eapply option_go; [exact Go| | |exact H6|]; [exact I|exact Hm'|]. intros o' s7 E7 H7 M7. apply wpe_ret. split; [|split; [exact H7|lia]]. split; jn E7.
    + assert (Hd : exists sp, r = Some (kw "rpc", sp)) by (destruct Gf; see Hs; eauto). destruct Hd as (sp1 & ->). ats.
      apply wpe_bind. eapply method_go; [exact Gf| | |exact H6|]; [exact I|exact Hm'|]. intros f' s7 E7 H7 M7. apply wpe_ret. split; [|split; [exact H7|lia]]. split; jn E7.
  - intros [os ms] s5 [J1 J2] H5 M5. apply wpe_bind. eapply peek_go; [exact H5|]. intros r s6 H6 Hr Hs M6. see Hs. ats.
    bp H6 Hr. intros s7 H7 _ M7. apply wpe_ret, wpe_ret, HQ; [|exact H7|lia]. unfold er_service. cbn in *. rewrite app_nil_r in J1, J2. now rewrite E2, J1, J2.
  - split; reflexivity.
Qed.

(** ** Files *)
Lemma package_go : complete er_package g_package any (parse_package k).
Proof.
  intros ts a us s Q G _ Hm H HQ. destruct G as [st ts n e c G _]. rewrite <- !app_assoc in H. unfold parse_package. apply wpe_bind. eapply lead_go; [exact H|]. intros lead s0 H0 M0.
  xp H0. intros st' s1 H1 M1. apply wpe_bind. eapply full_go; [exact G| | |exact H1|]; [apply follows_tok; discriminate|mk|]. intros n' s2 E2 H2 M2. xp H2. intros e' s3 H3 M3.
  apply wpe_bind. eapply trail_go; [exact H3|]. intros c' s4 H4 M4. apply wpe_ret, HQ; [|exact H4|lia]. unfold er_package. cbn [pk_name]. now rewrite E2.
Qed.
Lemma import_go : complete er_import g_import any (parse_import k).
Proof.
  intros ts a us s Q G _ Hm H HQ. destruct G as [st ks ik ts v vsp e c G1 G2 Hv _]. rewrite <- !app_assoc in H. unfold parse_import. apply wpe_bind. eapply lead_go; [exact H|]. intros lead s0 H0 M0.
  assert (K1 : mark0 ks) by (destruct G1; reflexivity). xp H0. intros st' s1 H1 M1. apply wpe_bind.
  assert (Hrest : forall ik' s2, option_map (fun x : import_kind * span => (fst x, no_span)) ik' = option_map (fun x : import_kind * span => (fst x, no_span)) ik -> rem (ts ++ sym TSemicolon e ++ us) s2 -> (measure s2 < measure s)%nat ->
    go (' (v, vs) <- parse_utf8_string k ;; (if is_valid_import v then ret tt else add_error (InvalidImport vs)) ;;; e <- expect_eq k TSemicolon ;; c <- parse_trailing_comment k lead ;;
        ret {| im_kind := ik'; im_value := v; im_value_span := vs; im_comments := c; im_span := join_span st' e |}) s2 Q).
  { intros ik' s2 Ek H2 M2. apply wpe_bind. eapply utf8_go; [exact G2| | |exact H2|]; [apply no_string_sym; discriminate|mk|]. intros [v' vs'] s3 E3 H3 M3. cbn [fst] in E3. subst v'.
    apply valid_import_iff in Hv. rewrite Hv. apply wpe_bind, wpe_ret. xp H3. intros e' s4 H4 M4. apply wpe_bind. eapply trail_go; [exact H4|]. intros c' s5 H5 M5. apply wpe_ret, HQ; [|exact H5|lia].
    unfold er_import. cbn. now rewrite Ek. }
  unfold parse_import_kind. apply wpe_bind. eapply skip_go; [exact H1|]. intros r s2 H2 Hr Hs M2. destruct G1 as [|sp|sp]; cbn [app] in *.
  - assert (Hd : exists v0 sp, r = Some (TStr v0, sp)). { inversion G2 as [? x G' _]; subst. destruct G'; rewrite <- ?app_assoc in Hs; see Hs; eauto. } destruct Hd as (v0 & sp & ->). apply wpe_ret, Hrest; [reflexivity|exact H2|lia].
  - see Hs. change (token_eqb (kw "weak") (kw "weak")) with true. bp H2 Hr. intros s3 H3 _ M3. apply wpe_ret, Hrest; [reflexivity|exact H3|lia].
  - see Hs. change (token_eqb (kw "public") (kw "weak")) with false. change (token_eqb (kw "public") (kw "public")) with true. bp H2 Hr. intros s3 H3 _ M3. apply wpe_ret, Hrest; [reflexivity|exact H3|lia].
Qed.
Lemma syntax_go ts sx sxs us s (Q : _ -> pst -> Prop) : g_syntax ts sx sxs -> ts <> [] -> mark0 us -> rem (ts ++ us) s ->
  (forall x s', fst (fst x) = sx -> rem us s' -> (measure s' < measure s)%nat -> Q x s') -> go (parse_syntax k) s Q.
Proof.
  intros G Hne Hm H HQ. destruct G as [|st sp ts v e c sx G Ev _]; [congruence|]. rewrite <- !app_assoc in H. unfold parse_syntax. apply wpe_bind. eapply lead_go; [exact H|]. intros lead s0 H0 M0.
  xp H0. intros st' s1 H1 M1. xp H1. intros e1 s2 H2 M2. apply wpe_bind. eapply peek_go; [exact H2|]. intros r s3 H3 Hr Hs M3.
  assert (Hd : at_string r = true) by (destruct G; rewrite <- ?app_assoc in Hs; see Hs; reflexivity). rewrite Hd. apply wpe_bind, wpe_bind.
  eapply string_go; [exact G| | |exact H3|]; [apply no_string_sym; discriminate|mk|]. intros v' s4 E4 H4 M4. assert (E : st_val v' = syntax_text sx) by (unfold er_string in E4; congruence). rewrite E.
  assert (Hfin : go (e <- expect_eq k TSemicolon ;; c <- parse_trailing_comment k lead ;; ret (sx, join_span st' e, c)) s4 Q).
  { xp H4. intros e' s5 H5 M5. apply wpe_bind. eapply trail_go; [exact H5|]. intros c' s6 H6 M6. apply wpe_ret, HQ; [reflexivity|exact H6|lia]. }
  destruct sx; cbn [syntax_text].
  - change (bytes_eqb (b "proto2") (b "proto2")) with true. apply wpe_ret. exact Hfin.
  - change (bytes_eqb (b "proto3") (b "proto2")) with false. change (bytes_eqb (b "proto3") (b "proto3")) with true. apply wpe_ret. exact Hfin.
Qed.

Definition er_statement (s : statement) : statement :=
  match s with
  | StEmpty _ => StEmpty no_span | StPackage x => StPackage (er_package x) | StImport x => StImport (er_import x) | StOption x => StOption (er_option x)
  | StMessage x => StMessage (er_message er_body x) | StEnum x => StEnum (er_enum x) | StService x => StService (er_service x) | StExtend x => StExtend (er_extend er_body x)
  end.
Lemma mark0_bodies ts r : g_body k ts r -> mark0 ts.
Proof. intros (n & G). eapply mark0_body; eauto. Qed.
Lemma mark0_statement ts x : g_statement k ts x -> mark0 ts.
Proof.
  destruct 1 as [| ? ? G| ? ? G| ? ? G| ? ? G| ? ? G| ? ? G| ? ? G]; try (destruct G; reflexivity). reflexivity.
Qed.
Lemma bodies_go fuel : complete_lt fuel er_b (g_body k) (parse_message_body k fuel).
Proof. intros ts a us s Q (n & G). apply (body_go fuel n). exact G. Qed.
Lemma statement_go fuel ts x us s (Q : _ -> pst -> Prop) : g_statement k ts x -> mark0 us -> (measure s < S fuel)%nat -> rem (ts ++ us) s ->
  (forall x' s', er_statement x' = er_statement x -> rem us s' -> (measure s' < measure s)%nat -> Q (Some x') s') -> go (parse_statement k fuel) s Q.
Proof.
  intros G Hm HN H HQ. unfold parse_statement. apply wpe_bind. eapply peek_go; [exact H|]. intros r s6 H6 Hr Hs M6.
  destruct G as [sp1|ts0 o Go|ts0 o Go|ts0 o Go|ts0 o Go|ts0 o Go|ts0 o Go|ts0 o Go].
  - see Hs. change (token_eqb TSemicolon TSemicolon) with true. bp H6 Hr. intros s7 H7 _ M7. apply wpe_ret, HQ; [reflexivity|exact H7|lia].
  - assert (Hd : exists sp, r = Some (kw "package", sp)) by (destruct Go; see Hs; eauto). destruct Hd as (sp1 & ->). cbn match.
    change (token_eqb (kw "package") TSemicolon) with false. change (token_eqb (kw "package") (kw "import")) with false. change (token_eqb (kw "package") (kw "package")) with true. cbn match.
    apply wpe_bind. eapply package_go; [exact Go| | |exact H6|]; [exact I|exact Hm|]. intros o' s7 E7 H7 M7. apply wpe_ret, HQ; [cbn; now rewrite E7|exact H7|lia].
  - assert (Hd : exists sp, r = Some (kw "import", sp)) by (destruct Go; see Hs; eauto). destruct Hd as (sp1 & ->). cbn match.
    change (token_eqb (kw "import") TSemicolon) with false. change (token_eqb (kw "import") (kw "import")) with true. cbn match.
    apply wpe_bind. eapply import_go; [exact Go| | |exact H6|]; [exact I|exact Hm|]. intros o' s7 E7 H7 M7. apply wpe_ret, HQ; [cbn; now rewrite E7|exact H7|lia].
  - destruct (option_first _ _ _ _ _ Go Hs) as (sp1 & ->). cbn match.
    change (token_eqb (kw "option") TSemicolon) with false. change (token_eqb (kw "option") (kw "import")) with false. change (token_eqb (kw "option") (kw "package")) with false. change (token_eqb (kw "option") (kw "option")) with true. cbn match.
    apply wpe_bind. eapply option_go; [exact Go| | |exact H6|]; [exact I|exact Hm|]. intros o' s7 E7 H7 M7. apply wpe_ret, HQ; [cbn; now rewrite E7|exact H7|lia].
  - assert (Hd : exists sp, r = Some (kw "message", sp)) by (destruct Go; see Hs; eauto). destruct Hd as (sp1 & ->). cbn match.
    change (token_eqb (kw "message") TSemicolon) with false. change (token_eqb (kw "message") (kw "import")) with false. change (token_eqb (kw "message") (kw "package")) with false. change (token_eqb (kw "message") (kw "option")) with false.
    change (token_eqb (kw "message") (kw "extend")) with false. change (token_eqb (kw "message") (kw "message")) with true. cbn match.
    apply wpe_bind. eapply (message_go k src fuel); [apply bodies_go|apply mark0_bodies|exact Go|exact Hm|lia|exact H6|]. intros o' s7 E7 H7 M7. apply wpe_ret, HQ; [cbn; now rewrite E7|exact H7|lia].
  - assert (Hd : exists sp, r = Some (kw "enum", sp)) by (destruct Go; see Hs; eauto). destruct Hd as (sp1 & ->). cbn match.
    change (token_eqb (kw "enum") TSemicolon) with false. change (token_eqb (kw "enum") (kw "import")) with false. change (token_eqb (kw "enum") (kw "package")) with false. change (token_eqb (kw "enum") (kw "option")) with false.
    change (token_eqb (kw "enum") (kw "extend")) with false. change (token_eqb (kw "enum") (kw "message")) with false. change (token_eqb (kw "enum") (kw "enum")) with true. cbn match.
    apply wpe_bind. eapply (enum_go k src); [exact Go|exact I|exact Hm|exact H6|]. intros o' s7 E7 H7 M7. apply wpe_ret, HQ; [cbn; now rewrite E7|exact H7|lia].
  - assert (Hd : exists sp, r = Some (kw "service", sp)) by (destruct Go; see Hs; eauto). destruct Hd as (sp1 & ->). cbn match.
    change (token_eqb (kw "service") TSemicolon) with false. change (token_eqb (kw "service") (kw "import")) with false. change (token_eqb (kw "service") (kw "package")) with false. change (token_eqb (kw "service") (kw "option")) with false.
    change (token_eqb (kw "service") (kw "extend")) with false. change (token_eqb (kw "service") (kw "message")) with false. change (token_eqb (kw "service") (kw "enum")) with false. change (token_eqb (kw "service") (kw "service")) with true. cbn match.
    apply wpe_bind. eapply service_go; [exact Go| | |exact H6|]; [exact I|exact Hm|]. intros o' s7 E7 H7 M7. apply wpe_ret, HQ; [cbn; now rewrite E7|exact H7|lia].
  - assert (Hd : exists sp, r = Some (kw "extend", sp)) by (destruct Go; see Hs; eauto). destruct Hd as (sp1 & ->). cbn match.
    change (token_eqb (kw "extend") TSemicolon) with false. change (token_eqb (kw "extend") (kw "import")) with false. change (token_eqb (kw "extend") (kw "package")) with false. change (token_eqb (kw "extend") (kw "option")) with false.
    change (token_eqb (kw "extend") (kw "extend")) with true. cbn match.
    apply wpe_bind. eapply (extend_go k src fuel); [apply bodies_go|apply mark0_bodies|exact Go|exact Hm|lia|exact H6|]. intros o' s7 E7 H7 M7. apply wpe_ret, HQ; [cbn; now rewrite E7|exact H7|lia].
Qed.

Lemma st_er x x' : er_statement x' = er_statement x ->
  map er_package (st_packages x') = map er_package (st_packages x) /\ map er_import (st_imports x') = map er_import (st_imports x) /\
  map er_option (st_options x') = map er_option (st_options x) /\ map er_fitem (st_items x') = map er_fitem (st_items x).
Proof.
  assert (A : forall y, map er_package (st_packages y) = st_packages (er_statement y)) by (now destruct y). assert (B : forall y, map er_import (st_imports y) = st_imports (er_statement y)) by (now destruct y).
  assert (C : forall y, map er_option (st_options y) = st_options (er_statement y)) by (now destruct y). assert (D : forall y, map er_fitem (st_items y) = st_items (er_statement y)) by (now destruct y).
  intros E. now rewrite !A, !B, !C, !D, E.
Qed.

Definition pkgs (f : file) : list package := match fi_package f with Some p => [p] | None => [] end.
Lemma add_statement_go f x s (Q : file -> pst -> Prop) : (length (pkgs f ++ st_packages x) <= 1)%nat ->
  (forall f', fi_syntax f' = fi_syntax f -> pkgs f' = pkgs f ++ st_packages x -> fi_imports f' = fi_imports f ++ st_imports x ->
    fi_options f' = fi_options f ++ st_options x -> fi_items f' = fi_items f ++ st_items x -> Q f' s) -> go (add_statement f x) s Q.
Proof.
  intros Hl HQ. unfold add_statement. destruct x; try (apply wpe_ret, HQ; cbn [fi_syntax fi_package fi_imports fi_options fi_items pkgs st_packages st_imports st_options st_items]; now rewrite ?app_nil_r).
  cbn [fi_package]. unfold pkgs in *. destruct (fi_package f); [cbn in Hl; lia|]. apply wpe_ret, HQ; cbn [fi_syntax fi_package fi_imports fi_options fi_items pkgs st_packages st_imports st_options st_items]; now rewrite ?app_nil_r.
Qed.

Definition fj (sx : syntax) (l rest : list statement) (f : file) : Prop :=
  fi_syntax f = sx /\
  map er_package (pkgs f) ++ map er_package (flat_map st_packages rest) = map er_package (flat_map st_packages l) /\
  map er_import (fi_imports f) ++ map er_import (flat_map st_imports rest) = map er_import (flat_map st_imports l) /\
  map er_option (fi_options f) ++ map er_option (flat_map st_options rest) = map er_option (flat_map st_options l) /\
  map er_fitem (fi_items f) ++ map er_fitem (flat_map st_items rest) = map er_fitem (flat_map st_items l).

Lemma file_loop_go fuel sx l ts f0 s (Q : file -> pst -> Prop) : (length (flat_map st_packages l) <= 1)%nat -> g_many (g_statement k) ts l -> (measure s < S fuel)%nat -> rem ts s ->
  fi_syntax f0 = sx -> fi_package f0 = None -> fi_imports f0 = [] -> fi_options f0 = [] -> fi_items f0 = [] ->
  (forall f s', fj sx l [] f -> rem [] s' -> Q f s') -> go (loop (file_step k fuel) f0) s Q.
Proof.
  intros Hl G HN H F1 F2 F3 F4 F5 HQ. rewrite <- (app_nil_r ts) in H.
  eapply (many_loop _ _ _ _ (fun acc rest => fj sx l rest acc) (fun _ => any) _ s); [exact G| |intros; exact I|exact mark0_statement|intros; exact I| | | |exact H|lia]; [reflexivity| | |].
  - intros f x rest ts0 us' s5 Gx (J1 & J2 & J3 & J4 & J5) Hm' _ H5 M5. unfold file_step, wpe at 1.
    assert (K : go (parse_statement k fuel) s5 (fun r s' => exists x', r = Some x' /\ er_statement x' = er_statement x /\ rem us' s' /\ (measure s' < measure s5)%nat)).
    { eapply statement_go; [exact Gx|exact Hm'|lia|exact H5|]. intros x' s6 E6 H6 M6. eauto 6. }
    unfold wpe in K at 1. destruct (parse_statement k fuel s5) as [r s6|s6| |]; try contradiction. destruct K as (x' & -> & E & H6 & M6).
    match goal with |- match ?m s6 with _ => _ end => enough (KK : go m s6 (fun r s' => match r with inl a => fj sx l rest a /\ rem us' s' /\ (measure s' < measure s5)%nat | inr _ => False end)) by exact KK end.
    destruct (st_er _ _ E) as (T1 & T2 & T3 & T4). apply wpe_bind, add_statement_go.
    + apply (f_equal (@length _)) in J2, T1. cbn [flat_map] in J2. rewrite !map_app, !app_length, !map_length in J2. rewrite !map_length in T1. rewrite app_length. lia.
    + intros f' U1 U2 U3 U4 U5. apply wpe_ret. split; [|split; [exact H6|exact M6]]. unfold fj. rewrite U1, U2, U3, U4, U5, !map_app, T1, T2, T3, T4, <- !app_assoc.
      cbn [flat_map] in *. rewrite !map_app in J2, J3, J4, J5. auto.
  - intros f s5 HJ H5 M5. unfold file_step, wpe at 1.
    assert (K : go (parse_statement k fuel) s5 (fun r s' => r = None /\ rem [] s')).
    { unfold parse_statement. apply wpe_bind. eapply peek_go; [exact H5|]. intros r s6 H6 Hr Hs M6. see Hs. now apply wpe_ret. }
    unfold wpe in K at 1. destruct (parse_statement k fuel s5) as [r s6|s6| |]; try contradiction. destruct K as (-> & H6). apply HQ; auto.
  - unfold fj, pkgs. rewrite F1, F2, F3, F4, F5. repeat split; auto.
Qed.

Lemma fj_file sx l f sp sxs pkg : fj sx l [] f -> flat_map st_packages l = match pkg with Some p => [p] | None => [] end ->
  er_file f = er_file {| fi_span := sp; fi_syntax := sx; fi_syntax_span := sxs; fi_package := pkg; fi_imports := flat_map st_imports l; fi_options := flat_map st_options l; fi_items := flat_map st_items l |}.
Proof.
  intros (J1 & J2 & J3 & J4 & J5) E. cbn [flat_map map] in *. rewrite app_nil_r in J2, J3, J4, J5. unfold er_file. cbn [fi_syntax fi_package fi_imports fi_options fi_items].
  rewrite J1, J3, J4, J5. f_equal. rewrite E in J2. unfold pkgs in J2. destruct (fi_package f), pkg; cbn in *; congruence.
Qed.

(** The significant tokens of the source are those of [TS] (with other spans, perhaps), and lexing in the modes of [TS] gives no error. *)
Definition lexes_to (TS : list tk) : Prop := map fst (sigs (stream k src 0)) = map (fun x => Some (tk_tok x)) TS /\ mclean k (marks TS) src 0.
Lemma file_go n TS f : g_file k n TS f -> lexes_to TS -> go (parse_file_p k src) (p_init src) (fun f' s' => er_file f' = er_file f /\ errs s' = []).
Proof.
  intros G (Hs & Hc). destruct G as [ss sx sxs ts l pkg Gs G Hp].
  assert (Hl : (length (flat_map st_packages l) <= 1)%nat) by (rewrite Hp; destruct pkg; cbn; lia).
  assert (H : rem (ss ++ ts) (p_init src)).
  { assert (Hm : mark0 (ss ++ ts)) by (apply mark0_app; [destruct Gs; reflexivity|eapply mark0_many; [apply mark0_statement|exact G]]).
    split; [|split; [reflexivity|exact Hm]]. split; [apply init_inv|]. split; [reflexivity|]. split; [|exact Hc].
    change (sg k (p_init src)) with (sigs (stream k src 0)). exact Hs. }
  unfold parse_file_p. apply wpe_bind. eapply peek_go; [exact H|]. intros r s1 H1 Hr Hseen M1. rewrite (init_measure src) in M1.
  assert (Hloop : forall f0 s2, rem ts s2 -> (measure s2 <= 2 * length src)%nat -> fi_syntax f0 = sx -> fi_package f0 = None -> fi_imports f0 = [] -> fi_options f0 = [] -> fi_items f0 = [] ->
    go (loop (file_step k (S (2 * length src))) f0) s2 (fun f' s' => er_file f' = er_file
      {| fi_span := match ss ++ ts with [] => (n, 0) | _ => join_span (first_span (ss ++ ts)) (last_span (ss ++ ts)) end;
         fi_syntax := sx; fi_syntax_span := sxs; fi_package := pkg; fi_imports := flat_map st_imports l; fi_options := flat_map st_options l; fi_items := flat_map st_items l |} /\ errs s' = [])).
  { intros f0 s2 H2 M2 F1 F2 F3 F4 F5. eapply file_loop_go; [exact Hl|exact G|lia|exact H2|exact F1|exact F2|exact F3|exact F4|exact F5|]. intros f s' J H'. split; [eapply fj_file; eauto|apply H']. }
  apply wpe_bind. remember (ss) as SS eqn:ES in Gs. destruct Gs as [|st sp ts0 v e c sx Gv Ev Hcom].
  - subst ss. cbn [app] in *. destruct r as [[t sp]|]; [|apply wpe_ret, Hloop; auto].
    replace (token_eqb t (kw "syntax")) with false; [apply wpe_ret, Hloop; auto|]. symmetry.
    inversion G as [|ts1 x ts2 l' Gx G' E1 E2]; subst; [now cbn in Hseen|]. 
    assert (Hd : t <> kw "syntax"). { rewrite <- app_assoc in Hseen || idtac. destruct Gx as [| ? ? Gx| ? ? Gx| ? ? Gx| ? ? Gx| ? ? Gx| ? ? Gx| ? ? Gx]; try destruct Gx; unfold seen in Hseen; cbn in Hseen; injection Hseen as ->; discriminate. }
    destruct (token_eqb t (kw "syntax")) eqn:Et; auto. apply token_eqb_eq in Et. contradiction.
  - rewrite <- ES, <- !app_assoc in Hseen. pose proof Hseen as Hs1. see Hs1. change (token_eqb (kw "syntax") (kw "syntax")) with true. cbn match. apply wpe_bind.
    eapply (syntax_go ss sx (Some (join_span st e, c))); [rewrite <- ES; apply (g_sx st sp ts0 v e c sx Gv Ev Hcom)|rewrite <- ES; discriminate| |exact H1|].
    + eapply mark0_many; [apply mark0_statement|exact G].
    + intros [[sx' sp1] c'] s2 E2 H2 M2. cbn [fst] in E2. subst sx'. apply wpe_ret, Hloop; auto. lia.
Qed.
End Complete.

Theorem parse_file_complete {CS : comspec} k src n TS f : g_file k n TS f -> lexes_to k src TS -> exists f' a, parse_file k src = Done (inl f', a) /\ er_file f' = er_file f.
Proof.
  intros Gf H. pose proof (file_go k src n TS f Gf H) as G. unfold wpe in G. unfold parse_file. destruct (parse_file_p k src (p_init src)) as [f' s|s| |]; try contradiction.
  destruct G as [E1 E2]. rewrite E2. eauto.
Qed.
Print Assumptions parse_file_complete.
