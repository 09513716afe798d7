(** Completeness of the parser: fields, messages, enums, services. *)
From Coq Require Import ZifyBool ZifyN.
From Verif Require Import Base Utf8 Errors Lex LexSpec PropsLex1 LexSafe Stream Ast Comments Parse Grammar Utf8Spec Classify Walk WalkG1 Meaning Erase Complete1.
Import Parse.

Section Complete.
Variable k : cfg.
Variable src : bytes.
Context {CS : comspec}.
Notation rem := (remg k src false).
Notation go m s Q := (wpe m s nope Q).
Notation complete := (complete k src).

(** Completeness on states of measure below [N]. *)
Definition complete_lt {A E} (N : nat) (er : A -> E) (g : list tk -> A -> Prop) (m : P A) : Prop :=
  forall ts a us s (Q : A -> pst -> Prop), g ts a -> mark0 us -> (measure s < N)%nat -> rem (ts ++ us) s ->
    (forall a' s', er a' = er a -> rem us s' -> (measure s' < measure s)%nat -> Q a' s') -> go m s Q.
Lemma complete_any {A E} (er : A -> E) g m : complete er g any m -> forall N, complete_lt N er g m.
Proof. intros H N ts a us s Q G Hm _. apply H; auto. exact I. Qed.

Ltac see Hs := first [apply seen_cons in Hs; let sp := fresh "sp'" in destruct Hs as (sp & ->); cbn [tk_tok fst] in * | apply seen_nil in Hs; subst].
Ltac mk0 := idtac.
Ltac mk := repeat first [exact I | assumption | reflexivity | apply mark0_app | apply mark0_sym | apply mark0_nil
  | eapply mark0_ident; eassumption | eapply mark0_full; eassumption | eapply mark0_tname; eassumption | eapply mark0_int; eassumption
  | eapply mark0_string; eassumption | eapply mark0_utf8; eassumption | eapply mark0_option; eassumption
  | eapply mark0_oo; eassumption | eapply mark0_reserved; eassumption | eapply mark0_ext; eassumption
  | eapply mark0_fty; eassumption | eapply mark0_label; eassumption | mk0].
Ltac xp H := apply wpe_bind; eapply expect_go; [exact H|mk|].
Ltac bp H Hr := apply wpe_bind; eapply bump_go; [exact H|exact Hr|mk|].

(** ** Field types *)
Lemma tname_first ts n us r : g_type_name ts n -> seen (ts ++ us) r -> exists t sp, r = Some (t, sp) /\ first_tok ts = Some t /\ (t = TDot \/ exists v, t = TIdent v).
Proof.
  intros G Hs. destruct G as [ts n G|sp ts n G].
  - inversion G as [? ? Gi|? ? ? ? ? Gi]; subst; inversion Gi; subst; see Hs; do 2 eexists; (split; [reflexivity|]); split; eauto; reflexivity.
  - see Hs. do 2 eexists; (split; [reflexivity|]). split; auto.
Qed.
Lemma fty_first ts a us r : g_field_type ts a -> seen (ts ++ us) r -> exists t sp, r = Some (t, sp) /\ first_tok ts = Some t /\ (t = TDot \/ exists v, t = TIdent v).
Proof.
  intros G Hs. destruct G as [v t sp G|ts n G _]; [|eapply tname_first; eauto]. see Hs. do 2 eexists; (split; [reflexivity|]). split; eauto; reflexivity.
Qed.
Lemma fty_go terms : complete (fun x => er_ty (fst x)) g_field_type (follows terms) (parse_field_type k terms).
Proof.
  intros ts a us s Q G HT Hm H HQ. unfold parse_field_type. apply wpe_bind. eapply peek_go; [exact H|]. intros r s1 H1 Hr Hs M1. destruct G as [v t sp G|ts n G Hn].
  - see Hs. apply scalar_of_some in G. rewrite G. bp H1 Hr. intros s2 H2 _ M2. apply wpe_ret, HQ; [reflexivity|exact H2|lia].
  - assert (Gn : go (parse_named_type k terms) s1 Q).
    { unfold parse_named_type. apply wpe_bind. eapply tname_go; [exact G| | |exact H1|]; [exact HT|exact Hm|]. intros n' s2 E H2 M2.
      assert (Hne : exists sp, type_name_span n' = Some sp).
      { assert (Hn' : tn_name n' <> []). { assert (Hnn : tn_name n <> []) by (destruct G as [ts n G|sp ts n G]; exact (g_sep_ne _ _ _ _ G)). unfold er_tname in E. injection E as _ E. intros Z. rewrite Z in E. destruct (tn_name n); [congruence|discriminate]. }
        unfold type_name_span, full_ident_span. destruct (tn_name n'); [congruence|]. cbn. destruct (tn_dot n'); eauto. }
      destruct Hne as (sp & ->). apply wpe_ret, HQ; [cbn; now rewrite E|exact H2|lia]. }
    destruct (tname_first _ _ _ _ G Hs) as (t & sp & -> & Hf & [->|(v & ->)]); [exact Gn|].
    destruct (scalar_of v) eqn:Ev; [|exact Gn]. exfalso. apply scalar_of_some in Ev. apply (Hn v); [|exact Hf]. apply in_map_iff. exists (v, t). auto.
Qed.

Definition er_b (x : body * span) : body := er_body (fst x).
Section WithBody.
Variable N : nat.
Variable g_body : list tk -> body * span -> Prop.
Variable pbody : P (body * span).
Hypothesis Hbody : complete_lt N er_b g_body pbody.
Hypothesis Mbody : forall ts a, g_body ts a -> mark0 ts.
Ltac mk0 ::= first [eapply Mbody; eassumption | eapply mark0_sep; [|eassumption] | fail].
Notation erf := (er_field er_body).

Lemma tail_go ts' n os o e us s lead start (label label' : option (flabel * span)) (kd kd' : fkind) v sp1 sp2 (Q : field -> pst -> Prop) :
  g_int ts' n -> g_opt_options k os o -> mark0 us ->
  rem (sym (TIdent v) sp1 ++ sym TEquals sp2 ++ ts' ++ os ++ sym TSemicolon e ++ us) s ->
  er_label label' = er_label label -> er_kind er_body kd' = er_kind er_body kd ->
  (forall f s', erf f = erf {| fd_label := label; fd_name := {| id_val := v; id_span := sp1 |}; fd_kind := kd; fd_number := n; fd_options := o; fd_comments := no_comments; fd_span := no_span |} ->
    rem us s' -> (measure s' < measure s)%nat -> Q f s') ->
  go (name <- parse_ident k ;; expect_eq k TEquals ;;; number <- parse_int k ;; os <- parse_opt_options k TSemicolon (b "';' or '['") ;;
      e <- expect_eq k TSemicolon ;; c <- parse_trailing_comment k lead ;;
      ret {| fd_label := label'; fd_name := name; fd_kind := kd'; fd_number := number; fd_options := os; fd_comments := c; fd_span := join_span start e |}) s Q.
Proof.
  intros G1 G2 Hm H El Ek HQ. apply wpe_bind. eapply ident_go; [constructor|exact I| |exact H|]; [mk|]. intros nm s1 E1 H1 M1. xp H1. intros e1 s2 H2 M2.
  apply wpe_bind. eapply int_go; [exact G1| | |exact H2|]; [exact I|mk|]. intros n' s3 E3 H3 M3. apply wpe_bind. eapply oo_go; [|exact G2| | |exact H3|]; [discriminate|reflexivity|mk|]. intros o' s4 E4 H4 M4.
  xp H4. intros e5 s5 H5 M5. apply wpe_bind. eapply trail_go; [exact H5|]. intros c s6 H6 M6. apply wpe_ret, HQ; [|exact H6|lia].
  unfold er_field. cbn [fd_label fd_name fd_kind fd_number fd_options]. now rewrite El, Ek, E1, E3, E4.
Qed.

Lemma field_kw : forall start label ts f, g_field_rest k g_body start label ts f -> exists t, first_tok ts = Some t /\ (t = TDot \/ exists v, t = TIdent v).
Proof.
  intros start label ts f G. destruct G; try (eexists; split; [reflexivity|]; right; eexists; reflexivity).
  match goal with H : g_field_type ?ts _ |- _ => destruct (fty_first ts _ [] (match first_tok ts with Some t => Some (t, (0, 0)) | None => None end) H) as (t0 & sp0 & E0 & E1 & E2) end.
  - rewrite app_nil_r. unfold seen. now destruct ts.
  - exists t0. split; auto. now destruct ts.
Qed.
Lemma mark0_rest start label ts f : g_field_rest k g_body start label ts f -> mark0 ts.
Proof. destruct 1; mk. Qed.
Lemma mark0_field ts f : g_field k g_body ts f -> mark0 ts.
Proof. destruct 1 as [ls lb ts f H1 _ H2]. apply mark0_app; [mk|eapply mark0_rest; eauto]. Qed.

Lemma kw_neq v w : v <> b w -> token_eqb (TIdent v) (kw w) = false.
Proof. intros H. destruct (token_eqb (TIdent v) (kw w)) eqn:E; auto. apply token_eqb_eq in E. unfold kw in E. congruence. Qed.

(** What follows the label. *)
Lemma rest_go start start' label label' lead ts f us s (Q : field -> pst -> Prop) :
  g_field_rest k g_body start label ts f -> er_label label' = er_label label -> mark0 us -> (measure s <= N)%nat -> rem (ts ++ us) s ->
  (forall f' s', erf f' = erf f -> rem us s' -> (measure s' < measure s)%nat -> Q f' s') ->
  go (t2 <- peek k ;; if at_ t2 (kw "map") then parse_map k lead start' label' else if at_ t2 (kw "group") then parse_group k pbody lead start' label' else parse_normal_field k lead start' label') s Q.
Proof.
  intros G El Hm HN H HQ. apply wpe_bind. eapply peek_go; [exact H|]. intros r s1 H1 Hr Hs M1.
  destruct G as [ts t tsp sp1 v sp2 ts' n os o e c Hn G1 G2 G3 _|m0 m1 kts kt ksp m2 vts vt vsp m3 v sp1 sp2 ts' n os o e c G1 G2 G3 G4 _|m0 v sp1 sp2 ts' n os o sp3 bts bd e c Hv G1 G2 G3 _];
    rewrite <- !app_assoc in *.
  - assert (Hk : at_ r (kw "map") = false /\ at_ r (kw "group") = false).
    { destruct (fty_first _ _ _ _ G1 Hs) as (t0 & sp0 & -> & Hf & Ht). cbn [at_].
      destruct Ht as [->|(w & ->)]; [split; reflexivity|]. split; apply kw_neq; intros ->; apply (Hn _) in Hf; auto; cbn; auto. }
    destruct Hk as [-> ->]. unfold parse_normal_field. apply wpe_bind. eapply fty_go; [exact G1| | |exact H1|]; [ |mk|].
    + eexists. split; [reflexivity|]. split; [reflexivity|discriminate].
    + intros [t' tsp'] s2 E2 H2 M2. eapply (tail_go _ _ _ _ _ _ _ _ _ label label' (FKNormal t tsp) (FKNormal t' tsp')); [exact G2|exact G3|exact Hm|exact H2|exact El| |].
      * cbn in *. now rewrite E2.
      * intros f s3 E3 H3 M3. apply HQ; [exact E3|exact H3|lia].
  - see Hs. rewrite at_kw_self. unfold parse_map. xp H1. intros m0' s2 H2 M2. xp H2. intros m1' s3 H3 M3.
    apply wpe_bind. eapply fty_go; [exact G1| | |exact H3|]; [apply follows_tok; discriminate|mk|]. intros [kt' ksp'] s4 E4 H4 M4. xp H4. intros m2' s5 H5 M5.
    apply wpe_bind. eapply fty_go; [exact G2| | |exact H5|]; [apply follows_tok; discriminate|mk|]. intros [vt' vsp'] s6 E6 H6 M6. xp H6. intros m3' s7 H7 M7.
    eapply (tail_go _ _ _ _ _ _ _ _ _ label label' (FKMap (join_span m0 m3) kt ksp vt vsp)); [exact G3|exact G4|exact Hm|exact H7|exact El| |].
    + cbn in *. now rewrite E4, E6.
    + intros f s8 E8 H8 M8. apply HQ; [exact E8|exact H8|lia].
  - see Hs. change (at_ (Some (kw "group", sp')) (kw "map")) with false. rewrite at_kw_self. cbn match. unfold parse_group. xp H1. intros m0' s2 H2 M2.
    apply wpe_bind. eapply ident_go; [constructor|exact I| |exact H2|]; [mk|]. intros nm s3 E3 H3 M3. assert (Ev : id_val nm = v) by (unfold er_ident in E3; cbn in E3; congruence).
    apply wpe_bind. rewrite Ev. apply group_name_iff in Hv. rewrite Hv. apply wpe_ret. xp H3. intros e4 s4 H4 M4.
    apply wpe_bind. eapply int_go; [exact G1| | |exact H4|]; [exact I|mk|]. intros n' s5 E5 H5 M5. apply wpe_bind. eapply oo_go; [|exact G2| | |exact H5|]; [discriminate|reflexivity|mk|]. intros o' s6 E6 H6 M6.
    xp H6. intros e7 s7 H7 M7. apply wpe_bind. eapply trail_go; [exact H7|]. intros c' s8 H8 M8.
    apply wpe_bind. eapply Hbody; [exact G3|exact Hm|lia|exact H8|]. intros [bd' e'] s9 E9 H9 M9. apply wpe_ret, HQ; [|exact H9|lia].
    unfold er_field. cbn in *. unfold er_b in E9. cbn in E9. now rewrite El, E3, E5, E6, E9.
Qed.
Lemma field_first ts f us r : g_field k g_body ts f -> seen (ts ++ us) r -> exists t sp, r = Some (t, sp) /\ first_tok ts = Some t /\ (t = TDot \/ exists v, t = TIdent v).
Proof.
  intros G Hs. destruct G as [ls lb ts f H1 _ H2]. destruct H1 as [|w l sp Hl].
  - destruct (field_kw _ _ _ _ H2) as (t & Ht & Ho). destruct ts as [|x ts]; [discriminate|]. cbn [app] in *. injection Ht as <-. see Hs. eauto 6.
  - rewrite <- app_assoc in Hs. see Hs. do 2 eexists. split; [reflexivity|]. split; [reflexivity|]. eauto.
Qed.
Lemma field_go : complete_lt (S N) erf (g_field k g_body) (parse_field k pbody).
Proof.
  intros ts f us s Q G Hm HN H HQ. unfold parse_field. apply wpe_bind. eapply lead_go; [exact H|]. intros lead s0 H0 M0. apply wpe_bind. eapply peek_go; [exact H0|]. intros r s1 H1 Hr Hs M1.
  destruct (field_first _ _ _ _ G Hs) as (t & sp & -> & Hf & Ht). destruct G as [ls lb ts f G1 Hl G2]. apply wpe_bind. rewrite <- app_assoc in *. destruct G1 as [|w l sp0 Gl].
  - cbn [app] in *. destruct (label_of t) as [l|] eqn:El.
    + exfalso. apply label_of_some in El. destruct El as (w & -> & Hw). apply (Hl eq_refl w); [|exact Hf]. apply (in_map fst) in Hw. cbn in *. tauto.
    + replace (at_dot_or_ident (Some (t, sp))) with true by (destruct Ht as [->|(v & ->)]; reflexivity). apply wpe_ret. eapply rest_go; [exact G2|reflexivity|exact Hm|lia|exact H1|].
      intros f' s2 E2 H2 M2. apply HQ; [exact E2|exact H2|lia].
  - cbn in Hf. injection Hf as <-. assert (El : label_of (TIdent w) = Some l) by (apply label_of_some; eauto). rewrite El.
    apply wpe_bind. eapply bump_go; [exact H1|exact Hr| |]; [apply mark0_app; [eapply mark0_rest; eauto|exact Hm]|]. intros s2 H2 _ M2. apply wpe_ret.
    eapply (rest_go _ _ _ (Some (l, sp))); [exact G2|reflexivity|exact Hm|lia|exact H2|]. intros f' s3 E3 H3 M3. apply HQ; [exact E3|exact H3|lia].
Qed.

Lemma somes_cons {A} (o : option A) l : somes (o :: l) = match o with Some x => [x] | None => [] end ++ somes l.
Proof. reflexivity. Qed.
Ltac jn E := cbn [fst snd flat_map app map] in *; rewrite ?map_app; cbn [map app]; rewrite <- ?app_assoc; cbn [app]; rewrite ?E; auto.
Lemma mark0_ee ts a : g_extend_elem k g_body ts a -> mark0 ts.
Proof. destruct 1; [reflexivity|eapply mark0_field; eauto]. Qed.
Lemma extend_go : complete_lt (S N) (er_extend er_body) (g_extend k g_body) (parse_extend k pbody).
Proof.
  intros ts a us s Q G Hm HN H HQ. destruct G as [st ts n sp es l e c G1 G2 _]. rewrite <- !app_assoc in H. unfold parse_extend. apply wpe_bind. eapply lead_go; [exact H|]. intros lead s0 H0 M0.
  xp H0. intros st' s1 H1 M1. apply wpe_bind. eapply tname_go; [exact G1| | |exact H1|]; [apply follows_tok; discriminate|mk|]. intros n' s2 E2 H2 M2.
  apply wpe_bind. eapply expect_go; [exact H2| |]; [apply mark0_app; [eapply mark0_many; [apply mark0_ee|exact G2]|reflexivity]|]. intros b' s3 H3 M3.
  apply wpe_bind. eapply trail_go; [exact H3|]. intros c' s4 H4 M4. apply wpe_bind.
  eapply (many_loop _ _ _ _ (fun acc rest => map erf acc ++ map erf (somes rest) = map erf (somes l)) (fun _ => any) _ s4); [exact G2| |intros; exact I|apply mark0_ee|intros; exact I| | | |exact H4|lia].
  - mk.
  - intros acc x rest ts0 us' s5 Gx HJ Hm' _ H5 M5. apply wpe_bind. eapply peek_go; [exact H5|]. intros r s6 H6 Hr Hs M6. rewrite somes_cons in HJ. destruct Gx as [sp0|ts0 f Gf].
    + see Hs. change (at_ (Some (TSemicolon, sp')) TSemicolon) with true. cbn match. bp H6 Hr. intros s7 H7 _ M7. apply wpe_ret. split; [exact HJ|]. split; [exact H7|lia].
    + destruct (field_first _ _ _ _ Gf Hs) as (t & sp0 & -> & _ & Ht).
      replace (at_ (Some (t, sp0)) TSemicolon) with false by (destruct Ht as [->|(v & ->)]; reflexivity).
      replace (at_ (Some (t, sp0)) TRightBrace) with false by (destruct Ht as [->|(v & ->)]; reflexivity).
      replace (at_dot_or_ident (Some (t, sp0))) with true by (destruct Ht as [->|(v & ->)]; reflexivity).
      apply wpe_bind. eapply field_go; [exact Gf| | |exact H6|]; [exact Hm'|lia|]. intros f' s7 E7 H7 M7. apply wpe_ret. split; [jn E7|]. split; [exact H7|lia].
  - intros acc s5 HJ H5 M5. apply wpe_bind. eapply peek_go; [exact H5|]. intros r s6 H6 Hr Hs M6. see Hs. change (at_ (Some (TRightBrace, sp')) TSemicolon) with false. change (at_ (Some (TRightBrace, sp')) TRightBrace) with true. cbn match.
    bp H6 Hr. intros s7 H7 _ M7. apply wpe_ret, wpe_ret, HQ; [|exact H7|lia]. unfold er_extend. cbn in *. rewrite app_nil_r in HJ. now rewrite E2, HJ.
  - reflexivity.
Qed.

Definition oe_opt (x : oneof_elem) := match x with OEOption o => [o] | _ => [] end.
Definition oe_fld (x : oneof_elem) := match x with OEField f => [f] | _ => [] end.
Lemma mark0_oe ts a : g_oneof_elem k g_body ts a -> mark0 ts.
Proof. destruct 1; [reflexivity|eapply mark0_option; eauto|eapply mark0_field; eauto]. Qed.
Lemma option_first ts o us r : g_option k ts o -> seen (ts ++ us) r -> exists sp, r = Some (kw "option", sp).
Proof. intros G Hs. destruct G. see Hs. eauto. Qed.
Ltac atf x Ht := replace x with false by (destruct Ht as [->|(? & ->)]; reflexivity).
Ltac att x Ht := replace x with true by (destruct Ht as [->|(? & ->)]; reflexivity).
Lemma not_kw_at ks ts t sp w : not_kw ks ts -> first_tok ts = Some t -> (t = TDot \/ exists v, t = TIdent v) -> In (b w) ks -> at_ (Some (t, sp)) (kw w) = false.
Proof. intros Hn Hf Ht Hw. cbn [at_]. destruct Ht as [->|(v & ->)]; [reflexivity|]. apply kw_neq. intros ->. exact (Hn _ Hw Hf). Qed.
Lemma oneof_go : complete_lt (S N) (er_oneof er_body) (g_oneof k g_body) (parse_oneof k pbody).
Proof.
  intros ts a us s Q G Hm HN H HQ. destruct G as [st v sp0 sp es l e c G2 _]. rewrite <- !app_assoc in H. unfold parse_oneof. apply wpe_bind. eapply lead_go; [exact H|]. intros lead s0 H0 M0.
  xp H0. intros st' s1 H1 M1. apply wpe_bind. eapply ident_go; [constructor|exact I| |exact H1|]; [mk|]. intros n' s2 E2 H2 M2.
  apply wpe_bind. eapply expect_go; [exact H2| |]; [apply mark0_app; [eapply mark0_many; [apply mark0_oe|exact G2]|reflexivity]|]. intros b' s3 H3 M3.
  apply wpe_bind. eapply trail_go; [exact H3|]. intros c' s4 H4 M4. apply wpe_bind. fold oe_opt oe_fld in *.
  eapply (many_loop _ _ _ _ (fun acc rest => map erf (fst acc) ++ map erf (flat_map oe_fld rest) = map erf (flat_map oe_fld l) /\ map er_option (snd acc) ++ map er_option (flat_map oe_opt rest) = map er_option (flat_map oe_opt l))
    (fun _ => any) _ s4); [exact G2| |intros; exact I|apply mark0_oe|intros; exact I| | | |exact H4|lia].
  - mk.
  - intros [fs os] x rest ts0 us' s5 Gx [J1 J2] Hm' _ H5 M5. apply wpe_bind. eapply peek_go; [exact H5|]. intros r s6 H6 Hr Hs M6. destruct Gx as [sp1|ts0 o Go|ts0 f Hn Gf].
    + see Hs. change (at_ (Some (TSemicolon, sp')) (kw "option")) with false. change (at_ (Some (TSemicolon, sp')) TSemicolon) with true. cbn match. bp H6 Hr. intros s7 H7 _ M7. apply wpe_ret. split; [split; assumption|]. split; [exact H7|lia].
    + destruct (option_first _ _ _ _ Go Hs) as (sp1 & ->). rewrite at_kw_self. apply wpe_bind. eapply option_go; [exact Go| | |exact H6|]; [exact I|exact Hm'|]. intros o' s7 E7 H7 M7. apply wpe_ret. split; [|split; [exact H7|lia]]. split; jn E7.
    + destruct (field_first _ _ _ _ Gf Hs) as (t & sp1 & -> & Hf & Ht). rewrite (not_kw_at _ _ _ _ "option" Hn Hf Ht) by (cbn; auto).
      atf (at_ (Some (t, sp1)) TSemicolon) Ht. atf (at_ (Some (t, sp1)) TRightBrace) Ht. att (at_dot_or_ident (Some (t, sp1))) Ht.
      apply wpe_bind. eapply field_go; [exact Gf| | |exact H6|]; [exact Hm'|lia|]. intros f' s7 E7 H7 M7. apply wpe_ret. split; [|split; [exact H7|lia]]. split; jn E7.
  - intros [fs os] s5 [J1 J2] H5 M5. apply wpe_bind. eapply peek_go; [exact H5|]. intros r s6 H6 Hr Hs M6. see Hs. 
    change (at_ (Some (TRightBrace, sp')) (kw "option")) with false. change (at_ (Some (TRightBrace, sp')) TSemicolon) with false. change (at_ (Some (TRightBrace, sp')) TRightBrace) with true. cbn match.
    bp H6 Hr. intros s7 H7 _ M7. apply wpe_ret, wpe_ret, HQ; [|exact H7|lia]. unfold er_oneof. cbn in *. rewrite app_nil_r in J1, J2. now rewrite E2, J1, J2.
  - split; reflexivity.
Qed.

Lemma message_go : complete_lt (S N) (er_message er_body) (g_message g_body) (parse_message k pbody).
Proof.
  intros ts a us s Q G Hm HN H HQ. destruct G as [st v sp0 sp ts bd e c G _]. rewrite <- !app_assoc in H. unfold parse_message. apply wpe_bind. eapply lead_go; [exact H|]. intros lead s0 H0 M0.
  xp H0. intros st' s1 H1 M1. apply wpe_bind. eapply ident_go; [constructor|exact I| |exact H1|]; [mk|]. intros n' s2 E2 H2 M2.
  xp H2. intros b' s3 H3 M3. apply wpe_bind. eapply trail_go; [exact H3|]. intros c' s4 H4 M4. apply wpe_bind. eapply Hbody; [exact G|exact Hm|lia|exact H4|]. intros [bd' e'] s5 E5 H5 M5.
  apply wpe_ret, HQ; [|exact H5|lia]. unfold er_message. unfold er_b in E5. cbn in *. now rewrite E2, E5.
Qed.
Lemma mark0_oneof ts a : g_oneof k g_body ts a -> mark0 ts. Proof. now destruct 1. Qed.
Lemma mark0_extend ts a : g_extend k g_body ts a -> mark0 ts. Proof. now destruct 1. Qed.
Lemma mark0_message ts a : g_message g_body ts a -> mark0 ts. Proof. now destruct 1. Qed.
End WithBody.

(** ** Enums *)
Ltac jn E := cbn [fst snd flat_map app map] in *; rewrite ?map_app; cbn [map app]; rewrite <- ?app_assoc; cbn [app]; rewrite ?E; auto.
Lemma value_go : complete er_enum_value (g_enum_value k) any (parse_enum_value k).
Proof.
  intros ts a us s Q G _ Hm H HQ. destruct G as [v sp0 sp ts n os o e c Hv1 Hv2 G1 G2 _]. rewrite <- !app_assoc in H. unfold parse_enum_value. apply wpe_bind. eapply lead_go; [exact H|]. intros lead s0 H0 M0.
  apply wpe_bind. eapply ident_go; [constructor|exact I| |exact H0|]; [mk|]. intros nm s1 E1 H1 M1. xp H1. intros e1 s2 H2 M2.
  apply wpe_bind. eapply int_go; [exact G1| | |exact H2|]; [exact I|mk|]. intros n' s3 E3 H3 M3. apply wpe_bind. eapply oo_go; [|exact G2| | |exact H3|]; [discriminate|reflexivity|mk|]. intros o' s4 E4 H4 M4.
  xp H4. intros e5 s5 H5 M5. apply wpe_bind. eapply trail_go; [exact H5|]. intros c' s6 H6 M6. apply wpe_ret, HQ; [|exact H6|lia].
  unfold er_enum_value. cbn. now rewrite E1, E3, E4.
Qed.
Definition ee_opt (x : enum_elem) := match x with EEOption o => [o] | _ => [] end.
Definition ee_val (x : enum_elem) := match x with EEValue o => [o] | _ => [] end.
Definition ee_res (x : enum_elem) := match x with EEReserved o => [o] | _ => [] end.
Lemma mark0_enum_elem ts a : g_enum_elem k ts a -> mark0 ts.
Proof. destruct 1 as [|? ? H|? ? H|? ? H]; [reflexivity|eapply mark0_option; eauto|eapply mark0_reserved; eauto|now destruct H]. Qed.
Lemma enum_go : complete er_enum (g_enum k) any (parse_enum k).
Proof.
  intros ts a us s Q G _ Hm H HQ. destruct G as [st v sp0 sp es l e c G2 _]. rewrite <- !app_assoc in H. unfold parse_enum. apply wpe_bind. eapply lead_go; [exact H|]. intros lead s0 H0 M0.
  xp H0. intros st' s1 H1 M1. apply wpe_bind. eapply ident_go; [constructor|exact I| |exact H1|]; [mk|]. intros n' s2 E2 H2 M2.
  apply wpe_bind. eapply expect_go; [exact H2| |]; [apply mark0_app; [eapply mark0_many; [apply mark0_enum_elem|exact G2]|reflexivity]|]. intros b' s3 H3 M3.
  apply wpe_bind. eapply trail_go; [exact H3|]. intros c' s4 H4 M4. apply wpe_bind. fold ee_opt ee_val ee_res in *.
  eapply (many_loop _ _ _ _ (fun acc rest => map er_enum_value (fst (fst acc)) ++ map er_enum_value (flat_map ee_val rest) = map er_enum_value (flat_map ee_val l) /\
     map er_option (snd (fst acc)) ++ map er_option (flat_map ee_opt rest) = map er_option (flat_map ee_opt l) /\
     map er_reserved (snd acc) ++ map er_reserved (flat_map ee_res rest) = map er_reserved (flat_map ee_res l))
    (fun _ => any) _ s4); [exact G2| |intros; exact I|apply mark0_enum_elem|intros; exact I| | | |exact H4|lia].
  - mk.
  - intros [[vs os] rs] x rest ts0 us' s5 Gx (J1 & J2 & J3) Hm' _ H5 M5. apply wpe_bind. eapply peek_go; [exact H5|]. intros r s6 H6 Hr Hs M6. destruct Gx as [sp1|ts0 o Go|ts0 o Go|ts0 f Gf].
    + see Hs. change (at_ (Some (TSemicolon, sp')) (kw "option")) with false. change (at_ (Some (TSemicolon, sp')) (kw "reserved")) with false. change (at_ (Some (TSemicolon, sp')) TSemicolon) with true. cbn match.
      bp H6 Hr. intros s7 H7 _ M7. apply wpe_ret. split; [split; [|split]; assumption|]. split; [exact H7|lia].
    + destruct (option_first _ _ _ _ Go Hs) as (sp1 & ->). rewrite at_kw_self. apply wpe_bind. eapply option_go; [exact Go| | |exact H6|]; [exact I|exact Hm'|]. intros o' s7 E7 H7 M7. apply wpe_ret. split; [|split; [exact H7|lia]].
      split; [|split]; jn E7.
    + assert (Hd : exists sp, r = Some (kw "reserved", sp)) by (destruct Go; rewrite <- !app_assoc in Hs; see Hs; eauto). destruct Hd as (sp1 & ->).
      change (at_ (Some (kw "reserved", sp1)) (kw "option")) with false. rewrite at_kw_self. cbn match. apply wpe_bind. eapply reserved_go; [exact Go| | |exact H6|]; [exact I|exact Hm'|]. intros o' s7 E7 H7 M7. apply wpe_ret. split; [|split; [exact H7|lia]].
      split; [|split]; jn E7.
    + assert (Hd : exists w sp, r = Some (TIdent w, sp) /\ w <> b "option" /\ w <> b "reserved"). { destruct Gf. rewrite <- !app_assoc in Hs. see Hs. eauto. } destruct Hd as (w & sp1 & -> & Hw1 & Hw2).
      cbn [at_]. rewrite (kw_neq w "option"), (kw_neq w "reserved") by auto. change (token_eqb (TIdent w) TSemicolon) with false. cbn [at_ident].
      apply wpe_bind. eapply value_go; [exact Gf| | |exact H6|]; [exact I|exact Hm'|]. intros f' s7 E7 H7 M7. apply wpe_ret. split; [|split; [exact H7|lia]]. split; [|split]; jn E7.
  - intros [[vs os] rs] s5 (J1 & J2 & J3) H5 M5. apply wpe_bind. eapply peek_go; [exact H5|]. intros r s6 H6 Hr Hs M6. see Hs. 
    change (at_ (Some (TRightBrace, sp')) (kw "option")) with false. change (at_ (Some (TRightBrace, sp')) (kw "reserved")) with false. change (at_ (Some (TRightBrace, sp')) TSemicolon) with false. change (at_ (Some (TRightBrace, sp')) TRightBrace) with true. cbn [at_ident].
    bp H6 Hr. intros s7 H7 _ M7. apply wpe_ret, wpe_ret, HQ; [|exact H7|lia]. unfold er_enum. cbn in *. rewrite app_nil_r in J1, J2, J3. now rewrite E2, J1, J2, J3.
  - split; [|split]; reflexivity.
Qed.
Lemma mark0_enum ts a : g_enum k ts a -> mark0 ts. Proof. now destruct 1. Qed.
End Complete.
