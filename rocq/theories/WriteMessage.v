(** Lemmas for C63: oneofs, messages. *)
From Coq Require Import ZifyBool ZifyN.
From Verif Require Import PropsDesc2 Base Utf8 Utf8Spec Errors Lex Ast Descriptor LexSpec Decimal Grammar Meaning CharEdge GenProofs WriteSpec WriteProofs WriteFields.

Local Existing Instance any_comments.

(** ** Deeper nesting *)
Section Mono.
Variable k : cfg.
Variables g1 g2 : list tk -> body * span -> Prop.
Hypothesis Hg : forall ts x, g1 ts x -> g2 ts x.
Lemma many_mono {A} (i1 i2 : list tk -> A -> Prop) : (forall ts x, i1 ts x -> i2 ts x) -> forall ts l, g_many i1 ts l -> g_many i2 ts l.
Proof. intros H ts l G. induction G; constructor; auto. Qed.
Lemma rest_mono st label ts f : g_field_rest k g1 st label ts f -> g_field_rest k g2 st label ts f.
Proof. intros []; [eapply g_normal|eapply g_map|eapply g_group]; eauto. Qed.
Lemma field_mono ts f : g_field k g1 ts f -> g_field k g2 ts f.
Proof. intros []. eapply g_fd; eauto. now apply rest_mono. Qed.
Lemma extend_mono ts x : g_extend k g1 ts x -> g_extend k g2 ts x.
Proof. intros []. eapply g_et; eauto. eapply many_mono; [|eauto]. intros ts' y []; constructor. now apply field_mono. Qed.
Lemma oneof_mono ts x : g_oneof k g1 ts x -> g_oneof k g2 ts x.
Proof. intros []. eapply g_oo; eauto. eapply many_mono; [|eauto]. intros ts' y []; constructor; auto. now apply field_mono. Qed.
Lemma message_mono ts x : g_message g1 ts x -> g_message g2 ts x.
Proof. intros []. eapply g_ms; eauto. Qed.
Lemma elem_mono ts x : g_body_elem k g1 ts x -> g_body_elem k g2 ts x.
Proof. intros []; [eapply g_be_empty|eapply g_be_oneof|eapply g_be_enum|eapply g_be_message|eapply g_be_extend|eapply g_be_option|eapply g_be_reserved|eapply g_be_extensions|eapply g_be_field]; auto; [now apply oneof_mono|now apply message_mono|now apply extend_mono|now apply field_mono]. Qed.
End Mono.
Lemma body_n_mono k n : forall m ts x, (n <= m)%nat -> g_body_n k n ts x -> g_body_n k m ts x.
Proof.
  induction n as [|n IH]; intros m ts x Hm; cbn [g_body_n]; [contradiction|]. destruct m as [|m]; [lia|]. cbn [g_body_n]. intros (es & l & G & E1 & E2). exists es, l. split; [|auto].
  eapply many_mono; [|exact G]. apply elem_mono. intros ts' x'. apply IH. lia.
Qed.

(** ** Oneofs *)
Section Oneof.
Variables (k : cfg) (G : list tk -> body * span -> Prop) (D : body -> msg_desc) (V : body -> Prop) (p3 : bool).
Lemma oneof_w i o fs : oneof_ok o -> fs <> [] -> Forall (field_ok p3 InOneof) fs -> Forall (fun f => f_extendee f = None /\ f_oneof_index f = Some (Z.of_nat i)) fs ->
  exists a, g_oneof k G (tks (kw "oneof" :: TIdent (text (o_name o)) :: w_braces (flat_map w_option (items (o_options o)) ++ flat_map (w_field p3 InOneof) fs))) a /\
    den_oneof_ a = o /\ map (fun f => set_oneof_index (Some (Z.of_nat i)) (den_field k (syn_of p3) ScOneof None f)) (oo_fields a) = fs /\
    ok_oneof k (syn_of p3) V a /\ flat_map (den_field_messages D) (oo_fields a) = [].
Proof.
  intros ((n & En & _) & Ho) Hne Hf Hx. destruct (options_w k _ Ho) as (os & Go & Eo & Oo).
  destruct (many_w (fun ts f => not_kw [b "option"] ts /\ g_field k G ts f) (fun a f => set_oneof_index (Some (Z.of_nat i)) (den_field k (syn_of p3) ScOneof None a) = f /\ (ok_field k (syn_of p3) V ScOneof a /\ den_field_messages D a = [])) (w_field p3 InOneof) fs) as (la & Gl & Fl).
  { intros f Hi. rewrite Forall_forall in Hf, Hx. destruct (field_w k G D V p3 InOneof f (Hf f Hi)) as (a & Ga & Ea & Oa & _ & Ma & _). exists a. split; [split; [|exact Ga]|split; [|split; [exact Oa|exact Ma]]].
    - apply (field_start p3 InOneof). now apply Hf.
    - specialize (Ea None). cbn [scope_of] in Ea. rewrite Ea. destruct (Hx f Hi) as [X1 X2]. clear -X1 X2. destruct f; cbn in X1, X2; subst; reflexivity. }
  apply F2_and in Fl. destruct Fl as [F1 F2]. assert (Hla : la <> []) by (intros ->; inversion F1; subst; congruence). apply F2_map in F1. apply F2_and in F2. destruct F2 as [F2 F3]. apply F2_all in F2.
  assert (F4 : flat_map (den_field_messages D) la = []). { clear -F3. induction F3 as [|a x la l E F IH]; [reflexivity|]. cbn. now rewrite E, IH. }
  pose (l := map OEOption os ++ map OEField la).
  assert (L1 : flat_map (fun x => match x with OEOption o => [o] | _ => [] end) l = os) by (unfold l; rewrite !flat_map_app, (fm_sing _ _ (fun x => x)), !fm_nil, map_id, !app_nil_r by reflexivity; reflexivity).
  assert (L2 : flat_map (fun x => match x with OEField o => [o] | _ => [] end) l = la) by (unfold l; rewrite !flat_map_app, (fm_sing _ OEField (fun x => x)), !fm_nil, map_id by reflexivity; reflexivity).
  exists {| oo_name := {| id_val := n; id_span := (0, 0) |}; oo_options := flat_map (fun x => match x with OEOption o => [o] | _ => [] end) l; oo_fields := flat_map (fun x => match x with OEField o => [o] | _ => [] end) l; oo_comments := c0; oo_span := join_span (0, 0) (0, 0) |}.
  split.
  - unfold w_braces. rewrite En. cbn [text]. rewrite !tks_cons, tks_app. apply g_oo; [|exact I]. rewrite !tks_app. unfold l. apply many_app.
    + eapply many_map; [|exact Go]. intros; now constructor.
    + eapply many_map; [|exact Gl]. intros ts a [H1 H2]; now constructor.
  - rewrite L1, L2. unfold den_oneof_, ok_oneof. cbn [oo_name oo_options oo_fields id_val]. rewrite Eo, F1. split; [destruct o; cbn in *; congruence|]. repeat split; auto.
Qed.
(** ** Runs of fields *)
Definition key (r : option Z * list field_desc) : list Z := match fst r with Some i => [i] | None => [] end.
Definition run_shape (r : option Z * list field_desc) : Prop :=
  match r with (Some i, fs) => fs <> [] /\ Forall (fun f => oneof_of f = Some i) fs | (None, fs) => exists f, fs = [f] /\ oneof_of f = None end.
Lemma runs_shape (l : list field_desc) : flat_map snd (runs l) = l /\ Forall run_shape (runs l).
Proof.
  induction l as [|f l [I1 I2]]; [split; constructor|]. cbn [runs]. destruct (oneof_of f) as [i|] eqn:Ef.
  - destruct (runs l) as [|[[j|] fs] rs].
    + cbn in I1. subst l. split; [reflexivity|]. constructor; [|constructor]. split; [discriminate|]. constructor; auto.
    + destruct (Forall_inv I2) as [H1 H2]. pose proof (Forall_inv_tail I2) as H3. subst l. destruct (Z.eqb_spec i j) as [->|Hij].
      * split; [reflexivity|]. constructor; [|exact H3]. split; [discriminate|]. constructor; auto.
      * split; [reflexivity|]. constructor; [|exact I2]. split; [discriminate|]. constructor; auto.
    + split; [cbn; now rewrite <- I1|]. constructor; [|exact I2]. split; [discriminate|]. constructor; auto.
  - split; [cbn; now rewrite I1|]. constructor; [|exact I2]. exists f. auto.
Qed.
Lemma oneof_of_index f i : oneof_of f = Some i -> f_oneof_index f = Some i. Proof. unfold oneof_of. destruct (optional3 f); [discriminate|auto]. Qed.
Lemma filter_false {A} (p : A -> bool) l : Forall (fun x => p x = false) l -> filter p l = [].
Proof. induction 1 as [|x l H F IH]; [reflexivity|]. cbn. now rewrite H. Qed.
Lemma next_entry_split l m0 ms : filter is_entry (map fst l) = m0 :: ms ->
  exists pre t post, l = pre ++ (m0, t) :: post /\ Forall (fun x => is_entry (fst x) = false) pre /\ next_entry l = (flat_map snd pre, Some (m0, post)) /\ filter is_entry (map fst post) = ms /\ is_entry m0 = true.
Proof.
  induction l as [|[m t] l IH]; intros H; [discriminate|]. cbn [map fst filter next_entry] in *. destruct (is_entry m) eqn:E.
  - injection H as -> H. exists [], t, l. repeat split; auto.
  - destruct (IH H) as (pre & t' & post & -> & H1 & H2 & H3 & H4). rewrite H2. exists ((m, t) :: pre), t', post. repeat split; auto.
Qed.
Lemma no_entry l : filter is_entry (map fst l) = [] -> Forall (fun x : msg_desc * list token => is_entry (fst x) = false) l.
Proof. induction l as [|[m t] l IH]; intros H; [constructor|]. cbn [map fst filter] in H. destruct (is_entry m) eqn:E; [discriminate|]. constructor; auto. Qed.

Definition written_as (x : msg_desc * list token) : Prop := exists a, g_message G (tks (snd x)) a /\ den_message_ D a = fst x /\ V (ms_body a).
Definition means (its : list mitem) (ts : list token) : Prop := g_many (g_body_elem k G) (tks ts) (map (fun x => BEItem x) its).
(** What the items say. *)
Definition items_are (r s : nat) (its : list mitem) (fs : list field_desc) (os : list oneof_desc) (ms : list msg_desc) : Prop :=
  (forall rest, (forall r s, den_fields k (syn_of p3) r s rest = []) -> den_fields k (syn_of p3) (N.of_nat r) (N.of_nat s) (its ++ rest) = fs) /\
  flat_map item_real its = os /\ flat_map (item_synthetic (syn_of p3)) its = map own_oneof (filter optional3 fs) /\ flat_map (item_messages D) its = ms /\
  all (ok_item k (syn_of p3) V) its /\ flat_map (item_extensions k (syn_of p3)) its = [] /\ flat_map item_enums its = [].
Lemma messages_items l : Forall (fun x => is_entry (fst x) = false) l -> (forall x, In x l -> is_entry (fst x) = false -> written_as x) ->
  exists its, means its (flat_map snd l) /\
    (forall r s rest, den_fields k (syn_of p3) r s (its ++ rest) = den_fields k (syn_of p3) r s rest) /\
    flat_map item_real its = [] /\ flat_map (item_synthetic (syn_of p3)) its = [] /\ flat_map (item_messages D) its = map fst l /\
    all (ok_item k (syn_of p3) V) its /\ flat_map (item_extensions k (syn_of p3)) its = [] /\ flat_map item_enums its = [].
Proof.
  induction 1 as [|x l Hx Hl IH]; intros H; [exists []; repeat split; constructor|]. destruct IH as (its & I1 & I2 & I3 & I4 & I5 & I6 & I7 & I8); [intros; apply H; auto; now right|].
  destruct (H x (or_introl eq_refl) Hx) as (a & Ga & Ea & Va). exists (MIMessage a :: its). split; [unfold means; cbn [map flat_map]; rewrite tks_app; constructor; [now apply g_be_message|exact I1]|].
  split; [exact I2|]. split; [exact I3|]. split; [exact I4|]. split; [cbn [flat_map map]; rewrite I5; unfold item_messages at 1; rewrite Ea; reflexivity|]. split; [split; auto|]. auto.
Qed.
Lemma field_not_map pl f : field_ok p3 pl f -> is_map f = false.
Proof. intros (_ & _ & Ht & _). unfold type_ok, is_map in *. destruct (f_type f) as [[]|]; auto; contradiction. Qed.
Lemma oneof_not_optional f : field_ok p3 InOneof f -> optional3 f = false.
Proof. intros (_ & Hl & _). unfold label_ok, optional3 in *. destruct (f_label f) as [[| |]|]; [destruct Hl as [-> |(_ & _ & H)]; [reflexivity|congruence]|destruct Hl as (_ & _ & ->); reflexivity|destruct Hl as [_ ->]; reflexivity|contradiction]. Qed.
Lemma runs_w oneofs rs : forall r s pre os post nested,
  Forall run_shape rs -> Forall (fun f => f_extendee f = None) (flat_map snd rs) ->
  Forall (fun f => is_map f = false -> field_ok p3 (if oneof_of f then InOneof else InMessage) f) (flat_map snd rs) ->
  Forall2 map_ok (filter is_map (flat_map snd rs)) (filter is_entry (map fst nested)) ->
  oneofs = pre ++ os ++ post -> length pre = r -> Forall oneof_ok os -> flat_map key rs = map Z.of_nat (seq r (length os)) ->
  map f_oneof_index (filter optional3 (flat_map snd rs)) = map (fun i => Some (Z.of_nat i)) (seq s (length (filter optional3 (flat_map snd rs)))) ->
  (forall x, In x nested -> is_entry (fst x) = false -> written_as x) ->
  exists its, means its (w_runs p3 oneofs rs nested) /\ items_are r s its (flat_map snd rs) os (map fst nested).
Proof.
  induction rs as [|[[i|] fs] rs IH]; intros r s pre os post nested Hs Hx Hf Hm Eo Er Ho Hk Hi Hn.
  - cbn [flat_map filter w_runs] in *. destruct os; [|discriminate]. assert (E : filter is_entry (map fst nested) = []) by (inversion Hm; reflexivity). destruct (messages_items nested (no_entry _ E) Hn) as (its & I1 & I2 & I3 & I4 & I5 & I6 & I7 & I8).
    exists its. split; [exact I1|]. repeat split; auto. intros rest Hr. now rewrite I2, Hr.
  - destruct (Forall_inv Hs) as [Hs1 Hs2]. pose proof (Forall_inv_tail Hs) as Hs3. subst oneofs r. cbn [flat_map snd key fst app] in *. apply Forall_app in Hx, Hf. destruct Hx as [Hx1 Hx2], Hf as [Hf1 Hf2].
    destruct os as [|o os]; [discriminate|]. cbn [length seq map] in Hk. injection Hk as -> Hk. inversion Ho as [|? ? Ho1 Ho2]; subst.
    assert (Hmap : Forall (fun f => is_map f = false) fs).
    { apply Forall_forall. intros f Hif. rewrite Forall_forall in Hs2, Hf1. specialize (Hs2 f Hif). destruct (is_map f) eqn:Em; [|reflexivity]. exfalso.
      rewrite filter_app in Hm. apply Forall2_app_inv_l in Hm. destruct Hm as (l1 & l2 & Hm & _ & _). assert (Hin : In f (filter is_map fs)) by (apply filter_In; auto). clear -Hm Hin Hs2.
      induction Hm as [|x y l l' Hxy Hm IH]; [destruct Hin|]. destruct Hin as [->|Hin]; [|auto]. destruct Hxy as (_ & _ & _ & _ & E & _). apply oneof_of_index in Hs2. congruence. }
    assert (Hok : Forall (field_ok p3 InOneof) fs).
    { apply Forall_forall. intros f Hif. rewrite Forall_forall in Hs2, Hf1, Hmap. specialize (Hf1 f Hif (Hmap f Hif)). rewrite (Hs2 f Hif) in Hf1. exact Hf1. }
    assert (Hop : Forall (fun f => optional3 f = false) fs) by (eapply Forall_impl; [|exact Hok]; apply oneof_not_optional).
    rewrite filter_app, (filter_false _ _ Hmap) in Hm. rewrite filter_app, (filter_false _ _ Hop) in Hi. cbn [app] in Hm, Hi.
    destruct (IH (S (length pre)) s (pre ++ [o]) os post nested) as (its & I1 & I2 & I3 & I4 & I5 & I6 & I7 & I8); auto; [now rewrite <- app_assoc|rewrite app_length; cbn; lia|].
    destruct (oneof_w (length pre) o fs Ho1 Hs1 Hok) as (a & Ga & D1 & D2 & D3 & D4).
    { apply Forall_forall. intros f Hif. rewrite Forall_forall in Hs2, Hx1. split; [auto|]. apply oneof_of_index. auto. }
    exists (MIOneof a :: its). split.
    + unfold means in *. cbn [w_runs map]. rewrite Nat2Z.id, nth_error_app2, Nat.sub_diag by lia. cbn [app nth_error]. rewrite tks_app. constructor; [apply g_be_oneof; exact Ga|exact I1].
    + split; [|split; [|split; [|split; [|split; [|split]]]]].
      * intros rest Hr. cbn [app den_fields]. replace (N.of_nat (length pre) + 1) with (N.of_nat (S (length pre))) by lia. rewrite I2 by exact Hr. replace (Z.of_N (N.of_nat (length pre))) with (Z.of_nat (length pre)) by lia. rewrite D2. reflexivity.
      * cbn [flat_map item_real]. rewrite I3, D1. reflexivity.
      * cbn [flat_map item_synthetic app]. rewrite filter_app, (filter_false _ _ Hop). exact I4.
      * cbn [flat_map item_messages]. rewrite I5, D4. reflexivity.
      * split; [exact D3|exact I6].
      * exact I7.
      * exact I8.
  - destruct (Forall_inv Hs) as (f & -> & Hof). pose proof (Forall_inv_tail Hs) as Hs3. subst oneofs r. cbn [flat_map snd key fst app] in *. inversion Hx as [|? ? Hx1 Hx2]; inversion Hf as [|? ? Hf1 Hf2]; subst. rewrite Hof in Hf1. cbn [w_runs].
    destruct (is_map f) eqn:Em.
    + cbn [filter] in Hm. rewrite Em in Hm. inversion Hm as [|? m0 ? ms Hm0 Hms E1 E2]; subst. symmetry in E2. destruct (next_entry_split _ _ _ E2) as (pr & t & po & -> & P1 & P2 & P3 & P4). rewrite P2.
      assert (E3 : optional3 f = false) by (destruct Hm0 as (_ & _ & _ & _ & _ & E & _); unfold optional3; now rewrite E). cbn [filter] in Hi. rewrite E3 in Hi.
      destruct (IH (length pre) s pre os post po) as (its & I1 & I2 & I3 & I4 & I5 & I6 & I7 & I8); auto; [now rewrite P3|intros; apply Hn; auto; apply in_or_app; right; now right|].
      destruct (messages_items pr P1) as (jts & J1 & J2 & J3 & J4 & J5 & J6 & J7 & J8); [intros; apply Hn; auto; apply in_or_app; now left|].
      assert (Hft : f_type f = Some FTMessage) by (unfold is_map in Em; destruct (f_type f) as [[]|]; congruence). destruct (map_w k G D V p3 m0 f Hm0 Hft Hx1) as (a & Ga & Ea & Oa & Pa & Ma & Na).
      exists (jts ++ MIField a :: its). split; [|split; [|split; [|split; [|split; [|split; [|split]]]]]].
      * unfold means in *. rewrite map_app. cbn [map]. rewrite tks_app, tks_app. apply many_app; [exact J1|]. constructor; [|exact I1]. apply g_be_field; [|exact Ga]. apply (map_start m0 f InMessage Hm0).
      * intros rest Hr. rewrite <- app_assoc, J2. cbn [app den_fields]. rewrite Pa, Na, Ea. rewrite len_nil, N.add_0_r. now rewrite I2.
      * rewrite flat_map_app, J3. exact I3.
      * rewrite flat_map_app, J4. cbn [app flat_map]. unfold item_synthetic at 1. rewrite Na. cbn [filter]. rewrite E3. exact I4.
      * rewrite flat_map_app, J5. cbn [app flat_map]. unfold item_messages at 1. rewrite Ma, I5, map_app. reflexivity.
      * apply all_app. split; [exact J6|]. split; [exact Oa|exact I6].
      * rewrite flat_map_app, J7. exact I7.
      * rewrite flat_map_app, J8. exact I8.
    + cbn [filter] in Hm. rewrite Em in Hm. specialize (Hf1 eq_refl). destruct (field_w k G D V p3 InMessage f Hf1) as (a & Ga & Ea & Oa & Pa & Ma & Na). cbn [scope_of] in Ea.
      assert (St : not_kw (place_words InMessage) (tks (w_field p3 InMessage f))) by (apply field_start; exact Hf1). cbn [filter] in Hi |- *.
      assert (Hix : optional3 f = false -> f_oneof_index f = None) by (unfold oneof_of in Hof; intros E; rewrite E in Hof; exact Hof).
      assert (Main : forall s', map f_oneof_index (filter optional3 (flat_map snd rs)) = map (fun i => Some (Z.of_nat i)) (seq s' (length (filter optional3 (flat_map snd rs)))) ->
        den_field k (syn_of p3) ScMessage (if optional3 f then Some (Z.of_nat s) else None) a = f -> (s' = s + (if optional3 f then 1 else 0))%nat ->
        exists its, means its (w_field p3 InMessage f ++ w_runs p3 (pre ++ os ++ post) rs nested) /\ items_are (length pre) s its (f :: flat_map snd rs) os (map fst nested)).
      { intros s' Hi' Ef Es'. destruct (IH (length pre) s' pre os post nested) as (its & I1 & I2 & I3 & I4 & I5 & I6 & I7 & I8); auto.
        exists (MIField a :: its). split; [|split; [|split; [|split; [|split; [|split; [|split]]]]]].
        - unfold means in *. cbn [map]. rewrite tks_app. constructor; [|exact I1]. apply g_be_field; [exact St|exact Ga].
        - intros rest Hr. cbn [app den_fields]. rewrite Pa, Na. replace (Z.of_N (N.of_nat s)) with (Z.of_nat s) by lia. rewrite Ef. f_equal. rewrite <- (I2 rest Hr). f_equal. subst s'. destruct (optional3 f); rewrite ?len_cons, len_nil; lia.
        - exact I3.
        - cbn [flat_map filter]. unfold item_synthetic at 1. rewrite Na, I4. destruct (optional3 f); reflexivity.
        - cbn [flat_map]. unfold item_messages at 1. rewrite Ma, I5. reflexivity.
        - split; [exact Oa|exact I6].
        - exact I7.
        - exact I8. }
      destruct (optional3 f) eqn:E3.
      * cbn [map length seq] in Hi. injection Hi as Hi1 Hi2. apply (Main (S s)); [exact Hi2| |lia]. rewrite Ea. clear -Hx1 Hi1. destruct f; cbn in *; subst; reflexivity.
      * apply (Main s); [exact Hi| |lia]. rewrite Ea. specialize (Hix eq_refl). clear -Hx1 Hix. destruct f; cbn in *; subst; reflexivity.
Qed.
End Oneof.

(** ** Ranges *)
Lemma message_range_w ms lo hi : range_ok ms lo hi -> exists rr, g_range (tks (w_Z (num lo) ++ kw "to" :: w_range_end (num hi))) rr /\
  den_number (rr_start rr) = lo /\ den_range_end ms rr = hi /\ ok_range rr /\ rr_end rr <> RENone.
Proof.
  intros ((l & -> & Hl) & H). cbn [num]. destruct (Z_w l) as (i & Gi & Ei). destruct H as [(h & -> & Hh)|(-> & ->)]; cbn [num]; unfold w_range_end.
  - rewrite (proj2 (Z.eqb_neq h 2147483647)) by lia. destruct (Z_w (h - 1)) as (j & Gj & Ej). exists {| rr_start := i; rr_end := REInt j |}. split; [rewrite tks_app, tks_cons; now constructor|].
    unfold den_range_end, ok_range, ok_number, den_number. cbn [rr_start rr_end]. rewrite (if_within_in _ _ i l), (if_within_in _ _ j (h - 1)) by lia. cbn. repeat split; try lia; [f_equal; lia|discriminate].
  - rewrite Z.eqb_refl. exists {| rr_start := i; rr_end := REMax (0, 0) |}. split; [rewrite tks_app, tks_cons, tks_one; now constructor|].
    unfold den_range_end, ok_range, ok_number, den_number. cbn [rr_start rr_end]. rewrite (if_within_in _ _ i l) by lia. repeat split; try lia; discriminate.
Qed.
Lemma ext_range_w k ms r : range_ok ms (x_start r) (x_end r) -> options_ok (x_options r) ->
  meets (g_extensions k) (fun a x => map (den_ext_range ms (ex_options a)) (ex_ranges a) = [x] /\ ok_extensions a) (w_ext_range r) r.
Proof.
  intros Hr Ho. destruct (settings_w k _ Ho) as (ol & Go & Eo & Oo & No). destruct (message_range_w ms _ _ Hr) as (rr & Gr & E1 & E2 & E3 & E4).
  exists {| ex_ranges := [rr]; ex_options := ol; ex_comments := c0; ex_span := join_span (0, 0) (0, 0) |}. split.
  - unfold w_ext_range. replace (w_Z (num (x_start r)) ++ kw "to" :: w_range_end (num (x_end r)) ++ w_settings (x_options r) ++ [TSemicolon]) with ((w_Z (num (x_start r)) ++ kw "to" :: w_range_end (num (x_end r))) ++ w_settings (x_options r) ++ [TSemicolon]) by (rewrite <- app_assoc; reflexivity).
    set (rt := w_Z (num (x_start r)) ++ _) in *. rewrite tks_cons, (tks_app rt), tks_app. apply g_ext; [now constructor|exact Go| |exact I]. right. exists [], rr. split; [reflexivity|exact E4].
  - cbn [ex_options ex_ranges map]. split; [|split; [cbn; auto|right; exact Oo]]. unfold den_ext_range. rewrite E2, Eo, E1. destruct r; reflexivity.
Qed.

(** ** Lists *)
Lemma fm_map {A B X} (f : B -> list X) (c : A -> B) l : flat_map f (map c l) = flat_map (fun x => f (c x)) l.
Proof. induction l as [|x l IH]; [reflexivity|]. cbn. now rewrite IH. Qed.
Lemma fm_const {A X} (l : list A) : flat_map (fun _ => @nil X) l = []. Proof. induction l; auto. Qed.
Lemma fm_single {A X} (g : A -> X) l : flat_map (fun x => [g x]) l = map g l. Proof. induction l as [|x l IH]; [reflexivity|]. cbn. now rewrite IH. Qed.
Lemma filter_sub {A} (p q : A -> bool) l : (forall x, In x l -> p x = true -> q x = true) -> filter p (filter q l) = filter p l.
Proof.
  induction l as [|x l IH]; intros H; [reflexivity|]. cbn [filter]. assert (IH' : filter p (filter q l) = filter p l) by (apply IH; intros; apply H; auto; now right).
  destruct (q x) eqn:Eq; cbn [filter]; rewrite IH'; [reflexivity|]. destruct (p x) eqn:Ep; [|reflexivity]. rewrite (H x) in Eq; [discriminate|now left|exact Ep].
Qed.
Lemma fm_if {A X} (p : A -> bool) (g : A -> list X) l : flat_map (fun x => if p x then g x else []) l = flat_map g (filter p l).
Proof. induction l as [|x l IH]; [reflexivity|]. cbn. destruct (p x); cbn; now rewrite IH. Qed.
Lemma fm_drop {A X} (p : A -> bool) (g : A -> list X) l : (forall x, p x = false -> g x = []) -> flat_map g l = flat_map g (filter p l).
Proof. intros H. induction l as [|x l IH]; [reflexivity|]. cbn. destruct (p x) eqn:E; cbn; rewrite IH; [reflexivity|]. now rewrite H. Qed.
Lemma F2_fm {A B X} (f : A -> list X) (g : B -> list X) la l : Forall2 (fun a x => f a = g x) la l -> flat_map f la = flat_map g l.
Proof. induction 1; cbn; congruence. Qed.

Lemma all_map {A} (c : A -> mitem) (Q : mitem -> Prop) l : all (fun x => Q (c x)) l -> all Q (map c l). Proof. induction l; cbn; intuition. Qed.
Lemma den_rest k syn xa ea r s : den_fields k syn r s (map (fun x => MIExtend (B := body) x) xa ++ map (fun x => MIEnum x) ea) = [].
Proof. induction xa; [|exact IHxa]. induction ea; [reflexivity|exact IHea]. Qed.
(** The option message_set_wire_format. *)
Lemma set_format os l : map (fun o => den_option (op_body o)) os = l -> ok_options os ->
  message_set os = match find (fun u => match uo_name u with [(n, false)] => bytes_eqb n (b "message_set_wire_format") | _ => false end) l with
    | Some u => match uo_identifier u with Some i => bytes_eqb i (b "true") | None => false end | None => false end.
Proof.
  intros <-. unfold message_set. induction os as [|o os IH]; intros H; [reflexivity|]. destruct H as [H1 H2]. cbn [map find].
  assert (E : match uo_name (den_option (op_body o)) with [(n, false)] => bytes_eqb n (b "message_set_wire_format") | _ => false end = called (b "message_set_wire_format") (op_body o)).
  { rewrite den_option_name by exact H1. unfold called. destruct (ob_name (op_body o)) as [|[i|t sp] [|[?|? ?] ?]]; reflexivity. }
  rewrite E. destruct (called _ _); [|apply IH; exact H2]. unfold ok_option in H1. unfold den_option. destruct (ob_value (op_body o)) as [[|] ? ?| |[[|] ? ?]| |]; first [contradiction | reflexivity | destruct (i_neg _); reflexivity | idtac]. all: cbn. all: try (destruct i as [[|] ? ?]; reflexivity).
Qed.

(** ** Messages *)
Definition message_means (k : cfg) (p3 : bool) (a : message) (m : msg_desc) : Prop :=
  den_message_ (den_body k (syn_of p3)) a = m /\ ok_body k (syn_of p3) (ms_body a).
Lemma messages_w k p3 (l : list msg_desc) : (forall m, In m l -> exists n, meets (g_message (g_body_n k n)) (message_means k p3) (w_message p3 m) m) ->
  exists n la, g_many (g_message (g_body_n k n)) (tks (flat_map (w_message p3) l)) la /\ Forall2 (message_means k p3) la l.
Proof.
  induction l as [|m l IH]; intros H; [exists O, []; split; constructor|]. destruct IH as (n & la & Gl & Fl); [intros; apply H; now right|]. destruct (H m (or_introl eq_refl)) as (n' & a & Ga & Fa).
  exists (Nat.max n n'), (a :: la). split; [|now constructor]. cbn [flat_map]. rewrite tks_app. constructor.
  - eapply message_mono; [|exact Ga]. intros ts x. apply body_n_mono. lia.
  - eapply many_mono; [|exact Gl]. apply message_mono. intros ts x. apply body_n_mono. lia.
Qed.
Lemma nested_w k p3 (l : list msg_desc) : (forall m, In m l -> is_entry m = false -> exists n, meets (g_message (g_body_n k n)) (message_means k p3) (w_message p3 m) m) ->
  exists n, forall x, In x (map (fun m => (m, w_message p3 m)) l) -> is_entry (fst x) = false -> written_as (g_body_n k n) (den_body k (syn_of p3)) (ok_body k (syn_of p3)) x.
Proof.
  induction l as [|m l IH]; intros H; [exists O; intros x []|]. destruct IH as (n & Hn); [intros; apply H; auto; now right|].
  assert (M : forall n n' x, (n <= n')%nat -> written_as (g_body_n k n) (den_body k (syn_of p3)) (ok_body k (syn_of p3)) x -> written_as (g_body_n k n') (den_body k (syn_of p3)) (ok_body k (syn_of p3)) x).
  { intros n1 n2 x Hle (a & Ga & Ha). exists a. split; [|exact Ha]. eapply message_mono; [|exact Ga]. intros ts y. now apply body_n_mono. }
  destruct (is_entry m) eqn:E.
  - exists n. intros x [<-|Hx] Ex; [cbn in Ex; congruence|auto].
  - destruct (H m (or_introl eq_refl) E) as (n' & a & Ga & Fa). exists (Nat.max n n'). intros x [<-|Hx] Ex; [|apply (M n); [lia|auto]]. apply (M n'); [lia|]. exists a. split; [exact Ga|exact Fa].
Qed.
Lemma message_w k p3 m : message_ok p3 m -> exists n, meets (g_message (g_body_n k n)) (message_means k p3) (w_message p3 m) m.
Proof.
  induction 1 as [name fields exts nested enums xrs oneofs options rrs rns written Hname Hopt Hx Hf Hm Hk Hoo Heo Hidx Hexts Hsub IH Henums Hxrs Hrrs Hrns].
  pose (D := den_body k (syn_of p3)). pose (V := ok_body k (syn_of p3)).
  destruct (nested_w k p3 nested IH) as (n & Hn). set (G := g_body_n k n) in *.
  assert (Ho : options_ok (match options with Some o => Some (mo_uninterpreted o) | None => None end)) by (destruct Hopt as [-> | (l & -> & H1 & H2)]; [exact I|split; assumption]).
  destruct (options_w k _ Ho) as (os & Go & Eo & Oo). pose (ms := message_set os).
  assert (Ems : message_set_format options = ms).
  { unfold ms, message_set_format. symmetry. apply set_format; [|exact Oo]. unfold den_options in Eo. destruct options as [o|]; [|destruct os; [reflexivity|discriminate Eo]]. destruct os; [discriminate Eo|]. cbn [map nonempty] in *. now injection Eo as ->. }
  rewrite Ems in Hxrs, Hrrs. destruct (runs_shape fields) as [Er Sr].
  destruct (runs_w k G D V p3 oneofs (runs fields) 0 (length written) [] written (map own_oneof (filter optional3 fields)) (map (fun m => (m, w_message p3 m)) nested) Sr) as (its & Gi & Di & Ri & Si & Mi & Oi & Xi & Ni);
    [now rewrite Er|now rewrite Er|rewrite Er, map_map; cbn [fst]; rewrite map_id; exact Hm|exact Heo|reflexivity|exact Hoo|exact Hk|rewrite Er; exact Hidx|exact Hn|].
  rewrite Er in Di, Si. rewrite map_map in Mi. cbn [fst] in Mi. rewrite map_id in Mi.
  destruct (many_w (g_extend k G) (fun a f => den_extend k (syn_of p3) a = [f] /\ (ok_extend k (syn_of p3) V a /\ flat_map (den_field_messages D) (et_fields a) = [])) (w_extension p3) exts) as (xa & Gx & Fx).
  { intros f Hi. rewrite Forall_forall in Hexts. destruct (extension_w k G D V p3 f (Hexts f Hi)) as (a & G1 & G2 & G3 & G4). exists a. auto. }
  destruct (many_w (g_enum k) (fun a x => den_enum_ a = x /\ ok_enum a) w_enum enums) as (ea & Ge & Fe); [intros e He'; apply enum_w; rewrite Forall_forall in Henums; auto|].
  destruct (many_w (g_extensions k) (fun a x => map (den_ext_range ms (ex_options a)) (ex_ranges a) = [x] /\ ok_extensions a) w_ext_range xrs) as (ra & Gra & Fra); [intros r Hr; rewrite Forall_forall in Hxrs; destruct (Hxrs r Hr); apply ext_range_w; auto|].
  destruct (ranges_w (den_range ms) ok_range w_message_range rrs) as (rs & Grs & Ers & Ors & Nrs).
  { intros r Hr. rewrite Forall_forall in Hrrs. destruct (message_range_w ms _ _ (Hrrs r Hr)) as (rr & Gr & E1 & E2 & E3 & _). exists rr, (w_Z (num (r_start r)) ++ kw "to" :: w_range_end (num (r_end r))).
    split; [unfold w_message_range; rewrite <- app_assoc; reflexivity|]. split; [exact Gr|]. split; [|exact E3]. unfold den_range. rewrite E2, E1. destruct r; reflexivity. }
  destruct (names_w _ Hrns) as (ns & Gn & Enm & Nn).
  destruct Hname as (nm & Enam & _).
  pose (items_ := its ++ map (fun x => MIExtend (B := body) x) xa ++ map (fun x => MIEnum x) ea). pose (bd := Body items_ ra os (rs ++ ns)).
  exists (S n), {| ms_name := {| id_val := nm; id_span := (0, 0) |}; ms_body := bd; ms_comments := c0; ms_span := join_span (0, 0) (0, 0) |}. split; [|split].
  - rewrite Enam. cbn [w_message]. unfold w_braces. cbn [text]. rewrite !tks_cons. apply g_ms; [|exact I]. rewrite tks_app.
    exists (tks (flat_map w_option (match options with Some o => mo_uninterpreted o | None => [] end) ++ w_runs p3 oneofs (runs fields) (map (fun n => (n, w_message p3 n)) nested) ++
       flat_map (w_extension p3) exts ++ flat_map w_enum enums ++ flat_map w_ext_range xrs ++ flat_map w_message_range rrs ++ flat_map w_reserved_name rns)),
      (map BEOption os ++ map (fun x => BEItem x) its ++ map (fun x => BEItem (MIExtend x)) xa ++ map (fun x => BEItem (MIEnum x)) ea ++ map BEExtensions ra ++ map BEReserved rs ++ map BEReserved ns).
    split; [|split; [reflexivity|]].
    + rewrite !tks_app. repeat apply many_app.
      * eapply many_map; [apply g_be_option|]. destruct options; exact Go.
      * exact Gi.
      * eapply many_map; [|exact Gx]. apply g_be_extend.
      * eapply many_map; [apply g_be_enum|exact Ge].
      * eapply many_map; [apply g_be_extensions|exact Gra].
      * eapply many_map; [apply g_be_reserved|exact Grs].
      * eapply many_map; [apply g_be_reserved|exact Gn].
    + cbn [fst]. unfold bd, items_. rewrite !flat_map_app, !fm_map. unfold be_item, be_option, be_extensions, be_reserved. rewrite !fm_const, !fm_single, !map_id, ?app_nil_r. reflexivity.
  - unfold den_message_. cbn [ms_name ms_body id_val]. unfold bd. cbn [den_body]. fold D. fold ms. unfold with_name. rewrite <- Enam.
    apply F2_and in Fx. destruct Fx as [Fx1 Fx2]. apply F2_and in Fx2. destruct Fx2 as [_ Fx2]. apply F2_and in Fe. destruct Fe as [Fe _]. apply F2_and in Fra. destruct Fra as [Fra _]. apply F2_map in Fe.
    assert (R : flat_map item_real items_ = written).
    { unfold items_. rewrite !flat_map_app, Ri, !fm_map. cbn [item_real]. rewrite !fm_const, !app_nil_r. reflexivity. }
    f_equal.
    + rewrite R. unfold items_. change 0 with (N.of_nat 0) at 1. apply Di. intros. apply den_rest.
    + unfold items_. rewrite !flat_map_app, Xi, !fm_map. cbn [item_extensions]. rewrite !fm_const, app_nil_r. cbn [app]. rewrite (F2_fm (fun x => den_extend k (syn_of p3) x) (fun f => [f]) _ _ Fx1), fm_single, map_id. reflexivity.
    + unfold items_. rewrite !flat_map_app, Mi, !fm_map. cbn [item_messages]. rewrite fm_const. rewrite (F2_fm _ (fun f => []) _ _ Fx2), fm_const, !app_nil_r. reflexivity.
    + unfold items_. rewrite !flat_map_app, Ni, !fm_map. cbn [item_enums]. rewrite !fm_const. cbn [app]. rewrite fm_single. exact Fe.
    + unfold den_extensions. rewrite (F2_fm _ (fun f => [f]) _ _ Fra), fm_single, map_id. reflexivity.
    + rewrite R, Heo. f_equal. unfold items_. rewrite !flat_map_app, Si, !fm_map. cbn [item_synthetic]. rewrite !fm_const, !app_nil_r. reflexivity.
    + rewrite Eo. destruct Hopt as [-> | (l & -> & H1 & H2)]; reflexivity.
    + rewrite flat_map_app, Nn, app_nil_r. exact Ers.
    + unfold den_reserved_names in *. rewrite flat_map_app, Nrs. exact Enm.
  - cbn [ms_body]. unfold bd. cbn [ok_body]. fold V. apply F2_and in Fx. destruct Fx as [_ Fx]. apply F2_and in Fx. destruct Fx as [Fx _]. apply F2_and in Fe. destruct Fe as [_ Fe]. apply F2_and in Fra. destruct Fra as [_ Fra]. apply F2_all in Fx, Fe, Fra.
    split; [|split; [rewrite flat_map_app, Nn, app_nil_r; exact Ors|split; [exact Fra|exact Oo]]].
    unfold items_. apply all_app. split; [exact Oi|]. apply all_app. split; apply all_map; assumption.
Qed.
