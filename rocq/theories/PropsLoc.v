(** C14, C15: source locations. *)
From Coq Require Import Sorting.Sorted Sorting.Permutation.
From Verif Require Import Base SynSpec Utf8 Errors Lex Ast Parse Lines Descriptor Generate ParseApi PropsLines LexSafe Stream Grammar Walk WalkG3 Meaning Erase AstWf
  GenProofs AstWfG PropsParse DescSpec DescLemmas PropsDesc PropsTokens LocSpec AstNames.

Lemma follow_app q : forall p e, follow e (p ++ q) = match follow e p with Some e' => follow e' q | None => None end.
Proof. induction p as [|x p IH]; intros e; cbn [app follow]; [reflexivity|]. destruct (member e x); auto. Qed.
Lemma snoc2 (p : list Z) a c : p ++ [a; c] = (p ++ [a]) ++ [c].
Proof. now rewrite <- app_assoc. Qed.

Lemma all_intro {A} (Q : A -> Prop) l : (forall x, In x l -> Q x) -> all Q l.
Proof. intros H. apply all_Forall. now apply Forall_forall. Qed.

Lemma m_name_with nm d : m_name (with_name nm d) = nm.
Proof. now destruct d. Qed.

Section Pass.
Variable n : N.
Variable r : elem.
Variable I : bytes -> span -> Prop.
Notation sok := (span_ok n).

Definition leads (p : list Z) (e : elem) : Prop := follow r p = Some e.
Definition excused (p : list Z) : Prop :=
  exists q f, p = q ++ [8%Z] /\ leads q (EField f) /\ f_options f = None /\ (f_json_name f <> None \/ f_default f <> None).
Definition shown (p : list Z) (sp : span) (s : bytes) : Prop :=
  I s sp \/ exists q f t, p = q ++ [1%Z] /\ leads q (EField f) /\ f_type f = Some FTGroup /\ s = map lower t /\ I t sp.
Definition good (x : rawloc) : Prop :=
  let '(p, sp, _) := x in
  sok sp /\ ((exists e, leads p e) \/ excused p) /\ (forall s, leads p (EName s) -> shown p sp s).

Lemma lead1 p e t e' : leads p e -> member e t = Some e' -> leads (p ++ [t]) e'.
Proof. unfold leads. intros H M. rewrite follow_app, H. cbn [follow]. now rewrite M. Qed.
Lemma lead_idx p l x i pre post : leads p (EList l) -> l = pre ++ x :: post -> i = len pre -> leads (p ++ [Z.of_N i]) x.
Proof.
  intros H -> ->. eapply lead1; [exact H|]. cbn [member]. destruct (Z.of_N (len pre) <? 0)%Z eqn:E; [apply Z.ltb_lt in E; lia|].
  rewrite Z2Nat.inj_0 || idtac. replace (Z.to_nat (Z.of_N (len pre))) with (length pre) by (unfold len; lia).
  rewrite nth_error_app2 by lia. now rewrite Nat.sub_diag.
Qed.
Lemma lead_many {A} (c : A -> elem) p e t (l pre post : list A) x i :
  leads p e -> member e t = many c l -> l = pre ++ x :: post -> i = len pre -> leads (p ++ [t; Z.of_N i]) (c x).
Proof.
  intros H M -> ->. rewrite snoc2. eapply lead_idx; [eapply lead1; [exact H|exact M]|rewrite map_app; reflexivity|unfold len; now rewrite map_length].
Qed.

Lemma good_val p sp c e : leads p e -> match e with EName _ => False | _ => True end -> sok sp -> good (p, sp, c).
Proof. intros H N S. split; [exact S|]. split; [eauto|]. intros s H'. unfold leads in *. rewrite H in H'. injection H' as ->. destruct N. Qed.
Lemma good_name p sp c s : leads p (EName s) -> I s sp -> sok sp -> good (p, sp, c).
Proof. intros H N S. split; [exact S|]. split; [eauto|]. intros s' H'. unfold leads in *. rewrite H in H'. injection H' as ->. now left. Qed.
Lemma good_excused p sp c : excused p -> sok sp -> good (p, sp, c).
Proof.
  intros H S. split; [exact S|]. split; [auto|]. intros s H'. destruct H as (q & f & -> & H & E & _). exfalso. unfold leads in *.
  rewrite follow_app, H in H'. cbn in H'. rewrite E in H'. discriminate.
Qed.

Lemma good_idx {A} (f : Z -> A -> list rawloc) (c : A -> elem) p (l : list A) : forall i pre post,
  leads p (EList (pre ++ map c l ++ post)) -> i = len pre ->
  (forall j x, In x l -> leads (p ++ [Z.of_N j]) (c x) -> Forall good (f (Z.of_N j) x)) -> Forall good (l_idx f i l).
Proof.
  induction l as [|x l IH]; intros i pre post H E F; cbn [l_idx]; [constructor|]. apply Forall_app. split.
  - apply F; [now left|]. eapply lead_idx; [exact H| |exact E]. reflexivity.
  - apply (IH (i + 1) (pre ++ [c x]) post); [now rewrite <- app_assoc| |intros j y Hy; apply F; now right]. rewrite len_app. subst. reflexivity.
Qed.

Lemma options_good p l me : (l <> [] -> leads p (EOpts me (map (fun o => den_option (op_body o)) l))) -> Forall (wf_option n) l -> Forall good (l_options p l).
Proof.
  intros H W. destruct l as [|o0 l0]; [constructor|]. specialize (H ltac:(discriminate)). revert H. set (l := o0 :: l0) in *. clearbody l. intros H.
  unfold l_options. pose proof (lead1 _ _ 999%Z _ H eq_refl) as H'. rewrite map_map in H'.
  assert (K : forall i pre, leads (p ++ [999%Z]) (EList (pre ++ map (fun o => EOpt (den_option (op_body o))) l)) -> i = len pre ->
    Forall good (l_idx (fun i o => [at_ p (op_span o); (p ++ [999%Z; i], op_span o, op_comments o)]) i l)).
  { intros i pre Hl E. apply (good_idx _ (fun o => EOpt (den_option (op_body o))) (p ++ [999%Z]) l i pre []); [now rewrite app_nil_r|exact E|].
    intros j o Ho Hj. rewrite Forall_forall in W. destruct (W _ Ho) as [_ S]. constructor; [|constructor; [|constructor]].
    - eapply good_val; [exact H|exact Logic.I|exact S].
    - rewrite snoc2. eapply good_val; [exact Hj|exact Logic.I|exact S]. }
  apply (K 0 []); [exact H'|reflexivity].
Qed.
Lemma optlist_good p ol :
  wf_optlist n ol -> (forall l, ol = Some l -> ol_options l <> [] -> leads p (EOpts None (map den_option (ol_options l)))) ->
  (forall l, ol = Some l -> ol_options l = [] -> excused p) -> Forall good (l_optlist p ol).
Proof.
  intros W H X. destruct ol as [l|]; [|constructor]. cbn [l_optlist]. destruct W as (W1 & W2 & W3).
  destruct (ol_options l) as [|o0 l0] eqn:E.
  - constructor; [|constructor]. apply good_excused; eauto.
  - specialize (H l eq_refl). rewrite E in H. specialize (H ltac:(discriminate)). revert H W1. clear E W2 X. set (os := o0 :: l0). clearbody os. intros H W1.
    constructor; [eapply good_val; [exact H|exact Logic.I|exact W3]|].
    pose proof (lead1 _ _ 999%Z _ H eq_refl) as H'. rewrite map_map in H'.
    apply (good_idx _ (fun o => EOpt (den_option o)) (p ++ [999%Z]) os 0 [] []); [rewrite app_nil_r; exact H'|reflexivity|].
    intros j o Ho Hj. rewrite Forall_forall in W1. destruct (W1 _ Ho) as (_ & (sp & Es & S) & _). constructor; [|constructor].
    rewrite snoc2. eapply good_val; [exact Hj|exact Logic.I|]. unfold body_span. now rewrite Es.
Qed.
(** Options that are always kept. *)
Lemma optlist_good' p ol : n_optlist ol -> wf_optlist n ol -> (den_optlist ol <> None -> leads p (EOpts None (map den_option (optlist_options ol)))) -> Forall good (l_optlist p ol).
Proof.
  intros N W H. apply optlist_good; [exact W| |].
  - intros l -> Hl. apply H. cbn [den_optlist optlist_options]. unfold den_optlist. cbn. destruct (ol_options l); [congruence|discriminate].
  - intros l -> Hl. cbn in N. congruence.
Qed.
Lemma nonempty_some {A} (l : list A) : l <> [] -> nonempty l = Some l.
Proof. destruct l; [congruence|reflexivity]. Qed.
Lemma lead_optlist p e t ol : leads p e -> member e t = if_opts (den_optlist ol) -> den_optlist ol <> None -> leads (p ++ [t]) (EOpts None (map den_option (optlist_options ol))).
Proof.
  intros H M N. eapply lead1; [exact H|]. rewrite M. unfold den_optlist in *. destruct (map den_option (optlist_options ol)) as [|u us]; [now cbn in N|reflexivity].
Qed.
Lemma lead_options p e t l : leads p e -> member e t = if_opts (den_options l) -> l <> [] -> leads (p ++ [t]) (EOpts None (map (fun o => den_option (op_body o)) l)).
Proof. intros H M N. eapply lead1; [exact H|]. rewrite M. unfold den_options. destruct l; [congruence|reflexivity]. Qed.

(** Ranges. *)
Lemma within_some lo hi i : (lo <= int_value i <= hi)%Z -> if_within lo hi i = Some (int_value i).
Proof. intros [H1 H2]. unfold if_within, within. apply Z.leb_le in H1, H2. now rewrite H1, H2. Qed.
Lemma range_good p rr e : leads p e -> (exists x, member e 1%Z = if_val (Some x : option Z)) -> (exists x, member e 2%Z = if_val (Some x : option Z)) ->
  match e with EName _ => False | _ => True end -> wf_range n rr -> Forall good (l_range p rr).
Proof.
  intros H (x & M1) (y & M2) E (W1 & W2 & W3). constructor; [|constructor; [|constructor; [|constructor]]].
  - eapply good_val; [exact H|exact E|exact W3].
  - eapply good_val; [eapply lead1; [exact H|exact M1]|exact Logic.I|exact W1].
  - eapply good_val; [eapply lead1; [exact H|exact M2]|exact Logic.I|exact W2].
Qed.
Lemma ok_number_some i : ok_number i -> exists z, den_number i = Some z.
Proof. intros H. eexists. now apply within_some. Qed.
Lemma ok_enum_number_some i : ok_enum_number i -> exists z, den_enum_number i = Some z.
Proof. intros H. eexists. now apply within_some. Qed.
Lemma range_end_some ms rr : ok_range rr -> exists z, den_range_end ms rr = Some z.
Proof.
  intros [H1 H2]. unfold den_range_end. destruct (ok_number_some _ H1) as (z & E). destruct (rr_end rr) as [|v|sp]; [rewrite E; cbn; eauto| |eauto].
  destruct (ok_number_some _ H2) as (z' & E'). rewrite E'. cbn; eauto.
Qed.

Lemma reserved_good (c : rrange -> reserved_range) (okr : rrange -> Prop) rt nt p e rs : forall i j (Rs : list reserved_range) (Ns : list bytes),
  leads p e -> member e rt = many ERange (Rs ++ map c (flat_map res_ranges rs)) -> member e nt = many EText (Ns ++ den_reserved_names rs) ->
  i = len Rs -> j = len Ns -> all okr (flat_map res_ranges rs) ->
  (forall x, okr x -> (exists z, r_start (c x) = Some z) /\ (exists z, r_end (c x) = Some z)) ->
  Forall (wf_reserved n) rs -> Forall good (l_reserved rt nt p i j rs).
Proof.
  induction rs as [|x rs IH]; intros i j Rs Ns H M1 M2 Ei Ej Ok Hc W; cbn [l_reserved]; [constructor|].
  inversion W as [|? ? [S W1] W2]; subst x0 l. unfold den_reserved_names in *. cbn [flat_map] in *. rewrite map_app in *.
  assert (Ok1 : all okr (res_ranges x)). { apply all_intro. intros y Hy. apply (all_In _ _ _ Ok). apply in_or_app. now left. }
  assert (Ok2 : all okr (flat_map res_ranges rs)). { apply all_intro. intros y Hy. apply (all_In _ _ _ Ok). apply in_or_app. now right. }
  apply Forall_app. split.
  - assert (Er : res_ranges x = match rs_kind x with RKRanges l => l | RKNames _ => [] end) by reflexivity.
    assert (En : res_names x = match rs_kind x with RKNames l => l | RKRanges _ => [] end) by reflexivity.
    rewrite Er in M1, Ok1. rewrite En in M2. clear Er En. destruct (rs_kind x) as [l|l].
    + constructor; [eapply good_val; [eapply lead1; [exact H|exact M1]|exact Logic.I|exact S]|].
      apply (good_idx _ (fun y => ERange (c y)) (p ++ [rt]) l i (map ERange Rs) (map ERange (map c (flat_map res_ranges rs)))).
      * eapply lead1; [exact H|]. rewrite M1. unfold many. rewrite !map_app, map_map. reflexivity.
      * unfold len. now rewrite map_length.
      * intros m y Hy Hm. rewrite snoc2. apply (all_In _ _ _ Ok1) in Hy as Hy1. destruct (Hc _ Hy1) as ((z1 & Z1) & (z2 & Z2)).
        eapply range_good; [exact Hm|exists z1; cbn; now rewrite Z1|exists z2; cbn; now rewrite Z2|exact Logic.I|]. rewrite Forall_forall in W1. auto.
    + constructor; [eapply good_val; [eapply lead1; [exact H|exact M2]|exact Logic.I|exact S]|].
      apply (good_idx _ (fun y => EText (id_val y)) (p ++ [nt]) l j (map EText Ns) (map EText (map id_val (flat_map res_names rs)))).
      * eapply lead1; [exact H|]. rewrite M2. unfold many. rewrite !map_app, map_map. reflexivity.
      * unfold len. now rewrite map_length.
      * intros m y Hy Hm. constructor; [|constructor]. rewrite snoc2. eapply good_val; [exact Hm|exact Logic.I|]. rewrite Forall_forall in W1. auto.
  - apply (IH _ _ (Rs ++ map c (res_ranges x)) (Ns ++ map id_val (res_names x))); auto.
    + now rewrite <- app_assoc.
    + now rewrite <- app_assoc.
    + rewrite len_app. subst i. unfold len. now rewrite map_length.
    + rewrite len_app. subst j. unfold len. now rewrite map_length.
Qed.

(** Enums. *)
Lemma enum_value_good p v : leads p (EValue (den_enum_value v)) -> ok_enum_value v -> wf_enum_value n v -> n_ident I (ev_name v) -> n_optlist (ev_options v) -> Forall good (l_enum_value p v).
Proof.
  intros H [O1 O2] (W1 & W2 & W3 & W4) N1 N2. unfold l_enum_value. destruct (ok_enum_number_some _ O1) as (z & Ez).
  constructor; [eapply good_val; [exact H|exact Logic.I|exact W1]|].
  constructor; [eapply good_name; [eapply lead1; [exact H|reflexivity]|exact N1|exact W2]|].
  constructor; [eapply good_val; [eapply lead1; [exact H|cbn; rewrite Ez; reflexivity]|exact Logic.I|exact W3]|].
  apply optlist_good'; auto. intros N. eapply lead_optlist; eauto.
Qed.
Lemma enum_good p e : leads p (EEnum (den_enum_ e)) -> ok_enum e -> wf_enum n e -> n_enum I e -> Forall good (l_enum p e).
Proof.
  intros H (O1 & O2 & O3) (W1 & W2 & W3 & W4 & W5 & W6) [N1 N2]. unfold l_enum.
  constructor; [eapply good_val; [exact H|exact Logic.I|exact W1]|].
  constructor; [eapply good_name; [eapply lead1; [exact H|reflexivity]|exact N1|exact W2]|].
  apply Forall_app. split; [|apply Forall_app; split].
  - apply (good_idx _ (fun v => EValue (den_enum_value v)) (p ++ [2%Z]) (en_values e) 0 [] []).
    + rewrite app_nil_r. eapply lead1; [exact H|]. cbn. unfold many. now rewrite map_map.
    + reflexivity.
    + intros j v Hv Hj. rewrite snoc2. rewrite Forall_forall in W3, N2. destruct (N2 _ Hv). apply enum_value_good; auto. exact (all_In _ _ _ O1 Hv).
  - apply (reserved_good den_enum_range ok_enum_range 4%Z 5%Z p _ (en_reserved e) 0 0 [] []) with (1 := H); auto.
    + intros x [X1 X2]. destruct (ok_enum_number_some _ X1) as (z & Ez). cbn. rewrite Ez. split; [eauto|]. destruct (rr_end x); [eauto| |eauto]. now apply ok_enum_number_some.
    + apply W5.
  - apply (options_good _ _ None); [|apply W6]. intros N. eapply lead_options; eauto.
Qed.

(** Services. *)
Lemma tname_sok t : wf_tname n t -> sok (tname_span t).
Proof. intros (_ & sp & E & S). unfold tname_span. now rewrite E. Qed.
Lemma method_good p m : leads p (EMethod (den_method m)) -> wf_method n m -> n_ident I (me_name m) -> Forall good (l_method p m).
Proof.
  intros H (W1 & W2 & W3 & W4 & W5 & W6 & W7) N1. unfold l_method.
  constructor; [eapply good_val; [exact H|exact Logic.I|exact W1]|].
  constructor; [eapply good_name; [eapply lead1; [exact H|reflexivity]|exact N1|exact W2]|].
  constructor; [eapply good_val; [eapply lead1; [exact H|reflexivity]|exact Logic.I|now apply tname_sok]|].
  constructor; [eapply good_val; [eapply lead1; [exact H|reflexivity]|exact Logic.I|now apply tname_sok]|].
  apply Forall_app. split; [|apply Forall_app; split].
  - destruct (me_client m) eqn:E; constructor; [|constructor]. eapply good_val; [eapply lead1; [exact H|cbn; rewrite E; reflexivity]|exact Logic.I|exact W5].
  - destruct (me_server m) eqn:E; constructor; [|constructor]. eapply good_val; [eapply lead1; [exact H|cbn; rewrite E; reflexivity]|exact Logic.I|exact W6].
  - apply (options_good _ _ None); [|apply W7]. intros N. eapply lead_options; eauto.
Qed.
Lemma service_good p s : leads p (EService (den_service_ s)) -> wf_service n s -> n_service I s -> Forall good (l_service p s).
Proof.
  intros H (W1 & W2 & W3 & W4 & W5) [N1 N2]. unfold l_service.
  constructor; [eapply good_val; [exact H|exact Logic.I|exact W1]|].
  constructor; [eapply good_name; [eapply lead1; [exact H|reflexivity]|exact N1|exact W2]|].
  apply Forall_app. split.
  - apply (good_idx _ (fun v => EMethod (den_method v)) (p ++ [2%Z]) (sv_methods s) 0 [] []).
    + rewrite app_nil_r. eapply lead1; [exact H|]. cbn. unfold many. now rewrite map_map.
    + reflexivity.
    + intros j v Hv Hj. rewrite snoc2. rewrite Forall_forall in W3, N2. apply method_good; auto.
  - apply (options_good _ _ None); [|apply W5]. intros N. eapply lead_options; eauto.
Qed.

(** Fields. *)
Section Fields.
Variable k : cfg.
Variable syn : syntax.
Notation dbd := (den_body k syn).
Notation okb := (ok_body k syn).
Notation lbd := (l_body k syn).
Definition same (D D' : field_desc) : Prop :=
  f_name D = f_name D' /\ f_number D = f_number D' /\ f_label D = f_label D' /\ f_type D = f_type D' /\
  f_type_name D = f_type_name D' /\ f_default D = f_default D' /\ f_json_name D = f_json_name D' /\ f_options D = f_options D'.
Definition body_good (bd : body) : Prop :=
  forall p nm, leads p (EMsg (with_name nm (dbd bd))) -> okb bd -> wf_body n bd -> n_body I bd -> Forall good (lbd p bd).

Lemma drop_none nm l : find (called nm) l = None -> drop_called nm l = l.
Proof. induction l as [|o l IH]; cbn; auto. destruct (called nm o); [discriminate|]. intros H. now rewrite IH. Qed.
Lemma drop_nil nm l : drop_called nm l = [] -> l <> [] -> find (called nm) l <> None.
Proof. destruct l as [|o l]; [congruence|]. cbn. destruct (called nm o); intros; discriminate. Qed.
Lemma drop_In nm l o : In o (drop_called nm l) -> In o l.
Proof. induction l as [|x l IH]; cbn; auto. destruct (called nm x); cbn; intuition. Qed.
Lemma wf_rest (f : field) : wf_optlist n (fd_options f) -> wf_optlist n (rest_options f).
Proof.
  unfold rest_options. destruct (fd_options f) as [l|]; cbn; auto. intros (W1 & W2 & W3). split; [|split; [|exact W3]].
  - rewrite Forall_forall in *. intros o Ho. apply W1. eapply drop_In, drop_In; eauto.
  - assert (E : forall nm l, len (drop_called nm l) <= len l). { clear. intros nm l. induction l as [|o l IH]; cbn [drop_called]; [apply N.le_refl|]. destruct (called nm o); rewrite ?len_cons in *; lia. }
    eapply N.le_trans; [apply E|]. eapply N.le_trans; [apply E|exact W2].
Qed.
Lemma wf_found (f : field) nm o : wf_optlist n (fd_options f) -> find (called nm) (optlist_options (fd_options f)) = Some o -> wf_body_ n o.
Proof.
  intros W E. apply find_some in E. destruct E as [E _]. destruct (fd_options f) as [l|]; [|destruct E]. destruct W as (W & _). rewrite Forall_forall in W. auto.
Qed.

Lemma field_good sc fp mp (f : field) D :
  leads fp (EField D) -> same D (den_field k syn sc None f) -> ok_field k syn okb sc f -> wf_field n (wf_body n) f -> n_field I (n_body I) f ->
  (forall tsp bd, fd_kind f = FKGroup tsp bd -> leads mp (EMsg (with_name (Some (id_val (fd_name f))) (dbd bd)))) -> on_kind body_good f ->
  Forall good (l_field syn lbd sc fp mp f).
Proof.
  intros H (S1 & S2 & S3 & S4 & S5 & S6 & S7 & S8) (O1 & O2 & O3 & O4) (W1 & W2 & W3 & W4 & W5 & W6) (N1 & N2 & N3) Hm Hk.
  assert (Mn : f_number D = Some (int_value (fd_number f))). { rewrite S2. unfold den_field. destruct (fd_kind f); cbn; now apply within_some. }
  unfold l_field. apply Forall_app. split; [|apply Forall_app; split; [|apply Forall_app; split]].
  - constructor; [|constructor; [|constructor]].
    + split; [exact W2|]. split.
      * left. unfold den_field in S1. destruct (fd_kind f); eexists; (eapply lead1; [exact H|]); cbn; rewrite S1; reflexivity.
      * intros s Hs. unfold leads in Hs. rewrite follow_app in Hs. unfold leads in H. rewrite H in Hs. cbn in Hs. rewrite S1 in Hs.
        destruct (fd_kind f) as [t tsp|gsp gb|msp kt ks vt vs] eqn:E; unfold den_field in Hs; rewrite E in Hs; cbn in Hs; injection Hs as <-.
        -- left. exact N1.
        -- right. exists fp, D, (id_val (fd_name f)). repeat split; auto. rewrite S4. unfold den_field. now rewrite E.
        -- left. exact N1.
    + eapply good_val; [eapply lead1; [exact H|cbn; rewrite Mn; reflexivity]|exact Logic.I|exact W3].
  - assert (Hl : fd_kind f = fd_kind f -> (match fd_kind f with FKMap _ _ _ _ _ => False | _ => True end) -> Forall good (l_label syn fp sc (fd_label f))).
    { intros _ Hk'. unfold l_label. destruct (den_label syn sc (fd_label f)) as [lab|] eqn:El; [|constructor].
      assert (El' : f_label D = Some lab). { rewrite S3, <- El. unfold den_field. destruct (fd_kind f); [reflexivity|reflexivity|destruct Hk']. }
      destruct (fd_label f) as [[fl sp]|]; [|constructor]. constructor; [|constructor].
      eapply good_val; [eapply lead1; [exact H|cbn; rewrite El'; reflexivity]|exact Logic.I|exact W6]. }
    assert (Hd : match fd_kind f with FKNormal _ _ => True | _ => False end -> Forall good (l_default fp f)).
    { intros Hk'. unfold l_default. destruct (default_of f) as [o|] eqn:Ed; constructor; [|constructor].
      assert (Ed' : exists v, f_default D = Some v).
      { rewrite S6. unfold den_field. destruct (fd_kind f); [|destruct Hk'|destruct Hk']. cbn. rewrite Ed. destruct O2 as (_ & _ & _ & O2). destruct (den_default _ _ _); [eauto|congruence]. }
      destruct Ed' as (v & Ed'). eapply good_val; [eapply lead1; [exact H|cbn; rewrite Ed'; reflexivity]|exact Logic.I|].
      destruct (wf_found f _ _ W5 Ed) as (_ & _ & S & _). exact S. }
    destruct (fd_kind f) as [t tsp|gsp gb|msp kt ks vt vs] eqn:E.
    + specialize (Hl eq_refl Logic.I). specialize (Hd Logic.I). destruct W4 as [Wt Ws].
      assert (Et : f_type D = scalar_type t /\ f_type_name D = ty_text t). { rewrite S4, S5. unfold den_field. rewrite E. auto. } destruct Et as [Et1 Et2].
      assert (Hf : good (fp, fd_span f, fd_comments f)) by (eapply good_val; [exact H|exact Logic.I|exact W1]).
      destruct t as [| | | | | | | | | | | | | | |tn];
        try (apply Forall_app; split; [exact Hl|]; apply Forall_app; split; [exact Hd|]; constructor; [exact Hf|]; constructor; [|constructor];
             eapply good_val; [eapply lead1; [exact H|cbn; rewrite Et1; reflexivity]|exact Logic.I|exact Ws]).
      apply Forall_app; split; [exact Hl|]. apply Forall_app; split; [|exact Hd]. constructor; [exact Hf|]. constructor; [|constructor].
      eapply good_val; [eapply lead1; [exact H|cbn; rewrite Et2; reflexivity]|exact Logic.I|now apply tname_sok].
    + specialize (Hl eq_refl Logic.I). destruct W4 as (Wt & Wb & Wc). specialize (Hm _ _ eq_refl). unfold on_kind in Hk. rewrite E in Hk.
      apply Forall_app; split; [exact Hl|]. apply Forall_app; split.
      * constructor; [eapply good_val; [exact H|exact Logic.I|exact W1]|].
        constructor; [eapply good_val; [eapply lead1; [exact H|cbn; rewrite S4; unfold den_field; rewrite E; reflexivity]|exact Logic.I|exact Wt]|].
        constructor; [eapply good_val; [eapply lead1; [exact H|cbn; rewrite S5; unfold den_field; rewrite E; reflexivity]|exact Logic.I|exact W2]|].
        constructor; [eapply good_val; [exact Hm|exact Logic.I|exact W1]|].
        constructor; [eapply good_name; [eapply lead1; [exact Hm|destruct gb; reflexivity]|exact N1|exact W2]|constructor].
      * eapply Hk; [exact Hm|apply O2|exact Wb|exact N3].
    + destruct W4 as (Wt & _). constructor; [eapply good_val; [exact H|exact Logic.I|exact W1]|]. constructor; [|constructor].
      eapply good_val; [eapply lead1; [exact H|cbn; rewrite S5; unfold den_field; rewrite E; reflexivity]|exact Logic.I|exact Wt].
  - destruct (json_of f) as [o|] eqn:Ej; [|constructor].
    assert (Ej' : exists v, f_json_name D = Some v).
    { rewrite S7. destruct (den_string (ob_value o)) as [v|] eqn:Es; [|congruence]. exists v. unfold den_field. destruct (fd_kind f); cbn; rewrite Ej; exact Es. }
    destruct Ej' as (v & Ej'). destruct (wf_found f _ _ W5 Ej) as (_ & (sp & Es & S) & S' & _).
    constructor; [|constructor; [|constructor]]; (eapply good_val; [eapply lead1; [exact H|cbn; rewrite Ej'; reflexivity]|exact Logic.I|]); [unfold body_span; now rewrite Es|exact S'].
  - assert (Eo : f_options D = den_optlist (rest_options f)). { rewrite S8. unfold den_field. destruct (fd_kind f); reflexivity. }
    apply optlist_good; [now apply wf_rest| |].
    + intros l El Hl. eapply lead1; [exact H|]. cbn. rewrite Eo, El. unfold den_optlist. cbn. rewrite nonempty_some; [reflexivity|]. destruct (ol_options l); [congruence|discriminate].
    + intros l El Hl. exists fp, D. split; [reflexivity|]. split; [exact H|]. rewrite Eo, El. unfold den_optlist. cbn [optlist_options]. rewrite Hl. split; [reflexivity|].
      unfold rest_options in El. destruct (fd_options f) as [l'|] eqn:Ef; [|discriminate]. injection El as <-. cbn [ol_options] in Hl. cbn in N2.
      assert (Ed : default_of f = find (called (b "default")) (ol_options l')) by (unfold default_of; now rewrite Ef).
      assert (Ej : json_of f = find (called (b "json_name")) (ol_options l')) by (unfold json_of; now rewrite Ef).
      destruct (default_of f) as [o|] eqn:Hd.
      * right. rewrite S6. unfold den_field. destruct (fd_kind f); [|destruct O2 as (_ & _ & O2 & _); discriminate|destruct O2 as (_ & _ & O2 & _); discriminate].
        cbn. rewrite Hd. apply O2.
      * left. symmetry in Ed. rewrite (drop_none _ _ Ed) in Hl. apply drop_nil in Hl; [|exact N2]. rewrite <- Ej in Hl.
        destruct (json_of f) as [o|] eqn:Hj; [|congruence]. rewrite S7. unfold den_field. destruct (fd_kind f); cbn; rewrite Hj; exact O3.
Qed.

(** Consecutive fields. *)
Lemma fields_good sc extra ft mt p e (mk : field -> field_desc) (l : list field) : forall i j (F1 F2 : list field_desc) (M1 M2 : list msg_desc),
  leads p e -> member e ft = many EField (F1 ++ map mk l ++ F2) -> member e mt = many EMsg (M1 ++ flat_map (den_field_messages dbd) l ++ M2) ->
  i = len F1 -> j = len M1 -> (forall f, same (mk f) (den_field k syn sc None f)) ->
  (forall fp f, In f l -> leads fp (EField (mk f)) -> Forall good (extra fp)) ->
  all (ok_field k syn okb sc) l -> Forall (wf_field n (wf_body n)) l -> all (n_field I (n_body I)) l -> Forall (on_kind body_good) l ->
  Forall good (l_fields syn dbd lbd sc extra ft mt p i j l).
Proof.
  induction l as [|f l IH]; intros i j F1 F2 M1 M2 H Hf Hm Ei Ej Hs Hx Ok W N K; cbn [l_fields]; [constructor|].
  destruct Ok as [Ok1 Ok2]. fold (all (ok_field k syn okb sc) l) in Ok2. destruct N as [N1 N2]. fold (all (n_field I (n_body I)) l) in N2. inversion W; subst x l0. inversion K; subst x l0.
  assert (Hl : leads (p ++ [ft; Z.of_N i]) (EField (mk f))). { eapply (lead_many EField); [exact H|exact Hf| |exact Ei]. reflexivity. }
  apply Forall_app. split; [eapply Hx; [now left|exact Hl]|]. apply Forall_app. split.
  - eapply field_good; eauto. intros tsp bd E. eapply (lead_many EMsg); [exact H|exact Hm| |exact Ej]. cbn [flat_map]. unfold den_field_messages at 1. rewrite E. reflexivity.
  - apply (IH _ _ (F1 ++ [mk f]) F2 (M1 ++ den_field_messages dbd f) M2); auto.
    + now rewrite <- app_assoc.
    + rewrite Hm. cbn [flat_map]. now rewrite !app_assoc.
    + rewrite len_app, <- Ei. reflexivity.
    + rewrite len_app, <- Ej. reflexivity.
    + intros fp g Hg. apply Hx. now right.
Qed.
Lemma same_refl D : same D D.
Proof. repeat split. Qed.
Lemma same_oneof sc o (f : field) : same (den_field k syn sc o f) (den_field k syn sc None f).
Proof. unfold den_field. destruct (fd_kind f); repeat split. Qed.
Lemma extend_good xt mt p e i j (x : extend) (F1 F2 : list field_desc) (M1 M2 : list msg_desc) :
  leads p e -> member e xt = many EField (F1 ++ den_extend k syn x ++ F2) -> member e mt = many EMsg (M1 ++ flat_map (den_field_messages dbd) (et_fields x) ++ M2) ->
  i = len F1 -> j = len M1 -> ok_extend k syn okb x -> wf_extend n (wf_body n) x -> all (n_field I (n_body I)) (et_fields x) -> Forall (on_kind body_good) (et_fields x) ->
  Forall good (l_extend syn dbd lbd xt mt p i j x).
Proof.
  intros H Hf Hm Ei Ej Ok (W1 & W2 & W3) N K. unfold l_extend. constructor; [eapply good_val; [eapply lead1; [exact H|exact Hf]|exact Logic.I|exact W1]|].
  eapply fields_good; eauto.
  - intros f. unfold set_extendee, same. cbn. repeat split.
  - intros fp f _ Hl. constructor; [|constructor]. eapply good_val; [eapply lead1; [exact Hl|reflexivity]|exact Logic.I|now apply tname_sok].
Qed.

Ltac nx H := rewrite <- ?app_assoc; exact H.
Ltac ln H := rewrite ?len_app, <- ?H; rewrite ?len_map; reflexivity.
Lemma len_map {A B} (g : A -> B) l : len (map g l) = len l.
Proof. unfold len. now rewrite map_length. Qed.
Lemma items_good p M (items : list mitem) : forall nf nx nm ne no ri si F X Ms Es Os Os',
  leads p (EMsg M) -> m_field M = F ++ den_fields k syn ri si items -> m_extension M = X ++ flat_map (item_extensions k syn) items ->
  m_nested M = Ms ++ flat_map (item_messages dbd) items -> m_enum M = Es ++ flat_map item_enums items -> m_oneof M = Os ++ flat_map item_real items ++ Os' ->
  nf = len F -> nx = len X -> nm = len Ms -> ne = len Es -> no = len Os ->
  all (ok_item k syn okb) items -> Forall (wf_item n (wf_body n)) items -> all (n_item I (n_body I)) items -> Forall (on_item body_good) items ->
  Forall good (l_items k syn dbd lbd p nf nx nm ne no items).
Proof.
  induction items as [|it items IH]; intros nf nx nm ne no ri si F X Ms Es Os Os' H Hf Hx Hm He Ho Ef Ex Em Ee Eo Ok W N K; cbn [l_items]; [constructor|].
  destruct Ok as [Ok1 Ok2]. fold (all (ok_item k syn okb) items) in Ok2. destruct N as [N1 N2]. fold (all (n_item I (n_body I)) items) in N2.
  inversion W as [|? ? Wi W']; subst x l. inversion K as [|? ? Ki K']; subst x l. apply Forall_app. split.
  - destruct it as [f|e|m|x|o]; cbn [ok_item wf_item n_item on_item den_fields flat_map item_extensions item_messages item_enums item_real app] in *.
    + eapply field_good; [|apply same_oneof|exact Ok1|exact Wi|exact N1| |exact Ki].
      * eapply (lead_many EField); [exact H|reflexivity|exact Hf|exact Ef].
      * intros tsp bd E. eapply (lead_many EMsg); [exact H|reflexivity| |exact Em]. rewrite Hm. unfold den_field_messages. rewrite E. reflexivity.
    + eapply enum_good; auto. eapply (lead_many EEnum); [exact H|reflexivity|exact He|exact Ee].
    + destruct Wi as (W1 & W2 & W3), N1 as (N1 & N3). unfold l_message.
      assert (Hl : leads (p ++ [3%Z; Z.of_N nm]) (EMsg (den_message_ dbd m))) by (eapply (lead_many EMsg); [exact H|reflexivity|exact Hm|exact Em]).
      constructor; [eapply good_val; [exact Hl|exact Logic.I|exact W1]|].
      constructor; [eapply good_name; [eapply lead1; [exact Hl|cbn [member]; unfold den_message_; rewrite m_name_with; reflexivity]|exact N1|exact W2]|].
      eapply Ki; [exact Hl|exact Ok1|exact W3|exact N3].
    + eapply extend_good; eauto; cbn [member]; [now rewrite Hx|now rewrite Hm].
    + destruct Wi as (W1 & W2 & W3 & W4), Ok1 as (_ & O1 & O2), N1 as (N1 & N3).
      assert (Hl : leads (p ++ [8%Z; Z.of_N no]) (EOneof (den_oneof_ o))) by (eapply (lead_many EOneof); [exact H|reflexivity|exact Ho|exact Eo]).
      constructor; [eapply good_val; [exact Hl|exact Logic.I|exact W1]|].
      constructor; [change (p ++ [8%Z; Z.of_N no; 1%Z]) with (p ++ [8%Z; Z.of_N no] ++ [1%Z]); rewrite app_assoc; eapply good_name; [eapply lead1; [exact Hl|reflexivity]|exact N1|exact W2]|].
      apply Forall_app. split.
      * change (p ++ [8%Z; Z.of_N no; 2%Z]) with (p ++ [8%Z; Z.of_N no] ++ [2%Z]). rewrite app_assoc. apply (options_good _ _ None); [|apply W3].
        intros Hne. eapply lead_options; eauto.
      * eapply (fields_good ScOneof _ 2%Z 3%Z p (EMsg M)); [exact H|cbn [member]; now rewrite Hf|cbn [member]; now rewrite Hm|exact Ef|exact Em| |constructor|exact O2|exact W4|exact N3|exact Ki].
        intros f. unfold set_oneof_index, same. cbn. repeat split.
  - destruct it as [f|e|m|x|o]; cbn [ok_item wf_item n_item on_item den_fields flat_map item_extensions item_messages item_enums item_real item_nfields app] in *;
      change (len (@nil field_desc)) with 0; change (len (@nil msg_desc)) with 0; change (len (@nil enum_desc)) with 0; change (len (@nil oneof_desc)) with 0; rewrite ?N.add_0_r.
    + eapply (IH _ _ _ _ _ ri _ (F ++ [den_field k syn ScMessage (if p3_optional syn f then Some (Z.of_N si) else None) f]) X (Ms ++ den_field_messages dbd f) Es Os Os'); [exact H|nx Hf|nx Hx|nx Hm|nx He|nx Ho|ln Ef|ln Ex|ln Em|ln Ee|ln Eo|exact Ok2|exact W'|exact N2|exact K'].
    + eapply (IH _ _ _ _ _ ri si F X Ms (Es ++ [den_enum_ e]) Os Os'); [exact H|nx Hf|nx Hx|nx Hm|nx He|nx Ho|ln Ef|ln Ex|ln Em|ln Ee|ln Eo|exact Ok2|exact W'|exact N2|exact K'].
    + eapply (IH _ _ _ _ _ ri si F X (Ms ++ [den_message_ dbd m]) Es Os Os'); [exact H|nx Hf|nx Hx|nx Hm|nx He|nx Ho|ln Ef|ln Ex|ln Em|ln Ee|ln Eo|exact Ok2|exact W'|exact N2|exact K'].
    + eapply (IH _ _ _ _ _ ri si F (X ++ den_extend k syn x) (Ms ++ flat_map (den_field_messages dbd) (et_fields x)) Es Os Os'); [exact H|nx Hf|nx Hx|nx Hm|nx He|nx Ho|ln Ef|ln Ex|ln Em|ln Ee|ln Eo|exact Ok2|exact W'|exact N2|exact K'].
    + eapply (IH _ _ _ _ _ (ri + 1) si (F ++ map (fun f => set_oneof_index (Some (Z.of_N ri)) (den_field k syn ScOneof None f)) (oo_fields o)) X (Ms ++ flat_map (den_field_messages dbd) (oo_fields o)) Es (Os ++ [den_oneof_ o]) Os'); [exact H|nx Hf|nx Hx|nx Hm|nx He|nx Ho|ln Ef|ln Ex|ln Em|ln Ee|ln Eo|exact Ok2|exact W'|exact N2|exact K'].
Qed.

Lemma extensions_good p M ms (l : list extensions) : forall i X,
  leads p (EMsg M) -> m_ext_range M = X ++ den_extensions ms l -> i = len X -> all ok_extensions l -> Forall (wf_extension n) l -> all n_exts l ->
  Forall good (l_extensions (p ++ [5%Z]) i l).
Proof.
  induction l as [|x l IH]; intros i X H Hx Ei Ok W N; cbn [l_extensions]; [constructor|]. destruct Ok as [[Ok1 Ok3] Ok2]. fold (all ok_extensions l) in Ok2.
  destruct N as [N1 N2]. fold (all n_exts l) in N2. inversion W as [|? ? (W1 & W2 & W3) W']; subst x0 l0. unfold den_extensions in Hx. cbn [flat_map] in Hx. fold (den_extensions ms l) in Hx.
  constructor; [eapply good_val; [eapply lead1; [exact H|cbn [member]; rewrite Hx; reflexivity]|exact Logic.I|exact W1]|]. apply Forall_app. split.
  - apply (good_idx _ (fun y => EExtRange (den_ext_range ms (ex_options x) y)) (p ++ [5%Z]) (ex_ranges x) i (map EExtRange X) (map EExtRange (den_extensions ms l))).
    + eapply lead1; [exact H|]. cbn [member]. rewrite Hx. unfold many. rewrite !map_app, map_map. reflexivity.
    + unfold len in *. now rewrite map_length.
    + intros j y Hy Hj. apply (all_In _ _ _ Ok1) in Hy as Oy. apply Forall_app. split.
      * destruct (range_end_some ms y Oy) as (z2 & Z2). destruct Oy as [Oy _]. destruct (ok_number_some _ Oy) as (z1 & Z1).
        eapply range_good; [exact Hj|exists z1; cbn; now rewrite Z1|exists z2; cbn; now rewrite Z2|exact Logic.I|]. rewrite Forall_forall in W2. auto.
      * rewrite snoc2, app_assoc || (change ((p ++ [5%Z]) ++ [Z.of_N j; 3%Z]) with ((p ++ [5%Z]) ++ [Z.of_N j] ++ [3%Z]); rewrite app_assoc).
        apply optlist_good'; [exact N1|exact W3|]. intros Hn. eapply lead_optlist; [exact Hj|reflexivity|exact Hn].
  - apply (IH _ (X ++ map (den_ext_range ms (ex_options x)) (ex_ranges x))); auto; [now rewrite <- app_assoc|]. rewrite len_app, <- Ei. unfold len. now rewrite map_length.
Qed.

Lemma wf_item_mono (A B : body -> Prop) it : (forall x, A x -> B x) -> wf_item n A it -> wf_item n B it.
Proof.
  intros H. assert (Hf : forall f, wf_field n A f -> wf_field n B f). { intros f (H1 & H2 & H3 & H4 & H5 & H6). repeat split; auto; try apply H1; try apply H2; try apply H3. unfold wf_kind in *. destruct (fd_kind f); intuition. }
  destruct it as [f|e|m|e|o]; cbn [wf_item]; auto.
  - intros (H1 & H2 & H3). repeat split; auto; try apply H1; apply H2.
  - intros (H1 & H2 & H3). split; [exact H1|]. split; [exact H2|]. eapply Forall_impl; eauto.
  - intros (H1 & H2 & H3 & H4). split; [exact H1|]. split; [exact H2|]. split; [exact H3|]. eapply Forall_impl; eauto.
Qed.
Lemma wf_body_inv items exts opts res : wf_body n (Body items exts opts res) ->
  Forall (wf_item n (wf_body n)) items /\ wf_extensions n exts /\ wf_options n opts /\ wf_reserveds n res.
Proof.
  intros [[|d] W]; [destruct W|]. cbn in W. destruct W as (W1 & W2 & W3 & W4 & W5). split; [|auto]. eapply Forall_impl; [|exact W1].
  intros it. apply wf_item_mono. intros x Hx. now exists d.
Qed.
Lemma all_bodies_good bd : body_good bd.
Proof.
  induction bd as [items exts opts res IH] using body_rect'. intros p nm H (O1 & O2 & O3 & O4) W (N1 & N2).
  apply wf_body_inv in W. destruct W as (W1 & W2 & W3 & W4). cbn [l_body]. apply Forall_app. split; [|apply Forall_app; split; [|apply Forall_app; split]].
  - eapply (items_good p _ items 0 0 0 0 0 0 _ [] [] [] [] []); [exact H|..]; try reflexivity; auto.
  - apply (reserved_good (den_range (message_set opts)) ok_range 9%Z 10%Z p _ res 0 0 [] []) with (1 := H); auto.
    + intros x X. pose proof (range_end_some (message_set opts) x X) as (z2 & Z2). destruct X as [X _]. destruct (ok_number_some _ X) as (z1 & Z1). cbn. rewrite Z1, Z2. eauto.
    + apply W4.
  - eapply (extensions_good p _ (message_set opts) exts 0 []); [exact H|reflexivity|reflexivity|exact O3|apply W2|exact N2].
  - apply (options_good _ _ None); [|apply W3]. intros Hne. eapply lead1; [exact H|]. cbn. unfold den_options. destruct opts; [congruence|reflexivity].
Qed.

(** Files. *)
Lemma fitems_good d (items : list fitem) : forall nm ne ns nx Ms Es Ss X,
  leads [] (EFile d) -> d_message d = Ms ++ flat_map (fitem_messages k syn) items -> d_enum d = Es ++ flat_map fitem_enums items ->
  d_service d = Ss ++ flat_map fitem_services items -> d_extension d = X ++ flat_map (fitem_extensions k syn) items ->
  nm = len Ms -> ne = len Es -> ns = len Ss -> nx = len X ->
  all (ok_fitem k syn) items -> Forall (wf_fitem n) items -> Forall (n_fitem I) items ->
  Forall good (l_fitems k syn [] nm ne ns nx items).
Proof.
  induction items as [|it items IH]; intros nm ne ns nx Ms Es Ss X H Hm He Hs Hx Em Ee Es' Ex Ok W N; cbn [l_fitems]; [constructor|].
  destruct Ok as [Ok1 Ok2]. fold (all (ok_fitem k syn) items) in Ok2. inversion W as [|? ? Wi W']; subst x l. inversion N as [|? ? Ni N']; subst x l. apply Forall_app. split.
  - destruct it as [e|m|x|s]; cbn [ok_fitem wf_fitem n_fitem flat_map fitem_messages fitem_enums fitem_services fitem_extensions app] in *.
    + eapply enum_good; auto. eapply (lead_many EEnum []); [exact H|reflexivity|exact He|exact Ee].
    + destruct Wi as (W1 & W2 & W3), Ni as (N1 & N3). unfold l_message.
      assert (Hl : leads [4%Z; Z.of_N nm] (EMsg (den_message_ dbd m))) by (eapply (lead_many EMsg []); [exact H|reflexivity|exact Hm|exact Em]).
      constructor; [eapply good_val; [exact Hl|exact Logic.I|exact W1]|].
      constructor; [eapply good_name; [eapply lead1; [exact Hl|cbn [member]; unfold den_message_; rewrite m_name_with; reflexivity]|exact N1|exact W2]|].
      eapply all_bodies_good; [exact Hl|exact Ok1|exact W3|exact N3].
    + eapply (extend_good 7%Z 4%Z []); eauto; cbn [member].
      * now rewrite Hx.
      * now rewrite Hm.
      * apply all_Forall. exact Ni.
      * apply Forall_forall. intros f _. unfold on_kind. destruct (fd_kind f); auto. apply all_bodies_good.
    + eapply service_good; auto. eapply (lead_many EService []); [exact H|reflexivity|exact Hs|exact Es'].
  - destruct it as [e|m|x|s]; cbn [flat_map fitem_messages fitem_enums fitem_services fitem_extensions app] in *;
      change (len (@nil field_desc)) with 0; change (len (@nil msg_desc)) with 0; change (len (@nil enum_desc)) with 0; change (len (@nil service_desc)) with 0; rewrite ?N.add_0_r.
    + eapply (IH _ _ _ _ Ms (Es ++ [den_enum_ e]) Ss X); [exact H|nx Hm|nx He|nx Hs|nx Hx|ln Em|ln Ee|ln Es'|ln Ex|exact Ok2|exact W'|exact N'].
    + eapply (IH _ _ _ _ (Ms ++ [den_message_ dbd m]) Es Ss X); [exact H|nx Hm|nx He|nx Hs|nx Hx|ln Em|ln Ee|ln Es'|ln Ex|exact Ok2|exact W'|exact N'].
    + eapply (IH _ _ _ _ (Ms ++ flat_map (den_field_messages dbd) (et_fields x)) Es Ss (X ++ den_extend k syn x)); [exact H|nx Hm|nx He|nx Hs|nx Hx|ln Em|ln Ee|ln Es'|ln Ex|exact Ok2|exact W'|exact N'].
    + eapply (IH _ _ _ _ Ms Es (Ss ++ [den_service_ s]) X); [exact H|nx Hm|nx He|nx Hs|nx Hx|ln Em|ln Ee|ln Es'|ln Ex|exact Ok2|exact W'|exact N'].
Qed.

Lemma imports_good d (l : list import) : forall i pub weak D Pu We,
  leads [] (EFile d) -> d_dependency d = D ++ map im_value l -> d_public d = Pu ++ kind_indices IPublic i l -> d_weak d = We ++ kind_indices IWeak i l ->
  i = len D -> pub = len Pu -> weak = len We -> Forall (wf_import n) l -> Forall good (l_imports [] i pub weak l).
Proof.
  induction l as [|im l IH]; intros i pub weak D Pu We H Hd Hp Hw Ei Ep Ew W; cbn [l_imports]; [constructor|]. inversion W as [|? ? [W1 W2] W']; subst x l0.
  cbn [map kind_indices] in *. constructor.
  { eapply good_val; [eapply (lead_many EText []); [exact H|reflexivity|exact Hd|exact Ei]|exact Logic.I|exact W1]. }
  apply Forall_app. split.
  - unfold is_kind in Hp, Hw. destruct (im_kind im) as [[[|] sp]|]; [| |constructor]; (constructor; [|constructor]).
    + eapply good_val; [eapply (lead_many (fun _ : Z => EVal) []); [exact H|reflexivity|exact Hw|exact Ew]|exact Logic.I|exact W2].
    + eapply good_val; [eapply (lead_many (fun _ : Z => EVal) []); [exact H|reflexivity|exact Hp|exact Ep]|exact Logic.I|exact W2].
  - eapply (IH _ _ _ (D ++ [im_value im]) (Pu ++ if is_kind IPublic im then [Z.of_N i] else []) (We ++ if is_kind IWeak im then [Z.of_N i] else [])); auto.
    + now rewrite <- app_assoc.
    + now rewrite <- app_assoc.
    + now rewrite <- app_assoc.
    + rewrite len_app, <- Ei. reflexivity.
    + destruct (is_kind IPublic im); rewrite len_app, <- Ep; [reflexivity|]. cbn. lia.
    + destruct (is_kind IWeak im); rewrite len_app, <- Ew; [reflexivity|]. cbn. lia.
Qed.
End Fields.
End Pass.

(** ** The theorems *)
(** Adjacent elements of a list are in order. *)
Fixpoint path_le (p q : list Z) : Prop :=
  match p, q with
  | [], _ => True
  | _ :: _, [] => False
  | x :: p', y :: q' => (x < y)%Z \/ x = y /\ path_le p' q'
  end.
(** [sort_unstable_by] on paths: a permutation in ascending lexicographic order. *)
Definition sorting (sort : list location -> list location) : Prop :=
  forall l, Permutation l (sort l) /\ StronglySorted (fun x y => path_le (loc_path x) (loc_path y)) (sort l).

Lemma path_leb_le p : forall q, path_leb p q = true <-> path_le p q.
Proof.
  induction p as [|x p IH]; intros [|y q]; cbn [path_leb path_le]; [tauto|tauto|split; [discriminate|tauto]|].
  rewrite orb_true_iff, andb_true_iff, Z.ltb_lt, Z.eqb_eq, IH. tauto.
Qed.
Lemma path_le_total p : forall q, path_le p q \/ path_le q p.
Proof.
  induction p as [|x p IH]; intros [|y q]; cbn; auto. destruct (Z.lt_trichotomy x y) as [H|[H|H]]; auto. destruct (IH q); auto.
Qed.
Lemma path_le_trans p : forall q s, path_le p q -> path_le q s -> path_le p s.
Proof.
  induction p as [|x p IH]; intros [|y q] [|z s]; cbn; auto; try tauto. intros [H1|[H1 H2]] [K1|[K1 K2]]; subst; try (left; lia). right. split; auto. eapply IH; eauto.
Qed.
(** Non-vacuity: the insertion sort of the model is such a function. *)
Lemma loc_sort_sorting : sorting loc_sort.
Proof.
  intros l. induction l as [|x l [IH1 IH2]]; [split; constructor|]. change (loc_sort (x :: l)) with (loc_insert x (loc_sort l)). split.
  - transitivity (x :: loc_sort l); [now constructor|]. clear. generalize (loc_sort l). induction l0 as [|y r IH]; cbn; [reflexivity|].
    destruct (path_leb _ _); [reflexivity|]. etransitivity; [apply perm_swap|]. now constructor.
  - revert IH2. generalize (loc_sort l). clear. intros l H. induction H as [|y r H IH F]; cbn; [repeat constructor|]. destruct (path_leb (loc_path x) (loc_path y)) eqn:E.
    + apply path_leb_le in E. constructor; [now constructor|]. constructor; auto. eapply Forall_impl; [|exact F]. intros z. now apply path_le_trans.
    + assert (Hy : path_le (loc_path y) (loc_path x)). { destruct (path_le_total (loc_path y) (loc_path x)) as [H'|H']; auto. apply path_leb_le in H'. congruence. }
      constructor; auto. clear -F Hy. induction r as [|z r IH]; cbn; [constructor; auto|]. destruct (path_leb _ _); [constructor; auto|]. inversion F; subst. constructor; auto.
Qed.

Definition root_ok (src : bytes) (d : file_desc) (x : rawloc) : Prop :=
  good (len src) (EFile d) (fun s sp => between src (s_start sp) (s_end sp) = s) x.
Lemma between_app (w l z : bytes) : between (w ++ l ++ z) (len w) (len w + len l) = l.
Proof.
  unfold between, len. replace (N.to_nat (N.of_nat (length w))) with (length w) by lia. rewrite skipn_app, skipn_all, Nat.sub_diag. cbn [skipn app].
  replace (N.to_nat _) with (length l) by lia. rewrite firstn_app, firstn_all, Nat.sub_diag. cbn. apply app_nil_r.
Qed.

(** All locations but the root and the syntax declaration's. *)
Lemma locations k name src f d :
  accepted k src f -> ok_file k (fi_syntax f) f -> (exists l, d = with_source_info (den_file k (fi_syntax f) name f) l) ->
  exists rest, l_file k (fi_syntax f) f = at_ [] (fi_span f) :: rest /\
    (span_ok (len src) (fi_span f) \/ sigs (stream k src 0) = []) /\
    Forall (fun x => root_ok src d x \/ (fst (fst x) = [12%Z] /\ d_syntax d = None /\ span_ok (len src) (snd (fst x)))) rest.
Proof.
  intros Ha [O1 O2] (li & ->). pose proof (accepted_wf _ _ _ Ha) as (W1 & W2 & W3 & W4 & W5 & W6 & W7 & W8). destruct Ha as (ts & Hg & Hs & Hm).
  assert (Hn : n_file (fun s sp => between src (s_start sp) (s_end sp) = s) f).
  { eapply file_n; [exact Hg|]. pose proof (mclean_written k (marks ts) src 0 Hm [] eq_refl ts Hs eq_refl) as Hw. eapply Forall_impl; [|exact Hw].
    intros [[t sp] m] (w & l & z & E & Es & Hl). unfold tokI. unfold tk_tok, tk_span, tk_mark in *. cbn [fst snd] in *. destruct t; auto. cbn [written] in Hl. subst.
    cbn [app written] in *. destruct Hl as (-> & _). unfold s_start, s_end. cbn [fst snd]. rewrite E. apply between_app. }
  unfold l_file. eexists. split; [reflexivity|]. split.
  { destruct W1 as [W1|W1]; [now left|]. destruct Hg as [ss sx sxs ts l pkg G1 G2 G3]. cbn [fi_span] in *. destruct (ss ++ ts) as [|x us] eqn:E.
    - right. rewrite Hs. reflexivity.
    - left. rewrite <- E in *. assert (Hne : ss ++ ts <> []) by (rewrite E; discriminate).
      pose proof (stream_tiles k (lex_init src)) as T. cbn [lex_init l_end l_rest] in T. apply (tiles_tok _ _ _ T) in Hs.
      2:{ unfold stream. match goal with |- context [lex_all k ?s0] => destruct (lex_all_total k s0) as (us0 & s1 & El) end. rewrite El. eapply lex_all_ok; eauto. }
      destruct (tok_in_ends _ _ _ Hs Hne) as (A1 & A2 & A3). rewrite N.add_0_l in *. unfold span_ok, join_span, s_start, s_end in *. cbn [fst snd]. lia. }
  set (d := with_source_info _ li). assert (Hr : leads (EFile d) [] (EFile d)) by reflexivity.
  assert (Hw : forall l, Forall (root_ok src d) l -> Forall (fun x => root_ok src d x \/ (fst (fst x) = [12%Z] /\ d_syntax d = None /\ span_ok (len src) (snd (fst x)))) l).
  { intros l. apply Forall_impl. auto. }
  apply Forall_app. split; [apply Hw|apply Forall_app; split; [apply Hw|apply Forall_app; split; [apply Hw|apply Forall_app; split; [apply Hw|]]]].
  - destruct (fi_package f) as [pk|] eqn:Ep; constructor; [|constructor]. eapply good_val; [eapply (lead1 _ []); [exact Hr|cbn; rewrite Ep; reflexivity]|exact I|apply W3].
  - eapply (imports_good _ _ _ d (fi_imports f) 0 0 0 [] [] []); auto.
  - eapply (fitems_good _ _ _ k (fi_syntax f) d (fi_items f) 0 0 0 0 [] [] [] []); auto.
  - apply (options_good _ _ _ _ _ None); [|apply W6]. intros Hne. eapply (lead_options _ [] (EFile d) 8%Z); [exact Hr|reflexivity|exact Hne].
  - destruct (fi_syntax_span f) as [[sp c]|]; constructor; [|constructor]. destruct (fi_syntax f) eqn:Ex.
    + right. cbn [fst snd]. repeat split; auto; try apply W2. cbn. now rewrite Ex.
    + left. eapply good_val; [eapply (lead1 _ []); [exact Hr|cbn; rewrite Ex; reflexivity]|exact I|exact W2].
Qed.

Lemma mk_span src ls sp p c : len src <= i32_max -> lines_new src = Done ls -> span_ok (len src) sp -> loc_span (mk ls (p, sp, c)) = encode src (s_start sp) (s_end sp).
Proof.
  intros Hn El [H1 H2]. destruct (C13_resolve_span src _ _ Hn H1 H2) as (ls' & El' & R & _). rewrite El in El'. injection El' as <-.
  cbn [mk loc_span]. destruct sp as [s e]. unfold s_start, s_end in *. cbn [fst snd] in *. rewrite R. reflexivity.
Qed.
Lemma info k sort name src d a : sorting sort -> parse k sort name src = Done (inl d, a) ->
  exists locs, d_source_info d = Some locs /\ StronglySorted (fun x y => path_le (loc_path x) (loc_path y)) locs /\
  forall x, In x locs ->
    (loc_path x = [] /\ (sigs (stream k src 0) = [] \/ exists s e, s <= e <= len src /\ loc_span x = encode src s e)) \/
    exists p sp c, loc_path x = p /\ span_ok (len src) sp /\ loc_span x = encode src (s_start sp) (s_end sp) /\
      (root_ok src d (p, sp, c) \/ p = [12%Z] /\ d_syntax d = None).
Proof.
  intros Hsort E. destruct (parse_ok_inv _ _ _ _ _ _ E) as (Hn & f & Ha & Hok & (ls & El & Ed)).
  destruct (locations k name src f d Ha Hok (ex_intro _ _ Ed)) as (rest & Er & Hroot & Hrest).
  eexists. split; [rewrite Ed; reflexivity|]. destruct (Hsort (map (mk ls) (l_file k (fi_syntax f) f))) as [Hp Hs]. split; [exact Hs|].
  intros x Hx. apply (Permutation_in _ (Permutation_sym Hp)) in Hx. rewrite Er in Hx. destruct Hx as [<-|Hx].
  - left. split; [reflexivity|]. destruct Hroot as [Hr|Hr]; [right|now left]. exists (s_start (fi_span f)), (s_end (fi_span f)). split; [split; apply Hr|]. now apply (mk_span src ls).
  - right. apply in_map_iff in Hx. destruct Hx as ([[p sp] c] & <- & Hx). rewrite Forall_forall in Hrest. apply Hrest in Hx. exists p, sp, c. split; [reflexivity|].
    assert (Hsp : span_ok (len src) sp). { destruct Hx as [Hx|Hx]; apply Hx. } split; [exact Hsp|]. split; [now apply (mk_span src ls)|]. destruct Hx as [Hx|(H1 & H2 & _)]; auto.
Qed.

Theorem C14_locations k sort name src d a : sorting sort -> parse k sort name src = Done (inl d, a) ->
  exists locs, d_source_info d = Some locs /\ StronglySorted (fun x y => path_le (loc_path x) (loc_path y)) locs /\
  forall x, In x locs ->
    (exists s e, s <= e /\ e <= len src /\ loc_span x = encode src s e) \/
    (loc_path x = [] /\ sigs (stream k src 0) = []).
Proof.
  intros Hs E. destruct (info _ _ _ _ _ _ Hs E) as (locs & E1 & E2 & H). exists locs. split; auto. split; auto. intros x Hx. destruct (H x Hx) as [(H1 & [H2|(s & e & H2 & H3)])|(p & sp & c & H1 & H2 & H3 & _)]; eauto.
  - left. exists s, e. intuition.
  - left. exists (s_start sp), (s_end sp). destruct H2. auto.
Qed.

Theorem C15_paths k sort name src d a : sorting sort -> parse k sort name src = Done (inl d, a) ->
  exists locs, d_source_info d = Some locs /\
  forall x, In x locs ->
    (exists e, follow (EFile d) (loc_path x) = Some e) \/
    (exists q f, loc_path x = q ++ [8%Z] /\ follow (EFile d) q = Some (EField f) /\ f_options f = None /\ (f_json_name f <> None \/ f_default f <> None)) \/
    (loc_path x = [12%Z] /\ d_syntax d = None).
Proof.
  intros Hs E. destruct (info _ _ _ _ _ _ Hs E) as (locs & E1 & E2 & H). exists locs. split; auto. intros x Hx. destruct (H x Hx) as [(H1 & _)|(p & sp & c & H1 & H2 & H3 & [(H4 & H5 & _)|H4])].
  - left. rewrite H1. eexists. reflexivity.
  - rewrite H1. destruct H5 as [H5|H5]; auto.
  - rewrite H1. auto.
Qed.

(** A location of a name covers exactly that name in the source (for the field of a group, the name before it is turned into lower case). *)
Theorem C15_names k sort name src d a : sorting sort -> parse k sort name src = Done (inl d, a) ->
  exists locs, d_source_info d = Some locs /\
  forall x s, In x locs -> follow (EFile d) (loc_path x) = Some (EName s) ->
    exists st en, st <= en /\ en <= len src /\ loc_span x = encode src st en /\
      (between src st en = s \/
       (s = map lower (between src st en) /\ exists q f, loc_path x = q ++ [1%Z] /\ follow (EFile d) q = Some (EField f) /\ f_type f = Some FTGroup)).
Proof.
  intros Hs E. destruct (info _ _ _ _ _ _ Hs E) as (locs & E1 & E2 & H). exists locs. split; auto. intros x s Hx Hf. destruct (H x Hx) as [(H1 & _)|(p & sp & c & H1 & H2 & H3 & [(H4 & H5 & H6)|(H4 & H5)])].
  - rewrite H1 in Hf. discriminate.
  - exists (s_start sp), (s_end sp). destruct H4. split; auto. split; auto. split; auto. rewrite H1 in Hf. destruct (H6 s Hf) as [H7|(q & f & t & Eq & Hq & Ht & -> & <-)]; auto.
    right. split; auto. exists q, f. rewrite H1. auto.
  - rewrite H1, H4 in Hf. cbn in Hf. rewrite H5 in Hf. discriminate.
Qed.

Print Assumptions C14_locations.
Print Assumptions C15_paths.
Print Assumptions C15_names.

(** Non-vacuity: a file with groups, oneofs, extensions and options; all its paths lead somewhere. *)
Definition ex_loc : bytes :=
  b "syntax = 'proto2'; package p; message M { optional group G = 1 { extensions 4 to 5; } oneof o { int32 a = 2; } " ++ nl_ ++
  b " reserved 7 to 9, 11; enum E { X = 0; } map<int32, M> m = 3 [deprecated = true]; extend M { optional int32 z = 4 [default = 1]; } }".
Definition paths_of (src : bytes) : list (list Z) := match d_source_info (desc_of src) with Some l => map loc_path l | None => [] end.
Definition dangling (src : bytes) : list (list Z) :=
  filter (fun p => match follow (EFile (desc_of src)) p with Some _ => false | None => true end) (paths_of src).
Example ex_loc_ok : ok_result ex_loc = true /\ (40 < length (paths_of ex_loc))%nat.
Proof. split; [vm_compute; reflexivity|]. apply Nat.ltb_lt. vm_compute. reflexivity. Qed.
(** Both exceptions of C15 occur: an options location without options, and the syntax location of proto2. *)
Example C15_exceptions : dangling ex_loc = [[4%Z; 0%Z; 6%Z; 0%Z; 8%Z]; [12%Z]].
Proof. vm_compute. reflexivity. Qed.
(** The exception of C14 occurs: the location of a file without tokens ends before it starts. *)
Example C14_exception : d_source_info (desc_of (b "// a" ++ nl_ ++ b "  ")) =
  Some [{| loc_path := []; loc_span := [1%Z; 2%Z; 0%Z; 0%Z]; loc_leading := None; loc_trailing := None; loc_detached := [] |}].
Proof. vm_compute. reflexivity. Qed.
