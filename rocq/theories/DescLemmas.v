(** How the elements of the denoted descriptor arise from declarations. *)
From Verif Require Import Base Utf8 Errors Lex Ast Descriptor Meaning DescSpec.

Section Cases.
Variable k : cfg.
Variable syn : syntax.
Notation dbody := (den_body k syn).
Notation okb := (ok_body k syn).
Notation okf := (ok_field k syn okb).

Lemma all_In {A} (Q : A -> Prop) l x : all Q l -> In x l -> Q x.
Proof. induction l as [|y l IH]; cbn; [tauto|]. intros [H1 H2] [<-|H]; auto. Qed.

Lemma ok_body_inv bd : okb bd -> all (ok_item k syn okb) (bd_items bd) /\ all ok_range (flat_map res_ranges (bd_reserved bd)) /\ all ok_extensions (bd_extensions bd) /\ ok_options (bd_options bd).
Proof. destruct bd. exact (fun H => H). Qed.
Lemma okf_sub sc fd c : okf sc fd -> In c (field_sub fd) -> okb c.
Proof. unfold ok_field, field_sub. destruct (fd_kind fd); cbn; intuition. subst. auto. Qed.
Lemma ok_sub bd c : okb bd -> In c (flat_map item_sub (bd_items bd)) -> okb c.
Proof.
  intros H Hc. apply in_flat_map in Hc. destruct Hc as (it & Hi & Hc). apply ok_body_inv in H. destruct H as [H _]. apply (all_In _ _ _ H) in Hi.
  destruct it as [fd|e|m|e|o]; cbn [item_sub ok_item] in *.
  - eapply okf_sub; eauto.
  - destruct Hc.
  - destruct Hc as [<-|[]]. auto.
  - apply in_flat_map in Hc. destruct Hc as (fd & Hf & Hc). unfold ok_extend in Hi. apply (all_In _ _ _ Hi) in Hf. eapply okf_sub; eauto.
  - apply in_flat_map in Hc. destruct Hc as (fd & Hf & Hc). destruct Hi as (_ & _ & Hi). apply (all_In _ _ _ Hi) in Hf. eapply okf_sub; eauto.
Qed.
Lemma ok_in bd c : body_in c bd -> okb bd -> okb c.
Proof. induction 1 as [|bd c p H1 H2 IH]; auto. intros H. apply IH. eapply ok_sub; eauto. Qed.
Lemma ok_of f bd : ok_file k syn f -> body_of f bd -> okb bd.
Proof.
  intros [H _] (it & c & Hi & Hc & Hb). apply (ok_in _ _ Hb). apply (all_In _ _ _ H) in Hi. destruct it as [e|m|e|s]; cbn [fitem_sub ok_fitem] in *; try destruct Hc as [<-|[]]; try destruct Hc; auto.
  apply in_flat_map in Hc. destruct Hc as (fd & Hf & Hc). unfold ok_extend in Hi. apply (all_In _ _ _ Hi) in Hf. eapply okf_sub; eauto.
Qed.
Lemma body_in_trans x y z : body_in x y -> body_in y z -> body_in x z.
Proof. intros H1 H2. induction H2; auto. eapply bi_step; eauto. Qed.
Lemma body_of_in f bd c : body_of f bd -> body_in c bd -> body_of f c.
Proof. intros (it & x & H1 & H2 & H3) H. exists it, x. split; auto. split; auto. eapply body_in_trans; eauto. Qed.
Lemma body_of_sub f bd c : body_of f bd -> In c (flat_map item_sub (bd_items bd)) -> body_of f c.
Proof. intros H Hc. eapply body_of_in; eauto. eapply bi_step; eauto. constructor. Qed.
Lemma decl_ok f sc fd : ok_file k syn f -> decl_of f sc fd -> okf sc fd.
Proof.
  intros Hf H. destruct H as [bd fd H1 H2|bd o fd H1 H2 H3|bd e fd H1 H2 H3|e fd H2 H3].
  - apply (ok_of _ _ Hf) in H1. apply ok_body_inv in H1. destruct H1 as [H _]. apply (all_In _ _ _ H) in H2. exact H2.
  - apply (ok_of _ _ Hf) in H1. apply ok_body_inv in H1. destruct H1 as [H _]. apply (all_In _ _ _ H) in H2. destruct H2 as (_ & _ & H2). eapply all_In; eauto.
  - apply (ok_of _ _ Hf) in H1. apply ok_body_inv in H1. destruct H1 as [H _]. apply (all_In _ _ _ H) in H2. exact (all_In _ _ _ H2 H3).
  - destruct Hf as [H _]. apply (all_In _ _ _ H) in H2. exact (all_In _ _ _ H2 H3).
Qed.
Lemma enum_decl_ok f e : ok_file k syn f -> enum_decl f e -> ok_enum e.
Proof.
  intros Hf H. destruct H as [e H|bd e H1 H2].
  - destruct Hf as [Hf _]. exact (all_In _ _ _ Hf H).
  - apply (ok_of _ _ Hf) in H1. apply ok_body_inv in H1. destruct H1 as [H _]. exact (all_In _ _ _ H H2).
Qed.

(** ** Messages *)
Definition msg (nm : bytes) (bd : body) : msg_desc := with_name (Some nm) (dbody bd).
Definition entry (fd : field) (kt vt : ty) : msg_desc := entry_desc (entry_name (id_val (fd_name fd))) kt vt.

Lemma nested_den bd : m_nested (dbody bd) = flat_map (item_messages dbody) (bd_items bd).
Proof. destruct bd. reflexivity. Qed.
Lemma nested_msg nm bd : m_nested (msg nm bd) = flat_map (item_messages dbody) (bd_items bd).
Proof. unfold msg. rewrite <- nested_den. destruct (dbody bd). reflexivity. Qed.

Lemma field_messages_inv fd m : In m (den_field_messages dbody fd) ->
  (exists c, In c (field_sub fd) /\ m = msg (id_val (fd_name fd)) c) \/
  (exists s kt ks vt vs, fd_kind fd = FKMap s kt ks vt vs /\ m = entry fd kt vt).
Proof.
  unfold den_field_messages, field_sub, msg, entry. destruct (fd_kind fd) as [t s|s bd|s kt ks vt vs]; cbn.
  - tauto.
  - intros [<-|[]]. left. exists bd. auto.
  - intros [<-|[]]. right. do 5 eexists. eauto.
Qed.
Lemma nested_inv nm bd m : okb bd -> In m (m_nested (msg nm bd)) ->
  (exists nm' c, In c (flat_map item_sub (bd_items bd)) /\ m = msg nm' c) \/
  (exists fd s kt ks vt vs, In (MIField fd) (bd_items bd) /\ fd_kind fd = FKMap s kt ks vt vs /\ m = entry fd kt vt).
Proof.
  rewrite nested_msg. intros Hok H. apply in_flat_map in H. destruct H as (it & Hi & H). apply ok_body_inv in Hok. destruct Hok as [Hok _].
  pose proof (all_In _ _ _ Hok Hi) as Hit.
  assert (Hc : forall c, In c (item_sub it) -> In c (flat_map item_sub (bd_items bd))) by (intros c Hc; apply in_flat_map; eauto).
  destruct it as [fd|e|m0|e|o]; cbn [item_messages item_sub ok_item] in *.
  - apply field_messages_inv in H. destruct H as [(c & H1 & ->)|(s & kt & ks & vt & vs & E & ->)]; [left; eauto|]. right. do 6 eexists. eauto.
  - destruct H.
  - destruct H as [<-|[]]. left. exists (id_val (ms_name m0)), (ms_body m0). split; [apply Hc; now left|reflexivity].
  - apply in_flat_map in H. destruct H as (fd & Hf & H). unfold ok_extend in Hit. apply (all_In _ _ _ Hit) in Hf as Hof. apply field_messages_inv in H. destruct H as [(c & H1 & ->)|(s & kt & ks & vt & vs & E & ->)].
    + left. do 2 eexists. split; [apply Hc; apply in_flat_map; eauto|reflexivity].
    + exfalso. unfold ok_field in Hof. rewrite E in Hof. destruct Hof as (_ & (H & _) & _). discriminate.
  - apply in_flat_map in H. destruct H as (fd & Hf & H). destruct Hit as (_ & _ & Hit). apply (all_In _ _ _ Hit) in Hf as Hof. apply field_messages_inv in H. destruct H as [(c & H1 & ->)|(s & kt & ks & vt & vs & E & ->)].
    + left. do 2 eexists. split; [apply Hc; apply in_flat_map; eauto|reflexivity].
    + exfalso. unfold ok_field in Hof. rewrite E in Hof. destruct Hof as (_ & (H & _) & _). discriminate.
Qed.
Lemma field_sub_messages fd c : In c (field_sub fd) -> In (msg (id_val (fd_name fd)) c) (den_field_messages dbody fd).
Proof. unfold field_sub, den_field_messages, msg. destruct (fd_kind fd); cbn; [tauto| |tauto]. intros [<-|[]]. auto. Qed.
Lemma sub_nested nm bd c : In c (flat_map item_sub (bd_items bd)) -> exists nm', In (msg nm' c) (m_nested (msg nm bd)).
Proof.
  rewrite nested_msg. intros H. apply in_flat_map in H. destruct H as (it & Hi & H). destruct it as [fd|e|m0|e|o]; cbn [item_sub] in H.
  - exists (id_val (fd_name fd)). apply in_flat_map. eexists. split; [exact Hi|]. cbn [item_messages]. now apply field_sub_messages.
  - destruct H.
  - destruct H as [<-|[]]. exists (id_val (ms_name m0)). apply in_flat_map. eexists. split; [exact Hi|]. left. reflexivity.
  - apply in_flat_map in H. destruct H as (fd & Hf & H). exists (id_val (fd_name fd)). apply in_flat_map. eexists. split; [exact Hi|]. cbn [item_messages]. apply in_flat_map. exists fd. split; auto. now apply field_sub_messages.
  - apply in_flat_map in H. destruct H as (fd & Hf & H). exists (id_val (fd_name fd)). apply in_flat_map. eexists. split; [exact Hi|]. cbn [item_messages]. apply in_flat_map. exists fd. split; auto. now apply field_sub_messages.
Qed.
Lemma in_nested bd c : body_in c bd -> forall nm, exists nm', nested_in (msg nm' c) (msg nm bd).
Proof.
  induction 1 as [bd|bd c p H1 H2 IH]; intros nm; [exists nm; constructor|]. destruct (sub_nested nm _ _ H1) as (n1 & Hn). destruct (IH n1) as (n2 & H). exists n2. eapply ni_step; eauto.
Qed.
Lemma nested_in_inv nm bd m : okb bd -> nested_in m (msg nm bd) ->
  (exists nm' c, body_in c bd /\ m = msg nm' c) \/
  (exists c fd s kt ks vt vs, body_in c bd /\ In (MIField fd) (bd_items c) /\ fd_kind fd = FKMap s kt ks vt vs /\ m = entry fd kt vt).
Proof.
  intros Hok H. remember (msg nm bd) as p eqn:E. revert nm bd Hok E. induction H as [m|m c p H1 H2 IH]; intros nm bd Hok ->.
  - left. exists nm, bd. split; [constructor|auto].
  - destruct (nested_inv _ _ _ Hok H1) as [(n1 & c1 & Hc & ->)|(fd & s & kt & ks & vt & vs & Hi & Hk & ->)].
    + destruct (IH n1 c1 (ok_sub _ _ Hok Hc) eq_refl) as [(n2 & c2 & Hb & ->)|(c2 & fd & s & kt & ks & vt & vs & Hb & Hi & Hk & ->)].
      * left. exists n2, c2. split; auto. eapply bi_step; eauto.
      * right. exists c2, fd, s, kt, ks, vt, vs. split; auto. eapply bi_step; eauto.
    + right. exists bd, fd, s, kt, ks, vt, vs. split; [constructor|]. split; auto. split; auto.
      clear IH H1. remember (entry fd kt vt) as q eqn:Eq. destruct H2; auto. subst p. destruct H.
Qed.

Section File.
Variable name : bytes.
Variable f : file.
Variable d : file_desc.
Hypothesis Hd : exists l, d = with_source_info (den_file k syn name f) l.
Hypothesis Hok : ok_file k syn f.

Lemma d_messages_eq : d_message d = flat_map (fitem_messages k syn) (fi_items f).
Proof. destruct Hd as (l & ->). reflexivity. Qed.
Lemma d_enums_eq : d_enum d = flat_map fitem_enums (fi_items f).
Proof. destruct Hd as (l & ->). reflexivity. Qed.
Lemma d_extensions_eq : d_extension d = flat_map (fitem_extensions k syn) (fi_items f).
Proof. destruct Hd as (l & ->). reflexivity. Qed.

Lemma message_inv m : message_of d m ->
  (exists nm bd, body_of f bd /\ m = msg nm bd) \/
  (exists bd fd s kt ks vt vs, body_of f bd /\ In (MIField fd) (bd_items bd) /\ fd_kind fd = FKMap s kt ks vt vs /\ m = entry fd kt vt).
Proof.
  intros (top & Ht & Hn). rewrite d_messages_eq in Ht. apply in_flat_map in Ht. destruct Ht as (it & Hi & Ht).
  assert (G : exists nm bd, In bd (fitem_sub it) /\ top = msg nm bd).
  { destruct it as [e|m0|e|s]; cbn [fitem_messages fitem_sub] in *; try destruct Ht.
    - subst top. exists (id_val (ms_name m0)), (ms_body m0). split; [now left|reflexivity].
    - destruct H.
    - apply in_flat_map in Ht. destruct Ht as (fd & Hf & Ht). destruct Hok as [Hx _]. pose proof (all_In _ _ _ Hx Hi) as Hit. cbn [ok_fitem] in Hit. unfold ok_extend in Hit.
      apply (all_In _ _ _ Hit) in Hf as Hof. apply field_messages_inv in Ht. destruct Ht as [(c & H1 & ->)|(s & kt & ks & vt & vs & E & ->)].
      + do 2 eexists. split; [apply in_flat_map; eauto|reflexivity].
      + exfalso. unfold ok_field in Hof. rewrite E in Hof. destruct Hof as (_ & (H & _) & _). discriminate. }
  destruct G as (nm & bd & Hb & ->). assert (Ho : body_of f bd) by (exists it, bd; split; auto; split; auto; constructor).
  destruct (nested_in_inv _ _ _ (ok_of _ _ Hok Ho) Hn) as [(n1 & c & Hc & ->)|(c & fd & s & kt & ks & vt & vs & Hc & Hf & Hk & ->)].
  - left. exists n1, c. split; auto. eapply body_of_in; eauto.
  - right. exists c, fd, s, kt, ks, vt, vs. split; auto. eapply body_of_in; eauto.
Qed.
Lemma body_message bd : body_of f bd -> exists nm, message_of d (msg nm bd).
Proof.
  intros (it & c & Hi & Hc & Hb).
  assert (G : exists nm, In (msg nm c) (d_message d)).
  { rewrite d_messages_eq. destruct it as [e|m0|e|s]; cbn [fitem_sub] in Hc; try destruct Hc.
    - subst c. exists (id_val (ms_name m0)). apply in_flat_map. eexists. split; [exact Hi|]. now left.
    - destruct H.
    - apply in_flat_map in Hc. destruct Hc as (fd & Hf & Hc). exists (id_val (fd_name fd)). apply in_flat_map. eexists. split; [exact Hi|]. cbn [fitem_messages]. apply in_flat_map. exists fd. split; auto. now apply field_sub_messages. }
  destruct G as (nm & G). destruct (in_nested _ _ Hb nm) as (n1 & H). exists n1. exists (msg nm c). auto.
Qed.

(** ** Fields *)
Lemma in_den_fields r s (items : list mitem) x : In x (den_fields k syn r s items) ->
  (exists fd oi, In (MIField fd) items /\ (p3_optional syn fd = false -> oi = None) /\ (p3_optional syn fd = true -> oi <> None) /\ x = den_field k syn ScMessage oi fd) \/
  (exists o fd i, In (MIOneof o) items /\ In fd (oo_fields o) /\ x = set_oneof_index (Some i) (den_field k syn ScOneof None fd)).
Proof.
  revert r s. induction items as [|it items IH]; intros r s; [cbn; tauto|]. intros H.
  assert (G : forall r s, In x (den_fields k syn r s items) -> (exists fd oi, In (MIField fd) (it :: items) /\ (p3_optional syn fd = false -> oi = None) /\ (p3_optional syn fd = true -> oi <> None) /\ x = den_field k syn ScMessage oi fd) \/
    (exists o fd i, In (MIOneof o) (it :: items) /\ In fd (oo_fields o) /\ x = set_oneof_index (Some i) (den_field k syn ScOneof None fd))).
  { intros r' s' H'. destruct (IH _ _ H') as [(fd & oi & H1 & H2)|(o & fd & i & H1 & H2)]; [left; exists fd, oi|right; exists o, fd, i]; (split; [now right|auto]). }
  destruct it as [fd|e|m|e|o]; cbn [den_fields] in H; eauto.
  - destruct H as [<-|H]; [|eauto]. left. eexists fd, _. split; [now left|]. split; [|split; [|reflexivity]]; intros ->; congruence.
  - apply in_app_iff in H. destruct H as [H|H]; [|eauto]. apply in_map_iff in H. destruct H as (fd & <- & Hf). right. eexists o, fd, _. split; [now left|]. split; [auto|reflexivity].
Qed.
Lemma fields_den bd : m_field (dbody bd) = den_fields k syn 0 (len (flat_map item_real (bd_items bd))) (bd_items bd).
Proof. destruct bd. reflexivity. Qed.
Lemma fields_msg nm bd : m_field (msg nm bd) = den_fields k syn 0 (len (flat_map item_real (bd_items bd))) (bd_items bd).
Proof. unfold msg. rewrite <- fields_den. destruct (dbody bd). reflexivity. Qed.
Lemma extensions_msg nm bd : m_extension (msg nm bd) = flat_map (item_extensions k syn) (bd_items bd).
Proof. unfold msg. destruct bd. reflexivity. Qed.

(** The descriptors of a declaration: [oi] is the oneof index, [ex] the extendee. *)
Definition fdesc (sc : scope) (oi : option Z) (ex : option bytes) (fd : field) : field_desc :=
  set_extendee ex (set_oneof_index oi (den_field k syn sc None fd)).
Lemma den_field_oi sc oi (fd : field) : den_field k syn sc oi fd = set_oneof_index oi (den_field k syn sc None fd).
Proof. unfold den_field, set_oneof_index. destruct (fd_kind fd); reflexivity. Qed.
Lemma den_field_ex sc (fd : field) : f_extendee (den_field k syn sc None fd) = None.
Proof. unfold den_field. destruct (fd_kind fd); reflexivity. Qed.
Lemma set_ex_none x : f_extendee x = None -> set_extendee None x = x.
Proof. destruct x. cbn. intros ->. reflexivity. Qed.

(** What is known about the oneof index and the extendee of a field in a scope. *)
Definition scope_ok (sc : scope) (fd : field) (oi : option Z) (ex : option bytes) : Prop :=
  match sc with
  | ScMessage => ex = None /\ (p3_optional syn fd = false -> oi = None) /\ (p3_optional syn fd = true -> oi <> None)
  | ScOneof => ex = None /\ oi <> None
  | ScExtend => ex <> None /\ oi = None
  end.
Lemma ext_inv (e : extend) x : In x (den_extend k syn e) -> exists fd, In fd (et_fields e) /\ x = fdesc ScExtend None (Some (tname_text (et_extendee e))) fd.
Proof.
  unfold den_extend. intros H. apply in_map_iff in H. destruct H as (fd & <- & Hf). exists fd. split; auto. unfold fdesc. f_equal. unfold den_field, set_oneof_index. destruct (fd_kind fd); reflexivity.
Qed.
Lemma msg_field_inv nm bd x : In x (m_field (msg nm bd) ++ m_extension (msg nm bd)) -> body_of f bd ->
  exists sc fd oi ex, decl_of f sc fd /\ scope_ok sc fd oi ex /\ x = fdesc sc oi ex fd.
Proof.
  intros H Hb. apply in_app_iff in H. rewrite fields_msg, extensions_msg in H. destruct H as [H|H].
  - apply in_den_fields in H. destruct H as [(fd & oi & H1 & H2 & H3 & ->)|(o & fd & i & H1 & H2 & ->)].
    + exists ScMessage, fd, oi, None. split; [econstructor; eauto|]. split; [cbn; auto|]. unfold fdesc. rewrite <- den_field_oi, set_ex_none; auto. unfold den_field. destruct (fd_kind fd); reflexivity.
    + exists ScOneof, fd, (Some i), None. split; [econstructor; eauto|]. split; [cbn; split; congruence|]. unfold fdesc. rewrite set_ex_none; auto. unfold den_field. destruct (fd_kind fd); reflexivity.
  - apply in_flat_map in H. destruct H as (it & Hi & H). destruct it as [fd|e|m|e|o]; cbn [item_extensions] in H; try destruct H.
    apply ext_inv in H. destruct H as (fd & Hf & ->). exists ScExtend, fd, None, (Some (tname_text (et_extendee e))). split; [econstructor; eauto|]. split; [cbn; split; congruence|reflexivity].
Qed.
Lemma field_inv x : field_of d x ->
  (exists sc fd oi ex, decl_of f sc fd /\ scope_ok sc fd oi ex /\ x = fdesc sc oi ex fd) \/
  (exists fd s kt ks vt vs, decl_of f ScMessage fd /\ fd_kind fd = FKMap s kt ks vt vs /\ In x (m_field (entry fd kt vt))).
Proof.
  intros [H|(m & Hm & H)].
  - left. rewrite d_extensions_eq in H. apply in_flat_map in H. destruct H as (it & Hi & H). destruct it as [e|m|e|s]; cbn [fitem_extensions] in H; try destruct H.
    apply ext_inv in H. destruct H as (fd & Hf & ->). exists ScExtend, fd, None, (Some (tname_text (et_extendee e))). split; [eapply do_fextend; eauto|]. split; [cbn; split; congruence|reflexivity].
  - destruct (message_inv _ Hm) as [(nm & bd & Hb & ->)|(bd & fd & s & kt & ks & vt & vs & Hb & Hf & Hk & ->)].
    + left. eapply msg_field_inv; eauto.
    + right. exists fd, s, kt, ks, vt, vs. split; [econstructor; eauto|]. split; auto.
Qed.
Lemma in_den_fields_f (items : list mitem) fd : In (MIField fd) items -> forall r s, exists oi, In (den_field k syn ScMessage oi fd) (den_fields k syn r s items).
Proof.
  induction items as [|it items IH]; [intros []|]. intros [->|H] r s.
  - cbn [den_fields]. eexists. now left.
  - destruct it as [fd'|e|m|e|o]; cbn [den_fields]; try (apply IH; auto; fail).
    + destruct (IH H r (s + len (den_field_oneofs syn fd'))) as (oi & Hi). exists oi. now right.
    + destruct (IH H (r + 1) s) as (oi & Hi). exists oi. apply in_app_iff. now right.
Qed.
Lemma in_den_fields_o (items : list mitem) o fd : In (MIOneof o) items -> In fd (oo_fields o) -> forall r s, exists i, In (set_oneof_index (Some i) (den_field k syn ScOneof None fd)) (den_fields k syn r s items).
Proof.
  induction items as [|it items IH]; [intros []|]. intros [->|H] Hf r s.
  - cbn [den_fields]. eexists. apply in_app_iff. left. apply in_map_iff. exists fd. split; [reflexivity|auto].
  - destruct it as [fd'|e|m|e|o']; cbn [den_fields]; try (apply IH; auto; fail).
    + destruct (IH H Hf r (s + len (den_field_oneofs syn fd'))) as (oi & Hi). exists oi. now right.
    + destruct (IH H Hf (r + 1) s) as (oi & Hi). exists oi. apply in_app_iff. now right.
Qed.
Lemma decl_field sc fd : decl_of f sc fd -> exists oi ex, field_of d (fdesc sc oi ex fd).
Proof.
  intros H. destruct H as [bd fd H1 H2|bd o fd H1 H2 H3|bd e fd H1 H2 H3|e fd H2 H3].
  - destruct (body_message _ H1) as (nm & Hm). destruct (in_den_fields_f _ _ H2 0 (len (flat_map item_real (bd_items bd)))) as (oi & Hi). exists oi, None. right. eexists. split; [exact Hm|].
    apply in_app_iff. left. rewrite fields_msg. unfold fdesc. rewrite <- den_field_oi, set_ex_none; auto. unfold den_field. destruct (fd_kind fd); reflexivity.
  - destruct (body_message _ H1) as (nm & Hm). destruct (in_den_fields_o _ _ _ H2 H3 0 (len (flat_map item_real (bd_items bd)))) as (i & Hi). exists (Some i), None. right. eexists. split; [exact Hm|].
    apply in_app_iff. left. rewrite fields_msg. unfold fdesc. rewrite set_ex_none; auto. unfold den_field. destruct (fd_kind fd); reflexivity.
  - destruct (body_message _ H1) as (nm & Hm). exists None, (Some (tname_text (et_extendee e))). right. eexists. split; [exact Hm|].
    apply in_app_iff. right. rewrite extensions_msg. apply in_flat_map. eexists. split; [exact H2|]. cbn [item_extensions]. unfold den_extend. apply in_map_iff. exists fd. split; auto. unfold fdesc. f_equal. unfold den_field, set_oneof_index. destruct (fd_kind fd); reflexivity.
  - exists None, (Some (tname_text (et_extendee e))). left. rewrite d_extensions_eq. apply in_flat_map. eexists. split; [exact H2|]. cbn [fitem_extensions]. unfold den_extend. apply in_map_iff. exists fd. split; auto. unfold fdesc. f_equal. unfold den_field, set_oneof_index. destruct (fd_kind fd); reflexivity.
Qed.

(** ** Enums *)
Lemma enum_inv e : enum_of d e -> exists en, enum_decl f en /\ e = den_enum_ en.
Proof.
  intros [H|(m & Hm & H)].
  - rewrite d_enums_eq in H. apply in_flat_map in H. destruct H as (it & Hi & H). destruct it; cbn [fitem_enums] in H; try destruct H; [|destruct H]. subst. eexists. split; [apply ed_top; eauto|reflexivity].
  - destruct (message_inv _ Hm) as [(nm & bd & Hb & ->)|(bd & fd & s & kt & ks & vt & vs & Hb & Hf & Hk & ->)]; [|destruct H].
    assert (E : m_enum (msg nm bd) = flat_map item_enums (bd_items bd)) by (unfold msg; destruct bd; reflexivity). rewrite E in H.
    apply in_flat_map in H. destruct H as (it & Hi & H). destruct it; cbn [item_enums] in H; try destruct H; [|destruct H]. subst. eexists. split; [eapply ed_nested; eauto|reflexivity].
Qed.
Lemma decl_enum en : enum_decl f en -> enum_of d (den_enum_ en).
Proof.
  intros [e H|bd e H1 H2].
  - left. rewrite d_enums_eq. apply in_flat_map. eexists. split; [exact H|]. now left.
  - right. destruct (body_message _ H1) as (nm & Hm). eexists. split; [exact Hm|].
    assert (E : m_enum (msg nm bd) = flat_map item_enums (bd_items bd)) by (unfold msg; destruct bd; reflexivity). rewrite E. apply in_flat_map. eexists. split; [exact H2|]. now left.
Qed.
End File.
End Cases.
