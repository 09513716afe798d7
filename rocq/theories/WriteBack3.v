(** Lemmas for C64: messages. *)
From Coq Require Import ZifyBool ZifyN.
From Verif Require Import PropsDesc2 Base Utf8 Utf8Spec Errors Lex Ast Descriptor LexSpec Decimal Grammar Meaning CharEdge GenProofs WriteSpec WriteProofs WriteFields WriteMessage WriteBack WriteBack2.

Section Back.
Context {C : comspec}.
Section Items.
Variables (k : cfg) (p3 : bool) (D : body -> msg_desc) (V : body -> Prop).
Let syn := syn_of p3.
(** What the grammar says about a member. *)
Definition gi (R : message -> Prop) (it : mitem) : Prop :=
  match it with
  | MIField f => fd_good InMessage f
  | MIOneof o => identifier (id_val (oo_name o)) /\ Forall (fun o => option_good (op_body o)) (oo_options o) /\ Forall (fd_good InOneof) (oo_fields o)
  | MIEnum e => enum_good e
  | MIExtend e => (qualified (tname_text (et_extendee e)) \/ absolute (tname_text (et_extendee e))) /\ Forall (fd_good InExtend) (et_fields e)
  | MIMessage m => R m
  end.
Definition normal (f : field) : Prop := match fd_kind f with FKNormal _ _ => True | _ => False end.
Definition good_extension (e : extend) (f : field) : Prop := normal f /\ extension_ok p3 (set_extendee (Some (tname_text (et_extendee e))) (den_field k syn ScExtend None f)).
(** What follows for its descriptor. *)
Definition item_good (it : mitem) : Prop :=
  match it with
  | MIField f =>
    match fd_kind f with
    | FKNormal _ _ => forall oi, field_ok p3 InMessage (den_field k syn ScMessage oi f)
    | FKMap _ kt _ vt _ => map_ok (den_field k syn ScMessage None f) (entry_desc (entry_name (id_val (fd_name f))) kt vt) /\ p3_optional syn f = false
    | FKGroup _ _ => False
    end
  | MIOneof o => oo_fields o <> [] /\ oneof_ok (den_oneof_ o) /\ Forall (fun f => normal f /\ forall oi, field_ok p3 InOneof (den_field k syn ScOneof oi f)) (oo_fields o)
  | MIEnum e => enum_ok (den_enum_ e)
  | MIExtend e => Forall (good_extension e) (et_fields e)
  | MIMessage m => is_entry (den_message_ D m) = false /\ message_ok p3 (den_message_ D m)
  end.
Lemma plain_index sc oi oi' (f : field) : plain_field (den_field k syn sc oi f) -> plain_field (den_field k syn sc oi' f).
Proof. unfold den_field. destruct (fd_kind f); exact (fun H => H). Qed.
Lemma index_den sc oi oi' (f : field) : set_oneof_index oi (den_field k syn sc oi' f) = den_field k syn sc oi f.
Proof. unfold den_field. destruct (fd_kind f); reflexivity. Qed.
Lemma optional3_den sc oi (f : field) : optional3 (den_field k syn sc oi f) = p3_optional syn f.
Proof. unfold den_field. destruct (fd_kind f); unfold optional3; cbn [f_proto3_optional]; destruct (p3_optional syn f); reflexivity. Qed.
Lemma extendee_den sc oi (f : field) : f_extendee (den_field k syn sc oi f) = None. Proof. unfold den_field. destruct (fd_kind f); reflexivity. Qed.
Lemma index_is sc oi (f : field) : f_oneof_index (den_field k syn sc oi f) = oi. Proof. unfold den_field. destruct (fd_kind f); reflexivity. Qed.
Lemma normal_messages (f : field) : normal f -> den_field_messages D f = []. Proof. unfold normal, den_field_messages. destruct (fd_kind f); [reflexivity|contradiction|contradiction]. Qed.
Lemma oneof_fields_back fs : Forall (fd_good InOneof) fs -> all (ok_field k syn V ScOneof) fs -> (exists r, Forall plain_field (map (fun f => set_oneof_index (Some (Z.of_N r)) (den_field k syn ScOneof None f)) fs)) ->
  Forall (fun f => normal f /\ forall oi, field_ok p3 InOneof (den_field k syn ScOneof oi f)) fs.
Proof.
  intros H Ok [r Hp]. induction fs as [|f fs IH]; [constructor|]. destruct Ok as [O1 O2]. cbn [map] in Hp. pose proof (Forall_inv Hp) as P1. apply Forall_inv_tail in Hp. rewrite index_den in P1. constructor; [|apply IH; [exact (Forall_inv_tail H)|exact O2|exact Hp]].
  apply Forall_inv in H. assert (Nb : forall oi, _) by (intros oi; exact (normal_back k V p3 InOneof f oi H O1 (plain_index _ _ _ _ P1))).
  unfold normal. destruct (fd_kind f) eqn:Ek; [|destruct (Nb None)|destruct O1 as (_ & O1 & _); rewrite Ek in O1; destruct O1; discriminate]. split; [exact I|]. intros oi. apply Nb.
Qed.
Lemma extend_back (e : extend) : (qualified (tname_text (et_extendee e)) \/ absolute (tname_text (et_extendee e))) -> Forall (fd_good InExtend) (et_fields e) -> ok_extend k syn V e ->
  Forall plain_field (den_extend k syn e) -> Forall (good_extension e) (et_fields e).
Proof.
  intros Hn. unfold ok_extend, den_extend, good_extension. induction (et_fields e) as [|f fs IH]; intros H Ok Hp; [constructor|]. destruct Ok as [O1 O2]. cbn [map] in Hp. pose proof (Forall_inv Hp) as P1. apply Forall_inv_tail in Hp.
  constructor; [|apply IH; [exact (Forall_inv_tail H)|exact O2|exact Hp]]. apply Forall_inv in H.
  assert (P2 : plain_field (den_field k syn ScExtend None f)) by exact P1. pose proof (normal_back k V p3 InExtend f None H O1 P2) as Nb. unfold normal.
  destruct (fd_kind f) eqn:Ek; [|destruct Nb|destruct O1 as (_ & O1 & _); rewrite Ek in O1; destruct O1; discriminate]. split; [exact I|]. split; [|split].
  - destruct Nb as [((A1 & A2 & A3 & A4 & A5) & B1 & B2 & B3) _]. repeat split; try assumption; try apply A2; try apply A1.
  - cbn [set_extendee f_oneof_index]. apply index_is.
  - eexists. split; [reflexivity|exact Hn].
Qed.
Lemma items_back items : forall r s, Forall (gi (fun m => V (ms_body m) -> plain_message (den_message_ D m) -> is_entry (den_message_ D m) = false /\ message_ok p3 (den_message_ D m))) items ->
  all (ok_item k syn V) items -> Forall plain_field (den_fields k syn r s items) -> Forall plain_field (flat_map (item_extensions k syn) items) -> Forall plain_message (flat_map (item_messages D) items) ->
  Forall plain_enum (flat_map item_enums items) -> Forall (fun o => plain_options (o_options o)) (flat_map item_real items) -> Forall item_good items.
Proof.
  induction items as [|it items IH]; intros r s Hg Ok Pf Px Pm Pe Po; [constructor|]. pose proof (Forall_inv Hg) as G. apply Forall_inv_tail in Hg. destruct Ok as [O1 O2].
  cbn [flat_map] in Px, Pm, Pe, Po. apply Forall_app in Px, Pm, Pe, Po. destruct Px as [Px1 Px2], Pm as [Pm1 Pm2], Pe as [Pe1 Pe2], Po as [Po1 Po2].
  destruct it as [f|e|m|x|o]; cbn [gi ok_item] in G, O1.
  - cbn [den_fields] in Pf. pose proof (Forall_inv Pf) as P1. apply Forall_inv_tail in Pf. constructor; [|eapply IH; eauto]. cbn [item_good].
    destruct (fd_kind f) eqn:Ek.
    + intros oi. pose proof (normal_back k V p3 InMessage f oi G O1 (plain_index _ _ _ _ P1)) as Nb. rewrite Ek in Nb. apply Nb.
    + pose proof (normal_back k V p3 InMessage f None G O1 (plain_index _ _ _ _ P1)) as Nb. rewrite Ek in Nb. exact Nb.
    + eapply map_back; eauto. eapply plain_index. exact P1.
  - constructor; [|eapply IH; eauto]. apply G; [exact O1|]. exact (Forall_inv Pe1).
  - constructor; [|eapply IH; eauto]. apply G; [exact O1|]. exact (Forall_inv Pm1).
  - constructor; [|eapply IH; eauto]. destruct G as [G1 G2]. apply extend_back; auto.
  - cbn [den_fields] in Pf. apply Forall_app in Pf. destruct Pf as [Pf1 Pf2]. constructor; [|eapply IH; eauto]. destruct G as (G1 & G2 & G3), O1 as (N & O1 & O3). split; [exact N|]. split.
    + split; [eexists; split; [reflexivity|exact G1]|]. cbn [den_oneof_ o_options]. apply options_back; auto. exact (Forall_inv Po1).
    + eapply oneof_fields_back; eauto.
Qed.
(** ** Lists of members *)
Lemma item_field_none f s : item_good (MIField f) -> oneof_of (den_field k syn ScMessage (if p3_optional syn f then Some (Z.of_N s) else None) f) = None.
Proof. intros _. unfold oneof_of. rewrite optional3_den, index_is. destruct (p3_optional syn f); reflexivity. Qed.
Lemma item_oneof_some r (fs : list field) : Forall (fun f => normal f /\ forall oi, field_ok p3 InOneof (den_field k syn ScOneof oi f)) fs ->
  Forall (fun f => oneof_of f = Some (Z.of_N r) /\ optional3 f = false /\ is_map f = false /\ field_ok p3 InOneof f /\ f_extendee f = None) (map (fun f => set_oneof_index (Some (Z.of_N r)) (den_field k syn ScOneof None f)) fs).
Proof.
  induction 1 as [|f fs [Hn Hf] _ IH]; [constructor|]. cbn [map]. rewrite index_den. constructor; [|exact IH]. specialize (Hf (Some (Z.of_N r))). pose proof (oneof_not_optional _ _ Hf) as Ho. pose proof (field_not_map _ _ _ Hf).
  repeat split; auto; try apply Hf. unfold oneof_of. rewrite Ho. apply index_is. apply extendee_den.
Qed.
Lemma fields_place items : forall r s, Forall item_good items ->
  Forall (fun f => f_extendee f = None) (den_fields k syn r s items) /\ Forall (fun f => is_map f = false -> field_ok p3 (if oneof_of f then InOneof else InMessage) f) (den_fields k syn r s items).
Proof.
  induction items as [|it items IH]; intros r s H; [split; constructor|]. pose proof (Forall_inv H) as G. apply Forall_inv_tail in H. destruct it as [f|e|m|x|o]; cbn [den_fields]; try (apply IH; exact H).
  - destruct (IH r (s + len (den_field_oneofs syn f)) H) as [I1 I2]. split; constructor; auto; [apply extendee_den|]. rewrite item_field_none by exact G. cbn [item_good] in G. destruct (fd_kind f) eqn:Ek; [intros _; apply G|contradiction|].
    unfold den_field. rewrite Ek. unfold is_map. discriminate.
  - destruct (IH (r + 1) s H) as [I1 I2]. destruct G as (_ & _ & G). pose proof (item_oneof_some r _ G) as Hs. split; apply Forall_app; (split; [|assumption]); (eapply Forall_impl; [|exact Hs]); cbn beta; [intros f Hf; apply Hf|]. intros f (E & _ & _ & Hf & _) _. rewrite E. exact Hf.
Qed.
Lemma maps_entries items : forall r s, Forall item_good items -> Forall2 map_ok (filter is_map (den_fields k syn r s items)) (filter is_entry (flat_map (item_messages D) items)).
Proof.
  induction items as [|it items IH]; intros r s H; [constructor|]. pose proof (Forall_inv H) as G. apply Forall_inv_tail in H. destruct it as [f|e|m|x|o]; cbn [den_fields flat_map item_messages].
  - cbn [item_good] in G. cbn [filter]. destruct (fd_kind f) as [t tsp|g bd|m0 kt ksp vt vsp] eqn:Ek; [|contradiction|].
    + rewrite (field_not_map p3 InMessage) by (apply G). unfold den_field_messages. rewrite Ek. cbn [app]. apply IH. exact H.
    + destruct G as [G Ep]. rewrite Ep. assert (Em : is_map (den_field k syn ScMessage None f) = true) by (unfold den_field; rewrite Ek; reflexivity). rewrite Em. unfold den_field_messages. rewrite Ek. cbn [app filter]. change (is_entry (entry_desc (entry_name (id_val (fd_name f))) kt vt)) with true. cbn iota. constructor; [exact G|]. apply IH. exact H.
  - cbn [app]. apply IH. exact H.
  - cbn [app filter]. destruct G as [-> _]. apply IH. exact H.
  - assert (E : flat_map (den_field_messages D) (et_fields x) = []). { cbn [item_good] in G. unfold good_extension in G. induction G as [|f fs [Hn _] _ IHf]; [reflexivity|]. cbn [flat_map]. now rewrite normal_messages. }
    rewrite E. cbn [app]. apply IH. exact H.
  - destruct G as (_ & _ & G). assert (E : flat_map (den_field_messages D) (oo_fields o) = []). { induction G as [|f fs [Hn _] _ IHf]; [reflexivity|]. cbn [flat_map]. now rewrite normal_messages. }
    rewrite E. cbn [app]. rewrite filter_app. rewrite (filter_false is_map); [apply IH; exact H|]. eapply Forall_impl; [|apply (item_oneof_some r _ G)]. intros f Hf. apply Hf.
Qed.
Lemma runs_none f l : oneof_of f = None -> runs (f :: l) = (None, [f]) :: runs l. Proof. intros E. cbn [runs]. rewrite E. reflexivity. Qed.
Lemma runs_some r fs l : fs <> [] -> Forall (fun f => oneof_of f = Some r) fs -> (forall j gs rest, runs l = (Some j, gs) :: rest -> j <> r) -> runs (fs ++ l) = (Some r, fs) :: runs l.
Proof.
  intros N H Hn. induction fs as [|f fs IH]; [congruence|]. pose proof (Forall_inv H) as E. apply Forall_inv_tail in H. cbn [app runs]. rewrite E. destruct fs as [|g fs].
  - cbn [app]. destruct (runs l) as [|[[j|] gs] rest] eqn:El; try reflexivity. destruct (Z.eqb_spec r j) as [->|]; [|reflexivity]. destruct (Hn _ _ _ eq_refl eq_refl).
  - rewrite IH; [|discriminate|exact H]. rewrite Z.eqb_refl. reflexivity.
Qed.
Lemma keys_runs items : forall r s, Forall item_good items ->
  flat_map key (runs (den_fields k syn r s items)) = map Z.of_nat (seq (N.to_nat r) (length (flat_map item_real items))).
Proof.
  induction items as [|it items IH]; intros r s H; [reflexivity|]. pose proof (Forall_inv H) as G. apply Forall_inv_tail in H. destruct it as [f|e|m|x|o]; cbn [den_fields flat_map item_real app]; try (apply IH; exact H).
  - rewrite runs_none by (apply item_field_none; exact G). cbn [flat_map key fst app]. apply IH. exact H.
  - destruct G as (N & _ & G). pose proof (item_oneof_some r _ G) as Hs. rewrite (runs_some (Z.of_N r)).
    + cbn [flat_map key fst app length seq map]. rewrite (IH (r + 1)) by exact H. f_equal; [lia|]. f_equal. f_equal. lia.
    + intros E. apply map_eq_nil in E. contradiction.
    + eapply Forall_impl; [|exact Hs]. intros f Hf. apply Hf.
    + intros j gs rest E. specialize (IH (r + 1) s H). rewrite E in IH. cbn [flat_map key fst app] in IH. assert (Hi : In j (map Z.of_nat (seq (N.to_nat (r + 1)) (length (flat_map item_real items))))) by (rewrite <- IH; now left).
      apply in_map_iff in Hi. destruct Hi as (i & <- & Hi). apply in_seq in Hi. lia.
Qed.
Lemma oneofs_good items : Forall item_good items -> Forall oneof_ok (flat_map item_real items).
Proof. induction 1 as [|it items G _ IH]; [constructor|]. destruct it; cbn [flat_map item_real app]; auto. constructor; [|exact IH]. apply G. Qed.
Lemma synthetic_back items : forall r s, Forall item_good items -> flat_map (item_synthetic syn) items = map own_oneof (filter optional3 (den_fields k syn r s items)).
Proof.
  induction items as [|it items IH]; intros r s H; [reflexivity|]. pose proof (Forall_inv H) as G. apply Forall_inv_tail in H. destruct it as [f|e|m|x|o]; cbn [den_fields flat_map item_synthetic app]; try (apply IH; exact H).
  - cbn [filter]. rewrite optional3_den. rewrite (IH r (s + len (den_field_oneofs syn f)) H). unfold den_field_oneofs at 1. destruct (p3_optional syn f) eqn:Ep; [|reflexivity]. cbn [app map]. f_equal. unfold own_oneof. rewrite synthetic_own.
    cbn [item_good] in G. unfold den_field. destruct (fd_kind f); [reflexivity|contradiction|reflexivity].
  - destruct G as (_ & _ & G). rewrite filter_app. rewrite (filter_false optional3); [apply IH; exact H|]. eapply Forall_impl; [|apply (item_oneof_some r _ G)]. intros f Hf. apply Hf.
Qed.
Lemma indices_back items : forall r s, Forall item_good items ->
  map f_oneof_index (filter optional3 (den_fields k syn r s items)) = map (fun i => Some (Z.of_nat i)) (seq (N.to_nat s) (length (filter optional3 (den_fields k syn r s items)))).
Proof.
  induction items as [|it items IH]; intros r s H; [reflexivity|]. pose proof (Forall_inv H) as G. apply Forall_inv_tail in H. destruct it as [f|e|m|x|o]; cbn [den_fields]; try (apply IH; exact H).
  - cbn [filter]. rewrite optional3_den. unfold den_field_oneofs. destruct (p3_optional syn f) eqn:Ep.
    + cbn [map length seq]. rewrite index_is. f_equal; [f_equal; lia|]. rewrite (IH _ _ H). f_equal. f_equal. rewrite len_cons, len_nil. lia.
    + rewrite len_nil, N.add_0_r. apply IH. exact H.
  - destruct G as (_ & _ & G). rewrite filter_app. rewrite (filter_false optional3); [apply IH; exact H|]. eapply Forall_impl; [|apply (item_oneof_some r _ G)]. intros f Hf. apply Hf.
Qed.
Lemma extensions_good items : Forall item_good items -> Forall (extension_ok p3) (flat_map (item_extensions k syn) items).
Proof.
  induction 1 as [|it items G _ IH]; [constructor|]. destruct it as [f|e|m|x|o]; cbn [flat_map item_extensions app]; auto. apply Forall_app. split; [|exact IH]. unfold den_extend. apply Forall_map. eapply Forall_impl; [|exact G]. intros f Hf. apply Hf.
Qed.
Lemma enums_good items : Forall item_good items -> Forall enum_ok (flat_map item_enums items).
Proof. induction 1 as [|it items G _ IH]; [constructor|]. destruct it; cbn [flat_map item_enums app]; auto. Qed.
Lemma nested_good items : Forall item_good items -> forall m, In m (flat_map (item_messages D) items) -> is_entry m = false -> message_ok p3 m.
Proof.
  induction 1 as [|it items G _ IH]; intros m Hm He; [destruct Hm|]. cbn [flat_map] in Hm. apply in_app_or in Hm. destruct Hm as [Hm|Hm]; [|now apply IH].
  destruct it as [f|e|m0|x|o]; cbn [item_messages] in Hm.
  - cbn [item_good] in G. unfold den_field_messages in Hm. destruct (fd_kind f); [destruct Hm|contradiction|]. destruct Hm as [<-|[]]. discriminate He.
  - destruct Hm.
  - destruct Hm as [<-|[]]. apply G.
  - apply in_flat_map in Hm. destruct Hm as (f & Hf & Hm). cbn [item_good] in G. rewrite Forall_forall in G. destruct (G f Hf) as [Hn _]. rewrite normal_messages in Hm by exact Hn. destruct Hm.
  - apply in_flat_map in Hm. destruct Hm as (f & Hf & Hm). destruct G as (_ & _ & G). rewrite Forall_forall in G. destruct (G f Hf) as [Hn _]. rewrite normal_messages in Hm by exact Hn. destruct Hm.
Qed.
End Items.
End Back.
