(** C53: the semantic errors are exactly the broken rules. *)
From Verif Require Import Base Utf8 Errors Lex LexSafe Ast Comments AttachSpec Parse Lines Descriptor Generate ParseApi Stream Grammar Walk Meaning Erase AstWf GenProofs AstWfG WalkG3 PropsParse PropsDesc Complete3 PropsComplete ErrSpec.

(** [m] reports exactly the errors [Q]. *)
Definition es {A} (m : G A) (Q : perr -> Prop) : Prop := forall p v p' e l, m p = Done (v, p', e, l) -> forall x, In x e <-> Q x.
Lemma es_iff {A} (m : G A) (Q Q' : perr -> Prop) : es m Q -> (forall x, Q x <-> Q' x) -> es m Q'.
Proof. intros H E p v p' e l Hm x. rewrite <- E. now apply (H _ _ _ _ _ Hm). Qed.
Lemma es_bind {A C} (m : G A) (f : A -> G C) Q1 Q2 : es m Q1 -> (forall v, es (f v) Q2) -> es (gbind m f) (fun x => Q1 x \/ Q2 x).
Proof.
  intros H1 H2 p v p' e l. unfold gbind. destruct (m p) as [[[[a p1] e1] l1]| |] eqn:E1; try discriminate. destruct (f a p1) as [[[[c p2] e2] l2]| |] eqn:E2; try discriminate.
  intros [= <- <- <- <-] x. rewrite in_app_iff, (H1 _ _ _ _ _ E1 x), (H2 _ _ _ _ _ _ E2 x). reflexivity.
Qed.
Lemma es_bind_some {A C} (o : option A) (f : A -> G C) Q : (forall v, o = Some v -> es (f v) Q) -> es (gbind (gunwrap o) f) Q.
Proof.
  intros H p v p' e l. unfold gbind, gunwrap, glift. destruct o as [a|]; [|discriminate]. destruct (f a p) as [[[[c p2] e2] l2]| |] eqn:E2; try discriminate. intros [= <- <- <- <-] x. cbn [app]. exact (H a eq_refl _ _ _ _ _ E2 x).
Qed.
Notation quiet m := (es m (fun _ => False)).
Lemma es_quiet {A C} (m : G A) (f : A -> G C) Q : quiet m -> (forall v, es (f v) Q) -> es (gbind m f) Q.
Proof. intros H1 H2. eapply es_iff; [apply es_bind; [exact H1|exact H2]|]. intros x. tauto. Qed.
Lemma es_then {A C} (m : G A) (f : A -> G C) Q : es m Q -> (forall v, quiet (f v)) -> es (gbind m f) Q.
Proof. intros H1 H2. eapply es_iff; [apply es_bind; [exact H1|exact H2]|]. intros x. tauto. Qed.
Lemma es_ret {A} (v : A) : quiet (gret v).
Proof. intros p w p' e l [= <- <- <- <-] x. reflexivity. Qed.
Lemma es_err er : es (gerr er) (fun x => x = er).
Proof. intros p w p' e l [= <- <- <- <-] x. cbn. intuition congruence. Qed.
Lemma es_push q : quiet (gpush q).
Proof. intros p w p' e l [= <- <- <- <-] x. reflexivity. Qed.
Lemma es_pop1 : quiet gpop1.
Proof. intros p w p' e l [= <- <- <- <-] x. reflexivity. Qed.
Lemma es_pop m : quiet (gpop m).
Proof. intros p w p' e l. unfold gpop. destruct (Nat.ltb (length p) m); [discriminate|]. intros [= <- <- <- <-] x. reflexivity. Qed.
Lemma es_lift {A} (o : out A) : quiet (glift o).
Proof. intros p w p' e l. unfold glift. destruct o; try discriminate. intros [= <- <- <- <-] x. reflexivity. Qed.
Lemma es_panic {A} Q : es (@gpanic A) Q.
Proof. intros p w p' e l [=]. Qed.
Lemma es_fold {S A} (f : S -> A -> G S) (Q : A -> perr -> Prop) l : (forall s a, In a l -> es (f s a) (Q a)) -> forall s, es (gfold f l s) (fun x => exists a, In a l /\ Q a x).
Proof.
  induction l as [|a l IH]; intros H s; cbn [gfold].
  - eapply es_iff; [apply es_ret|]. intros x. split; [tauto|intros (a & [] & _)].
  - eapply es_iff; [apply es_bind; [apply H; now left|intros v; apply IH; intros s' a' Ha; apply H; now right]|]. intros x. cbn [In]. split.
    + intros [H1|(a' & H1 & H2)]; eauto.
    + intros (a' & [<-|H1] & H2); eauto.
Qed.
Lemma es_if {A} (c : bool) (m1 m2 : G A) Q1 Q2 : es m1 Q1 -> es m2 Q2 -> es (if c then m1 else m2) (fun x => if c then Q1 x else Q2 x).
Proof. destruct c; auto. Qed.

Section Errors.
Variable k : cfg.
Variable lines : list Z.
Variable syn : syntax.
Lemma es_comments sp c : quiet (add_comments lines sp c).
Proof. unfold add_comments. apply es_quiet; [apply es_lift|]. intros r p w p' e l [= <- <- <- <-] x. reflexivity. Qed.
Lemma es_comments_for q sp c : quiet (add_comments_for lines q sp c).
Proof. apply es_quiet; [apply es_push|intros _]. apply es_quiet; [apply es_comments|intros _]. apply es_pop. Qed.
Lemma es_span sp : quiet (add_span lines sp).
Proof. apply es_comments. Qed.
Lemma es_span_for q sp : quiet (add_span_for lines q sp).
Proof. apply es_comments_for. Qed.
Lemma es_index i : quiet (gindex i).
Proof. apply es_lift. Qed.
(** Skip the steps that report nothing. *)
Ltac q1 := first [apply es_comments_for | apply es_span_for | apply es_comments | apply es_span | apply es_index | apply es_push | apply es_pop1 | apply es_pop | apply es_ret | apply es_lift].
Ltac sk := repeat (apply es_quiet; [q1|let h := fresh "u" in intros h]).
Ltac fin := intros; repeat match goal with v : (_ * _)%type |- es _ _ => destruct v end; sk; q1.
Ltac th := apply es_then; [|intros ?; fin].

Let as_i32_spec := as_i32_spec 0 (N.le_0_l _).
Let as_i64_spec := as_i64_spec 0 (N.le_0_l _).
Lemma number_es i : es (generate_message_number i) (fun x => ~ field_number i /\ x = InvalidMessageNumber (i_span i)).
Proof.
  unfold generate_message_number, field_number. rewrite as_i32_spec. unfold if_within. destruct (within _ _ _) eqn:E.
  - apply within_spec in E. change max_field_number with 536870911%Z. destruct ((1 <=? int_value i)%Z && (int_value i <=? 536870911)%Z) eqn:E2.
    + apply andb_true_iff in E2. rewrite !Z.leb_le in E2. eapply es_iff; [apply es_ret|]. intros x. tauto.
    + apply andb_false_iff in E2. rewrite !Z.leb_gt in E2. eapply es_iff; [apply es_then; [apply es_err|fin]|]. intros x. cbv beta. intuition lia.
  - apply within_false in E. eapply es_iff; [apply es_then; [apply es_err|fin]|]. intros x. cbv beta. intuition lia.
Qed.
Lemma enum_number_es i : es (generate_enum_number i) (fun x => ~ int32 i /\ x = InvalidEnumNumber (i_span i)).
Proof.
  unfold generate_enum_number, int32. rewrite as_i32_spec. unfold if_within. destruct (within _ _ _) eqn:E.
  - apply within_spec in E. eapply es_iff; [apply es_ret|]. intros x. tauto.
  - apply within_false in E. eapply es_iff; [apply es_then; [apply es_err|fin]|]. intros x. cbv beta. tauto.
Qed.
Lemma succ_es o : quiet (i32_succ o).
Proof. unfold i32_succ. destruct o as [z|]; [|fin]. destruct (z <? i32_maxZ)%Z; [fin|apply es_panic]. Qed.
Lemma range_spans_es r : quiet (add_range_spans lines r).
Proof. unfold add_range_spans. fin. Qed.
Definition range_q (good : aint -> Prop) (er : span -> perr) (r : rrange) (x : perr) : Prop := exists i, In i (range_numbers r) /\ ~ good i /\ x = er (i_span i).
Lemma message_range_q r ms : es (st <-- generate_message_number (rr_start r) ;; e <-- message_range_end st (rr_end r) ms ;; e' <-- i32_succ e ;; gret {| r_start := st; r_end := e' |})
  (range_q field_number InvalidMessageNumber r).
Proof.
  eapply es_iff; [apply es_bind; [apply number_es|intros st]; apply es_then with (Q := fun x => match rr_end r with REInt v => ~ field_number v /\ x = InvalidMessageNumber (i_span v) | _ => False end)|].
  - unfold message_range_end. destruct (rr_end r); [fin|apply number_es|fin].
  - intros e. apply es_quiet; [apply succ_es|fin].
  - intros x. unfold range_q, range_numbers. destruct (rr_end r) as [|v|]; cbn [In]; split.
    + intros [[H1 H2]|[]]. exists (rr_start r). auto.
    + intros (i & [<-|[]] & H1 & H2). auto.
    + intros [[H1 H2]|[H1 H2]]; [exists (rr_start r)|exists v]; auto.
    + intros (i & [<-|[<-|[]]] & H1 & H2); auto.
    + intros [[H1 H2]|[]]. exists (rr_start r). auto.
    + intros (i & [<-|[]] & H1 & H2). auto.
Qed.
Lemma reserved_range_es ms r : es (generate_message_reserved_range lines ms r) (range_q field_number InvalidMessageNumber r).
Proof. unfold generate_message_reserved_range. apply es_quiet; [apply range_spans_es|intros _]. apply message_range_q. Qed.
Lemma enum_range_es r : es (generate_enum_reserved_range lines r) (range_q int32 InvalidEnumNumber r).
Proof.
  unfold generate_enum_reserved_range. apply es_quiet; [apply range_spans_es|intros _].
  eapply es_iff; [apply es_bind; [apply enum_number_es|intros st]; apply es_then with (Q := fun x => match rr_end r with REInt v => ~ int32 v /\ x = InvalidEnumNumber (i_span v) | _ => False end)|].
  - destruct (rr_end r); [fin|apply enum_number_es|fin].
  - fin.
  - intros x. unfold range_q, range_numbers. destruct (rr_end r) as [|v|]; cbn [In]; split.
    + intros [[H1 H2]|[]]. exists (rr_start r). auto.
    + intros (i & [<-|[]] & H1 & H2). auto.
    + intros [[H1 H2]|[H1 H2]]; [exists (rr_start r)|exists v]; auto.
    + intros (i & [<-|[<-|[]]] & H1 & H2); auto.
    + intros [[H1 H2]|[]]. exists (rr_start r). auto.
    + intros (i & [<-|[]] & H1 & H2). auto.
Qed.

(** ** Options *)
Lemma parts_es l : quiet (option_name_parts l).
Proof. induction l as [|[i|t sp] l IH]; cbn [option_name_parts]; [fin|apply es_quiet; [exact IH|fin]|]. apply es_quiet; [apply es_lift|intros d]. apply es_quiet; [exact IH|fin]. Qed.
Lemma as_i64_none i : i_neg i = true -> (as_i64 i = None <-> (int_value i < -9223372036854775808)%Z).
Proof.
  intros Hn. rewrite as_i64_spec. unfold if_within. destruct (within _ _ _) eqn:E; [apply within_spec in E; split; [discriminate|lia]|apply within_false in E].
  split; [intros _|auto]. unfold int_value in *. rewrite Hn in *. lia.
Qed.
Lemma option_es o : es (generate_option o) (option_flaw o).
Proof.
  unfold generate_option. apply es_quiet; [apply parts_es|intros name]. destruct (ob_value o) as [neg i sp|i|f|s|t sp] eqn:E.
  - destruct neg.
    + eapply es_iff; [apply es_then; [apply es_err|fin]|]. intros x. cbv beta. split; [intros ->; now apply (negative_name o i)|]. inversion 1; congruence.
    + eapply es_iff; [fin|]. intros x. cbv beta. split; [tauto|inversion 1; congruence].
  - destruct (i_neg i) eqn:En.
    + eapply es_iff; [apply es_then with (Q := fun x => as_i64 i = None /\ x = IntegerValueOutOfRange (b "a 64-bit integer") (literal i) (decZ (-9223372036854775808)) (decZ 18446744073709551615) (i_span i)); [|fin]|].
      * destruct (as_i64 i) as [z|]; [eapply es_iff; [fin|]; intros x; cbv beta; intuition discriminate|]. eapply es_iff; [apply es_err|]. intros x. cbv beta.
        change (aint_display i) with (literal i). change i64_min_text with (decZ (-9223372036854775808)). change u64_max_text with (decZ 18446744073709551615). tauto.
      * intros x. cbv beta. rewrite (as_i64_none i En). split; [intros [H ->]; now apply (option_range o i)|]. inversion 1; subst; [congruence|]. assert (i0 = i) as -> by congruence. auto.
    + eapply es_iff; [fin|]. intros x. cbv beta. split; [tauto|]. inversion 1; subst; [congruence|]. assert (i0 = i) as -> by congruence. unfold int_value in *. rewrite En in *. lia.
  - eapply es_iff; [fin|]. intros x. cbv beta. split; [tauto|inversion 1; congruence].
  - eapply es_iff; [fin|]. intros x. cbv beta. split; [tauto|inversion 1; congruence].
  - eapply es_iff; [fin|]. intros x. cbv beta. split; [tauto|inversion 1; congruence].
Qed.
Lemma options_es l : es (generate_options lines l) (options_flaw l).
Proof. unfold generate_options, options_flaw. th. apply es_fold. intros s o _. sk. th. apply option_es. Qed.
Lemma optlist_es ol : es (generate_options_list lines ol) (optlist_flaw ol).
Proof.
  unfold generate_options_list, optlist_flaw. th. destruct ol as [l|]; cbn [optlist_options]; [|eapply es_iff; [fin|]; intros x; split; [tauto|intros (o & [] & _)]].
  sk. apply es_fold. intros s o _. sk. th. apply option_es.
Qed.
Lemma ext_range_es ms os r : es (generate_message_extension_range lines ms os r) (fun x => optlist_flaw os x \/ range_q field_number InvalidMessageNumber r x).
Proof.
  unfold generate_message_extension_range. apply es_quiet; [apply range_spans_es|intros _]. sk. apply es_bind; [apply optlist_es|intros o]. sk.
  intros p w p' e l Hm x. pose proof (message_range_q r ms p) as M. unfold gbind in *.
  destruct (generate_message_number (rr_start r) p) as [[[[a p1] e1] l1]| |]; try discriminate. destruct (message_range_end a (rr_end r) ms p1) as [[[[a2 p2] e2] l2]| |]; try discriminate.
  destruct (i32_succ a2 p2) as [[[[a3 p3] e3] l3]| |]; try discriminate. injection Hm as <- <- <- <-. now apply (M _ _ _ _ eq_refl).
Qed.
Lemma reserved_es rt nt grange Q rs : (forall r, es (grange r) (Q r)) -> es (generate_reserved lines rt nt grange rs) (fun x => exists r, In r (message_ranges rs) /\ Q r x).
Proof.
  intros H. unfold generate_reserved. eapply es_iff; [apply es_fold with (Q := fun r x => match rs_kind r with RKRanges l => exists y, In y l /\ Q y x | RKNames _ => False end)|].
  - intros [ranges names] r _. destruct (rs_kind r) as [l|l]; sk.
    + th. apply es_fold. intros s a _. sk. th. apply H.
    + th. eapply es_iff; [apply es_fold with (Q := fun _ _ => False); intros; fin|]. intros x. split; [intros (a & _ & [])|tauto].
  - intros x. unfold message_ranges. split.
    + intros (r & Hr & H1). destruct (rs_kind r) as [l|l] eqn:E; [|destruct H1]. destruct H1 as (y & Hy & Hq). exists y. split; [|exact Hq]. apply in_flat_map. exists r. rewrite E. auto.
    + intros (y & Hy & Hq). apply in_flat_map in Hy. destruct Hy as (r & Hr & Hy). exists r. split; [exact Hr|]. destruct (rs_kind r); [eauto|destruct Hy].
Qed.

(** ** Enums and services *)
Lemma enum_value_es v : es (generate_enum_value_descriptor lines v) (fun x => (~ int32 (ev_number v) /\ x = InvalidEnumNumber (i_span (ev_number v))) \/ optlist_flaw (ev_options v) x).
Proof. unfold generate_enum_value_descriptor. sk. apply es_bind; [apply enum_number_es|intros num]. sk. th. apply optlist_es. Qed.
Lemma enum_es e : es (generate_enum_descriptor lines e) (flaw k syn (NEnum e)).
Proof.
  unfold generate_enum_descriptor. sk. eapply es_iff; [apply es_bind; [apply es_fold; intros s v _; sk; th; apply enum_value_es|intros values]; apply es_bind; [apply reserved_es; intros r; apply enum_range_es|intros [ranges names]]; sk; th; apply options_es|].
  intros x. split.
  - intros [(v & Hv & [[H ->]|H])|[(r & Hr & i & Hi & H & ->)|H]]; [now apply flaw_value|eapply flaw_value_option; eauto|eapply flaw_enum_reserved; eauto|now apply flaw_enum_option].
  - inversion 1; subst; [left; eauto|left; eauto|right; left; unfold range_q; eauto 10|auto].
Qed.
Lemma method_es m : es (generate_method_descriptor lines m) (options_flaw (me_options m)).
Proof.
  unfold generate_method_descriptor. sk. apply es_quiet; [destruct (me_client m); fin|intros _]. apply es_quiet; [destruct (me_server m); fin|intros _]. sk. th. apply options_es.
Qed.
Lemma service_es s : es (generate_service_descriptor lines s) (flaw k syn (NService s)).
Proof.
  unfold generate_service_descriptor. sk. eapply es_iff; [apply es_bind; [apply es_fold; intros acc m _; sk; th; apply method_es|intros ms]; sk; th; apply options_es|].
  intros x. split; [intros [(m & Hm & H)|H]; [eapply flaw_method_option; eauto|now apply flaw_service_option]|]. inversion 1; subst; eauto.
Qed.

(** ** Fields *)
Definition no_map {B} (f : field_ B) : Prop := match fd_kind f with FKMap _ _ _ _ _ => False | _ => True end.
Lemma label_es lab fsp sc : es (generate_field_label lines syn lab fsp sc)
  (fun x => (exists sp, sc = ScExtend /\ lab = Some (LRequired, sp) /\ x = RequiredExtendField sp) \/
            (exists l sp, sc = ScOneof /\ lab = Some (l, sp) /\ x = OneofFieldWithLabel sp) \/
            (sc <> ScOneof /\ syn = Proto2 /\ lab = None /\ x = Proto2FieldMissingLabel fsp) \/
            (exists sp, sc = ScMessage /\ syn = Proto3 /\ lab = Some (LRequired, sp) /\ x = Proto3RequiredField sp)).
Proof.
  unfold generate_field_label, is_proto2. destruct sc, lab as [[[] sp]|], syn;
    (eapply es_iff; [first [apply es_then; [apply es_err|fin] | fin]|]); intros x; cbv beta;
    (split; [|intros [(sp' & H)|[(l' & sp' & H)|[H|(sp' & H)]]]; destruct H as (H1 & H2); repeat (match goal with H : _ /\ _ |- _ => destruct H end); congruence]); try tauto.
  all: intros ->; first [left; eexists; repeat split; congruence | right; left; do 2 eexists; repeat split; congruence | right; right; left; repeat split; congruence | right; right; right; eexists; repeat split; congruence].
Qed.
Lemma string_es v : es (generate_string_option_value k v)
  (fun x => ((forall s, v <> OVString s) /\ x = ValueInvalidType (b "a string") (optval_display k v) (optval_span v)) \/
            (exists s, v = OVString s /\ utf8_valid (st_val s) = false /\ x = InvalidUtf8String (st_span s))).
Proof.
  unfold generate_string_option_value. destruct v as [neg i sp|i|f|s|t sp].
  4:{ destruct (utf8_valid (st_val s)) eqn:E.
      - eapply es_iff; [fin|]. intros x. split; [tauto|]. intros [[H _]|(s' & H1 & H2 & _)]; [now apply (H s)|]. congruence.
      - eapply es_iff; [apply es_then; [apply es_err|fin]|]. intros x. cbv beta. split; [intros ->; right; exists s; auto|]. intros [[H _]|(s' & H1 & H2 & H3)]; [now destruct (H s)|]. congruence. }
  all: eapply es_iff; [apply es_then; [apply es_err|fin]|]; intros x; cbv beta; (split; [intros ->; left; split; [discriminate|reflexivity]|intros [[_ H]|(s' & H & _)]; [exact H|discriminate]]).
Qed.
Definition default_q (t : ty) (v : optval) (x : perr) : Prop :=
  (~ of_kind t v /\ x = ValueInvalidType (wanted t) (optval_display k v) (optval_span v)) \/
  (exists i name lo hi, v = OVInt i /\ range_of t = Some (name, lo, hi) /\ (~ (lo <= int_value i <= hi)%Z \/ lo = 0%Z /\ i_neg i = true) /\
     x = IntegerValueOutOfRange name (literal i) (decZ lo) (decZ hi) (i_span i)) \/
  (exists s, t = TyString /\ v = OVString s /\ utf8_valid (st_val s) = false /\ x = InvalidUtf8String (st_span s)).
Lemma wrong_es t v : ~ of_kind t v -> range_of t = None \/ (forall i, v <> OVInt i) -> t <> TyString -> es (invalid_type k (wanted t) v) (default_q t v).
Proof.
  intros H1 H2 H3. unfold invalid_type. eapply es_iff; [apply es_then; [apply es_err|fin]|]. intros x. cbv beta. unfold default_q. split; [intros ->; left; auto|].
  intros [[_ H]|[(i & name & lo & hi & Hv & Hr & _)|(s & H & _)]]; [exact H| |congruence]. destruct H2 as [H2|H2]; [congruence|now destruct (H2 i)].
Qed.
Lemma right_es t v s : of_kind t v -> range_of t = None -> t <> TyString -> es (gret (Some s : option bytes)) (default_q t v).
Proof.
  intros H1 H2 H3. eapply es_iff; [fin|]. intros x. unfold default_q. split; [tauto|]. intros [[H _]|[(i & name & lo & hi & _ & Hr & _)|(s' & H & _)]]; [auto|congruence|congruence].
Qed.
Lemma int_es t i txt name lo hi mn mx : of_kind t (OVInt i) -> range_of t = Some (name, lo, hi) -> t <> TyString -> mn = decZ lo -> mx = decZ hi ->
  (txt = None <-> ~ (lo <= int_value i <= hi)%Z \/ lo = 0%Z /\ i_neg i = true) ->
  es (int_default txt i name mn mx) (default_q t (OVInt i)).
Proof.
  intros H1 H2 H3 -> -> H4. unfold int_default, default_q. destruct txt as [s|].
  - eapply es_iff; [fin|]. intros x. split; [tauto|]. intros [[H _]|[(j & n' & lo' & hi' & Hv & Hr & Hb & _)|(s' & _ & H & _)]]; [auto| |discriminate].
    injection Hv as <-. rewrite H2 in Hr. injection Hr as <- <- <-. apply H4 in Hb. discriminate.
  - eapply es_iff; [apply es_then; [apply es_err|fin]|]. intros x. cbv beta. change (aint_display i) with (literal i). split.
    + intros ->. right. left. exists i, name, lo, hi. repeat split; auto. now apply H4.
    + intros [[H _]|[(j & n' & lo' & hi' & Hv & Hr & Hb & Hx)|(s' & _ & H & _)]]; [now destruct H| |discriminate]. injection Hv as <-. rewrite H2 in Hr. injection Hr as <- <- <-. exact Hx.
Qed.
Definition small_int (v : optval) : Prop := match v with OVInt i => i_val i < 2 ^ 64 | _ => True end.
Lemma double_es t v : t = TyDouble \/ t = TyFloat -> es (match f64_default k v with Some s => gret (Some s) | None => invalid_type k (b "a floating-point number") v end) (default_q t v).
Proof.
  intros Ht. assert (range_of t = None /\ t <> TyString /\ wanted t = b "a floating-point number") as (H1 & H2 & <-) by (destruct Ht; subst; repeat split; discriminate).
  destruct v as [neg i sp|i|f|s|tx sp]; cbn [f64_default].
  - destruct (bytes_eqb (id_val i) (b "nan")) eqn:E1; [apply bytes_eqb_eq in E1; apply right_es; auto; destruct Ht; subst; now left|].
    destruct (bytes_eqb (id_val i) (b "inf")) eqn:E2; [apply bytes_eqb_eq in E2; apply right_es; auto; destruct Ht; subst; now right|].
    apply wrong_es; auto. apply bytes_eqb_neq in E1. apply bytes_eqb_neq in E2. destruct Ht; subst; intros [H|H]; auto.
  - apply right_es; auto. destruct Ht; subst; exact I.
  - apply right_es; auto. destruct Ht; subst; exact I.
  - apply wrong_es; auto. destruct Ht; subst; intros [].
  - apply wrong_es; auto. destruct Ht; subst; intros [].
Qed.
Lemma default_es t v : is_named t = false -> small_int v -> es (generate_field_default_value k (proto_ty t) v) (default_q t v).
Proof.
  intros Hn Hs.
  assert (I64 : forall i, option_map decZ (as_i64 i) = None <-> ~ (-9223372036854775808 <= int_value i <= 9223372036854775807)%Z \/ (-9223372036854775808)%Z = 0%Z /\ i_neg i = true).
  { intros i. rewrite as_i64_spec. unfold if_within. destruct (within _ _ _) eqn:E; [apply within_spec in E|apply within_false in E]; cbn [option_map]; split; try discriminate; try tauto. intros [H|[H _]]; [tauto|lia]. }
  assert (I32 : forall i, option_map decZ (as_i32 i) = None <-> ~ (-2147483648 <= int_value i <= 2147483647)%Z \/ (-2147483648)%Z = 0%Z /\ i_neg i = true).
  { intros i. rewrite as_i32_spec. unfold if_within. destruct (within _ _ _) eqn:E; [apply within_spec in E|apply within_false in E]; cbn [option_map]; split; try discriminate; try tauto. intros [H|[H _]]; [tauto|lia]. }
  assert (U32 : forall i, option_map dec (as_u32 i) = None <-> ~ (0 <= int_value i <= 4294967295)%Z \/ 0%Z = 0%Z /\ i_neg i = true).
  { intros i. unfold as_u32, int_value. destruct (i_neg i) eqn:En; [tauto|]. destruct (i_val i <=? 4294967295) eqn:E; [apply N.leb_le in E|apply N.leb_gt in E]; cbn [option_map]; split; [discriminate|intros [H|[_ H]]; [lia|discriminate]|intros _; left; lia|reflexivity]. }
  assert (U64 : forall i, v = OVInt i -> option_map dec (as_u64 i) = None <-> ~ (0 <= int_value i <= 18446744073709551615)%Z \/ 0%Z = 0%Z /\ i_neg i = true).
  { intros i ->. cbn [small_int] in Hs. change (2 ^ 64) with 18446744073709551616 in Hs. unfold as_u64, int_value. destruct (i_neg i) eqn:En; [tauto|]. cbn [option_map]. split; try discriminate. intros [H|[_ H]]; [lia|discriminate]. }
  assert (T : forall t', t' <> TyString -> is_int t' -> forall i name lo hi txt mn mx, v = OVInt i -> range_of t' = Some (name, lo, hi) -> mn = decZ lo -> mx = decZ hi ->
    (txt = None <-> ~ (lo <= int_value i <= hi)%Z \/ lo = 0%Z /\ i_neg i = true) -> es (int_default txt i name mn mx) (default_q t' v)).
  { intros t' H1 H2 i name lo hi txt mn mx -> Hr Hm Hx Ht. apply (int_es t' i txt name lo hi); auto. destruct t'; try exact I; destruct H2. }
  destruct t; try discriminate; cbn [proto_ty]; unfold generate_field_default_value.
  all: try (destruct v as [neg i sp|i|f|s|tx sp] eqn:Ev;
    [ first [apply (wrong_es TyInt32)|apply (wrong_es TyInt64)|apply (wrong_es TyUint32)|apply (wrong_es TyUint64)|apply (wrong_es TySint32)|apply (wrong_es TySint64)|apply (wrong_es TyFixed32)|apply (wrong_es TyFixed64)|apply (wrong_es TySfixed32)|apply (wrong_es TySfixed64)]; [intros []|right; discriminate|discriminate]
    | eapply T; [discriminate|exact I|reflexivity|reflexivity|vm_compute; reflexivity|vm_compute; reflexivity|first [apply I64|apply I32|apply U32|now apply U64]]
    | first [apply (wrong_es TyInt32)|apply (wrong_es TyInt64)|apply (wrong_es TyUint32)|apply (wrong_es TyUint64)|apply (wrong_es TySint32)|apply (wrong_es TySint64)|apply (wrong_es TyFixed32)|apply (wrong_es TyFixed64)|apply (wrong_es TySfixed32)|apply (wrong_es TySfixed64)]; [intros []|right; discriminate|discriminate].. ]; fail).
  - apply (double_es TyDouble v); now left.
  - apply (double_es TyFloat v); now right.
  - destruct v as [[] i sp|i|f|s|tx sp]; cbn [as_bool]; try (apply (wrong_es TyBool); [intros []|now left|discriminate]).
    destruct (bytes_eqb (id_val i) (b "false")) eqn:E2; [apply bytes_eqb_eq in E2; apply right_es; [now right|reflexivity|discriminate]|].
    destruct (bytes_eqb (id_val i) (b "true")) eqn:E1; [apply bytes_eqb_eq in E1; apply right_es; [now left|reflexivity|discriminate]|].
    apply (wrong_es TyBool); [|now left|discriminate]. apply bytes_eqb_neq in E1. apply bytes_eqb_neq in E2. intros [H|H]; auto.
  - eapply es_iff; [apply string_es|]. intros x. unfold default_q. split.
    + intros [[H ->]|(s & H1 & H2 & H3)]; [left; split; [|reflexivity]|right; right; eauto 10]. destruct v; cbn; try tauto. now destruct (H s).
    + intros [[H ->]|[(i & name & lo & hi & _ & H & _)|(s & _ & H)]]; [left; split; [|reflexivity]|discriminate|right; exists s; exact H]. intros s ->. now apply H.
  - destruct v as [neg i sp|i|f|s|tx sp]; try (apply (wrong_es TyBytes); [intros []|now left|discriminate]). apply right_es; [exact I|reflexivity|discriminate].
Qed.

Section WithBody.
Variable gb : body -> G msg_desc.
Variable nb : body -> list node.
Definition flaws (l : list node) (x : perr) : Prop := exists y, In y l /\ flaw k syn y x.
Lemma flaws_app a c x : flaws (a ++ c) x <-> flaws a x \/ flaws c x.
Proof. unfold flaws. split; [intros (y & H & F); apply in_app_iff in H; destruct H; eauto|intros [(y & H & F)|(y & H & F)]; exists y; rewrite in_app_iff; auto]. Qed.
Lemma flaws_cons a c x : flaws (a :: c) x <-> flaw k syn a x \/ flaws c x.
Proof. unfold flaws. cbn [In]. split; [intros (y & [<-|H] & F); eauto|intros [F|(y & H & F)]; eauto]. Qed.
Lemma flaws_map {A} (f : A -> list node) l x : flaws (flat_map f l) x <-> exists a, In a l /\ flaws (f a) x.
Proof. unfold flaws. split; [intros (y & H & F); apply in_flat_map in H; destruct H as (a & H1 & H2); eauto|intros (a & H1 & y & H2 & F); exists y; rewrite in_flat_map; eauto]. Qed.
Definition sub (f : field) : list node := match fd_kind f with FKGroup _ bd => nb bd | _ => [] end.
Definition good (f : field) : Prop :=
  match default_of f with Some o => small_int (ob_value o) | None => True end /\ match fd_kind f with FKGroup _ bd => es (gb bd) (flaws (nb bd)) | _ => True end.

Lemma check_default_es (f : field) o : es (check_default syn f o) (fun x => exists d, o = Some d /\
  ((~ no_map f /\ x = InvalidDefault (b "map") (body_span d)) \/
   (no_map f /\ (exists sp, fd_label f = Some (LRepeated, sp)) /\ x = InvalidDefault (b "repeated") (body_span d)) \/
   (no_map f /\ (forall sp, fd_label f <> Some (LRepeated, sp)) /\ syn = Proto3 /\ x = Proto3DefaultValue (body_span d)))).
Proof.
  unfold check_default, no_map. destruct o as [d|]; [|eapply es_iff; [fin|]; intros x; split; [tauto|intros (d & [=] & _)]].
  apply es_bind_some. intros sp E. assert (body_span d = sp) as <- by (unfold body_span; now rewrite E).
  destruct (fd_kind f) as [t a|a c|a c d' e g].
  3:{ eapply es_iff; [apply es_err|]. intros x. cbv beta. split; [intros ->; exists d; split; [reflexivity|left; tauto]|]. intros (d0 & [= <-] & [[_ H]|[[[] _]|[[] _]]]). exact H. }
  all: unfold is_proto2; destruct (fd_label f) as [[[] lsp]|]; try (eapply es_iff; [apply es_err|]; intros x; cbv beta; split; [intros ->; exists d; split; [reflexivity|right; left; eauto]|intros (d0 & [= <-] & [[[] _]|[(_ & _ & H)|(_ & H & _)]]); [exact I|exact H|now destruct (H lsp)]]; fail).
  all: destruct syn; [eapply es_iff; [fin|]|eapply es_iff; [apply es_err|]]; intros x; cbv beta; split; try tauto;
    try (intros ->; exists d; split; [reflexivity|right; right; repeat split; discriminate || exact I]; fail);
    (intros (d0 & [= <-] & [[[] _]|[(_ & (sp' & H) & _)|(_ & _ & H)]]); [exact I|discriminate|]; destruct H; [discriminate || assumption]).
Qed.
Definition label_q (lab : option (flabel * span)) (fsp : span) (sc : scope) (x : perr) : Prop :=
  (exists sp, sc = ScExtend /\ lab = Some (LRequired, sp) /\ x = RequiredExtendField sp) \/
  (exists l sp, sc = ScOneof /\ lab = Some (l, sp) /\ x = OneofFieldWithLabel sp) \/
  (sc <> ScOneof /\ syn = Proto2 /\ lab = None /\ x = Proto2FieldMissingLabel fsp) \/
  (exists sp, sc = ScMessage /\ syn = Proto3 /\ lab = Some (LRequired, sp) /\ x = Proto3RequiredField sp).
Definition kind_q (f : field) (sc : scope) (x : perr) : Prop :=
  match fd_kind f with
  | FKNormal t _ => label_q (fd_label f) (fd_span f) sc x \/ (exists o, default_of f = Some o /\ default_q t (ob_value o) x)
  | FKGroup _ bd => label_q (fd_label f) (fd_span f) sc x \/ (syn = Proto3 /\ x = Proto3GroupField (fd_span f)) \/
                    (exists o, default_of f = Some o /\ x = InvalidDefault (b "group") (body_span o)) \/ flaws (nb bd) x
  | FKMap _ kt ks _ _ =>
    ((sc = ScOneof /\ x = InvalidOneofFieldKind (b "map") (fd_span f)) \/ (sc = ScExtend /\ x = InvalidExtendFieldKind (b "map") (fd_span f)) \/
     (exists l sp, sc = ScMessage /\ fd_label f = Some (l, sp) /\ x = MapFieldWithLabel sp)) \/
    (key_type kt = false /\ x = InvalidMapFieldKeyType ks)
  end.
Lemma kind_es (f : field) fi ft mt ms sc : good f -> es (generate_field_kind k lines syn gb f fi ft mt ms (default_of f) sc) (kind_q f sc).
Proof.
  intros [Hs Hg]. unfold generate_field_kind, kind_q. destruct (fd_kind f) as [t a|a bd|a kt ks vt vs].
  - destruct (is_named t) eqn:En.
    + destruct t; try discriminate. eapply es_iff; [apply es_then; [apply label_es|intros lab]; sk; apply es_quiet; [destruct (default_of f); fin|fin]|].
      intros x. fold (label_q (fd_label f) (fd_span f) sc x). split; [now left|]. intros [H|(o & _ & [[H _]|[(i & name & lo & hi & _ & H & _)|(s & H & _)]])]; [exact H|now destruct H|discriminate|discriminate].
    + assert (Hd : es (match default_of f with Some o => add_span_for lines [tag_field_default] (optval_span (ob_value o)) ;;;; generate_field_default_value k (proto_ty t) (ob_value o) | None => gret None end)
        (fun x => exists o, default_of f = Some o /\ default_q t (ob_value o) x)).
      { destruct (default_of f) as [o|]; [sk; eapply es_iff; [apply default_es; auto|]; intros x; split; [eauto|intros (o' & [= <-] & H); exact H]|eapply es_iff; [fin|]; intros x; split; [tauto|intros (o & [=] & _)]]. }
      assert (Hx : es (lab <-- generate_field_label lines syn (fd_label f) (fd_span f) sc ;; dv <-- (match default_of f with Some o => add_span_for lines [tag_field_default] (optval_span (ob_value o)) ;;;; generate_field_default_value k (proto_ty t) (ob_value o) | None => gret None end) ;;
        add_comments lines (fd_span f) (fd_comments f) ;;;; add_span_for lines [tag_field_type] a ;;;; gret (id_val (fd_name f), lab, proto_ty t, (None : option bytes), dv, ms))
        (fun x => label_q (fd_label f) (fd_span f) sc x \/ (exists o, default_of f = Some o /\ default_q t (ob_value o) x))).
      { apply es_bind; [apply label_es|intros lab]. th. exact Hd. }
      destruct t; try discriminate; exact Hx.
  - eapply es_iff; [apply es_bind; [apply label_es|intros lab]; apply es_bind with (Q1 := fun x => syn = Proto3 /\ x = Proto3GroupField (fd_span f)); [|intros _; apply es_bind with (Q1 := fun x => exists o, default_of f = Some o /\ x = InvalidDefault (b "group") (body_span o)); [|intros _; sk; th; exact Hg]]|].
    + unfold is_proto2. destruct syn; (eapply es_iff; [first [apply es_err | fin]|]); intros x; cbv beta; intuition discriminate.
    + destruct (default_of f) as [o|]; [|eapply es_iff; [fin|]; intros x; split; [tauto|intros (o & [=] & _)]]. apply es_bind_some. intros sp E. assert (body_span o = sp) as <- by (unfold body_span; now rewrite E).
      eapply es_iff; [apply es_err|]. intros x. cbv beta. split; [eauto|intros (o' & [= <-] & H); exact H].
    + intros x. reflexivity.
  - eapply es_iff; [apply es_bind with (Q1 := fun x => (sc = ScOneof /\ x = InvalidOneofFieldKind (b "map") (fd_span f)) \/ (sc = ScExtend /\ x = InvalidExtendFieldKind (b "map") (fd_span f)) \/
       (exists l sp, sc = ScMessage /\ fd_label f = Some (l, sp) /\ x = MapFieldWithLabel sp)); [|intros _; sk; apply es_then with (Q := fun x => key_type kt = false /\ x = InvalidMapFieldKeyType ks); [|intros _]]|].
    + destruct sc; [destruct (fd_label f) as [[l sp]|]|..]; (eapply es_iff; [first [apply es_err | fin]|]); intros x; cbv beta; (split; [intros H|intros [[H H']|[[H H']|(l' & sp' & H & H' & H'')]]; try discriminate; try congruence]).
      * right. right. exists l, sp. auto.
      * destruct H.
      * auto.
      * auto.
    + rewrite key_type_spec. destruct (key_type kt); (eapply es_iff; [first [apply es_err | fin]|]); intros x; cbv beta; intuition discriminate.
    + apply es_quiet; [destruct vt; fin|fin].
    + intros x. reflexivity.
Qed.
Lemma synthetic_es (f : field) t os : quiet (synthetic_oneof syn f t os).
Proof. unfold synthetic_oneof. destruct (is_proto2 syn); [fin|]. destruct (fd_label f) as [[[] sp]|]; try fin. destruct t; fin. Qed.
Lemma label_flaw (f : field) sc x : match fd_kind f with FKMap _ _ _ _ _ => False | _ => True end -> label_q (fd_label f) (fd_span f) sc x -> field_flaw k syn sc f x.
Proof.
  intros Hm [(sp & -> & Hl & ->)|[(l & sp & -> & Hl & ->)|[(Hs & H & Hl & ->)|(sp & -> & H & Hl & ->)]]]; [now apply f_required_extension|eapply f_oneof_label; eauto|now apply f_no_label|now apply f_required].
Qed.
Lemma field_es (f : field) fi ft mt ms ot os sc : good f -> es (generate_field_descriptor k lines syn gb f fi ft mt ms ot os sc) (flaws (nodes_field nb sc f)).
Proof.
  intros Hg. unfold generate_field_descriptor. rewrite take_option_spec. fold (default_of f). rewrite take_option_spec, json_eq, rest_eq. sk.
  eapply es_iff; [apply es_bind; [apply number_es|intros num]; apply es_quiet; [apply synthetic_es|intros [[p3o oi] os']]; apply es_bind; [apply check_default_es|intros _]; apply es_bind; [apply kind_es; exact Hg|intros [[[[[name lab] t] tn] dv] ms']];
    apply es_bind with (Q1 := fun x => exists o, json_of f = Some o /\
      (((forall s, ob_value o <> OVString s) /\ x = ValueInvalidType (b "a string") (optval_display k (ob_value o)) (optval_span (ob_value o))) \/
       (exists s, ob_value o = OVString s /\ utf8_valid (st_val s) = false /\ x = InvalidUtf8String (st_span s)))); [|intros jn; sk; th; apply optlist_es]|].
  - destruct (json_of f) as [o|]; [|eapply es_iff; [fin|]; intros x; split; [tauto|intros (o & [=] & _)]]. apply es_bind_some. intros sp _. sk. eapply es_iff; [apply string_es|]. intros x. split; [eauto|intros (o' & [= <-] & H); exact H].
  - intros x. unfold nodes_field. rewrite flaws_cons. cbv beta. split.
    + intros [[H ->]|[(d & Hd & H)|[H|[(o & Ho & H)|H]]]].
      * left. now apply flaw_field, f_number_range.
      * left. apply flaw_field. unfold no_map in H. destruct H as [[H ->]|[(H & (sp & Hl) & ->)|(H & Hl & Hs & ->)]].
        -- destruct (fd_kind f) eqn:E; try (now destruct H). eapply f_map_default; eauto.
        -- eapply f_repeated_default; eauto.
        -- now apply f_proto3_default.
      * unfold kind_q in H. destruct (fd_kind f) as [t a|a bd|a kt ks vt vs] eqn:E.
        -- left. apply flaw_field. destruct H as [H|(o & Ho & H)]; [apply label_flaw; [now rewrite E|exact H]|].
           destruct H as [[H ->]|[(i & name & lo & hi & Hv & Hr & Hb & ->)|(s & -> & Hv & Hu & ->)]]; [eapply f_default_kind; eauto|eapply f_default_range; eauto|eapply f_default_utf8; eauto].
        -- destruct H as [H|[[Hs ->]|[(o & Ho & ->)|H]]]; [left; apply flaw_field, label_flaw; [now rewrite E|exact H]|left; apply flaw_field; eapply f_group; eauto|left; apply flaw_field; eapply f_group_default; eauto|now right].
        -- left. apply flaw_field. destruct H as [[[H ->]|[[H ->]|(l & sp & H & Hl & ->)]]|[H ->]]; [eapply f_map_oneof; eauto|eapply f_map_extend; eauto|eapply f_map_label; eauto|eapply f_map_key; eauto].
      * left. apply flaw_field. destruct H as [[H ->]|(s & Hv & Hu & ->)]; [now apply f_json_kind|eapply f_json_utf8; eauto].
      * left. apply flaw_field. now apply f_option.
    + intros [H|H].
      * inversion H as [sc' f' e' HF| | | | | | | | | | | | |]; subst. clear H. unfold kind_q, no_map, label_q, default_q.
        inversion HF as [H|sp Hm Hs Hl|l sp Hm Hs Hl|Hm Hs Hy Hl|sp Hm Hs Hy Hl|a c d e g E Hs|a c d e g E Hs|a c d e g l sp E Hs Hl|a c d e g E Hk|a c E Hy|a c d e g o E Ho|sp o Hm Hl Ho|o Hm Hl Hy Ho|a c o E Ho|t a o E Ho Hk|t a o i name lo hi E Ho Hv Hr Hb|a o s E Ho Hv Hu|o Ho Hk|o s Ho Hv Hu|e Ho]; subst x || subst; clear HF.
        -- auto.
        -- right; right; left. destruct (fd_kind f); try (now destruct Hm); left; left; eauto.
        -- right; right; left. destruct (fd_kind f); try (now destruct Hm); left; right; left; eauto.
        -- right; right; left. destruct (fd_kind f); try (now destruct Hm); left; right; right; left; auto.
        -- right; right; left. destruct (fd_kind f); try (now destruct Hm); left; right; right; right; eauto.
        -- right; right; left. rewrite E. auto.
        -- right; right; left. rewrite E. auto.
        -- right; right; left. rewrite E. left. right. right. eauto.
        -- right; right; left. rewrite E. auto.
        -- right; right; left. rewrite E. auto.
        -- right; left. rewrite E. exists o. split; [exact Ho|left; tauto].
        -- right; left. exists o. split; [exact Ho|right; left; eauto].
        -- right; left. exists o. split; [exact Ho|right; right; auto].
        -- right; right; left. rewrite E. right. right. left. eauto.
        -- right; right; left. rewrite E. right. exists o. auto.
        -- right; right; left. rewrite E. right. exists o. split; [exact Ho|]. right. left. exists i, name, lo, hi. auto.
        -- right; right; left. rewrite E. right. exists o. split; [exact Ho|]. right. right. eauto.
        -- right; right; right; left. exists o. auto.
        -- right; right; right; left. exists o. split; [exact Ho|]. right. eauto.
        -- right; right; right; right. exact Ho.
      * right. right. left. unfold kind_q. destruct (fd_kind f); try (now destruct H as (y & [] & _)). auto.
Qed.
Lemma oneof_es (o : oneof) i ot mt ms ft fs : (forall f, In f (oo_fields o) -> good f) -> es (generate_oneof_descriptor k lines syn gb o i ot mt ms ft fs) (flaws (NOneof o :: flat_map (nodes_field nb ScOneof) (oo_fields o))).
Proof.
  intros Hg. unfold generate_oneof_descriptor. sk.
  eapply es_iff; [apply es_bind; [apply options_es|intros os]; sk; apply es_bind with (Q1 := fun x => oo_fields o = [] /\ x = EmptyOneof (oo_span o)); [|intros _; apply es_then; [apply es_fold with (Q := fun f => flaws (nodes_field nb ScOneof f))|intros [ms' fs']; fin]]|].
  - destruct (oo_fields o); (eapply es_iff; [first [apply es_err | fin]|]); intros x; cbv beta; intuition discriminate.
  - intros [ms' fs'] f Hf. sk. th. apply field_es. now apply Hg.
  - intros x. rewrite flaws_cons, flaws_map. cbv beta. split.
    + intros [H|[[H ->]|H]]; [left; now apply flaw_oneof_option|left; now apply flaw_oneof_empty|now right].
    + intros [H|H]; [inversion H; subst; auto|auto].
Qed.
Lemma extend_es (e : extend) et xs mt ms : (forall f, In f (et_fields e) -> good f) -> es (generate_extend_descriptors k lines syn gb e et xs mt ms) (flaws (flat_map (nodes_field nb ScExtend) (et_fields e))).
Proof.
  intros Hg. unfold generate_extend_descriptors. sk. eapply es_iff; [apply es_fold with (Q := fun f => flaws (nodes_field nb ScExtend f))|intros x; now rewrite flaws_map].
  intros [xs' ms'] f Hf. sk. th. apply field_es. now apply Hg.
Qed.
Lemma message_es (m : message) : es (gb (ms_body m)) (flaws (nb (ms_body m))) -> es (generate_message_descriptor lines gb m) (flaws (nb (ms_body m))).
Proof. intros H. unfold generate_message_descriptor. sk. th. exact H. Qed.
Definition good_item (it : mitem) : Prop :=
  match it with
  | MIField f => good f
  | MIMessage m => es (gb (ms_body m)) (flaws (nb (ms_body m)))
  | MIExtend e => forall f, In f (et_fields e) -> good f
  | MIOneof o => forall f, In f (oo_fields o) -> good f
  | MIEnum _ => True
  end.
Lemma item_es s it : good_item it -> es (generate_item k lines syn gb s it) (flaws (nodes_item nb it)).
Proof.
  destruct it as [f|e|m|e|o]; cbn [good_item generate_item nodes_item]; intros H.
  - th. now apply field_es.
  - sk. th. eapply es_iff; [apply enum_es|]. intros x. rewrite flaws_cons. split; [auto|intros [F|(y & [] & _)]; exact F].
  - sk. th. now apply message_es.
  - th. now apply extend_es.
  - th. now apply oneof_es.
Qed.
End WithBody.

Lemma extensions_es ms exts : es (generate_extension_ranges lines ms exts) (fun x => exists e, In e exts /\ exists r, In r (ex_ranges e) /\ (optlist_flaw (ex_options e) x \/ range_q field_number InvalidMessageNumber r x)).
Proof. unfold generate_extension_ranges. sk. th. apply es_fold. intros s e _. sk. apply es_fold. intros s' r _. sk. th. apply ext_range_es. Qed.
Lemma body_step items exts opts res : (forall it, In it items -> good_item (generate_message_body_descriptor k lines syn) nodes_body it) ->
  es (generate_message_body_descriptor k lines syn (Body items exts opts res)) (flaws (nodes_body (Body items exts opts res))).
Proof.
  intros H. cbn [generate_message_body_descriptor nodes_body].
  eapply es_iff; [apply es_bind; [apply es_fold with (Q := fun it => flaws (nodes_item nodes_body it)); intros s it Hi; apply item_es; now apply H|intros s];
    apply es_bind; [apply reserved_es; intros r; apply reserved_range_es|intros [ranges names]]; apply es_bind; [apply extensions_es|intros xrs]; sk; th; apply options_es|].
  intros x. rewrite flaws_cons, flaws_map. split.
  - intros [F|[(r & Hr & i & Hi & Hn & ->)|[(e & He & r & Hr & [F|(i & Hi & Hn & ->)])|F]]]; [now right|left; eapply flaw_reserved; eauto|left; eapply flaw_extensions_option; eauto|left; eapply flaw_extensions; eauto|left; now apply flaw_message_option].
  - intros [F|F]; [|now left]. right. inversion F; subst.
    + right. left. exists x0. split; [assumption|]. exists r. split; [assumption|]. right. exists i. auto.
    + right. left. eauto 10.
    + auto.
    + left. exists r. split; [assumption|]. exists i. auto.
Qed.
End Errors.

Section Wf.
Variable k : cfg.
Variable lines : list Z.
Variable syn : syntax.
Variable n : N.
Hypothesis Hn : n <= i32_max.
Let gb := generate_message_body_descriptor k lines syn.
Lemma wf_good (wfb : body -> Prop) (f : field) : (forall bd, wfb bd -> es (gb bd) (flaws k syn (nodes_body bd))) -> wf_field n wfb f -> good k syn gb nodes_body f.
Proof.
  intros Hb Hf. split.
  - pose proof (wf_default n Hn wfb f Hf) as H. destruct (default_of f) as [o|]; [|exact I]. destruct H as (_ & _ & _ & H). exact H.
  - destruct Hf as (_ & _ & _ & H & _). destruct (fd_kind f); try exact I. apply Hb. apply H.
Qed.
Lemma wf_body_es : forall d bd, wf_body_n n d bd -> es (gb bd) (flaws k syn (nodes_body bd)).
Proof.
  induction d as [|d IH]; intros bd H; [destruct H|]. cbn [wf_body_n] in H. destruct H as (Hi & _). destruct bd as [items exts opts res]. cbn [bd_items] in Hi.
  apply body_step. intros it Hin. rewrite Forall_forall in Hi. specialize (Hi it Hin). destruct it as [f|e|m|e|o]; cbn [good_item wf_item] in *.
  - now apply wf_good with (wfb := wf_body_n n d).
  - exact I.
  - destruct Hi as (_ & _ & Hm). now apply IH.
  - destruct Hi as (_ & _ & Hm). rewrite Forall_forall in Hm. intros f Hf. apply wf_good with (wfb := wf_body_n n d); auto.
  - destruct Hi as (_ & _ & _ & Hm). rewrite Forall_forall in Hm. intros f Hf. apply wf_good with (wfb := wf_body_n n d); auto.
Qed.
Lemma body_es bd : wf_body n bd -> es (gb bd) (flaws k syn (nodes_body bd)).
Proof. intros [d H]. now apply (wf_body_es d). Qed.
Ltac q1 := first [apply es_comments_for | apply es_span_for | apply es_comments | apply es_span | apply es_index | apply es_push | apply es_pop1 | apply es_pop | apply es_ret | apply es_lift].
Ltac sk := repeat (apply es_quiet; [q1|let h := fresh "u" in intros h]).
Ltac fin := intros; repeat match goal with v : (_ * _)%type |- es _ _ => destruct v end; sk; q1.
Ltac th := apply es_then; [|intros ?; fin].
Lemma flaws_one y x : flaw k syn y x <-> flaws k syn [y] x.
Proof. rewrite flaws_cons. split; [auto|intros [H|(z & [] & _)]; exact H]. Qed.
Lemma fitem_es s it : wf_fitem n it -> es (generate_file_item k lines syn s it) (flaws k syn (nodes_fitem it)).
Proof.
  destruct it as [e|m|e|s']; cbn [wf_fitem generate_file_item nodes_fitem]; intros H.
  - sk. th. eapply es_iff; [apply enum_es|]. intros x. apply flaws_one.
  - sk. th. apply message_es. apply body_es, H.
  - th. apply extend_es. destruct H as (_ & _ & Hm). rewrite Forall_forall in Hm. intros f Hf. apply wf_good with (wfb := wf_body n); [apply body_es|auto].
  - sk. th. eapply es_iff; [apply service_es|]. intros x. apply flaws_one.
Qed.
Lemma imports_es l : quiet (generate_imports lines l).
Proof.
  unfold generate_imports. eapply es_iff; [apply es_fold with (Q := fun _ _ => False)|].
  - intros [[deps pub] weak] im _. sk. destruct (im_kind im) as [[[] sp]|]; fin.
  - intros x. split; [intros (a & _ & [])|tauto].
Qed.
Lemma file_es name f : wf_file n f -> es (generate_file_descriptor k lines syn name f) (breaks k syn f).
Proof.
  intros H. unfold generate_file_descriptor. sk. apply es_quiet; [destruct (fi_package f); fin|intros package]. apply es_quiet; [apply imports_es|intros [[deps pub] weak]].
  destruct H as (_ & _ & _ & _ & _ & _ & Hi & _). rewrite Forall_forall in Hi.
  eapply es_iff; [apply es_bind; [apply es_fold with (Q := fun it => flaws k syn (nodes_fitem it)); intros s it Hin; apply fitem_es; auto|intros s]; sk; apply es_then; [apply options_es|intros os]; sk; apply es_quiet; [destruct (fi_syntax_span f) as [[sp c]|]; fin|fin]|].
  intros x. unfold breaks. fold (flaws k syn (nodes f) x). unfold nodes. rewrite flaws_cons, flaws_map. split.
  - intros [H|H]; [now right|left; now apply flaw_file_option].
  - intros [H|H]; [right; inversion H; subst; assumption|now left].
Qed.
End Wf.

(** ** C53 *)
Lemma generate_errors k sort f name src : len src <= i32_max -> wf_file (len src) f ->
  (ok_file k (fi_syntax f) f <-> forall e, ~ breaks k (fi_syntax f) f e) /\
  forall es, generate_file k sort f name src = Done (inr es) -> forall e, In e es <-> breaks k (fi_syntax f) f e.
Proof.
  intros Hn Hw. destruct (generate_file_spec k sort f name src Hn Hw) as (ls & El & H). unfold generate_file in *. rewrite El in *. cbn [obind] in *.
  destruct (generate_file_descriptor k ls (fi_syntax f) name f []) as [[[[d p] errs] locs]| |] eqn:E; cbn [obind] in *.
  2,3: destruct H as [[_ H]|(_ & es & H & _)]; discriminate.
  pose proof (file_es k ls (fi_syntax f) (len src) Hn name f Hw _ _ _ _ _ E) as HE. split.
  - destruct H as [[Hok H]|(Hno & es & H & He & _)].
    + destruct errs as [|e0 errs]; [|discriminate]. split; [intros _ e He; now apply HE in He|auto].
    + destruct errs as [|e0 errs]; [discriminate|]. split; [tauto|]. intros Hf. exfalso. apply (Hf e0), HE. now left.
  - intros es. destruct errs as [|e0 errs]; [discriminate|]. intros [= <-]. exact HE.
Qed.

(** A sentence is valid exactly when it breaks no rule, and is then accepted. *)
Theorem C53_valid k sort name src f : len src <= i32_max -> accepted k src f ->
  ((exists d a, parse k sort name src = Done (inl d, a)) <-> forall e, ~ breaks k (fi_syntax f) f e).
Proof.
  intros Hn Ha. rewrite C04_accepts_iff. rewrite <- (proj1 (generate_errors k sort f name src Hn (accepted_wf _ _ _ Ha))). split.
  - intros (_ & f' & Ha' & Hok). now apply (er_ok k f f' (C04_unambiguous _ _ _ _ Ha' Ha)).
  - eauto.
Qed.
Print Assumptions C53_valid.
(** The errors reported for a sentence are those of the rules it breaks: none is missed and none is made up.
    ([f] is the syntax tree; all others have the same meaning, C04_unambiguous.) *)
Theorem C53_errors k sort name src err a : parse k sort name src = Done (inr err, a) -> len src <= i32_max -> (exists f, accepted k src f) ->
  exists f, accepted k src f /\ (forall f', accepted k src f' -> er_file f' = er_file f) /\ forall e, In e (pe_all err) <-> breaks k (fi_syntax f) f e.
Proof.
  intros E Hn [f0 H0]. destruct (accepted_lexes _ _ _ H0) as (ts & G & L). destruct (parse_file_complete k src _ ts f0 G L) as (f & a' & E' & _).
  destruct (parse_file_sound k src) as (r & a2 & E2 & _ & Ha). rewrite E' in E2. injection E2 as <- <-. exists f. split; [exact Ha|]. split; [intros f' Hf'; exact (C04_unambiguous _ _ _ _ Hf' Ha)|].
  unfold parse in E. apply N.ltb_ge in Hn. rewrite Hn, E' in E. apply N.ltb_ge in Hn. cbn [obind] in E. pose proof (proj2 (generate_errors k sort f name src Hn (accepted_wf _ _ _ Ha))) as HE.
  destruct (generate_file k sort f name src) as [[d|[|e0 es]]| |]; try discriminate. cbn [obind parse_error_new] in E. injection E as <- <-. exact (HE _ eq_refl).
Qed.
Print Assumptions C53_errors.
(** What an out-of-range message says is true: the value written is outside the stated range of the named
    type (or is -0 where an unsigned number is wanted). *)
Theorem C53_range_message k sort name src err a what actual lo hi sp : parse k sort name src = Done (inr err, a) -> len src <= i32_max -> (exists f, accepted k src f) ->
  In (IntegerValueOutOfRange what actual lo hi sp) (pe_all err) ->
  exists i l h, actual = literal i /\ lo = decZ l /\ hi = decZ h /\ sp = i_span i /\ (~ (l <= int_value i <= h)%Z \/ l = 0%Z /\ i_neg i = true).
Proof.
  intros E Hn Hf Hin. destruct (C53_errors _ _ _ _ _ _ E Hn Hf) as (f & _ & _ & H). apply H in Hin. destruct Hin as (x & _ & F). clear H E Hf.
  assert (HO : forall o, option_flaw o (IntegerValueOutOfRange what actual lo hi sp) -> exists i l h, actual = literal i /\ lo = decZ l /\ hi = decZ h /\ sp = i_span i /\ (~ (l <= int_value i <= h)%Z \/ l = 0%Z /\ i_neg i = true)).
  { intros o H. inversion H as [|i Hv Hr]; subst. exists i, (-9223372036854775808)%Z, 18446744073709551615%Z. repeat split. left. lia. }
  inversion F as [sc g e HF| | | | | | | | | | | | |]; subst; try (match goal with H : options_flaw _ _ |- _ => let o' := fresh in let H' := fresh in destruct H as (o' & _ & H'); exact (HO _ H') | H : optlist_flaw _ _ |- _ => let o' := fresh in let H' := fresh in destruct H as (o' & _ & H'); exact (HO _ H') end).
  inversion HF; subst; try (match goal with H : optlist_flaw _ _ |- _ => destruct H as (o & _ & H'); eapply HO; exact H' end). eauto 12.
Qed.
Print Assumptions C53_range_message.

(** Examples: eight broken rules, all reported; -0 for an unsigned default. *)
Definition err_of (src : bytes) : list perr := match parse ex_k0 loc_sort (b "x.proto") src with Done (inr e, _) => pe_all e | _ => [] end.
Definition ex_wrong : bytes :=
  b "message M { int32 a = 0 [default = 3000000000]; required string s = 2 [json_name = 1, default = ""\377""]; oneof o { map<float, M> m = 3; } reserved 0; oneof e {} }".
Example C53_example : err_of ex_wrong =
  [InvalidMessageNumber (22, 23); Proto2FieldMissingLabel (12, 47);
   IntegerValueOutOfRange (b "a signed 32-bit integer") (b "3000000000") (b "-2147483648") (b "2147483647") (35, 45);
   InvalidUtf8String (96, 102); ValueInvalidType (b "a string") (b "1") (83, 84);
   InvalidOneofFieldKind (b "map") (115, 135); InvalidMapFieldKeyType (119, 124); EmptyOneof (150, 160); InvalidMessageNumber (147, 148)].
Proof. vm_compute. reflexivity. Qed.
(** It is a sentence of the grammar, so the theorems apply to it. *)
Definition parsed (src : bytes) : option file := match parse_file ex_k0 src with Done (inl f, _) => Some f | _ => None end.
Lemma parsed_accepted src f : parsed src = Some f -> accepted ex_k0 src f.
Proof. intros H. unfold parsed in H. destruct (parse_file_sound ex_k0 src) as (r & a & E & _ & Hr). rewrite E in H. destruct r; [|discriminate]. now injection H as ->. Qed.
Lemma err_of_inv src l : err_of src = l -> l <> [] -> exists err a, parse ex_k0 loc_sort (b "x.proto") src = Done (inr err, a) /\ pe_all err = l.
Proof. unfold err_of. destruct (parse ex_k0 loc_sort (b "x.proto") src) as [[[d|err] a]| |]; intros <- H; try now destruct H. eauto. Qed.
Example C53_example_sentence : exists f, accepted ex_k0 ex_wrong f /\ breaks ex_k0 (fi_syntax f) f (EmptyOneof (150, 160)).
Proof.
  assert (H : exists f, parsed ex_wrong = Some f) by (eexists; vm_compute; reflexivity). destruct H as (f0 & H0). apply parsed_accepted in H0.
  destruct (err_of_inv _ _ C53_example ltac:(discriminate)) as (err & a & E & HE).
  destruct (C53_errors _ _ _ _ _ _ E) as (f & Ha & _ & H); [apply N.leb_le; lazy; reflexivity|eauto|]. exists f. split; [exact Ha|]. apply H. rewrite HE. cbn [In]. do 7 right. left. reflexivity.
Qed.
(** The corner cases: -0 is no unsigned default, though it is a number in range. *)
Example C53_minus_zero :
  err_of (b "message M { optional uint32 u = 2 [default = -0]; }") = [IntegerValueOutOfRange (b "an unsigned 32-bit integer") (b "-0") (b "0") (b "4294967295") (45, 47)] /\
  err_of (b "message M { optional int32 u = 2 [default = -0]; }") = [].
Proof. vm_compute. auto. Qed.
