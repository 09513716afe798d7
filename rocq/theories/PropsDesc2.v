(** Properties of the descriptors [parse] returns: C19 (maps), C20 (groups),
    C21 (default values). *)
From Verif Require Import Base Utf8 Errors Lex Ast Comments Parse Lines Descriptor ParseApi.
From Verif Require Import LexSafe Stream Grammar Utf8Spec Classify Walk WalkG3 Meaning AstWf AstWfG GenProofs PropsParse DescSpec DescLemmas DescWf PropsDesc Decimal.

(** ** C19: maps *)

(** The scalar types a map key may have. *)
Definition key_types : list (ty * ftype) :=
  [(TyInt32, FTInt32); (TyInt64, FTInt64); (TyUint32, FTUint32); (TyUint64, FTUint64); (TySint32, FTSint32); (TySint64, FTSint64);
   (TyFixed32, FTFixed32); (TyFixed64, FTFixed64); (TySfixed32, FTSfixed32); (TySfixed64, FTSfixed64); (TyBool, FTBool); (TyString, FTString)].
Definition scalar_types : list (ty * ftype) := key_types ++ [(TyDouble, FTDouble); (TyFloat, FTFloat); (TyBytes, FTBytes)].
(** A type is stored as a scalar type, or as a type name (to be resolved later). *)
Definition has_type (t : ty) (x : field_desc) : Prop :=
  (exists ft, In (t, ft) scalar_types /\ f_type x = Some ft /\ f_type_name x = None) \/
  (exists tn, t = TyNamed tn /\ f_type x = None /\ f_type_name x = Some (tname_text tn)).
(** [x] is the field of the map declaration [fd]. *)
Definition map_field (fd : field) (x : field_desc) : Prop :=
  f_name x = Some (id_val (fd_name fd)) /\ f_number x = Some (int_value (fd_number fd)) /\ f_label x = Some LabRepeated /\
  f_type x = Some FTMessage /\ f_type_name x = Some (entry_name (id_val (fd_name fd))) /\
  f_extendee x = None /\ f_default x = None /\ f_oneof_index x = None /\ f_proto3_optional x = None.
(** [e] is the entry message of the map declaration [fd]. *)
Definition map_entry (fd : field) (kt vt : ty) (e : msg_desc) : Prop :=
  exists key value,
  e = MsgDesc (Some (entry_name (id_val (fd_name fd)))) [key; value] [] [] [] [] [] (Some {| mo_map_entry := Some true; mo_uninterpreted := [] |}) [] [] /\
  (exists ft, In (kt, ft) key_types /\ f_type key = Some ft /\ f_type_name key = None) /\ has_type vt value /\
  f_name key = Some (b "key") /\ f_number key = Some 1%Z /\ f_name value = Some (b "value") /\ f_number value = Some 2%Z /\
  Forall (fun x => f_label x = Some LabOptional /\ f_extendee x = None /\ f_default x = None /\ f_oneof_index x = None /\ f_options x = None /\ f_proto3_optional x = None) [key; value].

Lemma scalar_types_complete t ft : scalar_type t = Some ft -> In (t, ft) scalar_types.
Proof. destruct t; cbn; intros [= <-]; tauto. Qed.
Lemma key_types_complete t : key_type t = true -> exists ft, In (t, ft) key_types /\ scalar_type t = Some ft.
Proof. destruct t; cbn; try discriminate; intros _; eexists; (split; [|reflexivity]); tauto. Qed.
Lemma has_type_mk t x : f_type x = scalar_type t -> f_type_name x = ty_text t -> has_type t x.
Proof.
  intros H1 H2. unfold has_type. destruct t eqn:E; try (left; eexists; split; [apply scalar_types_complete; reflexivity|]; split; [exact H1|exact H2]).
  right. eexists. split; [reflexivity|]. auto.
Qed.
Lemma entry_ok (fd : field) kt vt : key_type kt = true -> map_entry fd kt vt (entry fd kt vt).
Proof.
  intros Hk. unfold entry, entry_desc. eexists _, _. split; [reflexivity|]. split; [|split].
  - destruct (key_types_complete _ Hk) as (ft & H1 & H2). exists ft. auto.
  - apply has_type_mk; reflexivity.
  - repeat split. repeat constructor.
Qed.
Lemma map_ok k syn (fd : field) ts kt ks vt vs : ok_field k syn (ok_body k syn) ScMessage fd -> fd_kind fd = FKMap ts kt ks vt vs ->
  key_type kt = true /\ p3_optional syn fd = false /\ map_field fd (den_field k syn ScMessage None fd).
Proof.
  intros (Hn & H & _) Ek. rewrite Ek in H. destruct H as (_ & Hl & _ & Hk). split; auto.
  assert (Hp : p3_optional syn fd = false) by (unfold p3_optional; rewrite Hl; destruct (p2 syn); auto). split; auto.
  unfold map_field, den_field. rewrite Ek, Hp. cbn. rewrite (den_number_ok _ Hn). auto 10.
Qed.

Theorem C19_maps k sort name src d a : parse k sort name src = Done (inl d, a) ->
  exists f, accepted k src f /\
  (* each map field of the source is desugared *)
  (forall bd fd ts kt ks vt vs, body_of f bd -> In (MIField fd) (bd_items bd) -> fd_kind fd = FKMap ts kt ks vt vs ->
     exists m x e, message_of d m /\ m = with_name (m_name m) (den_body k (fi_syntax f) bd) /\
       In x (m_field m) /\ map_field fd x /\ In e (m_nested m) /\ map_entry fd kt vt e) /\
  (* maps occur as direct members of messages only *)
  (forall sc fd ts kt ks vt vs, decl_of f sc fd -> fd_kind fd = FKMap ts kt ks vt vs -> sc = ScMessage) /\
  (* and map entries come from them *)
  (forall m o, message_of d m -> m_options m = Some o -> mo_map_entry o <> None ->
     exists bd fd ts kt ks vt vs p x, body_of f bd /\ In (MIField fd) (bd_items bd) /\ fd_kind fd = FKMap ts kt ks vt vs /\
       message_of d p /\ In m (m_nested p) /\ map_entry fd kt vt m /\ In x (m_field p) /\ map_field fd x).
Proof.
  intros E. destruct (parse_desc _ _ _ _ _ _ E) as (f & Ha & Hok & Hd). exists f. split; auto.
  assert (F : forall bd fd ts kt ks vt vs, body_of f bd -> In (MIField fd) (bd_items bd) -> fd_kind fd = FKMap ts kt ks vt vs ->
    exists nm, message_of d (msg k (fi_syntax f) nm bd) /\ In (den_field k (fi_syntax f) ScMessage None fd) (m_field (msg k (fi_syntax f) nm bd)) /\ In (entry fd kt vt) (m_nested (msg k (fi_syntax f) nm bd)) /\
      key_type kt = true /\ map_field fd (den_field k (fi_syntax f) ScMessage None fd)).
  { intros bd fd ts kt ks vt vs Hb Hf Hk. destruct (body_message _ _ _ _ _ Hd _ Hb) as (nm & Hm). exists nm. split; auto.
    assert (Hof : ok_field k (fi_syntax f) (ok_body k (fi_syntax f)) ScMessage fd) by (apply (decl_ok _ _ _ _ _ Hok); econstructor; eauto).
    destruct (map_ok _ _ _ _ _ _ _ _ Hof Hk) as (H1 & H2 & H3). split; [|split; [|auto]].
    - rewrite fields_msg. generalize (len (flat_map item_real (bd_items bd))) 0. induction (bd_items bd) as [|it l IH]; [destruct Hf|]. intros s r. destruct Hf as [->|Hf].
      + cbn [den_fields]. rewrite H2. now left.
      + destruct it; cbn [den_fields]; try (apply IH; auto; fail); [right; apply IH; auto|apply in_app_iff; right; apply IH; auto].
    - rewrite nested_msg. apply in_flat_map. exists (MIField fd). split; auto. cbn [item_messages]. unfold den_field_messages. rewrite Hk. now left. }
  split; [|split].
  - intros bd fd ts kt ks vt vs Hb Hf Hk. destruct (F _ _ _ _ _ _ _ Hb Hf Hk) as (nm & H1 & H2 & H3 & H4 & H5). do 3 eexists. split; [exact H1|]. split; [unfold msg; destruct bd; reflexivity|].
    split; [exact H2|]. split; [exact H5|]. split; [exact H3|]. now apply entry_ok.
  - intros sc fd ts kt ks vt vs H Hk. apply (decl_ok _ _ _ _ _ Hok) in H. destruct H as (_ & H & _). rewrite Hk in H. tauto.
  - intros m o Hm Ho Hmo.
    assert (Hp : m = m /\ exists fd kt vt, m = entry fd kt vt).
    { split; auto. destruct (message_inv _ _ _ _ _ Hd Hok _ Hm) as [(nm & bd & Hb & ->)|(bd & fd & s0 & kt & ks & vt & vs & _ & _ & _ & ->)]; [exfalso|eauto].
      unfold msg in Ho. destruct bd. cbn [den_body with_name m_options] in Ho. destruct (den_options opts); [|discriminate]. injection Ho as <-. apply Hmo. reflexivity. }
    destruct (message_inv _ _ _ _ _ Hd Hok _ Hm) as [(nm & bd & Hb & ->)|(bd & fd & s0 & kt & ks & vt & vs & Hb & Hf & Hk & ->)].
    + exfalso. unfold msg in Ho. destruct bd. cbn [den_body with_name m_options] in Ho. destruct (den_options opts); [|discriminate]. injection Ho as <-. apply Hmo. reflexivity.
    + destruct (F _ _ _ _ _ _ _ Hb Hf Hk) as (nm & H1 & H2 & H3 & H4 & H5). exists bd, fd, s0, kt, ks, vt, vs. do 2 eexists. split; auto. split; auto. split; auto. split; [exact H1|]. split; [exact H3|]. split; [now apply entry_ok|]. split; [exact H2|exact H5].
Qed.
Print Assumptions C19_maps.
Example C19_example : map (fun m => (m_name m, map (fun x => (f_name x, f_number x, f_type x, f_type_name x)) (m_field m)))
    (flat_map m_nested (d_message (desc_of (b "message M { map<string, .a.B> foo_bar_b = 3; }")))) =
  [(Some (b "FooBarBEntry"), [(Some (b "key"), Some 1%Z, Some FTString, None); (Some (b "value"), Some 2%Z, None, Some (b ".a.B"))])].
Proof. vm_compute. reflexivity. Qed.
Example C19_rejects : forallb (fun s => match err_result s with [] => false | _ => true end)
  [b "message M { map<float, M> a = 1; }"; b "message M { map<double, M> a = 1; }"; b "message M { map<bytes, M> a = 1; }"; b "message M { map<M, M> a = 1; }"; b "message M { map<int32, int32> a = 1 [default = 1]; }"] = true.
Proof. vm_compute. reflexivity. Qed.

(** ** C20: groups *)

Definition group_field (fd : field) (x : field_desc) : Prop :=
  f_name x = Some (map lower (id_val (fd_name fd))) /\ f_number x = Some (int_value (fd_number fd)) /\
  f_type x = Some FTGroup /\ f_type_name x = Some (id_val (fd_name fd)) /\ f_default x = None.
(** The field [x] and the message [g] occur side by side in the descriptor, in the
    place where a declaration of scope [sc] puts them. *)
Definition side_by_side (d : file_desc) (sc : scope) (x : field_desc) (g : msg_desc) : Prop :=
  match sc with
  | ScMessage => exists m, message_of d m /\ In x (m_field m) /\ In g (m_nested m) /\ f_extendee x = None
  | ScOneof => exists m, message_of d m /\ In x (m_field m) /\ In g (m_nested m) /\ f_extendee x = None /\ f_oneof_index x <> None
  | ScExtend => f_extendee x <> None /\ (In x (d_extension d) /\ In g (d_message d) \/ exists m, message_of d m /\ In x (m_extension m) /\ In g (m_nested m))
  end.
Lemma group_fdesc k syn sc oi ex (fd : field) gs gb : ok_field k syn (ok_body k syn) sc fd -> fd_kind fd = FKGroup gs gb -> group_field fd (fdesc k syn sc oi ex fd).
Proof. intros (Hn & _) Hk. unfold group_field, fdesc, den_field. rewrite Hk. cbn. rewrite (den_number_ok _ Hn). auto. Qed.

Theorem C20_groups k sort name src d a : parse k sort name src = Done (inl d, a) ->
  exists f, accepted k src f /\
  (forall sc fd gs gb, decl_of f sc fd -> fd_kind fd = FKGroup gs gb ->
     d_syntax d = None /\ capitalised (id_val (fd_name fd)) /\
     exists x, group_field fd x /\ side_by_side d sc x (with_name (Some (id_val (fd_name fd))) (den_body k (fi_syntax f) gb))) /\
  (forall x, field_of d x -> f_type x = Some FTGroup -> exists sc fd gs gb, decl_of f sc fd /\ fd_kind fd = FKGroup gs gb /\ group_field fd x).
Proof.
  intros E. destruct (parse_desc _ _ _ _ _ _ E) as (f & Ha & Hok & Hd). exists f. split; auto. split.
  - intros sc fd gs gb H Hk. pose proof (decl_ok _ _ _ _ _ Hok H) as Hof. pose proof (decl_wf _ _ _ _ (accepted_wf _ _ _ Ha) H) as Hw.
    split. { destruct Hof as (_ & Ho & _). rewrite Hk in Ho. destruct Ho as [Hp _]. destruct Hd as (l & ->). cbn. unfold p2 in Hp. destruct (fi_syntax f); [auto|discriminate]. }
    split. { destruct Hw as (_ & _ & _ & Hw & _). rewrite Hk in Hw. apply Hw. }
    assert (G : In (with_name (Some (id_val (fd_name fd))) (den_body k (fi_syntax f) gb)) (den_field_messages (den_body k (fi_syntax f)) fd)) by (unfold den_field_messages; rewrite Hk; now left).
    pose proof H as Hdecl. destruct H as [bd fd H1 H2|bd o fd H1 H2 H3|bd e fd H1 H2 H3|e fd H2 H3].
    + destruct (body_message _ _ _ _ _ Hd _ H1) as (nm & Hm). destruct (in_den_fields_f k (fi_syntax f) _ _ H2 0 (len (flat_map item_real (bd_items bd)))) as (oi & Hi).
      exists (fdesc k (fi_syntax f) ScMessage oi None fd). split; [eapply group_fdesc; eauto|]. exists (msg k (fi_syntax f) nm bd). split; auto. split; [|split; [|reflexivity]].
      * rewrite fields_msg. unfold fdesc. rewrite <- den_field_oi, set_ex_none; auto. unfold den_field. rewrite Hk. reflexivity.
      * rewrite nested_msg. apply in_flat_map. exists (MIField fd). auto.
    + destruct (body_message _ _ _ _ _ Hd _ H1) as (nm & Hm). destruct (in_den_fields_o k (fi_syntax f) _ _ _ H2 H3 0 (len (flat_map item_real (bd_items bd)))) as (i & Hi).
      exists (fdesc k (fi_syntax f) ScOneof (Some i) None fd). split; [eapply group_fdesc; eauto|]. exists (msg k (fi_syntax f) nm bd). split; auto. split; [|split; [|split; [reflexivity|discriminate]]].
      * rewrite fields_msg. unfold fdesc. rewrite set_ex_none; auto. unfold den_field. rewrite Hk. reflexivity.
      * rewrite nested_msg. apply in_flat_map. exists (MIOneof o). split; auto. cbn [item_messages]. apply in_flat_map. eauto.
    + destruct (body_message _ _ _ _ _ Hd _ H1) as (nm & Hm). exists (fdesc k (fi_syntax f) ScExtend None (Some (tname_text (et_extendee e))) fd). split; [eapply group_fdesc; eauto|].
      split; [discriminate|]. right. exists (msg k (fi_syntax f) nm bd). split; auto. split.
      * rewrite extensions_msg. apply in_flat_map. eexists. split; [exact H2|]. cbn [item_extensions]. unfold den_extend. apply in_map_iff. exists fd. split; auto. unfold fdesc. f_equal. unfold den_field, set_oneof_index. rewrite Hk. reflexivity.
      * rewrite nested_msg. apply in_flat_map. exists (MIExtend e). split; auto. cbn [item_messages]. apply in_flat_map. eauto.
    + exists (fdesc k (fi_syntax f) ScExtend None (Some (tname_text (et_extendee e))) fd). split; [eapply group_fdesc; eauto|]. split; [discriminate|]. left. split.
      * rewrite (d_extensions_eq _ _ _ _ _ Hd). apply in_flat_map. eexists. split; [exact H2|]. cbn [fitem_extensions]. unfold den_extend. apply in_map_iff. exists fd. split; auto. unfold fdesc. f_equal. unfold den_field, set_oneof_index. rewrite Hk. reflexivity.
      * rewrite (d_messages_eq _ _ _ _ _ Hd). apply in_flat_map. eexists. split; [exact H2|]. cbn [fitem_messages]. apply in_flat_map. eauto.
  - intros x Hx Ht. destruct (field_inv _ _ _ _ _ Hd Hok _ Hx) as [(sc & fd & oi & ex & H1 & _ & ->)|(fd & s & kt & ks & vt & vs & H1 & H2 & H3)].
    + destruct (fd_kind fd) as [t s|gs gb|] eqn:Ek.
      * exfalso. unfold fdesc, den_field in Ht. rewrite Ek in Ht. cbn in Ht. destruct t; discriminate.
      * exists sc, fd, gs, gb. split; auto. split; auto. eapply group_fdesc; eauto. eapply decl_ok; eauto.
      * exfalso. unfold fdesc, den_field in Ht. rewrite Ek in Ht. discriminate.
    + exfalso. unfold entry, entry_desc in H3. cbn [m_field] in H3. destruct H3 as [<-|[<-|[]]]; cbn in Ht; [destruct kt|destruct vt]; discriminate.
Qed.
Print Assumptions C20_groups.
Example C20_example : map (fun m => (map m_name (m_nested m), map (fun x => (f_name x, f_type x, f_type_name x)) (m_field m))) (d_message (desc_of (b "message M { repeated group Foo_B = 2 { } }"))) =
  [([Some (b "Foo_B")], [(Some (b "foo_b"), Some FTGroup, Some (b "Foo_B"))])].
Proof. vm_compute. reflexivity. Qed.
Example C20_rejects : match err_result (b "message M { repeated group foo = 2 { } }") with [] => false | _ => true end = true.
Proof. vm_compute. reflexivity. Qed.

(** ** C21: default values *)

(** C escapes of a byte. *)
Definition c_escape (c : N) : bytes :=
  match c with
  | 9 => b "\t" | 10 => b "\n" | 13 => b "\r" | 34 => [92; 34] | 39 => b "\'" | 92 => b "\\"
  | _ => if (32 <=? c) && (c <=? 126) then [c] else [92; 48 + c / 64 mod 8; 48 + c / 8 mod 8; 48 + c mod 8]
  end.
(** [signed n lo hi v t]: the integer literal [v] lies between [lo] and [hi] and [t] is its decimal text. *)
Definition signed (lo hi : Z) (v : optval) (t : bytes) : Prop :=
  exists i, v = OVInt i /\ (lo <= int_value i <= hi)%Z /\ decimalZ (int_value i) t.
(** Unsigned values are written without a sign. *)
Definition unsigned (hi : Z) (v : optval) (t : bytes) : Prop :=
  exists i, v = OVInt i /\ i_neg i = false /\ (int_value i <= hi)%Z /\ decimal (i_val i) t.
Definition float_text (k : cfg) (v : optval) (t : bytes) : Prop :=
  (exists neg i sp, v = OVIdent neg i sp /\ id_val i = b "nan" /\ t = b "nan") \/
  (exists i sp, v = OVIdent false i sp /\ id_val i = b "inf" /\ t = b "inf") \/
  (exists i sp, v = OVIdent true i sp /\ id_val i = b "inf" /\ t = b "-inf") \/
  (exists i txt, v = OVInt i /\ decimal (i_val i) txt /\ t = map lower (f64_to_string k (i_neg i) txt)) \/
  (exists x, v = OVFloat x /\ t = map lower (f64_to_string k (fl_neg x) (fl_text x))).
(** The text of a value of an enum or message type: not interpreted by [parse]. *)
Definition literal_text (k : cfg) (v : optval) (t : bytes) : Prop :=
  match v with
  | OVIdent neg i _ => t = (if neg then b "-" else []) ++ id_val i
  | OVInt i => exists r, decimal (i_val i) r /\ t = (if i_neg i then b "-" else []) ++ r
  | OVFloat x => t = f64_display k (fl_neg x) (fl_text x)
  | OVString s => t = [34] ++ flat_map c_escape (st_val s) ++ [34]
  | OVAggregate a _ => t = a
  end.
(** [default_means k t v txt]: a field of type [t] may have the default value [v], stored as [txt]. *)
Definition default_means (k : cfg) (t : ty) (v : optval) (txt : bytes) : Prop :=
  match t with
  | TyInt32 | TySint32 | TySfixed32 => signed (-2147483648) 2147483647 v txt
  | TyInt64 | TySint64 | TySfixed64 => signed (-9223372036854775808) 9223372036854775807 v txt
  | TyUint32 | TyFixed32 => unsigned 4294967295 v txt
  | TyUint64 | TyFixed64 => unsigned 18446744073709551615 v txt
  | TyBool => exists i sp, v = OVIdent false i sp /\ (id_val i = b "true" \/ id_val i = b "false") /\ txt = id_val i
  | TyString => exists s, v = OVString s /\ utf8_valid (st_val s) = true /\ txt = st_val s
  | TyBytes => exists s, v = OVString s /\ txt = flat_map c_escape (st_val s)
  | TyFloat | TyDouble => float_text k v txt
  | TyNamed _ => literal_text k v txt
  end.

Lemma decimal_unique n t u : decimal n t -> decimal n u -> t = u.
Proof.
  intros (H1 & H2 & H3 & H4) (H1' & H2' & H3' & H4').
  assert (G : forall m t u, length t = m -> t <> [] -> u <> [] -> Forall (fun c => 48 <= c <= 57) t -> Forall (fun c => 48 <= c <= 57) u ->
    (forall r, t = 48 :: r -> r = []) -> (forall r, u = 48 :: r -> r = []) -> decimal_value t = decimal_value u -> t = u).
  { clear. induction m as [m IH] using lt_wf_ind. intros t u Hm Ht Hu Ft Fu Zt Zu E.
    destruct (exists_last Ht) as (t0 & x & ->). destruct (exists_last Hu) as (u0 & y & ->). unfold decimal_value in E. rewrite !fold_left_app in E. cbn [fold_left] in E. fold (decimal_value t0) in E. fold (decimal_value u0) in E.
    apply Forall_app in Ft, Fu. destruct Ft as [Ft Fx], Fu as [Fu Fy]. inversion Fx as [|? ? Hx _]; subst. inversion Fy as [|? ? Hy _]; subst. clear Fx Fy.
    assert (x = y /\ decimal_value t0 = decimal_value u0) as [-> Ed] by lia. f_equal.
    assert (P : forall v (z : N), v <> [] -> Forall (fun c => 48 <= c <= 57) v -> (forall r, v ++ [z] = 48 :: r -> r = []) -> 0 < decimal_value v).
    { clear. intros v z Hv Fv Zv. destruct v as [|c v]; [congruence|]. inversion Fv; subst. assert (c <> 48) by (intros ->; specialize (Zv (v ++ [z]) eq_refl); destruct v; discriminate).
      unfold decimal_value. cbn [fold_left]. assert (G : forall l a, 0 < a -> 0 < fold_left (fun a c => a * 10 + (c - 48)) l a) by (clear; induction l; cbn; intros; [auto|apply IHl; lia]). apply G. lia. }
    destruct t0 as [|c t0], u0 as [|c' u0]; auto.
    - exfalso. pose proof (P (c' :: u0) y ltac:(discriminate) Fu Zu) as Hp. rewrite <- Ed in Hp. cbn in Hp. lia.
    - exfalso. pose proof (P (c :: t0) y ltac:(discriminate) Ft Zt) as Hp. rewrite Ed in Hp. cbn in Hp. lia.
    - apply (IH (length (c :: t0))); auto; try discriminate.
      + rewrite app_length. cbn. lia.
      + intros r [= -> <-]. specialize (Zt (t0 ++ [y]) eq_refl). destruct t0; discriminate.
      + intros r [= -> <-]. specialize (Zu (u0 ++ [y]) eq_refl). destruct u0; discriminate. }
  apply (G (length t)); auto. congruence.
Qed.
Lemma decimalZ_unique z t u : decimalZ z t -> decimalZ z u -> t = u.
Proof.
  intros [[H1 H2]|[H1 (r & -> & H2)]] [[H3 H4]|[H3 (r' & -> & H4)]]; try lia; [eapply decimal_unique; eauto|f_equal; eapply decimal_unique; eauto].
Qed.
Lemma decimal_dec n t : decimal n t <-> t = dec n.
Proof. split; [intros H; eapply decimal_unique; [exact H|apply dec_decimal]|intros ->; apply dec_decimal]. Qed.
Lemma decimalZ_decZ z t : decimalZ z t <-> t = decZ z.
Proof. split; [intros H; eapply decimalZ_unique; [exact H|apply decZ_decimal]|intros ->; apply decZ_decimal]. Qed.
Lemma escape_same l : flat_map escape_byte l = flat_map c_escape l.
Proof.
  apply flat_map_ext. intros c. unfold escape_byte, c_escape.
  destruct (N.eqb_spec c 9) as [->|]; [reflexivity|]. destruct (N.eqb_spec c 13) as [->|]; [reflexivity|]. destruct (N.eqb_spec c 10) as [->|]; [reflexivity|].
  destruct (N.eqb_spec c 92) as [->|]; [reflexivity|]. destruct (N.eqb_spec c 39) as [->|]; [reflexivity|]. destruct (N.eqb_spec c 34) as [->|]; [reflexivity|].
  unfold in_range, oct3. destruct c as [|p]; [reflexivity|].
  do 7 (destruct p as [p|p|]; try reflexivity; try congruence).
Qed.
Lemma signed_spec lo hi v txt : match v with OVInt i => option_map decZ (if_within lo hi i) | _ => None end = Some txt <-> signed lo hi v txt.
Proof.
  split.
  - destruct v as [| i | | |]; try discriminate. unfold if_within, within. destruct (Z.leb_spec lo (int_value i)), (Z.leb_spec (int_value i) hi); cbn; intros [= <-]. exists i. split; auto. split; [lia|apply decZ_decimal].
  - intros (i & -> & H1 & H2). rewrite (if_within_some _ _ _ H1). cbn. f_equal. symmetry. now apply decimalZ_decZ.
Qed.
Theorem default_spec k t v txt : (match v with OVInt i => i_val i < 2 ^ 64 | _ => True end) -> den_default k t v = Some txt <-> default_means k t v txt.
Proof.
  intros Hv. unfold den_default, default_means.
  assert (Hu : match v with OVInt i => if negb (i_neg i) && (i_val i <=? 4294967295) then Some (dec (i_val i)) else None | _ => None end = Some txt <-> unsigned 4294967295 v txt).
  { split.
    - destruct v as [| i | | |]; try discriminate. destruct (i_neg i) eqn:En, (N.leb_spec (i_val i) 4294967295); cbn; intros [= <-]. exists i. split; auto. split; auto. split; [unfold int_value; rewrite En; lia|apply dec_decimal].
    - intros (i & -> & En & Hi & Ht). rewrite En. unfold int_value in Hi. rewrite En in Hi. destruct (N.leb_spec (i_val i) 4294967295); [|lia]. cbn. f_equal. symmetry. now apply decimal_dec. }
  assert (Hl : match v with OVInt i => if i_neg i then None else Some (dec (i_val i)) | _ => None end = Some txt <-> unsigned 18446744073709551615 v txt).
  { split.
    - destruct v as [| i | | |]; try discriminate. destruct (i_neg i) eqn:En; intros [= <-]. exists i. split; auto. split; auto. split; [unfold int_value; rewrite En; change (2 ^ 64) with 18446744073709551616 in Hv; lia|apply dec_decimal].
    - intros (i & -> & En & Hi & Ht). rewrite En. f_equal. symmetry. now apply decimal_dec. }
  assert (Hf : den_float k v = Some txt <-> float_text k v txt).
  { unfold den_float, float_text. split.
    - destruct v as [neg i sp|i|x| |]; try discriminate.
      + destruct (bytes_eqb (id_val i) (b "nan")) eqn:E1; [intros [= <-]; apply bytes_eqb_true in E1; left; eauto 10|]. destruct (bytes_eqb (id_val i) (b "inf")) eqn:E2; [|discriminate]. apply bytes_eqb_true in E2. intros [= <-]. right. destruct neg; [right; left|left]; eauto.
      + intros [= <-]. right. right. right. left. exists i, (dec (i_val i)). split; auto. split; [apply dec_decimal|auto].
      + intros [= <-]. do 4 right. eauto.
    - intros [(neg & i & sp & -> & E & ->)|[(i & sp & -> & E & ->)|[(i & sp & -> & E & ->)|[(i & t0 & -> & E & ->)|(x & -> & ->)]]]].
      + rewrite E. reflexivity.
      + rewrite E. reflexivity.
      + rewrite E. reflexivity.
      + apply decimal_dec in E. now rewrite E.
      + reflexivity. }
  destruct t; auto; try apply signed_spec.
  - split.
    + destruct v as [[|] i sp| | | |]; try discriminate. destruct (bytes_eqb (id_val i) (b "true")) eqn:E1; [|destruct (bytes_eqb (id_val i) (b "false")) eqn:E2; [|discriminate]]; intros [= <-]; [apply bytes_eqb_true in E1|apply bytes_eqb_true in E2]; exists i, sp; auto.
    + intros (i & sp & -> & [E|E] & ->); rewrite E; reflexivity.
  - unfold den_string. split.
    + destruct v as [| | |s|]; try discriminate. destruct (utf8_valid (st_val s)) eqn:E; intros [= <-]. eauto.
    + intros (s & -> & E & ->). now rewrite E.
  - unfold astring_display. split.
    + destruct v as [| | |s|]; try discriminate. intros [= <-]. exists s. split; auto. apply escape_same.
    + intros (s & -> & ->). f_equal. apply escape_same.
  - unfold literal_text, optval_token_string, optval_display, aint_display, afloat_display, astring_display. split.
    + intros [= <-]. destruct v as [neg i sp|i|x|s|a sp]; auto; [|now rewrite escape_same]. exists (dec (i_val i)). split; [apply dec_decimal|auto].
    + destruct v as [neg i sp|i|x|s|a sp]; [intros ->; auto| |intros ->; auto|intros ->; now rewrite escape_same|intros ->; auto]. intros (r & Hr & ->). apply decimal_dec in Hr. now rewrite Hr.
Qed.

Lemma default_value_wf n wb (fd : field) o : wf_field n wb fd -> default_of fd = Some o -> match ob_value o with OVInt i => i_val i < 2 ^ 64 | _ => True end.
Proof.
  intros (_ & _ & _ & _ & H & _) Hd. unfold default_of in Hd. apply find_some in Hd. destruct Hd as [Hi _]. unfold optlist_options in Hi. destruct (fd_options fd) as [l|]; [|destruct Hi].
  destruct H as [H _]. rewrite Forall_forall in H. destruct (H _ Hi) as (_ & _ & _ & Hv). exact Hv.
Qed.

Theorem C21_defaults k sort name src d a : parse k sort name src = Done (inl d, a) ->
  exists f, accepted k src f /\
  (* every default written in the source suits the type of its field and is stored as its text *)
  (forall sc fd o, decl_of f sc fd -> find (called (b "default")) (optlist_options (fd_options fd)) = Some o ->
     exists t sp txt x, fd_kind fd = FKNormal t sp /\ option_map fst (fd_label fd) <> Some LRepeated /\ default_means k t (ob_value o) txt /\
       field_of d x /\ f_name x = Some (declared_name fd) /\ f_number x = Some (int_value (fd_number fd)) /\ f_default x = Some txt) /\
  (* and nothing else is *)
  (forall x txt, field_of d x -> f_default x = Some txt ->
     exists sc fd o t sp, decl_of f sc fd /\ find (called (b "default")) (optlist_options (fd_options fd)) = Some o /\ fd_kind fd = FKNormal t sp /\
       default_means k t (ob_value o) txt /\ f_name x = Some (declared_name fd) /\ f_number x = Some (int_value (fd_number fd)) /\ f_type x = scalar_type t).
Proof.
  intros E. destruct (parse_desc _ _ _ _ _ _ E) as (f & Ha & Hok & Hd). exists f. split; auto. split.
  - intros sc fd o H Ho. change (default_of fd = Some o) in Ho. pose proof (decl_ok _ _ _ _ _ Hok H) as (Hn & Hof & _). pose proof (decl_wf _ _ _ _ (accepted_wf _ _ _ Ha) H) as Hw.
    pose proof (default_value_wf _ _ _ _ Hw Ho) as Hv. rewrite Ho in Hof. destruct (decl_field _ _ _ _ _ Hd _ _ H) as (oi & ex & Hx).
    destruct (fd_kind fd) as [t s|gs gb|] eqn:Ek; [|destruct Hof as (_ & _ & C & _); discriminate|destruct Hof as (_ & _ & C & _); discriminate].
    destruct Hof as (_ & _ & Hl & Hdv). destruct (den_default k t (ob_value o)) as [txt|] eqn:Et; [|congruence].
    exists t, s, txt. eexists. split; auto. split; auto. split; [now apply default_spec|]. split; [exact Hx|]. rewrite fdesc_name, fdesc_number, (den_number_ok _ Hn). split; auto. split; auto.
    unfold fdesc, den_field. rewrite Ek, Ho. exact Et.
  - intros x txt Hx Ht. destruct (field_inv _ _ _ _ _ Hd Hok _ Hx) as [(sc & fd & oi & ex & H1 & _ & ->)|(fd & s & kt & ks & vt & vs & H1 & H2 & H3)].
    + pose proof (decl_wf _ _ _ _ (accepted_wf _ _ _ Ha) H1) as Hw. pose proof (decl_ok _ _ _ _ _ Hok H1) as (Hn & _). unfold fdesc, den_field in Ht. destruct (fd_kind fd) as [t s|gs gb|] eqn:Ek; try discriminate. cbn in Ht. destruct (default_of fd) as [o|] eqn:Ho; [|discriminate].
      exists sc, fd, o, t, s. split; auto. split; auto. split; auto. split; [apply default_spec; auto; eapply default_value_wf; eauto|]. rewrite fdesc_name, fdesc_number, (den_number_ok _ Hn). split; auto. split; auto. unfold fdesc, den_field. rewrite Ek. reflexivity.
    + exfalso. unfold entry, entry_desc in H3. cbn [m_field] in H3. destruct H3 as [<-|[<-|[]]]; discriminate.
Qed.
Print Assumptions C21_defaults.
(** At most one text suits a value. *)
Theorem C21_text_unique k t v txt txt' : match v with OVInt i => i_val i < 2 ^ 64 | _ => True end -> default_means k t v txt -> default_means k t v txt' -> txt = txt'.
Proof. intros Hv H1 H2. apply default_spec in H1; auto. apply default_spec in H2; auto. congruence. Qed.
Print Assumptions C21_text_unique.
Example C21_example : map f_default (flat_map m_field (d_message (desc_of (b "message M { optional int32 a = 1 [default = -0x10]; optional uint64 b = 2 [default = 18446744073709551615];
  optional bool c = 3 [default = true]; optional string d = 4 [default = 'a' ""b""]; optional bytes e = 5 [default = '\000\x7f\'']; optional M.E f = 6 [default = X]; optional float g = 7 [default = -inf]; optional int32 h = 8; }")))) =
  [Some (b "-16"); Some (b "18446744073709551615"); Some (b "true"); Some (b "ab"); Some (b "\000\177\'"); Some (b "X"); Some (b "-inf"); None].
Proof. vm_compute. reflexivity. Qed.
Example C21_rejects : forallb (fun s => match err_result (b "message M { optional " ++ s ++ b "]; }") with [] => false | _ => true end)
  [b "int32 a = 1 [default = 2147483648"; b "int32 a = 1 [default = -2147483649"; b "uint32 a = 1 [default = -1"; b "uint64 a = 1 [default = -1"; b "bool a = 1 [default = 1"; b "bool a = 1 [default = TRUE";
   b "string a = 1 [default = '\xff'"; b "string a = 1 [default = x"; b "int64 a = 1 [default = 9223372036854775808"; b "bytes a = 1 [default = 1"; b "float a = 1 [default = x"; b "sint32 a = 1 [default = 1.5"] = true.
Proof. vm_compute. reflexivity. Qed.
