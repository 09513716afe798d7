(** C23: options in the descriptors [parse] returns. *)
From Verif Require Import Base Utf8 Errors Lex Ast Comments Parse Lines Descriptor ParseApi.
From Verif Require Import LexSafe Stream Grammar Walk WalkG3 Meaning AstWf AstWfG GenProofs PropsParse DescSpec DescLemmas DescWf PropsDesc.

(** ** Specification *)
Inductive part_means : optname_part -> bytes * bool -> Prop :=
| pm_simple i : part_means (ONIdent i) (id_val i, false)
| pm_extension t sp : part_means (ONExtension t sp) (tname_text t, true).
(** [option_means o u]: [u] is the uninterpreted form of the option [o]: its name, and its value in the member for its kind. *)
Inductive option_means : optbody -> uopt -> Prop :=
| om_ident ns n i sp : Forall2 part_means ns n ->
    option_means {| ob_name := ns; ob_value := OVIdent false i sp |}
      {| uo_name := n; uo_identifier := Some (id_val i); uo_positive := None; uo_negative := None; uo_double := None; uo_string := None; uo_aggregate := None |}
| om_positive ns n i : Forall2 part_means ns n -> i_neg i = false ->
    option_means {| ob_name := ns; ob_value := OVInt i |}
      {| uo_name := n; uo_identifier := None; uo_positive := Some (i_val i); uo_negative := None; uo_double := None; uo_string := None; uo_aggregate := None |}
| om_negative ns n i : Forall2 part_means ns n -> i_neg i = true -> i_val i <= 9223372036854775808 ->
    option_means {| ob_name := ns; ob_value := OVInt i |}
      {| uo_name := n; uo_identifier := None; uo_positive := None; uo_negative := Some (- Z.of_N (i_val i))%Z; uo_double := None; uo_string := None; uo_aggregate := None |}
| om_double ns n x : Forall2 part_means ns n ->
    option_means {| ob_name := ns; ob_value := OVFloat x |}
      {| uo_name := n; uo_identifier := None; uo_positive := None; uo_negative := None; uo_double := Some (fl_neg x, fl_text x); uo_string := None; uo_aggregate := None |}
| om_string ns n s : Forall2 part_means ns n ->
    option_means {| ob_name := ns; ob_value := OVString s |}
      {| uo_name := n; uo_identifier := None; uo_positive := None; uo_negative := None; uo_double := None; uo_string := Some (st_val s); uo_aggregate := None |}
| om_aggregate ns n t sp : Forall2 part_means ns n ->
    option_means {| ob_name := ns; ob_value := OVAggregate t sp |}
      {| uo_name := n; uo_identifier := None; uo_positive := None; uo_negative := None; uo_double := None; uo_string := None; uo_aggregate := Some t |}.
Definition is_set {A} (o : option A) : nat := match o with Some _ => 1%nat | None => 0%nat end.
Definition values_set (u : uopt) : nat :=
  (is_set (uo_identifier u) + is_set (uo_positive u) + is_set (uo_negative u) + is_set (uo_double u) + is_set (uo_string u) + is_set (uo_aggregate u))%nat.

Definition opts (o : option (list uopt)) : list uopt := match o with Some l => l | None => [] end.
(** The options of a list, one to one and in order. *)
Definition options_mean (l : list optbody) (o : option (list uopt)) : Prop := Forall2 option_means l (opts o) /\ (o = None <-> l = []).
Definition statement_options (l : list option_) : list optbody := map op_body l.
(** Options of a field that stay options: all but the first default and the first json_name. *)
Definition kept_options (fd : field) : list optbody := drop_called (b "json_name") (drop_called (b "default") (optlist_options (fd_options fd))).
Definition field_options_mean (fd : field) (x : field_desc) : Prop :=
  f_name x = Some (declared_name fd) /\ f_number x = Some (int_value (fd_number fd)) /\ options_mean (kept_options fd) (f_options x) /\
  match find (called (b "json_name")) (optlist_options (fd_options fd)) with
  | None => f_json_name x = None
  | Some o => exists s, ob_value o = OVString s /\ utf8_valid (st_val s) = true /\ f_json_name x = Some (st_val s)
  end.
Definition enum_options_mean (en : enum) (e : enum_desc) : Prop :=
  e_name e = Some (id_val (en_name en)) /\ options_mean (statement_options (en_options en)) (e_options e) /\
  Forall2 (fun v x => v_name x = Some (id_val (ev_name v)) /\ options_mean (optlist_options (ev_options v)) (v_options x)) (en_values en) (e_value e).
Definition message_uninterpreted (m : msg_desc) : option (list uopt) := option_map mo_uninterpreted (m_options m).
(** The options of the range statement are repeated for each of its ranges. *)
Definition range_options (bd : body) : list (list optbody) := flat_map (fun x => map (fun _ => optlist_options (ex_options x)) (ex_ranges x)) (bd_extensions bd).
Definition body_options_mean (bd : body) (m : msg_desc) : Prop :=
  options_mean (statement_options (bd_options bd)) (message_uninterpreted m) /\
  Forall2 options_mean (range_options bd) (map x_options (m_ext_range m)) /\
  exists real synthetic, m_oneof m = real ++ synthetic /\
    Forall2 (fun o x => o_name x = Some (id_val (oo_name o)) /\ options_mean (statement_options (oo_options o)) (o_options x)) (source_oneofs bd) real /\
    Forall (fun x => o_options x = None) synthetic.
Definition source_services (f : file) : list service := flat_map (fun it => match it with FIService s => [s] | _ => [] end) (fi_items f).
Definition service_options_mean (s : service) (x : service_desc) : Prop :=
  s_name x = Some (id_val (sv_name s)) /\ options_mean (statement_options (sv_options s)) (s_options x) /\
  Forall2 (fun me y => me_d_name y = Some (id_val (me_name me)) /\ options_mean (statement_options (me_options me)) (me_d_options y)) (sv_methods s) (s_method x).

(** All options of a descriptor. *)
Inductive option_of (d : file_desc) : uopt -> Prop :=
| oo_file u : In u (opts (d_options d)) -> option_of d u
| oo_message m u : message_of d m -> In u (message_options m) -> option_of d u
| oo_range m r u : message_of d m -> In r (m_ext_range m) -> In u (opts (x_options r)) -> option_of d u
| oo_oneof m o u : message_of d m -> In o (m_oneof m) -> In u (opts (o_options o)) -> option_of d u
| oo_field x u : field_of d x -> In u (opts (f_options x)) -> option_of d u
| oo_enum e u : enum_of d e -> In u (opts (e_options e)) -> option_of d u
| oo_value e v u : enum_of d e -> In v (e_value e) -> In u (opts (v_options v)) -> option_of d u
| oo_service s u : In s (d_service d) -> In u (opts (s_options s)) -> option_of d u
| oo_method s m u : In s (d_service d) -> In m (s_method s) -> In u (opts (me_d_options m)) -> option_of d u.

(** All options written in a file, except those that become members of a field. *)
Inductive written_option (f : file) : optbody -> Prop :=
| wo_file o : In o (statement_options (fi_options f)) -> written_option f o
| wo_message bd o : body_of f bd -> In o (statement_options (bd_options bd)) -> written_option f o
| wo_range bd x o : body_of f bd -> In x (bd_extensions bd) -> In o (optlist_options (ex_options x)) -> written_option f o
| wo_oneof bd x o : body_of f bd -> In x (source_oneofs bd) -> In o (statement_options (oo_options x)) -> written_option f o
| wo_field sc fd o : decl_of f sc fd -> In o (kept_options fd) -> written_option f o
| wo_enum e o : enum_decl f e -> In o (statement_options (en_options e)) -> written_option f o
| wo_value e v o : enum_decl f e -> In v (en_values e) -> In o (optlist_options (ev_options v)) -> written_option f o
| wo_service s o : In s (source_services f) -> In o (statement_options (sv_options s)) -> written_option f o
| wo_method s m o : In s (source_services f) -> In m (sv_methods s) -> In o (statement_options (me_options m)) -> written_option f o.

(** ** Proofs *)
Lemma den_option_means o : ok_option o -> option_means o (den_option o).
Proof.
  intros H. assert (P : Forall2 part_means (ob_name o) (map den_part (ob_name o))) by (apply Forall2_map_r; intros [i|t sp] _; constructor).
  destruct o as [ns v]. cbn [ob_name] in *. unfold ok_option in H. unfold den_option. cbn [ob_name ob_value] in *.
  destruct v as [[|] i sp|i|x|s|t sp]; try (constructor; auto; fail); [destruct H|].
  destruct (i_neg i) eqn:En; [|constructor; auto]. rewrite if_within_some; unfold int_value in *; rewrite En in *; [|lia]. constructor; auto. lia.
Qed.
Lemma options_mean_mk (l : list optbody) : all ok_option l -> options_mean l (nonempty (map den_option l)).
Proof.
  intros H. split; [|unfold nonempty; destruct l; cbn; split; congruence]. destruct l as [|o l]; [constructor|]. cbn [nonempty map opts]. change (den_option o :: map den_option l) with (map den_option (o :: l)).
  apply Forall2_map_r. intros x Hx. apply den_option_means. exact (all_In _ _ _ H Hx).
Qed.
Lemma statement_mean l : ok_options l -> options_mean (statement_options l) (den_options l).
Proof.
  intros H. unfold den_options, statement_options. rewrite <- (map_map op_body den_option). apply options_mean_mk. clear -H. unfold ok_options in H. induction l as [|x l IH]; cbn in *; intuition.
Qed.
Lemma optlist_mean l : ok_optlist l -> options_mean (optlist_options l) (den_optlist l).
Proof. intros H. apply options_mean_mk. exact H. Qed.
Lemma rest_kept (fd : field) : optlist_options (rest_options fd) = kept_options fd.
Proof. unfold rest_options, kept_options, optlist_options. destruct (fd_options fd); reflexivity. Qed.
Lemma field_mean k syn sc oi ex (fd : field) : ok_field k syn (ok_body k syn) sc fd -> field_options_mean fd (fdesc k syn sc oi ex fd).
Proof.
  intros (Hn & _ & Hj & Ho). split; [apply fdesc_name|]. split; [rewrite fdesc_number; now apply den_number_ok|].
  assert (E : f_options (fdesc k syn sc oi ex fd) = den_optlist (rest_options fd) /\ f_json_name (fdesc k syn sc oi ex fd) = match json_of fd with Some o => den_string (ob_value o) | None => None end) by (unfold fdesc, den_field; destruct (fd_kind fd); auto).
  destruct E as [-> ->]. split; [rewrite <- rest_kept; now apply optlist_mean|]. change (find (called (b "json_name")) (optlist_options (fd_options fd))) with (json_of fd).
  destruct (json_of fd) as [o|]; auto. unfold den_string in *. destruct (ob_value o) as [| | |s|]; try congruence. destruct (utf8_valid (st_val s)) eqn:Eu; [|congruence]. eauto.
Qed.
Lemma enum_mean en : ok_enum en -> enum_options_mean en (den_enum_ en).
Proof.
  intros (H1 & _ & H3). split; [reflexivity|]. split; [now apply statement_mean|]. apply Forall2_map_r. intros v Hv. destruct (all_In _ _ _ H1 Hv) as [_ H]. split; [reflexivity|]. now apply optlist_mean.
Qed.
Lemma Forall2_app_ {A B} (R : A -> B -> Prop) l1 l2 m1 m2 : Forall2 R l1 m1 -> Forall2 R l2 m2 -> Forall2 R (l1 ++ l2) (m1 ++ m2).
Proof. apply Forall2_app. Qed.
Lemma body_mean k syn nm bd : ok_body k syn bd -> body_options_mean bd (msg k syn nm bd).
Proof.
  intros Hb. apply ok_body_inv in Hb. destruct Hb as (Hi & _ & He & Ho). destruct bd as [items exts os res]. unfold body_options_mean, msg, message_uninterpreted, range_options, source_oneofs. cbn [den_body with_name m_options m_ext_range m_oneof bd_options bd_extensions bd_items] in *. split; [|split].
  - replace (option_map mo_uninterpreted (option_map (fun u => {| mo_map_entry := None; mo_uninterpreted := u |}) (den_options os))) with (den_options os) by (destruct (den_options os); reflexivity). now apply statement_mean.
  - unfold den_extensions. clear -He. induction exts as [|x exts IH]; [constructor|]. cbn [all] in He. destruct He as [H1 H2]. cbn [flat_map]. rewrite map_app, map_map. apply Forall2_app_; [|auto]. cbn [den_ext_range x_options].
    destruct H1 as [_ [->|H1]]; [constructor|]. clear -H1. induction (ex_ranges x); cbn [map]; constructor; auto. now apply optlist_mean.
  - exists (flat_map item_real items), (flat_map (item_synthetic syn) items). split; auto. split.
    + clear -Hi. induction items as [|it items IH]; [constructor|]. cbn [all] in Hi. destruct Hi as [H1 H2]. cbn [flat_map]. apply Forall2_app_; [|auto]. destruct it; constructor; [|constructor]. split; [reflexivity|]. apply statement_mean. apply H1.
    + apply Forall_forall. intros x Hx. apply in_flat_map in Hx. destruct Hx as (it & _ & Hx). destruct it as [fd| | | |]; try destruct Hx. unfold item_synthetic, den_field_oneofs in Hx. destruct (p3_optional syn fd); [|destruct Hx]. destruct Hx as [<-|[]]. reflexivity.
Qed.
Lemma service_mean s : ok_service s -> service_options_mean s (den_service_ s).
Proof.
  intros (H1 & H2). split; [reflexivity|]. split; [now apply statement_mean|]. apply Forall2_map_r. intros m Hm. split; [reflexivity|]. apply statement_mean. exact (all_In _ _ _ H1 Hm).
Qed.
Lemma services_mean k syn name f d : (exists l, d = with_source_info (den_file k syn name f) l) -> ok_file k syn f -> Forall2 service_options_mean (source_services f) (d_service d).
Proof.
  intros (l & ->) [H _]. cbn [with_source_info den_file d_service]. unfold source_services. induction (fi_items f) as [|it items IH]; [constructor|]. cbn [all] in H. destruct H as [H1 H2]. cbn [flat_map]. apply Forall2_app_; [|auto].
  destruct it; constructor; [|constructor]. now apply service_mean.
Qed.
Lemma mean_one o u : option_means o u -> values_set u = 1%nat.
Proof. destruct 1; reflexivity. Qed.
Lemma mean_from l o u : options_mean l o -> In u (opts o) -> exists x, In x l /\ option_means x u.
Proof. intros [H _] Hu. induction H as [|x y l m H1 H2 IH]; [destruct Hu|]. destruct Hu as [<-|Hu]; [exists x; split; [now left|auto]|]. destruct (IH Hu) as (z & Hz & Hm). exists z. split; [now right|auto]. Qed.
Lemma Forall2_from {A B} (R : A -> B -> Prop) l m y : Forall2 R l m -> In y m -> exists x, In x l /\ R x y.
Proof. intros H Hy. induction H as [|x z l m H1 H2 IH]; [destruct Hy|]. destruct Hy as [<-|Hy]; [exists x; split; [now left|auto]|]. destruct (IH Hy) as (w & Hw & Hm). exists w. split; [now right|auto]. Qed.

Theorem C23_options_kept k sort name src d a : parse k sort name src = Done (inl d, a) ->
  exists f, accepted k src f /\
  options_mean (statement_options (fi_options f)) (d_options d) /\
  (forall bd, body_of f bd -> exists m, message_of d m /\ body_options_mean bd m) /\
  (forall sc fd, decl_of f sc fd -> exists x, field_of d x /\ field_options_mean fd x) /\
  (forall en, enum_decl f en -> exists e, enum_of d e /\ enum_options_mean en e) /\
  Forall2 service_options_mean (source_services f) (d_service d).
Proof.
  intros E. destruct (parse_desc _ _ _ _ _ _ E) as (f & Ha & Hok & Hd). exists f. split; auto. split; [|split; [|split; [|split]]].
  - destruct Hd as (l & ->). apply statement_mean. apply Hok.
  - intros bd Hb. destruct (body_message _ _ _ _ _ Hd _ Hb) as (nm & Hm). eexists. split; [exact Hm|]. apply body_mean. eapply ok_of; eauto.
  - intros sc fd H. destruct (decl_field _ _ _ _ _ Hd _ _ H) as (oi & ex & Hx). eexists. split; [exact Hx|]. apply field_mean. eapply decl_ok; eauto.
  - intros en H. eexists. split; [eapply decl_enum; eauto|]. apply enum_mean. eapply enum_decl_ok; eauto.
  - eapply services_mean; eauto.
Qed.
Print Assumptions C23_options_kept.

(** Nothing is invented: every element with options comes from a declaration with
    those options, and every option has exactly one value. *)
Theorem C23_options_only k sort name src d a : parse k sort name src = Done (inl d, a) ->
  exists f, accepted k src f /\
  (forall m, message_of d m -> (exists bd, body_of f bd /\ body_options_mean bd m) \/
     (m_options m = Some {| mo_map_entry := Some true; mo_uninterpreted := [] |} /\ m_ext_range m = [] /\ m_oneof m = [])) /\
  (forall x, field_of d x -> (exists sc fd, decl_of f sc fd /\ field_options_mean fd x) \/ f_options x = None) /\
  (forall e, enum_of d e -> exists en, enum_decl f en /\ enum_options_mean en e) /\
  (forall u, option_of d u -> values_set u = 1%nat /\ exists o, written_option f o /\ option_means o u).
Proof.
  intros E. destruct (parse_desc _ _ _ _ _ _ E) as (f & Ha & Hok & Hd). exists f. split; auto.
  assert (HM : forall m, message_of d m -> (exists bd, body_of f bd /\ body_options_mean bd m) \/ (m_options m = Some {| mo_map_entry := Some true; mo_uninterpreted := [] |} /\ m_ext_range m = [] /\ m_oneof m = [])).
  { intros m Hm. destruct (message_inv _ _ _ _ _ Hd Hok _ Hm) as [(nm & bd & Hb & ->)|(bd & fd & s0 & kt & ks & vt & vs & Hb & Hf & Hk & ->)]; [left|right; auto]. exists bd. split; auto. apply body_mean. eapply ok_of; eauto. }
  assert (HF : forall x, field_of d x -> (exists sc fd, decl_of f sc fd /\ field_options_mean fd x) \/ f_options x = None).
  { intros x Hx. destruct (field_inv _ _ _ _ _ Hd Hok _ Hx) as [(sc & fd & oi & ex & H1 & _ & ->)|(fd & s & kt & ks & vt & vs & H1 & H2 & H3)]; [left|right].
    - exists sc, fd. split; auto. apply field_mean. eapply decl_ok; eauto.
    - unfold entry, entry_desc in H3. cbn [m_field] in H3. destruct H3 as [<-|[<-|[]]]; reflexivity. }
  assert (HE : forall e, enum_of d e -> exists en, enum_decl f en /\ enum_options_mean en e).
  { intros e He. destruct (enum_inv _ _ _ _ _ Hd Hok _ He) as (en & H1 & ->). exists en. split; auto. apply enum_mean. eapply enum_decl_ok; eauto. }
  split; auto. split; auto. split; auto.
  assert (G : forall u, (exists o, written_option f o /\ option_means o u) -> values_set u = 1%nat /\ exists o, written_option f o /\ option_means o u) by (intros u (o & Hw & Ho); split; eauto using mean_one).
  intros u Hu. apply G. assert (M : forall l o, options_mean l o -> In u (opts o) -> (forall x, In x l -> written_option f x) -> exists x, written_option f x /\ option_means x u) by (intros l o H1 H2 H3; destruct (mean_from _ _ _ H1 H2) as (x & Hi & Hx); eauto).
  pose proof (services_mean _ _ _ _ _ Hd Hok) as HS.
  destruct Hu as [u H|m u Hm H|m r u Hm Hr H|m o u Hm Ho H|x u Hx H|e u He H|e v u He Hv H|s u Hs H|s me u Hs Hm H].
  - eapply M; [|exact H|apply wo_file]. destruct Hd as (l & ->). apply statement_mean. apply Hok.
  - destruct (HM _ Hm) as [(bd & Hbd & Hb & _)|(Eo & _)]; [|unfold message_options in H; rewrite Eo in H; destruct H]. eapply M; [exact Hb| |intros; eapply wo_message; eauto]. unfold message_options, message_uninterpreted in *. destruct (m_options m); exact H.
  - destruct (HM _ Hm) as [(bd & Hbd & _ & Hb & _)|(_ & Eo & _)]; [|rewrite Eo in Hr; destruct Hr]. destruct (Forall2_from _ _ _ (x_options r) Hb) as (l & Hl1 & Hl); [now apply in_map|].
    unfold range_options in Hl1. apply in_flat_map in Hl1. destruct Hl1 as (xt & Hxt & Hl1). apply in_map_iff in Hl1. destruct Hl1 as (_ & <- & _). eapply M; eauto. intros; eapply wo_range; eauto.
  - destruct (HM _ Hm) as [(bd & Hbd & _ & _ & real & syn & E1 & H1 & H2)|(_ & _ & Eo)]; [|rewrite Eo in Ho; destruct Ho]. rewrite E1 in Ho. apply in_app_iff in Ho. destruct Ho as [Ho|Ho].
    + destruct (Forall2_from _ _ _ _ H1 Ho) as (l & Hin & _ & Hl). eapply M; eauto. intros; eapply wo_oneof; eauto.
    + rewrite Forall_forall in H2. rewrite (H2 _ Ho) in H. destruct H.
  - destruct (HF _ Hx) as [(sc & fd & Hdc & _ & _ & Hf & _)|Eo]; [|rewrite Eo in H; destruct H]. eapply M; eauto. intros; eapply wo_field; eauto.
  - destruct (HE _ He) as (en & Hed & _ & Hn & _). eapply M; eauto. intros; eapply wo_enum; eauto.
  - destruct (HE _ He) as (en & Hed & _ & _ & Hn). destruct (Forall2_from _ _ _ _ Hn Hv) as (l & Hin & _ & Hl). eapply M; eauto. intros; eapply wo_value; eauto.
  - destruct (Forall2_from _ _ _ _ HS Hs) as (l & Hin & _ & Hl & _). eapply M; eauto. intros; eapply wo_service; eauto.
  - destruct (Forall2_from _ _ _ _ HS Hs) as (l & Hin & _ & _ & Hl). destruct (Forall2_from _ _ _ _ Hl Hm) as (l' & Hin' & _ & Hl'). eapply M; eauto. intros; eapply wo_method; eauto.
Qed.
Print Assumptions C23_options_only.
Example C23_example : map (fun x => (map uo_name (opts (f_options x)), map values_set (opts (f_options x)), f_json_name x, f_default x)) (flat_map m_field (d_message (desc_of
    (b "message M { optional int32 a = 1 [(x.y).z = { a: 1 }, default = 1, json_name = 'q', default = 2, deprecated = true, n = -3, f = -1.5]; }")))) =
  [([[(b "x.y", true); (b "z", false)]; [(b "default", false)]; [(b "deprecated", false)]; [(b "n", false)]; [(b "f", false)]], [1%nat; 1%nat; 1%nat; 1%nat; 1%nat], Some (b "q"), Some (b "1"))].
Proof. vm_compute. reflexivity. Qed.
Example C23_rejects : forallb (fun s => match err_result s with [] => false | _ => true end) [b "option a = -foo;"; b "option a = -9223372036854775809;"; b "message M { optional int32 a = 1 [json_name = 3]; }"] = true.
Proof. vm_compute. reflexivity. Qed.
