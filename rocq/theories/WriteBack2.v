(** Lemmas for C64: fields, oneofs, messages. *)
From Coq Require Import ZifyBool ZifyN.
From Verif Require Import PropsDesc2 Base Utf8 Utf8Spec Errors Lex Ast Descriptor LexSpec Decimal Grammar Meaning CharEdge GenProofs WriteSpec WriteProofs WriteFields WriteMessage WriteBack.

Section Back.
Context {C : comspec}.
(** ** Fields *)
Lemma scalar_type_some s t : In (s, t) scalar_names -> exists ft, scalar_type t = Some ft /\ ty_text t = None /\ ft <> FTGroup /\ ft <> FTMessage /\ ft <> FTEnum.
Proof. unfold scalar_names. cbn [In]. intros H. repeat (destruct H as [H|H]; [injection H as <- <-; eexists; split; [reflexivity|repeat split; discriminate]|]). destruct H. Qed.
Definition typed (ks : list bytes) (t : ty) : Prop := forall f, f_type f = scalar_type t -> f_type_name f = ty_text t -> type_ok ks f.
Lemma field_type_back ts t tsp ks : g_field_type ts (t, tsp) -> toks ts -> not_kw ks ts -> typed (scalar_words ++ ks) t.
Proof.
  intros G H K f E1 E2. unfold type_ok. rewrite E1, E2. inversion G as [s t' sp Hi|us n Gn Kn]; subst.
  - destruct (scalar_type_some _ _ Hi) as (ft & -> & -> & N1 & N2 & N3). destruct ft; congruence.
  - cbn [scalar_type ty_text]. eexists. split; [reflexivity|]. eapply type_back; [exact Gn|exact H|]. intros s Hs. apply in_app_or in Hs. destruct Hs as [Hs|Hs]; [|now apply K]. apply Kn. exact Hs.
Qed.
Lemma typed_sub ks ks' t : typed ks t -> (forall s, In s ks' -> In s ks) -> typed ks' t.
Proof. intros H Hs f E1 E2. specialize (H f E1 E2). unfold type_ok in *. destruct (f_type f) as [[]|]; auto. destruct H as (n & En & Hn). exists n. split; [exact En|]. destruct Hn as [Hn|(w & ws & Hk & Hn)]; [now left|]. right. exists w, ws. split; [auto|exact Hn]. Qed.
(** What the grammar says about a field. *)
Definition labelled (f : field) : bool := match fd_label f with Some _ => true | None => false end.
Definition fd_tys (ks : list bytes) (f : field) : Prop :=
  match fd_kind f with FKNormal t _ => typed ks t | FKMap _ kt _ vt _ => typed scalar_words vt | FKGroup _ _ => True end.
Definition values_ok (f : field) : Prop := Forall (fun o => match ob_value o with OVString s => octets (st_val s) | OVInt i => i_val i < 2 ^ 64 | _ => True end) (optlist_options (fd_options f)).
Definition fd_good (pl : place_of_field) (f : field) : Prop :=
  identifier (id_val (fd_name f)) /\ optlist_good (fd_options f) /\ values_ok f /\ fd_tys (field_words (negb (labelled f)) pl) f.
Lemma values_back k ts ol : g_opt_options k ts ol -> toks ts -> Forall (fun o => match ob_value o with OVString s => octets (st_val s) | OVInt i => i_val i < 2 ^ 64 | _ => True end) (optlist_options ol).
Proof.
  intros G H. destruct G as [|ts o [st us os e G]]; [constructor|]. split_toks. cbn [optlist_options ol_options]. eapply (proj1 (sep_all _ _ _ _ _ G ltac:(assumption) _)).
  Unshelve. intros ws x [xs n sp xs' v Gn Gv] Hw. split_toks. cbn [ob_value]. destruct Gv as [w sp'|st' w sp'|ys i Gi|w sp'|st' w sp'|ys s Gs|st' ys e' Gs]; auto; [eapply int_back; eauto|eapply string_back; eauto].
Qed.
Lemma field_back k G pl ts f : g_field k G ts f -> toks ts -> not_kw (place_words pl) ts -> fd_good pl f.
Proof.
  intros [ls label us f' Gl Nl Gr] H K. split_toks.
  assert (Kp : not_kw (if match label with Some _ => true | None => false end then [] else label_words ++ place_words pl) us).
  { destruct Gl as [|s l sp Hi]; [|intros ? []]. cbn [app] in K. intros s Hs. apply in_app_or in Hs. destruct Hs as [Hs|Hs]; [exact (Nl eq_refl s Hs)|now apply K]. }
  generalize dependent (first_span (ls ++ us)). intros st Gr. destruct Gr as [ws t tsp sp1 v sp2 ws' n os o e c Km Gt Gi Go _|m0 m1 kts kt ksp m2 vts vt vsp m3 v sp1 sp2 ws' n os o e c Gk Gv Gi Go _|m0 v sp1 sp2 ws' n os o sp3 bts bd e c Hc Gi Go Gb _]; split_toks;
    (split; [assumption|]); (split; [eapply optlist_back; eauto|]); (split; [eapply values_back; eauto|]); unfold fd_tys, labelled; cbn [fd_kind fd_label]; [| |exact I].
  - eapply typed_sub; [eapply (field_type_back ws t tsp ([b "map"; b "group"] ++ if match label with Some _ => true | None => false end then [] else label_words ++ place_words pl)); [exact Gt|assumption|]|].
    + intros s Hs. apply in_app_or in Hs. destruct Hs as [Hs|Hs]; [now apply Km|]. specialize (Kp s Hs). inversion Gt; subst; [exact Kp|]. match goal with G : g_type_name ws _ |- _ => destruct G as [ws0 n0 G0|]; [inversion G0 as [x y Gx|x y z w q Gx Gy]; subst; destruct Gx; exact Kp|exact Kp] end.
    + intros s Hs. unfold field_words in Hs. destruct label; exact Hs.
  - eapply typed_sub; [eapply (field_type_back vts vt vsp []); [exact Gv|assumption|intros ? []]|]. intros s Hs. rewrite app_nil_r. exact Hs.
Qed.

Lemma drop_in n o l : In o (drop_called n l) -> In o l.
Proof. induction l as [|x l IH]; cbn; [auto|]. destruct (called n x); [now right|]. intros [->|H]; auto. Qed.
Lemma find_called_none n l : find (called n) l = None -> Forall (fun o => called n o = false) l.
Proof. induction l as [|x l IH]; cbn; [constructor|]. destruct (called n x) eqn:E; [discriminate|]. constructor; auto. Qed.
Lemma called_name n o : ok_option o -> uo_name (den_option o) = [(n, false)] -> called n o = true.
Proof.
  intros H E. rewrite den_option_name in E by exact H. unfold called. destruct (ob_name o) as [|[i|t sp] [|? ?]]; try discriminate E. cbn in E. injection E as E. rewrite E. apply bytes_eqb_refl.
Qed.
Section Field.
Variables (k : cfg) (D : body -> msg_desc) (V : body -> Prop) (p3 : bool).
Lemma tail_back pl f d : fd_good pl f -> f_name d = Some (id_val (fd_name f)) -> ok_number (fd_number f) -> f_number d = den_number (fd_number f) ->
  f_json_name d = match json_of f with Some o => den_string (ob_value o) | None => None end -> match json_of f with None => True | Some o => den_string (ob_value o) <> None end ->
  f_options d = den_optlist (rest_options f) -> ok_optlist (rest_options f) -> plain_options (f_options d) -> (f_default d = None -> default_of f = None) -> tail_ok d.
Proof.
  intros (Hi & Hg & Hv & _) En On Ez Ej Oj Eo Oo Hp Hd.
  assert (Sub : Forall (fun o => In o (optlist_options (fd_options f))) (optlist_options (rest_options f))).
  { unfold rest_options. destruct (fd_options f) as [l|]; cbn; [|constructor]. apply Forall_forall. intros o Ho. now apply drop_in, drop_in in Ho. }
  split; [eexists; split; [exact En|exact Hi]|]. split; [rewrite Ez; now apply number_back|]. split; [|split].
  - rewrite Ej. unfold json_of in *. destruct (find _ _) as [o|] eqn:Ef; [|exact I]. apply find_some in Ef. destruct Ef as [Ef _]. unfold values_ok in Hv. rewrite Forall_forall in Hv. specialize (Hv o Ef).
    unfold den_string in *. destruct (ob_value o) as [| | |s|]; try exact I. destruct (utf8_valid (st_val s)) eqn:Eu; [|exact I]. split; [exact Hv|]. now apply utf8_valid_iff.
  - rewrite Eo in *. apply settings_back; auto. eapply Forall_impl; [|exact Sub]. cbn. intros o Ho. unfold optlist_good in Hg. rewrite Forall_forall in Hg. auto.
  - rewrite Eo. unfold den_optlist. rewrite items_nonempty. apply Forall_forall. intros u Hu. apply in_map_iff in Hu. destruct Hu as (o & <- & Ho). rewrite Forall_forall in Sub. pose proof (Sub o Ho) as Hin. unfold ok_optlist in Oo. apply all_Forall in Oo. rewrite Forall_forall in Oo. specialize (Oo o Ho).
    split; intros E Ec; apply (called_name _ _ Oo) in Ec.
    + apply Hd in E. unfold default_of in E. apply find_called_none in E. rewrite Forall_forall in E. rewrite (E o Hin) in Ec. discriminate.
    + rewrite Ej in E. destruct (json_of f) as [j|] eqn:Ejf; [congruence|]. unfold json_of in Ejf. apply find_called_none in Ejf. rewrite Forall_forall in Ejf. rewrite (Ejf o Hin) in Ec. discriminate.
Qed.
Lemma label_back pl f oi d : f_label d = den_label (syn_of p3) (scope_of pl) (fd_label f) -> f_proto3_optional d = (if p3_optional (syn_of p3) f then Some true else None) -> den_label (syn_of p3) (scope_of pl) (fd_label f) <> None ->
  label_ok p3 pl (set_oneof_index oi d) /\ match w_label p3 pl (set_oneof_index oi d) with [] => true | _ => false end = negb (labelled f).
Proof.
  intros E1 E2 N. unfold label_ok, w_label, labelled, set_oneof_index. cbn [f_label f_proto3_optional]. rewrite E1, E2. unfold p3_optional, den_label in *. destruct p3; cbn [syn_of p2] in *; destruct pl; cbn [scope_of] in *;
    destruct (fd_label f) as [[[| |] sp]|]; cbn [option_map fst] in *; try congruence; cbn; repeat split; try discriminate; auto; right; repeat split; discriminate.
Qed.
Lemma decZ_default lo hi v i : option_map decZ (if_within lo hi i) = Some v -> exists z, (lo <= z <= hi)%Z /\ decimalZ z v.
Proof. destruct (if_within lo hi i) as [z|] eqn:E; [|discriminate]. intros [= <-]. apply within_some in E. exists z. split; [apply E|apply decZ_decimal]. Qed.
(** Fields that are no map. *)
Lemma normal_back pl f oi : fd_good pl f -> ok_field k (syn_of p3) V (scope_of pl) f -> plain_field (den_field k (syn_of p3) (scope_of pl) oi f) ->
  match fd_kind f with FKNormal _ _ => field_ok p3 pl (den_field k (syn_of p3) (scope_of pl) oi f) /\ is_map (den_field k (syn_of p3) (scope_of pl) oi f) = false | FKMap _ _ _ _ _ => True | FKGroup _ _ => False end.
Proof.
  intros Hg (On & Ok & Oj & Oo) (Pg & Po & Pd). destruct (fd_kind f) as [t tsp|g bd|m kt ksp vt vsp] eqn:Ek; [| |exact I].
  2: { apply Pg. unfold den_field. rewrite Ek. reflexivity. }
  destruct Ok as [Ol Od]. set (d := den_field k (syn_of p3) (scope_of pl) oi f) in *.
  assert (Et : f_type d = scalar_type t /\ f_type_name d = ty_text t) by (unfold d, den_field; rewrite Ek; split; reflexivity). destruct Et as [Et Etn].
  assert (Edf : f_default d = match default_of f with Some o => den_default k t (ob_value o) | None => None end) by (unfold d, den_field; rewrite Ek; reflexivity).
  assert (Hty : typed (field_words (negb (labelled f)) pl) t) by (destruct Hg as (_ & _ & _ & Hty); unfold fd_tys in Hty; rewrite Ek in Hty; exact Hty).
  destruct (label_back pl f oi d) as [L1 L2]; [unfold d, den_field; rewrite Ek; reflexivity|unfold d, den_field; rewrite Ek; reflexivity|exact Ol|].
  assert (Ed : set_oneof_index oi d = d) by (unfold d, den_field; rewrite Ek; reflexivity). rewrite Ed in L1, L2.
  assert (Tk : type_ok (field_words (negb (labelled f)) pl) d) by (apply Hty; assumption).
  split; [|unfold is_map; unfold type_ok in Tk; destruct (f_type d) as [[]|]; auto; contradiction].
  split; [|split; [exact L1|split; [rewrite L2; exact Tk|]]].
  - eapply (tail_back pl f d Hg); try (unfold d, den_field; rewrite Ek; reflexivity); auto. rewrite Edf. destruct (default_of f) as [o|]; [|reflexivity]. destruct Od as (_ & _ & Od). congruence.
  - unfold default_ok. rewrite Edf in *. destruct (default_of f) as [o|] eqn:Edo; [|exact I]. destruct Od as (Op & Olr & Odd). destruct (den_default k t (ob_value o)) as [v|] eqn:Ev; [|exact I].
    split; [rewrite p2_syn in Op; destruct p3; [discriminate|reflexivity]|]. split.
    { unfold d, den_field. rewrite Ek. cbn [f_label]. destruct (fd_label f) as [[[| |] sp]|]; unfold den_label; cbn [option_map fst] in *; destruct pl; cbn [scope_of]; try destruct (p2 _); try discriminate; congruence. }
    assert (Hvo : match ob_value o with OVString s => octets (st_val s) | OVInt i => i_val i < 2 ^ 64 | _ => True end).
    { destruct Hg as (_ & _ & Hv & _). unfold values_ok in Hv. rewrite Forall_forall in Hv. apply Hv. unfold default_of in Edo. apply find_some in Edo. apply Edo. }
    rewrite Et in *. revert Ev Pd Hvo. generalize (ob_value o). clear. intros dv Ev Pd Hvo.
    destruct t; cbn [scalar_type] in *; try contradiction; unfold den_default in Ev; try exact Pd;
      try (destruct dv as [| i | | |]; try discriminate Ev; eapply decZ_default; exact Ev);
      try (destruct dv as [| i | | |]; try discriminate Ev; destruct (i_neg i); cbn [negb andb] in Ev; [discriminate|]; first [destruct (N.leb_spec (i_val i) 4294967295); [|discriminate]|idtac]; injection Ev as <-; exists (i_val i); (split; [first [exact Hvo|change (2 ^ 32) with 4294967296; lia]|apply dec_decimal])).
    + destruct dv as [[|] i ?| | | |]; try discriminate Ev. destruct (bytes_eqb _ _); [injection Ev as <-; now left|]. destruct (bytes_eqb _ _); [injection Ev as <-; now right|discriminate].
    + unfold den_string in Ev. destruct dv as [| | |s|]; try discriminate Ev. destruct (utf8_valid (st_val s)) eqn:Eu; [|discriminate]. injection Ev as <-. split; [exact Hvo|now apply utf8_valid_iff].
    + destruct dv as [| | |s|]; try discriminate Ev. injection Ev as <-. exists (st_val s). split; [exact Hvo|]. unfold astring_display. now rewrite escaped_same.
Qed.
Lemma key_back t : key_type t = true -> exists kt, scalar_type t = Some kt /\ ty_text t = None /\ ~ In kt [FTDouble; FTFloat; FTBytes; FTGroup; FTMessage; FTEnum].
Proof. destruct t; cbn [key_type]; intros H; try discriminate H; (eexists; split; [reflexivity|split; [reflexivity|]]); cbn [In]; intuition discriminate. Qed.
Lemma map_back f m kt ksp vt vsp : fd_good InMessage f -> fd_kind f = FKMap m kt ksp vt vsp -> ok_field k (syn_of p3) V ScMessage f -> plain_field (den_field k (syn_of p3) ScMessage None f) ->
  map_ok (den_field k (syn_of p3) ScMessage None f) (entry_desc (entry_name (id_val (fd_name f))) kt vt) /\ p3_optional (syn_of p3) f = false.
Proof.
  intros Hg Ek (On & Ok & Oj & Oo) (Pg & Po & Pd). rewrite Ek in Ok. destruct Ok as (_ & El & Ed & Kk). assert (Ep : p3_optional (syn_of p3) f = false) by (unfold p3_optional; rewrite El; destruct (p2 _); reflexivity). split; [|exact Ep].
  set (d := den_field k (syn_of p3) ScMessage None f) in *. destruct (key_back kt Kk) as (ft & E1 & E2 & Hk).
  assert (Ht : typed scalar_words vt) by (destruct Hg as (_ & _ & _ & Hty); unfold fd_tys in Hty; rewrite Ek in Hty; exact Hty).
  split; [|split; [|split; [|split; [|split; [|split]]]]]; try (unfold d, den_field; rewrite Ek; try rewrite Ep; reflexivity).
  - eapply (tail_back InMessage f d Hg); try (unfold d, den_field; rewrite Ek; reflexivity); auto.
  - exists ft, (entry_field (b "value") 2 (scalar_type vt) (ty_text vt)). split; [|split; [exact Hk|apply Ht; reflexivity]].
    unfold entry_desc, entry, entry_field. cbn [f_type f_type_name]. rewrite E1. unfold d, den_field. rewrite Ek. reflexivity.
Qed.
End Field.
End Back.
