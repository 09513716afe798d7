(** Properties of the descriptors [parse] returns: C16, C17, C18, C19, C20.
    [message_of], [field_of], [enum_of] range over the elements of a descriptor at
    any depth; [body_of], [decl_of], [enum_decl] over the declarations of a file
    (DescSpec.v). [accepted k src f]: [f] are the declarations of the sentence the
    source is (Grammar.v). *)
From Verif Require Import Base Utf8 Errors Lex Ast Comments Parse Lines Descriptor ParseApi.
From Verif Require Import LexSafe Stream Grammar Walk WalkG3 Meaning AstWf AstWfG GenProofs PropsParse DescSpec DescLemmas.

Lemma parse_desc k sort name src d a : parse k sort name src = Done (inl d, a) ->
  exists f, accepted k src f /\ ok_file k (fi_syntax f) f /\ exists l, d = with_source_info (den_file k (fi_syntax f) name f) l.
Proof. intros E. destruct (parse_ok_inv _ _ _ _ _ _ E) as (_ & f & H1 & H2 & (ls & _ & H3)). eauto 10. Qed.

Definition desc_of (src : bytes) : file_desc :=
  match parse ex_k0 loc_sort (b "x.proto") src with Done (inl d, _) => d | _ => den_file ex_k0 Proto2 [] {| fi_span := (0,0); fi_syntax := Proto2; fi_syntax_span := None; fi_package := None; fi_imports := []; fi_options := []; fi_items := [] |} end.

(** ** C16: numbers *)
Definition number_ok (z : Z) : Prop := (1 <= z <= 536870911)%Z.
Definition i32_ok (z : Z) : Prop := (-2147483648 <= z <= 2147483647)%Z.
Definition message_options (m : msg_desc) : list uopt := match m_options m with Some o => mo_uninterpreted o | None => [] end.
(** The message has the option message_set_wire_format = true. *)
Definition is_message_set (m : msg_desc) : Prop :=
  exists u, In u (message_options m) /\ uo_name u = [(b "message_set_wire_format", false)] /\ uo_identifier u = Some (b "true").
(** All ranges of a message, reserved and for extensions. *)
Definition message_ranges (m : msg_desc) : list (option Z * option Z) :=
  map (fun r => (r_start r, r_end r)) (m_reserved_range m) ++ map (fun r => (x_start r, x_end r)) (m_ext_range m).

Lemma if_within_some lo hi i : (lo <= int_value i <= hi)%Z -> if_within lo hi i = Some (int_value i).
Proof. intros H. unfold if_within, within. destruct (Z.leb_spec lo (int_value i)); [|lia]. destruct (Z.leb_spec (int_value i) hi); [|lia]. reflexivity. Qed.
Lemma den_number_ok i : ok_number i -> den_number i = Some (int_value i).
Proof. apply if_within_some. Qed.
Lemma den_enum_number_ok i : ok_enum_number i -> den_enum_number i = Some (int_value i).
Proof. apply if_within_some. Qed.
Lemma fdesc_number k syn sc oi ex fd : f_number (fdesc k syn sc oi ex fd) = den_number (fd_number fd).
Proof. unfold fdesc, den_field. destruct (fd_kind fd); reflexivity. Qed.
Lemma range_end_ok ms r : ok_range r -> exists w, den_range_end ms r = Some w /\ ((2 <= w <= 536870912)%Z \/ w = 2147483647%Z /\ ms = true /\ exists sp, rr_end r = REMax sp).
Proof.
  intros [H1 H2]. unfold den_range_end. destruct (rr_end r) as [|v|sp].
  - rewrite (den_number_ok _ H1). cbn [succ option_map]. eexists. split; [reflexivity|]. unfold ok_number in H1. left. lia.
  - rewrite (den_number_ok _ H2). cbn [succ option_map]. eexists. split; [reflexivity|]. unfold ok_number in H2. left. lia.
  - destruct ms; eexists; (split; [reflexivity|]); [right; eauto|left; lia].
Qed.
Lemma msg_ranges k syn nm bd : message_ranges (msg k syn nm bd) =
  map (fun r => (den_number (rr_start r), den_range_end (message_set (bd_options bd)) r)) (flat_map res_ranges (bd_reserved bd) ++ flat_map ex_ranges (bd_extensions bd)).
Proof.
  unfold message_ranges, msg. destruct bd as [items exts opts res]. cbn [den_body with_name m_reserved_range m_ext_range bd_options bd_reserved bd_extensions].
  rewrite map_app, !map_map. f_equal. unfold den_extensions. rewrite !flat_map_concat_map, !concat_map, !map_map. f_equal. apply map_ext. intros x. rewrite map_map. reflexivity.
Qed.
Lemma bytes_eqb_true x y : bytes_eqb x y = true -> x = y.
Proof. apply bytes_eqb_eq. Qed.
Lemma message_set_msg k syn nm bd : message_set (bd_options bd) = true -> is_message_set (msg k syn nm bd).
Proof.
  unfold message_set, is_message_set, message_options, msg. destruct bd as [items exts opts res]. cbn [den_body with_name m_options bd_options].
  destruct (find _ opts) as [o|] eqn:E; [|discriminate]. apply find_some in E. destruct E as [Hi Hc].
  destruct (ob_value (op_body o)) as [[|] i sp| | | |] eqn:Ev; try discriminate. intros Ht. apply bytes_eqb_true in Ht.
  unfold den_options, nonempty. destruct opts as [|o0 opts]; [destruct Hi|]. remember (o0 :: opts) as os eqn:Eo.
  replace (match map (fun o1 => den_option (op_body o1)) os with [] => None | _ :: _ => Some (map (fun o1 => den_option (op_body o1)) os) end) with (Some (map (fun o1 => den_option (op_body o1)) os)) by (rewrite Eo; reflexivity).
  cbn [option_map mo_uninterpreted]. exists (den_option (op_body o)). split; [apply in_map_iff; eauto|]. unfold den_option. rewrite Ev. cbn [uo_name uo_identifier]. split; [|congruence].
  unfold called in Hc. destruct (ob_name (op_body o)) as [|[j|] [|]]; try discriminate. apply bytes_eqb_true in Hc. cbn [map den_part]. now rewrite Hc.
Qed.

Theorem C16_numbers_valid k sort name src d a : parse k sort name src = Done (inl d, a) ->
  (forall x, field_of d x -> exists z, f_number x = Some z /\ number_ok z) /\
  (forall m s e, message_of d m -> In (s, e) (message_ranges m) ->
     exists z w, s = Some z /\ e = Some w /\ number_ok z /\ ((2 <= w <= 536870912)%Z \/ w = 2147483647%Z /\ is_message_set m)) /\
  (forall e, enum_of d e ->
     (forall v, In v (e_value e) -> exists z, v_number v = Some z /\ i32_ok z) /\
     (forall r, In r (e_reserved_range e) -> exists z w, r_start r = Some z /\ r_end r = Some w /\ i32_ok z /\ i32_ok w)).
Proof.
  intros E. destruct (parse_desc _ _ _ _ _ _ E) as (f & _ & Hok & Hd). split; [|split].
  - intros x Hx. destruct (field_inv _ _ _ _ _ Hd Hok _ Hx) as [(sc & fd & oi & ex & H1 & _ & ->)|(fd & s & kt & ks & vt & vs & H1 & H2 & H3)].
    + rewrite fdesc_number. apply (decl_ok _ _ _ _ _ Hok) in H1. destruct H1 as [H1 _]. exists (int_value (fd_number fd)). split; [now apply den_number_ok|exact H1].
    + unfold entry, entry_desc in H3. cbn [m_field] in H3. destruct H3 as [<-|[<-|[]]]; cbn [f_number]; eexists; (split; [reflexivity|unfold number_ok; lia]).
  - intros m s e Hm Hi. destruct (message_inv _ _ _ _ _ Hd Hok _ Hm) as [(nm & bd & Hb & ->)|(bd & fd & s0 & kt & ks & vt & vs & Hb & Hf & Hk & ->)]; [|destruct Hi].
    rewrite msg_ranges in Hi. apply in_map_iff in Hi. destruct Hi as (r & [= <- <-] & Hi).
    apply (ok_of _ _ _ _ Hok) in Hb. apply ok_body_inv in Hb. destruct Hb as (_ & Hr & He & _).
    assert (Ho : ok_range r).
    { apply in_app_iff in Hi. destruct Hi as [Hi|Hi]; [exact (all_In _ _ _ Hr Hi)|]. apply in_flat_map in Hi. destruct Hi as (x & Hx & Hi). pose proof (all_In _ _ _ He Hx) as [H _]. exact (all_In _ _ _ H Hi). }
    destruct (range_end_ok (message_set (bd_options bd)) r Ho) as (w & Ew & Hw). exists (int_value (rr_start r)), w. destruct Ho as [Ho _].
    split; [now apply den_number_ok|]. split; [exact Ew|]. split; [exact Ho|]. destruct Hw as [Hw|(Hw & Hms & _)]; [now left|]. right. split; auto. now apply message_set_msg.
  - intros e He. destruct (enum_inv _ _ _ _ _ Hd Hok _ He) as (en & H1 & ->). apply (enum_decl_ok _ _ _ _ Hok) in H1. destruct H1 as (H1 & H2 & _). cbn [den_enum_ e_value e_reserved_range]. split.
    + intros v Hv. apply in_map_iff in Hv. destruct Hv as (v0 & <- & Hv). destruct (all_In _ _ _ H1 Hv) as [Hn _]. cbn [den_enum_value v_number]. exists (int_value (ev_number v0)). split; [now apply den_enum_number_ok|exact Hn].
    + intros r Hr. apply in_map_iff in Hr. destruct Hr as (r0 & <- & Hr). destruct (all_In _ _ _ H2 Hr) as [Hs Hn]. cbn [den_enum_range r_start r_end]. exists (int_value (rr_start r0)).
      destruct (rr_end r0) as [|v|sp]; eexists; (split; [now apply den_enum_number_ok|]); (split; [try (apply den_enum_number_ok; eassumption); reflexivity|]); (split; [exact Hs|]); auto. unfold i32_ok; lia.
Qed.
Print Assumptions C16_numbers_valid.

(** The numbers are the literals': [range_means incl max r se] says that the range
    declaration [r] denotes start and end [se]; the end of a single number or of
    an explicit range is its last number plus [incl] (1: exclusive end, 0: inclusive). *)
Definition range_means (incl max : Z) (r : rrange) (se : option Z * option Z) : Prop :=
  fst se = Some (int_value (rr_start r)) /\
  snd se = Some (match rr_end r with RENone => int_value (rr_start r) + incl | REInt v => int_value v + incl | REMax _ => max end)%Z.
Lemma Forall2_map_r {A B} (R : A -> B -> Prop) (g : A -> B) l : (forall x, In x l -> R x (g x)) -> Forall2 R l (map g l).
Proof. induction l as [|x l IH]; cbn; intros H; constructor; auto. Qed.
Lemma msg_range_means (ms : bool) r : ok_range r -> range_means 1 (if ms then 2147483647 else 536870912)%Z r (den_number (rr_start r), den_range_end ms r).
Proof.
  intros [H1 H2]. unfold range_means, den_range_end. cbn [fst snd]. split; [now apply den_number_ok|]. destruct (rr_end r); [rewrite (den_number_ok _ H1)|rewrite (den_number_ok _ H2)|]; reflexivity.
Qed.
Definition declared_name (fd : field) : bytes := match fd_kind fd with FKGroup _ _ => map lower (id_val (fd_name fd)) | _ => id_val (fd_name fd) end.
Lemma fdesc_name k syn sc oi ex fd : f_name (fdesc k syn sc oi ex fd) = Some (declared_name fd).
Proof. unfold fdesc, den_field, declared_name. destruct (fd_kind fd); reflexivity. Qed.

Theorem C16_values k sort name src d a : parse k sort name src = Done (inl d, a) ->
  exists f, accepted k src f /\
  (forall sc fd, decl_of f sc fd -> exists x, field_of d x /\ f_name x = Some (declared_name fd) /\ f_number x = Some (int_value (fd_number fd))) /\
  (forall bd, body_of f bd -> exists m, message_of d m /\
     Forall2 (range_means 1 (if message_set (bd_options bd) then 2147483647 else 536870912)%Z)
             (flat_map res_ranges (bd_reserved bd) ++ flat_map ex_ranges (bd_extensions bd)) (message_ranges m) /\
     m_reserved_name m = map id_val (flat_map res_names (bd_reserved bd))) /\
  (forall en, enum_decl f en -> exists e, enum_of d e /\ e_name e = Some (id_val (en_name en)) /\
     Forall2 (fun v x => v_name x = Some (id_val (ev_name v)) /\ v_number x = Some (int_value (ev_number v))) (en_values en) (e_value e) /\
     Forall2 (range_means 0 2147483647) (flat_map res_ranges (en_reserved en)) (map (fun r => (r_start r, r_end r)) (e_reserved_range e)) /\
     e_reserved_name e = map id_val (flat_map res_names (en_reserved en))).
Proof.
  intros E. destruct (parse_desc _ _ _ _ _ _ E) as (f & Ha & Hok & Hd). exists f. split; [auto|]. split; [|split].
  - intros sc fd H. destruct (decl_field _ _ _ _ _ Hd _ _ H) as (oi & ex & Hx). eexists. split; [exact Hx|]. rewrite fdesc_name, fdesc_number. split; [reflexivity|].
    apply (decl_ok _ _ _ _ _ Hok) in H. destruct H as [H _]. now apply den_number_ok.
  - intros bd Hb. destruct (body_message _ _ _ _ _ Hd _ Hb) as (nm & Hm). eexists. split; [exact Hm|]. rewrite msg_ranges.
    apply (ok_of _ _ _ _ Hok) in Hb. apply ok_body_inv in Hb. destruct Hb as (_ & Hr & He & _). split.
    + apply Forall2_map_r. intros r Hi. apply msg_range_means. apply in_app_iff in Hi. destruct Hi as [Hi|Hi]; [exact (all_In _ _ _ Hr Hi)|]. apply in_flat_map in Hi. destruct Hi as (x & Hx & Hi). pose proof (all_In _ _ _ He Hx) as [H _]. exact (all_In _ _ _ H Hi).
    + unfold msg. destruct bd. reflexivity.
  - intros en H. exists (den_enum_ en). split; [eapply decl_enum; eauto|]. split; [reflexivity|]. apply (enum_decl_ok _ _ _ _ Hok) in H. destruct H as (H1 & H2 & _). cbn [den_enum_ e_value e_reserved_range e_reserved_name]. split; [|split; [|reflexivity]].
    + apply Forall2_map_r. intros v Hv. destruct (all_In _ _ _ H1 Hv) as [Hn _]. cbn [den_enum_value v_name v_number]. split; [reflexivity|now apply den_enum_number_ok].
    + rewrite map_map. apply Forall2_map_r. intros r Hr. destruct (all_In _ _ _ H2 Hr) as [Hs Hn]. unfold range_means. cbn [den_enum_range r_start r_end fst snd]. split; [now apply den_enum_number_ok|].
      destruct (rr_end r) as [|v|sp]; rewrite ?Z.add_0_r; try (apply den_enum_number_ok; assumption); reflexivity.
Qed.
Print Assumptions C16_values.
Example C16_example : let m := hd (MsgDesc None [] [] [] [] [] [] None [] []) (d_message (desc_of ex_proto2)) in
  message_ranges m = [(Some 7, Some 8); (Some 9, Some 13); (Some 100, Some 536870912)]%Z /\ map f_number (m_field m) = [Some 1; Some 2; Some 3; Some 4; Some 5]%Z /\
  map (fun e => (map v_number (e_value e), map r_end (e_reserved_range e))) (d_enum (desc_of ex_proto2)) = [([Some 0; Some (-1)], [Some 2147483647])]%Z.
Proof. vm_compute. auto. Qed.
Example C16_message_set : message_ranges (hd (MsgDesc None [] [] [] [] [] [] None [] []) (d_message (desc_of (b "message M { option message_set_wire_format = true; extensions 4 to max; }"))))
  = [(Some 4, Some 2147483647)]%Z.
Proof. vm_compute. reflexivity. Qed.
Example C16_rejects : forallb (fun s => match err_result s with [] => false | _ => true end)
  [b "message M { optional int32 a = 0; }"; b "message M { optional int32 a = 536870912; }"; b "message M { optional int32 a = -1; }"; b "message M { reserved 0; }";
   b "message M { extensions 5 to 536870912; }"; b "enum E { A = 2147483648; }"; b "enum E { A = 0; reserved -2147483649; }"] = true.
Proof. vm_compute. reflexivity. Qed.

(** ** C17: rules of the two syntaxes *)
Theorem C17_syntax_rules k sort name src d a : parse k sort name src = Done (inl d, a) ->
  (d_syntax d = None \/ d_syntax d = Some (b "proto3")) /\
  (forall x, field_of d x ->
     f_label x <> None /\
     (f_extendee x <> None -> f_label x <> Some LabRequired) /\
     (d_syntax d = Some (b "proto3") -> f_type x <> Some FTGroup /\ f_default x = None /\ f_label x <> Some LabRequired) /\
     (d_syntax d = None -> f_proto3_optional x = None)).
Proof.
  intros E. destruct (parse_desc _ _ _ _ _ _ E) as (f & _ & Hok & Hd).
  assert (Es : d_syntax d = match fi_syntax f with Proto2 => None | Proto3 => Some (b "proto3") end) by (destruct Hd as (l & ->); reflexivity).
  rewrite Es. split; [destruct (fi_syntax f); auto|]. intros x Hx.
  destruct (field_inv _ _ _ _ _ Hd Hok _ Hx) as [(sc & fd & oi & ex & H1 & H2 & ->)|(fd & s & kt & ks & vt & vs & H1 & H2 & H3)].
  - apply (decl_ok _ _ _ _ _ Hok) in H1. destruct H1 as (_ & Hk & _). unfold fdesc, den_field.
    assert (L : forall l, den_label (fi_syntax f) sc (fd_label fd) = Some l ->
      (ex <> None -> l <> LabRequired) /\ (fi_syntax f = Proto3 -> l <> LabRequired)).
    { intros l. unfold den_label, p2. cbn in H2. destruct sc; cbn in H2; destruct (fd_label fd) as [[[] ?]|], (fi_syntax f); cbn; intros [= <-]; split; try discriminate; intros; destruct H2; congruence. }
    assert (Ho : fi_syntax f = Proto2 -> (if p3_optional (fi_syntax f) fd then Some true else None) = None) by (intros ->; reflexivity).
    destruct (fd_kind fd) as [t tsp|tsp bd|tsp kt ks vt vs]; cbn [set_extendee set_oneof_index f_label f_extendee f_type f_default f_proto3_optional].
    + destruct Hk as [Hl Hdf]. destruct (den_label (fi_syntax f) sc (fd_label fd)) as [l|] eqn:El; [|congruence]. destruct (L l eq_refl) as [L1 L2].
      split; [discriminate|]. split; [intros Hx0; specialize (L1 Hx0); congruence|]. split.
      * intros H. assert (Hs : fi_syntax f = Proto3) by (destruct (fi_syntax f); congruence). split; [destruct t; discriminate|]. split; [|specialize (L2 Hs); congruence].
        destruct (default_of fd); auto. destruct Hdf as [Hp _]. unfold p2 in Hp. rewrite Hs in Hp. discriminate.
      * intros H. apply Ho. destruct (fi_syntax f); congruence.
    + destruct Hk as (Hp & Hl & _). destruct (den_label (fi_syntax f) sc (fd_label fd)) as [l|] eqn:El; [|congruence]. destruct (L l eq_refl) as [L1 L2].
      split; [discriminate|]. split; [intros Hx0; specialize (L1 Hx0); congruence|]. unfold p2 in Hp. split; [destruct (fi_syntax f); discriminate|].
      intros H. apply Ho. destruct (fi_syntax f); congruence.
    + split; [discriminate|]. split; [discriminate|]. split; [intros; split; [discriminate|split; [reflexivity|discriminate]]|]. intros H. apply Ho. destruct (fi_syntax f); congruence.
  - unfold entry, entry_desc in H3. cbn [m_field] in H3. destruct H3 as [<-|[<-|[]]]; cbn [f_label f_extendee f_type f_default f_proto3_optional];
      (split; [discriminate|]); (split; [discriminate|]); (split; [|auto]); intros; (split; [|split; [auto|discriminate]]); destruct kt, vt; discriminate.
Qed.
Print Assumptions C17_syntax_rules.

(** The labels written in the source. *)
Theorem C17_source_labels k sort name src d a : parse k sort name src = Done (inl d, a) ->
  exists f, accepted k src f /\ (d_syntax d = None <-> fi_syntax f = Proto2) /\
  forall sc fd, decl_of f sc fd ->
    match fd_kind fd with
    | FKMap _ _ _ _ _ => sc = ScMessage /\ fd_label fd = None
    | _ =>
      match sc with
      | ScOneof => fd_label fd = None
      | _ => fi_syntax f = Proto2 -> fd_label fd <> None
      end /\
      (forall sp, fd_label fd = Some (LRequired, sp) -> fi_syntax f = Proto2 /\ sc = ScMessage)
    end /\
    exists x, field_of d x /\ f_name x = Some (declared_name fd) /\
      f_label x = Some (match fd_kind fd, fd_label fd with
                        | FKMap _ _ _ _ _, _ | _, Some (LRepeated, _) => LabRepeated
                        | _, Some (LRequired, _) => LabRequired
                        | _, _ => LabOptional
                        end) /\
      (f_proto3_optional x = Some true <-> fi_syntax f = Proto3 /\ exists sp, fd_label fd = Some (LOptional, sp)).
Proof.
  intros E. destruct (parse_desc _ _ _ _ _ _ E) as (f & Ha & Hok & Hd). exists f. split; auto.
  split. { destruct Hd as (l & ->). cbn. destruct (fi_syntax f); split; congruence. }
  intros sc fd H. destruct (decl_field _ _ _ _ _ Hd _ _ H) as (oi & ex & Hx). apply (decl_ok _ _ _ _ _ Hok) in H. destruct H as (_ & Hk & _).
  assert (L : den_label (fi_syntax f) sc (fd_label fd) <> None -> (match sc with ScOneof => fd_label fd = None | _ => fi_syntax f = Proto2 -> fd_label fd <> None end) /\
      (forall sp, fd_label fd = Some (LRequired, sp) -> fi_syntax f = Proto2 /\ sc = ScMessage) /\
      den_label (fi_syntax f) sc (fd_label fd) = Some (match fd_label fd with Some (LRepeated, _) => LabRepeated | Some (LRequired, _) => LabRequired | _ => LabOptional end)).
  { unfold den_label, p2. destruct sc, (fd_label fd) as [[[] ?]|], (fi_syntax f); cbn; intros Hl; try congruence; repeat split; try discriminate; intros; try congruence; auto. }
  assert (P3 : (if p3_optional (fi_syntax f) fd then Some true else None) = Some true <-> fi_syntax f = Proto3 /\ exists sp, fd_label fd = Some (LOptional, sp)).
  { unfold p3_optional, p2. destruct (fi_syntax f), (fd_label fd) as [[[] ?]|]; split; try congruence; intros; try tauto; try (destruct H as [? [? ?]]; congruence); eauto. }
  assert (Hn : f_name (fdesc k (fi_syntax f) sc oi ex fd) = Some (declared_name fd)) by apply fdesc_name.
  split.
  - destruct (fd_kind fd) as [t tsp|tsp bd|tsp kt ks vt vs]; [destruct Hk as [Hl _]|destruct Hk as (_ & Hl & _)|destruct Hk as (Hs & Hl & _); auto]; destruct (L Hl) as (L1 & L2 & _); auto.
  - eexists. split; [exact Hx|]. split; [exact Hn|]. unfold fdesc, den_field in *.
    destruct (fd_kind fd) as [t tsp|tsp bd|tsp kt ks vt vs]; cbn [set_extendee set_oneof_index f_label f_proto3_optional]; (split; [|exact P3]).
    + destruct Hk as [Hl _]. destruct (L Hl) as (_ & _ & ->). destruct (fd_label fd) as [[[] ?]|]; reflexivity.
    + destruct Hk as (_ & Hl & _). destruct (L Hl) as (_ & _ & ->). destruct (fd_label fd) as [[[] ?]|]; reflexivity.
    + reflexivity.
Qed.
Print Assumptions C17_source_labels.
Example C17_example : map f_label (flat_map m_field (d_message (desc_of ex_proto2))) = [Some LabOptional; Some LabRepeated; Some LabRepeated; Some LabOptional; Some LabOptional] /\
  map f_proto3_optional (flat_map m_field (d_message (desc_of ex_proto3))) = [Some true; None; Some true; None].
Proof. vm_compute. auto. Qed.
Example C17_rejects : forallb (fun s => match err_result s with [] => false | _ => true end)
  [b "message M { int32 a = 1; }"; b "syntax = 'proto3'; message M { required int32 a = 1; }"; b "syntax = 'proto3'; message M { oneof o { group G = 1 {} } }";
   b "syntax = 'proto3'; message M { int32 a = 1 [default = 3]; }"; b "message M { extend M { required int32 a = 1; } }"; b "message M { oneof o { optional int32 a = 1; } }";
   b "message M { extend M { map<int32, M> a = 1; } }"; b "message M { oneof o { map<int32, M> a = 1; } }"; b "message M { repeated map<int32, M> a = 1; }"] = true.
Proof. vm_compute. reflexivity. Qed.

(** ** C18: oneofs *)

(** The fields of a message in the oneof with index [z]. *)
Definition in_oneof (z : Z) (x : field_desc) : bool := match f_oneof_index x with Some j => Z.eqb j z | None => false end.
Definition members (m : msg_desc) (z : Z) : list field_desc := filter (in_oneof z) (m_field m).
Definition is_optional (x : field_desc) : bool := match f_proto3_optional x with Some true => true | _ => false end.
Definition source_oneofs (bd : body) : list oneof := flat_map (fun it => match it with MIOneof o => [o] | _ => [] end) (bd_items bd).

Section Oneofs.
Variable k : cfg.
Variable syn : syntax.
Definition items_oneofs (items : list mitem) : list oneof := flat_map (fun it => match it with MIOneof o => [o] | _ => [] end) items.
Notation okb := (ok_body k syn).
Lemma real_length (items : list mitem) : len (flat_map item_real items) = len (items_oneofs items).
Proof. induction items as [|it items IH]; [reflexivity|]. unfold items_oneofs in *. cbn [flat_map]. rewrite !len_app, IH. destruct it; reflexivity. Qed.
Lemma oneof_not_optional sc oi (fd : field) : f_proto3_optional (den_field k syn sc oi fd) = (if p3_optional syn fd then Some true else None).
Proof. unfold den_field. destruct (fd_kind fd); reflexivity. Qed.
Lemma oneof_index_den sc oi (fd : field) : f_oneof_index (den_field k syn sc oi fd) = oi.
Proof. unfold den_field. destruct (fd_kind fd); reflexivity. Qed.
Lemma oneof_fields_plain (fd : field) : ok_field k syn okb ScOneof fd -> p3_optional syn fd = false.
Proof.
  intros (_ & H & _). unfold p3_optional. destruct (fd_label fd) as [[l sp]|] eqn:El; [|destruct (p2 syn); auto]. exfalso.
  destruct (fd_kind fd); [destruct H as [H _]|destruct H as (_ & H & _)|destruct H as (H & _); discriminate]; unfold den_label in H; cbn in H; congruence.
Qed.
Lemma filter_map_all {A B} (p : B -> bool) (g : A -> B) l : (forall x, p (g x) = true) -> filter p (map g l) = map g l.
Proof. intros H. induction l as [|x l IH]; cbn; auto. now rewrite H, IH. Qed.
Lemma filter_map_none {A B} (p : B -> bool) (g : A -> B) l : (forall x, In x l -> p (g x) = false) -> filter p (map g l) = [].
Proof. induction l as [|x l IH]; cbn; auto. intros H. rewrite H by now left. apply IH. intros; apply H; now right. Qed.

Lemma optional_den r s items : all (ok_item k syn okb) items ->
  len (filter is_optional (den_fields k syn r s items)) = len (flat_map (item_synthetic syn) items).
Proof.
  revert r s. induction items as [|it items IH]; intros r s; [reflexivity|]. cbn [all]. intros [H1 H2].
  destruct it as [fd|e|m|e|o]; cbn [den_fields flat_map item_synthetic app]; auto.
  - cbn [filter]. unfold is_optional at 1. rewrite oneof_not_optional, len_app. unfold den_field_oneofs. destruct (p3_optional syn fd); [rewrite !len_cons|]; rewrite ?len_nil, IH; auto. 
  - rewrite filter_app, filter_map_none; [cbn [app]; now apply IH|]. intros fd Hf. destruct H1 as (_ & _ & H1). unfold is_optional. cbn [set_oneof_index f_proto3_optional]. rewrite oneof_not_optional, oneof_fields_plain; auto. exact (all_In _ _ _ H1 Hf).
Qed.
Lemma members_none r s items z : (z < Z.of_N r \/ Z.of_N r + Z.of_N (len (items_oneofs items)) <= z)%Z ->
  (z < Z.of_N s \/ Z.of_N s + Z.of_N (len (flat_map (item_synthetic syn) items)) <= z)%Z -> filter (in_oneof z) (den_fields k syn r s items) = [].
Proof.
  revert r s. induction items as [|it items IH]; intros r s H1 H2; [reflexivity|]. unfold items_oneofs in *. cbn [flat_map] in H1, H2. rewrite len_app in H1. rewrite len_app in H2.
  destruct it as [fd|e|m|e|o]; cbn [den_fields item_synthetic app] in *; try (apply IH; rewrite ?len_nil in *; lia).
  - cbn [filter]. unfold in_oneof at 1. rewrite oneof_index_den, IH; [|rewrite ?len_nil in *; lia|lia]. unfold den_field_oneofs in *. destruct (p3_optional syn fd); auto. rewrite len_cons in *. destruct (Z.eqb_spec (Z.of_N s) z); auto. rewrite ?len_nil in *. lia.
  - rewrite len_cons, ?len_nil in *. rewrite filter_app, IH by lia. rewrite filter_map_none; auto. intros fd _. unfold in_oneof. cbn [set_oneof_index f_oneof_index]. destruct (Z.eqb_spec (Z.of_N r) z); auto. lia.
Qed.
Lemma members_real r s items i o : (Z.of_N r + Z.of_N (len (items_oneofs items)) <= Z.of_N s)%Z -> nth_error (items_oneofs items) i = Some o ->
  filter (in_oneof (Z.of_N r + Z.of_nat i)) (den_fields k syn r s items) = map (fun fd => set_oneof_index (Some (Z.of_N r + Z.of_nat i)%Z) (den_field k syn ScOneof None fd)) (oo_fields o).
Proof.
  revert r s i. induction items as [|it items IH]; intros r s i Hs Hi; [destruct i; discriminate|]. unfold items_oneofs in *. cbn [flat_map] in Hs, Hi. rewrite len_app in Hs.
  assert (Hlt : forall j (l : list oneof) x, nth_error l j = Some x -> (Z.of_nat j < Z.of_N (len l))%Z).
  { intros j l x Hx. assert (j < length l)%nat by (apply nth_error_Some; congruence). unfold len. lia. }
  destruct it as [fd|e|m|e|o']; cbn [den_fields app] in *; try (apply IH; [rewrite ?len_nil in *; lia|exact Hi]).
  - cbn [filter]. unfold in_oneof at 1. rewrite oneof_index_den, IH; [|rewrite ?len_nil in *; lia|exact Hi]. apply Hlt in Hi. destruct (p3_optional syn fd); auto. destruct (Z.eqb_spec (Z.of_N s) (Z.of_N r + Z.of_nat i)); auto. rewrite ?len_nil in *. lia.
  - rewrite len_cons, len_nil in Hs. rewrite filter_app. destruct i as [|i]; cbn [nth_error] in Hi.
    + injection Hi as ->. rewrite Z.add_0_r. rewrite filter_map_all; [|intros; unfold in_oneof; cbn; apply Z.eqb_refl]. rewrite members_none; [apply app_nil_r|left; lia|left; lia].
    + rewrite filter_map_none; [|intros fd _; unfold in_oneof; cbn [set_oneof_index f_oneof_index]; apply Z.eqb_neq; lia]. cbn [app].
      replace (Z.of_N r + Z.of_nat (S i))%Z with (Z.of_N (r + 1) + Z.of_nat i)%Z by lia. apply IH; [lia|auto].
Qed.
Lemma members_synthetic r s items i x : all (ok_item k syn okb) items -> (Z.of_N r + Z.of_N (len (items_oneofs items)) <= Z.of_N s)%Z ->
  nth_error (filter is_optional (den_fields k syn r s items)) i = Some x -> filter (in_oneof (Z.of_N s + Z.of_nat i)) (den_fields k syn r s items) = [x].
Proof.
  revert r s i. induction items as [|it items IH]; intros r s i Ha Hs Hi; [destruct i; discriminate|]. unfold items_oneofs in *. cbn [all] in Ha. destruct Ha as [Ho Ha]. cbn [flat_map] in Hs. rewrite len_app in Hs.
  destruct it as [fd|e|m|e|o']; cbn [den_fields app] in *; try (apply IH; auto; rewrite ?len_nil in *; lia).
  - cbn [filter] in *. unfold is_optional at 1 in Hi. rewrite oneof_not_optional in Hi. unfold in_oneof at 1. rewrite oneof_index_den. unfold den_field_oneofs in *. destruct (p3_optional syn fd) eqn:Ep.
    + destruct i as [|i]; cbn [nth_error] in Hi.
      * injection Hi as <-. rewrite Z.add_0_r, Z.eqb_refl. f_equal. rewrite len_cons, len_nil in *. apply members_none; [right; unfold items_oneofs; lia|left; lia].
      * destruct (Z.eqb_spec (Z.of_N s) (Z.of_N s + Z.of_nat (S i))); [lia|]. rewrite len_cons, !len_nil in *. replace (Z.of_N s + Z.of_nat (S i))%Z with (Z.of_N (s + (1 + 0)) + Z.of_nat i)%Z by lia. apply IH; auto. lia.
    + rewrite !len_nil, N.add_0_r in *. apply IH; auto.
  - rewrite len_cons, len_nil in Hs. rewrite filter_app in *. rewrite filter_map_none in Hi.
    + rewrite filter_map_none; [apply IH; auto; lia|]. intros fd _. unfold in_oneof. cbn [set_oneof_index f_oneof_index]. apply Z.eqb_neq. lia.
    + intros fd Hf. destruct Ho as (_ & _ & Ho). unfold is_optional. cbn [set_oneof_index f_proto3_optional]. rewrite oneof_not_optional, oneof_fields_plain; auto. exact (all_In _ _ _ Ho Hf).
Qed.
Lemma index_range r s items x z : In x (den_fields k syn r s items) -> f_oneof_index x = Some z ->
  (Z.of_N r <= z < Z.of_N r + Z.of_N (len (items_oneofs items)) \/ Z.of_N s <= z < Z.of_N s + Z.of_N (len (flat_map (item_synthetic syn) items)))%Z.
Proof.
  intros Hx Hz. assert (Hf : In x (filter (in_oneof z) (den_fields k syn r s items))) by (apply filter_In; split; auto; unfold in_oneof; rewrite Hz; apply Z.eqb_refl).
  destruct (Z.lt_ge_cases z (Z.of_N r)), (Z.lt_ge_cases z (Z.of_N r + Z.of_N (len (items_oneofs items)))), (Z.lt_ge_cases z (Z.of_N s)), (Z.lt_ge_cases z (Z.of_N s + Z.of_N (len (flat_map (item_synthetic syn) items)))); try lia;
    (exfalso; rewrite members_none in Hf; [destruct Hf|lia|lia]).
Qed.
Lemma synthetic_names r s items : all (ok_item k syn okb) items ->
  map o_name (flat_map (item_synthetic syn) items) = map (fun x => option_map synthetic_name (f_name x)) (filter is_optional (den_fields k syn r s items)).
Proof.
  revert r s. induction items as [|it items IH]; intros r s; [reflexivity|]. cbn [all]. intros [H1 H2].
  destruct it as [fd|e|m|e|o]; cbn [den_fields flat_map item_synthetic app]; auto.
  - cbn [filter]. unfold is_optional at 1. rewrite oneof_not_optional. unfold den_field_oneofs. destruct (p3_optional syn fd) eqn:Ep; cbn [app map]; [|now apply IH]. f_equal; [|now apply IH].
    cbn [o_name]. destruct H1 as (_ & H1 & _). unfold den_field. destruct (fd_kind fd); try reflexivity. destruct H1 as [H1 _]. unfold p3_optional in Ep. rewrite H1 in Ep. discriminate.
  - rewrite filter_app, map_app, filter_map_none; [cbn; now apply IH|]. intros fd Hf. destruct H1 as (_ & _ & H1). unfold is_optional. cbn [set_oneof_index f_proto3_optional]. rewrite oneof_not_optional, oneof_fields_plain; auto. exact (all_In _ _ _ H1 Hf).
Qed.
End Oneofs.

Theorem C18_oneofs k sort name src d a : parse k sort name src = Done (inl d, a) ->
  exists f, accepted k src f /\
  (forall m, message_of d m -> exists real : list oneof,
     (* [real] are the oneofs declared in the source body of the message; a map entry has none *)
     ((exists bd, body_of f bd /\ m = with_name (m_name m) (den_body k (fi_syntax f) bd) /\ real = source_oneofs bd) \/ (exists o, m_options m = Some o /\ mo_map_entry o = Some true) /\ real = []) /\
     let optional := filter is_optional (m_field m) in
     map o_name (m_oneof m) = map (fun o => Some (id_val (oo_name o))) real ++ map (fun x => option_map synthetic_name (f_name x)) optional /\
     (forall i o, nth_error real i = Some o ->
        oo_fields o <> [] /\ map f_name (members m (Z.of_nat i)) = map (fun fd => Some (declared_name fd)) (oo_fields o) /\ Forall (fun x => is_optional x = false) (members m (Z.of_nat i))) /\
     (forall i x, nth_error optional i = Some x -> members m (Z.of_nat (length real + i)) = [x]) /\
     (forall x z, In x (m_field m) -> f_oneof_index x = Some z -> (0 <= z < Z.of_nat (length (m_oneof m)))%Z)) /\
  (forall x, field_of d x -> f_extendee x <> None -> f_oneof_index x = None).
Proof.
  intros E. destruct (parse_desc _ _ _ _ _ _ E) as (f & Ha & Hok & Hd). exists f. split; auto. split.
  - intros m Hm. destruct (message_inv _ _ _ _ _ Hd Hok _ Hm) as [(nm & bd & Hb & ->)|(bd & fd & s0 & kt & ks & vt & vs & Hb & Hf & Hk & ->)].
    + exists (source_oneofs bd). split. { left. exists bd. split; auto. split; [|auto]. unfold msg. destruct bd. reflexivity. }
      apply (ok_of _ _ _ _ Hok) in Hb. apply ok_body_inv in Hb. destruct Hb as (Hb & _). unfold members. rewrite fields_msg.
      assert (Eo : m_oneof (msg k (fi_syntax f) nm bd) = flat_map item_real (bd_items bd) ++ flat_map (item_synthetic (fi_syntax f)) (bd_items bd)) by (unfold msg; destruct bd; reflexivity).
      rewrite Eo. change (source_oneofs bd) with (items_oneofs (bd_items bd)). set (items := bd_items bd) in *. rewrite (real_length items). set (r := len (items_oneofs items)). cbv zeta. split; [|split; [|split]].
      * rewrite map_app, (synthetic_names k _ 0 r _ Hb). f_equal. clear. induction items as [|it items IH]; [reflexivity|]. unfold items_oneofs in *. cbn [flat_map]. rewrite !map_app, IH. destruct it; reflexivity.
      * intros i o Hi. assert (Hin : In (MIOneof o) items). { apply nth_error_In in Hi. apply in_flat_map in Hi. destruct Hi as (it & Hi & Ho). destruct it; try destruct Ho; [subst; auto|destruct H]. }
        pose proof (all_In _ _ _ Hb Hin) as (H1 & _ & H3). split; auto. change (Z.of_nat i) with (Z.of_N 0 + Z.of_nat i)%Z. rewrite (members_real k (fi_syntax f) 0 r items i o) by (auto; unfold r; lia). split.
        -- rewrite map_map. apply map_ext. intros fd. cbn [set_oneof_index f_name]. unfold den_field, declared_name. destruct (fd_kind fd); reflexivity.
        -- apply Forall_map. apply Forall_forall. intros fd Hf. unfold is_optional. cbn [set_oneof_index f_proto3_optional]. rewrite oneof_not_optional, (oneof_fields_plain k); auto. exact (all_In _ _ _ H3 Hf).
      * intros i x Hi. replace (Z.of_nat (length (items_oneofs items) + i)) with (Z.of_N r + Z.of_nat i)%Z by (unfold r, len; lia). apply members_synthetic; auto. unfold r. lia.
      * intros x z Hx Hz. apply (index_range _ _ _ _ _ _ _ Hx) in Hz. rewrite app_length. pose proof (real_length items) as R. fold r in R. fold r in Hz. unfold len in Hz, R at 1. lia.
    + exists []. split. { right. split; auto. eexists. split; [reflexivity|reflexivity]. }
      unfold entry, entry_desc. cbn. split; [reflexivity|]. split; [intros [|]; discriminate|]. split; [intros [|]; discriminate|]. intros x z [<-|[<-|[]]]; discriminate.
  - intros x Hx He. destruct (field_inv _ _ _ _ _ Hd Hok _ Hx) as [(sc & fd & oi & ex & H1 & H2 & ->)|(fd & s & kt & ks & vt & vs & H1 & H2 & H3)].
    + unfold fdesc in *. cbn [set_extendee f_extendee set_oneof_index f_oneof_index] in *. unfold scope_ok in H2. destruct sc; destruct H2; congruence.
    + unfold entry, entry_desc in H3. cbn [m_field] in H3. destruct H3 as [<-|[<-|[]]]; reflexivity.
Qed.
Print Assumptions C18_oneofs.
Definition oneof_summary (src : bytes) : list (list (option bytes) * list (option bytes * option Z)) :=
  map (fun m => (map o_name (m_oneof m), map (fun x => (f_name x, f_oneof_index x)) (m_field m))) (d_message (desc_of src)).
Example C18_example : oneof_summary ex_proto3 = [([Some (b "o"); Some (b "_a"); Some (b "X_b")], [(Some (b "a"), Some 1%Z); (Some (b "m"), Some 0%Z); (Some (b "_b"), Some 2%Z); (Some (b "c"), None)])].
Proof. vm_compute. reflexivity. Qed.
Example C18_rejects : match err_result (b "message M { oneof o { } }") with [] => false | _ => true end = true.
Proof. vm_compute. reflexivity. Qed.
