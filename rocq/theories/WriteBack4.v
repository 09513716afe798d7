(** Lemmas for C64: message bodies, files. *)
From Coq Require Import ZifyBool ZifyN.
From Verif Require Import PropsDesc2 Base Utf8 Utf8Spec Errors Lex Ast Descriptor LexSpec Decimal Grammar Meaning CharEdge GenProofs WriteSpec WriteProofs WriteFields WriteMessage WriteFile WriteBack WriteBack2 WriteBack3.

Section Back.
Context {C : comspec}.
Section Body.
Variables (k : cfg) (p3 : bool).
Let syn := syn_of p3.
Definition body_good (bd : body) : Prop := ok_body k syn bd -> plain_message (den_body k syn bd) -> forall name, identifier name -> message_ok p3 (with_name (Some name) (den_body k syn bd)).
Definition message_good (m : message) : Prop :=
  ok_body k syn (ms_body m) -> plain_message (den_message_ (den_body k syn) m) -> is_entry (den_message_ (den_body k syn) m) = false /\ message_ok p3 (den_message_ (den_body k syn) m).
Definition elem_good (x : body_elem) : Prop :=
  match x with
  | BEEmpty => True
  | BEItem it => gi message_good it
  | BEOption o => option_good (op_body o)
  | BEReserved r => Forall reserved_name_ok (map id_val (res_names r))
  | BEExtensions e => optlist_good (ex_options e)
  end.
Lemma plain_with_name n m : plain_message (with_name n m) -> plain_message m.
Proof. destruct m. cbn [with_name]. intros H. inversion H; subst. constructor; assumption. Qed.
Lemma body_not_entry n bd : is_entry (with_name n (den_body k syn bd)) = false.
Proof. destruct bd as [items exts opts res]. cbn [den_body with_name]. unfold is_entry. cbn [m_options]. unfold den_options. destruct opts; reflexivity. Qed.
Section Elem.
Variable G : list tk -> body * span -> Prop.
Hypothesis HG : forall ts bd e, G ts (bd, e) -> toks ts -> body_good bd.
Lemma message_back ts m : g_message G ts m -> toks ts -> message_good m.
Proof.
  intros [st v sp0 sp us bd e c Gb _] H. split_toks. intros Ok Hp. split; [apply body_not_entry|]. unfold den_message_ in *. cbn [ms_name ms_body id_val] in *. eapply HG; eauto. eapply plain_with_name. exact Hp.
Qed.
Lemma extend_grammar ts x : g_extend k G ts x -> toks ts -> (qualified (tname_text (et_extendee x)) \/ absolute (tname_text (et_extendee x))) /\ Forall (fd_good InExtend) (et_fields x).
Proof.
  intros [st us n sp es l e c Gt Gm _] H. split_toks. cbn [et_extendee et_fields]. split; [eapply any_back; eauto|]. unfold somes.
  eapply (fm_Forall (fun o => match o with Some f => fd_good InExtend f | None => True end)).
  - eapply many_all; [exact Gm|assumption|]. intros ws z [sp'|ws' f Gf] Hw; [exact I|]. eapply field_back; eauto. intros ? [].
  - intros [f|] z Hf Hi; [|destruct Hi]. destruct Hi as [<-|[]]. exact Hf.
Qed.
Lemma oneof_grammar ts x : g_oneof k G ts x -> toks ts ->
  identifier (id_val (oo_name x)) /\ Forall (fun o => option_good (op_body o)) (oo_options x) /\ Forall (fd_good InOneof) (oo_fields x).
Proof.
  intros [st v sp0 sp es l e c Gm _] H. split_toks. cbn [oo_name oo_options oo_fields id_val]. split; [assumption|].
  assert (Hl : Forall (fun x => match x with OEField f => fd_good InOneof f | OEOption o => option_good (op_body o) | OEEmpty => True end) l).
  { eapply many_all; [exact Gm|assumption|]. intros ws z [sp'|ws' o Go|ws' f Kf Gf] Hw; [exact I|eapply option_good_back; eauto|]. eapply field_back; eauto. }
  split; (eapply fm_Forall; [exact Hl|]); intros [|o|f] z Hx Hi; try (destruct Hi; fail); destruct Hi as [<-|[]]; exact Hx.
Qed.
Lemma elem_back ts x : g_body_elem k G ts x -> toks ts -> elem_good x.
Proof.
  intros [sp|us o Go|us e Ge|us m Gm|us x' Gx|us o Go|us r Gr|us e Ge|us f Kf Gf] H; cbn [elem_good gi].
  - exact I.
  - eapply oneof_grammar; eauto.
  - eapply enum_back; eauto.
  - eapply message_back; eauto.
  - eapply extend_grammar; eauto.
  - eapply option_good_back; eauto.
  - eapply reserved_back; eauto.
  - destruct Ge as [st ws l os o e' c Gs Go _ _]. split_toks. cbn [ex_options]. eapply optlist_back; eauto.
  - eapply field_back; eauto.
Qed.
End Elem.
Lemma fm_elem {X} (Q : X -> Prop) (f : body_elem -> list X) l : Forall elem_good l -> (forall e x, elem_good e -> In x (f e) -> Q x) -> Forall Q (flat_map f l).
Proof. intros. eapply fm_Forall; eauto. Qed.
Lemma range_back ms r : ok_range r -> range_ok ms (den_number (rr_start r)) (den_range_end ms r).
Proof.
  intros [O1 O2]. split; [now apply number_back|]. unfold den_range_end. destruct (rr_end r) as [|v|sp].
  - destruct (number_back _ O1) as (z & -> & Hz). left. eexists. split; [reflexivity|lia].
  - destruct (number_back _ O2) as (z & -> & Hz). left. eexists. split; [reflexivity|lia].
  - destruct ms; [right; split; reflexivity|left]. eexists. split; [reflexivity|lia].
Qed.
Lemma body_back n : forall ts bd e, g_body_n k n ts (bd, e) -> toks ts -> body_good bd.
Proof.
  induction n as [|n IH]; intros ts bd e; [intros []|]. intros (es & l & Gm & -> & Eb) H. cbn [fst snd] in Eb. subst bd. split_toks.
  assert (Hl : Forall elem_good l) by (eapply many_all; [exact Gm|assumption|]; intros ws x Gx Hw; eapply (elem_back _ IH); eauto).
  assert (Hi : Forall (gi message_good) (flat_map be_item l)). { eapply fm_elem; [exact Hl|]. intros [|i|o|r|x] y Hy Hin; try (destruct Hin; fail). destruct Hin as [<-|[]]. exact Hy. }
  assert (Ho : Forall (fun o => option_good (op_body o)) (flat_map be_option l)). { eapply fm_elem; [exact Hl|]. intros [|i|o|r|x] y Hy Hin; try (destruct Hin; fail). destruct Hin as [<-|[]]. exact Hy. }
  assert (Hr : Forall (fun r => Forall reserved_name_ok (map id_val (res_names r))) (flat_map be_reserved l)). { eapply fm_elem; [exact Hl|]. intros [|i|o|r|x] y Hy Hin; try (destruct Hin; fail). destruct Hin as [<-|[]]. exact Hy. }
  assert (Hx : Forall (fun e => optlist_good (ex_options e)) (flat_map be_extensions l)). { eapply fm_elem; [exact Hl|]. intros [|i|o|r|x] y Hy Hin; try (destruct Hin; fail). destruct Hin as [<-|[]]. exact Hy. }
  clear Gm Hl. revert Hi Ho Hr Hx. generalize (flat_map be_item l) (flat_map be_option l) (flat_map be_reserved l) (flat_map be_extensions l). intros its os rs xs Hi Ho Hr Hx.
  intros (O1 & O2 & O3 & O4) Hp name Hn. cbn [den_body] in Hp. inversion Hp as [? ? ? ? ? ? ? ? ? ? Pf Px Pm Pe Pr Po Pu]; subst. clear Hp. apply Forall_app in Po. destruct Po as [Po _].
  pose proof (items_back k p3 (den_body k syn) (ok_body k syn) its _ _ Hi O1 Pf Px Pm Pe Po) as Hg.
  assert (Hopts : options_ok (den_options os)). { apply options_back; auto. unfold plain_options. unfold den_options in *. rewrite items_nonempty. destruct (map _ os); [constructor|exact Pu]. }
  assert (Hms : message_set_format (option_map (fun u => {| mo_map_entry := None; mo_uninterpreted := u |}) (den_options os)) = message_set os).
  { symmetry. unfold message_set_format. apply set_format; [|exact O4]. unfold den_options. destruct (map _ os); reflexivity. }
  cbn [den_body with_name]. destruct (fields_place k p3 (den_body k syn) its 0 (len (flat_map item_real its)) Hg) as [F1 F2].
  apply (message_ok_ p3 _ _ _ _ _ _ _ _ _ _ (flat_map item_real its)).
  - exists name. split; [reflexivity|exact Hn].
  - destruct (den_options os) as [u|]; [right|now left]. exists u. split; [reflexivity|exact Hopts].
  - exact F1.
  - exact F2.
  - now apply (maps_entries k p3 (den_body k syn)).
  - exact (keys_runs k p3 (den_body k syn) its 0 _ Hg).
  - exact (oneofs_good k p3 (den_body k syn) its Hg).
  - f_equal. exact (synthetic_back k p3 (den_body k syn) its 0 _ Hg).
  - assert (El : length (flat_map (@item_real body) its) = N.to_nat (len (flat_map (@item_real body) its))) by (unfold len; lia). rewrite El at 1. exact (indices_back k p3 (den_body k syn) its 0 _ Hg).
  - exact (extensions_good k p3 (den_body k syn) its Hg).
  - exact (nested_good k p3 (den_body k syn) its Hg).
  - exact (enums_good k p3 (den_body k syn) its Hg).
  - rewrite Hms. clear - O3 Hx Pr. unfold den_extensions in *. induction xs as [|x xs IHx]; [constructor|]. cbn [flat_map] in Pr |- *. apply Forall_app in Pr. destruct Pr as [Pr1 Pr2]. destruct O3 as [[Oa Ob] O3]. apply Forall_app. split; [|apply IHx; [exact (Forall_inv_tail Hx)|exact O3|exact Pr2]].
    apply Forall_inv in Hx. clear IHx O3 Pr2. apply all_Forall in Oa. destruct Ob as [Ob|Ob]; [rewrite Ob; constructor|]. apply Forall_map. rewrite Forall_forall in Oa |- *. intros r Hin. cbn [den_ext_range x_start x_end x_options]. split; [apply range_back; auto|].
    apply settings_back; auto. rewrite Forall_map, Forall_forall in Pr1. exact (Pr1 r Hin).
  - rewrite Hms. clear - O2. apply all_Forall in O2. apply Forall_map. eapply Forall_impl; [|exact O2]. intros r Hr. apply range_back. exact Hr.
  - apply names_back. exact Hr.
Qed.
End Body.

(** ** Imports *)
Lemma import_back ts x : g_import ts x -> toks ts -> import_ok (im_value x).
Proof.
  intros [st ks ik us v vsp e c Gk Gu Hr _] H. split_toks. cbn [im_value]. inversion Gu as [us' r Gs Hu]; subst. split; [eapply string_back; eauto|]. split; [exact Hu|].
  destruct Hr as (ns & Hn & Hc & Ev). exists ns. split; [exact Hn|]. split; [exact Hc|]. now rewrite <- join_separated.
Qed.
Lemma kind_from ik l : forall i z, In z (kind_indices ik i l) -> (Z.of_N i <= z)%Z.
Proof.
  induction l as [|x l IH]; intros i z H; [destruct H|]. cbn [kind_indices] in H. apply in_app_or in H. destruct H as [H|H]; [destruct (is_kind ik x); [|destruct H]; destruct H as [<-|[]]; lia|]. apply IH in H. lia.
Qed.
Lemma kind_sel ik l : forall i (q : Z -> bool), (forall z, (Z.of_N i <= z)%Z -> q z = existsb (Z.eqb z) (kind_indices ik i l)) ->
  kind_indices ik i l = filter q (map Z.of_nat (seq (N.to_nat i) (length l))).
Proof.
  induction l as [|x l IH]; intros i q Hq; [reflexivity|]. cbn [kind_indices length seq map filter]. replace (Z.of_nat (N.to_nat i)) with (Z.of_N i) by lia.
  assert (E : q (Z.of_N i) = is_kind ik x).
  { rewrite Hq by lia. cbn [kind_indices]. rewrite existsb_app. destruct (is_kind ik x); cbn [existsb]; [rewrite Z.eqb_refl; reflexivity|]. cbn [orb]. apply Bool.not_true_iff_false. intros Hx. apply existsb_exists in Hx. destruct Hx as (z & Hz & Ez). apply Z.eqb_eq in Ez. subst z. apply kind_from in Hz. lia. }
  rewrite E. replace (S (N.to_nat i)) with (N.to_nat (i + 1)) by lia. rewrite <- (IH (i + 1) q).
  - destruct (is_kind ik x); reflexivity.
  - intros z Hz. rewrite Hq by lia. cbn [kind_indices]. rewrite existsb_app. destruct (is_kind ik x); cbn [existsb orb]; [|reflexivity]. destruct (Z.eqb_spec z (Z.of_N i)); [lia|reflexivity].
Qed.
Lemma kind_ok ik l : indices_ok (length (map im_value l)) (kind_indices ik 0 l).
Proof. unfold indices_ok. rewrite map_length. apply (kind_sel ik l 0). reflexivity. Qed.
Lemma kind_disjoint l : forall i z, In z (kind_indices IPublic i l) -> ~ In z (kind_indices IWeak i l).
Proof.
  induction l as [|x l IH]; intros i z H1 H2; [destruct H1|]. cbn [kind_indices] in H1, H2. apply in_app_or in H1, H2.
  assert (Hx : is_kind IPublic x = true -> is_kind IWeak x = true -> False) by (unfold is_kind; destruct (im_kind x) as [[[|] ?]|]; discriminate).
  destruct H1 as [H1|H1], H2 as [H2|H2].
  - destruct (is_kind IPublic x); [|destruct H1]. destruct (is_kind IWeak x); [|destruct H2]. auto.
  - destruct (is_kind IPublic x); [|destruct H1]. destruct H1 as [<-|[]]. apply kind_from in H2. lia.
  - destruct (is_kind IWeak x); [|destruct H2]. destruct H2 as [<-|[]]. apply kind_from in H1. lia.
  - exact (IH _ _ H1 H2).
Qed.
(** ** Files *)
Section File.
Variables (k : cfg) (p3 : bool).
Let syn := syn_of p3.
Definition fitem_good (it : fitem) : Prop :=
  match it with
  | FIMessage m => message_good k p3 m
  | FIEnum e => enum_good e
  | FIService s => service_good s
  | FIExtend e => (qualified (tname_text (et_extendee e)) \/ absolute (tname_text (et_extendee e))) /\ Forall (fd_good InExtend) (et_fields e)
  end.
Definition statement_good (s : statement) : Prop :=
  match s with
  | StEmpty _ => True
  | StPackage p => qualified (full_text (pk_name p))
  | StImport i => import_ok (im_value i)
  | StOption o => option_good (op_body o)
  | StMessage m => fitem_good (FIMessage m)
  | StEnum e => fitem_good (FIEnum e)
  | StService e => fitem_good (FIService e)
  | StExtend e => fitem_good (FIExtend e)
  end.
Lemma statement_back ts s : g_statement k ts s -> toks ts -> statement_good s.
Proof.
  assert (HG : forall ts bd e, g_body k ts (bd, e) -> toks ts -> body_good k p3 bd) by (intros us bd e [n G]; exact (body_back k p3 n us bd e G)).
  intros [sp|us x Gx|us x Gx|us x Gx|us x Gx|us x Gx|us x Gx|us x Gx] H; cbn [statement_good fitem_good].
  - exact I.
  - destruct Gx as [st ws n e c Gf _]. split_toks. cbn [pk_name]. eapply qualified_back; eauto.
  - eapply import_back; eauto.
  - eapply option_good_back; eauto.
  - eapply message_back; eauto.
  - eapply enum_back; eauto.
  - eapply service_back; eauto.
  - eapply extend_grammar; eauto.
Qed.
Lemma fitems_back its : Forall fitem_good its -> all (ok_fitem k syn) its -> Forall plain_message (flat_map (fitem_messages k syn) its) -> Forall plain_enum (flat_map fitem_enums its) -> Forall plain_service (flat_map fitem_services its) ->
  Forall plain_field (flat_map (fitem_extensions k syn) its) ->
  Forall (fun m => is_entry m = false /\ message_ok p3 m) (flat_map (fitem_messages k syn) its) /\ Forall enum_ok (flat_map fitem_enums its) /\ Forall service_ok (flat_map fitem_services its) /\ Forall (extension_ok p3) (flat_map (fitem_extensions k syn) its).
Proof.
  induction its as [|it its IH]; intros Hg Ok Pm Pe Ps Px; [repeat split; constructor|]. pose proof (Forall_inv Hg) as G. apply Forall_inv_tail in Hg. destruct Ok as [O1 O2].
  cbn [flat_map] in *. apply Forall_app in Pm, Pe, Ps, Px. destruct Pm as [Pm1 Pm2], Pe as [Pe1 Pe2], Ps as [Ps1 Ps2], Px as [Px1 Px2]. destruct (IH Hg O2 Pm2 Pe2 Ps2 Px2) as (I1 & I2 & I3 & I4).
  rewrite !Forall_app. destruct it as [m|e|x|s]; cbn [fitem_good ok_fitem fitem_messages fitem_enums fitem_services fitem_extensions] in *; repeat split; auto; try (constructor; fail).
  all: first [constructor; [|constructor]; apply G; [exact O1|]; first [exact (Forall_inv Pm1)|exact (Forall_inv Pe1)|exact (Forall_inv Ps1)]|destruct G as [G1 G2]; pose proof (extend_back k p3 (ok_body k syn) x G1 G2 O1 Px1) as Hx].
  - assert (E : flat_map (den_field_messages (den_body k syn)) (et_fields x) = []). { clear - Hx. unfold good_extension in Hx. induction Hx as [|f fs [Hn _] _ IHf]; [reflexivity|]. cbn [flat_map]. rewrite normal_messages by exact Hn. exact IHf. }
    fold syn. rewrite E. constructor.
  - unfold den_extend. apply Forall_map. eapply Forall_impl; [|exact Hx]. intros f Hf. apply Hf.
Qed.
Lemma file_back n ts f name : g_file k n ts f -> toks ts -> fi_syntax f = syn -> ok_file k syn f -> plain_file (den_file k syn name f) -> writable (den_file k syn name f).
Proof.
  intros [ss sx sxs us l pkg Gx Gm Ep] H Es [Oi Oo] (Po & Pm & Pe & Ps & Px). cbn [fi_syntax fi_items fi_options] in *. split_toks.
  assert (Hl : Forall statement_good l) by (eapply many_all; [exact Gm|assumption|]; intros ws x Gs Hw; eapply statement_back; eauto).
  assert (Hi : Forall fitem_good (flat_map st_items l)). { eapply fm_Forall; [exact Hl|]. intros [] y Hy Hin; try (destruct Hin; fail); destruct Hin as [<-|[]]; exact Hy. }
  assert (Ho : Forall (fun o => option_good (op_body o)) (flat_map st_options l)). { eapply fm_Forall; [exact Hl|]. intros [] y Hy Hin; try (destruct Hin; fail); destruct Hin as [<-|[]]; exact Hy. }
  assert (Him : Forall (fun i => import_ok (im_value i)) (flat_map st_imports l)). { eapply fm_Forall; [exact Hl|]. intros [] y Hy Hin; try (destruct Hin; fail); destruct Hin as [<-|[]]; exact Hy. }
  assert (Hp : Forall (fun p => qualified (full_text (pk_name p))) (flat_map st_packages l)). { eapply fm_Forall; [exact Hl|]. intros [] y Hy Hin; try (destruct Hin; fail); destruct Hin as [<-|[]]; exact Hy. }
  rewrite Ep in Hp. cbn [den_file d_message d_enum d_service d_extension d_options fi_items fi_options] in *.
  destruct (fitems_back _ Hi Oi Pm Pe Ps Px) as (I1 & I2 & I3 & I4).
  unfold writable. unfold den_file. cbn [d_syntax d_package d_dependency d_public d_weak d_message d_enum d_service d_extension d_options is_proto3 fi_syntax fi_package fi_imports fi_items fi_options].
  assert (Es' : (match (match sx with Proto2 => None | Proto3 => Some (b "proto3") end) with Some _ => true | None => false end) = p3) by (rewrite Es; unfold syn, syn_of; destruct p3; reflexivity).
  unfold is_proto3. cbn [d_syntax fi_syntax]. rewrite Es'.
  split; [destruct sx; auto|]. split; [destruct pkg as [p|]; [exact (Forall_inv Hp)|exact I]|]. split; [apply Forall_map; exact Him|]. split; [apply kind_ok|]. split; [apply kind_ok|]. split; [apply kind_disjoint|].
  split; [apply options_back; auto|]. auto.
Qed.
End File.
End Back.
