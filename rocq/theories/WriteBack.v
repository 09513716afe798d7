(** Lemmas for C64: what the parser accepts, apart from the constructs the writer does not write, is in the class of WriteSpec.v. Names, numbers and options. *)
From Coq Require Import ZifyBool ZifyN.
From Verif Require Import PropsDesc2 Base Utf8 Utf8Spec Errors Lex Ast Descriptor LexSpec Decimal Grammar Meaning CharEdge GenProofs WriteSpec WriteProofs WriteFields WriteMessage.

Definition tok_ok (m : bool) (t : token) : Prop := match t with TIdent s => identifier s | TInt n => n < 2 ^ 64 | TStr v => octets v | TFloat x => m = false -> float_text x | _ => True end.
Definition toks (ts : list tk) : Prop := Forall (fun x => tok_ok (tk_mark x) (tk_tok x)) ts.
Lemma toks_app a b : toks (a ++ b) -> toks a /\ toks b. Proof. apply Forall_app. Qed.
Lemma toks_sym t sp : toks (sym t sp) -> tok_ok false t. Proof. intros H. exact (Forall_inv H). Qed.
Ltac split_toks := repeat match goal with
  | H : toks (_ ++ _) |- _ => apply toks_app in H; destruct H
  | H : toks (sym _ _) |- _ => apply toks_sym in H; cbn [tok_ok] in H
  end.

Section Back.
Context {C : comspec}.
(** ** Lists *)
Lemma many_all {A} (item : list tk -> A -> Prop) (Q : A -> Prop) ts l : g_many item ts l -> toks ts -> (forall ts a, item ts a -> toks ts -> Q a) -> Forall Q l.
Proof. induction 1 as [|ts a ts' l H G IH]; intros Ht HQ; [constructor|]. split_toks. constructor; eauto. Qed.
Lemma sep_all {A} s (item : list tk -> A -> Prop) (Q : A -> Prop) ts l : g_sep s item ts l -> toks ts -> (forall ts a, item ts a -> toks ts -> Q a) -> Forall Q l /\ l <> [].
Proof. induction 1 as [ts a H|ts a sp ts' l H G IH]; intros Ht HQ; split_toks; (split; [|discriminate]); constructor; eauto. apply IH; auto. Qed.
Lemma fm_Forall {A B} (Q : A -> Prop) (R : B -> Prop) (f : A -> list B) l : Forall Q l -> (forall a x, Q a -> In x (f a) -> R x) -> Forall R (flat_map f l).
Proof. intros H HR. apply Forall_forall. intros x Hx. apply in_flat_map in Hx. destruct Hx as (a & Ha & Hi). rewrite Forall_forall in H. eauto. Qed.
Lemma all_Forall {A} (Q : A -> Prop) l : all Q l -> Forall Q l.
Proof. induction l; cbn; [constructor|]. intros [? ?]. constructor; auto. Qed.
Lemma Forall_3 {A B} (R S : A -> Prop) (T : B -> Prop) (U : B -> Prop) (f : A -> B) l :
  (forall a, R a -> S a -> U (f a) -> T (f a)) -> Forall R l -> Forall S l -> Forall U (map f l) -> Forall T (map f l).
Proof. intros H. induction l as [|a l IH]; cbn; intros H1 H2 H3; [constructor|]. inversion H1; inversion H2; inversion H3; subst. constructor; auto. Qed.

(** ** Names *)
Lemma full_back ts n : g_full_ident ts n -> toks ts -> n <> [] /\ Forall identifier (map id_val n).
Proof.
  intros G H. destruct (sep_all _ _ (fun i => identifier (id_val i)) _ _ G H) as [F Hn]; [intros us i [v sp] Hi; split_toks; exact Hi|]. split; [exact Hn|]. now apply Forall_map.
Qed.
Lemma qualified_back ts n : g_full_ident ts n -> toks ts -> qualified (full_text n).
Proof. intros G H. destruct (full_back _ _ G H) as [Hn Hf]. exists (map id_val n). split; [destruct n; [congruence|discriminate]|]. split; [exact Hf|]. apply dotted_separated. Qed.
Lemma any_back ts n : g_type_name ts n -> toks ts -> qualified (tname_text n) \/ absolute (tname_text n).
Proof.
  intros G H. destruct G as [ts n G|sp ts n G]; unfold tname_text; cbn [tn_dot tn_name app]; [left; eapply qualified_back; eauto|]. split_toks. right. eexists. split; [reflexivity|]. eapply qualified_back; eauto.
Qed.
Lemma type_back ks ts n : g_type_name ts n -> toks ts -> not_kw ks ts -> type_ref ks (tname_text n).
Proof.
  intros G H K. destruct G as [ts n G|sp ts n G]; unfold tname_text; cbn [tn_dot tn_name app].
  - right. destruct (full_back _ _ G H) as [Hn Hf]. destruct n as [|i n]; [congruence|]. exists (id_val i), (map id_val n). split; [|split; [exact Hf|apply dotted_separated]].
    intros Hi. apply (K _ Hi). inversion G as [us a Ga E1 E2|us a sp us' l Ga Gl E1 E2]; subst; destruct Ga; reflexivity.
  - split_toks. left. eexists. split; [reflexivity|]. eapply qualified_back; eauto.
Qed.
Lemma not_kw_sub ks ks' ts : not_kw ks ts -> (forall s, In s ks' -> In s ks) -> not_kw ks' ts. Proof. intros H Hs s Hi. apply H. auto. Qed.

(** ** Numbers and strings *)
Lemma int_back ts i : g_int ts i -> toks ts -> i_val i < 2 ^ 64. Proof. intros [] H; split_toks; assumption. Qed.
Lemma string_back ts s : g_string ts s -> toks ts -> octets (st_val s).
Proof. induction 1 as [v sp|v sp ts r G IH]; intros H; split_toks; cbn [st_val]; [assumption|]. apply Forall_app. split; [assumption|apply IH; assumption]. Qed.
Lemma within_some lo hi i z : if_within lo hi i = Some z -> z = int_value i /\ (lo <= z <= hi)%Z.
Proof. unfold if_within, within. destruct (_ && _) eqn:E; [|discriminate]. intros [= <-]. lia. Qed.
Lemma number_back i : ok_number i -> number_in 1 536870911 (den_number i).
Proof. intros H. exists (int_value i). split; [unfold den_number; now apply if_within_in|exact H]. Qed.

(** ** Options *)
Lemma option_back k ts o : g_option_body k ts o -> toks ts -> ok_option o -> plain_option (den_option o) -> option_ok (den_option o).
Proof.
  intros [us n sp us' v Gn Gv] H Ho Hp. split_toks. destruct (sep_all _ _ (fun x => part_ok (den_part x)) _ _ Gn H) as [F Hn].
  { intros ws x G Hw. destruct G as [ws i [w sp']|st ws t e G]; split_toks; [assumption|]. eapply any_back; eauto. }
  assert (Nm : uo_name (den_option {| ob_name := n; ob_value := v |}) = map den_part n) by (rewrite den_option_name by exact Ho; reflexivity).
  split; [rewrite Nm; destruct n; [congruence|discriminate]|]. split; [rewrite Nm; now apply Forall_map|]. unfold ok_option, plain_option, den_option in *. cbn [ob_value ob_name] in *.
  destruct Gv as [w sp'|st w sp'|ws i G|w sp'|st w sp'|ws s G|st ws e G].
  - left. exists w. split_toks. auto.
  - contradiction.
  - pose proof (int_back _ _ G ltac:(assumption)) as Hi. destruct (i_neg i) eqn:En.
    + right. right. left. assert (R : (-9223372036854775808 <= int_value i <= 0)%Z) by (unfold int_value in *; rewrite En in *; lia). exists (int_value i). split; [exact R|]. unfold if_within, within. rewrite (proj2 (Z.leb_le _ _)) by lia. rewrite (proj2 (Z.leb_le _ _)) by lia. reflexivity.
    + right. left. exists (i_val i). auto.
  - right. right. right. right. exists false, w. split_toks. auto.
  - right. right. right. right. exists true, w. split_toks. auto.
  - right. right. right. left. exists (st_val s). split; [eapply string_back; eauto|reflexivity].
  - discriminate Hp.
Qed.
Definition option_good (o : optbody) : Prop := ok_option o -> plain_option (den_option o) -> option_ok (den_option o).
Lemma option_good_back k ts o : g_option k ts o -> toks ts -> option_good (op_body o).
Proof. intros [st us x e c G _] H. split_toks. cbn [op_body]. intros Ha Hb. eapply option_back; eauto. Qed.
Lemma nonempty_ok l : Forall option_ok l -> options_ok (nonempty l). Proof. intros H. destruct l; [exact I|]. split; [discriminate|exact H]. Qed.
Lemma items_nonempty {A} (l : list A) : items (nonempty l) = l. Proof. destruct l; reflexivity. Qed.
Lemma options_back os : Forall (fun o => option_good (op_body o)) os -> ok_options os -> plain_options (den_options os) -> options_ok (den_options os).
Proof.
  unfold plain_options, den_options, ok_options. rewrite items_nonempty. intros H1 H2 H3. apply nonempty_ok. apply all_Forall in H2. eapply Forall_3; [|exact H1|exact H2|exact H3]. intros a Ha Hb Hc. exact (Ha Hb Hc).
Qed.
Definition optlist_good (ol : option optlist) : Prop := Forall option_good (optlist_options ol).
Lemma optlist_back k ts ol : g_opt_options k ts ol -> toks ts -> optlist_good ol.
Proof.
  intros G H. unfold optlist_good. destruct G as [|ts o [st us os e G]]; [constructor|]. split_toks. cbn [optlist_options ol_options]. eapply (proj1 (sep_all _ _ _ _ _ G ltac:(assumption) _)).
  Unshelve. intros ws x Gx Hw Ha Hb. eapply option_back; eauto.
Qed.
Lemma settings_back ol : optlist_good ol -> ok_optlist ol -> plain_options (den_optlist ol) -> options_ok (den_optlist ol).
Proof.
  unfold optlist_good, plain_options, den_optlist, ok_optlist. rewrite items_nonempty. intros H1 H2 H3. apply nonempty_ok. apply all_Forall in H2. eapply Forall_3; [|exact H1|exact H2|exact H3]. intros a Ha Hb Hc. exact (Ha Hb Hc).
Qed.

(** ** Enums *)
Lemma word_reserved v : word v -> reserved_name_ok v.
Proof. intros (c & r & -> & Hc & Hr). exists c, r. split; [reflexivity|]. split; [exact Hc|]. eapply Forall_impl; [|exact Hr]. unfold word_char, letter, name_char, letter_, dec_digit. cbn. intros. lia. Qed.
Lemma reserved_back ts r : g_reserved ts r -> Forall reserved_name_ok (map id_val (res_names r)).
Proof.
  intros [st us l e c G _|st us l e c G _]; unfold res_names; cbn [rs_kind]; [constructor|]. clear -G. induction G as [us a [ws v sp Gu Hw]|us a sp us' l [ws v sp' Gu Hw] G IH]; cbn; repeat constructor; try (now apply word_reserved). exact IH.
Qed.
Lemma names_back rs : Forall (fun r => Forall reserved_name_ok (map id_val (res_names r))) rs -> Forall reserved_name_ok (den_reserved_names rs).
Proof. intros H. unfold den_reserved_names. induction H as [|r rs Hr H IH]; [constructor|]. cbn [flat_map]. rewrite map_app. apply Forall_app. auto. Qed.
Lemma enum_number_back i : ok_enum_number i -> number_in (-2147483648) 2147483647 (den_enum_number i).
Proof. intros H. exists (int_value i). split; [unfold den_enum_number; now apply if_within_in|exact H]. Qed.
Definition enum_good (e : enum) : Prop := ok_enum e -> plain_enum (den_enum_ e) -> enum_ok (den_enum_ e).
Lemma enum_back k ts e : g_enum k ts e -> toks ts -> enum_good e.
Proof.
  intros [st v sp0 sp es l en c G _] H. split_toks. intros (O1 & O2 & O3) (P1 & P2). unfold den_enum_ in *. cbn [en_name en_values en_options en_reserved id_val e_options e_value] in *.
  assert (Fl : Forall (fun x => match x with
    | EEOption o => option_good (op_body o)
    | EEReserved r => Forall reserved_name_ok (map id_val (res_names r))
    | EEValue w => (exists n, v_name (den_enum_value w) = Some n /\ identifier n /\ n <> b "option" /\ n <> b "reserved") /\ optlist_good (ev_options w)
    | EEEmpty => True end) l).
  { eapply many_all; [exact G|assumption|]. intros us x Gx Hx. destruct Gx as [sp'|us o Go|us r Gr|us w Gw]; [exact I|eapply option_good_back; eauto|eapply reserved_back; eauto|].
    destruct Gw as [w sp1 sp2 us n os o e1 c1 N1 N2 Gi Gos _]. split_toks. split; [eexists; split; [reflexivity|]; auto|]. cbn [ev_options]. eapply optlist_back; eauto. }
  split; [eexists; split; [reflexivity|assumption]|]. cbn [e_value e_options e_reserved_range e_reserved_name]. split; [|split; [|split]].
  - assert (Fv : Forall (fun w => (exists n, v_name (den_enum_value w) = Some n /\ identifier n /\ n <> b "option" /\ n <> b "reserved") /\ optlist_good (ev_options w)) (flat_map (fun x => match x with EEValue o => [o] | _ => [] end) l)).
    { eapply fm_Forall; [exact Fl|]. cbn. intros [|o|r|w] x Hq Hi; try (destruct Hi; fail). destruct Hi as [<-|[]]. exact Hq. }
    apply all_Forall in O1. eapply (Forall_3 _ _ enum_value_ok (fun v => plain_options (v_options v)) den_enum_value); [|exact Fv|exact O1|exact P2].
    intros w [Hn Hg] [Hz Ho] Hp. split; [exact Hn|]. split; [now apply enum_number_back|]. now apply settings_back.
  - apply options_back; auto. eapply fm_Forall; [exact Fl|]. cbn. intros [|o|r|w] x Hq Hi; try (destruct Hi; fail). destruct Hi as [<-|[]]. exact Hq.
  - apply all_Forall in O2. apply Forall_map. eapply Forall_impl; [|exact O2]. intros r [Hs He]. unfold den_enum_range. cbn [r_start r_end]. split; [now apply enum_number_back|]. destruct (rr_end r); [now apply enum_number_back|now apply enum_number_back|]. eexists. split; [reflexivity|lia].
  - apply names_back. eapply fm_Forall; [exact Fl|]. cbn. intros [|o|r|w] x Hq Hi; try (destruct Hi; fail). destruct Hi as [<-|[]]. exact Hq.
Qed.

(** ** Services *)
Lemma stream_back ts cs t : g_stream ts cs t -> toks ts -> type_ref (stream_words (if cs then Some true else None)) (tname_text t).
Proof.
  intros [us n G K|sp us n G] H; [eapply type_back; eauto|]. split_toks. eapply type_back; eauto. intros s [].
Qed.
Definition service_good (s : service) : Prop := ok_service s -> plain_service (den_service_ s) -> service_ok (den_service_ s).
Lemma service_back k ts s : g_service k ts s -> toks ts -> service_good s.
Proof.
  intros [st v sp0 sp es l en c G _] H. split_toks. intros (O1 & O2) (P1 & P2). unfold den_service_ in *. cbn [sv_name sv_options sv_methods id_val s_options s_method] in *.
  assert (Fl : Forall (fun x => match x with
    | SEOption o => option_good (op_body o)
    | SEMethod m => (name_ok (me_d_name (den_method m)) /\ type_ref (stream_words (me_d_client (den_method m))) (tname_text (me_input m)) /\ type_ref (stream_words (me_d_server (den_method m))) (tname_text (me_output m))) /\ Forall (fun o => option_good (op_body o)) (me_options m)
    | SEEmpty => True end) l).
  { eapply many_all; [exact G|assumption|]. intros us x Gx Hx. destruct Gx as [sp'|us o Go|us m Gm]; [exact I|eapply option_good_back; eauto|].
    destruct Gm as [st1 w sp1 p1 its cs it p2 r p3 ots ss ot p4 ets os e1 c1 Gi Go Ge _]. split_toks. cbn [me_options]. split; [unfold den_method; cbn [me_d_name me_name id_val me_d_client me_client me_input me_d_server me_server me_output]|].
    - split; [eexists; split; [reflexivity|assumption]|]. split; [eapply stream_back; eauto|eapply stream_back; eauto].
    - inversion Ge as [sp5|sp5 es5 l5 e5 G5 E1 E2]; subst; [constructor|]. split_toks.
      assert (F5 : Forall (fun o => match o with Some o => option_good (op_body o) | None => True end) l5).
      { eapply many_all; [exact G5|assumption|]. intros us x [sp6|us6 o6 G6] Hx; [exact I|]. eapply option_good_back; eauto. }
      unfold somes. eapply fm_Forall; [exact F5|]. cbn. intros [o|] x Hq Hi; [|destruct Hi]. destruct Hi as [<-|[]]. exact Hq. }
  split; [eexists; split; [reflexivity|assumption]|]. cbn [s_method s_options]. split.
  - assert (Fm : Forall (fun m => (name_ok (me_d_name (den_method m)) /\ type_ref (stream_words (me_d_client (den_method m))) (tname_text (me_input m)) /\ type_ref (stream_words (me_d_server (den_method m))) (tname_text (me_output m))) /\ Forall (fun o => option_good (op_body o)) (me_options m)) (flat_map (fun x => match x with SEMethod o => [o] | _ => [] end) l)).
    { eapply fm_Forall; [exact Fl|]. cbn. intros [|o|m] x Hq Hi; try (destruct Hi; fail). destruct Hi as [<-|[]]. exact Hq. }
    apply all_Forall in O1. eapply (Forall_3 _ _ method_ok (fun m => plain_options (me_d_options m)) den_method); [|exact Fm|exact O1|exact P2].
    intros m [(Hn & Hi & Ho) Hg] Ok Hp. split; [exact Hn|]. split; [eexists; split; [reflexivity|exact Hi]|]. split; [eexists; split; [reflexivity|exact Ho]|]. split; [now apply options_back|]. unfold den_method. cbn. split; [destruct (me_client m); [now right|now left]|destruct (me_server m); [now right|now left]].
  - apply options_back; auto. eapply fm_Forall; [exact Fl|]. cbn. intros [|o|m] x Hq Hi; try (destruct Hi; fail). destruct Hi as [<-|[]]. exact Hq.
Qed.
End Back.
