(** The options of a file are written in its tokens: any property [Q] of the
    option bodies written in token lists that satisfy [T] holds for all options
    of a file whose tokens satisfy [T]. *)
From Verif Require Import Base Utf8 Errors Lex Ast Grammar Meaning DescSpec DescLemmas AstNames.

Section Opts.
Context {CS : comspec}.
Variable k : cfg.
Variable Q : optbody -> Prop.
Variable T : list tk -> Prop.
Hypothesis T_app : forall ts us, T (ts ++ us) -> T ts /\ T us.
Hypothesis HQ : forall ts o, g_option_body k ts o -> T ts -> Q o.

Definition q_optlist (o : option optlist) : Prop := match o with Some l => Forall Q (ol_options l) | None => True end.
Definition q_options (l : list option_) : Prop := Forall (fun o => Q (op_body o)) l.
Definition q_enum (e : enum) : Prop := Forall (fun v => q_optlist (ev_options v)) (en_values e) /\ q_options (en_options e).
Definition q_service (s : service) : Prop := Forall (fun m => q_options (me_options m)) (sv_methods s) /\ q_options (sv_options s).
Definition q_exts (x : extensions) : Prop := q_optlist (ex_options x).
Section WithBody.
Context {B : Type}.
Variable qb : B -> Prop.
Definition q_field (f : field_ B) : Prop := q_optlist (fd_options f) /\ match fd_kind f with FKGroup _ bd => qb bd | _ => True end.
Definition q_item (it : mitem_ B) : Prop :=
  match it with
  | MIField f => q_field f
  | MIEnum e => q_enum e
  | MIMessage m => qb (ms_body m)
  | MIExtend e => all q_field (et_fields e)
  | MIOneof o => q_options (oo_options o) /\ all q_field (oo_fields o)
  end.
End WithBody.
Fixpoint q_body (bd : body) : Prop :=
  match bd with Body items exts opts _ => all (q_item q_body) items /\ all q_exts exts /\ q_options opts end.
Definition q_fitem (it : fitem) : Prop :=
  match it with
  | FIMessage m => q_body (ms_body m)
  | FIEnum e => q_enum e
  | FIService s => q_service s
  | FIExtend e => all (q_field q_body) (et_fields e)
  end.
Definition q_file (f : file) : Prop := Forall q_fitem (fi_items f) /\ q_options (fi_options f).

Ltac tsp := repeat match goal with H : T (_ ++ _) |- _ => apply T_app in H; destruct H end.
Lemma many_q {A C} (item : list tk -> A -> Prop) (f : A -> list C) (R : C -> Prop) ts l :
  g_many item ts l -> T ts -> (forall ts a, item ts a -> T ts -> Forall R (f a)) -> Forall R (flat_map f l).
Proof.
  intros H Ht F. induction H as [|ts a ts' l H1 H2 IH]; cbn [flat_map]; [constructor|]. tsp. apply Forall_app. split; eauto.
Qed.
Lemma sep_q sep ts l : g_sep sep (g_option_body k) ts l -> T ts -> Forall Q l.
Proof. induction 1 as [ts o H|ts o sp ts' l H1 H2 IH]; intros Ht; tsp; constructor; eauto. Qed.
Lemma opt_options_q ts o : g_opt_options k ts o -> T ts -> q_optlist o.
Proof. destruct 1 as [|ts o H]; [intros; exact I|]. destruct H. intros Ht. tsp. cbn. eapply sep_q; eauto. Qed.
Lemma option_q ts o : g_option k ts o -> T ts -> Q (op_body o).
Proof. destruct 1. intros Ht. tsp. cbn. eauto. Qed.
Lemma enum_q ts e : g_enum k ts e -> T ts -> q_enum e.
Proof.
  destruct 1 as [st v s0 s es l e c H _]. intros Ht. tsp. split; cbn [en_values en_options].
  - eapply many_q; eauto. intros us a Ha Hu. destruct Ha as [| | |us v' Hv]; try constructor; [|constructor]. destruct Hv. tsp. cbn. eapply opt_options_q; eauto.
  - eapply many_q; eauto. intros us a Ha Hu. destruct Ha; try constructor; [|constructor]. eapply option_q; eauto.
Qed.
Lemma rpc_q ts os e : g_rpc_end k ts (os, e) -> T ts -> q_options os.
Proof.
  intros H Ht. inversion H as [|sp es l e0 Hm]; subst; [constructor|]. tsp. unfold somes. eapply many_q; eauto. intros us a Ha Hu. destruct Ha; constructor; [|constructor]. eapply option_q; eauto.
Qed.
Lemma service_q ts e : g_service k ts e -> T ts -> q_service e.
Proof.
  destruct 1 as [st v s0 s es l e c H _]. intros Ht. tsp. split; cbn [sv_methods sv_options].
  - eapply many_q; eauto. intros us a Ha Hu. destruct Ha as [| |us v' Hv]; try constructor; [|constructor]. destruct Hv. tsp. cbn [me_options]. eapply rpc_q; eauto.
  - eapply many_q; eauto. intros us a Ha Hu. destruct Ha; try constructor; [|constructor]. eapply option_q; eauto.
Qed.
Section GB.
Variable gb : list tk -> body * span -> Prop.
Variable qb : body -> Prop.
Hypothesis body_ok : forall ts bd e, gb ts (bd, e) -> T ts -> qb bd.
Lemma field_q ts f : g_field k gb ts f -> T ts -> q_field qb f.
Proof.
  destruct 1 as [ls label ts f H1 H2 H3]. intros Ht. tsp.
  revert H3. generalize (first_span (ls ++ ts)). intros st H3. destruct H3; tsp; (split; [eapply opt_options_q; eauto|]); cbn [fd_kind]; auto. eapply body_ok; eauto.
Qed.
Lemma item_q ts x : g_body_elem k gb ts x -> T ts -> Forall (q_item qb) (be_item x).
Proof.
  destruct 1 as [s|ts x H|ts x H|ts x H|ts x H|ts x H|ts x H|ts x H|ts x _ H]; intros Ht; cbn [be_item]; constructor; try constructor.
  - destruct H. tsp. cbn [oo_options]. eapply many_q; eauto. intros us a Ha Hu. destruct Ha; constructor; [|constructor]. eapply option_q; eauto.
  - destruct H. tsp. cbn [oo_fields]. apply all_Forall. eapply many_q; eauto. intros us a Ha Hu. destruct Ha; constructor; [|constructor]. eapply field_q; eauto.
  - exact (proj1 (enum_q _ _ H Ht)).
  - exact (proj2 (enum_q _ _ H Ht)).
  - destruct H. tsp. cbn. eapply body_ok; eauto.
  - destruct H. tsp. cbn [q_item et_fields]. unfold somes. apply all_Forall. eapply many_q; eauto. intros us a Ha Hu. destruct Ha; constructor; [|constructor]. eapply field_q; eauto.
  - eapply (proj1 (field_q _ _ H Ht)).
  - eapply (proj2 (field_q _ _ H Ht)).
Qed.
End GB.
Lemma body_q ts bd e : g_body k ts (bd, e) -> T ts -> q_body bd.
Proof.
  intros [d H]. revert ts bd e H. induction d as [|d IH]; intros ts bd e H Ht; [destruct H|].
  destruct H as (es & l & H & -> & E). cbn [fst snd] in *. subst bd. tsp. cbn [q_body]. split; [|split]; try apply all_Forall.
  - eapply many_q; eauto. intros us a Ha Hu. eapply item_q; eauto.
  - eapply many_q; eauto. intros us a Ha Hu. destruct Ha; cbn [be_extensions]; try constructor; [|constructor].
    match goal with H : g_extensions _ _ _ |- _ => destruct H end. tsp. cbn. eapply opt_options_q; eauto.
  - eapply many_q; eauto. intros us a Ha Hu. destruct Ha; cbn [be_option]; try constructor; [|constructor]. eapply option_q; eauto.
Qed.
Lemma file_q n ts f : g_file k n ts f -> T ts -> q_file f.
Proof.
  destruct 1 as [ss sx sxs ts l pkg H1 H2 H3]. intros Ht. unfold q_file. cbn [fi_items fi_options]. tsp. split.
  - eapply many_q; eauto. intros us a Ha Hu. destruct Ha as [| | | |us x Hx|us x Hx|us x Hx|us x Hx]; cbn [st_items]; constructor; try constructor; cbn [q_fitem].
    + destruct Hx. tsp. cbn. eapply body_q; eauto.
    + exact (proj1 (enum_q _ _ Hx Hu)).
    + exact (proj2 (enum_q _ _ Hx Hu)).
    + exact (proj1 (service_q _ _ Hx Hu)).
    + exact (proj2 (service_q _ _ Hx Hu)).
    + destruct Hx. tsp. cbn [et_fields]. unfold somes. apply all_Forall. eapply many_q; eauto. intros vs a Ha Hv. destruct Ha; constructor; [|constructor].
      eapply field_q; eauto. intros; eapply body_q; eauto.
  - eapply many_q; eauto. intros us a Ha Hu. destruct Ha; cbn [st_options]; try constructor; [|constructor]. eapply option_q; eauto.
Qed.

(** ** At any depth *)
Lemma q_body_inv bd : q_body bd -> all (q_item q_body) (bd_items bd) /\ all q_exts (bd_extensions bd) /\ q_options (bd_options bd).
Proof. destruct bd. exact (fun H => H). Qed.
Lemma qf_sub (fd : field) c : q_field q_body fd -> In c (field_sub fd) -> q_body c.
Proof. unfold q_field, field_sub. destruct (fd_kind fd); cbn; intuition. subst. auto. Qed.
Lemma q_sub bd c : q_body bd -> In c (flat_map item_sub (bd_items bd)) -> q_body c.
Proof.
  intros H Hc. apply in_flat_map in Hc. destruct Hc as (it & Hi & Hc). apply q_body_inv in H. destruct H as [H _]. apply (all_In _ _ _ H) in Hi.
  destruct it as [fd|e|m|e|o]; cbn [item_sub q_item] in *.
  - eapply qf_sub; eauto.
  - destruct Hc.
  - destruct Hc as [<-|[]]. auto.
  - apply in_flat_map in Hc. destruct Hc as (fd & Hf & Hc). apply (all_In _ _ _ Hi) in Hf. eapply qf_sub; eauto.
  - apply in_flat_map in Hc. destruct Hc as (fd & Hf & Hc). destruct Hi as (_ & Hi). apply (all_In _ _ _ Hi) in Hf. eapply qf_sub; eauto.
Qed.
Lemma q_in bd c : body_in c bd -> q_body bd -> q_body c.
Proof. induction 1 as [|bd c p H1 H2 IH]; auto. intros H. apply IH. eapply q_sub; eauto. Qed.
Lemma q_of f bd : q_file f -> body_of f bd -> q_body bd.
Proof.
  intros [H _] (it & c & Hi & Hc & Hb). apply (q_in _ _ Hb). rewrite Forall_forall in H. apply H in Hi. destruct it as [e|m|e|s]; cbn [fitem_sub q_fitem] in *; try destruct Hc as [<-|[]]; try destruct Hc; auto.
  apply in_flat_map in Hc. destruct Hc as (fd & Hf & Hc). apply (all_In _ _ _ Hi) in Hf. eapply qf_sub; eauto.
Qed.
Lemma q_decl f sc fd : q_file f -> decl_of f sc fd -> q_field q_body fd.
Proof.
  intros H [bd fd0 H1 H2|bd o fd0 H1 H2 H3|bd e fd0 H1 H2 H3|e fd0 H2 H3].
  - apply (q_of _ _ H) in H1. apply q_body_inv in H1. exact (all_In _ _ _ (proj1 H1) H2).
  - apply (q_of _ _ H) in H1. apply q_body_inv in H1. apply (all_In _ _ _ (proj1 H1)) in H2. exact (all_In _ _ _ (proj2 H2) H3).
  - apply (q_of _ _ H) in H1. apply q_body_inv in H1. apply (all_In _ _ _ (proj1 H1)) in H2. exact (all_In _ _ _ H2 H3).
  - destruct H as [H _]. rewrite Forall_forall in H. apply H in H2. exact (all_In _ _ _ H2 H3).
Qed.
Lemma q_enum_decl f e : q_file f -> enum_decl f e -> q_enum e.
Proof.
  intros H [e0 H1|bd e0 H1 H2].
  - destruct H as [H _]. rewrite Forall_forall in H. exact (H _ H1).
  - apply (q_of _ _ H) in H1. apply q_body_inv in H1. exact (all_In _ _ _ (proj1 H1) H2).
Qed.
End Opts.
