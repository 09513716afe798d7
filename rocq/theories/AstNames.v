(** The names of declarations are identifier tokens, and option lists are not
    empty: for any property [I] of identifier tokens (text and span). *)
From Verif Require Import Base Utf8 Errors Lex Ast Grammar Meaning.

Section Names.
Variable I : bytes -> span -> Prop.
Context {CS : comspec}.
Definition n_ident (i : ident) : Prop := I (id_val i) (id_span i).
Definition n_optlist (o : option optlist) : Prop := match o with Some l => ol_options l <> [] | None => True end.
Definition n_enum (e : enum) : Prop :=
  n_ident (en_name e) /\ Forall (fun v => n_ident (ev_name v) /\ n_optlist (ev_options v)) (en_values e).
Definition n_service (s : service) : Prop :=
  n_ident (sv_name s) /\ Forall (fun m => n_ident (me_name m)) (sv_methods s).
Definition n_exts (x : extensions) : Prop := n_optlist (ex_options x).
Section WithBody.
Context {B : Type}.
Variable nb : B -> Prop.
Definition n_field (f : field_ B) : Prop :=
  n_ident (fd_name f) /\ n_optlist (fd_options f) /\ match fd_kind f with FKGroup _ bd => nb bd | _ => True end.
Definition n_item (it : mitem_ B) : Prop :=
  match it with
  | MIField f => n_field f
  | MIEnum e => n_enum e
  | MIMessage m => n_ident (ms_name m) /\ nb (ms_body m)
  | MIExtend e => all n_field (et_fields e)
  | MIOneof o => n_ident (oo_name o) /\ all n_field (oo_fields o)
  end.
End WithBody.
Fixpoint n_body (bd : body) : Prop :=
  match bd with Body items exts _ _ => all (n_item n_body) items /\ all n_exts exts end.
Definition n_fitem (it : fitem) : Prop :=
  match it with
  | FIMessage m => n_ident (ms_name m) /\ n_body (ms_body m)
  | FIEnum e => n_enum e
  | FIService s => n_service s
  | FIExtend e => Forall (n_field n_body) (et_fields e)
  end.
Definition n_file (f : file) : Prop := Forall n_fitem (fi_items f).

Lemma all_Forall {A} (Q : A -> Prop) l : Forall Q l -> all Q l.
Proof. induction 1; cbn; auto. Qed.
(** ** From the grammar *)
Definition tokI (x : tk) : Prop := match tk_tok x with TIdent v => I v (tk_span x) | _ => True end.
Notation T := (Forall tokI).

Lemma T_app ts us : T (ts ++ us) -> T ts /\ T us.
Proof. apply Forall_app. Qed.
Lemma T_id v sp : T (sym (TIdent v) sp) -> I v sp.
Proof. intros H. inversion H; subst. exact H2. Qed.
Ltac tsp := repeat match goal with
  | H : T (_ ++ _) |- _ => apply T_app in H; destruct H
  | H : T (sym (TIdent ?v) _) |- _ => apply T_id in H
  end.

Lemma many_pick {A C} (item : list tk -> A -> Prop) (f : A -> list C) (Q : C -> Prop) ts l :
  g_many item ts l -> T ts -> (forall ts a, item ts a -> T ts -> Forall Q (f a)) -> Forall Q (flat_map f l).
Proof.
  intros H Ht F. induction H as [|ts a ts' l H1 H2 IH]; cbn [flat_map]; [constructor|]. tsp. apply Forall_app. split; eauto.
Qed.

Lemma sep_not_nil {A} sep (item : list tk -> A -> Prop) ts l : g_sep sep item ts l -> l <> [].
Proof. destruct 1; discriminate. Qed.
Lemma opt_options_n k ts o : g_opt_options k ts o -> n_optlist o.
Proof. destruct 1 as [|ts o H]; [exact Logic.I|]. destruct H. cbn. eapply sep_not_nil; eauto. Qed.

Lemma enum_n k ts e : g_enum k ts e -> T ts -> n_enum e.
Proof.
  destruct 1 as [st v s0 s es l e c H _]. intros Ht. tsp. split; [assumption|]. cbn [en_values].
  eapply many_pick; eauto. intros us a Ha Hu. destruct Ha as [| | |us v' Hv]; try constructor; [|constructor]. destruct Hv. tsp. split; [assumption|]. eapply opt_options_n; eauto.
Qed.
Lemma service_n k ts e : g_service k ts e -> T ts -> n_service e.
Proof.
  destruct 1 as [st v s0 s es l e c H _]. intros Ht. tsp. split; [assumption|]. cbn [sv_methods].
  eapply many_pick; eauto. intros us a Ha Hu. destruct Ha as [| |us v' Hv]; try constructor; [|constructor]. destruct Hv. tsp. assumption.
Qed.
Section GB.
Variable k : cfg.
Variable gb : list tk -> body * span -> Prop.
Variable nb : body -> Prop.
Hypothesis body_ok : forall ts bd e, gb ts (bd, e) -> T ts -> nb bd.
Lemma field_n ts f : g_field k gb ts f -> T ts -> n_field nb f.
Proof.
  destruct 1 as [ls label ts f H1 H2 H3]. intros Ht. tsp.
  revert H3. generalize (first_span (ls ++ ts)). intros st H3. destruct H3; tsp; (split; [assumption|]); cbn [fd_options fd_kind]; (split; [eapply opt_options_n; eauto|]); auto. eapply body_ok; eauto.
Qed.
Lemma item_n ts x : g_body_elem k gb ts x -> T ts -> Forall (n_item nb) (be_item x).
Proof.
  destruct 1 as [s|ts x H|ts x H|ts x H|ts x H|ts x H|ts x H|ts x H|ts x _ H]; intros Ht; cbn [be_item]; constructor; try constructor.
  - destruct H. tsp. assumption.
  - destruct H. tsp. cbn [oo_fields]. apply all_Forall. eapply many_pick; eauto. intros us a Ha Hu. destruct Ha; constructor; [|constructor]. eapply field_n; eauto.
  - destruct H. tsp. assumption.
  - eapply (proj2 (enum_n _ _ _ H Ht)).
  - destruct H. tsp. assumption.
  - destruct H. tsp. eapply body_ok; eauto.
  - destruct H. tsp. cbn [n_item et_fields]. unfold somes. apply all_Forall. eapply many_pick; eauto. intros us a Ha Hu. destruct Ha; constructor; [|constructor]. eapply field_n; eauto.
  - eapply (proj1 (field_n _ _ H Ht)).
  - eapply (proj2 (field_n _ _ H Ht)).
Qed.
End GB.
Lemma body_n k ts bd e : g_body k ts (bd, e) -> T ts -> n_body bd.
Proof.
  intros [d H]. revert ts bd e H. induction d as [|d IH]; intros ts bd e H Ht; [destruct H|].
  destruct H as (es & l & H & -> & E). cbn [fst snd] in *. subst bd. tsp. cbn [n_body]. split; apply all_Forall.
  - eapply many_pick; eauto. intros us a Ha Hu. eapply item_n; eauto.
  - eapply many_pick; eauto. intros us a Ha Hu. destruct Ha; cbn [be_extensions]; try constructor; [|constructor].
    match goal with H : g_extensions _ _ _ |- _ => destruct H end. eapply opt_options_n; eauto.
Qed.
Lemma file_n k n ts f : g_file k n ts f -> T ts -> n_file f.
Proof.
  destruct 1 as [ss sx sxs ts l pkg H1 H2 H3]. intros Ht. unfold n_file. cbn [fi_items]. tsp.
  eapply many_pick; eauto. intros us a Ha Hu. destruct Ha as [| | | |us x Hx|us x Hx|us x Hx|us x Hx]; cbn [st_items]; constructor; try constructor; cbn [n_fitem].
  - destruct Hx. tsp. assumption.
  - destruct Hx. tsp. eapply body_n; eauto.
  - exact (proj1 (enum_n _ _ _ Hx Hu)).
  - exact (proj2 (enum_n _ _ _ Hx Hu)).
  - exact (proj1 (service_n _ _ _ Hx Hu)).
  - exact (proj2 (service_n _ _ _ Hx Hu)).
  - destruct Hx. tsp. cbn [et_fields]. unfold somes. eapply many_pick; eauto. intros vs a Ha Hv. destruct Ha; constructor; [|constructor].
    eapply field_n; eauto. intros; eapply body_n; eauto.
Qed.
End Names.
