(** The comments of the source locations of an accepted file belong to
    declarations which start, and whose heads end, at different tokens. *)
From Coq Require Import Sorting.Permutation.
From Verif Require Import Base Utf8 Errors Lex Ast Comments Parse Grammar Classify Walk WalkG1 WalkG2 Meaning Erase.

(** ** Locations with comments, without their paths *)
Definition has_comments (c : acomments) : bool :=
  match ac_detached c, ac_leading c, ac_trailing c with [], None, None => false | _, _, _ => true end.
Definition vw (R : list rawloc) : list (span * acomments) :=
  filter (fun x => has_comments (snd x)) (map (fun x => (snd (fst x), snd x)) R).
(** How the head of a declaration ends: with an opening brace, a semicolon, or (rpc) with a semicolon or a closing brace. *)
Inductive hkind : Type := HBrace | HStmt | HRpc.
Definition doc : Type := (hkind * span * acomments)%type.
Definition vd (R : list doc) : list (span * acomments) :=
  filter (fun x => has_comments (snd x)) (map (fun x => (snd (fst x), snd x)) R).
Definition d1 (h : hkind) (sp : span) (c : acomments) : list doc := [(h, sp, c)].

Lemma vw_app R R' : vw (R ++ R') = vw R ++ vw R'.
Proof. unfold vw. now rewrite map_app, filter_app. Qed.
Lemma vd_app R R' : vd (R ++ R') = vd R ++ vd R'.
Proof. unfold vd. now rewrite map_app, filter_app. Qed.
Lemma vw_at p sp R : vw (at_ p sp :: R) = vw R.
Proof. reflexivity. Qed.
Definition v1 (sp : span) (c : acomments) : list (span * acomments) := if has_comments c then [(sp, c)] else [].
Lemma vw_cons p sp c R : vw ((p, sp, c) :: R) = v1 sp c ++ vw R.
Proof. unfold vw, v1. cbn [map filter fst snd]. destruct (has_comments c); reflexivity. Qed.
Lemma vd_d1 h sp c : vd (d1 h sp c) = v1 sp c.
Proof. unfold d1, vd, v1. cbn [map filter fst snd]. destruct (has_comments c); reflexivity. Qed.
Lemma vw_nil : vw [] = [].
Proof. reflexivity. Qed.
Lemma vd_nil : vd [] = [].
Proof. reflexivity. Qed.
Lemma vw_idx {A} (f : Z -> A -> list rawloc) (g : A -> list doc) l :
  (forall i x, In x l -> vw (f i x) = vd (g x)) -> forall i, vw (l_idx f i l) = vd (flat_map g l).
Proof.
  induction l as [|x l IH]; intros H i; cbn [l_idx flat_map]; [reflexivity|]. rewrite vw_app, vd_app, H, IH; [reflexivity| |now left]. intros j y Hy. apply H. now right.
Qed.
Lemma vw_idx0 {A} (f : Z -> A -> list rawloc) l : (forall i x, vw (f i x) = []) -> forall i, vw (l_idx f i l) = [].
Proof. intros H i. rewrite (vw_idx f (fun _ => [])) by (intros; apply H). induction l; auto. Qed.

Definition d_option (o : option_) := d1 HStmt (op_span o) (op_comments o).
Definition d_reserved (r : reserved) := d1 HStmt (rs_span r) (rs_comments r).
Definition d_exts (x : extensions) := d1 HStmt (ex_span x) (ex_comments x).
Definition d_value (v : enum_value) := d1 HStmt (ev_span v) (ev_comments v).
Definition d_enum (e : enum) := d1 HBrace (en_span e) (en_comments e) ++ flat_map d_value (en_values e) ++ flat_map d_reserved (en_reserved e) ++ flat_map d_option (en_options e).
Definition d_method (m : method) := d1 HRpc (me_span m) (me_comments m) ++ flat_map d_option (me_options m).
Definition d_service (s : service) := d1 HBrace (sv_span s) (sv_comments s) ++ flat_map d_method (sv_methods s) ++ flat_map d_option (sv_options s).
Section WithBody.
Context {B : Type}.
Variable db : B -> list doc.
Definition d_field (f : field_ B) := d1 (match fd_kind f with FKGroup _ _ => HBrace | _ => HStmt end) (fd_span f) (fd_comments f) ++ match fd_kind f with FKGroup _ bd => db bd | _ => [] end.
Definition d_extend (e : extend_ B) := d1 HBrace (et_span e) (et_comments e) ++ flat_map d_field (et_fields e).
Definition d_oneof (o : oneof_ B) := d1 HBrace (oo_span o) (oo_comments o) ++ flat_map d_option (oo_options o) ++ flat_map d_field (oo_fields o).
Definition d_message (m : message_ B) := d1 HBrace (ms_span m) (ms_comments m) ++ db (ms_body m).
Definition d_item (it : mitem_ B) :=
  match it with MIField f => d_field f | MIEnum e => d_enum e | MIMessage m => d_message m | MIExtend e => d_extend e | MIOneof o => d_oneof o end.
End WithBody.
Fixpoint d_body (bd : body) : list doc :=
  match bd with
  | Body items exts opts res => flat_map (d_item d_body) items ++ flat_map d_reserved res ++ flat_map d_exts exts ++ flat_map d_option opts
  end.
Definition d_import (im : import) := d1 HStmt (im_span im) (im_comments im).
Definition d_package (p : package) := d1 HStmt (pk_span p) (pk_comments p).
Definition d_fitem (it : fitem) :=
  match it with FIMessage m => d_message d_body m | FIEnum e => d_enum e | FIService s => d_service s | FIExtend e => d_extend d_body e end.
Definition d_syn (o : option (span * acomments)) := match o with Some (sp, c) => d1 HStmt sp c | None => [] end.
Definition d_file (f : file) :=
  flat_map d_package (match fi_package f with Some p => [p] | None => [] end) ++ flat_map d_import (fi_imports f) ++ flat_map d_fitem (fi_items f) ++
  flat_map d_option (fi_options f) ++ d_syn (fi_syntax_span f).

Ltac vws := repeat (rewrite vw_at || rewrite vd_d1 || rewrite vd_app || rewrite vd_nil || rewrite vw_cons || rewrite vw_app || rewrite vw_nil || rewrite app_nil_r || rewrite <- app_assoc || cbn [app]).

Lemma vw_options p l : vw (l_options p l) = vd (flat_map d_option l).
Proof. unfold l_options. apply vw_idx. intros i o _. vws. reflexivity. Qed.
Lemma vw_optlist p ol : vw (l_optlist p ol) = [].
Proof. destruct ol as [l|]; [|reflexivity]. cbn [l_optlist]. rewrite vw_at. apply vw_idx0. reflexivity. Qed.
Lemma vw_reserved rt nt p rs : forall i j, vw (l_reserved rt nt p i j rs) = vd (flat_map d_reserved rs).
Proof.
  induction rs as [|r rs IH]; intros i j; cbn [l_reserved flat_map]; [reflexivity|]. rewrite vw_app, vd_app, IH. f_equal. unfold d_reserved. rewrite vd_d1. destruct (rs_kind r); rewrite vw_cons, vw_idx0; try (intros; reflexivity); apply app_nil_r.
Qed.
Lemma vw_extensions p l : forall i, vw (l_extensions p i l) = vd (flat_map d_exts l).
Proof.
  induction l as [|x l IH]; intros i; cbn [l_extensions flat_map]; [reflexivity|]. rewrite vw_cons, vw_app, vd_app, IH, vw_idx0; [unfold d_exts; rewrite vd_d1; reflexivity|]. intros j rr. rewrite vw_app, vw_optlist. reflexivity.
Qed.
Lemma vw_enum p e : vw (l_enum p e) = vd (d_enum e).
Proof.
  unfold l_enum, d_enum. vws. rewrite vw_options, vw_reserved, (vw_idx _ d_value); [reflexivity|]. intros i v _. unfold l_enum_value, d_value. vws. rewrite vw_optlist. apply app_nil_r.
Qed.
Lemma vw_opt_loc p o : vw (opt_loc p o) = [].
Proof. destruct o; reflexivity. Qed.
Lemma vw_service p s : vw (l_service p s) = vd (d_service s).
Proof.
  unfold l_service, d_service. vws. rewrite vw_options, (vw_idx _ d_method); [reflexivity|]. intros i m _. unfold l_method, d_method. vws. rewrite vw_options, !vw_opt_loc. reflexivity.
Qed.

Section Fields.
Variable k : cfg.
Variable syn : syntax.
Definition vok (bd : body) : Prop := forall p, vw (l_body k syn p bd) = vd (d_body bd).
Lemma vw_label fp sc lb : vw (l_label syn fp sc lb) = [].
Proof. unfold l_label. destruct lb as [[[] sp]|]; try reflexivity; repeat match goal with |- context [if ?x then _ else _] => destruct x end; reflexivity. Qed.
Lemma vw_default fp (f : field) : vw (l_default fp f) = [].
Proof. unfold l_default. destruct (default_of f); reflexivity. Qed.
Lemma vw_field sc fp mp (f : field) : on_kind vok f -> vw (l_field syn (l_body k syn) sc fp mp f) = vd (d_field d_body f).
Proof.
  intros H. unfold l_field, d_field. rewrite !vw_app, vw_optlist. cbn [app]. destruct (json_of f); vws; unfold on_kind in H;
    (destruct (fd_kind f) as [t tsp|gsp gb|msp kt ksp vt vsp]; [destruct t| |]; vws; rewrite ?vw_label, ?vw_default, ?vw_nil, ?app_nil_r; cbn [app]; try reflexivity; now rewrite H).
Qed.
Lemma vw_fields sc extra ft mt p (l : list field) : (forall q, vw (extra q) = []) -> Forall (on_kind vok) l -> forall i j,
  vw (l_fields syn (den_body k syn) (l_body k syn) sc extra ft mt p i j l) = vd (flat_map (d_field d_body) l).
Proof.
  intros He. induction 1 as [|f l H Hl IH]; intros i j; cbn [l_fields flat_map]; [reflexivity|]. rewrite !vw_app, vd_app, He, vw_field, IH by auto. reflexivity.
Qed.
Lemma vw_extend xt mt p i j (e : extend) : Forall (on_kind vok) (et_fields e) -> vw (l_extend syn (den_body k syn) (l_body k syn) xt mt p i j e) = vd (d_extend d_body e).
Proof. intros H. unfold l_extend, d_extend. rewrite vw_cons, vd_app, vd_d1, vw_fields; auto. Qed.
Lemma vw_items p (items : list mitem) : Forall (on_item vok) items -> forall nf nx nm ne no,
  vw (l_items k syn (den_body k syn) (l_body k syn) p nf nx nm ne no items) = vd (flat_map (d_item d_body) items).
Proof.
  induction 1 as [|it items H Hl IH]; intros nf nx nm ne no; cbn [l_items flat_map]; [reflexivity|]. rewrite vw_app, vd_app, IH. f_equal. destruct it as [f|e|m|e|o]; cbn [d_item on_item] in *.
  - now apply vw_field.
  - apply vw_enum.
  - unfold l_message, d_message. vws. now rewrite H.
  - now apply vw_extend.
  - unfold d_oneof. vws. rewrite vw_options, vw_fields; auto.
Qed.
Lemma vw_body bd : vok bd.
Proof.
  induction bd as [items exts opts res IH] using body_rect'. intros p. cbn [l_body d_body]. now rewrite !vw_app, !vd_app, vw_items, vw_reserved, vw_extensions, vw_options.
Qed.
Lemma vw_imports p l : forall i pub weak, vw (l_imports p i pub weak l) = vd (flat_map d_import l).
Proof.
  induction l as [|im l IH]; intros i pub weak; cbn [l_imports flat_map]; [reflexivity|]. rewrite vw_cons, vw_app, vd_app, IH. unfold d_import at 2. rewrite vd_d1. destruct (im_kind im) as [[[] sp]|]; reflexivity.
Qed.
Lemma vw_fitems p (l : list fitem) : forall nm ne ns nx, vw (l_fitems k syn p nm ne ns nx l) = vd (flat_map d_fitem l).
Proof.
  induction l as [|it l IH]; intros nm ne ns nx; cbn [l_fitems flat_map]; [reflexivity|]. rewrite vw_app, vd_app, IH. f_equal. destruct it as [e|m|e|s]; cbn [d_fitem].
  - apply vw_enum.
  - unfold l_message, d_message. vws. now rewrite vw_body.
  - apply vw_extend. apply kinds_alls, vw_body.
  - apply vw_service.
Qed.
Lemma vw_file f : vw (l_file k syn f) = vd (d_file f).
Proof.
  unfold l_file, d_file. rewrite vw_at, !vw_app, !vd_app, vw_imports, vw_fitems, vw_options. f_equal; [|f_equal; f_equal; f_equal].
  - destruct (fi_package f); [|reflexivity]. rewrite vw_cons. cbn [flat_map]. unfold d_package, v1, d1, vd, vw. cbn [app map filter fst snd]. destruct (has_comments _); reflexivity.
  - unfold d_syn. destruct (fi_syntax_span f) as [[sp c]|]; [|reflexivity]. rewrite vw_cons, vd_d1. apply app_nil_r.
Qed.
End Fields.

(** ** Ownership *)
Definition occ : Type := (token * span)%type.     (* a token at its place *)
Definition token_dec (x y : token) : {x = y} + {x <> y}.
Proof. destruct (token_eqb x y) eqn:E; [left; now apply token_eqb_eq|right; intros H; apply token_eqb_eq in H; congruence]. Defined.
Definition occ_dec (x y : occ) : {x = y} + {x <> y}.
Proof. decide equality; [decide equality; apply N.eq_dec|apply token_dec]. Defined.
Definition num (l : list occ) (x : occ) : nat := count_occ occ_dec l x.
Definition cnt (ts : list tk) (x : occ) : nat := num (map fst ts) x.
Definition one (o x : occ) : nat := num [o] x.
Lemma num_app l l' x : num (l ++ l') x = (num l x + num l' x)%nat.
Proof. apply count_occ_app. Qed.
Lemma cnt_app ts us x : cnt (ts ++ us) x = (cnt ts x + cnt us x)%nat.
Proof. unfold cnt. now rewrite map_app, num_app. Qed.
Lemma cnt_sym t sp x : cnt (sym t sp) x = one (t, sp) x.
Proof. reflexivity. Qed.
Lemma cnt_nil x : cnt [] x = 0%nat.
Proof. reflexivity. Qed.
Lemma cnt_cons t sp m r x : cnt ((t, sp, m) :: r) x = (one (t, sp) x + cnt r x)%nat.
Proof. unfold cnt, one. cbn [map fst]. change ((t, sp) :: map fst r) with ([(t, sp)] ++ map fst r). apply num_app. Qed.
Lemma cnt_first ts x : ts <> [] -> exists t, (one (t, first_span ts) x <= cnt ts x)%nat.
Proof. destruct ts as [|[[t sp] m] r]; [congruence|]. intros _. exists t. rewrite cnt_cons. cbn [first_span tk_span fst snd]. lia. Qed.

Section Own.
Context {CS : comspec}.
(** [v] is the span and the comments of a location; they belong to a declaration from the token [s] on, whose head ends with [e]. *)
Definition head_end (h : hkind) (t : token) (e sp : span) : Prop :=
  match h with
  | HBrace => t = TLeftBrace
  | HStmt => t = TSemicolon /\ s_end e = s_end sp
  | HRpc => (t = TSemicolon \/ t = TRightBrace) /\ s_end e = s_end sp
  end.
Definition owner (v : doc) (o : occ * occ) : Prop :=
  let '(h, sp, c) := v in let '((t1, st), (t2, e)) := o in
  com st e c /\ s_start sp = s_start st /\ head_end h t2 e sp.
Definition own (a a' : occ -> nat) (V : list doc) : Prop :=
  exists ds, Forall2 owner V ds /\ forall x, (num (map fst ds) x <= a x)%nat /\ (num (map snd ds) x <= a' x)%nat.

Lemma own_le a a' c c' V : own a a' V -> (forall x, (a x <= c x)%nat /\ (a' x <= c' x)%nat) -> own c c' V.
Proof. intros (ds & F & H) L. exists ds. split; auto. intros x. destruct (H x), (L x). lia. Qed.
Lemma own_nil a a' : own a a' [].
Proof. exists []. split; [constructor|]. intros x. cbn. lia. Qed.
Lemma own_app a a' c c' V W : own a a' V -> own c c' W -> own (fun x => (a x + c x)%nat) (fun x => (a' x + c' x)%nat) (V ++ W).
Proof.
  intros (ds & F & H) (es & G & K). exists (ds ++ es). split; [now apply Forall2_app|]. intros x. rewrite !map_app, !num_app. destruct (H x), (K x). lia.
Qed.
Lemma own_perm a a' V W : Permutation V W -> own a a' V -> own a a' W.
Proof.
  intros P (ds & F & H). assert (X : exists es, Permutation ds es /\ Forall2 owner W es).
  { clear H. revert ds F. induction P as [|v V W P IH|v w V|V W U P1 IH1 P2 IH2]; intros ds F.
    - exists ds. auto.
    - inversion F; subst. destruct (IH _ H3) as (es & E1 & E2). exists (y :: es). split; auto.
    - inversion F; subst. inversion H3; subst. eexists. split; [apply perm_swap|]. auto.
    - destruct (IH1 _ F) as (es & E1 & E2). destruct (IH2 _ E2) as (fs & G1 & G2). exists fs. split; auto. now transitivity es. }
  destruct X as (es & E1 & E2). exists es. split; auto. intros x. destruct (H x) as [H1 H2]. unfold num in *.
  assert (Q : forall l l' : list occ, Permutation l l' -> count_occ occ_dec l' x = count_occ occ_dec l x) by (intros l l2 Hp; symmetry; exact (proj1 (Permutation_count_occ occ_dec l l2) Hp x)).
  rewrite (Q _ _ (Permutation_map fst E1)), (Q _ _ (Permutation_map snd E1)). auto.
Qed.
Lemma own_d1 t1 t2 h st e sp c : com st e c -> s_start sp = s_start st -> head_end h t2 e sp -> own (one (t1, st)) (one (t2, e)) (d1 h sp c).
Proof.
  intros H1 H2 H3. unfold d1. exists [((t1, st), (t2, e))]. split; [constructor; [split; [exact H1|split; [exact H2|exact H3]]|constructor]|]. intros x. cbn [map fst snd]. unfold one. lia.
Qed.
Notation owns ts V := (own (cnt ts) (cnt ts) V).
Lemma own_many {A} (item : list tk -> A -> Prop) (f : A -> list doc) ts l : (forall us a, item us a -> owns us (f a)) -> g_many item ts l -> owns ts (flat_map f l).
Proof.
  intros H. induction 1 as [|ts a ts' l H1 H2 IH]; cbn [flat_map]; [apply own_nil|]. eapply own_le; [apply own_app; [apply H; eauto|exact IH]|]. intros x. cbn. rewrite cnt_app. lia.
Qed.
Lemma perm_split {A} (f g : A -> list doc) l : Permutation (flat_map (fun x => f x ++ g x) l) (flat_map f l ++ flat_map g l).
Proof.
  induction l as [|x l IH]; cbn [flat_map]; [constructor|]. rewrite IH, <- !app_assoc. apply Permutation_app_head. rewrite !app_assoc. apply Permutation_app_tail, Permutation_app_comm.
Qed.
Lemma flat_flat {A B C} (f : A -> list B) (g : B -> list C) l : flat_map g (flat_map f l) = flat_map (fun x => flat_map g (f x)) l.
Proof. induction l as [|x l IH]; cbn; [reflexivity|]. now rewrite flat_map_app, IH. Qed.
Ltac ol := let x := fresh in intros x; cbn beta; rewrite ?cnt_app, ?cnt_sym, ?cnt_nil; lia.
Ltac tail := cbn [join_span s_start s_end fst snd]; auto.

Lemma option_own k ts o : g_option k ts o -> owns ts (d_option o).
Proof. destruct 1 as [st ts o e c H Hc]. eapply own_le; [eapply (own_d1 (kw "option") TSemicolon); [exact Hc|reflexivity|split; auto]|]. ol. Qed.
Lemma reserved_own ts o : g_reserved ts o -> owns ts (d_reserved o).
Proof. destruct 1 as [st ts l e c H Hc|st ts l e c H Hc]; (eapply own_le; [eapply (own_d1 (kw "reserved") TSemicolon); [exact Hc|reflexivity|split; auto]|]); ol. Qed.
Lemma exts_own k ts o : g_extensions k ts o -> owns ts (d_exts o).
Proof. destruct 1 as [st ts l os o e c H1 H2 H3 Hc]. eapply own_le; [eapply (own_d1 (kw "extensions") TSemicolon); [exact Hc|reflexivity|split; auto]|]. ol. Qed.
Lemma value_own k ts o : g_enum_value k ts o -> owns ts (d_value o).
Proof. destruct 1 as [v s0 s ts i os o e c _ _ H1 H2 Hc]. eapply own_le; [eapply (own_d1 (TIdent v) TSemicolon); [exact Hc|reflexivity|split; auto]|]. ol. Qed.

Lemma own_flat {A} (item : list tk -> A -> Prop) (f : A -> list doc) g ts l : (forall us a, item us a -> owns us (f a)) -> Permutation (flat_map f l) g -> g_many item ts l -> owns ts g.
Proof. intros H P G. eapply own_perm; [exact P|]. eapply own_many; eauto. Qed.
Lemma enum_own k ts o : g_enum k ts o -> owns ts (d_enum o).
Proof.
  destruct 1 as [st v s0 s es l e c H Hc]. unfold d_enum. cbn [en_span en_comments en_values en_reserved en_options]. rewrite !flat_flat.
  eapply own_le; [apply own_app; [eapply (own_d1 (kw "enum")); [exact Hc|reflexivity|reflexivity]|eapply own_flat; [|etransitivity; [apply perm_split|apply Permutation_app_head, perm_split]|exact H]]|ol].
  intros us a G. destruct G; cbn [flat_map app]; rewrite ?app_nil_r; [apply own_nil|eapply option_own; eauto|eapply reserved_own; eauto|eapply value_own; eauto].
Qed.
Lemma somes_flat {A} (f : A -> list doc) (l : list (option A)) : flat_map f (somes l) = flat_map (fun o => match o with Some x => f x | None => [] end) l.
Proof. unfold somes. rewrite flat_flat. apply flat_map_ext. intros [x|]; cbn; [apply app_nil_r|reflexivity]. Qed.
Lemma rpc_own k ts os e : g_rpc_end k ts (os, e) -> exists t us, (t = TSemicolon \/ t = TRightBrace) /\ owns us (flat_map d_option os) /\ forall x, (one (t, e) x + cnt us x <= cnt ts x)%nat.
Proof.
  inversion 1 as [sp|sp es l e' G]; subst.
  - exists TSemicolon, []. split; [auto|]. split; [apply own_nil|]. ol.
  - exists TRightBrace, es. split; [auto|]. split; [|ol]. rewrite somes_flat. eapply own_many; [|exact G]. intros us a Ga. destruct Ga; [apply own_nil|eapply option_own; eauto].
Qed.
Lemma method_own k ts o : g_method k ts o -> owns ts (d_method o).
Proof.
  destruct 1 as [st v s0 p1 its cs it p2 r p3 ots ss ot p4 ets os e c H1 H2 H3 Hc]. destruct (rpc_own _ _ _ _ H3) as (t & us & Ht & Ho & Hx). unfold d_method. cbn [me_span me_comments me_options].
  eapply own_le; [apply own_app; [eapply (own_d1 (kw "rpc") t); [exact Hc|reflexivity|split; auto]|exact Ho]|]. intros x. specialize (Hx x). revert x Hx. intros x. cbn beta. rewrite ?cnt_app, ?cnt_sym. lia.
Qed.
Lemma service_own k ts o : g_service k ts o -> owns ts (d_service o).
Proof.
  destruct 1 as [st v s0 s es l e c H Hc]. unfold d_service. cbn [sv_span sv_comments sv_methods sv_options]. rewrite !flat_flat.
  eapply own_le; [apply own_app; [eapply (own_d1 (kw "service")); [exact Hc|reflexivity|reflexivity]|eapply own_flat; [|apply perm_split|exact H]]|ol].
  intros us a G. destruct G; cbn [flat_map app]; rewrite ?app_nil_r; [apply own_nil|eapply option_own; eauto|eapply method_own; eauto].
Qed.

Section GB.
Variable k : cfg.
Variable gb : list tk -> body * span -> Prop.
Hypothesis gb_own : forall ts bd e, gb ts (bd, e) -> owns ts (d_body bd).
Lemma cnt_start ts us : ts <> [] -> exists t, forall x, (one (t, first_span (ts ++ us)) x <= cnt ts x)%nat.
Proof. destruct ts as [|[[t sp] m] r]; [congruence|]. intros _. exists t. intros x. rewrite cnt_cons. cbn [app first_span tk_span fst snd]. lia. Qed.
Lemma field_own ts f : g_field k gb ts f -> owns ts (d_field d_body f).
Proof.
  destruct 1 as [ls lb ts f H1 H2 H3].
  remember (first_span (ls ++ ts)) as start eqn:Es. destruct H3 as [ts t tsp sp1 v sp2 ts' n os o e c Hn G1 G2 G3 Hc|m0 m1 kts kt ksp m2 vts vt vsp m3 v sp1 sp2 ts' n os o e c G1 G2 G3 G4 Hc|m0 v sp1 sp2 ts' n os o sp3 bts bd e c Hv G1 G2 G3 Hc];
    unfold d_field; cbn [fd_span fd_comments fd_kind]; rewrite ?app_nil_r.
  - destruct (cnt_start (ls ++ ts ++ sym (TIdent v) sp1 ++ sym TEquals sp2 ++ ts' ++ os ++ sym TSemicolon e) []) as (t0 & Ht); [intros Ez; repeat (apply app_eq_nil in Ez; destruct Ez as [? Ez]); discriminate|].
    rewrite app_nil_r in Ht. rewrite <- Es in Ht.
    eapply own_le; [eapply (own_d1 t0 TSemicolon); [exact Hc|reflexivity|split; auto]|]. intros x. split; [apply Ht|]. rewrite !cnt_app, !cnt_sym. lia.
  - destruct (cnt_start (ls ++ sym (kw "map") m0) (sym TLeftAngle m1 ++ kts ++ sym TComma m2 ++ vts ++ sym TRightAngle m3 ++ sym (TIdent v) sp1 ++ sym TEquals sp2 ++ ts' ++ os ++ sym TSemicolon e)) as (t0 & Ht); [intros Ez; apply app_eq_nil in Ez; destruct Ez; discriminate|].
    rewrite <- app_assoc, <- Es in Ht.
    eapply own_le; [eapply (own_d1 t0 TSemicolon); [exact Hc|reflexivity|split; auto]|]. intros x. specialize (Ht x). rewrite !cnt_app, !cnt_sym in *. lia.
  - destruct (cnt_start (ls ++ sym (kw "group") m0) (sym (TIdent v) sp1 ++ sym TEquals sp2 ++ ts' ++ os ++ sym TLeftBrace sp3 ++ bts)) as (t0 & Ht); [intros Ez; apply app_eq_nil in Ez; destruct Ez; discriminate|].
    rewrite <- app_assoc, <- Es in Ht.
    eapply own_le; [apply own_app; [eapply (own_d1 t0 TLeftBrace); [exact Hc|reflexivity|reflexivity]|eapply gb_own; exact G3]|]. intros x. specialize (Ht x). cbn beta. rewrite !cnt_app, !cnt_sym in *. lia.
Qed.
Lemma extend_own ts o : g_extend k gb ts o -> owns ts (d_extend d_body o).
Proof.
  destruct 1 as [st ts n sp es l e c H1 H Hc]. unfold d_extend. cbn [et_span et_comments et_fields]. rewrite somes_flat.
  eapply own_le; [apply own_app; [eapply (own_d1 (kw "extend")); [exact Hc|reflexivity|reflexivity]|eapply own_many; [|exact H]]|ol].
  intros us a G. destruct G; [apply own_nil|apply field_own; auto].
Qed.
Lemma oneof_own ts o : g_oneof k gb ts o -> owns ts (d_oneof d_body o).
Proof.
  destruct 1 as [st v s0 s es l e c H Hc]. unfold d_oneof. cbn [oo_span oo_comments oo_options oo_fields]. rewrite !flat_flat.
  eapply own_le; [apply own_app; [eapply (own_d1 (kw "oneof")); [exact Hc|reflexivity|reflexivity]|eapply own_flat; [|apply perm_split|exact H]]|ol].
  intros us a G. destruct G; cbn [flat_map app]; rewrite ?app_nil_r; [apply own_nil|eapply option_own; eauto|apply field_own; auto].
Qed.
Lemma message_own ts o : g_message gb ts o -> owns ts (d_message d_body o).
Proof.
  destruct 1 as [st v s0 s ts bd e c H Hc]. unfold d_message. cbn [ms_span ms_comments ms_body].
  eapply own_le; [apply own_app; [eapply (own_d1 (kw "message")); [exact Hc|reflexivity|reflexivity]|eapply gb_own; exact H]|ol].
Qed.
Lemma body_elem_own ts x : g_body_elem k gb ts x ->
  owns ts (flat_map (d_item d_body) (be_item x) ++ flat_map d_reserved (be_reserved x) ++ flat_map d_exts (be_extensions x) ++ flat_map d_option (be_option x)).
Proof.
  destruct 1; cbn [be_item be_reserved be_extensions be_option flat_map d_item app]; rewrite ?app_nil_r; [apply own_nil|apply oneof_own; auto|eapply enum_own; eauto|apply message_own; auto|apply extend_own; auto|eapply option_own; eauto|eapply reserved_own; eauto|eapply exts_own; eauto|apply field_own; auto].
Qed.
End GB.
Lemma body_own_n k n : forall ts bd e, g_body_n k n ts (bd, e) -> owns ts (d_body bd).
Proof.
  induction n as [|n IH]; intros ts bd e; [intros []|]. intros (es & l & H & -> & Eb). cbn [fst] in Eb. subst bd. cbn [d_body snd]. rewrite !flat_flat.
  eapply own_le; [eapply own_flat; [intros us a Ha; eapply body_elem_own; [exact IH|exact Ha]| |exact H]|ol].
  etransitivity; [apply perm_split|]. apply Permutation_app_head. etransitivity; [apply perm_split|]. apply Permutation_app_head. apply perm_split.
Qed.
Lemma body_own k ts bd e : g_body k ts (bd, e) -> owns ts (d_body bd).
Proof. intros (n & H). eapply body_own_n; eauto. Qed.
Lemma package_own ts o : g_package ts o -> owns ts (d_package o).
Proof. destruct 1 as [st ts n e c H Hc]. eapply own_le; [eapply (own_d1 (kw "package") TSemicolon); [exact Hc|reflexivity|split; auto]|]. ol. Qed.
Lemma import_own ts o : g_import ts o -> owns ts (d_import o).
Proof. destruct 1 as [st ks ik ts v vs e c H1 H2 H3 Hc]. eapply own_le; [eapply (own_d1 (kw "import") TSemicolon); [exact Hc|reflexivity|split; auto]|]. ol. Qed.
Lemma statement_own k ts x : g_statement k ts x ->
  owns ts (flat_map d_package (st_packages x) ++ flat_map d_import (st_imports x) ++ flat_map d_fitem (st_items x) ++ flat_map d_option (st_options x)).
Proof.
  destruct 1; cbn [st_packages st_imports st_items st_options flat_map d_fitem app]; rewrite ?app_nil_r; [apply own_nil|apply package_own; auto|apply import_own; auto|eapply option_own; eauto| |eapply enum_own; eauto|eapply service_own; eauto|].
  - eapply message_own; [|eassumption]. apply body_own.
  - eapply extend_own; [|eassumption]. apply body_own.
Qed.
Lemma file_own k n ts f : g_file k n ts f -> owns ts (d_file f).
Proof.
  destruct 1 as [ss sx sxs ts l pkg H1 H2 H3]. unfold d_file. cbn [fi_package fi_imports fi_items fi_options fi_syntax_span]. rewrite <- H3, !flat_flat.
  rewrite !app_assoc. rewrite <- !app_assoc. eapply own_perm; [rewrite !app_assoc; apply Permutation_app_comm|]. rewrite <- !app_assoc.
  eapply own_le; [apply own_app; [|eapply own_flat; [intros us a Ha; eapply statement_own; exact Ha| |exact H2]]|].
  - instantiate (1 := cnt ss). instantiate (1 := cnt ss). destruct H1 as [|st sp ts0 v e c sx G Ev Hc]; [apply own_nil|]. cbn [d_syn].
    eapply own_le; [eapply (own_d1 (kw "syntax") TSemicolon); [exact Hc|reflexivity|split; auto]|]. ol.
  - etransitivity; [apply perm_split|]. apply Permutation_app_head. etransitivity; [apply perm_split|]. apply Permutation_app_head. apply perm_split.
  - ol.
Qed.
(** Locations with comments, whatever the kind of declaration. *)
Definition owner0 (v : span * acomments) (o : occ * occ) : Prop := exists h, owner (h, fst v, snd v) o.
Lemma own_vd a a' V : own a a' V -> exists ds, Forall2 owner0 (vd V) ds /\ forall x, (num (map fst ds) x <= a x)%nat /\ (num (map snd ds) x <= a' x)%nat.
Proof.
  intros (ds & F & H). assert (K : exists es, Forall2 owner0 (vd V) es /\ forall x, (num (map fst es) x <= num (map fst ds) x)%nat /\ (num (map snd es) x <= num (map snd ds) x)%nat).
  { clear H. induction F as [|[[h sp] c] o V ds Ho F (es & G & Hx)]; [exists []; split; [constructor|]; cbn; lia|].
    unfold vd. cbn [map filter fst snd]. destruct (has_comments c).
    - exists (o :: es). split; [constructor; [exists h; exact Ho|exact G]|]. intros x. specialize (Hx x). cbn [map]. change (fst o :: map fst es) with ([fst o] ++ map fst es). change (fst o :: map fst ds) with ([fst o] ++ map fst ds).
      change (snd o :: map snd es) with ([snd o] ++ map snd es). change (snd o :: map snd ds) with ([snd o] ++ map snd ds). rewrite !num_app. lia.
    - exists es. split; [exact G|]. intros x. specialize (Hx x). cbn [map]. change (fst o :: map fst ds) with ([fst o] ++ map fst ds). change (snd o :: map snd ds) with ([snd o] ++ map snd ds). rewrite !num_app. lia. }
  destruct K as (es & G & Hx). exists es. split; auto. intros x. specialize (H x). specialize (Hx x). lia.
Qed.
End Own.
