(** The spans of the locations of an accepted file are nested or disjoint. *)
From Verif Require Import Base Utf8 Errors Lex Ast Parse LexSafe Descriptor Generate Grammar Classify Walk WalkG1 WalkG2 WalkG3 AstWf AstWfG Meaning Erase AstNames AstNest.

Definition lam2 (x y : span) : Prop := inn x y \/ inn y x \/ s_end x <= s_start y \/ s_end y <= s_start x.
(** Non-empty spans between two offsets, nested or disjoint. *)
Definition seg (lo hi : N) (l : list span) : Prop :=
  (forall x, In x l -> lo <= s_start x /\ s_start x < s_end x /\ s_end x <= hi) /\ (forall x y, In x l -> In y l -> lam2 x y).
Lemma seg_nil lo hi : seg lo hi [].
Proof. split; [intros ? []|intros ? ? []]. Qed.
Lemma seg_incl lo hi l l' : seg lo hi l -> incl l' l -> seg lo hi l'.
Proof. intros [H1 H2] I. split; intros; auto. Qed.
Lemma seg_weak lo hi lo' hi' l : seg lo hi l -> lo' <= lo -> hi <= hi' -> seg lo' hi' l.
Proof. intros [H1 H2] A1 A2. split; [|exact H2]. intros x Hx. specialize (H1 x Hx). lia. Qed.
Lemma seg_app lo m m' hi l1 l2 : seg lo m l1 -> seg m' hi l2 -> lo <= m -> m <= m' -> m' <= hi -> seg lo hi (l1 ++ l2).
Proof.
  intros [A1 A2] [C1 C2] H0 H1 H2. split.
  - intros x Hx. apply in_app_iff in Hx. destruct Hx as [Hx|Hx]; [specialize (A1 _ Hx)|specialize (C1 _ Hx)]; lia.
  - intros x y Hx Hy. apply in_app_iff in Hx, Hy. destruct Hx as [Hx|Hx], Hy as [Hy|Hy]; auto; unfold lam2; [specialize (A1 _ Hx); specialize (C1 _ Hy)|specialize (A1 _ Hy); specialize (C1 _ Hx)]; lia.
Qed.
Lemma seg_whole lo hi x l : seg (s_start x) (s_end x) l -> lo <= s_start x -> s_start x < s_end x -> s_end x <= hi -> seg lo hi (x :: l).
Proof.
  intros [A1 A2] H1 H2 H3. split.
  - intros y [<-|Hy]; [lia|]. specialize (A1 _ Hy). lia.
  - intros y z [<-|Hy] [<-|Hz]; auto; unfold lam2, inn; try (left; lia).
    + left. specialize (A1 _ Hz). lia.
    + right; left. specialize (A1 _ Hy). lia.
Qed.
Lemma seg_one lo hi x : lo <= s_start x -> s_start x < s_end x -> s_end x <= hi -> seg lo hi [x].
Proof. intros. apply seg_whole; auto. apply seg_nil. Qed.
Lemma seg_cons lo m hi x l : lo <= s_start x -> s_start x < s_end x -> s_end x <= m -> m <= hi -> seg m hi l -> seg lo hi (x :: l).
Proof. intros H1 H2 H3 H4 H. apply (seg_app lo (s_end x) m hi [x] l); auto; try lia. apply seg_one; lia. Qed.

(** ** The spans of a declaration, wherever its path *)
Definition s_ob (o : optbody) : list span := [body_span o; optval_span (ob_value o)].
Definition s_optlist (o : option optlist) : list span := match o with None => [] | Some l => ol_span l :: flat_map s_ob (ol_options l) end.
Definition s_op (o : option_) : list span := [op_span o; optval_span (ob_value (op_body o))].
Definition s_options (l : list option_) : list span := flat_map s_op l.
Definition s_range (r : rrange) : list span := [rr_span r; i_span (rr_start r); rr_end_span r].
Definition s_reserved (r : reserved) : list span :=
  rs_span r :: match rs_kind r with RKRanges l => flat_map s_range l | RKNames l => map id_span l end.
Definition s_exts (x : extensions) : list span := ex_span x :: flat_map s_range (ex_ranges x) ++ s_optlist (ex_options x).
Definition s_value (v : enum_value) : list span := ev_span v :: id_span (ev_name v) :: i_span (ev_number v) :: s_optlist (ev_options v).
Definition s_enum (e : enum) : list span :=
  en_span e :: id_span (en_name e) :: flat_map s_value (en_values e) ++ flat_map s_reserved (en_reserved e) ++ s_options (en_options e).
Definition s_opt (o : option span) : list span := match o with Some sp => [sp] | None => [] end.
Definition s_method (m : method) : list span :=
  me_span m :: id_span (me_name m) :: s_opt (me_client m) ++ tname_span (me_input m) :: s_opt (me_server m) ++ tname_span (me_output m) :: s_options (me_options m).
Definition s_service (s : service) : list span := sv_span s :: id_span (sv_name s) :: flat_map s_method (sv_methods s) ++ s_options (sv_options s).
Section WithBody.
Context {B : Type}.
Variable sb : B -> list span.
Definition s_kind (x : fkind_ B) : list span :=
  match x with FKNormal (TyNamed n) _ => [tname_span n] | FKNormal _ sp => [sp] | FKGroup sp _ => [sp] | FKMap sp _ ks _ _ => [sp; ks] end.
Definition s_tail (x : fkind_ B) : list span := match x with FKGroup _ bd => sb bd | _ => [] end.
Definition s_field (f : field_ B) : list span :=
  fd_span f :: s_opt (option_map snd (fd_label f)) ++ s_kind (fd_kind f) ++ id_span (fd_name f) :: i_span (fd_number f) :: s_optlist (fd_options f) ++ s_tail (fd_kind f).
Definition s_extend (e : extend_ B) : list span := et_span e :: tname_span (et_extendee e) :: flat_map s_field (et_fields e).
Definition s_oneof (o : oneof_ B) : list span := oo_span o :: id_span (oo_name o) :: s_options (oo_options o) ++ flat_map s_field (oo_fields o).
Definition s_message (m : message_ B) : list span := ms_span m :: id_span (ms_name m) :: sb (ms_body m).
Definition s_item (it : mitem_ B) : list span :=
  match it with MIField f => s_field f | MIEnum e => s_enum e | MIMessage m => s_message m | MIExtend e => s_extend e | MIOneof o => s_oneof o end.
End WithBody.
Fixpoint s_body (bd : body) : list span :=
  match bd with Body items exts opts res => flat_map (s_item s_body) items ++ flat_map s_reserved res ++ flat_map s_exts exts ++ s_options opts end.
Definition s_import (im : import) : list span := im_span im :: s_opt (option_map snd (im_kind im)).
Definition s_fitem (it : fitem) : list span :=
  match it with FIMessage m => s_message s_body m | FIEnum e => s_enum e | FIService s => s_service s | FIExtend e => s_extend s_body e end.
Definition s_file (f : file) : list span :=
  fi_span f :: s_opt (option_map pk_span (fi_package f)) ++ flat_map s_import (fi_imports f) ++ flat_map s_fitem (fi_items f) ++ s_options (fi_options f) ++ s_opt (option_map fst (fi_syntax_span f)).

(** ** The locations have these spans *)
Definition sps (l : list rawloc) : list span := map (fun x => snd (fst x)) l.
Lemma sps_app a c : sps (a ++ c) = sps a ++ sps c.
Proof. apply map_app. Qed.
Lemma sps_idx {A} (f : Z -> A -> list rawloc) (S : A -> list span) l : (forall n x, In x l -> incl (sps (f n x)) (S x)) -> forall i, incl (sps (l_idx f i l)) (flat_map S l).
Proof.
  induction l as [|x l IH]; intros H i; cbn [l_idx flat_map]; [apply incl_refl|]. rewrite sps_app. apply incl_app; [apply incl_appl, H; now left|apply incl_appr, IH; intros; apply H; now right].
Qed.
Lemma flat_map_single {A C} (f : A -> C) l : flat_map (fun x => [f x]) l = map f l.
Proof. induction l; cbn; congruence. Qed.
Lemma flat_map_mono {A C} (f g : A -> list C) l : (forall x, In x l -> incl (f x) (g x)) -> incl (flat_map f l) (flat_map g l).
Proof. intros H y Hy. apply in_flat_map in Hy. destruct Hy as (x & Hx & Hy). apply in_flat_map. exists x. split; [exact Hx|]. now apply (H x Hx). Qed.
Lemma flat_map_incl {A C} (f : A -> list C) l l' : incl l l' -> incl (flat_map f l) (flat_map f l').
Proof. intros H y Hy. apply in_flat_map in Hy. destruct Hy as (x & Hx & Hy). apply in_flat_map. eauto. Qed.
Ltac inc := repeat first [apply incl_nil_l | apply incl_cons; [do 4 (cbn [In app]; rewrite ?in_app_iff); tauto|] | apply incl_refl].
Lemma sps_options p l : incl (sps (l_options p l)) (s_options l).
Proof. unfold l_options, s_options. apply sps_idx. intros n x _. cbn. intros y [<-|[<-|[]]]; now left. Qed.
Lemma drop_incl n l : incl (drop_called n l) l.
Proof. induction l as [|o l IH]; cbn [drop_called]; [apply incl_refl|]. destruct (called n o); [apply incl_tl, incl_refl|]. apply incl_cons; [now left|apply incl_tl, IH]. Qed.
Lemma sps_optlist p o : incl (sps (l_optlist p o)) (s_optlist o).
Proof.
  destruct o as [l|]; [|apply incl_refl]. cbn [l_optlist s_optlist sps map at_ fst snd]. apply incl_cons; [now left|]. apply incl_tl. apply sps_idx. intros n x _ y [<-|[]]. now left.
Qed.
Lemma sps_range p r : incl (sps (l_range p r)) (s_range r).
Proof. apply incl_refl. Qed.
Lemma sps_reserved rt nt p rs : forall i j, incl (sps (l_reserved rt nt p i j rs)) (flat_map s_reserved rs).
Proof.
  induction rs as [|r rs IH]; intros i j; cbn [l_reserved flat_map]; [apply incl_refl|]. rewrite sps_app. apply incl_app; [apply incl_appl|apply incl_appr, IH]. unfold s_reserved.
  destruct (rs_kind r) as [l|l]; cbn [sps map fst snd]; (apply incl_cons; [now left|]); apply incl_tl; [apply sps_idx; intros; apply sps_range|].
  rewrite <- (flat_map_single id_span). apply (sps_idx _ (fun x => [id_span x])). intros n x _. apply incl_refl.
Qed.
Lemma sps_value p v : incl (sps (l_enum_value p v)) (s_value v).
Proof. unfold l_enum_value, s_value, at_. cbn [sps map fst snd]. apply incl_cons; [now left|]. apply incl_cons; [cbn; tauto|]. apply incl_cons; [cbn; tauto|]. do 3 apply incl_tl. apply sps_optlist. Qed.
Lemma sps_enum p e : incl (sps (l_enum p e)) (s_enum e).
Proof.
  unfold l_enum, s_enum, at_. cbn [sps map fst snd]. apply incl_cons; [now left|]. apply incl_cons; [cbn; tauto|]. do 2 apply incl_tl. fold (sps (l_idx (fun i v => l_enum_value (p ++ [2%Z; i]) v) 0 (en_values e) ++ l_reserved 4%Z 5%Z p 0 0 (en_reserved e) ++ l_options (p ++ [3%Z]) (en_options e))).
  rewrite !sps_app. apply incl_app; [apply incl_appl, sps_idx; intros; apply sps_value|apply incl_appr, incl_app; [apply incl_appl, sps_reserved|apply incl_appr, sps_options]].
Qed.
Lemma sps_opt p o : sps (opt_loc p o) = s_opt o.
Proof. destruct o; reflexivity. Qed.
Lemma sps_method p m : incl (sps (l_method p m)) (s_method m).
Proof.
  unfold l_method, s_method, at_. cbn [sps map fst snd]. fold (sps (opt_loc (p ++ [5%Z]) (me_client m) ++ opt_loc (p ++ [6%Z]) (me_server m) ++ l_options (p ++ [4%Z]) (me_options m))).
  rewrite !sps_app, !sps_opt. inc. pose proof (sps_options (p ++ [4%Z]) (me_options m)) as H. intros y Hy. specialize (H y). rewrite ?in_app_iff in Hy. do 4 (cbn [In]; rewrite ?in_app_iff). tauto.
Qed.
Lemma sps_service p s : incl (sps (l_service p s)) (s_service s).
Proof.
  unfold l_service, s_service, at_. cbn [sps map fst snd]. fold (sps (l_idx (fun i m => l_method (p ++ [2%Z; i]) m) 0 (sv_methods s) ++ l_options (p ++ [3%Z]) (sv_options s))). inc. do 2 apply incl_tl.
  rewrite sps_app. apply incl_app; [apply incl_appl, sps_idx; intros; apply sps_method|apply incl_appr, sps_options].
Qed.
Lemma sps_extensions p l : forall i, incl (sps (l_extensions p i l)) (flat_map s_exts l).
Proof.
  induction l as [|x l IH]; intros i; cbn [l_extensions flat_map]; [apply incl_refl|]. unfold s_exts at 1. cbn [sps map fst snd app]. apply incl_cons; [now left|]. apply incl_tl.
  fold (sps (l_idx (fun n rr => l_range (p ++ [n]) rr ++ l_optlist (p ++ [n; 3%Z]) (ex_options x)) i (ex_ranges x) ++ l_extensions p (i + len (ex_ranges x)) l)). rewrite sps_app. apply incl_app; [apply incl_appl|apply incl_appr, IH].
  eapply incl_tran; [apply (sps_idx _ (fun rr => s_range rr ++ s_optlist (ex_options x)))|].
  - intros n rr _. rewrite sps_app. apply incl_app; [apply incl_appl, sps_range|apply incl_appr, sps_optlist].
  - intros y Hy. apply in_flat_map in Hy. destruct Hy as (rr & Hr & Hy). apply in_app_iff in Hy. apply in_app_iff. destruct Hy as [Hy|Hy]; [left; apply in_flat_map; eauto|now right].
Qed.
Section Fields.
Context {B : Type}.
Variable k : cfg.
Variable syn : syntax.
Variable dbody : B -> msg_desc.
Variable lbody : list Z -> B -> list rawloc.
Variable sb : B -> list span.
Definition bodies_ok (f : field_ B) : Prop := match fd_kind f with FKGroup _ bd => forall mp, incl (sps (lbody mp bd)) (sb bd) | _ => True end.
Lemma sps_label p sc f : incl (sps (l_label syn p sc f)) (s_opt (option_map snd f)).
Proof. unfold l_label. destruct (den_label _ sc f); [|apply incl_nil_l]. destruct f as [[? ?]|]; apply incl_refl. Qed.
Lemma find_in (f : field_ B) n o : find (called n) (optlist_options (fd_options f)) = Some o -> In (body_span o) (s_optlist (fd_options f)) /\ In (optval_span (ob_value o)) (s_optlist (fd_options f)).
Proof.
  intros H. apply find_some in H. destruct H as [H _]. destruct (fd_options f) as [l|]; [|destruct H]. cbn [optlist_options s_optlist] in *. split; right; apply in_flat_map; exists o; (split; [exact H|cbn; tauto]).
Qed.
Lemma sps_field sc fp mp f : bodies_ok f -> incl (sps (l_field syn lbody sc fp mp f)) (s_field sb f).
Proof.
  intros Hb. assert (Hd : incl (sps (l_default fp f)) (s_optlist (fd_options f))).
  { unfold l_default, default_of. destruct (find _ _) as [o|] eqn:E; [|apply incl_nil_l]. apply find_in in E. cbn. intros y [<-|[]]. tauto. }
  assert (Hj : incl (sps (match json_of f with Some o => [at_ (fp ++ [10%Z]) (body_span o); at_ (fp ++ [10%Z]) (optval_span (ob_value o))] | None => [] end)) (s_optlist (fd_options f))).
  { unfold json_of. destruct (find _ _) as [o|] eqn:E; [|apply incl_nil_l]. apply find_in in E. cbn. intros y [<-|[<-|[]]]; tauto. }
  assert (Hr : incl (sps (l_optlist (fp ++ [8%Z]) (rest_options f))) (s_optlist (fd_options f))).
  { eapply incl_tran; [apply sps_optlist|]. unfold rest_options. destruct (fd_options f) as [l|]; [|apply incl_nil_l]. cbn [option_map s_optlist ol_span ol_options]. apply incl_cons; [now left|]. apply incl_tl, flat_map_incl. eapply incl_tran; apply drop_incl. }
  pose proof (sps_label fp sc (fd_label f)) as Hl. unfold l_field, s_field, bodies_ok in *. rewrite !sps_app.
  intros y Hy. rewrite !in_app_iff in Hy. cbn [In]. rewrite !in_app_iff. cbn [In]. rewrite !in_app_iff.
  destruct Hy as [Hy|[Hy|[Hy|Hy]]]; [cbn in Hy; tauto| |apply Hj in Hy; tauto|apply Hr in Hy; tauto].
  destruct (fd_kind f) as [t tsp|tsp bd|tsp kt ksp vt vsp].
  - destruct t; rewrite !sps_app, !in_app_iff in Hy; cbn [sps map at_ fst snd In s_kind] in *; specialize (Hl y); specialize (Hd y); tauto.
  - rewrite !sps_app, !in_app_iff in Hy. cbn [sps map at_ fst snd In s_kind s_tail] in *. specialize (Hl y). specialize (Hb mp y). tauto.
  - cbn [sps map at_ fst snd In s_kind] in *. tauto.
Qed.
Lemma sps_fields sc extra ft mt p l (S0 : list span) : (forall fp, incl (sps (extra fp)) S0) -> Forall bodies_ok l -> forall i j,
  incl (sps (l_fields syn dbody lbody sc extra ft mt p i j l)) (S0 ++ flat_map (s_field sb) l).
Proof.
  intros H0. induction 1 as [|f l Hf Hl IH]; intros i j; cbn [l_fields flat_map]; [apply incl_nil_l|]. rewrite !sps_app. apply incl_app; [apply incl_appl, H0|]. apply incl_app; [apply incl_appr, incl_appl, sps_field, Hf|].
  eapply incl_tran; [apply IH|]. apply incl_app; [apply incl_appl, incl_refl|apply incl_appr, incl_appr, incl_refl].
Qed.
Lemma sps_extend xt mt p i j e : Forall bodies_ok (et_fields e) -> incl (sps (l_extend syn dbody lbody xt mt p i j e)) (s_extend sb e).
Proof.
  intros H. unfold l_extend, s_extend. cbn [sps map fst snd]. apply incl_cons; [now left|]. apply incl_tl. apply (sps_fields _ _ _ _ _ _ [tname_span (et_extendee e)]); [intros; apply incl_refl|exact H].
Qed.
Definition item_ok (it : mitem_ B) : Prop :=
  match it with
  | MIField f => bodies_ok f
  | MIEnum _ => True
  | MIMessage m => forall mp, incl (sps (lbody mp (ms_body m))) (sb (ms_body m))
  | MIExtend e => Forall bodies_ok (et_fields e)
  | MIOneof o => Forall bodies_ok (oo_fields o)
  end.
Lemma sps_message p m : (forall mp, incl (sps (lbody mp (ms_body m))) (sb (ms_body m))) -> incl (sps (l_message lbody p m)) (s_message sb m).
Proof. intros H. unfold l_message, s_message, at_. cbn [sps map fst snd]. inc. do 2 apply incl_tl. apply H. Qed.
Lemma sps_items p items : Forall item_ok items -> forall nf nx nm ne no, incl (sps (l_items k syn dbody lbody p nf nx nm ne no items)) (flat_map (s_item sb) items).
Proof.
  induction 1 as [|it items Hi Hl IH]; intros nf nx nm ne no; cbn [l_items flat_map]; [apply incl_refl|]. rewrite sps_app. apply incl_app; [apply incl_appl|apply incl_appr, IH].
  destruct it as [f|e|m|e|o]; cbn [item_ok s_item] in *; [now apply sps_field|apply sps_enum|now apply sps_message|now apply sps_extend|].
  unfold s_oneof, at_. cbn [sps map fst snd]. inc. do 2 apply incl_tl. fold (sps (l_options (p ++ [8%Z; Z.of_N no; 2%Z]) (oo_options o) ++ l_fields syn dbody lbody ScOneof (fun _ => []) 2%Z 3%Z p nf nm (oo_fields o))).
  rewrite sps_app. apply incl_app; [apply incl_appl, sps_options|]. apply incl_appr. apply (sps_fields _ _ _ _ _ _ []); [intros; apply incl_refl|exact Hi].
Qed.
End Fields.
Section Files.
Variable k : cfg.
Variable syn : syntax.
Lemma on_item_ok it : on_item (fun bd => forall mp, incl (sps (l_body k syn mp bd)) (s_body bd)) it -> item_ok (l_body k syn) s_body it.
Proof.
  assert (G : forall f, on_kind (fun bd => forall mp, incl (sps (l_body k syn mp bd)) (s_body bd)) f -> bodies_ok (l_body k syn) s_body f) by (intros f; unfold bodies_ok, on_kind; destruct (fd_kind f); auto).
  destruct it; unfold on_item, item_ok; auto; intros H; (eapply Forall_impl; [|exact H]); exact G.
Qed.
Lemma sps_body bd : forall p, incl (sps (l_body k syn p bd)) (s_body bd).
Proof.
  induction bd as [items exts opts res IH] using body_rect'. intros p. cbn [l_body s_body]. rewrite !sps_app.
  apply incl_app; [apply incl_appl, sps_items; eapply Forall_impl; [|exact IH]; apply on_item_ok|apply incl_appr]. apply incl_app; [apply incl_appl, sps_reserved|apply incl_appr]. apply incl_app; [apply incl_appl, sps_extensions|apply incl_appr, sps_options].
Qed.
Lemma all_bodies (l : list (field_ body)) : Forall (bodies_ok (l_body k syn) s_body) l.
Proof. apply Forall_forall. intros f _. unfold bodies_ok. destruct (fd_kind f); auto. intros mp. apply sps_body. Qed.
Lemma sps_imports p l : forall i pub weak, incl (sps (l_imports p i pub weak l)) (flat_map s_import l).
Proof.
  induction l as [|im l IH]; intros i pub weak; cbn [l_imports flat_map]; [apply incl_refl|]. unfold s_import at 1. cbn [sps map fst snd app]. apply incl_cons; [now left|]. apply incl_tl.
  match goal with |- incl (map _ ?a) _ => fold (sps a) end. rewrite sps_app. apply incl_app; [apply incl_appl|apply incl_appr, IH]. destruct (im_kind im) as [[[] ?]|]; apply incl_refl.
Qed.
Lemma sps_fitems p l : forall nm ne ns nx, incl (sps (l_fitems k syn p nm ne ns nx l)) (flat_map s_fitem l).
Proof.
  induction l as [|it l IH]; intros nm ne ns nx; cbn [l_fitems flat_map]; [apply incl_refl|]. rewrite sps_app. apply incl_app; [apply incl_appl|apply incl_appr, IH].
  destruct it; cbn [s_fitem]; [apply sps_enum|apply sps_message; intros; apply sps_body|apply sps_extend, all_bodies|apply sps_service].
Qed.
Lemma sps_file f : incl (sps (l_file k syn f)) (s_file f).
Proof.
  unfold l_file, s_file, at_. cbn [sps map fst snd]. apply incl_cons; [now left|]. apply incl_tl. match goal with |- incl (map _ ?a) _ => fold (sps a) end. rewrite !sps_app.
  apply incl_app; [apply incl_appl; destruct (fi_package f); apply incl_refl|apply incl_appr]. apply incl_app; [apply incl_appl, sps_imports|apply incl_appr]. apply incl_app; [apply incl_appl, sps_fitems|apply incl_appr].
  apply incl_app; [apply incl_appl, sps_options|apply incl_appr]. destruct (fi_syntax_span f) as [[? ?]|]; apply incl_refl.
Qed.
End Files.

(** ** What the grammar says about the spans *)
Section Many.
Context {A : Type}.
Variable item : list tk -> A -> Prop.
Variable S : A -> list span.
Hypothesis F : forall ts a lo hi, item ts a -> tok_in lo hi ts -> seg lo hi (S a).
Lemma many_seg ts l : g_many item ts l -> forall lo hi, tok_in lo hi ts -> seg lo hi (flat_map S l).
Proof.
  induction 1 as [|ts a ts' l H1 H2 IH]; intros lo hi T; cbn [flat_map]; [apply seg_nil|]. tsplit. eapply seg_app; [eapply F; eauto|eapply IH; eauto|tle; lia..].
Qed.
Lemma sep_seg t ts l : g_sep t item ts l -> forall lo hi, tok_in lo hi ts -> seg lo hi (flat_map S l).
Proof.
  induction 1 as [ts a H1|ts a s ts' l H1 H2 IH]; intros lo hi T; cbn [flat_map]; [rewrite app_nil_r; eauto|]. tsplit. eapply seg_app; [eapply F; eauto|eapply IH; eauto|tle; lia..].
Qed.
End Many.
Ltac sp := unfold inn, join_span, s_start, s_end in *; cbn [fst snd] in *; tle; lia.
Ltac sc := eapply seg_cons; [sp|sp|apply N.le_refl|sp|].
Section G.
Context {CS : comspec}.
Lemma tname_seg ts t lo hi : g_type_name ts t -> tok_in lo hi ts -> seg lo hi [tname_span t].
Proof. intros H T. destruct (tname_in _ _ H _ _ T) as (s & E & S). unfold tname_span. rewrite E. apply seg_one; sp. Qed.
Lemma optbody_seg k ts o lo hi : g_option_body k ts o -> tok_in lo hi ts -> seg lo hi (s_ob o).
Proof.
  intros H T. assert (exists a c v m, lo <= a /\ a < m /\ m <= c /\ s_start v = m /\ c = s_end v /\ m < c /\ c <= hi /\ body_span o = (a, c) /\ optval_span (ob_value o) = v) as (a & c & v & m & A1 & A2 & A3 & A4 & A5 & A6 & A7 & E1 & E2).
  { destruct H as [ts l s ts' v H1 H2]. tsplit. pose proof (optval_in _ _ _ H2 _ _ T2). destruct (obname_in _ _ H1 _ _ v T0) as (x & E & X).
    exists (s_start x), (s_end (optval_span v)), (optval_span v), (s_start (optval_span v)). unfold body_span, ob_span. rewrite E. cbn [ob_value]. repeat split; sp. }
  unfold s_ob. rewrite E1, E2. apply seg_whole; [apply seg_one|..]; unfold s_start, s_end in *; cbn [fst snd] in *; lia.
Qed.
Lemma option_seg k ts o lo hi : g_option k ts o -> tok_in lo hi ts -> seg lo hi (s_op o).
Proof.
  destruct 1; intros T. tsplit. unfold s_op. cbn [op_span op_body]. apply seg_whole; [|sp..].
  match goal with H : g_option_body _ ?us _, T : tok_in _ _ ?us |- _ => pose proof (optbody_seg _ _ _ _ _ H T) as HS end.
  eapply seg_weak; [apply (seg_incl _ _ _ [optval_span (ob_value o)]) in HS; [exact HS|]|sp..]. intros y [<-|[]]. right. now left.
Qed.
Lemma opt_options_seg k ts o lo hi : g_opt_options k ts o -> tok_in lo hi ts -> seg lo hi (s_optlist o).
Proof.
  destruct 1 as [|ts o H]; intros T; [apply seg_nil|]. destruct H. tsplit. cbn [s_optlist ol_options ol_span]. apply seg_whole; [|sp..].
  eapply seg_weak; [eapply (sep_seg _ s_ob); [intros; eapply optbody_seg; eauto|eauto|eauto]|sp..].
Qed.
Ltac intin H := match type of H with g_int ?ts _ => match goal with T : tok_in _ _ ts |- _ => pose proof (int_in _ _ H _ _ T) end end.
Lemma range_seg ts r lo hi : g_range ts r -> tok_in lo hi ts -> seg lo hi (s_range r).
Proof.
  destruct 1 as [ts i H|ts i s ts' j H1 H2|ts i s e H]; intros T; tsplit; unfold s_range, rr_span, rr_end_span; cbn [rr_start rr_end].
  - intin H. apply seg_whole; [|sp..]. apply (seg_incl _ _ [i_span i]); [apply seg_one; sp|]. intros x [<-|[<-|[]]]; now left.
  - intin H1. intin H2. apply seg_whole; [|sp..]. sc. apply seg_one; sp.
  - intin H. apply seg_whole; [|sp..]. sc. apply seg_one; sp.
Qed.
Lemma idstr_seg ts i lo hi : g_ident_string ts i -> tok_in lo hi ts -> seg lo hi [id_span i].
Proof. destruct 1 as [ts v s H]. intros T. inversion H; subst. cbn [id_span]. match goal with G : g_string _ _ |- _ => pose proof (str_in _ _ G _ _ T) end. apply seg_one; sp. Qed.
Lemma reserved_seg ts r lo hi : g_reserved ts r -> tok_in lo hi ts -> seg lo hi (s_reserved r).
Proof.
  destruct 1 as [st ts l e c H _|st ts l e c H _]; intros T; tsplit; unfold s_reserved; cbn [rs_kind rs_span]; (apply seg_whole; [|sp..]).
  - eapply seg_weak; [eapply (sep_seg _ s_range); [intros; eapply range_seg; eauto|eauto|eauto]|sp..].
  - rewrite <- (flat_map_single id_span). eapply seg_weak; [eapply (sep_seg _ (fun x => [id_span x])); [intros; eapply idstr_seg; eauto|eauto|eauto]|sp..].
Qed.
Lemma extensions_seg k ts x lo hi : g_extensions k ts x -> tok_in lo hi ts -> seg lo hi (s_exts x).
Proof.
  destruct 1 as [st ts l os o e c H1 H2 _ _]; intros T. tsplit. unfold s_exts. cbn [ex_ranges ex_span ex_options]. apply seg_whole; [|sp..].
  eapply seg_weak; [eapply seg_app; [eapply (sep_seg _ s_range); [intros; eapply range_seg; eauto|eauto|eauto]|eapply opt_options_seg; eauto|sp..]|sp..].
Qed.
Lemma enum_value_seg k ts v lo hi : g_enum_value k ts v -> tok_in lo hi ts -> seg lo hi (s_value v).
Proof.
  destruct 1 as [v s0 s ts i os o e c _ _ H1 H2 _]; intros T. tsplit. unfold s_value. cbn [ev_span ev_name id_span ev_number ev_options].
  intin H1. apply seg_whole; [|sp..]. do 2 sc. eapply seg_weak; [eapply opt_options_seg; eauto|sp..].
Qed.
Definition s_een (x : enum_elem) : list span := match x with EEEmpty => [] | EEOption o => s_op o | EEReserved r => s_reserved r | EEValue v => s_value v end.
Lemma in_pick {A C D} (S : A -> list C) (pick : A -> list D) (g : D -> list C) l : (forall a, In a l -> incl (flat_map g (pick a)) (S a)) -> incl (flat_map g (flat_map pick l)) (flat_map S l).
Proof.
  intros H y Hy. apply in_flat_map in Hy. destruct Hy as (d & Hd & Hy). apply in_flat_map in Hd. destruct Hd as (a & Ha & Hd). apply in_flat_map. exists a. split; [exact Ha|]. apply (H a Ha). apply in_flat_map. eauto.
Qed.
Ltac each x := let y := fresh "y" in let Hy := fresh "Hy" in intros x _; destruct x; cbn [flat_map app be_item be_option be_reserved be_extensions st_packages st_imports st_items st_options]; try apply incl_nil_l; rewrite ?app_nil_r; apply incl_refl.
Lemma enum_seg k ts x lo hi : g_enum k ts x -> tok_in lo hi ts -> seg lo hi (s_enum x).
Proof.
  destruct 1 as [st v s0 s es l e c H _]; intros T. tsplit. unfold s_enum. cbn [en_span en_name id_span en_values en_reserved en_options].
  apply seg_whole; [|sp..]. eapply seg_cons; [sp|sp|apply N.le_refl|sp|]. apply (seg_incl _ _ (flat_map s_een l)).
  - eapply seg_weak; [eapply (many_seg _ s_een); [|eauto|eauto]|sp..]. intros us a lo' hi' Ha T'. destruct Ha; cbn [s_een]; [apply seg_nil|eapply option_seg; eauto|eapply reserved_seg; eauto|eapply enum_value_seg; eauto].
  - unfold s_options. apply incl_app; [|apply incl_app]; apply in_pick; each x.
Qed.
Lemma stream_seg ts o t lo hi : g_stream ts o t -> tok_in lo hi ts -> seg lo hi (s_opt o ++ [tname_span t]).
Proof. destruct 1; intros T; cbn [s_opt app]; [eapply tname_seg; eauto|]. tsplit. sc. eapply seg_weak; [eapply tname_seg; eauto|sp..]. Qed.
Definition s_re (x : option option_) : list span := match x with Some o => s_op o | None => [] end.
Lemma method_seg k ts x lo hi : g_method k ts x -> tok_in lo hi ts -> seg lo hi (s_method x).
Proof.
  destruct 1 as [st v s0 p1 its cs it p2 r p3 ots ss ot p4 ets os e c H1 H2 H3 _]; intros T. tsplit. unfold s_method.
  cbn [me_span me_name id_span me_input me_output me_client me_server me_options].
  assert (E : seg (s_end p4) (s_end e) (s_options os) /\ s_end p4 <= s_start e /\ s_start e < s_end e /\ s_end e <= hi).
  { inversion H3; subst; tsplit.
    - split; [apply seg_nil|sp].
    - split; [|sp]. unfold somes, s_options. eapply seg_weak; [apply (seg_incl _ _ (flat_map s_re l)); [eapply (many_seg _ s_re); [|eauto|eauto]|]|sp..].
      + intros us a lo' hi' Ha T'. destruct Ha; cbn [s_re]; [apply seg_nil|eapply option_seg; eauto].
      + apply in_pick. each x. }
  destruct E as [E EE]. apply seg_whole; [|sp..]. eapply seg_cons; [sp|sp|apply N.le_refl|sp|].
  change (s_opt cs ++ tname_span it :: s_opt ss ++ tname_span ot :: s_options os) with (s_opt cs ++ [tname_span it] ++ s_opt ss ++ [tname_span ot] ++ s_options os).
  rewrite app_assoc. eapply seg_weak; [eapply seg_app; [eapply stream_seg; [exact H1|eauto]|rewrite app_assoc; eapply seg_app; [eapply stream_seg; [exact H2|eauto]|exact E|sp..]|sp..]|sp..].
Qed.
Definition s_se (x : service_elem) : list span := match x with SEEmpty => [] | SEOption o => s_op o | SEMethod m => s_method m end.
Lemma service_seg k ts x lo hi : g_service k ts x -> tok_in lo hi ts -> seg lo hi (s_service x).
Proof.
  destruct 1 as [st v s0 s es l e c H _]; intros T. tsplit. unfold s_service. cbn [sv_span sv_name id_span sv_methods sv_options].
  apply seg_whole; [|sp..]. eapply seg_cons; [sp|sp|apply N.le_refl|sp|]. apply (seg_incl _ _ (flat_map s_se l)).
  - eapply seg_weak; [eapply (many_seg _ s_se); [|eauto|eauto]|sp..]. intros us a lo' hi' Ha T'. destruct Ha; cbn [s_se]; [apply seg_nil|eapply option_seg; eauto|eapply method_seg; eauto].
  - unfold s_options. apply incl_app; apply in_pick; each x.
Qed.
Lemma ftype_seg ts t s lo hi : g_field_type ts (t, s) -> tok_in lo hi ts -> seg lo hi (match t with TyNamed n => [tname_span n] | _ => [s] end).
Proof.
  intros H T. inversion H; subst.
  - tsplit. assert (E : seg lo hi [s]) by (apply seg_one; sp). match goal with H : In _ scalar_names |- _ => cbn in H; repeat (destruct H as [H|H]; [injection H as <- <-; exact E|]); destruct H end.
  - eapply tname_seg; eauto.
Qed.
Lemma ftype_whole ts t s lo hi : g_field_type ts (t, s) -> tok_in lo hi ts -> seg lo hi [s].
Proof.
  intros H T. inversion H; subst.
  - tsplit. apply seg_one; sp.
  - assert (Hn : ts <> []) by (match goal with G : g_type_name _ _ |- _ => exact (proj1 (tname_ne _ _ G)) end). destruct (tok_in_ends _ _ _ T Hn) as (A1 & A2 & A3). apply seg_one; sp.
Qed.
Section GB.
Variable k : cfg.
Variable gb : list tk -> body * span -> Prop.
Hypothesis body_ok : forall ts bd e lo hi, gb ts (bd, e) -> tok_in lo hi ts -> (lo <= s_start e /\ s_start e < s_end e /\ s_end e <= hi) /\ seg lo (s_end e) (s_body bd).
Lemma field_rest_seg start label ts f lo hi L : g_field_rest k gb start label ts f -> tok_in lo hi ts ->
  L <= s_start start -> s_start start <= lo -> match label with Some (_, s) => s_start start <= s_start s /\ s_start s < s_end s /\ s_end s <= lo | None => True end -> seg L hi (s_field s_body f).
Proof.
  intros H T Hs Hp Hl.
  assert (W : forall x l, s_start x = s_start start -> lo < s_end x -> s_end x <= hi -> seg lo (s_end x) l -> seg L hi (x :: s_opt (option_map snd label) ++ l)).
  { intros x l E1 E2 E3 G. apply seg_whole; [|lia..]. destruct label as [[lb s]|]; cbn [option_map s_opt snd app]; [|eapply seg_weak; [exact G|lia..]]. eapply seg_cons; [..|exact G]; lia. }
  destruct H as [ts t tsp s1 v s2 ts' i os o e c _ H1 H2 H3 _|m0 m1 kts kt ksp m2 vts vt vsp m3 v s1 s2 ts' i os o e c H0 H1 H2 H3 _|m0 v s1 s2 ts' i os o s3 bts bd e c Hg H1 H2 H3 _];
    tsplit; unfold s_field; cbn [fd_span fd_name id_span fd_number fd_kind fd_options fd_label s_tail].
  - intin H2. apply W; [reflexivity|sp|sp|]. rewrite app_nil_r. change (s_kind (FKNormal t tsp)) with (match t with TyNamed n => [tname_span n] | _ => [tsp] end).
    eapply seg_app; [eapply ftype_seg; [exact H1|eauto]| |sp|apply N.le_refl|sp]. do 2 sc. eapply seg_weak; [eapply opt_options_seg; eauto|sp..].
  - intin H2. apply W; [reflexivity|sp|sp|]. rewrite app_nil_r. cbn [s_kind].
    eapply (seg_app _ (s_end m3) (s_end m3)); [apply seg_whole; [eapply seg_weak; [eapply ftype_whole; [exact H0|eauto]|sp..]|sp..]| |sp..].
    do 2 sc. eapply seg_weak; [eapply opt_options_seg; eauto|sp..].
  - intin H1. match goal with T : tok_in _ _ bts |- _ => destruct (body_ok _ _ _ _ _ H3 T) as [Hb He] end. apply W; [reflexivity|sp|sp|]. cbn [s_kind app].
    do 3 sc. eapply seg_weak; [eapply seg_app; [eapply opt_options_seg; eauto|exact He|sp..]|sp..].
Qed.
Lemma field_seg ts f lo hi : g_field k gb ts f -> tok_in lo hi ts -> seg lo hi (s_field s_body f).
Proof.
  destruct 1 as [ls label ts f H1 H2 H3]. intros T. assert (H : 1 <= len ts) by (destruct H3; rewrite ?len_app; change (len (sym TSemicolon e)) with 1 || change (len (sym TLeftBrace sp3)) with 1; lia). tsplit. destruct H1; cbn [app] in *.
  - destruct ts as [|x ts]; [unfold len in H; cbn in H; lia|]. eapply (field_rest_seg _ _ _ _ (s_start (tk_span x))); eauto; cbn [first_span]; [| |lia|exact I].
    + cbn [tok_in] in *. split; [lia|]. tauto.
    + cbn [tok_in] in *. lia.
  - tsplit. eapply field_rest_seg; eauto; unfold sym, tk_span; cbn [app first_span fst snd]; [change (lo <= s_start sp)|change (s_start sp <= m)|change (s_start sp <= s_start sp /\ s_start sp < s_end sp /\ s_end sp <= m)]; lia.
Qed.
Definition s_ee (x : option field) : list span := match x with Some f => s_field s_body f | None => [] end.
Lemma extend_seg ts x lo hi : g_extend k gb ts x -> tok_in lo hi ts -> seg lo hi (s_extend s_body x).
Proof.
  destruct 1 as [st ts t s es l e c H1 H2 _]; intros T. tsplit. unfold s_extend. cbn [et_fields et_span et_extendee]. apply seg_whole; [|sp..].
  eapply seg_weak; [eapply (seg_app _ _ _ _ [tname_span t]); [eapply tname_seg; eauto|apply (seg_incl _ _ (flat_map s_ee l)); [eapply (many_seg _ s_ee); [|eauto|eauto]|]|sp..]|sp..].
  - intros us a lo' hi' Ha T'. destruct Ha; cbn [s_ee]; [apply seg_nil|eapply field_seg; eauto].
  - unfold somes. apply in_pick. each x.
Qed.
Definition s_oe (x : oneof_elem) : list span := match x with OEEmpty => [] | OEOption o => s_op o | OEField f => s_field s_body f end.
Lemma oneof_seg ts x lo hi : g_oneof k gb ts x -> tok_in lo hi ts -> seg lo hi (s_oneof s_body x).
Proof.
  destruct 1 as [st v s0 s es l e c H _]; intros T. tsplit. unfold s_oneof. cbn [oo_span oo_name id_span oo_options oo_fields]. apply seg_whole; [|sp..]. eapply seg_cons; [sp|sp|apply N.le_refl|sp|]. apply (seg_incl _ _ (flat_map s_oe l)).
  - eapply seg_weak; [eapply (many_seg _ s_oe); [|eauto|eauto]|sp..]. intros us a lo' hi' Ha T'. destruct Ha; cbn [s_oe]; [apply seg_nil|eapply option_seg; eauto|eapply field_seg; eauto].
  - unfold s_options. apply incl_app; apply in_pick; each x.
Qed.
Lemma message_seg ts x lo hi : g_message gb ts x -> tok_in lo hi ts -> seg lo hi (s_message s_body x).
Proof.
  destruct 1 as [st v s0 s ts bd e c H _]; intros T. tsplit. unfold s_message. cbn [ms_span ms_name id_span ms_body].
  match goal with T : tok_in _ _ ts |- _ => destruct (body_ok _ _ _ _ _ H T) as [Hb He] end. apply seg_whole; [|sp..]. sc. eapply seg_weak; [exact He|sp..].
Qed.
End GB.
Definition s_be (x : body_elem) : list span :=
  match x with BEEmpty => [] | BEItem i => s_item s_body i | BEOption o => s_op o | BEReserved r => s_reserved r | BEExtensions e => s_exts e end.
Lemma body_seg_n k d : forall ts bd e lo hi, g_body_n k d ts (bd, e) -> tok_in lo hi ts ->
  (lo <= s_start e /\ s_start e < s_end e /\ s_end e <= hi) /\ seg lo (s_end e) (s_body bd).
Proof.
  induction d as [|d IH]; intros ts bd e lo hi H T; [destruct H|].
  destruct H as (es & l & H & -> & E). cbn [fst snd] in *. subst bd. tsplit. split; [sp|]. cbn [s_body]. apply (seg_incl _ _ (flat_map s_be l)).
  - eapply seg_weak; [eapply (many_seg _ s_be); [|eauto|eauto]|sp..]. intros us a lo' hi' Ha T'. destruct Ha; cbn [s_be s_item]; [apply seg_nil|eapply oneof_seg; eauto|eapply enum_seg; eauto|eapply message_seg; eauto|eapply extend_seg; eauto|eapply option_seg; eauto|eapply reserved_seg; eauto|eapply extensions_seg; eauto|eapply field_seg; eauto].
  - unfold s_options. repeat apply incl_app; apply in_pick; each x.
Qed.
Lemma body_seg k ts bd e lo hi : g_body k ts (bd, e) -> tok_in lo hi ts -> (lo <= s_start e /\ s_start e < s_end e /\ s_end e <= hi) /\ seg lo (s_end e) (s_body bd).
Proof. intros [d H]. eapply body_seg_n; eauto. Qed.
Definition s_st (x : statement) : list span :=
  match x with
  | StEmpty _ => [] | StPackage p => [pk_span p] | StImport i => s_import i | StOption o => s_op o
  | StMessage m => s_message s_body m | StEnum e => s_enum e | StService s => s_service s | StExtend e => s_extend s_body e
  end.
Lemma import_seg ts x lo hi : g_import ts x -> tok_in lo hi ts -> seg lo hi (s_import x).
Proof.
  destruct 1 as [st ks ik ts v vs e c G1 G2 G3 _]. intros T. tsplit. unfold s_import. cbn [im_span im_kind]. apply seg_whole; [|sp..]. destruct G1; cbn [option_map snd s_opt]; [apply seg_nil|..]; tsplit; apply seg_one; sp.
Qed.
(** All spans but that of the file. *)
Lemma file_seg k n ts f lo hi : g_file k n ts f -> tok_in lo hi ts -> seg lo hi (tl (s_file f)).
Proof.
  destruct 1 as [ss sx sxs ts l pkg H1 H2 H3]. intros T. unfold s_file. cbn [fi_span fi_syntax_span fi_package fi_imports fi_options fi_items tl]. tsplit.
  apply (seg_incl _ _ (s_opt (option_map fst sxs) ++ flat_map s_st l)).
  - apply (seg_app lo m m hi); [|eapply (many_seg _ s_st); [|eauto|eauto]|sp..].
    + destruct H1; cbn [option_map s_opt fst]; [apply seg_nil|]. tsplit. apply seg_one; sp.
    + intros us a lo' hi' Ha T'. destruct Ha as [|us x G|us x G|us x G|us x G|us x G|us x G|us x G]; cbn [s_st]; [apply seg_nil| |eapply import_seg; eauto|eapply option_seg; eauto|eapply message_seg; eauto; intros; eapply body_seg; eauto|eapply enum_seg; eauto|eapply service_seg; eauto|eapply extend_seg; eauto; intros; eapply body_seg; eauto].
      destruct G. tsplit. cbn [pk_span]. apply seg_one; sp.
  - assert (E : s_opt (option_map pk_span pkg) = flat_map (fun p => [pk_span p]) (flat_map st_packages l)) by (rewrite H3; destruct pkg; reflexivity). rewrite E.
    unfold s_options. apply incl_app; [apply incl_appr, in_pick; each x|]. apply incl_app; [apply incl_appr, in_pick; each x|]. apply incl_app; [apply incl_appr, in_pick; each x|]. apply incl_app; [apply incl_appr, in_pick; each x|]. apply incl_appl, incl_refl.
Qed.
End G.
