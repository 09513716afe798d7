(** Locations that are not of a shared path have a path of their own. *)
From Coq Require Import ZifyBool ZifyN.
From Verif Require Import Base Utf8 Errors Lex Ast Descriptor Generate Meaning Erase PathSpec.
Import Meaning.

Definition pa (l : list rawloc) : list (list Z) := map (fun x => fst (fst x)) l.
Inductive once : list (list Z) -> Prop :=
| on_nil : once []
| on_cons p l : (In p l -> shared p) -> once l -> once (p :: l).
(** All paths go on from [p] in this way. *)
Definition from (p : list Z) (H : list Z -> Prop) (l : list (list Z)) : Prop := forall x, In x l -> exists r, x = p ++ r /\ H r.
Definition any_rest (r : list Z) : Prop := True.

Lemma pa_app a b : pa (a ++ b) = pa a ++ pa b.
Proof. apply map_app. Qed.
Lemma once_app l1 l2 : once l1 -> once l2 -> (forall x, In x l1 -> In x l2 -> shared x) -> once (l1 ++ l2).
Proof.
  induction 1 as [|p l Hp H IH]; intros H2 Hd; [exact H2|]. cbn [app]. constructor; [|apply IH; [exact H2|]; intros x Hx; apply Hd; now right].
  intros Hi. apply in_app_iff in Hi. destruct Hi as [Hi|Hi]; [auto|]. apply Hd; [now left|exact Hi].
Qed.
Lemma once_split p (H1 H2 : list Z -> Prop) l1 l2 : once l1 -> once l2 -> from p H1 l1 -> from p H2 l2 -> (forall r, H1 r -> H2 r -> shared (p ++ r)) -> once (l1 ++ l2).
Proof.
  intros O1 O2 F1 F2 Hd. apply once_app; auto. intros x Hx1 Hx2. destruct (F1 x Hx1) as (r1 & -> & R1). destruct (F2 _ Hx2) as (r2 & E & R2). apply app_inv_head in E. subst r2. auto.
Qed.
Lemma from_app p (H : list Z -> Prop) l1 l2 : from p H l1 -> from p H l2 -> from p H (l1 ++ l2).
Proof. intros F1 F2 x Hx. apply in_app_iff in Hx. destruct Hx; auto. Qed.
Lemma from_nil p (H : list Z -> Prop) : from p H [].
Proof. intros x []. Qed.
Lemma from_cons p (H : list Z -> Prop) r l : H r -> from p H l -> from p H ((p ++ r) :: l).
Proof. intros Hr F x [<-|Hx]; [eauto|auto]. Qed.
Lemma from_here p (H : list Z -> Prop) l : H [] -> from p H l -> from p H (p :: l).
Proof. intros Hr F x [<-|Hx]; [exists []; split; [now rewrite app_nil_r|exact Hr]|auto]. Qed.
Lemma from_weak p (H H' : list Z -> Prop) l : from p H l -> (forall r, H r -> H' r) -> from p H' l.
Proof. intros F W x Hx. destruct (F x Hx) as (r & -> & Hr). eauto. Qed.
(** Paths that go on from [p ++ q] go on from [p]. *)
Lemma from_deeper p q (H : list Z -> Prop) l : from (p ++ q) H l -> from p (fun r => exists s, r = q ++ s /\ H s) l.
Proof. intros F x Hx. destruct (F x Hx) as (r & -> & Hr). exists (q ++ r). rewrite app_assoc. eauto. Qed.

(** ** Single locations of one element *)
Definition tags (ts : list Z) (r : list Z) : Prop := exists t, r = [t] /\ In t ts.
Lemma once_one p : once [p].
Proof. constructor; [intros []|constructor]. Qed.

(** ** Repeated members *)
Definition within (i j : N) (r : list Z) : Prop := exists n s, r = Z.of_N n :: s /\ i <= n < j.
Lemma idx_once {A} (f : Z -> A -> list rawloc) p l : (forall n x, In x l -> once (pa (f n x)) /\ from (p ++ [n]) any_rest (pa (f n x))) ->
  forall i, once (pa (l_idx f i l)) /\ from p (within i (i + len l)) (pa (l_idx f i l)).
Proof.
  induction l as [|x l IH]; intros Hf i; cbn [l_idx]; [split; [constructor|apply from_nil]|]. rewrite pa_app. destruct (Hf (Z.of_N i) x (or_introl eq_refl)) as [O1 F1]. destruct (IH (fun n y Hy => Hf n y (or_intror Hy)) (i + 1)) as [O2 F2].
  apply from_deeper in F1. rewrite len_cons. split.
  - eapply once_split; [exact O1|exact O2|exact F1|exact F2|]. cbn beta. intros r (s & -> & _) (n & s' & E & Hn). cbn [app] in E. injection E as E _. lia.
  - apply from_app; [eapply from_weak; [exact F1|]; intros r (s & -> & _); exists i, s; split; [reflexivity|lia]|eapply from_weak; [exact F2|]; intros r (n & s & -> & Hn); exists n, s; split; [reflexivity|lia]].
Qed.

(** ** Options *)
Definition optpath (r : list Z) : Prop := r = [] \/ exists i, r = [999%Z; i].
Lemma options_once p l : shared p -> once (pa (l_options p l)) /\ from p optpath (pa (l_options p l)).
Proof.
  intros Hs. unfold l_options. assert (G : forall i, once (pa (l_idx (fun i o => [at_ p (op_span o); (p ++ [999%Z; i], op_span o, op_comments o)]) i l)) /\ from p (fun r => r = [] \/ exists n, r = [999%Z; Z.of_N n] /\ i <= n) (pa (l_idx (fun i o => [at_ p (op_span o); (p ++ [999%Z; i], op_span o, op_comments o)]) i l))).
  { induction l as [|o l IH]; intros i; cbn [l_idx]; [split; [constructor|apply from_nil]|]. destruct (IH (i + 1)) as [O F]. cbn [app pa map at_ fst]. fold (pa (l_idx (fun i o => [at_ p (op_span o); (p ++ [999%Z; i], op_span o, op_comments o)]) (i + 1) l)). split.
    - constructor; [intros _; exact Hs|]. constructor; [|exact O]. intros Hi. destruct (F _ Hi) as (r & E & Hr). apply app_inv_head in E. subst r. destruct Hr as [Hr|(n & Hr & Hn)]; [discriminate Hr|]. injection Hr as Hr. lia.
    - apply from_here; [now left|]. apply from_cons; [right; exists i; split; [reflexivity|lia]|]. eapply from_weak; [exact F|]. intros r [->|(n & -> & Hn)]; [now left|right; exists n; split; [reflexivity|lia]]. }
  destruct (G 0) as [O F]. split; [exact O|]. eapply from_weak; [exact F|]. intros r [->|(n & -> & _)]; [now left|right; eauto].
Qed.
Lemma optlist_once p ol : once (pa (l_optlist p ol)) /\ from p optpath (pa (l_optlist p ol)).
Proof.
  destruct ol as [l|]; [|split; [constructor|apply from_nil]]. cbn [l_optlist pa map at_ fst]. fold (pa (l_idx (fun i o => [at_ (p ++ [999%Z; i]) (body_span o)]) 0 (ol_options l))).
  destruct (idx_once (fun i o => [at_ (p ++ [999%Z; i]) (body_span o)]) (p ++ [999%Z]) (ol_options l)) with (i := 0) as [O F].
  { intros n x _. cbn [pa map at_ fst]. rewrite <- app_assoc. split; [apply once_one|]. intros y [<-|[]]. exists []. split; [now rewrite app_nil_r|exact I]. }
  apply from_deeper in F. split.
  - constructor; [|exact O]. intros Hi. destruct (F _ Hi) as (r & E & s & -> & _). rewrite <- (app_nil_r p) in E at 1. apply app_inv_head in E. discriminate E.
  - apply from_here; [now left|]. intros y Hy.
    assert (G : forall i (l : list optbody) y, In y (pa (l_idx (fun i o => [at_ (p ++ [999%Z; i]) (body_span o)]) i l)) -> exists j, y = p ++ [999%Z; j]).
    { clear. intros i l. revert i. induction l as [|o l IH]; intros i y; [intros []|]. cbn [l_idx app pa map at_ fst]. intros [<-|Hy]; [eauto|]. eapply IH, Hy. }
    destruct (G _ _ _ Hy) as (j & ->). exists [999%Z; j]. split; [reflexivity|right; eauto].
Qed.

(** ** Composition *)
Definition piece (p : list Z) (H : list Z -> Prop) (l : list rawloc) : Prop := once (pa l) /\ from p H (pa l).
Lemma piece_app p (H1 H2 : list Z -> Prop) l1 l2 : piece p H1 l1 -> piece p H2 l2 -> (forall r, H1 r -> H2 r -> shared (p ++ r)) -> piece p (fun r => H1 r \/ H2 r) (l1 ++ l2).
Proof.
  intros [O1 F1] [O2 F2] Hd. unfold piece. rewrite pa_app. split; [eapply once_split; eauto|]. apply from_app; [eapply from_weak; [exact F1|]; auto|eapply from_weak; [exact F2|]; auto].
Qed.
Lemma piece_nil p : piece p (fun _ => False) [].
Proof. split; [constructor|apply from_nil]. Qed.
Lemma piece_one p r sp c : piece p (eq r) [(p ++ r, sp, c)].
Proof. split; [apply once_one|]. apply from_cons; [reflexivity|apply from_nil]. Qed.
Lemma piece_here p sp c : piece p (eq []) [(p, sp, c)].
Proof. split; [apply once_one|]. apply from_here; [reflexivity|apply from_nil]. Qed.
Lemma piece_deep p q (H : list Z -> Prop) l : piece (p ++ q) H l -> piece p (fun r => exists s, r = q ++ s /\ H s) l.
Proof. intros [O F]. split; [exact O|]. now apply from_deeper. Qed.
Lemma piece_weak p (H H' : list Z -> Prop) l : piece p H l -> (forall r, H r -> H' r) -> piece p H' l.
Proof. intros [O F] W. split; [exact O|]. eapply from_weak; eauto. Qed.
Lemma piece_any p (H : list Z -> Prop) l : piece p H l -> piece p any_rest l.
Proof. intros P. eapply piece_weak; [exact P|]. intros; exact I. Qed.
Lemma piece_cons p (H1 H2 : list Z -> Prop) x l : piece p H1 [x] -> piece p H2 l -> (forall r, H1 r -> H2 r -> shared (p ++ r)) -> piece p (fun r => H1 r \/ H2 r) (x :: l).
Proof. intros P1 P2 Hd. exact (piece_app p H1 H2 [x] l P1 P2 Hd). Qed.
Lemma piece_idx {A} (f : Z -> A -> list rawloc) p l i : (forall n x, In x l -> piece (p ++ [n]) any_rest (f n x)) -> piece p (within i (i + len l)) (l_idx f i l).
Proof. intros H. exact (idx_once f p l H i). Qed.
Lemma piece_options p l : shared p -> piece p optpath (l_options p l).
Proof. intros H. exact (options_once p l H). Qed.
Lemma piece_optlist p ol : piece p optpath (l_optlist p ol).
Proof. exact (optlist_once p ol). Qed.
(** The path goes on with member [t], element [n] for an [n] in the given bounds. *)
Definition ge (t : Z) (i : N) (r : list Z) : Prop := exists n s, r = t :: Z.of_N n :: s /\ i <= n.
Definition bt (t : Z) (i j : N) (r : list Z) : Prop := exists n s, r = t :: Z.of_N n :: s /\ i <= n < j.
Lemma piece_members {A} (f : Z -> A -> list rawloc) p t l i : (forall n x, In x l -> piece (p ++ [t; n]) any_rest (f n x)) -> piece p (bt t i (i + len l)) (l_idx f i l).
Proof.
  intros H. eapply piece_weak; [apply (piece_deep p [t]), (piece_idx f (p ++ [t]) l i)|].
  - intros n x Hx. rewrite <- app_assoc. now apply H.
  - intros r (s & -> & n & s' & -> & Hn). exists n, s'. auto.
Qed.
(** Two descriptions of a path exclude each other, or the path is shared. *)
Ltac eqs := repeat match goal with
  | H : False |- _ => destruct H
  | H : _ \/ _ |- _ => destruct H
  | H : exists _, _ |- _ => destruct H
  | H : _ /\ _ |- _ => destruct H
  | H : optpath _ |- _ => unfold optpath in H
  | H : within _ _ _ |- _ => unfold within in H
  | H : ge _ _ _ |- _ => unfold ge in H
  | H : bt _ _ _ _ |- _ => unfold bt in H
  | H : any_rest _ |- _ => clear H
  | H : [] = _ :: _ |- _ => discriminate H
  | H : _ :: _ = [] |- _ => discriminate H
  | H : _ :: _ = _ :: _ |- _ => injection H; clear H; intros
  | H : Zpos ?x = Zpos ?y |- _ => first [discriminate H | clear H]
  | H : ?x = ?x |- _ => clear H
  | H : ?x = _ |- _ => is_var x; subst x
  | H : _ = ?x |- _ => is_var x; subst x
  end; cbn [app] in *.
Ltac clash := intros; repeat (progress eqs); try (exfalso; lia); try congruence; eauto.

(** ** Ranges *)
Lemma piece_range p r : piece p (fun r => r = [] \/ r = [1%Z] \/ r = [2%Z]) (l_range p r).
Proof.
  unfold l_range, at_. eapply piece_weak; [apply piece_cons; [apply piece_here|apply piece_cons; [apply piece_one|apply piece_one|clash]|clash]|]. intros r0 [H|[H|H]]; auto.
Qed.
(** What reserved statements leave: [i] and [j] are the next indices. *)
Lemma piece_reserved rt nt p rs : rt <> nt -> shared (p ++ [rt]) -> shared (p ++ [nt]) -> forall i j,
  piece p (fun r => r = [rt] \/ r = [nt] \/ ge rt i r \/ ge nt j r) (l_reserved rt nt p i j rs).
Proof.
  intros Hne S1 S2. induction rs as [|x rs IH]; intros i j; cbn [l_reserved]; [eapply piece_weak; [apply piece_nil|]; intros r []|].
  specialize (IH (i + len (res_ranges x)) (j + len (res_names x))). unfold res_ranges, res_names in *. destruct (rs_kind x) as [l|l].
  - pose proof (piece_members (fun n y => l_range (p ++ [rt; n]) y) p rt l i (fun n y _ => piece_any _ _ _ (piece_range _ _))) as P1.
    eapply piece_weak; [apply piece_app with (l1 := (p ++ [rt], rs_span x, rs_comments x) :: l_idx (fun n y => l_range (p ++ [rt; n]) y) i l); [apply piece_cons; [apply piece_one|exact P1|clash]|exact IH|clash]|].
    intros r H. unfold ge, bt in *. destruct H as [[H|H]|[H|[H|[H|H]]]]; auto.
    + right; right; left. destruct H as (n & s & -> & H). exists n, s. split; [reflexivity|lia].
    + right; right; left. destruct H as (n & s & -> & H). exists n, s. split; [reflexivity|lia].
    + right; right; right. destruct H as (n & s & -> & H). exists n, s. split; [reflexivity|lia].
  - pose proof (piece_members (fun n y => [at_ (p ++ [nt; n]) (id_span y)]) p nt l j (fun n y _ => piece_any _ _ _ (piece_here _ _ _))) as P1.
    eapply piece_weak; [apply piece_app with (l1 := (p ++ [nt], rs_span x, rs_comments x) :: l_idx (fun n y => [at_ (p ++ [nt; n]) (id_span y)]) j l); [apply piece_cons; [apply piece_one|exact P1|clash]|exact IH|clash]|].
    intros r H. unfold ge, bt in *. destruct H as [[H|H]|[H|[H|[H|H]]]]; auto.
    + right; right; right. destruct H as (n & s & -> & H). exists n, s. split; [reflexivity|lia].
    + right; right; left. destruct H as (n & s & -> & H). exists n, s. split; [reflexivity|lia].
    + right; right; right. destruct H as (n & s & -> & H). exists n, s. split; [reflexivity|lia].
Qed.

(** ** Enums and services *)
Lemma piece_value p v : piece p any_rest (l_enum_value p v).
Proof.
  unfold l_enum_value, at_. eapply piece_any, piece_cons; [apply piece_here|apply piece_cons; [apply piece_one|apply piece_cons; [apply piece_one|apply piece_deep, piece_optlist|clash]|clash]|clash].
Qed.
Lemma piece_enum p e : element KEnum p -> piece p any_rest (l_enum p e).
Proof.
  intros Hk. assert (S : forall t, In t [3; 4; 5]%Z -> shared (p ++ [t])) by (intros; now apply sh_enum).
  unfold l_enum, at_. eapply piece_any, piece_cons; [apply piece_here|apply piece_cons; [apply piece_one|apply piece_app; [apply piece_members; intros n x _; apply piece_value|apply piece_app; [apply piece_reserved; [discriminate|apply S; cbn; tauto|apply S; cbn; tauto]|apply piece_deep, piece_options, S; cbn; tauto|clash]|clash]|clash]|clash].
Qed.
Lemma piece_opt p r o : piece p (eq r) (opt_loc (p ++ r) o).
Proof. destruct o; [apply piece_one|]. eapply piece_weak; [apply piece_nil|]. intros ? []. Qed.
Lemma piece_method p m : element KMethod p -> piece p any_rest (l_method p m).
Proof.
  intros Hk. unfold l_method, at_. eapply piece_any, piece_cons; [apply piece_here|apply piece_cons; [apply piece_one|apply piece_cons; [apply piece_one|apply piece_cons; [apply piece_one|apply piece_app; [apply piece_opt|apply piece_app; [apply piece_opt|apply piece_deep, piece_options, sh_method, Hk|clash]|clash]|clash]|clash]|clash]|clash].
Qed.
Lemma piece_service p s : element KService p -> piece p any_rest (l_service p s).
Proof.
  intros Hk. unfold l_service, at_. eapply piece_any, piece_cons; [apply piece_here|apply piece_cons; [apply piece_one|apply piece_app; [apply piece_members; intros n x _; apply piece_method, el_method, Hk|apply piece_deep, piece_options, sh_service, Hk|clash]|clash]|clash].
Qed.

(** ** Fields *)
Lemma piece_label syn p sc lab : piece p (eq [4%Z]) (l_label syn p sc lab).
Proof. unfold l_label. destruct (den_label _ sc lab) as [|]; [destruct lab as [[? ?]|]|]; try (eapply piece_weak; [apply piece_nil|]; intros ? []). apply piece_one. Qed.
Definition bodypath (r : list Z) : Prop := exists t s, r = t :: s /\ (1 < t)%Z.
Lemma bt_ge t i j r : bt t i j r -> ge t i r.
Proof. intros (n & s & -> & H). exists n, s. split; [reflexivity|lia]. Qed.
Lemma ge_le t i j r : i <= j -> ge t j r -> ge t i r.
Proof. intros Hij (n & s & -> & H). exists n, s. split; [reflexivity|lia]. Qed.
Lemma one_bt t i s : bt t i (i + 1) (t :: Z.of_N i :: s).
Proof. exists i, s. split; [reflexivity|lia]. Qed.
Section Fields.
Context {B : Type}.
Variable k : cfg.
Variable syn : syntax.
Variable dbody : B -> msg_desc.
Variable lbody : list Z -> B -> list rawloc.

Lemma piece_default p (f : field_ B) : piece p (eq [7%Z]) (l_default p f).
Proof. unfold l_default. destruct (default_of f); [apply piece_one|]. eapply piece_weak; [apply piece_nil|]. intros ? []. Qed.
Lemma piece_json p (f : field_ B) : element KField p -> piece p (eq [10%Z]) (match json_of f with Some o => [at_ (p ++ [10%Z]) (body_span o); at_ (p ++ [10%Z]) (optval_span (ob_value o))] | None => [] end).
Proof.
  intros Hk. pose proof (sh_json p Hk) as S. destruct (json_of f); [|eapply piece_weak; [apply piece_nil|]; intros ? []]. unfold at_. eapply piece_weak; [apply piece_cons; [apply piece_one|apply piece_one|clash]|]. intros r [H|H]; exact H.
Qed.
(** The message a field declares has its paths under [mp]. *)
Definition good_bodies (f : field_ B) : Prop := match fd_kind f with FKGroup _ bd => forall mp, element KMessage mp -> piece mp bodypath (lbody mp bd) | _ => True end.
(** Paths under field [i] that are not its extendee. *)
Definition own (ft : Z) (i : N) (r : list Z) : Prop := exists s, r = ft :: Z.of_N i :: s /\ s <> [2%Z].
Lemma piece_field sc p ft mt i j f : ft <> mt -> element KField (p ++ [ft; Z.of_N i]) -> element KMessage (p ++ [mt; Z.of_N j]) -> good_bodies f ->
  piece p (fun r => own ft i r \/ bt mt j (j + len (den_field_messages dbody f)) r) (l_field syn lbody sc (p ++ [ft; Z.of_N i]) (p ++ [mt; Z.of_N j]) f).
Proof.
  intros Hne Hf Hm Hb. unfold l_field.
  set (fp := p ++ [ft; Z.of_N i]) in *. set (mp := p ++ [mt; Z.of_N j]) in *.
  assert (PA : piece fp (fun r => r = [1%Z] \/ r = [3%Z]) [at_ (fp ++ [1%Z]) (id_span (fd_name f)); at_ (fp ++ [3%Z]) (i_span (fd_number f))]).
  { unfold at_. eapply piece_weak; [apply piece_cons; [apply piece_one|apply piece_one|clash]|]. intros r [H|H]; auto. }
  assert (PC : piece fp (fun r => eq [10%Z] r \/ exists s, r = [8%Z] ++ s /\ optpath s) (match json_of f with Some o => [at_ (fp ++ [10%Z]) (body_span o); at_ (fp ++ [10%Z]) (optval_span (ob_value o))] | None => [] end ++ l_optlist (fp ++ [8%Z]) (rest_options f))).
  { apply piece_app; [now apply piece_json|apply piece_deep, piece_optlist|clash]. }
  assert (Hown : forall l, piece fp (fun s => s <> [2%Z]) l -> piece p (fun r => own ft i r \/ bt mt j (j + len (den_field_messages dbody f)) r) l).
  { intros l P. eapply piece_weak; [apply piece_deep, P|]. intros r (s & -> & Hs). left. exists s. split; [reflexivity|exact Hs]. }
  assert (Hnorm : forall H l, piece fp H l -> (forall r, H r -> r = [] \/ r = [4%Z] \/ r = [5%Z] \/ r = [6%Z] \/ r = [7%Z]) ->
    piece p (fun r => own ft i r \/ bt mt j (j + len (den_field_messages dbody f)) r) ([at_ (fp ++ [1%Z]) (id_span (fd_name f)); at_ (fp ++ [3%Z]) (i_span (fd_number f))] ++ l ++
      match json_of f with Some o => [at_ (fp ++ [10%Z]) (body_span o); at_ (fp ++ [10%Z]) (optval_span (ob_value o))] | None => [] end ++ l_optlist (fp ++ [8%Z]) (rest_options f))).
  { intros H l P W. apply Hown. eapply piece_weak; [apply piece_app; [exact PA|apply piece_app; [eapply piece_weak; [exact P|exact W]|exact PC|clash]|clash]|clash]. }
  unfold good_bodies in Hb. destruct (fd_kind f) as [t tsp|tsp bd|tsp kt ksp vt vsp] eqn:Ek.
  - destruct t; (eapply Hnorm; [first [(apply piece_app; [apply piece_label|apply piece_app; [apply piece_default|unfold at_; apply piece_cons; [apply piece_here|apply piece_one|clash]|clash]|clash])
      | (apply piece_app; [apply piece_label|apply piece_app; [unfold at_; apply piece_cons; [apply piece_here|apply piece_one|clash]|apply piece_default|clash]|clash])]|clash]).
  - assert (Em : len (den_field_messages dbody f) = 1) by (unfold den_field_messages; rewrite Ek; reflexivity). rewrite Em.
    assert (P1 : piece fp (fun r => r = [] \/ r = [4%Z] \/ r = [5%Z] \/ r = [6%Z]) (l_label syn fp sc (fd_label f) ++ [at_ fp (fd_span f); at_ (fp ++ [5%Z]) tsp; at_ (fp ++ [6%Z]) (id_span (fd_name f))])).
    { unfold at_. eapply piece_weak; [apply piece_app; [apply piece_label|apply piece_cons; [apply piece_here|apply piece_cons; [apply piece_one|apply piece_one|clash]|clash]|clash]|clash]. }
    assert (P2 : piece mp any_rest ((mp, fd_span f, fd_comments f) :: at_ (mp ++ [1%Z]) (id_span (fd_name f)) :: lbody mp bd)).
    { unfold at_. eapply piece_any, piece_cons; [apply piece_here|apply piece_cons; [apply piece_one|apply Hb, Hm|unfold bodypath; clash]|unfold bodypath; clash]. }
    match goal with |- piece p _ ?l => replace l with (([at_ (fp ++ [1%Z]) (id_span (fd_name f)); at_ (fp ++ [3%Z]) (i_span (fd_number f))] ++ l_label syn fp sc (fd_label f) ++ [at_ fp (fd_span f); at_ (fp ++ [5%Z]) tsp; at_ (fp ++ [6%Z]) (id_span (fd_name f))]) ++
       ((mp, fd_span f, fd_comments f) :: at_ (mp ++ [1%Z]) (id_span (fd_name f)) :: lbody mp bd) ++
       (match json_of f with Some o => [at_ (fp ++ [10%Z]) (body_span o); at_ (fp ++ [10%Z]) (optval_span (ob_value o))] | None => [] end ++ l_optlist (fp ++ [8%Z]) (rest_options f))) by (rewrite <- !app_assoc; reflexivity) end.
    eapply piece_weak; [apply piece_app; [apply piece_deep, piece_app; [exact PA|exact P1|clash]|apply piece_app; [apply piece_deep, P2|apply piece_deep, PC|clash]|clash]|].
    intros r [(s & -> & Hs)|[(s & -> & _)|(s & -> & Hs)]].
    + left. exists s. split; [reflexivity|]. clash.
    + right. exists j, s. split; [reflexivity|lia].
    + left. exists s. split; [reflexivity|]. clash.
  - eapply Hnorm; [unfold at_; apply piece_cons; [apply piece_here|apply piece_one|clash]|clash].
Qed.
(** Consecutive fields of a oneof or an extend block. *)
Lemma piece_fields sc (ext : option span) p ft mt l : ft <> mt -> (forall i, element KField (p ++ [ft; Z.of_N i])) -> (forall j, element KMessage (p ++ [mt; Z.of_N j])) -> Forall good_bodies l -> forall i j,
  piece p (fun r => bt ft i (i + len l) r \/ bt mt j (j + len (flat_map (den_field_messages dbody) l)) r)
    (l_fields syn dbody lbody sc (fun fp => match ext with Some sp => [at_ (fp ++ [2%Z]) sp] | None => [] end) ft mt p i j l).
Proof.
  intros Hne Hf Hm. induction l as [|f l IH]; intros Hb i j; cbn [l_fields flat_map]; [eapply piece_weak; [apply piece_nil|]; intros r []|].
  inversion Hb as [|? ? Hb1 Hb2]; subst. specialize (IH Hb2 (i + 1) (j + len (den_field_messages dbody f))). rewrite len_cons, len_app.
  assert (P0 : piece p (eq [ft; Z.of_N i; 2%Z]) (match ext with Some sp => [at_ ((p ++ [ft; Z.of_N i]) ++ [2%Z]) sp] | None => [] end)).
  { destruct ext; [rewrite <- app_assoc; apply piece_one|]. eapply piece_weak; [apply piece_nil|]. intros ? []. }
  pose proof (piece_field sc p ft mt i j f Hne (Hf i) (Hm j) Hb1) as P1.
  eapply piece_weak; [apply piece_app; [exact P0|apply piece_app; [exact P1|exact IH|unfold own; clash]|unfold own; clash]|].
  unfold own, bt. intros r [<-|[[(s & -> & _)|(n & s & -> & Hn)]|[(n & s & -> & Hn)|(n & s & -> & Hn)]]].
  - left. eexists _, _. split; [reflexivity|lia].
  - left. eexists _, _. split; [reflexivity|lia].
  - right. eexists _, _. split; [reflexivity|lia].
  - left. eexists _, _. split; [reflexivity|lia].
  - right. eexists _, _. split; [reflexivity|lia].
Qed.
Lemma piece_extend xt mt p i j e : xt <> mt -> (forall i, element KField (p ++ [xt; Z.of_N i])) -> (forall j, element KMessage (p ++ [mt; Z.of_N j])) -> Forall good_bodies (et_fields e) ->
  piece p (fun r => r = [xt] \/ bt xt i (i + len (et_fields e)) r \/ bt mt j (j + len (flat_map (den_field_messages dbody) (et_fields e))) r) (l_extend syn dbody lbody xt mt p i j e).
Proof.
  intros Hne Hf Hm Hb. unfold l_extend. pose proof (piece_fields ScExtend (Some (tname_span (et_extendee e))) p xt mt (et_fields e) Hne Hf Hm Hb i j) as P.
  eapply piece_weak; [apply piece_cons; [apply piece_one|exact P|clash]|]. intros r [H|H]; auto.
Qed.
(** ** The members of a message *)
Definition good_item (it : mitem_ B) : Prop :=
  match it with
  | MIField f => good_bodies f
  | MIEnum _ => True
  | MIMessage m => forall mp, element KMessage mp -> piece mp bodypath (lbody mp (ms_body m))
  | MIExtend e => Forall good_bodies (et_fields e)
  | MIOneof o => Forall good_bodies (oo_fields o)
  end.
Lemma piece_message p m : element KMessage p -> (forall mp, element KMessage mp -> piece mp bodypath (lbody mp (ms_body m))) -> piece p any_rest (l_message lbody p m).
Proof.
  intros Hk H. unfold l_message, at_. eapply piece_any, piece_cons; [apply piece_here|apply piece_cons; [apply piece_one|apply H, Hk|unfold bodypath; clash]|unfold bodypath; clash].
Qed.
Definition itempath (nf nx nm ne no : N) (r : list Z) : Prop := r = [6%Z] \/ ge 2 nf r \/ ge 6 nx r \/ ge 3 nm r \/ ge 4 ne r \/ ge 8 no r.
Lemma len_den_extend k' (e : extend_ B) : len (den_extend k' syn e) = len (et_fields e).
Proof. unfold den_extend, len. now rewrite map_length. Qed.
Definition itemhere (nf nx nm ne no : N) (it : mitem_ B) (r : list Z) : Prop :=
  r = [6%Z] \/ bt 2 nf (nf + item_nfields it) r \/ bt 6 nx (nx + len (item_extensions k syn it)) r \/ bt 3 nm (nm + len (item_messages dbody it)) r \/
  bt 4 ne (ne + len (item_enums it)) r \/ bt 8 no (no + len (item_real it)) r.
Lemma piece_item p it nf nx nm ne no : element KMessage p -> good_item it -> piece p (itemhere nf nx nm ne no it)
  match it with
  | MIField f => l_field syn lbody ScMessage (p ++ [2%Z; Z.of_N nf]) (p ++ [3%Z; Z.of_N nm]) f
  | MIEnum e => l_enum (p ++ [4%Z; Z.of_N ne]) e
  | MIMessage m => l_message lbody (p ++ [3%Z; Z.of_N nm]) m
  | MIExtend e => l_extend syn dbody lbody 6%Z 3%Z p nx nm e
  | MIOneof o =>
    (p ++ [8%Z; Z.of_N no], oo_span o, oo_comments o) ::
    at_ (p ++ [8%Z; Z.of_N no; 1%Z]) (id_span (oo_name o)) ::
    l_options (p ++ [8%Z; Z.of_N no; 2%Z]) (oo_options o) ++
    l_fields syn dbody lbody ScOneof (fun _ => []) 2%Z 3%Z p nf nm (oo_fields o)
  end.
Proof.
  intros Hk Hg.
  assert (EM : forall j, element KMessage (p ++ [3%Z; Z.of_N j])) by (intros; now apply el_nested).
  assert (EF : forall j, element KField (p ++ [2%Z; Z.of_N j])) by (intros; now apply el_field).
  assert (EX : forall j, element KField (p ++ [6%Z; Z.of_N j])) by (intros; now apply el_nested_extension).
  unfold itemhere. destruct it as [f|e|m|e|o]; cbn [good_item item_nfields item_extensions item_messages item_enums item_real] in *.
  - eapply piece_weak; [apply piece_field; [discriminate|apply EF|apply EM|exact Hg]|]. intros r [(s & -> & _)|H]; [right; left; apply one_bt|now do 3 right; left].
  - eapply piece_weak; [apply piece_deep, piece_enum; now apply el_nested_enum|]. intros r (s & -> & _). do 4 right; left. apply one_bt.
  - eapply piece_weak; [apply piece_deep, piece_message; [apply EM|exact Hg]|]. intros r (s & -> & _). do 3 right; left. apply one_bt.
  - rewrite len_den_extend. eapply piece_weak; [apply piece_extend; [discriminate|exact EX|exact EM|exact Hg]|]. intros r [H|[H|H]]; [now left|now do 2 right; left|now do 3 right; left].
  - pose proof (piece_fields ScOneof None p 2 3 (oo_fields o) ltac:(discriminate) EF EM Hg nf nm) as P. cbn match in P.
    assert (EO : element KOneof (p ++ [8%Z; Z.of_N no])) by now apply el_oneof.
    pose proof (piece_options ((p ++ [8%Z; Z.of_N no]) ++ [2%Z]) (oo_options o) (sh_oneof _ EO)) as PO. rewrite <- app_assoc in PO. cbn [app] in PO. apply piece_deep in PO.
    unfold at_. eapply piece_weak; [apply piece_cons; [apply piece_one|apply piece_cons; [apply piece_one|apply piece_app; [exact PO|exact P|clash]|clash]|clash]|].
    intros r [<-|[<-|[(s & -> & _)|[H|H]]]]; [do 5 right; apply one_bt|do 5 right; apply one_bt|do 5 right; apply one_bt|now right; left|now do 3 right; left].
Qed.
Lemma piece_items p items : element KMessage p -> Forall good_item items -> forall nf nx nm ne no, piece p (itempath nf nx nm ne no) (l_items k syn dbody lbody p nf nx nm ne no items).
Proof.
  intros Hk. assert (S6 : shared (p ++ [6%Z])) by (apply sh_message; [exact Hk|cbn; tauto]).
  induction items as [|it items IH]; intros Hg nf nx nm ne no; cbn [l_items]; [eapply piece_weak; [apply piece_nil|]; intros r []|].
  inversion Hg as [|? ? Hg1 Hg2]; subst. specialize (IH Hg2).
  eapply piece_weak; [apply piece_app; [apply piece_item; assumption|apply IH|]|].
  - unfold itemhere, itempath. generalize (item_nfields it) (len (item_extensions k syn it)) (len (item_messages dbody it)) (len (item_enums it)) (len (item_real it)). clear -S6. clash.
  - unfold itemhere, itempath. intros r [[H|[H|[H|[H|[H|H]]]]]|[H|[H|[H|[H|[H|H]]]]]]; first [apply bt_ge in H|eapply ge_le in H; [|apply N.le_add_r]|idtac]; tauto.
Qed.
End Fields.

(** ** Message bodies *)
Lemma piece_extensions p l : shared p -> forall i, piece p (fun r => r = [] \/ exists n s, r = Z.of_N n :: s /\ i <= n) (l_extensions p i l).
Proof.
  intros Hs. induction l as [|x l IH]; intros i; cbn [l_extensions]; [eapply piece_weak; [apply piece_nil|]; intros r []|].
  assert (P : piece p (within i (i + len (ex_ranges x))) (l_idx (fun n rr => l_range (p ++ [n]) rr ++ l_optlist (p ++ [n; 3%Z]) (ex_options x)) i (ex_ranges x))).
  { apply piece_idx. intros n rr _. pose proof (piece_optlist ((p ++ [n]) ++ [3%Z]) (ex_options x)) as PO. apply piece_deep in PO. rewrite <- app_assoc in PO. eapply piece_any, piece_app; [apply piece_range|exact PO|clash]. }
  rewrite <- (app_nil_r p) in Hs.
  eapply piece_weak; [apply piece_cons; [apply piece_here|apply piece_app; [exact P|apply IH|clash]|]|].
  - intros r <-. intros _. exact Hs.
  - intros r [<-|[(n & s & -> & Hn)|[->|(n & s & -> & Hn)]]]; [now left|right|now left|right]; exists n, s; (split; [reflexivity|lia]).
Qed.
Lemma on_good {B} (lbody : list Z -> B -> list rawloc) it : on_item (fun bd => forall mp, element KMessage mp -> piece mp bodypath (lbody mp bd)) it -> good_item lbody it.
Proof.
  assert (G : forall f, on_kind (fun bd => forall mp, element KMessage mp -> piece mp bodypath (lbody mp bd)) f -> good_bodies lbody f) by (intros f; unfold good_bodies, on_kind; destruct (fd_kind f); auto).
  destruct it; unfold on_item, good_item; auto; intros H; (eapply Forall_impl; [|exact H]); exact G.
Qed.
Section Files.
Variable k : cfg.
Variable syn : syntax.
Lemma piece_body bd : forall p, element KMessage p -> piece p bodypath (l_body k syn p bd).
Proof.
  induction bd as [items exts opts res IH] using body_rect'. intros p Hk. cbn [l_body].
  assert (S : forall t, In t [5; 6; 7; 9; 10]%Z -> shared (p ++ [t])) by (intros; now apply sh_message).
  assert (Hg : Forall (good_item (l_body k syn)) items) by (eapply Forall_impl; [|exact IH]; intros it; apply on_good).
  eapply piece_weak; [apply piece_app; [apply piece_items; [exact Hk|exact Hg]|apply piece_app; [apply piece_reserved; [discriminate|apply S; cbn; tauto|apply S; cbn; tauto]|apply piece_app; [apply piece_deep, piece_extensions, S; cbn; tauto|apply piece_deep, piece_options, S; cbn; tauto|clash]|unfold itempath; clash]|unfold itempath; clash]|].
  unfold itempath, bodypath. clash; eexists _, _; (split; [reflexivity|lia]).
Qed.
Lemma good_fields (l : list (field_ body)) : Forall (good_bodies (l_body k syn)) l.
Proof. apply Forall_forall. intros f _. unfold good_bodies. destruct (fd_kind f); auto. intros mp Hm. now apply piece_body. Qed.
Lemma piece_imports l : forall i pub weak, piece [] (fun r => ge 3 i r \/ ge 10 pub r \/ ge 11 weak r) (l_imports [] i pub weak l).
Proof.
  induction l as [|im l IH]; intros i pub weak; cbn [l_imports]; [eapply piece_weak; [apply piece_nil|]; intros r []|].
  specialize (IH (i + 1) (if is_kind IPublic im then pub + 1 else pub) (if is_kind IWeak im then weak + 1 else weak)).
  assert (P : piece [] (fun r => (r = [10%Z; Z.of_N pub] /\ is_kind IPublic im = true) \/ (r = [11%Z; Z.of_N weak] /\ is_kind IWeak im = true))
    match im_kind im with Some (IPublic, sp) => [at_ ([] ++ [10%Z; Z.of_N pub]) sp] | Some (IWeak, sp) => [at_ ([] ++ [11%Z; Z.of_N weak]) sp] | None => [] end).
  { unfold is_kind. destruct (im_kind im) as [[[] sp]|].
    - eapply piece_weak; [apply piece_one|]. intros r <-. first [left; split; reflexivity|right; split; reflexivity].
    - eapply piece_weak; [apply piece_one|]. intros r <-. first [left; split; reflexivity|right; split; reflexivity].
    - eapply piece_weak; [apply piece_nil|]. intros ? []. }
  eapply piece_weak; [apply piece_cons; [apply piece_one|apply piece_app; [exact P|exact IH|]|]|].
  - intros r [[-> E]|[-> E]]; rewrite E; clash.
  - destruct (is_kind IPublic im), (is_kind IWeak im); clash.
  - intros r [<-|[[[-> _]|[-> _]]|[H|[H|H]]]].
    + left. exists i, []. split; [reflexivity|lia].
    + right; left. exists pub, []. split; [reflexivity|lia].
    + right; right. exists weak, []. split; [reflexivity|lia].
    + left. refine (ge_le _ _ _ _ _ H). lia.
    + right; left. refine (ge_le _ _ _ _ _ H). destruct (is_kind IPublic im); lia.
    + right; right. refine (ge_le _ _ _ _ _ H). destruct (is_kind IWeak im); lia.
Qed.
Definition fitempath (nm ne ns nx : N) (r : list Z) : Prop := r = [7%Z] \/ ge 4 nm r \/ ge 5 ne r \/ ge 6 ns r \/ ge 7 nx r.
Definition fitemhere (nm ne ns nx : N) (it : fitem) (r : list Z) : Prop :=
  r = [7%Z] \/ bt 4 nm (nm + len (fitem_messages k syn it)) r \/ bt 5 ne (ne + len (fitem_enums it)) r \/ bt 6 ns (ns + len (fitem_services it)) r \/
  bt 7 nx (nx + len (fitem_extensions k syn it)) r.
Lemma piece_fitem it nm ne ns nx : piece [] (fitemhere nm ne ns nx it)
  match it with
  | FIMessage m => l_message (l_body k syn) ([] ++ [4%Z; Z.of_N nm]) m
  | FIEnum e => l_enum ([] ++ [5%Z; Z.of_N ne]) e
  | FIService s => l_service ([] ++ [6%Z; Z.of_N ns]) s
  | FIExtend e => l_extend syn (den_body k syn) (l_body k syn) 7%Z 4%Z [] nx nm e
  end.
Proof.
  unfold fitemhere. destruct it as [e|m|e|s]; cbn [fitem_messages fitem_enums fitem_services fitem_extensions].
  - eapply piece_weak; [apply piece_deep, piece_enum, el_enum|]. intros r (s & -> & _). do 2 right; left. apply one_bt.
  - eapply piece_weak; [apply piece_deep, piece_message; [apply el_message|intros mp; apply piece_body]|]. intros r (s & -> & _). right; left. apply one_bt.
  - rewrite len_den_extend. eapply piece_weak; [apply piece_extend; [discriminate|intros; apply el_extension|intros; apply el_message|apply good_fields]|]. intros r [H|[H|H]]; tauto.
  - eapply piece_weak; [apply piece_deep, piece_service, el_service|]. intros r (s' & -> & _). do 3 right; left. apply one_bt.
Qed.
Lemma piece_fitems items : forall nm ne ns nx, piece [] (fitempath nm ne ns nx) (l_fitems k syn [] nm ne ns nx items).
Proof.
  pose proof sh_extend as S7.
  induction items as [|it items IH]; intros nm ne ns nx; cbn [l_fitems]; [eapply piece_weak; [apply piece_nil|]; intros r []|].
  eapply piece_weak; [apply piece_app; [apply piece_fitem|apply IH|]|].
  - unfold fitemhere, fitempath. generalize (len (fitem_messages k syn it)) (len (fitem_enums it)) (len (fitem_services it)) (len (fitem_extensions k syn it)). clear -S7. clash.
  - unfold fitemhere, fitempath. intros r [[H|[H|[H|[H|H]]]]|[H|[H|[H|[H|H]]]]]; first [apply bt_ge in H|eapply ge_le in H; [|apply N.le_add_r]|idtac]; tauto.
Qed.
Lemma file_once f : once (pa (l_file k syn f)).
Proof.
  unfold l_file, at_. pose proof (piece_imports (fi_imports f) 0 0 0) as P1. pose proof (piece_fitems (fi_items f) 0 0 0 0) as P2.
  pose proof (piece_deep [] [8%Z] _ _ (piece_options [8%Z] (fi_options f) sh_file_options)) as P3.
  assert (P4 : piece [] (eq [12%Z]) (match fi_syntax_span f with Some (sp, c) => [([12%Z], sp, c)] | None => [] end)).
  { destruct (fi_syntax_span f) as [[sp c]|]; [apply (piece_one [])|]. eapply piece_weak; [apply piece_nil|]. intros ? []. }
  assert (P0 : piece [] (eq [2%Z]) (match fi_package f with Some p => [([2%Z], pk_span p, pk_comments p)] | None => [] end)).
  { destruct (fi_package f); [apply (piece_one [])|]. eapply piece_weak; [apply piece_nil|]. intros ? []. }
  eapply piece_cons; [apply piece_here|apply piece_app; [exact P0|apply piece_app; [exact P1|apply piece_app; [exact P2|apply piece_app; [exact P3|exact P4|clash]|unfold fitempath; clash]|unfold fitempath; clash]|unfold fitempath; clash]|unfold fitempath; clash].
Qed.
End Files.
