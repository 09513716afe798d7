(** The generator computes the meaning of the declarations (Meaning.v): it never
    panics on well-formed declarations, returns the denoted descriptor and
    locations, and reports an error iff a semantic rule is violated. *)
From Verif Require Import Base Utf8 Errors Lex Ast Lines Descriptor Generate LexSafe Meaning AstWf PropsLines.

Lemma all_app {A} (Q : A -> Prop) l1 l2 : all Q (l1 ++ l2) <-> all Q l1 /\ all Q l2.
Proof. induction l1 as [|x l1 IH]; [cbn; tauto|]. change (Q x /\ all Q (l1 ++ l2) <-> (Q x /\ all Q l1) /\ all Q l2). tauto. Qed.
Lemma all_Forall {A} (Q : A -> Prop) l : all Q l <-> Forall Q l.
Proof. induction l as [|x l IH]; [cbn; split; auto|]. change (Q x /\ all Q l <-> Forall Q (x :: l)). rewrite Forall_cons_iff. tauto. Qed.

(** ** The generator's small functions, against Meaning.v *)
Lemma take_first_spec n l : take_first n l = match find (called n) l with Some o => Some (o, drop_called n l) | None => None end.
Proof.
  induction l as [|o l IH]; [reflexivity|]. cbn [take_first find drop_called]. change (has_name o n) with (called n o). destruct (called n o); [reflexivity|].
  rewrite IH. now destruct (find (called n) l).
Qed.
Lemma drop_none n l : find (called n) l = None -> drop_called n l = l.
Proof. induction l as [|o l IH]; [reflexivity|]. cbn. destruct (called n o); [discriminate|]. intros H. now rewrite IH. Qed.
Definition without (n : bytes) (ol : option optlist) : option optlist :=
  option_map (fun l => {| ol_options := drop_called n (ol_options l); ol_span := ol_span l |}) ol.
Lemma take_option_spec n ol : take_option n ol = (find (called n) (optlist_options ol), without n ol).
Proof.
  destruct ol as [l|]; [|reflexivity]. unfold take_option, without. cbn [optlist_options option_map]. rewrite take_first_spec. destruct (find (called n) (ol_options l)) eqn:E; [reflexivity|].
  rewrite drop_none by auto. destruct l; reflexivity.
Qed.
Lemma find_drop n m l : m <> n -> find (called n) (drop_called m l) = find (called n) l.
Proof.
  intros Hn. induction l as [|o l IH]; [reflexivity|]. cbn [drop_called find]. destruct (called m o) eqn:Em.
  - replace (called n o) with false; [reflexivity|]. unfold called in *. destruct (ob_name o) as [|[i|] []]; try discriminate. symmetry. apply bytes_eqb_neq. apply bytes_eqb_eq in Em. congruence.
  - cbn [find]. now rewrite IH.
Qed.
Lemma proto_ty_spec t : proto_ty t = scalar_type t.
Proof. destruct t; reflexivity. Qed.
Lemma key_type_spec t : valid_key_type t = key_type t.
Proof. destruct t; reflexivity. Qed.
Lemma f64_default_spec k v : f64_default k v = den_float k v.
Proof. destruct v as [[] i sp|i|f|s|t sp]; reflexivity. Qed.
Lemma message_set_spec l : is_message_set l = message_set l.
Proof.
  unfold is_message_set, message_set. change (fun o : option_ => has_name (op_body o) (b "message_set_wire_format")) with (fun o : option_ => called (b "message_set_wire_format") (op_body o)).
  destruct (find _ l) as [o|]; [|reflexivity]. unfold as_bool. destruct (ob_value (op_body o)) as [[] i sp|i|f|s|t sp]; try reflexivity.
  destruct (bytes_eqb (id_val i) (b "false")) eqn:E; [apply bytes_eqb_eq in E; rewrite E; reflexivity|]. now destruct (bytes_eqb (id_val i) (b "true")).
Qed.
Lemma pascal_spec l : to_pascal_case l = flat_map capital (words l).
Proof.
  assert (G : forall l, pascal_loop true l = flat_map capital (words l) /\ pascal_loop false l = match words l with w :: ws => w ++ flat_map capital ws | [] => [] end).
  { clear. induction l as [|c l [IH1 IH2]]; [split; reflexivity|]. cbn [pascal_loop words]. destruct (c =? 95).
    - cbn [flat_map capital app]. auto.
    - destruct (words l) as [|w ws]; cbn [flat_map capital app] in *; rewrite ?IH2; split; reflexivity. }
  apply G.
Qed.
Lemma synthetic_spec (n : bytes) : (if head_is 95 n then b "X" ++ n else b "_" ++ n) = synthetic_name n.
Proof.
  unfold synthetic_name, head_is. destruct n as [|c r]; [reflexivity|]. destruct (c =? 95) eqn:E; [apply N.eqb_eq in E; subst; reflexivity|].
  apply N.eqb_neq in E. destruct c as [|p]; [reflexivity|]. do 8 (try (destruct p as [p|p|]; try reflexivity; try congruence)).
Qed.

Section Gen.
Variable k : cfg.
Variable n : N.
Variable lines : list Z.
Variable syn : syntax.
Hypothesis n_max : n <= i32_max.
Hypothesis lines_ok : forall sp, s_start sp <= n -> s_end sp <= n -> exists r, resolve_span lines sp = Done r.
Notation sok := (span_ok n).

Definition mk (x : rawloc) : location :=
  let '(p, sp, c) := x in
  {| loc_path := p; loc_span := match resolve_span lines sp with Done r => r | _ => [] end;
     loc_leading := ac_leading c; loc_trailing := ac_trailing c; loc_detached := ac_detached c |}.

Definition gx {A} (m : G A) (p : list Z) (v : A) (p' : list Z) (l : list rawloc) (ok : Prop) : Prop :=
  exists e, m p = Done (v, p', e, map mk l) /\ Forall (err_ok n) e /\ (e = [] <-> ok).

Lemma gx_eq {A} (m : G A) p v v' p1 p1' l l' (ok ok' : Prop) :
  gx m p v p1 l ok -> v = v' -> p1 = p1' -> l = l' -> (ok <-> ok') -> gx m p v' p1' l' ok'.
Proof. intros (e & H1 & H2 & H3) -> -> -> H. exists e. rewrite <- H. auto. Qed.
Lemma gx_bind {A C} (m : G A) (f : A -> G C) p v p1 l1 (o1 : Prop) w p2 l2 (o2 : Prop) :
  gx m p v p1 l1 o1 -> gx (f v) p1 w p2 l2 o2 -> gx (gbind m f) p w p2 (l1 ++ l2) (o1 /\ o2).
Proof.
  intros (e1 & H1 & H2 & H3) (e2 & K1 & K2 & K3). exists (e1 ++ e2). unfold gbind. rewrite H1, K1, map_app. split; [reflexivity|].
  split; [now apply Forall_app|]. split.
  - intros E. apply app_eq_nil in E. destruct E. split; [now apply H3|now apply K3].
  - intros [E1 E2]. apply H3 in E1. apply K3 in E2. now subst.
Qed.
Lemma gx_ret {A} (v : A) p : gx (gret v) p v p [] True.
Proof. exists []. repeat split; auto. Qed.
Lemma gx_push q p : gx (gpush q) p tt (p ++ q) [] True.
Proof. exists []. repeat split; auto. Qed.
Lemma gx_pop1 p x : gx gpop1 (p ++ [x]) tt p [] True.
Proof. exists []. unfold gpop1. rewrite removelast_last. repeat split; auto. Qed.
Lemma gx_pop m p q : length q = m -> gx (gpop m) (p ++ q) tt p [] True.
Proof.
  intros <-. exists []. unfold gpop. rewrite app_length. replace (Nat.ltb _ _) with false by (symmetry; apply Nat.ltb_ge; lia).
  replace (length p + length q - length q)%nat with (length p) by lia. rewrite firstn_app, Nat.sub_diag, firstn_all, firstn_O, app_nil_r. repeat split; auto.
Qed.
Lemma gx_err er p : err_ok n er -> gx (gerr er) p tt p [] False.
Proof. intros H. exists [er]. split; [reflexivity|]. split; [now constructor|]. split; [discriminate|tauto]. Qed.
Lemma gx_err_ret {A} er (v : A) p : err_ok n er -> gx (gerr er ;;;; gret v) p v p [] False.
Proof. intros H. eapply gx_eq; [eapply gx_bind; [now apply gx_err|apply gx_ret]|..]; auto. tauto. Qed.
Lemma gx_index i p : i <= n -> gx (gindex i) p (Z.of_N i) p [] True.
Proof.
  intros H. exists []. unfold gindex, glift, index_to_i32. replace (i <=? i32_max) with true by (symmetry; apply N.leb_le; lia). repeat split; auto.
Qed.
Lemma gx_unwrap {A} (o : option A) v p : o = Some v -> gx (gunwrap o) p v p [] True.
Proof. intros ->. exists []. repeat split; auto. Qed.
Lemma gx_comments' sp c p : s_start sp <= n -> s_end sp <= n -> gx (add_comments lines sp c) p tt p [(p, sp, c)] True.
Proof.
  intros H1 H2. destruct (lines_ok sp H1 H2) as [r E]. exists []. unfold add_comments, gbind, glift. rewrite E. cbn. rewrite E. repeat split; auto.
Qed.
Lemma gx_comments sp c p : sok sp -> gx (add_comments lines sp c) p tt p [(p, sp, c)] True.
Proof. intros [H1 H2]. apply gx_comments'; lia. Qed.
Lemma gx_span sp p : sok sp -> gx (add_span lines sp) p tt p [at_ p sp] True.
Proof. apply gx_comments. Qed.
Lemma gx_comments_for q sp c p : sok sp -> gx (add_comments_for lines q sp c) p tt p [(p ++ q, sp, c)] True.
Proof.
  intros H. eapply gx_eq; [eapply gx_bind; [apply gx_push|eapply gx_bind; [now apply gx_comments|now apply gx_pop]]|..]; try reflexivity. tauto.
Qed.
Lemma gx_span_for q sp p : sok sp -> gx (add_span_for lines q sp) p tt p [at_ (p ++ q) sp] True.
Proof. apply gx_comments_for. Qed.
Lemma gx_if {A} (c : bool) (m1 m2 : G A) p v p' l (o1 o2 : Prop) :
  (c = true -> gx m1 p v p' l o1) -> (c = false -> gx m2 p v p' l o2) -> gx (if c then m1 else m2) p v p' l (if c then o1 else o2).
Proof. destruct c; auto. Qed.

(** Appending loops. *)
Lemma gx_fold_app {A C} (f : list C -> A -> G (list C)) (den : A -> C) (loc : Z -> A -> list rawloc) (ok : A -> Prop) (W : A -> Prop) p :
  (forall acc x, W x -> len acc <= n -> gx (f acc x) p (acc ++ [den x]) p (loc (Z.of_N (len acc)) x) (ok x)) ->
  forall l acc, Forall W l -> len acc + len l <= n ->
  gx (gfold f l acc) p (acc ++ map den l) p (l_idx loc (len acc) l) (all ok l).
Proof.
  intros Hf l. induction l as [|x l IH]; intros acc HW Hn.
  - cbn. rewrite app_nil_r. apply gx_ret.
  - inversion HW; subst. rewrite len_cons in Hn. cbn [gfold l_idx all].
    eapply gx_eq; [eapply gx_bind; [apply Hf; [auto|lia]|apply IH; [auto|rewrite len_app, len_cons, len_nil; lia]]|..]; auto.
    + now rewrite <- app_assoc.
    + f_equal. f_equal. rewrite len_app, len_cons, len_nil. lia.
    + reflexivity.
Qed.

Ltac gb := eapply gx_bind.
Ltac fin := match goal with |- @eq (list _) _ _ => idtac end; repeat (progress (cbn [app]; rewrite ?app_nil_r, <- ?app_assoc)); try reflexivity; try (solve [fin]).
Tactic Notation "run" tactic3(t) := eapply gx_eq; [t|try reflexivity..]; try (solve [fin]); try tauto; try lia.

(** ** Numbers *)
Ltac zb := repeat (rewrite ?Z.leb_le, ?Z.leb_gt, ?N.leb_le, ?N.leb_gt, ?N.eqb_eq, ?N.eqb_neq, ?andb_true_iff, ?andb_false_iff in *).
Lemma if_within_spec lo hi i : if_within lo hi i = if within lo hi (int_value i) then Some (int_value i) else None.
Proof. reflexivity. Qed.
Lemma within_spec lo hi z : within lo hi z = true <-> (lo <= z <= hi)%Z.
Proof. unfold within. rewrite andb_true_iff, !Z.leb_le. tauto. Qed.
Lemma within_false lo hi z : within lo hi z = false <-> ~ (lo <= z <= hi)%Z.
Proof. rewrite <- within_spec. destruct (within lo hi z); split; intros; congruence || (exfalso; auto; fail) || auto. Qed.
Lemma if_within_some lo hi i : if_within lo hi i <> None <-> (lo <= int_value i <= hi)%Z.
Proof. unfold if_within. rewrite <- within_spec. destruct (within lo hi (int_value i)); split; congruence. Qed.
Lemma as_i32_spec i : as_i32 i = if_within (-2147483648) 2147483647 i.
Proof.
  unfold as_i32, if_within, within, int_value, i32_max. destruct (i_neg i).
  - destruct (i_val i =? 2147483647 + 1) eqn:E1; [apply N.eqb_eq in E1; rewrite E1; reflexivity|]. apply N.eqb_neq in E1.
    destruct (i_val i <=? 2147483647) eqn:E2; zb.
    + replace (-2147483648 <=? - Z.of_N (i_val i))%Z with true by (symmetry; apply Z.leb_le; lia).
      replace (- Z.of_N (i_val i) <=? 2147483647)%Z with true by (symmetry; apply Z.leb_le; lia). reflexivity.
    + replace (-2147483648 <=? - Z.of_N (i_val i))%Z with false by (symmetry; apply Z.leb_gt; lia). reflexivity.
  - destruct (i_val i <=? 2147483647) eqn:E2; zb.
    + replace (-2147483648 <=? Z.of_N (i_val i))%Z with true by (symmetry; apply Z.leb_le; lia).
      replace (Z.of_N (i_val i) <=? 2147483647)%Z with true by (symmetry; apply Z.leb_le; lia). reflexivity.
    + replace (Z.of_N (i_val i) <=? 2147483647)%Z with false by (symmetry; apply Z.leb_gt; lia). now rewrite andb_false_r.
Qed.
Lemma as_i64_spec i : as_i64 i = if_within (-9223372036854775808) 9223372036854775807 i.
Proof.
  unfold as_i64, if_within, within, int_value, i64_max. destruct (i_neg i).
  - destruct (i_val i =? 9223372036854775807 + 1) eqn:E1; [apply N.eqb_eq in E1; rewrite E1; reflexivity|]. apply N.eqb_neq in E1.
    destruct (i_val i <=? 9223372036854775807) eqn:E2; zb.
    + replace (-9223372036854775808 <=? - Z.of_N (i_val i))%Z with true by (symmetry; apply Z.leb_le; lia).
      replace (- Z.of_N (i_val i) <=? 9223372036854775807)%Z with true by (symmetry; apply Z.leb_le; lia). reflexivity.
    + replace (-9223372036854775808 <=? - Z.of_N (i_val i))%Z with false by (symmetry; apply Z.leb_gt; lia). reflexivity.
  - destruct (i_val i <=? 9223372036854775807) eqn:E2; zb.
    + replace (-9223372036854775808 <=? Z.of_N (i_val i))%Z with true by (symmetry; apply Z.leb_le; lia).
      replace (Z.of_N (i_val i) <=? 9223372036854775807)%Z with true by (symmetry; apply Z.leb_le; lia). reflexivity.
    + replace (Z.of_N (i_val i) <=? 9223372036854775807)%Z with false by (symmetry; apply Z.leb_gt; lia). now rewrite andb_false_r.
Qed.

Ltac wz := repeat match goal with H : within _ _ _ = true |- _ => apply within_spec in H | H : within _ _ _ = false |- _ => apply within_false in H end.

Lemma err1 e sp : perr_spans e = [sp] -> sok sp -> err_ok n e.
Proof. intros E H. unfold err_ok. rewrite E. now constructor. Qed.

Lemma number_gx i p : sok (i_span i) -> gx (generate_message_number i) p (den_number i) p [] (ok_number i).
Proof.
  intros H. unfold generate_message_number, den_number, ok_number. rewrite as_i32_spec. unfold if_within. unfold max_field_number.
  destruct (within (-2147483648) 2147483647 (int_value i)) eqn:E1; destruct (within 1 536870911 (int_value i)) eqn:E2;
    wz.
  - replace ((1 <=? int_value i)%Z && (int_value i <=? 536870911)%Z) with true by (symmetry; zb; lia). run (apply gx_ret).
  - replace ((1 <=? int_value i)%Z && (int_value i <=? 536870911)%Z) with false.
    + run (apply gx_err_ret; eapply err1; [reflexivity|auto]).
    + symmetry. apply andb_false_iff. zb. lia.
  - lia.
  - run (apply gx_err_ret; eapply err1; [reflexivity|auto]).
Qed.
Lemma enum_number_gx i p : sok (i_span i) -> gx (generate_enum_number i) p (den_enum_number i) p [] (ok_enum_number i).
Proof.
  intros H. unfold generate_enum_number, den_enum_number, ok_enum_number. rewrite as_i32_spec. unfold if_within.
  destruct (within (-2147483648) 2147483647 (int_value i)) eqn:E1; wz.
  - run (apply gx_ret).
  - run (apply gx_err_ret; eapply err1; [reflexivity|auto]).
Qed.
Lemma den_number_bound i z : den_number i = Some z -> (1 <= z <= 536870911)%Z.
Proof. unfold den_number, if_within, max_field_number. destruct (within 1 536870911 (int_value i)) eqn:E; [|discriminate]. apply within_spec in E. congruence. Qed.
Lemma succ_gx o p : (forall z, o = Some z -> (z < 2147483647)%Z) -> gx (i32_succ o) p (succ o) p [] True.
Proof.
  intros H. destruct o as [z|]; cbn [i32_succ succ option_map]; [|apply gx_ret]. unfold i32_maxZ.
  replace (z <? 2147483647)%Z with true by (symmetry; apply Z.ltb_lt; auto). apply gx_ret.
Qed.
Lemma range_spans_gx r p : wf_range n r -> gx (add_range_spans lines r) p tt p (l_range p r) True.
Proof.
  intros (H1 & H2 & H3). unfold add_range_spans. run (gb; [now apply gx_span|gb; now apply gx_span_for]).
Qed.
Lemma range_end_gx ms r p : wf_range n r -> exists e, gx (message_range_end (den_number (rr_start r)) (rr_end r) ms) p e p []
    (match rr_end r with REInt v => ok_number v | _ => True end) /\ succ e = den_range_end ms r /\ (forall z, e = Some z -> (z < 2147483647)%Z).
Proof.
  intros (_ & H & _). unfold message_range_end, den_range_end, rr_end_span in *. destruct (rr_end r).
  - eexists. split; [apply gx_ret|]. split; auto. intros z E. apply den_number_bound in E. lia.
  - eexists. split; [now apply number_gx|]. split; auto. intros z E. apply den_number_bound in E. lia.
  - eexists. split; [apply gx_ret|]. unfold i32_maxZ, max_field_number. destruct ms; split; try reflexivity; intros z E; injection E as <-; lia.
Qed.
Lemma message_range_gx ms r p : wf_range n r -> gx (generate_message_reserved_range lines ms r) p (den_range ms r) p (l_range p r) (ok_range r).
Proof.
  intros H. unfold generate_message_reserved_range. destruct (range_end_gx ms r p H) as (e & He & E & Hb).
  eapply gx_eq; [gb; [now apply range_spans_gx|gb; [apply number_gx, H|gb; [apply He|gb; [now apply succ_gx|apply gx_ret]]]]|..]; try reflexivity; try (solve [fin]).
  - unfold den_range. now rewrite E.
  - unfold ok_range. tauto.
Qed.
Lemma enum_range_gx r p : wf_range n r -> gx (generate_enum_reserved_range lines r) p (den_enum_range r) p (l_range p r) (ok_enum_range r).
Proof.
  intros H. unfold generate_enum_reserved_range. pose proof H as (H1 & H2 & H3). unfold rr_end_span in H2.
  assert (Hr : gx (match rr_end r with RENone => gret (den_enum_number (rr_start r)) | REInt v => generate_enum_number v | REMax _ => gret (Some i32_maxZ) end) p
    (match rr_end r with RENone => den_enum_number (rr_start r) | REInt v => den_enum_number v | REMax _ => Some i32_maxZ end) p []
    (match rr_end r with REInt v => ok_enum_number v | _ => True end)).
  { destruct (rr_end r); [apply gx_ret|now apply enum_number_gx|apply gx_ret]. }
  eapply gx_eq; [gb; [now apply range_spans_gx|gb; [now apply enum_number_gx|gb; [apply Hr|apply gx_ret]]]|..]; try reflexivity; try (solve [fin]).
  - unfold ok_enum_range. tauto.
Qed.

(** ** Options *)
Lemma dotted_cons x r : dotted (x :: r) = x ++ flat_map (fun y => b "." ++ y) r.
Proof.
  revert x. induction r as [|y r IH]; intros x; [cbn; now rewrite app_nil_r|]. change (dotted (x :: y :: r)) with (x ++ b "." ++ dotted (y :: r)).
  rewrite IH. cbn [flat_map]. now rewrite <- app_assoc.
Qed.
Lemma full_display f : f <> [] -> full_ident_display f = Some (full_text f).
Proof.
  destruct f as [|x r]; [congruence|]. intros _. unfold full_ident_display, full_text. cbn [map]. rewrite dotted_cons. f_equal. f_equal.
  induction r as [|y r IH]; cbn [map flat_map]; [reflexivity|]. now rewrite IH.
Qed.
Lemma tname_display t : wf_tname n t -> type_name_display t = Some (tname_text t).
Proof. intros [H _]. unfold type_name_display, tname_text. now rewrite full_display. Qed.
Lemma tname_span_ok t : wf_tname n t -> type_name_span t = Some (tname_span t) /\ sok (tname_span t).
Proof. intros (_ & sp & E & H). unfold tname_span. rewrite E. auto. Qed.
Lemma parts_gx l p : Forall (wf_part n) l -> gx (option_name_parts l) p (map den_part l) p [] True.
Proof.
  induction l as [|[i|t sp] l IH]; intros H; cbn [option_name_parts map den_part]; [apply gx_ret|..]; inversion H; subst.
  - run (gb; [now apply IH|apply gx_ret]).
  - run (gb; [apply gx_unwrap; now apply tname_display|gb; [now apply IH|apply gx_ret]]).
Qed.
Lemma option_gx o p : wf_body_ n o -> gx (generate_option o) p (den_option o) p [] (ok_option o).
Proof.
  intros (H1 & _ & H3). unfold generate_option, den_option, ok_option. destruct (ob_value o) as [[] i sp|i|f|s|t sp]; cbn [optval_span] in H3.
  1: { run (gb; [now apply parts_gx|apply gx_err_ret; eapply err1; [reflexivity|auto]]). }
  2: { unfold int_value. destruct (i_neg i) eqn:En.
       - rewrite as_i64_spec. assert (Ev : int_value i = (- Z.of_N (i_val i))%Z) by (unfold int_value; now rewrite En). rewrite <- Ev.
         destruct (if_within (-9223372036854775808) 9223372036854775807 i) eqn:E.
         + run (gb; [now apply parts_gx|gb; [apply gx_ret|apply gx_ret]]).
           pose proof (if_within_some (-9223372036854775808) 9223372036854775807 i) as Hs. rewrite E in Hs. cbn. split; [intros _|tauto]. apply Hs. discriminate.
         + run (gb; [now apply parts_gx|gb; [apply gx_err; eapply err1; [reflexivity|auto]|apply gx_ret]]).
           pose proof (if_within_some (-9223372036854775808) 9223372036854775807 i) as Hs. rewrite E in Hs. split; [tauto|]. intros Hl. exfalso. apply Hs; auto. lia.
       - run (gb; [now apply parts_gx|apply gx_ret]). }
  all: run (gb; [now apply parts_gx|apply gx_ret]).
Qed.
Lemma some_map {A C} (f : A -> C) l : some_nonempty (map f l) = some_nonempty (map f l). Proof. reflexivity. Qed.
Lemma options_gx l p : wf_options n l -> gx (generate_options lines l) p (den_options l) p (l_options p l) (ok_options l).
Proof.
  intros [H1 H2]. unfold generate_options.
  eapply gx_eq; [gb; [|apply gx_ret]|..].
  - eapply (gx_fold_app _ (fun o => den_option (op_body o)) (fun i o => [at_ p (op_span o); (p ++ [tag_uninterpreted; i], op_span o, op_comments o)]) (fun o => ok_option (op_body o)) (wf_option n) p); [|eauto|rewrite len_nil; lia].
    intros acc x [Hx1 Hx2] Hn. eapply gx_eq; [gb; [now apply gx_span|gb; [now apply gx_index|gb; [now apply gx_comments_for|gb; [now apply option_gx|apply gx_ret]]]]|..]; try reflexivity. tauto.
  - reflexivity.
  - reflexivity.
  - fin.
  - unfold ok_options. tauto.
Qed.
Lemma body_span_ok o : wf_body_ n o -> ob_span o = Some (body_span o) /\ sok (body_span o).
Proof. intros (_ & (sp & E & H) & _). unfold body_span. rewrite E. auto. Qed.
Lemma optlist_gx ol p : wf_optlist n ol -> gx (generate_options_list lines ol) p (den_optlist ol) p (l_optlist p ol) (ok_optlist ol).
Proof.
  intros H. unfold generate_options_list. destruct ol as [l|]; cbn [wf_optlist] in H.
  - destruct H as (H1 & H2 & H3). unfold l_optlist, den_optlist, ok_optlist, optlist_options.
    eapply gx_eq; [gb; [gb; [now apply gx_span|]|apply gx_ret]|..].
    + eapply (gx_fold_app _ den_option (fun i o => [at_ (p ++ [tag_uninterpreted; i]) (body_span o)]) ok_option (wf_body_ n) p); [|eauto|rewrite len_nil; lia].
      intros acc x Hx Hn. destruct (body_span_ok _ Hx) as [E1 E2].
      eapply gx_eq; [gb; [now apply gx_index|gb; [apply gx_unwrap; eauto|gb; [now apply gx_span_for|gb; [now apply option_gx|apply gx_ret]]]]|..]; try reflexivity. tauto.
    + reflexivity.
    + reflexivity.
    + fin.
    + tauto.
  - run (gb; [apply gx_ret|apply gx_ret]).
Qed.

Lemma ext_range_gx ms os r p : wf_range n r -> wf_optlist n os ->
  gx (generate_message_extension_range lines ms os r) p (den_ext_range ms os r) p (l_range p r ++ l_optlist (p ++ [tag_ext_range_options]) os) (ok_range r /\ ok_optlist os).
Proof.
  intros H Ho. unfold generate_message_extension_range. destruct (range_end_gx ms r p H) as (e & He & E & Hb).
  eapply gx_eq; [gb; [now apply range_spans_gx|gb; [apply gx_push|gb; [now apply optlist_gx|gb; [apply gx_pop1|gb; [apply number_gx, H|gb; [apply He|gb; [now apply succ_gx|apply gx_ret]]]]]]]|..]; try reflexivity; try (solve [fin]).
  - unfold den_ext_range. now rewrite E.
  - unfold ok_range. tauto.
Qed.

Lemma total_app {A} (f : A -> N) l1 l2 : total f (l1 ++ l2) = total f l1 + total f l2.
Proof. unfold total. induction l1; cbn; [lia|]. rewrite IHl1. lia. Qed.

Lemma reserved_gx rt nt grange den ok rs p :
  (forall r q, wf_range n r -> gx (grange r) q (den r) q (l_range q r) (ok r)) -> wf_reserveds n rs ->
  gx (generate_reserved lines rt nt grange rs) p (map den (flat_map res_ranges rs), den_reserved_names rs) p
     (l_reserved rt nt p 0 0 rs) (all ok (flat_map res_ranges rs)).
Proof.
  intros Hg [H1 H2]. unfold generate_reserved, den_reserved_names.
  enough (Hx : forall l a c, Forall (wf_reserved n) l -> len a + len c + total res_size l <= n ->
    gx (gfold (fun '(ranges, names) r =>
    match rs_kind r with
    | RKRanges l =>
      gpush [rt] ;;;;
      add_comments lines (rs_span r) (rs_comments r) ;;;;
      ranges' <-- gfold (fun acc x =>
        i <-- gindex (len acc) ;;
        gpush [i] ;;;;
        y <-- grange x ;;
        gpop1 ;;;;
        gret (acc ++ [y])) l ranges ;;
      gpop1 ;;;;
      gret (ranges', names)
    | RKNames l =>
      gpush [nt] ;;;;
      add_comments lines (rs_span r) (rs_comments r) ;;;;
      names' <-- gfold (fun acc n =>
        i <-- gindex (len acc) ;;
        add_span_for lines [i] (id_span n) ;;;;
        gret (acc ++ [id_val n])) l names ;;
      gpop1 ;;;;
      gret (ranges, names')
    end) l (a, c)) p (a ++ map den (flat_map res_ranges l), c ++ map id_val (flat_map res_names l)) p (l_reserved rt nt p (len a) (len c) l) (all ok (flat_map res_ranges l))).
  { apply (Hx rs [] []); auto. }
  induction l as [|r l IH]; intros a c HW Hn; cbn [gfold l_reserved flat_map map].
  { rewrite !app_nil_r. apply gx_ret. }
  inversion HW as [|? ? [Hs Hk] HW']; subst. cbn [total fold_right] in Hn. change (fold_right _ 0 l) with (total res_size l) in Hn. unfold res_size at 1 in Hn.
  unfold res_ranges at 1 3 4, res_names at 1 3. destruct (rs_kind r) as [rl|nl].
  - eapply gx_eq; [gb; [gb; [apply gx_push|gb; [now apply gx_comments|gb; [|gb; [apply gx_pop1|apply gx_ret]]]]|apply IH; auto]|..].
    + eapply (gx_fold_app _ den (fun i x => l_range (p ++ [rt; i]) x) ok (wf_range n)); [|eauto|lia].
      intros acc x Hx Hacc. eapply gx_eq; [gb; [now apply gx_index|gb; [apply gx_push|gb; [now apply Hg|gb; [apply gx_pop1|apply gx_ret]]]]|..]; try reflexivity; [|tauto]. cbn [app]. rewrite <- app_assoc. fin.
    + rewrite len_app. unfold len at 2. rewrite map_length. fold (len rl). lia.
    + rewrite map_app, <- !app_assoc. reflexivity.
    + reflexivity.
    + cbn [app]. rewrite app_nil_r. cbn [app]. rewrite len_nil. f_equal. f_equal. f_equal; [|lia]. rewrite len_app. unfold len at 2 3. now rewrite map_length.
    + rewrite all_app. tauto.
  - eapply gx_eq; [gb; [gb; [apply gx_push|gb; [now apply gx_comments|gb; [|gb; [apply gx_pop1|apply gx_ret]]]]|apply IH; auto]|..].
    + eapply (gx_fold_app _ id_val (fun i x => [at_ (p ++ [nt; i]) (id_span x)]) (fun _ => True) (fun i => sok (id_span i))); [|eauto|lia].
      intros acc x Hx Hacc. eapply gx_eq; [gb; [now apply gx_index|gb; [now apply gx_span_for|apply gx_ret]]|..]; try reflexivity; [|tauto]. cbn [app]. rewrite <- app_assoc. fin.
    + rewrite len_app. unfold len at 3. rewrite map_length. fold (len nl). lia.
    + cbn [app]. rewrite map_app, <- !app_assoc. reflexivity.
    + reflexivity.
    + cbn [app]. rewrite app_nil_r. cbn [app]. rewrite len_nil. f_equal. f_equal. f_equal; [lia|]. rewrite len_app. unfold len at 2 3. now rewrite map_length.
    + cbn [app]. enough (all (fun _ : ident => True) nl) by tauto. clear. induction nl; cbn; auto.
Qed.

(** ** Enums and services *)
Lemma enum_value_gx v p : wf_enum_value n v -> gx (generate_enum_value_descriptor lines v) p (den_enum_value v) p (l_enum_value p v) (ok_enum_value v).
Proof.
  intros (H1 & H2 & H3 & H4). unfold generate_enum_value_descriptor, ok_enum_value.
  run (gb; [now apply gx_comments|gb; [now apply gx_span_for|gb; [now apply gx_span_for|gb; [now apply enum_number_gx|
    gb; [apply gx_push|gb; [now apply optlist_gx|gb; [apply gx_pop1|apply gx_ret]]]]]]]).
Qed.
Lemma enum_gx e p : wf_enum n e -> gx (generate_enum_descriptor lines e) p (den_enum_ e) p (l_enum p e) (ok_enum e).
Proof.
  intros (H1 & H2 & H3 & H4 & H5 & H6). unfold generate_enum_descriptor, ok_enum.
  eapply gx_eq; [gb; [now apply gx_comments|gb; [now apply gx_span_for|gb; [|gb; [apply reserved_gx; [intros; now apply enum_range_gx|auto]|
    gb; [apply gx_push|gb; [now apply options_gx|gb; [apply gx_pop1|apply gx_ret]]]]]]]|..].
  - eapply (gx_fold_app _ den_enum_value (fun i v => l_enum_value (p ++ [tag_enum_value; i]) v) ok_enum_value (wf_enum_value n) p); [|eauto|rewrite len_nil; lia].
    intros acc x Hx Hn. run (gb; [now apply gx_index|gb; [apply gx_push|gb; [now apply enum_value_gx|gb; [now apply gx_pop|apply gx_ret]]]]).
  - reflexivity.
  - reflexivity.
  - unfold l_enum. fin.
  - tauto.
Qed.
Lemma opt_span_gx t o p : wf_opt_span n o -> gx (match o with Some sp => add_span_for lines [t] sp | None => gret tt end) p tt p (opt_loc (p ++ [t]) o) True.
Proof. intros H. destruct o; [now apply gx_span_for|apply gx_ret]. Qed.
Lemma method_gx m p : wf_method n m -> gx (generate_method_descriptor lines m) p (den_method m) p (l_method p m) (ok_options (me_options m)).
Proof.
  intros (H1 & H2 & H3 & H4 & H5 & H6 & H7). unfold generate_method_descriptor.
  destruct (tname_span_ok _ H3) as [E1 E2], (tname_span_ok _ H4) as [E3 E4].
  eapply gx_eq; [gb; [now apply gx_comments|gb; [now apply gx_span_for|gb; [apply gx_unwrap; eauto|gb; [now apply gx_span_for|
    gb; [apply gx_unwrap; now apply tname_display|gb; [apply gx_unwrap; eauto|gb; [now apply gx_span_for|gb; [apply gx_unwrap; now apply tname_display|
    gb; [now apply opt_span_gx|gb; [now apply opt_span_gx|
    gb; [apply gx_push|gb; [now apply options_gx|gb; [apply gx_pop1|apply gx_ret]]]]]]]]]]]]]|..].
  - reflexivity.
  - reflexivity.
  - unfold l_method. fin.
  - tauto.
Qed.
Lemma service_gx s p : wf_service n s -> gx (generate_service_descriptor lines s) p (den_service_ s) p (l_service p s) (ok_service s).
Proof.
  intros (H1 & H2 & H3 & H4 & H5). unfold generate_service_descriptor.
  eapply gx_eq; [gb; [now apply gx_comments|gb; [now apply gx_span_for|gb; [apply gx_push|gb; [|gb; [apply gx_pop1|
    gb; [apply gx_push|gb; [now apply options_gx|gb; [apply gx_pop1|apply gx_ret]]]]]]]]|..].
  - eapply (gx_fold_app _ den_method (fun i m => l_method (p ++ [tag_service_method; i]) m) (fun m => ok_options (me_options m)) (wf_method n)); [|eauto|rewrite len_nil; lia].
    intros acc x Hx Hn. run (gb; [now apply gx_index|gb; [apply gx_push|gb; [now apply method_gx|gb; [apply gx_pop1|apply gx_ret]]]]).
  - reflexivity.
  - reflexivity.
  - unfold l_service. fin.
  - unfold ok_service. tauto.
Qed.

(** ** Fields *)
Lemma label_gx lab fsp sc p : sok fsp -> match lab with Some (_, sp) => sok sp | None => True end ->
  gx (generate_field_label lines syn lab fsp sc) p (den_label syn sc lab) p (l_label syn p sc lab) (den_label syn sc lab <> None).
Proof.
  intros H1 H2. unfold generate_field_label, l_label, den_label.
  change (is_proto2 syn) with (p2 syn); destruct sc, lab as [[[] sp]|], (p2 syn); cbn [option_map fst];
    first [ now (eapply gx_eq; [apply gx_err_ret; eapply err1; [reflexivity|assumption]|try reflexivity..]; split; [tauto|congruence])
          | now (eapply gx_eq; [gb; [now apply gx_span_for|apply gx_ret]|try reflexivity..]; split; [discriminate|tauto])
          | now (eapply gx_eq; [apply gx_ret|try reflexivity..]; split; [discriminate|tauto]) ].
Qed.
Lemma string_gx v p : sok (optval_span v) -> gx (generate_string_option_value k v) p (den_string v) p [] (den_string v <> None).
Proof.
  intros H. unfold generate_string_option_value, den_string.
  destruct v as [ng i sp|i|f|s|t sp]; cbn [optval_span] in *; try (destruct (utf8_valid (st_val s)));
    first [ now (eapply gx_eq; [apply gx_err_ret; eapply err1; [reflexivity|assumption]|try reflexivity..]; split; [tauto|congruence])
          | now (eapply gx_eq; [apply gx_ret|try reflexivity..]; split; [discriminate|tauto]) ].
Qed.
Lemma invalid_gx e v p : sok (optval_span v) -> gx (invalid_type k e v) p None p [] False.
Proof. intros H. apply gx_err_ret. eapply err1; [reflexivity|auto]. Qed.
Lemma int_default_gx o i e a c p : sok (i_span i) -> gx (int_default o i e a c) p o p [] (o <> None).
Proof.
  intros H. unfold int_default. destruct o; (eapply gx_eq; [first [apply gx_ret|apply gx_err_ret; eapply err1; [reflexivity|assumption]]|try reflexivity..]); split; congruence || tauto.
Qed.
Definition is_named (t : ty) : bool := match t with TyNamed _ => true | _ => false end.
Lemma default_gx t v p : is_named t = false -> sok (optval_span v) ->
  gx (generate_field_default_value k (proto_ty t) v) p (den_default k t v) p [] (den_default k t v <> None).
Proof.
  intros Ht H. unfold generate_field_default_value, den_default.
  assert (Inv : forall e, gx (invalid_type k e v) p None p [] ((None : option bytes) <> None)).
  { intros e. eapply gx_eq; [now apply invalid_gx|reflexivity..|]. split; [tauto|congruence]. }
  assert (HI : forall lo hi e a c (conv : aint -> option Z), (forall i, conv i = if_within lo hi i) ->
    gx (match v with OVInt i => int_default (option_map decZ (conv i)) i e a c | _ => invalid_type k (b "an integer") v end) p
       (match v with OVInt i => option_map decZ (if_within lo hi i) | _ => None end) p []
       (match v with OVInt i => option_map decZ (if_within lo hi i) | _ => None end <> None)).
  { intros lo hi e a c conv Hc. destruct v; try apply Inv. rewrite Hc. now apply int_default_gx. }
  assert (HU : forall (g : aint -> option bytes) e a c (conv : aint -> option N), (forall i, option_map dec (conv i) = g i) ->
    gx (match v with OVInt i => int_default (option_map dec (conv i)) i e a c | _ => invalid_type k (b "an integer") v end) p
       (match v with OVInt i => g i | _ => None end) p []
       (match v with OVInt i => g i | _ => None end <> None)).
  { intros g e a c conv Hc. destruct v; try apply Inv. rewrite Hc. now apply int_default_gx. }
  destruct t; try discriminate; cbn [proto_ty];
    try (apply HI; intros; first [apply as_i32_spec|apply as_i64_spec]).
  1,2: rewrite f64_default_spec; destruct (den_float k v) eqn:E; [eapply gx_eq; [apply gx_ret|reflexivity..|split; congruence || tauto]|apply Inv].
  1,3: apply HU; intros i; unfold as_u32; destruct (i_neg i); cbn; [reflexivity|]; destruct (i_val i <=? 4294967295); reflexivity.
  1,2: apply HU; intros i; unfold as_u64; destruct (i_neg i); reflexivity.
  - unfold as_bool. destruct v as [[] i sp|i|f|s|t sp]; try apply Inv.
    destruct (bytes_eqb (id_val i) (b "true")) eqn:E1; destruct (bytes_eqb (id_val i) (b "false")) eqn:E2; try apply Inv;
      try (eapply gx_eq; [apply gx_ret|reflexivity..|split; congruence || tauto]).
    apply bytes_eqb_eq in E1, E2. rewrite E1 in E2. discriminate.
  - now apply string_gx.
  - destruct v as [ng i sp|i|f|s|t sp]; try apply Inv. eapply gx_eq; [apply gx_ret|reflexivity..|split; congruence || tauto].
Qed.

Lemma take_first_wf nm l o r : take_first nm l = Some (o, r) -> Forall (wf_body_ n) l -> wf_body_ n o /\ Forall (wf_body_ n) r /\ len r <= len l.
Proof.
  revert o r. induction l as [|x l IH]; intros o r E H; cbn in E; [discriminate|]. inversion H; subst.
  destruct (has_name x nm).
  - injection E as <- <-. rewrite len_cons. split; [auto|split; [auto|lia]].
  - destruct (take_first nm l) as [[y r']|] eqn:Et; [|discriminate]. injection E as <- <-. destruct (IH y r' eq_refl) as (A1 & A2 & A3); auto.
    rewrite !len_cons. split; [auto|split; [now constructor|lia]].
Qed.
Lemma take_option_wf nm ol : wf_optlist n ol -> wf_optlist n (without nm ol) /\ match find (called nm) (optlist_options ol) with Some o => wf_body_ n o | None => True end.
Proof.
  intros H. destruct ol as [l|]; cbn [without option_map optlist_options wf_optlist find]; auto. destruct H as (H1 & H2 & H3). pose proof (take_first_spec nm (ol_options l)) as Ht.
  destruct (find (called nm) (ol_options l)) as [o|] eqn:E; [|cbn [ol_options ol_span]; rewrite drop_none by auto; repeat split; auto; apply H3]. destruct (take_first_wf _ _ _ _ Ht H1) as (A1 & A2 & A3).
  split; [|auto]. split; [auto|split; [cbn [ol_options]; lia|auto]].
Qed.

Section WithBody.
Context {B : Type}.
Variable gbody : B -> G msg_desc.
Variable dbody : B -> msg_desc.
Variable okbody : B -> Prop.
Variable lbody : list Z -> B -> list rawloc.
Variable wfb : B -> Prop.
Hypothesis body_gx : forall bd p, wfb bd -> gx (gbody bd) p (dbody bd) p (lbody p bd) (okbody bd).

Lemma synthetic_gx (f : field_ B) ot oneofs p : len oneofs <= n ->
  gx (synthetic_oneof syn f ot oneofs) p
     (if p3_optional syn f then Some true else None,
      match ot with Some _ => if p3_optional syn f then Some (Z.of_N (len oneofs)) else None | None => None end,
      match ot with Some _ => oneofs ++ den_field_oneofs syn f | None => oneofs end) p [] True.
Proof.
  intros H. unfold synthetic_oneof, p3_optional, den_field_oneofs, p3_optional.
  change (is_proto2 syn) with (p2 syn); destruct (p2 syn), (fd_label f) as [[[] sp]|], ot as [ot|]; rewrite ?app_nil_r; try apply gx_ret.
  run (gb; [now apply gx_index|gb; [apply gx_push|gb; [now apply gx_pop|apply gx_ret]]]). now rewrite synthetic_spec.
Qed.
Lemma check_default_gx (f : field_ B) o p : match o with Some o => wf_body_ n o | None => True end ->
  gx (check_default syn f o) p tt p []
     (o = None \/ p2 syn = true /\ option_map fst (fd_label f) <> Some LRepeated /\ match fd_kind f with FKMap _ _ _ _ _ => False | _ => True end).
Proof.
  intros H. unfold check_default. destruct o as [o|].
  - destruct (body_span_ok _ H) as [E1 E2].
    assert (Hm : gx (match fd_kind f, fd_label f with
      | FKMap _ _ _ _ _, _ => gerr (InvalidDefault (b "map") (body_span o))
      | _, Some (LRepeated, _) => gerr (InvalidDefault (b "repeated") (body_span o))
      | _, _ => if p2 syn then gret tt else gerr (Proto3DefaultValue (body_span o))
      end) p tt p [] (match fd_kind f, fd_label f with FKMap _ _ _ _ _, _ => False | _, Some (LRepeated, _) => False | _, _ => if p2 syn then True else False end)).
    { change (is_proto2 syn) with (p2 syn); destruct (fd_kind f), (fd_label f) as [[[] sp]|], (p2 syn);
        first [apply gx_ret | apply gx_err; eapply err1; [reflexivity|assumption]]. }
    eapply gx_eq; [gb; [apply gx_unwrap; eauto|apply Hm]|reflexivity..|].
    change (is_proto2 syn) with (p2 syn); destruct (fd_kind f), (fd_label f) as [[[] sp]|], (p2 syn); cbn [option_map fst]; intuition (try congruence; try discriminate).
  - eapply gx_eq; [apply gx_ret|reflexivity..|tauto].
Qed.

Definition kind_value (sc : scope) (f : field_ B) (messages : list msg_desc) :=
  let fd := den_field k syn sc None f in
  (match f_name fd with Some x => x | None => [] end, f_label fd, f_type fd, f_type_name fd, f_default fd, messages ++ den_field_messages dbody f).
Definition kind_locs (sc : scope) (fp mp : list Z) (f : field_ B) : list rawloc :=
  match fd_kind f with
  | FKNormal (TyNamed t) _ =>
    l_label syn fp sc (fd_label f) ++ [(fp, fd_span f, fd_comments f); at_ (fp ++ [tag_field_type_name]) (tname_span t)] ++ l_default fp f
  | FKNormal _ tsp =>
    l_label syn fp sc (fd_label f) ++ l_default fp f ++ [(fp, fd_span f, fd_comments f); at_ (fp ++ [tag_field_type]) tsp]
  | FKGroup tsp bd =>
    l_label syn fp sc (fd_label f) ++
    [at_ fp (fd_span f); at_ (fp ++ [tag_field_type]) tsp; at_ (fp ++ [tag_field_type_name]) (id_span (fd_name f));
     (mp, fd_span f, fd_comments f); at_ (mp ++ [tag_msg_name]) (id_span (fd_name f))] ++ lbody mp bd
  | FKMap tsp _ _ _ _ => [(fp, fd_span f, fd_comments f); at_ (fp ++ [tag_field_type_name]) tsp]
  end.
Definition kind_ok (sc : scope) (f : field_ B) : Prop :=
  match fd_kind f with
  | FKNormal t _ => den_label syn sc (fd_label f) <> None /\ match default_of f with None => True | Some o => den_default k t (ob_value o) <> None end
  | FKGroup _ bd => p2 syn = true /\ den_label syn sc (fd_label f) <> None /\ default_of f = None /\ okbody bd
  | FKMap _ kt _ _ _ => sc = ScMessage /\ fd_label f = None /\ key_type kt = true
  end.

Lemma map_label_gx sc (f : field_ B) p : wf_field n wfb f ->
  gx (match sc with
     | ScOneof => gerr (InvalidOneofFieldKind (b "map") (fd_span f))
     | ScExtend => gerr (InvalidExtendFieldKind (b "map") (fd_span f))
     | ScMessage => match fd_label f with Some (_, sp) => gerr (MapFieldWithLabel sp) | None => gret tt end
     end) p tt p [] (sc = ScMessage /\ fd_label f = None).
Proof.
  intros (H1 & _ & _ & _ & _ & H2). destruct sc; [destruct (fd_label f) as [[l sp]|]|..];
  (eapply gx_eq; [first [apply gx_ret | apply gx_err; eapply err1; [reflexivity|assumption]]|reflexivity..|]); intuition congruence.
Qed.
Lemma wf_default (f : field_ B) : wf_field n wfb f -> match default_of f with Some o => wf_body_ n o | None => True end.
Proof. intros (_ & _ & _ & _ & H & _). unfold default_of. apply take_option_wf; auto. Qed.
Lemma json_eq (f : field_ B) : find (called (b "json_name")) (optlist_options (without (b "default") (fd_options f))) = json_of f.
Proof. unfold json_of. destruct (fd_options f) as [l|]; [|reflexivity]. cbn [without option_map optlist_options ol_options]. apply find_drop. discriminate. Qed.
Lemma rest_eq (f : field_ B) : without (b "json_name") (without (b "default") (fd_options f)) = rest_options f.
Proof. unfold rest_options. now destruct (fd_options f). Qed.
Lemma wf_json (f : field_ B) : wf_field n wfb f -> match json_of f with Some o => wf_body_ n o | None => True end /\ wf_optlist n (rest_options f).
Proof.
  intros (_ & _ & _ & _ & H & _). rewrite <- json_eq, <- rest_eq.
  pose proof (proj1 (take_option_wf (b "default") _ H)) as H1. destruct (take_option_wf (b "json_name") _ H1). auto.
Qed.

Lemma scalar_kind_gx t tsp sc (f : field_ B) messages p : wf_field n wfb f -> is_named t = false -> sok tsp ->
  gx (lab <-- generate_field_label lines syn (fd_label f) (fd_span f) sc ;;
    dv <-- (match default_of f with
            | Some o => add_span_for lines [tag_field_default] (optval_span (ob_value o)) ;;;;
                        generate_field_default_value k (proto_ty t) (ob_value o)
            | None => gret None
            end) ;;
    add_comments lines (fd_span f) (fd_comments f) ;;;;
    add_span_for lines [tag_field_type] tsp ;;;;
    gret (id_val (fd_name f), lab, proto_ty t, (None : option bytes), dv, messages : list msg_desc)) p
  (id_val (fd_name f), den_label syn sc (fd_label f), proto_ty t, (None : option bytes), match default_of f with Some o => den_default k t (ob_value o) | None => None end, messages) p
  (l_label syn p sc (fd_label f) ++ l_default p f ++ [(p, fd_span f, fd_comments f); at_ (p ++ [tag_field_type]) tsp])
  (den_label syn sc (fd_label f) <> None /\ match default_of f with None => True | Some o => den_default k t (ob_value o) <> None end).
Proof.
  intros Hf Ht Hs. pose proof (wf_default f Hf) as Hd. destruct Hf as (H1 & H2 & H3 & H4 & H5 & H6). unfold l_default.
  destruct (default_of f) as [o|].
  - run (gb; [now apply label_gx|gb; [gb; [apply gx_span_for, Hd|apply default_gx; [auto|apply Hd]]|gb; [now apply gx_comments|gb; [now apply gx_span_for|apply gx_ret]]]]).
  - run (gb; [now apply label_gx|gb; [apply gx_ret|gb; [now apply gx_comments|gb; [now apply gx_span_for|apply gx_ret]]]]).
Qed.

Lemma kind_gx (f : field_ B) fi ft mt messages sc p : wf_field n wfb f -> fi <= n -> len messages <= n ->
  gx (generate_field_kind k lines syn gbody f fi ft mt messages (default_of f) sc) (p ++ [ft; Z.of_N fi])
     (kind_value sc f messages) (p ++ [ft; Z.of_N fi])
     (kind_locs sc (p ++ [ft; Z.of_N fi]) (p ++ [mt; Z.of_N (len messages)]) f) (kind_ok sc f).
Proof.
  intros Hf Hi Hn. pose proof (wf_default f Hf) as Hd. pose proof (map_label_gx sc f (p ++ [ft; Z.of_N fi]) Hf) as Hml.
  unfold generate_field_kind, kind_value, kind_locs, kind_ok, den_field, den_field_messages.
  pose proof (fun t tsp H => scalar_kind_gx t tsp sc f messages (p ++ [ft; Z.of_N fi]) Hf H) as Hsc.
  pose proof Hf as (H1 & H2 & H3 & H4 & H5 & H6). destruct (fd_kind f) as [t tsp|tsp bd|tsp kt ks vt vs]; cbn [wf_kind] in H4;
    cbn [f_name f_label f_type f_type_name f_default].
  - destruct H4 as [Ht Hs]. rewrite app_nil_r. specialize (Hsc t tsp). destruct t as [ | | | | | | | | | | | | | | |t]; try (apply Hsc; auto; fail).
    cbn [wf_ty] in Ht. clear Hsc. destruct (tname_span_ok _ Ht) as [E1 E2]. unfold l_default. cbn [proto_ty ty_text den_default].
    destruct (default_of f) as [o|].
    + eapply gx_eq; [gb; [now apply label_gx|gb; [apply gx_unwrap; now apply tname_display|gb; [now apply gx_comments|gb; [apply gx_unwrap; eauto|
        gb; [now apply gx_span_for|gb; [gb; [apply gx_span_for, Hd|apply gx_ret]|apply gx_ret]]]]]]|try reflexivity..]; try (solve [fin]).
      intuition discriminate.
    + eapply gx_eq; [gb; [now apply label_gx|gb; [apply gx_unwrap; now apply tname_display|gb; [now apply gx_comments|gb; [apply gx_unwrap; eauto|
        gb; [now apply gx_span_for|gb; [apply gx_ret|apply gx_ret]]]]]]|try reflexivity..].
      tauto.
  - destruct H4 as (Hs & Hb & _).
    assert (H2p : gx (if p2 syn then gret tt else gerr (Proto3GroupField (fd_span f))) (p ++ [ft; Z.of_N fi]) tt (p ++ [ft; Z.of_N fi]) [] (p2 syn = true)).
    { change (is_proto2 syn) with (p2 syn); destruct (p2 syn); (eapply gx_eq; [first [apply gx_ret | apply gx_err; eapply err1; [reflexivity|assumption]]|reflexivity..|]); intuition congruence. }
    assert (Hdf : gx (match default_of f with Some o => sp <-- gunwrap (ob_span o) ;; gerr (InvalidDefault (b "group") sp) | None => gret tt end) (p ++ [ft; Z.of_N fi]) tt (p ++ [ft; Z.of_N fi]) [] (default_of f = None)).
    { destruct (default_of f) as [o|].
      - destruct (body_span_ok _ Hd) as [E1 E2]. eapply gx_eq; [gb; [apply gx_unwrap; eauto|apply gx_err; eapply err1; [reflexivity|assumption]]|reflexivity..|]. intuition congruence.
      - eapply gx_eq; [apply gx_ret|reflexivity..|]. intuition congruence. }
    eapply gx_eq; [gb; [now apply label_gx|gb; [apply H2p|gb; [apply Hdf|gb; [now apply gx_span|gb; [now apply gx_span_for|gb; [now apply gx_span_for|
      gb; [now apply gx_pop|gb; [now apply gx_index|gb; [apply gx_push|gb; [now apply gx_comments|gb; [now apply gx_span_for|gb; [now apply body_gx|
      gb; [now apply gx_pop|gb; [now apply gx_index|gb; [apply gx_push|apply gx_ret]]]]]]]]]]]]]]]|try reflexivity..]; try (solve [fin]).
    tauto.
  - destruct H4 as (Hs & Hkt & Hks & Hvt & Hvs).
    rewrite key_type_spec. assert (Hk : gx (if key_type kt then gret tt else gerr (InvalidMapFieldKeyType ks)) (p ++ [ft; Z.of_N fi]) tt (p ++ [ft; Z.of_N fi]) [] (key_type kt = true)).
    { destruct (key_type kt); (eapply gx_eq; [first [apply gx_ret | apply gx_err; eapply err1; [reflexivity|assumption]]|reflexivity..|]); intuition congruence. }
    assert (Hv : gx (match vt with TyNamed t => d <-- gunwrap (type_name_display t) ;; gret (Some d) | _ => gret None end) (p ++ [ft; Z.of_N fi]) (ty_text vt) (p ++ [ft; Z.of_N fi]) [] True).
    { destruct vt; try apply gx_ret. cbn [wf_ty ty_text] in *. eapply gx_eq; [gb; [apply gx_unwrap; now apply tname_display|apply gx_ret]|reflexivity..|tauto]. }
    eapply gx_eq; [gb; [apply Hml|gb; [now apply gx_comments|gb; [now apply gx_span_for|gb; [apply Hk|gb; [apply Hv|apply gx_ret]]]]]|try reflexivity..].
    { cbn [map app]. unfold entry_name, map_entry, entry_desc. now rewrite pascal_spec, !proto_ty_spec. }
    tauto.
Qed.

Lemma field_gx (f : field_ B) fi ft mt messages ot oneofs sc p : wf_field n wfb f -> fi <= n -> len messages <= n -> len oneofs <= n ->
  gx (generate_field_descriptor k lines syn gbody f fi ft mt messages ot oneofs sc) p
     (den_field k syn sc (match ot with Some _ => if p3_optional syn f then Some (Z.of_N (len oneofs)) else None | None => None end) f,
      messages ++ den_field_messages dbody f,
      match ot with Some _ => oneofs ++ den_field_oneofs syn f | None => oneofs end) p
     (l_field syn lbody sc (p ++ [ft; Z.of_N fi]) (p ++ [mt; Z.of_N (len messages)]) f)
     (ok_field k syn okbody sc f).
Proof.
  intros Hf Hi Hm Ho. unfold generate_field_descriptor. rewrite take_option_spec. fold (default_of f).
  pose proof (wf_default f Hf) as Hd. destruct (wf_json f Hf) as [Hj Hr]. pose proof Hf as (H1 & H2 & H3 & H4 & H5 & H6).
  assert (Hjn : forall q, gx (match json_of f with
          | Some o =>
            sp <-- gunwrap (ob_span o) ;;
            add_span_for lines [tag_field_json_name] sp ;;;;
            add_span_for lines [tag_field_json_name] (optval_span (ob_value o)) ;;;;
            generate_string_option_value k (ob_value o)
          | None => gret None
          end) q (match json_of f with Some o => den_string (ob_value o) | None => None end) q
      (match json_of f with
       | Some o => [at_ (q ++ [tag_field_json_name]) (body_span o); at_ (q ++ [tag_field_json_name]) (optval_span (ob_value o))]
       | None => [] end)
      (match json_of f with None => True | Some o => den_string (ob_value o) <> None end)).
  { intros q. destruct (json_of f) as [o|]; [|apply gx_ret]. destruct (body_span_ok _ Hj) as [E1 E2].
    run (gb; [apply gx_unwrap; eauto|gb; [now apply gx_span_for|gb; [apply gx_span_for, Hj|apply string_gx, Hj]]]). }
  rewrite take_option_spec, json_eq, rest_eq.
  eapply gx_eq; [gb; [now apply gx_index|gb; [apply gx_push|gb; [now apply gx_span_for|gb; [now apply gx_span_for|gb; [now apply number_gx|
    gb; [now apply synthetic_gx|gb; [now apply check_default_gx|gb; [now apply kind_gx|gb; [apply Hjn|gb; [apply gx_push|gb; [now apply optlist_gx|
    gb; [rewrite <- (app_assoc p); now apply gx_pop|apply gx_ret]]]]]]]]]]]]|..].
  - unfold den_field. destruct (fd_kind f); reflexivity.
  - reflexivity.
  - unfold l_field, kind_locs. fin.
  - unfold ok_field, kind_ok. destruct (default_of f) as [o|] eqn:Ed; destruct (fd_kind f); intuition (try congruence).
Qed.

Lemma len_map {A C} (f : A -> C) l : len (map f l) = len l.
Proof. unfold len. now rewrite map_length. Qed.
Ltac ln := repeat match goal with
  | |- context [len (@nil ?A)] => rewrite (@len_nil A)
  | |- context [@len ?A (?x :: ?l)] => rewrite (@len_cons A x l)
  | |- context [@len ?A (?x ++ ?l)] => rewrite (@len_app A x l)
  | |- context [@len _ (@map ?A ?C ?f ?l)] => rewrite (@len_map A C f l)
  end.
Lemma field_messages_len (f : field_ B) : len (den_field_messages dbody f) <= 1.
Proof. unfold den_field_messages. destruct (fd_kind f); unfold len; cbn; lia. Qed.
Lemma fields_messages_len (l : list (field_ B)) : len (flat_map (den_field_messages dbody) l) <= len l.
Proof. induction l as [|f l IH]; cbn [flat_map]; [rewrite !len_nil; lia|]. rewrite len_app, len_cons. pose proof (field_messages_len f). lia. Qed.

Lemma oneof_gx (o : oneof_ B) oi ot mt messages ft fields p : wf_oneof n wfb o -> oi <= n ->
  len fields + len (oo_fields o) <= n -> len messages + len (oo_fields o) <= n ->
  gx (generate_oneof_descriptor k lines syn gbody o oi ot mt messages ft fields) p
     (den_oneof_ o, messages ++ flat_map (den_field_messages dbody) (oo_fields o),
      fields ++ map (fun f => set_oneof_index (Some (Z.of_N oi)) (den_field k syn ScOneof None f)) (oo_fields o)) p
     ((p ++ [ot; Z.of_N oi], oo_span o, oo_comments o) :: at_ (p ++ [ot; Z.of_N oi; tag_oneof_name]) (id_span (oo_name o)) ::
      l_options (p ++ [ot; Z.of_N oi; tag_oneof_options]) (oo_options o) ++
      l_fields syn dbody lbody ScOneof (fun _ => []) ft mt p (len fields) (len messages) (oo_fields o))
     (ok_oneof k syn okbody o).
Proof.
  intros (H1 & H2 & H3 & H4) Hoi Hf Hm. unfold generate_oneof_descriptor, ok_oneof.
  assert (He : forall q, gx (match oo_fields o with [] => gerr (EmptyOneof (oo_span o)) | _ => gret tt end) q tt q [] (oo_fields o <> [])).
  { intros q. destruct (oo_fields o); (eapply gx_eq; [first [apply gx_ret | apply gx_err; eapply err1; [reflexivity|assumption]]|reflexivity..|]); intuition congruence. }
  assert (HL : forall l ms fs, Forall (wf_field n wfb) l -> len fs + len l <= n -> len ms + len l <= n ->
    gx (gfold (fun '(ms, fs) f =>
    i <-- gindex oi ;;
    ' (fd, ms', _) <-- generate_field_descriptor k lines syn gbody f (len fs) ft mt ms None [] ScOneof ;;
    gret (ms', fs ++ [set_oneof_index (Some i) fd])) l (ms, fs)) p
    (ms ++ flat_map (den_field_messages dbody) l, fs ++ map (fun f => set_oneof_index (Some (Z.of_N oi)) (den_field k syn ScOneof None f)) l) p
    (l_fields syn dbody lbody ScOneof (fun _ => []) ft mt p (len fs) (len ms) l) (all (ok_field k syn okbody ScOneof) l)).
  { induction l as [|f l IH]; intros ms fs HW A1 A2; cbn [gfold flat_map map l_fields].
    - rewrite !app_nil_r. apply gx_ret.
    - inversion HW; subst. rewrite len_cons in A1, A2. pose proof (field_messages_len f).
      eapply gx_eq; [gb; [gb; [now apply gx_index|gb; [apply field_gx; [auto|lia|lia|rewrite len_nil; lia]|apply gx_ret]]|apply IH; auto]|..].
      + ln. lia.
      + rewrite len_app. lia.
      + now rewrite <- !app_assoc.
      + reflexivity.
      + ln. fin.
      + cbn [all]. tauto. }
  eapply gx_eq; [gb; [now apply gx_index|gb; [apply gx_push|gb; [now apply gx_comments|gb; [now apply gx_span_for|gb; [apply gx_push|gb; [now apply options_gx|
    gb; [apply gx_pop1|gb; [now apply gx_pop|gb; [apply He|gb; [apply HL; auto|apply gx_ret]]]]]]]]]]|try reflexivity..].
  - fin.
  - tauto.
Qed.

Lemma extend_gx (e : extend_ B) xt xs mt messages p : wf_extend n wfb e -> len xs + len (et_fields e) <= n -> len messages + len (et_fields e) <= n ->
  gx (generate_extend_descriptors k lines syn gbody e xt xs mt messages) p
     (xs ++ den_extend k syn e, messages ++ flat_map (den_field_messages dbody) (et_fields e)) p
     (l_extend syn dbody lbody xt mt p (len xs) (len messages) e) (ok_extend k syn okbody e).
Proof.
  intros (H1 & H2 & H3) Hf Hm. unfold generate_extend_descriptors, ok_extend, den_extend, l_extend. destruct (tname_span_ok _ H2) as [E1 E2].
  assert (HL : forall l xs ms, Forall (wf_field n wfb) l -> len xs + len l <= n -> len ms + len l <= n ->
    gx (gfold (fun '(xs, ms) f =>
    i <-- gindex (len xs) ;;
    gpush [xt; i] ;;;;
    sp <-- gunwrap (type_name_span (et_extendee e)) ;;
    add_span_for lines [tag_field_extendee] sp ;;;;
    gpop 2 ;;;;
    ex <-- gunwrap (type_name_display (et_extendee e)) ;;
    ' (fd, ms', _) <-- generate_field_descriptor k lines syn gbody f (len xs) xt mt ms None [] ScExtend ;;
    gret (xs ++ [set_extendee (Some ex) fd], ms')) l (xs, ms)) p
    (xs ++ map (fun f => set_extendee (Some (tname_text (et_extendee e))) (den_field k syn ScExtend None f)) l, ms ++ flat_map (den_field_messages dbody) l) p
    (l_fields syn dbody lbody ScExtend (fun fp => [at_ (fp ++ [tag_field_extendee]) (tname_span (et_extendee e))]) xt mt p (len xs) (len ms) l) (all (ok_field k syn okbody ScExtend) l)).
  { clear xs messages Hf Hm. induction l as [|f l IH]; intros xs ms HW A1 A2; cbn [gfold flat_map map l_fields].
    - rewrite !app_nil_r. apply gx_ret.
    - inversion HW; subst. rewrite len_cons in A1, A2. pose proof (field_messages_len f).
      eapply gx_eq; [gb; [gb; [apply gx_index; lia|gb; [apply gx_push|gb; [apply gx_unwrap; eauto|gb; [now apply gx_span_for|gb; [now apply gx_pop|
        gb; [apply gx_unwrap; now apply tname_display|gb; [apply field_gx; [auto|lia|lia|rewrite len_nil; lia]|apply gx_ret]]]]]]]|apply IH; auto]|..].
      + ln. lia.
      + rewrite len_app. lia.
      + now rewrite <- !app_assoc.
      + reflexivity.
      + ln. fin.
      + cbn [all]. tauto. }
  eapply gx_eq; [gb; [apply gx_push|gb; [now apply gx_comments|gb; [apply gx_pop1|apply HL; auto]]]|try reflexivity..].
  tauto.
Qed.

Lemma message_gx (m : message_ B) p : wf_message n wfb m ->
  gx (generate_message_descriptor lines gbody m) p (den_message_ dbody m) p (l_message lbody p m) (okbody (ms_body m)).
Proof.
  intros (H1 & H2 & H3). unfold generate_message_descriptor.
  run (gb; [now apply gx_comments|gb; [now apply gx_span_for|gb; [now apply body_gx|apply gx_ret]]]).
Qed.

(** ** Members *)
Lemma set_nth_mid {A} (l1 : list A) y l2 x : set_nth (length l1) x (l1 ++ y :: l2) = Some (l1 ++ x :: l2).
Proof. induction l1 as [|z l1 IH]; cbn; [reflexivity|]. now rewrite IH. Qed.
Lemma real_len (l : list (mitem_ B)) : length (flat_map item_real l) = length (filter is_oneof_item l).
Proof. induction l as [|[] l IH]; cbn; auto. Qed.
Lemma item_sizes (it : mitem_ B) :
  item_nfields it <= weight it /\ len (item_extensions k syn it) <= weight it /\ len (item_messages dbody it) <= weight it /\
  len (item_enums it) <= weight it /\ len (item_real it) + len (item_synthetic syn it) <= weight it.
Proof.
  destruct it as [f|e|m|e|o]; cbn [item_nfields item_extensions item_messages item_enums item_real item_synthetic weight]; ln.
  - pose proof (field_messages_len f). unfold den_field_oneofs. destruct (p3_optional syn f); ln; lia.
  - lia.
  - lia.
  - pose proof (fields_messages_len (et_fields e)). unfold den_extend. rewrite len_map. lia.
  - pose proof (fields_messages_len (oo_fields o)). lia.
Qed.
Definition nf (l : list (mitem_ B)) := total item_nfields l.
Lemma fields_len r s (l : list (mitem_ B)) : len (den_fields k syn r s l) = nf l.
Proof.
  revert r s. induction l as [|it l IH]; intros r s; [reflexivity|]. unfold nf. cbn [total fold_right]. change (fold_right _ 0 l) with (nf l).
  destruct it; cbn [den_fields item_nfields]; rewrite ?len_cons, ?len_app, ?len_map, IH; lia.
Qed.

Lemma items_gx p : forall items R fs xs ms es real syn_,
  Forall (wf_item n wfb) items ->
  len fs + total weight items <= n -> len xs + total weight items <= n -> len ms + total weight items <= n -> len es + total weight items <= n ->
  len real + len syn_ + total weight items <= n ->
  R = length (flat_map item_real items) ->
  gx (gfold (generate_item k lines syn gbody) items
       {| mb_field := fs; mb_extension := xs; mb_nested := ms; mb_enum := es; mb_oneof := real ++ repeat oneof_default R ++ syn_; mb_real := len real |}) p
     {| mb_field := fs ++ den_fields k syn (len real) (len real + len (flat_map item_real items) + len syn_) items;
        mb_extension := xs ++ flat_map (item_extensions k syn) items;
        mb_nested := ms ++ flat_map (item_messages dbody) items;
        mb_enum := es ++ flat_map item_enums items;
        mb_oneof := real ++ flat_map item_real items ++ syn_ ++ flat_map (item_synthetic syn) items;
        mb_real := len real + len (flat_map item_real items) |} p
     (l_items k syn dbody lbody p (len fs) (len xs) (len ms) (len es) (len real) items)
     (all (ok_item k syn okbody) items).
Proof.
  induction items as [|it items IH]; intros R fs xs ms es real sy HW Hf Hx Hm He Ho ->.
  { eapply gx_eq; [apply gx_ret|..]; try reflexivity. cbn [flat_map den_fields length repeat app]. ln. rewrite N.add_0_r. f_equal; now rewrite ?app_nil_r. }
  inversion HW as [|? ? Hit HW']; subst. cbn [total fold_right] in *. change (fold_right _ 0 items) with (total (@weight B) items) in *.
  destruct (item_sizes it) as (S1 & S2 & S3 & S4 & S5).
  cbn [gfold l_items flat_map]. rewrite app_length, repeat_app.
  destruct it as [f|e|m|e|o]; cbn [wf_item] in Hit; cbn [item_nfields item_extensions item_messages item_enums item_real item_synthetic weight den_fields length repeat app] in *;
    ln; rewrite ?N.add_0_r; cbn [generate_item mb_field mb_extension mb_nested mb_enum mb_oneof mb_real].
  - set (R := length (flat_map item_real items)).
    assert (HR : len (real ++ repeat oneof_default R ++ sy) = len real + len (flat_map item_real items) + len sy).
    { rewrite !len_app. unfold len at 2. rewrite repeat_length. subst R. unfold len. lia. }
    assert (Hle : len (flat_map item_real items) <= total (@weight B) items).
    { clear. induction items as [|it l IHl]; cbn [flat_map total fold_right]; [rewrite len_nil; lia|]. rewrite len_app. change (fold_right _ 0 l) with (total (@weight B) l).
      destruct it; cbn [item_real weight]; ln; lia. }
    eapply gx_eq; [gb; [gb; [apply field_gx; auto; try lia|apply gx_ret]|]|..].
    + cbn [mb_field mb_extension mb_nested mb_enum mb_oneof mb_real]. rewrite <- !app_assoc. apply (IH R (fs ++ _) xs (ms ++ _) es real (sy ++ den_field_oneofs syn f)); auto; ln; lia.
    + rewrite HR. ln. repeat rewrite <- app_assoc. cbn [app]. f_equal. do 3 f_equal. lia.
    + reflexivity.
    + ln. fin.
    + cbn [all ok_item]. tauto.
  - eapply gx_eq; [gb; [gb; [apply gx_index; lia|gb; [apply gx_push|gb; [now apply enum_gx|gb; [now apply gx_pop|apply gx_ret]]]]|]|..].
    + cbn [mb_field mb_extension mb_nested mb_enum mb_oneof mb_real]. apply (IH _ fs xs ms (es ++ [_]) real sy); auto; ln; lia.
    + now rewrite <- !app_assoc.
    + reflexivity.
    + ln. fin.
    + cbn [all ok_item]. tauto.
  - eapply gx_eq; [gb; [gb; [apply gx_index; lia|gb; [apply gx_push|gb; [now apply message_gx|gb; [now apply gx_pop|apply gx_ret]]]]|]|..].
    + cbn [mb_field mb_extension mb_nested mb_enum mb_oneof mb_real]. apply (IH _ fs xs (ms ++ [_]) es real sy); auto; ln; lia.
    + now rewrite <- !app_assoc.
    + reflexivity.
    + ln. fin.
    + cbn [all ok_item]. tauto.
  - eapply gx_eq; [gb; [gb; [apply extend_gx; auto; lia|apply gx_ret]|]|..].
    + cbn [mb_field mb_extension mb_nested mb_enum mb_oneof mb_real]. apply (IH _ fs (xs ++ _) (ms ++ _) es real sy); auto; ln; lia.
    + now rewrite <- !app_assoc.
    + reflexivity.
    + rewrite !len_app. fin.
    + cbn [all ok_item]. tauto.
  - rewrite len_cons, len_nil in *.
    eapply gx_eq; [gb; [gb; [apply oneof_gx; auto; lia|gb; [apply gx_unwrap|apply gx_ret]]|]|..].
    + unfold len at 1. rewrite Nat2N.id. apply set_nth_mid.
    + cbn [mb_field mb_extension mb_nested mb_enum mb_oneof mb_real].
      replace (real ++ den_oneof_ o :: repeat oneof_default (length (flat_map item_real items)) ++ sy) with ((real ++ [den_oneof_ o]) ++ repeat oneof_default (length (flat_map item_real items)) ++ sy) by now rewrite <- app_assoc.
      replace (len real + 1) with (len (real ++ [den_oneof_ o])) by now rewrite len_app, len_cons, len_nil.
      apply (IH _ (fs ++ _) xs (ms ++ _) es (real ++ [den_oneof_ o]) sy); auto; ln; lia.
    + ln. repeat rewrite <- app_assoc. cbn [app]. f_equal; [|lia]. do 2 f_equal. f_equal; lia.
    + reflexivity.
    + rewrite !len_app, len_map, len_cons, len_nil. fin.
    + cbn [all ok_item]. tauto.
Qed.
End WithBody.

Lemma len_map' {A C} (f : A -> C) l : len (map f l) = len l.
Proof. unfold len. now rewrite map_length. Qed.
Ltac ln := repeat match goal with
  | |- context [len (@nil ?A)] => rewrite (@len_nil A)
  | |- context [@len ?A (?x :: ?l)] => rewrite (@len_cons A x l)
  | |- context [@len ?A (?x ++ ?l)] => rewrite (@len_app A x l)
  | |- context [@len _ (@map ?A ?C ?f ?l)] => rewrite (@len_map' A C f l)
  end.

(** ** Bodies *)
Lemma extensions_gx ms exts p : wf_extensions n exts ->
  gx (generate_extension_ranges lines ms exts) p (den_extensions ms exts) p (l_extensions (p ++ [tag_msg_ext_range]) 0 exts) (all ok_extensions exts).
Proof.
  intros [H1 H2]. unfold generate_extension_ranges. set (q := p ++ [tag_msg_ext_range]).
  assert (HL : forall l acc, Forall (wf_extension n) l -> len acc + total (fun x => len (ex_ranges x)) l <= n ->
    gx (gfold (fun acc x =>
    add_comments lines (ex_span x) (ex_comments x) ;;;;
    gfold (fun acc r =>
      i <-- gindex (len acc) ;;
      gpush [i] ;;;;
      y <-- generate_message_extension_range lines ms (ex_options x) r ;;
      gpop1 ;;;;
      gret (acc ++ [y])) (ex_ranges x) acc) l acc) q (acc ++ den_extensions ms l) q (l_extensions q (len acc) l) (all ok_extensions l)).
  { clear H1 H2. induction l as [|x l IH]; intros acc HW Hn; cbn [gfold l_extensions].
    - unfold den_extensions. cbn [flat_map]. rewrite app_nil_r. apply gx_ret.
    - inversion HW as [|? ? (W1 & W2 & W3) HW']; subst. cbn [total fold_right] in Hn. change (fold_right _ 0 l) with (total (fun x => len (ex_ranges x)) l) in Hn.
      eapply gx_eq; [gb; [gb; [now apply gx_comments|]|apply IH; auto]|..].
      + eapply (gx_fold_app _ (den_ext_range ms (ex_options x)) (fun i rr => l_range (q ++ [i]) rr ++ l_optlist (q ++ [i; tag_ext_range_options]) (ex_options x))
          (fun r => ok_range r /\ ok_optlist (ex_options x)) (wf_range n)); [|eauto|lia].
        intros a r Hr Ha. eapply gx_eq; [gb; [now apply gx_index|gb; [apply gx_push|gb; [now apply ext_range_gx|gb; [apply gx_pop1|apply gx_ret]]]]|..]; try reflexivity; [|tauto].
        cbn [app]. rewrite app_nil_r, <- (app_assoc q). reflexivity.
      + ln. lia.
      + unfold den_extensions. cbn [flat_map]. now rewrite <- app_assoc.
      + reflexivity.
      + ln. fin.
      + change (all ok_extensions (x :: l)) with (ok_extensions x /\ all ok_extensions l). unfold ok_extensions at 2.
        rewrite !all_Forall. destruct (ex_ranges x) as [|r0 rs]; [rewrite Forall_nil_iff; intuition|].
        rewrite !Forall_forall. split.
        * intros [[_ A] C]. split; [split|auto]; [intros y Hy; now apply A|right; apply (A r0); now left].
        * intros [[A [C|C]] D]; [discriminate|]. split; [split|]; auto. }
  run (gb; [apply gx_push|gb; [apply (HL exts []); auto|gb; [apply gx_pop1|apply gx_ret]]]).
Qed.

Lemma body_gx d : forall bd p, wf_body_n n d bd ->
  gx (generate_message_body_descriptor k lines syn bd) p (den_body k syn bd) p (l_body k syn p bd) (ok_body k syn bd).
Proof.
  induction d as [|d IH]; intros bd p H; [contradiction|]. destruct bd as [items exts opts res]. cbn [wf_body_n bd_items bd_extensions bd_options bd_reserved] in H.
  destruct H as (H1 & H2 & H3 & H4 & H5). cbn [generate_message_body_descriptor den_body l_body ok_body]. rewrite message_set_spec.
  eapply gx_eq; [gb; [|gb; [apply reserved_gx; [intros; now apply message_range_gx|auto]|gb; [now apply extensions_gx|
    gb; [apply gx_push|gb; [now apply options_gx|gb; [apply gx_pop1|apply gx_ret]]]]]]|..].
  - replace (repeat oneof_default _) with ([] ++ repeat oneof_default (length (filter is_oneof_item items)) ++ []) by (cbn [app]; apply app_nil_r).
    apply (items_gx _ _ _ _ _ IH p items _ [] [] [] [] [] []); auto; ln; try lia. now rewrite real_len.
  - cbn [app mb_field mb_extension mb_nested mb_enum mb_oneof]. ln. rewrite N.add_0_l, N.add_0_r. reflexivity.
  - reflexivity.
  - fin.
  - tauto.
Qed.

(** ** Files *)
Lemma wfb_body bd p : wf_body n bd -> gx (generate_message_body_descriptor k lines syn bd) p (den_body k syn bd) p (l_body k syn p bd) (ok_body k syn bd).
Proof. intros [d H]. eapply body_gx; eauto. Qed.

Lemma imports_gx l p : Forall (wf_import n) l -> len l <= n ->
  gx (generate_imports lines l) p (map im_value l, kind_indices IPublic 0 l, kind_indices IWeak 0 l) p (l_imports p 0 0 0 l) True.
Proof.
  intros HW Hn. unfold generate_imports.
  enough (HL : forall l deps pub weak, Forall (wf_import n) l -> len deps + len l <= n -> len pub <= len deps -> len weak <= len deps ->
    gx (gfold (fun '(deps, pub, weak) im =>
    i <-- gindex (len deps) ;;
    add_comments_for lines [tag_file_dependency; i] (im_span im) (im_comments im) ;;;;
    match im_kind im with
    | Some (IPublic, sp) =>
      j <-- gindex (len pub) ;;
      add_span_for lines [tag_file_public; j] sp ;;;;
      gret (deps ++ [im_value im], pub ++ [i], weak)
    | Some (IWeak, sp) =>
      j <-- gindex (len weak) ;;
      add_span_for lines [tag_file_weak; j] sp ;;;;
      gret (deps ++ [im_value im], pub, weak ++ [i])
    | None => gret (deps ++ [im_value im], pub, weak)
    end) l (deps, pub, weak)) p (deps ++ map im_value l, pub ++ kind_indices IPublic (len deps) l, weak ++ kind_indices IWeak (len deps) l) p
    (l_imports p (len deps) (len pub) (len weak) l) True).
  { apply (HL l [] [] []); auto; ln; lia. }
  clear l HW Hn. induction l as [|im l IH]; intros deps pub weak HW Hn H1 H2; cbn [gfold l_imports map kind_indices].
  { eapply gx_eq; [apply gx_ret|..]; try reflexivity. repeat rewrite app_nil_r. reflexivity. }
  rewrite len_cons in Hn. inversion HW as [|? ? [W1 W2] HW']; subst. unfold is_kind. destruct (im_kind im) as [[[] sp]|].
  - eapply gx_eq; [gb; [gb; [apply gx_index; lia|gb; [now apply gx_comments_for|gb; [apply gx_index; lia|gb; [now apply gx_span_for|apply gx_ret]]]]|apply IH; auto; ln; lia]|..].
    + ln. cbn [app]. repeat rewrite <- app_assoc. reflexivity.
    + reflexivity.
    + ln. fin.
    + tauto.
  - eapply gx_eq; [gb; [gb; [apply gx_index; lia|gb; [now apply gx_comments_for|gb; [apply gx_index; lia|gb; [now apply gx_span_for|apply gx_ret]]]]|apply IH; auto; ln; lia]|..].
    + ln. cbn [app]. repeat rewrite <- app_assoc. reflexivity.
    + reflexivity.
    + ln. fin.
    + tauto.
  - eapply gx_eq; [gb; [gb; [apply gx_index; lia|gb; [now apply gx_comments_for|apply gx_ret]]|apply IH; auto; ln; lia]|..].
    + ln. cbn [app]. repeat rewrite <- app_assoc. reflexivity.
    + reflexivity.
    + ln. fin.
    + tauto.
Qed.

Lemma fitems_gx p : forall items ms es ss xs,
  Forall (wf_fitem n) items ->
  len ms + total fweight items <= n -> len es + total fweight items <= n -> len ss + total fweight items <= n -> len xs + total fweight items <= n ->
  gx (gfold (generate_file_item k lines syn) items {| fb_message := ms; fb_enum := es; fb_service := ss; fb_extension := xs |}) p
     {| fb_message := ms ++ flat_map (fitem_messages k syn) items; fb_enum := es ++ flat_map fitem_enums items;
        fb_service := ss ++ flat_map fitem_services items; fb_extension := xs ++ flat_map (fitem_extensions k syn) items |} p
     (l_fitems k syn p (len ms) (len es) (len ss) (len xs) items) (all (ok_fitem k syn) items).
Proof.
  induction items as [|it items IH]; intros ms es ss xs HW Hm He Hs Hx; cbn [gfold l_fitems flat_map].
  { eapply gx_eq; [apply gx_ret|..]; try reflexivity. f_equal; now rewrite app_nil_r. }
  inversion HW as [|? ? Hit HW']; subst. cbn [total fold_right] in *. change (fold_right _ 0 items) with (total fweight items) in *.
  destruct it as [e|m|e|s]; cbn [wf_fitem fitem_messages fitem_enums fitem_services fitem_extensions fweight generate_file_item fb_message fb_enum fb_service fb_extension app] in *.
  - eapply gx_eq; [gb; [gb; [apply gx_index; lia|gb; [apply gx_push|gb; [now apply enum_gx|gb; [now apply gx_pop|apply gx_ret]]]]|apply IH; auto; ln; lia]|..].
    + now rewrite <- !app_assoc.
    + reflexivity.
    + ln. rewrite ?N.add_0_r. fin.
    + cbn [all ok_fitem]. tauto.
  - eapply gx_eq; [gb; [gb; [apply gx_index; lia|gb; [apply gx_push|gb; [apply (message_gx _ _ _ _ _ wfb_body); auto|gb; [now apply gx_pop|apply gx_ret]]]]|apply IH; auto; ln; lia]|..].
    + now rewrite <- !app_assoc.
    + reflexivity.
    + ln. rewrite ?N.add_0_r. fin.
    + cbn [all ok_fitem]. tauto.
  - pose proof (fields_messages_len _ _ _ _ _ wfb_body (et_fields e)) as Hfm.
    eapply gx_eq; [gb; [gb; [apply (extend_gx _ _ _ _ _ wfb_body); [eauto|lia|lia]|apply gx_ret]|apply IH; auto; unfold den_extend; ln; lia]|..].
    + now rewrite <- !app_assoc.
    + reflexivity.
    + ln. rewrite ?N.add_0_r. fin.
    + cbn [all ok_fitem]. tauto.
  - eapply gx_eq; [gb; [gb; [apply gx_index; lia|gb; [apply gx_push|gb; [now apply service_gx|gb; [now apply gx_pop|apply gx_ret]]]]|apply IH; auto; ln; lia]|..].
    + now rewrite <- !app_assoc.
    + reflexivity.
    + ln. rewrite ?N.add_0_r. fin.
    + cbn [all ok_fitem]. tauto.
Qed.

Lemma file_gx name f : wf_file n f -> fi_syntax f = syn ->
  gx (generate_file_descriptor k lines syn name f) [] (den_file k syn name f) [] (l_file k syn f) (ok_file k syn f).
Proof.
  intros (H1 & H2 & H3 & H4 & H5 & H6 & H7 & H8) Hs. unfold generate_file_descriptor.
  assert (Hp : gx (match fi_package f with
               | Some p => add_comments_for lines [tag_file_package] (pk_span p) (pk_comments p) ;;;; d <-- gunwrap (full_ident_display (pk_name p)) ;; gret (Some d)
               | None => gret None
               end) [] (option_map (fun p => full_text (pk_name p)) (fi_package f)) []
               (match fi_package f with Some p => [([tag_file_package], pk_span p, pk_comments p)] | None => [] end) True).
  { destruct (fi_package f) as [pk|]; [|apply gx_ret]. destruct H3 as [W1 W2].
    run (gb; [now apply gx_comments_for|gb; [apply gx_unwrap; now apply full_display|apply gx_ret]]). }
  assert (Hx : gx (match fi_syntax_span f with Some (sp, c) => add_comments_for lines [tag_file_syntax] sp c | None => gret tt end) [] tt []
               (match fi_syntax_span f with Some (sp, c) => [([tag_file_syntax], sp, c)] | None => [] end) True).
  { destruct (fi_syntax_span f) as [[sp c]|]; [|apply gx_ret]. now apply gx_comments_for. }
  assert (Hr : gx (add_span lines (fi_span f)) [] tt [] [at_ [] (fi_span f)] True).
  { apply gx_comments'; destruct H1 as [[W1 W2]| ->]; unfold s_start, s_end in *; cbn [fst snd] in *; lia. }
  eapply gx_eq; [gb; [apply Hr|gb; [apply Hp|gb; [now apply imports_gx|gb; [apply (fitems_gx [] (fi_items f) [] [] [] []); auto; ln; lia|
    gb; [apply (gx_push [tag_file_options])|gb; [now apply options_gx|gb; [apply gx_pop1|gb; [apply Hx|apply gx_ret]]]]]]]]|..].
  - unfold den_file. rewrite Hs. destruct syn; reflexivity.
  - reflexivity.
  - unfold l_file. fin.
  - unfold ok_file. tauto.
Qed.
End Gen.

(** The whole generator. *)
Theorem generate_file_spec k sort f name src : len src <= i32_max -> wf_file (len src) f ->
  exists ls, lines_new src = Done ls /\
  ((ok_file k (fi_syntax f) f /\
    generate_file k sort f name src =
      Done (inl (with_source_info (den_file k (fi_syntax f) name f) (Some (sort (map (mk ls) (l_file k (fi_syntax f) f)))))))
   \/ (~ ok_file k (fi_syntax f) f /\ exists es, generate_file k sort f name src = Done (inr es) /\ es <> [] /\ Forall (err_ok (len src)) es)).
Proof.
  intros Hn Hw. destruct (C13_resolve src 0 Hn) as (ls & Els & _); [lia|]. exists ls. split; [exact Els|].
  assert (Hl : forall sp, s_start sp <= len src -> s_end sp <= len src -> exists r, resolve_span ls sp = Done r).
  { intros sp H1 H2. destruct (C13_resolve src _ Hn H1) as (l1 & E1 & R1), (C13_resolve src _ Hn H2) as (l2 & E2 & R2).
    rewrite Els in E1, E2. injection E1 as <-. injection E2 as <-. unfold resolve_span. rewrite R1. cbn [obind]. rewrite R2. cbn [obind]. eauto. }
  destruct (file_gx k (len src) ls (fi_syntax f) Hn Hl name f Hw eq_refl) as (e & E & He & Hok). unfold generate_file. rewrite Els. cbn [obind]. rewrite E. cbn [obind].
  destruct e as [|x e].
  - left. split; [now apply Hok|reflexivity].
  - right. split; [intros H; apply Hok in H; discriminate|]. eexists. split; [reflexivity|]. split; [discriminate|auto].
Qed.
