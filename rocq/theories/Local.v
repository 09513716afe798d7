(** The first unexpected token is found from the text up to its end alone: two
    runs of the parser on texts that agree up to there stay in step. *)
From Coq Require Import ZifyBool ZifyN.
From Verif Require Import Base Utf8 Utf8Spec Errors Lex LexSpec PropsLex1 LexSafe Stream PropsLex StrSpec PropsStr CommentSpec PropsComment Ast Comments Parse Grammar SynSpec SpaceSpec Walk Insert Kept.

Definition ut (e : perr) : bool := match e with UnexpectedToken _ _ _ => true | _ => false end.
(** The first error stays; a first lexical error may only grow. *)
Definition kept (x y : list perr) : Prop :=
  match x with
  | e :: _ => if ut e then hd_error y = Some e else exists e', hd_error y = Some e' /\ ut e' = false
  | [] => forall e, hd_error y = Some e -> ut e = false
  end.
Lemma kept_refl x : kept x x.
Proof. destruct x as [|e x]; cbn; [discriminate|]. destruct (ut e) eqn:E; eauto. Qed.
Lemma kept_trans x y z : kept x y -> kept y z -> kept x z.
Proof.
  destruct x as [|e x]; cbn [kept].
  - destruct y as [|e y]; [auto|]. cbn [kept hd_error]. intros H1. rewrite (H1 e eq_refl). intros (e' & H2 & H3) e2 He. congruence.
  - destruct (ut e) eqn:Ee; destruct y as [|e' y]; cbn [hd_error]; [discriminate|intros [= ->]; cbn [kept]; rewrite Ee; auto|intros (? & ? & _); discriminate|].
    intros (e2 & [= <-] & H2). cbn [kept]. now rewrite H2.
Qed.
Lemma kept_app x es : Forall (fun e => ut e = false) es -> kept x (x ++ es).
Proof.
  intros H. destruct x as [|e x]; cbn [kept app hd_error].
  - destruct es as [|e es]; cbn; [discriminate|]. intros e' [= <-]. now apply Forall_inv in H.
  - destruct (ut e) eqn:E; eauto.
Qed.
Lemma unx_ut e : unx e = false -> ut e = false.
Proof. now destruct e. Qed.
Lemma keptx_kept x y : keptx x y -> kept x y.
Proof.
  destruct x as [|e x]; cbn [keptx kept]; [intros H e He; apply unx_ut; auto|]. destruct (unx e) eqn:E.
  - intros ->. destruct (ut e) eqn:E'; eauto.
  - intros (e' & H1 & H2). rewrite (unx_ut _ E). exists e'. split; [exact H1|now apply unx_ut].
Qed.
Lemma lex_kept k s r s' : lex_next k s = Done (r, s') -> kept (l_errs s) (l_errs s').
Proof. intros H. eapply keptx_kept, lex_keptx, H. Qed.
Lemma lex_start k s r s' : lex_next k s = Done (r, s') -> l_start s' = l_end s + len (take_while is_skip (l_rest s)).
Proof.
  unfold lex_next. cbv zeta. destruct (skipn _ (l_rest s)) as [|c l]; [intros [= _ <-]; reflexivity|].
  destruct (scan (munch_ideal k) (c :: l)) as [kd sl]. destruct kd.
  1,2,8,11: intros [= _ <-]; reflexivity.
  1,2,3: destruct (cb_int _ _ _ _ _) as [[v es] a]; intros [= _ <-]; reflexivity.
  - destruct (cb_float _ _ _) as [v es]; intros [= _ <-]; reflexivity.
  - destruct (str_loop _ _ _ _ _ _) as [[[[v1 v2] v3] v4]| |]; cbn [obind]; try discriminate. intros [= _ <-]; reflexivity.
  - destruct (cb_line _ _ _) as [[v es]| |]; cbn [obind]; try discriminate. intros [= _ <-]; reflexivity.
  - destruct (block_loop _ _ _ _ _ _ _) as [[[[v1 v2] v3] v4]| |]; cbn [obind]; try discriminate. intros [= _ <-]; reflexivity.
Qed.

(** One token in both runs. *)
Lemma spaced_apart x q : spaced q -> apart x q = true.
Proof. intros [-> |(c & r & -> & [Hb| ->])]; [reflexivity| |reflexivity]. unfold apart, sep_char. apply is_skip_iff in Hb. now rewrite Hb. Qed.
Lemma tw_inner f x y : (length (take_while f x) < length x)%nat -> take_while f (x ++ y) = take_while f x.
Proof. induction x as [|c x IH]; cbn [app take_while length]; [lia|]. destruct (f c); [|reflexivity]. cbn [length]. intros H. f_equal. apply IH. lia. Qed.
Lemma nil_dec {A} (l : list A) : l = [] \/ l <> [].
Proof. destruct l; [now left|right; discriminate]. Qed.
Lemma lex_step k x q1 q2 l1 l2 r1 l1' r2 l2' :
  spaced q2 ->
  l_rest l1 = x ++ q1 -> l_rest l2 = x ++ q2 -> l_end l2 = l_end l1 -> l_tfm l2 = l_tfm l1 -> l_errs l1 = [] -> l_errs l2 = [] ->
  lex_next k l1 = Done (r1, l1') -> lex_next k l2 = Done (r2, l2') ->
  (exists t x', r1 = Some (Some t) /\ r2 = Some (Some t) /\ l_rest l1' = x' ++ q1 /\ l_rest l2' = x' ++ q2 /\ l_end l1' + len x' = l_end l1 + len x /\
     l_end l2' = l_end l1' /\ l_start l2' = l_start l1' /\ l_tfm l2' = l_tfm l1' /\ l_errs l1' = [] /\ l_errs l2' = []) \/
  l_errs l1' <> [] \/ r1 = Some None \/
  (r1 = None /\ l_end l1 + len x <= l_end l1') \/
  (exists t, r1 = Some (Some t) /\ (l_end l1 + len x < l_end l1' \/ (l_end l1 + len x <= l_end l1' /\ is_trivia t = true))).
Proof.
  intros Hq R1 R2 He Ht E1 E2 N1 N2. destruct (nil_dec (l_errs l1')) as [Hn|Hn]; [|now right; left].
  pose proof (lexes_det _ _ _ _ N1) as L1. destruct (lx_split _ _ _ _ L1) as (w & used & Es & Hw & Hst & Hen & Hu). rewrite R1 in Es.
  assert (Hlen : len x + len q1 = len w + len used + len (l_rest l1')) by (apply (f_equal len) in Es; rewrite !len_app in Es; lia).
  destruct r1 as [[t|]|]; [|now right; right; left|].
  2:{ right. right. right. left. split; [reflexivity|]. destruct Hu as [-> Hr]. rewrite Hr in *. change (len (@nil N)) with 0 in *. lia. }
  assert (Hor : (exists x', l_rest l1' = x' ++ q1 /\ x = w ++ used ++ x') \/ (len x < len w + len used)).
  { destruct (N.le_gt_cases (len w + len used) (len x)) as [Hle|Hgt]; [left|now right]. rewrite app_assoc in Es. destruct (prefix_of_app (w ++ used) (l_rest l1') x q1 (eq_sym Es)) as (x' & Ex).
    { rewrite app_length. unfold len in Hle. lia. }
    exists x'. rewrite Ex, <- app_assoc in Es. apply app_inv_head in Es. split; [now rewrite Es|]. now rewrite Ex, <- app_assoc. }
  destruct Hor as [(x' & Hr' & Ex)|Hgt]; [|right; right; right; right; exists t; split; [reflexivity|left; lia]].
  destruct (lx_same _ _ _ _ L1 (canon (l_tfm l1) (l_rest l1) (l_end l1)) eq_refl eq_refl) as (c1 & Nc & Rc & _ & _ & Ec). specialize (Ec Hn (fun H => H)). cbn [canon l_errs] in Ec.
  assert (Hlx : lexed k (l_tfm l1) (x ++ q1) t (x' ++ q1)). { exists (l_end l1), c1. rewrite <- R1. split; [exact Nc|]. split; [exact Ec|]. now rewrite Rc. }
  assert (Hcase : (x' ++ q1 = [] /\ exists v, t = TLineComment v) \/ (x' ++ q1 <> [] \/ ~ exists v, t = TLineComment v)).
  { destruct (nil_dec (x' ++ q1)) as [Hx|Hx]; [|now right; left]. destruct t; try (right; right; intros (v & Hv); discriminate Hv). left. eauto. }
  destruct Hcase as [(Hx & v & ->)|Hcase].
  { right. right. right. right. exists (TLineComment v). split; [reflexivity|right]. apply app_eq_nil in Hx. destruct Hx as [-> ->]. rewrite Hr' in Hlen. change (len ([] ++ [])) with 0 in Hlen. change (len (@nil N)) with 0 in *. split; [lia|reflexivity]. }
  destruct (lexed_local k (l_tfm l1) x q1 q2 t x' Hlx) as (z & rest2 & Ez & Hz & Hz0 & Hloc).
  { right. split; [now apply spaced_apart|]. intros Hv Hx. exfalso. destruct Hcase; auto. }
  destruct (nil_dec z) as [-> |Hzn].
  2:{ right. right. right. right. exists t. split; [reflexivity|right]. destruct (Hz0 Hzn) as [-> Htr]. rewrite Hr' in Hlen. cbn [app] in Hlen. split; [lia|exact Htr]. }
  left.
  cbn [app] in Ez. subst rest2. destruct (Hloc (l_end l1)) as (s2 & F1 & F2 & F3).
  pose proof (lexes_det _ _ _ _ F1) as L2. destruct (lx_same _ _ _ _ L2 l2) as (s3 & G1 & G2 & G3 & G4 & G5); [cbn [canon l_rest]; exact R2|cbn [canon l_end]; exact He|].
  rewrite N2 in G1. injection G1 as -> <-. specialize (G5 F2). cbn [canon l_tfm] in G5. rewrite Ht in G5. specialize (G5 (fun H => H)). rewrite E2 in G5.
  exists t, x'. split; [reflexivity|]. split; [reflexivity|]. split; [exact Hr'|]. split; [congruence|].
  pose proof (lexes_det _ _ _ _ N2) as L3. destruct (lx_split _ _ _ _ L3) as (w3 & u3 & Es3 & _ & Hst3 & Hen3 & _). rewrite R2, G2, F3 in Es3.
  apply (f_equal len) in Es3. rewrite !len_app in Es3. rewrite Hr', len_app in Hlen.
  split; [lia|]. split; [lia|]. split; [|split; [|split; [exact Hn|exact G5]]].
  - rewrite (lex_start _ _ _ _ N1), (lex_start _ _ _ _ N2), R1, R2, He. f_equal.
    pose proof (lex_start _ _ _ _ N1) as Hs1. rewrite R1 in Hs1. assert (Hlw : len (take_while is_skip (x ++ q1)) = len w) by lia.
    assert (Hlt : (length (take_while is_skip (x ++ q1)) <= length x)%nat) by (apply (f_equal len) in Ex; rewrite !len_app in Ex; unfold len in *; lia).
    rewrite (tw_within is_skip x q1 Hlt) in *. f_equal. apply tw_inner. apply (f_equal len) in Ex. rewrite !len_app in Ex. destruct used as [|u0 used]; [congruence|]. rewrite len_cons in Ex. unfold len in *. lia.
  - rewrite (lx_tfm _ _ _ _ L1), (lx_tfm _ _ _ _ L3). exact Ht.
Qed.

(** ** Two runs of the parser *)
Section Runs.
Variable k : cfg.
Variables q1 q2 : bytes.
Variable bnd : N.
Hypothesis Hq2 : spaced q2.

(** The two states agree and nothing beyond the common text was read. *)
Definition insync (s1 s2 : pst) : Prop :=
  (exists x, rest_of s1 = x ++ q1 /\ rest_of s2 = x ++ q2 /\ pos_of s1 + len x = bnd) /\
  pos_of s2 = pos_of s1 /\ l_start (p_lex s2) = l_start (p_lex s1) /\ tfm s2 = tfm s1 /\ errs s1 = [] /\ errs s2 = [] /\ p_peek s2 = p_peek s1 /\ p_cm s2 = p_cm s1.
(** The state has read all the common text: an unexpected token found from now on ends behind it. *)
Definition late (s : pst) : Prop :=
  bnd <= pos_of s /\ forall t sp, p_peek s = Some (Some (t, sp)) -> bnd < s_end sp \/ is_trivia t = true.
Definition off (s : pst) : Prop :=
  match errs s with
  | [] => late s
  | UnexpectedToken _ _ sp :: _ => bnd < s_end sp
  | _ :: _ => True
  end.
Definition step (s s' : pst) : Prop :=
  (forall e, ut e = true -> hd_error (errs s) = Some e -> hd_error (errs s') = Some e) /\ (off s -> off s').
Lemma step_refl s : step s s.
Proof. split; auto. Qed.
Lemma step_trans s1 s2 s3 : step s1 s2 -> step s2 s3 -> step s1 s3.
Proof. intros [H1 H2] [H3 H4]. split; eauto. Qed.
Definition settled (s1 s2 : pst) : Prop :=
  off s1 \/ exists e, ut e = true /\ hd_error (errs s1) = Some e /\ hd_error (errs s2) = Some e.
Lemma settled_step s1 s2 t1 t2 : settled s1 s2 -> step s1 t1 -> step s2 t2 -> settled t1 t2.
Proof. intros [H|(e & H1 & H2 & H3)] [A1 A2] [B1 B2]; [left; auto|right; exists e; split; [exact H1|split; [now apply A1|now apply B1]]]. Qed.
Lemma settled_l s1 s2 t1 : settled s1 s2 -> step s1 t1 -> settled t1 s2.
Proof. intros H H1. eapply settled_step; eauto using step_refl. Qed.
Lemma settled_r s1 s2 t2 : settled s1 s2 -> step s2 t2 -> settled s1 t2.
Proof. intros H H1. eapply settled_step; eauto using step_refl. Qed.

Definition un {A} (m : P A) : Prop := forall s, match m s with POk _ s' | PErr s' => step s s' | _ => True end.
Definition ends {A} (m1 m2 : pres A) : Prop :=
  match m1, m2 with
  | POk a1 t1, POk a2 t2 => (a1 = a2 /\ insync t1 t2) \/ settled t1 t2
  | PErr t1, PErr t2 => insync t1 t2 \/ settled t1 t2
  | POk _ t1, PErr t2 | PErr t1, POk _ t2 => settled t1 t2
  | _, _ => True
  end.
Record good {A} (m1 m2 : P A) : Prop := {
  g_rel : forall s1 s2, insync s1 s2 -> ends (m1 s1) (m2 s2);
  g_l : un m1;
  g_r : un m2;
}.

Ltac pick := match goal with |- _ \/ settled _ _ => right | _ => idtac end.
Lemma un_bind {A B} (m : P A) (f : A -> P B) : un m -> (forall a, un (f a)) -> un (bind m f).
Proof.
  intros H1 H2 s. unfold bind. specialize (H1 s). destruct (m s) as [a s'|s'| |]; auto. specialize (H2 a s'). destruct (f a s'); eauto using step_trans.
Qed.
Lemma good_bind {A B} (m1 m2 : P A) (f1 f2 : A -> P B) : good m1 m2 -> (forall a, good (f1 a) (f2 a)) -> good (bind m1 f1) (bind m2 f2).
Proof.
  intros H1 H2. split; [|apply un_bind; [apply H1|apply H2]|apply un_bind; [apply H1|apply H2]].
  intros s1 s2 Hs. pose proof (g_rel _ _ H1 s1 s2 Hs) as Hm. pose proof (g_l _ _ H1 s1) as U1. pose proof (g_r _ _ H1 s2) as U2. unfold bind.
  destruct (m1 s1) as [a1 t1|t1| |]; destruct (m2 s2) as [a2 t2|t2| |]; cbn [ends] in *; auto.
  - destruct Hm as [[<- Ht]|Ht]; [apply (g_rel _ _ (H2 a1) _ _ Ht)|]. pose proof (g_l _ _ (H2 a1) t1) as V1. pose proof (g_r _ _ (H2 a2) t2) as V2.
    destruct (f1 a1 t1); destruct (f2 a2 t2); cbn [ends]; auto; pick; eapply settled_step; eauto.
  - pose proof (g_l _ _ (H2 a1) t1) as V1. destruct (f1 a1 t1); cbn [ends]; auto; pick; eapply settled_l; eauto.
  - destruct (f1 a1 t1); auto.
  - destruct (f1 a1 t1); auto.
  - pose proof (g_r _ _ (H2 a2) t2) as V2. destruct (f2 a2 t2); cbn [ends]; auto; pick; eapply settled_r; eauto.
Qed.
Lemma good_ret {A} (a : A) : good (ret a) (ret a).
Proof. split; [intros s1 s2 H; left; auto|intros s; apply step_refl|intros s; apply step_refl]. Qed.
Lemma good_fail {A} : good (@fail A) fail.
Proof. split; [intros s1 s2 H; left; auto|intros s; apply step_refl|intros s; apply step_refl]. Qed.
Lemma good_panic {A} : good (@panic A) panic.
Proof. split; intros; cbn; auto; intros s; exact I. Qed.
Lemma good_loopf {A B} (f1 f2 : A -> P (A + B)) : (forall a, good (f1 a) (f2 a)) -> forall n1 n2 a, good (loopf n1 f1 a) (loopf n2 f2 a).
Proof.
  intros H. assert (U1 : forall n a, un (loopf n f1 a)). { induction n as [|n IH]; intros a; [intros s; exact I|]. cbn [loopf]. apply un_bind; [apply H|]. intros [a'|v]; [apply IH|intros s; apply step_refl]. }
  assert (U2 : forall n a, un (loopf n f2 a)). { induction n as [|n IH]; intros a; [intros s; exact I|]. cbn [loopf]. apply un_bind; [apply H|]. intros [a'|v]; [apply IH|intros s; apply step_refl]. }
  induction n1 as [|n1 IH]; intros n2 a; [split; [intros; exact I|apply U1|apply U2]|]. destruct n2 as [|n2]; [split; [intros s1 s2 _; cbn [loopf]; destruct (bind _ _ _); exact I|apply U1|apply U2]|].
  cbn [loopf]. apply good_bind; [apply H|]. intros [a'|v]; [apply IH|apply good_ret].
Qed.
Lemma good_loop {A B} (f1 f2 : A -> P (A + B)) a : (forall a, good (f1 a) (f2 a)) -> good (loop f1 a) (loop f2 a).
Proof.
  intros H. split.
  - intros s1 s2 Hs. apply (g_rel _ _ (good_loopf f1 f2 H (S (measure s1)) (S (measure s2)) a) s1 s2 Hs).
  - intros s. apply (g_l _ _ (good_loopf f1 f2 H (S (measure s)) (S (measure s)) a) s).
  - intros s. apply (g_r _ _ (good_loopf f1 f2 H (S (measure s)) (S (measure s)) a) s).
Qed.
Lemma good_case {A B} (x : A + B) {C} (f1 f2 : A -> P C) (h1 h2 : B -> P C) : (forall a, good (f1 a) (f2 a)) -> (forall a, good (h1 a) (h2 a)) ->
  good (match x with inl a => f1 a | inr c => h1 c end) (match x with inl a => f2 a | inr c => h2 c end).
Proof. destruct x; auto. Qed.

(** *** Primitive actions *)
(** A change of state that keeps the errors, position and lookahead. *)
Lemma step_same s s' : errs s' = errs s -> pos_of s' = pos_of s -> (p_peek s' = p_peek s \/ p_peek s' = None) -> step s s'.
Proof.
  intros H1 H2 H3. split; [intros e _; now rewrite H1|]. unfold off. rewrite H1. destruct (errs s) as [|e l]; [|auto]. unfold late. rewrite H2.
  intros [H4 H5]. split; [exact H4|]. destruct H3 as [-> | ->]; [exact H5|discriminate].
Qed.
Lemma good_upd {A} (f : pst -> A) (g : pst -> pst) :
  (forall s, errs (g s) = errs s /\ pos_of (g s) = pos_of s /\ (p_peek (g s) = p_peek s \/ p_peek (g s) = None)) ->
  (forall s1 s2, insync s1 s2 -> f s1 = f s2 /\ insync (g s1) (g s2)) ->
  good (fun s => POk (f s) (g s)) (fun s => POk (f s) (g s)).
Proof.
  intros Hg Hf. split; [intros s1 s2 Hs; left; now apply Hf|..]; intros s; destruct (Hg s) as (H1 & H2 & H3); now apply step_same.
Qed.
Lemma good_dassert c1 c2 : good (dassert c1) (dassert c2).
Proof.
  split; [intros s1 s2 (Hx & H); left; split; [reflexivity|]; split; [exact Hx|exact H]|..]; intros s; apply step_same; auto.
Qed.
Lemma good_cm f : good (cm f) (cm f).
Proof.
  unfold cm. split.
  - intros s1 s2 (Hx & H1 & H2 & H3 & H4 & H5 & H6 & H7). rewrite H7. destruct (f (p_cm s1)) as [c ok]. left. split; [reflexivity|]. split; [exact Hx|]. cbn. auto 10.
  - intros s. destruct (f (p_cm s)) as [c ok]. apply step_same; auto.
  - intros s. destruct (f (p_cm s)) as [c ok]. apply step_same; auto.
Qed.
Lemma good_set_tfm t : good (set_tfm t) (set_tfm t).
Proof.
  split; [intros s1 s2 (Hx & H1 & H2 & H3 & H4 & H5 & H6 & H7); left; split; [reflexivity|]; split; [exact Hx|]; cbn; auto 10|..]; intros s; apply step_same; auto.
Qed.
Lemma good_lexer_span : good lexer_span lexer_span.
Proof.
  split; [intros s1 s2 (Hx & H1 & H2 & H3); left; split; [now rewrite H1, H2|]; split; auto|..]; intros s; apply step_refl.
Qed.
Lemma off_error s : errs s <> [] -> (forall e, hd_error (errs s) = Some e -> ut e = false) -> off s.
Proof. intros H1 H2. unfold off. destruct (errs s) as [|e0 l]; [congruence|]. specialize (H2 e0 eq_refl). destruct e0; auto. discriminate H2. Qed.
Lemma un_add_error e : ut e = false -> un (add_error e).
Proof.
  intros He s. cbn. split; cbn [set_lex p_lex with_errs l_errs].
  - intros e' _ H. destruct (errs s); [discriminate H|exact H].
  - unfold off. cbn [set_lex p_lex with_errs l_errs]. destruct (errs s); cbn [app]; [|auto]. intros _. destruct e; auto. discriminate He.
Qed.
Lemma good_add_error e : ut e = false -> good (add_error e) (add_error e).
Proof.
  intros He. split; [|now apply un_add_error|now apply un_add_error]. intros s1 s2 (Hx & H1 & H2 & H3 & H4 & H5 & _). right. left. unfold off. cbn [set_lex p_lex with_errs l_errs]. rewrite H4. cbn [app]. destruct e; auto. discriminate He.
Qed.

Lemma lexer_errs s r l : lex_next k (p_lex s) = Done (r, l) -> kept (errs s) (l_errs l).
Proof. apply lex_kept. Qed.
Lemma kept_step s s' : kept (errs s) (errs s') -> (errs s = [] -> late s -> off s') -> step s s'.
Proof.
  intros Hk Hl. split.
  - intros e He Hh. destruct (errs s) as [|e0 l]; [discriminate Hh|]. injection Hh as ->. cbn [kept] in Hk. now rewrite He in Hk.
  - unfold off at 1. destruct (errs s) as [|e0 l]; [auto|]. cbn [kept] in Hk. intros Ho. unfold off. destruct (ut e0) eqn:Eu.
    + destruct (errs s') as [|e' l']; [discriminate Hk|]. injection Hk as ->. destruct e0; try discriminate Eu. exact Ho.
    + destruct Hk as (e' & Hh & Hu). destruct (errs s') as [|e'' l']; [discriminate Hh|]. injection Hh as ->. destruct e'; auto. discriminate Hu.
Qed.

(** What [peek_comments] does with an empty lookahead. *)
Lemma peek_fill s r l : p_peek s = None -> lex_next k (p_lex s) = Done (r, l) -> exists s',
  (errs s' = match r with Some None => l_errs l ++ [InvalidToken (l_start l, l_end l)] | _ => l_errs l end) /\
  rest_of s' = l_rest l /\ pos_of s' = l_end l /\ l_start (p_lex s') = l_start l /\ tfm s' = l_tfm l /\
  p_cm s' = match r with Some None => c_reset | _ => p_cm s end /\
  match r with
  | None => p_peek s' = None /\ peek_comments k s = POk None s'
  | Some (Some t) => p_peek s' = Some (Some (t, (l_start l, l_end l))) /\ peek_comments k s = POk (Some (t, (l_start l, l_end l))) s'
  | Some None => p_peek s' = Some None /\ peek_comments k s = PErr s'
  end.
Proof.
  intros Hp E. destruct s as [sl sp sc]. cbn [p_peek p_lex] in *. subst sp.
  assert (Ha : forall a, exists r' l', lex_next k (with_assert sl a) = Done (r', l') /\ r' = r /\ l_rest l' = l_rest l /\ l_start l' = l_start l /\ l_end l' = l_end l /\ l_errs l' = l_errs l /\ l_tfm l' = l_tfm l).
  { intros a. revert E. unfold lex_next. cbv zeta. cbn [with_assert l_rest l_end l_errs l_tfm]. destruct (skipn _ (l_rest sl)) as [|c x]; [intros [= <- <-]; eexists _, _; split; [reflexivity|]; auto 10|].
    destruct (scan (munch_ideal k) (c :: x)) as [kd y]. destruct kd.
    1,2,8,11: intros [= <- <-]; eexists _, _; split; [reflexivity|]; auto 10.
    1,2,3: destruct (cb_int _ _ _ _ _) as [[v es] a0]; intros [= <- <-]; eexists _, _; split; [reflexivity|]; auto 10.
    - destruct (cb_float _ _ _) as [v es]; intros [= <- <-]; eexists _, _; split; [reflexivity|]; auto 10.
    - destruct (str_loop _ _ _ _ _ _) as [[[[v1 v2] v3] v4]| |]; cbn [obind]; try discriminate. intros [= <- <-]; eexists _, _; split; [reflexivity|]; auto 10.
    - destruct (cb_line _ _ _) as [[v es]| |]; cbn [obind]; try discriminate. intros [= <- <-]; eexists _, _; split; [reflexivity|]; auto 10.
    - destruct (block_loop _ _ _ _ _ _ _) as [[[[v1 v2] v3] v4]| |]; cbn [obind]; try discriminate. intros [= <- <-]; eexists _, _; split; [reflexivity|]; auto 10. }
  destruct (Ha (l_assert sl || negb (negb (is_some (@None (option (token * span))))))) as (r' & l' & E' & -> & H1 & H2 & H3 & H4 & H5).
  unfold peek_comments, next_, bind, get, dassert, lexer_next, lexer_span, add_error, ret, fail. cbn [p_peek p_lex set_lex]. rewrite E'.
  destruct r as [[t|]|]; cbn [p_peek p_lex set_lex set_peek set_cm p_cm with_errs l_errs l_rest l_end l_start l_tfm].
  - eexists. split; [|split; [|split; [|split; [|split; [|split; [|split]]]]]]; [..|rewrite H2, H3; reflexivity]; cbn [p_peek p_lex set_lex set_peek set_cm p_cm with_errs l_errs l_rest l_end l_start l_tfm]; rewrite ?H1, ?H2, ?H3, ?H4, ?H5; reflexivity.
  - eexists. split; [|split; [|split; [|split; [|split; [|split; [|split]]]]]]; [..|reflexivity]; cbn [p_peek p_lex set_lex set_peek set_cm p_cm with_errs l_errs l_rest l_end l_start l_tfm]; rewrite ?H1, ?H2, ?H3, ?H4, ?H5; reflexivity.
  - eexists. split; [|split; [|split; [|split; [|split; [|split; [|split]]]]]]; [..|reflexivity]; cbn [p_peek p_lex set_lex set_peek set_cm p_cm with_errs l_errs l_rest l_end l_start l_tfm]; rewrite ?H1, ?H2, ?H3, ?H4, ?H5; reflexivity.
Qed.
Lemma peek_full s x : p_peek s = Some x -> peek_comments k s = match x with Some ts => POk (Some ts) s | None => PErr s end.
Proof. intros H. unfold peek_comments, bind, get, ret, fail. rewrite H. rewrite H. destruct x; reflexivity. Qed.

Lemma un_peek_comments : un (peek_comments k).
Proof.
  intros s. destruct (p_peek s) as [x|] eqn:Ep; [rewrite (peek_full _ _ Ep); destruct x; apply step_refl|].
  destruct (lex_next_lexes k (p_lex s)) as (r & l & L). pose proof (lx_eq _ _ _ _ L) as E. destruct (peek_fill s r l Ep E) as (s' & H1 & H2 & H3 & H4 & H5 & H6 & H7).
  destruct (lx_split _ _ _ _ L) as (w & used & Es & _ & Hst & Hen & Hu). pose proof (lexer_errs _ _ _ E) as Hk.
  destruct r as [[t|]|]; destruct H7 as [H7 ->]; apply kept_step; rewrite ?H1.
  - exact Hk.
  - intros Hn [Hl1 Hl2]. unfold off. rewrite H1. rewrite Hn in Hk. cbn [kept] in Hk. destruct (l_errs l) as [|e es]; [|specialize (Hk e eq_refl); destruct e; auto; discriminate Hk].
    unfold late. rewrite H3, H7. assert (0 < len used) by (destruct used; [congruence|rewrite len_cons; lia]). split; [lia|]. intros t0 sp [= <- <-]. left. unfold s_end. cbn [snd]. lia.
  - eapply kept_trans; [exact Hk|]. apply kept_app. now repeat constructor.
  - intros Hn _. unfold off. rewrite H1. rewrite Hn in Hk. cbn [kept] in Hk. destruct (l_errs l) as [|e es]; [exact I|]. cbn [app]. specialize (Hk e eq_refl). destruct e; auto. discriminate Hk.
  - exact Hk.
  - intros Hn [Hl1 Hl2]. unfold off. rewrite H1. rewrite Hn in Hk. cbn [kept] in Hk. destruct (l_errs l) as [|e es]; [|specialize (Hk e eq_refl); destruct e; auto; discriminate Hk].
    unfold late. rewrite H3, H7. split; [lia|discriminate].
Qed.
Lemma good_peek_comments : good (peek_comments k) (peek_comments k).
Proof.
  split; [|apply un_peek_comments|apply un_peek_comments]. intros s1 s2 Hs. pose proof Hs as ((x & Hx1 & Hx2 & Hx3) & A1 & A2 & A3 & A4 & A5 & A6 & A7).
  destruct (p_peek s1) as [y|] eqn:Ep; [rewrite (peek_full _ _ Ep), (peek_full _ _ A6); destruct y; cbn [ends]; auto|].
  destruct (lex_next_lexes k (p_lex s1)) as (r1 & l1 & L1). pose proof (lx_eq _ _ _ _ L1) as E1. destruct (peek_fill s1 r1 l1 Ep E1) as (t1 & H1 & H2 & H3 & H4 & H5 & H6 & H7).
  destruct (lex_next_lexes k (p_lex s2)) as (r2 & l2 & L2). pose proof (lx_eq _ _ _ _ L2) as E2. destruct (peek_fill s2 r2 l2 A6 E2) as (t2 & G1 & G2 & G3 & G4 & G5 & G6 & G7).
  pose proof (lexer_errs _ _ _ E1) as Hk. rewrite A4 in Hk. cbn [kept] in Hk.
  assert (Hoff : off t1 -> ends (peek_comments k s1) (peek_comments k s2)).
  { intros Ho. destruct r1 as [[?|]|]; destruct H7 as [_ ->]; destruct r2 as [[?|]|]; destruct G7 as [_ ->]; cbn [ends]; pick; left; exact Ho. }
  assert (Hoe : errs t1 <> [] -> (r1 <> Some None -> l_errs l1 = errs t1) -> off t1).
  { intros Hn He. unfold off. rewrite H1 in *. destruct (l_errs l1) as [|e es].
    - destruct r1 as [[?|]|]; [congruence|exact I|congruence].
    - specialize (Hk e eq_refl). destruct r1 as [[?|]|]; cbn [app]; destruct e; auto; discriminate Hk. }
  destruct (lex_step k x q1 q2 _ _ _ _ _ _ Hq2 Hx1 Hx2 A1 A3 A4 A5 E1 E2) as [(t & x' & -> & -> & B1 & B2 & B3 & B4 & B5 & B6 & B7 & B8)|[Hn|[-> |[(-> & Hn)|(t & -> & Hn)]]]].
  - destruct H7 as [H7 ->]. destruct G7 as [G7 ->]. left. rewrite B4, B5 in *. split; [reflexivity|]. unfold insync. rewrite H1, H2, H3, H4, H5, H6, H7, G1, G2, G3, G4, G5, G6, G7. split; [exists x'; repeat split; auto; lia|]. auto 10.
  - apply Hoff, Hoe; [|destruct r1 as [[?|]|]; rewrite H1; congruence]. rewrite H1. destruct r1 as [[?|]|]; auto. destruct (l_errs l1); discriminate.
  - apply Hoff. unfold off. rewrite H1. destruct (l_errs l1) as [|e es]; [exact I|]. cbn [app]. specialize (Hk e eq_refl). destruct e; auto. discriminate Hk.
  - apply Hoff. unfold off. rewrite H1. destruct (l_errs l1) as [|e es]; [|specialize (Hk e eq_refl); destruct e; auto; discriminate Hk].
    destruct H7 as [H7 _]. unfold late. rewrite H3, H7. split; [lia|discriminate].
  - apply Hoff. unfold off. rewrite H1. destruct (l_errs l1) as [|e es]; [|specialize (Hk e eq_refl); destruct e; auto; discriminate Hk].
    destruct H7 as [H7 _]. unfold late. rewrite H3, H7. split; [lia|]. intros t0 sp [= <- <-]. unfold s_end. cbn [snd]. destruct Hn as [Hn|[_ Hn]]; [left; lia|now right].
Qed.
Lemma good_bump : good bump bump.
Proof.
  assert (U : un bump). { intros s. unfold bump, bind, get, ret, panic. destruct (p_peek s) as [[[t sp]|]|]; try exact I. apply step_same; [| |now right]; destruct (is_trivia t); reflexivity. }
  split; [|exact U|exact U]. intros s1 s2 (Hx & A1 & A2 & A3 & A4 & A5 & A6 & A7). unfold bump, bind, get, ret, panic. rewrite A6. destruct (p_peek s1) as [[[t sp]|]|]; try exact I.
  left. split; [reflexivity|]. destruct (is_trivia t); (split; [exact Hx|]); cbn; auto 10.
Qed.

(** *** Derived actions *)
Create HintDb gd.
#[local] Hint Resolve good_ret good_fail good_panic good_dassert good_cm good_set_tfm good_lexer_span good_peek_comments good_bump : gd.
Ltac gone :=
  match goal with
  | |- forall _, _ => intros
  | |- good (bind _ _) _ => apply good_bind
  | |- good (loop _ _) _ => apply good_loop
  | |- good (add_error _) _ => apply good_add_error; reflexivity
  | |- good _ _ => solve [auto with gd nocore]
  | |- good (match ?x with _ => _ end) _ => destruct x
  end.
Ltac gall := repeat gone.
Lemma good_peek_skip : good (peek_skip_comments k) (peek_skip_comments k).
Proof. unfold peek_skip_comments. gall. Qed.
Lemma good_peek_loop : good (peek_loop k) (peek_loop k).
Proof. unfold peek_loop. gall. Qed.
#[local] Hint Resolve good_peek_skip good_peek_loop : gd.
Lemma good_peek : good (peek k) (peek k).
Proof. unfold peek. gall. Qed.
#[local] Hint Resolve good_peek : gd.

(** What a finished loop leaves behind. *)
Lemma loopf_post {A B} (f : A -> P (A + B)) (Q : B -> pst -> Prop) :
  (forall a s, match f a s with POk (inr v) t => Q v t | _ => True end) -> forall n a s, match loopf n f a s with POk v t => Q v t | _ => True end.
Proof.
  intros H. induction n as [|n IH]; intros a s; [exact I|]. cbn [loopf]. unfold bind. specialize (H a s). destruct (f a s) as [[a'|v] t|t| |]; [apply IH|exact H|exact I|exact I|exact I].
Qed.
Lemma peek_comments_post s r t : peek_comments k s = POk r t -> match r with Some ts => p_peek t = Some (Some ts) | None => p_peek t = None /\ rest_of t = [] end.
Proof.
  destruct (p_peek s) as [x|] eqn:Ep.
  - rewrite (peek_full _ _ Ep). destruct x as [ts|]; [intros [= <- <-]; exact Ep|discriminate].
  - destruct (lex_next_lexes k (p_lex s)) as (r0 & l & L). pose proof (lx_eq _ _ _ _ L) as E. destruct (peek_fill s r0 l Ep E) as (s' & H1 & H2 & _ & _ & _ & _ & H7).
    destruct (lx_split _ _ _ _ L) as (w & used & _ & _ & _ & _ & Hu). destruct r0 as [[t0|]|]; destruct H7 as [H7 ->]; [intros [= <- <-]; exact H7|discriminate|]. intros [= <- <-]. destruct Hu as [_ Hu]. split; [exact H7|congruence].
Qed.
Lemma peek_skip_post s : match peek_skip_comments k s with POk (Some (t, sp)) s' => p_peek s' = Some (Some (t, sp)) /\ is_trivia t = false | POk None s' => p_peek s' = None /\ rest_of s' = [] | _ => True end.
Proof.
  unfold peek_skip_comments, loop. set (f := fun _ : unit => _).
  pose proof (loopf_post f (fun v s' => match v with Some (t, sp) => p_peek s' = Some (Some (t, sp)) /\ is_trivia t = false | None => p_peek s' = None /\ rest_of s' = [] end)) as H.
  assert (Hf : forall a s0, match f a s0 with POk (inr v) t => match v with Some (t0, sp) => p_peek t = Some (Some (t0, sp)) /\ is_trivia t0 = false | None => p_peek t = None /\ rest_of t = [] end | _ => True end).
  { intros a s0. unfold f, bind. destruct (peek_comments k s0) as [[[t sp]|] s1|s1| |] eqn:E; try exact I; apply peek_comments_post in E; [|exact E].
    destruct t; try (split; [exact E|reflexivity]); unfold ret; destruct (bump s1); exact I. }
  specialize (H Hf (S (measure s)) tt s). destruct (loopf _ f tt s) as [[[t sp]|] s'|s'| |]; auto.
Qed.
Lemma good_unexpected {A} e : good (@unexpected_token k A e) (unexpected_token k e).
Proof.
  assert (U : un (@unexpected_token k A e)).
  { intros s. unfold unexpected_token, bind, add_error, fail. pose proof (g_l _ _ good_peek_skip s) as Hp. pose proof (peek_skip_post s) as Hq. destruct (peek_skip_comments k s) as [[[t sp]|] s'|s'| |]; auto.
    - eapply step_trans; [exact Hp|]. split; cbn [set_lex p_lex with_errs l_errs]; [intros e0 _ H; destruct (errs s'); [discriminate H|exact H]|].
      unfold off. cbn [set_lex p_lex with_errs l_errs]. destruct (errs s') as [|e0 l]; [|auto]. cbn [app]. intros [_ H]. destruct (H t sp (proj1 Hq)) as [H1|H1]; [exact H1|]. rewrite (proj2 Hq) in H1. discriminate H1.
    - eapply step_trans; [exact Hp|]. apply (un_add_error (UnexpectedEof e) eq_refl s'). }
  split; [|exact U|exact U]. intros s1 s2 Hs. pose proof (g_rel _ _ good_peek_skip s1 s2 Hs) as Hm. pose proof (peek_skip_post s1) as Hp1. pose proof (peek_skip_post s2) as Hp2.
  assert (Ue : forall (r : option (token * span)) s, (match r with Some (t, sp) => p_peek s = Some (Some (t, sp)) /\ is_trivia t = false | None => True end) ->
     match (match r with Some (found, sp) => add_error (UnexpectedToken e (token_display k found) sp) ;;; @fail A | None => add_error (UnexpectedEof e) ;;; @fail A end) s with POk _ s' | PErr s' => step s s' | _ => True end).
  { intros r s Hr. unfold bind, add_error, fail. destruct r as [[t sp]|].
    - split; cbn [set_lex p_lex with_errs l_errs]; [intros e0 _ H; destruct (errs s); [discriminate H|exact H]|].
      unfold off. cbn [set_lex p_lex with_errs l_errs]. destruct (errs s) as [|e0 l]; [|auto]. cbn [app]. intros [_ H]. destruct (H t sp (proj1 Hr)) as [H1|H1]; [exact H1|]. rewrite (proj2 Hr) in H1. discriminate H1.
    - apply (un_add_error (UnexpectedEof e) eq_refl s). }
  unfold unexpected_token. unfold bind at 1. unfold bind at 3. destruct (peek_skip_comments k s1) as [r1 t1|t1| |]; destruct (peek_skip_comments k s2) as [r2 t2|t2| |]; cbn [ends] in *; auto.
  - destruct Hm as [[<- Ht]|Ht].
    + destruct Ht as (Hx & A1 & A2 & A3 & A4 & A5 & A6 & A7). destruct r1 as [[t sp]|]; unfold bind, add_error, fail; cbn [ends]; right.
      * right. exists (UnexpectedToken e (token_display k t) sp). cbn [set_lex p_lex with_errs l_errs]. rewrite A4, A5. auto.
      * left. unfold off. cbn [set_lex p_lex with_errs l_errs]. rewrite A4. exact I.
    + assert (H1 : match r1 with Some (t, sp) => p_peek t1 = Some (Some (t, sp)) /\ is_trivia t = false | None => True end) by (destruct r1 as [[t sp]|]; auto).
      assert (H2 : match r2 with Some (t, sp) => p_peek t2 = Some (Some (t, sp)) /\ is_trivia t = false | None => True end) by (destruct r2 as [[t sp]|]; auto).
      pose proof (Ue r1 t1 H1) as V1. pose proof (Ue r2 t2 H2) as V2. destruct r1 as [[? ?]|]; destruct r2 as [[? ?]|]; unfold bind, add_error, fail in *; cbn [ends] in *; right; eapply settled_step; eauto.
  - assert (H1 : match r1 with Some (t, sp) => p_peek t1 = Some (Some (t, sp)) /\ is_trivia t = false | None => True end) by (destruct r1 as [[t sp]|]; auto).
    pose proof (Ue r1 t1 H1) as V1. destruct r1 as [[? ?]|]; unfold bind, add_error, fail in *; cbn [ends] in *; right; eapply settled_l; eauto.
  - destruct r1 as [[? ?]|]; exact I.
  - destruct r1 as [[? ?]|]; exact I.
  - assert (H2 : match r2 with Some (t, sp) => p_peek t2 = Some (Some (t, sp)) /\ is_trivia t = false | None => True end) by (destruct r2 as [[t sp]|]; auto).
    pose proof (Ue r2 t2 H2) as V2. destruct r2 as [[? ?]|]; unfold bind, add_error, fail in *; cbn [ends] in *; right; eapply settled_r; eauto.
Qed.
#[local] Hint Resolve good_unexpected : gd.
Lemma good_expect_eq t : good (expect_eq k t) (expect_eq k t).
Proof. unfold expect_eq. gall. Qed.
#[local] Hint Resolve good_expect_eq : gd.
(** Actions that go on after an error. *)
Lemma good_catch {A B} (m1 m2 : P A) (h1 h2 : option A -> pst -> pres B) : good m1 m2 ->
  (forall r, good (h1 r) (h2 r)) ->
  good (fun s => match m1 s with POk a s' => h1 (Some a) s' | PErr s' => h1 None s' | PPanic => PPanic | PNoFuel => PNoFuel end)
       (fun s => match m2 s with POk a s' => h2 (Some a) s' | PErr s' => h2 None s' | PPanic => PPanic | PNoFuel => PNoFuel end).
Proof.
  intros Hm Hh. split.
  - intros s1 s2 Hs. pose proof (g_rel _ _ Hm s1 s2 Hs) as H.
    assert (Hsx : forall r1 t1 r2 t2, settled t1 t2 -> ends (h1 r1 t1) (h2 r2 t2)).
    { intros r1 t1 r2 t2 Ht. pose proof (g_l _ _ (Hh r1) t1) as V1. pose proof (g_r _ _ (Hh r2) t2) as V2. destruct (h1 r1 t1); destruct (h2 r2 t2); cbn [ends]; auto; pick; eapply settled_step; eauto. }
    destruct (m1 s1) as [a1 t1|t1| |]; destruct (m2 s2) as [a2 t2|t2| |]; cbn [ends] in *; auto.
    + destruct H as [[<- Ht]|Ht]; [apply (g_rel _ _ (Hh (Some a1)) _ _ Ht)|auto].
    + destruct (h1 _ t1); exact I.
    + destruct (h1 _ t1); exact I.
    + destruct H as [Ht|Ht]; [apply (g_rel _ _ (Hh None) _ _ Ht)|auto].
    + destruct (h1 _ t1); exact I.
    + destruct (h1 _ t1); exact I.
  - intros s. pose proof (g_l _ _ Hm s) as H. destruct (m1 s) as [a t|t| |]; auto.
    + pose proof (g_l _ _ (Hh (Some a)) t) as V. destruct (h1 (Some a) t); eauto using step_trans.
    + pose proof (g_l _ _ (Hh None) t) as V. destruct (h1 None t); eauto using step_trans.
  - intros s. pose proof (g_r _ _ Hm s) as H. destruct (m2 s) as [a t|t| |]; auto.
    + pose proof (g_r _ _ (Hh (Some a)) t) as V. destruct (h2 (Some a) t); eauto using step_trans.
    + pose proof (g_r _ _ (Hh None) t) as V. destruct (h2 None t); eauto using step_trans.
Qed.
Lemma good_ext {A} (m1 m2 n1 n2 : P A) : (forall s, m1 s = n1 s) -> (forall s, m2 s = n2 s) -> good n1 n2 -> good m1 m2.
Proof. intros H1 H2 [G1 G2 G3]. split; [intros s1 s2; rewrite H1, H2; apply G1|intros s; rewrite H1; apply G2|intros s; rewrite H2; apply G3]. Qed.
Lemma good_get {A} (c : pst -> bool) (m1 m2 : P A) : good m1 m2 -> good (s <- get ;; dassert (c s) ;;; m1) (s <- get ;; dassert (c s) ;;; m2).
Proof.
  intros H. split.
  - intros s1 s2 Hs. unfold bind at 1, get at 1. unfold bind at 2, get at 1. apply (g_rel _ _ (good_bind _ _ _ _ (good_dassert (c s1) (c s2)) (fun _ => H)) s1 s2 Hs).
  - intros s. apply (g_l _ _ (good_bind _ _ _ _ (good_dassert (c s) (c s)) (fun _ => H)) s).
  - intros s. apply (g_r _ _ (good_bind _ _ _ _ (good_dassert (c s) (c s)) (fun _ => H)) s).
Qed.
Lemma good_drop_peek : good (fun s => POk tt (set_peek s None)) (fun s => POk tt (set_peek s None)).
Proof.
  apply (good_upd (fun _ => tt) (fun s => set_peek s None)); [auto|]. intros s1 s2 (Hx & A1 & A2 & A3 & A4 & A5 & A6 & A7). split; [reflexivity|]. split; [exact Hx|]. cbn. auto 10.
Qed.
#[local] Hint Resolve good_drop_peek : gd.
Lemma good_skip_until ts : good (skip_until k ts) (skip_until k ts).
Proof.
  unfold skip_until. apply good_loop. intros a.
  set (h := fun r : option (option (token * span)) => match r with Some None => ret (inr tt) | Some (Some (t, _)) => if mem_token t ts then ret (inr tt) else bump ;;; ret (inl tt) | None => (fun s => POk tt (set_peek s None)) ;;; ret (inl tt) end : P (unit + unit)).
  eapply good_ext; [| |apply (good_catch (peek k) (peek k) h h good_peek)].
  - intros s. cbv beta. destruct (peek k s) as [[[t sp]|] s'|s'| |]; try reflexivity. cbn [h]. destruct (mem_token t ts); reflexivity.
  - intros s. cbv beta. destruct (peek k s) as [[[t sp]|] s'|s'| |]; try reflexivity. cbn [h]. destruct (mem_token t ts); reflexivity.
  - intros r. unfold h. gall.
Qed.
#[local] Hint Resolve good_skip_until : gd.
Lemma good_peek_ignore : good (peek_ignore k) (peek_ignore k).
Proof.
  eapply good_ext; [| |apply (good_catch (peek k) (peek k) (fun _ => ret tt) (fun _ => ret tt) good_peek)]; [intros s; unfold peek_ignore; destruct (peek k s); reflexivity|intros s; unfold peek_ignore; destruct (peek k s); reflexivity|intros; apply good_ret].
Qed.
#[local] Hint Resolve good_peek_ignore : gd.
Lemma good_leading : good (parse_leading_comments k) (parse_leading_comments k).
Proof.
  unfold parse_leading_comments. apply good_bind; [auto with gd|]. intros _. eapply good_ext; [| |apply (good_upd (fun s => fst (c_take_leading (p_cm s))) (fun s => set_cm s (snd (c_take_leading (p_cm s)))))].
  - intros s. reflexivity.
  - intros s. reflexivity.
  - auto.
  - intros s1 s2 (Hx & A1 & A2 & A3 & A4 & A5 & A6 & A7). rewrite A7. split; [reflexivity|]. split; [exact Hx|]. cbn. auto 10.
Qed.
Lemma good_trailing lead : good (parse_trailing_comment k lead) (parse_trailing_comment k lead).
Proof.
  unfold parse_trailing_comment. apply good_bind; [auto with gd|]. intros _.
  eapply good_ext; [| |apply (good_upd (fun s => {| ac_detached := fst lead; ac_leading := snd lead; ac_trailing := fst (c_take_trailing (p_cm s)) |}) (fun s => set_cm s (snd (c_take_trailing (p_cm s)))))].
  - intros s. reflexivity.
  - intros s. reflexivity.
  - auto.
  - intros s1 s2 (Hx & A1 & A2 & A3 & A4 & A5 & A6 & A7). rewrite A7. split; [reflexivity|]. split; [exact Hx|]. cbn. auto 10.
Qed.
#[local] Hint Resolve good_leading good_trailing : gd.

(** *** The grammar *)
Lemma good_p_ident  : good (parse_ident k ) (parse_ident k ).
Proof. unfold parse_ident. gall. Qed.
#[local] Hint Resolve good_p_ident : gd.
Lemma good_p_int  : good (parse_int k ) (parse_int k ).
Proof. unfold parse_int. gall. Qed.
#[local] Hint Resolve good_p_int : gd.
Lemma good_p_string  : good (parse_string k ) (parse_string k ).
Proof. unfold parse_string. gall. Qed.
#[local] Hint Resolve good_p_string : gd.
Lemma good_p_utf8_string  : good (parse_utf8_string k ) (parse_utf8_string k ).
Proof. unfold parse_utf8_string. gall. Qed.
#[local] Hint Resolve good_p_utf8_string : gd.
Lemma good_p_ident_string  : good (parse_ident_string k ) (parse_ident_string k ).
Proof. unfold parse_ident_string. gall. Qed.
#[local] Hint Resolve good_p_ident_string : gd.
Lemma good_p_full_ident terms : good (parse_full_ident k terms) (parse_full_ident k terms).
Proof. unfold parse_full_ident. gall. Qed.
#[local] Hint Resolve good_p_full_ident : gd.
Lemma good_p_type_name terms : good (parse_type_name k terms) (parse_type_name k terms).
Proof. unfold parse_type_name. gall. Qed.
#[local] Hint Resolve good_p_type_name : gd.
Lemma good_p_text_format_message : good (parse_text_format_message k) (parse_text_format_message k).
Proof. unfold parse_text_format_message. apply good_get. gall. Qed.
#[local] Hint Resolve good_p_text_format_message : gd.
Lemma good_p_option_name_part  : good (parse_option_name_part k ) (parse_option_name_part k ).
Proof. unfold parse_option_name_part. gall. Qed.
#[local] Hint Resolve good_p_option_name_part : gd.
Lemma good_p_option_value  : good (parse_option_value k ) (parse_option_value k ).
Proof. unfold parse_option_value. gall. Qed.
#[local] Hint Resolve good_p_option_value : gd.
Lemma good_p_option_body  : good (parse_option_body k ) (parse_option_body k ).
Proof. unfold parse_option_body. gall. Qed.
#[local] Hint Resolve good_p_option_body : gd.
Lemma good_p_option  : good (parse_option k ) (parse_option k ).
Proof. unfold parse_option. gall. Qed.
#[local] Hint Resolve good_p_option : gd.
Lemma good_p_options_list  : good (parse_options_list k ) (parse_options_list k ).
Proof. unfold parse_options_list. gall. Qed.
#[local] Hint Resolve good_p_options_list : gd.
Lemma good_p_opt_options term expected : good (parse_opt_options k term expected) (parse_opt_options k term expected).
Proof. unfold parse_opt_options. gall. Qed.
#[local] Hint Resolve good_p_opt_options : gd.
Lemma good_p_reserved_range  : good (parse_reserved_range k ) (parse_reserved_range k ).
Proof. unfold parse_reserved_range. gall. Qed.
#[local] Hint Resolve good_p_reserved_range : gd.
Lemma good_p_reserved_ranges terms : good (parse_reserved_ranges k terms) (parse_reserved_ranges k terms).
Proof. unfold parse_reserved_ranges. gall. Qed.
#[local] Hint Resolve good_p_reserved_ranges : gd.
Lemma good_p_reserved_names  : good (parse_reserved_names k ) (parse_reserved_names k ).
Proof. unfold parse_reserved_names. gall. Qed.
#[local] Hint Resolve good_p_reserved_names : gd.
Lemma good_p_reserved  : good (parse_reserved k ) (parse_reserved k ).
Proof. unfold parse_reserved. gall. Qed.
#[local] Hint Resolve good_p_reserved : gd.
Lemma good_p_extensions  : good (parse_extensions k ) (parse_extensions k ).
Proof. unfold parse_extensions. gall. Qed.
#[local] Hint Resolve good_p_extensions : gd.
Lemma good_p_named_type terms : good (parse_named_type k terms) (parse_named_type k terms).
Proof. unfold parse_named_type. gall. Qed.
#[local] Hint Resolve good_p_named_type : gd.
Lemma good_p_field_type terms : good (parse_field_type k terms) (parse_field_type k terms).
Proof. unfold parse_field_type. gall. Qed.
#[local] Hint Resolve good_p_field_type : gd.
Lemma good_p_map lead start label : good (parse_map k lead start label) (parse_map k lead start label).
Proof. unfold parse_map. gall. Qed.
#[local] Hint Resolve good_p_map : gd.
Lemma good_p_group b1 b2 lead start label : good b1 b2 -> good (parse_group k b1 lead start label) (parse_group k b2 lead start label).
Proof. intros Hb. unfold parse_group. gall. Qed.
#[local] Hint Resolve good_p_group : gd.
Lemma good_p_normal_field lead start label : good (parse_normal_field k lead start label) (parse_normal_field k lead start label).
Proof. unfold parse_normal_field. gall. Qed.
#[local] Hint Resolve good_p_normal_field : gd.
Lemma good_p_field b1 b2  : good b1 b2 -> good (parse_field k b1 ) (parse_field k b2 ).
Proof. intros Hb. unfold parse_field. gall. Qed.
#[local] Hint Resolve good_p_field : gd.
Lemma good_p_extend b1 b2  : good b1 b2 -> good (parse_extend k b1 ) (parse_extend k b2 ).
Proof. intros Hb. unfold parse_extend. gall. Qed.
#[local] Hint Resolve good_p_extend : gd.
Lemma good_p_oneof b1 b2  : good b1 b2 -> good (parse_oneof k b1 ) (parse_oneof k b2 ).
Proof. intros Hb. unfold parse_oneof. gall. Qed.
#[local] Hint Resolve good_p_oneof : gd.
Lemma good_p_message b1 b2  : good b1 b2 -> good (parse_message k b1 ) (parse_message k b2 ).
Proof. intros Hb. unfold parse_message. gall. Qed.
#[local] Hint Resolve good_p_message : gd.
Lemma good_p_enum_value  : good (parse_enum_value k ) (parse_enum_value k ).
Proof. unfold parse_enum_value. gall. Qed.
#[local] Hint Resolve good_p_enum_value : gd.
Lemma good_p_enum  : good (parse_enum k ) (parse_enum k ).
Proof. unfold parse_enum. gall. Qed.
#[local] Hint Resolve good_p_enum : gd.
(** The body functions with any two amounts of fuel. *)
Definition body_step (pbody : P (body * span)) : P (body * span) :=
    ' (items, exts, opts, res, e) <- loop (fun '(items, exts, opts, res) =>
      t <- peek k ;;
      if Parse.at_ t (kw "oneof") then
        x <- parse_oneof k pbody ;; ret (inl (items ++ [MIOneof x], exts, opts, res))
      else if Parse.at_ t (kw "enum") then
        x <- parse_enum k ;; ret (inl (items ++ [MIEnum x], exts, opts, res))
      else if Parse.at_ t (kw "message") then
        x <- parse_message k pbody ;; ret (inl (items ++ [MIMessage x], exts, opts, res))
      else if Parse.at_ t (kw "extend") then
        x <- parse_extend k pbody ;; ret (inl (items ++ [MIExtend x], exts, opts, res))
      else if Parse.at_ t (kw "option") then
        x <- parse_option k ;; ret (inl (items, exts, opts ++ [x], res))
      else if Parse.at_ t (kw "reserved") then
        x <- parse_reserved k ;; ret (inl (items, exts, opts, res ++ [x]))
      else if Parse.at_ t (kw "extensions") then
        x <- parse_extensions k ;; ret (inl (items, exts ++ [x], opts, res))
      else if at_dot_or_ident t then
        x <- parse_field k pbody ;; ret (inl (items ++ [MIField x], exts, opts, res))
      else if Parse.at_ t TSemicolon then bump ;;; ret (inl (items, exts, opts, res))
      else if Parse.at_ t TRightBrace then e <- bump ;; ret (inr (items, exts, opts, res, e))
      else unexpected_token k (b "a message field, oneof, reserved range, enum, message, option or '}'"))
      ([], [], [], []) ;;
    ret (Body items exts opts res, e).
Lemma body_step_eq n : parse_message_body k (S n) = body_step (parse_message_body k n).
Proof. reflexivity. Qed.
Lemma good_body_step b1 b2 : good b1 b2 -> good (body_step b1) (body_step b2).
Proof. intros Hb. unfold body_step. gall. Qed.
Lemma good_p_message_body : forall n1 n2, good (parse_message_body k n1) (parse_message_body k n2).
Proof.
  assert (Hz : forall n, un (parse_message_body k n) -> good (parse_message_body k 0) (parse_message_body k n)) by (intros n H; split; [intros; exact I|intros s; exact I|exact H]).
  assert (Hz' : forall n, un (parse_message_body k n) -> good (parse_message_body k n) (parse_message_body k 0)) by (intros n H; split; [intros s1 s2 _; cbn [parse_message_body]; destruct (parse_message_body k n s1); exact I|exact H|intros s; exact I]).
  assert (Hd : forall n, good (parse_message_body k n) (parse_message_body k n)) by (induction n as [|n IH]; [apply Hz; intros s; exact I|rewrite body_step_eq; now apply good_body_step]).
  induction n1 as [|n1 IH]; intros [|n2]; [apply Hd|apply Hz, (g_r _ _ (Hd (S n2)))|apply Hz', (g_r _ _ (Hd (S n1)))|]. rewrite !body_step_eq. apply good_body_step, IH.
Qed.
#[local] Hint Resolve good_p_message_body : gd.
Lemma good_p_stream : good (parse_stream k) (parse_stream k).
Proof. unfold parse_stream. gall. Qed.
#[local] Hint Resolve good_p_stream : gd.
Lemma good_p_rpc_end : good (parse_rpc_end k) (parse_rpc_end k).
Proof. unfold parse_rpc_end. gall. Qed.
#[local] Hint Resolve good_p_rpc_end : gd.
Lemma good_p_service_rpc : good (parse_service_rpc k) (parse_service_rpc k).
Proof. unfold parse_service_rpc. gall. Qed.
#[local] Hint Resolve good_p_service_rpc : gd.
Lemma good_p_service : good (parse_service k) (parse_service k).
Proof. unfold parse_service. gall. Qed.
#[local] Hint Resolve good_p_service : gd.
Lemma good_p_syntax : good (parse_syntax k) (parse_syntax k).
Proof. unfold parse_syntax. gall. Qed.
#[local] Hint Resolve good_p_syntax : gd.
Lemma good_p_package : good (parse_package k) (parse_package k).
Proof. unfold parse_package. gall. Qed.
#[local] Hint Resolve good_p_package : gd.
Lemma good_p_import_kind : good (parse_import_kind k) (parse_import_kind k).
Proof. unfold parse_import_kind. gall. Qed.
#[local] Hint Resolve good_p_import_kind : gd.
Lemma good_p_import : good (parse_import k) (parse_import k).
Proof. unfold parse_import. gall. Qed.
#[local] Hint Resolve good_p_import : gd.
Lemma good_p_statement n1 n2 : good (parse_statement k n1) (parse_statement k n2).
Proof. unfold parse_statement. cbv zeta. gall. Qed.
#[local] Hint Resolve good_p_statement : gd.
Lemma good_add_statement f st : good (add_statement f st) (add_statement f st).
Proof. unfold add_statement. cbv zeta. gall. Qed.
#[local] Hint Resolve good_add_statement : gd.
Lemma good_file_step n1 n2 f : good (file_step k n1 f) (file_step k n2 f).
Proof.
  unfold file_step.
  set (h := fun r : option (option statement) => match r with Some (Some st) => f' <- add_statement f st ;; ret (inl f') | Some None => ret (inr f) | None => s1 <- get ;; dassert (Nat.ltb 0 (length (l_errs (p_lex s1)))) ;;; skip_until k sync_tokens ;;; ret (inl f) end : P (file + file)).
  eapply good_ext; [| |apply (good_catch (parse_statement k n1) (parse_statement k n2) h h (good_p_statement n1 n2))].
  - intros s. cbv beta. destruct (parse_statement k n1 s) as [[st|] s'|s'| |]; reflexivity.
  - intros s. cbv beta. destruct (parse_statement k n2 s) as [[st|] s'|s'| |]; reflexivity.
  - intros r. unfold h. destruct r as [[st|]|]; [gall|gall|]. apply good_get. gall.
Qed.
Definition at_end (r : option (token * span)) (t : pst) : Prop := r = None -> p_peek t = None /\ rest_of t = [].
Lemma comments_end s r t : peek_comments k s = POk r t -> at_end r t.
Proof. intros E ->. now apply peek_comments_post in E. Qed.
Definition cont (m : P (unit + option (token * span))) : Prop := forall s, match m s with POk (inr v) t => at_end v t | _ => True end.
Lemma cont_bind {A} (m : P A) f : (forall a, cont (f a)) -> cont (bind m f).
Proof. intros H s. unfold bind. destruct (m s) as [a s'|s'| |]; try exact I. apply H. Qed.
Lemma cont_inl u : cont (ret (inl u)).
Proof. intros s. exact I. Qed.
Lemma cont_inr x : cont (ret (inr (Some x))).
Proof. intros s Hx. discriminate Hx. Qed.
Lemma peek_loop_end s r t : peek_loop k s = POk r t -> at_end r t.
Proof.
  unfold peek_loop, loop. set (f := fun _ : unit => _). pose proof (loopf_post f at_end) as H.
  assert (Hf : forall a, cont (f a)).
  { intros a s0. unfold f. unfold bind at 1. destruct (peek_comments k s0) as [[[t0 sp]|] s1|s1| |] eqn:E; try exact I; pose proof (comments_end _ _ _ E) as He.
    - revert s1 E He. intros s1 _ _. revert s1. change (cont (match t0 with
    | TLineComment c => bump;;; cm (fun x : comments => c_line_comment x c);;; ret (inl tt)
    | TBlockComment c => bump;;; cm (fun x : comments => c_block_comment x c);;; t2 <- peek_comments k;; match t2 with Some (TNewline, _) => bump;;; ret (inl tt) | _ => ret (inl tt) end
    | TNewline => bump;;; cm c_flush;;; cm (fun x : comments => (c_detach x, true));;; ret (inl tt)
    | TRightParen | TRightBrace | TRightBracket => cm c_flush;;; ret (inr (Some (t0, sp)))
    | _ => ret (inr (Some (t0, sp))) end)).
      destruct t0; repeat first [apply cont_bind; intros | apply cont_inl | apply cont_inr | match goal with |- cont (match ?x with _ => _ end) => destruct x end].
    - unfold bind, cm, dassert, ret. destruct (c_flush (p_cm s1)) as [c ok]. intros _. apply He. reflexivity. }
  specialize (H Hf (S (measure s)) tt s). intros E. rewrite E in H. exact H.
Qed.
Lemma peek_skip_end s r t : peek_skip_comments k s = POk r t -> at_end r t.
Proof. intros E ->. pose proof (peek_skip_post s) as H. now rewrite E in H. Qed.
Lemma peek_end s r t : peek k s = POk r t -> at_end r t.
Proof.
  unfold peek, bind, lexer_span. destruct (_ && _); [apply peek_loop_end|]. destruct (peek_comments k s) as [[[t0 sp]|] s1|s1| |] eqn:E; try discriminate; pose proof (comments_end _ _ _ E) as He.
  - destruct t0; unfold ret; try (intros [= <- <-] Hx; discriminate Hx).
    + destruct (bump s1) as [? s2|s2| |]; try discriminate. destruct (cm _ s2) as [? s3|s3| |]; try discriminate. destruct (cm _ s3) as [? s4|s4| |]; try discriminate. apply peek_loop_end.
    + destruct (bump s1) as [? s2|s2| |]; try discriminate. destruct (peek_comments k s2) as [[[t2 sp2]|] s3|s3| |]; try discriminate; [|apply peek_skip_end].
      destruct t2; try apply peek_skip_end. destruct (bump s3) as [? s4|s4| |]; try discriminate. destruct (cm _ s4) as [? s5|s5| |]; try discriminate. apply peek_loop_end.
    + destruct (bump s1) as [? s2|s2| |]; try discriminate. apply peek_loop_end.
  - intros [= <- <-]. exact He.
Qed.
Lemma good_file_loop n1 n2 f1 f2 s1 s2 : settled s1 s2 \/ (f1 = f2 /\ insync s1 s2) -> ends (loop (file_step k n1) f1 s1) (loop (file_step k n2) f2 s2).
Proof.
  intros [Hs|[<- Hs]]; [|apply (g_rel _ _ (good_loop _ _ f1 (good_file_step n1 n2)) s1 s2 Hs)].
  pose proof (g_l _ _ (good_loop _ _ f1 (good_file_step n1 n2)) s1) as V1. pose proof (g_r _ _ (good_loop _ _ f2 (good_file_step n1 n2)) s2) as V2.
  destruct (loop (file_step k n1) f1 s1); destruct (loop (file_step k n2) f2 s2); cbn [ends]; auto; pick; eapply settled_step; eauto.
Qed.
Definition file_head (t : option (token * span)) (src : bytes) : P file :=
  match t with
  | Some (tok, sp) =>
    if token_eqb tok (kw "syntax") then
      ' (sx, sp, c) <- parse_syntax k ;;
      ret {| fi_span := sp; fi_syntax := sx; fi_syntax_span := Some (sp, c); fi_package := None; fi_imports := []; fi_options := []; fi_items := [] |}
    else ret {| fi_span := sp; fi_syntax := Proto2; fi_syntax_span := None; fi_package := None; fi_imports := []; fi_options := []; fi_items := [] |}
  | None => ret {| fi_span := (len src, 0); fi_syntax := Proto2; fi_syntax_span := None; fi_package := None; fi_imports := []; fi_options := []; fi_items := [] |}
  end.
Lemma file_p_eq src : parse_file_p k src = (t <- peek k ;; f0 <- file_head t src ;; loop (file_step k (S (2 * length src))) f0).
Proof. reflexivity. Qed.
Lemma good_head t : good (file_head (Some t) []) (file_head (Some t) []).
Proof. unfold file_head. gall. Qed.
Lemma un_head t src : un (file_head t src).
Proof. destruct t as [t|]; [apply (g_l _ _ (good_head t))|]. intros s. apply step_refl. Qed.
Lemma un_file_loop n f : un (loop (file_step k n) f).
Proof. apply (g_l _ _ (good_loop _ _ f (good_file_step n n))). Qed.
Lemma un_rest t src n : un (f0 <- file_head t src ;; loop (file_step k n) f0).
Proof. apply un_bind; [apply un_head|intros; apply un_file_loop]. Qed.
Lemma file_runs src1 src2 s1 s2 : insync s1 s2 -> ends (parse_file_p k src1 s1) (parse_file_p k src2 s2).
Proof.
  intros Hs. rewrite !file_p_eq. set (n1 := S (2 * length src1)). set (n2 := S (2 * length src2)). clearbody n1 n2.
  pose proof (g_rel _ _ good_peek s1 s2 Hs) as Hm. unfold bind at 1. unfold bind at 2.
  assert (Hsx : forall r1 r2 t1 t2, settled t1 t2 -> ends ((f0 <- file_head r1 src1 ;; loop (file_step k n1) f0) t1) ((f0 <- file_head r2 src2 ;; loop (file_step k n2) f0) t2)).
  { intros r1 r2 t1 t2 Ht. pose proof (un_rest r1 src1 n1 t1) as V1. pose proof (un_rest r2 src2 n2 t2) as V2.
    destruct ((f0 <- file_head r1 src1 ;; loop (file_step k n1) f0) t1); destruct ((f0 <- file_head r2 src2 ;; loop (file_step k n2) f0) t2); cbn [ends]; auto; pick; eapply settled_step; eauto. }
  pose proof (fun r t => peek_end s1 r t) as Hend.
  destruct (peek k s1) as [r1 t1|t1| |]; destruct (peek k s2) as [r2 t2|t2| |]; cbn [ends] in Hm; try exact I.
  - destruct Hm as [[<- Ht]|Ht]; [|now apply Hsx]. destruct r1 as [t|].
    + apply (g_rel _ _ (good_bind _ _ _ _ (good_head t) (fun f => good_loop _ _ f (good_file_step n1 n2))) t1 t2 Ht).
    + apply Hsx. destruct (Hend None t1 eq_refl eq_refl) as [Hp Hr]. destruct Ht as ((x & Hx1 & _ & Hx3) & _ & _ & _ & He & _). left. unfold off. rewrite He. unfold late. rewrite Hp. split; [|discriminate].
      rewrite Hr in Hx1. destruct x; [change (len (@nil N)) with 0 in Hx3; lia|discriminate Hx1].
  - pose proof (un_rest r1 src1 n1 t1) as V1. destruct ((f0 <- file_head r1 src1 ;; loop (file_step k n1) f0) t1); cbn [ends]; auto; pick; eapply settled_l; eauto.
  - destruct ((f0 <- file_head r1 src1 ;; loop (file_step k n1) f0) t1); exact I.
  - destruct ((f0 <- file_head r1 src1 ;; loop (file_step k n1) f0) t1); exact I.
  - pose proof (un_rest r2 src2 n2 t2) as V2. destruct ((f0 <- file_head r2 src2 ;; loop (file_step k n2) f0) t2); cbn [ends]; auto; pick; eapply settled_r; eauto.
  - cbn [ends]. exact Hm.
Qed.
End Runs.

(** If a text of the form [p ++ q1] has an unexpected token that ends with [p]
    as first error, so has every text that goes on with a new line behind [p]. *)
Lemma parse_file_local k p q1 q2 es a ex fd sp : spaced q2 ->
  parse_file k (p ++ q1) = Done (inr (UnexpectedToken ex fd sp :: es), a) -> s_end sp = len p ->
  forall r a2, parse_file k (p ++ q2) = Done (r, a2) -> exists es2, r = inr (UnexpectedToken ex fd sp :: es2).
Proof.
  intros Hq E Hsp r a2 E2.
  assert (Hi : insync q1 q2 (len p) (p_init (p ++ q1)) (p_init (p ++ q2))) by (split; [exists p; cbn; repeat split; lia|cbn; auto 10]).
  pose proof (file_runs k q1 q2 (len p) Hq (p ++ q1) (p ++ q2) _ _ Hi) as H. unfold parse_file in E, E2.
  set (m1 := parse_file_p k (p ++ q1) (p_init (p ++ q1))) in *. set (m2 := parse_file_p k (p ++ q2) (p_init (p ++ q2))) in *. clearbody m1 m2.
  assert (He1 : exists s1, (m1 = PErr s1 \/ exists f, m1 = POk f s1) /\ errs s1 = UnexpectedToken ex fd sp :: es).
  { assert (Hinj : forall (x y : list perr) (c d : bool), Done (inr x : file + list perr, c) = Done (inr y, d) -> x = y) by congruence.
    destruct m1 as [f s1|s1| |]; try discriminate E; exists s1; (split; [eauto|]); [destruct (errs s1) as [|e0 l0]; [discriminate E|]|]; exact (Hinj _ _ _ _ E). }
  destruct He1 as (s1 & Hm1 & He1).
  assert (Hset : forall s2, settled (len p) s1 s2 -> exists es2, errs s2 = UnexpectedToken ex fd sp :: es2).
  { intros s2 [Ho|(e & _ & Hh1 & Hh2)]; [unfold off in Ho; rewrite He1 in Ho; lia|]. rewrite He1 in Hh1. injection Hh1 as <-. destruct (errs s2) as [|e2 es2]; [discriminate Hh2|]. injection Hh2 as ->. eauto. }
  assert (Hins : forall s2, ~ insync q1 q2 (len p) s1 s2) by (intros s2 (_ & _ & _ & _ & He & _); rewrite He1 in He; discriminate He).
  assert (Hres : forall s2, (m2 = PErr s2 \/ exists f, m2 = POk f s2) -> settled (len p) s1 s2 -> exists es2, r = inr (UnexpectedToken ex fd sp :: es2)).
  { intros s2 Hm2 Hs2. destruct (Hset s2 Hs2) as (es2 & He2). destruct Hm2 as [-> |(f & ->)]; rewrite He2 in E2; injection E2 as <- _; eauto. }
  destruct Hm1 as [-> |(f1 & ->)]; destruct m2 as [f2 s2|s2| |]; cbn [ends] in H; try discriminate E2; eapply Hres; eauto.
  - destruct H as [H|H]; [destruct (Hins _ H)|exact H].
  - destruct H as [[_ H]|H]; [destruct (Hins _ H)|exact H].
Qed.
