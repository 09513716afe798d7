(** The comment state of the parser (Comments.v) against the specification of
    comment attachment (AttachSpec.v): pure part. *)
From Verif Require Import Base Lex Ast Comments AttachSpec.

(** What the loop of [peek] does with comments and newlines. *)
Fixpoint absorb (T : list token) (c : comments) : comments :=
  match T with
  | TLineComment t :: r => absorb r (fst (c_line_comment c t))
  | TBlockComment t :: r => match r with
                            | TNewline :: r' => absorb r' (fst (c_block_comment c t))
                            | _ => absorb r (fst (c_block_comment c t))
                            end
  | TNewline :: r => absorb r (c_detach (fst (c_flush c)))
  | _ => c
  end.
Definition finish (closing : bool) (c : comments) : comments := if closing then fst (c_flush c) else c.

(** The whole of [peek]. *)
Definition peek_cm (first closing : bool) (T : list token) (c : comments) : comments :=
  if first then finish closing (absorb T c)
  else match T with
       | TLineComment t :: r => finish closing (absorb r (fst (c_flush (fst (c_line_comment c t)))))
       | TBlockComment t :: r => match r with
                                 | TNewline :: r' => finish closing (absorb r' (fst (c_block_comment c t)))
                                 | _ => c
                                 end
       | TNewline :: r => finish closing (absorb r c)
       | _ => c
       end.

(** Every run of comments has paragraphs. *)
Lemma line_run T : Forall trivia T -> exists ts r, T = map TLineComment ts ++ r /\ forall t, hd_error r <> Some (TLineComment t).
Proof.
  induction T as [|x T IH]; intros H; [exists [], []; split; [reflexivity|discriminate]|]. inversion H; subst.
  destruct (IH H3) as (ts & r & -> & Hr). destruct x; try destruct H2.
  - exists (s :: ts), r. auto.
  - exists [], (TBlockComment s :: map TLineComment ts ++ r). split; [reflexivity|discriminate].
  - exists [], (TNewline :: map TLineComment ts ++ r). split; [reflexivity|discriminate].
Qed.

Lemma hd_newline (r : list token) : {r' | r = TNewline :: r'} + {hd_error r <> Some TNewline}.
Proof. destruct r as [|x r]; [right; discriminate|]. destruct x; try (right; discriminate). left. eauto. Qed.
Lemma paragraphs_exist T : Forall trivia T -> exists ps, paragraphs T ps.
Proof.
  remember (length T) as n eqn:E. revert T E. induction n as [n IH] using (well_founded_induction Wf_nat.lt_wf). intros T -> H.
  destruct (line_run T H) as (ts & r & -> & Hr). destruct ts as [|t ts].
  - cbn [map app] in *. destruct r as [|x r]; [exists []; constructor|]. inversion H; subst. destruct x; try contradiction.
    + exfalso. eapply Hr. reflexivity.
    + destruct (hd_newline r) as [[r' ->]|Hn].
      * destruct (IH (length r') ltac:(cbn; lia) r' eq_refl (Forall_inv_tail H3)) as (ps & Hp). eexists. apply pa_block_eol. exact Hp.
      * destruct (IH (length r) ltac:(cbn; lia) r eq_refl H3) as (ps & Hp). eexists. apply pa_block; [exact Hn|exact Hp].
    + destruct (IH (length r) ltac:(cbn; lia) r eq_refl H3) as (ps & Hp). eexists. apply pa_blank. exact Hp.
  - assert (Hf : Forall trivia r) by (apply Forall_app in H; apply H).
    destruct (IH (length r) ltac:(rewrite app_length; cbn; lia) r eq_refl Hf) as (ps & Hp). eexists. apply (pa_lines (t :: ts)); [discriminate|exact Hr|exact Hp].
Qed.

(** The comment state after paragraphs [ps]; [line]: the last one is a run of line comments. *)
Definition is_nil {A} (l : list A) : bool := match l with [] => true | _ => false end.
Record repr (may : bool) (tr0 : option bytes) (ps : list (option bytes)) (line : bool) (c : comments) : Prop := {
  re_lead : c_leading c = last ps None;
  re_trail : c_trailing c = if may then trail_of (others false ps) else tr0;
  re_det : c_detached c = texts (if may then tl (others false ps) else others false ps);
  re_istr : c_is_trailing c = may && is_nil (others false ps);
  re_line : c_is_line c = line;
  re_ln : c_leading c = None -> line = false;
}.
Record flushed (may : bool) (tr0 : option bytes) (ps : list (option bytes)) (c : comments) : Prop := {
  fl_lead : c_leading c = None;
  fl_trail : c_trailing c = if may then trail_of ps else tr0;
  fl_det : c_detached c = texts (if may then tl ps else ps);
  fl_istr : c_is_trailing c = false;
  fl_line : c_is_line c = false;
}.
Lemma last_snoc {A} (l : list A) x d : last (l ++ [x]) d = x.
Proof. induction l as [|y l IH]; [reflexivity|]. cbn [app last]. destruct (l ++ [x]) eqn:E; [destruct l; discriminate|exact IH]. Qed.
Lemma others_none ps : others false (ps ++ [None]) = ps ++ [None].
Proof. unfold others, lead_of. now rewrite last_snoc. Qed.
Lemma others_some ps t : others false (ps ++ [Some t]) = ps.
Proof. unfold others, lead_of. rewrite last_snoc. now rewrite removelast_last. Qed.
Lemma last_cases (ps : list (option bytes)) : (last ps None = None /\ others false ps = ps) \/ exists os t, ps = os ++ [Some t].
Proof.
  destruct ps as [|x l] using rev_ind; [left; auto|]. destruct x as [t|]; [right; eauto|]. left. rewrite others_none, last_snoc. auto.
Qed.
Lemma texts_app a c : texts (a ++ c) = texts a ++ texts c.
Proof. apply flat_map_app. Qed.
Lemma tl_app {A} (l l' : list A) : l <> [] -> tl (l ++ l') = tl l ++ l'.
Proof. destruct l; [congruence|reflexivity]. Qed.
Lemma trail_app l l' : l <> [] -> trail_of (l ++ l') = trail_of l.
Proof. destruct l; [congruence|reflexivity]. Qed.

Lemma flush_repr may tr0 ps line c : repr may tr0 ps line c -> flushed may tr0 ps (fst (c_flush c)).
Proof.
  intros [H1 H2 H3 H4 H5 H6]. unfold c_flush. rewrite H4. destruct (last_cases ps) as [[E1 E2]|(os & t & ->)].
  - rewrite E2 in *. rewrite E1 in H1. destruct may; cbn [andb].
    + destruct ps as [|p ps]; cbn [is_nil]; split; cbn [fst c_leading c_trailing c_detached c_is_trailing c_is_line]; auto. rewrite H1. cbn [opt_list]. now rewrite app_nil_r.
    + split; cbn [fst c_leading c_trailing c_detached c_is_trailing c_is_line]; auto. rewrite H1. cbn [opt_list]. now rewrite app_nil_r.
  - rewrite others_some in *. rewrite last_snoc in H1. destruct may; cbn [andb].
    + destruct os as [|p os]; cbn [is_nil]; split; cbn [fst c_leading c_trailing c_detached c_is_trailing c_is_line]; auto.
      rewrite H1, H3. cbn [opt_list tl app]. now rewrite texts_app.
    + split; cbn [fst c_leading c_trailing c_detached c_is_trailing c_is_line]; auto. rewrite H1, H3. cbn [opt_list]. now rewrite texts_app.
Qed.
Lemma newline_repr may tr0 ps line c : repr may tr0 ps line c -> repr may tr0 (ps ++ [None]) false (c_detach (fst (c_flush c))).
Proof.
  intros H. apply flush_repr in H. destruct H as [H1 H2 H3 H4 H5]. assert (Hn : is_nil (ps ++ [None]) = false) by (destruct ps; reflexivity).
  split; cbn [c_detach c_leading c_trailing c_detached c_is_trailing c_is_line]; rewrite ?others_none, ?last_snoc, ?Hn, ?andb_false_r; auto.
  - rewrite H2. destruct may; auto. destruct ps; auto.
  - rewrite H3. destruct may; [|now rewrite texts_app, app_nil_r]. destruct ps as [|p ps]; auto. cbn [app tl]. now rewrite texts_app, app_nil_r.
Qed.
Lemma flushed_some may tr0 ps c t line : flushed may tr0 ps c -> ps <> [] -> repr may tr0 (ps ++ [Some t]) line (c_set_leading c (Some t) line).
Proof.
  intros [H1 H2 H3 H4 H5] Hn. assert (Hz : is_nil ps = false) by (destruct ps; [congruence|reflexivity]).
  split; cbn [c_set_leading c_leading c_trailing c_detached c_is_trailing c_is_line]; rewrite ?others_some, ?last_snoc, ?Hz, ?andb_false_r; auto. discriminate.
Qed.
Lemma none_some may tr0 ps c t line line' : repr may tr0 ps line' c -> c_leading c = None -> repr may tr0 (ps ++ [Some t]) line (c_set_leading c (Some t) line).
Proof.
  intros [H1 H2 H3 H4 H5 H6] Hn. destruct (last_cases ps) as [[E1 E2]|(os & u & ->)]; [|rewrite last_snoc in H1; congruence]. rewrite E2 in *.
  split; cbn [c_set_leading c_leading c_trailing c_detached c_is_trailing c_is_line]; rewrite ?others_some, ?last_snoc; auto. discriminate.
Qed.
Lemma some_nonnil may tr0 ps line c : repr may tr0 ps line c -> c_leading c <> None -> ps <> [].
Proof. intros [H1 _ _ _ _ _] H ->. now apply H. Qed.
Lemma block_repr may tr0 ps line c t : repr may tr0 ps line c -> repr may tr0 (ps ++ [Some t]) false (fst (c_block_comment c t)).
Proof.
  intros H. unfold c_block_comment. destruct (c_leading c) as [x|] eqn:E; cbn [is_some].
  - destruct (c_flush c) as [c1 ok] eqn:Ef. cbn [fst]. pose proof (flush_repr _ _ _ _ _ H) as F. rewrite Ef in F. cbn [fst] in F. rewrite (fl_line _ _ _ _ F).
    apply flushed_some; auto. eapply some_nonnil; eauto. congruence.
  - cbn [fst]. rewrite (re_line _ _ _ _ _ H), (re_ln _ _ _ _ _ H E). eapply none_some; eauto.
Qed.
Lemma line_repr may tr0 ps line c t : repr may tr0 ps line c -> line = false -> repr may tr0 (ps ++ [Some t]) true (fst (c_line_comment c t)).
Proof.
  intros H ->. unfold c_line_comment. rewrite (re_line _ _ _ _ _ H). destruct (c_leading c) as [x|] eqn:E; cbn [is_some andb negb].
  - destruct (c_flush c) as [c1 ok] eqn:Ef. cbn [fst]. pose proof (flush_repr _ _ _ _ _ H) as F. rewrite Ef in F. cbn [fst] in F. rewrite (fl_lead _ _ _ _ F).
    apply flushed_some; auto. eapply some_nonnil; eauto. congruence.
  - cbn [fst]. rewrite E. eapply none_some; eauto.
Qed.
Lemma more_repr may tr0 ps c x t : repr may tr0 (ps ++ [Some x]) true c -> repr may tr0 (ps ++ [Some (x ++ t)]) true (fst (c_line_comment c t)).
Proof.
  intros [H1 H2 H3 H4 H5 H6]. rewrite last_snoc in H1. rewrite others_some in *. unfold c_line_comment. rewrite H1, H5. cbn [is_some negb andb fst]. rewrite H1.
  split; cbn [c_set_leading c_leading c_trailing c_detached c_is_trailing c_is_line]; rewrite ?others_some, ?last_snoc; auto. discriminate.
Qed.
Lemma lines_repr may tr0 ps r ts : forall x c, repr may tr0 (ps ++ [Some x]) true c ->
  exists c', absorb (map TLineComment ts ++ r) c = absorb r c' /\ repr may tr0 (ps ++ [Some (x ++ concat ts)]) true c'.
Proof.
  induction ts as [|t ts IH]; intros x c H; [exists c; cbn [concat]; rewrite app_nil_r; auto|].
  destruct (IH _ _ (more_repr _ _ _ _ _ t H)) as (c' & E & H'). exists c'. split; [exact E|]. cbn [concat]. now rewrite app_assoc.
Qed.
Lemma absorb_repr may tr0 T ps2 : paragraphs T ps2 -> forall ps line c, repr may tr0 ps line c -> (line = true -> forall t, hd_error T <> Some (TLineComment t)) ->
  exists line', repr may tr0 (ps ++ ps2) line' (absorb T c).
Proof.
  induction 1 as [|r ps2 H IH|t r ps2 Hn H IH|t r ps2 H IH|ts r ps2 Hts Hr H IH]; intros ps line c Hc Hl.
  - exists line. now rewrite app_nil_r.
  - change (None :: ps2) with ([None] ++ ps2). rewrite app_assoc. eapply IH; [eapply newline_repr; eauto|discriminate].
  - change (Some t :: ps2) with ([Some t] ++ ps2). rewrite app_assoc.
    assert (E : absorb (TBlockComment t :: r) c = absorb r (fst (c_block_comment c t))) by (cbn [absorb]; destruct r as [|[] r]; try reflexivity; exfalso; now apply Hn).
    rewrite E. eapply IH; [eapply block_repr; eauto|discriminate].
  - change (Some t :: ps2) with ([Some t] ++ ps2). rewrite app_assoc. cbn [absorb]. eapply IH; [eapply block_repr; eauto|discriminate].
  - destruct ts as [|t ts]; [congruence|]. change (Some (concat (t :: ts)) :: ps2) with ([Some (t ++ concat ts)] ++ ps2). rewrite app_assoc.
    assert (Hz : line = false) by (destruct line; auto; exfalso; now apply (Hl eq_refl t)).
    pose proof (line_repr _ _ _ _ _ t Hc Hz) as H1. destruct (lines_repr _ _ _ r ts _ _ H1) as (c' & E & H2). cbn [map app absorb]. rewrite E. eapply IH; [exact H2|]. intros _. exact Hr.
Qed.

Lemma finish_repr may tr0 closing ps line c : repr may tr0 ps line c ->
  c_leading (finish closing c) = lead_of closing ps /\ c_trailing (finish closing c) = (if may then trail_of (others closing ps) else tr0) /\
  c_detached (finish closing c) = texts (if may then tl (others closing ps) else others closing ps).
Proof.
  intros H. destruct closing; cbn [finish].
  - apply flush_repr in H. destruct H as [H1 H2 H3 H4 H5]. auto.
  - destruct H as [H1 H2 H3 H4 H5 H6]. auto.
Qed.

(** The state after [peek] is what the specification says. *)
Lemma peek_attached first closing T : Forall trivia T ->
  let c := peek_cm first closing T (if first then c_new else c_reset) in
  attached closing first T (c_trailing c) (c_detached c) (c_leading c).
Proof.
  intros HT. destruct first; cbn [peek_cm].
  - destruct (paragraphs_exist T HT) as (ps & Hp). assert (H0 : repr false None [] false c_new) by (split; reflexivity).
    destruct (absorb_repr _ _ _ _ Hp _ _ _ H0) as (line & H); [discriminate|]. cbn [app] in H. destruct (finish_repr _ _ closing _ _ _ H) as (-> & -> & ->). now constructor.
  - assert (H0 : repr true None [] false c_reset) by (split; reflexivity).
    destruct T as [|x T]; [constructor|]. inversion HT as [|? ? Hx HT']; subst. destruct x; try contradiction.
    + destruct (paragraphs_exist T HT') as (ps & Hp). assert (H1 : repr false (Some s) [] false (fst (c_flush (fst (c_line_comment c_reset s))))) by (split; reflexivity).
      destruct (absorb_repr _ _ _ _ Hp _ _ _ H1) as (line & H); [discriminate|]. cbn [app] in H. destruct (finish_repr _ _ closing _ _ _ H) as (-> & -> & ->). now constructor.
    + destruct (hd_newline T) as [[r ->]|Hn].
      * destruct (paragraphs_exist r (Forall_inv_tail HT')) as (ps & Hp). pose proof (block_repr _ _ _ _ _ s H0) as H1.
        destruct (absorb_repr _ _ _ _ Hp _ _ _ H1) as (line & H); [discriminate|]. cbn [app] in H. destruct (finish_repr _ _ closing _ _ _ H) as (-> & -> & ->). now apply at_block with (ps := ps).
      * replace (match T with TNewline :: r' => finish closing (absorb r' (fst (c_block_comment c_reset s))) | _ => c_reset end) with c_reset by (destruct T as [|[] T]; try reflexivity; exfalso; now apply Hn).
        now constructor.
    + destruct (paragraphs_exist T HT') as (ps & Hp). destruct (absorb_repr _ _ _ _ Hp _ _ _ H0) as (line & H); [discriminate|]. cbn [app] in H. destruct (finish_repr _ _ closing _ _ _ H) as (-> & -> & ->). now constructor.
Qed.
