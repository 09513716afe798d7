(** The first error of a run stays: only an unexpected token or end is ever the
    first error because the parser, not the lexer, reported it. *)
From Coq Require Import ZifyBool ZifyN.
From Verif Require Import Base Utf8 Errors Lex LexSpec.

(** The errors only the parser reports: an end inside a string or a comment is the lexer's. *)
Definition unx (e : perr) : bool :=
  match e with
  | UnexpectedToken _ _ _ => true
  | UnexpectedEof m => negb (bytes_eqb m (b "string terminator") || bytes_eqb m (b "comment terminator"))
  | _ => false
  end.
(** The first error stays; a first lexical error may only grow. *)
Definition keptx (x y : list perr) : Prop :=
  match x with
  | e :: _ => if unx e then hd_error y = Some e else exists e', hd_error y = Some e' /\ unx e' = false
  | [] => forall e, hd_error y = Some e -> unx e = false
  end.
Lemma keptx_refl x : keptx x x.
Proof. destruct x as [|e x]; cbn; [discriminate|]. destruct (unx e) eqn:E; eauto. Qed.
Lemma keptx_trans x y z : keptx x y -> keptx y z -> keptx x z.
Proof.
  destruct x as [|e x]; cbn [keptx].
  - destruct y as [|e y]; [auto|]. cbn [keptx hd_error]. intros H1. rewrite (H1 e eq_refl). intros (e' & H2 & H3) e2 He. congruence.
  - destruct (unx e) eqn:Ee; destruct y as [|e' y]; cbn [hd_error]; [discriminate|intros [= ->]; cbn [keptx]; rewrite Ee; auto|intros (? & ? & _); discriminate|].
    intros (e2 & [= <-] & H2). cbn [keptx]. now rewrite H2.
Qed.
Lemma keptx_app x es : Forall (fun e => unx e = false) es -> keptx x (x ++ es).
Proof.
  intros H. destruct x as [|e x]; cbn [keptx app hd_error].
  - destruct es as [|e es]; cbn; [discriminate|]. intros e' [= <-]. now apply Forall_inv in H.
  - destruct (unx e) eqn:E; eauto.
Qed.
Lemma keptx_last x e e' : unx e = false -> unx e' = false -> keptx (x ++ [e]) (x ++ [e']).
Proof. intros H H'. destruct x as [|e0 x]; cbn [app keptx hd_error]; [rewrite H; eauto|]. destruct (unx e0) eqn:E; eauto. Qed.
Lemma push_keptx es sl a z : keptx es (push_string_error es sl a z).
Proof.
  unfold push_string_error. cbv zeta. assert (Hf : keptx es (es ++ [if starts_with [92] sl then InvalidStringEscape (a, z) else InvalidStringCharacters (a, z)])).
  { apply keptx_app. constructor; [destruct (starts_with [92] sl); reflexivity|constructor]. }
  destruct (rev es) as [|e rb] eqn:Er; [exact Hf|]. assert (Ee : es = rev rb ++ [e]) by (rewrite <- (rev_involutive es), Er; reflexivity).
  destruct e; try exact Hf.
  all: destruct sp as [s0 e0]; destruct (e0 =? a); [|exact Hf]; rewrite Ee; apply keptx_last; reflexivity.
Qed.

Lemma str_keptx f : forall q off l acc es v fin r es', str_loop f q off l acc es = Done (v, fin, r, es') -> keptx es es'.
Proof.
  induction f as [|f IH]; intros q off l acc es v fin r es' E; [discriminate E|]. cbn [str_loop] in E. destruct l as [|c l].
  - injection E as _ _ _ <-. apply keptx_app. now repeat constructor.
  - destruct (str_comp (c :: l)) as [t|z sl|z sl|z sl|sl|]; try (eapply IH; exact E); [| |discriminate E].
    + destruct (z =? q); [injection E as _ _ _ <-; apply keptx_refl|eapply IH; exact E].
    + cbv zeta in E. destruct (existsb (N.eqb 10) sl); [injection E as _ _ _ <-; apply keptx_app; now repeat constructor|]. eapply keptx_trans; [apply push_keptx|eapply IH; exact E].
Qed.
Lemma block_keptx f : forall off l depth last acc es v fin r es', block_loop f off l depth last acc es = Done (v, fin, r, es') -> keptx es es'.
Proof.
  induction f as [|f IH]; intros off l depth last acc es v fin r es' E; [discriminate E|]. cbn [block_loop] in E. destruct l as [|c l].
  - destruct last as [[e0 r0]|]; injection E as _ _ _ <-; [apply keptx_refl|apply keptx_app; now repeat constructor].
  - destruct ((c =? 42) && head_is 47 l); [cbv zeta in E; destruct (depth =? 1); [injection E as _ _ _ <-; apply keptx_refl|eapply IH; exact E]|].
    destruct ((c =? 47) && head_is 42 l); [eapply keptx_trans; [|eapply IH; exact E]; apply keptx_app; now repeat constructor|]. destruct (c =? 10); eapply IH; exact E.
Qed.
Lemma lex_keptx k s r s' : lex_next k s = Done (r, s') -> keptx (l_errs s) (l_errs s').
Proof.
  unfold lex_next. cbv zeta. destruct (skipn _ (l_rest s)) as [|c l]; [intros [= _ <-]; apply keptx_refl|].
  destruct (scan (munch_ideal k) (c :: l)) as [kd sl].
  assert (Hi : forall rad pre st rest v es a, cb_int rad pre st sl rest = (v, es, a) -> Forall (fun e => unx e = false) es).
  { unfold cb_int. intros rad pre st rest v es a. cbv zeta. set (g := match rest with [] => _ | _ => _ end). assert (Hg : Forall (fun e => unx e = false) g) by (unfold g; destruct rest as [|d rest]; [constructor|]; destruct (is_alpha d || (d =? 95)); now repeat constructor). clearbody g.
    destruct (from_str_radix _ _); intros [= _ <- _]; try exact Hg; apply Forall_app; split; try exact Hg; now repeat constructor. }
  destruct kd.
  1,2,8,11: intros [= _ <-]; apply keptx_refl.
  1,2,3: destruct (cb_int _ _ _ _ _) as [[v es] a] eqn:E; intros [= _ <-]; apply keptx_app; eapply Hi; exact E.
  - destruct (cb_float _ _ _) as [v es] eqn:E; intros [= _ <-]; apply keptx_app. unfold cb_float in E. destruct (rev sl) as [|d ds]; [injection E as _ <-; constructor|]. destruct ((d =? 102) || (d =? 70)); [|injection E as _ <-; constructor]. destruct (l_tfm s); injection E as _ <-; now repeat constructor.
  - destruct (str_loop _ _ _ _ _ _) as [[[[v1 v2] v3] v4]| |] eqn:E; cbn [obind]; try discriminate. intros [= _ <-]. eapply str_keptx; exact E.
  - destruct (cb_line _ _ _) as [[v es]| |] eqn:E; cbn [obind]; try discriminate. intros [= _ <-]. apply keptx_app. unfold cb_line in E. cbv zeta in E.
    assert (Hl : Forall (fun e => unx e = false) (if negb (l_tfm s) && starts_with [35] sl then [HashCommentOutsideTextFormat (l_end s + len (take_while is_skip (l_rest s)), l_end s + len (take_while is_skip (l_rest s)) + len sl)] else [])) by (destruct (negb (l_tfm s) && _); now repeat constructor).
    destruct (starts_with [47; 47] sl); [injection E as _ <-; exact Hl|]. destruct (starts_with [35] sl); [injection E as _ <-; exact Hl|discriminate E].
  - destruct (block_loop _ _ _ _ _ _ _) as [[[[v1 v2] v3] v4]| |] eqn:E; cbn [obind]; try discriminate. intros [= _ <-]. eapply block_keptx; exact E.
Qed.
