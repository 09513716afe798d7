(** The text of a viable prefix: the source up to the unexpected token, a
    newline, and the remaining simple tokens written out, is read as the
    sentence the parser had in mind. *)
From Coq Require Import ZifyBool ZifyN.
From Verif Require Import Base Utf8 Utf8Spec Errors Lex LexSpec PropsLex1 LexSafe Stream PropsLex StrSpec PropsStr CommentSpec PropsComment Ast Comments Parse Grammar Classify SynSpec SpaceSpec Walk Insert Viable1 PropsAggregate.

Lemma scan_line_kind ideal c r sl : scan ideal (c :: r) = (KLine, sl) -> c = 35 /\ sl = 35 :: scan_line r \/ c = 47 /\ exists r', r = 47 :: r' /\ sl = 47 :: 47 :: scan_line r'.
Proof.
  assert (H : scan true (c :: r) = (KLine, sl) -> c = 35 /\ sl = 35 :: scan_line r \/ c = 47 /\ exists r', r = 47 :: r' /\ sl = 47 :: 47 :: scan_line r').
  { unfold scan. destruct (is_ident_start c); [discriminate|]. destruct (is_digit c).
    { unfold scan_number. cbv zeta. repeat match goal with |- context [if ?x then _ else _] => destruct x end; discriminate. }
    destruct ((c =? 39) || (c =? 34)); [discriminate|]. destruct ((c =? 46) && _); [discriminate|]. destruct (c =? 35) eqn:E35.
    - apply N.eqb_eq in E35. subst c. intros [= <-]. left. auto.
    - destruct ((c =? 47) && head_is 47 r) eqn:E; [|destruct ((c =? 47) && head_is 42 r); [intros Hx; discriminate Hx|]; destruct (punct c); intros Hx; discriminate Hx]. intros [= <-]. destruct r as [|d r]; [cbn in E; lia|]. cbn [head_is] in E.
      assert (c = 47 /\ d = 47) as [-> ->] by lia. right. eauto. }
  destruct ideal; [exact H|]. rewrite scan_false_eq. destruct (scan true (c :: r)) as [kd sl0]. destruct kd; try discriminate. exact H.
Qed.
Lemma hash_lexed k line l : ~ In 10 line -> exists v, lexed k true (35 :: line ++ 10 :: l) (TLineComment v) l.
Proof.
  intros H. change (35 :: line ++ 10 :: l) with ([] ++ 35 :: (line ++ 10 :: l)). unfold lexed. eexists. exists 0. eexists. split; [|split; [|]].
  - rewrite (lex_blanks k true [] 35 _ 0 (Forall_nil _) eq_refl). assert (Es : scan (munch_ideal k) (35 :: line ++ 10 :: l) = (KLine, 35 :: line ++ [10])) by (unfold scan; cbn -[scan_line app]; now rewrite (take_line _ _ H)).
    rewrite Es. cbv zeta. cbn [length skipn]. unfold cb_line. cbn [starts_with N.eqb Pos.eqb andb negb]. cbn [obind]. reflexivity.
  - reflexivity.
  - cbn [l_rest]. replace (line ++ 10 :: l) with ((line ++ [10]) ++ l) by now rewrite <- app_assoc. apply skip_app.
Qed.
Lemma lexed_add k m w l t rest : Forall blank w -> lexed k m l t rest -> exists z rest2, rest = z ++ rest2 /\ Forall blank z /\ lexed k m (w ++ l) t rest2.
Proof.
  intros Hw H. destruct (lexed_at k m l t rest (0 + len w) H) as (z & rest2 & s' & E1 & Hz & E & He & Hr). exists z, rest2. split; [exact E1|]. split; [exact Hz|]. exists 0, s'. rewrite (lex_skip k m w l 0 Hw). auto.
Qed.
(** A line comment that the end of the text closes is closed by a newline just as well. *)
Lemma line_open k m x v l : lexed k m x (TLineComment v) [] ->
  (exists u, x = u ++ [10]) \/ exists v' z rest, l = z ++ rest /\ Forall blank z /\ lexed k m (x ++ 10 :: l) (TLineComment v') rest.
Proof.
  intros (pos0 & s' & E & He & Hr).
  pose proof (tw_split is_skip x) as Et. pose proof (tw_after is_skip x) as Ha. assert (HW : Forall blank (take_while is_skip x)) by (apply is_skip_blank, take_while_all).
  set (W := take_while is_skip x) in *. set (y := skipn (length W) x) in *. destruct y as [|c r] eqn:Ey.
  { exfalso. unfold lex_next in E. cbn [canon l_rest l_end] in E. change (take_while is_skip x) with W in E. change (skipn (length W) x) with y in E. rewrite Ey in E. cbv zeta in E. discriminate E. }
  cbn [head_sat] in Ha. rewrite Et in E. rewrite (lex_blanks k m W c r pos0 HW Ha) in E. destruct (scan (munch_ideal k) (c :: r)) as [kd sl] eqn:Es. cbv zeta in E.
  destruct (scan_slice (munch_ideal k) c r) as (_ & s & Esl). rewrite Es in Esl. cbn [snd] in Esl. rewrite Esl, skip_app in E.
  assert (Hkd : kd = KLine).
  { destruct kd; try reflexivity; exfalso.
    - injection E as Hx _. discriminate Hx.
    - injection E as Hx _. discriminate Hx.
    - destruct (cb_int _ _ _ _ _) as [[? ?] ?]. injection E as Hx _. discriminate Hx.
    - destruct (cb_int _ _ _ _ _) as [[? ?] ?]. injection E as Hx _. discriminate Hx.
    - destruct (cb_int _ _ _ _ _) as [[? ?] ?]. injection E as Hx _. discriminate Hx.
    - destruct (cb_float _ _ _) as [? ?]. injection E as Hx _. discriminate Hx.
    - destruct (str_loop _ _ _ _ _ _) as [[[[? ?] ?] ?]| |]; cbn [obind] in E; discriminate E.
    - injection E as -> _. unfold scan in Es. destruct (is_ident_start c); [discriminate Es|]. destruct (is_digit c).
      { unfold scan_number in Es. cbv zeta in Es. repeat match type of Es with context [if ?x then _ else _] => destruct x end; discriminate Es. }
      destruct ((c =? 39) || (c =? 34)); [discriminate Es|]. destruct ((c =? 46) && _); [discriminate Es|]. destruct (c =? 35); [discriminate Es|]. destruct ((c =? 47) && head_is 47 r); [discriminate Es|]. destruct ((c =? 47) && head_is 42 r); [discriminate Es|].
      unfold punct in Es. repeat match type of Es with context [if ?x then _ else _] => destruct x; [discriminate Es|] end. discriminate Es.
    - destruct (block_loop _ _ _ _ _ _ _) as [[[[? ?] ?] ?]| |]; cbn [obind] in E; discriminate E.
    - discriminate E. }
  subst kd. destruct (cb_line m (pos0 + len W, pos0 + len W + len sl) sl) as [[v0 es]| |] eqn:Ei; cbn [obind] in E; try discriminate E. injection E as _ <-. cbn [l_rest l_errs] in Hr, He. subst es s.
  assert (Hfin : forall mk u, c :: r = mk ++ u -> sl = mk ++ scan_line u -> (exists u0, x = u0 ++ [10]) \/ ~ In 10 u).
  { intros mk u E1 E2. rewrite app_nil_r in Esl. rewrite E1, E2 in Esl. apply app_inv_head in Esl. destruct (scan_line_spec u) as (_ & [(Hu & Hno)|(ln & Eln & _)]).
    - right. intros Hi. apply Hno. now rewrite <- Esl.
    - left. exists (W ++ mk ++ ln). rewrite Et, E1, Esl, Eln, <- !app_assoc. reflexivity. }
  destruct (scan_line_kind _ _ _ _ Es) as [(-> & E2)|(-> & r' & -> & E2)].
  - destruct (Hfin [35] r eq_refl E2) as [Hx|Hn]; [now left|right]. assert (Hm : m = true). { unfold cb_line in Ei. cbv zeta in Ei. rewrite E2 in Ei. cbn [starts_with N.eqb Pos.eqb andb] in Ei. destruct m; [reflexivity|]. cbn [negb andb] in Ei. discriminate Ei. }
    subst m. destruct (hash_lexed k r l Hn) as (v' & Hv). destruct (lexed_add k true W _ _ _ HW Hv) as (z & rest & E3 & Hz & Hl). exists v', z, rest. split; [exact E3|]. split; [exact Hz|]. rewrite Et, <- app_assoc. exact Hl.
  - destruct (Hfin [47; 47] r' eq_refl E2) as [Hx|Hn]; [now left|right].
    destruct (line_lexed k m r' l Hn) as (v' & Hv). destruct (lexed_add k m W _ _ _ HW Hv) as (z & rest & E3 & Hz & Hl). exists v', z, rest. split; [exact E3|]. split; [exact Hz|]. rewrite Et, <- app_assoc. exact Hl.
Qed.

Section Text.
Variable k : cfg.
(** The text from [x] on, with what stands behind it cut off and replaced by a newline and [q], reads as [ts]. *)
Definition reads_on (u q : bytes) (ms : list bool) (x : bytes) (ts : list token) : Prop :=
  reads_as k ms (x ++ 10 :: q) ts /\ (x = [] -> reads_as k ms q ts).
Lemma reads_on_nil u q ms ts : reads_as k ms q ts -> reads_on u q ms [] ts.
Proof. intros H. split; [|auto]. eapply ra_trivia; [apply newline_lexed|reflexivity|exact H]. Qed.
Lemma lexed_cut u q m x0 x t : lexed k m (x0 ++ u) t (x ++ u) -> forall ms ts, reads_on u q ms x ts ->
  exists rest t', (t' = t \/ is_trivia t = true /\ is_trivia t' = true) /\ lexed k m (x0 ++ 10 :: q) t' rest /\ reads_as k ms rest ts.
Proof.
  intros H ms ts [H1 H2].
  assert (Hgo : ((exists v, t = TLineComment v) -> x ++ u = [] -> exists u0, x0 = u0 ++ [10]) -> exists rest t', (t' = t \/ is_trivia t = true /\ is_trivia t' = true) /\ lexed k m (x0 ++ 10 :: q) t' rest /\ reads_as k ms rest ts).
  { intros Hl. destruct (lexed_local k m x0 u (10 :: q) t x H) as (z & rest2 & Ez & Hz & _ & Hloc); [right; split; [reflexivity|exact Hl]|].
    destruct (Hloc 0) as (s2 & F1 & F2 & F3). exists rest2, t. split; [now left|]. split; [exists 0, s2; auto|]. apply (reads_drop k ms z); [exact Hz|]. rewrite <- Ez. exact H1. }
  destruct t as [| | | | | | | | | | | | | | | | | | | |v|v|] eqn:Et;
  try (apply Hgo; intros (v0 & Hx) _; discriminate Hx).
  destruct (x ++ u) as [|d y] eqn:Exu; [|apply Hgo; intros _ Hx; discriminate Hx]. apply app_eq_nil in Exu. destruct Exu as [-> ->]. rewrite app_nil_r in H. cbn [app] in *.
  destruct (line_open k m x0 v q H) as [Hx|(v' & z & rest & E1 & Hz & Hl)]; [apply Hgo; auto|]. exists rest, (TLineComment v'). split; [right; auto|]. split; [exact Hl|]. apply (reads_drop k ms z); [exact Hz|]. rewrite <- E1. auto.
Qed.
Lemma lexed_used m l t r : lexed k m l t r -> exists w, l = w ++ r /\ w <> [].
Proof. intros H. destruct (lexed_split _ _ _ _ _ H) as (w & used & E & _ & Hn). exists (w ++ used). split; [now rewrite <- app_assoc|]. destruct w, used; cbn; congruence. Qed.
Lemma trail_suffix m l r : trail k m l r -> exists w, l = w ++ r.
Proof.
  induction 1 as [|w r H (w0 & IH) Hw|r t r' H (w0 & IH) Hl Ht]; [exists []; reflexivity|exists (w0 ++ w); now rewrite <- app_assoc|].
  destruct (lexed_used _ _ _ _ Hl) as (w & E & _). exists (w0 ++ w). rewrite IH, E. now rewrite <- app_assoc.
Qed.
Lemma readto_suffix l TS r : readto k l TS r -> exists w, l = w ++ r.
Proof.
  induction 1 as [|ts r r1 r' t sp m H (w0 & IH) Htr Hl Ht]; [exists []; reflexivity|]. destruct (lexed_used _ _ _ _ Hl) as (w & E & _). destruct (trail_suffix _ _ _ Htr) as (w1 & E1). exists (w0 ++ w1 ++ w). rewrite IH, E1, E, <- !app_assoc. reflexivity.
Qed.
Lemma trail_cut u q m l r : trail k m l r -> forall x ms ts, hd false ms = m -> r = x ++ u -> reads_on u q ms x ts -> exists x0, l = x0 ++ u /\ reads_on u q ms x0 ts.
Proof.
  induction 1 as [|w r H IH Hw|r t r' H IH Hl Ht]; intros x ms ts Hm Er HR.
  - exists x. auto.
  - apply (IH (w ++ x) ms ts Hm); [rewrite Er; now rewrite app_assoc|]. destruct HR as [H1 H2]. apply is_skip_blank in Hw. split.
    + rewrite <- app_assoc. now apply reads_add.
    + intros E. apply app_eq_nil in E. tauto.
  - destruct (lexed_used _ _ _ _ Hl) as (w & E & Hn). subst r' r. rewrite app_assoc in Hl. destruct (lexed_cut u q m (w ++ x) x t Hl ms ts HR) as (rest & t' & Ht' & Hl2 & Hr2).
    apply (IH (w ++ x) ms ts Hm); [now rewrite app_assoc|]. split; [|intros E; apply app_eq_nil in E; destruct E; congruence].
    eapply ra_trivia; [rewrite Hm; exact Hl2| |exact Hr2]. destruct Ht' as [-> |[_ Ht']]; auto.
Qed.
Lemma readto_cut u q l TS r : readto k l TS r -> forall x ms ts, r = x ++ u -> reads_on u q ms x ts -> exists x0, l = x0 ++ u /\ reads_on u q (marks TS ++ ms) x0 (map tk_tok TS ++ ts).
Proof.
  induction 1 as [|TS r r1 r' t sp m H IH Htr Hl Ht]; intros x ms ts Er HR.
  - exists x. auto.
  - destruct (lexed_used _ _ _ _ Hl) as (w & E & Hn). subst r' r1. rewrite app_assoc in Hl. destruct (lexed_cut u q m (w ++ x) x t Hl ms ts HR) as (rest & t' & Ht' & Hl2 & Hr2).
    destruct Ht' as [-> |[Ht' _]]; [|congruence]. destruct (trail_cut u q m r _ Htr (w ++ x) (m :: ms) (t :: ts) eq_refl (app_assoc _ _ _)) as (x0 & E0 & HR0).
    { split; [eapply ra_tok; [exact Hl2|exact Ht|exact Hr2]|]. intros E; apply app_eq_nil in E; destruct E; congruence. }
    destruct (IH x0 _ _ E0 HR0) as (x1 & E1 & HR1). exists x1. split; [exact E1|]. unfold marks. rewrite !map_app, <- !app_assoc. exact HR1.
Qed.
(** ** Writing out the completion *)
Definition written (post : list tk) : bytes := flat_map (fun x => token_display k (tk_tok x) ++ [32]) post.
Lemma simple_plain t : is_simple t = true -> plain k t /\ (forall x, t <> TFloat x) /\ is_trivia t = false.
Proof.
  intros H. split; [|split; [intros x ->; discriminate H|destruct t; try reflexivity; discriminate H]]. destruct t; try exact I; try discriminate H; cbn [is_simple plain] in *.
  - apply ident_iff in H. destruct H as (c & r & -> & Hc & Hr). exists c, r. split; [reflexivity|]. split; [unfold letter, letter_ in *; lia|]. eapply Forall_impl; [|exact Hr]. intros a Ha. unfold word_char, letter, name_char, letter_, dec_digit in *. lia.
  - apply N.eqb_eq in H. subst. reflexivity.
  - apply orb_prop in H. destruct H as [H|H]; apply bytes_eqb_eq in H; subst; repeat constructor.
Qed.
Lemma written_reads post : Forall simple post -> reads_as k (marks post) (written post) (map tk_tok post).
Proof.
  induction 1 as [|x post Hx H IH]; [constructor; constructor|]. cbn [written flat_map map marks]. destruct (simple_plain _ Hx) as (Hp & Hf & Ht).
  destruct (relex k (tk_tok x) (canon (tk_mark x) (token_display k (tk_tok x) ++ 32 :: written post) 0) (32 :: written post) Hp (or_intror (ex_intro _ _ eq_refl)) eq_refl) as (t' & s' & E & Hr & He & _ & Hs).
  assert (Et : t' = tk_tok x) by (destruct Hs as [Hs|(y & y' & E1 & _)]; [congruence|destruct (Hf y E1)]). subst t'. rewrite <- app_assoc. cbn [app]. eapply ra_tok; [exists 0, s'; split; [exact E|split; [exact He|exact Hr]]|exact Ht|].
  apply (reads_add k _ [32]); [|exact IH]. apply is_skip_blank. reflexivity.
Qed.
End Text.
