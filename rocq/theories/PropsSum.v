(** C59: a file is the sum of its declarations. *)
From Coq Require Import ZifyBool ZifyN.
From Verif Require Import Base SynSpec Utf8 Errors Lex LexSpec PropsLex1 LexSafe Stream Ast Comments Parse Lines Descriptor Generate ParseApi Grammar Walk WalkG3 Meaning Erase AstWfG GenProofs PropsParse Complete1 Complete2 Complete3 PropsComplete Insert ViableText Weaken Ends SumSpec StrSpec PropsStr PropsAggregate.

(** ** Reading two texts one after the other *)
Lemma hd_two (ms ms2 : list bool) : hd false ms2 = false -> hd false (ms ++ ms2) = hd false ms.
Proof. destruct ms; auto. Qed.
Lemma reads_two k l ms ts : reads_as k ms l ts -> forall q ms2 ts2, hd false ms2 = false -> reads_as k ms2 q ts2 -> reads_as k (ms ++ ms2) (l ++ 10 :: q) (ts ++ ts2).
Proof.
  intros H q ms2 ts2 Hm H2. enough (Hc : reads_on k [] q (ms ++ ms2) l (ts ++ ts2)) by exact (proj1 Hc).
  induction H as [l Hl|ms l t rest ts H Ht Hr IH|m ms l t rest ts H Ht Hr IH].
  - split; [|intros ->; exact H2]. apply (reads_add k ms2 l); [exact Hl|]. eapply ra_trivia; [apply newline_lexed|reflexivity|exact H2].
  - destruct (lexed_used _ _ _ _ _ H) as (w & E & Hn). subst l. split; [|intros E; apply app_eq_nil in E; tauto].
    rewrite <- (app_nil_r (w ++ rest)) in H. rewrite <- (app_nil_r rest) in H at 2.
    destruct (lexed_cut k [] q (hd false ms) (w ++ rest) rest t H _ _ IH) as (rest' & t' & Ht' & Hl & Hr').
    eapply ra_trivia; [rewrite (hd_two ms ms2 Hm); exact Hl| |exact Hr']. destruct Ht' as [-> |[_ Ht']]; auto.
  - destruct (lexed_used _ _ _ _ _ H) as (w & E & Hn). subst l. split; [|intros E; apply app_eq_nil in E; tauto].
    rewrite <- (app_nil_r (w ++ rest)) in H. rewrite <- (app_nil_r rest) in H at 2.
    destruct (lexed_cut k [] q m (w ++ rest) rest t H _ _ IH) as (rest' & t' & Ht' & Hl & Hr'). destruct Ht' as [-> |[Ht' _]]; [|congruence].
    eapply ra_tok; [exact Hl|exact Ht|exact Hr'].
Qed.

(** ** The syntax line *)
Lemma lexed_det k m m' l t t' r r' : lexed k m l t r -> (forall pos, exists s', lex_next k (canon m' l pos) = Done (Some (Some t'), s') /\ l_rest s' = r') -> t = t' /\ r = r'.
Proof.
  intros (pos & s & E & _ & Hr) H. destruct (H pos) as (s' & E' & Hr'). 
  destruct (lex_next_lexes k (canon m l pos)) as (x & s2 & L). pose proof (lx_eq _ _ _ _ L) as E2. rewrite E in E2. injection E2 as <- <-.
  destruct (lx_same _ _ _ _ L (canon m' l pos) eq_refl eq_refl) as (c2 & E3 & R1 & _). rewrite E' in E3. split; congruence.
Qed.
Definition syntax_line (sx : syntax) : bytes := match sx with Proto2 => proto2_line | Proto3 => proto3_line end.
Lemma line1 k sx l pos : exists s', lex_next k (canon false (syntax_line sx ++ l) pos) = Done (Some (Some (kw "syntax")), s') /\ l_rest s' = b " = """ ++ syntax_text sx ++ b """;" ++ l.
Proof.
  destruct (relex k (kw "syntax") (canon false (syntax_line sx ++ l) pos) (b " = """ ++ syntax_text sx ++ b """;" ++ l)) as (t' & s' & E & Hr & _ & _ & Hs).
  - exists 115, (b "yntax"). split; [reflexivity|]. split; [unfold letter_; lia|]. cbn. repeat (apply Forall_cons; [unfold name_char, letter_, dec_digit; lia|]). apply Forall_nil.
  - right. eexists. reflexivity.
  - destruct sx; reflexivity.
  - exists s'. destruct Hs as [<-|(x & y & Hx & _)]; [auto|discriminate Hx].
Qed.
Lemma line2 k sx l pos : exists s', lex_next k (canon false (b " = """ ++ syntax_text sx ++ b """;" ++ l) pos) = Done (Some (Some TEquals), s') /\ l_rest s' = b " """ ++ syntax_text sx ++ b """;" ++ l.
Proof.
  change (b " = """ ++ syntax_text sx ++ b """;" ++ l) with ([32] ++ 61 :: b " """ ++ syntax_text sx ++ b """;" ++ l). rewrite lex_blanks; [|constructor; [cbn; auto 10|constructor]|reflexivity].
  unfold scan. cbn [is_ident_start]. eexists. split; reflexivity.
Qed.
Lemma line3 k sx l pos : exists s', lex_next k (canon false (b " """ ++ syntax_text sx ++ b """;" ++ l) pos) = Done (Some (Some (TStr (syntax_text sx))), s') /\ l_rest s' = b ";" ++ l.
Proof.
  change (b " """ ++ syntax_text sx ++ b """;" ++ l) with ([32] ++ 34 :: syntax_text sx ++ 34 :: b ";" ++ l). rewrite lex_drop; [|constructor; [cbn; auto 10|constructor]|reflexivity].
  destruct (C10_string_complete k (canon false (34 :: syntax_text sx ++ 34 :: b ";" ++ l) (pos + len [32])) 34 (syntax_text sx) (syntax_text sx) (b ";" ++ l)) as (s' & E & Hr & _).
  - right. reflexivity.
  - replace (syntax_text sx) with (flat_map ascii_escape_default (syntax_text sx)) at 1 by (destruct sx; reflexivity). apply escape_default_all. destruct sx; cbn; repeat (apply Forall_cons; [lia|]); apply Forall_nil.
  - reflexivity.
  - eauto.
Qed.
Lemma line4 k l pos : exists s', lex_next k (canon false (b ";" ++ l) pos) = Done (Some (Some TSemicolon), s') /\ l_rest s' = l.
Proof.
  change (b ";" ++ l) with ([] ++ 59 :: l). rewrite lex_blanks; [|constructor|reflexivity]. eexists. split; reflexivity.
Qed.

(** The syntax line is read first, whatever follows it. *)
Lemma reads_line k sx ms l ts : reads_as k ms (syntax_line sx ++ l) ts -> exists m1 m2 m3 m4 ms' ts', ms = m1 :: m2 :: m3 :: m4 :: ms' /\
  ts = kw "syntax" :: TEquals :: TStr (syntax_text sx) :: TSemicolon :: ts' /\ reads_as k ms' l ts'.
Proof.
  assert (Hstep : forall ms l t r ts, (forall pos, exists s', lex_next k (canon false l pos) = Done (Some (Some t), s') /\ l_rest s' = r) -> is_trivia t = false -> reads_as k ms l ts ->
    exists m ms' ts', ms = m :: ms' /\ ts = t :: ts' /\ reads_as k ms' r ts').
  { clear. intros ms l t r ts H Ht HR. inversion HR as [l0 Hb|ms0 l0 t0 rest ts0 H1 H2 H3|m ms0 l0 t0 rest ts0 H1 H2 H3]; subst.
    - destruct (H 0) as (s' & E & _). destruct (blank_end k false l 0 Hb) as (s2 & E2). congruence.
    - destruct (lexed_det _ _ _ _ _ _ _ _ H1 H) as [-> ->]. congruence.
    - destruct (lexed_det _ _ _ _ _ _ _ _ H1 H) as [-> ->]. eauto 10. }
  intros H. destruct (Hstep _ _ _ _ _ (line1 k sx l) eq_refl H) as (m1 & ms1 & ts1 & -> & -> & H1). destruct (Hstep _ _ _ _ _ (line2 k sx l) eq_refl H1) as (m2 & ms2 & ts2 & -> & -> & H2).
  destruct (Hstep _ _ _ _ _ (line3 k sx l) eq_refl H2) as (m3 & ms3 & ts3 & -> & -> & H3). destruct (Hstep _ _ _ _ _ (line4 k l) eq_refl H3) as (m4 & ms4 & ts4 & -> & -> & H4). eauto 20.
Qed.
Lemma statement_first {C : comspec} k ts x : g_statement k ts x -> exists t sp ts', ts = (t, sp, false) :: ts' /\ t <> kw "syntax".
Proof. intros H. destruct H as [sp|ts x H|ts x H|ts x H|ts x H|ts x H|ts x H|ts x H]; [|destruct H..]; eexists _, _, _; (split; [reflexivity|discriminate]). Qed.
Lemma statements_hd {C : comspec} k ts l : g_many (g_statement k) ts l -> hd false (marks ts) = false.
Proof. intros H. destruct H as [|ts a ts' l H _]; [reflexivity|]. destruct (statement_first k _ _ H) as (t & sp & r & -> & _). reflexivity. Qed.
Lemma string_first ts v : g_string ts v -> exists w sp ts', ts = (TStr w, sp, false) :: ts' /\ (ts' = [] /\ st_val v = w \/ exists w' sp' ts'', ts' = (TStr w', sp', false) :: ts'').
Proof.
  intros H. destruct H as [v sp|v sp ts r H]; [eexists _, _, _; split; [reflexivity|left; auto]|]. eexists _, _, _. split; [reflexivity|]. right. destruct H; eexists _, _, _; reflexivity.
Qed.
Lemma file_line {C : comspec} k ss sx' sxs ts l sx rest : g_syntax ss sx' sxs -> g_many (g_statement k) ts l ->
  map tk_tok (ss ++ ts) = kw "syntax" :: TEquals :: TStr (syntax_text sx) :: TSemicolon :: rest ->
  sx' = sx /\ map tk_tok ts = rest /\ exists x1 x2 x3 x4, ss = [x1; x2; x3; x4].
Proof.
  intros Hs Hm E. destruct Hs as [|st sp sts v e c sx0 Hstr Hv _].
  - exfalso. destruct Hm as [|ts a ts' l H _]; [discriminate E|]. destruct (statement_first k _ _ H) as (t & sp & r & -> & Hn). cbn in E. apply Hn. congruence.
  - destruct (string_first _ _ Hstr) as (w & sp1 & ts1 & -> & [[-> Ew]|(w' & sp' & ts2 & ->)]); cbn [app sym map tk_tok fst] in E.
    + assert (E1 : w = syntax_text sx) by congruence. assert (E2 : map tk_tok ts = rest) by congruence. split; [|split; [exact E2|eexists _, _, _, _; reflexivity]]. rewrite Ew, E1 in Hv. destruct sx, sx0; try reflexivity; discriminate Hv.
    + congruence.
Qed.

(** ** The sum of two meanings *)
Lemma kind_indices_shift ik l : forall i, kind_indices ik i l = map (fun j => (Z.of_N i + j)%Z) (kind_indices ik 0 l).
Proof.
  induction l as [|im l IH]; intros i; [reflexivity|]. cbn [kind_indices]. rewrite map_app. f_equal.
  - destruct (is_kind ik im); [|reflexivity]. cbn [map]. f_equal. lia.
  - rewrite (IH (i + 1)), (IH (0 + 1)), map_map. apply map_ext. intros j. lia.
Qed.
Lemma kind_indices_app ik l m : kind_indices ik 0 (l ++ m) = kind_indices ik 0 l ++ map (fun j => (Z.of_nat (length l) + j)%Z) (kind_indices ik 0 m).
Proof.
  assert (H : forall i, kind_indices ik i (l ++ m) = kind_indices ik i l ++ kind_indices ik (i + N.of_nat (length l)) m).
  { induction l as [|im l IH]; intros i; cbn [app kind_indices length]; [f_equal; lia|]. rewrite IH, <- app_assoc. do 3 f_equal. lia. }
  rewrite H, (kind_indices_shift ik m). f_equal. apply map_ext. intros j. lia.
Qed.
Lemma all_app {A} (p : A -> Prop) l m : all p (l ++ m) <-> all p l /\ all p m.
Proof. induction l as [|x l IH]; cbn [app all]; [tauto|]. rewrite IH. tauto. Qed.
Lemma nonempty_app {A} (l m : list A) : nonempty (l ++ m) = opt_app (nonempty l) (nonempty m).
Proof. destruct l; [destruct m; reflexivity|]. destruct m; cbn; [now rewrite app_nil_r|reflexivity]. Qed.

(** ** C59 *)
(** [p] is a file, [q] a list of declarations that is accepted under a syntax line; both have the same
    syntax and at most one of them a package. Then [p], a newline and [q] are accepted, and
    the descriptor has the declarations of [p] followed by those of [q]. *)
Theorem C59_sum k s1 s2 s3 name p q sx dp ap dq aq : len (p ++ [10] ++ q) <= i32_max ->
  parse k s1 name p = Done (inl dp, ap) -> parse k s2 name (syntax_line sx ++ q) = Done (inl dq, aq) ->
  d_syntax dp = d_syntax dq -> (d_package dp = None \/ d_package dq = None) ->
  exists d a, parse k s3 name (p ++ [10] ++ q) = Done (inl d, a) /\ with_source_info d None = file_sum dp dq.
Proof.
  intros Hn Ep Eq Hsx Hpk. destruct (parse_ok_inv _ _ _ _ _ _ Ep) as (_ & f & Hf & Hokf & (lf & _ & ->)). destruct (parse_ok_inv _ _ _ _ _ _ Eq) as (_ & g & Hg & Hokg & (lg & _ & ->)).
  destruct (accepted_lexes _ _ _ Hf) as (tsf & Gf & Lf1 & Lf2). destruct (accepted_lexes _ _ _ Hg) as (tsg & Gg & Lg1 & Lg2).
  destruct (mclean_reads _ _ _ _ Lf2) as (tf & Rf & Tf). destruct (mclean_reads _ _ _ _ Lg2) as (tg & Rg & Tg).
  assert (Ef : tf = map tk_tok tsf). { unfold tokens_of in Tf. rewrite Lf1, <- map_map in Tf. clear -Tf. revert tf Tf. induction (map tk_tok tsf) as [|x l IH]; intros [|y tf] E; try discriminate; [reflexivity|]. cbn in E. injection E as <- E. f_equal. auto. }
  assert (Eg : tg = map tk_tok tsg). { unfold tokens_of in Tg. rewrite Lg1, <- map_map in Tg. clear -Tg. revert tg Tg. induction (map tk_tok tsg) as [|x l IH]; intros [|y tf] E; try discriminate; [reflexivity|]. cbn in E. injection E as <- E. f_equal. auto. }
  subst tf tg. destruct (reads_line _ _ _ _ _ Rg) as (m1 & m2 & m3 & m4 & ms' & ts' & Ems & Ets & Rq).
  destruct Gf as [ssf sxf sxsf tsf lf0 pkf Sf Mf Pf]. destruct Gg as [ssg sxg sxsg tsg lg0 pkg Sg Mg Pg].
  destruct (file_line k _ _ _ _ _ _ _ Sg Mg Ets) as (-> & <- & x1 & x2 & x3 & x4 & ->). cbn [app marks map] in Ems. injection Ems as _ _ _ _ Ems. fold (marks tsg) in Ems. subst ms'.
  pose proof (statements_hd k _ _ Mg) as Hhd. pose proof (reads_two k p _ _ Rf q _ _ Hhd Rq) as R. destruct (reads_mclean k _ _ _ 0 R) as [R1 R2].
  set (any := any_comments). assert (W : forall C a e c, @com C a e c -> @com any a e c) by (intros; exact I).
  assert (Sf' := w_syntax _ any (W _) _ _ _ Sf). assert (Mf' := w_statements _ any (W _) k _ _ Mf). assert (Mg' := w_statements _ any (W _) k _ _ Mg).
  assert (Happ : forall ts l, g_many (@g_statement any k) ts l -> g_many (@g_statement any k) (ts ++ tsg) (l ++ lg0)).
  { clear -Mg'. induction 1 as [|ts a ts' l H H1 IH]; [exact Mg'|]. rewrite <- app_assoc. cbn [app]. now constructor. }
  assert (M' := Happ _ _ Mf'). set (pk := or_else pkf pkg).
  assert (Epk : flat_map st_packages (lf0 ++ lg0) = match pk with Some x => [x] | None => [] end).
  { rewrite flat_map_app, Pf, Pg. cbn [with_source_info den_file d_package fi_package] in Hpk. unfold pk. destruct pkf, pkg; try reflexivity. destruct Hpk; discriminate. }
  assert (Hsx' : sxf = sx). { cbn [with_source_info den_file d_syntax fi_syntax] in Hsx. destruct sxf, sx; try reflexivity; discriminate Hsx. } subst sxf.
  pose proof (@g_fi any k 0 _ _ _ _ _ pk Sf' M' Epk) as G.
  destruct (C04_complete (CS := any) k s3 name (p ++ [10] ++ q) 0 _ _ Hn G) as (d & a & E & Ed).
  - unfold tokens_of in R2. cbn [app] in R2 |- *. rewrite R2, <- map_app, map_map, app_assoc. reflexivity.
  - cbn [app] in R1 |- *. unfold marks in *. rewrite <- map_app, <- app_assoc in R1. exact R1.
  - cbn [fi_syntax] in *. destruct Hokf as [H1 H2], Hokg as [H3 H4]. cbn [fi_items fi_options] in *. split; cbn [fi_items fi_options]; rewrite flat_map_app; [apply all_app; auto|]. unfold ok_options in *. apply all_app; auto.
  - exists d, a. split; [exact E|]. rewrite Ed. unfold file_sum, den_file. cbn [with_source_info d_name d_package d_dependency d_public d_weak d_message d_enum d_service d_extension d_options d_source_info d_syntax fi_syntax fi_package fi_imports fi_options fi_items].
    f_equal; try (now rewrite !flat_map_app).
    + unfold pk. destruct pkf; reflexivity.
    + now rewrite flat_map_app, map_app.
    + now rewrite flat_map_app, kind_indices_app, map_length.
    + now rewrite flat_map_app, kind_indices_app, map_length.
    + unfold den_options. now rewrite flat_map_app, map_app, nonempty_app.
Qed.
Print Assumptions C59_sum.

(** In particular declarations can be moved: with the two parts in the other order the same messages,
    enums, services, extensions, imports and options are declared, in the other order. *)
Theorem C59_either_order k s1 s2 s3 s4 name p q sx dp ap dq aq : len (syntax_line sx ++ p ++ [10] ++ q) <= i32_max ->
  parse k s1 name (syntax_line sx ++ p) = Done (inl dp, ap) -> parse k s2 name (syntax_line sx ++ q) = Done (inl dq, aq) ->
  (d_package dp = None \/ d_package dq = None) ->
  exists d a d' a', parse k s3 name (syntax_line sx ++ p ++ [10] ++ q) = Done (inl d, a) /\ parse k s4 name (syntax_line sx ++ q ++ [10] ++ p) = Done (inl d', a') /\
    with_source_info d None = file_sum dp dq /\ with_source_info d' None = file_sum dq dp.
Proof.
  intros Hn Ep Eq Hpk.
  assert (Hx : forall s t d a, parse k s name (syntax_line sx ++ t) = Done (inl d, a) -> d_syntax d = match sx with Proto2 => None | Proto3 => Some (b "proto3") end).
  { clear. intros s t d a E. destruct (parse_ok_inv _ _ _ _ _ _ E) as (_ & g & Hg & Hokg & (lg & _ & ->)). destruct (accepted_lexes _ _ _ Hg) as (tsg & Gg & Lg1 & Lg2).
    destruct (mclean_reads _ _ _ _ Lg2) as (tg & Rg & Tg). destruct (reads_line _ _ _ _ _ Rg) as (m1 & m2 & m3 & m4 & ms' & ts' & _ & -> & _).
    destruct Gg as [ss sx' sxs ts l pk Sg Mg Pg]. unfold tokens_of in Tg. rewrite Lg1, <- map_map in Tg.
    assert (Ets : map tk_tok (ss ++ ts) = kw "syntax" :: TEquals :: TStr (syntax_text sx) :: TSemicolon :: ts').
    { clear -Tg. revert Tg. generalize (kw "syntax" :: TEquals :: TStr (syntax_text sx) :: TSemicolon :: ts'). induction (map tk_tok (ss ++ ts)) as [|x u IH]; intros [|y v] E; try discriminate; [reflexivity|]. cbn in E. injection E as <- E. f_equal. auto. }
    destruct (file_line k _ _ _ _ _ _ _ Sg Mg Ets) as (-> & _). reflexivity. }
  pose proof (Hx _ _ _ _ Ep) as Sp. pose proof (Hx _ _ _ _ Eq) as Sq.
  destruct (C59_sum k s1 s2 s3 name (syntax_line sx ++ p) q sx dp ap dq aq) as (d & a & E & Ed); [rewrite <- app_assoc; exact Hn|exact Ep|exact Eq|congruence|exact Hpk|].
  destruct (C59_sum k s2 s1 s4 name (syntax_line sx ++ q) p sx dq aq dp ap) as (d' & a' & E' & Ed'); [rewrite <- app_assoc; rewrite !len_app in *; clear -Hn; revert Hn; generalize i32_max; intros; lia|exact Eq|exact Ep|congruence|tauto|].
  rewrite <- app_assoc in E, E'. exists d, a, d', a'. auto.
Qed.
Print Assumptions C59_either_order.

(** ** The other direction *)
Lemma lexed_same k m m' l t t' r r' : lexed k m l t r -> lexed k m' l t' r' -> t = t' /\ exists z z' r0, r = z ++ r0 /\ r' = z' ++ r0 /\ Forall blank z /\ Forall blank z'.
Proof.
  intros H H'. destruct (lexed_at k m l t r 0 H) as (z & r0 & s0 & E & Hz & E0 & _ & Er). destruct (lexed_at k m' l t' r' 0 H') as (z' & r0' & s0' & E' & Hz' & E0' & _ & Er').
  destruct (lx_same _ _ _ _ (lexes_det _ _ _ _ E0) (canon m' l 0) eq_refl eq_refl) as (s2 & F & F1 & _). rewrite E0' in F. injection F as <- <-. split; [reflexivity|].
  exists z, z', r0. rewrite E'. repeat split; auto. congruence.
Qed.
Lemma reads_step k MS l m t r TS : lexed k m l t r -> reads_as k MS l TS ->
  if is_trivia t then reads_as k MS r TS else exists m' MS' TS', MS = m' :: MS' /\ TS = t :: TS' /\ reads_as k MS' r TS'.
Proof.
  intros H HR. inversion HR as [l1 Hb|ms0 l1 t0 rest ts0 H1 H2 H3|m1 ms0 l1 t0 rest ts0 H1 H2 H3]; subst.
  - destruct H as (pos & s' & E & _). destruct (blank_end k m l pos Hb) as (s2 & E2). congruence.
  - destruct (lexed_same _ _ _ _ _ _ _ _ H H1) as [-> (z & z' & r0 & -> & -> & Hz & Hz')]. rewrite H2. apply reads_add; [exact Hz|]. eapply reads_drop; [exact Hz'|exact H3].
  - destruct (lexed_same _ _ _ _ _ _ _ _ H H1) as [-> (z & z' & r0 & -> & -> & Hz & Hz')]. rewrite H2. eexists _, _, _. split; [reflexivity|]. split; [reflexivity|]. apply reads_add; [exact Hz|]. eapply reads_drop; [exact Hz'|exact H3].
Qed.
Lemma lexed_longer k m l t rest q : lexed k m l t rest -> exists t' rest' z, (t' = t \/ is_trivia t = true /\ is_trivia t' = true) /\
  lexed k m (l ++ 10 :: q) t' rest' /\ Forall blank z /\ (rest ++ 10 :: q = z ++ rest' \/ rest = [] /\ q = z ++ rest').
Proof.
  intros H.
  assert (Hgo : ((exists v, t = TLineComment v) -> rest = [] -> exists u0, l = u0 ++ [10]) -> exists t' rest' z, (t' = t \/ is_trivia t = true /\ is_trivia t' = true) /\
    lexed k m (l ++ 10 :: q) t' rest' /\ Forall blank z /\ (rest ++ 10 :: q = z ++ rest' \/ rest = [] /\ q = z ++ rest')).
  { intros Hl. destruct (lexed_local k m l [] (10 :: q) t rest) as (z & rest2 & Ez & Hz & _ & Hloc); [now rewrite !app_nil_r|right; split; [reflexivity|now rewrite app_nil_r]|].
    destruct (Hloc 0) as (s2 & F1 & F2 & F3). exists t, rest2, z. split; [now left|]. split; [exists 0, s2; auto|]. auto. }
  destruct t as [| | | | | | | | | | | | | | | | | | | |v|v|] eqn:Et; try (apply Hgo; intros (v0 & Hx) _; discriminate Hx).
  destruct rest as [|d y]; [|apply Hgo; intros _ Hx; discriminate Hx].
  destruct (line_open k m l v q H) as [Hx|(v' & z & rest & E1 & Hz & Hl)]; [apply Hgo; auto|]. exists (TLineComment v'), rest, z. split; [right; auto|]. auto.
Qed.
Lemma reads_split k l ms ts : reads_as k ms l ts -> forall MS TS q, reads_as k MS (l ++ 10 :: q) TS \/ l = [] /\ reads_as k MS q TS ->
  exists ms1 ms2 ts2, MS = ms1 ++ ms2 /\ length ms1 = length ts /\ TS = ts ++ ts2 /\ reads_as k ms2 q ts2.
Proof.
  induction 1 as [l Hl|ms l t rest ts H Ht Hr IH|m ms l t rest ts H Ht Hr IH]; intros MS TS q HR.
  - exists [], MS, TS. repeat split; auto. destruct HR as [HR|[_ HR]]; [|exact HR]. apply (reads_drop k MS l _ _ Hl) in HR. exact (reads_step k MS (10 :: q) false TNewline q TS (newline_lexed k false q) HR).
  - destruct HR as [HR|[-> _]]; [|destruct (lexed_used _ _ _ _ _ H) as (w & E & Hn); destruct w; [congruence|discriminate E]].
    destruct (lexed_longer _ _ _ _ _ q H) as (t' & rest' & z & Ht' & Hlex & Hz & Er). pose proof (reads_step _ _ _ _ _ _ _ Hlex HR) as K. replace (is_trivia t') with true in K by (destruct Ht' as [-> |[_ ->]]; auto).
    apply (reads_add k MS z _ _ Hz) in K. apply (IH MS TS q). destruct Er as [-> |[-> ->]]; auto.
  - destruct HR as [HR|[-> _]]; [|destruct (lexed_used _ _ _ _ _ H) as (w & E & Hn); destruct w; [congruence|discriminate E]].
    destruct (lexed_longer _ _ _ _ _ q H) as (t' & rest' & z & Ht' & Hlex & Hz & Er). pose proof (reads_step _ _ _ _ _ _ _ Hlex HR) as K. destruct Ht' as [-> |[Ht' _]]; [|congruence]. rewrite Ht in K. destruct K as (m' & MS' & TS' & -> & -> & K).
    apply (reads_add k MS' z _ _ Hz) in K. destruct (IH MS' TS' q) as (ms1 & ms2 & ts2 & -> & El & -> & R2); [destruct Er as [-> |[-> ->]]; auto|]. exists (m' :: ms1), ms2, ts2. cbn [length app]. auto.
Qed.

(** The syntax line can be put before any text. *)
Lemma line_reads k sx ms l ts : reads_as k ms l ts -> reads_as k (false :: false :: false :: false :: ms) (syntax_line sx ++ l) (kw "syntax" :: TEquals :: TStr (syntax_text sx) :: TSemicolon :: ts).
Proof.
  intros H. apply ra_tok with (rest := b " = """ ++ syntax_text sx ++ b """;" ++ l); [|reflexivity|apply ra_tok with (rest := b " """ ++ syntax_text sx ++ b """;" ++ l); [|reflexivity|apply ra_tok with (rest := b ";" ++ l); [|reflexivity|apply ra_tok with (rest := l); [|reflexivity|exact H]]]].
  - destruct (relex k (kw "syntax") (canon false (syntax_line sx ++ l) 0) (b " = """ ++ syntax_text sx ++ b """;" ++ l)) as (t' & s' & E & Hr & He & _ & Hs).
    + exists 115, (b "yntax"). split; [reflexivity|]. split; [unfold letter_; lia|]. cbn. repeat (apply Forall_cons; [unfold name_char, letter_, dec_digit; lia|]). apply Forall_nil.
    + right. eexists. reflexivity.
    + destruct sx; reflexivity.
    + exists 0, s'. destruct Hs as [<-|(x & y & Hx & _)]; [auto|discriminate Hx].
  - exists 0. change (b " = """ ++ syntax_text sx ++ b """;" ++ l) with ([32] ++ 61 :: b " """ ++ syntax_text sx ++ b """;" ++ l). rewrite lex_blanks; [|constructor; [cbn; auto 10|constructor]|reflexivity].
    unfold scan. cbn [is_ident_start]. eexists. split; [reflexivity|]. split; reflexivity.
  - exists 0. change (b " """ ++ syntax_text sx ++ b """;" ++ l) with ([32] ++ 34 :: syntax_text sx ++ 34 :: b ";" ++ l). rewrite lex_drop; [|constructor; [cbn; auto 10|constructor]|reflexivity].
    destruct (C10_string_complete k (canon false (34 :: syntax_text sx ++ 34 :: b ";" ++ l) (0 + len [32])) 34 (syntax_text sx) (syntax_text sx) (b ";" ++ l)) as (s' & E & Hr & He & _).
    + right. reflexivity.
    + replace (syntax_text sx) with (flat_map ascii_escape_default (syntax_text sx)) at 1 by (destruct sx; reflexivity). apply escape_default_all. destruct sx; cbn; repeat (apply Forall_cons; [lia|]); apply Forall_nil.
    + reflexivity.
    + eauto.
  - exists 0. change (b ";" ++ l) with ([] ++ 59 :: l). rewrite lex_blanks; [|constructor|reflexivity]. eexists. split; [reflexivity|]. split; reflexivity.
Qed.

(** An accepted file that begins with an accepted file: what follows is, under the same syntax line, an
    accepted file, and the descriptor is the sum of the two; not both have a package. *)
Theorem C59_cut k s1 s2 s3 name p q sx dp ap d a :
  parse k s1 name (syntax_line sx ++ p) = Done (inl dp, ap) -> parse k s2 name (syntax_line sx ++ p ++ [10] ++ q) = Done (inl d, a) ->
  exists dq aq, parse k s3 name (syntax_line sx ++ q) = Done (inl dq, aq) /\ (d_package dp = None \/ d_package dq = None) /\ with_source_info d None = file_sum dp dq.
Proof.
  intros Ep E. destruct (parse_ok_inv _ _ _ _ _ _ Ep) as (_ & f & Hf & _ & (lf & _ & Edp)). destruct (parse_ok_inv _ _ _ _ _ _ E) as (Hn & g & Hg & Hokg & _).
  destruct (accepted_lexes _ _ _ Hf) as (tsf & Gf & Lf1 & Lf2). destruct (accepted_lexes _ _ _ Hg) as (tsg & Gg & Lg1 & Lg2).
  destruct (mclean_reads _ _ _ _ Lf2) as (tf & Rf & Tf). destruct (mclean_reads _ _ _ _ Lg2) as (tg & Rg & Tg).
  assert (Hsome : forall (x y : list token), map Some x = map Some y -> x = y). { induction x as [|u x IH]; intros [|v y] Exy; try discriminate; [reflexivity|]. cbn in Exy. injection Exy as <- Exy. f_equal. auto. }
  assert (Ef : tf = map tk_tok tsf) by (apply Hsome; rewrite <- Tf; unfold tokens_of; rewrite Lf1, map_map; reflexivity).
  assert (Eg : tg = map tk_tok tsg) by (apply Hsome; rewrite <- Tg; unfold tokens_of; rewrite Lg1, map_map; reflexivity).
  subst tf tg. destruct (reads_line _ _ _ _ _ Rf) as (? & ? & ? & ? & msf & tf' & Emf & Etf & Rp). destruct (reads_line _ _ _ _ _ Rg) as (? & ? & ? & ? & msg & tg' & Emg & Etg & Rpq).
  destruct Gf as [ssf sxf sxsf tsf lf0 pkf Sf Mf Pf]. destruct Gg as [ssg sxg sxsg tsg lg0 pkg Sg Mg Pg].
  destruct (file_line k _ _ _ _ _ _ _ Sf Mf Etf) as (-> & <- & ? & ? & ? & ? & ->). destruct (file_line k _ _ _ _ _ _ _ Sg Mg Etg) as (-> & <- & y1 & y2 & y3 & y4 & ->).
  cbn [app marks map] in Emg. injection Emg as _ _ _ _ Emg. fold (marks tsg) in Emg. subst msg. cbn [app] in Rpq.
  destruct (reads_split k p _ _ Rp _ _ q (or_introl Rpq)) as (ms1 & ms2 & ts2 & Em & El & Et & Rq).
  destruct (statements_cut k _ _ Mf _ _ _ Mg Et) as (T1 & T2 & L1 & L2 & -> & -> & M1 & M2 & K1 & K2 & K3).
  assert (ms2 = marks T2) as ->.
  { assert (length ms1 = length (marks T1)) as El' by (unfold marks; rewrite map_length, El, <- K1, !map_length; reflexivity). unfold marks in Em, El' |- *. rewrite map_app in Em. clear -Em El'. revert ms1 Em El'. induction (map tk_mark T1) as [|u v IH]; intros [|c ms1] Em El'; try discriminate; [now cbn in Em|]. cbn [app] in Em. injection Em as _ Em. cbn in El'. eapply IH; eauto. }
  rewrite <- K2 in Rq. pose proof (line_reads k sx _ _ _ Rq) as R. destruct (reads_mclean k _ _ _ 0 R) as [R1 R2].
  set (any := any_comments). assert (W : forall C a e c, @com C a e c -> @com any a e c) by (intros; exact I).
  assert (M2' := w_statements _ any (W _) k _ _ M2).
  rewrite flat_map_app in Pg. assert (Hpk : exists pk, flat_map st_packages L2 = match pk with Some x => [x] | None => [] end /\ (pkf = None \/ pk = None)).
  { rewrite Pf in K3. destruct (flat_map st_packages L2) as [|xp u]; [exists None; auto|]. exists (Some xp). destruct (flat_map st_packages L1) as [|v w]; cbn [app] in Pg.
    - destruct pkg; [|discriminate Pg]. injection Pg as -> ->. split; [reflexivity|]. destruct pkf; [discriminate K3|auto].
    - destruct pkg; [|discriminate Pg]. injection Pg as _ Pg. destruct w; discriminate Pg. }
  destruct Hpk as (pk & Epk & Hpk).
  assert (Sx : exists ss sxs, @g_syntax any ss sx sxs /\ marks ss = [false; false; false; false] /\ map tk_tok ss = [kw "syntax"; TEquals; TStr (syntax_text sx); TSemicolon]).
  { eexists _, _. split; [apply (@g_sx any (0, 0) (0, 0) (sym (TStr (syntax_text sx)) (0, 0)) {| st_val := syntax_text sx; st_span := (0, 0) |} (0, 0) {| ac_detached := []; ac_leading := None; ac_trailing := None |} sx); [constructor|reflexivity|exact I]|]. split; reflexivity. }
  destruct Sx as (ss & sxs & Sx & Hmk & Htk). pose proof (@g_fi any k 0 _ _ _ _ _ pk Sx M2' Epk) as G.
  assert (Hn' : len (syntax_line sx ++ q) <= i32_max) by (clear -Hn; rewrite !len_app in *; revert Hn; generalize i32_max; intros; lia).
  destruct (C04_complete (CS := any) k s3 name (syntax_line sx ++ q) 0 _ _ Hn' G) as (dq & aq & Eq & Edq).
  - unfold tokens_of in R2. rewrite R2, <- (map_map tk_tok Some), map_app, Htk. reflexivity.
  - unfold marks in *. rewrite map_app, Hmk. exact R1.
  - cbn [fi_syntax] in *. destruct Hokg as [H1 H2]. cbn [fi_items fi_options] in *. rewrite flat_map_app in H1, H2. unfold ok_options in H2. apply all_app in H1, H2. split; cbn [fi_items fi_options]; [exact (proj2 H1)|exact (proj2 H2)].
  - assert (Hd : d_package dp = None \/ d_package dq = None).
    { destruct Hpk as [-> | ->]; [left; rewrite Edp; reflexivity|right]. apply (f_equal d_package) in Edq. exact Edq. }
    exists dq, aq. split; [exact Eq|]. split; [exact Hd|].
    assert (Hx : d_syntax dp = d_syntax dq). { apply (f_equal d_syntax) in Edq. rewrite Edp. symmetry. exact Edq. }
    destruct (C59_sum k s1 s3 s2 name (syntax_line sx ++ p) q sx dp ap dq aq) as (d' & a' & E' & Ed'); [rewrite <- app_assoc; exact Hn|exact Ep|exact Eq|exact Hx|exact Hd|].
    rewrite <- app_assoc, E in E'. injection E' as -> _. exact Ed'.
Qed.
Print Assumptions C59_cut.

(** The hypotheses are met; the newline is needed after a line comment, and the indices of imports move on. *)
Definition c59_p : bytes := b "syntax = 'proto2'; package a.b; import ""x.proto""; import public ""y.proto""; message M { optional N n = 1; } // end of the first part".
Definition c59_q : bytes := b "import weak ""z.proto""; option java_package = 'j'; enum E { A = 0; } message N { } extend M { optional int32 i = 5; } service S { rpc R (M) returns (N); }".
Example C59_example :
  ok_result c59_p = true /\ ok_result (syntax_line Proto2 ++ c59_q) = true /\
  match parse ex_k0 loc_sort (b "x.proto") c59_p, parse ex_k0 loc_sort (b "x.proto") (syntax_line Proto2 ++ c59_q), parse ex_k0 loc_sort (b "x.proto") (c59_p ++ [10] ++ c59_q) with
  | Done (inl dp, _), Done (inl dq, _), Done (inl d, _) =>
      d_syntax dp = d_syntax dq /\ d_package dq = None /\ with_source_info d None = file_sum dp dq /\
      d_dependency d = [b "x.proto"; b "y.proto"; b "z.proto"] /\ d_public d = [1%Z] /\ d_weak d = [2%Z] /\ length (d_message d) = 2%nat
  | _, _, _ => False
  end.
Proof. vm_compute. auto 10. Qed.
(** Two packages do not add up. *)
Example C59_two_packages : ok_result (b "package a;") = true /\ ok_result (syntax_line Proto2 ++ b "package b;") = true /\ ok_result (b "package a;" ++ [10] ++ b "package b;") = false.
Proof. vm_compute. auto. Qed.
(** The hypotheses of [C59_cut] are met; the first part ends in an option with a braced value and a comment. *)
Definition c59_r : bytes := b " package a.b; message M { optional N n = 1; } option (o) = { x: 1.5f # ; }" ++ [10] ++ b "}; // end of the first part".
Example C59_cut_example : ok_result (syntax_line Proto2 ++ c59_r) = true /\ ok_result (syntax_line Proto2 ++ c59_r ++ [10] ++ c59_q) = true.
Proof. vm_compute. auto. Qed.
(** Without the syntax line of the first part it does not hold: the empty text is accepted, and a syntax declaration after it. *)
Example C59_cut_syntax : ok_result [] = true /\ ok_result ([] ++ [10] ++ proto3_line) = true /\ ok_result (syntax_line Proto3 ++ proto3_line) = false.
Proof. vm_compute. auto. Qed.
