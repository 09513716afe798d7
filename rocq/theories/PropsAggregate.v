(** C12: the text of an aggregate option value lexes to the tokens written
    between its braces. *)
From Coq Require Import ZifyBool ZifyN.
From Verif Require Import Base SynSpec Utf8 Errors Lex Ast Comments Parse Lines Descriptor Generate ParseApi LexSpec PropsLex1 LexSafe Stream PropsLex Utf8Spec StrSpec PropsStr CommentSpec PropsComment.
From Verif Require Import Grammar Walk WalkG3 Meaning AstWf AstWfG GenProofs PropsParse DescSpec DescLemmas DescWf Decimal PropsDesc PropsDesc2 PropsTokens AstOpts PropsOpts.

(** ** Specification *)

(** What is assumed of the printing of doubles ([Display for Token] prints a
    float token with [{}] or [{:.1}]): the double which the text [x] denotes is
    finite. Rust prints it with decimal digits and a point, and as a text that
    denotes the same double (so that it is printed the same way). *)
Definition prints_finite (k : cfg) (x : bytes) : Prop :=
  let t := f64_display k false x in
  (exists i f, t = i ++ b "." ++ f /\ i <> [] /\ Forall dec_digit i /\ Forall dec_digit f) /\ f64_display k false t = t.

(** The same token; float tokens are the same if they denote the same double. *)
Definition same_token (k : cfg) (t t' : token) : Prop :=
  t = t' \/ exists x y, t = TFloat x /\ t' = TFloat y /\ f64_display k false x = f64_display k false y.

(** Lexing [text] from the start, in text-format mode, gives these tokens, and no error. *)
Definition lexes_to (k : cfg) (text : bytes) (ts : list token) : Prop :=
  exists us s', lex_all k (canon true text 0) = Done (us, s') /\ map fst us = map Some ts /\ l_errs s' = [].

(** ** Printing and reading tokens *)
Definition plain (k : cfg) (t : token) : Prop :=
  match t with
  | TIdent s => identifier s
  | TInt n => n < 2 ^ 64
  | TFloat x => prints_finite k x
  | TStr v => Forall (fun c => c < 256) v
  | TLineComment _ | TBlockComment _ | TNewline => False
  | _ => True
  end.

Lemma hex_char_digit n : n < 16 -> hex_digit (hex_char n) /\ digit_of (hex_char n) = n.
Proof. intros H. unfold hex_digit, hex_char, digit_of. destruct (N.ltb_spec n 10); repeat match goal with |- context [if ?x then _ else _] => destruct x eqn:? end; lia. Qed.
Lemma escape_default_decodes c r v : c < 256 -> decodes 34 r v -> decodes 34 (ascii_escape_default c ++ r) (c :: v).
Proof.
  intros Hc H. assert (Hs : forall a x, In (a, x) simple_escapes -> decodes 34 ([92; N_of_ascii a] ++ r) (x :: v)) by (intros a x Hin; cbn [app]; now apply dc_simple).
  unfold ascii_escape_default.
  destruct (N.eqb_spec c 9) as [->|]; [apply (Hs "t"%char); cbn; tauto|]. destruct (N.eqb_spec c 13) as [->|]; [apply (Hs "r"%char); cbn; tauto|].
  destruct (N.eqb_spec c 10) as [->|]; [apply (Hs "n"%char); cbn; tauto|]. destruct (N.eqb_spec c 39) as [->|]; [apply (Hs "'"%char); cbn; tauto|].
  destruct (N.eqb_spec c 34) as [->|]; [apply (Hs "034"%char); cbn; tauto|]. destruct (N.eqb_spec c 92) as [->|]; [apply (Hs "\"%char); cbn; tauto|].
  destruct (in_range 32 126 c) eqn:E.
  - unfold in_range in E. cbn [app]. apply dc_raw; auto; lia.
  - assert (D : c / 16 < 16) by (apply N.div_lt_upper_bound; lia). pose proof (N.mod_lt c 16 ltac:(discriminate)) as M. pose proof (N.div_mod' c 16) as E2.
    destruct (hex_char_digit _ D) as [A1 A2]. destruct (hex_char_digit _ M) as [B1 B2].
    assert (En : numeral 16 [hex_char (c / 16); hex_char (c mod 16)] = c). { unfold numeral. cbn [fold_left]. rewrite A2, B2. revert E2. clear. generalize (c / 16) (c mod 16). intros. lia. }
    pose proof (dc_hex 34 120 [hex_char (c / 16); hex_char (c mod 16)] r v) as Hx. rewrite En in Hx. apply Hx; [left; reflexivity|cbn; lia|auto|now left|exact H].
Qed.
Lemma escape_default_all v : Forall (fun c => c < 256) v -> decodes 34 (flat_map ascii_escape_default v) v.
Proof. induction 1 as [|c v Hc H IH]; cbn [flat_map]; [constructor|]. now apply escape_default_decodes. Qed.

Lemma decimal_numeral ds : Forall (fun c => 48 <= c <= 57) ds -> decimal_value ds = numeral 10 ds.
Proof.
  intros H. unfold decimal_value, numeral. generalize 0. induction H as [|c ds Hc H IH]; intros a; [reflexivity|]. cbn [fold_left]. rewrite IH. f_equal. f_equal. unfold digit_of.
  repeat match goal with |- context [if ?x then _ else _] => destruct x eqn:? end; lia.
Qed.
Lemma dec_literal n : int_literal (dec n) n.
Proof.
  destruct (dec_decimal n) as (H1 & H2 & H3 & H4). destruct (dec n) as [|c ds] eqn:E; [congruence|]. destruct (N.eq_dec c 48) as [->|Hc].
  - rewrite (H4 ds eq_refl) in *. unfold decimal_value in H3. cbn in H3. subst n. exact il_zero.
  - rewrite <- H3, decimal_numeral by auto. apply il_dec; auto.
Qed.

Definition gap (rest : bytes) : Prop := rest = [] \/ exists r, rest = 32 :: r.
Lemma gap_sat f rest : gap rest -> f 32 = false -> head_sat f rest = false.
Proof. intros [->|(r & ->)] H; auto. Qed.
Lemma gap_starts p rest : gap rest -> ~ p 32 -> ~ starts p rest.
Proof. intros [->|(r & ->)] H (c & t & E & Hc); [discriminate|]. injection E as <- <-. auto. Qed.
Lemma lex_blank k s r : lex_next k {| l_rest := 32 :: r; l_start := l_start s; l_end := l_end s; l_errs := l_errs s; l_tfm := l_tfm s; l_assert := l_assert s |} =
  lex_next k {| l_rest := r; l_start := l_start s; l_end := l_end s + 1; l_errs := l_errs s; l_tfm := l_tfm s; l_assert := l_assert s |}.
Proof.
  unfold lex_next. cbn [l_rest l_end l_errs l_tfm l_assert take_while]. change (is_skip 32) with true. cbn [length skipn]. rewrite len_cons.
  replace (l_end s + (1 + len (take_while is_skip r))) with (l_end s + 1 + len (take_while is_skip r)) by lia. reflexivity.
Qed.
Lemma tw_all_gap f l rest : forallb f l = true -> gap rest -> f 32 = false -> take_while f (l ++ rest) = l.
Proof.
  intros H G F. rewrite take_while_prefix by auto. replace (take_while f rest) with (@nil N); [apply app_nil_r|]. destruct G as [->|(r & ->)]; [reflexivity|]. cbn. now rewrite F.
Qed.
Lemma digits_iff l : Forall dec_digit l <-> forallb is_digit l = true.
Proof. unfold dec_digit, is_digit, in_range. rewrite forallb_forall, Forall_forall. split; intros H x Hx; specialize (H x Hx); lia. Qed.

(** One token. *)
Lemma relex k t s rest : plain k t -> gap rest -> l_rest s = token_display k t ++ rest ->
  exists t' s', lex_next k s = Done (Some (Some t'), s') /\ l_rest s' = rest /\ l_errs s' = l_errs s /\ l_tfm s' = l_tfm s /\ same_token k t t'.
Proof.
  intros Hp G Hs.
  assert (Htf : forall t' s', lex_next k s = Done (Some (Some t'), s') -> l_tfm s' = l_tfm s) by (intros t' s' E; apply (lx_tfm _ _ _ _ (lexes_det _ _ _ _ E))).
  assert (Hpunct : forall c, token_display k t = [c] -> is_skip c = false -> is_ident_start c = false -> is_digit c = false -> (c =? 39) || (c =? 34) = false -> (c =? 35) = false -> (c = 10 -> False) -> punct c = Some t ->
    exists t' s', lex_next k s = Done (Some (Some t'), s') /\ l_rest s' = rest /\ l_errs s' = l_errs s /\ l_tfm s' = l_tfm s /\ same_token k t t').
  { intros c Ec S1 S2 S3 S4 S5 S6 S7. exists t. unfold lex_next. rewrite Hs, Ec. cbn [app take_while]. rewrite S1. cbn [length skipn]. unfold scan. rewrite S2, S3, S4, S5.
    rewrite (gap_sat is_digit rest G eq_refl), Bool.andb_false_r. replace (head_is 47 rest) with false by (destruct G as [->|(r & ->)]; reflexivity). replace (head_is 42 rest) with false by (destruct G as [->|(r & ->)]; reflexivity).
    rewrite !Bool.andb_false_r, S7. cbn [length skipn]. eexists. split; [reflexivity|]. cbn. repeat split; auto. now left. }
  destruct t as [v|n|x|v| | | | | | | | | | | | | | | | | | |]; cbn [plain] in Hp; try contradiction;
    try (match goal with |- context [same_token k ?u] => let c := eval vm_compute in (hd 0 (token_display ex_k u)) in apply (Hpunct c); (reflexivity || discriminate) end).
  - (* identifier *) destruct Hp as (c & r & -> & Hc & Hr). cbn [token_display] in Hs. exists (TIdent (c :: r)). unfold lex_next. rewrite Hs. cbn [app take_while].
    apply ident_start_iff in Hc. replace (is_skip c) with false by (symmetry; unfold is_skip, is_ident_start, is_alpha, is_upper, is_lower, in_range in *; lia). cbn [length skipn]. unfold scan. rewrite Hc.
    apply ident_chars in Hr. rewrite (tw_all_gap _ _ _ Hr G eq_refl). eexists. split; [reflexivity|]. cbn [l_rest l_errs l_tfm length]. cbn [skipn]. rewrite skip_app. repeat split; auto. now left.
  - (* integer *) cbn [token_display] in Hs. destruct (C08_int_complete k (dec n) n rest s (dec_literal n) Hp) as (s' & E & E1 & E2 & _); auto.
    { apply gap_starts; auto. unfold letter_, dec_digit. lia. } exists (TInt n), s'. repeat split; eauto. now left.
  - (* float *) cbn [token_display] in Hs. destruct Hp as [(i & f & Et & Hi & Di & Df) He]. exists (TFloat (f64_display k false x)). apply digits_iff in Di, Df.
    destruct i as [|c i]; [congruence|]. rewrite Et in Hs. unfold lex_next. rewrite Hs. cbn [app take_while]. assert (Hc : is_digit c = true) by (cbn [forallb] in Di; now apply andb_prop in Di).
    replace (is_skip c) with false by (symmetry; unfold is_skip, is_digit, in_range in *; lia). cbn [length skipn]. unfold scan. replace (is_ident_start c) with false by (symmetry; unfold is_digit, is_ident_start, is_alpha, is_upper, is_lower, in_range in *; lia). rewrite Hc.
    assert (Esc : scan_number (munch_ideal k) (c :: (i ++ b "." ++ f) ++ rest) = (KFloat, f64_display k false x)).
    { rewrite Et. unfold scan_number. change (c :: (i ++ b "." ++ f) ++ rest) with ((c :: (i ++ b "." ++ f)) ++ rest). replace ((c :: i ++ b "." ++ f) ++ rest) with ((c :: i) ++ 46 :: f ++ rest) by (cbn [app]; f_equal; rewrite <- app_assoc; reflexivity).
      rewrite tw_digits_app by auto. rewrite skip_app. cbn [head_is]. change (46 =? 46) with true. cbv iota. cbn [tl]. f_equal.
      unfold scan_frac. rewrite (tw_all_gap _ _ _ Df G eq_refl), skip_app. replace (scan_exponent rest) with (@nil N) by (destruct G as [->|(r & ->)]; reflexivity). cbn [length skipn].
      replace (scan_fsuffix rest) with (@nil N) by (destruct G as [->|(r & ->)]; reflexivity). rewrite !app_nil_r. reflexivity. }
    rewrite Esc. cbn [app] in Et |- *.
    assert (Eb : forall sp, cb_float (l_tfm s) sp (f64_display k false x) = (f64_display k false x, [])).
    { intros sp. unfold cb_float. rewrite Et. change (c :: i ++ b "." ++ f) with ((c :: i) ++ b "." ++ f). rewrite app_assoc, rev_app_distr. destruct (rev f) as [|z g] eqn:Ef.
      - apply (f_equal (@rev _)) in Ef. rewrite rev_involutive in Ef. subst f. rewrite rev_app_distr. reflexivity.
      - cbn [app]. assert (Hz : is_digit z = true) by (eapply forallb_forall; [exact Df|]; apply in_rev; rewrite Ef; now left). replace ((z =? 102) || (z =? 70)) with false by (symmetry; unfold is_digit, in_range in Hz; lia). reflexivity. }
    rewrite Eb. eexists. split; [reflexivity|]. cbn [l_rest l_errs l_tfm]. repeat split.
    + replace (c :: (i ++ b "." ++ f) ++ rest) with (f64_display k false x ++ rest) by (rewrite Et; cbn [app]; rewrite <- app_assoc; reflexivity). apply skip_app.
    + apply app_nil_r.
    + right. exists x, (f64_display k false x). auto.
  - (* string *) cbn [token_display app] in Hs. destruct (C10_string_complete k s 34 (flat_map ascii_escape_default v) v rest) as (s' & E & E1 & E2 & _); auto; [right; reflexivity|now apply escape_default_all| |].
    { rewrite Hs, <- app_assoc. reflexivity. } exists (TStr v), s'. repeat split; eauto. now left.
Qed.

(** ** The text of an aggregate *)
Lemma display_nonempty k t : plain k t -> token_display k t <> [].
Proof.
  intros Hp E. destruct t as [v|n|x|v| | | | | | | | | | | | | | | | | | |]; cbn [plain token_display] in *; try contradiction; try discriminate.
  - destruct Hp as (c & r & -> & _). discriminate.
  - destruct (dec_decimal n) as (H & _). rewrite E in H. cbn in H. auto.
  - destruct Hp as [(i & f & Et & Hi & _) _]. rewrite E in Et. destruct i; [congruence|discriminate].
Qed.
Lemma agg_fold k ts : Forall (plain k) ts -> forall acc, acc <> [] ->
  fold_left (fun acc t => (match acc with [] => [] | _ => acc ++ b " " end) ++ token_display k t) ts acc = acc ++ flat_map (fun t => 32 :: token_display k t) ts.
Proof.
  induction 1 as [|t ts Ht Hts IH]; intros acc Ha; cbn [fold_left flat_map]; [now rewrite app_nil_r|]. rewrite IH.
  - destruct acc as [|c acc]; [congruence|]. rewrite <- !app_assoc. reflexivity.
  - destruct acc as [|c acc]; [congruence|]. discriminate.
Qed.
Lemma agg_cons k t ts : Forall (plain k) (t :: ts) -> aggregate_text k (t :: ts) = token_display k t ++ flat_map (fun t => 32 :: token_display k t) ts.
Proof. intros H. inversion H; subst. unfold aggregate_text. cbn [fold_left app]. apply agg_fold; auto. now apply display_nonempty. Qed.
Lemma flat_gap k ts : gap (flat_map (fun t => 32 :: token_display k t) ts).
Proof. destruct ts; [now left|right]. cbn. eauto. Qed.
Lemma lex_flat k ts : Forall (plain k) ts -> forall s, l_rest s = flat_map (fun t => 32 :: token_display k t) ts ->
  exists ts' us s', lex_all k s = Done (us, s') /\ map fst us = map Some ts' /\ l_errs s' = l_errs s /\ Forall2 (same_token k) ts ts'.
Proof.
  induction 1 as [|t ts Ht Hts IH]; intros s Hs.
  - exists [], [], {| l_rest := []; l_start := l_end s; l_end := l_end s; l_errs := l_errs s; l_tfm := l_tfm s; l_assert := l_assert s |}.
    assert (E : lex_next k s = Done (None, {| l_rest := []; l_start := l_end s; l_end := l_end s; l_errs := l_errs s; l_tfm := l_tfm s; l_assert := l_assert s |})).
    { unfold lex_next. rewrite Hs. cbn. now rewrite N.add_0_r. }
    rewrite (lex_all_step _ _ _ _ E). repeat split; auto.
  - cbn [flat_map] in Hs. set (s1 := {| l_rest := token_display k t ++ flat_map (fun t => 32 :: token_display k t) ts; l_start := l_start s; l_end := l_end s + 1; l_errs := l_errs s; l_tfm := l_tfm s; l_assert := l_assert s |}).
    destruct (relex k t s1 _ Ht (flat_gap k ts) eq_refl) as (t' & s2 & E & E1 & E2 & E3 & E4).
    assert (E0 : lex_next k s = Done (Some (Some t'), s2)). { rewrite <- E. unfold s1. rewrite <- lex_blank. change (32 :: token_display k t ++ flat_map (fun t => 32 :: token_display k t) ts) with ((32 :: token_display k t) ++ flat_map (fun t => 32 :: token_display k t) ts). rewrite <- Hs. f_equal. clear. destruct s. reflexivity. }
    destruct (IH s2 E1) as (ts' & us & s' & F & F1 & F2 & F3). exists (t' :: ts'), ((Some t', (l_start s2, l_end s2)) :: us), s'. rewrite (lex_all_step _ _ _ _ E0), F. cbn [obind map fst]. rewrite F1, F2, E2. repeat split; auto.
Qed.

(** A list of tokens (no comments, no newlines, floats finite) printed as an aggregate lexes to the same tokens. *)
Theorem C12_relex k ts : Forall (plain k) ts -> exists ts', lexes_to k (aggregate_text k ts) ts' /\ Forall2 (same_token k) ts ts'.
Proof.
  destruct ts as [|t ts]; intros H.
  - exists []. split; [|constructor]. exists [], (canon true [] 0). split; [|auto]. vm_compute. reflexivity.
  - rewrite (agg_cons _ _ _ H). inversion H as [|? ? Ht Hts]; subst.
    destruct (relex k t (canon true (token_display k t ++ flat_map (fun t => 32 :: token_display k t) ts) 0) _ Ht (flat_gap k ts) eq_refl) as (t' & s2 & E & E1 & E2 & E3 & E4).
    destruct (lex_flat k ts Hts s2 E1) as (ts' & us & s' & F & F1 & F2 & F3). exists (t' :: ts'). split; [|constructor; auto]. exists ((Some t', (l_start s2, l_end s2)) :: us), s'.
    rewrite (lex_all_step _ _ _ _ E), F. cbn [obind map fst]. rewrite F1, F2, E2. auto.
Qed.
Print Assumptions C12_relex.

(** ** Tokens of a file are plain *)
Lemma simple_small c x : In (c, x) simple_escapes -> x < 256.
Proof. intros H. cbn in H. repeat destruct H as [H|H]; try (injection H as <- <-; lia). destruct H. Qed.
Lemma digit_of_hex c : hex_digit c -> digit_of c < 16.
Proof. unfold hex_digit, digit_of. intros H. repeat match goal with |- context [if ?x then _ else _] => destruct x eqn:? end; lia. Qed.
Lemma decodes_small q body v : decodes q body v -> Forall (fun c => c < 256) body -> Forall (fun c => c < 256) v.
Proof.
  induction 1 as [|c r v H1 H2 H3 H4 H IH|c x r v Hs H IH|x ds r v Hx Hl Hd Hn H IH|ds r v Hl Hd Hn Hv H IH|u n ds bs r v Hu Hl Hd Hs H8 H IH]; intros Hb; auto.
  - inversion Hb; subst. auto.
  - inversion Hb as [|? ? _ Hb1]; inversion Hb1; subst. constructor; auto. eapply simple_small; eauto.
  - inversion Hb as [|? ? _ Hb1]; inversion Hb1 as [|? ? _ Hb2]; subst. apply Forall_app in Hb2. constructor; [|tauto]. destruct ds as [|a [|c [|e ds]]]; cbn [length] in Hl; try lia; unfold numeral; cbn [fold_left].
    + inversion Hd; subst. pose proof (digit_of_hex _ ltac:(eassumption)). lia.
    + inversion Hd as [|? ? Ha Hd1]; inversion Hd1; subst. pose proof (digit_of_hex _ Ha). pose proof (digit_of_hex c ltac:(eassumption)). lia.
  - inversion Hb as [|? ? _ Hb1]; subst. apply Forall_app in Hb1. constructor; tauto.
  - inversion Hb as [|? ? _ Hb1]; inversion Hb1 as [|? ? _ Hb2]; subst. apply Forall_app in Hb2. apply Forall_app. split; [|tauto]. clear -H8. destruct H8; repeat constructor; lia.
Qed.
Lemma written_plain k src m t sp : Forall (fun c => c < 256) src -> written_at k src m t sp -> significant (Some t, sp) = true -> (forall x, t = TFloat x -> prints_finite k x) -> plain k t.
Proof.
  intros Hb (bf & lx & af & E & _ & H) Hs Hf. destruct t as [v|n|x|v| | | | | | | | | | | | | | | | | | |]; cbn [plain written] in *; auto; try discriminate.
  - destruct H as (-> & H & _). exact H.
  - destruct H as [(_ & H & _)|(_ & -> & _)]; [exact H|]. vm_compute. reflexivity.
  - destruct H as (q & body & -> & _ & Hd). apply (decodes_small _ _ _ Hd). rewrite E in Hb. apply Forall_app in Hb. destruct Hb as [_ Hb]. apply Forall_app in Hb. destruct Hb as [Hb _]. inversion Hb as [|? ? _ Hb1]; subst. apply Forall_app in Hb1. tauto.
Qed.
Lemma sigs_significant l x : In x (sigs l) -> significant x = true.
Proof. unfold sigs. intros H. apply filter_In in H. tauto. Qed.

(** A token list is part of another one. *)
Definition part_of (all ts : list tk) : Prop := exists before after, all = before ++ ts ++ after.
Lemma part_app all ts us : part_of all (ts ++ us) -> part_of all ts /\ part_of all us.
Proof. intros (x & y & ->). split; [exists x, (us ++ y)|exists (x ++ ts), y]; now rewrite <- ?app_assoc. Qed.
Lemma drop_called_In n l (o : optbody) : In o (drop_called n l) -> In o l.
Proof. induction l as [|x l IH]; cbn [drop_called]; auto. destruct (called n x); cbn; intuition. Qed.
Lemma kept_in (fd : field) o : In o (kept_options fd) -> In o (optlist_options (fd_options fd)).
Proof. unfold kept_options. intros H. apply drop_called_In in H. now apply drop_called_In in H. Qed.
Lemma q_written (Q : optbody -> Prop) f o : q_file Q f -> written_option f o -> Q o.
Proof.
  intros Hf Hw. assert (S : forall l o, q_options Q l -> In o (statement_options l) -> Q o).
  { intros l x Hl Hx. unfold statement_options in Hx. apply in_map_iff in Hx. destruct Hx as (y & <- & Hy). unfold q_options in Hl. rewrite Forall_forall in Hl. auto. }
  assert (L : forall l o, q_optlist Q l -> In o (optlist_options l) -> Q o).
  { intros [l|] x Hl Hx; [|destruct Hx]. cbn in Hl. rewrite Forall_forall in Hl. auto. }
  destruct Hw as [o H|bd o Hb H|bd x o Hb Hx H|bd x o Hb Hx H|sc fd o Hd H|e o He H|e v o He Hv H|s o Hs H|s m o Hs Hm H].
  - eapply S; [apply Hf|exact H].
  - apply (q_of _ _ _ Hf), q_body_inv in Hb. eapply S; [apply Hb|exact H].
  - apply (q_of _ _ _ Hf), q_body_inv in Hb. eapply L; [|exact H]. apply (all_In _ _ _ (proj1 (proj2 Hb)) Hx).
  - apply (q_of _ _ _ Hf), q_body_inv in Hb. eapply S; [|exact H]. unfold source_oneofs in Hx. apply in_flat_map in Hx. destruct Hx as (it & Hi & Hx). apply (all_In _ _ _ (proj1 Hb)) in Hi.
    destruct it; try destruct Hx as [<-|[]]; try destruct Hx. apply Hi.
  - apply (q_decl _ _ _ _ Hf) in Hd. eapply L; [apply Hd|]. now apply kept_in.
  - apply (q_enum_decl _ _ _ Hf) in He. eapply S; [apply He|exact H].
  - apply (q_enum_decl _ _ _ Hf) in He. destruct He as [He _]. rewrite Forall_forall in He. eapply L; [apply He; exact Hv|exact H].
  - assert (Hq : q_service Q s). { unfold source_services in Hs. apply in_flat_map in Hs. destruct Hs as (it & Hi & Hx). destruct Hf as [Hf _]. rewrite Forall_forall in Hf. apply Hf in Hi. destruct it; try destruct Hx as [<-|[]]; try destruct Hx. exact Hi. }
    eapply S; [apply Hq|exact H].
  - assert (Hq : q_service Q s). { unfold source_services in Hs. apply in_flat_map in Hs. destruct Hs as (it & Hi & Hx). destruct Hf as [Hf _]. rewrite Forall_forall in Hf. apply Hf in Hi. destruct it; try destruct Hx as [<-|[]]; try destruct Hx. exact Hi. }
    destruct Hq as [Hq _]. rewrite Forall_forall in Hq. eapply S; [apply Hq; exact Hm|exact H].
Qed.

(** The aggregate value of an option in a descriptor: the option is written in the
    file, its value as a brace, tokens in which braces are balanced, and the brace
    matching the first; lexing the text again gives the tokens between the braces
    (if the floats among them are finite). *)
Theorem C12_aggregates k sort name src d a u text : parse k sort name src = Done (inl d, a) -> Forall (fun c => c < 256) src ->
  option_of d u -> uo_aggregate u = Some text ->
  exists f o before st (toks : list (token * span)) e after,
    accepted k src f /\ written_option f o /\ option_means o u /\ ob_value o = OVAggregate text (join_span st e) /\
    sigs (stream k src 0) = before ++ [(Some TLeftBrace, st)] ++ map (fun x => (Some (fst x), snd x)) toks ++ [(Some TRightBrace, e)] ++ after /\
    balanced 0 (map fst toks) /\
    ((forall x, In (TFloat x) (map fst toks) -> prints_finite k x) -> exists ts', lexes_to k text ts' /\ Forall2 (same_token k) (map fst toks) ts').
Proof.
  intros E Hb Hu Ht. destruct (C23_options_only _ _ _ _ _ _ E) as (f & Ha & _ & _ & _ & Hall). destruct (Hall u Hu) as (_ & o & Hw & Hm).
  assert (Hv : exists sp, ob_value o = OVAggregate text sp) by (destruct Hm; try discriminate; cbn in *; injection Ht as <-; eauto). destruct Hv as (sp & Hv).
  pose proof Ha as (ts & G & Hs & Hmc).
  set (Q := fun o => exists us, g_optval k us (ob_value o) /\ part_of ts us).
  assert (HQ : Q o).
  { eapply q_written; [|exact Hw]. eapply (file_q k Q (part_of ts)); [apply part_app| |exact G|exists [], []; now rewrite app_nil_r].
    intros us x Hx Hp. destruct Hx as [us nm spx us' vx H1 H2]. apply part_app in Hp. destruct Hp as [_ Hp]. apply part_app in Hp. exists us'. split; [exact H2|tauto]. }
  destruct HQ as (us & Hg & before & after & Eall). rewrite Hv in Hg.
  pose proof (mclean_written k (marks ts) src 0 Hmc [] eq_refl ts Hs eq_refl) as Hwr. cbn [app] in Hwr.
  inversion Hg as [| | | | | |st mid e [Gb Gm] E1 [E2 E3]]; subst.
  exists f, o, (map inj before), st, (map (fun x => (tk_tok x, tk_span x)) mid), e, (map inj after). split; auto. split; auto. split; auto. split; [exact Hv|]. split; [|split].
  - rewrite Hs, !map_app, map_map, <- !app_assoc. reflexivity.
  - rewrite map_map. cbn [fst]. exact Gb.
  - rewrite map_map. cbn [fst]. intros Hf. apply C12_relex. apply Forall_forall. intros t Hin. apply in_map_iff in Hin. destruct Hin as (x & <- & Hin).
    assert (Hin2 : In x (before ++ (sym TLeftBrace st ++ mid ++ [(TRightBrace, e, true)]) ++ after)) by (rewrite !in_app_iff; tauto).
    rewrite Forall_forall in Hwr. specialize (Hwr _ Hin2). eapply written_plain; eauto.
    + apply (sigs_significant (stream k src 0)). rewrite Hs. apply in_map_iff. exists x. split; [reflexivity|exact Hin2].
    + intros y Ey. apply Hf. rewrite <- Ey. now apply in_map.
Qed.
Print Assumptions C12_aggregates.

(** Non-vacuity: strings, nested braces, comments, a float written with a
    suffix and without integer digits. Doubles are printed like Rust prints
    the ones that occur. *)
Definition ex_k12 : cfg := {| munch_ideal := false;
  f64_display := fun _ t => if bytes_eqb t (b "1e999") then b "inf" else match t with c :: _ => if c =? 46 then 48 :: t else t | [] => [] end;
  f64_to_string := fun _ t => t |}.
Definition ex_agg : bytes := b "option (o) = { a: 'x""\377' /* note */ b { c: 15.0 }" ++ nl_ ++ b "  [d/e]: -.5f # last" ++ nl_ ++ b " };".
Definition agg_of (k : cfg) (src : bytes) : list (option bytes) := match parse k loc_sort (b "x.proto") src with Done (inl d, _) => map uo_aggregate (opts (d_options d)) | _ => [] end.
Example C12_ex : agg_of ex_k12 ex_agg = [Some (b "a : ""x\""\xff"" b { c : 15.0 } [ d / e ] : - 0.5")].
Proof. vm_compute. reflexivity. Qed.
Example C12_ex_finite : prints_finite ex_k12 (b "15.0") /\ prints_finite ex_k12 (b ".5").
Proof.
  split; (split; [|vm_compute; reflexivity]).
  - exists (b "15"), (b "0"). split; [reflexivity|]. split; [discriminate|]. split; repeat constructor; vm_compute; discriminate.
  - exists (b "0"), (b "5"). split; [reflexivity|]. split; [discriminate|]. split; repeat constructor; vm_compute; discriminate.
Qed.
Example C12_ex_option : exists d a u, parse ex_k12 loc_sort (b "x.proto") ex_agg = Done (inl d, a) /\ option_of d u /\ uo_aggregate u <> None /\ forallb (fun c => c <? 256) ex_agg = true.
Proof. eexists _, _, _. split; [vm_compute; reflexivity|]. split; [apply oo_file; left; reflexivity|]. split; [discriminate|reflexivity]. Qed.

(** The condition on floats is needed: a literal that overflows is printed as
    [inf], which lexes to an identifier. *)
Example C12_inf : agg_of ex_k12 (b "option (o) = { a: 1e999 };") = [Some (b "a : inf")] /\
  exists us s', lex_all ex_k12 (canon true (b "a : inf") 0) = Done (us, s') /\ map fst us = [Some (TIdent (b "a")); Some TColon; Some (TIdent (b "inf"))].
Proof. split; [vm_compute; reflexivity|]. eexists _, _. split; [vm_compute; reflexivity|reflexivity]. Qed.
