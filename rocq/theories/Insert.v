(** Lexing is local: what stands behind a token and a separator does not change
    it, and white space and comments between tokens can be added freely. *)
From Coq Require Import ZifyBool ZifyN.
From Verif Require Import Base Utf8 Utf8Spec Errors Lex LexSpec PropsLex1 LexSafe Stream PropsLex StrSpec PropsStr CommentSpec PropsComment Ast Comments Parse Grammar SynSpec SpaceSpec Walk.

(** ** Scanning one lexeme *)
(** [y] cannot continue a lexeme that ends with [x]. *)
Definition sep_char (c : N) : bool := is_skip c || (c =? 10).
Definition ends_slash (x : bytes) : bool := match rev x with c :: _ => c =? 47 | [] => false end.
Definition apart (x y : bytes) : bool := match y with [] => true | c :: _ => sep_char c || ((c =? 47) && negb (ends_slash x)) end.

Lemma apart_head f x y : apart x y = true -> (forall c, f c = true -> sep_char c = false /\ c <> 47) -> head_sat f y = false.
Proof.
  unfold apart, head_sat. destruct y as [|c y]; [reflexivity|]. intros H Hf. destruct (f c) eqn:E; [|reflexivity]. destruct (Hf c E) as [H1 H2]. rewrite H1 in H. cbn [orb] in H. lia.
Qed.
Lemma sep_ident c : is_ident_char c = true -> sep_char c = false /\ c <> 47.
Proof. unfold is_ident_char, is_alnum, is_alpha, is_upper, is_lower, is_digit, in_range, sep_char, is_skip. lia. Qed.
Lemma sep_digit c : is_digit c = true -> sep_char c = false /\ c <> 47.
Proof. unfold is_digit, in_range, sep_char, is_skip. lia. Qed.
Lemma sep_hex c : is_hex c = true -> sep_char c = false /\ c <> 47.
Proof. unfold is_hex, is_digit, in_range, sep_char, is_skip. lia. Qed.
Lemma apart_ident x y : apart x y = true -> head_sat is_ident_char y = false.
Proof. intros H. eapply apart_head; [exact H|exact sep_ident]. Qed.
Lemma apart_digit x y : apart x y = true -> head_sat is_digit y = false.
Proof. intros H. eapply apart_head; [exact H|exact sep_digit]. Qed.
Lemma apart_hex x y : apart x y = true -> head_sat is_hex y = false.
Proof. intros H. eapply apart_head; [exact H|exact sep_hex]. Qed.
Lemma apart_is z x y : apart x y = true -> sep_char z = false -> z <> 47 -> head_is z y = false.
Proof. intros H H1 H2. apply (apart_head (fun c => c =? z) x y H). intros c Hc. apply N.eqb_eq in Hc. subst c. auto. Qed.

Lemma exponent_apart l x y : apart x y = true -> scan_exponent (l ++ y) = scan_exponent l.
Proof.
  intros H. pose proof (apart_digit _ _ H) as Hd. pose proof (apart_is 43 _ _ H eq_refl ltac:(discriminate)) as Hp. pose proof (apart_is 45 _ _ H eq_refl ltac:(discriminate)) as Hm.
  pose proof (apart_is 101 _ _ H eq_refl ltac:(discriminate)) as He. pose proof (apart_is 69 _ _ H eq_refl ltac:(discriminate)) as HE. unfold head_is, head_sat in *.
  destruct l as [|e [|c l]]; cbn [app scan_exponent].
  - destruct y as [|e y]; [reflexivity|]. cbn [scan_exponent]. now rewrite He, HE.
  - destruct y as [|c y]; [reflexivity|]. rewrite Hd, Hp, Hm. reflexivity.
  - destruct ((e =? 101) || (e =? 69)); [|reflexivity]. assert (Hd' : head_sat is_digit y = false) by exact Hd. destruct (is_digit c) eqn:Ec.
    + cbn [take_while]. rewrite Ec. now rewrite (take_while_app_stop is_digit l y Hd').
    + now rewrite (take_while_app_stop is_digit l y Hd').
Qed.
Lemma fsuffix_apart l x y : apart x y = true -> scan_fsuffix (l ++ y) = scan_fsuffix l.
Proof.
  intros H. pose proof (apart_is 102 _ _ H eq_refl ltac:(discriminate)) as H1. pose proof (apart_is 70 _ _ H eq_refl ltac:(discriminate)) as H2. unfold head_is in *.
  destruct l as [|e l]; [|reflexivity]. destruct y as [|c y]; [reflexivity|]. cbn [app scan_fsuffix]. now rewrite H1, H2.
Qed.
Lemma skip_more {A} (p l y : list A) s : l = p ++ s -> skipn (length p) (l ++ y) = skipn (length p) l ++ y.
Proof. intros ->. now rewrite <- app_assoc, !skip_app. Qed.
Lemma exponent_prefix l : exists s, l = scan_exponent l ++ s.
Proof.
  unfold scan_exponent. destruct l as [|e [|c l]]; [exists []; reflexivity|destruct ((e =? 101) || (e =? 69)); exists [e]; reflexivity|].
  destruct ((e =? 101) || (e =? 69)); [|eexists; reflexivity]. destruct (is_digit c); [exists (skipn (length (take_while is_digit (c :: l))) (c :: l)); cbn [app]; f_equal; apply tw_split|].
  destruct ((c =? 43) || (c =? 45)); [|eexists; reflexivity]. pose proof (tw_split is_digit l) as Hs. destruct (take_while is_digit l); [eexists; reflexivity|]. eexists. cbn [app]. do 2 f_equal. exact Hs.
Qed.
Lemma frac_apart l x y : apart x y = true -> scan_frac (l ++ y) = scan_frac l.
Proof.
  intros H. unfold scan_frac. cbv zeta. rewrite (take_while_app_stop is_digit l y (apart_digit _ _ H)). rewrite (skip_more _ l y _ (tw_split is_digit l)). set (l1 := skipn _ l).
  rewrite (exponent_apart l1 x y H). destruct (exponent_prefix l1) as (s & Hs). rewrite (skip_more _ l1 y s Hs). now rewrite (fsuffix_apart _ x y H).
Qed.
Lemma head_is_apart z l x y : apart x y = true -> sep_char z = false -> z <> 47 -> head_is z (l ++ y) = head_is z l.
Proof. intros H H1 H2. destruct l as [|c l]; [|reflexivity]. cbn [app]. rewrite (apart_is z x y H H1 H2). reflexivity. Qed.
Lemma head_sat_apart f l x y : apart x y = true -> (forall c, f c = true -> sep_char c = false /\ c <> 47) -> head_sat f (l ++ y) = head_sat f l.
Proof. intros H H1. destruct l as [|c l]; [|reflexivity]. cbn [app]. rewrite (apart_head f x y H H1). reflexivity. Qed.
Lemma number_apart l x y : apart x y = true -> scan_number true (l ++ y) = scan_number true l.
Proof.
  intros H. unfold scan_number. cbv zeta. rewrite (take_while_app_stop is_digit l y (apart_digit _ _ H)). rewrite (skip_more _ l y _ (tw_split is_digit l)). set (ds := take_while is_digit l). set (l1 := skipn (length ds) l). clearbody ds l1.
  rewrite (exponent_apart l1 x y H), (fsuffix_apart l1 x y H). destruct (exponent_prefix l1) as (s & Hs). rewrite (skip_more _ l1 y s Hs), (fsuffix_apart _ x y H).
  rewrite (head_is_apart 46 l1 x y H eq_refl ltac:(discriminate)). destruct l1 as [|c l1]; cbn [app tl].
  - cbn [head_is]. destruct (Nat.ltb 0 _); [reflexivity|]. destruct (head_is 48 ds); [|reflexivity]. destruct (Nat.ltb 0 (length (tl ds))); [reflexivity|].
    cbn [head_sat andb]. rewrite (apart_head (fun z => (z =? 120) || (z =? 88)) x y H) by (unfold sep_char, is_skip; lia). reflexivity.
  - rewrite (frac_apart l1 x y H), (head_sat_apart is_hex l1 x y H sep_hex), (take_while_app_stop is_hex l1 y (apart_hex _ _ H)). reflexivity.
Qed.

Lemma scan_line_closed u y : In 10 u -> scan_line (u ++ y) = scan_line u.
Proof.
  intros Hi. unfold scan_line. assert (Ht : take_while (fun c => negb (c =? 10)) (u ++ y) = take_while (fun c => negb (c =? 10)) u).
  { induction u as [|c u IH]; [destruct Hi|]. cbn [app take_while]. destruct (c =? 10) eqn:E; [reflexivity|]. cbn [negb]. f_equal. apply IH. destruct Hi as [->|Hi]; [discriminate|auto]. }
  cbv zeta. rewrite Ht, (skip_more _ u y _ (tw_split _ u)). destruct (skipn _ u) eqn:E; [|reflexivity]. exfalso.
  pose proof (tw_split (fun c => negb (c =? 10)) u) as Hs. rewrite E, app_nil_r in Hs. rewrite Hs in Hi. pose proof (forallb_In _ _ _ (take_while_all _ u) Hi) as Hx. discriminate Hx.
Qed.

(** A separator behind [x] does not change its first lexeme. *)
Lemma scan_apart c r y kd sl : apart (c :: r) y = true -> scan true (c :: r) = (kd, sl) -> kd <> KErr -> (kd = KLine -> In 10 sl) -> scan true (c :: r ++ y) = (kd, sl).
Proof.
  intros H Hs Hk Hl. unfold scan in *. destruct (is_ident_start c); [rewrite (take_while_app_stop is_ident_char r y (apart_ident _ _ H)); exact Hs|].
  destruct (is_digit c); [rewrite <- Hs; exact (number_apart (c :: r) _ _ H)|]. destruct ((c =? 39) || (c =? 34)); [exact Hs|].
  rewrite (head_sat_apart is_digit r _ y H sep_digit). destruct ((c =? 46) && head_sat is_digit r); [rewrite (frac_apart r _ y H); exact Hs|].
  assert (Hline : forall u, In 10 (scan_line u) -> In 10 u). { intros u. destruct (scan_line_spec u) as [E _]. intros Hi. rewrite E. apply in_or_app. now left. }
  destruct (c =? 35) eqn:E35.
  - injection Hs as <- <-. specialize (Hl eq_refl). destruct Hl as [Hl|Hl]; [lia|]. now rewrite (scan_line_closed r y (Hline _ Hl)).
  - rewrite (head_is_apart 42 r _ y H eq_refl ltac:(discriminate)). destruct ((c =? 47) && head_is 47 r) eqn:E47.
    + destruct r as [|d r]; [cbn [head_is] in E47; lia|]. cbn [app tl head_is] in *. rewrite E47. injection Hs as <- <-. specialize (Hl eq_refl). destruct Hl as [Hl|[Hl|Hl]]; [lia|lia|]. now rewrite (scan_line_closed r y (Hline _ Hl)).
    + assert (E47' : (c =? 47) && head_is 47 (r ++ y) = false).
      { destruct (c =? 47) eqn:Ec; [|reflexivity]. cbn [andb] in *. destruct r as [|d r]; [|exact E47]. cbn [app]. unfold apart in H. destruct y as [|z y]; [reflexivity|]. cbn [head_is]. apply N.eqb_eq in Ec. subst c.
        unfold ends_slash in H. cbn [rev app] in H. unfold sep_char, is_skip in H. lia. }
      rewrite E47'. destruct ((c =? 47) && head_is 42 r); [exact Hs|]. destruct (punct c); [exact Hs|]. injection Hs as <- <-. congruence.
Qed.

(** The first lexeme of [x ++ q], if it lies in [x], is that of [x]. *)
Lemma prefix_of_app {A} (p s x q : list A) : p ++ s = x ++ q -> (length p <= length x)%nat -> exists s', x = p ++ s'.
Proof.
  intros E Hl. exists (skipn (length p) x). rewrite <- (firstn_skipn (length p) x) at 1. f_equal.
  assert (Hf : firstn (length p) (p ++ s) = firstn (length p) (x ++ q)) by now rewrite E. rewrite firstn_app, firstn_all, Nat.sub_diag, firstn_O, app_nil_r in Hf.
  rewrite firstn_app, (proj2 (Nat.sub_0_le (length p) (length x)) Hl), firstn_O, app_nil_r in Hf. now rewrite <- Hf.
Qed.
Lemma scan_within c r q kd sl : scan true (c :: r ++ q) = (kd, sl) -> kd <> KErr -> (length sl <= length (c :: r))%nat -> scan true (c :: r) = (kd, sl).
Proof.
  intros Hs Hk Hl. destruct (C07_scan_longest (c :: r ++ q) ltac:(discriminate)) as [(Hb & _)|Hm]; [rewrite Hs in Hb; cbn in Hb; congruence|]. rewrite Hs in Hm. cbn [fst snd] in Hm.
  destruct Hm as ((re & Hre & Hma) & (s & Es) & Hmax). destruct (prefix_of_app sl s (c :: r) q (eq_sym Es) Hl) as (s' & Es').
  destruct (C07_scan_longest (c :: r) ltac:(discriminate)) as [(_ & _ & Hno)|Hm2]; [destruct (Hno _ _ _ _ Hre Hma Es')|].
  destruct (scan true (c :: r)) as [kd2 sl2]. cbn [fst snd] in Hm2. destruct Hm2 as ((re2 & Hre2 & Hma2) & (s2 & Es2) & Hmax2).
  destruct (Hmax2 _ _ _ _ Hre Hma Es') as [H1|(H1 & H2)]; [|congruence].
  destruct (Hmax re2 kd2 sl2 (s2 ++ q) Hre2 Hma2) as [H2|(H2 & H3)]; [rewrite app_assoc, <- Es2; reflexivity|lia|subst; lia].
Qed.

(** The real lexer only differs in how far a run of digits behind a 0 reaches. *)
Lemma scan_false_eq l : scan false l = match scan true l with (KZero, sl) => (KZero, take_while is_digit l) | (KOct, sl) => (KOct, take_while is_digit l) | r => r end.
Proof.
  unfold scan. destruct l as [|c r]; [reflexivity|]. destruct (is_ident_start c); [reflexivity|]. destruct (is_digit c) eqn:Ed.
  - unfold scan_number. cbv zeta. set (ds := take_while is_digit (c :: r)). set (l1 := skipn _ _). clearbody l1. destruct (head_is 46 l1); [reflexivity|]. destruct (Nat.ltb 0 (length (scan_exponent l1))); [reflexivity|].
    destruct (head_is 48 ds) eqn:E0; [|destruct (Nat.ltb 0 (length (scan_fsuffix l1))); reflexivity].
    destruct (Nat.ltb 0 (length (tl ds))); [destruct (Nat.ltb 0 _); reflexivity|]. destruct (head_sat _ _ && head_sat _ _); [reflexivity|]. destruct (Nat.ltb 0 (length (scan_fsuffix l1))); reflexivity.
  - destruct ((c =? 39) || (c =? 34)); [reflexivity|]. destruct ((c =? 46) && head_sat is_digit r); [reflexivity|]. destruct (c =? 35); [reflexivity|]. destruct ((c =? 47) && head_is 47 r); [reflexivity|].
    destruct ((c =? 47) && head_is 42 r); [reflexivity|]. destruct (punct c); reflexivity.
Qed.
Lemma tw_within f x q : (length (take_while f (x ++ q)) <= length x)%nat -> take_while f (x ++ q) = take_while f x.
Proof.
  induction x as [|c x IH]; cbn [app take_while length]; [destruct (take_while f q); [reflexivity|cbn [length]; lia]|]. destruct (f c); [|reflexivity]. cbn [length]. intros H. f_equal. apply IH. lia.
Qed.
Lemma forallb_impl (f g : N -> bool) l : (forall c, f c = true -> g c = true) -> forallb f l = true -> forallb g l = true.
Proof. intros H. induction l as [|c l IH]; cbn [forallb]; [auto|]. rewrite !andb_true_iff. intros [H1 H2]. auto. Qed.
Lemma scan_true_le ideal l : (length (snd (scan true l)) <= length (snd (scan ideal l)))%nat.
Proof.
  destruct ideal; [lia|]. rewrite scan_false_eq. destruct (scan true l) as [kd sl] eqn:E. destruct kd; cbn [snd]; try lia; destruct l as [|c r]; try discriminate.
  - pose proof (scan_int_shape _ _ _ _ E) as ->. cbn [length]. assert (Hd : is_digit c = true). { revert E. unfold scan. destruct (is_ident_start c) eqn:Ei; [discriminate|]. destruct (is_digit c); [reflexivity|]. destruct ((c =? 39) || (c =? 34)); [discriminate|]. destruct ((c =? 46) && _); [discriminate|]. destruct (c =? 35); [discriminate|]. destruct (_ && _); [discriminate|]. destruct (_ && _); [discriminate|]. destruct (punct c); discriminate. }
    cbn [take_while]. rewrite Hd. cbn [length]. lia.
  - destruct (scan_int_shape _ _ _ _ E) as (os & -> & Hn & Ho). destruct (scan_slice true c r) as (_ & s & Es). rewrite E in Es. cbn [snd] in Es. rewrite Es. apply tw_app_le. cbn [forallb].
    rewrite (forallb_impl is_octal is_digit os); [reflexivity| |exact Ho]. intros z. unfold is_octal, is_digit, in_range. lia.
Qed.
Lemma scan_local ideal c r q y kd sl : scan ideal (c :: r ++ q) = (kd, sl) -> kd <> KErr -> (length sl <= length (c :: r))%nat -> apart (c :: r) y = true -> (kd = KLine -> In 10 sl) ->
  scan ideal (c :: r ++ y) = (kd, sl).
Proof.
  intros Hs Hk Hl Ha Hn. destruct (scan true (c :: r ++ q)) as [kd1 sl1] eqn:E1. pose proof (scan_true_le ideal (c :: r ++ q)) as Hle. rewrite E1, Hs in Hle. cbn [snd] in Hle.
  assert (Hkd : kd1 = kd /\ (kd = KZero \/ kd = KOct \/ sl1 = sl)).
  { destruct ideal; [rewrite Hs in E1; injection E1 as -> ->; auto|]. rewrite scan_false_eq, E1 in Hs. destruct kd1; injection Hs as <- <-; auto. }
  destruct Hkd as [-> Hkd]. pose proof (scan_within _ _ _ _ _ E1 Hk ltac:(lia)) as E2. assert (E3 : scan true (c :: r ++ y) = (kd, sl1)).
  { apply scan_apart; auto. intros ->. destruct Hkd as [?|[?| ->]]; try discriminate. auto. }
  destruct ideal; [rewrite Hs in E1; injection E1 as ->; exact E3|]. rewrite scan_false_eq, E3. rewrite scan_false_eq, E1 in Hs.
  assert (Ht : (length (take_while is_digit (c :: r ++ q)) <= length (c :: r))%nat -> take_while is_digit (c :: r ++ y) = take_while is_digit (c :: r ++ q)).
  { intros H. rewrite !app_comm_cons in *. rewrite (tw_within _ _ _ H). apply take_while_app_stop. eapply apart_digit. exact Ha. }
  destruct kd; injection Hs as <-; try reflexivity; rewrite Ht; auto.
Qed.

(** ** Block comments *)
Lemma white_enc_no_star bs : In bs white_encs -> ~ In 42 bs.
Proof. intros H Hs. cbn in H. repeat (destruct H as [<-|H]; [cbn in Hs; lia|]). destruct H. Qed.
Lemma utf8_white_no_star c bs : In c white_space -> utf8_of c bs -> ~ In 42 bs.
Proof. intros H1 H2. apply white_enc_no_star, white_enc. eauto. Qed.
Lemma white_no_star ws : white ws -> ~ In 42 ws.
Proof. induction 1 as [|c bs r H1 H2 H IH]; [auto|]. intros Hi. apply in_app_or in Hi. destruct Hi as [Hi|Hi]; [exact (utf8_white_no_star _ _ H1 H2 Hi)|auto]. Qed.
(** A prefix without stars of [u ++ z] lies in [u] if [u] has a star. *)
Lemma before_star (p s u z : bytes) : ~ In 42 p -> In 42 u -> u ++ z = p ++ s -> exists s', u = p ++ s'.
Proof.
  revert u. induction p as [|c p IH]; intros u Hp Hu E; [exists u; reflexivity|]. destruct u as [|d u]; [destruct Hu|]. cbn [app] in E. injection E as <- E.
  destruct (IH u) as (s' & ->); [intros H; apply Hp; now right|destruct Hu as [->|Hu]; [destruct Hp; now left|exact Hu]|exact E|]. exists s'. reflexivity.
Qed.
Lemma white_starts_local u z z' : In 42 u -> white_starts (u ++ z') -> white_starts (u ++ z).
Proof.
  intros Hu (c & bs & r & H1 & H2 & E). destruct (before_star bs r u z' (utf8_white_no_star _ _ H1 H2) Hu E) as (s & ->). exists c, bs, (s ++ z). rewrite <- app_assoc. auto.
Qed.
Lemma star_here_local u z z' : (2 <= length u)%nat -> star_here (u ++ z) <-> star_here (u ++ z').
Proof.
  destruct u as [|a [|d u]]; cbn [length]; try lia. intros _. unfold star_here. cbn [app]. split; intros (r & E & H); injection E as -> <-; eexists; (split; [reflexivity|]); intros (c & r' & Er & Hc); injection Er as -> <-; apply H; eexists _, _; split; eauto.
Qed.
Lemma starts_local p (u z z' : bytes) : u <> [] -> starts p (u ++ z) -> starts p (u ++ z').
Proof. destruct u as [|a u]; [congruence|]. intros _ (c & r & E & H). cbn [app] in E. injection E as <- <-. exists a, (u ++ z'). auto. Qed.

Lemma block_local l t rest : block_at l t rest -> exists u, l = u ++ rest /\ (2 <= length u)%nat /\ In 42 u /\
  forall rest0, exists z rest2, rest0 = z ++ rest2 /\ Forall blank z /\ block_at (u ++ rest0) t rest2.
Proof.
  induction 1 as [w rest Hw Hr|c r t rest Hc1 Hc2 Hc3 H IH|ws r t rest Hws Hr1 Hr2 H IH|ws r t rest Hws Hr1 H IH].
  - exists (b "*/" ++ w). split; [now rewrite <- app_assoc|]. split; [cbn; lia|]. split; [now left|]. intros rest0.
    exists (take_while is_skip rest0), (skipn (length (take_while is_skip rest0)) rest0). split; [apply tw_split|]. assert (Hb : Forall blank (take_while is_skip rest0)) by (apply is_skip_blank, take_while_all).
    split; [exact Hb|]. rewrite (tw_split is_skip rest0) at 1. rewrite <- app_assoc, (app_assoc w). apply ba_end; [now apply Forall_app|].
    intros (c & r & E & Hc). pose proof (tw_after is_skip rest0) as Ha. rewrite E in Ha. cbn [head_sat] in Ha. apply is_skip_iff in Hc. congruence.
  - destruct IH as (u & -> & Hl & Hu & IH). exists (c :: u). split; [reflexivity|]. split; [cbn [length]; lia|]. split; [now right|]. intros rest0. destruct (IH rest0) as (z & rest2 & E1 & E2 & E3). exists z, rest2. split; [exact E1|]. split; [exact E2|].
    cbn [app]. assert (Hn : u <> []) by (intros ->; cbn in Hl; lia). apply ba_char; [exact Hc1| | |exact E3]; intros Ec Hs; [apply (Hc2 Ec)|apply (Hc3 Ec)]; eapply starts_local; eauto.
  - destruct IH as (u & -> & Hl & Hu & IH). exists (10 :: ws ++ u). split; [cbn [app]; now rewrite <- app_assoc|]. split; [cbn [length]; rewrite app_length; lia|]. split; [right; apply in_or_app; now right|]. intros rest0. destruct (IH rest0) as (z & rest2 & E1 & E2 & E3). exists z, rest2. split; [exact E1|]. split; [exact E2|].
    cbn [app]. rewrite <- app_assoc. apply ba_line; [exact Hws| | |exact E3]; [intros Hx; apply Hr1; eapply white_starts_local; eauto|intros Hx; apply Hr2; eapply star_here_local; eauto].
  - destruct IH as (u & -> & Hl & Hu & IH). exists (10 :: ws ++ 42 :: u). split; [cbn [app]; now rewrite <- app_assoc|]. split; [cbn [length]; rewrite app_length; cbn [length]; lia|]. split; [right; apply in_or_app; right; now left|]. intros rest0. destruct (IH rest0) as (z & rest2 & E1 & E2 & E3). exists z, rest2. split; [exact E1|]. split; [exact E2|].
    cbn [app]. rewrite <- app_assoc. cbn [app]. apply ba_star; [exact Hws| |exact E3]. apply (star_here_local (42 :: u) rest rest0); [cbn [length]; lia|exact Hr1].
Qed.

(** ** One token *)

Lemma skip_blanks w l : Forall blank w -> take_while is_skip (w ++ l) = w ++ take_while is_skip l.
Proof. intros H. apply take_while_prefix. now apply is_skip_blank. Qed.
(** Blanks before the token do not matter, nor does its position. *)
Lemma lex_blanks k m w c r pos : Forall blank w -> is_skip c = false ->
  lex_next k (canon m (w ++ c :: r) pos) = 
    let '(kind, slice) := scan (munch_ideal k) (c :: r) in
    let rest := skipn (length slice) (c :: r) in
    let start := pos + len w in
    let fin := start + len slice in
    let ret t rest' fin' errs asrt :=
      Done (Some t, {| l_rest := rest'; l_start := start; l_end := fin'; l_errs := errs; l_tfm := m; l_assert := asrt |}) in
    let int radix prefix := let '(v, es, asrt) := cb_int radix prefix start slice rest in ret (Some (TInt v)) rest fin es asrt in
    match kind with
    | KErr => ret None rest fin [] false
    | KPunct t => ret (Some t) rest fin [] false
    | KIdent => ret (Some (TIdent slice)) rest fin [] false
    | KZero => ret (Some (TInt 0)) rest fin [] false
    | KOct => int 8 1%nat
    | KDec => int 10 0%nat
    | KHex => int 16 2%nat
    | KFloat => let '(t, es) := cb_float m (start, fin) slice in ret (Some (TFloat t)) rest fin es false
    | KQuote => obind (str_loop (S (length rest)) (hd 0 slice) fin rest [] []) (fun '(v, fin', rest', errs) => ret (Some (TStr v)) rest' fin' errs false)
    | KLine => obind (cb_line m (start, fin) slice) (fun '(v, es) => ret (Some (TLineComment v)) rest fin es false)
    | KBlock => obind (block_loop (S (length rest)) fin rest 1 None [] []) (fun '(v, fin', rest', errs) => ret (Some (TBlockComment (normalize_newlines v))) rest' fin' errs false)
    end.
Proof.
  intros Hw Hc. unfold lex_next. cbn [canon l_rest l_end l_errs l_tfm l_assert]. rewrite (skip_blanks _ _ Hw). cbn [take_while]. rewrite Hc, app_nil_r, skip_app. reflexivity.
Qed.
Lemma lex_drop k m w c r pos : Forall blank w -> is_skip c = false -> lex_next k (canon m (w ++ c :: r) pos) = lex_next k (canon m (c :: r) (pos + len w)).
Proof.
  intros Hw Hc. rewrite (lex_blanks k m w c r pos Hw Hc). pose proof (lex_blanks k m [] c r (pos + len w) (Forall_nil _) Hc) as E. cbn [app] in E. rewrite E. change (len (@nil N)) with 0. rewrite N.add_0_r. reflexivity.
Qed.
Lemma ends_slash_app x y : y <> [] -> ends_slash (x ++ y) = ends_slash y.
Proof. unfold ends_slash. rewrite rev_app_distr. intros H. destruct (rev y) as [|c z] eqn:E; [|reflexivity]. apply (f_equal (@rev N)) in E. rewrite rev_involutive in E. destruct y; [congruence|discriminate]. Qed.
Lemma apart_app w x y : x <> [] -> apart (w ++ x) y = apart x y.
Proof. intros H. unfold apart. destruct y; [reflexivity|]. now rewrite ends_slash_app. Qed.

Lemma scan_kind_line ideal c r sl : scan ideal (c :: r) = (KLine, sl) -> exists m u, sl = m ++ scan_line u /\ c :: r = m ++ u.
Proof.
  assert (H : scan true (c :: r) = (KLine, sl) -> exists m u, sl = m ++ scan_line u /\ c :: r = m ++ u).
  { unfold scan. destruct (is_ident_start c); [discriminate|]. destruct (is_digit c).
    { unfold scan_number. cbv zeta. repeat match goal with |- context [if ?x then _ else _] => destruct x end; discriminate. }
    destruct ((c =? 39) || (c =? 34)); [discriminate|]. destruct ((c =? 46) && _); [discriminate|]. destruct (c =? 35).
    - intros [= <-]. exists [c], r. auto.
    - destruct ((c =? 47) && head_is 47 r) eqn:E; [|destruct ((c =? 47) && head_is 42 r); [intros Hx; discriminate Hx|]; destruct (punct c); intros Hx; discriminate Hx]. intros [= <-]. destruct r as [|d r]; [cbn in E; lia|]. cbn [head_is] in E.
      assert (c = 47 /\ d = 47) as [-> ->] by lia. exists [47; 47], r. auto. }
  destruct ideal; [exact H|]. rewrite scan_false_eq. destruct (scan true (c :: r)) as [kd sl0]. destruct kd; try discriminate. exact H.
Qed.
Lemma scan_kind_block ideal c r sl : scan ideal (c :: r) = (KBlock, sl) -> sl = [47; 42] /\ exists r', c :: r = 47 :: 42 :: r'.
Proof.
  assert (H : scan true (c :: r) = (KBlock, sl) -> sl = [47; 42] /\ exists r', c :: r = 47 :: 42 :: r').
  { unfold scan. destruct (is_ident_start c); [discriminate|]. destruct (is_digit c).
    { unfold scan_number. cbv zeta. repeat match goal with |- context [if ?x then _ else _] => destruct x end; discriminate. }
    destruct ((c =? 39) || (c =? 34)); [discriminate|]. destruct ((c =? 46) && _); [discriminate|]. destruct (c =? 35); [discriminate|]. destruct (_ && _); [discriminate|].
    destruct ((c =? 47) && head_is 42 r) eqn:E; [|destruct (punct c); discriminate]. intros [= <-]. split; [reflexivity|]. destruct r as [|d r]; [cbn in E; lia|]. cbn [head_is] in E. assert (c = 47 /\ d = 42) as [-> ->] by lia. eauto. }
  destruct ideal; [exact H|]. rewrite scan_false_eq. destruct (scan true (c :: r)) as [kd sl0]. destruct kd; try discriminate. exact H.
Qed.
Lemma cb_int_local radix prefix start sl rest v es a rest2 start2 : cb_int radix prefix start sl rest = (v, es, a) -> es = [] -> head_sat (fun c => is_alpha c || (c =? 95)) rest2 = false ->
  exists a2, cb_int radix prefix start2 sl rest2 = (v, [], a2).
Proof.
  unfold cb_int. intros H -> Hh. destruct (from_str_radix radix (skipn prefix sl)) as [n| | |]; cbv zeta in *; try (injection H as _ Hx _; apply app_eq_nil in Hx; destruct Hx; discriminate).
  injection H as <- _ _. destruct rest2 as [|c r2]; [eauto|]. cbn [head_sat] in Hh. rewrite Hh. eauto.
Qed.
Lemma cb_int_head radix prefix start sl rest v a : cb_int radix prefix start sl rest = (v, [], a) -> head_sat (fun c => is_alpha c || (c =? 95)) rest = false.
Proof.
  unfold cb_int. intros H. destruct rest as [|c r]; [reflexivity|]. cbn [head_sat]. destruct (is_alpha c || (c =? 95)); [|reflexivity]. destruct (from_str_radix _ _); cbn in H; discriminate.
Qed.
Lemma sep_alpha c : is_alpha c || (c =? 95) = true -> sep_char c = false /\ c <> 47.
Proof. unfold is_alpha, is_upper, is_lower, in_range, sep_char, is_skip. lia. Qed.

Lemma scan_kind_eq (kd : rawkind) : kd = KLine \/ kd <> KLine.
Proof. destruct kd; (now left) || (right; discriminate). Qed.
(** A token that ends in [x] stays the same whatever separator follows [x]. *)
Lemma block_rest l t rest : block_at l t rest -> ~ starts blank rest.
Proof. induction 1; auto. Qed.
Lemma block_blanks l t x' q y z rest2 : block_at l t (x' ++ q) -> x' ++ y = z ++ rest2 -> Forall blank z -> z <> [] -> x' = [].
Proof.
  intros Hb E Hz Hn. apply block_rest in Hb. destruct z as [|c z]; [congruence|]. apply Forall_inv in Hz. destruct x' as [|d x']; [reflexivity|]. exfalso. injection E as -> _. apply Hb. exists c, (x' ++ q). auto.
Qed.
Lemma lexed_local k m x q y t x' : lexed k m (x ++ q) t (x' ++ q) -> y = q \/ apart x y = true /\ ((exists v, t = TLineComment v) -> x' ++ q = [] -> exists u, x = u ++ [10]) ->
  exists z rest2, x' ++ y = z ++ rest2 /\ Forall blank z /\ (z <> [] -> x' = [] /\ is_trivia t = true) /\ forall pos, exists s2, lex_next k (canon m (x ++ y) pos) = Done (Some (Some t), s2) /\ l_errs s2 = [] /\ l_rest s2 = rest2.
Proof.
  intros (pos0 & s' & E & He & Hr) Hor. 
  assert (Hsp : exists w c r1, x = w ++ (c :: r1) ++ x' /\ Forall blank w /\ is_skip c = false).
  { pose proof (tw_split is_skip (x ++ q)) as Et. pose proof (tw_after is_skip (x ++ q)) as Ha'. assert (HW : Forall blank (take_while is_skip (x ++ q))) by (apply is_skip_blank, take_while_all).
    set (W := take_while is_skip (x ++ q)) in *. set (l := skipn (length W) (x ++ q)) in *. destruct l as [|d l0] eqn:El.
    - exfalso. unfold lex_next in E. cbn [canon l_rest l_end] in E. change (take_while is_skip (x ++ q)) with W in E. change (skipn (length W) (x ++ q)) with l in E. rewrite El in E. cbv zeta in E. discriminate E.
    - cbn [head_sat] in Ha'. assert (E' : lex_next k (canon m (d :: l0) (pos0 + len W)) = Done (Some (Some t), s')) by (rewrite <- (lex_drop k m W d l0 pos0 HW Ha'), <- Et; exact E).
      destruct (lex_next_lexes k (canon m (d :: l0) (pos0 + len W))) as (r & s2 & L). pose proof (lx_eq _ _ _ _ L) as E2. rewrite E' in E2. injection E2 as <- <-. destruct (lx_split _ _ _ _ L) as (w & used & E1 & Hw & Hst & _ & Hu). cbn [canon l_rest l_end] in *.
      destruct w as [|z w]; [|exfalso; cbn [app] in E1; injection E1 as <- _; cbn [forallb] in Hw; rewrite Ha' in Hw; discriminate Hw]. cbn [app] in E1. destruct used as [|c r1]; [congruence|]. injection E1 as <- E1.
      exists W, d, r1. split; [|auto]. apply (app_inv_tail q). rewrite Et, E1, Hr. cbn [app]. rewrite <- !app_assoc. cbn [app]. rewrite <- app_assoc. reflexivity. }
  destruct Hsp as (w & c & r1 & Ex & Hw & Hc). set (r := r1 ++ x').
  assert (Ex1 : x ++ q = w ++ c :: (r ++ q)) by (rewrite Ex; unfold r; cbn [app]; rewrite <- !app_assoc; cbn [app]; rewrite <- app_assoc; reflexivity).
  assert (Ex2 : x ++ y = w ++ c :: (r ++ y)) by (rewrite Ex; unfold r; cbn [app]; rewrite <- !app_assoc; cbn [app]; rewrite <- app_assoc; reflexivity).
  assert (Ha' : y = q \/ apart (c :: r) y = true /\ ((exists v, t = TLineComment v) -> x' ++ q = [] -> exists u, x = u ++ [10])) by (destruct Hor as [Hor|[Ha Hline]]; [now left|right; split; [|exact Hline]]; rewrite <- Ha, Ex; unfold r; symmetry; apply (apart_app w (c :: r1 ++ x') y); discriminate).
  rewrite Ex1, (lex_blanks k m w c (r ++ q) pos0 Hw Hc) in E. destruct (scan (munch_ideal k) (c :: r ++ q)) as [kd sl] eqn:Es. cbv zeta in E.
  destruct (scan_slice (munch_ideal k) c (r ++ q)) as (_ & s & Esl). rewrite Es in Esl. cbn [snd] in Esl. rewrite Esl, skip_app in E.
  assert (Hin : s = x' ++ q -> c :: r = sl ++ x' /\ (length sl <= length (c :: r))%nat).
  { intros ->. assert (Hq : c :: r = sl ++ x') by (apply (app_inv_tail q); rewrite <- app_assoc; exact Esl). split; [exact Hq|]. rewrite Hq, app_length. lia. }
  assert (Hnext : kd <> KErr -> s = x' ++ q -> (kd = KLine -> y = q \/ In 10 sl) -> scan (munch_ideal k) (c :: r ++ y) = (kd, sl) /\ skipn (length sl) (c :: r ++ y) = x' ++ y).
  { intros Hk Hs Hl. destruct (Hin Hs) as [H1 H2]. split; [destruct Ha' as [-> |[Ha' _]]; [exact Es|]; destruct (scan_kind_eq kd) as [Hkl|Hkl]; [destruct (Hl Hkl) as [-> |Hl']; [exact Es|]; eapply scan_local; eauto|eapply scan_local; eauto; congruence]|]. rewrite app_comm_cons, H1, <- app_assoc. apply skip_app. }
  assert (Hhead : head_sat (fun z => is_alpha z || (z =? 95)) (x' ++ q) = false -> head_sat (fun z => is_alpha z || (z =? 95)) (x' ++ y) = false).
  { intros H. destruct Ha' as [-> |[Ha' _]]; [exact H|]. rewrite (head_sat_apart _ x' _ y Ha' sep_alpha). destruct x'; [reflexivity|exact H]. }
  destruct kd.
  - injection E as <- <-. cbn [l_rest l_errs] in Hr. destruct (Hnext ltac:(discriminate) Hr ltac:(discriminate)) as [H1 H2]. exists [], (x' ++ y). split; [reflexivity|]. split; [constructor|]. split; [congruence|]. intros pos. rewrite Ex2, (lex_blanks k m w c (r ++ y) pos Hw Hc), H1. cbv zeta. rewrite H2. eexists. split; [reflexivity|]. auto.
  - injection E as <- <-. cbn [l_rest l_errs] in Hr. destruct (Hnext ltac:(discriminate) Hr ltac:(discriminate)) as [H1 H2]. exists [], (x' ++ y). split; [reflexivity|]. split; [constructor|]. split; [congruence|]. intros pos. rewrite Ex2, (lex_blanks k m w c (r ++ y) pos Hw Hc), H1. cbv zeta. rewrite H2. eexists. split; [reflexivity|]. auto.
  - destruct (cb_int 8 1 (pos0 + len w) sl s) as [[v es] a] eqn:Ei. injection E as <- <-. cbn [l_rest l_errs] in Hr, He. destruct (Hnext ltac:(discriminate) Hr ltac:(discriminate)) as [H1 H2]. exists [], (x' ++ y). split; [reflexivity|]. split; [constructor|]. split; [congruence|]. intros pos. rewrite Ex2, (lex_blanks k m w c (r ++ y) pos Hw Hc), H1. cbv zeta. rewrite H2. subst es s.
    destruct (cb_int_local _ _ _ _ _ _ _ _ (x' ++ y) (pos + len w) Ei eq_refl (Hhead (cb_int_head _ _ _ _ _ _ _ Ei))) as (a2 & Ea). rewrite Ea. eexists. split; [reflexivity|]. auto.
  - destruct (cb_int 10 0 (pos0 + len w) sl s) as [[v es] a] eqn:Ei. injection E as <- <-. cbn [l_rest l_errs] in Hr, He. destruct (Hnext ltac:(discriminate) Hr ltac:(discriminate)) as [H1 H2]. exists [], (x' ++ y). split; [reflexivity|]. split; [constructor|]. split; [congruence|]. intros pos. rewrite Ex2, (lex_blanks k m w c (r ++ y) pos Hw Hc), H1. cbv zeta. rewrite H2. subst es s.
    destruct (cb_int_local _ _ _ _ _ _ _ _ (x' ++ y) (pos + len w) Ei eq_refl (Hhead (cb_int_head _ _ _ _ _ _ _ Ei))) as (a2 & Ea). rewrite Ea. eexists. split; [reflexivity|]. auto.
  - destruct (cb_int 16 2 (pos0 + len w) sl s) as [[v es] a] eqn:Ei. injection E as <- <-. cbn [l_rest l_errs] in Hr, He. destruct (Hnext ltac:(discriminate) Hr ltac:(discriminate)) as [H1 H2]. exists [], (x' ++ y). split; [reflexivity|]. split; [constructor|]. split; [congruence|]. intros pos. rewrite Ex2, (lex_blanks k m w c (r ++ y) pos Hw Hc), H1. cbv zeta. rewrite H2. subst es s.
    destruct (cb_int_local _ _ _ _ _ _ _ _ (x' ++ y) (pos + len w) Ei eq_refl (Hhead (cb_int_head _ _ _ _ _ _ _ Ei))) as (a2 & Ea). rewrite Ea. eexists. split; [reflexivity|]. auto.
  - destruct (cb_float m (pos0 + len w, pos0 + len w + len sl) sl) as [v es] eqn:Ei. injection E as <- <-. cbn [l_rest l_errs] in Hr, He. destruct (Hnext ltac:(discriminate) Hr ltac:(discriminate)) as [H1 H2]. exists [], (x' ++ y). split; [reflexivity|]. split; [constructor|]. split; [congruence|]. intros pos. rewrite Ex2, (lex_blanks k m w c (r ++ y) pos Hw Hc), H1. cbv zeta. rewrite H2. subst es s.
    assert (Ef : cb_float m (pos + len w, pos + len w + len sl) sl = (v, [])). { unfold cb_float in *. destruct (rev sl) as [|d ds]; [injection Ei as <-; reflexivity|]. destruct ((d =? 102) || (d =? 70)); [|injection Ei as <-; reflexivity]. destruct m; [injection Ei as <-; reflexivity|discriminate]. }
    rewrite Ef. eexists. split; [reflexivity|]. auto.
  - destruct (scan_quote _ _ _ Es) as (qt & rq & Eq & Hq & ->). injection Eq as <- <-. cbn [app] in Esl. injection Esl as <-.
    assert (Hsnd : lex_next k (canon m (c :: r ++ q) (pos0 + len w)) = Done (Some (Some t), s')).
    { rewrite <- (lex_drop k m w c (r ++ q) pos0 Hw Hc), (lex_blanks k m w c (r ++ q) pos0 Hw Hc), Es. cbv zeta. cbn [length skipn]. exact E. }
    assert (Ht : exists v, t = TStr v). { destruct (str_loop _ _ _ _ _ _) as [[[[v1 v2] v3] v4]| |]; cbn [obind] in E; try discriminate. injection E as <- _. eauto. } destruct Ht as (v & ->).
    destruct (C10_string_sound _ _ _ _ Hsnd He) as (w2 & q2 & body & E1 & Hw2 & Hq2 & Hd & _). cbn [canon l_rest] in E1. rewrite Hr in E1. destruct w2 as [|z w2]; [|exfalso; cbn [app] in E1; injection E1 as -> _; apply Forall_inv in Hw2; apply is_skip_iff in Hw2; congruence].
    cbn [app] in E1. injection E1 as <- E1. assert (Er : r = body ++ c :: x') by (apply (app_inv_tail q); rewrite E1, <- app_assoc; reflexivity).
    exists [], (x' ++ y). split; [reflexivity|]. split; [constructor|]. split; [congruence|]. intros pos. rewrite Ex2, (lex_drop k m w c (r ++ y) pos Hw Hc).
    destruct (C10_string_complete k (canon m (c :: r ++ y) (pos + len w)) c body v (x' ++ y) Hq Hd) as (s2 & F1 & F2 & F3 & _); [cbn [canon l_rest]; rewrite Er, <- app_assoc; reflexivity|]. exists s2. split; [exact F1|]. split; [exact F3|exact F2].
  - injection E as <- <-. cbn [l_rest l_errs] in Hr. destruct (Hnext ltac:(discriminate) Hr ltac:(discriminate)) as [H1 H2]. exists [], (x' ++ y). split; [reflexivity|]. split; [constructor|]. split; [congruence|]. intros pos. rewrite Ex2, (lex_blanks k m w c (r ++ y) pos Hw Hc), H1. cbv zeta. rewrite H2. eexists. split; [reflexivity|]. auto.
  - destruct (cb_line m (pos0 + len w, pos0 + len w + len sl) sl) as [[v es]| |] eqn:Ei; cbn [obind] in E; try discriminate. injection E as <- <-. cbn [l_rest l_errs] in Hr, He. subst es.
    assert (Hl10 : y = q \/ In 10 sl). { destruct Ha' as [Hy|[Ha' Hline]]; [now left|right]. destruct (scan_kind_line _ _ _ _ Es) as (mk & u & -> & Eu). destruct (scan_line_spec u) as (Eu2 & Hu). assert (Hs : s = skipn (length (scan_line u)) u).
        { rewrite Eu in Esl. rewrite Eu2 in Esl at 1. rewrite app_assoc in Esl. now apply app_inv_head in Esl. }
      rewrite <- Hs in Hu. destruct Hu as [(Hu & Hno)|(ln & Eln & _)]; [|rewrite Eln; apply in_or_app; right; apply in_or_app; right; now left].
      rewrite Hr in Hu. destruct (Hline ltac:(eauto) Hu) as (u0 & Eu0). apply app_eq_nil in Hu. destruct Hu as [-> ->]. destruct (Hin Hr) as [Hi _]. unfold r in Hi. rewrite !app_nil_r in Hi. rewrite Ex, app_nil_r, Hi in Eu0.
      destruct (exists_last (l := mk ++ scan_line u)) as (sl0 & z & Ez); [rewrite <- Hi; discriminate|]. rewrite Ez, app_assoc in Eu0. apply app_inj_tail in Eu0. destruct Eu0 as [_ ->]. rewrite Ez. apply in_or_app. right. now left. }
    destruct (Hnext ltac:(discriminate) Hr (fun _ => Hl10)) as [H1 H2]. exists [], (x' ++ y). split; [reflexivity|]. split; [constructor|]. split; [congruence|]. intros pos. rewrite Ex2, (lex_blanks k m w c (r ++ y) pos Hw Hc), H1. cbv zeta. rewrite H2.
    assert (Ef : cb_line m (pos + len w, pos + len w + len sl) sl = Done (v, [])).
    { unfold cb_line in *. cbv zeta in *. destruct (negb m && starts_with [35] sl) eqn:Eb; [destruct (starts_with [47; 47] sl); [discriminate|]; destruct (starts_with [35] sl); discriminate|]. exact Ei. }
    rewrite Ef. cbn [obind]. eexists. split; [reflexivity|]. auto.
  - destruct (scan_kind_block _ _ _ _ Es) as (-> & r' & Er). cbn [app] in Esl. rewrite Er in Esl. injection Esl as <-. cbn [length] in E.
    destruct (block_loop (S (length r')) (pos0 + len w + len [47; 42]) r' 1 None [] []) as [[[[v1 v2] v3] v4]| |] eqn:Eb; cbn [obind] in E; try discriminate. injection E as <- <-. cbn [l_rest l_errs] in Hr, He. subst v3 v4.
    destruct (block_sound (length r') (S (length r')) _ r' None [] v1 v2 (x' ++ q) (Nat.le_refl _) (Nat.lt_succ_diag_r _) eq_refl Eb) as (tx & -> & Hb & _). cbn [app].
    destruct (block_local _ _ _ Hb) as (u & Eu & _ & _ & Hloc). destruct (Hloc (x' ++ y)) as (z & rest2 & Ez & Hz & Hb2). exists z, rest2. split; [exact Ez|]. split; [exact Hz|]. split; [intros Hz0; split; [exact (block_blanks _ _ _ _ _ _ _ Hb Ez Hz Hz0)|reflexivity]|]. intros pos.
    assert (Ecr : c :: r = 47 :: 42 :: u ++ x') by (apply (app_inv_tail q); cbn [app]; rewrite <- app_assoc, <- Eu; exact Er).
    rewrite Ex2, (lex_blanks k m w c (r ++ y) pos Hw Hc). assert (Es2 : scan (munch_ideal k) (c :: r ++ y) = (KBlock, [47; 42])).
    { rewrite app_comm_cons, Ecr. cbn [app]. reflexivity. }
    rewrite Es2. cbv zeta. assert (Esk : skipn (length [47; 42]) (c :: r ++ y) = u ++ x' ++ y) by (rewrite app_comm_cons, Ecr; cbn [app length skipn]; now rewrite <- app_assoc).
    rewrite Esk. destruct (block_complete _ _ _ Hb2 (S (length (u ++ x' ++ y))) (pos + len w + len [47; 42]) [] [] (Nat.lt_succ_diag_r _)) as (fin & Ef). rewrite Ef. cbn [obind app]. eexists. split; [reflexivity|]. auto.
  - discriminate.
Qed.

(** ** Whole texts, without positions *)
Inductive reads_as (k : cfg) : list bool -> bytes -> list token -> Prop :=
| ra_end l : Forall blank l -> reads_as k [] l []
| ra_trivia ms l t rest ts : lexed k (hd false ms) l t rest -> is_trivia t = true -> reads_as k ms rest ts -> reads_as k ms l ts
| ra_tok m ms l t rest ts : lexed k m l t rest -> is_trivia t = false -> reads_as k ms rest ts -> reads_as k (m :: ms) l (t :: ts).

Lemma lex_skip k m z l pos : Forall blank z -> lex_next k (canon m (z ++ l) pos) = lex_next k (canon m l (pos + len z)).
Proof.
  intros H. unfold lex_next. cbn [canon l_rest l_end l_errs l_tfm l_assert]. rewrite (skip_blanks _ _ H), app_length, len_app, N.add_assoc.
  replace (skipn (length z + length (take_while is_skip l)) (z ++ l)) with (skipn (length (take_while is_skip l)) l); [reflexivity|].
  rewrite skipn_app, (skipn_all2 z) by lia. cbn [app]. f_equal. lia.
Qed.
Lemma blank_end k m l pos : Forall blank l -> exists s', lex_next k (canon m l pos) = Done (None, s').
Proof. intros H. rewrite <- (app_nil_r l), (lex_skip k m l [] pos H). unfold lex_next. cbn. eauto. Qed.
Lemma end_blank k m l pos s' : lex_next k (canon m l pos) = Done (None, s') -> Forall blank l.
Proof.
  intros E. destruct (lex_next_lexes k (canon m l pos)) as (r & s2 & L). pose proof (lx_eq _ _ _ _ L) as E2. rewrite E in E2. injection E2 as <- <-. destruct (lx_split _ _ _ _ L) as (w & used & E1 & Hw & _ & _ & -> & Hr). cbn [canon l_rest] in E1.
  rewrite Hr, !app_nil_r in E1. subst l. now apply is_skip_blank.
Qed.
Lemma lexed_split k m l t rest : lexed k m l t rest -> exists w used, l = w ++ used ++ rest /\ Forall blank w /\ used <> [].
Proof.
  intros (pos0 & s' & E & He & Hr). destruct (lex_next_lexes k (canon m l pos0)) as (r & s2 & L). pose proof (lx_eq _ _ _ _ L) as E2. rewrite E in E2. injection E2 as <- <-.
  destruct (lx_split _ _ _ _ L) as (w & used & E1 & Hw & _ & _ & Hu). cbn [canon l_rest] in E1. rewrite Hr in E1. exists w, used. split; [exact E1|]. split; [now apply is_skip_blank|exact Hu].
Qed.
Lemma lexed_at k m l t rest pos : lexed k m l t rest -> exists z rest2 s', rest = z ++ rest2 /\ Forall blank z /\ lex_next k (canon m l pos) = Done (Some (Some t), s') /\ l_errs s' = [] /\ l_rest s' = rest2.
Proof.
  intros H. destruct (lexed_split _ _ _ _ _ H) as (w & used & E1 & _). rewrite app_assoc in E1. subst l.
  destruct (lexed_local k m (w ++ used) rest rest t [] H (or_introl eq_refl)) as (z & rest2 & Ez & Hz & _ & Hl). destruct (Hl pos) as (s2 & F1 & F2 & F3). cbn [app] in Ez. exists z, rest2, s2. auto.
Qed.
Lemma lexed_drop k m z l t rest : Forall blank z -> lexed k m (z ++ l) t rest -> lexed k m l t rest.
Proof. intros Hz (pos & s' & E & He & Hr). rewrite (lex_skip k m z l pos Hz) in E. exists (pos + len z), s'. auto. Qed.
Lemma reads_drop k ms z l ts : Forall blank z -> reads_as k ms (z ++ l) ts -> reads_as k ms l ts.
Proof.
  intros Hz H. inversion H as [l0 Hb|ms0 l0 t rest ts0 H1 H2 H3|m ms0 l0 t rest ts0 H1 H2 H3]; subst.
  - apply Forall_app in Hb. apply ra_end. tauto.
  - eapply ra_trivia; [eapply lexed_drop; eassumption|assumption|assumption].
  - eapply ra_tok; [eapply lexed_drop; eassumption|assumption|assumption].
Qed.
Lemma reads_at k m l t rest ms ts pos : lexed k m l t rest -> reads_as k ms rest ts ->
  exists s', lex_next k (canon m l pos) = Done (Some (Some t), s') /\ l_errs s' = [] /\ reads_as k ms (l_rest s') ts.
Proof.
  intros H1 H2. destruct (lexed_at k m l t rest pos H1) as (z & rest2 & s' & -> & Hz & E & He & Hr). exists s'. split; [exact E|]. split; [exact He|]. rewrite Hr. eapply reads_drop; eauto.
Qed.
Lemma reads_add k ms z l ts : Forall blank z -> reads_as k ms l ts -> reads_as k ms (z ++ l) ts.
Proof.
  intros Hz H. inversion H as [l0 Hb|ms0 l0 t rest ts0 H1 H2 H3|m ms0 l0 t rest ts0 H1 H2 H3]; subst.
  - apply ra_end. now apply Forall_app.
  - destruct (reads_at k _ l t rest ms ts (0 + len z) H1 H3) as (s' & E & He & Hr). eapply ra_trivia; [|exact H2|exact Hr]. exists 0, s'. rewrite (lex_skip k _ z l 0 Hz). auto.
  - destruct (reads_at k _ l t rest _ _ (0 + len z) H1 H3) as (s' & E & He & Hr). eapply ra_tok; [|exact H2|exact Hr]. exists 0, s'. rewrite (lex_skip k _ z l 0 Hz). auto.
Qed.

Lemma stream_canon k m rest pos r s' : lex_next k (canon m rest pos) = Done (r, s') ->
  stream k rest pos = match r with None => [] | Some t => (t, (l_start s', l_end s')) :: stream k (l_rest s') (l_end s') end.
Proof. intros E. exact (stream_step k (canon m rest pos) r s' E). Qed.
Definition tokens_of k l pos : list (option token) := map fst (sigs (stream k l pos)).
Lemma tokens_step k m rest pos t s' : lex_next k (canon m rest pos) = Done (Some (Some t), s') ->
  tokens_of k rest pos = (if is_trivia t then [] else [Some t]) ++ tokens_of k (l_rest s') (l_end s').
Proof. intros E. unfold tokens_of. rewrite (stream_canon _ _ _ _ _ _ E). cbn [sigs filter significant fst]. destruct (is_trivia t); reflexivity. Qed.

Lemma mclean_reads k ms l pos : mclean k ms l pos -> exists ts, reads_as k ms l ts /\ tokens_of k l pos = map Some ts.
Proof.
  induction 1 as [rest pos s' E|ms rest pos t s' E Ht He H (ts & IH & Es)|m ms rest pos t s' E Ht He H (ts & IH & Es)].
  - exists []. split; [eapply ra_end, end_blank, E|]. unfold tokens_of. now rewrite (stream_canon _ _ _ _ _ _ E).
  - exists ts. split; [eapply ra_trivia; [|exact Ht|exact IH]; exists pos, s'; auto|]. now rewrite (tokens_step _ _ _ _ _ _ E), Ht.
  - exists (t :: ts). split; [eapply ra_tok; [|exact Ht|exact IH]; exists pos, s'; auto|]. now rewrite (tokens_step _ _ _ _ _ _ E), Ht, Es.
Qed.
Lemma lex_less k m l pos t s' : lex_next k (canon m l pos) = Done (Some t, s') -> (length (l_rest s') < length l)%nat.
Proof.
  intros E. destruct (lex_next_lexes k (canon m l pos)) as (r & s2 & L). pose proof (lx_eq _ _ _ _ L) as E2. rewrite E in E2. injection E2 as <- <-. exact (lexes_shrink _ _ _ _ L).
Qed.
Lemma reads_mclean k ms l ts pos : reads_as k ms l ts -> mclean k ms l pos /\ tokens_of k l pos = map Some ts.
Proof.
  revert ms ts pos. induction l as [l IH] using (induction_ltof1 _ (@length N)). intros ms ts pos H. inversion H as [l0 Hb|ms0 l0 t rest ts0 H1 H2 H3|m ms0 l0 t rest ts0 H1 H2 H3]; subst.
  - destruct (blank_end k false l pos Hb) as (s' & E). split; [eapply mc_end, E|]. unfold tokens_of. now rewrite (stream_canon _ _ _ _ _ _ E).
  - destruct (reads_at k _ l t rest ms ts pos H1 H3) as (s' & E & He & Hr). destruct (IH (l_rest s') (lex_less _ _ _ _ _ _ E) _ _ (l_end s') Hr) as [IH1 IH2].
    split; [eapply mc_trivia; eauto|]. now rewrite (tokens_step _ _ _ _ _ _ E), H2.
  - destruct (reads_at k _ l t rest _ _ pos H1 H3) as (s' & E & He & Hr). destruct (IH (l_rest s') (lex_less _ _ _ _ _ _ E) _ _ (l_end s') Hr) as [IH1 IH2].
    split; [eapply mc_tok; eauto|]. now rewrite (tokens_step _ _ _ _ _ _ E), H2, IH2.
Qed.

(** ** Spacing *)
Lemma block_closed tail : forall n body, (length body <= n)%nat -> ~ occurs (b "*/") body -> ~ occurs (b "/*") (body ++ b "*") ->
  exists t z rest, tail = z ++ rest /\ Forall blank z /\ block_at (body ++ b "*/" ++ tail) t rest.
Proof.
  induction n as [|n IH]; intros body Hn H1 H2.
  - destruct body; [|cbn in Hn; lia]. exists [], (take_while is_skip tail), (skipn (length (take_while is_skip tail)) tail). split; [apply tw_split|].
    assert (Hb : Forall blank (take_while is_skip tail)) by (apply is_skip_blank, take_while_all). split; [exact Hb|]. rewrite (tw_split is_skip tail) at 1. cbn [app]. apply ba_end; [exact Hb|].
    intros (c & r & E & Hc). pose proof (tw_after is_skip tail) as Ha. rewrite E in Ha. cbn [head_sat] in Ha. apply is_skip_iff in Hc. congruence.
  - destruct body as [|c body]; [apply (IH []); cbn [length]; auto; lia|]. cbn [length] in Hn.
    assert (Hsub : forall u v, c :: body = u ++ v -> ~ occurs (b "*/") v /\ ~ occurs (b "/*") (v ++ b "*")).
    { intros u v E. split; intros (x & y & Ex); [apply H1; exists (u ++ x), y|apply H2; exists (u ++ x), y]; rewrite E, <- ?app_assoc; f_equal; exact Ex. }
    destruct (N.eq_dec c 10) as [-> |Hc].
    + destruct (trim_start_spec (body ++ b "*/" ++ tail)) as (ws & Ews & Hw & Hnw). set (r := trim_start (body ++ b "*/" ++ tail)) in *. clearbody r.
      assert (Hb : exists body2, body = ws ++ body2).
      { rewrite app_assoc in Ews. destruct (before_star ws r (body ++ b "*/") tail (white_no_star _ Hw)) as (s & Es); [apply in_or_app; right; now left|exact Ews|].
        destruct (Nat.le_gt_cases (length ws) (length body)) as [Hl|Hl]; [exact (prefix_of_app ws s body (b "*/") (eq_sym Es) Hl)|]. exfalso. apply (white_no_star _ Hw).
        symmetry in Es. destruct (prefix_of_app (body ++ [42]) (b "/") ws s) as (s' & E'); [rewrite Es, <- app_assoc; reflexivity|rewrite app_length; cbn [length]; lia|]. rewrite E'. apply in_or_app. left. apply in_or_app. right. now left. }
      destruct Hb as (body2 & ->). rewrite <- app_assoc in Ews. apply app_inv_head in Ews. subst r. rewrite app_length in Hn.
      assert (Hd : star_here (body2 ++ b "*/" ++ tail) -> exists body3, body2 = 42 :: body3).
      { intros (r & E & Hr). destruct body2 as [|d body3]; [|cbn [app] in E; injection E as -> _; eauto]. exfalso. apply Hr. change (42 :: 47 :: tail = 42 :: r) in E. injection E as <-. exists 47, tail. auto. }
      destruct body2 as [|d body3].
      * destruct (Hsub (10 :: ws) [] eq_refl) as [G1 G2]. destruct (IH [] ltac:(cbn; lia) G1 G2) as (t & z & rest & E1 & E2 & E3). exists (10 :: t), z, rest. split; [exact E1|]. split; [exact E2|]. rewrite <- app_comm_cons, <- app_assoc. apply ba_line; [exact Hw|exact Hnw| |exact E3]. intros Hs. destruct (Hd Hs) as (? & Hx). discriminate Hx.
      * destruct (N.eq_dec d 42) as [-> |Hd42].
        -- assert (Hdec : star_here (42 :: body3 ++ b "*/" ++ tail)). { exists (body3 ++ b "*/" ++ tail). split; [reflexivity|]. intros (x & r & Ex & <-). destruct body3 as [|e body3]; [discriminate Ex|]. cbn [app] in Ex. injection Ex as -> _. apply (proj1 (Hsub (10 :: ws) (42 :: 47 :: body3) eq_refl)). exists [], body3. reflexivity. }
           destruct (Hsub (10 :: ws ++ [42]) body3) as [G1 G2]; [cbn [app]; now rewrite <- app_assoc|]. destruct (IH body3 ltac:(cbn [length] in Hn; lia) G1 G2) as (t & z & rest & E1 & E2 & E3). exists (10 :: t), z, rest. split; [exact E1|]. split; [exact E2|].
           rewrite <- app_comm_cons, <- app_assoc. rewrite <- app_comm_cons. apply ba_star; [exact Hw|exact Hdec|exact E3].
        -- destruct (Hsub (10 :: ws) (d :: body3) eq_refl) as [G1 G2]. destruct (IH (d :: body3) ltac:(lia) G1 G2) as (t & z & rest & E1 & E2 & E3). exists (10 :: t), z, rest. split; [exact E1|]. split; [exact E2|].
           rewrite <- app_comm_cons, <- app_assoc. apply ba_line; [exact Hw|exact Hnw| |exact E3]. intros Hs. destruct (Hd Hs) as (? & Hx). congruence.
    + destruct (Hsub [c] body eq_refl) as [G1 G2]. destruct (IH body ltac:(lia) G1 G2) as (t & z & rest & E1 & E2 & E3). exists (c :: t), z, rest. split; [exact E1|]. split; [exact E2|]. rewrite <- app_comm_cons. apply ba_char; [exact Hc| | |exact E3]; intros -> (x & r & Ex & <-).
      * destruct body as [|d body]; [discriminate Ex|]. cbn [app] in Ex. injection Ex as -> _. apply H1. exists [], body. reflexivity.
      * apply H2. destruct body as [|d body]; [exists [], []; reflexivity|]. cbn [app] in Ex. injection Ex as -> _. exists [], (body ++ b "*"). reflexivity.
Qed.

Lemma newline_lexed k m l : lexed k m (10 :: l) TNewline l.
Proof. exists 0. eexists. split; [unfold lex_next; cbn [canon l_rest take_while is_skip]; cbn; reflexivity|]. auto. Qed.
Lemma take_line line l : ~ In 10 line -> scan_line (line ++ 10 :: l) = line ++ [10].
Proof.
  intros H. unfold scan_line. cbv zeta. rewrite take_while_prefix by (apply forallb_forall; intros c Hc; destruct (c =? 10) eqn:E; [apply N.eqb_eq in E; subst; contradiction|reflexivity]). cbn [take_while N.eqb Pos.eqb negb].
  rewrite app_nil_r, skip_app. reflexivity.
Qed.
Lemma line_lexed k m line l : ~ In 10 line -> exists v, lexed k m (b "//" ++ line ++ 10 :: l) (TLineComment v) l.
Proof.
  intros H. change (b "//" ++ line ++ 10 :: l) with ([] ++ 47 :: (47 :: line ++ 10 :: l)). unfold lexed. eexists. exists 0. eexists. split; [|split; [|]].
  - rewrite (lex_blanks k m [] 47 _ 0 (Forall_nil _) eq_refl). assert (Es : scan (munch_ideal k) (47 :: 47 :: line ++ 10 :: l) = (KLine, 47 :: 47 :: line ++ [10])) by (unfold scan; cbn -[scan_line app]; cbn [tl]; now rewrite (take_line _ _ H)).
    rewrite Es. cbv zeta. cbn [length skipn]. unfold cb_line. cbn [starts_with N.eqb Pos.eqb andb]. rewrite andb_false_r. cbn [obind]. reflexivity.
  - reflexivity.
  - cbn [l_rest]. replace (line ++ 10 :: l) with ((line ++ [10]) ++ l) by now rewrite <- app_assoc. apply skip_app.
Qed.
Lemma block_lexed k m body l : ~ occurs (b "*/") body -> ~ occurs (b "/*") (body ++ b "*") -> exists v z rest, l = z ++ rest /\ Forall blank z /\ lexed k m (b "/*" ++ body ++ b "*/" ++ l) (TBlockComment v) rest.
Proof.
  intros H1 H2. destruct (block_closed l _ body (Nat.le_refl _) H1 H2) as (t & z & rest & E1 & E2 & E3). exists (normalize_newlines t), z, rest. split; [exact E1|]. split; [exact E2|].
  destruct (block_complete _ _ _ E3 (S (length (body ++ b "*/" ++ l))) (0 + len (@nil N) + len [47; 42]) [] [] (Nat.lt_succ_diag_r _)) as (fin & Ef).
  change (b "/*" ++ body ++ b "*/" ++ l) with ([] ++ 47 :: (42 :: body ++ b "*/" ++ l)). exists 0. eexists. split; [|split].
  - rewrite (lex_blanks k m [] 47 _ 0 (Forall_nil _) eq_refl). assert (Es : scan (munch_ideal k) (47 :: 42 :: body ++ b "*/" ++ l) = (KBlock, [47; 42])) by reflexivity.
    rewrite Es. cbv zeta. cbn [length skipn]. rewrite Ef. cbn [obind app]. reflexivity.
  - reflexivity.
  - reflexivity.
Qed.
Lemma spacing_reads k w : spacing w -> forall ms q ts, reads_as k ms q ts -> reads_as k ms (w ++ q) ts.
Proof.
  induction 1 as [|c w Hc Hw IH|w Hw IH|line w Hl Hw IH|body w Hb1 Hb2 Hw IH]; intros ms q ts H.
  - exact H.
  - apply (reads_add k ms [c]); auto.
  - cbn [app]. eapply ra_trivia; [apply newline_lexed|reflexivity|auto].
  - destruct (line_lexed k (hd false ms) line (w ++ q) Hl) as (v & L). rewrite <- !app_assoc, <- app_comm_cons. eapply ra_trivia; [exact L|reflexivity|auto].
  - destruct (block_lexed k (hd false ms) body (w ++ q) Hb1 Hb2) as (v & z & rest & E & Hz & L). rewrite <- !app_assoc. eapply ra_trivia; [exact L|reflexivity|]. eapply (reads_drop _ _ z); [exact Hz|]. rewrite <- E. auto.
Qed.

(** ** Inserting *)
Lemma spacing_head w : spacing w -> w = [] \/ exists c v, w = c :: v /\ (sep_char c = true \/ c = 47).
Proof.
  intros H. destruct H as [|c w Hc Hw|w Hw|line w Hl Hw|body w Hb1 Hb2 Hw]; [now left|right..].
  - exists c, w. split; [reflexivity|]. left. unfold sep_char. apply is_skip_iff in Hc. now rewrite Hc.
  - exists 10, w. auto.
  - exists 47, (47 :: line ++ 10 :: w). auto.
  - exists 47, (42 :: body ++ b "*/" ++ w). auto.
Qed.
Lemma spacing_apart x w q : spacing w -> w <> [] -> ~ slashes x w -> apart x (w ++ q) = true.
Proof.
  intros H Hn Hs. destruct (spacing_head w H) as [->|(c & v & -> & Hc)]; [congruence|]. cbn [app apart]. destruct (sep_char c) eqn:Ec; [reflexivity|]. destruct Hc as [Hc| ->]; [congruence|]. cbn [orb N.eqb Pos.eqb andb].
  unfold ends_slash. destruct (rev x) as [|d r] eqn:Er; [reflexivity|]. destruct (d =? 47) eqn:Ed; [|reflexivity]. exfalso. apply Hs. apply N.eqb_eq in Ed. subst d. split; [|exists v; reflexivity]. exists (rev r). rewrite <- (rev_involutive x), Er. reflexivity.
Qed.

Lemma insert_reads k w q : spacing w -> w <> [] -> forall ms x ts pos, reads_as k ms (x ++ q) ts ->
  between (stream k (x ++ q) pos) (pos + len x) -> ~ slashes x w ->
  (q = [] -> forall c sp, In (Some (TLineComment c), sp) (stream k (x ++ q) pos) -> s_end sp = pos + len x -> exists u, x = u ++ [10]) ->
  reads_as k ms (x ++ w ++ q) ts.
Proof.
  intros Hw Hn ms x. remember (length x) as n eqn:En. revert ms x En. induction n as [n IH] using lt_wf_ind. intros ms x En ts pos H Hb Hs Ho.
  assert (Hstep : forall m t rest ms' ts', lexed k m (x ++ q) t rest -> reads_as k ms' rest ts' ->
    Forall blank x \/ exists rest2, lexed k m (x ++ w ++ q) t rest2 /\ reads_as k ms' rest2 ts').
  { intros m t rest ms' ts' H1 H2. destruct (lexed_at k m (x ++ q) t rest pos H1) as (z & rest2 & s' & -> & Hz & E & He & Hr). pose proof (stream_canon _ _ _ _ _ _ E) as Est.
    destruct (lex_next_lexes k (canon m (x ++ q) pos)) as (r & s2 & L). pose proof (lx_eq _ _ _ _ L) as E2. rewrite E in E2. injection E2 as <- <-. destruct (lx_split _ _ _ _ L) as (wz & used & E1 & Hwz & Hst & Hen & Hu). cbn [canon l_rest l_end] in *.
    assert (Hside : l_end s' <= pos + len x \/ pos + len x <= l_start s') by (apply (Hb (Some t) (l_start s', l_end s')); rewrite Est; now left).
    destruct Hside as [Hl|Hl].
    - right. rewrite Hr in E1. assert (Hlen : (length (wz ++ used) <= length x)%nat) by (rewrite app_length; unfold len in *; lia). rewrite app_assoc in E1. destruct (prefix_of_app (wz ++ used) rest2 x q (eq_sym E1) Hlen) as (x' & Ex).
      assert (Er2 : rest2 = x' ++ q). { rewrite Ex, <- app_assoc in E1. apply app_inv_head in E1. now symmetry. } rewrite Er2 in Hr, H1, H2. clear Er2 E1 rest2.
      assert (Hx0 : x <> []) by (intros ->; destruct wz, used; cbn in Ex; congruence).
      assert (Hlx : lexed k m (x ++ q) t (x' ++ q)) by (exists pos, s'; auto).
      destruct (lexed_local k m x q (w ++ q) t x' Hlx) as (z2 & rest2 & Ez2 & Hz2 & _ & Hloc).
      { right. split; [apply spacing_apart; auto|]. intros (v & ->) Hnil. apply app_eq_nil in Hnil. destruct Hnil as [-> Hq]. rewrite app_nil_r in Ex. apply (Ho Hq v (l_start s', l_end s')); [rewrite Est; now left|]. cbn [s_end snd]. unfold s_end. cbn [snd]. rewrite Hen, Hst, Ex, len_app. lia. }
      destruct (Hloc 0) as (s2 & F1 & F2 & F3). exists rest2. split; [exists 0, s2; auto|]. apply (reads_drop k ms' z2); [exact Hz2|]. rewrite <- Ez2.
      assert (Epos : l_end s' = pos + len (wz ++ used)) by (rewrite len_app; lia).
      assert (Hx' : pos + len x = l_end s' + len x') by (rewrite Epos; rewrite Ex at 1; rewrite (len_app (wz ++ used)); lia).
      apply (IH (length x')) with (pos := l_end s').
      + subst n. rewrite Ex, app_length, app_length. destruct used; [congruence|]. cbn [length]. lia.
      + reflexivity.
      + eapply reads_drop; [exact Hz|exact H2].
      + rewrite <- Hx'. intros t2 sp Hi. apply (Hb t2 sp). rewrite Est, Hr. now right.
      + intros ((u & Eu) & Hv). apply Hs. split; [|exact Hv]. exists ((wz ++ used) ++ u). rewrite Ex, Eu, <- !app_assoc. reflexivity.
      + intros Hq c sp Hi Hse. destruct (Ho Hq c sp) as (u & Eu); [rewrite Est, Hr; now right|rewrite Hx'; exact Hse|]. 
        destruct x' as [|d x'']; [|]. 
        * exfalso. subst q. cbn [app] in Hi. clear - Hi. unfold stream in Hi. cbn in Hi. destruct Hi.
        * destruct (exists_last (l := d :: x'')) as (y & e & Ey); [discriminate|]. rewrite Ey in Ex |- *. rewrite Ex, app_assoc in Eu. apply app_inj_tail in Eu. destruct Eu as [_ ->]. exists y. reflexivity.
    - left. assert (Hlw : (length x <= length wz)%nat) by (unfold len in *; lia). destruct (prefix_of_app x q wz (used ++ l_rest s') E1 Hlw) as (v & Ev). apply is_skip_blank in Hwz. rewrite Ev in Hwz. apply Forall_app in Hwz. tauto. }
  inversion H as [l0 Hbl|ms0 l0 t rest ts0 H1 H2 H3|m ms0 l0 t rest ts0 H1 H2 H3]; subst.
  - apply Forall_app in Hbl. apply reads_add; [tauto|]. apply spacing_reads; [exact Hw|]. apply ra_end. tauto.
  - destruct (Hstep _ _ _ _ _ H1 H3) as [Hx|(rest2 & G1 & G2)]; [apply reads_add; [exact Hx|]; apply spacing_reads; [exact Hw|]; eapply reads_drop; eassumption|]. eapply ra_trivia; eauto.
  - destruct (Hstep _ _ _ _ _ H1 H3) as [Hx|(rest2 & G1 & G2)]; [apply reads_add; [exact Hx|]; apply spacing_reads; [exact Hw|]; eapply reads_drop; eassumption|]. eapply ra_tok; eauto.
Qed.
