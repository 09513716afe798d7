(** Safety of the lexer: [lex_next] always returns, consumes what it says, and
    its tokens do not depend on the error list or the text-format flag. *)
From Coq Require Import ZifyBool ZifyN.
From Verif Require Import Base Utf8 Errors Lex LexSpec PropsLex1.

(** An error whose spans lie inside a source of [T] bytes. *)
Definition span_ok (T : N) (sp : span) : Prop := s_start sp <= s_end sp /\ s_end sp <= T.
Definition err_ok (T : N) (e : perr) : Prop := Forall (span_ok T) (perr_spans e).

Lemma skipn_suffix {A} n (l : list A) : exists p, l = p ++ skipn n l /\ p = firstn n l.
Proof. exists (firstn n l). split; auto. symmetry. apply firstn_skipn. Qed.
Lemma skipn_prefix {A} (p l : list A) : (exists s, l = p ++ s) -> l = p ++ skipn (length p) l.
Proof. intros (s & ->). now rewrite skip_app. Qed.

(** ** Radix conversion *)
Lemma radix_loop_digits radix l acc : (forall c, In c l -> exists d, digit_val c = Some d /\ d < radix) ->
  (exists v, radix_loop radix acc l = ROk v) \/ radix_loop radix acc l = RPosOverflow.
Proof.
  revert acc. induction l as [|c l IH]; intros acc H; cbn [radix_loop]; eauto.
  destruct (H c (or_introl eq_refl)) as (d & -> & Hd).
  replace (d <? radix) with true by (symmetry; now apply N.ltb_lt).
  destruct (_ <=? u64_max); auto. apply IH. intros x Hx. apply H. now right.
Qed.
Lemma from_str_radix_digits radix l : l <> [] -> (forall c, In c l -> exists d, digit_val c = Some d /\ d < radix) ->
  (exists v, from_str_radix radix l = ROk v) \/ from_str_radix radix l = RPosOverflow.
Proof. intros Hn H. destruct l; [congruence|]. now apply radix_loop_digits. Qed.

Lemma octal_digit_val c : is_octal c = true -> exists d, digit_val c = Some d /\ d < 8.
Proof. intros H. unfold digit_val. assert (is_digit c = true) as -> by bool_lia. exists (c - 48). split; auto. bool_lia. Qed.
Lemma dec_digit_val c : is_digit c = true -> exists d, digit_val c = Some d /\ d < 10.
Proof. intros H. unfold digit_val. rewrite H. exists (c - 48). split; auto. bool_lia. Qed.
Lemma hex_digit_val c : is_hex c = true -> exists d, digit_val c = Some d /\ d < 16.
Proof.
  intros H. unfold digit_val. destruct (is_digit c) eqn:E1; [exists (c - 48); split; auto; bool_lia|].
  destruct (in_range 65 70 c) eqn:E2; [exists (c - 55); split; auto; bool_lia|].
  destruct (in_range 97 102 c) eqn:E3; [exists (c - 87); split; auto; bool_lia|].
  unfold is_hex in H. rewrite E1, E2, E3 in H. discriminate.
Qed.

(** Short digit strings do not overflow. *)
Lemma radix_loop_small radix l acc : 1 <= radix -> radix <= 16 ->
  (forall c, In c l -> exists d, digit_val c = Some d /\ d < radix) ->
  forall n, (length l + n <= 15)%nat -> acc < radix ^ N.of_nat n ->
  exists v, radix_loop radix acc l = ROk v /\ v < radix ^ N.of_nat (length l + n).
Proof.
  intros H1 H16. revert acc. induction l as [|c l IH]; intros acc H n Hn Ha; cbn [radix_loop length]; eauto.
  destruct (H c (or_introl eq_refl)) as (d & -> & Hd).
  replace (d <? radix) with true by (symmetry; now apply N.ltb_lt).
  assert (Ha' : acc * radix + d < radix ^ N.of_nat (S n)).
  { rewrite Nat2N.inj_succ, N.pow_succ_r'. nia. }
  assert (Hp : radix ^ N.of_nat (S n) <= 16 ^ 15).
  { transitivity (16 ^ N.of_nat (S n)); [apply N.pow_le_mono_l; lia|apply N.pow_le_mono_r; [lia|simpl in Hn; lia]]. }
  change (16 ^ 15) with 1152921504606846976 in Hp.
  replace (acc * radix + d <=? u64_max) with true by (symmetry; apply N.leb_le; unfold u64_max; lia).
  replace (S (length l) + n)%nat with (length l + S n)%nat by lia.
  apply IH; auto; [|simpl in Hn; lia]. intros x Hx. apply H. now right.
Qed.
Lemma from_str_radix_small radix l : 1 <= radix -> radix <= 16 -> l <> [] -> (length l <= 15)%nat ->
  (forall c, In c l -> exists d, digit_val c = Some d /\ d < radix) ->
  exists v, from_str_radix radix l = ROk v /\ v < radix ^ N.of_nat (length l).
Proof.
  intros H1 H16 Hn Hl H. destruct l as [|c l]; [congruence|]. unfold from_str_radix.
  destruct (radix_loop_small radix (c :: l) 0 H1 H16 H 0%nat) as (v & E & Hv); [lia|cbn; lia|]. rewrite Nat.add_0_r in Hv. eauto.
Qed.

Lemma forallb_In {A} (f : A -> bool) l x : forallb f l = true -> In x l -> f x = true.
Proof. intros H. apply (proj1 (forallb_forall f l) H). Qed.
Lemma tw_firstn_len f n l : (length (take_while f (firstn n l)) <= n)%nat.
Proof.
  pose proof (take_drop_while f (firstn n l)) as E. apply (f_equal (@length _)) in E. rewrite app_length, firstn_length in E. lia.
Qed.

(** ** String components *)
Definition comp_slice (c : scomp) : bytes :=
  match c with SText t => t | STerm _ s => s | SByte _ s => s | SChar _ s => s | SErr s => s | SPanic => [] end.

Lemma str_comp_ok l : l <> [] -> str_comp l <> SPanic /\ comp_slice (str_comp l) <> [] /\ exists s, l = comp_slice (str_comp l) ++ s.
Proof.
  intros Hn. destruct l as [|c r]; [congruence|]. unfold str_comp.
  destruct (N.eqb_spec c 92) as [->|Hc].
  - unfold str_escape. destruct r as [|c r1]; [repeat split; try discriminate; exists []; auto|].
    assert (Hslash : forall s : bytes, SErr [92] <> SPanic /\ comp_slice (SErr [92]) <> [] /\ exists s', 92 :: s = comp_slice (SErr [92]) ++ s').
    { intros s. repeat split; try discriminate. exists s. reflexivity. }
    destruct ((c =? 120) || (c =? 88)) eqn:Ex.
    { destruct (head_sat is_hex r1) eqn:Eh; [|apply Hslash].
      set (ds := take_while is_hex (firstn 2 r1)).
      assert (Hds : ds <> []). { destruct r1 as [|h r1]; [discriminate|]. cbn [head_sat] in Eh. unfold ds. cbn [firstn take_while]. rewrite Eh. discriminate. }
      pose proof (tw_firstn_len is_hex 2 r1) as Hlen. fold ds in Hlen.
      destruct (from_str_radix_small 16 ds) as (v & Ev & Hv); try lia; auto.
      { intros x Hx. apply hex_digit_val. eapply forallb_In; [|exact Hx]. apply take_while_all. }
      unfold hex_value. rewrite Ev. assert (v < 256).
      { eapply N.lt_le_trans; [exact Hv|]. change 256 with (16 ^ 2). apply N.pow_le_mono_r; lia. }
      replace (v <? 256) with true by (symmetry; now apply N.ltb_lt).
      repeat split; try discriminate. cbn [comp_slice].
      destruct (skipn_suffix 2 r1) as (p & Er & ->). exists (drop_while is_hex (firstn 2 r1) ++ skipn 2 r1).
      cbn [app]. do 2 f_equal. unfold ds. rewrite app_assoc, take_drop_while. exact Er. }
    destruct (is_octal c) eqn:Eo.
    { set (ds := take_while is_octal (firstn 3 (c :: r1))).
      assert (Hds : ds <> []) by (unfold ds; cbn [firstn take_while]; rewrite Eo; discriminate).
      pose proof (tw_firstn_len is_octal 3 (c :: r1)) as Hlen. fold ds in Hlen.
      destruct (from_str_radix_small 8 ds) as (v & Ev & Hv); try lia; auto.
      { intros x Hx. apply octal_digit_val. eapply forallb_In; [|exact Hx]. apply take_while_all. }
      rewrite Ev.
      assert (Hpre : exists s, 92 :: c :: r1 = (92 :: ds) ++ s).
      { destruct (skipn_suffix 3 (c :: r1)) as (p & Er & ->). exists (drop_while is_octal (firstn 3 (c :: r1)) ++ skipn 3 (c :: r1)).
        cbn [app]. f_equal. unfold ds. rewrite app_assoc, take_drop_while. exact Er. }
      destruct (v <? 256); repeat split; try discriminate; exact Hpre. }
    destruct (is_char_escape c) eqn:Ec.
    { assert (exists v, char_escape c = Some v) as (v & ->).
      { revert Ec. unfold is_char_escape, char_escape. cbn [existsb]. intros H.
        repeat match goal with |- context [?x =? ?y] => destruct (N.eqb_spec x y); [eauto|] end. lia. }
      repeat split; try discriminate. exists r1. reflexivity. }
    assert (Huni : forall n, (n <= 15)%nat -> (1 <= n)%nat -> all_hex n r1 = true ->
      unicode_escape (92 :: c :: firstn n r1) <> SPanic /\ comp_slice (unicode_escape (92 :: c :: firstn n r1)) <> [] /\
      exists s, 92 :: c :: r1 = comp_slice (unicode_escape (92 :: c :: firstn n r1)) ++ s).
    { intros n Hle Hge Hh. unfold all_hex in Hh. apply andb_prop in Hh. destruct Hh as [Hl Hh]. apply Nat.eqb_eq in Hl.
      unfold unicode_escape, hex_value. cbn [skipn].
      destruct (from_str_radix_small 16 (firstn n r1)) as (v & -> & _); try lia.
      { intros E. rewrite E in Hl. cbn in Hl. lia. }
      { intros x Hx. apply hex_digit_val. eapply forallb_In; eauto. }
      assert (Hpre : exists s, 92 :: c :: r1 = (92 :: c :: firstn n r1) ++ s).
      { exists (skipn n r1). cbn [app]. do 2 f_equal. symmetry. apply firstn_skipn. }
      destruct (is_scalar v); repeat split; try discriminate; exact Hpre. }
    destruct ((c =? 117) && all_hex 4 r1) eqn:Eu; [apply andb_prop in Eu; apply Huni; try lia; tauto|].
    destruct ((c =? 85) && all_hex 8 r1) eqn:EU; [apply andb_prop in EU; apply Huni; try lia; tauto|].
    apply Hslash.
  - destruct ((c =? 39) || (c =? 34)); [repeat split; try discriminate; exists r; reflexivity|].
    destruct (is_unescaped c); repeat split; try discriminate.
    + exists (skipn (length (take_while is_unescaped r)) r). cbn [comp_slice app]. f_equal. apply tw_split.
    + exists r. reflexivity.
Qed.

Lemma push_string_error_nonempty errs sl a z : push_string_error errs sl a z <> [].
Proof.
  unfold push_string_error.
  assert (Hf : forall x : perr, errs ++ [x] <> []) by (intros x H; symmetry in H; now apply app_cons_not_nil in H).
  destruct (rev errs) as [|[]]; auto; destruct sp as [s0 e0]; destruct (e0 =? a); auto; intros H; symmetry in H; now apply app_cons_not_nil in H.
Qed.
Lemma push_string_error_ok T errs sl a z : a <= z -> z <= T -> Forall (err_ok T) errs -> Forall (err_ok T) (push_string_error errs sl a z).
Proof.
  intros Ha Hz H. unfold push_string_error.
  assert (Hf : Forall (err_ok T) (errs ++ [if starts_with [92] sl then InvalidStringEscape (a, z) else InvalidStringCharacters (a, z)])).
  { apply Forall_app. split; auto. constructor; [|constructor]. destruct (starts_with [92] sl); repeat constructor; auto. }
  assert (Hr : Forall (err_ok T) (rev errs)) by now apply Forall_rev.
  destruct (rev errs) as [|[] before]; auto; destruct sp as [s0 e0]; destruct (N.eqb_spec e0 a) as [->|]; auto;
    inversion Hr as [|? ? Hx Hb]; subst; apply Forall_app; (split; [now apply Forall_rev|]); constructor; [|constructor| |constructor];
    unfold err_ok in Hx; cbn [perr_spans] in Hx; inversion Hx as [|? ? [Hs1 Hs2] _]; subst; unfold s_start, s_end in *; cbn [fst snd] in *;
    repeat constructor; unfold s_start, s_end; cbn [fst snd]; lia.
Qed.

(** The string loop returns, whatever errors are already there; what it reads
    does not depend on them. *)
Lemma str_loop_ok fuel q : forall off l acc, (length l < fuel)%nat ->
  exists v fin r used, l = used ++ r /\ fin = off + len used /\
  forall errs, exists e', str_loop fuel q off l acc errs = Done (v, fin, r, e') /\
    (errs <> [] -> e' <> []) /\
    (forall T, off + len l <= T -> Forall (err_ok T) errs -> Forall (err_ok T) e') /\
    (e' = [] -> forall errs2, str_loop fuel q off l acc errs2 = Done (v, fin, r, errs2)).
Proof.
  induction fuel as [|f IH]; intros off l acc Hl; [lia|]. cbn [str_loop].
  assert (Happ : forall (x : list perr) y, x ++ [y] <> []) by (intros x y E; symmetry in E; now apply app_cons_not_nil in E).
  destruct l as [|c0 l0] eqn:El.
  { exists acc, off, [], []. split; auto. split; [rewrite len_nil; lia|]. intros errs. eexists. split; [reflexivity|]. split; [intros; apply Happ|].
    split; [intros; apply Forall_app; split; auto; repeat constructor|]. intros E. now apply Happ in E. }
  rewrite <- El in *. assert (Hne : l <> []) by (rewrite El; discriminate). clear El c0 l0.
  destruct (str_comp_ok l Hne) as (Hp & Hs & Hpre). destruct Hpre as (s & Es).
  assert (Hgo : forall slice acc', slice <> [] -> l = slice ++ s ->
    exists v fin r used, l = used ++ r /\ fin = off + len used /\
    forall errs, exists e', str_loop f q (off + len slice) (skipn (length slice) l) acc' errs = Done (v, fin, r, e') /\
    (errs <> [] -> e' <> []) /\
    (forall T, off + len l <= T -> Forall (err_ok T) errs -> Forall (err_ok T) e') /\
    (e' = [] -> forall errs2, str_loop f q (off + len slice) (skipn (length slice) l) acc' errs2 = Done (v, fin, r, errs2))).
  { intros slice acc' Hsl El. rewrite El, skip_app.
    destruct (IH (off + len slice) s acc') as (v & fin & r & used & -> & -> & H).
    { rewrite El, app_length in Hl. destruct slice; [congruence|]. cbn in Hl. lia. }
    exists v, (off + len slice + len used), r, (slice ++ used). split; [now rewrite app_assoc|]. split; [rewrite len_app; lia|].
    intros errs. destruct (H errs) as (e' & H1 & H2 & H3 & H4). exists e'. split; auto. split; auto. split; auto.
    intros T HT. apply H3. rewrite !len_app in *. lia. }
  destruct (str_comp l) as [t|c sl|c sl|c sl|sl|] eqn:Ec; cbn [comp_slice] in *; try (now apply Hgo).
  - destruct (c =? q); [|now apply Hgo].
    exists acc, (off + len sl), s, sl. rewrite Es, skip_app. split; auto. split; auto. intros errs. exists errs. auto.
  - destruct (existsb (N.eqb 10) sl).
    + exists acc, (off + len sl), s, sl. rewrite Es, skip_app. split; auto. split; auto. intros errs. eexists. split; [reflexivity|].
      split; [intros; apply Happ|]. split; [|intros E; now apply Happ in E].
      intros T HT HF. apply Forall_app. split; auto. repeat constructor; unfold s_start, s_end; cbn [fst snd]; rewrite len_app in HT; lia.
    + destruct (Hgo sl acc Hs Es) as (v & fin & r & used & H1 & H2 & H3). exists v, fin, r, used. split; auto. split; auto.
      intros errs. destruct (H3 (push_string_error errs sl off (off + len sl))) as (e' & H4 & H5 & H6 & H7). exists e'.
      split; auto. split; [intros; apply H5, push_string_error_nonempty|]. split.
      * intros T HT HF. apply H6; auto. apply push_string_error_ok; auto; [lia|]. rewrite Es, len_app in HT. lia.
      * intros E. exfalso. now apply (H5 (push_string_error_nonempty errs sl off (off + len sl))).
  - congruence.
Qed.

(** ** Block comments *)
Lemma trim_start_suffix l : exists p, l = p ++ trim_start l.
Proof.
  unfold trim_start. generalize (length l) as n. intros n. revert l. induction n as [|n IH]; intros l; cbn [trim_start_fuel]; [exists []; auto|].
  destruct (ws_len l) as [|m] eqn:E; [exists []; auto|]. destruct (IH (skipn (S m) l)) as (p & Hp).
  exists (firstn (S m) l ++ p). rewrite <- app_assoc, <- Hp. symmetry. apply firstn_skipn.
Qed.
Lemma char_len_pos c r : (1 <= char_len (c :: r))%nat /\ (char_len (c :: r) <= length (c :: r))%nat.
Proof. unfold char_len. cbn [length]. split; [lia|]. assert (conts r <= length r)%nat; [|lia]. induction r as [|d r IH]; cbn; [lia|]. destruct (is_cont d); lia. Qed.

Lemma block_loop_ok base F fuel : forall pre l depth last_end acc, (length l < fuel)%nat -> F = pre ++ l -> 1 <= depth ->
  (forall e r, last_end = Some (e, r) -> exists p, F = p ++ r /\ e = base + len p) ->
  exists v fin r used, F = used ++ r /\ fin = base + len used /\
  forall errs, exists e', block_loop fuel (base + len pre) l depth last_end acc errs = Done (v, fin, r, e') /\
    (errs <> [] -> e' <> []) /\
    (forall T, base + len F <= T -> Forall (err_ok T) errs -> Forall (err_ok T) e') /\
    (e' = [] -> forall errs2, block_loop fuel (base + len pre) l depth last_end acc errs2 = Done (v, fin, r, errs2)).
Proof.
  induction fuel as [|f IH]; intros pre l depth last_end acc Hl HF Hd Hlast; [lia|]. cbn [block_loop].
  assert (Happ : forall (x : list perr) y, x ++ [y] <> []) by (intros x y E; symmetry in E; now apply app_cons_not_nil in E).
  destruct l as [|c r].
  { destruct last_end as [[e r]|].
    - destruct (Hlast e r eq_refl) as (p & Hp & ->). exists acc, (base + len p), r, p. split; auto. split; auto. intros errs. exists errs. auto.
    - exists acc, (base + len pre), [], pre. split; auto. split; auto. intros errs. eexists. split; [reflexivity|]. split; [intros; apply Happ|].
      split; [intros; apply Forall_app; split; auto; repeat constructor|]. intros E. now apply Happ in E. }
  assert (Hgo : forall slice l' off' depth' last' acc', slice <> [] -> c :: r = slice ++ l' -> off' = base + len (pre ++ slice) -> 1 <= depth' ->
    (forall e r, last' = Some (e, r) -> exists p, F = p ++ r /\ e = base + len p) ->
    exists v fin r used, F = used ++ r /\ fin = base + len used /\
    forall errs, exists e', block_loop f off' l' depth' last' acc' errs = Done (v, fin, r, e') /\
    (errs <> [] -> e' <> []) /\
    (forall T, base + len F <= T -> Forall (err_ok T) errs -> Forall (err_ok T) e') /\
    (e' = [] -> forall errs2, block_loop f off' l' depth' last' acc' errs2 = Done (v, fin, r, errs2))).
  { intros slice l' off' depth' last' acc' Hs El -> Hd' Hl'. apply IH; auto.
    - apply (f_equal (@length _)) in El. rewrite app_length in El. destruct slice; [congruence|]. cbn [length] in *. lia.
    - rewrite HF, El. now rewrite app_assoc. }
  destruct ((c =? 42) && head_is 47 r) eqn:E1.
  { apply andb_prop in E1. destruct E1 as [Ec Er]. destruct r as [|d r]; [discriminate|]. cbn [head_is tl] in *.
    pose proof (tw_split is_skip r) as Hw. set (w := take_while is_skip r) in *. set (r' := skipn (length w) r) in *.
    assert (Hoff : base + len pre + 2 + len w = base + len (pre ++ c :: d :: w)) by (rewrite len_app, !len_cons; lia).
    assert (HF' : F = (pre ++ c :: d :: w) ++ r') by (rewrite HF, <- app_assoc; cbn [app]; now rewrite <- Hw).
    destruct (depth =? 1) eqn:Ed.
    - exists acc, (base + len pre + 2 + len w), r', (pre ++ c :: d :: w). split; auto. split; auto. intros errs. exists errs. auto.
    - apply (Hgo (c :: d :: w)); auto; [discriminate|cbn [app]; now rewrite <- Hw|lia|].
      intros e r0 H. injection H as <- <-. eauto. }
  destruct ((c =? 47) && head_is 42 r) eqn:E2.
  { apply andb_prop in E2. destruct E2 as [Ec Er]. destruct r as [|d r]; [discriminate|]. cbn [head_is tl] in *.
    destruct (Hgo [c; d] r (base + len pre + 2) (depth + 1) last_end acc) as (v & fin & r2 & used & H1 & H2 & H3); auto; [discriminate|rewrite len_app, !len_cons, len_nil; lia|lia|].
    exists v, fin, r2, used. split; auto. split; auto. intros errs.
    destruct (H3 (errs ++ [NestedBlockComment (base + len pre, base + len pre + 2)])) as (e' & H4 & H5 & H6 & H7). exists e'.
    split; auto. split; [intros; apply H5, Happ|]. split.
    - intros T HT HFa. apply H6; auto. apply Forall_app. split; auto. rewrite HF, len_app, !len_cons in HT. repeat constructor; unfold s_start, s_end; cbn [fst snd]; lia.
    - intros E. exfalso. now apply (H5 (Happ _ _)). }
  destruct (c =? 10) eqn:E3.
  { destruct (trim_start_suffix r) as (p & Hp). set (st := trim_start r) in *.
    set (st' := if head_is 42 st && negb (head_is 47 (tl st)) then tl st else st).
    assert (exists p', r = p' ++ st') as (p' & Hp').
    { unfold st'. destruct (head_is 42 st && _) eqn:E4; eauto. destruct st as [|y st]; [discriminate|]. exists (p ++ [y]). rewrite <- app_assoc. exact Hp. }
    apply (Hgo (c :: p')); auto; [discriminate|cbn [app]; now f_equal|].
    rewrite len_app, len_cons. rewrite Hp' at 1. rewrite len_app. lia. }
  destruct (char_len_pos c r) as [Hc1 Hc2]. set (n := char_len (c :: r)) in *.
  apply (Hgo (firstn n (c :: r))); auto.
  - intros E. apply (f_equal (@length _)) in E. rewrite firstn_length in E. cbn [length] in *. lia.
  - symmetry. apply firstn_skipn.
  - rewrite len_app. unfold len at 3. rewrite firstn_length. lia.
Qed.

(** ** One token *)

(** The inputs on which logos' backtracking out of a digit run matters: a
    digit run 0, octal digits, 8 or 9. *)
Definition bad_run (src : bytes) : Prop :=
  exists pre os d post, src = pre ++ 48 :: os ++ d :: post /\ os <> [] /\ forallb is_octal os = true /\ (d = 56 \/ d = 57).

Lemma scan_false c r : scan false (c :: r) = scan true (c :: r) \/
  exists ds rest, c = 48 /\ r = ds ++ rest /\ digits ds /\ head_sat is_digit rest = false /\ ds <> [] /\
    forallb is_octal ds = false /\ fst (scan false (c :: r)) = fst (scan true (c :: r)) /\ snd (scan false (c :: r)) = 48 :: ds /\
    snd (scan true (c :: r)) = 48 :: take_while is_octal ds /\
    fst (scan true (c :: r)) = (match take_while is_octal ds with [] => KZero | _ => KOct end).
Proof.
  unfold scan. destruct (is_ident_start c); auto. destruct (is_digit c) eqn:Ed; auto.
  unfold scan_number. set (ds := take_while is_digit (c :: r)). set (rest := skipn (length ds) (c :: r)).
  assert (Eds : ds = c :: take_while is_digit r) by (unfold ds; cbn [take_while]; now rewrite Ed).
  assert (Hrest : rest = skipn (length (take_while is_digit r)) r) by (unfold rest; rewrite Eds; reflexivity).
  destruct (head_is 46 rest); auto. destruct (Nat.ltb 0 (length (scan_exponent rest))); auto.
  destruct (head_is 48 ds) eqn:E48; auto.
  destruct (Nat.ltb 0 (length (tl ds))) eqn:Em; auto.
  destruct (forallb is_octal (tl ds)) eqn:Eo.
  - left. assert (take_while is_octal (tl ds) = tl ds) as ->.
    { rewrite <- (app_nil_r (tl ds)) at 1. rewrite take_while_prefix by auto. apply app_nil_r. }
    f_equal. rewrite Eds in E48 |- *. cbn [tl head_is] in *. apply N.eqb_eq in E48. now subst c.
  - right. rewrite Eds in *. cbn [tl head_is fst snd] in *. apply N.eqb_eq in E48. subst c.
    exists (take_while is_digit r), rest. rewrite Hrest. repeat split; auto.
    + apply tw_split.
    + apply take_while_all.
    + apply tw_after.
    + intros E. rewrite E in Em. discriminate.
    + destruct (take_while is_octal (take_while is_digit r)); reflexivity.
Qed.

Lemma scan_slice ideal c r : snd (scan ideal (c :: r)) <> [] /\ exists s, c :: r = snd (scan ideal (c :: r)) ++ s.
Proof.
  assert (Ht : snd (scan true (c :: r)) <> [] /\ exists s, c :: r = snd (scan true (c :: r)) ++ s).
  { destruct (scan true (c :: r)) as [kind slice] eqn:Es. cbn [snd].
    assert (Hk : kind = KErr \/ kind <> KErr) by (destruct kind; auto; right; discriminate).
    destruct Hk as [->|Hk].
    - destruct (scan_err _ _ _ Es) as [-> _]. destruct (char_len_pos c r) as [H1 H2]. split.
      + intros E. apply (f_equal (@length _)) in E. rewrite firstn_length in E. cbn [length] in *. lia.
      + exists (skipn (char_len (c :: r)) (c :: r)). symmetry. apply firstn_skipn.
    - destruct (scan_sound _ _ _ _ Es Hk) as [(re & Hin & Hm) Hp]. split; auto. eapply patterns_nonempty; eauto. }
  destruct ideal; auto. destruct (scan_false c r) as [->|(ds & rest & -> & -> & _ & _ & _ & _ & _ & E & _)]; auto. rewrite E. split; [discriminate|]. exists rest. reflexivity.
Qed.

Ltac next H Hin := destruct Hin as [H|Hin]; [injection H as <- <-|].
(** Shape of the lexemes with an integer callback. *)
Lemma scan_int_shape c r slice kind : scan true (c :: r) = (kind, slice) ->
  match kind with
  | KOct => exists os, slice = 48 :: os /\ os <> [] /\ forallb is_octal os = true
  | KDec => exists d ds, slice = d :: ds /\ d <> 48 /\ forallb is_digit (d :: ds) = true
  | KHex => exists x hs, slice = 48 :: x :: hs /\ (x = 120 \/ x = 88) /\ hs <> [] /\ forallb is_hex hs = true
  | KZero => slice = [48]
  | KLine => starts_with [47; 47] slice = true \/ starts_with [35] slice = true
  | KQuote => slice = [39] \/ slice = [34]
  | KBlock => slice = [47; 42]
  | KPunct t => exists ch, slice = [ch] /\ punct ch = Some t
  | KIdent => exists ch w, slice = ch :: w /\ is_ident_start ch = true /\ forallb is_ident_char w = true
  | _ => True
  end.
Proof.
  intros Es. assert (Hk : kind = KErr \/ kind <> KErr) by (destruct kind; auto; right; discriminate).
  destruct Hk as [->|Hk]; [exact I|]. destruct (scan_sound _ _ _ _ Es Hk) as [(re & Hin & Hm) _]. clear Es Hk.
  unfold patterns in Hin.
  next H Hin.
  { apply m_seq_inv in Hm. destruct Hm as (x & y & -> & Hx & Hy). apply m_class_inv in Hx. destruct Hx as (ch & -> & Hc).
    rewrite c_ident_start in Hc. rewrite m_star_class in Hy. rewrite (forallb_ext' _ _ _ c_ident) in Hy. exists ch, y. auto. }
  next H Hin. { now apply lit_val in Hm. }
  next H Hin.
  { apply m_seq_inv in Hm. destruct Hm as (x & y & -> & Hx & Hy). apply lit_val in Hx. subst x. apply m_plus_class in Hy. destruct Hy as [Hn Hy].
    rewrite (forallb_ext' _ _ _ c_octal) in Hy. exists y. auto. }
  next H Hin.
  { apply m_seq_inv in Hm. destruct Hm as (x & y & -> & Hx & Hy). apply m_class_inv in Hx. destruct Hx as (d & -> & Hd).
    rewrite c_19 in Hd. apply m_digits in Hy. exists d, y. split; auto. apply andb_prop in Hd. destruct Hd as [Hd Hd0]. split; [lia|]. cbn [forallb]. rewrite Hd. exact Hy. }
  next H Hin.
  { apply m_seq_inv in Hm. destruct Hm as (x & y & -> & Hx & Hy). apply lit_val in Hx. subst x. apply m_seq_inv in Hy. destruct Hy as (x & z & -> & Hx & Hz).
    apply m_class_inv in Hx. destruct Hx as (d & -> & Hd). rewrite c_x in Hd. apply m_plus_class in Hz. destruct Hz as [Hn Hz].
    rewrite (forallb_ext' _ _ _ c_hex) in Hz. exists d, z. split; auto. split; [lia|]. auto. }
  do 5 (next H Hin; [exact I|]).
  next H Hin.
  { apply m_class_inv in Hm. destruct Hm as (d & -> & Hc). assert (d = 39 \/ d = 34) as [-> | ->]; auto.
    unfold in_class in Hc. cbn [existsb] in Hc. ascii_vals. lia. }
  do 16 (next H Hin; [apply lit_val in Hm; subst; eexists; split; [reflexivity|reflexivity]|]).
  next H Hin.
  { apply m_seq_inv in Hm. destruct Hm as (x & y & -> & Hx & Hy). apply m_alt_inv in Hx. destruct Hx as [Hx|Hx].
    - apply m_seq_inv in Hx. destruct Hx as (x1 & x2 & -> & H1 & H2). apply lit_val in H1, H2. subst. left. reflexivity.
    - apply lit_val in Hx. subst. right. reflexivity. }
  next H Hin. { apply m_seq_inv in Hm. destruct Hm as (x1 & x2 & -> & H1 & H2). apply lit_val in H1, H2. subst. reflexivity. }
  next H Hin. { apply lit_val in Hm. subst. eexists; split; reflexivity. }
  destruct Hin.
Qed.

Lemma bad_run_app p src : bad_run src -> bad_run (p ++ src).
Proof. intros (pre & os & d & post & -> & H). exists (p ++ pre), os, d, post. split; auto. now rewrite <- app_assoc. Qed.

Lemma take_while_app_stop f ds rest : head_sat f rest = false -> take_while f (ds ++ rest) = take_while f ds.
Proof.
  intros H. induction ds as [|c ds IH]; cbn [app take_while].
  - destruct rest as [|c rest]; auto. cbn [head_sat take_while] in *. now rewrite H.
  - destruct (f c); congruence.
Qed.

(** The integer callback: its debug assertions fail only after a bad run. *)
Lemma cb_int_ok k c r kind slice radix prefix start :
  scan (munch_ideal k) (c :: r) = (kind, slice) ->
  (kind = KOct /\ radix = 8 /\ prefix = 1%nat) \/ (kind = KDec /\ radix = 10 /\ prefix = 0%nat) \/ (kind = KHex /\ radix = 16 /\ prefix = 2%nat) ->
  forall rest, c :: r = slice ++ rest ->
  exists v es a, cb_int radix prefix start slice rest = (v, es, a) /\
    (forall T, start + len (c :: r) <= T -> Forall (err_ok T) es) /\
    (a = true -> (munch_ideal k = false /\ bad_run (c :: r)) /\ es <> []).
Proof.
  intros Hscan Hk rest Hr. unfold cb_int.
  set (glued := match rest with [] => [] | _ => _ end).
  assert (Hpre : (prefix < length slice)%nat /\
    ((exists v, from_str_radix radix (skipn prefix slice) = ROk v) \/ from_str_radix radix (skipn prefix slice) = RPosOverflow
     \/ (munch_ideal k = false /\ bad_run (c :: r)))).
  { assert (Hid : scan true (c :: r) = (kind, slice) -> (prefix < length slice)%nat /\
      ((exists v, from_str_radix radix (skipn prefix slice) = ROk v) \/ from_str_radix radix (skipn prefix slice) = RPosOverflow)).
    { intros Ht. apply scan_int_shape in Ht. destruct Hk as [(-> & -> & ->)|[(-> & -> & ->)|(-> & -> & ->)]].
      - destruct Ht as (os & -> & Hn & Ho). split; [destruct os; [congruence|cbn; lia]|]. cbn [skipn]. apply from_str_radix_digits; auto.
        intros x Hx. apply octal_digit_val. eapply forallb_In; eauto.
      - destruct Ht as (d & ds & -> & Hn & Ho). split; [cbn; lia|]. cbn [skipn]. apply from_str_radix_digits; [discriminate|].
        intros x Hx. apply dec_digit_val. eapply forallb_In; eauto.
      - destruct Ht as (x & hs & -> & Hx & Hn & Ho). split; [destruct hs; [congruence|cbn; lia]|]. cbn [skipn]. apply from_str_radix_digits; auto.
        intros y Hy. apply hex_digit_val. eapply forallb_In; eauto. }
    destruct (munch_ideal k) eqn:Em.
    - destruct (Hid Hscan) as [H1 [H2|H2]]; auto.
    - destruct (scan_false c r) as [Eq|(ds & rest2 & -> & -> & Hd & Hr2 & Hn & Ho & Ek & Es & Es2 & Ekt)].
      + rewrite Eq in Hscan. destruct (Hid Hscan) as [H1 [H2|H2]]; auto.
      + rewrite Hscan in Ek, Es. cbn [fst snd] in *. subst slice. rewrite Ekt in Ek.
        destruct (take_while is_octal ds) as [|o os] eqn:Eos; [subst kind; intuition discriminate|]. subst kind.
        destruct Hk as [(_ & -> & ->)|[(E & _)|(E & _)]]; try discriminate.
        split; [destruct ds; [congruence|cbn; lia]|]. right. right. split; auto.
        pose proof (tw_split is_octal ds) as Hds. pose proof (tw_after is_octal ds) as Hafter. rewrite Eos in *.
        destruct (skipn (length (o :: os)) ds) as [|d post] eqn:Ep.
        { rewrite app_nil_r in Hds. rewrite Hds in Ho. rewrite <- Eos in Ho. now rewrite take_while_all in Ho. }
        exists [], (o :: os), d, (post ++ rest2). split; [|split; [discriminate|split; [rewrite <- Eos; apply take_while_all|]]].
        * cbn [app]. f_equal. rewrite Hds at 1. rewrite <- app_assoc. reflexivity.
        * cbn [head_sat] in Hafter. assert (is_digit d = true).
          { eapply forallb_In; [exact Hd|]. rewrite Hds. apply in_or_app. right. now left. }
          bool_lia. }
  destruct Hpre as [Hlen Hrad].
  assert (Hneg : negb (Nat.ltb prefix (length slice)) = false) by (apply negb_false_iff, Nat.ltb_lt; exact Hlen). rewrite Hneg.
  assert (Htot : len (c :: r) = len slice + len rest) by (rewrite Hr; apply len_app).
  assert (Hpl : N.of_nat prefix <= len slice) by (unfold len; lia).
  assert (Hg : forall T, start + len (c :: r) <= T -> Forall (err_ok T) glued).
  { intros T HT. unfold glued. destruct rest as [|d rest]; [constructor|]. destruct (is_alpha d || (d =? 95)); [|constructor].
    rewrite Htot, len_cons in HT. assert (len (take_while is_alpha rest) <= len rest).
    { rewrite (tw_split is_alpha rest) at 2. rewrite len_app. lia. }
    repeat constructor; unfold s_start, s_end; cbn [fst snd]; lia. }
  assert (Hoor : forall T, start + len (c :: r) <= T -> Forall (err_ok T) (glued ++ [IntegerOutOfRange (start + N.of_nat prefix, start + len slice)])).
  { intros T HT. apply Forall_app. split; [auto|]. repeat constructor; unfold s_start, s_end; cbn [fst snd]; lia. }
  destruct Hrad as [(v & ->)|[->|[Hm Hb]]].
  - do 3 eexists. split; [reflexivity|]. split; auto. discriminate.
  - do 3 eexists. split; [reflexivity|]. split; auto. discriminate.
  - assert (Hne : forall x : perr, glued ++ [x] <> []) by (intros x; destruct glued; discriminate).
    destruct (from_str_radix radix (skipn prefix slice)); do 3 eexists; (split; [reflexivity|]); split; auto; discriminate.
Qed.

Lemma cb_float_errs tfm sp slice T : span_ok T sp -> Forall (err_ok T) (snd (cb_float tfm sp slice)).
Proof. intros H. unfold cb_float. destruct (rev slice) as [|c r]; [constructor|]. destruct (_ || _); [|constructor]. destruct tfm; cbn [snd]; repeat constructor; apply H. Qed.

Lemma lex_next_all k rest pos :
  exists r w used rest' a, rest = w ++ used ++ rest' /\ forallb is_skip w = true /\
    (a = true -> munch_ideal k = false /\ bad_run rest) /\
    match r with None => used = [] /\ rest' = [] | Some _ => used <> [] end /\
  forall s, l_rest s = rest -> l_end s = pos -> exists es,
    lex_next k s = Done (r, {| l_rest := rest'; l_start := pos + len w; l_end := pos + len w + len used;
                              l_errs := es; l_tfm := l_tfm s; l_assert := l_assert s || a |}) /\
    (r = None -> es = l_errs s) /\
    (l_errs s <> [] \/ a = true -> es <> []) /\
    (forall T, pos + len rest <= T -> Forall (err_ok T) (l_errs s) -> Forall (err_ok T) es) /\
    (es = [] -> forall s2, l_rest s2 = rest -> l_end s2 = pos -> (l_tfm s = true -> l_tfm s2 = true) ->
       lex_next k s2 = Done (r, {| l_rest := rest'; l_start := pos + len w; l_end := pos + len w + len used;
                              l_errs := l_errs s2; l_tfm := l_tfm s2; l_assert := l_assert s2 || a |})).
Proof.
  pose proof (tw_split is_skip rest) as Hsplit. pose proof (take_while_all is_skip rest) as Hw.
  set (w := take_while is_skip rest) in *. set (l := skipn (length w) rest) in *.
  destruct l as [|c r0] eqn:El.
  { exists None, w, [], [], false. rewrite !app_nil_r in *. split; [exact Hsplit|]. split; auto. split; [discriminate|]. split; auto.
    intros s Hs Hp. exists (l_errs s). unfold lex_next. rewrite Hs, Hp. fold w. fold l. rewrite El.
    change (len (@nil N)) with 0. rewrite N.add_0_r, orb_false_r. split; [reflexivity|]. split; auto. split; [intros [?|?]; [auto|discriminate]|]. split; auto.
    intros _ s2 Hs2 Hp2 _. rewrite Hs2, Hp2. fold w. fold l. rewrite El. now rewrite orb_false_r. }
  rewrite <- El in Hsplit. 
  assert (Hu : forall s, l_rest s = rest -> l_end s = pos -> lex_next k s =
    let start := pos + len w in let '(kind, slice) := scan (munch_ideal k) l in
    let rest := skipn (length slice) l in
    let fin := start + len slice in
    let ret t rest' fin' errs asrt :=
      Done (Some t, {| l_rest := rest'; l_start := start; l_end := fin';
                       l_errs := errs; l_tfm := l_tfm s; l_assert := l_assert s || asrt |}) in
    let int radix prefix :=
      let '(v, es, asrt) := cb_int radix prefix start slice rest in
      ret (Some (TInt v)) rest fin (l_errs s ++ es) asrt in
    match kind with
    | KErr => ret None rest fin (l_errs s) false
    | KPunct t => ret (Some t) rest fin (l_errs s) false
    | KIdent => ret (Some (TIdent slice)) rest fin (l_errs s) false
    | KZero => ret (Some (TInt 0)) rest fin (l_errs s) false
    | KOct => int 8 1%nat
    | KDec => int 10 0%nat
    | KHex => int 16 2%nat
    | KFloat =>
      let '(t, es) := cb_float (l_tfm s) (start, fin) slice in
      ret (Some (TFloat t)) rest fin (l_errs s ++ es) false
    | KQuote =>
      obind (str_loop (S (length rest)) (hd 0 slice) fin rest [] (l_errs s))
            (fun '(v, fin', rest', errs) => ret (Some (TStr v)) rest' fin' errs false)
    | KLine =>
      obind (cb_line (l_tfm s) (start, fin) slice)
            (fun '(v, es) => ret (Some (TLineComment v)) rest fin (l_errs s ++ es) false)
    | KBlock =>
      obind (block_loop (S (length rest)) fin rest 1 None [] (l_errs s))
            (fun '(v, fin', rest', errs) =>
               ret (Some (TBlockComment (normalize_newlines v))) rest' fin' errs false)
    end).
  { intros s Hs Hp. unfold lex_next. rewrite Hs, Hp. fold w. fold l. rewrite El. reflexivity. }
  destruct (scan_slice (munch_ideal k) c r0) as [Hsn Hsp]. rewrite <- El in Hsn, Hsp.
  destruct (scan (munch_ideal k) l) as [kind slice] eqn:Es. cbn [snd] in *. destruct Hsp as (rest1 & Hr1).
  cbv zeta in Hu. set (start := pos + len w) in *. cbv iota in Hu. assert (Hsk : skipn (length slice) l = rest1) by (rewrite Hr1; apply skip_app). rewrite Hsk in Hu.
  assert (Hlen : pos + len rest = start + len slice + len rest1) by (rewrite Hsplit, len_app; unfold start; rewrite Hr1, len_app; lia).
  assert (Happnil : forall x y : list perr, x ++ y = [] -> x = [] /\ y = []) by (intros x y; apply app_eq_nil).
  (* lexemes without a callback that reads on or reports *)
  assert (Hplain : forall t,
    (forall s, l_rest s = rest -> l_end s = pos -> lex_next k s =
      Done (Some t, {| l_rest := rest1; l_start := start; l_end := start + len slice; l_errs := l_errs s; l_tfm := l_tfm s; l_assert := l_assert s || false |})) ->
    exists r w used rest' a, rest = w ++ used ++ rest' /\ forallb is_skip w = true /\
    (a = true -> munch_ideal k = false /\ bad_run rest) /\
    match r with None => used = [] /\ rest' = [] | Some _ => used <> [] end /\
    forall s, l_rest s = rest -> l_end s = pos -> exists es,
    lex_next k s = Done (r, {| l_rest := rest'; l_start := pos + len w; l_end := pos + len w + len used;
                              l_errs := es; l_tfm := l_tfm s; l_assert := l_assert s || a |}) /\
    (r = None -> es = l_errs s) /\
    (l_errs s <> [] \/ a = true -> es <> []) /\
    (forall T, pos + len rest <= T -> Forall (err_ok T) (l_errs s) -> Forall (err_ok T) es) /\
    (es = [] -> forall s2, l_rest s2 = rest -> l_end s2 = pos -> (l_tfm s = true -> l_tfm s2 = true) ->
       lex_next k s2 = Done (r, {| l_rest := rest'; l_start := pos + len w; l_end := pos + len w + len used;
                              l_errs := l_errs s2; l_tfm := l_tfm s2; l_assert := l_assert s2 || a |}))).
  { intros t H. exists (Some t), w, slice, rest1, false. split; [rewrite Hsplit, Hr1 at 1; reflexivity|]. split; auto. split; [discriminate|]. split; auto.
    intros s Hs Hp. exists (l_errs s). split; [now apply H|]. split; [discriminate|]. split; [intros [?|?]; [auto|discriminate]|]. auto. }
  (* integer callbacks *)
  assert (Hint : forall radix prefix,
    ((kind = KOct /\ radix = 8 /\ prefix = 1%nat) \/ (kind = KDec /\ radix = 10 /\ prefix = 0%nat) \/ (kind = KHex /\ radix = 16 /\ prefix = 2%nat)) ->
    (forall s, l_rest s = rest -> l_end s = pos -> lex_next k s =
      let '(v, es, asrt) := cb_int radix prefix start slice rest1 in
      Done (Some (Some (TInt v)), {| l_rest := rest1; l_start := start; l_end := start + len slice; l_errs := l_errs s ++ es; l_tfm := l_tfm s; l_assert := l_assert s || asrt |})) ->
    exists r w used rest' a, rest = w ++ used ++ rest' /\ forallb is_skip w = true /\
    (a = true -> munch_ideal k = false /\ bad_run rest) /\
    match r with None => used = [] /\ rest' = [] | Some _ => used <> [] end /\
    forall s, l_rest s = rest -> l_end s = pos -> exists es,
    lex_next k s = Done (r, {| l_rest := rest'; l_start := pos + len w; l_end := pos + len w + len used;
                              l_errs := es; l_tfm := l_tfm s; l_assert := l_assert s || a |}) /\
    (r = None -> es = l_errs s) /\
    (l_errs s <> [] \/ a = true -> es <> []) /\
    (forall T, pos + len rest <= T -> Forall (err_ok T) (l_errs s) -> Forall (err_ok T) es) /\
    (es = [] -> forall s2, l_rest s2 = rest -> l_end s2 = pos -> (l_tfm s = true -> l_tfm s2 = true) ->
       lex_next k s2 = Done (r, {| l_rest := rest'; l_start := pos + len w; l_end := pos + len w + len used;
                              l_errs := l_errs s2; l_tfm := l_tfm s2; l_assert := l_assert s2 || a |}))).
  { intros radix prefix Hk H. rewrite El in Es, Hr1.
    destruct (cb_int_ok k c r0 kind slice radix prefix start Es Hk rest1 Hr1) as (v & es & a & Ecb & Hok & Ha). rewrite Ecb in H.
    exists (Some (Some (TInt v))), w, slice, rest1, a. split; [rewrite Hsplit, El, Hr1 at 1; reflexivity|]. split; auto.
    split. { intros Hat. destruct (Ha Hat) as [[Hm Hb] _]. split; auto. rewrite Hsplit, El. now apply bad_run_app. }
    split; auto. intros s Hs Hp. exists (l_errs s ++ es). split; [now apply H|]. split; [discriminate|].
    split; [intros Hn E; apply Happnil in E; destruct E as [E1 E2]; destruct Hn as [Hn|Hn]; [tauto|destruct (Ha Hn); tauto]|]. split.
    - intros T HT HF. apply Forall_app. split; auto. apply Hok. rewrite Hr1, len_app. lia.
    - intros E s2 Hs2 Hp2 _. apply Happnil in E. destruct E as [_ ->]. rewrite H by auto. now rewrite app_nil_r. }
  destruct kind.
  - eapply Hplain. exact Hu.
  - eapply Hplain. exact Hu.
  - eapply Hint; [|exact Hu]. auto.
  - eapply Hint; [|exact Hu]. auto.
  - eapply Hint; [|exact Hu]. auto.
  - (* float *)
    assert (Hfl : forall tfm, fst (cb_float tfm (start, start + len slice) slice) = fst (cb_float true (start, start + len slice) slice)).
    { intros tfm. unfold cb_float. destruct (rev slice) as [|x y]; auto. destruct (_ || _); auto. }
    exists (Some (Some (TFloat (fst (cb_float true (start, start + len slice) slice))))), w, slice, rest1, false.
    split; [rewrite Hsplit, Hr1 at 1; reflexivity|]. split; auto. split; [discriminate|]. split; auto.
    intros s Hs Hp. exists (l_errs s ++ snd (cb_float (l_tfm s) (start, start + len slice) slice)).
    assert (Hrun : forall s, l_rest s = rest -> l_end s = pos -> lex_next k s = Done (Some (Some (TFloat (fst (cb_float true (start, start + len slice) slice)))),
       {| l_rest := rest1; l_start := start; l_end := start + len slice; l_errs := l_errs s ++ snd (cb_float (l_tfm s) (start, start + len slice) slice); l_tfm := l_tfm s; l_assert := l_assert s || false |})).
    { intros s' Hs' Hp'. rewrite Hu by auto. pose proof (Hfl (l_tfm s')) as Hq. destruct (cb_float (l_tfm s') (start, start + len slice) slice) as [t es]. cbn [fst snd] in *. now rewrite <- Hq. }
    split; [now apply Hrun|]. split; [discriminate|]. split; [intros [Hn|?] E; [apply Happnil in E; tauto|discriminate]|]. split.
    + intros T HT HF. apply Forall_app. split; auto. apply cb_float_errs. unfold span_ok, s_start, s_end. cbn [fst snd]. lia.
    + intros E s2 Hs2 Hp2 Ht. rewrite Hrun by auto. apply Happnil in E. destruct E as [_ E].
      replace (snd (cb_float (l_tfm s2) (start, start + len slice) slice)) with (@nil perr); [now rewrite app_nil_r|].
      revert E. unfold cb_float. destruct (rev slice); auto. destruct (_ || _); auto. cbn [snd]. destruct (l_tfm s), (l_tfm s2); auto; try discriminate. specialize (Ht eq_refl). discriminate.
  - (* string *)
    destruct (str_loop_ok (S (length rest1)) (hd 0 slice) (start + len slice) rest1 []) as (v & fin & r & used & H1 & H2 & H3); [lia|].
    exists (Some (Some (TStr v))), w, (slice ++ used), r, false.
    split; [rewrite Hsplit, Hr1, H1 at 1; now rewrite <- app_assoc|]. split; auto. split; [discriminate|].
    split; [destruct slice; [congruence|discriminate]|].
    intros s Hs Hp. destruct (H3 (l_errs s)) as (e' & H4 & H5 & H6 & H7). exists e'. subst fin.
    split. { rewrite Hu by auto. rewrite H4. cbn [obind]. rewrite len_app. fold start. now rewrite N.add_assoc. }
    split; [discriminate|]. split; [intros [?|?]; [auto|discriminate]|]. split; [intros T HT; apply H6; lia|].
    intros E s2 Hs2 Hp2 _. rewrite Hu by auto. rewrite H7 by auto. cbn [obind]. rewrite len_app. fold start. now rewrite N.add_assoc.
  - eapply Hplain. exact Hu.
  - (* line comment *)
    assert (Hline : starts_with [47; 47] slice = true \/ starts_with [35] slice = true).
    { rewrite El in Es. destruct (munch_ideal k).
      - exact (scan_int_shape _ _ _ _ Es).
      - destruct (scan_false c r0) as [Eq|(ds & rest2 & -> & -> & _ & _ & _ & _ & Ek & _ & _ & Ekt)].
        + rewrite Eq in Es. exact (scan_int_shape _ _ _ _ Es).
        + rewrite Es in Ek. cbn [fst] in Ek. rewrite Ekt in Ek. destruct (take_while is_octal ds); discriminate. }
    exists (Some (Some (TLineComment (normalize_newlines (if starts_with [47; 47] slice then skipn 2 slice else skipn 1 slice))))), w, slice, rest1, false.
    split; [rewrite Hsplit, Hr1 at 1; reflexivity|]. split; auto. split; [discriminate|]. split; auto.
    assert (Hrun : forall s, l_rest s = rest -> l_end s = pos -> lex_next k s =
       Done (Some (Some (TLineComment (normalize_newlines (if starts_with [47; 47] slice then skipn 2 slice else skipn 1 slice)))),
       {| l_rest := rest1; l_start := start; l_end := start + len slice;
          l_errs := l_errs s ++ (if negb (l_tfm s) && starts_with [35] slice then [HashCommentOutsideTextFormat (start, start + len slice)] else []);
          l_tfm := l_tfm s; l_assert := l_assert s || false |})).
    { intros s' Hs' Hp'. rewrite Hu by auto. unfold cb_line. destruct (starts_with [47; 47] slice) eqn:E1; [reflexivity|].
      destruct Hline as [?|E2]; [congruence|]. rewrite E2. reflexivity. }
    intros s Hs Hp. eexists. split; [now apply Hrun|]. split; [discriminate|]. split; [intros [Hn|?] E; [apply Happnil in E; tauto|discriminate]|]. split.
    + intros T HT HF. apply Forall_app. split; auto. destruct (negb (l_tfm s) && _); [|constructor]. repeat constructor; unfold s_start, s_end; cbn [fst snd]; lia.
    + intros E s2 Hs2 Hp2 Ht. rewrite Hrun by auto. apply Happnil in E. destruct E as [_ E].
      replace (if negb (l_tfm s2) && starts_with [35] slice then [HashCommentOutsideTextFormat (start, start + len slice)] else []) with (@nil perr); [now rewrite app_nil_r|].
      revert E. destruct (starts_with [35] slice); rewrite ?andb_false_r; auto. destruct (l_tfm s), (l_tfm s2); cbn; auto; try discriminate.
      specialize (Ht eq_refl). discriminate.
  - (* block comment *)
    destruct (block_loop_ok (start + len slice) rest1 (S (length rest1)) [] rest1 1 None []) as (v & fin & r & used & H1 & H2 & H3); [lia|reflexivity|lia|discriminate|].
    rewrite len_nil, N.add_0_r in H3.
    exists (Some (Some (TBlockComment (normalize_newlines v)))), w, (slice ++ used), r, false.
    split; [rewrite Hsplit, Hr1, H1 at 1; now rewrite <- app_assoc|]. split; auto. split; [discriminate|].
    split; [destruct slice; [congruence|discriminate]|].
    intros s Hs Hp. destruct (H3 (l_errs s)) as (e' & H4 & H5 & H6 & H7). exists e'. subst fin.
    split. { rewrite Hu by auto. unfold bytes in *. rewrite H4. cbn [obind]. rewrite len_app. fold start. now rewrite N.add_assoc. }
    split; [discriminate|]. split; [intros [?|?]; [auto|discriminate]|]. split; [intros T HT; apply H6; lia|].
    intros E s2 Hs2 Hp2 _. rewrite Hu by auto. unfold bytes in *. rewrite H7 by auto. cbn [obind]. rewrite len_app. fold start. now rewrite N.add_assoc.
  - eapply Hplain. exact Hu.
Qed.
