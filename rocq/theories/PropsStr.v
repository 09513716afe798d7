(** C10: string literals decode as documented. C11: the text printed for the
    default value of a bytes field denotes the same bytes. *)
From Coq Require Import ZifyBool ZifyN.
From Verif Require Import Base Utf8 Errors Lex Ast LexSpec PropsLex1 LexSafe Stream PropsLex Utf8Spec StrSpec.

(** ** The specification against the helpers of the model *)
Lemma hex_digit_iff c : hex_digit c <-> is_hex c = true.
Proof. unfold hex_digit, is_hex, is_digit. rewrite !Bool.orb_true_iff, !in_range_true. tauto. Qed.
Lemma oct_digit_iff c : oct_digit c <-> is_octal c = true.
Proof. unfold oct_digit, is_octal. rewrite in_range_true. tauto. Qed.
Lemma Forall_hex ds : Forall hex_digit ds <-> forallb is_hex ds = true.
Proof. rewrite Forall_forall, forallb_forall. split; intros H x Hx; apply hex_digit_iff; auto. Qed.
Lemma Forall_oct ds : Forall oct_digit ds <-> forallb is_octal ds = true.
Proof. rewrite Forall_forall, forallb_forall. split; intros H x Hx; apply oct_digit_iff; auto. Qed.
Lemma starts_hex r : starts hex_digit r <-> head_sat is_hex r = true.
Proof. unfold starts. destruct r as [|c r]; cbn [head_sat]; [split; [intros (?&?&?&?)|]; discriminate|]. rewrite <- hex_digit_iff. split; [intros (?&?&[= <- <-]&?); auto|eauto]. Qed.
Lemma starts_oct r : starts oct_digit r <-> head_sat is_octal r = true.
Proof. unfold starts. destruct r as [|c r]; cbn [head_sat]; [split; [intros (?&?&?&?)|]; discriminate|]. rewrite <- oct_digit_iff. split; [intros (?&?&[= <- <-]&?); auto|eauto]. Qed.
Lemma head_sat_not {f r} : head_sat f r = false <-> ~ head_sat f r = true.
Proof. destruct (head_sat f r); split; intros; try tauto; discriminate. Qed.

Lemma utf8_of_iff c bs : scalar_value c -> (utf8_of c bs <-> bs = encode_utf8 c).
Proof.
  intros Hs. split.
  - intros H. destruct H as [c H|x y Hx Hy H|x y z Hx Hy Hz H|x y z w Hx Hy Hz Hw H].
    + now rewrite enc1.
    + replace (64 * x + y) with (decode2 (192 + x) (128 + y)) by (unfold decode2; lia). rewrite enc2; auto; lia.
    + replace (4096 * x + 64 * y + z) with (decode3 (224 + x) (128 + y) (128 + z)) by (unfold decode3; lia). rewrite enc3; auto; lia.
    + unfold scalar_value in Hs. replace (262144 * x + 4096 * y + 64 * z + w) with (decode4 (240 + x) (128 + y) (128 + z) (128 + w)) by (unfold decode4; lia). rewrite enc4; auto; lia.
  - intros ->. destruct (utf8_step_sound (encode_utf8 c) (length (encode_utf8 c))) as (c' & Hc' & E & _).
    { rewrite <- (app_nil_r (encode_utf8 c)) at 1. now apply utf8_step_complete. }
    clear c' Hc' E. destruct (encode_shape c Hs) as [[H ->]|[(a & c1 & E & H)|[(a & c1 & c2 & E & H)|(a & c1 & c2 & c3 & E & H)]]].
    + now constructor.
    + assert (c = 64 * (a - 192) + (c1 - 128)) as ->.
      { revert E. unfold encode_utf8. destruct (c <? 128) eqn:E1; [discriminate|]. destruct (c <? 2048) eqn:E2; [|destruct (c <? 65536); discriminate].
        intros E. pose proof (f_equal (fun l => nth 0 l 0) E) as E3. pose proof (f_equal (fun l => nth 1 l 0) E) as E4. cbn [nth] in E3, E4. clear E Hs. pose proof (N.div_mod' c 64). set (q := c / 64) in *. set (m := c mod 64) in *. clearbody q m. lia. }
      rewrite E. replace a with (192 + (a - 192)) at 2 by lia. replace c1 with (128 + (c1 - 128)) at 2 by lia. constructor; lia.
    + assert (c = 4096 * (a - 224) + 64 * (c1 - 128) + (c2 - 128)) as Ec.
      { revert E. unfold encode_utf8. destruct (c <? 128) eqn:E1; [discriminate|]. destruct (c <? 2048) eqn:E2; [discriminate|]. destruct (c <? 65536) eqn:E3; [|discriminate].
        intros E. pose proof (f_equal (fun l => nth 0 l 0) E) as E4. pose proof (f_equal (fun l => nth 1 l 0) E) as E5. pose proof (f_equal (fun l => nth 2 l 0) E) as E6. cbn [nth] in E4, E5, E6. clear E Hs. pose proof (N.div_mod' c 64). pose proof (N.div_mod' (c / 64) 64). rewrite N.div_div in H1 by discriminate. change (64 * 64) with 4096 in H1.
        set (q := c / 64) in *. set (m := c mod 64) in *. set (q2 := c / 4096) in *. set (m2 := q mod 64) in *. clearbody q m q2 m2. lia. }
      rewrite E. clear E. replace a with (224 + (a - 224)) by lia. replace c1 with (128 + (c1 - 128)) by lia. replace c2 with (128 + (c2 - 128)) by lia. rewrite Ec. constructor; lia.
    + assert (c = 262144 * (a - 240) + 4096 * (c1 - 128) + 64 * (c2 - 128) + (c3 - 128)) as Ec.
      { revert E. unfold encode_utf8. destruct (c <? 128) eqn:E1; [discriminate|]. destruct (c <? 2048) eqn:E2; [discriminate|]. destruct (c <? 65536) eqn:E3; [discriminate|].
        intros E. pose proof (f_equal (fun l => nth 0 l 0) E) as E4. pose proof (f_equal (fun l => nth 1 l 0) E) as E5. pose proof (f_equal (fun l => nth 2 l 0) E) as E6. pose proof (f_equal (fun l => nth 3 l 0) E) as E7. cbn [nth] in E4, E5, E6, E7. clear E Hs. pose proof (N.div_mod' c 64). pose proof (N.div_mod' (c / 64) 64). pose proof (N.div_mod' (c / 64 / 64) 64).
        rewrite !N.div_div in H2 by discriminate. rewrite !N.div_div in H1 by discriminate. change (64 * 64 * 64) with 262144 in *. change (64 * (64 * 64)) with 262144 in *. change (64 * 64) with 4096 in *.
        set (q := c / 64) in *. set (m := c mod 64) in *. set (q2 := c / 4096) in *. set (m2 := q mod 64) in *. set (q3 := c / 262144) in *. set (m3 := q2 mod 64) in *. clearbody q m q2 m2 q3 m3. lia. }
      rewrite E. clear E. replace a with (240 + (a - 240)) by lia. replace c1 with (128 + (c1 - 128)) by lia. replace c2 with (128 + (c2 - 128)) by lia. replace c3 with (128 + (c3 - 128)) by lia. rewrite Ec. constructor; lia.
Qed.

(** ** Components *)
Lemma digit_hex c : is_hex c = true -> exists d, digit_val c = Some d /\ d < 16. Proof. apply hex_digit_val. Qed.
Lemma hex_value_numeral ds : ds <> [] -> (length ds <= 15)%nat -> forallb is_hex ds = true -> hex_value ds = Some (numeral 16 ds) /\ numeral 16 ds < 16 ^ N.of_nat (length ds).
Proof.
  intros Hn Hl H. destruct (from_str_radix_small 16 ds) as (v & E & Hv); try lia; auto.
  { intros c Hc. apply hex_digit_val. eapply forallb_In; eauto. }
  unfold hex_value. rewrite E. rewrite from_str_radix_numeral in E; auto; [|lia|intros c Hc; apply hex_digit_val; eapply forallb_In; eauto].
  destruct (numeral 16 ds <? 2 ^ 64); [|discriminate]. injection E as <-. auto.
Qed.
Lemma oct_value_numeral ds : ds <> [] -> (length ds <= 15)%nat -> forallb is_octal ds = true -> from_str_radix 8 ds = ROk (numeral 8 ds).
Proof.
  intros Hn Hl H. destruct (from_str_radix_small 8 ds) as (v & E & Hv); try lia; auto.
  { intros c Hc. apply octal_digit_val. eapply forallb_In; eauto. }
  rewrite E. rewrite from_str_radix_numeral in E; auto; [|lia|intros c Hc; apply octal_digit_val; eapply forallb_In; eauto].
  destruct (numeral 8 ds <? 2 ^ 64); [|discriminate]. exact (eq_sym E).
Qed.

(** A run of at most [n] characters: what [take_while f (firstn n l)] cuts off. *)
Lemma tw_firstn_cut f n : forall ds r, forallb f ds = true -> (length ds <= n)%nat -> (length ds = n \/ head_sat f r = false) ->
  take_while f (firstn n (ds ++ r)) = ds.
Proof.
  induction n as [|n IH]; intros [|d ds] r H Hl Hr; cbn [length] in *; try lia; cbn [app firstn take_while]; auto.
  - destruct Hr as [|Hr]; [lia|]. destruct r as [|c r]; cbn [firstn take_while]; auto. cbn [head_sat] in Hr. now rewrite Hr.
  - cbn [forallb] in H. apply andb_prop in H. destruct H as [-> H]. f_equal. apply IH; auto; lia.
Qed.
Lemma tw_firstn_stop f n : forall l, (length (take_while f (firstn n l)) = n \/ head_sat f (skipn (length (take_while f (firstn n l))) l) = false).
Proof.
  induction n as [|n IH]; intros l; cbn [firstn take_while]; [now left|]. destruct l as [|c l]; cbn [firstn take_while]; [right; reflexivity|].
  destruct (f c) eqn:E; [|right; exact E]. cbn [length skipn]. destruct (IH l); auto.
Qed.
Lemma tw_firstn_split f n l : l = take_while f (firstn n l) ++ skipn (length (take_while f (firstn n l))) l.
Proof. revert l. induction n as [|n IH]; intros l; cbn [firstn take_while]; auto. destruct l as [|c l]; cbn [firstn take_while]; auto. destruct (f c); auto. cbn [app length skipn]. f_equal. apply IH. Qed.

Lemma simple_escape_iff c x : char_escape c = Some x <-> exists a, c = N_of_ascii a /\ In (a, x) simple_escapes.
Proof.
  split.
  - unfold char_escape. intros H.
    repeat match type of H with (if ?y =? ?z then _ else _) = _ => destruct (N.eqb_spec y z) as [->|]; [injection H as <-|] end; [..|discriminate];
    match goal with |- exists a, ?n = N_of_ascii a /\ _ => exists (ascii_of_N n) end; (split; [reflexivity|]); cbn; tauto.
  - intros (a & -> & H). cbn [simple_escapes In] in H. repeat destruct H as [H|H]; [injection H as <- <-; reflexivity..|destruct H].
Qed.
Lemma is_char_escape_iff c : is_char_escape c = true <-> exists x, char_escape c = Some x.
Proof.
  unfold is_char_escape, char_escape. cbn [existsb]. split.
  - intros H. repeat match goal with |- context [?x =? ?y] => destruct (N.eqb_spec x y); [eauto|] end. lia.
  - intros (x & H). repeat match type of H with (if ?y =? ?z then _ else _) = _ => destruct (N.eqb_spec y z) as [->|]; [reflexivity|] end. discriminate.
Qed.

(** [component q text value]: one step of [decodes]. *)
Definition component (q : N) (sl val : bytes) (r : bytes) : Prop := forall v, decodes q r v -> decodes q (sl ++ r) (val ++ v).
Definition quote_char (q : N) : Prop := q = 39 \/ q = 34.
Lemma quote_not_hex q : quote_char q -> is_hex q = false /\ is_octal q = false.
Proof. intros [->| ->]; auto. Qed.
Lemma head_before f (body : bytes) q rest : f q = false -> head_sat f (body ++ q :: rest) = head_sat f body.
Proof. intros H. destruct body; cbn; auto. Qed.

(** What the scanner of components finds at an escape. *)
Lemma escape_sound r x sl : str_comp (92 :: r) = SByte x sl -> exists r1, 92 :: r = sl ++ r1 /\ forall q body rest, quote_char q -> r1 = body ++ q :: rest -> component q sl [x] body.
Proof.
  cbn [str_comp N.eqb Pos.eqb]. unfold str_escape. destruct r as [|c r1]; [discriminate|].
  destruct ((c =? 120) || (c =? 88)) eqn:Ex.
  { destruct (head_sat is_hex r1) eqn:Eh; [|discriminate]. pose proof (tw_firstn_split is_hex 2 r1) as Hs. pose proof (tw_firstn_stop is_hex 2 r1) as Hst. pose proof (tw_firstn_len is_hex 2 r1) as Hl.
    assert (Hds : take_while is_hex (firstn 2 r1) <> []). { destruct r1 as [|h r1]; [discriminate|]. cbn [head_sat] in Eh. cbn [firstn take_while]. rewrite Eh. discriminate. }
    pose proof (take_while_all is_hex (firstn 2 r1)) as Ha. set (ds := take_while is_hex (firstn 2 r1)) in *. set (r2 := skipn (length ds) r1) in *.
    destruct (hex_value_numeral ds Hds ltac:(lia) Ha) as [-> Hlt]. destruct (numeral 16 ds <? 256); [|discriminate]. intros [= <- <-].
    exists r2. split; [cbn [app]; now rewrite <- Hs|]. intros q body rest Hq Er v Hv. cbn [app]. apply dc_hex; auto.
    - change (N_of_ascii "x") with 120. change (N_of_ascii "X") with 88. lia.
    - destruct ds; [congruence|cbn in *; lia].
    - now apply Forall_hex.
    - destruct Hst as [|Hst]; [now left|right]. rewrite starts_hex. rewrite Er, head_before in Hst by now apply quote_not_hex. now apply head_sat_not. }
  destruct (is_octal c) eqn:Eo.
  { pose proof (tw_firstn_split is_octal 3 (c :: r1)) as Hs. pose proof (tw_firstn_stop is_octal 3 (c :: r1)) as Hst. pose proof (tw_firstn_len is_octal 3 (c :: r1)) as Hl.
    assert (Hds : take_while is_octal (firstn 3 (c :: r1)) <> []) by (cbn [firstn take_while]; rewrite Eo; discriminate).
    pose proof (take_while_all is_octal (firstn 3 (c :: r1))) as Ha. set (ds := take_while is_octal (firstn 3 (c :: r1))) in *. set (r2 := skipn (length ds) (c :: r1)) in *.
    rewrite (oct_value_numeral ds Hds ltac:(lia) Ha). destruct (N.ltb_spec (numeral 8 ds) 256) as [Hlt|]; [|discriminate]. intros [= <- <-].
    exists r2. split; [cbn [app]; now rewrite <- Hs|]. intros q body rest Hq Er v Hv. cbn [app]. apply dc_oct; auto.
    - destruct ds; [congruence|cbn in *; lia].
    - now apply Forall_oct.
    - destruct Hst as [|Hst]; [now left|right]. rewrite starts_oct. rewrite Er, head_before in Hst by now apply quote_not_hex. now apply head_sat_not. }
  destruct (is_char_escape c) eqn:Ec.
  { destruct (char_escape c) as [y|] eqn:Ee; [|discriminate]. intros [= <- <-]. exists r1. split; [reflexivity|]. intros q body rest Hq Er v Hv.
    apply simple_escape_iff in Ee. destruct Ee as (a & -> & Hin). cbn [app]. now apply dc_simple. }
  unfold unicode_escape. destruct ((c =? 117) && all_hex 4 r1); [destruct (hex_value _); [destruct (is_scalar _)|]; discriminate|].
  destruct ((c =? 85) && all_hex 8 r1); [destruct (hex_value _); [destruct (is_scalar _)|]; discriminate|discriminate].
Qed.
Lemma escape_sound_char r x sl : str_comp (92 :: r) = SChar x sl -> exists r1, 92 :: r = sl ++ r1 /\ forall q body, component q sl (encode_utf8 x) body.
Proof.
  cbn [str_comp N.eqb Pos.eqb]. unfold str_escape. destruct r as [|c r1]; [discriminate|].
  destruct ((c =? 120) || (c =? 88)) eqn:Ex. { destruct (head_sat is_hex r1); [|discriminate]. destruct (hex_value _); [destruct (_ <? 256)|]; discriminate. }
  destruct (is_octal c) eqn:Eo. { destruct (from_str_radix _ _); [destruct (_ <? 256)|..]; discriminate. }
  destruct (is_char_escape c) eqn:Ec. { destruct (char_escape c); discriminate. }
  assert (G : forall u n, (u = N_of_ascii "u" /\ n = 4%nat) \/ (u = N_of_ascii "U" /\ n = 8%nat) -> c = u -> all_hex n r1 = true -> unicode_escape (92 :: c :: firstn n r1) = SChar x sl ->
    exists r2, 92 :: c :: r1 = sl ++ r2 /\ forall q body, component q sl (encode_utf8 x) body).
  { intros u n Hu -> Hh. unfold all_hex in Hh. apply andb_prop in Hh. destruct Hh as [Hl Hh]. apply Nat.eqb_eq in Hl.
    assert (Hn : (1 <= n <= 8)%nat) by lia. unfold unicode_escape. cbn [skipn]. destruct (hex_value_numeral (firstn n r1)) as [-> _]; auto; [intros E; rewrite E in Hl; cbn in Hl; lia|lia|].
    destruct (is_scalar (numeral 16 (firstn n r1))) eqn:Es; [|discriminate]. intros [= <- <-]. apply is_scalar_iff in Es. exists (skipn n r1). split; [cbn [app]; now rewrite firstn_skipn|].
    intros q body v Hv. cbn [app]. eapply dc_unicode; eauto; [now apply Forall_hex|]. now apply utf8_of_iff. }
  destruct ((c =? 117) && all_hex 4 r1) eqn:Eu; [apply andb_prop in Eu; destruct Eu as [Eu Eh]; apply (G 117 4%nat); [left; auto|lia|auto]|].
  destruct ((c =? 85) && all_hex 8 r1) eqn:EU; [apply andb_prop in EU; destruct EU as [EU Eh]; apply (G 85 8%nat); [right; auto|lia|auto]|discriminate].
Qed.

(** The converse: every escape of the specification is found. *)
Lemma escape_hex x ds r : (x = 120 \/ x = 88) -> (1 <= length ds <= 2)%nat -> forallb is_hex ds = true -> (length ds = 2%nat \/ head_sat is_hex r = false) ->
  str_comp (92 :: x :: ds ++ r) = SByte (numeral 16 ds) (92 :: x :: ds).
Proof.
  intros Hx Hl Hd Hr. cbn [str_comp N.eqb Pos.eqb]. unfold str_escape. assert ((x =? 120) || (x =? 88) = true) as -> by lia.
  assert (head_sat is_hex (ds ++ r) = true) as ->. { destruct ds as [|d ds]; [cbn in Hl; lia|]. cbn [forallb] in Hd. apply andb_prop in Hd. cbn [app head_sat]. apply Hd. }
  rewrite tw_firstn_cut; auto; [|lia]. destruct (hex_value_numeral ds) as [-> Hlt]; auto; [intros ->; cbn in Hl; lia|lia|].
  assert (numeral 16 ds < 256). { eapply N.lt_le_trans; [exact Hlt|]. change 256 with (16 ^ 2). apply N.pow_le_mono_r; lia. }
  now rewrite (proj2 (N.ltb_lt _ _) H).
Qed.
Lemma escape_oct ds r : (1 <= length ds <= 3)%nat -> forallb is_octal ds = true -> (length ds = 3%nat \/ head_sat is_octal r = false) -> numeral 8 ds < 256 ->
  str_comp (92 :: ds ++ r) = SByte (numeral 8 ds) (92 :: ds).
Proof.
  intros Hl Hd Hr Hn. cbn [str_comp N.eqb Pos.eqb]. unfold str_escape. destruct ds as [|d ds]; [cbn in Hl; lia|]. cbn [app].
  assert (Hd0 : is_octal d = true) by (cbn [forallb] in Hd; apply andb_prop in Hd; apply Hd). pose proof Hd0 as Hd1. unfold is_octal in Hd1. rng.
  assert ((d =? 120) || (d =? 88) = false) as -> by lia. rewrite Hd0. rewrite (app_comm_cons ds r d), tw_firstn_cut; auto; [|lia].
  rewrite oct_value_numeral; auto; [|discriminate|lia]. now rewrite (proj2 (N.ltb_lt _ _) Hn).
Qed.
Lemma escape_simple a x r : In (a, x) simple_escapes -> str_comp (92 :: N_of_ascii a :: r) = SByte x [92; N_of_ascii a].
Proof.
  intros H. cbn [simple_escapes In] in H. repeat destruct H as [H|H]; [injection H as <- <-; reflexivity..|destruct H].
Qed.
Lemma escape_unicode u n ds r : (u = N_of_ascii "u" /\ n = 4%nat) \/ (u = N_of_ascii "U" /\ n = 8%nat) -> length ds = n -> forallb is_hex ds = true -> scalar_value (numeral 16 ds) ->
  str_comp (92 :: u :: ds ++ r) = SChar (numeral 16 ds) (92 :: u :: ds).
Proof.
  intros Hu Hl Hd Hs. cbn [str_comp N.eqb Pos.eqb]. unfold str_escape.
  assert (G : forall m, length ds = m -> (1 <= m <= 8)%nat -> all_hex m (ds ++ r) = true /\ unicode_escape (92 :: u :: firstn m (ds ++ r)) = SChar (numeral 16 ds) (92 :: u :: ds)).
  { intros m <- Hm. assert (Ef : firstn (length ds) (ds ++ r) = ds) by (rewrite firstn_app, firstn_all, Nat.sub_diag; cbn; apply app_nil_r). unfold all_hex. rewrite Ef, Nat.eqb_refl. split; [exact Hd|].
    unfold unicode_escape. cbn [skipn]. destruct (hex_value_numeral ds) as [-> _]; auto; [intros ->; cbn in Hm; lia|lia|]. apply is_scalar_iff in Hs. now rewrite Hs. }
  destruct Hu as [[-> ->]|[-> ->]].
  - destruct (G 4%nat Hl ltac:(lia)) as [E1 E2]. cbn - [all_hex unicode_escape firstn app] in *. rewrite E1. exact E2.
  - destruct (G 8%nat Hl ltac:(lia)) as [E1 E2]. cbn - [all_hex unicode_escape firstn app] in *. rewrite E1. exact E2.
Qed.

(** ** The loop *)
Lemma str_loop_fuel f : forall g q off l acc es, (length l < f)%nat -> (length l < g)%nat -> str_loop f q off l acc es = str_loop g q off l acc es.
Proof.
  induction f as [|f IH]; intros g q off l acc es Hf Hg; [lia|]. destruct g as [|g]; [lia|]. cbn [str_loop]. destruct l as [|c0 l0] eqn:El; auto. rewrite <- El in *.
  destruct (str_comp_ok l ltac:(rewrite El; discriminate)) as (Hp & Hs & (s & Es)).
  assert (Hgo : forall sl off acc es, sl <> [] -> l = sl ++ s -> str_loop f q off (skipn (length sl) l) acc es = str_loop g q off (skipn (length sl) l) acc es).
  { intros sl off' acc' es' Hsl E. rewrite E, skip_app. rewrite E, app_length in Hf, Hg. destruct sl; [congruence|]. cbn [length] in *. apply IH; lia. }
  destruct (str_comp l) as [t|c sl|c sl|c sl|sl|]; cbn [comp_slice] in *; auto.
  - destruct (c =? q); auto.
  - destruct (existsb (N.eqb 10) sl); auto.
Qed.
Lemma str_loop_text f q off c l acc es : is_unescaped c = true -> (length (c :: l) < f)%nat ->
  str_loop f q off (c :: l) acc es = str_loop f q (off + 1) l (acc ++ [c]) es.
Proof.
  intros Hc Hf. destruct f as [|f]; [lia|]. cbn [length] in Hf. rewrite (str_loop_fuel (S f) f q (off + 1)) by lia.
  assert (Hcomp : forall c l, is_unescaped c = true -> str_comp (c :: l) = SText (c :: take_while is_unescaped l)).
  { intros x y H. unfold str_comp. pose proof H as H'. unfold is_unescaped in H'. assert (x =? 92 = false) as -> by lia. assert ((x =? 39) || (x =? 34) = false) as -> by lia. now rewrite H. }
  assert (Hone : forall f off c l acc, is_unescaped c = true -> str_loop (S f) q off (c :: l) acc es =
    str_loop f q (off + len (c :: take_while is_unescaped l)) (skipn (length (take_while is_unescaped l)) l) (acc ++ c :: take_while is_unescaped l) es).
  { intros g o x y a H. cbn [str_loop]. now rewrite (Hcomp _ _ H). }
  rewrite (Hone _ _ _ _ _ Hc).
  destruct l as [|d l].
  - cbn [take_while length skipn]. replace (off + len [c]) with (off + 1) by (rewrite len_cons, len_nil; lia). apply str_loop_fuel; cbn; lia.
  - destruct (is_unescaped d) eqn:Ed.
    + destruct f as [|f]; [cbn in Hf; lia|]. rewrite (Hone f _ _ _ _ Ed). cbn [take_while]. rewrite Ed. cbn [length skipn].
      replace (off + 1 + len (d :: take_while is_unescaped l)) with (off + len (c :: d :: take_while is_unescaped l)) by (rewrite !len_cons; lia). rewrite <- app_assoc. cbn [app].
      apply str_loop_fuel; rewrite skipn_length; cbn [length] in *; lia.
    + cbn [take_while]. rewrite Ed. cbn [length skipn]. replace (off + len [c]) with (off + 1) by (rewrite len_cons, len_nil; lia). reflexivity.
Qed.

Lemma str_loop_sound n : forall f q off l acc v fin r, (length l <= n)%nat -> (length l < f)%nat -> quote_char q ->
  str_loop f q off l acc [] = Done (v, fin, r, []) ->
  exists body v', l = body ++ q :: r /\ v = acc ++ v' /\ decodes q body v' /\ fin = off + len body + 1.
Proof.
  induction n as [|n IH]; intros f q off l acc v fin r Hn Hf Hq H.
  { destruct l; [|cbn in Hn; lia]. destruct f; discriminate. }
  destruct l as [|c l]; [destruct f; discriminate|].
  destruct (is_unescaped c) eqn:Ec.
  { rewrite str_loop_text in H by auto. cbn [length] in *. apply IH in H; auto; try lia. destruct H as (body & v' & -> & -> & Hd & ->).
    exists (c :: body), (c :: v'). rewrite <- app_assoc. split; [reflexivity|]. split; [reflexivity|]. split; [|rewrite len_cons; lia].
    unfold is_unescaped in Ec. apply dc_raw; auto; destruct Hq as [-> | ->]; lia. }
  destruct f as [|f]; [lia|]. cbn [str_loop] in H. destruct (str_comp_ok (c :: l)) as (_ & Hsl & (s & Es)); [discriminate|].
  assert (Hrec : forall sl val, sl <> [] -> c :: l = sl ++ s -> str_loop f q (off + len sl) (skipn (length sl) (c :: l)) (acc ++ val) [] = Done (v, fin, r, []) ->
    (forall body, s = body ++ q :: r -> component q sl val body) ->
    exists body v', c :: l = body ++ q :: r /\ v = acc ++ v' /\ decodes q body v' /\ fin = off + len body + 1).
  { intros sl val Hne E H' Hc. rewrite E, skip_app in H'. rewrite E, app_length in Hn, Hf. destruct sl as [|x sl]; [congruence|]. cbn [length] in *.
    apply IH in H'; auto; try lia. destruct H' as (body & v' & Hs & -> & Hd & ->). exists ((x :: sl) ++ body), (val ++ v'). rewrite E, Hs, <- !app_assoc. split; auto. split; auto.
    split; [apply Hc; auto|]. rewrite len_app. lia. }
  destruct (str_comp (c :: l)) as [t|c' sl|x sl|x sl|sl|] eqn:Ecomp; cbn [comp_slice] in *.
  - exfalso. revert Ecomp. unfold str_comp. destruct (c =? 92) eqn:E92.
    + unfold str_escape. destruct l as [|e l]; [discriminate|]. unfold unicode_escape. repeat match goal with |- context [if ?x then _ else _] => destruct x end; try discriminate;
        repeat match goal with |- context [match ?x with _ => _ end] => destruct x end; discriminate.
    + destruct ((c =? 39) || (c =? 34)); [discriminate|]. rewrite Ec. discriminate.
  - revert Ecomp. unfold str_comp. destruct (c =? 92) eqn:E92.
    { unfold str_escape. destruct l as [|e l]; [discriminate|]. unfold unicode_escape. repeat match goal with |- context [if ?x then _ else _] => destruct x end; try discriminate;
        repeat match goal with |- context [match ?x with _ => _ end] => destruct x end; discriminate. }
    destruct ((c =? 39) || (c =? 34)) eqn:Eq; [|rewrite Ec; discriminate]. intros [= <- <-]. destruct (N.eqb_spec c q) as [->|Hcq].
    + injection H as -> <- Hr. cbn [length skipn] in Hr. subst l. exists [], []. rewrite app_nil_r. split; [reflexivity|]. split; [reflexivity|]. split; [constructor|]. rewrite len_cons, len_nil. lia.
    + apply (Hrec [c] [c]); auto; try discriminate. intros body _ v0 Hv. cbn [app]. apply dc_raw; auto; lia.
  - assert (Ec92 : c = 92). { revert Ecomp. unfold str_comp. destruct (N.eqb_spec c 92); auto. destruct ((c =? 39) || (c =? 34)); [discriminate|]. destruct (is_unescaped c); discriminate. }
    subst c. apply escape_sound in Ecomp. destruct Ecomp as (r1 & E1 & Hc). assert (s = r1) as -> by (rewrite E1 in Es; now apply app_inv_head in Es). eapply Hrec; eauto.
  - assert (Ec92 : c = 92). { revert Ecomp. unfold str_comp. destruct (N.eqb_spec c 92); auto. destruct ((c =? 39) || (c =? 34)); [discriminate|]. destruct (is_unescaped c); discriminate. }
    subst c. apply escape_sound_char in Ecomp. destruct Ecomp as (r1 & E1 & Hc). eapply Hrec; eauto.
  - exfalso. destruct (existsb (N.eqb 10) sl); [injection H; discriminate|].
    rewrite Es, skip_app in H. destruct sl as [|x sl]; [congruence|]. rewrite Es in Hf. cbn [length app] in Hf. rewrite app_length in Hf.
    destruct (str_loop_ok f q (off + len (x :: sl)) s acc) as (v1 & fin1 & r1 & used & _ & _ & Hall); [lia|].
    destruct (Hall (push_string_error [] (x :: sl) off (off + len (x :: sl)))) as (e' & E' & Hmono & _). unfold bytes in *. rewrite E' in H. injection H as _ _ _ ->. apply Hmono; auto. apply push_string_error_nonempty.
  - discriminate.
Qed.

Lemma str_loop_complete q body v : decodes q body v -> quote_char q -> forall f off rest acc es, (length (body ++ q :: rest) < f)%nat ->
  str_loop f q off (body ++ q :: rest) acc es = Done (acc ++ v, off + len body + 1, rest, es).
Proof.
  intros H Hq. destruct (quote_not_hex q Hq) as [Hqh Hqo].
  assert (Hstep : forall sl val r v f off rest acc es, sl <> [] -> (forall f off rest acc es, (length (r ++ q :: rest) < f)%nat ->
      str_loop f q off (r ++ q :: rest) acc es = Done (acc ++ v, off + len r + 1, rest, es)) ->
    (length ((sl ++ r) ++ q :: rest) < S f)%nat ->
    str_loop f q (off + len sl) (skipn (length sl) ((sl ++ r) ++ q :: rest)) (acc ++ val) es = Done (acc ++ val ++ v, off + len (sl ++ r) + 1, rest, es)).
  { intros sl val r v0 f off rest acc es Hne IH Hf. rewrite <- app_assoc, skip_app. rewrite IH.
    - rewrite <- app_assoc, len_app. do 4 f_equal. lia.
    - rewrite <- app_assoc, app_length in Hf. destruct sl; [congruence|]. cbn [length] in Hf. lia. }
  induction H as [|c r v H0 H1 H2 H3 H IH|c x r v Hin H IH|x ds r v Hx Hl Hd Hr H IH|ds r v Hl Hd Hr Hn H IH|u n ds bs r v Hu Hl Hd Hs Hb H IH]; intros f off rest acc es Hf.
  - destruct f as [|f]; [lia|]. cbn [app str_loop]. unfold str_comp. assert (q =? 92 = false) as -> by (destruct Hq; lia). assert ((q =? 39) || (q =? 34) = true) as -> by (destruct Hq; lia).
    rewrite N.eqb_refl. cbn [length skipn]. rewrite app_nil_r, len_cons, !len_nil. do 4 f_equal. lia.
  - destruct (is_unescaped c) eqn:Eu.
    + cbn [app]. rewrite str_loop_text; auto. rewrite IH by (cbn [app length] in *; lia). rewrite <- app_assoc, len_cons. cbn [app]. do 4 f_equal. lia.
    + destruct f as [|f]; [lia|]. cbn [app str_loop]. unfold is_unescaped in Eu. unfold str_comp. assert (c =? 92 = false) as -> by lia. assert ((c =? 39) || (c =? 34) = true) as -> by lia.
      assert (c =? q = false) as -> by lia. apply (Hstep [c] [c] r v); auto; discriminate.
  - destruct f as [|f]; [lia|]. cbn [app str_loop]. rewrite (escape_simple _ _ _ Hin). apply (Hstep [92; N_of_ascii c] [x] r v); auto; discriminate.
  - destruct f as [|f]; [lia|]. cbn [app str_loop]. rewrite <- app_assoc. rewrite escape_hex; auto.
    + rewrite app_assoc. apply (Hstep (92 :: x :: ds) [numeral 16 ds] r v); auto; discriminate.
    + now apply Forall_hex.
    + destruct Hr as [|Hr]; [now left|right]. rewrite head_before by auto. rewrite starts_hex in Hr. now apply head_sat_not.
  - destruct f as [|f]; [lia|]. cbn [app str_loop]. rewrite <- app_assoc. rewrite escape_oct; auto.
    + rewrite app_assoc. apply (Hstep (92 :: ds) [numeral 8 ds] r v); auto; discriminate.
    + now apply Forall_oct.
    + destruct Hr as [|Hr]; [now left|right]. rewrite head_before by auto. rewrite starts_oct in Hr. now apply head_sat_not.
  - destruct f as [|f]; [lia|]. cbn [app str_loop]. rewrite <- app_assoc. rewrite (escape_unicode u n); auto; [|now apply Forall_hex].
    apply utf8_of_iff in Hb; auto. rewrite <- Hb. rewrite app_assoc. apply (Hstep (92 :: u :: ds) bs r v); auto; discriminate.
Qed.

(** ** C10 *)
Lemma quote_scan ideal q r : quote_char q -> scan ideal (q :: r) = (KQuote, [q]).
Proof. intros [-> | ->]; reflexivity. Qed.
Lemma quote_not_skip q : quote_char q -> is_skip q = false.
Proof. intros [-> | ->]; reflexivity. Qed.
Lemma scan_punct_not_str ideal l v slice : scan ideal l <> (KPunct (TStr v), slice).
Proof.
  intros Es. assert (Hp : exists ch, punct ch = Some (TStr v)).
  { revert Es. unfold scan. destruct l as [|c r]; [discriminate|]. destruct (is_ident_start c); [discriminate|]. destruct (is_digit c).
    - unfold scan_number. repeat match goal with |- context [if ?x then _ else _] => destruct x; try discriminate end.
    - repeat match goal with |- context [if ?x then _ else _] => destruct x; try discriminate end. destruct (punct c) eqn:Epc; [|discriminate].
      intros [= -> <-]. eauto. }
  destruct Hp as (ch & Hp). revert Hp. unfold punct. repeat match goal with |- context [if ?x then _ else _] => destruct x; try discriminate end.
Qed.
Lemma scan_quote ideal l slice : scan ideal l = (KQuote, slice) -> exists q r, l = q :: r /\ quote_char q /\ slice = [q].
Proof.
  unfold scan. destruct l as [|c r]; [discriminate|]. destruct (is_ident_start c); [discriminate|]. destruct (is_digit c).
  { unfold scan_number. repeat match goal with |- context [if ?x then _ else _] => destruct x; try discriminate end. }
  destruct ((c =? 39) || (c =? 34)) eqn:E; [intros [= <-]; exists c, r; repeat split; auto; unfold quote_char; lia|].
  repeat match goal with |- context [if ?x then _ else _] => destruct x; try discriminate end. destruct (punct c); discriminate.
Qed.

(** A string token produced without an error is the value of the literal at
    this place of the source. *)
Theorem C10_string_sound k s v s' : lex_next k s = Done (Some (Some (TStr v)), s') -> l_errs s' = [] ->
  exists w q body, l_rest s = w ++ q :: body ++ q :: l_rest s' /\ Forall blank w /\ quote_char q /\ decodes q body v /\
    l_start s' = l_end s + len w /\ l_end s' = l_start s' + len body + 2.
Proof.
  intros E He. pose proof (lexes_det _ _ _ _ E) as L. assert (He0 : l_errs s = []).
  { destruct (l_errs s) eqn:Es; auto. exfalso. apply (lx_mono _ _ _ _ L); [rewrite Es; discriminate|auto]. }
  clear L. revert E. unfold lex_next.
  pose proof (tw_split is_skip (l_rest s)) as Hsplit. set (w := take_while is_skip (l_rest s)) in *. set (l := skipn (length w) (l_rest s)) in *.
  assert (Hw : forallb is_skip w = true) by apply take_while_all. destruct l as [|c r] eqn:El; [discriminate|].
  destruct (scan (munch_ideal k) (c :: r)) as [kind slice] eqn:Es. destruct kind; try discriminate.
  - destruct (cb_int _ _ _ _ _) as [[? ?] ?]; discriminate.
  - destruct (cb_int _ _ _ _ _) as [[? ?] ?]; discriminate.
  - destruct (cb_int _ _ _ _ _) as [[? ?] ?]; discriminate.
  - destruct (cb_float _ _ _); discriminate.
  - apply scan_quote in Es. destruct Es as (q & r0 & [= <- <-] & Hq & ->). rename c into q. cbn [length skipn hd]. rewrite He0.
    destruct (str_loop (S (length r)) q (l_end s + len w + len [q]) r [] []) as [[[[v0 fin] r2] es]| |] eqn:Eloop; cbn [obind]; try discriminate.
    intros Eq. injection Eq as <- <-. cbn [l_errs l_rest l_start l_end] in *. subst es. apply (str_loop_sound (length r)) in Eloop; auto; try lia.
    destruct Eloop as (body & v' & Er & -> & Hd & ->). exists w, q, body. cbn [app]. rewrite <- is_skip_blank. rewrite Hsplit, Er. repeat split; auto. rewrite len_cons, len_nil. lia.
  - intros Eq. injection Eq as -> <-. exfalso. eapply scan_punct_not_str; exact Es.
  - destruct (cb_line _ _ _) as [[? ?]| |]; discriminate.
  - destruct (block_loop _ _ _ _ _ _ _) as [[[[? ?] ?] ?]| |]; discriminate.
Qed.
Print Assumptions C10_string_sound.

(** Each literal is lexed to its value, without an error. *)
Theorem C10_string_complete k s q body v rest : quote_char q -> decodes q body v -> l_rest s = q :: body ++ q :: rest ->
  exists s', lex_next k s = Done (Some (Some (TStr v)), s') /\ l_rest s' = rest /\ l_errs s' = l_errs s /\
    l_start s' = l_end s /\ l_end s' = l_end s + len body + 2.
Proof.
  intros Hq Hd Hs. unfold lex_next. rewrite Hs. cbn [take_while]. rewrite (quote_not_skip q Hq). cbn [length skipn]. rewrite (quote_scan _ _ _ Hq). cbn [length skipn hd].
  rewrite (str_loop_complete q body v Hd Hq) by lia. cbn [obind app]. eexists. split; [reflexivity|]. cbn [l_rest l_errs l_start l_end]. rewrite !len_cons, !len_nil. repeat split; auto; lia.
Qed.
Print Assumptions C10_string_complete.

(** A literal has one reading. *)
Theorem C10_unique q body v rest body' v' rest' : quote_char q -> decodes q body v -> decodes q body' v' ->
  body ++ q :: rest = body' ++ q :: rest' -> body = body' /\ v = v' /\ rest = rest'.
Proof.
  intros Hq H H' E. pose proof (str_loop_complete q body v H Hq (S (length (body ++ q :: rest))) 0 rest [] [] ltac:(lia)) as E1.
  rewrite E in E1. rewrite (str_loop_complete q body' v' H' Hq) in E1 by lia. cbn [app] in E1. injection E1 as E1 E2 E3. subst.
  split; auto. now apply app_inv_tail in E.
Qed.
Print Assumptions C10_unique.

(** Whatever is not such a literal is an error. *)
Theorem C10_rejects k s q l : quote_char q -> l_rest s = q :: l -> (forall body v rest, l = body ++ q :: rest -> ~ decodes q body v) ->
  exists v s', lex_next k s = Done (Some (Some (TStr v)), s') /\ l_errs s' <> [].
Proof.
  intros Hq Hs Hn. assert (exists v s', lex_next k s = Done (Some (Some (TStr v)), s')) as (v & s' & E).
  { unfold lex_next. rewrite Hs. cbn [take_while]. rewrite (quote_not_skip q Hq). cbn [length skipn]. rewrite (quote_scan _ _ _ Hq). cbn [length skipn hd].
    destruct (str_loop_ok (S (length l)) q (l_end s + len (@nil N) + len [q]) l []) as (v & fin & r2 & used & _ & _ & H); [lia|].
    destruct (H (l_errs s)) as (es & E & _). rewrite E. cbn [obind]. eauto. }
  exists v, s'. split; auto. intros He. destruct (C10_string_sound _ _ _ _ E He) as (w & q' & body & E1 & Hw & Hq' & Hd & _). rewrite Hs in E1.
  destruct w as [|c w]; [cbn [app] in E1; injection E1 as <- ->; eapply Hn; eauto|]. cbn [app] in E1. injection E1 as <- _. inversion Hw; subst.
  apply is_skip_iff in H1. rewrite quote_not_skip in H1; auto. discriminate.
Qed.
Print Assumptions C10_rejects.

Lemma app_len_inv {A} (a b c d : list A) : a ++ b = c ++ d -> length a = length c -> a = c.
Proof. revert c. induction a as [|x a IH]; intros [|y c] E L; cbn in *; try discriminate; auto. injection E as -> E. injection L as L. f_equal. eauto. Qed.
(** Among what is not a literal: *)
Theorem C10_not_literals q : quote_char q ->
  (forall body v, decodes q body v -> ~ In 0 body /\ ~ In 10 body) /\                                       (* NUL, newline *)
  (forall v, ~ decodes q [92] v) /\
  (forall c r v, (forall x, ~ In (ascii_of_N c, x) simple_escapes) -> ~ In (ascii_of_N c) ["x"; "X"; "u"; "U"]%char -> ~ oct_digit c -> c < 256 ->
     ~ decodes q (92 :: c :: r) v) /\                                                                       (* unknown escapes *)
  (forall x r v, In (ascii_of_N x) ["x"; "X"]%char -> x < 256 -> ~ starts hex_digit r -> ~ decodes q (92 :: x :: r) v) /\   (* no digit *)
  (forall ds r v, length ds = 3%nat -> Forall oct_digit ds -> 256 <= numeral 8 ds -> ~ decodes q (92 :: ds ++ r) v) /\  (* above 255 *)
  (forall ds r v, length ds = 4%nat -> 55296 <= numeral 16 ds <= 57343 -> ~ decodes q (92 :: N_of_ascii "u" :: ds ++ r) v) /\  (* surrogates *)
  (forall ds r v, length ds = 8%nat -> 1114112 <= numeral 16 ds -> ~ decodes q (92 :: N_of_ascii "U" :: ds ++ r) v).    (* not Unicode *)
Proof.
  intros Hq.
  assert (Hsim : forall c x, In (c, x) simple_escapes -> N_of_ascii c <> 0 /\ N_of_ascii c <> 10 /\ ~ oct_digit (N_of_ascii c) /\ c <> "x"%char /\ c <> "X"%char /\ c <> "u"%char /\ c <> "U"%char).
  { intros c x H. unfold simple_escapes in H. cbn [In] in H. unfold oct_digit. repeat (destruct H as [H|H]; [injection H as <- <-; cbv; repeat split; try discriminate; intros [? ?]; auto|]). destruct H. }
  assert (Hoh : forall c, oct_digit c -> hex_digit c) by (unfold oct_digit, hex_digit; intros; lia).
  assert (Hds : forall ds z, Forall hex_digit ds -> (z = 0 \/ z = 10) -> ~ In z ds).
  { intros ds z H Hz Hin. rewrite Forall_forall in H. apply H in Hin. unfold hex_digit in Hin. lia. }
  split.
  { intros body v H. assert (G : forall z, (z = 0 \/ z = 10) -> ~ In z body); [|split; apply G; auto]. intros z Hz.
    induction H as [|c r v H0 H1 H2 H3 H IH|c x r v Hin H IH|x ds r v Hx Hl Hd Hr H IH|ds r v Hl Hd Hr Hn H IH|u n ds bs r v Hu Hl Hd Hs Hb H IH]; cbn [In]; rewrite ?in_app_iff.
    - auto.
    - intros [->|G]; [|tauto]. destruct Hz; congruence.
    - destruct (Hsim _ _ Hin) as (A & B & _). intros [G|[G|G]]; [lia|destruct Hz; congruence|tauto].
    - intros [G|[G|[G|G]]]; [lia| |now apply (Hds ds z)|tauto]. destruct Hx as [-> | ->]; cbv in G; lia.
    - intros [G|[G|G]]; [lia| |tauto]. apply (Hds ds z); auto. eapply Forall_impl; [|exact Hd]. auto.
    - intros [G|[G|[G|G]]]; [lia| |now apply (Hds ds z)|tauto]. destruct Hu as [[-> _] | [-> _]]; cbv in G; lia. }
  split. { intros v H. inversion H; subst; try congruence. destruct ds; [cbn in *; lia|discriminate]. }
  split.
  { intros c r v Hns Hnx Hno Hc H. inversion H as [|? ? ? ? ? ? ? ?|c' x r' v' Hin|x ds r' v' Hx|ds r' v' Hl Hd|u n ds bs r' v' Hu]; subst; try congruence.
    - rewrite ascii_N_embedding in Hns. now apply (Hns x).
    - apply Hnx. destruct Hx as [-> | ->]; cbn; auto.
    - destruct ds as [|d ds]; [cbn in Hl; lia|]. cbn [app] in *. match goal with HH : _ :: _ = c :: r |- _ => injection HH as <- _ end. inversion Hd; auto.
    - apply Hnx. destruct Hu as [[-> _] | [-> _]]; cbn; auto. }
  assert (Hxx : forall x, In (ascii_of_N x) ["x"; "X"]%char -> x < 256 -> x = 120 \/ x = 88).
  { intros x Hin Hx. pose proof (N_ascii_embedding x Hx) as E. cbn [In] in Hin. destruct Hin as [Hin|[Hin|[]]]; rewrite <- Hin in E; cbv in E; auto. }
  split.
  { intros x r v Hin Hx Hst H. pose proof (Hxx x Hin Hx) as Hx2. clear Hin Hx. inversion H as [|? ? ? ? ? ? ? ?|c' y r' v' Hi|y ds r' v' Hy Hl Hd|ds r' v' Hl Hd|u n ds bs r' v' Hu]; subst; try congruence.
    - destruct (Hsim _ _ Hi) as (_ & _ & _ & A & B & _). destruct Hx2 as [G|G]; rewrite <- (ascii_N_embedding c'), G in A, B; cbv in A, B; congruence.
    - apply Hst. destruct ds as [|d ds]; [cbn in Hl; lia|]. inversion Hd; subst. exists d, (ds ++ r'). auto.
    - destruct ds as [|d ds]; [cbn in Hl; lia|]. cbn [app] in *. match goal with HH : _ :: _ = x :: r |- _ => injection HH as -> _ end. inversion Hd; subst. unfold oct_digit in *. lia.
    - destruct Hu as [[-> _] | [-> _]]; cbv in Hx2; lia. }
  split.
  { intros ds r v Hl Hd Hn H. inversion H as [|? ? ? ? ? ? ? ?|c' y r' v' Hi|y ds' r' v' Hy Hl' Hd'|ds' r' v' Hl' Hd' Hr' Hn'|u n ds' bs r' v' Hu]; subst; try congruence.
    - destruct ds as [|d ds]; [discriminate|]. cbn [app] in *. match goal with HH : _ :: _ = d :: _ |- _ => injection HH as <- _ end. inversion Hd; subst. destruct (Hsim _ _ Hi) as (_ & _ & A & _). auto.
    - destruct ds as [|d ds]; [discriminate|]. cbn [app] in *. match goal with HH : _ :: _ = d :: _ |- _ => injection HH as <- _ end. inversion Hd; subst. destruct Hy as [-> | ->]; match goal with HH : oct_digit _ |- _ => cbv in HH; destruct HH; congruence end.
    - assert (ds' = ds) as ->; [|lia].
      match goal with HH : ds' ++ r' = ds ++ r |- _ => rename HH into E end.
      destruct Hr' as [Hl3|Hst].
      { apply app_len_inv in E; auto. congruence. }
      destruct (Nat.eq_dec (length ds') 3) as [Hl3|Hl3].
      { apply app_len_inv in E; auto. congruence. }
      exfalso. apply Hst. assert (E2 : r' = skipn (length ds') ds ++ r).
      { apply (f_equal (skipn (length ds'))) in E. rewrite !skipn_app, Nat.sub_diag, skipn_all in E. cbn [skipn app] in E. replace (length ds' - length ds)%nat with 0%nat in E by lia. exact E. }
      pose proof (skipn_length (length ds') ds) as L. assert (Hf : Forall oct_digit (skipn (length ds') ds)).
      { rewrite <- (firstn_skipn (length ds') ds) in Hd. now apply Forall_app in Hd. }
      destruct (skipn (length ds') ds) as [|d t]; [cbn in L; lia|]. inversion Hf; subst. exists d, (t ++ r). auto.
    - destruct ds as [|d ds]; [discriminate|]. cbn [app] in *. match goal with HH : _ :: _ = d :: _ |- _ => injection HH as <- _ end. inversion Hd; subst. destruct Hu as [[-> _] | [-> _]]; match goal with HH : oct_digit _ |- _ => cbv in HH; destruct HH; congruence end. }
  assert (Hu : forall (u : ascii) m ds r v, (u = "u"%char /\ m = 4%nat) \/ (u = "U"%char /\ m = 8%nat) -> length ds = m -> decodes q (92 :: N_of_ascii u :: ds ++ r) v -> scalar_value (numeral 16 ds)).
  { intros u m ds r v Hum Hl H. inversion H as [|? ? ? ? ? ? ? ?|c' y r' v' Hi|y ds' r' v' Hy|ds' r' v' Hl' Hd' Hr' Hn'|u' n ds' bs r' v' Hu' Hl' Hd' Hs']; subst; try congruence.
    - exfalso. destruct (Hsim _ _ Hi) as (_ & _ & _ & _ & _ & A & B). match goal with HH : N_of_ascii c' = _ |- _ => apply (f_equal ascii_of_N) in HH; rewrite !ascii_N_embedding in HH end. destruct Hum as [[-> _]|[-> _]]; congruence.
    - exfalso. destruct Hum as [[-> _]|[-> _]], Hy as [Hy|Hy]; cbv in Hy; congruence.
    - exfalso. destruct ds' as [|d ds']; [cbn in Hl'; lia|]. cbn [app] in *. match goal with HH : _ :: _ = N_of_ascii u :: _ |- _ => injection HH as -> _ end. inversion Hd'; subst. destruct Hum as [[-> _]|[-> _]]; match goal with HH : oct_digit _ |- _ => cbv in HH; destruct HH; congruence end.
    - assert (length ds' = length ds) as Hn. { destruct Hum as [[-> ?]|[-> ?]], Hu' as [[A ?]|[A ?]]; try congruence; cbv in A; congruence. }
      assert (ds' = ds) as ->; auto. match goal with HH : ds' ++ r' = ds ++ r |- _ => rename HH into E end.
      apply app_len_inv in E; auto. }
  split; intros ds r v Hl Hn H.
  - apply (Hu "u"%char 4%nat) in H; auto. unfold scalar_value in H. lia.
  - apply (Hu "U"%char 8%nat) in H; auto. unfold scalar_value in H. lia.
Qed.
Print Assumptions C10_not_literals.

Example C10_ex : decodes 34 (b "a\x41\1012\n\u00e9'") (b "aAA2" ++ [10; 195; 169; 39]).
Proof.
  change (b "a\x41\1012\n\u00e9'") with (97 :: 92 :: 120 :: (b "41") ++ 92 :: (b "101") ++ 50 :: 92 :: N_of_ascii "n" :: 92 :: N_of_ascii "u" :: (b "00e9") ++ [39]).
  apply dc_raw; try discriminate. apply (dc_hex 34 120 (b "41")); [now left|cbn; lia|repeat constructor; unfold hex_digit; cbv; intuition discriminate|now left|].
  apply (dc_oct 34 (b "101")); [cbn; lia|repeat constructor; cbv; intuition discriminate|now left|reflexivity|]. apply dc_raw; try discriminate.
  apply dc_simple; [cbn; tauto|]. apply (dc_unicode 34 (N_of_ascii "u") 4 (b "00e9") [195; 169]); auto.
  - repeat constructor; unfold hex_digit; cbv; intuition discriminate.
  - unfold scalar_value. cbv. intuition discriminate.
  - change (numeral 16 (b "00e9")) with (64 * 3 + 41). change [195; 169] with [192 + 3; 128 + 41]. constructor; lia.
  - apply dc_raw; try discriminate. constructor.
Qed.
