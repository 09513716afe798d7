(** Specification of the UTF-8 functions of Utf8.v: [utf8_valid] accepts exactly
    the encodings of lists of Unicode scalar values (RFC 3629). *)
From Verif Require Import Base Utf8.

Definition scalar_value (c : N) : Prop := c < 55296 \/ 57344 <= c < 1114112.
(** The byte string is the UTF-8 encoding of some text. *)
Definition utf8_text (v : bytes) : Prop := exists cs, Forall scalar_value cs /\ v = flat_map encode_utf8 cs.

Lemma in_range_true lo hi c : in_range lo hi c = true <-> lo <= c <= hi.
Proof. unfold in_range. rewrite Bool.andb_true_iff, !N.leb_le. reflexivity. Qed.
Lemma in_range_false lo hi c : in_range lo hi c = false <-> c < lo \/ hi < c.
Proof. unfold in_range. rewrite Bool.andb_false_iff, !N.leb_gt. reflexivity. Qed.

Ltac rng := rewrite ?in_range_true, ?in_range_false in *.

Lemma is_scalar_iff c : is_scalar c = true <-> scalar_value c.
Proof. unfold is_scalar, scalar_value. rewrite Bool.orb_true_iff, N.ltb_lt, in_range_true. lia. Qed.

(** The values encoded by a well-formed sequence. *)
Definition decode2 (a c1 : N) : N := (a - 192) * 64 + (c1 - 128).
Definition decode3 (a c1 c2 : N) : N := (a - 224) * 4096 + (c1 - 128) * 64 + (c2 - 128).
Definition decode4 (a c1 c2 c3 : N) : N := (a - 240) * 262144 + (c1 - 128) * 4096 + (c2 - 128) * 64 + (c3 - 128).

Lemma enc1 a : a < 128 -> encode_utf8 a = [a].
Proof. intros H. unfold encode_utf8. apply N.ltb_lt in H. now rewrite H. Qed.
Lemma div_eq x q r m : x = m * q + r -> r < m -> x / m = q.
Proof. intros H Hr. symmetry. eapply N.div_unique; eauto. Qed.
Lemma mod_eq x q r m : x = m * q + r -> r < m -> x mod m = r.
Proof. intros H Hr. symmetry. eapply N.mod_unique; eauto. Qed.
Lemma enc2 a c1 : 194 <= a <= 223 -> 128 <= c1 <= 191 -> encode_utf8 (decode2 a c1) = [a; c1].
Proof.
  intros Ha Hc. unfold encode_utf8, decode2. set (x := _ + _). assert (Hx : x = 64 * (a - 192) + (c1 - 128)) by lia.
  rewrite (proj2 (N.ltb_ge x 128)) by lia. rewrite (proj2 (N.ltb_lt x 2048)) by lia.
  rewrite (div_eq _ _ _ _ Hx), (mod_eq _ _ _ _ Hx) by lia. f_equal; [lia|]. f_equal. lia.
Qed.
Lemma enc3 a c1 c2 : 224 <= a <= 239 -> 128 <= c1 <= 191 -> 128 <= c2 <= 191 -> (a = 224 -> 160 <= c1) ->
  encode_utf8 (decode3 a c1 c2) = [a; c1; c2].
Proof.
  intros Ha Hc1 Hc2 H0. unfold encode_utf8, decode3. set (x := _ + _).
  assert (Hx : x = 64 * ((a - 224) * 64 + (c1 - 128)) + (c2 - 128)) by lia.
  assert (Hy : x = 4096 * (a - 224) + ((c1 - 128) * 64 + (c2 - 128))) by lia.
  assert (Hz : (a - 224) * 64 + (c1 - 128) = 64 * (a - 224) + (c1 - 128)) by lia.
  assert (2048 <= x) by (destruct (N.eq_dec a 224); [specialize (H0 e)|]; lia).
  rewrite (proj2 (N.ltb_ge x 128)) by lia. rewrite (proj2 (N.ltb_ge x 2048)) by lia. rewrite (proj2 (N.ltb_lt x 65536)) by lia.
  rewrite (div_eq _ _ _ _ Hx), (mod_eq _ _ _ _ Hx), (div_eq _ _ _ _ Hy), (mod_eq _ _ _ _ Hz) by lia. f_equal; [lia|]. f_equal; [lia|]. f_equal. lia.
Qed.
Lemma enc4 a c1 c2 c3 : 240 <= a <= 244 -> 128 <= c1 <= 191 -> 128 <= c2 <= 191 -> 128 <= c3 <= 191 -> (a = 240 -> 144 <= c1) ->
  encode_utf8 (decode4 a c1 c2 c3) = [a; c1; c2; c3].
Proof.
  intros Ha Hc1 Hc2 Hc3 H0. unfold encode_utf8, decode4. set (x := _ + _).
  assert (Hx : x = 64 * ((a - 240) * 4096 + (c1 - 128) * 64 + (c2 - 128)) + (c3 - 128)) by lia.
  assert (Hy : x = 4096 * ((a - 240) * 64 + (c1 - 128)) + ((c2 - 128) * 64 + (c3 - 128))) by lia.
  assert (Hz : x = 262144 * (a - 240) + ((c1 - 128) * 4096 + (c2 - 128) * 64 + (c3 - 128))) by lia.
  assert (Hu : (a - 240) * 4096 + (c1 - 128) * 64 + (c2 - 128) = 64 * ((a - 240) * 64 + (c1 - 128)) + (c2 - 128)) by lia.
  assert (Hv : (a - 240) * 64 + (c1 - 128) = 64 * (a - 240) + (c1 - 128)) by lia.
  assert (65536 <= x) by (destruct (N.eq_dec a 240); [specialize (H0 e)|]; lia).
  rewrite (proj2 (N.ltb_ge x 128)) by lia. rewrite (proj2 (N.ltb_ge x 2048)) by lia. rewrite (proj2 (N.ltb_ge x 65536)) by lia.
  rewrite (div_eq _ _ _ _ Hz), (div_eq _ _ _ _ Hy), (div_eq _ _ _ _ Hx), (mod_eq _ _ _ _ Hx), (mod_eq _ _ _ _ Hu), (mod_eq _ _ _ _ Hv) by lia.
  f_equal; [lia|]. f_equal; [lia|]. f_equal; [lia|]. f_equal; lia.
Qed.

(** A step of the validator reads one encoded scalar value ... *)
Lemma utf8_step_sound l n : utf8_step l = Some n -> exists c, scalar_value c /\ l = encode_utf8 c ++ skipn n l /\ (0 < n <= length l)%nat.
Proof.
  destruct l as [|a r]; cbn [utf8_step]; [discriminate|]. destruct (a <? 128) eqn:E1.
  { apply N.ltb_lt in E1. intros [= <-]. exists a. rewrite enc1 by auto. split; [left; lia|]. cbn [skipn length app]. split; [reflexivity|lia]. }
  apply N.ltb_ge in E1. destruct (in_range 194 223 a) eqn:E2.
  { destruct r as [|c1 r]; [discriminate|]. unfold is_cont. destruct (in_range 128 191 c1) eqn:E3; [|discriminate]. rng. intros [= <-].
    exists (decode2 a c1). rewrite enc2 by lia. split; [unfold scalar_value, decode2; lia|]. cbn [skipn length app]. split; [reflexivity|lia]. }
  destruct (in_range 224 239 a) eqn:E3.
  { destruct r as [|c1 [|c2 r]]; try discriminate. unfold is_cont.
    destruct ((if a =? 224 then in_range 160 191 c1 else if a =? 237 then in_range 128 159 c1 else in_range 128 191 c1) && in_range 128 191 c2) eqn:E4; [|discriminate]. intros [= <-].
    apply andb_prop in E4. destruct E4 as [E4 E5]. rng.
    assert (H : 128 <= c1 <= 191 /\ (a = 224 -> 160 <= c1) /\ (a = 237 -> c1 <= 159)) by
      (destruct (N.eqb_spec a 224); [|destruct (N.eqb_spec a 237)]; rng; lia).
    exists (decode3 a c1 c2). rewrite enc3 by (lia || apply H). split; [|cbn [skipn length app]; split; [reflexivity|lia]].
    unfold scalar_value, decode3. destruct H as (H1 & H2 & H3). destruct (N.lt_trichotomy a 237) as [G|[G|G]]; [left|left; specialize (H3 G)|right]; lia. }
  destruct (in_range 240 244 a) eqn:E4; [|discriminate].
  destruct r as [|c1 [|c2 [|c3 r]]]; try discriminate. unfold is_cont.
  destruct ((if a =? 240 then in_range 144 191 c1 else if a =? 244 then in_range 128 143 c1 else in_range 128 191 c1) && in_range 128 191 c2 && in_range 128 191 c3) eqn:E5; [|discriminate]. intros [= <-].
  apply andb_prop in E5. destruct E5 as [E5 E7]. apply andb_prop in E5. destruct E5 as [E5 E6]. rng.
  assert (H : 128 <= c1 <= 191 /\ (a = 240 -> 144 <= c1) /\ (a = 244 -> c1 <= 143)) by
    (destruct (N.eqb_spec a 240); [|destruct (N.eqb_spec a 244)]; rng; lia).
  exists (decode4 a c1 c2 c3). rewrite enc4 by (lia || apply H). split; [|cbn [skipn length app]; split; [reflexivity|lia]].
  unfold scalar_value, decode4. destruct H as (H1 & H2 & H3). right. destruct (N.eq_dec a 244) as [G|G]; [specialize (H3 G)|]; destruct (N.eq_dec a 240) as [G'|G']; try specialize (H2 G'); lia.
Qed.
(** ... and reads every one. *)
Ltac gen_div := 
  repeat match goal with |- context [?x / ?m] => let q := fresh "q" in pose proof (N.div_mod' x m); pose proof (N.mod_lt x m ltac:(discriminate)); set (q := x / m) in *; clearbody q end.
Lemma encode_shape c : scalar_value c ->
  (c < 128 /\ encode_utf8 c = [c]) \/
  (exists a c1, encode_utf8 c = [a; c1] /\ 194 <= a <= 223 /\ 128 <= c1 <= 191) \/
  (exists a c1 c2, encode_utf8 c = [a; c1; c2] /\ 224 <= a <= 239 /\ 128 <= c1 <= 191 /\ 128 <= c2 <= 191 /\ (a = 224 -> 160 <= c1) /\ (a = 237 -> c1 <= 159)) \/
  (exists a c1 c2 c3, encode_utf8 c = [a; c1; c2; c3] /\ 240 <= a <= 244 /\ 128 <= c1 <= 191 /\ 128 <= c2 <= 191 /\ 128 <= c3 <= 191 /\ (a = 240 -> 144 <= c1) /\ (a = 244 -> c1 <= 143)).
Proof.
  intros Hc. unfold encode_utf8. unfold scalar_value in Hc. destruct (c <? 128) eqn:E1; [left; apply N.ltb_lt in E1; auto|right]. apply N.ltb_ge in E1.
  destruct (c <? 2048) eqn:E2; [left|right; destruct (c <? 65536) eqn:E3; [left|right]].
  - apply N.ltb_lt in E2. do 2 eexists. split; [reflexivity|]. pose proof (N.div_mod' c 64). pose proof (N.mod_lt c 64 ltac:(discriminate)). set (q := c / 64) in *. set (r := c mod 64) in *. clearbody q r. lia.
  - apply N.ltb_ge in E2. apply N.ltb_lt in E3. do 3 eexists. split; [reflexivity|].
    assert (Hd : c / 4096 = c / 64 / 64) by (rewrite N.div_div by discriminate; reflexivity). rewrite Hd.
    pose proof (N.div_mod' c 64). pose proof (N.mod_lt c 64 ltac:(discriminate)). set (q := c / 64) in *. set (r := c mod 64) in *. clearbody q r. clear Hd.
    pose proof (N.div_mod' q 64). pose proof (N.mod_lt q 64 ltac:(discriminate)). set (q2 := q / 64) in *. set (r2 := q mod 64) in *. clearbody q2 r2. lia.
  - apply N.ltb_ge in E3. do 4 eexists. split; [reflexivity|].
    assert (Hd : c / 4096 = c / 64 / 64) by (rewrite N.div_div by discriminate; reflexivity). rewrite Hd.
    assert (He : c / 262144 = c / 64 / 64 / 64) by (rewrite !N.div_div by discriminate; reflexivity). rewrite He.
    pose proof (N.div_mod' c 64). pose proof (N.mod_lt c 64 ltac:(discriminate)). set (q := c / 64) in *. set (r := c mod 64) in *. clearbody q r. clear Hd He.
    pose proof (N.div_mod' q 64). pose proof (N.mod_lt q 64 ltac:(discriminate)). set (q2 := q / 64) in *. set (r2 := q mod 64) in *. clearbody q2 r2.
    pose proof (N.div_mod' q2 64). pose proof (N.mod_lt q2 64 ltac:(discriminate)). set (q3 := q2 / 64) in *. set (r3 := q2 mod 64) in *. clearbody q3 r3. lia.
Qed.
Lemma utf8_step_complete c r : scalar_value c -> utf8_step (encode_utf8 c ++ r) = Some (length (encode_utf8 c)).
Proof.
  intros Hc. destruct (encode_shape c Hc) as [[H ->]|[(a & c1 & -> & H)|[(a & c1 & c2 & -> & H)|(a & c1 & c2 & c3 & -> & H)]]]; cbn [app utf8_step length].
  - now rewrite (proj2 (N.ltb_lt _ _) H).
  - rewrite (proj2 (N.ltb_ge a 128)) by lia. rewrite (proj2 (in_range_true 194 223 a)) by lia. unfold is_cont. now rewrite (proj2 (in_range_true 128 191 c1)) by lia.
  - rewrite (proj2 (N.ltb_ge a 128)) by lia. rewrite (proj2 (in_range_false 194 223 a)) by lia. rewrite (proj2 (in_range_true 224 239 a)) by lia. unfold is_cont.
    rewrite (proj2 (in_range_true 128 191 c2)) by lia. destruct (N.eqb_spec a 224); [|destruct (N.eqb_spec a 237)]; rewrite (proj2 (in_range_true _ _ c1)) by lia; reflexivity.
  - rewrite (proj2 (N.ltb_ge a 128)) by lia. rewrite (proj2 (in_range_false 194 223 a)) by lia. rewrite (proj2 (in_range_false 224 239 a)) by lia. rewrite (proj2 (in_range_true 240 244 a)) by lia. unfold is_cont.
    rewrite (proj2 (in_range_true 128 191 c2)), (proj2 (in_range_true 128 191 c3)) by lia. destruct (N.eqb_spec a 240); [|destruct (N.eqb_spec a 244)]; rewrite (proj2 (in_range_true _ _ c1)) by lia; reflexivity.
Qed.
Lemma encode_ne c : encode_utf8 c <> [].
Proof. unfold encode_utf8. destruct (c <? 128), (c <? 2048), (c <? 65536); discriminate. Qed.
Lemma skipn_app_len {A} (x y : list A) : skipn (length x) (x ++ y) = y.
Proof. induction x; cbn; auto. Qed.

Theorem utf8_valid_iff v : utf8_valid v = true <-> utf8_text v.
Proof.
  unfold utf8_valid, utf8_text. split.
  - assert (G : forall fuel l, utf8_valid_fuel fuel l = true -> exists cs, Forall scalar_value cs /\ l = flat_map encode_utf8 cs).
    { induction fuel as [|f IH]; intros l; destruct l as [|a r]; cbn [utf8_valid_fuel]; try discriminate; try (exists []; split; [constructor|reflexivity]).
      destruct (utf8_step (a :: r)) as [n|] eqn:E; [|discriminate]. intros H. apply IH in H. destruct H as (cs & H1 & H2). apply utf8_step_sound in E. destruct E as (c & Hc & E & _).
      exists (c :: cs). split; [constructor; auto|]. cbn [flat_map]. rewrite <- H2. exact E. }
    apply G.
  - intros (cs & H & ->). assert (G : forall cs fuel, Forall scalar_value cs -> (length (flat_map encode_utf8 cs) <= fuel)%nat -> utf8_valid_fuel fuel (flat_map encode_utf8 cs) = true); [|apply G; auto].
    clear. induction cs as [|c cs IH]; intros fuel H Hf; cbn [flat_map]; [now destruct fuel|]. inversion H; subst. cbn [flat_map] in Hf. rewrite app_length in Hf. pose proof (encode_ne c) as Hn.
    pose proof (utf8_step_complete c (flat_map encode_utf8 cs) H2) as Hs. destruct (encode_utf8 c ++ flat_map encode_utf8 cs) as [|x y] eqn:E; [now apply app_eq_nil in E|].
    destruct fuel as [|f]; [destruct (encode_utf8 c); [congruence|cbn in Hf; lia]|]. cbn [utf8_valid_fuel]. rewrite Hs, <- E, skipn_app_len. apply IH; auto. destruct (encode_utf8 c); [congruence|]. cbn [length] in Hf. lia.
Qed.
Print Assumptions utf8_valid_iff.
Example utf8_text_example : utf8_text [240; 159; 146; 169; 195; 169] /\ ~ utf8_text [237; 160; 128] /\ ~ utf8_text [192; 128].
Proof. rewrite <- !utf8_valid_iff. split; [reflexivity|]. split; discriminate. Qed.
