(** [String::from_utf8_lossy] replaces each maximal ill-formed piece by U+FFFD
    and keeps everything else. *)
From Coq Require Import ZifyBool ZifyN.
From Verif Require Import Base Utf8 Utf8Spec Errors Lex LexSpec LexSafe Stream PropsLex StrSpec Ast Comments Parse Grammar SynSpec.

Lemma step_no_char l : utf8_step l = None -> forall c, scalar_value c -> ~ begins (encode_utf8 c) l.
Proof. intros H c Hc (z & ->). now rewrite (utf8_step_complete c z Hc) in H. Qed.

(** What the first bytes of an encoding look like. *)
Definition second_ok (a c1 : N) : bool :=
  if in_range 194 223 a then is_cont c1
  else if in_range 224 239 a then (if a =? 224 then in_range 160 191 c1 else if a =? 237 then in_range 128 159 c1 else is_cont c1)
  else if in_range 240 244 a then (if a =? 240 then in_range 144 191 c1 else if a =? 244 then in_range 128 143 c1 else is_cont c1)
  else false.
Lemma begins2 a c1 c : scalar_value c -> begins [a; c1] (encode_utf8 c) -> second_ok a c1 = true.
Proof.
  intros Hc (z & E). destruct (encode_shape c Hc) as [[H E']|[(x & y & E' & H)|[(x & y & y2 & E' & H)|(x & y & y2 & y3 & E' & H)]]]; rewrite E' in E; cbn [app] in E; try discriminate;
  injection E as -> -> _; unfold second_ok, is_cont, in_range.
  - destruct ((194 <=? a) && (a <=? 223)) eqn:E1; lia.
  - destruct ((194 <=? a) && (a <=? 223)) eqn:E1; [lia|]. destruct ((224 <=? a) && (a <=? 239)) eqn:E2; [|lia]. destruct (N.eqb_spec a 224); [lia|]. destruct (N.eqb_spec a 237); lia.
  - destruct ((194 <=? a) && (a <=? 223)) eqn:E1; [lia|]. destruct ((224 <=? a) && (a <=? 239)) eqn:E2; [lia|]. destruct ((240 <=? a) && (a <=? 244)) eqn:E3; [|lia]. destruct (N.eqb_spec a 240); [lia|]. destruct (N.eqb_spec a 244); lia.
Qed.
Lemma begins3 a c1 c2 c : scalar_value c -> begins [a; c1; c2] (encode_utf8 c) -> second_ok a c1 = true /\ 224 <= a <= 244 /\ is_cont c2 = true.
Proof.
  intros Hc Hb. split; [eapply begins2; [exact Hc|]; destruct Hb as (z & Hb); exists (c2 :: z); exact Hb|]. destruct Hb as (z & E).
  destruct (encode_shape c Hc) as [[H E']|[(x & y & E' & H)|[(x & y & y2 & E' & H)|(x & y & y2 & y3 & E' & H)]]]; rewrite E' in E; cbn [app] in E; try discriminate;
  injection E as -> -> -> _; unfold is_cont, in_range; lia.
Qed.
Lemma begins4 a c1 c2 c3 c : scalar_value c -> begins [a; c1; c2; c3] (encode_utf8 c) -> 240 <= a <= 244 /\ is_cont c3 = true.
Proof.
  intros Hc (z & E). destruct (encode_shape c Hc) as [[H E']|[(x & y & E' & H)|[(x & y & y2 & E' & H)|(x & y & y2 & y3 & E' & H)]]]; rewrite E' in E; cbn [app] in E; try discriminate;
  injection E as -> -> -> -> _; unfold is_cont, in_range; lia.
Qed.
Lemma step_full l n : utf8_step l = Some n -> n = length l -> exists c, scalar_value c /\ encode_utf8 c = l.
Proof. intros H ->. apply utf8_step_sound in H. destruct H as (c & Hc & E & _). exists c. split; auto. rewrite skipn_all, app_nil_r in E. auto. Qed.
Lemma witness2 a c1 : second_ok a c1 = true -> 224 <= a <= 244 -> exists c, scalar_value c /\ begins [a; c1] (encode_utf8 c).
Proof.
  intros H Ha. unfold second_ok in H. assert (E0 : in_range 194 223 a = false) by (unfold in_range; lia). rewrite E0 in H. assert (E1 : (a <? 128) = false) by lia.
  destruct (in_range 224 239 a) eqn:E2.
  - destruct (step_full [a; c1; 128] 3) as (c & Hc & E); [|reflexivity|exists c; split; auto; exists [128]; exact E].
    cbn [utf8_step]. rewrite E1, E0, E2. now rewrite H.
  - destruct (in_range 240 244 a) eqn:E3; [|discriminate]. destruct (step_full [a; c1; 128; 128] 4) as (c & Hc & E); [|reflexivity|exists c; split; auto; exists [128; 128]; exact E].
    cbn [utf8_step]. rewrite E1, E0, E2, E3. now rewrite H.
Qed.
Lemma witness3 a c1 c2 : second_ok a c1 = true -> 240 <= a <= 244 -> is_cont c2 = true -> exists c, scalar_value c /\ begins [a; c1; c2] (encode_utf8 c).
Proof.
  intros H Ha H2. unfold second_ok in H. assert (E0 : in_range 194 223 a = false) by (unfold in_range; lia). rewrite E0 in H. assert (E1 : (a <? 128) = false) by lia.
  assert (E2 : in_range 224 239 a = false) by (unfold in_range; lia). rewrite E2 in H. assert (E3 : in_range 240 244 a = true) by (unfold in_range; lia). rewrite E3 in H.
  destruct (step_full [a; c1; c2; 128] 4) as (c & Hc & E); [|reflexivity|exists c; split; auto; exists [128]; exact E].
  cbn [utf8_step]. rewrite E1, E0, E2, E3, H, H2. reflexivity.
Qed.

Lemma bad_ill l : l <> [] -> utf8_step l = None -> (0 < utf8_bad_len l)%nat /\ ill_formed (firstn (utf8_bad_len l) l) (skipn (utf8_bad_len l) l).
Proof.
  intros Hne Hs. pose proof (step_no_char l Hs) as Hno. destruct l as [|a r]; [congruence|]. clear Hne.
  assert (H1 : forall n, (0 < n)%nat -> (length (firstn n (a :: r)) = 1%nat \/ exists c, scalar_value c /\ begins (firstn n (a :: r)) (encode_utf8 c)) ->
    (forall x q c, skipn n (a :: r) = x :: q -> scalar_value c -> ~ begins (firstn n (a :: r) ++ [x]) (encode_utf8 c)) -> (0 < n)%nat /\ ill_formed (firstn n (a :: r)) (skipn n (a :: r))).
  { intros n Hn Hb Hc. split; auto. split; [destruct n; [lia|discriminate]|]. split; [now rewrite firstn_skipn|]. split; auto. }
  cbn [utf8_step] in Hs. destruct (a <? 128) eqn:E1; [discriminate|]. unfold utf8_bad_len.
  destruct (in_range 194 223 a) eqn:E2.
  { assert (E3 : in_range 224 239 a = false) by (unfold in_range in *; lia). assert (E4 : in_range 240 244 a = false) by (unfold in_range in *; lia). rewrite E3, E4.
    apply H1; [lia|left; reflexivity|]. intros x q c E Hc Hb. cbn [skipn firstn app] in E, Hb. subst r. apply begins2 in Hb; auto. unfold second_ok in Hb. rewrite E2 in Hb. now rewrite Hb in Hs. }
  destruct (in_range 224 239 a) eqn:E3.
  { assert (E4 : in_range 240 244 a = false) by (unfold in_range in *; lia).
    assert (Hso : forall c1, second_ok a c1 = (if a =? 224 then in_range 160 191 c1 else if a =? 237 then in_range 128 159 c1 else is_cont c1)) by (intros c1; unfold second_ok; now rewrite E2, E3).
    destruct r as [|c1 r1]; [apply H1; [lia|left; reflexivity|discriminate]|].
    rewrite <- Hso in *. destruct (second_ok a c1) eqn:E5.
    - apply H1; [lia|right; apply witness2; [exact E5|unfold in_range in E3; lia]|]. intros x q c E Hc Hb. cbn [skipn firstn app] in E, Hb. subst r1. apply begins3 in Hb; auto. destruct Hb as (_ & _ & Hb).
      rewrite Hb in Hs. discriminate.
    - apply H1; [lia|left; reflexivity|]. intros x q c E Hc Hb. cbn [skipn firstn app] in E, Hb. injection E as -> ->. apply begins2 in Hb; auto. congruence. }
  destruct (in_range 240 244 a) eqn:E4.
  { assert (Hso : forall c1, second_ok a c1 = (if a =? 240 then in_range 144 191 c1 else if a =? 244 then in_range 128 143 c1 else is_cont c1)) by (intros c1; unfold second_ok; now rewrite E2, E3, E4).
    destruct r as [|c1 r1]; [apply H1; [lia|left; reflexivity|discriminate]|].
    rewrite <- Hso in *. destruct (second_ok a c1) eqn:E5.
    - destruct r1 as [|c2 r2]; [apply H1; [lia|right; apply witness2; [exact E5|unfold in_range in E4; lia]|discriminate]|].
      rewrite <- ?Hso in Hs. destruct (is_cont c2) eqn:E6.
      + apply H1; [lia|right; apply witness3; auto; unfold in_range in E4; lia|]. intros x q c E Hc Hb. cbn [skipn firstn app] in E, Hb. subst r2. apply begins4 in Hb; auto. destruct Hb as (_ & Hb). rewrite ?E5, ?E6, Hb in Hs. discriminate.
      + apply H1; [lia|right; apply witness2; [exact E5|unfold in_range in E4; lia]|]. intros x q c E Hc Hb. cbn [skipn firstn app] in E, Hb. injection E as -> ->. apply begins3 in Hb; auto. destruct Hb as (_ & _ & Hb). congruence.
    - apply H1; [lia|left; reflexivity|]. intros x q c E Hc Hb. cbn [skipn firstn app] in E, Hb. injection E as -> ->. apply begins2 in Hb; auto. congruence. }
  apply H1; [lia|left; reflexivity|]. intros x q c E Hc Hb. cbn [skipn firstn app] in E, Hb. apply begins2 in Hb; auto. unfold second_ok in Hb. rewrite E2, E3, E4 in Hb. discriminate.
Qed.

Theorem lossy_spec v : lossy v (utf8_lossy v).
Proof.
  unfold utf8_lossy. assert (G : forall f l, (length l <= f)%nat -> lossy l (utf8_lossy_fuel f l)); [|apply G; auto].
  induction f as [|f IH]; intros l Hf.
  { destruct l; [constructor|cbn in Hf; lia]. }
  destruct l as [|a r] eqn:El; [constructor|]. rewrite <- El in *. assert (Hne : l <> []) by (rewrite El; discriminate).
  replace (utf8_lossy_fuel (S f) l) with (match utf8_step l with Some n => firstn n l ++ utf8_lossy_fuel f (skipn n l) | None => [239; 191; 189] ++ utf8_lossy_fuel f (skipn (utf8_bad_len l) l) end) by (rewrite El; reflexivity).
  clear El. destruct (utf8_step l) as [n|] eqn:Es.
  - destruct (utf8_step_sound _ _ Es) as (c & Hc & E & Hn). assert (Hfi : firstn n l = encode_utf8 c).
    { assert (firstn n l ++ skipn n l = encode_utf8 c ++ skipn n l) as H by (rewrite firstn_skipn; exact E). now apply app_inv_tail in H. }
    rewrite Hfi. rewrite E at 1. apply lo_char; auto. apply IH. rewrite skipn_length. lia.
  - destruct (bad_ill l Hne Es) as [Hn Hill]. rewrite <- (firstn_skipn (utf8_bad_len l) l) at 1. change [239; 191; 189] with (encode_utf8 65533). apply lo_bad; auto. apply IH. rewrite skipn_length. lia.
Qed.

(** On valid text nothing changes; the result is determined. *)
Lemma lossy_text v : utf8_text v -> lossy v v.
Proof. intros (cs & H & ->). induction H as [|c cs Hc H IH]; cbn [flat_map]; [constructor|now apply lo_char]. Qed.
Lemma begins_same x y u v : x ++ y = u ++ v -> (length x <= length u)%nat -> begins x u.
Proof.
  revert u. induction x as [|a x IH]; intros u E H; [exists u; reflexivity|]. destruct u as [|b u]; [cbn in H; lia|]. cbn [app] in E. injection E as -> E.
  destruct (IH u E) as (z & ->); [cbn in H; lia|]. exists z. reflexivity.
Qed.
Lemma encode_prefix_free c d x y : scalar_value c -> scalar_value d -> encode_utf8 c ++ x = encode_utf8 d ++ y -> encode_utf8 c = encode_utf8 d.
Proof.
  intros Hc Hd E. pose proof (utf8_step_complete c x Hc) as H1. pose proof (utf8_step_complete d y Hd) as H2. rewrite E in H1. rewrite H1 in H2. injection H2 as H2.
  apply (f_equal (firstn (length (encode_utf8 c)))) in E. rewrite firstn_app, Nat.sub_diag, firstn_O, app_nil_r, firstn_all in E. rewrite H2, firstn_app, Nat.sub_diag, firstn_O, app_nil_r, firstn_all in E. exact E.
Qed.
Lemma ill_unique p r q s : p ++ r = q ++ s -> ill_formed p r -> ill_formed q s -> p = q.
Proof.
  intros E (P1 & P2 & P3 & P4) (Q1 & Q2 & Q3 & Q4).
  assert (Hlt : forall p r q s, p ++ r = q ++ s -> p <> [] -> (length q = 1%nat \/ exists c, scalar_value c /\ begins q (encode_utf8 c)) -> (forall x z c, r = x :: z -> scalar_value c -> ~ begins (p ++ [x]) (encode_utf8 c)) -> (length q <= length p)%nat).
  { clear. intros p r q s E Hp Hq Hno. destruct (le_lt_dec (length q) (length p)) as [|Hl]; auto. exfalso.
    destruct (begins_same p r q s E ltac:(lia)) as (z & ->). rewrite app_length in Hl. destruct z as [|x z]; [cbn in Hl; lia|]. rewrite <- app_assoc in E. apply app_inv_head in E. cbn [app] in E.
    destruct Hq as [Hq|(c & Hc & (y & Hy))].
    - rewrite app_length in Hq. destruct p; [congruence|cbn in Hq; lia].
    - apply (Hno x (z ++ s) c E Hc). exists (z ++ y). rewrite Hy, <- !app_assoc. reflexivity. }
  assert (length p = length q) by (apply Nat.le_antisymm; [eapply (Hlt q s p r); eauto|eapply (Hlt p r q s); eauto]).
  destruct (begins_same p r q s E) as (z & ->); [lia|]. rewrite app_length in H. destruct z; [symmetry; apply app_nil_r|cbn in H; lia].
Qed.
Theorem lossy_unique v w : lossy v w -> forall w', lossy v w' -> w = w'.
Proof.
  induction 1 as [|c r t Hc H IH|p r t Hp H IH]; intros w' H'.
  - inversion H' as [|c r t Hc H1 E|p r t Hp H1 E]; auto.
    + apply app_eq_nil in E. destruct E as [E _]. destruct (encode_ne c E).
    + apply app_eq_nil in E. destruct E as [-> _]. destruct Hp as [Hp _]. congruence.
  - inversion H' as [E|d r' t' Hd H1 E|p r' t' Hp H1 E].
    + symmetry in E. apply app_eq_nil in E. destruct E as [E _]. destruct (encode_ne c E).
    + pose proof (encode_prefix_free _ _ _ _ Hd Hc E) as Ee. rewrite Ee in *. apply app_inv_head in E. subst r'. f_equal. now apply IH.
    + exfalso. destruct Hp as (_ & Hp & _). apply (Hp c Hc). rewrite E. exists r. reflexivity.
  - inversion H' as [E|d r' t' Hd H1 E|q r' t' Hq H1 E].
    + symmetry in E. apply app_eq_nil in E. destruct E as [-> _]. destruct Hp as [Hp _]. congruence.
    + exfalso. destruct Hp as (_ & Hp & _). apply (Hp d Hd). rewrite <- E. exists r'. reflexivity.
    + assert (q = p) as -> by (eapply ill_unique; eauto). apply app_inv_head in E. subst r'. f_equal. now apply IH.
Qed.
Example lossy_example : lossy [97; 240; 159; 146; 98; 237; 160] (b "a" ++ encode_utf8 65533 ++ b "b" ++ encode_utf8 65533 ++ encode_utf8 65533).
Proof. apply (lossy_spec [97; 240; 159; 146; 98; 237; 160]). Qed.
Print Assumptions lossy_spec.
Print Assumptions lossy_unique.
