(** Decimal text of integers: what [dec] and [decZ] (Rust's integer [Display]) print. *)
From Verif Require Import Base.

(** The number a string of decimal digits denotes. *)
Definition decimal_value (ds : bytes) : N := fold_left (fun a c => a * 10 + (c - 48)) ds 0.
(** [t] is the decimal text of [n] without superfluous zeros. *)
Definition decimal (n : N) (t : bytes) : Prop :=
  t <> [] /\ Forall (fun c => 48 <= c <= 57) t /\ decimal_value t = n /\ (forall r, t = 48 :: r -> r = []).
(** With a minus sign for negative numbers. *)
Definition decimalZ (z : Z) (t : bytes) : Prop :=
  ((0 <= z)%Z /\ decimal (Z.to_N z) t) \/ ((z < 0)%Z /\ exists r, t = 45 :: r /\ decimal (Z.to_N (- z)) r).

Lemma dec_digits_spec fuel n acc : n < 10 ^ N.of_nat fuel -> (0 < fuel)%nat ->
  exists ds, dec_digits fuel n acc = ds ++ acc /\ decimal n ds.
Proof.
  revert n acc. induction fuel as [|fuel IH]; intros n acc Hn Hf; [lia|]. cbn [dec_digits]. destruct (N.ltb_spec n 10) as [Hs|Hs].
  - exists [48 + n mod 10]. split; [reflexivity|]. rewrite N.mod_small by lia. split; [discriminate|]. split; [constructor; [lia|constructor]|].
    split; [unfold decimal_value; cbn [fold_left]; lia|]. intros r [= _ ->]. reflexivity.
  - destruct fuel as [|fuel]; [change (N.of_nat 1) with 1 in Hn; rewrite N.pow_1_r in Hn; lia|].
    destruct (IH (n / 10) ((48 + n mod 10) :: acc)) as (ds & E & H1 & H2 & H3 & H4); [|lia|].
    { apply N.div_lt_upper_bound; [lia|]. rewrite Nat2N.inj_succ, N.pow_succ_r' in Hn. exact Hn. }
    exists (ds ++ [48 + n mod 10]). split; [rewrite E, <- app_assoc; reflexivity|]. pose proof (N.mod_lt n 10 ltac:(lia)) as Hm.
    split; [destruct ds; discriminate|]. split; [apply Forall_app; split; auto; constructor; [clear - Hm; set (q := n mod 10) in *; clearbody q; lia|constructor]|].
    split.
    + unfold decimal_value in *. rewrite fold_left_app, H3. cbn [fold_left]. pose proof (N.div_mod n 10 ltac:(discriminate)) as Hdm. clear - Hdm. set (q := n mod 10) in *. set (q2 := n / 10) in *. clearbody q q2. lia.
    + intros r Er. destruct ds as [|c ds]; [congruence|]. cbn [app] in Er. injection Er as -> <-. specialize (H4 ds eq_refl). subst ds. exfalso.
      unfold decimal_value in H3. cbn [fold_left] in H3. assert (1 <= n / 10) by (apply N.div_le_lower_bound; lia). lia.
Qed.
Lemma size_pow n : n < 10 ^ N.of_nat (S (N.size_nat n)).
Proof.
  assert (H : n < 2 ^ N.of_nat (N.size_nat n)).
  { destruct n as [|p]; [reflexivity|]. cbn [N.size_nat]. induction p as [p IH|p IH|]; cbn [Pos.size_nat]; [| |reflexivity]; rewrite Nat2N.inj_succ, N.pow_succ_r'; lia. }
  rewrite Nat2N.inj_succ. eapply N.lt_le_trans; [exact H|]. transitivity (10 ^ N.of_nat (N.size_nat n)).
  - apply N.pow_le_mono_l. lia.
  - apply N.pow_le_mono_r; lia.
Qed.
Lemma dec_decimal n : decimal n (dec n).
Proof. unfold dec. destruct (dec_digits_spec (S (N.size_nat n)) n [] (size_pow n) ltac:(lia)) as (ds & E & H). rewrite app_nil_r in E. rewrite E. exact H. Qed.
Lemma decZ_decimal z : decimalZ z (decZ z).
Proof.
  unfold decimalZ, decZ. destruct z as [|p|p].
  - left. split; [lia|]. apply dec_decimal.
  - left. split; [lia|]. apply dec_decimal.
  - right. split; [lia|]. eexists. split; [reflexivity|]. apply dec_decimal.
Qed.
