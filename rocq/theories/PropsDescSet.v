(** Serialized descriptor sets: C46 (decoding) and C40 (encode then decode). *)
From Verif Require Import Base Utf8 Errors Lex Ast Comments Parse Lines Descriptor Generate ParseApi Paths Resolver DescSet Compiler CompilerProofs CompilerHistory PropsCompiler.

(** ** Specification: the protobuf wire format, as a grammar on byte strings *)

(** Base-128 digits, least significant first, continuation bit on all but the last. *)
Inductive varint : N -> bytes -> Prop :=
| vi_last c : c < 128 -> varint c [c]
| vi_more c n r : 128 <= c -> c < 256 -> varint n r -> varint (c - 128 + 128 * n) (c :: r).
(** A varint holding a 64-bit value. *)
Definition is_varint (n : N) (bs : bytes) : Prop := varint n bs /\ (length bs <= 10)%nat /\ n < 2 ^ 64.

Definition wire_code (w : wire) : N :=
  match w with WVarint => 0 | W64 => 1 | WLen => 2 | WStart => 3 | WEnd => 4 | W32 => 5 end.
(** Field key: number and wire type, in 32 bits. *)
Definition is_key (tag : N) (w : wire) (bs : bytes) : Prop :=
  is_varint (8 * tag + wire_code w) bs /\ 1 <= tag /\ 8 * tag + wire_code w < 2 ^ 32.

(** The value of a field after its key; [depth] limits nesting of groups. *)
Inductive field_bytes : nat -> N -> wire -> bytes -> Prop :=
| fb_varint d tag n bs : is_varint n bs -> field_bytes (S d) tag WVarint bs
| fb_64 d tag bs : length bs = 8%nat -> field_bytes (S d) tag W64 bs
| fb_32 d tag bs : length bs = 4%nat -> field_bytes (S d) tag W32 bs
| fb_len d tag nb payload : is_varint (len payload) nb -> field_bytes (S d) tag WLen (nb ++ payload)
| fb_group d tag bs : group_bytes d tag bs -> field_bytes (S d) tag WStart bs
(** the fields of a group, up to the matching end key *)
with group_bytes : nat -> N -> bytes -> Prop :=
| gb_end d tag kb : is_key tag WEnd kb -> group_bytes d tag kb
| gb_field d tag t w kb fb rest : is_key t w kb -> field_bytes d t w fb -> group_bytes d tag rest ->
    group_bytes d tag (kb ++ fb ++ rest).

(** A serialized [FileDescriptorSet]: field 1 is a file, other fields are unknown. *)
Inductive set_bytes : bytes -> list bytes -> Prop :=
| sb_nil : set_bytes [] []
| sb_file kb nb payload rest fs :
    is_key 1 WLen kb -> is_varint (len payload) nb -> set_bytes rest fs ->
    set_bytes (kb ++ nb ++ payload ++ rest) (payload :: fs)
| sb_unknown t w kb fb rest fs :
    is_key t w kb -> t <> 1 -> field_bytes 100 t w fb -> set_bytes rest fs ->
    set_bytes (kb ++ fb ++ rest) fs.

Definition bytes_ok (l : bytes) : Prop := Forall (fun c => c < 256) l.

(** ** Varints *)
Lemma varint_nonempty n bs : varint n bs -> bs <> [].
Proof. destruct 1; discriminate. Qed.

Lemma div_room a m k : 0 < m -> a * m < k * m -> forall e, e < m -> a * m + e < k * m.
Proof. intros. assert (a < k) by nia. nia. Qed.

Lemma pow64 i : i <= 8 -> exists k, 2 ^ 64 = k * 2 ^ (7 * (i + 1)).
Proof.
  intros H. exists (2 ^ (64 - 7 * (i + 1))). rewrite <- N.pow_add_r. f_equal. lia.
Qed.

Lemma pow7 i : 2 ^ (7 * (i + 1)) = 128 * 2 ^ (7 * i).
Proof. replace (7 * (i + 1)) with (7 + 7 * i) by lia. rewrite N.pow_add_r. reflexivity. Qed.

Lemma decode_from_sound fuel : forall i acc buf v r, N.of_nat fuel + i = 10 -> bytes_ok buf ->
  decode_varint_from fuel i acc buf = Some (v, r) ->
  exists n bs, buf = bs ++ r /\ varint n bs /\ (length bs <= fuel)%nat /\ n * 2 ^ (7 * i) < 2 ^ 64 /\
    v = acc + n * 2 ^ (7 * i).
Proof.
  induction fuel as [|f IH]; intros i acc buf v r Hi Hb H; [discriminate|].
  cbn [decode_varint_from] in H. destruct buf as [|c buf]; [discriminate|]. inversion Hb; subst.
  destruct (c <? 128) eqn:Ec.
  - apply N.ltb_lt in Ec. destruct ((i =? 9) && (1 <? c)) eqn:E9; [discriminate|].
    injection H as <- <-. exists c, [c]. repeat split; auto; [now constructor|simpl; lia|].
    destruct (N.eq_dec i 9) as [->|Hne].
    + simpl in E9. apply N.ltb_ge in E9. assert (c = 0 \/ c = 1) as [-> | ->] by lia; vm_compute; reflexivity.
    + assert (Hle : i <= 8) by lia. destruct (pow64 i Hle) as (k & Ek). rewrite pow7 in Ek.
      assert (0 < 2 ^ (7 * i)) by (apply N.neq_0_lt_0, N.pow_nonzero; lia).
      assert (0 < k) by (destruct k; [simpl in Ek; lia|lia]). nia.
  - apply N.ltb_ge in Ec. destruct f as [|f'] eqn:Ef; [discriminate|]. rewrite <- Ef in *.
    apply IH in H; auto; [|lia]. destruct H as (n & bs & -> & Hv & Hl & Hm & ->).
    assert (Hi8 : i <= 8) by lia. destruct (pow64 i Hi8) as (k & Ek).
    assert (Hp : 0 < 2 ^ (7 * i)) by (apply N.neq_0_lt_0, N.pow_nonzero; lia).
    pose proof (pow7 i) as E7.
    exists (c - 128 + 128 * n), (c :: bs). repeat split.
    + constructor; auto.
    + simpl. lia.
    + rewrite N.mul_add_distr_r. rewrite <- N.mul_assoc, (N.mul_comm n), N.mul_assoc, <- E7.
      rewrite (N.mul_comm _ n), N.add_comm. rewrite Ek. apply div_room.
      * rewrite E7. lia.
      * rewrite <- Ek. exact Hm.
      * rewrite E7. apply N.mul_lt_mono_pos_r; lia.
    + rewrite E7. generalize (c - 128) (2 ^ (7 * i)). intros; ring.
Qed.

Lemma decode_from_complete n bs : varint n bs -> forall fuel i acc r,
  N.of_nat fuel + i = 10 -> (length bs <= fuel)%nat -> n * 2 ^ (7 * i) < 2 ^ 64 ->
  decode_varint_from fuel i acc (bs ++ r) = Some (acc + n * 2 ^ (7 * i), r).
Proof.
  induction 1 as [c Hc | c n bs H1 H2 Hv IH]; intros fuel i acc r Hi Hl Hm.
  - destruct fuel as [|f]; [simpl in Hl; lia|]. cbn [decode_varint_from app]. rewrite (proj2 (N.ltb_lt _ _) Hc).
    destruct (i =? 9) eqn:E; [|reflexivity]. apply N.eqb_eq in E. subst i. cbn [andb].
    destruct (1 <? c) eqn:E1; [|reflexivity]. apply N.ltb_lt in E1.
    exfalso. change (2 ^ (7 * 9)) with 9223372036854775808 in Hm. change (2 ^ 64) with 18446744073709551616 in Hm. lia.
  - destruct fuel as [|f]; [simpl in Hl; lia|]. cbn [app decode_varint_from].
    rewrite (proj2 (N.ltb_ge _ _) H1). pose proof (pow7 i) as E7.
    rewrite IH.
    + f_equal. f_equal. rewrite E7. generalize (c - 128) (2 ^ (7 * i)). intros; ring.
    + lia.
    + simpl in Hl. lia.
    + rewrite E7. assert (0 < 2 ^ (7 * i)) by (apply N.neq_0_lt_0, N.pow_nonzero; lia). nia.
Qed.

Lemma decode_varint_complete n bs r : is_varint n bs -> decode_varint (bs ++ r) = Some (n, r).
Proof.
  intros (H1 & H2 & H3). unfold decode_varint.
  rewrite (decode_from_complete n bs H1); auto; change (2 ^ (7 * 0)) with 1; [|lia]. f_equal. f_equal. lia.
Qed.

Lemma decode_varint_sound buf v r : bytes_ok buf -> decode_varint buf = Some (v, r) ->
  exists bs, buf = bs ++ r /\ is_varint v bs.
Proof.
  intros Hb H. apply decode_from_sound in H; auto. destruct H as (n & bs & -> & Hv & Hl & Hm & ->).
  change (2 ^ (7 * 0)) with 1 in *. exists bs. split; auto. replace (0 + n * 1) with n by lia.
  repeat split; auto. lia.
Qed.

Lemma bytes_ok_app x y : bytes_ok (x ++ y) -> bytes_ok x /\ bytes_ok y.
Proof. apply Forall_app. Qed.

(** ** Keys *)
Lemma wire_of_code w : wire_of (wire_code w) = Some w.
Proof. destruct w; reflexivity. Qed.
Lemma wire_of_Some n w : wire_of n = Some w -> n = wire_code w.
Proof.
  unfold wire_of. intros H.
  repeat (match type of H with (if ?n =? ?k then _ else _) = _ => destruct (N.eqb_spec n k); [injection H as <-; subst; reflexivity|] end).
  discriminate.
Qed.
Lemma code_lt w : wire_code w < 8.
Proof. destruct w; reflexivity. Qed.

Lemma decode_key_complete t w kb r : is_key t w kb -> decode_key (kb ++ r) = Some (t, w, r).
Proof.
  intros (H1 & H2 & H3). unfold decode_key. rewrite (decode_varint_complete _ _ _ H1).
  change (2 ^ 32) with 4294967296 in H3.
  rewrite (proj2 (N.ltb_ge _ _)) by lia.
  pose proof (code_lt w). replace ((8 * t + wire_code w) mod 8) with (wire_code w).
  2:{ rewrite N.add_comm, N.mul_comm, N.mod_add by lia. symmetry. now apply N.mod_small. }
  rewrite wire_of_code. replace ((8 * t + wire_code w) / 8) with t.
  2:{ rewrite N.add_comm, N.mul_comm, N.div_add by lia. rewrite N.div_small by auto. lia. }
  destruct (t =? 0) eqn:E; [apply N.eqb_eq in E; lia|reflexivity].
Qed.

Lemma decode_key_sound buf t w r : bytes_ok buf -> decode_key buf = Some (t, w, r) ->
  exists kb, buf = kb ++ r /\ is_key t w kb.
Proof.
  intros Hb H. unfold decode_key in H. destruct (decode_varint buf) as [[key r']|] eqn:E; [|discriminate].
  destruct (4294967295 <? key) eqn:Ek; [discriminate|]. apply N.ltb_ge in Ek.
  destruct (wire_of (key mod 8)) as [w'|] eqn:Ew; [|discriminate].
  destruct (key / 8 =? 0) eqn:Ez; [discriminate|]. apply N.eqb_neq in Ez. injection H as <- <- <-.
  apply decode_varint_sound in E; auto. destruct E as (bs & -> & Hv). exists bs. split; auto.
  apply wire_of_Some in Ew.
  assert (Hkey : 8 * (key / 8) + wire_code w' = key).
  { rewrite <- Ew. symmetry. apply N.div_mod. lia. }
  unfold is_key. rewrite Hkey. change (2 ^ 32) with 4294967296. split; [exact Hv|]. generalize dependent (key / 8). intros q Hq Hkey. lia.
Qed.

Lemma key_nonempty t w kb : is_key t w kb -> (1 <= length kb)%nat.
Proof. intros ((H & _) & _). apply varint_nonempty in H. destruct kb; [congruence|simpl; lia]. Qed.

(** ** Skipping unknown fields *)
Lemma advance_iff n buf r : advance n buf = Some r <-> exists x, buf = x ++ r /\ len x = n.
Proof.
  unfold advance, len. destruct (N.of_nat (length buf) <? n) eqn:E.
  - apply N.ltb_lt in E. split; [discriminate|]. intros (x & -> & <-). rewrite app_length in E. lia.
  - apply N.ltb_ge in E. split.
    + intros H. injection H as <-. exists (firstn (N.to_nat n) buf). split; [now rewrite firstn_skipn|].
      rewrite firstn_length. lia.
    + intros (x & -> & <-). rewrite Nnat.Nat2N.id. now rewrite skipn_app, skipn_all, Nat.sub_diag.
Qed.
Lemma len_nat {A} (l : list A) k : len l = N.of_nat k <-> length l = k.
Proof. unfold len. lia. Qed.

Section Group.
Variables (f d : nat) (tag : N).
Fixpoint skip_group (n : nat) (buf : bytes) : option bytes :=
  match n with
  | O => None
  | S n' =>
    match decode_key buf with
    | None => None
    | Some (t, WEnd, r) => if t =? tag then advance 0 r else None
    | Some (t, w', r) =>
      match skip_field f d w' t r with
      | None => None
      | Some r' => skip_group n' r'
      end
    end
  end.
End Group.

Lemma skip_field_group f d tag buf :
  skip_field (S f) (S d) WStart tag buf = skip_group f d tag (S (length buf)) buf.
Proof. reflexivity. Qed.

Lemma field_not_end d t fb : field_bytes d t WEnd fb -> False.
Proof. inversion 1. Qed.

Lemma skip_field_sound f : forall d w tag buf r, bytes_ok buf ->
  skip_field f d w tag buf = Some r -> exists fb, buf = fb ++ r /\ field_bytes d tag w fb.
Proof.
  induction f as [|f IH]; intros d w tag buf r Hb H; [discriminate|].
  destruct d as [|d]; [discriminate|]. destruct w.
  - simpl in H. destruct (decode_varint buf) as [[n r']|] eqn:E; [|discriminate].
    apply decode_varint_sound in E; auto. destruct E as (bs & -> & Hv).
    apply advance_iff in H. destruct H as (x & -> & Hx). apply (len_nat x 0) in Hx. destruct x; [|discriminate].
    exists bs. split; auto. econstructor; eauto.
  - simpl in H. apply advance_iff in H. destruct H as (x & -> & Hx). apply (len_nat x 8) in Hx.
    exists x. split; auto. constructor; auto.
  - simpl in H. destruct (decode_varint buf) as [[n r']|] eqn:E; [|discriminate].
    apply decode_varint_sound in E; auto. destruct E as (bs & -> & Hv).
    apply advance_iff in H. destruct H as (x & -> & <-).
    exists (bs ++ x). split; [now rewrite app_assoc|]. constructor; auto.
  - rewrite skip_field_group in H. revert H. generalize (S (length buf)). intros n H.
    cut (exists gb, buf = gb ++ r /\ group_bytes d tag gb).
    { intros (gb & -> & Hg). exists gb. split; auto. constructor; auto. }
    revert buf Hb H. induction n as [|n IHn]; intros buf Hb H; [discriminate|].
    simpl in H. destruct (decode_key buf) as [[[t w] r1]|] eqn:E; [|discriminate].
    apply decode_key_sound in E; auto. destruct E as (kb & -> & Hk).
    apply bytes_ok_app in Hb. destruct Hb as [_ Hb].
    assert (Hfield : skip_field f d w t r1 = None \/
      (exists r2, skip_field f d w t r1 = Some r2 /\ skip_group f d tag n r2 = Some r) ->
      match skip_field f d w t r1 with None => None | Some r' => skip_group f d tag n r' end = Some r ->
      exists gb, kb ++ r1 = gb ++ r /\ group_bytes d tag gb).
    { intros _ H'. destruct (skip_field f d w t r1) as [r2|] eqn:E2; [|discriminate].
      apply IH in E2; auto. destruct E2 as (fb & -> & Hf). apply bytes_ok_app in Hb. destruct Hb as [_ Hb].
      apply IHn in H'; auto. destruct H' as (gb & -> & Hg).
      exists (kb ++ fb ++ gb). split; [now rewrite <- !app_assoc|]. eapply gb_field; eauto. }
    destruct w; try (apply Hfield; [right|exact H]);
      try (destruct (skip_field f d _ t r1) as [r2|] eqn:E2; [|discriminate]; eauto; fail).
    destruct (t =? tag) eqn:Et; [|discriminate]. apply N.eqb_eq in Et. subst t.
    apply advance_iff in H. destruct H as (x & -> & Hx). apply (len_nat x 0) in Hx. destruct x; [|discriminate].
    exists kb. split; auto. constructor; auto.
  - discriminate.
  - simpl in H. apply advance_iff in H. destruct H as (x & -> & Hx). apply (len_nat x 4) in Hx.
    exists x. split; auto. constructor; auto.
Qed.

Scheme field_bytes_mind := Induction for field_bytes Sort Prop
  with group_bytes_mind := Induction for group_bytes Sort Prop.

Lemma skip_field_complete d tag w fb : field_bytes d tag w fb ->
  forall f r, (d < f)%nat -> skip_field f d w tag (fb ++ r) = Some r.
Proof.
  revert d tag w fb.
  apply (field_bytes_mind
    (fun d tag w fb _ => forall f r, (d < f)%nat -> skip_field f d w tag (fb ++ r) = Some r)
    (fun d tag gb _ => forall f r n, (d < f)%nat -> (length gb <= n)%nat -> skip_group f d tag n (gb ++ r) = Some r)).
  - intros d tag n bs H f r Hf. destruct f as [|f]; [lia|]. simpl. rewrite (decode_varint_complete _ _ _ H).
    apply advance_iff. exists []. auto.
  - intros d tag bs H f r Hf. destruct f as [|f]; [lia|]. simpl. apply advance_iff. exists bs. split; auto. now apply (len_nat bs 8).
  - intros d tag bs H f r Hf. destruct f as [|f]; [lia|]. simpl. apply advance_iff. exists bs. split; auto. now apply (len_nat bs 4).
  - intros d tag nb payload H f r Hf. destruct f as [|f]; [lia|]. simpl. rewrite <- app_assoc, (decode_varint_complete _ _ _ H).
    apply advance_iff. exists payload. auto.
  - intros d tag bs Hg IH f r Hf. destruct f as [|f]; [lia|]. rewrite skip_field_group. apply IH; [lia|].
    rewrite app_length. lia.
  - intros d tag kb Hk f r n Hf Hn. pose proof (key_nonempty _ _ _ Hk).
    destruct n as [|n]; [lia|]. simpl. rewrite (decode_key_complete _ _ _ _ Hk), N.eqb_refl.
    apply advance_iff. exists []. auto.
  - intros d tag t w kb fb rest Hk Hfb IHf Hg IHg f r n Hf Hn. pose proof (key_nonempty _ _ _ Hk).
    rewrite !app_length in Hn. destruct n as [|n]; [lia|].
    rewrite <- !app_assoc. simpl. rewrite (decode_key_complete _ _ _ _ Hk).
    rewrite IHf by lia. specialize (IHg f r n ltac:(lia) ltac:(lia)).
    destruct w; try exact IHg. destruct (field_not_end _ _ _ Hfb).
Qed.

Section Decode.
Variable dec : bytes -> option file_desc.

(** Each entry is the decoded file and the bytes it was decoded from. *)
Definition entry_of (payload : bytes) (e : file_desc * option bytes) : Prop :=
  dec payload = Some (fst e) /\ snd e = Some payload.

Lemma decode_set_sound fuel : forall buf acc set, bytes_ok buf ->
  decode_set dec fuel buf acc = Some set ->
  exists fs es, set_bytes buf fs /\ set = acc ++ es /\ Forall2 entry_of fs es.
Proof.
  induction fuel as [|fuel IH]; intros buf acc set Hb H; destruct buf as [|c buf]; cbn [decode_set] in H.
  - injection H as <-. exists [], []. rewrite app_nil_r. repeat constructor.
  - discriminate.
  - injection H as <-. exists [], []. rewrite app_nil_r. repeat constructor.
  - set (bb := c :: buf) in *. destruct (decode_key bb) as [[[t w] r]|] eqn:E; [|discriminate].
    apply decode_key_sound in E; auto. destruct E as (kb & -> & Hk).
    apply bytes_ok_app in Hb. destruct Hb as [_ Hb].
    destruct (t =? 1) eqn:Et.
    + apply N.eqb_eq in Et. subst t. destruct w; try discriminate.
      destruct (decode_varint r) as [[n r1]|] eqn:Ev; [|discriminate].
      apply decode_varint_sound in Ev; auto. destruct Ev as (nb & -> & Hv).
      apply bytes_ok_app in Hb. destruct Hb as [_ Hb].
      destruct (len r1 <? n) eqn:El; [discriminate|]. apply N.ltb_ge in El.
      destruct (dec (firstn (N.to_nat n) r1)) as [d|] eqn:Ed; [|discriminate].
      pose proof (firstn_skipn (N.to_nat n) r1) as Er.
      assert (Hln : len (firstn (N.to_nat n) r1) = n).
      { unfold len in *. rewrite firstn_length. lia. }
      set (payload := firstn (N.to_nat n) r1) in *. set (rest := skipn (N.to_nat n) r1) in *.
      rewrite <- Er in Hb. apply bytes_ok_app in Hb. destruct Hb as [_ Hb].
      apply IH in H; auto. destruct H as (fs & es & H1 & -> & H2).
      exists (payload :: fs), ((d, Some payload) :: es). rewrite <- Er. split; [|split].
      * constructor; auto. now rewrite Hln.
      * now rewrite <- app_assoc.
      * constructor; auto. split; auto.
    + apply N.eqb_neq in Et. destruct (skip_field _ _ w t r) as [r1|] eqn:Es; [|discriminate].
      apply skip_field_sound in Es; auto. destruct Es as (fb & -> & Hf).
      apply bytes_ok_app in Hb. destruct Hb as [_ Hb].
      apply IH in H; auto. destruct H as (fs & es & H1 & -> & H2).
      exists fs, es. split; auto. eapply sb_unknown; eauto.
Qed.

(** Decoding a well-formed part followed by [q] continues at [q]. *)
Lemma decode_set_prefix p fs : set_bytes p fs -> forall es, Forall2 entry_of fs es ->
  forall fuel q acc, (length (p ++ q) <= fuel)%nat ->
  exists fuel', (length q <= fuel')%nat /\ decode_set dec fuel (p ++ q) acc = decode_set dec fuel' q (acc ++ es).
Proof.
  induction 1 as [|kb nb payload rest fs Hk Hv Hs IH|t w kb fb rest fs Hk Ht Hf Hs IH];
    intros es Hes fuel q acc Hfuel.
  - inversion Hes; subst. rewrite app_nil_r. exists fuel. split; auto.
  - inversion Hes as [|? e ? es' [He1 He2] Hes']; subst.
    pose proof (key_nonempty _ _ _ Hk). rewrite !app_length in Hfuel. destruct fuel as [|fuel]; [lia|].
    destruct (IH es' Hes' fuel q (acc ++ [e])) as (f' & Hf' & E); [rewrite app_length; lia|].
    exists f'. split; auto. rewrite <- app_assoc in E. cbn [app] in E. rewrite <- E.
    rewrite <- !app_assoc. destruct (kb ++ nb ++ payload ++ rest ++ q) as [|c l] eqn:El.
    { destruct kb; [simpl in *; lia|discriminate]. }
    cbn [decode_set]. rewrite <- El. rewrite (decode_key_complete _ _ _ _ Hk).
    change (1 =? 1) with true. cbn iota. rewrite (decode_varint_complete _ _ _ Hv).
    rewrite (proj2 (N.ltb_ge _ _)) by (unfold len; rewrite app_length; lia).
    unfold len at 1 3. rewrite Nnat.Nat2N.id, firstn_app, firstn_all, Nat.sub_diag, firstn_O, app_nil_r.
    rewrite He1. unfold len. rewrite Nnat.Nat2N.id, skipn_app, skipn_all, Nat.sub_diag. cbn [skipn app].
    destruct e as [d o]. simpl in *. subst o. reflexivity.
  - pose proof (key_nonempty _ _ _ Hk). rewrite !app_length in Hfuel. destruct fuel as [|fuel]; [lia|].
    destruct (IH es Hes fuel q acc) as (f' & Hf' & E); [rewrite app_length; lia|].
    exists f'. split; auto. rewrite <- E.
    rewrite <- !app_assoc. destruct (kb ++ fb ++ rest ++ q) as [|c l] eqn:El.
    { destruct kb; [simpl in *; lia|discriminate]. }
    cbn [decode_set]. rewrite <- El. rewrite (decode_key_complete _ _ _ _ Hk).
    rewrite (proj2 (N.eqb_neq _ _) Ht). rewrite (skip_field_complete _ _ _ _ Hf) by (unfold recursion_limit; lia).
    reflexivity.
Qed.

(** C46: the decoder accepts exactly the serialized sets all of whose files
    decode, and keeps each file's bytes unchanged and in order. *)
Theorem C46_decodes_exactly_the_wire_format buf set : bytes_ok buf ->
  (desc_set_decode dec buf = Some set <-> exists fs, set_bytes buf fs /\ Forall2 entry_of fs set).
Proof.
  intros Hb. split.
  - intros H. apply decode_set_sound in H; auto. destruct H as (fs & es & H1 & -> & H2). exists fs. split; auto.
  - intros (fs & H1 & H2). unfold desc_set_decode.
    destruct (decode_set_prefix buf fs H1 set H2 (length buf) [] []) as (f' & _ & E); [rewrite app_nil_r; lia|].
    rewrite app_nil_r in E. rewrite E. destruct f'; reflexivity.
Qed.

Lemma app_prefix_split (x y u v : bytes) : x ++ y = u ++ v ->
  (exists z, x = u ++ z /\ v = z ++ y) \/ (exists z, u = x ++ z /\ z <> [] /\ y = z ++ v).
Proof.
  revert u. induction x as [|a x IH]; intros u H.
  - destruct u as [|c u]; [left; exists []; auto|right; exists (c :: u); repeat split; auto; discriminate].
  - destruct u as [|c u].
    + left. exists (a :: x). auto.
    + injection H as -> H. destruct (IH _ H) as [(z & -> & ->)|(z & -> & Hz & ->)].
      * left. exists z. auto.
      * right. exists z. auto.
Qed.

(** Input cut in the middle of a file entry is rejected. *)
Theorem C46_truncated_input_rejected p fs es kb nb payload x y :
  set_bytes p fs -> Forall2 entry_of fs es ->
  is_key 1 WLen kb -> is_varint (len payload) nb -> bytes_ok (kb ++ nb) ->
  kb ++ nb ++ payload = x ++ y -> x <> [] -> y <> [] ->
  desc_set_decode dec (p ++ x) = None.
Proof.
  intros Hp Hes Hk Hv Hb E Hx Hy. unfold desc_set_decode.
  destruct (decode_set_prefix p fs Hp es Hes _ x [] (le_n _)) as (f' & Hf' & ->).
  apply bytes_ok_app in Hb. destruct Hb as [Hbk Hbn].
  destruct f' as [|f']; [destruct x; [congruence|simpl in Hf'; lia]|].
  destruct x as [|c x']; [congruence|]. cbn [decode_set]. set (x := c :: x') in *.
  symmetry in E. apply app_prefix_split in E. destruct E as [(z & -> & E)|(z & -> & Hz & E)].
  - rewrite (decode_key_complete _ _ _ _ Hk). change (1 =? 1) with true. cbn iota.
    symmetry in E. apply app_prefix_split in E. destruct E as [(z2 & -> & E)|(z2 & -> & Hz & E)].
    + rewrite (decode_varint_complete _ _ _ Hv). rewrite E.
      rewrite (proj2 (N.ltb_lt _ _)); [reflexivity|]. unfold len. rewrite app_length. destruct y; [congruence|simpl; lia].
    + apply bytes_ok_app in Hbn. destruct Hbn as [Hbz _].
      destruct (decode_varint z) as [[n' r]|] eqn:Ev; [|reflexivity].
      apply decode_varint_sound in Ev; auto. destruct Ev as (bs & -> & Hv').
      pose proof (decode_varint_complete _ _ [] Hv) as D1. rewrite app_nil_r, <- app_assoc in D1.
      rewrite (decode_varint_complete _ _ _ Hv') in D1. injection D1 as _ D1.
      destruct r; [|discriminate]. simpl in D1. congruence.
  - apply bytes_ok_app in Hbk. destruct Hbk as [Hbx _].
    destruct (decode_key x) as [[[t w] r]|] eqn:Ek; [|reflexivity].
    apply decode_key_sound in Ek; auto. destruct Ek as (k' & Ex & Hk').
    pose proof (decode_key_complete _ _ _ [] Hk) as D1. rewrite app_nil_r, Ex, <- app_assoc in D1.
    rewrite (decode_key_complete _ _ _ _ Hk') in D1. injection D1 as _ _ D1.
    destruct r; [|discriminate]. simpl in D1. congruence.
Qed.
End Decode.

(** Names are looked up first-match; a hit carries the entry's bytes. *)
Theorem C46_lookup_first_match set name :
  (exists pre d e post, set = pre ++ (d, e) :: post /\ fd_name d = name /\
     (forall x, In x pre -> fd_name (fst x) <> name) /\
     r_open (desc_set_resolver set) name
       = Done (inl {| pf_path := None; pf_source := None; pf_desc := d; pf_encoded := e |})) \/
  ((forall x, In x set -> fd_name (fst x) <> name) /\
   r_open (desc_set_resolver set) name = Done (inr (EFileNotFound name))).
Proof.
  simpl. induction set as [|[d e] set IH]; simpl.
  - right. split; [intros x []|reflexivity].
  - destruct (bytes_eqb (fd_name d) name) eqn:E.
    + apply bytes_eqb_eq in E. left. exists [], d, e, set. split; [reflexivity|]. split; [auto|]. split; [intros x []|reflexivity].
    + apply bytes_eqb_neq in E. destruct IH as [(pre & d' & e' & post & -> & H1 & H2 & H3)|[H1 H2]].
      * left. exists ((d, e) :: pre), d', e', post. repeat split; auto. intros x [<-|Hx]; auto.
      * right. split; auto. intros x [<-|Hx]; auto.
Qed.

(** ** C40 *)
Lemma encode_varint_spec fuel n : n < 128 ^ N.of_nat fuel -> (1 <= fuel)%nat ->
  varint n (encode_varint_fuel fuel n) /\ (length (encode_varint_fuel fuel n) <= fuel)%nat /\ bytes_ok (encode_varint_fuel fuel n).
Proof.
  revert n. induction fuel as [|f IH]; intros n Hn Hf; [lia|]. cbn [encode_varint_fuel].
  destruct (n <? 128) eqn:E.
  - apply N.ltb_lt in E. repeat split; [constructor; auto|simpl; lia|]. constructor; [lia|constructor].
  - apply N.ltb_ge in E. assert (Hm : n mod 128 < 128) by (apply N.mod_lt; lia).
    assert (Hd : n / 128 < 128 ^ N.of_nat f).
    { apply N.div_lt_upper_bound; [lia|]. rewrite Nnat.Nat2N.inj_succ, N.pow_succ_r' in Hn. exact Hn. }
    destruct f as [|f'].
    { simpl in Hn. lia. }
    destruct (IH (n / 128) Hd ltac:(lia)) as (H1 & H2 & H3).
    split; [|split].
    + pose proof (N.div_mod n 128 ltac:(discriminate)) as Edm.
      generalize dependent (n mod 128). generalize dependent (n / 128). intros q Hq H1 H2 H3 m Hm Edm.
      replace n with ((128 + m) - 128 + 128 * q) by lia. constructor; auto; lia.
    + simpl in *. lia.
    + constructor; auto. lia.
Qed.

Lemma encode_varint_is n : n < 2 ^ 64 -> is_varint n (encode_varint n) /\ bytes_ok (encode_varint n).
Proof.
  intros H. unfold encode_varint. destruct (encode_varint_spec 10 n) as (H1 & H2 & H3); [|lia|].
  - eapply N.lt_trans; [exact H|]. reflexivity.
  - repeat split; auto.
Qed.

Lemma key_10 : is_key 1 WLen [10].
Proof.
  unfold is_key, is_varint. split; [split; [apply vi_last; reflexivity|split; [simpl; lia|reflexivity]]|].
  split; [lia|reflexivity].
Qed.

Lemma frames_set_bytes (es : list bytes) : Forall (fun e => len e < 2 ^ 64) es ->
  set_bytes (flat_map frame es) es.
Proof.
  induction 1 as [|e es He H IH]; simpl; [constructor|].
  change (10 :: (encode_varint (len e) ++ e) ++ flat_map frame es)
    with ([10] ++ (encode_varint (len e) ++ e) ++ flat_map frame es).
  rewrite <- app_assoc. constructor; auto; [apply key_10|]. now apply encode_varint_is.
Qed.

(** The encoded set decodes to the same files, in the same order, as
    [file_descriptor_set] returns; the decoded set resolves each of them by
    name. [enc]/[redec]/[dec] stand for prost's encoder, the re-encoding
    through a dynamic message and prost's decoder; their contract is that
    decoding what was encoded gives the file back (without its source info if
    that was cleared) and that encoded files are shorter than 2^64 bytes. *)
Theorem C40_encoded_set_agrees rs lk (enc : file_desc -> bytes) (redec : bool -> bytes -> bytes) (dec : bytes -> option file_desc) :
  named rs -> linker_ok lk ->
  forall ok c, history rs lk ok c ->
  (forall d, In d (c_pool c) -> dec (enc d) = Some d /\ len (enc d) < 2 ^ 64) ->
  (forall clear d, In d (c_pool c) ->
     dec (redec clear (enc d)) = Some (if clear then clear_source_info d else d)
     /\ len (redec clear (enc d)) < 2 ^ 64) ->
  exists ds bs set,
    file_descriptor_set c = Done ds /\ encode_file_descriptor_set enc redec c = Done bs /\
    desc_set_decode dec bs = Some set /\ map fst set = ds /\
    forall d, In d ds -> exists f, r_open (desc_set_resolver set) (fd_name d) = Done (inl f) /\ pf_desc f = d.
Proof.
  intros Hn Hl ok c Hh Henc Hre. pose proof (history_Inv rs lk Hn Hl _ _ Hh) as HI.
  set (g := fun d => if c_include_source_info c then d else clear_source_info d).
  set (h := fun d => if c_include_imports c && c_include_source_info c then enc d
                     else redec (negb (c_include_source_info c)) (enc d)).
  set (l := filter (fun d => c_include_imports c || opened_flag c (fd_name d)) (c_pool c)).
  assert (E1 : file_descriptor_set c = Done (map g l)) by (apply (fds_Done rs); auto).
  assert (E2 : encode_file_descriptor_set enc redec c = Done (flat_map frame (map h l))).
  { unfold encode_file_descriptor_set. unfold h.
    assert (Hfm : forall k (l0 : list file_desc), flat_map frame (map k l0) = flat_map (fun d => frame (k d)) l0).
    { intros k l0. induction l0; simpl; congruence. }
    rewrite Hfm. destruct (c_include_imports c && c_include_source_info c) eqn:Eb.
    - apply andb_prop in Eb. destruct Eb as [Eb1 Eb2]. unfold l. rewrite Eb1. cbn [orb]. now rewrite filter_true.
    - erewrite ofilter_Done by (intros; apply (emitted_Done rs); auto). simpl. reflexivity. }
  assert (Hdec : forall d, In d l -> dec (h d) = Some (g d) /\ len (h d) < 2 ^ 64).
  { intros d Hd. assert (Hin : In d (c_pool c)) by (unfold l in Hd; apply filter_In in Hd; tauto).
    unfold h, g. destruct (c_include_imports c && c_include_source_info c) eqn:Eb.
    - apply andb_prop in Eb. destruct Eb as [_ ->]. auto.
    - destruct (Hre (negb (c_include_source_info c)) d Hin) as [H1 H2]. split; auto.
      rewrite H1. destruct (c_include_source_info c); reflexivity. }
  assert (E3 : desc_set_decode dec (flat_map frame (map h l)) = Some (map (fun d => (g d, Some (h d))) l)).
  { assert (Hsb : set_bytes (flat_map frame (map h l)) (map h l)).
    { apply frames_set_bytes. apply Forall_forall. intros e He. apply in_map_iff in He.
      destruct He as (d & <- & Hd). apply Hdec; auto. }
    assert (Hes : Forall2 (entry_of dec) (map h l) (map (fun d => (g d, Some (h d))) l)).
    { revert Hdec. generalize l. clear. induction l as [|d l IH]; intros Hdec; simpl; constructor.
      - split; simpl; auto. apply Hdec. simpl; auto.
      - apply IH. intros; apply Hdec; simpl; auto. }
    unfold desc_set_decode.
    destruct (decode_set_prefix dec _ _ Hsb _ Hes (length (flat_map frame (map h l))) [] []) as (f' & _ & E); [rewrite app_nil_r; lia|].
    rewrite app_nil_r in E. rewrite E. destruct f'; reflexivity. }
  exists (map g l), (flat_map frame (map h l)), (map (fun d => (g d, Some (h d))) l).
  repeat split; auto.
  - rewrite map_map. reflexivity.
  - intros d Hd.
    assert (Hnd : NoDup (map fd_name (map g l))).
    { assert (Hgn : forall d, fd_name (g d) = fd_name d) by (intros d0; unfold g; now destruct (c_include_source_info c)).
      rewrite map_map. rewrite (map_ext _ fd_name) by auto.
      pose proof (inv_nodup _ _ HI) as Hnd. unfold names in Hnd. unfold l. clear - Hnd.
      induction (c_pool c) as [|x p IH]; simpl in *; [constructor|]. inversion Hnd; subst.
      destruct (_ || _); simpl; auto. constructor; auto. intros H. apply H1.
      apply in_map_iff in H. destruct H as (y & <- & Hy). apply filter_In in Hy. apply in_map. tauto. }
    assert (Hmap : map fst (map (fun d => (g d, Some (h d))) l) = map g l) by now rewrite map_map.
    revert Hmap. generalize (map (fun d => (g d, Some (h d))) l). intros set Hmap.
    destruct (C46_lookup_first_match set (fd_name d)) as [(pre & d' & e & post & -> & H1 & H2 & H3)|[H1 _]].
    + eexists. split; [exact H3|]. simpl. rewrite map_app in Hmap. simpl in Hmap. rewrite <- Hmap in Hd, Hnd.
      apply in_app_or in Hd. destruct Hd as [Hd|[Hd|Hd]]; auto.
      * apply in_map_iff in Hd. destruct Hd as (x & <- & Hx). exfalso. eapply H2; eauto.
      * exfalso. rewrite map_app in Hnd. simpl in Hnd. apply NoDup_remove_2 in Hnd. apply Hnd.
        apply in_or_app. right. rewrite H1. now apply in_map.
    + exfalso. rewrite <- Hmap in Hd. apply in_map_iff in Hd. destruct Hd as (x & <- & Hx). eapply H1; eauto.
Qed.

(** Non-vacuity: a set with a file and unknown fields (varint, fixed, nested
    group), and a truncation of it. *)
Definition ex_payload : bytes := b "abc".
Definition ex_buf : bytes := [16; 150; 1] ++ frame ex_payload ++ [35; 41; 1; 2; 3; 4; 5; 6; 7; 8; 36] ++ [29; 1; 2; 3; 4].
Example C46_example : desc_set_decode (fun _ => Some (ex_desc (b "x") [])) ex_buf
  = Some [(ex_desc (b "x") [], Some ex_payload)].
Proof. vm_compute. reflexivity. Qed.
Example C46_example_truncated : desc_set_decode (fun _ => Some (ex_desc (b "x") [])) (firstn 6 ex_buf) = None.
Proof. vm_compute. reflexivity. Qed.
Example C46_example_spec : set_bytes (frame ex_payload) [ex_payload].
Proof. change (frame ex_payload) with (flat_map frame [ex_payload]). apply frames_set_bytes. repeat constructor. Qed.

Example C40_example : exists ds bs set, let c := include_source_info false ex_run in
  let dec := fun n => find (fun d => bytes_eqb (fd_name d) n) (map clear_source_info (c_pool ex_run)) in
  file_descriptor_set c = Done ds /\ encode_file_descriptor_set fd_name (fun _ e => e) c = Done bs /\
  desc_set_decode dec bs = Some set /\ map fst set = ds /\ map fd_name ds = [b "b.proto"; b "a.proto"].
Proof. do 3 eexists. repeat split; vm_compute; reflexivity. Qed.

Print Assumptions C46_decodes_exactly_the_wire_format.
Print Assumptions C46_truncated_input_rejected.
Print Assumptions C46_lookup_first_match.
Print Assumptions C40_encoded_set_agrees.
