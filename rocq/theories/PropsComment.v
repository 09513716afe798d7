(** Comment tokens carry the text of the comment. *)
From Coq Require Import ZifyBool ZifyN.
From Verif Require Import Base Utf8 Errors Lex LexSpec PropsLex1 LexSafe Stream PropsLex Utf8Spec StrSpec PropsStr CommentSpec.

(** ** Line ends *)
Lemma normalize_sound l : unix_lines l (normalize_newlines l).
Proof.
  induction l as [|c r IH]; [constructor|]. cbn [normalize_newlines]. destruct ((c =? 13) && head_is 10 r) eqn:E.
  - apply andb_prop in E. destruct E as [E1 E2]. apply N.eqb_eq in E1. subst c. destruct r as [|d r]; [discriminate|]. cbn [head_is] in E2. apply N.eqb_eq in E2. subst d. now constructor.
  - constructor; auto. intros -> (d & r' & -> & <-). discriminate.
Qed.
Lemma unix_lines_det l t u : unix_lines l t -> unix_lines l u -> t = u.
Proof.
  intros H. revert u. induction H as [|r t H IH|c r t Hc H IH]; intros u Hu.
  - now inversion Hu.
  - inversion Hu as [|? ? H1|? ? ? H1]; subst; auto. exfalso. apply H1; auto. do 2 eexists. split; [reflexivity|auto].
  - inversion Hu as [|? ? H1|? ? ? H1]; subst; [|f_equal; auto]. exfalso. apply Hc; auto. do 2 eexists. split; [reflexivity|auto].
Qed.

(** ** White space *)
Lemma white_scalar c : In c white_space -> scalar_value c.
Proof. intros H. unfold white_space in H. cbn [In] in H. unfold scalar_value. lia. Qed.
Definition white_encs : list bytes := map encode_utf8 white_space.
Lemma white_enc bs : (exists c, In c white_space /\ utf8_of c bs) <-> In bs white_encs.
Proof.
  unfold white_encs. rewrite in_map_iff. split.
  - intros (c & H1 & H2). exists c. split; auto. apply utf8_of_iff in H2; auto using white_scalar.
  - intros (c & H1 & H2). exists c. split; auto. apply utf8_of_iff; auto using white_scalar.
Qed.
Lemma ws_len_some bs r : In bs white_encs -> ws_len (bs ++ r) = length bs.
Proof.
  intros H. unfold white_encs, white_space in H. cbn [map In] in H.
  repeat (destruct H as [H|H]; [rewrite <- H; vm_compute; reflexivity|]). destruct H.
Qed.
Lemma ws_len_In l n : ws_len l = n -> n <> 0%nat -> In (firstn n l) white_encs.
Proof.
  intros <- Hn. unfold ws_len in *. destruct l as [|c r]; [congruence|].
  assert (Hin : forall bs, In bs white_encs <-> In bs (map encode_utf8 white_space)) by reflexivity.
  destruct (in_range 9 13 c || (c =? 32)) eqn:E1.
  { assert (c = 9 \/ c = 10 \/ c = 11 \/ c = 12 \/ c = 13 \/ c = 32) as Hc. { unfold in_range in E1. lia. }
    cbn [firstn]. vm_compute. destruct Hc as [->|[->|[->|[->|[->| ->]]]]]; tauto. }
  destruct r as [|d r]; [congruence|]. destruct ((c =? 194) && ((d =? 133) || (d =? 160))) eqn:E2.
  { assert (c = 194 /\ (d = 133 \/ d = 160)) as [-> Hd] by lia. cbn [firstn]. vm_compute. destruct Hd as [->| ->]; tauto. }
  destruct r as [|e r]; [congruence|].
  match type of Hn with (if ?x then _ else _) <> _ => destruct x eqn:E3 end; [|congruence]. cbn [firstn].
  assert ((c = 225 /\ d = 154 /\ e = 128) \/ (c = 226 /\ d = 128 /\ (e = 128 \/ e = 129 \/ e = 130 \/ e = 131 \/ e = 132 \/ e = 133 \/ e = 134 \/ e = 135 \/ e = 136 \/ e = 137 \/ e = 138 \/ e = 168 \/ e = 169 \/ e = 175))
     \/ (c = 226 /\ d = 129 /\ e = 159) \/ (c = 227 /\ d = 128 /\ e = 128)) as H by (unfold in_range in E3; lia).
  clear -H. vm_compute. destruct H as [(-> & -> & ->)|[(-> & -> & H)|[(-> & -> & ->)|(-> & -> & ->)]]]; try tauto.
  repeat (destruct H as [->|H]; [tauto|]). subst e. tauto.
Qed.
Lemma ws_len_le l : (ws_len l <= length l)%nat.
Proof.
  unfold ws_len. destruct l as [|c [|d [|e r]]]; cbn [length]; repeat match goal with |- context [if ?x then _ else _] => destruct x end; lia.
Qed.
Lemma white_starts_iff l : white_starts l <-> ws_len l <> 0%nat.
Proof.
  split.
  - intros (c & bs & r & H1 & H2 & ->). assert (Hin : In bs white_encs) by (apply white_enc; eauto). rewrite (ws_len_some _ _ Hin).
    unfold white_encs in Hin. apply in_map_iff in Hin. destruct Hin as (c' & <- & Hc). unfold white_space in Hc. cbn [In] in Hc.
    repeat (destruct Hc as [<-|Hc]; [discriminate|]). destruct Hc.
  - intros H. pose proof (ws_len_In l _ eq_refl H) as Hin. apply white_enc in Hin. destruct Hin as (c & H1 & H2). exists c, (firstn (ws_len l) l), (skipn (ws_len l) l).
    split; auto. split; auto. symmetry. apply firstn_skipn.
Qed.
Lemma trim_start_spec l : exists ws, l = ws ++ trim_start l /\ white ws /\ ~ white_starts (trim_start l).
Proof.
  unfold trim_start. assert (G : forall n l, (length l <= n)%nat -> exists ws, l = ws ++ trim_start_fuel n l /\ white ws /\ ~ white_starts (trim_start_fuel n l)); [|apply G; auto].
  clear l. induction n as [|n IH]; intros l Hn; cbn [trim_start_fuel].
  - exists []. repeat split; auto; [constructor|]. rewrite white_starts_iff. destruct l; cbn in Hn; [cbn; auto|lia].
  - destruct (ws_len l) as [|m] eqn:E.
    + exists []. repeat split; auto; [constructor|]. now rewrite white_starts_iff.
    + pose proof (ws_len_le l) as Hle. rewrite E in Hle. destruct (IH (skipn (S m) l)) as (ws & H1 & H2 & H3); [rewrite skipn_length; lia|].
      exists (firstn (S m) l ++ ws). rewrite <- app_assoc, <- H1, firstn_skipn. repeat split; auto.
      assert (Hin : In (firstn (S m) l) white_encs) by (apply ws_len_In; auto). apply white_enc in Hin. destruct Hin as (c & Hc1 & Hc2). econstructor; eauto.
Qed.
Lemma white_trim ws : white ws -> forall r, ~ white_starts r -> trim_start (ws ++ r) = r.
Proof.
  intros H r Hr. unfold trim_start. assert (G : forall n, (length (ws ++ r) <= n)%nat -> trim_start_fuel n (ws ++ r) = r); [|apply G; auto].
  rewrite white_starts_iff in Hr. assert (Hz : ws_len r = 0%nat) by lia. clear Hr.
  induction H as [|c bs ws H1 H2 H IH]; intros n Hn.
  - cbn [app]. destruct n; cbn [trim_start_fuel]; auto. now rewrite Hz.
  - assert (Hin : In bs white_encs) by (apply white_enc; eauto). assert (Hl : (1 <= length bs)%nat).
    { rewrite <- (ws_len_some bs [] Hin). pose proof (proj1 (white_starts_iff (bs ++ []))) as G. assert (ws_len (bs ++ []) <> 0)%nat; [|lia]. apply G. exists c, bs, []. auto. }
    rewrite <- app_assoc in *. rewrite app_length in Hn. destruct n as [|n]; [lia|]. cbn [trim_start_fuel]. rewrite (ws_len_some _ _ Hin).
    destruct (length bs) as [|m] eqn:E; [lia|]. rewrite <- E, skip_app. apply IH. lia.
Qed.

(** ** Block comments *)
Lemma head_is_iff z l : head_is z l = true <-> starts (eq z) l.
Proof. unfold starts. destruct l as [|c r]; cbn [head_is]; [split; [discriminate|intros (?&?&?&?); discriminate]|]. rewrite N.eqb_eq. split; [intros ->; eauto|intros (?&?&[= <- <-]&?); auto]. Qed.
Lemma star_here_iff l : head_is 42 l && negb (head_is 47 (tl l)) = true <-> star_here l.
Proof.
  unfold star_here. destruct l as [|c r]; cbn [head_is tl]; [split; [discriminate|intros (?&?&?); discriminate]|]. rewrite Bool.andb_true_iff, Bool.negb_true_iff, N.eqb_eq. split.
  - intros [-> H]. exists r. split; auto. rewrite <- head_is_iff. congruence.
  - intros (r' & [= -> <-] & H). split; auto. rewrite <- head_is_iff in H. destruct (head_is 47 r); auto. tauto.
Qed.
Lemma conts_prefix r : Forall (fun c => 128 <= c <= 191) (firstn (conts r) r).
Proof. induction r as [|c r IH]; cbn [conts]; [constructor|]. destruct (is_cont c) eqn:E; cbn [firstn]; constructor; auto. now apply in_range_true in E. Qed.
Lemma conts_block p r t rest : Forall (fun c => 128 <= c <= 191) p -> block_at r t rest -> block_at (p ++ r) (p ++ t) rest.
Proof. intros H Hr. induction H as [|c p Hc H IH]; auto. cbn [app]. constructor; auto; try lia. Qed.
Lemma char_block c r t rest : c <> 10 -> (c = 42 -> ~ starts (eq 47) r) -> (c = 47 -> ~ starts (eq 42) r) ->
  let n := char_len (c :: r) in block_at (skipn n (c :: r)) t rest -> block_at (c :: r) (firstn n (c :: r) ++ t) rest.
Proof.
  intros H1 H2 H3 n H. unfold n, char_len in *. cbn [skipn firstn app] in *. constructor; auto. rewrite <- (firstn_skipn (conts r) r) at 1. apply conts_block; auto. apply conts_prefix.
Qed.

Lemma block_sound n : forall f off l le acc v fin r, (length l <= n)%nat -> (length l < f)%nat -> le = None ->
  block_loop f off l 1 le acc [] = Done (v, fin, r, []) -> exists t, v = acc ++ t /\ block_at l t r /\ (exists used, l = used ++ r /\ fin = off + len used).
Proof.
  induction n as [|n IH]; intros f off l le acc v fin r Hn Hf -> H.
  { destruct l as [|c l]; [|cbn in Hn; lia]. destruct f; [lia|]. cbn in H. discriminate. }
  destruct f as [|f]; [lia|]. destruct l as [|c l]; [cbn in H; discriminate|]. cbn [block_loop] in H.
  destruct ((c =? 42) && head_is 47 l) eqn:E1.
  { cbn [N.eqb] in H. replace (1 =? 1) with true in H by reflexivity. injection H as <- <- <-. exists []. rewrite app_nil_r. split; auto.
    apply andb_prop in E1. destruct E1 as [Ec El]. apply N.eqb_eq in Ec. subst c. destruct l as [|d l]; [discriminate|]. cbn [head_is] in El. apply N.eqb_eq in El. subst d. cbn [tl].
    pose proof (tw_split is_skip l) as Hs. pose proof (tw_after is_skip l) as Ha. pose proof (take_while_all is_skip l) as Hw.
    set (w := take_while is_skip l) in *. clearbody w. set (r := skipn (length w) l) in *. clearbody r. subst l. split.
    - apply (ba_end w r); [now apply is_skip_blank|now apply head_skip_blank].
    - exists (42 :: 47 :: w). split; auto. rewrite !len_cons. lia. }
  destruct ((c =? 47) && head_is 42 l) eqn:E2.
  { exfalso. destruct l as [|d l]; [now rewrite andb_false_r in E2|]. cbn [tl length] in *.
    destruct (block_loop_ok (off + 2) l f [] l (1 + 1) None acc) as (v1 & fin1 & r1 & used & _ & _ & Hall); auto; try lia; try discriminate.
    destruct (Hall ([] ++ [NestedBlockComment (off, off + 2)])) as (e' & E' & Hm & _). rewrite len_nil, N.add_0_r in E'. unfold bytes in *. rewrite E' in H. injection H as _ _ _ ->. apply Hm; [discriminate|auto]. }
  destruct (c =? 10) eqn:E3.
  { apply N.eqb_eq in E3. subst c. destruct (trim_start_spec l) as (ws & Hs & Hw & Hnw). set (st := trim_start l) in *.
    destruct (head_is 42 st && negb (head_is 47 (tl st))) eqn:E4.
    - assert (Hst := proj1 (star_here_iff st) E4). destruct Hst as (r1 & Est & Hr1). rewrite Est in H. cbn [tl] in H.
      assert (El : l = ws ++ 42 :: r1) by congruence. apply IH in H; auto; try (rewrite El in Hn, Hf; cbn [length] in Hn, Hf; rewrite app_length in Hn, Hf; cbn [length] in *; lia).
      destruct H as (t & -> & Hb & (used & Eu & ->)). exists (10 :: t). rewrite <- app_assoc. split; auto. split; [rewrite El; apply ba_star; auto; exists r1; auto|].
      exists (10 :: ws ++ 42 :: used). rewrite El, Eu. split; [cbn [app]; rewrite <- app_assoc; reflexivity|]. repeat rewrite ?len_cons, ?len_app. lia.
    - apply IH in H; auto; try (rewrite Hs in Hn, Hf; cbn [length] in Hn, Hf; rewrite app_length in Hn, Hf; lia).
      destruct H as (t & -> & Hb & (used & Eu & ->)). exists (10 :: t). rewrite <- app_assoc. split; auto. split.
      + rewrite Hs. apply ba_line; auto. rewrite <- star_here_iff. congruence.
      + exists (10 :: ws ++ used). rewrite Hs at 1. rewrite Eu at 1. split; [cbn [app]; now rewrite <- app_assoc|]. rewrite Hs at 1. rewrite Eu at 1 2. repeat rewrite ?len_cons, ?len_app. lia. }
  destruct (char_len_pos c l) as [Hc1 Hc2]. set (m := char_len (c :: l)) in *.
  apply IH in H; auto; try (rewrite skipn_length; cbn [length] in *; lia). destruct H as (t & -> & Hb & (used & Eu & ->)).
  exists (firstn m (c :: l) ++ t). rewrite <- app_assoc. split; auto. split.
  - apply char_block; auto.
    + apply N.eqb_neq in E3. auto.
    + intros ->. rewrite <- head_is_iff. cbn in E1. congruence.
    + intros ->. rewrite <- head_is_iff. cbn in E2. congruence.
  - exists (firstn m (c :: l) ++ used). rewrite <- app_assoc, <- Eu, firstn_skipn. split; auto. rewrite len_app. unfold len at 2. rewrite firstn_length. lia.
Qed.

Lemma block_conts q n : forall t rest, block_at q t rest -> exists t', t = firstn (Nat.min n (conts q)) q ++ t' /\ block_at (skipn (Nat.min n (conts q)) q) t' rest.
Proof.
  revert q. induction n as [|n IH]; intros q t rest H; [cbn [Nat.min firstn skipn app]; eauto|].
  destruct q as [|c r]; cbn [conts]; [cbn; eauto|]. destruct (is_cont c) eqn:E; [|cbn [Nat.min firstn skipn app]; eauto].
  apply in_range_true in E. cbn [Nat.min firstn skipn].
  inversion H as [w rest0 Hb Hnb|c' r' t' rest' H1 H2 H3 Hr|ws r' t' rest' Hw Hnw Hns Hr|ws r' t' rest' Hw Hns Hr]; subst; try lia.
  destruct (IH r t' rest Hr) as (t2 & -> & H4). exists t2. split; auto.
Qed.
Lemma block_complete l t r : block_at l t r -> forall f off acc es, (length l < f)%nat -> exists fin, block_loop f off l 1 None acc es = Done (acc ++ t, fin, r, es).
Proof.
  assert (G : forall n l t r, (length l <= n)%nat -> block_at l t r -> forall f off acc es, (length l < f)%nat -> exists fin, block_loop f off l 1 None acc es = Done (acc ++ t, fin, r, es)); [|eauto].
  clear. induction n as [|n IH]; intros l t r Hn H f off acc es Hf.
  { destruct l; [|cbn in Hn; lia]. inversion H. }
  destruct f as [|f]; [lia|]. inversion H as [w rest0 Hb Hnb|c' r' t' rest' H1 H2 H3 Hr|ws r' t' rest' Hw Hnw Hns Hr|ws r' t' rest' Hw Hns Hr]; subst l t r.
  - change (b "*/" ++ w ++ rest0) with (42 :: 47 :: w ++ rest0). cbn [block_loop head_is tl]. change ((42 =? 42) && (47 =? 47)) with true. change (1 =? 1) with true. cbv beta iota zeta.
    assert (take_while is_skip (w ++ rest0) = w) as ->.
    { rewrite take_while_prefix by (now apply is_skip_blank). apply head_skip_blank in Hnb. destruct rest0 as [|c rest0]; [apply app_nil_r|]. rewrite take_while_stop by exact Hnb. apply app_nil_r. }
    rewrite skip_app, app_nil_r. eauto.
  - cbn [block_loop]. assert (E1 : (c' =? 42) && head_is 47 r' = false). { destruct (N.eqb_spec c' 42); auto. cbn [andb]. rewrite <- head_is_iff in H2. destruct (head_is 47 r'); auto. exfalso. now apply H2. }
    assert (E2 : (c' =? 47) && head_is 42 r' = false). { destruct (N.eqb_spec c' 47); auto. cbn [andb]. rewrite <- head_is_iff in H3. destruct (head_is 42 r'); auto. exfalso. now apply H3. }
    rewrite E1, E2. apply N.eqb_neq in H1. rewrite H1. unfold char_len. cbn [skipn firstn].
    destruct (block_conts r' (conts r') t' rest' Hr) as (t2 & -> & Hb). rewrite Nat.min_id in *. 
    destruct (IH (skipn (conts r') r') t2 rest') with (f := f) (off := off + N.of_nat (S (conts r'))) (acc := acc ++ c' :: firstn (conts r') r') (es := es) as (fin & E); auto.
    + rewrite skipn_length. cbn [length] in Hn. lia.
    + rewrite skipn_length. cbn [length] in Hf. lia.
    + exists fin. rewrite E. rewrite <- app_assoc. reflexivity.
  - cbn [block_loop]. cbn [N.eqb Pos.eqb andb]. rewrite (white_trim _ Hw) by auto.
    assert (head_is 42 r' && negb (head_is 47 (tl r')) = false) as ->. { destruct (head_is 42 r' && negb (head_is 47 (tl r'))) eqn:E; auto. apply star_here_iff in E. tauto. }
    cbn [length] in Hn, Hf. rewrite app_length in Hn, Hf. destruct (IH r' t' rest' ltac:(lia) Hr f (off + 1 + (len (ws ++ r') - len r')) (acc ++ [10]) es ltac:(lia)) as (fin & E). exists fin. rewrite E, <- app_assoc. reflexivity.
  - cbn [block_loop]. cbn [N.eqb Pos.eqb andb]. rewrite (white_trim _ Hw).
    2:{ rewrite white_starts_iff. unfold ws_len. cbn. destruct r' as [|? [|? ?]]; cbn; auto. }
    assert (head_is 42 (42 :: r') && negb (head_is 47 (tl (42 :: r'))) = true) as -> by (now apply star_here_iff). cbn [tl].
    cbn [length] in Hn, Hf. rewrite app_length in Hn, Hf. cbn [length] in Hn, Hf. destruct (IH r' t' rest' ltac:(lia) Hr f (off + 1 + (len (ws ++ 42 :: r') - len r')) (acc ++ [10]) es ltac:(lia)) as (fin & E). exists fin. rewrite E, <- app_assoc. reflexivity.
Qed.

(** ** Line comments *)
Lemma scan_line_spec r : line_at r (scan_line r) (skipn (length (scan_line r)) r).
Proof.
  unfold line_at, scan_line. pose proof (tw_split (fun c => negb (c =? 10)) r) as Hs. pose proof (tw_after (fun c => negb (c =? 10)) r) as Ha. pose proof (take_while_all (fun c => negb (c =? 10)) r) as Hw.
  set (body := take_while _ r) in *. clearbody body. assert (Hno : ~ In 10 body). { intros H. pose proof (forallb_In _ _ _ Hw H). discriminate. }
  destruct (skipn (length body) r) as [|c rest] eqn:E.
  - rewrite app_nil_r in Hs. subst r. split; [rewrite skipn_all, app_nil_r; auto|]. left. rewrite skipn_all. auto.
  - cbn [head_sat] in Ha. apply Bool.negb_false_iff, N.eqb_eq in Ha. subst c. subst r. replace (body ++ 10 :: rest) with ((body ++ [10]) ++ rest) by (rewrite <- app_assoc; reflexivity).
    rewrite skip_app. split; auto. right. exists body. auto.
Qed.
