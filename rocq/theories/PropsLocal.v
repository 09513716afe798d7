(** C55: an unexpected token cannot be made good by what follows it. *)
From Verif Require Import Base Utf8 Errors Lex LexSpec LexSafe Stream Ast Comments Parse ParseApi Descriptor Generate Grammar SpaceSpec SynSpec ErrSpec Walk WalkG3 Complete3 AstWf AstWfG PropsParse PropsComplete PropsErr PropsSyn Local.

Lemma breaks_not_ut k syn f e : breaks k syn f e -> ut e = false.
Proof.
  intros (x & _ & F). assert (HO : forall o e, option_flaw o e -> ut e = false) by (intros o e0 H; inversion H; reflexivity).
  assert (HL : forall l e, options_flaw l e -> ut e = false) by (intros l e0 (o & _ & H); eapply HO; exact H).
  assert (HF : forall l e, optlist_flaw l e -> ut e = false) by (intros l e0 H; unfold optlist_flaw in H; repeat match goal with H : exists _, _ |- _ => destruct H | H : _ /\ _ |- _ => destruct H end; eapply HO; eassumption).
  inversion F as [sc g e0 H0| | | | | | | | | | | | |]; subst; try reflexivity; eauto. inversion H0; subst; try reflexivity; eauto.
Qed.

(** If the first error is an unexpected token, the text up to the end of that token, followed by nothing or by
    white space and any text at all, has the same first error: no edit behind the token helps. *)
Theorem C55_unexpected_token k sort name src err a expected found sp :
  parse k sort name src = Done (inr err, a) -> pe_kind err = UnexpectedToken expected found sp ->
  exists p q, src = p ++ q /\ len p = s_end sp /\
    forall q', spaced q' -> len (p ++ q') <= i32_max ->
    exists err' a', parse k sort name (p ++ q') = Done (inr err', a') /\ pe_kind err' = UnexpectedToken expected found sp.
Proof.
  intros E Hk. pose proof (C54_rejections k sort name src) as (r & a0 & E0 & H). rewrite E in E0. injection E0 as <- <-.
  assert (Hkind : In (UnexpectedToken expected found sp) (pe_all err)) by (left; exact Hk).
  destruct H as [(_ & H)|[(_ & f & _ & _ & H)|(Hn & Hno & _ & H)]].
  - rewrite H in Hkind. destruct Hkind as [Hx|[]]. discriminate Hx.
  - apply H, breaks_not_ut in Hkind. discriminate Hkind.
  - rewrite Forall_forall in H. destruct (H _ Hkind) as (Hsp & _).
    assert (Hle : s_end sp <= len src) by (unfold err_ok in Hsp; apply Forall_inv in Hsp; apply Hsp).
    exists (firstn (N.to_nat (s_end sp)) src), (skipn (N.to_nat (s_end sp)) src). split; [now rewrite firstn_skipn|].
    assert (Hp : len (firstn (N.to_nat (s_end sp)) src) = s_end sp) by (unfold len in *; rewrite firstn_length; lia). split; [exact Hp|]. intros q' Hq' Hn'.
    rewrite <- (firstn_skipn (N.to_nat (s_end sp)) src) in E. set (p := firstn _ src) in *. set (q := skipn _ src) in *. assert (Hn2 : len (p ++ q) <= i32_max) by (unfold p, q; now rewrite firstn_skipn). clearbody p q.
    unfold parse in E. apply N.ltb_ge in Hn2. rewrite Hn2 in E. destruct (parse_file_sound k (p ++ q)) as (r1 & a1 & E1 & _ & Hr1). rewrite E1 in E. cbn [obind] in E.
    assert (He : exists es, r1 = inr (UnexpectedToken expected found sp :: es)).
    { destruct r1 as [f|[|e0 es]].
      - exfalso. destruct (generate_file k sort f name (p ++ q)) as [[d|[|e0 es]]| |] eqn:Eg; cbn [obind parse_error_new] in E; try discriminate E. apply (f_equal (fun o => match o with Done (inr x, _) => pe_kind x | _ => FileTooLarge end)) in E. cbn in E. rewrite Hk in E.
        pose proof (proj2 (generate_errors k sort f name (p ++ q) (proj1 (N.ltb_ge _ _) Hn2) (accepted_wf _ _ _ Hr1)) _ Eg e0) as HE. pose proof (breaks_not_ut _ _ _ _ (proj1 HE (or_introl eq_refl))) as Hu. rewrite E in Hu. discriminate Hu.
      - discriminate E.
      - cbn [obind parse_error_new] in E. apply (f_equal (fun o => match o with Done (inr x, _) => pe_kind x | _ => FileTooLarge end)) in E. cbn in E. rewrite Hk in E. exists es. now rewrite E. }
    destruct He as (es & ->). destruct (parse_file_sound k (p ++ q')) as (r2 & a2 & E2 & _ & _).
    destruct (parse_file_local k p q q' es a1 expected found sp Hq' E1 (eq_sym Hp) r2 a2 E2) as (es2 & ->).
    eexists _, a2. split; [unfold parse; apply N.ltb_ge in Hn'; rewrite Hn', E2; cbn [obind parse_error_new]; reflexivity|reflexivity].
Qed.
Print Assumptions C55_unexpected_token.
(** In particular none of these texts is a sentence. *)
Theorem C55_no_continuation k sort name src err a expected found sp :
  parse k sort name src = Done (inr err, a) -> pe_kind err = UnexpectedToken expected found sp ->
  exists p q, src = p ++ q /\ len p = s_end sp /\
    forall q' f, spaced q' -> len (p ++ q') <= i32_max -> ~ accepted k (p ++ q') f.
Proof.
  intros E Hk. destruct (C55_unexpected_token _ _ _ _ _ _ _ _ _ E Hk) as (p & q & -> & Hp & H). exists p, q. split; [reflexivity|]. split; [exact Hp|]. intros q' f Hq' Hn Hf.
  destruct (H q' Hq' Hn) as (err' & a' & E' & Hk'). destruct (C53_errors _ _ _ _ _ _ E' Hn (ex_intro _ f Hf)) as (f' & _ & _ & Hb).
  pose proof (proj1 (Hb _) (or_introl Hk')) as Hx. apply breaks_not_ut in Hx. discriminate Hx.
Qed.
Print Assumptions C55_no_continuation.

(** Examples. No continuation behind the second equals sign is accepted. *)
Definition ex_dup : bytes := b "message M { optional int32 x = =".
Example C55_example : exists err a, parse ex_k0 loc_sort (b "x.proto") (ex_dup ++ b "1; }") = Done (inr err, a) /\ pe_kind err = UnexpectedToken (b "an integer") (b "=") (31, 32).
Proof. eexists _, _. split; lazy; reflexivity. Qed.
Example C55_every_continuation q : spaced q -> len (ex_dup ++ q) <= i32_max ->
  exists err a, parse ex_k0 loc_sort (b "x.proto") (ex_dup ++ q) = Done (inr err, a) /\ pe_kind err = UnexpectedToken (b "an integer") (b "=") (31, 32).
Proof.
  destruct C55_example as (err & a & E & Hk). destruct (C55_unexpected_token _ _ _ _ _ _ _ _ _ E Hk) as (p & q0 & Es & Hp & H).
  assert (p = ex_dup) as ->; [|apply H]. assert (Hl : length p = length ex_dup) by (unfold len, s_end in Hp; cbn [snd] in Hp; change (length ex_dup) with 32%nat; lia).
  apply (f_equal (firstn (length ex_dup))) in Es. rewrite <- Hl in Es at 2. rewrite !firstn_app, !firstn_all, !Nat.sub_diag, !firstn_O, !app_nil_r in Es. now symmetry.
Qed.
(** The space is needed, a token can be part of a longer one; and a missing end is another kind of error. *)
Example C55_boundary :
  err_of (b "messag") = [UnexpectedToken (b "'enum', 'extend', 'import', 'message', 'option', 'service', 'package' or ';'") (b "messag") (0, 6)] /\
  err_of (b "messag" ++ b "e M {") = [UnexpectedEof (b "a message field, oneof, reserved range, enum, message, option or '}'")] /\
  ok_result (b "messag" ++ b "e M {" ++ b "}") = true.
Proof. repeat split; lazy; reflexivity. Qed.
