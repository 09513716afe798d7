(** C56: up to the first unexpected token (or the unexpected end of the file),
    the text is the beginning of a well-formed file: the error is reported at
    the first place where it could be seen. *)
From Verif Require Import Base Utf8 Errors Lex LexSpec LexSafe Stream Ast Comments Parse ParseApi Descriptor Generate Grammar SpaceSpec SynSpec ErrSpec Walk WalkG3 Complete3 AstWf AstWfG PropsParse PropsComplete PropsErr PropsSyn Local PropsLocal Insert Kept Viable1 Viable4 ViableText ViableDup.

(** Some text can follow [p] so that the whole is a sentence, or has no other flaw than that it ends with a second
    package declaration: the parser then reports just that ([parse_file] is [parse] without the size limit and the
    checks of the file descriptor). *)
Definition completable (k : cfg) (p : bytes) : Prop :=
  exists q, (exists f, accepted k (p ++ q) f) \/ (exists old new a, parse_file k (p ++ q) = Done (inr [DuplicatePackage old new], a)).

Lemma sentence_parses k t TS : sentence k TS -> lexes_to k t TS -> (exists f, accepted k t f) \/ exists x y a, parse_file k t = Done (inr [DuplicatePackage x y], a).
Proof.
  intros (ss & sx & c & ts & l & Gs & Gm & -> & Hp) HL. destruct Hp as [Hp|(l0 & p & -> & H1)].
  - left. assert (Hpk : exists pkg, flat_map st_packages l = match pkg with Some p => [p] | None => [] end).
    { destruct (flat_map st_packages l) as [|p [|p2 r]]; [exists None; reflexivity|exists (Some p); reflexivity|cbn in Hp; lia]. }
    destruct Hpk as (pkg & Epk). destruct (parse_file_complete (CS := any_comments) k t 0 _ _ (g_fi k 0 ss sx c ts l pkg Gs Gm Epk) HL) as (f' & a & E & _).
    destruct (parse_file_sound k t) as (r & a' & E' & _ & Hr). rewrite E in E'. injection E' as <- <-. eauto.
  - right. assert (Hsp : exists ts0 tp, ts = ts0 ++ tp /\ g_many (g_statement (C := any_comments) k) ts0 l0 /\ g_statement (C := any_comments) k tp (StPackage p)).
    { clear - Gm. revert ts Gm. induction l0 as [|x l0 IH]; intros ts Gm.
      - inversion Gm as [|ts1 x1 ts2 l1 Hx Hm E1 E2]; subst. inversion Hm; subst. exists [], ts1. rewrite app_nil_r. split; [reflexivity|]. split; [constructor|exact Hx].
      - inversion Gm as [|ts1 x1 ts2 l1 Hx Hm E1 E2]; subst. destruct (IH _ Hm) as (ts0 & tp & -> & G1 & G2). exists (ts1 ++ ts0), tp. rewrite app_assoc. split; [reflexivity|]. split; [now constructor|exact G2]. }
    destruct Hsp as (ts0 & tp & -> & G1 & G2). exact (parse_file_dup (CS := any_comments) k t ss sx c ts0 l0 tp p Gs G1 H1 G2 HL).
Qed.
Lemma viable_completable k src m TS r p u : readto k src TS r -> trail k m r u -> src = p ++ u -> viable (sentence k) m TS -> completable k p.
Proof.
  intros Hr Ht -> (post & Hs & Hm & HT). pose proof (written_reads k post Hs) as W.
  destruct (trail_cut k u (written k post) m r u Ht [] (marks post) (map tk_tok post) Hm eq_refl (reads_on_nil k u _ _ _ W)) as (x & -> & HR).
  destruct (readto_cut k u (written k post) _ _ _ Hr x _ _ eq_refl HR) as (x0 & E0 & HR0). apply app_inv_tail in E0. subst x0. destruct HR0 as [HR0 _].
  exists (10 :: written k post). destruct (reads_mclean k _ _ _ 0 HR0) as [Hc Hto].
  assert (HL : lexes_to k (p ++ 10 :: written k post) (TS ++ post)).
  { split; [unfold tokens_of in Hto; rewrite Hto, <- map_app, map_map; reflexivity|]. unfold marks in *. rewrite map_app. exact Hc. }
  exact (sentence_parses k _ _ HT HL).
Qed.

Lemma breaks_not_unx k syn f e : breaks k syn f e -> unx e = false.
Proof.
  intros (x & _ & F). assert (HO : forall o e, option_flaw o e -> unx e = false) by (intros o e0 H; inversion H; reflexivity).
  assert (HL : forall l e, options_flaw l e -> unx e = false) by (intros l e0 (o & _ & H); eapply HO; exact H).
  assert (HF : forall l e, optlist_flaw l e -> unx e = false) by (intros l e0 H; unfold optlist_flaw in H; repeat match goal with H : exists _, _ |- _ => destruct H | H : _ /\ _ |- _ => destruct H end; eapply HO; eassumption).
  inversion F as [sc g e0 H0| | | | | | | | | | | | |]; subst; try reflexivity; eauto. inversion H0; subst; try reflexivity; eauto.
Qed.
(** The first error of a rejected source is the first error of its syntax, or there is no syntax error. *)
Lemma first_syntax k sort name src err a : parse k sort name src = Done (inr err, a) -> (exists e, pe_kind err = e /\ unx e = true) -> exists es a', parse_file k src = Done (inr (pe_kind err :: es), a').
Proof.
  intros E (e & He & Hu). unfold parse in E. destruct (i32_max <? len src) eqn:Hn.
  { injection E as <- _. cbn in He. subst e. discriminate Hu. }
  destruct (parse_file_sound k src) as (r1 & a1 & E1 & _ & Hr1). rewrite E1 in E. cbn [obind] in E. destruct r1 as [f|[|e0 es]].
  - exfalso. destruct (generate_file k sort f name src) as [[d|[|e0 es]]| |] eqn:Eg; cbn [obind parse_error_new] in E; try discriminate E. apply (f_equal (fun o => match o with Done (inr x, _) => pe_kind x | _ => FileTooLarge end)) in E. cbn in E. rewrite He in E. subst e0.
    pose proof (proj2 (generate_errors k sort f name src (proj1 (N.ltb_ge _ _) Hn) (accepted_wf _ _ _ Hr1)) _ Eg e) as HE. pose proof (breaks_not_unx _ _ _ _ (proj1 HE (or_introl eq_refl))) as Hx. congruence.
  - discriminate E.
  - cbn [obind parse_error_new] in E. apply (f_equal (fun o => match o with Done (inr x, _) => pe_kind x | _ => FileTooLarge end)) in E. cbn in E. rewrite <- E. eauto.
Qed.

(** The text before the first unexpected token can be completed. *)
Theorem C56_viable_prefix k sort name src err a expected found sp :
  parse k sort name src = Done (inr err, a) -> pe_kind err = UnexpectedToken expected found sp ->
  exists p q, src = p ++ q /\ len p = s_start sp /\ completable k p.
Proof.
  intros E Hk. destruct (first_syntax _ _ _ _ _ _ E (ex_intro _ _ (conj Hk eq_refl))) as (es & a' & Ef). rewrite Hk in Ef.
  destruct (first_error_fine k src _ _ Ef _ eq_refl eq_refl) as (TS & m & r & u & H1 & H2 & H3 & H4).
  destruct (readto_suffix _ _ _ _ H1) as (w & ->). destruct (trail_suffix _ _ _ _ H2) as (w2 & ->). rewrite app_assoc in *. exists (w ++ w2), u. split; [reflexivity|]. split; [rewrite len_app in H3; lia|].
  eapply viable_completable; [exact H1|exact H2|reflexivity|exact H4].
Qed.
Print Assumptions C56_viable_prefix.
(** If the file ends too early (and not inside a string or a comment), it can be completed. *)
Theorem C56_viable_file k sort name src err a expected :
  parse k sort name src = Done (inr err, a) -> pe_kind err = UnexpectedEof expected -> expected <> b "string terminator" -> expected <> b "comment terminator" ->
  completable k src.
Proof.
  intros E Hk N1 N2. assert (Hu : unx (UnexpectedEof expected) = true) by (cbn [unx]; apply bytes_eqb_neq in N1, N2; now rewrite N1, N2).
  destruct (first_syntax _ _ _ _ _ _ E (ex_intro _ _ (conj Hk Hu))) as (es & a' & Ef). rewrite Hk in Ef.
  destruct (first_error_fine k src _ _ Ef _ eq_refl Hu) as (TS & m & r & H1 & H2 & H4). eapply viable_completable; [exact H1|exact H2|symmetry; apply app_nil_r|exact H4].
Qed.
Print Assumptions C56_viable_file.
(** In terms of [parse]: some continuation makes it report no syntax error at all. *)
Theorem C56_no_syntax_error k p : completable k p -> exists q, forall sort name err a, len (p ++ q) <= i32_max -> parse k sort name (p ++ q) = Done (inr err, a) ->
  (exists f, accepted k (p ++ q) f /\ forall e, In e (pe_all err) -> breaks k (fi_syntax f) f e) \/ exists old new, pe_all err = [DuplicatePackage old new].
Proof.
  intros (q & H). exists q. intros sort name err a Hn E. destruct H as [Hf|(x & y & a' & Ef)].
  - left. destruct Hf as (f & Hf). destruct (C53_errors _ _ _ _ _ _ E Hn (ex_intro _ f Hf)) as (f' & Hf' & _ & Hb). exists f'. split; [exact Hf'|]. intros e. apply Hb.
  - right. exists x, y. unfold parse in E. apply N.ltb_ge in Hn. rewrite Hn, Ef in E. cbn [obind parse_error_new] in E. injection E as <- _. reflexivity.
Qed.
Print Assumptions C56_no_syntax_error.

(** ** Examples *)
(** The text before the second equals sign has a completion; so has a file that ends inside an option. *)
Example C56_example_token : exists err a, parse ex_k0 loc_sort (b "x.proto") (b "message M { optional int32 x = =1; }") = Done (inr err, a) /\ pe_kind err = UnexpectedToken (b "an integer") (b "=") (31, 32).
Proof. eexists _, _. split; lazy; reflexivity. Qed.
Example C56_example_end : exists err a, parse ex_k0 loc_sort (b "x.proto") (b "message M { option (a) = { b: [ # c") = Done (inr err, a) /\ pe_kind err = UnexpectedEof (b "'}'").
Proof. eexists _, _. split; lazy; reflexivity. Qed.
(** A completion, and the reason for the second alternative. *)
Example C56_example_completions :
  ok_result (b "message M { optional int32 x = " ++ [10] ++ b "1 ; } ") = true /\ ok_result (b "message M { option (a) = { b: [ # c" ++ [10] ++ b "] } ; } ") = true /\
  err_of (b "package a; package b {") = [UnexpectedToken (b "'.' or ';'") (b "{") (21, 22)] /\ err_of (b "package a; package b " ++ [10] ++ b "; ") = [DuplicatePackage (0, 10) (11, 23)].
Proof. repeat split; lazy; reflexivity. Qed.
