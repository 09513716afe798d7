(** The parser accepts only sentences of the grammar: leaves, options, ranges. *)
From Coq Require Import ZifyBool ZifyN.
From Verif Require Import Base Utf8 Errors Lex LexSpec PropsLex1 LexSafe Stream Ast Comments Parse Grammar Utf8Spec Classify SynSpec Utf8Lossy LexErr Walk.

(** ** Messages *)
(** The texts computed from parameters list tokens, none of which is there. *)
Class lists (k : cfg) (text : bytes) (no : token -> bool) : Prop := lists_ok : readable text = true /\ forall t, no t = true -> expects text t = false.
Definition not_in (first : token) (terms : list expected_token) (t : token) : bool := negb (token_eqb t first) && negb (existsb (fun e => et_matches e t) terms).
Notation terms_ok k first terms := (lists k (fmt_expected k (ETTok first :: terms)) (not_in first terms)).
Notation ends_ok k term text := (lists k text (not_in TLeftBracket [ETTok term])).

(** [expects text t = false] for a concrete text. *)
Ltac not_listed t :=
  repeat match goal with H : @eq bool ?a _ |- _ => match a with context [t] => revert H | _ => clear H end end;
  match goal with |- ?G => let X := fresh "X" in assert (X : G); [clear|exact X] end;
  destruct t; lazy -[bytes_eqb]; intros; try reflexivity; try discriminate;
  repeat match goal with
  | H : ?x = _ |- _ => match x with context [bytes_eqb ?v ?w] => 
      match goal with |- context [bytes_eqb v w] => let E := fresh "E" in destruct (bytes_eqb v w) eqn:E; [discriminate H|] end end
  end; try reflexivity.
Global Hint Extern 0 (plain _ _) => (split; [lazy; reflexivity|let t := fresh "t" in let H := fresh "H" in intros t H; not_listed t]) : typeclass_instances.
Global Hint Extern 0 (lists _ _ _) => (split; [lazy; reflexivity|let t := fresh "t" in let H := fresh "H" in intros t H; not_listed t]) : typeclass_instances.

(** ** Lists of grammar items grow at the end *)
Lemma g_many_snoc {A} (item : list tk -> A -> Prop) ts l ts' a : g_many item ts l -> item ts' a -> g_many item (ts ++ ts') (l ++ [a]).
Proof.
  induction 1 as [|ts0 a0 ts1 l1 H H1 IH]; intros Hi.
  - cbn. rewrite <- (app_nil_r ts'). now constructor; [|constructor].
  - rewrite <- app_assoc. cbn. constructor; auto.
Qed.
Lemma g_sep_snoc {A} sep (item : list tk -> A -> Prop) ts l sp ts' a : g_sep sep item ts l -> item ts' a -> g_sep sep item (ts ++ sym sep sp ++ ts') (l ++ [a]).
Proof.
  induction 1 as [ts0 a0 H|ts0 a0 sp0 ts1 l1 H H1 IH]; intros Hi.
  - cbn [app]. constructor; auto. now constructor.
  - replace ((ts0 ++ sym sep sp0 ++ ts1) ++ sym sep sp ++ ts') with (ts0 ++ sym sep sp0 ++ (ts1 ++ sym sep sp ++ ts')) by now rewrite <- !app_assoc.
    cbn [app]. constructor; auto.
Qed.
Lemma g_sep_ne {A} sep (item : list tk -> A -> Prop) ts l : g_sep sep item ts l -> l <> [].
Proof. destruct 1; discriminate. Qed.
Lemma g_string_snoc ts r v sp : g_string ts r -> g_string (ts ++ sym (TStr v) sp) {| st_val := st_val r ++ v; st_span := join_span (st_span r) sp |}.
Proof.
  induction 1 as [v0 sp0|v0 sp0 ts0 r0 H IH].
  - cbn [st_val st_span]. apply (g_strs v0 sp0 (sym (TStr v) sp) {| st_val := v; st_span := sp |}). constructor.
  - cbn [st_val st_span] in *. rewrite <- app_assoc. 
    replace (join_span (join_span sp0 (st_span r0)) sp) with (join_span sp0 (join_span (st_span r0) sp)) by reflexivity.
    rewrite <- app_assoc. apply (g_strs v0 sp0 (ts0 ++ sym (TStr v) sp) {| st_val := st_val r0 ++ v; st_span := join_span (st_span r0) sp |}). exact IH.
Qed.

(** ** Spans of consumed tokens *)
Inductive chain : N -> N -> list (option token * span) -> Prop :=
| ch_nil lo hi : lo <= hi -> chain lo hi []
| ch_cons lo hi t sp l : lo <= s_start sp -> s_start sp <= s_end sp -> chain (s_end sp) hi l -> chain lo hi ((t, sp) :: l).
Lemma chain_le lo hi l : chain lo hi l -> lo <= hi.
Proof. induction 1; lia. Qed.
Lemma chain_weaken lo lo' hi l : lo' <= lo -> chain lo hi l -> chain lo' hi l.
Proof. intros H. destruct 1; constructor; auto; lia. Qed.
Lemma tiles_chain off l ts : tiles off l ts -> chain off (off + len l) ts.
Proof.
  induction 1; [constructor; lia|]. rewrite !len_app. constructor; cbn [s_start s_end fst snd]; [lia|lia|].
  replace (off + (len w + (len lexeme + len rest))) with (off + len w + len lexeme + len rest) by lia. exact IHtiles.
Qed.
Lemma chain_filter f lo hi l : chain lo hi l -> chain lo hi (filter f l).
Proof.
  induction 1; [now constructor|]. cbn [filter]. destruct (f (t, sp)); [now constructor|]. eapply chain_weaken; [|exact IHchain]. lia.
Qed.
Lemma chain_app lo hi l1 l2 : chain lo hi (l1 ++ l2) -> chain lo hi l1.
Proof.
  revert lo. induction l1 as [|[t sp] l1 IH]; intros lo H; [constructor; eapply chain_le; eauto|]. inversion H; subst. constructor; auto.
Qed.
Definition cspans (lo hi : N) (ts : list tk) : Prop := chain lo hi (map inj ts).

Section WalkG1.
Variable k : cfg.
Variable src : bytes.
Notation Inv := (Inv k src).
Notation advg := (advg k src).
Notation adv := (advg false false).
Notation pk := (pk k src).
Notation okn := (okn k src).
Notation wp n m s Q := (wpe m s (bad k src n) Q).
Notation sg := (sg k).
Notation rdy := (rdy k src).
Notation fresh := (fresh k src).
Local Instance com_src : comspec := com_of k src.

Lemma sg_chain s : Inv s -> exists lo, chain lo (len src) (sg s).
Proof.
  intros [(pre & E1 & E2) H2 H3 _ _ _ _ _ _]. pose proof (stream_tiles k (p_lex s)) as Ht. apply tiles_chain in Ht.
  replace (l_end (p_lex s) + len (l_rest (p_lex s))) with (len src) in Ht by (rewrite E1, len_app; lia).
  exists (l_start (p_lex s)). unfold Walk.sg, sigs. apply chain_filter. unfold coming, ahead. destruct (p_peek s) as [[[t sp]|]|]; cbn [app].
  - subst sp. constructor; cbn; auto; try lia.
  - constructor; cbn; auto; try lia.
  - eapply chain_weaken; eauto.
Qed.
Lemma adv_chain m m' s ts s' : Inv s -> advg m m' s ts s' -> exists lo, cspans lo (len src) ts.
Proof. intros Hi A. destruct (sg_chain s Hi) as (lo & H). rewrite (av_sg _ _ _ _ _ _ _ A) in H. exists lo. eapply chain_app; eauto. Qed.

Lemma adv_in m m' s ts s' x : Inv s -> advg m m' s ts s' -> In x ts -> In (inj x) (stream k src 0).
Proof.
  intros Hi A Hx. assert (H : In (inj x) (sg s)) by (rewrite (av_sg _ _ _ _ _ _ _ A); apply in_or_app; left; now apply in_map).
  destruct (iv_suffix _ _ _ Hi) as (L0 & ->). apply in_or_app. right. unfold Walk.sg, sigs in H. apply filter_In in H. apply H.
Qed.
Lemma adv_pk m m' s ts s1 s2 : advg m m' s ts s1 -> pk s1 s2 -> advg m m' s ts s2.
Proof. intros A P. pose proof (adv_trans _ _ _ _ _ _ _ _ _ _ A (pk_adv _ _ m' _ _ P)) as H. now rewrite app_nil_r in H. Qed.
Lemma pk_adv_trans m m' s s1 ts s2 : pk s s1 -> advg m m' s1 ts s2 -> advg m m' s ts s2.
Proof. intros P A. exact (adv_trans _ _ _ _ _ _ _ _ [] _ (pk_adv _ _ m _ _ P) A). Qed.

Lemma bump_adv Er s t sp (Q : span -> pst -> Prop) : Inv s -> pkd s t sp -> (forall s', adv s (sym t sp) s' -> Q sp s') -> wpe bump s Er Q.
Proof. intros Hi Hp HQ. eapply bump_wpe; [exact Hi|exact Hp|]. intros s' Ha _ _ _ _. apply HQ. exact (Ha false). Qed.

Lemma first_of m m' s t sp ts s' : pkd s t sp -> advg m m' s ts s' -> ts <> [] -> first_tok ts = Some t /\ first_span ts = sp.
Proof.
  intros [Hp Ht] A Hn. pose proof (av_sg _ _ _ _ _ _ _ A) as H. unfold Walk.sg, coming, ahead in H. rewrite Hp in H. cbn [app] in H. rewrite sigs_cons in H.
  unfold significant in H at 1. cbn [fst] in H. rewrite Ht in H. cbn [negb] in H. destruct ts as [|x ts]; [congruence|]. cbn in H. injection H as H1 H2 _. now subst.
Qed.

Lemma token_eqb_sym x y : token_eqb x y = token_eqb y x.
Proof.
  destruct (token_eqb x y) eqn:E1; destruct (token_eqb y x) eqn:E2; auto.
  - apply token_eqb_eq in E1. subst. now rewrite token_eqb_refl in E2.
  - apply token_eqb_eq in E2. subst. now rewrite token_eqb_refl in E1.
Qed.
Lemma at_true r x : at_ r x = true -> exists sp, r = Some (x, sp).
Proof. destruct r as [[t sp]|]; [|discriminate]. cbn. intros E. apply token_eqb_eq in E. subst. eauto. Qed.
Lemma at_false r x t sp : at_ r x = false -> r = Some (t, sp) -> t <> x.
Proof. intros E -> ->. cbn in E. rewrite token_eqb_refl in E. discriminate. Qed.

Ltac okk := match goal with
  | O : okn ?n ?s |- Walk.okn _ _ ?n ?s => exact O
  | O : okn ?n ?s |- Walk.Inv _ _ ?s => exact (proj1 O)
  end.
(** Absorb a lookahead step [P : pk s s1]. *)
Ltac jp P := 
  match type of P with Walk.pk _ _ ?s ?s1 =>
    match goal with
    | A : Walk.advg _ _ false false ?s0 ?TS s, O : okn ?n s |- _ =>
      let O2 := fresh "O" in let A2 := fresh "A" in let E := fresh "E" in
      pose proof (pk_okn _ _ _ _ _ O P) as O2; pose proof (adv_pk _ _ _ _ _ _ A P) as A2; pose proof (pk_errs _ _ _ _ P) as E;
      clear A O P
    end end.
(** Absorb an advance [B : adv s ts s1]. *)
Ltac ja B := 
  match type of B with Walk.advg _ _ _ _ ?s ?ts ?s1 =>
    match goal with
    | A : Walk.advg _ _ false false ?s0 ?TS s, O : okn ?n s |- _ =>
      let O2 := fresh "O" in let A2 := fresh "A" in let E := fresh "E" in
      pose proof (adv_okn _ _ _ _ _ _ _ _ O B) as O2; pose proof (adv_trans _ _ _ _ _ _ _ _ _ _ A B) as A2; pose proof (av_errs _ _ _ _ _ _ _ B) as E;
      clear A O B; rewrite <- ?app_assoc in A2; cbn [app] in A2
    end end.
Ltac start := match goal with O : okn ?n ?s |- _ => let A := fresh "A" in pose proof (adv_refl _ _ false s (proj1 O)) as A end.
(** Report the token in the lookahead. *)
Ltac unexp := match goal with Hr : peeked ?s ?r |- wpe (unexpected_token _ _) ?s _ _ =>
    apply (unexpected_wp k src _ _ _ r); [okk|exact Hr|lazy; reflexivity|
      let t := fresh "t" in let sp := fresh "sp" in let E := fresh "E" in intros t sp E;
      first [discriminate E|clear - E; injection E as <- _; lazy -[bytes_eqb]; reflexivity|subst r; not_listed t|match r with Some (?t', _) => injection E as <- _; not_listed t' end]]
  end.
Ltac unexp_t := match goal with Hr : peeked ?s ?r, L : lists _ _ _ |- wpe (unexpected_token _ _) ?s _ _ =>
    apply (unexpected_wp k src _ _ _ r); [okk|exact Hr|apply L|intros ? ? ->; apply L; unfold not_in; cbn [at_ at_terminator existsb et_matches] in *]
  end.
Ltac use_errs := repeat match goal with H : errs ?x = [] -> _, He : errs ?x = [] |- _ => specialize (H He) end.
Ltac nilr := match goal with A : Walk.advg _ _ false false _ _ _ |- _ => rewrite ?app_nil_r in A end.

Lemma ident_wp n s (Q : _ -> pst -> Prop) : okn n s -> (forall ts a s', adv s ts s' -> g_ident ts a -> Q a s') -> wp n (parse_ident k) s Q.
Proof.
  intros O HQ. start. unfold parse_ident. apply wpe_bind, peek_skip_wp; [okk|]. intros r s1 P Hr. jp P.
  destruct r as [[t sp]|]; [destruct t|]; try unexp.
  apply wpe_bind. eapply bump_adv; [okk|exact Hr|]. intros s2 B. ja B. apply wpe_ret. eapply HQ; [eassumption|]. constructor.
Qed.

Lemma int_wp n s (Q : _ -> pst -> Prop) : okn n s -> (forall ts a s', adv s ts s' -> g_int ts a -> Q a s') -> wp n (parse_int k) s Q.
Proof.
  intros O HQ. start. unfold parse_int. apply wpe_bind, peek_skip_wp; [okk|]. intros r s1 P Hr. jp P.
  assert (G : forall s2 (neg : option span) TS, adv s TS s2 -> okn n s2 -> match neg with None => TS = [] | Some st => TS = sym TMinus st end ->
    wp n (t2 <- peek_skip_comments k ;; match t2 with
      | Some (TInt v, e) => bump ;;; ret {| i_neg := is_some neg; i_val := v; i_span := match neg with None => e | Some st => join_span st e end |}
      | _ => unexpected_token k (b "an integer") end) s2 Q).
  { clear - HQ. intros s2 neg TS A O Hneg. apply wpe_bind, peek_skip_wp; [okk|]. intros r s3 P Hr. jp P.
    destruct r as [[t sp]|]; [destruct t|]; try unexp.
    apply wpe_bind. eapply bump_adv; [okk|exact Hr|]. intros s4 B. ja B. apply wpe_ret. eapply HQ; [eassumption|].
    destruct neg; subst TS; constructor. }
  apply wpe_bind. destruct r as [[t sp]|]; [destruct t|]; try (eapply wpe_ret, G; [eassumption|okk|reflexivity]).
  apply wpe_bind. eapply bump_adv; [okk|exact Hr|]. intros s2 B. ja B. eapply wpe_ret, G; [eassumption|okk|reflexivity].
Qed.

Lemma string_wp n s (Q : _ -> pst -> Prop) : okn n s -> (forall ts a s', adv s ts s' -> g_string ts a -> Q a s') -> wp n (parse_string k) s Q.
Proof.
  intros O HQ. start. unfold parse_string. apply wpe_bind, peek_skip_wp; [okk|]. intros r s1 P Hr. jp P.
  apply wpe_bind. destruct r as [[t sp]|]; [destruct t|]; try unexp.
  apply wpe_bind. eapply bump_adv; [okk|exact Hr|]. intros s2 B. ja B. apply wpe_ret.
  apply (loop_wpe _ (fun r s1 => okn n s1 /\ exists TS, adv s TS s1 /\ g_string TS r)).
  2:{ split; [okk|]. eexists. split; [eassumption|]. constructor. }
  clear - HQ. intros r s1 (O & TS & A & G). apply wpe_bind, peek_skip_wp; [okk|]. intros x s2 P Hr. pose proof (pk_meas _ _ _ _ P) as M. jp P.
  destruct x as [[t sp]|]; [destruct t|]; try (apply wpe_ret; eapply HQ; eassumption).
  apply wpe_bind. eapply bump_adv; [okk|exact Hr|]. intros s3 B. pose proof (av_meas _ _ _ _ _ _ _ B) as M2. ja B. apply wpe_ret. split; [|cbn [length sym] in M2; lia].
  split; [okk|]. eexists. split; [eassumption|]. now apply g_string_snoc.
Qed.

Lemma chain_inv lo hi t sp l : chain lo hi ((t, sp) :: l) -> lo <= s_start sp /\ s_start sp <= s_end sp /\ chain (s_end sp) hi l.
Proof. inversion 1; auto. Qed.
Lemma g_string_span ts r lo hi : g_string ts r -> cspans lo hi ts -> lo <= s_start (st_span r) /\ s_start (st_span r) <= s_end (st_span r) /\ s_end (st_span r) <= hi.
Proof.
  intros H. revert lo. induction H as [v sp|v sp ts r H IH]; intros lo Hc; apply chain_inv in Hc; destruct Hc as (H1 & H2 & H3).
  - apply chain_le in H3. cbn [st_span tk_span fst snd] in *. auto.
  - destruct (IH _ H3) as (A & B & C). cbn [st_span]. unfold join_span, s_start, s_end, tk_span in *. cbn [fst snd] in *. lia.
Qed.

Lemma g_string_list ts r : g_string ts r -> exists vs first last, map inj ts = map (fun x : bytes * span => (Some (TStr (fst x)), snd x)) vs /\
  st_val r = concat (map fst vs) /\ hd_error vs = Some first /\ hd_error (rev vs) = Some last /\ st_span r = join_span (snd first) (snd last).
Proof.
  induction 1 as [v sp|v sp ts r H (vs & f & l & H1 & H2 & H3 & H4 & H5)].
  - exists [(v, sp)], (v, sp), (v, sp). cbn [map concat app fst snd st_val st_span]. rewrite app_nil_r. split; [reflexivity|]. split; [reflexivity|]. split; [reflexivity|]. split; [reflexivity|]. now destruct sp.
  - exists ((v, sp) :: vs), (v, sp), l. cbn [map concat app fst snd st_val st_span]. rewrite <- H2. split; [rewrite map_app, H1; reflexivity|]. split; [reflexivity|]. split; [reflexivity|]. split.
    + cbn [rev]. destruct (rev vs); [discriminate|]. exact H4.
    + rewrite H5. reflexivity.
Qed.
Lemma string_at_adv m m' s ts a s' : Inv s -> advg m m' s ts s' -> g_string ts a -> string_at k src (st_span a) (st_val a).
Proof.
  intros Hi A G. destruct (g_string_list _ _ G) as (vs & f & l & H1 & H2 & H3 & H4 & H5). destruct (iv_suffix _ _ _ Hi) as (L0 & HL).
  exists (sigs L0), vs, (sg s'), f, l. split; [|auto]. rewrite HL. unfold sigs at 1. rewrite filter_app. f_equal. change (sg s = map (fun x : bytes * span => (Some (TStr (fst x)), snd x)) vs ++ sg s'). rewrite (av_sg _ _ _ _ _ _ _ A), H1. reflexivity.
Qed.

Lemma utf8_string_wp n s (Q : _ -> pst -> Prop) : okn n s ->
  (forall ts a s', adv s ts s' -> ts <> [] -> span_ok (len src) (snd a) -> (exists v, string_at k src (snd a) v /\ lossy v (fst a)) -> (errs s' = [] -> g_utf8_string ts a) -> Q a s') -> wp n (parse_utf8_string k) s Q.
Proof.
  intros O HQ. pose proof (proj1 O) as Hi. start. unfold parse_utf8_string. apply wpe_bind, string_wp; [okk|]. intros ts a s1 B G. pose proof (adv_chain _ _ _ _ _ Hi B) as (lo & Hc). pose proof (string_at_adv _ _ _ _ _ _ Hi B G) as Hat.
  ja B. destruct (g_string_span _ _ _ _ G Hc) as (_ & S1 & S2). assert (Hn : ts <> []) by (destruct G; discriminate).
  destruct (utf8_valid (st_val a)) eqn:E1.
  - apply wpe_ret. apply utf8_valid_iff in E1. eapply HQ; [eassumption|exact Hn|split; auto|exists (st_val a); split; [exact Hat|now apply lossy_text]|]. intros _. constructor; auto.
  - apply wpe_bind, (add_error_wpe k src); [split; [constructor; [split; auto|constructor]|exists (st_val a); split; [exact Hat|]; rewrite <- utf8_valid_iff; congruence]|reflexivity|okk|]. intros s2 B Hne _ _ _ _. specialize (B false). ja B. apply wpe_ret.
    nilr. eapply HQ; [eassumption|exact Hn|split; auto|exists (st_val a); split; [exact Hat|apply lossy_spec]|]. intros He. contradiction.
Qed.
Lemma ident_string_wp n s (Q : _ -> pst -> Prop) : okn n s ->
  (forall ts a s', adv s ts s' -> ts <> [] -> (errs s' = [] -> g_ident_string ts a) -> Q a s') -> wp n (parse_ident_string k) s Q.
Proof.
  intros O HQ. start. unfold parse_ident_string. apply wpe_bind, utf8_string_wp; [okk|]. intros ts [v sp] s1 B Hn Hsp Hat G. ja B. cbn [snd fst] in Hsp, Hat.
  apply wpe_bind. destruct (is_valid_ident v) eqn:E1.
  - apply wpe_ret, wpe_ret. eapply HQ; [eassumption|exact Hn|]. intros He. constructor; auto. now apply ident_iff.
  - apply (add_error_wpe k src); [split; [constructor; [auto|constructor]|destruct Hat as (u & H1 & H2); exists u, v; split; [exact H1|]; split; [exact H2|]; rewrite <- ident_iff; congruence]|reflexivity|okk|]. intros s2 B Hne _ _ _ _. specialize (B false). ja B. nilr. apply wpe_ret.
    eapply HQ; [eassumption|exact Hn|]. intros He. contradiction.
Qed.

Lemma full_ident_wp n terms s (Q : _ -> pst -> Prop) {L : terms_ok k TDot terms} : okn n s -> (forall ts a s', adv s ts s' -> g_full_ident ts a -> Q a s') -> wp n (parse_full_ident k terms) s Q.
Proof.
  intros O HQ. start. unfold parse_full_ident. apply wpe_bind, ident_wp; [okk|]. intros ts a s1 B G. ja B.
  apply (loop_wpe _ (fun r s1 => okn n s1 /\ exists TS, adv s TS s1 /\ g_full_ident TS r)).
  2:{ split; [okk|]. eexists. split; [eassumption|]. now constructor. }
  clear - HQ L. intros r s1 (O & TS & A & G). apply wpe_bind, peek_skip_wp; [okk|]. intros x s2 P Hr. pose proof (pk_meas _ _ _ _ P) as M. jp P.
  destruct (at_ x TDot) eqn:E1.
  - apply at_true in E1. destruct E1 as (sp & ->). apply wpe_bind. eapply bump_adv; [okk|exact Hr|]. intros s3 B. pose proof (av_meas _ _ _ _ _ _ _ B) as M2. cbn [length sym] in M2. ja B.
    apply wpe_bind, ident_wp; [okk|]. intros ts a s4 B G2. pose proof (av_meas _ _ _ _ _ _ _ B) as M3. ja B. apply wpe_ret. split; [|lia]. split; [okk|]. eexists. split; [eassumption|]. now apply g_sep_snoc.
  - destruct (at_terminator x terms) eqn:E3; [|unexp_t; now rewrite E1, E3]. apply wpe_bind, (dassert_wpe k src); [|okk|].
    + pose proof (g_sep_ne _ _ _ _ G). destruct r; [congruence|reflexivity].
    + intros s3 P _ _. jp P. apply wpe_ret. eapply HQ; eassumption.
Qed.

Lemma type_name_wp n terms s (Q : _ -> pst -> Prop) {L : terms_ok k TDot terms} : okn n s -> (forall ts a s', adv s ts s' -> g_type_name ts a -> Q a s') -> wp n (parse_type_name k terms) s Q.
Proof.
  intros O HQ. start. unfold parse_type_name. apply wpe_bind, peek_wp; [okk|]. intros r s1 P Hr. jp P.
  apply wpe_bind. destruct r as [[t sp]|]; [destruct t|]; try unexp.
  - apply wpe_ret, wpe_bind, full_ident_wp; [exact _|okk|]. intros ts a s2 B G. ja B. apply wpe_ret. eapply HQ; [eassumption|]. now constructor.
  - apply wpe_bind. eapply bump_adv; [okk|exact Hr|]. intros s2 B. ja B. apply wpe_ret, wpe_bind, full_ident_wp; [exact _|okk|].
    intros ts a s3 B G. ja B. apply wpe_ret. eapply HQ; [eassumption|]. now constructor.
Qed.

(** ** Options *)
Lemma optname_part_wp n s (Q : _ -> pst -> Prop) : okn n s -> (forall ts a s', adv s ts s' -> g_optname_part ts a -> Q a s') -> wp n (parse_option_name_part k) s Q.
Proof.
  intros O HQ. start. unfold parse_option_name_part. apply wpe_bind, peek_wp; [okk|]. intros r s1 P Hr. jp P.
  destruct r as [[t sp]|]; [destruct t|]; try unexp.
  - apply wpe_bind, ident_wp; [okk|]. intros ts a s2 B G. ja B. apply wpe_ret. eapply HQ; [eassumption|]. now constructor.
  - apply wpe_bind. eapply bump_adv; [okk|exact Hr|]. intros s2 B. ja B. apply wpe_bind, type_name_wp; [exact _|okk|]. intros ts a s3 B G. ja B.
    apply wpe_bind, expect_wp; [exact _|okk|]. intros e s4 B. ja B. apply wpe_ret. eapply HQ; [eassumption|]. now constructor.
Qed.

(** Switching the lexer mode. *)
Definition tfm_on (t : bool) (s : pst) : pst := set_lex s (with_tfm (p_lex s) t).
Lemma tfm_on_inv t s : Inv s -> Inv (tfm_on t s).
Proof. intros [H1 H2 H3 H4 H5 H6 H7 H8 H9]. split; auto. Qed.
Lemma tfm_on_sg t s : sg (tfm_on t s) = sg s.
Proof. reflexivity. Qed.
Lemma tfm_on_mclean t s ms : mclean_s k ms (tfm_on t s) <-> mclean_s k ms s.
Proof. reflexivity. Qed.
Lemma tfm_on_measure t s : measure (tfm_on t s) = measure s.
Proof. reflexivity. Qed.

Lemma balanced_snoc : forall ts level t level', t <> TLeftBrace -> t <> TRightBrace -> 
  (forall r, balanced level r -> balanced level' (ts ++ r)) -> forall r, balanced level r -> balanced level' ((ts ++ [t]) ++ r).
Proof. intros ts level t level' H1 H2 H r Hr. rewrite <- app_assoc. apply H. cbn. destruct t; auto; congruence. Qed.

Lemma aggregate_snoc ts t : aggregate_text k (ts ++ [t]) = (match aggregate_text k ts with [] => [] | _ => aggregate_text k ts ++ [32] end) ++ token_display k t.
Proof. unfold aggregate_text. rewrite fold_left_app. reflexivity. Qed.

Definition tf_inv n s (a : N * bytes) s2 : Prop := okn n s2 /\ exists ts, advg true true (tfm_on true s) ts s2 /\ Forall (fun x => tk_mark x = true) ts /\
     snd a = aggregate_text k (map tk_tok ts) /\ forall r, balanced (fst a) r -> balanced 0 (map tk_tok ts ++ r).
Lemma text_format_wp n s (Q : _ -> pst -> Prop) : okn n s -> p_peek s = None ->
  (forall ts s2 r, advg true true (tfm_on true s) ts s2 -> Forall (fun x => tk_mark x = true) ts ->
     peeked s2 r -> match r with None => True | Some (t, _) => t = TRightBrace /\ balanced 0 (map tk_tok ts) end ->
     Q (aggregate_text k (map tk_tok ts)) (tfm_on false s2)) ->
  wp n (parse_text_format_message k) s Q.
Proof.
  intros O Hp HQ. unfold parse_text_format_message. apply wpe_bind. unfold get. cbn [wpe]. unfold wpe at 1. 
  apply wpe_bind, (dassert_wpe k src); [now rewrite Hp|okk|]. intros s1 P Hp1 Hl1. pose proof (pk_okn _ _ _ _ _ O P) as O1. 
  apply wpe_bind. unfold wpe at 1, set_tfm. fold (tfm_on true s1).
  assert (A1 : advg true true (tfm_on true s) [] (tfm_on true s1)).
  { destruct P as [P1 P2 P3 P4 P5 P6 P7 P8]. split; cbn [map app marks length].
    - now apply tfm_on_inv.
    - exact P2.
    - rewrite !tfm_on_measure. lia.
    - exact P4.
    - intros He _. split; [reflexivity|]. intros ms Hm Hc. split; auto. revert Hc. rewrite !tfm_on_mclean. unfold mclean_s. rewrite Hp1, Hl1. auto. }
  apply wpe_bind.
  apply (loop_wpe _ (tf_inv n s)).
  2:{ split; [split; [apply tfm_on_inv, O1|rewrite tfm_on_measure; apply O1]|]. exists []. split; [exact A1|]. split; [constructor|]. split; [reflexivity|auto]. }
  clear - HQ. intros [level acc] s2 (O & ts & A & Hm & Hacc & Hb). cbn [fst snd] in *.
  apply wpe_bind, peek_wp; [okk|]. intros r s3 P Hr. pose proof (pk_meas _ _ _ _ P) as M. pose proof (pk_okn _ _ _ _ _ O P) as O3.
  pose proof (adv_pk _ _ _ _ _ _ A P) as A3. clear A.
  assert (Hfin : forall r', peeked s3 r' -> match r' with None => True | Some (t, _) => t = TRightBrace /\ level = 0 end -> wp n (set_tfm false ;;; ret acc) s3 Q).
  { intros r' Hr' Hd. apply wpe_bind. unfold wpe at 1, set_tfm. apply wpe_ret. subst acc. eapply HQ; [exact A3|exact Hm|exact Hr'|].
    destruct r' as [[t sp]|]; auto. destruct Hd as [-> ->]. split; auto. rewrite <- (app_nil_r (map tk_tok ts)). apply Hb. reflexivity. }
  destruct r as [[tok sp]|]; [|apply wpe_ret; exact (Hfin None Hr I)].
  assert (Hgo : forall level' (QQ : _ -> pst -> Prop), (forall r, balanced level' r -> balanced 0 (map tk_tok (ts ++ [(tok, sp, true)]) ++ r)) ->
    (forall x s', x = (level', (match acc with [] => [] | _ => acc ++ [32] end) ++ token_display k tok) -> tf_inv n s x s' /\ (measure s' < measure s2)%nat -> QQ (inl x) s') ->
    wp n (bump ;;; ret (inl (B := bytes) (level', (match acc with [] => [] | _ => acc ++ [32] end) ++ token_display k tok))) s3 QQ).
  { intros level' QQ Hb' HQQ. apply wpe_bind. eapply bump_wpe; [okk|exact Hr|]. intros s4 B _ _ M4 _. specialize (B true). apply wpe_ret. apply HQQ; [reflexivity|]. split; [|lia].
    split; [eapply adv_okn; eauto|]. exists (ts ++ [(tok, sp, true)]). split; [exact (adv_trans _ _ _ _ _ _ _ _ _ _ A3 B)|].
    split; [apply Forall_app; auto|]. split; [|exact Hb']. rewrite map_app. cbn [map tk_tok fst snd]. rewrite aggregate_snoc, Hacc. reflexivity. }
  destruct tok; try (apply Hgo; [rewrite map_app; cbn [map tk_tok fst]; apply balanced_snoc; [discriminate|discriminate|exact Hb]|intros x s' _ Hx; exact Hx]).
  - apply Hgo; [|intros x s' _ Hx; exact Hx]. intros r Hrb. rewrite map_app, <- app_assoc. apply Hb. exact Hrb.
  - destruct (level =? 0) eqn:El.
    + apply wpe_ret. apply (Hfin (Some (TRightBrace, sp))); auto. split; auto. now apply N.eqb_eq.
    + apply Hgo; [|intros x s' _ Hx; exact Hx]. intros r Hrb. rewrite map_app, <- app_assoc. apply Hb. cbn. split; auto. now apply N.eqb_neq.
Qed.

(** The aggregate as a unit. *)
Lemma aggregate_wp n s st (Q : _ -> pst -> Prop) : okn n s -> pkd s TLeftBrace st ->
  (forall ts e s', adv s (sym TLeftBrace st ++ ts ++ [(TRightBrace, e, true)]) s' -> g_aggregate ts -> Q (OVAggregate (aggregate_text k (map tk_tok ts)) (join_span st e)) s') ->
  wp n (bump ;;; v <- parse_text_format_message k ;; e <- expect_eq k TRightBrace ;; ret (OVAggregate v (join_span st e))) s Q.
Proof.
  intros O Hp HQ. apply wpe_bind. eapply bump_wpe; [okk|exact Hp|]. intros s1 B Hn1 Hl1 M1 Hc1.
  pose proof (adv_okn _ _ _ _ _ _ _ _ O (B false)) as O1. pose proof (proj1 O1) as I1.
  assert (A1 : advg false true s (sym TLeftBrace st) (tfm_on true s1)).
  { destruct (B false) as [B1 B2 B3 B4 B5]. split; auto; [now apply tfm_on_inv|]. intros He Ht. split; [reflexivity|]. intros ms Hm Hc. split; [reflexivity|].
    apply Hc1. exact Hc. }
  apply wpe_bind, text_format_wp; [okk|exact Hn1|]. intros ts s2 r A2 Hmk Hr Hb.
  assert (O2 : okn n (tfm_on false s2)).
  { split; [apply tfm_on_inv, (av_inv _ _ _ _ _ _ _ A2)|]. pose proof (av_meas _ _ _ _ _ _ _ A2) as M2. rewrite tfm_on_measure in *. destruct O1. lia. }
  apply wpe_bind. destruct r as [[t e]|].
  - destruct Hb as [-> Hb]. unfold expect_eq. apply wpe_bind, (peek_skip_hit_wpe k _ _ TRightBrace e); [exact Hr|]. cbn [token_eqb].
    eapply bump_wpe; [okk|exact Hr|]. intros s3 B3 Hn3 Hl3 M3 Hc3. apply wpe_ret.
    assert (A3 : advg true false s2 [(TRightBrace, e, true)] s3).
    { destruct (B3 true) as [C1 C2 C3 C4 C5]. split; auto. intros He Ht. split; [rewrite Hl3; reflexivity|]. intros ms Hm Hc. split; [reflexivity|].
      apply (Hc3 true ms). exact Hc. }
    apply HQ; [|split; auto]. exact (adv_trans _ _ _ _ _ _ _ _ _ _ A1 (adv_trans _ _ _ _ _ _ _ _ _ _ A2 A3)).
  - apply expect_wp; [exact _|okk|]. intros sp s3 B3. exfalso. pose proof (av_sg _ _ _ _ _ _ _ B3) as Hs. rewrite tfm_on_sg in Hs. destruct Hr as [Hr1 Hr2].
    unfold Walk.sg, coming, ahead in Hs. rewrite Hr1, Hr2 in Hs. cbn [app] in Hs.
    pose proof (stream_step k (canon false [] (l_end (p_lex s2))) None _ eq_refl) as Hnil. cbn [canon l_rest l_end] in Hnil. rewrite Hnil in Hs. discriminate.
Qed.

Lemma optval_wp n s (Q : _ -> pst -> Prop) : okn n s -> (forall ts a s', adv s ts s' -> g_optval k ts a -> Q a s') -> wp n (parse_option_value k) s Q.
Proof.
  intros O HQ. start. unfold parse_option_value. apply wpe_bind, peek_skip_wp; [okk|]. intros r s1 P Hr. jp P.
  destruct r as [[t sp]|]; [destruct t|]; try unexp.
  - apply wpe_bind. unfold parse_ident. apply wpe_bind, (peek_skip_hit_wpe k _ _ _ _ _ Hr). apply wpe_bind. eapply bump_adv; [okk|exact Hr|]. intros s2 B. ja B.
    apply wpe_ret, wpe_ret. eapply HQ; [eassumption|]. constructor.
  - apply wpe_bind. eapply bump_adv; [okk|exact Hr|]. intros s2 B. ja B. apply wpe_ret. eapply HQ; [eassumption|]. apply g_ovint. constructor.
  - apply wpe_bind. eapply bump_adv; [okk|exact Hr|]. intros s2 B. ja B. apply wpe_ret. eapply HQ; [eassumption|]. constructor.
  - apply wpe_bind, string_wp; [okk|]. intros ts a s2 B G. ja B. apply wpe_ret. eapply HQ; [eassumption|]. now constructor.
  - apply wpe_bind. eapply bump_adv; [okk|exact Hr|]. intros s2 B. ja B. apply wpe_bind, peek_skip_wp; [okk|]. intros r s3 P Hr3. jp P.
    destruct r as [[t e]|]; [destruct t|]; try unexp.
    + apply wpe_bind. unfold parse_ident. apply wpe_bind, (peek_skip_hit_wpe k _ _ _ _ _ Hr3). apply wpe_bind. eapply bump_adv; [okk|exact Hr3|]. intros s4 B. ja B.
      apply wpe_ret, wpe_ret. eapply HQ; [eassumption|]. constructor.
    + apply wpe_bind. eapply bump_adv; [okk|exact Hr3|]. intros s4 B. ja B. apply wpe_ret. eapply HQ; [eassumption|]. apply g_ovint. constructor.
    + apply wpe_bind. eapply bump_adv; [okk|exact Hr3|]. intros s4 B. ja B. apply wpe_ret. eapply HQ; [eassumption|]. constructor.
  - eapply aggregate_wp; [okk|exact Hr|]. intros ts e s2 B G. ja B. eapply HQ; [eassumption|]. now constructor.
Qed.

Lemma option_body_wp n s (Q : _ -> pst -> Prop) : okn n s -> (forall ts a s', adv s ts s' -> g_option_body k ts a -> Q a s') -> wp n (parse_option_body k) s Q.
Proof.
  intros O HQ. start. unfold parse_option_body. apply wpe_bind, optname_part_wp; [okk|]. intros ts a s1 B G. ja B. apply wpe_bind.
  apply (loop_wpe _ (fun r s1 => okn n s1 /\ exists TS, adv s TS s1 /\ g_sep TDot g_optname_part TS r)).
  2:{ split; [okk|]. eexists. split; [eassumption|]. now constructor. }
  clear - HQ. intros r s1 (O & TS & A & G). apply wpe_bind, peek_skip_wp; [okk|]. intros x s2 P Hr. pose proof (pk_meas _ _ _ _ P) as M. jp P.
  destruct (at_ x TDot) eqn:E1; [|destruct (at_ x TEquals) eqn:E2; [|unexp]].
  - apply at_true in E1. destruct E1 as (sp & ->). apply wpe_bind. eapply bump_adv; [okk|exact Hr|]. intros s3 B. pose proof (av_meas _ _ _ _ _ _ _ B) as M2. cbn [length sym] in M2. ja B.
    apply wpe_bind, optname_part_wp; [okk|]. intros ts a s4 B G2. pose proof (av_meas _ _ _ _ _ _ _ B) as M3. ja B. apply wpe_ret. split; [|lia]. split; [okk|]. eexists. split; [eassumption|]. now apply g_sep_snoc.
  - apply at_true in E2. destruct E2 as (sp & ->). apply wpe_bind. eapply bump_adv; [okk|exact Hr|]. intros s3 B. ja B. apply wpe_ret.
    apply wpe_bind, optval_wp; [okk|]. intros ts a s4 B G2. ja B. apply wpe_ret. eapply HQ; [eassumption|]. now constructor.
Qed.

(** Statements start at a known token. *)
Ltac kwstart lead :=
  match goal with Hi : Walk.Inv _ _ ?s, Hm : (measure ?s <= S ?n)%nat, Hrd : Walk.rdy _ _ ?s, Hp : pkd ?s _ _ |- _ =>
    let s1 := fresh "s" in let P := fresh "P" in let Hp1 := fresh "Hp" in let M1 := fresh "M" in let L1 := fresh "L" in
    apply wpe_bind; eapply leading_wpe; [exact Hi|exact Hrd|exact Hp|]; intros lead s1 P Hp1 M1 L1;
    let s2 := fresh "s" in let B := fresh "B" in let M2 := fresh "M" in
    apply wpe_bind; eapply expect_hit_wpe; [apply (pk_inv _ _ _ _ P)|exact Hp1|]; intros s2 B M2;
    let A := fresh "A" in pose proof (pk_adv_trans _ _ _ _ _ _ P B) as A; 
    let O := fresh "O" in assert (O : okn n s2) by (split; [apply (av_inv _ _ _ _ _ _ _ A)|lia]);
    let E := fresh "E" in pose proof (av_errs _ _ _ _ _ _ _ B) as E;
    clear P B
  end.
(** A token after which comments are collected, and its trailing comment. *)
Ltac exf e s F := apply wpe_bind, expect_fr; [exact _|okk|]; let B := fresh "B" in intros e s B F; ja B.
Ltac tr F c s R K := apply wpe_bind; eapply (trailing_fr k src); [okk|exact F|]; let P := fresh "P" in intros c s P R K; jp P.

Lemma option_wp n s sp (Q : _ -> pst -> Prop) : Inv s -> (measure s <= S n)%nat -> rdy s -> pkd s (kw "option") sp ->
  (forall ts a s', adv s ts s' -> ts <> [] -> rdy s' -> (errs s' = [] -> g_option k ts a) -> Q a s') -> wp n (parse_option k) s Q.
Proof.
  intros Hi Hm Hrd Hp HQ. unfold parse_option. kwstart lead.
  apply wpe_bind, option_body_wp; [okk|]. intros ts a s3 B G. ja B. exf e s4 F. tr F c s5 R K.
  apply wpe_ret. eapply HQ; [eassumption|discriminate|exact R|]. intros He. use_errs. constructor; auto. apply K. auto.
Qed.

Lemma options_list_wp n s (Q : _ -> pst -> Prop) : okn n s -> (forall ts a s', adv s ts s' -> g_options_list k ts a -> Q a s') -> wp n (parse_options_list k) s Q.
Proof.
  intros O HQ. start. unfold parse_options_list. apply wpe_bind, expect_wp; [exact _|okk|]. intros st s0 B. ja B.
  apply wpe_bind, option_body_wp; [okk|]. intros ts a s1 B G. ja B. apply wpe_bind.
  apply (loop_wpe _ (fun r s1 => okn n s1 /\ exists TS, adv s (sym TLeftBracket st ++ TS) s1 /\ g_sep TComma (g_option_body k) TS r)).
  2:{ split; [okk|]. eexists. split; [eassumption|]. now constructor. }
  clear - HQ. intros r s1 (O & TS & A & G). apply wpe_bind, peek_skip_wp; [okk|]. intros x s2 P Hr. pose proof (pk_meas _ _ _ _ P) as M. jp P.
  destruct (at_ x TComma) eqn:E1; [|destruct (at_ x TRightBracket) eqn:E2; [|unexp]].
  - apply at_true in E1. destruct E1 as (sp & ->). apply wpe_bind. eapply bump_adv; [okk|exact Hr|]. intros s3 B. pose proof (av_meas _ _ _ _ _ _ _ B) as M2. cbn [length sym] in M2. ja B.
    apply wpe_bind, option_body_wp; [okk|]. intros ts a s4 B G2. pose proof (av_meas _ _ _ _ _ _ _ B) as M3. ja B. apply wpe_ret. split; [|lia]. split; [okk|]. eexists. split; [eassumption|]. now apply g_sep_snoc.
  - apply at_true in E2. destruct E2 as (sp & ->). apply wpe_bind. eapply bump_adv; [okk|exact Hr|]. intros s3 B. ja B. apply wpe_ret.
    apply wpe_ret. eapply HQ; [eassumption|]. now constructor.
Qed.

Lemma opt_options_wp n term ex s (Q : _ -> pst -> Prop) {L : ends_ok k term ex} : okn n s -> (forall ts a s', adv s ts s' -> g_opt_options k ts a -> Q a s') -> wp n (parse_opt_options k term ex) s Q.
Proof.
  intros O HQ. start. unfold parse_opt_options. apply wpe_bind, peek_skip_wp; [okk|]. intros x s2 P Hr. jp P.
  destruct (at_ x TLeftBracket) eqn:E1.
  - apply wpe_bind, options_list_wp; [okk|]. intros ts a s3 B G. ja B. apply wpe_ret. eapply HQ; [eassumption|]. now constructor.
  - destruct (at_ x term) eqn:E3; [|unexp_t; rewrite token_eqb_sym in E3; now rewrite E1, E3]. apply wpe_ret. eapply HQ; [eassumption|]. constructor.
Qed.

(** ** Ranges *)
Lemma sg_pkd s t sp : pkd s t sp -> sg s = (Some t, sp) :: sigs (stream k (l_rest (p_lex s)) (l_end (p_lex s))).
Proof. intros [Hp Ht]. unfold Walk.sg, coming, ahead. rewrite Hp. cbn [app]. rewrite sigs_cons. unfold significant at 1. cbn [fst]. now rewrite Ht. Qed.
Lemma sg_end s : peeked s None -> sg s = [].
Proof.
  intros [Hr1 Hr2]. unfold Walk.sg, coming, ahead. rewrite Hr1, Hr2. cbn [app].
  pose proof (stream_step k (canon false [] (l_end (p_lex s))) None _ eq_refl) as Hnil. cbn [canon l_rest l_end] in Hnil. now rewrite Hnil.
Qed.
Lemma pkd_stays s s' t sp r : pk s s' -> pkd s t sp -> peeked s' r -> r = Some (t, sp).
Proof.
  intros P Hp Hr. pose proof (pk_sg _ _ _ _ P) as E. rewrite (sg_pkd _ _ _ Hp) in E. destruct r as [[t' sp']|].
  - rewrite (sg_pkd _ _ _ Hr) in E. congruence.
  - rewrite (sg_end _ Hr) in E. discriminate.
Qed.
(** After a single number, the next token is not an opening bracket. *)
Definition after_range (r : rrange) (s : pst) : Prop := rr_end r = RENone -> exists t sp, pkd s t sp /\ t <> TLeftBracket.
Lemma range_wp n s (Q : _ -> pst -> Prop) : okn n s -> (forall ts a s', adv s ts s' -> g_range ts a -> after_range a s' -> Q a s') -> wp n (parse_reserved_range k) s Q.
Proof.
  intros O HQ. start. unfold parse_reserved_range. apply wpe_bind, int_wp; [okk|]. intros ts i s1 B G. ja B.
  apply wpe_bind, peek_skip_wp; [okk|]. intros x s2 P Hr. jp P. apply wpe_bind.
  destruct (at_ x (kw "to")) eqn:E1.
  - apply at_true in E1. destruct E1 as (sp & ->). apply wpe_bind. eapply bump_adv; [okk|exact Hr|]. intros s3 B. ja B.
    apply wpe_bind, peek_skip_wp; [okk|]. intros y s4 P Hr4. jp P.
    assert (Gi : wp n (i0 <- parse_int k ;; ret (REInt i0)) s4 (fun e s' => wp n (ret {| rr_start := i; rr_end := e |}) s' Q)).
    { apply wpe_bind, int_wp; [okk|]. intros ts' j s5 B G2. ja B. apply wpe_ret, wpe_ret. eapply HQ; [eassumption|now constructor|]. discriminate. }
    destruct y as [[t e]|]; [|unexp].
    assert (Gm : is_int t = false -> wp n (if token_eqb t (kw "max") then bump ;;; ret (REMax e) else unexpected_token k (b "an integer or 'max'")) s4 (fun e s' => wp n (ret {| rr_start := i; rr_end := e |}) s' Q)).
    { intros Hni. destruct (token_eqb t (kw "max")) eqn:Emx; [|unexp]. apply token_eqb_eq in Emx. subst t.
      apply wpe_bind. eapply bump_adv; [okk|exact Hr4|]. intros s5 B. ja B. apply wpe_ret, wpe_ret. eapply HQ; [eassumption|now constructor|]. discriminate. }
    destruct t; auto.
  - destruct (at_ x TComma || at_ x TSemicolon) eqn:E2; [|unexp]. apply wpe_ret, wpe_ret. eapply HQ; [eassumption|now constructor|].
    intros _. apply orb_true_iff in E2. destruct E2 as [E2|E2]; apply at_true in E2; destruct E2 as (sp & ->); do 2 eexists; (split; [exact Hr|discriminate]).
Qed.

Lemma ranges_wp n terms s (Q : _ -> pst -> Prop) {L : terms_ok k TComma terms} : okn n s -> (forall ts a s', adv s ts s' -> g_sep TComma g_range ts a -> (exists l r, a = l ++ [r] /\ after_range r s') -> Q a s') -> wp n (parse_reserved_ranges k terms) s Q.
Proof.
  intros O HQ. start. unfold parse_reserved_ranges. apply wpe_bind, range_wp; [okk|]. intros ts a s1 B G F. ja B.
  apply (loop_wpe _ (fun r s1 => okn n s1 /\ exists TS, adv s TS s1 /\ g_sep TComma g_range TS r /\ exists l x, r = l ++ [x] /\ after_range x s1)).
  2:{ split; [okk|]. eexists. split; [eassumption|]. split; [now constructor|]. exists [], a. auto. }
  clear - HQ L. intros r s1 (O & TS & A & G & l & z & El & F). apply wpe_bind, peek_skip_wp; [okk|]. intros x s2 P Hr. pose proof (pk_meas _ _ _ _ P) as M.
  assert (F2 : after_range z s2). { intros Hz. destruct (F Hz) as (t & sp & H1 & H2). pose proof (pkd_stays _ _ _ _ _ P H1 Hr) as ->. eauto. }
  jp P. destruct (at_ x TComma) eqn:E1.
  - apply at_true in E1. destruct E1 as (sp & ->). apply wpe_bind. eapply bump_adv; [okk|exact Hr|]. intros s3 B. pose proof (av_meas _ _ _ _ _ _ _ B) as M2. cbn [length sym] in M2. ja B.
    apply wpe_bind, range_wp; [okk|]. intros ts a s4 B G2 F4. pose proof (av_meas _ _ _ _ _ _ _ B) as M3. ja B. apply wpe_ret. split; [|lia]. split; [okk|]. eexists. split; [eassumption|]. split; [now apply g_sep_snoc|]. eauto.
  - destruct (at_terminator x terms) eqn:E3; [|unexp_t; now rewrite E1, E3]. apply wpe_ret. eapply HQ; [eassumption|eassumption|]. eauto.
Qed.

Lemma names_wp n s (Q : _ -> pst -> Prop) : okn n s -> (forall ts ns e s', adv s (ts ++ sym TSemicolon e) s' -> fresh e s' -> (errs s' = [] -> g_sep TComma g_ident_string ts ns) -> Q (ns, e) s') -> wp n (parse_reserved_names k) s Q.
Proof.
  intros O HQ. start. unfold parse_reserved_names. apply wpe_bind, ident_string_wp; [okk|]. intros ts a s1 B _ G. ja B.
  apply (loop_wpe _ (fun r s1 => okn n s1 /\ exists TS, adv s TS s1 /\ (errs s1 = [] -> g_sep TComma g_ident_string TS r))).
  2:{ split; [okk|]. eexists. split; [eassumption|]. intros He. constructor. auto. }
  clear - HQ. intros r s1 (O & TS & A & G). apply wpe_bind, peek_skip_wp; [okk|]. intros x s2 P Hr. pose proof (pk_meas _ _ _ _ P) as M. jp P.
  destruct (at_ x TComma) eqn:E1; [|destruct (at_ x TSemicolon) eqn:E2; [|unexp]].
  - apply at_true in E1. destruct E1 as (sp & ->). apply wpe_bind. eapply bump_adv; [okk|exact Hr|]. intros s3 B. pose proof (av_meas _ _ _ _ _ _ _ B) as M2. cbn [length sym] in M2. ja B.
    apply wpe_bind, ident_string_wp; [okk|]. intros ts a s4 B _ G2. pose proof (av_meas _ _ _ _ _ _ _ B) as M3. ja B. apply wpe_ret. split; [|lia]. split; [okk|]. eexists. split; [eassumption|].
    intros He. use_errs. now apply g_sep_snoc.
  - apply at_true in E2. destruct E2 as (sp & ->). apply wpe_bind. eapply bump_fr; [okk|exact Hr|]. intros s3 B F. ja B. apply wpe_ret. eapply HQ; [eassumption|exact F|].
    intros He. use_errs. auto.
Qed.

Lemma reserved_wp n s sp (Q : _ -> pst -> Prop) : Inv s -> (measure s <= S n)%nat -> rdy s -> pkd s (kw "reserved") sp ->
  (forall ts a s', adv s ts s' -> ts <> [] -> rdy s' -> (errs s' = [] -> g_reserved ts a) -> Q a s') -> wp n (parse_reserved k) s Q.
Proof.
  intros Hi Hm Hrd Hp HQ. unfold parse_reserved. kwstart lead.
  apply wpe_bind, peek_skip_wp; [okk|]. intros x s2 P Hr. jp P.
  destruct (at_int_or_minus x) eqn:E1.
  - apply wpe_bind, ranges_wp; [exact _|okk|]. intros ts a s3 B G _. ja B. exf e s4 F. tr F c s5 R K.
    apply wpe_ret. eapply HQ; [eassumption|discriminate|exact R|]. intros He. use_errs. constructor; auto. apply K. auto.
  - destruct (at_string x) eqn:E3; [|unexp].
    apply wpe_bind, names_wp; [okk|]. intros ts ns e s3 B F G. ja B. tr F c s5 R K.
    apply wpe_ret. eapply HQ; [eassumption|discriminate|exact R|]. intros He. use_errs. constructor; auto. apply K. auto.
Qed.

Lemma extensions_wp n s sp (Q : _ -> pst -> Prop) : Inv s -> (measure s <= S n)%nat -> rdy s -> pkd s (kw "extensions") sp ->
  (forall ts a s', adv s ts s' -> ts <> [] -> rdy s' -> (errs s' = [] -> g_extensions k ts a) -> Q a s') -> wp n (parse_extensions k) s Q.
Proof.
  intros Hi Hm Hrd Hp HQ. unfold parse_extensions. kwstart lead.
  apply wpe_bind, ranges_wp; [exact _|okk|]. intros ts a s3 B G (l' & r & El & F). ja B. apply wpe_bind, opt_options_wp; [exact _|okk|]. intros os o s4 B G2.
  assert (Ho : o = None \/ exists l' r, a = l' ++ [r] /\ rr_end r <> RENone).
  { destruct o as [o|]; [right|now left]. exists l', r. split; [exact El|]. intros Hz. destruct (F Hz) as (t & sp0 & H1 & H2).
    assert (Hf : first_tok os = Some TLeftBracket) by (inversion G2; subst; match goal with H : g_options_list _ _ _ |- _ => inversion H; subst end; reflexivity).
    destruct (first_of _ _ _ _ _ _ _ H1 B) as [H3 _]; [destruct os; discriminate|congruence]. }
  ja B. exf e s5 F5. tr F5 c s6 R K.
  apply wpe_ret. eapply HQ; [eassumption|discriminate|exact R|]. intros He. use_errs. constructor; auto. apply K. auto.
Qed.
End WalkG1.
