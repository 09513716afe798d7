(** The token stream that remains to be lexed, as a function of the remaining
    text and its offset only. *)
From Coq Require Import ZifyBool ZifyN.
From Verif Require Import Base Utf8 Errors Lex LexSpec PropsLex1 LexSafe.

(** [lex_next] relates to the input as follows. *)
Record lexes (k : cfg) (s : lexst) (r : option (option token)) (s' : lexst) : Prop := {
  lx_eq : lex_next k s = Done (r, s');
  lx_split : exists w used, l_rest s = w ++ used ++ l_rest s' /\ forallb is_skip w = true /\
    l_start s' = l_end s + len w /\ l_end s' = l_start s' + len used /\
    match r with None => used = [] /\ l_rest s' = [] | Some _ => used <> [] end;
  lx_tfm : l_tfm s' = l_tfm s;
  lx_none : r = None -> l_errs s' = l_errs s;
  lx_mono : l_errs s <> [] -> l_errs s' <> [];
  lx_ok : forall T, l_end s + len (l_rest s) <= T -> Forall (err_ok T) (l_errs s) -> Forall (err_ok T) (l_errs s');
  lx_assert : l_assert s' = true -> l_assert s = true \/ (munch_ideal k = false /\ bad_run (l_rest s) /\ l_errs s' <> []);
  lx_same : forall s2, l_rest s2 = l_rest s -> l_end s2 = l_end s -> exists s2',
    lex_next k s2 = Done (r, s2') /\ l_rest s2' = l_rest s' /\ l_start s2' = l_start s' /\ l_end s2' = l_end s' /\
    (l_errs s' = [] -> (l_tfm s = true -> l_tfm s2 = true) -> l_errs s2' = l_errs s2);
}.

Lemma lex_next_lexes k s : exists r s', lexes k s r s'.
Proof.
  destruct (lex_next_all k (l_rest s) (l_end s)) as (r & w & used & rest' & a & H1 & H2 & H3 & H4 & H).
  destruct (H s eq_refl eq_refl) as (es & Hs1 & Hs2 & Hs3 & Hs4 & Hs5).
  eexists r, _. split; [exact Hs1|..]; cbn [l_rest l_start l_end l_errs l_tfm l_assert]; auto.
  - exists w, used. repeat split; auto.
  - intros Ha. apply orb_prop in Ha. destruct Ha as [Ha|Ha]; [auto|]. right. destruct (H3 Ha). auto.
  - intros s2 Hr2 He2. destruct (H s2 Hr2 He2) as (es2 & E2 & _). rewrite E2. eexists. split; [reflexivity|]. cbn [l_rest l_start l_end l_errs].
    repeat split; auto. intros Hes Ht. specialize (Hs5 Hes s2 Hr2 He2 Ht). rewrite E2 in Hs5. now injection Hs5.
Qed.

Lemma lexes_det k s r s' : lex_next k s = Done (r, s') -> lexes k s r s'.
Proof. intros E. destruct (lex_next_lexes k s) as (r0 & s0 & H). pose proof (lx_eq _ _ _ _ H) as E0. rewrite E in E0. now injection E0 as <- <-. Qed.

Lemma lexes_shrink k s t s' : lexes k s (Some t) s' -> (length (l_rest s') < length (l_rest s))%nat.
Proof. intros H. destruct (lx_split _ _ _ _ H) as (w & used & -> & _ & _ & _ & Hu). rewrite !app_length. destruct used; [congruence|]. cbn. lia. Qed.

(** Iteration. *)
Lemma lex_iter_total k f : forall s, (length (l_rest s) < f)%nat -> exists ts s', lex_iter f k s = Done (ts, s').
Proof.
  induction f as [|f IH]; intros s Hf; [lia|]. cbn [lex_iter]. destruct (lex_next_lexes k s) as (r & s' & H).
  rewrite (lx_eq _ _ _ _ H). cbn [obind]. destruct r as [t|]; [|eauto]. pose proof (lexes_shrink _ _ _ _ H).
  destruct (IH s') as (ts & s'' & E); [lia|]. rewrite E. cbn [obind]. eauto.
Qed.
Lemma lex_iter_fuel k f : forall g s, (length (l_rest s) < f)%nat -> (length (l_rest s) < g)%nat -> lex_iter f k s = lex_iter g k s.
Proof.
  induction f as [|f IH]; intros g s Hf Hg; [lia|]. destruct g as [|g]; [lia|]. cbn [lex_iter].
  destruct (lex_next_lexes k s) as (r & s' & H). rewrite (lx_eq _ _ _ _ H). cbn [obind]. destruct r as [t|]; auto.
  pose proof (lexes_shrink _ _ _ _ H). rewrite (IH g s'); [reflexivity|lia|lia].
Qed.
Lemma lex_all_step k s r s' : lex_next k s = Done (r, s') -> lex_all k s =
  match r with
  | None => Done ([], s')
  | Some t => obind (lex_all k s') (fun '(ts, s'') => Done ((t, (l_start s', l_end s')) :: ts, s''))
  end.
Proof.
  intros E. unfold lex_all. cbn [lex_iter]. rewrite E. cbn [obind]. destruct r as [t|]; auto.
  pose proof (lexes_shrink _ _ _ _ (lexes_det _ _ _ _ E)). rewrite (lex_iter_fuel k (length (l_rest s)) (S (length (l_rest s'))) s'); auto.
Qed.
Lemma lex_all_total k s : exists ts s', lex_all k s = Done (ts, s').
Proof. apply lex_iter_total. lia. Qed.

(** Induction along the lexing of a text. *)
Lemma lex_ind (k : cfg) (Q : lexst -> Prop) :
  (forall s s', lexes k s None s' -> Q s) ->
  (forall s t s', lexes k s (Some t) s' -> Q s' -> Q s) -> forall s, Q s.
Proof.
  intros H1 H2 s. remember (length (l_rest s)) as n eqn:En. revert s En.
  induction n as [n IH] using lt_wf_ind. intros s ->. destruct (lex_next_lexes k s) as ([t|] & s' & H); [|eauto].
  eapply H2; eauto. eapply IH; [eapply lexes_shrink; eauto|reflexivity].
Qed.

Lemma lex_all_mono k s : forall ts s', lex_all k s = Done (ts, s') -> l_errs s <> [] -> l_errs s' <> [].
Proof.
  apply (lex_ind k (fun s => forall ts s', lex_all k s = Done (ts, s') -> l_errs s <> [] -> l_errs s' <> [])); clear s.
  - intros s s1 H ts s' E. rewrite (lex_all_step _ _ _ _ (lx_eq _ _ _ _ H)) in E. injection E as <- <-. apply (lx_mono _ _ _ _ H).
  - intros s t s1 H IH ts s' E Hn. rewrite (lex_all_step _ _ _ _ (lx_eq _ _ _ _ H)) in E.
    destruct (lex_all_total k s1) as (ts1 & s2 & E1). rewrite E1 in E. cbn [obind] in E. injection E as <- <-.
    eapply IH; eauto. now apply (lx_mono _ _ _ _ H).
Qed.

Lemma lex_all_same k s1 : forall s2 ts t1, l_rest s2 = l_rest s1 -> l_end s2 = l_end s1 ->
  lex_all k s1 = Done (ts, t1) -> exists t2, lex_all k s2 = Done (ts, t2) /\
    (l_errs t1 = [] -> (l_tfm s1 = true -> l_tfm s2 = true) -> l_errs t2 = l_errs s2).
Proof.
  apply (lex_ind k (fun s1 => forall s2 ts t1, l_rest s2 = l_rest s1 -> l_end s2 = l_end s1 ->
    lex_all k s1 = Done (ts, t1) -> exists t2, lex_all k s2 = Done (ts, t2) /\
    (l_errs t1 = [] -> (l_tfm s1 = true -> l_tfm s2 = true) -> l_errs t2 = l_errs s2))); clear s1.
  - intros s1 s1' H s2 ts t1 Hr He E. rewrite (lex_all_step _ _ _ _ (lx_eq _ _ _ _ H)) in E. injection E as <- <-.
    destruct (lx_same _ _ _ _ H s2 Hr He) as (s2' & E2 & Hr2 & Hs2 & He2 & Hes). rewrite (lex_all_step _ _ _ _ E2).
    eexists. split; [reflexivity|]. exact Hes.
  - intros s1 t s1' H IH s2 ts t1 Hr He E. rewrite (lex_all_step _ _ _ _ (lx_eq _ _ _ _ H)) in E.
    destruct (lex_all_total k s1') as (ts1 & u & E1). rewrite E1 in E. cbn [obind] in E. injection E as <- <-.
    destruct (lx_same _ _ _ _ H s2 Hr He) as (s2' & E2 & Hr2 & Hs2 & He2 & Hes). rewrite (lex_all_step _ _ _ _ E2).
    destruct (IH s2' ts1 u Hr2 He2 E1) as (t2 & E3 & Hes3). rewrite E3. cbn [obind]. rewrite Hs2, He2. eexists. split; [reflexivity|].
    intros Hu Ht. assert (Hs1' : l_errs s1' = []).
    { destruct (l_errs s1') eqn:Ex; auto. exfalso. eapply (lex_all_mono k s1'); eauto. rewrite Ex. discriminate. }
    rewrite Hes3; auto.
    intros Ht1. rewrite (lx_tfm _ _ _ _ (lexes_det _ _ _ _ E2)). rewrite (lx_tfm _ _ _ _ H) in Ht1. auto.
Qed.

(** ** The stream *)
Definition canon (tfm : bool) (rest : bytes) (pos : N) : lexst :=
  {| l_rest := rest; l_start := pos; l_end := pos; l_errs := []; l_tfm := tfm; l_assert := false |}.
Definition stream (k : cfg) (rest : bytes) (pos : N) : list (option token * span) :=
  match lex_all k (canon true rest pos) with Done (ts, _) => ts | _ => [] end.
(** No lexical error occurs when [rest] is lexed to the end; with [tfm = false]
    the two text-format-only constructs count as errors as well. *)
Definition clean (k : cfg) (tfm : bool) (rest : bytes) (pos : N) : Prop :=
  match lex_all k (canon tfm rest pos) with Done (_, s) => l_errs s = [] | _ => False end.

Lemma lex_all_stream k s : exists s', lex_all k s = Done (stream k (l_rest s) (l_end s), s').
Proof.
  unfold stream. destruct (lex_all_total k (canon true (l_rest s) (l_end s))) as (ts & t & E). rewrite E.
  destruct (lex_all_same k (canon true (l_rest s) (l_end s)) s ts t eq_refl eq_refl E) as (t2 & E2 & _). eauto.
Qed.

Lemma stream_step k s r s' : lex_next k s = Done (r, s') -> stream k (l_rest s) (l_end s) =
  match r with None => [] | Some t => (t, (l_start s', l_end s')) :: stream k (l_rest s') (l_end s') end.
Proof.
  intros E. destruct (lex_all_stream k s) as (u & E1). rewrite (lex_all_step _ _ _ _ E) in E1.
  destruct r as [t|]; [|now injection E1]. destruct (lex_all_stream k s') as (u' & E2). rewrite E2 in E1. cbn [obind] in E1. injection E1. auto.
Qed.

Lemma clean_state k s ts s' : lex_all k s = Done (ts, s') -> l_errs s' = [] -> clean k (l_tfm s) (l_rest s) (l_end s).
Proof.
  intros E He. unfold clean. destruct (lex_all_same k s (canon (l_tfm s) (l_rest s) (l_end s)) ts s' eq_refl eq_refl E) as (t2 & -> & H). apply H; auto.
Qed.
Lemma clean_weaken k rest pos : clean k false rest pos -> clean k true rest pos.
Proof.
  unfold clean. destruct (lex_all_total k (canon false rest pos)) as (ts & t & E). rewrite E. intros He.
  destruct (lex_all_same k (canon false rest pos) (canon true rest pos) ts t eq_refl eq_refl E) as (t2 & -> & H). apply H; auto.
Qed.

(** Backwards: a state reached without error. *)
Lemma clean_back k s r s' : lex_next k s = Done (r, s') -> l_errs s' = [] ->
  (r <> None -> clean k true (l_rest s') (l_end s')) -> clean k true (l_rest s) (l_end s).
Proof.
  intros E He Hc. pose proof (lexes_det _ _ _ _ E) as H.
  destruct (lx_same _ _ _ _ H (canon true (l_rest s) (l_end s)) eq_refl eq_refl) as (c' & E2 & Hr2 & Hs2 & He2 & Hes).
  unfold clean. rewrite (lex_all_step _ _ _ _ E2). specialize (Hes He (fun _ => eq_refl)). cbn [l_errs canon] in Hes.
  destruct r as [t|]; [|exact Hes]. assert (Hc' : clean k true (l_rest s') (l_end s')) by (apply Hc; discriminate). unfold clean in Hc'.
  destruct (lex_all_total k (canon true (l_rest s') (l_end s'))) as (ts & u & E3). rewrite E3 in Hc'.
  destruct (lex_all_same k (canon true (l_rest s') (l_end s')) c' ts u Hr2 He2 E3) as (t2 & -> & H2). cbn [obind]. rewrite H2; auto.
  intros _. rewrite (lx_tfm _ _ _ _ (lexes_det _ _ _ _ E2)). reflexivity.
Qed.

(** Forwards: a clean text produces no error and stays clean. *)
Lemma clean_fwd k tfm s : clean k tfm (l_rest s) (l_end s) -> (tfm = true -> l_tfm s = true) ->
  exists r s', lexes k s r s' /\ l_errs s' = l_errs s /\ clean k tfm (l_rest s') (l_end s').
Proof.
  intros Hc Ht. destruct (lex_next_lexes k s) as (r & s' & H). exists r, s'. split; auto.
  destruct (lx_same _ _ _ _ H (canon tfm (l_rest s) (l_end s)) eq_refl eq_refl) as (c' & E2 & Hr2 & Hs2 & He2 & _).
  unfold clean in Hc. rewrite (lex_all_step _ _ _ _ E2) in Hc.
  destruct (lex_all_total k c') as (ts & u & E3).
  assert (Hc' : l_errs c' = [] /\ clean k tfm (l_rest s') (l_end s')).
  { pose proof (lx_tfm _ _ _ _ (lexes_det _ _ _ _ E2)) as Htf. cbn [canon l_tfm] in Htf. destruct r as [t|].
    - rewrite E3 in Hc. cbn [obind] in Hc. split.
      + destruct (l_errs c') eqn:Ex; auto. exfalso. apply (lex_all_mono k c' ts u E3); auto. rewrite Ex. discriminate.
      + pose proof (clean_state k c' ts u E3 Hc) as Hcl. now rewrite Htf, Hr2, He2 in Hcl.
    - split; auto. destruct (lx_split _ _ _ _ H) as (w & used & _ & _ & _ & _ & _ & Hnil). rewrite Hnil. unfold clean.
      destruct (lex_all k (canon tfm [] (l_end s'))) as [[ts' u']| |] eqn:E4; cbn in E4; try discriminate. injection E4 as <- <-. reflexivity. }
  destruct Hc' as [Hce Hcl]. split; auto.
  pose proof (lexes_det _ _ _ _ E2) as H2. destruct (lx_same _ _ _ _ H2 s eq_refl eq_refl) as (s'' & E4 & _ & _ & _ & Hes).
  rewrite (lx_eq _ _ _ _ H) in E4. injection E4 as <-. apply Hes; auto.
Qed.

(** ** Tiling *)

(** [ts] are the tokens of the text [l] at offset [off]: consecutive, non-empty,
    separated by skipped characters only, up to the end of the text. *)
Inductive tiles : N -> bytes -> list (option token * span) -> Prop :=
| tiles_end off w : Forall blank w -> tiles off w []
| tiles_token off w lexeme rest t ts :
    Forall blank w -> lexeme <> [] -> tiles (off + len w + len lexeme) rest ts ->
    tiles off (w ++ lexeme ++ rest) ((t, (off + len w, off + len w + len lexeme)) :: ts).

Lemma is_skip_iff c : is_skip c = true <-> blank c.
Proof. unfold is_skip, blank. cbn [In]. rewrite !Bool.orb_true_iff, !N.eqb_eq. intuition lia. Qed.
Lemma is_skip_blank w : forallb is_skip w = true <-> Forall blank w.
Proof. rewrite forallb_forall, Forall_forall. split; intros H x Hx; apply is_skip_iff; auto. Qed.
Lemma head_skip_blank l : head_sat is_skip l = false <-> ~ starts blank l.
Proof.
  destruct l as [|c r]; cbn [head_sat]; [split; auto; intros _ (?&?&?&?); discriminate|]. split.
  - intros E (?&?&[= <- <-]&H). apply is_skip_iff in H. congruence.
  - intros H. destruct (is_skip c) eqn:E; auto. exfalso. apply H. do 2 eexists. split; [reflexivity|]. now apply is_skip_iff.
Qed.
Lemma stream_tiles k s : tiles (l_end s) (l_rest s) (stream k (l_rest s) (l_end s)).
Proof.
  apply (lex_ind k (fun s => tiles (l_end s) (l_rest s) (stream k (l_rest s) (l_end s)))); clear s.
  - intros s s' H. rewrite (stream_step _ _ _ _ (lx_eq _ _ _ _ H)). destruct (lx_split _ _ _ _ H) as (w & used & E & Hw & _ & _ & -> & Hr).
    rewrite Hr in E. cbn [app] in E. rewrite app_nil_r in E. rewrite E. constructor. now apply is_skip_blank.
  - intros s t s' H IH. rewrite (stream_step _ _ _ _ (lx_eq _ _ _ _ H)). destruct (lx_split _ _ _ _ H) as (w & used & E & Hw & Hs & He & Hu).
    rewrite E. rewrite He, Hs. constructor; auto; [now apply is_skip_blank|]. rewrite <- Hs, <- He. exact IH.
Qed.
