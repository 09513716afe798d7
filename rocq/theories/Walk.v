(** Invariant, weakest preconditions and token access of the parser. *)
From Coq Require Import ZifyBool ZifyN.
From Verif Require Import Base Utf8 Errors Lex LexSpec PropsLex1 LexSafe Stream Ast Comments AttachSpec Attach Parse Grammar Utf8Spec Classify SynSpec LexErr.

(** Lexing with a mode per significant token (and the comments before it): no
    lexical error, no invalid token. Trailing comments are lexed in normal mode. *)
Inductive mclean (k : cfg) : list bool -> bytes -> N -> Prop :=
| mc_end rest pos s' : lex_next k (canon false rest pos) = Done (None, s') -> mclean k [] rest pos
| mc_trivia ms rest pos t s' :
    lex_next k (canon (hd false ms) rest pos) = Done (Some (Some t), s') -> is_trivia t = true -> l_errs s' = [] ->
    mclean k ms (l_rest s') (l_end s') -> mclean k ms rest pos
| mc_tok m ms rest pos t s' :
    lex_next k (canon m rest pos) = Done (Some (Some t), s') -> is_trivia t = false -> l_errs s' = [] ->
    mclean k ms (l_rest s') (l_end s') -> mclean k (m :: ms) rest pos.

(** In mode [m] the text [l] starts with the token [t] (after blanks), without errors, and [rest] follows. *)
Definition lexed (k : cfg) (m : bool) (l : bytes) (t : token) (rest : bytes) : Prop :=
  exists pos s', lex_next k (canon m l pos) = Done (Some (Some t), s') /\ l_errs s' = [] /\ l_rest s' = rest.
(** In mode [m], comments and newlines stand between [l] and [r]. *)
Inductive trail (k : cfg) (m : bool) (l : bytes) : bytes -> Prop :=
| tr_nil : trail k m l l
| tr_drop w r : trail k m l (w ++ r) -> forallb is_skip w = true -> trail k m l r
| tr_trivia r t r' : trail k m l r -> lexed k m r t r' -> is_trivia t = true -> trail k m l r'.
(** The tokens [ts] stand between [l] and [r], each read in its own mode. *)
Inductive readto (k : cfg) (l : bytes) : list tk -> bytes -> Prop :=
| rt_nil : readto k l [] l
| rt_snoc ts r r1 r' t sp m : readto k l ts r -> trail k m r r1 -> lexed k m r1 t r' -> is_trivia t = false -> readto k l (ts ++ [(t, sp, m)]) r'.

Definition inj (x : tk) : option token * span := (Some (tk_tok x), tk_span x).
Definition marks (ts : list tk) : list bool := map tk_mark ts.

Notation errs s := (l_errs (p_lex s)).
Notation tfm s := (l_tfm (p_lex s)).
Notation rest_of s := (l_rest (p_lex s)).
Notation pos_of s := (l_end (p_lex s)).

(** Comments as attached by the specification (AttachSpec.v). *)
Definition com_of (k : cfg) (src : bytes) : comspec := comments_at (stream k src 0).

Section Walk.
Variable k : cfg.
Variable src : bytes.

Definition ahead (s : pst) : list (option token * span) :=
  match p_peek s with
  | Some (Some (t, sp)) => [(Some t, sp)]
  | Some None => [(None, (l_start (p_lex s), pos_of s))]
  | None => []
  end.
(** All tokens still to come. *)
Definition coming (s : pst) : list (option token * span) := ahead s ++ stream k (rest_of s) (pos_of s).

Record Inv (s : pst) : Prop := {
  iv_split : exists pre, src = pre ++ rest_of s /\ pos_of s = len pre;
  iv_start : l_start (p_lex s) <= pos_of s;
  iv_peek : match p_peek s with
            | Some (Some (t, sp)) => sp = (l_start (p_lex s), pos_of s)
            | Some None => errs s <> []
            | None => True
            end;
  iv_errs : Forall (truth k src) (errs s);
  iv_cm : c_is_trailing (p_cm s) = true -> c_detached (p_cm s) = [];
  iv_assert : l_assert (p_lex s) = true -> munch_ideal k = false /\ bad_run src /\ errs s <> [];
  iv_suffix : exists L0, stream k src 0 = L0 ++ coming s;
  iv_pos : forall x, p_peek s = Some (Some x) -> 0 < pos_of s;
  iv_serr : ends_by (pos_of s) (errs s);
}.

(** The significant tokens still to come. *)
Definition sg (s : pst) : list (option token * span) := sigs (coming s).

Definition mclean_s (ms : list bool) (s : pst) : Prop :=
  match p_peek s with
  | None => mclean k ms (rest_of s) (pos_of s)
  | Some None => False
  | Some (Some (t, _)) =>
    if is_trivia t then mclean k ms (rest_of s) (pos_of s)
    else match ms with [] => False | _ :: ms' => mclean k ms' (rest_of s) (pos_of s) end
  end.

(** From [s] the parser consumes the tokens [ts] (in lexer mode [m] before and [m'] after). *)
Record advg (m m' : bool) (s : pst) (ts : list tk) (s' : pst) : Prop := {
  av_inv : Inv s';
  av_sg : sg s = map inj ts ++ sg s';
  av_meas : (measure s' + length ts <= measure s)%nat;
  av_errs : errs s' = [] -> errs s = [];
  av_mode : errs s' = [] -> tfm s = m -> tfm s' = m' /\
    forall ms, hd false ms = m' -> mclean_s ms s' -> hd false (marks ts ++ ms) = m /\ mclean_s (marks ts ++ ms) s;
}.
Notation adv := (advg false false).

(** The tokens [TS] have been consumed; what follows them up to [s] was read in mode [m]. *)
Definition behind (m : bool) (s : pst) (TS : list tk) : Prop :=
  match p_peek s with
  | None => exists r, readto k src TS r /\ trail k m r (rest_of s)
  | Some None => False
  | Some (Some (t, _)) => exists r w u, readto k src TS r /\ trail k m r (w ++ u) /\ forallb is_skip w = true /\ lexed k m (w ++ u) t (rest_of s) /\ l_start (p_lex s) + len u = len src
  end.
(** From [s] the parser at most looks ahead. *)
Record pk (s s' : pst) : Prop := {
  pk_inv : Inv s';
  pk_sg : sg s = sg s';
  pk_meas : (measure s' <= measure s)%nat;
  pk_errs : errs s' = [] -> errs s = [];
  pk_tfm : tfm s' = tfm s;
  pk_back : errs s' = [] -> forall ms, hd false ms = tfm s -> mclean_s ms s' -> mclean_s ms s;
  pk_fwd : forall ms, hd false ms = tfm s -> mclean_s ms s -> mclean_s ms s' /\ errs s' = errs s;
  pk_pre : errs s' = [] -> forall TS, behind (tfm s) s TS -> behind (tfm s') s' TS;
}.

Lemma pk_refl s : Inv s -> pk s s.
Proof. intros H. split; auto. Qed.
Lemma pk_trans s1 s2 s3 : pk s1 s2 -> pk s2 s3 -> pk s1 s3.
Proof.
  intros [A1 A2 A3 A4 A5 A6 A7 A8] [B1 B2 B3 B4 B5 B6 B7 B8]. split; auto; try congruence; try lia.
  - intros He ms Hm Hc. apply A6; auto. apply B6; auto. congruence.
  - intros ms Hm Hc. destruct (A7 ms Hm Hc) as [C1 C2]. destruct (B7 ms) as [C3 C4]; [congruence|auto|]. split; [auto|congruence].
Qed.
Lemma pk_adv m s s' : pk s s' -> advg m m s [] s'.
Proof.
  intros [A1 A2 A3 A4 A5 A6 A7 A8]. split; auto; cbn [map app length marks]; try lia.
  intros He Ht. split; [congruence|]. intros ms Hm Hc. split; auto. apply A6; auto. congruence.
Qed.
Lemma adv_refl m s : Inv s -> advg m m s [] s.
Proof. intros H. now apply pk_adv, pk_refl. Qed.
Lemma adv_trans m1 m2 m3 s1 s2 s3 ts ts' : advg m1 m2 s1 ts s2 -> advg m2 m3 s2 ts' s3 -> advg m1 m3 s1 (ts ++ ts') s3.
Proof.
  intros [A1 A2 A3 A4 A5] [B1 B2 B3 B4 B5]. split; auto.
  - rewrite map_app, <- app_assoc, <- B2. exact A2.
  - rewrite app_length. lia.
  - intros He Ht. specialize (A5 (B4 He) Ht). destruct A5 as [A5 A6]. destruct (B5 He A5) as [B5' B6]. split; auto.
    intros ms Hm Hc. destruct (B6 ms Hm Hc) as [C1 C2]. unfold marks. rewrite map_app, <- app_assoc. apply A6; auto.
Qed.

Definition wpe {A} (m : P A) (s : pst) (Er : pst -> Prop) (Q : A -> pst -> Prop) : Prop :=
  match m s with POk a s' => Q a s' | PErr s' => Er s' | PPanic => False | PNoFuel => False end.
Definition bad (n : nat) (s : pst) : Prop := Inv s /\ errs s <> [] /\ (measure s <= n)%nat.
Notation wp n m s Q := (wpe m s (bad n) Q).

Lemma wpe_conseq {A} (m : P A) s (Er Er' : pst -> Prop) (Q Q' : A -> pst -> Prop) :
  wpe m s Er Q -> (forall a s', Q a s' -> Q' a s') -> (forall s', Er s' -> Er' s') -> wpe m s Er' Q'.
Proof. unfold wpe. destruct (m s); auto. Qed.
Lemma wpe_bind {A B} (m : P A) (f : A -> P B) s Er Q : wpe m s Er (fun a s' => wpe (f a) s' Er Q) -> wpe (bind m f) s Er Q.
Proof. unfold wpe, bind. destruct (m s); auto. Qed.
Lemma wpe_ret {A} (a : A) s Er (Q : A -> pst -> Prop) : Q a s -> wpe (ret a) s Er Q.
Proof. auto. Qed.
Lemma bad_le n n' s : (n <= n')%nat -> bad n s -> bad n' s.
Proof. intros H (A & B & C). split; [|split]; auto. lia. Qed.

Lemma loop_wpe {A B} (f : A -> P (A + B)) (I : A -> pst -> Prop) Er Q :
  (forall a s, I a s -> wpe (f a) s Er (fun r s' => match r with inl a' => I a' s' /\ (measure s' < measure s)%nat | inr v => Q v s' end)) ->
  forall a s, I a s -> wpe (loop f a) s Er Q.
Proof.
  intros H. unfold loop. assert (G : forall fuel a s, I a s -> (measure s < fuel)%nat -> wpe (loopf fuel f a) s Er Q).
  { induction fuel as [|fuel IH]; intros a s Hi Hm; [lia|]. cbn [loopf]. apply wpe_bind. eapply wpe_conseq; [apply H, Hi| |auto].
    intros [a'|v] s' Hr; [|exact Hr]. apply IH; [apply Hr|]. destruct Hr. lia. }
  intros a s Hi. unfold wpe. specialize (G (S (measure s)) a s Hi (Nat.lt_succ_diag_r _)). exact G.
Qed.

(** ** Elementary steps *)
Lemma sigs_cons x l : sigs (x :: l) = if significant x then x :: sigs l else sigs l.
Proof. reflexivity. Qed.

Definition stf (s : pst) (l : lexst) := set_lex s l.

(** Changing only comments. *)
Lemma pk_cm s c : Inv s -> (c_is_trailing c = true -> c_detached c = []) -> pk s (set_cm s c).
Proof.
  intros [H1 H2 H3 H4 H5 H6 H7 H8 H9] Hc. split; auto. split; auto.
Qed.
Lemma dassert_true s c : Inv s -> c = true -> exists s', dassert c s = POk tt s' /\ pk s s' /\ p_peek s' = p_peek s /\ p_cm s' = p_cm s /\ measure s' = measure s /\ p_lex s' = p_lex s.
Proof.
  intros [H1 H2 H3 H4 H5 H6 H7 H8 H9] ->. unfold dassert. eexists. split; [reflexivity|]. cbn [negb]. rewrite orb_false_r.
  assert (E : with_assert (p_lex s) (l_assert (p_lex s)) = p_lex s) by (destruct (p_lex s); reflexivity). rewrite E.
  destruct s as [l p c]. split; [|repeat split; reflexivity]. apply pk_refl. split; auto.
Qed.
Definition cok (f : comments -> comments * bool) : Prop :=
  forall c, (c_is_trailing c = true -> c_detached c = []) ->
    snd (f c) = true /\ (c_is_trailing (fst (f c)) = true -> c_detached (fst (f c)) = []).
Lemma cok_flush : cok c_flush.
Proof. intros c H. unfold c_flush. destruct (c_is_trailing c); cbn; [rewrite H; auto|]; auto. split; auto. discriminate. Qed.
Lemma cok_detach : cok (fun x => (c_detach x, true)).
Proof. intros c H. cbn. split; auto. discriminate. Qed.
Lemma cok_block t : cok (fun x => c_block_comment x t).
Proof.
  intros c H. unfold c_block_comment. destruct (is_some (c_leading c)); [|cbn; auto].
  destruct (c_flush c) as [c1 ok] eqn:E. pose proof (cok_flush c H) as [F1 F2]. rewrite E in F1, F2. cbn in *. auto.
Qed.
Lemma cok_line t : cok (fun x => c_line_comment x t).
Proof.
  intros c H. unfold c_line_comment. destruct (is_some (c_leading c) && negb (c_is_line c)); [|cbn; auto].
  destruct (c_flush c) as [c1 ok] eqn:E. pose proof (cok_flush c H) as [F1 F2]. rewrite E in F1, F2. cbn in *. auto.
Qed.
Lemma cm_ok f s : cok f -> Inv s -> exists s', cm f s = POk tt s' /\ pk s s' /\ p_peek s' = p_peek s /\ measure s' = measure s /\ p_lex s' = p_lex s /\ p_cm s' = fst (f (p_cm s)).
Proof.
  intros Hf Hi. unfold cm. destruct (f (p_cm s)) as [c ok] eqn:E. destruct (Hf (p_cm s) (iv_cm _ Hi)) as [F1 F2]. rewrite E in F1, F2. cbn in F1, F2.
  pose proof (pk_cm s c Hi F2) as Hp. destruct (dassert_true (set_cm s c) ok (pk_inv _ _ Hp) F1) as (s' & E1 & E2 & E3 & E4 & E5 & E6).
  exists s'. split; [exact E1|]. split; [eapply pk_trans; eauto|]. split; [exact E3|]. split; [exact E5|]. split; [exact E6|exact E4].
Qed.
Lemma cm_wpe f s Er (Q : unit -> pst -> Prop) : cok f -> Inv s ->
  (forall s', pk s s' -> p_peek s' = p_peek s -> measure s' = measure s -> p_lex s' = p_lex s -> p_cm s' = fst (f (p_cm s)) -> Q tt s') -> wpe (cm f) s Er Q.
Proof. intros Hf Hi HQ. destruct (cm_ok f s Hf Hi) as (s' & E & ?). unfold wpe. rewrite E. intuition. Qed.
Lemma dassert_wpe c s Er (Q : unit -> pst -> Prop) : c = true -> Inv s -> (forall s', pk s s' -> p_peek s' = p_peek s -> p_lex s' = p_lex s -> Q tt s') -> wpe (dassert c) s Er Q.
Proof. intros Hf Hi HQ. destruct (dassert_true s c Hi Hf) as (s' & E & ?). unfold wpe. rewrite E. intuition. Qed.

Lemma add_error_wpe e s Er (Q : unit -> pst -> Prop) : truth k src e -> string_error e = None -> Inv s ->
  (forall s', (forall m, advg m m s [] s') -> errs s' <> [] -> In e (errs s') -> p_peek s' = p_peek s -> measure s' = measure s -> tfm s' = tfm s -> Q tt s') -> wpe (add_error e) s Er Q.
Proof.
  intros He Hse Hi HQ. unfold wpe, add_error. assert (Hn : l_errs (p_lex s) ++ [e] <> []) by (intros E; apply app_eq_nil in E; destruct E; discriminate).
  apply HQ; auto.
  - intros m. split; cbn [with_errs set_lex p_lex p_peek p_cm l_rest l_end l_start l_errs l_tfm l_assert length map app]; try tauto.
    + destruct Hi as [H1 H2 H3 H4 H5 H6 H7 H8 H9]. split; auto.
      * cbn. destruct (p_peek s) as [[[t sp]|]|]; auto.
      * cbn. apply Forall_app. auto.
      * cbn. intros Ha. destruct (H6 Ha) as (Hb1 & Hb2 & _). auto.
      * cbn. apply ends_by_app. split; auto. now apply ends_by_one.
    + unfold measure. cbn. lia.
  - cbn. apply in_or_app. right. now left.
Qed.

(** ** Lexing one token *)
Lemma span_in s : Inv s -> span_ok (len src) (l_start (p_lex s), pos_of s).
Proof.
  intros [(pre & E1 & E2) H2 _ _ _ _ _ _ _]. split; cbn [s_start s_end fst snd]; auto. rewrite E1, len_app. lia.
Qed.

Lemma bad_run_suffix pre r : bad_run r -> bad_run (pre ++ r).
Proof. intros (p & os & d & post & -> & H). exists (pre ++ p), os, d, post. now rewrite <- app_assoc. Qed.

Lemma lexes_inv s r l' : Inv s -> lexes k (p_lex s) r l' -> forall peek cmt,
  match peek with Some (Some (t, sp)) => sp = (l_start l', l_end l') | Some None => l_errs l' <> [] | None => True end ->
  (c_is_trailing cmt = true -> c_detached cmt = []) ->
  (exists L0, stream k src 0 = L0 ++ coming {| p_lex := l'; p_peek := peek; p_cm := cmt |}) ->
  (r <> None \/ peek = None) ->
  Inv {| p_lex := l'; p_peek := peek; p_cm := cmt |}.
Proof.
  intros [(pre & E1 & E2) H2 H3 H4 H5 H6 H7 H8 H9] H peek cmt Hp Hc Hsf Hpk. destruct (lx_split _ _ _ _ H) as (w & used & E & Hw & Hs & He & Hu).
  split; cbn; auto.
  - exists (pre ++ w ++ used). split; [rewrite E1, E, <- !app_assoc; reflexivity|]. rewrite He, Hs, E2, !len_app. lia.
  - lia.
  - destruct (lex_faults k src pre (p_lex s) r l' E1 E2 H9 (lx_eq _ _ _ _ H)) as (new & Enew & _ & Hnew).
    assert (Hok : Forall (err_ok (len src)) (l_errs l')).
    { apply (lx_ok _ _ _ _ H); [rewrite E1, len_app; lia|]. eapply Forall_impl; [|exact H4]. intros e Hx. apply Hx. }
    rewrite Enew in Hok |- *. apply Forall_app in Hok. destruct Hok as [_ Hok]. apply Forall_app. split; [exact H4|].
    destruct r as [[t|]|]; [|subst new; constructor|subst new; constructor].
    assert (Hin : In (Some t, (l_start l', l_end l')) (stream k src 0)).
    { destruct H7 as (L0 & ->). apply in_or_app. right. unfold coming. apply in_or_app. right. rewrite (stream_step _ _ _ _ (lx_eq _ _ _ _ H)). now left. }
    rewrite Forall_forall in *. intros e Hx. eapply fault_truth; eauto.
  - intros Ha. destruct (lx_assert _ _ _ _ H Ha) as [Ha'|(Ha1 & Ha2 & Ha3)].
    + destruct (H6 Ha') as (Hb1 & Hb2 & Hb3). split; [exact Hb1|]. split; [exact Hb2|]. exact (lx_mono _ _ _ _ H Hb3).
    + split; [exact Ha1|]. split; [|exact Ha3]. rewrite E1. now apply bad_run_suffix.
  - intros x ->. destruct r as [r|]; [|destruct Hpk; congruence]. rewrite He. destruct used as [|u used]; [congruence|]. rewrite len_cons. lia.
  - destruct (lex_faults k src pre (p_lex s) r l' E1 E2 H9 (lx_eq _ _ _ _ H)) as (new & Enew & Hend & _). exact Hend.
Qed.

Lemma mclean_None ms rest pos s' : mclean k ms rest pos -> lex_next k (canon (hd false ms) rest pos) = Done (None, s') -> ms = [].
Proof. intros H E. inversion H; subst; auto; cbn [hd] in *; congruence. Qed.
Lemma lex_any_mode m m' rest pos r s' : lex_next k (canon m rest pos) = Done (r, s') -> exists s'', lex_next k (canon m' rest pos) = Done (r, s'') /\ l_rest s'' = l_rest s' /\ l_end s'' = l_end s'.
Proof.
  intros E. destruct (lx_same _ _ _ _ (lexes_det _ _ _ _ E) (canon m' rest pos) eq_refl eq_refl) as (s2 & E2 & H1 & H2 & H3 & _). eauto.
Qed.

(** What one lexer call does, in terms of streams and cleanliness. *)
Lemma lex_step s r l' : Inv s -> lex_next k (p_lex s) = Done (r, l') ->
  l_tfm l' = tfm s /\
  (l_errs l' = [] -> errs s = []) /\
  stream k (rest_of s) (pos_of s) = match r with None => [] | Some t => (t, (l_start l', l_end l')) :: stream k (l_rest l') (l_end l') end /\
  match r with
  | None => l_rest l' = [] /\ l_errs l' = errs s /\ (length (l_rest l') <= length (rest_of s))%nat
  | Some _ => (length (l_rest l') < length (rest_of s))%nat
  end /\
  (* back *)
  (l_errs l' = [] -> forall ms, hd false ms = tfm s ->
     match r with
     | None => ms = [] -> mclean k ms (rest_of s) (pos_of s)
     | Some None => True
     | Some (Some t) => mclean k (if is_trivia t then ms else tl ms) (l_rest l') (l_end l') -> (is_trivia t = false -> ms <> []) -> mclean k ms (rest_of s) (pos_of s)
     end) /\
  (* forward *)
  (forall ms, hd false ms = tfm s -> mclean k ms (rest_of s) (pos_of s) ->
     match r with
     | None => ms = []
     | Some None => False
     | Some (Some t) => l_errs l' = errs s /\ (is_trivia t = false -> ms <> []) /\ mclean k (if is_trivia t then ms else tl ms) (l_rest l') (l_end l')
     end) /\
  (* what was read *)
  (l_errs l' = [] -> match r with
     | None => exists w, rest_of s = w ++ l_rest l' /\ forallb is_skip w = true
     | Some None => True
     | Some (Some t) => lexed k (tfm s) (rest_of s) t (l_rest l') /\ exists w u, rest_of s = w ++ u /\ forallb is_skip w = true /\ l_start l' + len u = len src
     end).
Proof.
  intros Hi E. pose proof (lexes_det _ _ _ _ E) as H. split; [apply (lx_tfm _ _ _ _ H)|]. split.
  { intros He. destruct (errs s) eqn:Ex; auto. exfalso. apply (lx_mono _ _ _ _ H); auto. rewrite Ex. discriminate. }
  split; [apply (stream_step _ _ _ _ E)|]. split.
  { destruct r as [t|]; [apply (lexes_shrink _ _ _ _ H)|]. destruct (lx_split _ _ _ _ H) as (w & used & Es & _ & _ & _ & -> & Hr).
    split; [exact Hr|]. split; [apply (lx_none _ _ _ _ H); reflexivity|]. rewrite Hr. cbn. lia. }
  split; [|split].
  - intros He ms Hm. destruct (lx_same _ _ _ _ H (canon (tfm s) (rest_of s) (pos_of s)) eq_refl eq_refl) as (c' & E2 & Hr2 & Hs2 & He2 & Hes).
    specialize (Hes He). cbn [canon l_tfm l_errs] in Hes. specialize (Hes (fun x => x)).
    destruct r as [[t|]|]; auto.
    + rewrite <- Hr2, <- He2. intros Hc Hn. destruct (is_trivia t) eqn:Et.
      * eapply mc_trivia; [rewrite Hm; exact E2|exact Et|exact Hes|exact Hc].
      * destruct ms as [|m ms]; [exfalso; now apply Hn|]. cbn [tl hd] in *. subst m. eapply mc_tok; eauto.
    + intros ->. cbn in Hm. rewrite <- Hm in E2. eapply mc_end. exact E2.
  - intros ms Hm Hc. destruct (lx_same _ _ _ _ H (canon (tfm s) (rest_of s) (pos_of s)) eq_refl eq_refl) as (c' & E2 & Hr2 & Hs2 & He2 & _).
    assert (G : forall t c'', lex_next k (canon (tfm s) (rest_of s) (pos_of s)) = Done (Some (Some t), c'') -> l_errs c'' = [] -> l_errs l' = errs s).
    { intros t c'' E3 He3. rewrite E3 in E2. injection E2 as <- <-.
      destruct (lx_same _ _ _ _ (lexes_det _ _ _ _ E3) (p_lex s) eq_refl eq_refl) as (l2 & E4 & _ & _ & _ & Hl). rewrite E in E4. injection E4 as ->. apply Hl; auto. }
    inversion Hc; subst.
    + cbn in Hm. rewrite <- Hm in E2. rewrite H0 in E2. injection E2 as <- _. reflexivity.
    + rewrite Hm in H0. rewrite H0 in E2. injection E2 as <- <-. rewrite H1. split; [eapply G; eauto|]. split; [discriminate|]. now rewrite <- Hr2, <- He2.
    + cbn [hd] in Hm. subst m. rewrite H0 in E2. injection E2 as <- <-. rewrite H1. split; [eapply G; eauto|]. split; [discriminate|]. cbn [tl]. now rewrite <- Hr2, <- He2.
  - intros He. destruct (lx_split _ _ _ _ H) as (w & used & Es & Hw & Hs & He2 & Hu). destruct r as [[t|]|]; auto.
    + split.
      * destruct (lx_same _ _ _ _ H (canon (tfm s) (rest_of s) (pos_of s)) eq_refl eq_refl) as (c' & E2 & Hr2 & _ & _ & Hes). exists (pos_of s), c'. split; [exact E2|]. split; [apply Hes; auto|exact Hr2].
      * exists w, (used ++ l_rest l'). split; [exact Es|]. split; [exact Hw|]. destruct (iv_split _ Hi) as (pre & E1 & E2). rewrite Hs, E2, E1, len_app, Es, !len_app. lia.
    + destruct Hu as [-> Hr]. exists w. split; [exact Es|exact Hw].
Qed.

Lemma nil_stream pos : stream k [] pos = [].
Proof. exact (stream_step k (canon false [] pos) None _ eq_refl). Qed.

(** [peek_comments]: the raw lookahead. *)
Definition peek_err (s s' : pst) : Prop := pk s s' /\ errs s' <> [] /\ p_peek s' = Some None.
Definition raw (s : pst) (r : option (token * span)) : Prop :=
  match r with
  | None => p_peek s = None /\ rest_of s = []
  | Some ts => p_peek s = Some (Some ts)
  end.

Lemma set_peek_same s : set_peek s (p_peek s) = s.
Proof. destruct s; reflexivity. Qed.

Lemma peek_comments_wpe s (Q : option (token * span) -> pst -> Prop) (Er : pst -> Prop) : Inv s ->
  (forall r s', pk s s' -> raw s' r -> coming s' = coming s -> p_cm s' = p_cm s -> Q r s') -> (forall s', peek_err s s' -> Er s') -> wpe (peek_comments k) s Er Q.
Proof.
  intros Hi HQ HE. unfold wpe, peek_comments, bind, get. destruct (p_peek s) as [[[t sp]|]|] eqn:Ep.
  - cbn [ret]. rewrite Ep. apply HQ; [now apply pk_refl|exact Ep|reflexivity|reflexivity].
  - cbn [ret]. rewrite Ep. apply HE. split; [now apply pk_refl|]. split; auto. pose proof (iv_peek _ Hi) as H. now rewrite Ep in H.
  - unfold next_, bind, get. rewrite Ep. cbn [is_some negb]. destruct (dassert_true s true Hi eq_refl) as (s0 & E0 & Hp0 & Ek0 & Ec0 & _ & El0).
    rewrite E0. assert (s0 = s) as -> by (destruct s, s0; cbn in *; congruence). clear E0 Hp0 Ek0 Ec0 El0.
    unfold lexer_next. destruct (lex_next_lexes k (p_lex s)) as (r & l' & H). rewrite (lx_eq _ _ _ _ H).
    destruct (lex_step s r l' Hi (lx_eq _ _ _ _ H)) as (S1 & S2 & S3 & S4 & S5 & S6 & S7).
    destruct (iv_suffix _ Hi) as (L0 & HL). unfold coming, ahead in HL. rewrite Ep in HL. cbn [app] in HL. rewrite S3 in HL.
    destruct r as [[t|]|].
    + cbn [ret lexer_span set_lex p_lex p_peek set_peek p_cm]. apply HQ; [|reflexivity|unfold coming, ahead; rewrite Ep; cbn [p_peek p_lex app set_peek set_lex]; now rewrite S3|reflexivity]. split; cbn [p_lex p_peek p_cm set_peek set_lex].
      * apply (lexes_inv s _ l' Hi H); auto; [apply (iv_cm _ Hi)|exists L0; exact HL|left; discriminate].
      * unfold sg, coming, ahead. rewrite Ep. cbn [p_peek p_lex app set_peek set_lex]. rewrite S3. reflexivity.
      * unfold measure. rewrite Ep. cbn. lia.
      * exact S2.
      * exact S1.
      * intros He ms Hm. unfold mclean_s. rewrite Ep. cbn [p_peek p_lex set_peek set_lex]. specialize (S5 He ms Hm). cbn beta iota in S5. destruct (is_trivia t); intros Hc.
        -- apply S5; [exact Hc|discriminate].
        -- destruct ms; [contradiction|]. apply S5; [exact Hc|discriminate].
      * intros ms Hm. unfold mclean_s. rewrite Ep. cbn [p_peek p_lex set_peek set_lex]. intros Hc. destruct (S6 ms Hm Hc) as (F1 & F2 & F3). split; auto.
        destruct (is_trivia t); auto. destruct ms; [now apply F2|exact F3].
      * intros He TS. unfold behind. rewrite Ep. cbn [p_peek p_lex set_peek set_lex]. rewrite S1. destruct (S7 He) as (L & w & u & Ew & Hw & Hl). intros (r & R1 & R2). rewrite Ew in *. exists r, w, u. auto.
    + cbn [ret lexer_span set_lex p_lex p_peek set_peek p_cm set_cm add_error with_errs l_rest l_start l_end l_errs l_tfm l_assert].
      assert (Hne : l_errs l' ++ [InvalidToken (l_start l', l_end l')] <> []) by (intros X; apply app_eq_nil in X; destruct X; discriminate).
      apply HE. split; [|split; [exact Hne|reflexivity]]. split; cbn [p_lex p_peek p_cm l_rest l_start l_end l_errs l_tfm l_assert]; try tauto.
      * assert (I1 : Inv {| p_lex := l'; p_peek := None; p_cm := c_reset |}).
        { apply (lexes_inv s _ l' Hi H None c_reset I (fun _ => eq_refl)); [|right; reflexivity]. exists (L0 ++ [(None, (l_start l', l_end l'))]). rewrite <- app_assoc. exact HL. } pose proof (span_in _ I1) as Hsp. cbn in Hsp.
        destruct I1 as [I1 I2 I3 I4 I5 I6 I7 I8 I9]. split; cbn in *; auto.
        -- apply Forall_app. split; auto. constructor; [|constructor]. split; [constructor; [exact Hsp|constructor]|]. rewrite HL. apply in_or_app. right. now left.
        -- intros Ha. destruct (I6 Ha) as (Hb1 & Hb2 & _). auto.
        -- exists L0. exact HL.
        -- discriminate.
        -- apply ends_by_app. split; auto. now apply ends_by_one.
      * unfold sg, coming, ahead. rewrite Ep. cbn [p_peek p_lex app l_start l_end l_rest]. rewrite S3. reflexivity.
      * unfold measure. rewrite Ep. cbn. lia.
      * intros ms Hm. unfold mclean_s. rewrite Ep. cbn [p_peek p_lex set_peek set_lex]. intros Hc. destruct (S6 ms Hm Hc).
    + cbn [ret set_lex p_lex p_peek set_peek p_cm]. destruct S4 as (S4 & S4' & S4''). apply HQ; [|split; [reflexivity|exact S4]|unfold coming, ahead; rewrite Ep; cbn [p_peek p_lex app set_peek set_lex]; now rewrite S3, S4, nil_stream|reflexivity]. split; cbn [p_lex p_peek p_cm set_peek set_lex].
      * apply (lexes_inv s _ l' Hi H); auto; [apply (iv_cm _ Hi)|]. exists L0. unfold coming, ahead. cbn [p_peek p_lex app]. rewrite S4, nil_stream. exact HL.
      * unfold sg, coming, ahead. rewrite Ep. cbn [p_peek p_lex app set_peek set_lex]. rewrite S3, S4. now rewrite nil_stream.
      * unfold measure. rewrite Ep. cbn. lia.
      * exact S2.
      * exact S1.
      * intros He ms Hm. unfold mclean_s. rewrite Ep. cbn [p_peek p_lex set_peek set_lex]. rewrite S4. intros Hc. apply (S5 He ms Hm). 
        inversion Hc; subst; auto; cbn in H0; discriminate.
      * intros ms Hm. unfold mclean_s. rewrite Ep. cbn [p_peek p_lex set_peek set_lex]. intros Hc. split; auto. rewrite (S6 ms Hm Hc), S4. eapply mc_end. reflexivity.
      * intros He TS. unfold behind. rewrite Ep. cbn [p_peek p_lex set_peek set_lex]. rewrite S1. destruct (S7 He) as (w & Ew & Hw). intros (r & R1 & R2). exists r. split; [exact R1|]. rewrite Ew in R2. eapply tr_drop; eauto.
Qed.

(** Dropping the lookahead. *)
Lemma suffix_drop s s' : p_peek s' = None -> p_lex s' = p_lex s -> (exists L0, stream k src 0 = L0 ++ coming s) -> exists L0, stream k src 0 = L0 ++ coming s'.
Proof.
  intros E1 E2 (L0 & H). exists (L0 ++ ahead s). rewrite H, <- app_assoc. unfold coming at 2, ahead. rewrite E1, E2. reflexivity.
Qed.

(** [bump] of trivia and of a significant token. *)
Lemma bump_trivia_wpe s t sp Er (Q : span -> pst -> Prop) : Inv s -> p_peek s = Some (Some (t, sp)) -> is_trivia t = true ->
  (forall s', pk s s' -> (measure s' < measure s)%nat -> coming s = (Some t, sp) :: coming s' -> p_cm s' = p_cm s -> Q sp s') -> wpe bump s Er Q.
Proof.
  intros Hi Ep Ht HQ. unfold wpe, bump, bind, get. rewrite Ep. cbn [ret]. rewrite Ht. apply HQ.
  - destruct Hi as [H1 H2 H3 H4 H5 H6 H7 H8 H9]. split; cbn [set_peek p_lex p_peek p_cm]; auto.
    + split; auto; [exact I|(apply (suffix_drop s); [reflexivity|reflexivity|exact H7])|discriminate].
    + unfold sg, coming, ahead. rewrite Ep. cbn [set_peek p_peek p_lex app]. rewrite sigs_cons. unfold significant at 1. cbn [fst]. rewrite Ht. reflexivity.
    + unfold measure. rewrite Ep. cbn. lia.
    + intros He ms Hm. unfold mclean_s. rewrite Ep, Ht. cbn. auto.
    + intros ms Hm. unfold mclean_s. rewrite Ep, Ht. cbn. auto.
    + intros He TS. unfold behind. rewrite Ep. cbn [p_peek p_lex set_peek]. intros (r & w & u & R1 & R2 & R3 & R4 & _). exists r. split; [exact R1|]. eapply tr_trivia; eauto.
  - unfold measure. rewrite Ep. cbn. lia.
  - unfold coming, ahead. rewrite Ep. reflexivity.
  - reflexivity.
Qed.

(** A significant token is in the lookahead. *)
Definition pkd (s : pst) (t : token) (sp : span) : Prop := p_peek s = Some (Some (t, sp)) /\ is_trivia t = false.
Definition peeked (s : pst) (r : option (token * span)) : Prop :=
  match r with
  | None => p_peek s = None /\ rest_of s = []
  | Some (t, sp) => pkd s t sp
  end.

Lemma bump_wpe s t sp Er (Q : span -> pst -> Prop) : Inv s -> pkd s t sp ->
  (forall s', (forall m, advg m m s [(t, sp, m)] s') -> p_peek s' = None -> p_lex s' = p_lex s -> measure s = S (measure s') ->
     (forall m ms, mclean_s (m :: ms) s <-> mclean_s ms s') -> Q sp s') -> wpe bump s Er Q.
Proof.
  intros Hi [Ep Ht] HQ. unfold wpe, bump, bind, get. rewrite Ep. cbn [ret]. rewrite Ht. apply HQ; try reflexivity.
  - intros m. destruct Hi as [H1 H2 H3 H4 H5 H6 H7 H8 H9]. split; cbn [set_peek set_cm p_lex p_peek p_cm]; auto.
    + split; auto; [exact I|(apply (suffix_drop s); [reflexivity|reflexivity|exact H7])|discriminate].
    + unfold sg, coming, ahead. rewrite Ep. cbn [set_peek p_peek p_lex app map]. rewrite sigs_cons. unfold significant at 1. cbn [fst]. rewrite Ht. reflexivity.
    + unfold measure. rewrite Ep. cbn. lia.
    + intros He Hm. split; auto. intros ms Hms Hc. split; [reflexivity|]. unfold mclean_s in *. rewrite Ep, Ht. cbn in *. exact Hc.
  - unfold measure. rewrite Ep. cbn. lia.
  - intros m ms. unfold mclean_s. rewrite Ep, Ht. cbn. tauto.
Qed.

(** ** Lookahead past trivia *)
Lemma peek_err_trans s s1 s2 : pk s s1 -> peek_err s1 s2 -> peek_err s s2.
Proof. intros H (A & B & C). split; [eapply pk_trans; eauto|auto]. Qed.

(** Comments and newlines at the front, and what stands behind them. *)
Fixpoint triv (l : list (option token * span)) : list token :=
  match l with (Some t, _) :: r => if is_trivia t then t :: triv r else [] | _ => [] end.
Fixpoint after (l : list (option token * span)) : list (option token * span) :=
  match l with (Some t, _) :: r => if is_trivia t then after r else l | _ => l end.
Lemma coming_pkd s t sp : pkd s t sp -> exists L, coming s = (Some t, sp) :: L.
Proof. intros [E _]. unfold coming, ahead. rewrite E. eexists. reflexivity. Qed.
Lemma coming_end s : p_peek s = None -> rest_of s = [] -> coming s = [].
Proof. intros E1 E2. unfold coming, ahead. rewrite E1, E2. apply nil_stream. Qed.
Lemma peeked_after s r : peeked s r -> after (coming s) = coming s /\ triv (coming s) = [] /\ closes (coming s) = match r with None => true | Some (t, sp) => closes [(Some t, sp)] end.
Proof.
  destruct r as [[t sp]|]; intros H.
  - destruct (coming_pkd _ _ _ H) as (L & ->). destruct H as [_ Ht]. cbn [after triv]. rewrite Ht. auto.
  - destruct H as [H1 H2]. rewrite (coming_end _ H1 H2). auto.
Qed.
Lemma coming_same s s' : p_peek s' = p_peek s -> p_lex s' = p_lex s -> coming s' = coming s.
Proof. intros E1 E2. unfold coming, ahead. now rewrite E1, E2. Qed.

Lemma peek_skip_wpx s (Q : option (token * span) -> pst -> Prop) (Er : pst -> Prop) : Inv s ->
  (forall r s', pk s s' -> peeked s' r -> coming s' = after (coming s) -> p_cm s' = p_cm s -> Q r s') -> (forall s', peek_err s s' -> Er s') -> wpe (peek_skip_comments k) s Er Q.
Proof.
  intros Hi HQ HE. unfold peek_skip_comments. set (J := fun s1 => pk s s1 /\ after (coming s1) = after (coming s) /\ p_cm s1 = p_cm s).
  apply (loop_wpe _ (fun _ => J)); [|split; [now apply pk_refl|auto]].
  intros _ s1 (H1 & J1 & J2). apply wpe_bind, peek_comments_wpe; [apply (pk_inv _ _ H1)| |intros s2 H2; apply HE; eapply peek_err_trans; eauto].
  intros r s2 H2 Hr C2 K2. pose proof (pk_trans _ _ _ H1 H2) as H12.
  assert (Hsk : forall t sp, r = Some (t, sp) -> is_trivia t = true -> wpe (bump ;;; ret (inl tt)) s2 Er
    (fun (r : unit + option (token * span)) (s' : pst) => match r with inl _ => J s' /\ (measure s' < measure s1)%nat | inr v => Q v s' end)).
  { intros t sp -> Ht. apply wpe_bind. eapply bump_trivia_wpe; [apply (pk_inv _ _ H2)|exact Hr|exact Ht|]. intros s3 H3 Hm C3 K3. apply wpe_ret.
    split; [|pose proof (pk_meas _ _ H2); lia]. split; [eapply pk_trans; eauto|]. split; [|congruence]. rewrite <- J1, <- C2, C3. cbn [after]. now rewrite Ht. }
  assert (Hpe : forall r', r' = r -> peeked s2 r -> Q r' s2).
  { intros r' -> Hp. apply HQ; auto; [|congruence]. rewrite <- J1, <- C2. symmetry. apply (peeked_after _ _ Hp). }
  destruct r as [[t sp]|]; [|apply (wpe_ret (A := unit + option (token * span)) (inr None)); apply Hpe; [reflexivity|exact Hr]].
  destruct (is_trivia t) eqn:Ht.
  - specialize (Hsk t sp eq_refl Ht). destruct t; cbn in Ht; try discriminate; exact Hsk.
  - assert (G : Q (Some (t, sp)) s2) by (apply Hpe; auto; split; auto). destruct t; cbn in Ht; try discriminate; exact G.
Qed.
Lemma peek_skip_wpe s (Q : option (token * span) -> pst -> Prop) (Er : pst -> Prop) : Inv s ->
  (forall r s', pk s s' -> peeked s' r -> Q r s') -> (forall s', peek_err s s' -> Er s') -> wpe (peek_skip_comments k) s Er Q.
Proof. intros Hi HQ HE. apply peek_skip_wpx; auto. Qed.

Lemma peek_loop_wpx s (Q : option (token * span) -> pst -> Prop) (Er : pst -> Prop) : Inv s ->
  (forall r s', pk s s' -> peeked s' r -> coming s' = after (coming s) -> p_cm s' = finish (closes (after (coming s))) (absorb (triv (coming s)) (p_cm s)) -> Q r s') ->
  (forall s', peek_err s s' -> Er s') -> wpe (peek_loop k) s Er Q.
Proof.
  intros Hi HQ HE. unfold peek_loop. set (J := fun s1 => pk s s1 /\ after (coming s1) = after (coming s) /\ absorb (triv (coming s1)) (p_cm s1) = absorb (triv (coming s)) (p_cm s)).
  apply (loop_wpe _ (fun _ => J)); [|split; [now apply pk_refl|auto]].
  intros _ s1 (H1 & J1 & J2). apply wpe_bind, peek_comments_wpe; [apply (pk_inv _ _ H1)| |intros s2 H2; apply HE; eapply peek_err_trans; eauto].
  intros r s2 H2 Hr C2 K2. pose proof (pk_trans _ _ _ H1 H2) as H12. pose proof (pk_meas _ _ H2) as Hm2. pose proof (pk_inv _ _ H2) as I2.
  rewrite <- C2 in J1. rewrite <- C2, <- K2 in J2.
  assert (Hfl : forall r', r' = r -> peeked s2 r -> match r with None => true | Some (t, sp) => closes [(Some t, sp)] end = true -> wpe (cm c_flush ;;; ret (inr r')) s2 Er
    (fun (r : unit + option (token * span)) (s' : pst) => match r with inl _ => J s' /\ (measure s' < measure s1)%nat | inr v => Q v s' end)).
  { intros r' -> Hp Hcl. destruct (peeked_after _ _ Hp) as (A1 & A2 & A3). apply wpe_bind, cm_wpe; [apply cok_flush|auto|]. intros s3 H3 E3 M3 L3 K3. apply wpe_ret, HQ.
    - eapply pk_trans; eauto.
    - destruct r as [[t sp]|]; cbn in *; unfold pkd in *; rewrite ?E3, ?L3; auto.
    - rewrite (coming_same _ _ E3 L3). congruence.
    - rewrite K3, <- J2, <- J1, A2, A1, A3, Hcl. reflexivity. }
  assert (Hpe : forall r', r' = r -> peeked s2 r -> match r with None => true | Some (t, sp) => closes [(Some t, sp)] end = false -> Q r' s2).
  { intros r' -> Hp Hcl. destruct (peeked_after _ _ Hp) as (A1 & A2 & A3). apply HQ; auto; [congruence|]. rewrite <- J2, <- J1, A2, A1, A3, Hcl. reflexivity. }
  destruct r as [[t sp]|].
  2:{ apply Hfl; auto. }
  destruct (is_trivia t) eqn:Ht.
  2:{ assert (G : peeked s2 (Some (t, sp))) by (split; auto).
      destruct t; cbn in Ht; try discriminate; try (apply Hfl; auto; fail); apply Hpe; auto. }
  destruct t; cbn in Ht; try discriminate.
  - apply wpe_bind. eapply bump_trivia_wpe; [exact I2|exact Hr|reflexivity|]. intros s3 H3 Hm3 C3 K3.
    apply wpe_bind, cm_wpe; [apply cok_line|apply (pk_inv _ _ H3)|]. intros s4 H4 E4 M4 L4 K4. apply wpe_ret. split; [|lia]. split; [eapply pk_trans; [|exact H4]; eapply pk_trans; eauto|].
    rewrite (coming_same _ _ E4 L4), K4, K3, <- J1, <- J2, C3. auto.
  - apply wpe_bind. eapply bump_trivia_wpe; [exact I2|exact Hr|reflexivity|]. intros s3 H3 Hm3 C3 K3.
    apply wpe_bind, cm_wpe; [apply cok_block|apply (pk_inv _ _ H3)|]. intros s4 H4 E4 M4 L4 K4.
    assert (H14 : pk s s4) by (eapply pk_trans; [|exact H4]; eapply pk_trans; eauto).
    apply wpe_bind, peek_comments_wpe; [apply (pk_inv _ _ H4)| |intros s5 H5; apply HE; eapply peek_err_trans; eauto].
    intros r5 s5 H5 Hr5 C5 K5. pose proof (pk_meas _ _ H5) as M5. assert (H15 : pk s s5) by (eapply pk_trans; eauto).
    assert (C35 : coming s3 = coming s5) by (rewrite C5; symmetry; now apply coming_same). rewrite C35 in C3.
    assert (A5 : after (coming s5) = after (coming s)) by (rewrite <- J1, C3; reflexivity).
    assert (K5' : p_cm s5 = fst (c_block_comment (p_cm s2) s0)) by (rewrite K5, K4, K3; reflexivity).
    rewrite C3 in J2. cbn [triv is_trivia absorb] in J2. rewrite <- K5' in J2.
    assert (G : hd_error (triv (coming s5)) <> Some TNewline -> J s5 /\ (measure s5 < measure s1)%nat).
    { intros Hn. split; [|lia]. split; [exact H15|]. split; [exact A5|]. rewrite <- J2. destruct (triv (coming s5)) as [|[] l]; try reflexivity. exfalso. now apply Hn. }
    destruct r5 as [[t5 sp5]|].
    2:{ apply G. destruct Hr5 as [R1 R2]. rewrite (coming_end _ R1 R2). discriminate. }
    assert (Ec : exists L, coming s5 = (Some t5, sp5) :: L) by (unfold coming, ahead; rewrite Hr5; eexists; reflexivity). destruct Ec as (L & Ec).
    destruct t5; try (apply G; rewrite Ec; discriminate). clear G.
    apply wpe_bind. eapply bump_trivia_wpe; [apply (pk_inv _ _ H5)|exact Hr5|reflexivity|]. intros s6 H6 M6 C6 K6. apply wpe_ret. split; [|lia]. split; [eapply pk_trans; eauto|].
    rewrite C6 in A5, J2. cbn [triv is_trivia] in J2. cbn [after is_trivia] in A5. rewrite K6. auto.
  - apply wpe_bind. eapply bump_trivia_wpe; [exact I2|exact Hr|reflexivity|]. intros s3 H3 Hm3 C3 K3.
    apply wpe_bind, cm_wpe; [apply cok_flush|apply (pk_inv _ _ H3)|]. intros s4 H4 E4 M4 L4 K4.
    apply wpe_bind, cm_wpe; [apply cok_detach|apply (pk_inv _ _ H4)|]. intros s5 H5 E5 M5 L5 K5. apply wpe_ret. split; [|lia].
    split; [eapply pk_trans; [|exact H5]; eapply pk_trans; [|exact H4]; eapply pk_trans; eauto|].
    rewrite (coming_same _ _ E5 L5), (coming_same _ _ E4 L4), K5, K4, K3, <- J1, <- J2, C3. auto.
Qed.

(** The start of the file: nothing has been lexed. *)
Definition at_zero (s : pst) : bool := (l_start (p_lex s) =? 0) && (l_end (p_lex s) =? 0).
Lemma peek_wpx s (Q : option (token * span) -> pst -> Prop) (Er : pst -> Prop) : Inv s ->
  (forall r s', pk s s' -> peeked s' r -> coming s' = after (coming s) -> p_cm s' = peek_cm (at_zero s) (closes (after (coming s))) (triv (coming s)) (p_cm s) -> Q r s') ->
  (forall s', peek_err s s' -> Er s') -> wpe (peek k) s Er Q.
Proof.
  intros Hi HQ HE. unfold peek. apply wpe_bind. unfold wpe at 1, lexer_span. cbn [s_start s_end fst snd]. unfold at_zero in HQ.
  destruct ((l_start (p_lex s) =? 0) && (l_end (p_lex s) =? 0)); [apply peek_loop_wpx; auto|]. cbn [peek_cm] in HQ.
  apply wpe_bind, peek_comments_wpe; [exact Hi| |exact HE].
  intros r s1 H1 Hr C1 K1. pose proof (pk_inv _ _ H1) as I1. rewrite <- C1, <- K1 in HQ.
  assert (Hlp : forall s2, pk s s2 -> after (coming s2) = after (coming s1) -> (forall r s', peeked s' r -> pk s s' -> coming s' = after (coming s2) ->
     p_cm s' = finish (closes (after (coming s2))) (absorb (triv (coming s2)) (p_cm s2)) -> Q r s') -> wpe (peek_loop k) s2 Er Q).
  { intros s2 H2 Ha Hq. apply peek_loop_wpx; [apply (pk_inv _ _ H2)| |]; intros; [apply Hq|apply HE]; auto; [eapply pk_trans; eauto|eapply peek_err_trans; eauto]. }
  assert (Hpe : forall r', r' = r -> peeked s1 r -> Q r' s1).
  { intros r' -> Hp. destruct (peeked_after _ _ Hp) as (A1 & A2 & A3). apply HQ; [exact H1|exact Hp|congruence|now rewrite A2]. }
  destruct r as [[t sp]|]; [|apply (wpe_ret (A := option (token * span))), Hpe; auto].
  destruct (is_trivia t) eqn:Ht.
  2:{ assert (G : Q (Some (t, sp)) s1) by (apply Hpe; auto; split; auto). destruct t; cbn in Ht; try discriminate; exact G. }
  destruct t; cbn in Ht; try discriminate.
  - apply wpe_bind. eapply bump_trivia_wpe; [exact I1|exact Hr|reflexivity|]. intros s3 H3 _ C3 K3.
    apply wpe_bind, cm_wpe; [apply cok_line|apply (pk_inv _ _ H3)|]. intros s4 H4 E4 _ L4 K4.
    apply wpe_bind, cm_wpe; [apply cok_flush|apply (pk_inv _ _ H4)|]. intros s5 H5 E5 _ L5 K5.
    assert (C5 : coming s5 = coming s3) by (rewrite (coming_same _ _ E5 L5); now apply coming_same). rewrite <- C5 in C3. rewrite C3 in HQ. cbn [triv after is_trivia] in HQ.
    apply Hlp; [eapply pk_trans; [|exact H5]; eapply pk_trans; [|exact H4]; eapply pk_trans; eauto|rewrite C3; reflexivity|].
    intros r s' R1 R2 R3 R4. apply HQ; auto. now rewrite R4, K5, K4, K3.
  - apply wpe_bind. eapply bump_trivia_wpe; [exact I1|exact Hr|reflexivity|]. intros s3 H3 _ C3 K3. assert (H13 : pk s s3) by (eapply pk_trans; eauto).
    apply wpe_bind, peek_comments_wpe; [apply (pk_inv _ _ H3)| |intros; apply HE; eapply peek_err_trans; eauto].
    intros r4 s4 H4 Hr4 C4 K4. assert (H14 : pk s s4) by (eapply pk_trans; eauto). rewrite <- C4 in C3. rewrite C3 in HQ. cbn [triv after is_trivia] in HQ.
    assert (G : hd_error (triv (coming s4)) <> Some TNewline -> wpe (peek_skip_comments k) s4 Er Q).
    { intros Hn. apply peek_skip_wpx; [apply (pk_inv _ _ H4)| |]; intros; [apply HQ|apply HE]; auto; [eapply pk_trans; eauto| |eapply peek_err_trans; eauto].
      destruct (triv (coming s4)) as [|[] l]; try congruence. exfalso. now apply Hn. }
    destruct r4 as [[t4 sp4]|].
    2:{ apply G. destruct Hr4 as [R1 R2]. rewrite (coming_end _ R1 R2). discriminate. }
    assert (Ec : exists L, coming s4 = (Some t4, sp4) :: L) by (unfold coming, ahead; rewrite Hr4; eexists; reflexivity). destruct Ec as (L & Ec).
    destruct t4; try (apply G; rewrite Ec; discriminate). clear G Ec.
    apply wpe_bind. eapply bump_trivia_wpe; [apply (pk_inv _ _ H4)|exact Hr4|reflexivity|]. intros s5 H5 _ C5 K5.
    apply wpe_bind, cm_wpe; [apply cok_block|apply (pk_inv _ _ H5)|]. intros s6 H6 E6 _ L6 K6.
    rewrite <- (coming_same _ _ E6 L6) in C5. rewrite C5 in HQ. cbn [triv after is_trivia] in HQ.
    apply Hlp; [eapply pk_trans; [|exact H6]; eapply pk_trans; eauto|rewrite C3, C5; reflexivity|].
    intros r s' R1 R2 R3 R4. apply HQ; auto. now rewrite R4, K6, K5, K4, K3.
  - apply wpe_bind. eapply bump_trivia_wpe; [exact I1|exact Hr|reflexivity|]. intros s3 H3 _ C3 K3. rewrite C3 in HQ. cbn [triv after is_trivia] in HQ.
    apply Hlp; [eapply pk_trans; eauto|rewrite C3; reflexivity|]. intros r s' R1 R2 R3 R4. apply HQ; auto. now rewrite R4, K3.
Qed.
Lemma peek_wpe s (Q : option (token * span) -> pst -> Prop) (Er : pst -> Prop) : Inv s ->
  (forall r s', pk s s' -> peeked s' r -> Q r s') -> (forall s', peek_err s s' -> Er s') -> wpe (peek k) s Er Q.
Proof. intros Hi HQ HE. apply peek_wpx; auto. Qed.

(** With a significant token in the lookahead nothing is lexed. *)
Lemma peek_comments_hit s t sp : p_peek s = Some (Some (t, sp)) -> peek_comments k s = POk (Some (t, sp)) s.
Proof. intros E. unfold peek_comments, bind, get. rewrite E. cbn [ret]. now rewrite E. Qed.
Lemma peek_skip_hit s t sp : pkd s t sp -> peek_skip_comments k s = POk (Some (t, sp)) s.
Proof.
  intros [E Ht]. unfold peek_skip_comments, loop. cbn [loopf]. unfold bind at 1. unfold bind at 1. rewrite (peek_comments_hit _ _ _ E).
  destruct t; try discriminate; reflexivity.
Qed.
Lemma peek_loop_hit s t sp : Inv s -> pkd s t sp -> exists s', peek_loop k s = POk (Some (t, sp)) s' /\ pk s s' /\ p_peek s' = p_peek s /\ p_lex s' = p_lex s.
Proof.
  intros Hi [E Ht]. unfold peek_loop, loop. cbn [loopf]. unfold bind at 1. unfold bind at 1. rewrite (peek_comments_hit _ _ _ E).
  destruct (cm_ok c_flush s cok_flush Hi) as (s' & E1 & Hpk & Hp & _ & Hl & _).
  destruct t; try discriminate; try (exists s; split; [reflexivity|]; split; [now apply pk_refl|auto]);
    exists s'; unfold bind; rewrite E1; split; auto.
Qed.
Lemma peek_hit s t sp : Inv s -> pkd s t sp -> exists s', peek k s = POk (Some (t, sp)) s' /\ pk s s' /\ p_peek s' = p_peek s /\ p_lex s' = p_lex s.
Proof.
  intros Hi Hp. unfold peek, bind at 1. cbn [lexer_span s_start s_end fst snd].
  destruct ((l_start (p_lex s) =? 0) && (l_end (p_lex s) =? 0)); [now apply peek_loop_hit|].
  destruct Hp as [E Ht]. unfold bind at 1. rewrite (peek_comments_hit _ _ _ E). exists s.
  destruct t; try discriminate; (split; [reflexivity|]; split; [now apply pk_refl|auto]).
Qed.

(** ** Steps of the grammar walk *)
Definition okn (n : nat) (s : pst) : Prop := Inv s /\ (measure s <= n)%nat.

Lemma peek_wp n s (Q : option (token * span) -> pst -> Prop) : okn n s ->
  (forall r s', pk s s' -> peeked s' r -> Q r s') -> wp n (peek k) s Q.
Proof.
  intros [Hi Hm] HQ. apply peek_wpe; auto. intros s' (A & B & _). split; [apply (pk_inv _ _ A)|]. split; auto. pose proof (pk_meas _ _ A). lia.
Qed.
Lemma peek_skip_wp n s (Q : option (token * span) -> pst -> Prop) : okn n s ->
  (forall r s', pk s s' -> peeked s' r -> Q r s') -> wp n (peek_skip_comments k) s Q.
Proof.
  intros [Hi Hm] HQ. apply peek_skip_wpe; auto. intros s' (A & B & _). split; [apply (pk_inv _ _ A)|]. split; auto. pose proof (pk_meas _ _ A). lia.
Qed.
Lemma peek_hit_wpe Er s t sp (Q : option (token * span) -> pst -> Prop) : Inv s -> pkd s t sp ->
  (forall s', pk s s' -> pkd s' t sp -> measure s' = measure s -> Q (Some (t, sp)) s') -> wpe (peek k) s Er Q.
Proof.
  intros Hi Hp HQ. destruct (peek_hit s t sp Hi Hp) as (s' & E & H1 & H2 & H3). unfold wpe. rewrite E. apply HQ; auto.
  - unfold pkd. now rewrite H2.
  - unfold measure. now rewrite H2, H3.
Qed.
Lemma peek_skip_hit_wpe Er s t sp (Q : option (token * span) -> pst -> Prop) : pkd s t sp -> Q (Some (t, sp)) s -> wpe (peek_skip_comments k) s Er Q.
Proof. intros Hp HQ. unfold wpe. now rewrite (peek_skip_hit _ _ _ Hp). Qed.

Lemma peeked_sg s r : peeked s r -> hd_error (sg s) = option_map (fun x => (Some (fst x), snd x)) r.
Proof.
  destruct r as [[t sp]|]; intros H; unfold sg.
  - destruct (coming_pkd _ _ _ H) as (L & ->). destruct H as [_ Ht]. rewrite sigs_cons. unfold significant at 1. cbn [fst]. rewrite Ht. reflexivity.
  - destruct H as [H1 H2]. now rewrite (coming_end _ H1 H2).
Qed.
Lemma peeked_in s t sp : Inv s -> pkd s t sp -> In (Some t, sp) (stream k src 0).
Proof. intros Hi Hp. destruct (iv_suffix _ Hi) as (L0 & ->). destruct (coming_pkd _ _ _ Hp) as (L & ->). apply in_or_app. right. now left. Qed.
Lemma pkd_span s t sp : Inv s -> pkd s t sp -> span_ok (len src) sp.
Proof. intros Hi [Hr _]. pose proof (iv_peek _ Hi) as Hsp. rewrite Hr in Hsp. subst sp. now apply span_in. Qed.
Lemma unexpected_wp {A} n e s r (Q : A -> pst -> Prop) : okn n s -> peeked s r -> readable e = true -> (forall t sp, r = Some (t, sp) -> expects e t = false) -> wp n (unexpected_token k e) s Q.
Proof.
  intros H Hr0 Hrd Hex. unfold unexpected_token. apply wpe_bind, peek_skip_wp; auto. intros r' s' Hp Hr. pose proof (pk_inv _ _ Hp) as Hi. pose proof (pk_meas _ _ Hp) as Hm. destruct H as [_ H].
  assert (r' = r) as ->.
  { apply peeked_sg in Hr, Hr0. rewrite (pk_sg _ _ Hp), Hr in Hr0. destruct r as [[t sp]|], r' as [[t' sp']|]; try discriminate; auto. cbn in Hr0. injection Hr0 as -> ->. reflexivity. }
  destruct r as [[t sp]|].
  - apply wpe_bind, add_error_wpe; auto.
    + split; [constructor; [|constructor]; eapply pkd_span; eauto|]. exists t. split; [eapply peeked_in; eauto|]. split; [apply Hr|]. eauto.
    + intros s2 Ha Hne _ _ Hm2 _. unfold wpe, fail. split; [apply (av_inv _ _ _ _ _ (Ha true))|]. split; auto. lia.
  - apply wpe_bind, add_error_wpe; auto; [split; [constructor|now left]|].
    intros s2 Ha Hne _ _ Hm2 _. unfold wpe, fail. split; [apply (av_inv _ _ _ _ _ (Ha true))|]. split; auto. lia.
Qed.

Lemma adv_okn m m' s ts s' n : okn n s -> advg m m' s ts s' -> okn n s'.
Proof. intros [A B] H. split; [apply (av_inv _ _ _ _ _ H)|]. pose proof (av_meas _ _ _ _ _ H). lia. Qed.
Lemma pk_okn s s' n : okn n s -> pk s s' -> okn n s'.
Proof. intros [A B] H. split; [apply (pk_inv _ _ H)|]. pose proof (pk_meas _ _ H). lia. Qed.

(** Tokens whose text in an error message reads back as the token. *)
Class plain (t : token) : Prop := plain_ok : readable (quote (token_display k t)) = true /\ forall t', token_eqb t' t = false -> expects (quote (token_display k t)) t' = false.
Lemma expect_hit_wpe Er s t sp (Q : span -> pst -> Prop) : Inv s -> pkd s t sp ->
  (forall s', adv s (sym t sp) s' -> measure s = S (measure s') -> Q sp s') -> wpe (expect_eq k t) s Er Q.
Proof.
  intros Hi Hp HQ. unfold expect_eq. apply wpe_bind, (peek_skip_hit_wpe _ _ t sp); auto. rewrite token_eqb_refl.
  eapply bump_wpe; [exact Hi|exact Hp|]. intros s' Ha _ _ Hm _. apply HQ; auto. exact (Ha false).
Qed.
Lemma expect_wp n t s (Q : span -> pst -> Prop) {Hpl : plain t} : okn n s -> (forall sp s', adv s (sym t sp) s' -> Q sp s') -> wp n (expect_eq k t) s Q.
Proof.
  intros H HQ. unfold expect_eq. apply wpe_bind, peek_skip_wp; auto. intros r s' Hp Hr. pose proof (pk_okn _ _ _ H Hp) as H'.
  destruct r as [[t' sp]|]; [|apply (unexpected_wp _ _ _ None); auto; [apply Hpl|discriminate]]. destruct (token_eqb t' t) eqn:E; [|apply (unexpected_wp _ _ _ (Some (t', sp))); auto; [apply Hpl|intros ? ? [= <- <-]; now apply Hpl]].
  apply token_eqb_eq in E. subst t'. eapply bump_wpe; [apply H'|exact Hr|]. intros s2 Ha _ _ _ _. apply HQ.
  exact (adv_trans _ _ _ _ _ _ [] _ (pk_adv false _ _ Hp) (Ha false)).
Qed.

(** Comments around declarations. *)
Lemma peek_ignore_wpe Er s (Q : unit -> pst -> Prop) : Inv s -> (forall s', pk s s' -> (errs s' <> [] /\ p_peek s' = Some None) \/ (exists r, peeked s' r) -> Q tt s') -> wpe (peek_ignore k) s Er Q.
Proof.
  intros Hi HQ. unfold wpe, peek_ignore. pose proof (peek_wpe s (fun r s' => pk s s' /\ peeked s' r) (peek_err s) Hi (fun _ _ A B => conj A B) (fun _ A => A)) as H.
  unfold wpe in H. destruct (peek k s); try contradiction; apply HQ; try apply H; [right; exists a|left]; apply H.
Qed.
Lemma peek_ignore_wpx Er s (Q : unit -> pst -> Prop) : Inv s ->
  (forall s', pk s s' -> (errs s' <> []) \/ (exists r, peeked s' r /\ coming s' = after (coming s) /\ p_cm s' = peek_cm (at_zero s) (closes (after (coming s))) (triv (coming s)) (p_cm s)) -> Q tt s') -> wpe (peek_ignore k) s Er Q.
Proof.
  intros Hi HQ. unfold wpe, peek_ignore.
  pose proof (peek_wpx s (fun r s' => pk s s' /\ peeked s' r /\ coming s' = after (coming s) /\ p_cm s' = peek_cm (at_zero s) (closes (after (coming s))) (triv (coming s)) (p_cm s)) (peek_err s) Hi
    (fun _ _ A B C D => conj A (conj B (conj C D))) (fun _ A => A)) as H.
  unfold wpe in H. destruct (peek k s); try contradiction; apply HQ; try apply H; [right; exists a|left]; apply H.
Qed.

(** ** The comment state *)
(** The token at [sp] has just been consumed. *)
Definition fresh (sp : span) (s : pst) : Prop :=
  p_peek s = None /\ p_cm s = c_reset /\ (0 < pos_of s /\ s_end sp = pos_of s) /\ exists L u, stream k src 0 = L ++ (Some u, sp) :: coming s /\ is_trivia u = false.
(** Nothing has been read. *)
Definition at_start (s : pst) : Prop := p_peek s = None /\ p_cm s = c_new /\ at_zero s = true /\ coming s = stream k src 0.
(** All comments before the next token have been collected. *)
Definition led (s : pst) : Prop := exists t sp, pkd s t sp /\ leads (stream k src 0) sp (c_detached (p_cm s)) (c_leading (p_cm s)).
Definition ready (s : pst) : Prop := at_start s \/ (exists sp, fresh sp s) \/ led s \/ (p_peek s = None /\ rest_of s = []).
Definition rdy (s : pst) : Prop := errs s = [] -> ready s.

Lemma fresh_rdy sp s : fresh sp s -> rdy s.
Proof. intros H _. right. left. eauto. Qed.
Lemma is_trivia_iff t : is_trivia t = true <-> trivia t.
Proof. destruct t; cbn; split; auto; try discriminate; contradiction. Qed.
Lemma is_trivia_not t : is_trivia t = false <-> ~ trivia t.
Proof. rewrite <- is_trivia_iff. destruct (is_trivia t); split; auto; try discriminate. intros H. exfalso. now apply H. Qed.
Lemma split_trivia l : exists T, l = items T ++ after l /\ map fst T = triv l /\ all_trivia T.
Proof.
  induction l as [|[[t|] sp] l IH]; [exists []; repeat constructor| |exists []; repeat constructor]. cbn [triv after]. destruct (is_trivia t) eqn:E; [|exists []; repeat constructor].
  destruct IH as (T & H1 & H2 & H3). exists ((t, sp) :: T). split; [change (items ((t, sp) :: T) ++ after l) with ((Some t, sp) :: (items T ++ after l)); now rewrite <- H1|]. split; [cbn [map fst]; now rewrite H2|]. constructor; auto. now apply is_trivia_iff.
Qed.
Lemma triv_trivia l : Forall trivia (triv l).
Proof. induction l as [|[[t|] sp] l IH]; cbn [triv]; try constructor. destruct (is_trivia t) eqn:E; constructor; auto. now apply is_trivia_iff. Qed.

Lemma peek_ready s s' r : Inv s -> pk s s' -> peeked s' r -> coming s' = after (coming s) ->
  p_cm s' = peek_cm (at_zero s) (closes (after (coming s))) (triv (coming s)) (p_cm s) -> ready s -> ready s'.
Proof.
  intros Hi Hp Hr Hc Hm Hready. destruct r as [[t sp]|]; [|right; right; right; exact Hr]. right; right; left. exists t, sp. split; [exact Hr|].
  destruct (coming_pkd _ _ _ Hr) as (L' & El). rewrite El in Hc. destruct (split_trivia (coming s)) as (T & H1 & H2 & H3). rewrite <- Hc in *.
  assert (Ht : ~ trivia t) by (apply is_trivia_not; apply Hr).
  destruct Hready as [(A1 & A2 & A3 & A4)|[(sp0 & A1 & A2 & A3 & L & u & A4 & A5)|[(t0 & sp0 & A1 & A2)|(A1 & A2)]]].
  - exists [], T, t, L'. split; [rewrite <- A4; exact H1|]. split; [exact H3|]. split; [exact Ht|]. exists (c_trailing (p_cm s')). split; [|now left].
    rewrite A3, A2 in Hm. rewrite Hm, H2. exact (peek_attached true _ _ (triv_trivia _)).
  - exists (L ++ [(Some u, sp0)]), T, t, L'. split; [rewrite <- app_assoc; cbn [app]; rewrite A4; now rewrite H1 at 1|]. split; [exact H3|]. split; [exact Ht|]. exists (c_trailing (p_cm s')).
    split; [|right; exists L, u, sp0; split; [reflexivity|now apply is_trivia_not]].
    assert (Hz : at_zero s = false) by (unfold at_zero; destruct (l_end (p_lex s) =? 0) eqn:Ez; [apply N.eqb_eq in Ez; lia|apply andb_false_r]).
    rewrite Hz, A2 in Hm. rewrite Hm, H2. destruct L; exact (peek_attached false _ _ (triv_trivia _)).
  - assert (Hz : at_zero s = false).
    { destruct A1 as [A1 _]. pose proof (iv_pos _ Hi _ A1). unfold at_zero. destruct (l_end (p_lex s) =? 0) eqn:Ez; [apply N.eqb_eq in Ez; lia|apply andb_false_r]. }
    destruct (coming_pkd _ _ _ A1) as (L0 & E0). destruct A1 as [_ A1]. rewrite E0 in Hc, Hm. cbn [after triv] in Hc, Hm. rewrite A1 in Hc, Hm. injection Hc as -> -> _. rewrite Hz in Hm. cbn [peek_cm] in Hm. now rewrite Hm.
  - rewrite (coming_end _ A1 A2) in Hc. discriminate.
Qed.

Lemma bump_wpx s t sp Er (Q : span -> pst -> Prop) : Inv s -> pkd s t sp ->
  (forall s', (forall m, advg m m s [(t, sp, m)] s') -> fresh sp s' -> measure s = S (measure s') -> Q sp s') -> wpe bump s Er Q.
Proof.
  intros Hi Hp HQ. pose proof (bump_wpe s t sp Er (fun x s' => x = sp /\ (forall m, advg m m s [(t, sp, m)] s') /\ p_peek s' = None /\ p_lex s' = p_lex s /\ measure s = S (measure s')) Hi Hp) as H.
  unfold wpe in *. specialize (H (fun s' A B C D _ => conj eq_refl (conj A (conj B (conj C D))))).
  assert (Hcm : forall x s', bump s = POk x s' -> p_cm s' = c_reset).
  { destruct Hp as [Ep Ht]. unfold bump, bind, get. rewrite Ep. cbn [ret]. rewrite Ht. intros x s' [= _ <-]. reflexivity. }
  destruct (bump s) as [x s'| | |]; try contradiction; [|exact H]. destruct H as (-> & A & B & C & D). apply HQ; auto. split; [exact B|]. split; [eapply Hcm; reflexivity|].
  split; [rewrite C; destruct Hp as [Ep _]; split; [exact (iv_pos _ Hi _ Ep)|pose proof (iv_peek _ Hi) as Hsp; rewrite Ep in Hsp; subst sp; reflexivity]|]. destruct (iv_suffix _ Hi) as (L0 & HL). exists L0, t. split; [|apply Hp]. rewrite HL. unfold coming, ahead. destruct Hp as [Ep _]. rewrite Ep, B, C. reflexivity.
Qed.
Lemma bump_fr Er s t sp (Q : span -> pst -> Prop) : Inv s -> pkd s t sp -> (forall s', adv s (sym t sp) s' -> fresh sp s' -> Q sp s') -> wpe bump s Er Q.
Proof. intros Hi Hp HQ. eapply bump_wpx; [exact Hi|exact Hp|]. intros s' A F _. apply HQ; [exact (A false)|exact F]. Qed.
Lemma expect_fr n t s (Q : span -> pst -> Prop) {Hpl : plain t} : okn n s -> (forall sp s', adv s (sym t sp) s' -> fresh sp s' -> Q sp s') -> wp n (expect_eq k t) s Q.
Proof.
  intros H HQ. unfold expect_eq. apply wpe_bind, peek_skip_wp; auto. intros r s' Hp Hr. pose proof (pk_okn _ _ _ H Hp) as H'.
  destruct r as [[t' sp]|]; [|apply (unexpected_wp _ _ _ None); auto; [apply Hpl|discriminate]]. destruct (token_eqb t' t) eqn:E; [|apply (unexpected_wp _ _ _ (Some (t', sp))); auto; [apply Hpl|intros ? ? [= <- <-]; now apply Hpl]].
  apply token_eqb_eq in E. subst t'. eapply bump_fr; [apply H'|exact Hr|]. intros s2 Ha F. apply HQ; [|exact F].
  exact (adv_trans _ _ _ _ _ _ [] _ (pk_adv false _ _ Hp) Ha).
Qed.
Lemma peek_rd n s (Q : option (token * span) -> pst -> Prop) : okn n s -> rdy s ->
  (forall r s', pk s s' -> peeked s' r -> rdy s' -> Q r s') -> wp n (peek k) s Q.
Proof.
  intros [Hi Hm] Hr HQ. apply peek_wpx; auto.
  - intros r s' P Hp Hc Hk. apply HQ; auto. intros He. eapply (peek_ready s); eauto. apply Hr. exact (pk_errs _ _ P He).
  - intros s' (A & B & _). split; [apply (pk_inv _ _ A)|]. split; auto. pose proof (pk_meas _ _ A). lia.
Qed.

(** Comments around declarations. *)
Definition lead_ok (st : span) (lead : list bytes * option bytes) : Prop := leads (stream k src 0) st (fst lead) (snd lead).
Lemma leading_wpe Er s t sp (Q : list bytes * option bytes -> pst -> Prop) : Inv s -> rdy s -> pkd s t sp ->
  (forall lead s', pk s s' -> pkd s' t sp -> measure s' = measure s -> (errs s' = [] -> lead_ok sp lead) -> Q lead s') -> wpe (parse_leading_comments k) s Er Q.
Proof.
  intros Hi Hrd Hp HQ. unfold parse_leading_comments. apply wpe_bind. unfold wpe at 1, peek_ignore. destruct (peek_hit s t sp Hi Hp) as (s' & E & H1 & H2 & H3). rewrite E.
  unfold wpe, c_take_leading. pose proof (pk_inv _ _ H1) as I1.
  pose proof (peek_wpx s (fun r s1 => pk s s1 /\ peeked s1 r /\ (errs s1 = [] -> ready s1)) (fun _ => True) Hi) as Hx. unfold wpe in Hx. rewrite E in Hx.
  destruct Hx as (_ & Hx1 & Hx2); [|auto|].
  { intros r s1 P A B C. split; [exact P|]. split; [exact A|]. intros He. eapply (peek_ready s); eauto. apply Hrd. exact (pk_errs _ _ P He). }
  apply HQ.
  - eapply pk_trans; [exact H1|]. apply pk_cm; auto.
  - destruct Hp as [Hp Ht]. split; auto. cbn. now rewrite H2.
  - unfold measure. cbn. now rewrite H2, H3.
  - intros He. cbn in He. specialize (Hx2 He). destruct Hp as [Hp Ht]. rewrite <- H2 in Hp.
    destruct Hx2 as [(A1 & _)|[(sp0 & A1 & _)|[(t0 & sp0 & [A1 _] & A2)|(A1 & _)]]]; try congruence. rewrite A1 in Hp. injection Hp as -> ->. exact A2.
Qed.
Lemma leading_wpe0 Er s t sp (Q : list bytes * option bytes -> pst -> Prop) : Inv s -> pkd s t sp ->
  (forall lead s', pk s s' -> pkd s' t sp -> measure s' = measure s -> Q lead s') -> wpe (parse_leading_comments k) s Er Q.
Proof.
  intros Hi Hp HQ. unfold parse_leading_comments. apply wpe_bind. unfold wpe at 1, peek_ignore. destruct (peek_hit s t sp Hi Hp) as (s' & E & H1 & H2 & H3). rewrite E.
  unfold wpe, c_take_leading. pose proof (pk_inv _ _ H1) as I1. apply HQ.
  - eapply pk_trans; [exact H1|]. apply pk_cm; auto.
  - destruct Hp as [Hp Ht]. split; auto. cbn. now rewrite H2.
  - unfold measure. cbn. now rewrite H2, H3.
Qed.
Lemma trailing_wpe Er s lead (Q : acomments -> pst -> Prop) : Inv s ->
  (forall c s', pk s s' -> Q c s') -> wpe (parse_trailing_comment k lead) s Er Q.
Proof.
  intros Hi HQ. unfold parse_trailing_comment. apply wpe_bind. apply peek_ignore_wpe; auto. intros s' Hp _. unfold wpe, c_take_trailing. apply HQ.
  eapply pk_trans; [exact Hp|]. apply pk_cm; [apply (pk_inv _ _ Hp)|]. apply (iv_cm _ (pk_inv _ _ Hp)).
Qed.
Lemma trailing_fr Er e s lead (Q : acomments -> pst -> Prop) : Inv s -> fresh e s ->
  (forall c s', pk s s' -> rdy s' -> (errs s' = [] -> forall st, lead_ok st lead -> com_of k src st e c) -> Q c s') -> wpe (parse_trailing_comment k lead) s Er Q.
Proof.
  intros Hi Hf HQ. unfold parse_trailing_comment. apply wpe_bind. apply peek_ignore_wpx; auto. intros s' Hp Hx. unfold wpe, c_take_trailing.
  assert (Hrd : errs s' = [] -> ready s'). { intros He. destruct Hx as [Hx|(r & R1 & R2 & R3)]; [contradiction|]. eapply (peek_ready s); eauto. right. left. eauto. }
  apply HQ.
  - eapply pk_trans; [exact Hp|]. apply pk_cm; [apply (pk_inv _ _ Hp)|]. apply (iv_cm _ (pk_inv _ _ Hp)).
  - intros He. cbn in He. specialize (Hrd He). destruct Hx as [Hx|(r & R1 & R2 & R3)]; [contradiction|].
    destruct Hrd as [(A1 & A2 & A3 & A4)|[(sp0 & A1 & A2 & A3 & L & u & A4 & A5)|[(t0 & sp0 & A1 & A2)|(A1 & A2)]]].
    + destruct r as [[t sp]|]; [destruct R1 as [R1 _]; congruence|]. right; right; right. exact R1.
    + destruct r as [[t sp]|]; [destruct R1 as [R1 _]; congruence|]. right; right; right. exact R1.
    + right; right; left. exists t0, sp0. split; [exact A1|exact A2].
    + right; right; right. split; [exact A1|exact A2].
  - intros He st Hl. cbn in He. destruct Hx as [Hx|(r & R1 & R2 & R3)]; [contradiction|]. split; [exact Hl|]. cbn [ac_trailing].
    destruct Hf as (A1 & A2 & A3 & L & u & A4 & A5). destruct (split_trivia (coming s)) as (T & H1 & H2 & H3).
    assert (Hz : at_zero s = false) by (unfold at_zero; destruct (l_end (p_lex s) =? 0) eqn:Ez; [apply N.eqb_eq in Ez; lia|apply andb_false_r]).
    rewrite Hz, A2 in R3. exists L, u, T, (coming s'). split; [rewrite A4; now rewrite H1, <- R2 at 1|]. split; [now apply is_trivia_not|]. split; [exact H3|]. split.
    + destruct r as [[t sp]|]; [|destruct R1 as [R1 R1']; now rewrite (coming_end _ R1 R1')]. destruct (coming_pkd _ _ _ R1) as (L' & ->). apply is_trivia_not. apply R1.
    + exists (c_detached (p_cm s')), (c_leading (p_cm s')). rewrite R2, R3, H2. exact (peek_attached false _ _ (triv_trivia _)).
Qed.
End Walk.
