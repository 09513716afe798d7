(** The walk of Viable1.v through the parser: names, numbers, strings, options, ranges. *)
From Coq Require Import ZifyBool ZifyN.
From Verif Require Import Base Utf8 Errors Lex LexSpec PropsLex1 LexSafe Stream Ast Comments AttachSpec Attach Parse Grammar Utf8Spec Classify SynSpec LexErr Walk WalkG1 Kept Keeps Viable1.

Definition noc : acomments := {| ac_detached := []; ac_leading := None; ac_trailing := None |}.
#[export] Existing Instance any_comments.

(** Shortest texts of the grammar's categories. *)
Create HintDb wit.
Definition nsp : span := (0, 0).
Definition w_name : list tk := sym (TIdent (b "a")) nsp.
Lemma wit_ident : g_ident w_name {| id_val := b "a"; id_span := nsp |}.
Proof. constructor. Qed.
Lemma wit_full : g_full_ident w_name [{| id_val := b "a"; id_span := nsp |}].
Proof. apply g_one, wit_ident. Qed.
Lemma wit_type : g_type_name w_name {| tn_dot := None; tn_name := [{| id_val := b "a"; id_span := nsp |}] |}.
Proof. apply g_relative, wit_full. Qed.
Lemma wit_int : g_int (sym (TInt 1) nsp) {| i_neg := false; i_val := 1; i_span := nsp |}.
Proof. constructor. Qed.
Lemma wit_string : g_string (sym (TStr (b "a")) nsp) {| st_val := b "a"; st_span := nsp |}.
Proof. constructor. Qed.
Lemma utf8_a : utf8_text (b "a").
Proof. exists [97]. split; [repeat constructor; unfold char; lia|reflexivity]. Qed.
Lemma wit_utf8 : g_utf8_string (sym (TStr (b "a")) nsp) (b "a", nsp).
Proof. exact (g_utf8 _ _ wit_string utf8_a). Qed.
Lemma wit_ids : g_ident_string (sym (TStr (b "a")) nsp) {| id_val := b "a"; id_span := nsp |}.
Proof. apply g_ids; [exact wit_utf8|]. now apply ident_iff. Qed.
Lemma wit_optname : g_optname_part w_name (ONIdent {| id_val := b "a"; id_span := nsp |}).
Proof. apply g_onident, wit_ident. Qed.
Lemma wit_optnames : g_sep TDot g_optname_part w_name [ONIdent {| id_val := b "a"; id_span := nsp |}].
Proof. apply g_one, wit_optname. Qed.
Lemma wit_optval k : g_optval k (sym (TInt 1) nsp) (OVInt {| i_neg := false; i_val := 1; i_span := nsp |}).
Proof. apply g_ovint, wit_int. Qed.
Definition w_ob : list tk := w_name ++ sym TEquals nsp ++ sym (TInt 1) nsp.
Lemma wit_ob k : g_option_body k w_ob {| ob_name := [ONIdent {| id_val := b "a"; id_span := nsp |}]; ob_value := OVInt {| i_neg := false; i_val := 1; i_span := nsp |} |}.
Proof. apply g_ob; [apply wit_optnames|apply wit_optval]. Qed.
Lemma wit_obs k : g_sep TComma (g_option_body k) w_ob [{| ob_name := [ONIdent {| id_val := b "a"; id_span := nsp |}]; ob_value := OVInt {| i_neg := false; i_val := 1; i_span := nsp |} |}].
Proof. apply g_one, wit_ob. Qed.
Lemma wit_range : g_range (sym (TInt 1) nsp) {| rr_start := {| i_neg := false; i_val := 1; i_span := nsp |}; rr_end := RENone |}.
Proof. apply g_rsingle, wit_int. Qed.
Lemma wit_ranges : g_sep TComma g_range (sym (TInt 1) nsp) [{| rr_start := {| i_neg := false; i_val := 1; i_span := nsp |}; rr_end := RENone |}].
Proof. apply g_one, wit_range. Qed.
Lemma wit_idss : g_sep TComma g_ident_string (sym (TStr (b "a")) nsp) [{| id_val := b "a"; id_span := nsp |}].
Proof. apply g_one, wit_ids. Qed.
Lemma wit_no_options k : g_opt_options k [] None.
Proof. constructor. Qed.
Lemma wit_field_type : g_field_type w_name (TyNamed {| tn_dot := None; tn_name := [{| id_val := b "a"; id_span := nsp |}] |}, nsp).
Proof.
  apply (g_named w_name _ wit_type). intros s Hs Hx. change (Some (TIdent (b "a")) = Some (TIdent s)) in Hx. assert (s = b "a") as -> by congruence. revert Hs. apply scalar_of_none. reflexivity.
Qed.
Lemma wit_many {A} (item : list tk -> A -> Prop) : g_many item [] [].
Proof. constructor. Qed.
Lemma wit_stream : g_stream w_name None {| tn_dot := None; tn_name := [{| id_val := b "a"; id_span := nsp |}] |}.
Proof. apply g_no_stream; [apply wit_type|]. intros s [<-|[]] H. discriminate H. Qed.
Lemma wit_rpc_end k : g_rpc_end k (sym TSemicolon nsp) ([], nsp).
Proof. constructor. Qed.
#[export] Hint Resolve wit_ident wit_full wit_type wit_int wit_string wit_utf8 wit_ids wit_optname wit_optnames wit_optval wit_ob wit_obs wit_range wit_ranges wit_idss wit_no_options wit_field_type wit_many wit_stream wit_rpc_end : wit.
#[export] Hint Extern 0 (com _ _ _) => exact I : wit.
#[export] Hint Extern 1 (g_sep _ _ _ _) => eassumption : wit.

Ltac simp_ := split; [cbn [sym app w_name w_ob]; repeat (apply Forall_cons; [reflexivity|]); apply Forall_nil | cbn [sym app w_name w_ob]; reflexivity].
Ltac dflt := first [exact (0, 0) | exact noc | exact (0, 0, 0)].
(** Complete what has been read to a text of the grammar, by the rule [c]. *)
Tactic Notation "fin" constr(K) tactic3(c) :=
  rewrite <- ?app_assoc;
  unshelve (first [eapply (cutK _ _ _ K) | eapply (cut0 _ _ _ K)]; [rewrite <- ?app_assoc; cbn [app]; c; eauto with wit | simp_]); try dflt.
Ltac norm C := rewrite <- ?app_assoc in C; cbn [app] in C.
(** Look ahead. *)
Ltac sk r R := match goal with C0 : ctx _ _ _ _ ?s |- wv _ _ _ (bind _ _) ?s _ => apply wv_bind; [eapply skip_looks; [exact C0|]; clear dependent s; let C := fresh "C" in intros r s C R; cbv beta | kall] end.
Ltac lk r R := match goal with C0 : ctx _ _ _ _ ?s |- wv _ _ _ (bind _ _) ?s _ => apply wv_bind; [eapply peek_looks; [exact C0|]; clear dependent s; let C := fresh "C" in intros r s C R; cbv beta | kall] end.
(** Look at a lookahead that is known. *)
Ltac ska R := match goal with C0 : ctx _ _ _ _ ?s, R0 : peeked ?s _ |- wv _ _ _ (bind _ _) ?s _ => apply wv_bind; [eapply skip_again; [exact C0|exact R0|]; clear dependent s; let C := fresh "C" in intros s C R; cbv beta iota | kall] end.
Ltac lka R := match goal with C0 : ctx _ _ _ _ ?s, R0 : peeked ?s _ |- wv _ _ _ (bind _ _) ?s _ => apply wv_bind; [eapply peek_again; [exact C0|exact R0|]; clear dependent s; let C := fresh "C" in intros s C R; cbv beta iota | kall] end.
(** Consume the token in the lookahead. *)
Ltac bpq := match goal with C0 : ctx _ _ _ _ ?s, R : peeked ?s (Some (?t, ?sp)) |- wv _ _ _ bump ?s _ =>
  eapply (bump_ctx _ _ _ _ _ _ t sp); [exact C0|exact R|]; clear dependent s; let C := fresh "C" in intros s C _ _; change [(t, sp, false)] with (sym t sp) in C; norm C end.
Ltac bp := match goal with |- wv _ _ _ (bind bump _) ?s _ => apply wv_bind; [bpq|kall] end.
Ltac un := match goal with C : ctx _ _ _ _ ?s |- wv _ _ _ (unexpected_token _ _) ?s _ => eapply unexpected_v; [exact C|] end.
(** Call a function. *)
Tactic Notation "cl" constr(lem) simple_intropattern(a) simple_intropattern(ts) simple_intropattern(G) :=
  match goal with C0 : ctx _ _ _ _ ?s |- wv _ _ _ (bind _ _) ?s _ => eapply wv_call; [eapply lem|exact C0| |kall|clear dependent s; let C := fresh "C" in intros a s ts C G; norm C] end.
Tactic Notation "cx" constr(lem) simple_intropattern(a) simple_intropattern(ts) simple_intropattern(x) simple_intropattern(G) :=
  match goal with C0 : ctx _ _ _ _ ?s |- wv _ _ _ (bind _ _) ?s _ => eapply wv_callx; [eapply lem|exact C0| |kall|clear dependent s; let C := fresh "C" in intros a s ts x C G; norm C] end.
Ltac rt := apply wv_ret; eexists; split; [match goal with C : ctx _ _ _ _ ?s |- ctx _ _ _ _ ?s => exact C end|].
Ltac rx := apply wv_ret; eexists; eexists; split; [match goal with C : ctx _ _ _ _ ?s |- ctx _ _ _ _ ?s => exact C end|].
Ltac ld := match goal with C0 : ctx _ _ _ _ ?s |- wv _ _ _ (bind (parse_leading_comments _) _) ?s _ => apply wv_bind; [eapply leading_any; [exact C0|]; clear dependent s; let C := fresh "C" in let z := fresh "lead" in intros z s C | kall] end.
Ltac lda R := match goal with C0 : ctx _ _ _ _ ?s, R0 : peeked ?s (Some (?t, ?sp)) |- wv _ _ _ (bind (parse_leading_comments _) _) ?s _ => apply wv_bind; [eapply leading_looks; [exact C0|exact R0|]; clear dependent s; let C := fresh "C" in let z := fresh "lead" in intros z s C R; change (peeked s (Some (t, sp))) in R | kall] end.
Ltac tl := match goal with C0 : ctx _ _ _ _ ?s |- wv _ _ _ (bind (parse_trailing_comment _ _) _) ?s _ => apply wv_bind; [eapply trailing_looks; [exact C0|]; clear dependent s; let C := fresh "C" in let z := fresh "lead" in intros z s C | kall] end.

(** The text [ts] begins with the token in sight. *)
Definition starts (r : option (token * span)) (ts : list tk) : Prop := exists t sp, r = Some (t, sp) /\ first_tok ts = Some t.

Section Viable2.
Variable k : cfg.
Variable src : bytes.
Variable sentence : list tk -> Prop.
Notation V := (viable sentence false).
Notation wv := (Viable1.wv k src sentence).
Notation ctx := (Viable1.ctx k src).
Notation spec := (Viable1.spec k src sentence).

Notation specx := (Viable1.specx k src sentence).

Lemma ident_v : spec (parse_ident k) g_ident.
Proof.
  intros TS s C K. unfold parse_ident. sk r R. destruct r as [[[] sp]|]; try (un; fin K idtac). bp. rt. constructor.
Qed.
Lemma ident_at TS s v sp : ctx false TS s -> pkd s (TIdent v) sp -> wv (parse_ident k) s (fun a s' => a = {| id_val := v; id_span := sp |} /\ ctx false (TS ++ sym (TIdent v) sp) s').
Proof. intros C R. unfold parse_ident. change (peeked s (Some (TIdent v, sp))) in R. ska R. bp. apply wv_ret. auto. Qed.
Lemma ident_v0 TS s : ctx false TS s -> V TS -> wv (parse_ident k) s (fun a s' => ctx false (TS ++ sym (TIdent (id_val a)) (id_span a)) s').
Proof.
  intros C K. unfold parse_ident. sk r R. destruct r as [[[] sp]|]; try (un; exact K). bp. apply wv_ret. exact C.
Qed.
Lemma expect_v t : is_simple t = true -> spec (expect_eq k t) (fun ts sp => ts = sym t sp).
Proof.
  intros Ht TS s C K. unfold expect_eq. assert (HV : V TS). { apply (cut0 _ _ _ K (sym t nsp) nsp eq_refl). split; [repeat constructor; exact Ht|reflexivity]. }
  sk r R. destruct r as [[t' sp]|]; [|un; exact HV]. destruct (token_eqb t' t) eqn:E; [|un; exact HV]. apply token_eqb_eq in E. subst t'.
  bpq. eauto.
Qed.
Lemma int_v : specx (parse_int k) g_int.
Proof.
  intros TS s C K. unfold parse_int. sk r R.
  assert (Hrest : forall (neg : option span) ts0 s0, ctx false (TS ++ ts0) s0 -> (ts0 = match neg with Some sp => sym TMinus sp | None => [] end) ->
    wv (t2 <- peek_skip_comments k ;; match t2 with Some (TInt v, e) => bump ;;; ret {| i_neg := is_some neg; i_val := v; i_span := match neg with None => e | Some st => join_span st e end |} | _ => unexpected_token k (b "an integer") end) s0
      (fun _ s' => exists ts x, ctx false (TS ++ ts) s' /\ g_int ts x)).
  { clear s C R. intros neg ts0 s C ->. sk r2 R2.
    assert (HV : V (TS ++ match neg with Some sp => sym TMinus sp | None => [] end)).
    { destruct neg as [sp|]; [fin K (eapply (g_neg _ 1))|rewrite app_nil_r; fin K idtac]. }
    destruct r2 as [[[] sp2]|]; try (un; exact HV). bp. destruct neg; rx; cbn [app is_some]; constructor. }
  assert (Hno : wv (neg <- ret None ;; t2 <- peek_skip_comments k ;; match t2 with Some (TInt v, e) => bump ;;; ret {| i_neg := is_some neg; i_val := v; i_span := match neg with None => e | Some st => join_span st e end |} | _ => unexpected_token k (b "an integer") end) s
      (fun _ s' => exists ts x, ctx false (TS ++ ts) s' /\ g_int ts x)).
  { apply (Hrest None []); [now rewrite app_nil_r|reflexivity]. }
  destruct r as [[[] sp]|]; try exact Hno. apply wv_bind; [|kall]. bp. apply wv_ret. apply (Hrest (Some sp) (sym TMinus sp)); auto.
Qed.
(** Strings fail only at their first token. *)
Lemma string_v TS s : ctx false TS s -> V TS -> wv (parse_string k) s (fun a s' => exists ts, ctx false (TS ++ ts) s' /\ g_string ts a).
Proof.
  intros C K. unfold parse_string. sk r R. apply wv_bind; [|kall]. destruct r as [[[] sp]|]; try (un; exact K). bp. apply wv_ret.
  eapply (wv_loop k src sentence _ (fun a s' => exists ts, ctx false (TS ++ ts) s' /\ g_string ts a)); [|kall|eexists; split; [exact C|constructor]].
  clear. intros a s (ts & C & G). sk r R. destruct r as [[[] sp]|]; try (apply wv_ret; eauto). bp. rt. now apply g_string_snoc.
Qed.
Lemma utf8_v TS s : ctx false TS s -> V TS -> wv (parse_utf8_string k) s (fun a s' => exists ts, ctx false (TS ++ ts) s' /\ g_utf8_string ts a).
Proof.
  intros C K. unfold parse_utf8_string. apply wv_bind; [|kall]. eapply wv_conseq; [eapply string_v; eauto|]. clear s C. intros a s (ts & C & G). destruct (utf8_valid (st_val a)) eqn:E.
  - rt. constructor; [exact G|]. now apply utf8_valid_iff.
  - eapply add_error_v; [exact C|reflexivity|kall].
Qed.
Lemma idstring_v TS s : ctx false TS s -> V TS -> wv (parse_ident_string k) s (fun a s' => exists ts, ctx false (TS ++ ts) s' /\ g_ident_string ts a).
Proof.
  intros C K. unfold parse_ident_string. apply wv_bind; [|kall]. eapply wv_conseq; [eapply utf8_v; eauto|]. clear s C. intros [v sp] s (ts & C & G). apply wv_bind; [|kall]. destruct (is_valid_ident v) eqn:E.
  - apply wv_ret. rt. constructor; [exact G|]. now apply ident_iff.
  - eapply wv_error; [exact C|reflexivity].
Qed.

(** *** Names *)
Lemma full_loop_v terms TS s l ts0 : ctx false (TS ++ ts0) s -> g_full_ident ts0 l -> (forall ts n, g_full_ident ts n -> first_tok ts = first_tok ts0 -> V (TS ++ ts)) -> forall r0, r0 <> [] ->
  wv (loop (fun r => t <- peek_skip_comments k ;; if at_ t TDot then bump ;;; y <- parse_ident k ;; ret (inl (r ++ [y])) else if at_terminator t terms then dassert (Nat.ltb 0 (length r)) ;;; ret (inr r) else unexpected_token k (fmt_expected k (ETTok TDot :: terms))) r0) s
    (fun _ s' => exists ts n, ctx false (TS ++ ts) s' /\ g_full_ident ts n /\ first_tok ts = first_tok ts0).
Proof.
  intros C G K r0 Hr0. assert (Hne : forall ts l, g_full_ident ts l -> ts <> []). { intros ts l' H. destruct H as [? ? []|? ? ? ? ? [] ?]; discriminate. }
  apply (wv_loop k src sentence _ (fun r s' => r <> [] /\ exists ts n, ctx false (TS ++ ts) s' /\ g_full_ident ts n /\ first_tok ts = first_tok ts0)); [|kall|split; eauto].
  clear r0 Hr0 s C. intros r s (Hr & ts & n & C & G1 & F). assert (Hlen : (0 < length r)%nat) by (destruct r; [congruence|cbn; lia]). assert (Hn1 := Hne _ _ G1). sk r1 R. destruct (at_ r1 TDot) eqn:E.
  - apply at_true in E. destruct E as [sp ->]. bp. assert (HF : forall ts2, first_tok (ts ++ ts2) = first_tok ts). { intros ts2. destruct ts; [congruence|reflexivity]. }
    cl ident_v y ts' G'; [|apply wv_ret; split; [now destruct r|]; eexists; eexists; split; [exact C|]; split; [apply g_sep_snoc; eauto|now rewrite HF]].
    intros ts2 y Hy. rewrite <- ?app_assoc. eapply K; [apply g_sep_snoc; eauto|]. now rewrite HF.
  - destruct (at_terminator r1 terms).
    + apply wv_bind; [|kall]. eapply dassert_looks; [exact C| |now apply Nat.ltb_lt]. intros s1 C1 _ _. apply wv_ret. eauto.
    + un. eapply K; eauto.
Qed.

Lemma full_ident_v terms : specx (parse_full_ident k terms) g_full_ident.
Proof.
  intros TS s C K. unfold parse_full_ident. cl ident_v a ts G; [intros ts a G; eapply K, g_one, G|]. eapply wv_conseq; [eapply full_loop_v; [exact C|apply g_one, G| |discriminate]|].
  - intros ts' n G' _. eapply K; eauto.
  - intros _ s' (ts' & n & H1 & H2 & _). eauto.
Qed.
Lemma full_ident_at terms TS s v sp : ctx false TS s -> pkd s (TIdent v) sp -> (forall ts n, g_full_ident ts n -> first_tok ts = Some (TIdent v) -> V (TS ++ ts)) ->
  wv (parse_full_ident k terms) s (fun _ s' => exists ts n, ctx false (TS ++ ts) s' /\ g_full_ident ts n /\ first_tok ts = Some (TIdent v)).
Proof.
  intros C R K. unfold parse_full_ident. apply wv_bind; [|kall]. eapply wv_conseq; [eapply ident_at; eauto|]. clear s C R. intros a s [-> C]. eapply (full_loop_v terms TS s _ (sym (TIdent v) sp)); [exact C|apply g_one; constructor| |discriminate].
  intros ts' n G' F. eapply K; eauto.
Qed.
Lemma starts_some t sp ts : first_tok ts = Some t -> starts (Some (t, sp)) ts.
Proof. intros H. exists t, sp. auto. Qed.
Lemma type_name_at terms TS s r : ctx false TS s -> peeked s r -> (at_dot_or_ident r = false -> V TS) -> (forall ts n, g_type_name ts n -> starts r ts -> V (TS ++ ts)) ->
  wv (parse_type_name k terms) s (fun _ s' => exists ts n, ctx false (TS ++ ts) s' /\ g_type_name ts n /\ starts r ts).
Proof.
  intros C R HV K. unfold parse_type_name. lka R.
  apply wv_bind; [|kall]. destruct r as [[[] sp]|]; try (un; apply HV; reflexivity).
  - apply wv_ret. apply wv_bind; [|kall]. eapply wv_conseq; [eapply full_ident_at; [exact C|exact R|]|].
    + intros ts n G F. eapply K; [apply g_relative, G|now apply starts_some].
    + clear s C R. intros a s (ts & n & C & G & F). rx. split; [apply g_relative, G|now apply starts_some].
  - bp. apply wv_ret. cx full_ident_v a ts n G.
    + intros ts n G. rewrite <- app_assoc. eapply K; [apply g_absolute, G|now apply starts_some].
    + rx. split; [apply g_absolute, G|now apply starts_some].
Qed.
Lemma type_name_v terms : specx (parse_type_name k terms) g_type_name.
Proof.
  intros TS s C K. unfold parse_type_name. lk r R. 
  apply wv_bind; [|kall]. destruct r as [[[] sp]|]; try (un; fin K idtac).
  - apply wv_ret. cx full_ident_v a ts n G; [intros ts n G; eapply K, g_relative, G|]. rx. apply g_relative, G.
  - bp. apply wv_ret. cx full_ident_v a ts n G; [intros ts n G; rewrite <- app_assoc; eapply K, g_absolute, G|]. rx. apply g_absolute, G.
Qed.

(** *** Options *)
Lemma optname_v : specx (parse_option_name_part k) g_optname_part.
Proof.
  intros TS s C K. unfold parse_option_name_part. lk r R. destruct r as [[[] sp]|]; try (un; fin K idtac).
  - cl ident_v a ts G; [intros ts a G; eapply K, g_onident, G|]. rx. apply g_onident, G.
  - bp. cx type_name_v a ts n G; [intros ts n G; rewrite <- app_assoc; fin K (eapply g_onext)|].
    cl expect_v e ts' ->; [reflexivity|intros ts' e ->; rewrite <- ?app_assoc; eapply K, g_onext, G|]. rx. apply g_onext, G.
Qed.
(** Consuming a token, whatever mode the lexer is in now. *)
Lemma bump_go m TS s t sp (Q : span -> pst -> Prop) : Inv k src s -> errs s = [] -> behind k src m s TS -> pkd s t sp ->
  (forall s', Inv k src s' -> errs s' = [] -> tfm s' = tfm s -> p_peek s' = None -> readto k src (TS ++ [(t, sp, m)]) (rest_of s') -> Q sp s') -> wv bump s Q.
Proof.
  intros H1 H2 H4 Hp HQ. pose proof (bump_wpe k src s t sp (fun _ => False) (fun x s' => x = sp /\ Inv k src s' /\ errs s' = [] /\ tfm s' = tfm s /\ p_peek s' = None /\ readto k src (TS ++ [(t, sp, m)]) (rest_of s')) H1 Hp) as H. unfold wpe, wv, Viable1.wv in *.
  match type of H with ?X -> _ => assert (HX : X) end.
  { intros s' Ha Hn Hl _ _. split; [reflexivity|]. split; [apply (av_inv _ _ _ _ _ _ _ (Ha true))|]. rewrite Hl. split; [exact H2|]. split; [reflexivity|]. split; [exact Hn|].
    unfold behind in H4. destruct Hp as [Hp Ht]. rewrite Hp in H4. destruct H4 as (r & w & u & R1 & R2 & R3 & R4 & _). eapply rt_snoc; eauto. }
  specialize (H HX). clear HX. destruct (bump s) as [x s'| | |]; try contradiction. destruct H as (-> & H). right. apply HQ; apply H.
Qed.
(** At the end of the file every look finds the end. *)
Lemma eof_looks s (Q : option (token * span) -> pst -> Prop) : Inv k src s -> errs s = [] -> peeked s None -> (forall s', Inv k src s' -> errs s' = [] -> peeked s' None -> Q None s') -> wv (peek_skip_comments k) s Q.
Proof.
  intros H1 H2 H3 HQ. pose proof (peek_skip_wpe k src s (fun r s' => pk k src s s' /\ peeked s' r) (fun s' => errs s' <> []) H1) as Hw.
  pose proof (quiet_peek_skip k s) as Hq. unfold wpe, wv, Viable1.wv in *.
  match type of Hw with ?X -> ?Y -> _ => assert (HX : X) by auto; assert (HY : Y) by (intros s' (_ & H & _); exact H) end. specialize (Hw HX HY). clear HX HY.
  destruct (peek_skip_comments k s) as [a s'|s'| |]; auto.
  - destruct Hw as [Hp Hr]. pose proof (peeked_same _ _ _ _ _ _ Hp H3 Hr) as ->. destruct (errs s') as [|e l] eqn:Ee; [right; apply HQ; auto; apply (pk_inv _ _ _ _ Hp)|]. left. apply (stuck_quiet k src sentence s); [exact H2| |]; rewrite Ee; [discriminate|exact Hq].
  - apply (stuck_quiet k src sentence s); [exact H2|exact Hw|exact Hq].
Qed.
Lemma eof_v {A} TS m r s e (Q : A -> pst -> Prop) : Inv k src s -> errs s = [] -> peeked s None -> readto k src TS r -> trail k m r [] -> viable sentence m TS -> wv (unexpected_token k e) s Q.
Proof.
  intros H1 H2 H3 R T Hv. unfold unexpected_token. apply wv_bind; [|kall]. apply eof_looks; auto. clear s H1 H2 H3. intros s H1 H2 H3.
  unfold wv, Viable1.wv, bind, add_error, fail. cbn [set_lex p_lex with_errs l_errs]. rewrite H2. cbn [app]. split; cbn [set_lex p_lex with_errs l_errs]; [discriminate|]. intros e0 [= <-] _. cbn [fine]. exists TS, m, r. auto.
Qed.
Lemma balanced_close n : balanced n (map tk_tok (repeat (TRightBrace, nsp, true) (N.to_nat n))).
Proof.
  rewrite <- (N2Nat.id n) at 1. induction (N.to_nat n) as [|m IH]; [reflexivity|]. cbn [repeat map tk_tok fst balanced]. split; [lia|]. replace (N.of_nat (S m) - 1) with (N.of_nat m) by lia. exact IH.
Qed.
Lemma aggregate_v TS s st : ctx false TS s -> pkd s TLeftBrace st -> (forall ts v, g_optval k ts v -> V (TS ++ ts)) ->
  wv (bump ;;; v <- parse_text_format_message k ;; e <- expect_eq k TRightBrace ;; ret (OVAggregate v (join_span st e))) s (fun _ s' => exists ts x, ctx false (TS ++ ts) s' /\ g_optval k ts x).
Proof.
  intros C R K. apply wv_bind; [|kall]. eapply bump_ctx; [exact C|exact R|]. clear s C R. intros s C Hn Hrd. change [(TLeftBrace, st, false)] with (sym TLeftBrace st) in *.
  apply wv_bind; [|kall].
  set (part := fun level ts => Forall (fun x => tk_mark x = true) ts /\ forall r, balanced level r -> balanced 0 (map tk_tok ts ++ r)).
  apply (wv_conseq _ _ _ _ _ (fun _ s' => exists level ts s2 r, s' = tfm_on false s2 /\ ctx true (TS ++ sym TLeftBrace st ++ ts) s2 /\ part level ts /\ peeked s2 r /\ match r with None => True | Some (t, _) => t = TRightBrace /\ level = 0 end)).
  - unfold parse_text_format_message. apply wv_bind; [|kall]. right. apply wv_bind; [|kall]. eapply dassert_looks; [exact C| |now rewrite Hn]. intros s1 C1 Hn1 Hl1. rewrite Hn in Hn1.
    apply wv_bind; [|kall]. right. fold (tfm_on true s1).
    assert (C2 : ctx true (TS ++ sym TLeftBrace st) (tfm_on true s1)).
    { destruct C1 as (D1 & D2 & D3 & D4). split; [now apply tfm_on_inv|]. split; [exact D2|]. split; [reflexivity|]. unfold behind. cbn [tfm_on set_lex p_peek]. rewrite Hn1. exists (rest_of s). split; [exact Hrd|]. change (trail k true (rest_of s) (rest_of s1)). rewrite Hl1. constructor. }
    clear s C Hn Hrd C1 Hn1 Hl1. revert C2. generalize (tfm_on true s1). clear s1. intros s C. apply wv_bind; [|kall].
    apply (wv_loop k src sentence _ (fun (a : N * bytes) s' => exists ts, ctx true (TS ++ sym TLeftBrace st ++ ts) s' /\ part (fst a) ts)); [|kall|exists []; rewrite app_nil_r; split; [exact C|split; [constructor|auto]]].
    clear s C. intros [level acc] s (ts & C & Hm & Hb). cbn [fst] in Hb. lk r R.
    assert (Hgo : forall tok sp level', peeked s (Some (tok, sp)) -> (forall r, balanced level' r -> balanced 0 (map tk_tok (ts ++ [(tok, sp, true)]) ++ r)) ->
      wv (bump ;;; ret (inl (B := bytes) (level', (match acc with [] => [] | _ => acc ++ [32] end) ++ token_display k tok))) s
       (fun r s' => match r with inl a' => exists ts, ctx true (TS ++ sym TLeftBrace st ++ ts) s' /\ part (fst a') ts | inr v => wv (set_tfm false ;;; ret v) s' (fun _ s' => exists level ts s2 r, s' = tfm_on false s2 /\ ctx true (TS ++ sym TLeftBrace st ++ ts) s2 /\ part level ts /\ peeked s2 r /\ match r with None => True | Some (t, _) => t = TRightBrace /\ level = 0 end) end)).
    { clear r R. intros tok sp level' R Hb'. apply wv_bind; [|kall]. eapply bump_ctx; [exact C|exact R|]. intros s4 C4 _ _. apply wv_ret. norm C4. exists (ts ++ [(tok, sp, true)]). split; [exact C4|]. split; [apply Forall_app; auto|exact Hb']. }
    destruct r as [[tok sp]|].
    2:{ apply wv_ret. apply wv_bind; [|kall]. right. apply wv_ret. exists level, ts, s, None. split; [reflexivity|]. split; [exact C|]. split; [split; auto|]. auto. }
    destruct tok; try (eapply Hgo; [exact R|rewrite map_app; cbn [map tk_tok fst]; apply balanced_snoc; [discriminate|discriminate|exact Hb]]).
    + eapply Hgo; [exact R|]. intros r Hrb. rewrite map_app, <- app_assoc. apply Hb. exact Hrb.
    + destruct (level =? 0) eqn:El.
      * apply N.eqb_eq in El. subst level. apply wv_ret. apply wv_bind; [|kall]. right. apply wv_ret. exists 0, ts, s, (Some (TRightBrace, sp)). split; [reflexivity|]. split; [exact C|]. split; [split; auto|]. auto.
      * eapply Hgo; [exact R|]. intros r Hrb. rewrite map_app, <- app_assoc. apply Hb. cbn. split; auto. now apply N.eqb_neq.
  - clear s C Hn Hrd. intros v s (level & ts & s2 & r & -> & C & [Hm Hb] & R & Hr). apply wv_bind; [|kall]. destruct C as (C1 & C2 & C3 & C4). destruct r as [[t e]|].
    + destruct Hr as [-> ->]. unfold expect_eq. apply wv_bind; [|kall]. unfold wv, Viable1.wv. rewrite (peek_skip_hit k _ TRightBrace e); [|exact R]. right. cbv beta iota. cbn [token_eqb].
      eapply (bump_go true); [apply tfm_on_inv, C1|exact C2|exact C4|exact R|]. intros s' D1 D2 D3 D4 D5. apply wv_ret. norm D5.
      exists (sym TLeftBrace st ++ ts ++ [(TRightBrace, e, true)]). eexists. split; [|apply g_ovagg; split; [specialize (Hb [] eq_refl); now rewrite app_nil_r in Hb|exact Hm]].
      split; [exact D1|]. split; [exact D2|]. split; [exact D3|]. unfold behind. rewrite D4. eexists. split; [exact D5|constructor].
    + unfold expect_eq. apply wv_bind; [|kall]. apply eof_looks; [apply tfm_on_inv, C1|exact C2|exact R|]. intros s' D1 D2 D3. destruct R as [R1 R2]. unfold behind in C4. rewrite R1, R2 in C4. destruct C4 as (r & T1 & T2).
      eapply eof_v; [exact D1|exact D2|exact D3|exact T1|exact T2|].
      eapply (cut_true _ _ (repeat (TRightBrace, nsp, true) (N.to_nat level) ++ [(TRightBrace, nsp, true)])).
      * rewrite <- !app_assoc. eapply K. rewrite (app_assoc ts). apply g_ovagg. split; [rewrite map_app; apply Hb, balanced_close|]. apply Forall_app. split; [exact Hm|]. clear. induction (N.to_nat level); constructor; auto.
      * apply Forall_app. split; [clear; induction (N.to_nat level); constructor; auto; reflexivity|repeat constructor].
      * destruct (N.to_nat level); reflexivity.
Qed.
Lemma optval_v : specx (parse_option_value k) (g_optval k).
Proof.
  intros TS s C K. unfold parse_option_value. sk r R.
  assert (HV : V TS) by fin K idtac.
  destruct r as [[[] sp]|]; try (un; exact HV).
  - cl ident_v a ts G; [intros ts a G; destruct G; eapply K, g_ovident|]. destruct G. rx. apply g_ovident.
  - bp. rx. apply g_ovint; constructor.
  - bp. rx. apply g_ovfloat.
  - apply wv_bind; [|kall]. eapply wv_conseq; [eapply string_v; eauto|]. clear s C R. intros a s (ts & C & G). rx. apply g_ovstring, G.
  - bp. sk r2 R2. assert (HV2 : V (TS ++ sym TMinus sp)) by fin K (eapply (g_ovint _ _ _ (g_neg _ 1 _))).
    destruct r2 as [[[] sp2]|]; try (un; exact HV2).
    + cl ident_v a ts G; [intros ts a G; destruct G; rewrite <- app_assoc; eapply K, g_ovnident|]. destruct G. rx. apply g_ovnident.
    + bp. rx. apply g_ovint; constructor.
    + bp. rx. apply g_ovnfloat.
  - apply aggregate_v; auto.
Qed.
Lemma option_body_v : specx (parse_option_body k) (g_option_body k).
Proof.
  intros TS s C K. unfold parse_option_body. assert (Kn : forall ts n, g_sep TDot g_optname_part ts n -> V (TS ++ ts)) by (intros ts n G; fin K (eapply g_ob)).
  cx optname_v a ts n G; [intros ts n G; eapply Kn, g_one, G|]. apply wv_bind; [|kall].
  apply (wv_loop k src sentence _ (fun _ s' => exists ts n, ctx false (TS ++ ts) s' /\ g_sep TDot g_optname_part ts n)); [|kall|exists ts, [n]; split; [exact C|now apply g_one]].
  clear a ts n G s C. intros a s (ts & n & C & G). sk r R. destruct (at_ r TDot) eqn:E.
  - apply at_true in E. destruct E as [sp ->]. bp. cx optname_v q ts' n' G'.
    + intros ts' n' G'. rewrite <- ?app_assoc. eapply Kn, g_sep_snoc; eauto.
    + rx. apply g_sep_snoc; eauto.
  - destruct (at_ r TEquals) eqn:E2.
    + apply at_true in E2. destruct E2 as [sp ->]. bp. apply wv_ret. cx optval_v v ts' v' G'.
      * intros ts' v' G'. rewrite <- ?app_assoc. eapply K, g_ob; eauto.
      * rx. apply g_ob; eauto.
    + un. eapply Kn; eauto.
Qed.
Lemma option_v : specx (parse_option k) (g_option k).
Proof.
  intros TS s C K. unfold parse_option. ld. cl expect_v st ts ->; [reflexivity|intros ts st ->; fin K (eapply g_opt)|].
  cx option_body_v bd ts o G; [intros ts o G; rewrite <- ?app_assoc; fin K (eapply g_opt)|].
  cl expect_v e ts' ->; [reflexivity|intros ts' e ->; rewrite <- ?app_assoc; eapply K, g_opt; [exact G|exact (I : com _ _ noc)]|]. tl. rx. apply g_opt; [exact G|exact (I : com _ _ noc)].
Qed.
Lemma options_list_v : specx (parse_options_list k) (g_options_list k).
Proof.
  intros TS s C K. unfold parse_options_list. cl expect_v st ts ->; [reflexivity|intros ts st ->; fin K (eapply g_ol)|].
  assert (Kn : forall ts n, g_sep TComma (g_option_body k) ts n -> V (TS ++ sym TLeftBracket st ++ ts)) by (intros ts n G; fin K (eapply g_ol)).
  cx option_body_v bd ts o G; [intros ts o G; rewrite <- ?app_assoc; eapply Kn, g_one, G|]. apply wv_bind; [|kall].
  apply (wv_loop k src sentence _ (fun _ s' => exists ts n, ctx false (TS ++ sym TLeftBracket st ++ ts) s' /\ g_sep TComma (g_option_body k) ts n)); [|kall|exists ts, [o]; split; [exact C|now apply g_one]].
  clear bd ts o G s C. intros a s (ts & n & C & G). sk r R. destruct (at_ r TComma) eqn:E.
  - apply at_true in E. destruct E as [sp ->]. bp. cx option_body_v q ts' n' G'.
    + intros ts' n' G'. rewrite <- ?app_assoc. eapply Kn, g_sep_snoc; eauto.
    + rx. apply g_sep_snoc; eauto.
  - destruct (at_ r TRightBracket) eqn:E2.
    + apply at_true in E2. destruct E2 as [sp ->]. bp. apply wv_ret. rx. eapply g_ol; eauto.
    + un. eapply Kn; eauto.
Qed.
(** [ok]: options may stand here. *)
Lemma opt_options_v (ok : Prop) term ex TS s : ctx false TS s -> V TS -> (ok \/ exists x sp, pkd s x sp /\ x <> TLeftBracket) -> (ok -> forall os o, g_options_list k os o -> V (TS ++ os)) ->
  wv (parse_opt_options k term ex) s (fun _ s' => exists os o, ctx false (TS ++ os) s' /\ g_opt_options k os o /\ (o = None \/ ok)).
Proof.
  intros C HV Hok K. unfold parse_opt_options.
  assert (Hgo : wv (peek_skip_comments k) s (fun r s' => ctx false TS s' /\ (at_ r TLeftBracket = true -> ok))).
  { destruct Hok as [Hok|(x & sp & R & Hx)]; [eapply skip_looks; [exact C|]; intros; auto|]. eapply (skip_again k src sentence _ _ _ (Some (x, sp))); [exact C|exact R|]. intros s' C' _. split; [exact C'|]. intros E. apply at_true in E. destruct E as [? [= E1 _]]. congruence. }
  apply wv_bind; [|kall]. eapply wv_conseq; [exact Hgo|]. clear s C Hok Hgo. intros r s [C Ho]. cbv beta. destruct (at_ r TLeftBracket) eqn:E.
  - specialize (Ho eq_refl). specialize (K Ho). cx options_list_v a ts o G; [exact K|]. rx. split; [apply g_some_options, G|auto].
  - destruct (at_ r term); [|un; exact HV]. apply wv_ret. exists [], None. rewrite app_nil_r. split; [exact C|]. split; [constructor|auto].
Qed.
Lemma opt_options_x term ex TS s : ctx false TS s -> (forall os o, g_opt_options k os o -> V (TS ++ os)) ->
  wv (parse_opt_options k term ex) s (fun _ s' => exists os o, ctx false (TS ++ os) s' /\ g_opt_options k os o).
Proof.
  intros C K. eapply wv_conseq; [eapply (opt_options_v True); [exact C| |auto|]|].
  - rewrite <- (app_nil_r TS). eapply K. constructor.
  - intros _ os o G. eapply K, g_some_options, G.
  - intros a s' (os & o & H1 & H2 & _). eauto.
Qed.
Lemma opt_options_s term ex : specx (parse_opt_options k term ex) (g_opt_options k).
Proof. intros TS s C K. apply opt_options_x; auto. Qed.

(** *** Ranges *)
Definition bounded (r : rrange) (s : pst) : Prop := rr_end r <> RENone \/ exists x sp, pkd s x sp /\ x <> TLeftBracket.
Lemma range_v TS s : ctx false TS s -> (forall ts x, g_range ts x -> V (TS ++ ts)) -> wv (parse_reserved_range k) s (fun _ s' => exists ts x, ctx false (TS ++ ts) s' /\ g_range ts x /\ bounded x s').
Proof.
  intros C K. unfold parse_reserved_range. cx int_v a ts i G; [intros ts i G; eapply K, g_rsingle, G|]. sk r R. apply wv_bind; [|kall]. destruct (at_ r (kw "to")) eqn:E.
  - apply at_true in E. destruct E as [sp ->]. bp. sk r2 R2. assert (HV : V (TS ++ ts ++ sym (kw "to") sp)) by fin K (eapply g_rmax).
    assert (Hint : wv (i <- parse_int k;; ret (REInt i)) s (fun a0 s' => wv (ret {| rr_start := a; rr_end := a0 |}) s' (fun _ s'0 => exists ts x, ctx false (TS ++ ts) s'0 /\ g_range ts x /\ bounded x s'0))).
    { clear r2 R2. cx int_v j ts' i' G'; [intros ts' i' G'; rewrite <- ?app_assoc; eapply K, g_rto; eauto|]. apply wv_ret. rx. split; [apply g_rto; eauto|]. left. discriminate. }
    destruct r2 as [[t2 sp2]|]; [|un; exact HV].
    assert (Hmax : wv (if token_eqb t2 (kw "max") then bump ;;; ret (REMax sp2) else unexpected_token k (b "an integer or 'max'")) s (fun a0 s' => wv (ret {| rr_start := a; rr_end := a0 |}) s' (fun _ s'0 => exists ts x, ctx false (TS ++ ts) s'0 /\ g_range ts x /\ bounded x s'0))).
    { destruct (token_eqb t2 (kw "max")) eqn:E2; [|un; exact HV]. apply token_eqb_eq in E2. subst t2. bp. apply wv_ret. rx. split; [apply g_rmax; eauto|]. left. discriminate. }
    destruct t2; try exact Hmax; exact Hint.
  - destruct (at_ r TComma || at_ r TSemicolon) eqn:E2.
    + apply wv_ret. rx. split; [apply g_rsingle, G|]. right. apply orb_true_iff in E2. destruct E2 as [E2|E2]; apply at_true in E2; destruct E2 as [sp ->]; eexists; eexists; (split; [exact R|discriminate]).
    + un. eapply K, g_rsingle, G.
Qed.
Lemma ranges_v terms TS s : ctx false TS s -> (forall ts x, g_sep TComma g_range ts x -> V (TS ++ ts)) ->
  wv (parse_reserved_ranges k terms) s (fun _ s' => exists ts l x, ctx false (TS ++ ts) s' /\ g_sep TComma g_range ts (l ++ [x]) /\ bounded x s').
Proof.
  intros C K. unfold parse_reserved_ranges. apply wv_bind; [|kall]. eapply wv_conseq; [eapply range_v; [exact C|intros ts x G; eapply K, g_one, G]|]. clear s C. intros a s (ts & x & C & G & B).
  apply (wv_loop k src sentence _ (fun _ s' => exists ts l x, ctx false (TS ++ ts) s' /\ g_sep TComma g_range ts (l ++ [x]) /\ bounded x s')); [|kall|exists ts, [], x; split; [exact C|split; [now apply g_one|exact B]]].
  clear a ts x G B s C. intros a s (ts & l & x & C & G & B).
  assert (Hgo : wv (peek_skip_comments k) s (fun r s' => ctx false (TS ++ ts) s' /\ peeked s' r /\ bounded x s')).
  { destruct B as [B|(y & sp & R & Hy)]; [eapply skip_looks; [exact C|]; intros; split; [|split]; auto; now left|]. eapply (skip_again k src sentence _ _ _ (Some (y, sp))); [exact C|exact R|]. intros s' C' R'. split; [exact C'|]. split; [exact R'|]. right. exists y, sp. auto. }
  apply wv_bind; [|kall]. eapply wv_conseq; [exact Hgo|]. clear s C B Hgo. intros r s (C & R & B). cbv beta. destruct (at_ r TComma) eqn:E.
  - apply at_true in E. destruct E as [sp ->]. clear B. bp. apply wv_bind; [|kall]. eapply wv_conseq; [eapply range_v; [exact C|]|].
    + intros ts' x' G'. rewrite <- ?app_assoc. eapply K, g_sep_snoc; eauto.
    + clear s C. intros y s (ts' & x' & C & G' & B). norm C. apply wv_ret. exists (ts ++ sym TComma sp ++ ts'), (l ++ [x]), x'. split; [exact C|]. split; [apply g_sep_snoc; eauto|exact B].
  - destruct (at_terminator r terms); [apply wv_ret; exists ts, l, x; auto|]. un. eapply K; eauto.
Qed.
Lemma names_v TS s : ctx false TS s -> (forall ts x, g_sep TComma g_ident_string ts x -> V (TS ++ ts)) ->
  wv (parse_reserved_names k) s (fun _ s' => exists ts l e, ctx false (TS ++ ts ++ sym TSemicolon e) s' /\ g_sep TComma g_ident_string ts l).
Proof.
  intros C K. unfold parse_reserved_names. apply wv_bind; [|kall]. eapply wv_conseq; [eapply idstring_v; [exact C|fin K idtac]|]. clear s C. intros a s (ts & C & G).
  apply (wv_loop k src sentence _ (fun _ s' => exists ts l, ctx false (TS ++ ts) s' /\ g_sep TComma g_ident_string ts l)); [|kall|exists ts, [a]; split; [exact C|now apply g_one]].
  clear a ts G s C. intros a s (ts & l & C & G). sk r R. destruct (at_ r TComma) eqn:E.
  - apply at_true in E. destruct E as [sp ->]. bp. apply wv_bind; [|kall]. eapply wv_conseq; [eapply idstring_v; [exact C|]|].
    + fin K (eapply g_sep_snoc).
    + clear s C. intros y s (ts' & C & G'). norm C. rx. apply g_sep_snoc; eauto.
  - destruct (at_ r TSemicolon) eqn:E2.
    + apply at_true in E2. destruct E2 as [sp ->]. bp. apply wv_ret. eauto.
    + un. eapply K; eauto.
Qed.
Lemma reserved_v : specx (parse_reserved k) g_reserved.
Proof.
  intros TS s C K. unfold parse_reserved. ld. cl expect_v st ts ->; [reflexivity|intros ts st ->; fin K (eapply g_rranges)|].
  sk r R. destruct (at_int_or_minus r) eqn:E.
  - clear R. apply wv_bind; [|kall]. eapply wv_conseq; [eapply ranges_v; [exact C|]|].
    + intros ts x G. rewrite <- ?app_assoc. fin K (eapply g_rranges).
    + clear s C. intros a s (ts & l & x & C & G & _). norm C. cl expect_v e ts' ->; [reflexivity|intros ts' e ->; rewrite <- ?app_assoc; eapply K, g_rranges; [exact G|exact (I : com _ _ noc)]|]. tl. rx. apply g_rranges; [exact G|exact (I : com _ _ noc)].
  - destruct (at_string r).
    + clear R. apply wv_bind; [|kall]. eapply wv_conseq; [eapply names_v; [exact C|]|].
      * intros ts x G. rewrite <- ?app_assoc. fin K (eapply g_rnames).
      * clear s C. intros [a e0] s (ts & l & e & C & G). norm C. tl. rx. apply g_rnames; [exact G|exact (I : com _ _ noc)].
    + un. fin K (eapply g_rranges).
Qed.
Lemma extensions_v : specx (parse_extensions k) (g_extensions k).
Proof.
  intros TS s C K. unfold parse_extensions. ld. cl expect_v st ts ->; [reflexivity|intros ts st ->; fin K (eapply (g_ext _ _ _ _ [] None))|].
  apply wv_bind; [|kall]. eapply wv_conseq; [eapply ranges_v; [exact C|]|].
  - intros ts x G. rewrite <- ?app_assoc. fin K (eapply (g_ext _ _ _ _ [] None)).
  - clear s C. intros a s (ts & l & x & C & G & B). norm C. apply wv_bind; [|kall]. eapply wv_conseq; [eapply (opt_options_v (rr_end x <> RENone)); [exact C| |exact B|]|].
    + fin K (eapply (g_ext _ _ _ _ [] None)).
    + intros Hx os o Go. rewrite <- ?app_assoc. fin K (eapply (g_ext _ _ _ _ _ (Some o)); [|apply g_some_options|right; exists l, x|]).
    + clear s C B. intros o s (os & o' & C & Go & Ho). norm C. assert (Hx : o' = None \/ exists l' r, l ++ [x] = l' ++ [r] /\ rr_end r <> RENone) by (destruct Ho as [Ho|Ho]; eauto).
      cl expect_v e ts' ->; [reflexivity|intros ts' e ->; rewrite <- ?app_assoc; eapply K, g_ext; [exact G|exact Go|exact Hx|exact (I : com _ _ noc)]|]. tl. rx. apply g_ext; [exact G|exact Go|exact Hx|exact (I : com _ _ noc)].
Qed.
End Viable2.
