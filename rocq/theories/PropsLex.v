(** C07: tokens tile the source and are longest matches. C08: integer literals.
    C09 (lexer part): literals glued to identifiers. *)
From Coq Require Import ZifyBool ZifyN.
From Verif Require Import Base Utf8 Errors Lex LexSpec PropsLex1 LexSafe Stream.

(** ** C07 *)

(** What the scanner's result kind says about the token. *)
Definition token_of_kind (kind : rawkind) (lexeme : bytes) (t : option token) : Prop :=
  match kind, t with
  | KErr, None => True
  | KIdent, Some (TIdent s) => s = lexeme
  | KZero, Some (TInt n) => n = 0
  | KOct, Some (TInt _) | KDec, Some (TInt _) | KHex, Some (TInt _) => True
  | KFloat, Some (TFloat s) => s = lexeme \/ exists f, lexeme = s ++ [f] /\ (f = 102 \/ f = 70)
  | KQuote, Some (TStr _) => True
  | KPunct p, Some t => t = p
  | KLine, Some (TLineComment _) => True
  | KBlock, Some (TBlockComment _) => True
  | _, _ => False
  end.
Definition reads_on (kind : rawkind) : bool := match kind with KQuote | KBlock => true | _ => false end.

(** [res] is what the scanner returns on [l]: an error for one character, or
    the longest match. *)
Definition longest_or_error (l : bytes) (kind : rawkind) (lexeme : bytes) : Prop :=
  (kind = KErr /\ lexeme = firstn (char_len l) l /\ no_match l) \/ longest_match l kind lexeme.
(** The documented deviation (lex/tests.rs:556): a 0 followed by decimal
    digits that are not all octal is one lexeme, of the kind of its longest
    octal prefix. *)
Definition logos_digit_run (l : bytes) (kind : rawkind) (lexeme : bytes) : Prop :=
  exists os ds rest, l = lexeme ++ rest /\ lexeme = 48 :: os ++ ds /\ Forall oct_digit os /\ Forall dec_digit ds /\
    starts (fun c => dec_digit c /\ ~ oct_digit c) ds /\ ~ starts dec_digit rest /\ longest_match l kind (48 :: os).

Definition logos_digit_run_b (l : bytes) (kind : rawkind) (lexeme : bytes) : Prop :=
  exists ds rest, l = lexeme ++ rest /\ lexeme = 48 :: ds /\ forallb is_digit ds = true /\ forallb is_octal ds = false /\
    head_sat is_digit rest = false /\ longest_match l kind (48 :: take_while is_octal ds).

(** The specification's character classes against the model's. *)
Lemma in_range_iff a z c : in_range a z c = true <-> a <= c <= z.
Proof. unfold in_range. rewrite Bool.andb_true_iff, !N.leb_le. tauto. Qed.
Lemma is_digit_iff c : is_digit c = true <-> dec_digit c.
Proof. unfold dec_digit, is_digit. now rewrite in_range_iff. Qed.
Lemma is_octal_iff c : is_octal c = true <-> oct_digit c.
Proof. unfold oct_digit, is_octal. now rewrite in_range_iff. Qed.
Lemma is_hex_iff c : is_hex c = true <-> hex_digit c.
Proof. unfold hex_digit, is_hex, is_digit. rewrite !Bool.orb_true_iff, !in_range_iff. tauto. Qed.
Lemma forallb_P f (p : N -> Prop) l : (forall c, f c = true <-> p c) -> (forallb f l = true <-> Forall p l).
Proof. intros H. rewrite forallb_forall, Forall_forall. split; intros G x Hx; apply H; auto. Qed.
Lemma forallb_nP f (p : N -> Prop) l : (forall c, f c = true <-> p c) -> (forallb f l = false <-> ~ Forall p l).
Proof. intros H. rewrite <- (forallb_P f p l H). destruct (forallb f l); split; auto; try discriminate. intros G. exfalso. now apply G. Qed.
Lemma head_P f (p : N -> Prop) l : (forall c, f c = true <-> p c) -> (head_sat f l = true <-> starts p l).
Proof. intros H. unfold starts. destruct l as [|c r]; cbn [head_sat]; [split; [|intros (?&?&?&?)]; discriminate|]. rewrite H. split; [eauto|intros (?&?&[= <- <-]&?); auto]. Qed.
Lemma head_nP f (p : N -> Prop) l : (forall c, f c = true <-> p c) -> (head_sat f l = false <-> ~ starts p l).
Proof. intros H. rewrite <- (head_P f p l H). destruct (head_sat f l); split; auto; try discriminate. intros G. exfalso. now apply G. Qed.
Lemma digit_run_iff l kind lexeme : logos_digit_run_b l kind lexeme -> logos_digit_run l kind lexeme.
Proof.
  intros (ds & rest & H1 & H2 & H3 & H4 & H5 & H6). pose proof (tw_split is_octal ds) as Hs. pose proof (tw_after is_octal ds) as Ha. pose proof (take_while_all is_octal ds) as Ho.
  exists (take_while is_octal ds), (skipn (length (take_while is_octal ds)) ds), rest. rewrite <- Hs. repeat split; auto; try apply H6.
  - apply (forallb_P _ _ _ is_octal_iff), take_while_all.
  - rewrite Hs, forallb_app in H3. apply andb_prop in H3. apply (forallb_P _ _ _ is_digit_iff). apply H3.
  - destruct (skipn (length (take_while is_octal ds)) ds) as [|c r] eqn:E. { rewrite app_nil_r in Hs. rewrite <- Hs in Ho. congruence. }
    exists c, r. split; auto. rewrite <- is_digit_iff, <- is_octal_iff. cbn [head_sat] in Ha. rewrite Hs, forallb_app in H3. cbn [forallb] in H3. rewrite Ha. split; [|discriminate].
    apply andb_prop in H3. destruct H3 as [_ H3]. now apply andb_prop in H3.
  - now apply (head_nP _ _ _ is_digit_iff).
Qed.

Lemma scan_spec ideal l : l <> [] -> longest_or_error l (fst (scan ideal l)) (snd (scan ideal l)) \/
  (ideal = false /\ logos_digit_run_b l (fst (scan ideal l)) (snd (scan ideal l))).
Proof.
  intros Hn. pose proof (C07_scan_longest l Hn) as Ht. destruct ideal; [left; exact Ht|].
  destruct l as [|c r]; [congruence|]. destruct (scan_false c r) as [->|(ds & rest & -> & -> & Hd & Hr & Hdn & Ho & Ek & Es & Es2 & Ekt)]; [left; exact Ht|].
  right. split; auto. exists ds, rest. rewrite Es, Ek. repeat split; auto; try reflexivity.
  - destruct Ht as [[E _]|Ht]; [rewrite Ekt in E; destruct (take_while is_octal ds); discriminate|]. rewrite Es2 in Ht. apply Ht.
  - destruct Ht as [[E _]|Ht]; [rewrite Ekt in E; destruct (take_while is_octal ds); discriminate|]. rewrite Es2 in Ht. apply Ht.
  - destruct Ht as [[E _]|Ht]; [rewrite Ekt in E; destruct (take_while is_octal ds); discriminate|]. rewrite Es2 in Ht. apply Ht.
Qed.

(** Every call of the lexer skips whitespace, then takes a longest match of the
    declared patterns (or one unmatched character); only string literals and
    block comments read on behind it. *)
Lemma longest_match_b k s t s' : lex_next k s = Done (Some t, s') ->
  exists w lexeme tail kind,
    l_rest s = w ++ lexeme ++ tail ++ l_rest s' /\
    forallb is_skip w = true /\ head_sat is_skip (lexeme ++ tail ++ l_rest s') = false /\ lexeme <> [] /\
    l_start s' = l_end s + len w /\ l_end s' = l_start s' + len lexeme + len tail /\
    (longest_or_error (lexeme ++ tail ++ l_rest s') kind lexeme \/
     (munch_ideal k = false /\ logos_digit_run_b (lexeme ++ tail ++ l_rest s') kind lexeme)) /\
    token_of_kind kind lexeme t /\
    (reads_on kind = false -> tail = []).
Proof.
  intros E. pose proof (tw_split is_skip (l_rest s)) as Hsplit. pose proof (tw_after is_skip (l_rest s)) as Hafter.
  revert E. unfold lex_next. set (w := take_while is_skip (l_rest s)) in *. set (l := skipn (length w) (l_rest s)) in *.
  assert (Hw : forallb is_skip w = true) by apply take_while_all.
  destruct l as [|c r] eqn:El; [discriminate|]. rewrite <- El in *. assert (Hln : l <> []) by (rewrite El; discriminate).
  pose proof (scan_spec (munch_ideal k) l Hln) as Hscan. assert (Hsl := scan_slice (munch_ideal k) c r). rewrite <- El in Hsl.
  destruct (scan (munch_ideal k) l) as [kind slice] eqn:Es. cbn [fst snd] in *. destruct Hsl as [Hsn (rest1 & Hr1)].
  assert (Hsk : skipn (length slice) l = rest1) by (rewrite Hr1; apply skip_app). rewrite Hsk.
  set (start := l_end s + len w).
  assert (Hgo : forall tail rest2 fin es as_ tk, rest1 = tail ++ rest2 -> fin = start + len slice + len tail -> token_of_kind kind slice tk ->
    (reads_on kind = false -> tail = []) ->
    Done (Some tk, {| l_rest := rest2; l_start := start; l_end := fin; l_errs := es; l_tfm := l_tfm s; l_assert := as_ |}) = Done (Some t, s') ->
    exists w lexeme tail kind,
    l_rest s = w ++ lexeme ++ tail ++ l_rest s' /\
    forallb is_skip w = true /\ head_sat is_skip (lexeme ++ tail ++ l_rest s') = false /\ lexeme <> [] /\
    l_start s' = l_end s + len w /\ l_end s' = l_start s' + len lexeme + len tail /\
    (longest_or_error (lexeme ++ tail ++ l_rest s') kind lexeme \/
     (munch_ideal k = false /\ logos_digit_run_b (lexeme ++ tail ++ l_rest s') kind lexeme)) /\
    token_of_kind kind lexeme t /\
    (reads_on kind = false -> tail = [])).
  { intros tail rest2 fin es as_ tk Ht -> Htk Hro Eq. injection Eq as <- <-. cbn [l_rest l_start l_end].
    exists w, slice, tail, kind. rewrite <- Ht, <- Hr1. repeat split; auto. }
  assert (Hplain : forall es as_ tk, token_of_kind kind slice tk -> 
    Done (Some tk, {| l_rest := rest1; l_start := start; l_end := start + len slice; l_errs := es; l_tfm := l_tfm s; l_assert := as_ |}) = Done (Some t, s') -> 
    exists w lexeme tail kind,
    l_rest s = w ++ lexeme ++ tail ++ l_rest s' /\
    forallb is_skip w = true /\ head_sat is_skip (lexeme ++ tail ++ l_rest s') = false /\ lexeme <> [] /\
    l_start s' = l_end s + len w /\ l_end s' = l_start s' + len lexeme + len tail /\
    (longest_or_error (lexeme ++ tail ++ l_rest s') kind lexeme \/
     (munch_ideal k = false /\ logos_digit_run_b (lexeme ++ tail ++ l_rest s') kind lexeme)) /\
    token_of_kind kind lexeme t /\
    (reads_on kind = false -> tail = [])).
  { intros es as_ tk Htk Eq. eapply (Hgo [] rest1); [reflexivity| |exact Htk|auto|exact Eq]. change (len (@nil N)) with 0. lia. }
  destruct kind; intros E; try (eapply Hplain; [|exact E]; cbn; reflexivity).
  - destruct (cb_int _ _ _ _ _) as [[v es] a]. eapply Hplain; [|exact E]. exact I.
  - destruct (cb_int _ _ _ _ _) as [[v es] a]. eapply Hplain; [|exact E]. exact I.
  - destruct (cb_int _ _ _ _ _) as [[v es] a]. eapply Hplain; [|exact E]. exact I.
  - destruct (cb_float _ _ _) as [v es] eqn:Ef. eapply Hplain; [|exact E]. cbn [token_of_kind]. revert Ef. unfold cb_float.
    destruct (rev slice) as [|f rv] eqn:Erev; [intros [= <- <-]; auto|]. destruct ((f =? 102) || (f =? 70)) eqn:Eff; [|intros [= <- <-]; auto].
    intros [= <- <-]. right. exists f. split; [|lia]. apply (f_equal (@rev _)) in Erev. rewrite rev_involutive in Erev. exact Erev.
  - destruct (str_loop_ok (S (length rest1)) (hd 0 slice) (start + len slice) rest1 []) as (v & fin & r2 & used & H1 & H2 & H3); [lia|].
    destruct (H3 (l_errs s)) as (e' & H4 & _). fold start in E. rewrite H4 in E. cbn [obind] in E. eapply Hgo; [exact H1|exact H2| | |exact E]; [exact I|discriminate].
  - destruct (cb_line _ _ _) as [[v es]| |]; cbn [obind] in E; try discriminate. eapply Hplain; [|exact E]. exact I.
  - destruct (block_loop_ok (start + len slice) rest1 (S (length rest1)) [] rest1 1 None []) as (v & fin & r2 & used & H1 & H2 & H3); [lia|reflexivity|lia|discriminate|].
    destruct (H3 (l_errs s)) as (e' & H4 & _). rewrite len_nil, N.add_0_r in H4. fold start in E. unfold bytes in *. rewrite H4 in E. cbn [obind] in E. eapply Hgo; [exact H1|exact H2| | |exact E]; [exact I|discriminate].
Qed.

(** The skipped characters are those of the skip pattern. *)
Lemma blank_pattern w : Forall blank w <-> w = [] \/ matches skip_pattern w.
Proof.
  assert (Hc : forall c, blank c <-> in_class [("009", "009"); ("011", "011"); ("012", "012"); ("013", "013"); (" ", " ")]%char c = true).
  { intros c. unfold blank, in_class. cbn [existsb In].
    change (N_of_ascii "009") with 9. change (N_of_ascii "011") with 11. change (N_of_ascii "012") with 12. change (N_of_ascii "013") with 13. change (N_of_ascii " ") with 32.
    rewrite !Bool.orb_true_iff, !Bool.andb_true_iff, !N.leb_le. lia. }
  set (cls := [("009", "009"); ("011", "011"); ("012", "012"); ("013", "013"); (" ", " ")]%char) in *. change skip_pattern with (plus (Class cls)). clearbody cls. unfold plus.
  assert (Hs : forall r v, matches r v -> r = Star (Class cls) -> Forall blank v).
  { intros r v H. induction H; intros E; try discriminate; [constructor|]. injection E as ->. inversion H; subst. constructor; [now apply Hc|auto]. }
  split.
  - intros H. destruct H as [|c w H1 H2]; [now left|right]. change (c :: w) with ([c] ++ w). constructor; [constructor; now apply Hc|].
    induction H2 as [|d w H3 H4]; [constructor|]. change (d :: w) with ([d] ++ w). constructor; auto. constructor. now apply Hc.
  - intros [->|H]; [constructor|]. inversion H; subst. match goal with H : matches (Class cls) _ |- _ => inversion H; subst end. constructor; [now apply Hc|eauto].
Qed.

(** [l] splits as skipped characters, then [lexeme], read at [from]. *)
Theorem C07_longest_match k s t s' : lex_next k s = Done (Some t, s') ->
  exists w lexeme tail kind,
    l_rest s = w ++ lexeme ++ tail ++ l_rest s' /\
    (w = [] \/ matches skip_pattern w) /\ ~ starts blank (lexeme ++ tail ++ l_rest s') /\ lexeme <> [] /\
    l_start s' = l_end s + len w /\ l_end s' = l_start s' + len lexeme + len tail /\
    (longest_or_error (lexeme ++ tail ++ l_rest s') kind lexeme \/
     (munch_ideal k = false /\ logos_digit_run (lexeme ++ tail ++ l_rest s') kind lexeme)) /\
    token_of_kind kind lexeme t /\
    (reads_on kind = false -> tail = []).
Proof.
  intros E. destruct (longest_match_b k s t s' E) as (w & lexeme & tail & kind & H1 & H2 & H3 & H4 & H5 & H6 & H7 & H8). exists w, lexeme, tail, kind.
  rewrite <- blank_pattern, <- is_skip_blank, <- head_skip_blank. repeat (split; auto). destruct H7 as [H7|[H7 H9]]; auto using digit_run_iff.
Qed.
Print Assumptions C07_longest_match.

(** Lexing any source ends, without panic, and its tokens tile the source. *)
Theorem C07_tiling k src : exists ts s', lex_all k (lex_init src) = Done (ts, s') /\ tiles 0 src ts /\ l_rest s' = [] /\ l_end s' = len src.
Proof.
  destruct (lex_all_stream k (lex_init src)) as (s' & E). exists (stream k src 0), s'. split; [exact E|]. split; [exact (stream_tiles k (lex_init src))|].
  assert (H : forall s ts s', lex_all k s = Done (ts, s') -> l_rest s' = [] /\ l_end s' = l_end s + len (l_rest s)).
  { clear. intros s. apply (lex_ind k (fun s => forall ts s', lex_all k s = Done (ts, s') -> l_rest s' = [] /\ l_end s' = l_end s + len (l_rest s))); clear s.
    - intros s s1 H ts s' E. rewrite (lex_all_step _ _ _ _ (lx_eq _ _ _ _ H)) in E. injection E as <- <-.
      destruct (lx_split _ _ _ _ H) as (w & used & E & _ & H1 & H2 & -> & Hr). split; auto. rewrite E, Hr, !len_app, H2, H1. change (len (@nil N)) with 0. lia.
    - intros s t s1 H IH ts s' E. rewrite (lex_all_step _ _ _ _ (lx_eq _ _ _ _ H)) in E.
      destruct (lex_all_total k s1) as (ts1 & s2 & E1). rewrite E1 in E. cbn [obind] in E. injection E as <- <-.
      destruct (IH _ _ E1) as [H1 H2]. split; auto. destruct (lx_split _ _ _ _ H) as (w & used & E & _ & H3 & H4 & _). rewrite E, !len_app, H2, H4, H3. lia. }
  destruct (H _ _ _ E) as [H1 H2]. split; auto.
Qed.
Print Assumptions C07_tiling.

Definition ex_k : cfg := {| munch_ideal := false; f64_display := fun neg t => if neg then 45 :: t else t; f64_to_string := fun neg t => if neg then 45 :: t else t |}.
Example C07_ex : exists s', lex_all ex_k (lex_init (b "a1 0x1F.5e3 // c")) =
  Done ([(Some (TIdent (b "a1")), (0, 2)); (Some (TInt 31), (3, 7)); (Some (TFloat (b ".5e3")), (7, 11)); (Some (TLineComment (b " c")), (12, 16))], s').
Proof. eexists. vm_compute. reflexivity. Qed.

(** ** C08 *)

(** Positional value of digits: specification. *)
Definition digit_of (c : N) : N :=
  if c <? 65 then c - 48 else if c <? 97 then c - 65 + 10 else c - 97 + 10.
Definition numeral (radix : N) (ds : bytes) : N := fold_left (fun a c => a * radix + digit_of c) ds 0.

(** Integer literals of the protobuf language and their values. *)
Inductive int_literal : bytes -> N -> Prop :=
| il_zero : int_literal (b "0") 0
| il_dec d ds : d <> 48 -> Forall dec_digit (d :: ds) -> int_literal (d :: ds) (numeral 10 (d :: ds))
| il_oct os : os <> [] -> Forall oct_digit os -> int_literal (48 :: os) (numeral 8 os)
| il_hex x hs : x = 120 \/ x = 88 -> hs <> [] -> Forall hex_digit hs -> int_literal (48 :: x :: hs) (numeral 16 hs).
(** A 0 followed by decimal digits that are not all octal. *)
Definition not_octal (lexeme : bytes) : Prop := exists ds, lexeme = 48 :: ds /\ Forall dec_digit ds /\ ~ Forall oct_digit ds.

Inductive int_lit_b : bytes -> N -> Prop :=
| ilb_zero : int_lit_b (b "0") 0
| ilb_dec d ds : d <> 48 -> forallb is_digit (d :: ds) = true -> int_lit_b (d :: ds) (numeral 10 (d :: ds))
| ilb_oct os : os <> [] -> forallb is_octal os = true -> int_lit_b (48 :: os) (numeral 8 os)
| ilb_hex x hs : x = 120 \/ x = 88 -> hs <> [] -> forallb is_hex hs = true -> int_lit_b (48 :: x :: hs) (numeral 16 hs).

Lemma digit_val_of c d : digit_val c = Some d -> d = digit_of c.
Proof.
  unfold digit_val, digit_of. destruct (is_digit c) eqn:E1; [intros [= <-]; destruct (c <? 65) eqn:E; [auto|bool_lia]|].
  destruct (in_range 65 70 c) eqn:E2. { intros [= <-]. assert (c <? 65 = false) as -> by bool_lia. assert (c <? 97 = true) as -> by bool_lia. bool_lia. }
  destruct (in_range 97 102 c) eqn:E3; [|discriminate]. intros [= <-]. assert (c <? 65 = false) as -> by bool_lia. assert (c <? 97 = false) as -> by bool_lia. bool_lia.
Qed.
Lemma numeral_mono radix l acc : 1 <= radix -> acc <= fold_left (fun a c => a * radix + digit_of c) l acc.
Proof. intros Hr. revert acc. induction l as [|c l IH]; intros acc; cbn [fold_left]; [lia|]. etransitivity; [|apply IH]. nia. Qed.
Lemma radix_loop_numeral radix l : 1 <= radix -> (forall c, In c l -> exists d, digit_val c = Some d /\ d < radix) -> forall acc, acc < 2 ^ 64 ->
  radix_loop radix acc l = (let n := fold_left (fun a c => a * radix + digit_of c) l acc in if n <? 2 ^ 64 then ROk n else RPosOverflow).
Proof.
  intros Hr. induction l as [|c l IH]; intros H acc Ha; cbn [radix_loop fold_left]; cbv zeta.
  - now replace (acc <? 2 ^ 64) with true by (symmetry; now apply N.ltb_lt).
  - destruct (H c (or_introl eq_refl)) as (d & E & Hd). rewrite E. replace (d <? radix) with true by (symmetry; now apply N.ltb_lt).
    rewrite <- (digit_val_of _ _ E). change u64_max with (2 ^ 64 - 1). change (2 ^ 64) with 18446744073709551616 in *.
    destruct (N.leb_spec (acc * radix + d) (18446744073709551616 - 1)).
    + apply IH; [|lia]. intros x Hx. apply H. now right.
    + pose proof (numeral_mono radix l (acc * radix + d) Hr) as Hm.
      set (n := fold_left _ l _) in *. destruct (N.ltb_spec n 18446744073709551616); [lia|reflexivity].
Qed.
Lemma from_str_radix_numeral radix l : 1 <= radix -> l <> [] -> (forall c, In c l -> exists d, digit_val c = Some d /\ d < radix) ->
  from_str_radix radix l = if numeral radix l <? 2 ^ 64 then ROk (numeral radix l) else RPosOverflow.
Proof. intros Hr Hn H. destruct l as [|c l]; [congruence|]. apply (radix_loop_numeral radix (c :: l) Hr H 0). reflexivity. Qed.

(** The glued-identifier error of lex/mod.rs:175-182 and the range error. *)
Definition glued (rest : bytes) : bool := head_sat (fun c => is_alpha c || (c =? 95)) rest.

Lemma cb_int_value radix prefix start slice rest : (prefix < length slice)%nat ->
  1 <= radix -> (forall c, In c (skipn prefix slice) -> exists d, digit_val c = Some d /\ d < radix) ->
  exists es, cb_int radix prefix start slice rest = ((if numeral radix (skipn prefix slice) <? 2 ^ 64 then numeral radix (skipn prefix slice) else 0), es, false) /\
   (es = [] <-> glued rest = false /\ numeral radix (skipn prefix slice) < 2 ^ 64) /\
   (2 ^ 64 <= numeral radix (skipn prefix slice) -> In (IntegerOutOfRange (start + N.of_nat prefix, start + len slice)) es) /\
   (glued rest = true -> exists sp, In (NoSpaceBetweenIntAndIdent sp) es).
Proof.
  intros Hp Hr Hd. unfold cb_int. assert (Hneg : negb (Nat.ltb prefix (length slice)) = false) by (apply negb_false_iff, Nat.ltb_lt; exact Hp). rewrite Hneg.
  set (g := match rest with [] => [] | _ => _ end).
  assert (Hg : (g = [] <-> glued rest = false) /\ (glued rest = true -> exists sp, In (NoSpaceBetweenIntAndIdent sp) g)).
  { unfold g, glued. destruct rest as [|c r]; cbn [head_sat]; [split; [tauto|discriminate]|]. destruct (is_alpha c || (c =? 95)); split; try tauto.
    - split; discriminate.
    - intros _. eexists. now left.
    - discriminate. }
  rewrite (from_str_radix_numeral radix (skipn prefix slice)); auto.
  2:{ intros E. apply (f_equal (@length _)) in E. rewrite skipn_length in E. cbn in E. lia. }
  destruct (N.ltb_spec (numeral radix (skipn prefix slice)) (2 ^ 64)) as [Hlt|Hge]; eexists; (split; [reflexivity|]); (split; [|split]).
  - tauto.
  - intros. lia.
  - apply Hg.
  - split; [intros E; apply app_eq_nil in E; destruct E; discriminate|]. intros [_ H]. lia.
  - intros _. apply in_or_app. right. now left.
  - intros H. destruct (proj2 Hg H) as (sp & Hin). exists sp. apply in_or_app. now left.
Qed.

Lemma scan_punct_not_int ideal l v slice : scan ideal l <> (KPunct (TInt v), slice).
Proof.
  intros Es. assert (Hp : exists ch, punct ch = Some (TInt v)).
  { revert Es. unfold scan. destruct l as [|c r]; [discriminate|]. destruct (is_ident_start c); [discriminate|]. destruct (is_digit c).
    - unfold scan_number. repeat match goal with |- context [if ?x then _ else _] => destruct x; try discriminate end.
    - repeat match goal with |- context [if ?x then _ else _] => destruct x; try discriminate end. destruct (punct c) eqn:Epc; [|discriminate].
      intros [= -> <-]. eauto. }
  destruct Hp as (ch & Hp). revert Hp. unfold punct. repeat match goal with |- context [if ?x then _ else _] => destruct x; try discriminate end.
Qed.
Ltac not_int Es :=
  first [let E := fresh in intros E; injection E as E _; exfalso; subst; eapply scan_punct_not_int; exact Es
        |match goal with |- context [obind ?x _] => destruct x as [[[[? ?] ?] ?]| |]; cbn [obind]; discriminate end
        |match goal with |- context [obind ?x _] => destruct x as [[? ?]| |]; cbn [obind]; discriminate end
        |match goal with |- context [cb_float ?x ?y ?z] => destruct (cb_float x y z); discriminate end].

Lemma int_lit_iff t n : int_lit_b t n <-> int_literal t n.
Proof.
  split; intros H; destruct H; constructor; auto;
  first [now apply (forallb_P _ _ _ is_digit_iff)|now apply (forallb_P _ _ _ is_octal_iff)|now apply (forallb_P _ _ _ is_hex_iff)].
Qed.
Lemma not_octal_iff lexeme : (exists ds, lexeme = 48 :: ds /\ forallb is_digit ds = true /\ forallb is_octal ds = false) <-> not_octal lexeme.
Proof. unfold not_octal. split; intros (ds & H); exists ds; rewrite (forallb_P _ _ _ is_digit_iff), (forallb_nP _ _ _ is_octal_iff) in *; auto. Qed.
Lemma glued_iff r : glued r = true <-> starts letter_ r.
Proof. apply head_P. intros c. unfold letter_, is_alpha, is_upper, is_lower. rewrite !Bool.orb_true_iff, !in_range_iff, N.eqb_eq. tauto. Qed.

(** Whenever the lexer returns an integer token, either its lexeme is an
    integer literal and the token is its value (an error is recorded if the
    value is not below 2^64), or the logos deviation applies. *)
Lemma radix_not_octal ds : forallb is_octal ds = false -> forall n, from_str_radix 8 ds <> ROk n.
Proof.
  assert (G : forall ds acc, forallb is_octal ds = false -> forall n, radix_loop 8 acc ds <> ROk n).
  { clear. induction ds as [|c ds IH]; intros acc H n; [discriminate|]. cbn [radix_loop forallb] in *. destruct (digit_val c) as [x|] eqn:Ex; [|discriminate].
    destruct (N.ltb_spec x 8) as [Hx|Hx]; [|discriminate]. destruct (_ <=? _); [|discriminate]. apply IH. destruct (is_octal c) eqn:Eo; [exact H|]. exfalso.
    revert Ex. unfold digit_val. destruct (is_digit c) eqn:E1; [intros [= <-]; bool_lia|]. destruct (in_range 65 70 c) eqn:E2; [intros [= <-]; bool_lia|]. destruct (in_range 97 102 c) eqn:E3; [intros [= <-]; bool_lia|discriminate]. }
  intros H n. unfold from_str_radix. destruct ds; [discriminate|]. now apply G.
Qed.
Lemma int_value_b k s v s' : lex_next k s = Done (Some (Some (TInt v)), s') ->
  exists w lexeme, l_rest s = w ++ lexeme ++ l_rest s' /\ forallb is_skip w = true /\ l_end s' = l_start s' + len lexeme /\
  ((exists n, int_lit_b lexeme n /\
     (n < 2 ^ 64 -> v = n /\ (glued (l_rest s') = false -> l_errs s' = l_errs s)) /\
     (2 ^ 64 <= n -> exists sp, In (IntegerOutOfRange sp) (l_errs s')))
   \/ (munch_ideal k = false /\ v = 0 /\ exists ds, lexeme = 48 :: ds /\ forallb is_digit ds = true /\ forallb is_octal ds = false)).
Proof.
  intros E. revert E. unfold lex_next.
  pose proof (tw_split is_skip (l_rest s)) as Hsplit. set (w := take_while is_skip (l_rest s)) in *. set (l := skipn (length w) (l_rest s)) in *.
  assert (Hw : forallb is_skip w = true) by apply take_while_all.
  destruct l as [|c r] eqn:El; [discriminate|].
  destruct (scan_slice (munch_ideal k) c r) as [Hsn (rest1 & Hr1)].
  destruct (scan (munch_ideal k) (c :: r)) as [kind slice] eqn:Es. cbn [fst snd] in *.
  assert (Hsk : skipn (length slice) (c :: r) = rest1) by (rewrite Hr1; apply skip_app). rewrite Hsk.
  assert (Hcase : scan true (c :: r) = (kind, slice) \/ (munch_ideal k = false /\ (kind = KOct \/ kind = KZero) /\ exists ds, slice = 48 :: ds /\ forallb is_digit ds = true /\ forallb is_octal ds = false)).
  { destruct (munch_ideal k); auto. destruct (scan_false c r) as [Eq|(ds & rest2 & _ & _ & Hd & _ & _ & Ho & Ek & Es1 & _ & Ekt)].
    - left. now rewrite <- Eq.
    - right. split; auto. split; [rewrite Es in Ek; cbn [fst] in Ek; rewrite Ek, Ekt; destruct (take_while is_octal ds); auto|]. exists ds. rewrite Es in Es1. cbn [snd] in Es1. auto. }
  assert (Hdev : munch_ideal k = false /\ v = 0 /\ (exists ds, slice = 48 :: ds /\ forallb is_digit ds = true /\ forallb is_octal ds = false) ->
     l_rest s' = rest1 -> l_end s' = l_start s' + len slice -> exists w lexeme, l_rest s = w ++ lexeme ++ l_rest s' /\ forallb is_skip w = true /\ l_end s' = l_start s' + len lexeme /\
  ((exists n, int_lit_b lexeme n /\
     (n < 2 ^ 64 -> v = n /\ (glued (l_rest s') = false -> l_errs s' = l_errs s)) /\
     (2 ^ 64 <= n -> exists sp, In (IntegerOutOfRange sp) (l_errs s')))
   \/ (munch_ideal k = false /\ v = 0 /\ exists ds, lexeme = 48 :: ds /\ forallb is_digit ds = true /\ forallb is_octal ds = false))).
  { intros H H1 H2. exists w, slice. rewrite H1, <- Hr1. auto. }
  assert (Hint : forall radix prefix, 1 <= radix -> (kind = KOct -> radix = 8 /\ prefix = 1%nat) -> kind <> KZero -> (scan true (c :: r) = (kind, slice) -> (prefix < length slice)%nat /\ (forall c, In c (skipn prefix slice) -> exists d, digit_val c = Some d /\ d < radix) /\ int_lit_b slice (numeral radix (skipn prefix slice))) ->
    (let '(v0, es, asrt) := cb_int radix prefix (l_end s + len w) slice rest1 in
     Done (Some (Some (TInt v0)), {| l_rest := rest1; l_start := l_end s + len w; l_end := l_end s + len w + len slice; l_errs := l_errs s ++ es; l_tfm := l_tfm s; l_assert := l_assert s || asrt |}))
     = Done (Some (Some (TInt v)), s') -> exists w lexeme, l_rest s = w ++ lexeme ++ l_rest s' /\ forallb is_skip w = true /\ l_end s' = l_start s' + len lexeme /\
  ((exists n, int_lit_b lexeme n /\
     (n < 2 ^ 64 -> v = n /\ (glued (l_rest s') = false -> l_errs s' = l_errs s)) /\
     (2 ^ 64 <= n -> exists sp, In (IntegerOutOfRange sp) (l_errs s')))
   \/ (munch_ideal k = false /\ v = 0 /\ exists ds, lexeme = 48 :: ds /\ forallb is_digit ds = true /\ forallb is_octal ds = false))).
  { intros radix prefix Hrad Hk8 Hk0 Hs. destruct Hcase as [Ht|Hd].
    - destruct (Hs Ht) as (H1 & H2 & H3). destruct (cb_int_value radix prefix (l_end s + len w) slice rest1 H1 Hrad H2) as (es & -> & He1 & He2 & He3).
      intros Eq. injection Eq as <- <-. cbn [l_rest l_start l_end l_errs]. exists w, slice. rewrite <- Hr1. split; auto. split; auto. split; auto. left.
      exists (numeral radix (skipn prefix slice)). split; auto. split.
      + intros Hlt. split; [now replace (_ <? 2 ^ 64) with true by (symmetry; now apply N.ltb_lt)|]. intros Hg. assert (es = []) as -> by tauto. apply app_nil_r.
      + intros Hge. eexists. apply in_or_app. right. now apply He2.
    - destruct Hd as (Hm & [Ek|Ek] & ds & Esl & Hd1 & Hd2); [|congruence]. destruct (Hk8 Ek) as [-> ->].
      pose proof (radix_not_octal ds Hd2) as Hno. unfold cb_int. rewrite Esl. cbn [skipn]. destruct (from_str_radix 8 ds) as [n0| | |]; [destruct (Hno n0); reflexivity| | |]; intros Eq; injection Eq as <- <-; (apply Hdev; [eauto 10|reflexivity|rewrite Esl; reflexivity]). }
  destruct kind; try discriminate.
  - (* zero *) intros Eq. injection Eq as <- <-. destruct Hcase as [Ht|(Hm & _ & Hd)]; [|now apply Hdev].
    apply scan_int_shape in Ht. subst slice. exists w, [48]. cbn [l_rest l_start l_end l_errs]. rewrite <- Hr1. split; auto. split; auto. split; auto. left. exists 0. split; [constructor|]. split; auto.
    intros H. exfalso. revert H. change (2 ^ 64) with 18446744073709551616. lia.
  - apply Hint; [lia|auto|discriminate|]. intros Ht. apply scan_int_shape in Ht. destruct Ht as (os & -> & Hn & Ho). split; [destruct os; [congruence|cbn; lia]|]. cbn [skipn]. split.
    + intros x Hx. apply octal_digit_val. eapply forallb_In; eauto.
    + now constructor.
  - apply Hint; [lia|discriminate|discriminate|]. intros Ht. apply scan_int_shape in Ht. destruct Ht as (d & ds & -> & Hn & Ho). split; [cbn; lia|]. cbn [skipn]. split.
    + intros x Hx. apply dec_digit_val. eapply forallb_In; eauto.
    + now constructor.
  - apply Hint; [lia|discriminate|discriminate|]. intros Ht. apply scan_int_shape in Ht. destruct Ht as (x & hs & -> & Hx & Hn & Ho). split; [destruct hs; [congruence|cbn; lia]|]. cbn [skipn]. split.
    + intros y Hy. apply hex_digit_val. eapply forallb_In; eauto.
    + now constructor.
  - not_int Es.
  - not_int Es.
  - not_int Es.
  - not_int Es.
  - not_int Es.
Qed.
Theorem C08_int_value k s v s' : lex_next k s = Done (Some (Some (TInt v)), s') ->
  exists w lexeme, l_rest s = w ++ lexeme ++ l_rest s' /\ Forall blank w /\ l_start s' = l_end s + len w /\ l_end s' = l_start s' + len lexeme /\
  ((exists n, int_literal lexeme n /\
     (n < 2 ^ 64 -> v = n /\ (~ starts letter_ (l_rest s') -> l_errs s' = l_errs s)) /\
     (2 ^ 64 <= n -> exists sp, In (IntegerOutOfRange sp) (l_errs s')))
   \/ (munch_ideal k = false /\ v = 0 /\ not_octal lexeme)).
Proof.
  intros E. destruct (int_value_b k s v s' E) as (w & lexeme & H1 & H2 & H3 & H4). exists w, lexeme. split; auto. split; [now apply is_skip_blank|].
  assert (Hst : l_start s' = l_end s + len w).
  { pose proof (lexes_det _ _ _ _ E) as L. destruct (lx_split _ _ _ _ L) as (w' & used & E1 & _ & E2 & E3 & _). apply (f_equal len) in H1, E1. rewrite !len_app in *. lia. }
  split; auto. split; auto. rewrite not_octal_iff in H4. destruct H4 as [(n & L & Ha & Hb)|H4]; [left|auto]. exists n. rewrite <- int_lit_iff, <- glued_iff.
  split; auto. split; auto. intros Hn. destruct (Ha Hn). split; auto. destruct (glued (l_rest s')); auto. tauto.
Qed.
Print Assumptions C08_int_value.

(** Conversely, each integer literal below 2^64 that is not followed by a
    character that could continue it (or a letter) is lexed to its value. *)
Lemma int_complete_b k text n rest s : int_lit_b text n -> n < 2 ^ 64 ->
  head_sat (fun c => is_ident_char c || (c =? 46)) rest = false -> l_rest s = text ++ rest ->
  exists s', lex_next k s = Done (Some (Some (TInt n)), s') /\ l_rest s' = rest /\ l_errs s' = l_errs s /\ l_start s' = l_end s /\ l_end s' = l_end s + len text.
Proof.
  intros Hl Hn Hr Hs. unfold lex_next. rewrite Hs.
  assert (Hd0 : exists c t, text = c :: t /\ is_digit c = true).
  { inversion Hl; subst; do 2 eexists; (split; [reflexivity|]); auto. cbn [forallb] in *. now apply andb_prop in H0. }
  destruct Hd0 as (c & t & Et & Hc).
  assert (take_while is_skip (text ++ rest) = []) as ->.
  { rewrite Et. cbn [app take_while]. assert (is_skip c = false) as -> by (unfold is_skip; bool_lia). reflexivity. }
  cbn [length skipn]. rewrite len_nil, N.add_0_r.
  assert (Hscan : exists kind, scan (munch_ideal k) (text ++ rest) = (kind, text) /\
     ((kind = KZero /\ n = 0) \/ (kind = KDec /\ n = numeral 10 text /\ forallb is_digit text = true) \/ (kind = KOct /\ n = numeral 8 (skipn 1 text) /\ forallb is_octal (skipn 1 text) = true /\ (1 < length text)%nat) \/ (kind = KHex /\ n = numeral 16 (skipn 2 text) /\ forallb is_hex (skipn 2 text) = true /\ (2 < length text)%nat))).
  { assert (Hnum : scan (munch_ideal k) (text ++ rest) = scan_number (munch_ideal k) (text ++ rest)).
    { rewrite Et. cbn [app]. unfold scan. assert (is_ident_start c = false) as -> by bool_lia. now rewrite Hc. }
    rewrite Hnum. clear Hnum.
    assert (Hdig : head_sat is_digit rest = false) by (destruct rest as [|y rest]; auto; cbn [head_sat] in *; bool_lia).
    assert (Hdot : head_is 46 rest = false) by (destruct rest as [|y rest]; auto; cbn [head_sat head_is] in *; bool_lia).
    assert (Hexp : scan_exponent rest = []).
    { destruct rest as [|y rest]; auto. apply scan_exponent_no_e. cbn [head_sat] in Hr. bool_lia. }
    assert (Hfs : scan_fsuffix rest = []).
    { destruct rest as [|y rest]; auto. cbn [scan_fsuffix head_sat] in *. assert ((y =? 102) || (y =? 70) = false) as -> by bool_lia. reflexivity. }
    assert (Hx : head_sat (fun x => (x =? 120) || (x =? 88)) rest = false).
    { destruct rest as [|y rest]; auto. cbn [head_sat] in *. bool_lia. }
    inversion Hl; subst text n; clear Hl.
    - exists KZero. split; auto. unfold scan_number.
      assert (take_while is_digit (b "0" ++ rest) = [48]) as -> by (apply tw_digits_app; auto; reflexivity).
      change (skipn (length [48]) (b "0" ++ rest)) with rest. rewrite Hdot, Hexp, Hfs, Hx. reflexivity.
    - exists KDec. split; [|right; left; auto]. unfold scan_number. rewrite tw_digits_app by auto. rewrite skip_app, Hdot, Hexp, Hfs.
      cbn [length Nat.ltb Nat.leb head_is]. replace (d =? 48) with false by (symmetry; now apply N.eqb_neq). reflexivity.
    - exists KOct. split; [|right; right; left; cbn [skipn]; repeat split; auto; destruct os; [congruence|cbn; lia]]. unfold scan_number.
      assert (Hod : digits os). { unfold digits. apply forallb_forall. intros x Hin. pose proof (forallb_In _ _ _ H0 Hin). bool_lia. }
      assert (take_while is_digit ((48 :: os) ++ rest) = 48 :: os) as ->.
      { apply tw_digits_app; auto. }
      rewrite skip_app, Hdot, Hexp. cbn [length Nat.ltb Nat.leb head_is tl]. rewrite N.eqb_refl.
      assert (take_while is_octal os = os) as Eo. { rewrite <- (app_nil_r os) at 1. rewrite take_while_prefix by auto. apply app_nil_r. }
      rewrite Eo. destruct os as [|o os]; [congruence|]. cbn [length Nat.ltb Nat.leb]. destruct (munch_ideal k); reflexivity.
    - exists KHex. split; [|right; right; right; cbn [skipn]; repeat split; auto; destruct hs; [congruence|cbn; lia]]. unfold scan_number.
      assert (Hxx : is_digit x = false) by (destruct H as [-> | ->]; reflexivity).
      assert (take_while is_digit ((48 :: x :: hs) ++ rest) = [48]) as -> by (cbn [app take_while]; rewrite Hxx; reflexivity).
      cbn [length skipn app head_is]. assert (x =? 46 = false) as -> by bool_lia. rewrite scan_exponent_no_e by (destruct H as [-> | ->]; reflexivity).
      cbn [length Nat.ltb Nat.leb tl head_sat]. rewrite N.eqb_refl. assert ((x =? 120) || (x =? 88) = true) as -> by bool_lia.
      destruct hs as [|h hs]; [congruence|]. cbn [app head_sat]. pose proof H1 as Hh. cbn [forallb] in Hh. apply andb_prop in Hh. destruct Hh as [Hh _]. rewrite Hh. cbn [andb].
      cbn [firstn app]. change (h :: hs ++ rest) with ((h :: hs) ++ rest). rewrite take_while_prefix by auto.
      assert (take_while is_hex rest = []) as ->.
      { destruct rest as [|y rest]; auto. apply take_while_stop. cbn [head_sat] in Hr. bool_lia. }
      now rewrite app_nil_r. }
  destruct Hscan as (kind & Hscan & Hk). rewrite Hscan.
  assert (Hg : glued rest = false). { unfold glued. destruct rest as [|y rest]; auto. cbn [head_sat] in *. bool_lia. }
  rewrite skip_app. rewrite Et. cbn [app]. rewrite <- Et.
  assert (Hint : forall radix prefix, 1 <= radix -> n = numeral radix (skipn prefix text) -> (prefix < length text)%nat ->
    (forall c, In c (skipn prefix text) -> exists d, digit_val c = Some d /\ d < radix) ->
    exists s', (let '(v0, es, asrt) := cb_int radix prefix (l_end s) text rest in
     Done (Some (Some (TInt v0)), {| l_rest := rest; l_start := l_end s; l_end := l_end s + len text; l_errs := l_errs s ++ es; l_tfm := l_tfm s; l_assert := l_assert s || asrt |})) =
     Done (Some (Some (TInt n)), s') /\ l_rest s' = rest /\ l_errs s' = l_errs s /\ l_start s' = l_end s /\ l_end s' = l_end s + len text).
  { intros radix prefix H1 H2 H3 H4. destruct (cb_int_value radix prefix (l_end s) text rest H3 H1 H4) as (es & -> & He & _). rewrite <- H2.
    replace (n <? 2 ^ 64) with true by (symmetry; now apply N.ltb_lt). eexists. split; [reflexivity|]. cbn. assert (es = []) as -> by (apply He; rewrite <- H2; auto). now rewrite app_nil_r. }
  destruct Hk as [[-> ->]|[(-> & H1 & H2)|[(-> & H1 & H2 & H3)|(-> & H1 & H2 & H3)]]].
  - eexists. split; [reflexivity|]. cbn. auto.
  - apply Hint; auto; [lia|rewrite Et; cbn; lia|]. intros x Hx. apply dec_digit_val. eapply forallb_In; eauto.
  - apply Hint; auto; [lia|]. intros x Hx. apply octal_digit_val. eapply forallb_In; eauto.
  - apply Hint; auto; [lia|]. intros x Hx. apply hex_digit_val. eapply forallb_In; eauto.
Qed.
Theorem C08_int_complete k text n rest s : int_literal text n -> n < 2 ^ 64 ->
  ~ starts (fun c => letter_ c \/ dec_digit c \/ c = 46) rest -> l_rest s = text ++ rest ->
  exists s', lex_next k s = Done (Some (Some (TInt n)), s') /\ l_rest s' = rest /\ l_errs s' = l_errs s /\ l_start s' = l_end s /\ l_end s' = l_end s + len text.
Proof.
  intros H1 H2 H3 H4. apply int_complete_b; auto; [now apply int_lit_iff|]. eapply head_nP; [|exact H3]. intros c. unfold letter_, dec_digit, is_ident_char, is_ident_start, is_alnum, is_alpha, is_upper, is_lower, is_digit.
  rewrite !Bool.orb_true_iff, !in_range_iff, !N.eqb_eq. tauto.
Qed.
Print Assumptions C08_int_complete.

Example C08_ex : int_literal (b "0xFFffFFffFFffFFff") 18446744073709551615 /\ int_literal (b "0755") 493 /\ int_literal (b "18446744073709551616") 18446744073709551616.
Proof.
  rewrite <- !int_lit_iff. repeat split.
  - apply (ilb_hex 120 (b "FFffFFffFFffFFff")); [now left|discriminate|reflexivity].
  - apply (ilb_oct (b "755")); [discriminate|reflexivity].
  - apply (ilb_dec 49 (b "8446744073709551616")); [discriminate|reflexivity].
Qed.
(** The deviation of the generated automaton makes 08 a silent zero. *)
Theorem C08_deviation_refuted : exists s', lex_next ex_k (lex_init (b "08 ")) = Done (Some (Some (TInt 0)), s') /\ l_errs s' = [] /\ l_rest s' = b " ".
Proof. eexists. vm_compute. repeat split; reflexivity. Qed.

(** ** C09, lexer part: a literal glued to a letter or underscore is an error,
    unless the literal is the single digit 0 (or the deviation applies). *)
Lemma glued_int_error_b k s v s' : lex_next k s = Done (Some (Some (TInt v)), s') -> glued (l_rest s') = true ->
  exists w lexeme, l_rest s = w ++ lexeme ++ l_rest s' /\ forallb is_skip w = true /\ l_start s' = l_end s + len w /\
  ((exists sp, In (NoSpaceBetweenIntAndIdent sp) (l_errs s')) \/ lexeme = b "0" \/
   (munch_ideal k = false /\ exists ds, lexeme = 48 :: ds /\ forallb is_digit ds = true /\ forallb is_octal ds = false)).
Proof.
  unfold lex_next. intros E Hg. revert E.
  pose proof (tw_split is_skip (l_rest s)) as Hsplit. set (w := take_while is_skip (l_rest s)) in *. set (l := skipn (length w) (l_rest s)) in *.
  assert (Hw : forallb is_skip w = true) by apply take_while_all.
  destruct l as [|c r] eqn:El; [discriminate|].
  destruct (scan_slice (munch_ideal k) c r) as [Hsn (rest1 & Hr1)].
  destruct (scan (munch_ideal k) (c :: r)) as [kind slice] eqn:Es. cbn [fst snd] in *.
  assert (Hsk : skipn (length slice) (c :: r) = rest1) by (rewrite Hr1; apply skip_app). rewrite Hsk.
  assert (Hint : forall radix prefix,
    (let '(v0, es, asrt) := cb_int radix prefix (l_end s + len w) slice rest1 in
     Done (Some (Some (TInt v0)), {| l_rest := rest1; l_start := l_end s + len w; l_end := l_end s + len w + len slice; l_errs := l_errs s ++ es; l_tfm := l_tfm s; l_assert := l_assert s || asrt |}))
     = Done (Some (Some (TInt v)), s') -> exists w lexeme, l_rest s = w ++ lexeme ++ l_rest s' /\ forallb is_skip w = true /\ l_start s' = l_end s + len w /\
     ((exists sp, In (NoSpaceBetweenIntAndIdent sp) (l_errs s')) \/ lexeme = b "0" \/
   (munch_ideal k = false /\ exists ds, lexeme = 48 :: ds /\ forallb is_digit ds = true /\ forallb is_octal ds = false))).
  { intros radix prefix. destruct (cb_int radix prefix (l_end s + len w) slice rest1) as [[v0 es] a] eqn:Ecb. intros Eq. injection Eq as <- <-.
    cbn [l_rest l_errs l_start l_end] in *. exists w, slice. rewrite <- Hr1. split; auto. split; auto. split; auto. left.
    unfold glued in Hg. destruct rest1 as [|y rest1]; [discriminate|]. cbn [head_sat] in Hg. unfold cb_int in Ecb. rewrite Hg in Ecb.
    destruct (from_str_radix _ _); injection Ecb as <- <- <-; eexists; apply in_or_app; right; now left. }
  destruct kind; try discriminate; try (intros Eq; eapply Hint; exact Eq).
  - intros Eq. injection Eq as <- <-. cbn [l_rest l_errs l_start l_end] in *. exists w, slice. rewrite <- Hr1. split; auto. split; auto. split; auto. right.
    destruct (munch_ideal k).
    + left. now apply scan_int_shape in Es.
    + destruct (scan_false c r) as [Eq|(ds & rest2 & _ & _ & Hd & _ & _ & Ho & _ & Es1 & _)].
      * left. rewrite Eq in Es. now apply scan_int_shape in Es.
      * right. split; auto. exists ds. rewrite Es in Es1. cbn [snd] in Es1. auto.
  - not_int Es.
  - not_int Es.
  - not_int Es.
  - not_int Es.
  - not_int Es.
Qed.
Theorem C09_glued_int_error k s v s' : lex_next k s = Done (Some (Some (TInt v)), s') -> starts letter_ (l_rest s') ->
  exists w lexeme, l_rest s = w ++ lexeme ++ l_rest s' /\ Forall blank w /\ l_start s' = l_end s + len w /\ l_end s' = l_start s' + len lexeme /\
  ((exists sp, In (NoSpaceBetweenIntAndIdent sp) (l_errs s')) \/ lexeme = b "0" \/ (munch_ideal k = false /\ not_octal lexeme)).
Proof.
  intros E Hg. apply glued_iff in Hg. destruct (glued_int_error_b k s v s' E Hg) as (w & lexeme & H1 & H2 & H3 & H4). exists w, lexeme. rewrite <- is_skip_blank, <- not_octal_iff. repeat (split; auto).
  pose proof (lexes_det _ _ _ _ E) as L. destruct (lx_split _ _ _ _ L) as (w' & used & E1 & _ & E2 & E3 & _). apply (f_equal len) in H1, E1. rewrite !len_app in *. lia.
Qed.
Print Assumptions C09_glued_int_error.
