(** C08-C10 for whole files: the tokens of an accepted file are the literals
    of its source. C11: the text stored for the default value of a bytes field. *)
From Coq Require Import ZifyBool ZifyN.
From Verif Require Import Base SynSpec Utf8 Errors Lex Ast Comments Parse Lines Descriptor Generate ParseApi LexSpec PropsLex1 LexSafe Stream PropsLex Utf8Spec StrSpec PropsStr CommentSpec PropsComment.
From Verif Require Import Grammar Walk WalkG3 Meaning PropsParse DescSpec DescLemmas Decimal PropsDesc PropsDesc2.

(** ** C11 *)
Lemma numeral_oct x y z : x < 8 -> y < 8 -> z < 8 -> numeral 8 [48 + x; 48 + y; 48 + z] = 64 * x + 8 * y + z.
Proof. intros. unfold numeral, digit_of. cbn [fold_left]. repeat match goal with |- context [?a <? 65] => replace (a <? 65) with true by (symmetry; apply N.ltb_lt; lia) end. lia. Qed.
Lemma c_escape_decodes q c r v : quote_char q -> c < 256 -> decodes q r v -> decodes q (c_escape c ++ r) (c :: v).
Proof.
  intros Hq Hc H.
  assert (Hsimple : forall a x, In (a, x) simple_escapes -> decodes q ([92; N_of_ascii a] ++ r) (x :: v)) by (intros a x Hin; cbn [app]; now apply dc_simple).
  unfold c_escape.
  assert (Hgen : c <> 9 -> c <> 10 -> c <> 13 -> c <> 34 -> c <> 39 -> c <> 92 ->
    decodes q ((if (32 <=? c) && (c <=? 126) then [c] else [92; 48 + c / 64 mod 8; 48 + c / 8 mod 8; 48 + c mod 8]) ++ r) (c :: v)).
  { intros. destruct ((32 <=? c) && (c <=? 126)) eqn:E; cbn [app].
    - apply dc_raw; auto; try lia. destruct Hq; lia.
    - assert (E2 : c = 64 * (c / 64 mod 8) + 8 * (c / 8 mod 8) + c mod 8).
      { pose proof (N.div_mod' c 8) as A. pose proof (N.div_mod' (c / 8) 8) as B. pose proof (N.div_mod' (c / 64) 8) as C. rewrite N.div_div in B by discriminate. rewrite N.div_div in C by discriminate. change (8 * 8) with 64 in B. change (64 * 8) with 512 in C.
        rewrite (N.div_small c 512) in C by lia. revert A B C. clear. generalize (c / 8) (c mod 8) (c / 64) (c / 8 mod 8) (c / 64 mod 8). intros. lia. }
      pose proof (N.mod_upper_bound (c / 64) 8) as B1. pose proof (N.mod_upper_bound (c / 8) 8) as B2. pose proof (N.mod_upper_bound c 8) as B3.
      revert E2 B1 B2 B3. generalize (c / 64 mod 8) (c / 8 mod 8) (c mod 8). intros x y z E2 B1 B2 B3.
      specialize (B1 ltac:(discriminate)). specialize (B2 ltac:(discriminate)). specialize (B3 ltac:(discriminate)).
      pose proof (numeral_oct x y z B1 B2 B3) as En. rewrite <- E2 in En. rewrite <- En at 1. apply (dc_oct q [48 + x; 48 + y; 48 + z] r v); auto.
      + cbn. lia.
      + unfold oct_digit. repeat constructor; lia.
      + lia. }
  pose proof (escape_same [c]) as Es. cbn [flat_map] in Es. rewrite !app_nil_r in Es. change (decodes q (c_escape c ++ r) (c :: v)). rewrite <- Es. unfold escape_byte.
  destruct (N.eqb_spec c 9) as [->|]; [apply (Hsimple "t"%char); cbn; tauto|]. destruct (N.eqb_spec c 13) as [->|]; [apply (Hsimple "r"%char); cbn; tauto|].
  destruct (N.eqb_spec c 10) as [->|]; [apply (Hsimple "n"%char); cbn; tauto|]. destruct (N.eqb_spec c 92) as [->|]; [apply (Hsimple "\"%char); cbn; tauto|].
  destruct (N.eqb_spec c 39) as [->|]; [apply (Hsimple "'"%char); cbn; tauto|]. destruct (N.eqb_spec c 34) as [->|]; [apply (Hsimple "034"%char); cbn; tauto|].
  apply Hgen; auto.
Qed.
Theorem C11_escape_round_trip q v : quote_char q -> Forall (fun c => c < 256) v -> decodes q (flat_map c_escape v) v.
Proof. intros Hq H. induction H as [|c v Hc H IH]; cbn [flat_map]; [constructor|]. now apply c_escape_decodes. Qed.
Print Assumptions C11_escape_round_trip.

(** The default of a bytes field, as stored in the descriptor and put between
    quotes, lexes to the bytes written in the source. *)
Theorem C11_bytes_default_round_trip k sort name src d a : parse k sort name src = Done (inl d, a) ->
  exists f, accepted k src f /\
  forall x txt, field_of d x -> f_type x = Some FTBytes -> f_default x = Some txt ->
    exists sc fd o s, decl_of f sc fd /\ In o (optlist_options (fd_options fd)) /\ called (b "default") o = true /\ ob_value o = OVString s /\
      f_name x = Some (declared_name fd) /\ f_number x = Some (int_value (fd_number fd)) /\
      (Forall (fun c => c < 256) (st_val s) -> forall k' q, quote_char q ->
         exists s', lex_next k' (lex_init (q :: txt ++ [q])) = Done (Some (Some (TStr (st_val s))), s') /\ l_rest s' = [] /\ l_errs s' = []).
Proof.
  intros E. destruct (C21_defaults _ _ _ _ _ _ E) as (f & Ha & _ & H). exists f. split; auto. intros x txt Hx Ht Hd.
  destruct (H _ _ Hx Hd) as (sc & fd & o & t & sp & H1 & H2 & H3 & H4 & H5 & H6 & H7). apply find_some in H2. destruct H2 as [H2 H2'].
  rewrite H7 in Ht. assert (t = TyBytes) as -> by (destruct t; cbn in Ht; congruence). destruct H4 as (s & H4 & ->).
  exists sc, fd, o, s. repeat split; auto. intros Hb k' q Hq.
  destruct (C10_string_complete k' (lex_init (q :: flat_map c_escape (st_val s) ++ [q])) q _ (st_val s) [] Hq (C11_escape_round_trip q (st_val s) Hq Hb) eq_refl) as (s' & E1 & E2 & E3 & _).
  exists s'. auto.
Qed.
Print Assumptions C11_bytes_default_round_trip.
Example C11_ex : map (fun m => map (fun x => (f_type x, f_default x)) (m_field m)) (d_message (desc_of (b "message M { optional bytes x = 1 [default = '\x00\xffa""\n']; }"))) =
  [[(Some FTBytes, Some (b "\000\377a\""\n"))]].
Proof. vm_compute. reflexivity. Qed.

(** ** Tokens of accepted files *)

(** How a token is written: [lexeme] is its text, [next] the text behind it
    and [textmode] tells whether it stands inside an aggregate option value. *)
Definition written (k : cfg) (textmode : bool) (t : token) (lexeme next : bytes) : Prop :=
  match t with
  | TIdent s => s = lexeme /\ identifier lexeme /\ ~ starts name_char next
  | TInt v => (int_literal lexeme v /\ v < 2 ^ 64 /\ (starts letter_ next -> lexeme = b "0")) \/ (munch_ideal k = false /\ v = 0 /\ not_octal lexeme)
  | TFloat s => (exists r, In (r, KFloat) patterns /\ matches r lexeme) /\
      (s = lexeme /\ ~ (exists v c, lexeme = v ++ [c] /\ (c = N_of_ascii "f" \/ c = N_of_ascii "F")) \/ textmode = true /\ exists c, lexeme = s ++ [c] /\ (c = N_of_ascii "f" \/ c = N_of_ascii "F"))
  | TStr v => exists q body, lexeme = q :: body ++ [q] /\ quote_char q /\ decodes q body v
  | TDot => lexeme = b "." | TMinus => lexeme = b "-" | TPlus => lexeme = b "+"
  | TLeftParen => lexeme = b "(" | TRightParen => lexeme = b ")" | TLeftBrace => lexeme = b "{" | TRightBrace => lexeme = b "}"
  | TLeftBracket => lexeme = b "[" | TRightBracket => lexeme = b "]" | TLeftAngle => lexeme = b "<" | TRightAngle => lexeme = b ">"
  | TComma => lexeme = b "," | TEquals => lexeme = b "=" | TColon => lexeme = b ":" | TSemicolon => lexeme = b ";" | TSlash => lexeme = b "/"
  | TNewline => lexeme = [10]
  | TLineComment s => exists mark body, lexeme = mark ++ body /\ (mark = b "//" \/ mark = b "#" /\ textmode = true) /\
      line_at (body ++ next) body next /\ unix_lines body s
  | TBlockComment s => exists body text, lexeme = b "/*" ++ body /\ block_at (body ++ next) text next /\ unix_lines text s
  end.

Lemma punct_written c t : punct c = Some t -> forall k m next, written k m t [c] next.
Proof.
  unfold punct. intros H k m next. repeat match type of H with (if ?c =? ?n then _ else _) = _ => destruct (N.eqb_spec c n); [subst c; injection H as <-; cbn; reflexivity|] end. discriminate.
Qed.
Lemma scan_other ideal l kind slice : scan ideal l = (kind, slice) ->
  match kind with
  | KPunct t => exists c, slice = [c] /\ punct c = Some t
  | KLine => (exists body r, l = 47 :: 47 :: r /\ slice = 47 :: 47 :: scan_line r /\ body = r) \/ (exists body r, l = 35 :: r /\ slice = 35 :: scan_line r /\ body = r)
  | KBlock => slice = [47; 42]
  | _ => True
  end.
Proof.
  unfold scan. destruct l as [|c r]; [intros [= <- <-]; exact I|]. destruct (is_ident_start c); [intros [= <- <-]; exact I|]. destruct (is_digit c).
  { unfold scan_number. repeat match goal with |- context [if ?x then _ else _] => destruct x end; intros [= <- <-]; exact I. }
  destruct ((c =? 39) || (c =? 34)); [intros [= <- <-]; exact I|]. destruct ((c =? 46) && head_sat is_digit r); [intros [= <- <-]; exact I|].
  destruct (N.eqb_spec c 35) as [->|]; [intros [= <- <-]; right; eauto|].
  destruct ((c =? 47) && head_is 47 r) eqn:E1. { intros [= <- <-]. left. apply andb_prop in E1. destruct E1 as [E1 E2]. apply N.eqb_eq in E1. subst c. destruct r as [|d r]; [discriminate|]. cbn [head_is] in E2. apply N.eqb_eq in E2. subst d. cbn [tl]. eauto. }
  destruct ((c =? 47) && head_is 42 r); [intros [= <- <-]; reflexivity|].
  destruct (punct c) eqn:E; intros [= <- <-]; [eauto|exact I].
Qed.
Lemma scan_float ideal l slice : l <> [] -> scan ideal l = (KFloat, slice) -> exists r, In (r, KFloat) patterns /\ matches r slice.
Proof.
  intros Hl Es. assert (Et : scan true l = (KFloat, slice)).
  { destruct ideal; auto. destruct l as [|c r]; [congruence|]. destruct (scan_false c r) as [Eq|(ds & rest & _ & _ & _ & _ & _ & _ & Ek & _ & _ & Ekt)]; [congruence|].
    rewrite Es in Ek. cbn [fst] in Ek. rewrite Ekt in Ek. destruct (take_while is_octal ds); discriminate. }
  pose proof (C07_scan_longest l Hl) as H. rewrite Et in H. cbn [fst snd] in H. destruct H as [[H _]|[H _]]; [discriminate|exact H].
Qed.
Lemma ident_start_iff c : is_ident_start c = true <-> letter_ c.
Proof. unfold is_ident_start, is_alpha, is_upper, is_lower, in_range, letter_. lia. Qed.
Lemma ident_char_iff c : is_ident_char c = true <-> name_char c.
Proof. unfold is_ident_char, is_alnum, is_alpha, is_upper, is_lower, is_digit, in_range, name_char, letter_, dec_digit. lia. Qed.
Lemma ident_chars l : forallb is_ident_char l = true <-> Forall name_char l.
Proof. rewrite forallb_forall, Forall_forall. split; intros H x Hx; apply ident_char_iff; auto. Qed.
Lemma scan_ident ideal l slice : scan ideal l = (KIdent, slice) -> identifier slice /\ ~ starts name_char (skipn (length slice) l).
Proof.
  unfold scan. destruct l as [|c r]; [discriminate|]. destruct (is_ident_start c) eqn:Ec.
  - intros [= <-]. split.
    + exists c, (take_while is_ident_char r). split; auto. split; [now apply ident_start_iff|]. apply ident_chars, take_while_all.
    + cbn [length skipn]. pose proof (tw_after is_ident_char r) as Ha. intros (x & t & E & Hx). rewrite E in Ha. cbn [head_sat] in Ha. apply ident_char_iff in Hx. congruence.
  - destruct (is_digit c).
    { unfold scan_number. repeat match goal with |- context [if ?x then _ else _] => destruct x end; discriminate. }
    repeat match goal with |- context [if ?x then _ else _] => destruct x; [discriminate|] end. destruct (punct c); discriminate.
Qed.
Lemma lex_written k m rest pos t s' : lex_next k (canon m rest pos) = Done (Some (Some t), s') -> l_errs s' = [] ->
  exists w lexeme, rest = w ++ lexeme ++ l_rest s' /\ Forall blank w /\ l_start s' = pos + len w /\ l_end s' = l_start s' + len lexeme /\
    written k m t lexeme (l_rest s').
Proof.
  intros E He. assert (E0 := E). revert E. unfold lex_next. cbn [canon l_rest l_end l_errs l_tfm].
  pose proof (tw_split is_skip rest) as Hsplit. assert (Hw : Forall blank (take_while is_skip rest)) by apply is_skip_blank, take_while_all.
  set (w := take_while is_skip rest) in *. clearbody w. set (l := skipn (length w) rest) in *. clearbody l. destruct l as [|c r]; [discriminate|].
  pose proof (scan_slice (munch_ideal k) c r) as Hsl. destruct (scan (munch_ideal k) (c :: r)) as [kind slice] eqn:Es. cbn [snd] in Hsl. destruct Hsl as [Hne (rest1 & Hr)].
  pose proof (scan_other _ _ _ _ Es) as Ho. assert (Hsk : skipn (length slice) (c :: r) = rest1) by (rewrite Hr; apply skip_app). rewrite Hsk.
  assert (Hplain : forall es as_ tk, written k m tk slice rest1 ->
    Done (Some (Some tk), {| l_rest := rest1; l_start := pos + len w; l_end := pos + len w + len slice; l_errs := es; l_tfm := m; l_assert := as_ |}) = Done (Some (Some t), s') ->
    exists w lexeme, rest = w ++ lexeme ++ l_rest s' /\ Forall blank w /\ l_start s' = pos + len w /\ l_end s' = l_start s' + len lexeme /\ written k m t lexeme (l_rest s')).
  { intros es as_ tk Hk Eq. injection Eq as <- <-. cbn [l_rest l_start l_end]. exists w, slice. rewrite <- Hr. auto. }
  assert (Hint : forall v, t = TInt v -> exists w lexeme, rest = w ++ lexeme ++ l_rest s' /\ Forall blank w /\ l_start s' = pos + len w /\ l_end s' = l_start s' + len lexeme /\ written k m t lexeme (l_rest s')).
  { intros v ->. destruct (C08_int_value _ _ _ _ E0) as (w' & lexeme & H1 & H2 & H3 & H4 & H5). cbn [canon l_rest l_end l_errs] in *. exists w', lexeme. repeat (split; auto). cbn [written].
    destruct H5 as [(n & L & Ha & Hb)|H5]; [left|auto]. destruct (N.ltb_spec n (2 ^ 64)) as [Hn|Hn].
    - destruct (Ha Hn) as [-> _]. repeat split; auto. intros Hst. destruct (C09_glued_int_error _ _ _ _ E0 Hst) as (w2 & lexeme2 & G1 & G2 & G3 & G4 & G5). cbn [canon l_rest l_end] in *.
      assert (w2 = w') as ->. { rewrite H1 in G1. symmetry in G1. apply app_len_inv in G1; auto. unfold len in *. lia. }
      assert (lexeme2 = lexeme) as ->. { rewrite H1 in G1. apply app_inv_head, app_inv_tail in G1. auto. }
      destruct G5 as [(sp & G5)|[G5|[_ G5]]]; auto; [rewrite He in G5; destruct G5|]. exfalso.
      destruct G5 as (ds & -> & Gd & Go). inversion L as [E1|d ds' Hd F E1|os Hn0 F E1|x hs Hx Hn0 F E1]; subst.
      + apply Go. constructor.
      + congruence.
      + auto.
      + inversion Gd; subst. unfold dec_digit in *. destruct Hx; subst; lia.
    - destruct (Hb Hn) as (sp & G). rewrite He in G. destruct G. }
  destruct kind; intros E.
  - eapply Hplain; [|exact E]. destruct (scan_ident _ _ _ Es) as [Hi Hn]. rewrite Hsk in Hn. cbn [written]. auto.
  - injection E as E _; eapply Hint; eauto.
  - destruct (cb_int _ _ _ _ _) as [[v0 es0] a0]. injection E as E _; eapply Hint; eauto.
  - destruct (cb_int _ _ _ _ _) as [[v0 es0] a0]. injection E as E _; eapply Hint; eauto.
  - destruct (cb_int _ _ _ _ _) as [[v0 es0] a0]. injection E as E _; eapply Hint; eauto.
  - destruct (cb_float _ _ _) as [v es] eqn:Ef. cbn beta iota in E. assert (Ees : es = []). { injection E as _ <-. exact He. }
    eapply Hplain; [|exact E]. cbn [written]. split; [apply (scan_float (munch_ideal k) (c :: r)); [discriminate|exact Es]|]. unfold cb_float in Ef.
    destruct (rev slice) as [|f rv] eqn:Erev; [apply (f_equal (@rev _)) in Erev; rewrite rev_involutive in Erev; cbn in Erev; congruence|].
    destruct ((f =? 102) || (f =? 70)) eqn:Eff; [|injection Ef as <- _; left; split; [reflexivity|]; intros (v0 & c0 & Ev & Hc0); rewrite Ev, rev_app_distr in Erev; injection Erev as Ec0 _; change (N_of_ascii "f") with 102 in Hc0; change (N_of_ascii "F") with 70 in Hc0; lia].
    injection Ef as <- E1. right. subst es. split; [destruct m; auto; discriminate|]. exists f. split; [|change (N_of_ascii "f") with 102; change (N_of_ascii "F") with 70; lia].
    apply (f_equal (@rev _)) in Erev. rewrite rev_involutive in Erev. exact Erev.
  - clear Hplain. destruct (str_loop _ _ _ _ _ _) as [[[[v fin] r2] es]| |] eqn:El; cbn [obind] in E; try discriminate. injection E as <- Es'.
    destruct (C10_string_sound _ _ _ _ E0 He) as (w' & q & body & H1 & H2 & H3 & H4 & H5 & H6). cbn [canon l_rest l_end] in *. exists w', (q :: body ++ [q]).
    split; [rewrite H1; cbn [app]; now rewrite <- app_assoc|]. split; auto. split; auto. split; [rewrite len_cons, len_app, len_cons, len_nil; lia|]. cbn [written]. eauto.
  - destruct Ho as (ch & -> & Hp). eapply Hplain; [|exact E]. now apply punct_written.
  - destruct (cb_line _ _ _) as [[v es]| |] eqn:Ec; cbn [obind] in E; try discriminate. assert (Ees : es = []). { injection E as _ <-. exact He. } subst es.
    eapply Hplain; [|exact E]. cbn [written]. revert Ec. unfold cb_line.
    destruct Ho as [(bd & r0 & El0 & -> & _)|(bd & r0 & El0 & -> & _)]; rewrite El0 in Hsk; (pose proof (scan_line_spec r0) as Hl; assert (Hr1 : rest1 = skipn (length (scan_line r0)) r0) by (rewrite <- Hsk; reflexivity); rewrite <- Hr1 in Hl).
    + change (starts_with [47; 47] (47 :: 47 :: scan_line r0)) with true. cbv beta iota. change (skipn 2 (47 :: 47 :: scan_line r0)) with (scan_line r0). intros Ec. injection Ec as <- _. exists (b "//"), (scan_line r0). split; auto. split; auto. split; [|apply normalize_sound].
      destruct Hl as [Hl1 Hl2]. rewrite <- Hl1. split; auto.
    + change (starts_with [47; 47] (35 :: scan_line r0)) with false. change (starts_with [35] (35 :: scan_line r0)) with true. cbv beta iota. intros Ec. injection Ec as <- Em. exists (b "#"), (scan_line r0). split; auto. split; [right; split; auto; destruct m; auto; discriminate|].
      split; [|apply normalize_sound]. destruct Hl as [Hl1 Hl2]. rewrite <- Hl1. split; auto.
  - subst slice. destruct (block_loop _ _ _ _ _ _ _) as [[[[v fin] r2] es]| |] eqn:El; cbn [obind] in E; try discriminate. injection E as <- Es'. subst s'. cbn [l_errs] in He. subst es. cbn [l_rest l_start l_end].
    apply (block_sound (length rest1)) in El; auto. destruct El as (t & -> & Hb & (used & Eu & ->)). cbn [app] in *. exists w, (47 :: 42 :: used). split; [rewrite Hsplit, Hr, Eu; reflexivity|]. split; auto. split; auto.
    split; [rewrite !len_cons, len_nil; lia|]. cbn [written]. exists used, t. rewrite <- Eu. split; auto. split; auto. apply normalize_sound.
  - discriminate.
Qed.

(** The tokens of an accepted file, with the text each of them is written as. *)
Definition written_at (k : cfg) (src : bytes) (textmode : bool) (t : token) (sp : span) : Prop :=
  exists before lexeme after, src = before ++ lexeme ++ after /\ sp = (len before, len before + len lexeme) /\ written k textmode t lexeme after.
Lemma mclean_written k ms rest pos : mclean k ms rest pos -> forall before, pos = len before ->
  forall ts, sigs (stream k rest pos) = map inj ts -> marks ts = ms -> Forall (fun x => written_at k (before ++ rest) (tk_mark x) (tk_tok x) (tk_span x)) ts.
Proof.
  induction 1 as [rest pos s' E|ms rest pos t s' E Et He H IH|m ms rest pos t s' E Et He H IH]; intros before Hp ts Hs Hm.
  - destruct ts; [constructor|discriminate].
  - destruct (lex_written _ _ _ _ _ _ E He) as (w & lexeme & E1 & Hw & E2 & E3 & Hwr).
    assert (Est : sigs (stream k rest pos) = sigs (stream k (l_rest s') (l_end s'))).
    { pose proof (lexes_det _ _ _ _ E) as L. destruct (lx_same _ _ _ _ L (canon true rest pos) eq_refl eq_refl) as (s2 & F1 & F2 & F3 & F4 & _).
      pose proof (stream_step _ _ _ _ F1) as St. cbn [canon l_rest l_end] in St. rewrite St. cbn [sigs filter significant fst]. unfold significant at 1. cbn [fst]. rewrite Et. cbn [negb]. rewrite F2, F4. reflexivity. }
    rewrite Est in Hs. rewrite E1, app_assoc, app_assoc. rewrite <- (app_assoc before). apply IH; auto. rewrite !len_app. lia.
  - destruct (lex_written _ _ _ _ _ _ E He) as (w & lexeme & E1 & Hw & E2 & E3 & Hwr).
    assert (Est : sigs (stream k rest pos) = (Some t, (l_start s', l_end s')) :: sigs (stream k (l_rest s') (l_end s'))).
    { pose proof (lexes_det _ _ _ _ E) as L. destruct (lx_same _ _ _ _ L (canon true rest pos) eq_refl eq_refl) as (s2 & F1 & F2 & F3 & F4 & _).
      pose proof (stream_step _ _ _ _ F1) as St. cbn [canon l_rest l_end] in St. rewrite St. cbn [sigs filter significant fst]. unfold significant at 1. cbn [fst]. rewrite Et. cbn [negb]. rewrite F2, F3, F4. reflexivity. }
    rewrite Est in Hs. destruct ts as [|x ts]; [discriminate|]. cbn [map marks] in Hs, Hm. injection Hm as Hm1 Hm2. unfold inj in Hs at 1. injection Hs as Ht Hsp1 Hs. constructor.
    + exists (before ++ w), lexeme, (l_rest s'). rewrite E1, <- app_assoc. split; auto. split; [|rewrite Hm1, <- Ht; exact Hwr]. rewrite len_app. rewrite <- Hsp1, E3, E2, <- Hp. reflexivity.
    + rewrite E1, app_assoc, app_assoc. rewrite <- (app_assoc before). apply IH; auto. rewrite !len_app. lia.
Qed.

(** If [parse] succeeds then the significant tokens of the source, each of
    which denotes what is written at its place, are a sentence of the grammar
    for the declarations described. *)
Theorem C03_tokens_written k sort name src d a : parse k sort name src = Done (inl d, a) ->
  exists ts f, @g_file (com_of k src) k (len src) ts f /\ sigs (stream k src 0) = map inj ts /\ describes k sort name src f d /\
    Forall (fun x => written_at k src (tk_mark x) (tk_tok x) (tk_span x)) ts.
Proof.
  intros E. destruct (parse_ok_inv _ _ _ _ _ _ E) as (_ & f & (ts & H1 & H2 & H3) & _ & Hd). exists ts, f. repeat (split; auto).
  apply (mclean_written k (marks ts) src 0 H3 [] eq_refl ts); auto.
Qed.
Print Assumptions C03_tokens_written.

(** The same for the literals, spelled out. *)
Theorem C08_parse_ints k sort name src d a : parse k sort name src = Done (inl d, a) ->
  exists ts f, @g_file (com_of k src) k (len src) ts f /\ describes k sort name src f d /\
  forall x v, In x ts -> tk_tok x = TInt v -> exists before lexeme after, src = before ++ lexeme ++ after /\ tk_span x = (len before, len before + len lexeme) /\
    ((int_literal lexeme v /\ v < 2 ^ 64) \/ (munch_ideal k = false /\ v = 0 /\ not_octal lexeme)).
Proof.
  intros E. destruct (C03_tokens_written _ _ _ _ _ _ E) as (ts & f & H1 & _ & H2 & H3). exists ts, f. split; auto. split; auto. intros x v Hx Ht.
  rewrite Forall_forall in H3. destruct (H3 _ Hx) as (before & lexeme & after & E1 & E2 & H4). rewrite Ht in H4. exists before, lexeme, after. split; auto. split; auto. destruct H4 as [(A & B & _)|H4]; auto.
Qed.
Print Assumptions C08_parse_ints.

(** A literal glued to a letter or underscore makes [parse] fail - unless it is 0 (or the deviation applies). *)
Theorem C09_parse_glued k sort name src d a : parse k sort name src = Done (inl d, a) ->
  exists ts f, @g_file (com_of k src) k (len src) ts f /\ describes k sort name src f d /\
  forall x v, In x ts -> tk_tok x = TInt v -> exists before lexeme after, src = before ++ lexeme ++ after /\ tk_span x = (len before, len before + len lexeme) /\
    (starts letter_ after -> lexeme = b "0" \/ (munch_ideal k = false /\ not_octal lexeme)).
Proof.
  intros E. destruct (C03_tokens_written _ _ _ _ _ _ E) as (ts & f & H1 & _ & H2 & H3). exists ts, f. split; auto. split; auto. intros x v Hx Ht.
  rewrite Forall_forall in H3. destruct (H3 _ Hx) as (before & lexeme & after & E1 & E2 & H4). rewrite Ht in H4. exists before, lexeme, after. split; auto. split; auto. destruct H4 as [(A & B & C)|(A & _ & B)]; auto.
Qed.
Print Assumptions C09_parse_glued.
(** The exception: [0] glued to a word is accepted. *)
Theorem C09_zero_glued_accepted : exists d a, parse ex_k loc_sort (b "x.proto") (b "enum E { A = 0; reserved 0to 5; }") = Done (inl d, a).
Proof. eexists _, _. vm_compute. reflexivity. Qed.

Theorem C10_parse_strings k sort name src d a : parse k sort name src = Done (inl d, a) ->
  exists ts f, @g_file (com_of k src) k (len src) ts f /\ describes k sort name src f d /\
  forall x v, In x ts -> tk_tok x = TStr v -> exists before q body after, src = before ++ (q :: body ++ [q]) ++ after /\ tk_span x = (len before, len before + len body + 2) /\
    quote_char q /\ decodes q body v.
Proof.
  intros E. destruct (C03_tokens_written _ _ _ _ _ _ E) as (ts & f & H1 & _ & H2 & H3). exists ts, f. split; auto. split; auto. intros x v Hx Ht.
  rewrite Forall_forall in H3. destruct (H3 _ Hx) as (before & lexeme & after & E1 & E2 & H4). rewrite Ht in H4. destruct H4 as (q & body & -> & H5 & H6). exists before, q, body, after. split; auto. split; auto.
  rewrite E2, len_cons, len_app, len_cons, len_nil. f_equal. lia.
Qed.
Print Assumptions C10_parse_strings.
Example C10_parse_ex : map (fun m => map (fun x => f_default x) (m_field m)) (d_message (desc_of (b "message M { optional string x = 1 [default = '\u00e9\x41' ""\n""]; }"))) = [[Some [195; 169; 65; 10]]].
Proof. vm_compute. reflexivity. Qed.
