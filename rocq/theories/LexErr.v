(** Every error the lexer reports describes the token it comes from. *)
From Coq Require Import ZifyBool ZifyN.
From Verif Require Import Base Utf8 Utf8Spec Errors Lex LexSpec PropsLex1 LexSafe Stream PropsLex StrSpec PropsStr Ast Comments Parse Grammar Classify SynSpec.

(** ** Components a string cannot contain *)
Lemma hexes_all n r : hexes n r <-> all_hex n r = true.
Proof.
  unfold hexes, all_hex. rewrite Bool.andb_true_iff, Nat.eqb_eq. split.
  - intros (ds & q & -> & H1 & H2). rewrite <- H1, firstn_app, Nat.sub_diag, firstn_O, app_nil_r, firstn_all. split; auto. now apply Forall_hex.
  - intros [H1 H2]. exists (firstn n r), (skipn n r). split; [symmetry; apply firstn_skipn|]. split; auto. now apply Forall_hex.
Qed.

Lemma simple_no c : is_char_escape c = false -> forall a x, In (a, x) simple_escapes -> c <> N_of_ascii a.
Proof.
  intros H a x Hi ->. assert (is_char_escape (N_of_ascii a) = true) as E; [|congruence].
  apply is_char_escape_iff. exists x. apply simple_escape_iff. eauto.
Qed.
Lemma serr_no_escape r : str_escape r = SErr [92] -> no_escape r.
Proof.
  intros E c q ->. unfold str_escape in E.
  change (N_of_ascii "x") with 120. change (N_of_ascii "X") with 88. change (N_of_ascii "u") with 117. change (N_of_ascii "U") with 85.
  rewrite <- is_octal_iff, starts_hex, !hexes_all.
  destruct ((c =? 120) || (c =? 88)) eqn:Ex.
  { assert (Hv : c = 120 \/ c = 88) by lia. destruct (head_sat is_hex q) eqn:Eh.
    - exfalso. destruct (hex_value _) as [v|]; [destruct (v <? 256)|]; discriminate.
    - split; [apply simple_no|split; [|split; [|split]]]; try (destruct Hv as [-> | ->]; discriminate || reflexivity); try discriminate. }
  destruct (is_octal c) eqn:Eo.
  { exfalso. set (ds := take_while is_octal (firstn 3 (c :: q))) in E. assert (Hd : ds <> []) by (unfold ds; cbn [firstn take_while]; rewrite Eo; discriminate).
    destruct (from_str_radix 8 ds); try discriminate. destruct (n <? 256); [discriminate|]. injection E as E. now apply Hd. }
  destruct (is_char_escape c) eqn:Ec.
  { exfalso. destruct (char_escape c); discriminate. }
  assert (Hu : forall n, unicode_escape (92 :: c :: firstn n q) <> SErr [92]).
  { intros n. unfold unicode_escape. destruct (hex_value _); [|discriminate]. destruct (is_scalar _); discriminate. }
  split; [now apply simple_no|]. split; [discriminate|]. split; [lia|].
  destruct ((c =? 117) && all_hex 4 q) eqn:E4; [now apply Hu in E|]. destruct ((c =? 85) && all_hex 8 q) eqn:E8; [now apply Hu in E|].
  split; intros ->; cbn in E4, E8; congruence.
Qed.
Lemma unicode_bad u n r sl s : (u = 117 /\ n = 4%nat) \/ (u = 85 /\ n = 8%nat) -> all_hex n r = true -> unicode_escape (92 :: u :: firstn n r) = SErr sl -> bad_char sl s.
Proof.
  intros Hu Hh. pose proof Hh as Hh'. unfold all_hex in Hh'. apply andb_prop in Hh'. destruct Hh' as [H1 H2]. apply Nat.eqb_eq in H1.
  unfold unicode_escape. cbn [skipn]. destruct (hex_value_numeral (firstn n r)) as [Hv _]; auto.
  { intros E. rewrite E in H1. cbn in H1. lia. }
  { lia. }
  rewrite Hv. destruct (is_scalar (numeral 16 (firstn n r))) eqn:Es; [discriminate|]. intros [= <-]. apply (bc_unicode u n); auto.
  - now apply Forall_hex.
  - intros H. apply is_scalar_iff in H. congruence.
Qed.
Lemma comp_bad l sl : l <> [] -> str_comp l = SErr sl -> exists r, l = sl ++ r /\ (sl = [10] \/ bad_char sl r).
Proof.
  intros Hn E. destruct (str_comp_ok l Hn) as (_ & _ & s & Hs). rewrite E in Hs. cbn [comp_slice] in Hs. exists s. split; [exact Hs|].
  destruct l as [|c r]; [congruence|]. unfold str_comp in E. destruct (N.eqb_spec c 92) as [->|Hc].
  2:{ destruct ((c =? 39) || (c =? 34)) eqn:Eq; [discriminate|]. destruct (is_unescaped c) eqn:Eu; [discriminate|]. injection E as <-.
      unfold is_unescaped in Eu. apply negb_false_iff in Eu. assert (c = 0 \/ c = 10) as [-> | ->] by lia; [right; constructor|now left]. }
  right. assert (Hb : sl = [92] -> bad_char sl s).
  { intros ->. injection Hs as <-. constructor. now apply serr_no_escape. }
  unfold str_escape in E. destruct r as [|c r1]; [injection E as <-; auto|].
  destruct ((c =? 120) || (c =? 88)) eqn:Ex.
  { destruct (head_sat is_hex r1) eqn:Eh; [|injection E as <-; auto]. destruct (hex_value _) as [v|]; [destruct (v <? 256)|]; discriminate. }
  destruct (is_octal c) eqn:Eo.
  { clear Hb. set (ds := take_while is_octal (firstn 3 (c :: r1))) in E. assert (Hd : ds <> []) by (unfold ds; cbn [firstn take_while]; rewrite Eo; discriminate).
    pose proof (tw_firstn_len is_octal 3 (c :: r1)) as Hlen. fold ds in Hlen. pose proof (take_while_all is_octal (firstn 3 (c :: r1))) as Ha. fold ds in Ha.
    rewrite (oct_value_numeral ds) in E by (auto; lia). destruct (N.ltb_spec (numeral 8 ds) 256) as [Hv|Hv]; [discriminate|]. injection E as <-. clearbody ds.
    assert (Ho : forall x, is_octal x = true -> digit_of x <= 7) by (intros x Hx; apply is_octal_iff in Hx; unfold oct_digit in Hx; unfold digit_of; destruct (x <? 65) eqn:E; lia).
    destruct ds as [|x [|y [|z [|]]]]; cbn [length] in Hlen; try lia; [congruence|..].
    - exfalso. cbn [forallb] in Ha. apply andb_prop in Ha. destruct Ha as [Hx _]. unfold numeral in Hv. cbn [fold_left] in Hv. apply Ho in Hx. lia.
    - exfalso. cbn [forallb] in Ha. apply andb_prop in Ha. destruct Ha as [Hx Ha]. apply andb_prop in Ha. destruct Ha as [Hy _]. unfold numeral in Hv. cbn [fold_left] in Hv. apply Ho in Hx, Hy. lia.
    - constructor; auto. now apply Forall_oct. }
  destruct (is_char_escape c) eqn:Ec; [destruct (char_escape c); discriminate|].
  destruct ((c =? 117) && all_hex 4 r1) eqn:E4.
  { apply andb_prop in E4. destruct E4 as [E4 E4']. apply N.eqb_eq in E4. subst c. eapply (unicode_bad 117 4); eauto. }
  destruct ((c =? 85) && all_hex 8 r1) eqn:E8.
  { apply andb_prop in E8. destruct E8 as [E8 E8']. apply N.eqb_eq in E8. subst c. eapply (unicode_bad 85 8); eauto. }
  injection E as <-. auto.
Qed.
Lemma bad_char_ne x r : bad_char x r -> x <> [].
Proof. destruct 1; discriminate. Qed.
Lemma bad_chars_snoc x y r : bad_chars x (y ++ r) -> bad_char y r -> bad_chars (x ++ y) r.
Proof.
  intros H. remember (y ++ r) as r0 eqn:E. revert E. induction H as [x r0 H|x z r0 H H1 IH]; intros -> Hy.
  - apply bcs_more; auto. now apply bcs_one.
  - rewrite <- app_assoc. apply bcs_more; auto. now rewrite <- app_assoc.
Qed.

(** ** The string loop *)
Definition string_error (e : perr) : option span :=
  match e with InvalidStringCharacters sp | InvalidStringEscape sp => Some sp | _ => None end.
(** String errors recorded so far end before [z]. *)
Definition ends_by (z : N) (es : list perr) : Prop := forall e sp, In e es -> string_error e = Some sp -> s_end sp <= z.
Lemma ends_by_app z x y : ends_by z (x ++ y) <-> ends_by z x /\ ends_by z y.
Proof. unfold ends_by. setoid_rewrite in_app_iff. firstorder. Qed.
Lemma ends_by_le z z' es : z <= z' -> ends_by z es -> ends_by z' es.
Proof. intros H He e sp Hi Hs. specialize (He e sp Hi Hs). lia. Qed.
Lemma ends_by_nil z : ends_by z [].
Proof. intros e sp []. Qed.
Lemma ends_by_one z e : string_error e = None -> ends_by z [e].
Proof. intros H e' sp [<-|[]]; congruence. Qed.

Section Str.
Variable k : cfg.
Variable src : bytes.
Variable start : N.      (* of the token *)

Definition bad_text (e : perr) (x : bytes) : Prop :=
  match e with InvalidStringEscape _ => exists y, x = 92 :: y | InvalidStringCharacters _ => exists y, x = 0 :: y | _ => False end.
(** An error recorded while the loop is at [off]. *)
Definition so_far (off : N) (e : perr) : Prop :=
  exists sp x r, string_error e = Some sp /\ start < s_start sp /\ s_end sp <= off /\ reads_then src sp x r /\ bad_chars x r /\ bad_text e x.
Lemma so_far_le off off' e : off <= off' -> so_far off e -> so_far off' e.
Proof. intros H (sp & x & r & H1 & H2 & H3 & H4). exists sp, x, r. repeat split; auto; try apply H4. lia. Qed.
Lemma so_far_fault off fin v e : off <= fin -> so_far off e -> fault k src (TStr v) (start, fin) e.
Proof.
  intros Hle (sp & x & r & H1 & H2 & H3 & H4 & H5 & H6). destruct e; cbn in H6; try contradiction; destruct H6 as (y & ->); injection H1 as ->;
  (split; [eauto|]; split; [exact H2|]; split; [cbn [s_end snd]; lia|]; eauto).
Qed.

Lemma app_inj_len {A} (x y u v : list A) : x ++ y = u ++ v -> length x = length u -> x = u /\ y = v.
Proof. intros E H. assert (x = u) by (eapply app_len_inv; eauto). subst u. split; auto. now apply app_inv_head in E. Qed.
Lemma rev_last {A} (l : list A) x m : rev l = x :: m -> l = rev m ++ [x].
Proof. intros H. rewrite <- (rev_involutive l), H. reflexivity. Qed.
Lemma bad_char_first sl r : bad_char sl r -> (starts_with [92] sl = true /\ exists y, sl = 92 :: y) \/ (starts_with [92] sl = false /\ exists y, sl = 0 :: y).
Proof. destruct 1; cbn; eauto. Qed.

Lemma push_faults pre sl r old new lo : src = pre ++ sl ++ r -> bad_char sl r -> start < len pre -> lo < len pre ->
  ends_by lo old -> Forall (so_far (len pre)) new ->
  exists new', push_string_error (old ++ new) sl (len pre) (len pre + len sl) = old ++ new' /\ Forall (so_far (len pre + len sl)) new'.
Proof.
  intros Hs Hb Hst Hlo Ho Hn. pose proof (bad_char_ne _ _ Hb) as Hne.
  assert (Hn' : Forall (so_far (len pre + len sl)) new) by (eapply Forall_impl; [|exact Hn]; intros e; apply so_far_le; lia).
  set (fe := if starts_with [92] sl then InvalidStringEscape (len pre, len pre + len sl) else InvalidStringCharacters (len pre, len pre + len sl)).
  assert (Hf : exists new', (old ++ new) ++ [fe] = old ++ new' /\ Forall (so_far (len pre + len sl)) new').
  { exists (new ++ [fe]). split; [now rewrite app_assoc|]. apply Forall_app. split; auto. constructor; [|constructor].
    exists (len pre, len pre + len sl), sl, r. cbn [s_start s_end fst snd].
    assert (Hr : reads_then src (len pre, len pre + len sl) sl r) by (exists pre; cbn; auto).
    unfold fe. destruct (bad_char_first _ _ Hb) as [(-> & Hy)|(-> & Hy)]; (split; [reflexivity|]; split; [exact Hst|]; split; [lia|]; split; [exact Hr|]; split; [now constructor|exact Hy]). }
  unfold push_string_error. fold fe.
  destruct (rev (old ++ new)) as [|e before] eqn:Er; [exact Hf|].
  assert (Hmerge : forall sp, string_error e = Some sp -> s_end sp = len pre -> exists new1, new = new1 ++ [e] /\ rev before = old ++ new1).
  { intros sp He Hend. destruct (rev new) as [|e1 b1] eqn:En.
    - apply (f_equal (@rev _)) in En. rewrite rev_involutive in En. cbn in En. subst new. rewrite app_nil_r in Er. apply rev_last in Er. exfalso.
      assert (s_end sp <= lo) by (apply (Ho e); [rewrite Er; apply in_or_app; right; now left|exact He]). lia.
    - apply rev_last in En. subst new. rewrite rev_app_distr, rev_app_distr in Er. cbn in Er. injection Er as -> <-. exists (rev b1). split; [reflexivity|].
      now rewrite rev_app_distr, !rev_involutive. }
  assert (Hgo : forall s0 e', string_error e = Some (s0, len pre) -> (forall x, bad_text e x -> bad_text e' (x ++ sl)) -> string_error e' = Some (s0, len pre + len sl) ->
    exists new', rev before ++ [e'] = old ++ new' /\ Forall (so_far (len pre + len sl)) new').
  { intros s0 e' He Hbt He'. destruct (Hmerge _ He eq_refl) as (new1 & -> & ->). exists (new1 ++ [e']). split; [now rewrite app_assoc|].
    apply Forall_app in Hn'. destruct Hn' as [Hn1 _]. apply Forall_app in Hn. destruct Hn as [_ Hn2]. inversion Hn2 as [|? ? Hx _]; subst.
    apply Forall_app. split; auto. constructor; [|constructor]. destruct Hx as (sp & x & r0 & G1 & G2 & G3 & (p & G4 & G4' & G4'') & G5 & G6).
    rewrite He in G1. injection G1 as <-. cbn [s_start s_end fst snd] in *.
    exists (s0, len pre + len sl), (x ++ sl), r. cbn [s_start s_end fst snd].
    assert (Hpx : pre = p ++ x /\ r0 = sl ++ r).
    { rewrite G4 in Hs. rewrite app_assoc in Hs. assert (Hl : length (p ++ x) = length pre) by (unfold len in *; rewrite app_length; lia).
      apply app_inj_len in Hs; [|exact Hl]. destruct Hs; auto. }
    destruct Hpx as [Hp Hr0]. split; [exact He'|]. split; [exact G2|]. split; [lia|]. split; [|split; [|now apply Hbt]].
    - exists p. rewrite G4, Hr0, <- app_assoc. split; auto. cbn [s_start s_end fst snd]. rewrite len_app. lia.
    - apply bad_chars_snoc; auto. now rewrite <- Hr0. }
  assert (Happ : forall c x, (exists y, x = c :: y) -> exists y, x ++ sl = c :: y) by (intros c x (y & ->); eexists; reflexivity).
  destruct e; try exact Hf; destruct sp as [s0 e0]; (destruct (N.eqb_spec e0 (len pre)) as [->|]; [|exact Hf]); (apply (Hgo s0); [reflexivity| |reflexivity]; cbn; auto).
Qed.

Lemma str_faults f : forall q pre l acc v fin r old new lo es', src = pre ++ l -> start < len pre -> lo < len pre -> ends_by lo old -> Forall (so_far (len pre)) new ->
  str_loop f q (len pre) l acc (old ++ new) = Done (v, fin, r, es') -> fin + len r = len src ->
  exists new', es' = old ++ new' /\ Forall (fault k src (TStr v) (start, fin)) new' /\ ends_by fin new'.
Proof.
  induction f as [|f IH]; intros q pre l acc v fin r old new lo es' Hs Hst Hlo Ho Hn; [discriminate|]. cbn [str_loop].
  assert (Hend : forall fin, len pre <= fin -> Forall (fault k src (TStr v) (start, fin)) new /\ ends_by fin new).
  { intros z Hz. split.
    - eapply Forall_impl; [|exact Hn]. intros e. now apply so_far_fault.
    - intros e sp Hi He. rewrite Forall_forall in Hn. destruct (Hn e Hi) as (sp' & ? & ? & He' & _ & H & _). rewrite He in He'. injection He' as <-. lia. }
  destruct l as [|c0 l0] eqn:El.
  { intros [= <- <- <- <-] Hfin. rewrite app_nil_r in Hs. rewrite <- app_assoc. eexists. split; [reflexivity|].
    destruct (Hend (len pre) (N.le_refl _)) as [H1 H2]. split.
    - apply Forall_app. split; auto. constructor; [|constructor]. split; [cbn [s_end snd]; now rewrite Hs|]. left. split; eauto.
    - apply ends_by_app. split; auto. now apply ends_by_one. }
  rewrite <- El in *. assert (Hne : l <> []) by (rewrite El; discriminate). clear El c0 l0.
  destruct (str_comp_ok l Hne) as (Hp & Hsn & s & Es).
  assert (Hgo : forall (sl acc' : bytes) (new' : list perr), l = sl ++ s -> Forall (so_far (len pre + len sl)) new' ->
    str_loop f q (len pre + len sl) (skipn (length sl) l) acc' (old ++ new') = Done (v, fin, r, es') -> fin + len r = len src ->
    exists new2, es' = old ++ new2 /\ Forall (fault k src (TStr v) (start, fin)) new2 /\ ends_by fin new2).
  { intros sl acc' new' El H3 H4 H5. rewrite El, skip_app, <- len_app in H4.
    eapply (IH q (pre ++ sl) s acc' v fin r old new' lo); auto.
    - now rewrite <- app_assoc, <- El.
    - rewrite len_app. lia.
    - rewrite len_app. lia.
    - now rewrite len_app. }
  assert (Hkeep : forall sl : bytes, Forall (so_far (len pre + len sl)) new) by (intros sl; eapply Forall_impl; [|exact Hn]; intros e; apply so_far_le; lia).
  destruct (str_comp l) as [t|c sl|c sl|c sl|sl|] eqn:Ec; cbn [comp_slice] in *; try (now eapply Hgo; eauto).
  - destruct (c =? q); [|now eapply Hgo; eauto]. intros [= <- <- <- <-] _. exists new. split; [reflexivity|]. apply Hend. lia.
  - destruct (comp_bad l sl Hne Ec) as (r0 & El & Hb). assert (r0 = s) as -> by (rewrite Es in El; now apply app_inv_head in El).
    destruct (existsb (N.eqb 10) sl) eqn:Ex.
    + assert (Hsl : sl = [10]).
      { destruct Hb as [->|Hb]; auto. exfalso. apply existsb_exists in Ex. destruct Ex as (y & Hy & E10). apply N.eqb_eq in E10. subst y.
        inversion Hb; subst; cbn [In] in Hy.
        - destruct Hy as [|[]]; discriminate.
        - destruct Hy as [|[]]; discriminate.
        - repeat match goal with H : Forall _ (_ :: _) |- _ => inversion H; clear H; subst end. unfold oct_digit in *. decompose [or] Hy; try discriminate; lia.
        - destruct Hy as [Hy|[Hy|Hy]]; [discriminate|subst; decompose [and or] H; discriminate|].
          match goal with H : Forall hex_digit _ |- _ => rewrite Forall_forall in H; specialize (H _ Hy); unfold hex_digit in H; lia end. }
      subst sl. intros [= <- <- <- <-] Hfin. rewrite <- app_assoc. eexists. split; [reflexivity|].
      destruct (Hend (len pre + 1)) as [G1 G2]; [lia|]. change (len [10]) with 1. split.
      * apply Forall_app. split; auto. constructor; [|constructor]. split; [eauto|]. split; [exact Hst|]. split; [reflexivity|].
        exists pre, s. split; [rewrite Hs, El; reflexivity|]. split; reflexivity.
      * apply ends_by_app. split; auto. now apply ends_by_one.
    + destruct Hb as [->|Hb]; [discriminate|]. intros H5.
      destruct (push_faults pre sl s old new lo) as (new' & E1 & E2); auto; [rewrite Hs, El; reflexivity|]. rewrite E1 in H5. eapply Hgo; eauto.
  - discriminate.
Qed.


(** ** Block comments *)
Lemma block_faults f : forall pre l depth last acc v fin r old new es', src = pre ++ l -> start + 2 <= len pre ->
  Forall (fun e => forall v fin, fault k src (TBlockComment v) (start, fin) e) new ->
  block_loop f (len pre) l depth last acc (old ++ new) = Done (v, fin, r, es') ->
  exists new', es' = old ++ new' /\ forall w, Forall (fault k src (TBlockComment w) (start, fin)) new'.
Proof.
  induction f as [|f IH]; intros pre l depth last acc v fin r old new es' Hs Hst Hn; [discriminate|]. cbn [block_loop].
  assert (Hend : forall w fin, Forall (fault k src (TBlockComment w) (start, fin)) new) by (intros w z; eapply Forall_impl; [|exact Hn]; intros e H; apply H).
  destruct l as [|c l1] eqn:El.
  { rewrite app_nil_r in Hs. destruct last as [[e r1]|].
    - intros [= <- <- <- <-]. exists new. auto.
    - intros [= <- <- <- <-]. rewrite <- app_assoc. eexists. split; [reflexivity|]. intros w. apply Forall_app. split; auto.
      constructor; [|constructor]. split; [cbn [s_end snd]; now rewrite Hs|]. right. split; eauto. }
  destruct ((c =? 42) && head_is 47 l1) eqn:E1.
  { assert (Hl : exists x, l1 = 47 :: x) by (destruct l1 as [|y x]; cbn [head_is] in E1; [lia|exists x; f_equal; lia]). destruct Hl as (x & ->). cbn [tl].
    destruct (depth =? 1); [intros [= <- <- <- <-]; exists new; auto|].
    set (w := take_while is_skip x). replace (len pre + 2 + len w) with (len (pre ++ [c; 47] ++ w)) by (rewrite !len_app; change (len [c; 47]) with 2; lia).
    intros H. eapply (IH (pre ++ [c; 47] ++ w)); [| |exact Hn|exact H].
    - rewrite Hs. rewrite <- !app_assoc. cbn [app]. do 3 f_equal. apply tw_split.
    - rewrite len_app. lia. }
  destruct ((c =? 47) && head_is 42 l1) eqn:E2.
  { assert (Hl : exists x, l1 = 42 :: x) by (destruct l1 as [|y x]; cbn [head_is] in E2; [lia|exists x; f_equal; lia]). destruct Hl as (x & ->). cbn [tl].
    assert (c = 47) as -> by lia.
    replace (len pre + 2) with (len (pre ++ [47; 42])) by (rewrite !len_app; reflexivity). rewrite <- app_assoc.
    intros H. eapply (IH (pre ++ [47; 42])); [| | |exact H].
    - rewrite Hs, <- app_assoc. reflexivity.
    - rewrite len_app. lia.
    - apply Forall_app. split; auto. constructor; [|constructor]. intros w z. split; [eauto|]. cbn [s_start fst snd]. split; [exact Hst|].
      exists pre, x. split; [exact Hs|]. cbn [s_start s_end fst snd]. rewrite len_app. split; reflexivity. }
  destruct (N.eqb_spec c 10) as [->|_].
  { set (st' := if head_is 42 (trim_start l1) && negb (head_is 47 (tl (trim_start l1))) then tl (trim_start l1) else trim_start l1).
    assert (Hsuf : exists p, l1 = p ++ st').
    { destruct (trim_start_suffix l1) as (p & Hp). unfold st'. destruct (head_is 42 (trim_start l1)) eqn:Eh; cbn [andb]; [|eauto].
      destruct (negb (head_is 47 (tl (trim_start l1)))); [|eauto]. destruct (trim_start l1) as [|y t]; [discriminate|]. exists (p ++ [y]). rewrite <- app_assoc. exact Hp. }
    destruct Hsuf as (p & Hp). clearbody st'. replace (len pre + 1 + (len l1 - len st')) with (len (pre ++ 10 :: p)) by (rewrite len_app, len_cons, Hp, len_app; lia).
    intros H. eapply (IH (pre ++ 10 :: p)); [| |exact Hn|exact H].
    - rewrite Hs, Hp, <- app_assoc. reflexivity.
    - rewrite len_app. lia. }
  destruct (char_len_pos c l1) as [C1 C2]. set (n := char_len (c :: l1)) in *.
  replace (len pre + N.of_nat n) with (len (pre ++ firstn n (c :: l1))) by (rewrite len_app; unfold len; rewrite firstn_length; lia).
  intros H. eapply (IH (pre ++ firstn n (c :: l1))); [| |exact Hn|exact H].
  - rewrite Hs, <- app_assoc. now rewrite firstn_skipn.
  - rewrite len_app. lia.
Qed.
End Str.

(** ** Numbers *)
Lemma int_shape k c r kind slice radix prefix : scan (munch_ideal k) (c :: r) = (kind, slice) ->
  (kind = KOct /\ radix = 8 /\ prefix = 1%nat) \/ (kind = KDec /\ radix = 10 /\ prefix = 0%nat) \/ (kind = KHex /\ radix = 16 /\ prefix = 2%nat) ->
  exists p ds, slice = p ++ ds /\ length p = prefix /\ skipn prefix slice = ds /\ radix_prefix p radix /\
    ((from_str_radix radix ds = if numeral radix ds <? 2 ^ 64 then ROk (numeral radix ds) else RPosOverflow) \/
     (radix = 8 /\ munch_ideal k = false /\ ~ Forall oct_digit ds /\ forall n, from_str_radix 8 ds <> ROk n)).
Proof.
  intros Hs Hk.
  assert (Hid : scan true (c :: r) = (kind, slice) -> exists p ds, slice = p ++ ds /\ length p = prefix /\ skipn prefix slice = ds /\ radix_prefix p radix /\
    from_str_radix radix ds = if numeral radix ds <? 2 ^ 64 then ROk (numeral radix ds) else RPosOverflow).
  { intros Ht. apply scan_int_shape in Ht. destruct Hk as [(-> & -> & ->)|[(-> & -> & ->)|(-> & -> & ->)]].
    - destruct Ht as (os & -> & Hn & Ho). exists [48], os. do 3 (split; [reflexivity|]). split; [right; left; auto|]. apply from_str_radix_numeral; auto; [lia|].
      intros x Hx. apply octal_digit_val. eapply forallb_In; eauto.
    - destruct Ht as (d & ds & -> & Hn & Ho). exists [], (d :: ds). do 3 (split; [reflexivity|]). split; [left; auto|]. apply from_str_radix_numeral; auto; [lia|discriminate|].
      intros x Hx. apply dec_digit_val. eapply forallb_In; eauto.
    - destruct Ht as (x & hs & -> & Hx & Hn & Ho). exists [48; x], hs. do 3 (split; [reflexivity|]). split.
      + right. right. split; auto. destruct Hx as [-> | ->]; auto.
      + apply from_str_radix_numeral; auto; [lia|]. intros y Hy. apply hex_digit_val. eapply forallb_In; eauto. }
  assert (Hid' : scan true (c :: r) = (kind, slice) -> exists p ds, slice = p ++ ds /\ length p = prefix /\ skipn prefix slice = ds /\ radix_prefix p radix /\
    ((from_str_radix radix ds = if numeral radix ds <? 2 ^ 64 then ROk (numeral radix ds) else RPosOverflow) \/
     (radix = 8 /\ munch_ideal k = false /\ ~ Forall oct_digit ds /\ forall n, from_str_radix 8 ds <> ROk n))).
  { intros H. destruct (Hid H) as (p & ds & H1 & H2 & H3 & H4 & H5). exists p, ds. auto 6. }
  destruct (munch_ideal k) eqn:Em; [auto|]. destruct (scan_false c r) as [Eq|(ds & rest2 & -> & -> & Hd & Hr2 & Hn & Ho & Ek & Es & Es2 & Ekt)].
  - rewrite Eq in Hs. auto.
  - rewrite Hs in Ek, Es. cbn [fst snd] in *. subst slice. rewrite Ekt in Ek.
    destruct (take_while is_octal ds) as [|o os] eqn:Eos; [subst kind; intuition discriminate|]. subst kind.
    destruct Hk as [(_ & -> & ->)|[(E & _)|(E & _)]]; try discriminate.
    exists [48], ds. do 3 (split; [reflexivity|]). split; [right; left; auto|]. right. split; auto. split; auto.
    rewrite <- (forallb_nP _ _ _ is_octal_iff). split; auto. now apply radix_not_octal.
Qed.

Lemma int_faults k src pre c r kind slice radix prefix rest v es a : scan (munch_ideal k) (c :: r) = (kind, slice) ->
  (kind = KOct /\ radix = 8 /\ prefix = 1%nat) \/ (kind = KDec /\ radix = 10 /\ prefix = 0%nat) \/ (kind = KHex /\ radix = 16 /\ prefix = 2%nat) ->
  src = pre ++ slice ++ rest -> cb_int radix prefix (len pre) slice rest = (v, es, a) ->
  Forall (fault k src (TInt v) (len pre, len pre + len slice)) es.
Proof.
  intros Hs Hk Hsrc. destruct (int_shape _ _ _ _ _ _ _ Hs Hk) as (p & ds & Hsl & Hp & Hsk & Hrp & Hv). unfold cb_int. rewrite Hsk.
  assert (Hlp : N.of_nat prefix = len p) by (unfold len; now rewrite Hp). rewrite Hlp. clear Hs Hk Hp Hsk Hlp.
  assert (Hr : reads src (len pre, len pre + len slice) (p ++ ds)) by (exists pre, rest; rewrite <- Hsl; auto).
  set (gl := match rest with [] => [] | _ => _ end).
  assert (Hg : forall n, Forall (fault k src (TInt n) (len pre, len pre + len slice)) gl).
  { intros n. unfold gl. destruct rest as [|d rest]; [constructor|]. destruct (is_alpha d || (d =? 95)) eqn:Ed; [|constructor].
    constructor; [|constructor]. split; [eauto|]. exists p, radix, ds, d, (take_while is_alpha rest). cbn [s_start s_end fst snd]. split; [exact Hr|]. split; [exact Hrp|].
    split; [reflexivity|]. split; [|split].
    - exists (pre ++ slice), (skipn (length (take_while is_alpha rest)) rest). cbn [s_start s_end fst snd]. rewrite len_app, len_cons. split; [|split; [reflexivity|lia]].
      rewrite Hsrc, <- app_assoc. do 2 f_equal. cbn [app]. f_equal. apply tw_split.
    - pose proof (glued_iff (d :: rest)) as [Hgl _]. destruct (Hgl Ed) as (c1 & t1 & E1 & H1). injection E1 as <- <-. exact H1.
    - rewrite Forall_forall. intros x Hx. apply is_alpha_iff. eapply forallb_In; [apply take_while_all|exact Hx]. }
  assert (Ho : from_str_radix radix ds = RPosOverflow \/ (forall n, from_str_radix radix ds <> ROk n) -> Forall (fault k src (TInt 0) (len pre, len pre + len slice)) (gl ++ [IntegerOutOfRange (len pre + len p, len pre + len slice)])).
  { intros Ho. apply Forall_app. split; [apply Hg|]. constructor; [|constructor]. split; [reflexivity|]. exists p, radix, ds. do 3 (split; [assumption || reflexivity|]).
    destruct Hv as [Hv|(H1 & H2 & H3 & _)]; [|right; auto]. left. destruct (N.ltb_spec (numeral radix ds) (2 ^ 64)) as [Hlt|Hge]; [|exact Hge]. exfalso.
    destruct Ho as [Ho|Ho]; [congruence|now apply Ho in Hv]. }
  destruct (from_str_radix radix ds) as [n| | |] eqn:Ef; intros [= <- <- <-]; auto; apply Ho; right; discriminate.
Qed.

Lemma float_faults k src pre slice rest tfm t es : src = pre ++ slice ++ rest -> cb_float tfm (len pre, len pre + len slice) slice = (t, es) ->
  Forall (fault k src (TFloat t) (len pre, len pre + len slice)) es.
Proof.
  intros Hs. unfold cb_float. destruct (rev slice) as [|c x] eqn:Er; [intros [= <- <-]; constructor|]. apply rev_last in Er.
  destruct ((c =? 102) || (c =? 70)) eqn:Ec; [|intros [= <- <-]; constructor]. intros [= <- <-]. destruct tfm; [constructor|]. constructor; [|constructor].
  split; [reflexivity|]. exists (rev x), c. split; [reflexivity|]. split; [exists pre, rest; rewrite <- Er; auto|]. unfold N_of_ascii. cbn. lia.
Qed.

Lemma line_faults k src pre slice rest tfm v es : src = pre ++ slice ++ rest -> cb_line tfm (len pre, len pre + len slice) slice = Done (v, es) ->
  Forall (fault k src (TLineComment v) (len pre, len pre + len slice)) es.
Proof.
  intros Hs. unfold cb_line.
  assert (Hf : forall v, Forall (fault k src (TLineComment v) (len pre, len pre + len slice)) (if negb tfm && starts_with [35] slice then [HashCommentOutsideTextFormat (len pre, len pre + len slice)] else [])).
  { intros w. destruct (negb tfm && starts_with [35] slice) eqn:E; [|constructor]. constructor; [|constructor]. apply andb_prop in E. destruct E as [_ E].
    split; [reflexivity|]. destruct slice as [|c sl]; [discriminate|]. cbn [starts_with] in E. exists w, sl. split; [reflexivity|].
    rewrite Bool.andb_true_r in E. apply N.eqb_eq in E. subst c. exists pre, rest. auto. }
  destruct (starts_with [47; 47] slice); [intros [= <- <-]; auto|]. destruct (starts_with [35] slice) eqn:E; [|discriminate]. intros [= <- <-]; auto.
Qed.

(** ** The lexer *)
Lemma fault_ends k src t tsp es : Forall (fault k src t tsp) es -> ends_by (s_end tsp) es.
Proof.
  intros H e sp Hi He. rewrite Forall_forall in H. specialize (H e Hi). destruct e; try discriminate; injection He as ->; destruct H as (_ & _ & H & _); exact H.
Qed.

Lemma fault_truth k src t tsp e : err_ok (len src) e -> In (Some t, tsp) (stream k src 0) -> fault k src t tsp e -> truth k src e.
Proof. intros He Hi Hf. split; [exact He|]. destruct e; try contradiction; try (right; eauto); eauto. Qed.

Lemma lex_faults k src pre s r s' : src = pre ++ l_rest s -> l_end s = len pre -> ends_by (l_end s) (l_errs s) ->
  lex_next k s = Done (r, s') ->
  exists new, l_errs s' = l_errs s ++ new /\ ends_by (l_end s') (l_errs s') /\
    match r with Some (Some t) => Forall (fault k src t (l_start s', l_end s')) new | _ => new = [] end.
Proof.
  intros Hsrc Hpos He Hn. pose proof (lexes_det _ _ _ _ Hn) as HL. destruct (lx_split _ _ _ _ HL) as (w0 & used0 & F1 & _ & F2 & F3 & _).
  assert (Hle : l_end s <= l_end s') by lia.
  assert (Hfin : l_end s' + len (l_rest s') = len src) by (rewrite Hsrc, F1, !len_app; lia). clear F1 F2 F3 w0 used0 HL.
  assert (Hk : forall new, l_errs s' = l_errs s ++ new -> (match r with Some (Some t) => Forall (fault k src t (l_start s', l_end s')) new | _ => new = [] end) ->
    exists new, l_errs s' = l_errs s ++ new /\ ends_by (l_end s') (l_errs s') /\
    match r with Some (Some t) => Forall (fault k src t (l_start s', l_end s')) new | _ => new = [] end).
  { intros new E1 E2. exists new. split; auto. split; auto. rewrite E1. apply ends_by_app. split; [eapply ends_by_le; eauto|].
    destruct r as [[t|]|]; [|subst; apply ends_by_nil|subst; apply ends_by_nil]. apply fault_ends in E2. exact E2. }
  pose proof (tw_split is_skip (l_rest s)) as Hsplit. unfold lex_next in Hn. set (w := take_while is_skip (l_rest s)) in *. set (l := skipn (length w) (l_rest s)) in *.
  destruct l as [|c r0] eqn:El.
  { injection Hn as <- <-. cbn [l_errs] in *. apply (Hk []); [now rewrite app_nil_r|reflexivity]. }
  destruct (scan_slice (munch_ideal k) c r0) as [Hsn Hsp].
  destruct (scan (munch_ideal k) (c :: r0)) as [kind slice] eqn:Es. cbn [snd] in *. destruct Hsp as (rest1 & Hr1).
  cbv zeta in Hn. assert (Hsk : skipn (length slice) (c :: r0) = rest1) by (rewrite Hr1; apply skip_app). rewrite Hsk in Hn.
  assert (Hs2 : src = (pre ++ w) ++ slice ++ rest1) by (rewrite Hsrc, Hsplit, Hr1, <- app_assoc; reflexivity).
  rewrite Hpos in Hn. replace (len pre + len w) with (len (pre ++ w)) in Hn by apply len_app. set (pre' := pre ++ w) in *.
  assert (Hlo : l_end s <= len pre') by (unfold pre'; rewrite len_app; lia). clearbody pre'.
  assert (Hplain : forall t, Done (Some t, {| l_rest := rest1; l_start := len pre'; l_end := len pre' + len slice; l_errs := l_errs s; l_tfm := l_tfm s; l_assert := l_assert s || false |}) = Done (r, s') ->
    exists new, l_errs s' = l_errs s ++ new /\ ends_by (l_end s') (l_errs s') /\
    match r with Some (Some t) => Forall (fault k src t (l_start s', l_end s')) new | _ => new = [] end).
  { intros t E. injection E as <- <-. apply (Hk []); [cbn [l_errs]; now rewrite app_nil_r|]. destruct t; auto. }
  assert (Hint : forall radix prefix,
    (kind = KOct /\ radix = 8 /\ prefix = 1%nat) \/ (kind = KDec /\ radix = 10 /\ prefix = 0%nat) \/ (kind = KHex /\ radix = 16 /\ prefix = 2%nat) ->
    (let '(v, es, asrt) := cb_int radix prefix (len pre') slice rest1 in
     Done (Some (Some (TInt v)), {| l_rest := rest1; l_start := len pre'; l_end := len pre' + len slice; l_errs := l_errs s ++ es; l_tfm := l_tfm s; l_assert := l_assert s || asrt |})) = Done (r, s') ->
    exists new, l_errs s' = l_errs s ++ new /\ ends_by (l_end s') (l_errs s') /\
    match r with Some (Some t) => Forall (fault k src t (l_start s', l_end s')) new | _ => new = [] end).
  { intros radix prefix Hrp E. destruct (cb_int radix prefix (len pre') slice rest1) as [[v es] asrt] eqn:Ec. injection E as <- <-. apply (Hk es); [reflexivity|].
    cbn [l_start l_end]. eapply int_faults; eauto. }
  assert (Hsh : kind = KQuote -> slice = [39] \/ slice = [34]).
  { intros ->. destruct (munch_ideal k); [now apply scan_int_shape in Es|]. destruct (scan_false c r0) as [Eq|(ds & rest2 & _ & _ & _ & _ & _ & _ & Ek & _ & _ & Ekt)].
    - rewrite Eq in Es. now apply scan_int_shape in Es.
    - rewrite Es, Ekt in Ek. cbn [fst] in Ek. destruct (take_while is_octal ds); discriminate. }
  assert (Hsb : kind = KBlock -> slice = [47; 42]).
  { intros ->. destruct (munch_ideal k); [now apply scan_int_shape in Es|]. destruct (scan_false c r0) as [Eq|(ds & rest2 & _ & _ & _ & _ & _ & _ & Ek & _ & _ & Ekt)].
    - rewrite Eq in Es. now apply scan_int_shape in Es.
    - rewrite Es, Ekt in Ek. cbn [fst] in Ek. destruct (take_while is_octal ds); discriminate. }
  destruct kind; try (now apply (Hplain _ Hn)); try (apply (Hint _ _) in Hn; [exact Hn|auto]).
  - destruct (cb_float (l_tfm s) (len pre', len pre' + len slice) slice) as [t es] eqn:Ec. injection Hn as <- <-. apply (Hk es); [reflexivity|].
    cbn [l_start l_end]. eapply float_faults; eauto.
  - destruct (str_loop _ _ _ _ _ _) as [[[[v fin] rest'] errs]| |] eqn:Ec; try discriminate. cbn [obind] in Hn. injection Hn as <- <-. cbn [l_end l_rest l_errs l_start] in *.
    assert (Hl1 : len slice = 1) by (destruct (Hsh eq_refl) as [-> | ->]; reflexivity).
    replace (len pre' + len slice) with (len (pre' ++ slice)) in Ec by apply len_app. rewrite <- (app_nil_r (l_errs s)) in Ec.
    destruct (str_faults k src (len pre') (S (length rest1)) (hd 0 slice) (pre' ++ slice) rest1 [] v fin rest' (l_errs s) [] (l_end s) errs) as (new & E1 & E2 & _); auto.
    + now rewrite <- app_assoc.
    + rewrite len_app. lia.
    + rewrite len_app. lia.
    + apply (Hk new); auto.
  - destruct (cb_line _ _ _) as [[v es]| |] eqn:Ec; try discriminate. cbn [obind] in Hn. injection Hn as <- <-. apply (Hk es); [reflexivity|].
    cbn [l_start l_end]. eapply line_faults; eauto.
  - destruct (block_loop _ _ _ _ _ _ _) as [[[[v fin] rest'] errs]| |] eqn:Ec; try discriminate. cbn [obind] in Hn. injection Hn as <- <-. cbn [l_end l_rest l_errs l_start] in *.
    assert (Hl1 : len slice = 2) by (now rewrite (Hsb eq_refl)).
    replace (len pre' + len slice) with (len (pre' ++ slice)) in Ec by apply len_app. rewrite <- (app_nil_r (l_errs s)) in Ec.
    destruct (block_faults k src (len pre') (S (length rest1)) (pre' ++ slice) rest1 1 None [] v fin rest' (l_errs s) [] errs) as (new & E1 & E2); auto.
    + now rewrite <- app_assoc.
    + rewrite len_app. lia.
    + apply (Hk new); auto.
Qed.
