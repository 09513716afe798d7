(** Tokens begin and end between characters (for C61). *)
From Coq Require Import ZifyBool ZifyN.
From Verif Require Import Base Utf8 Utf8Spec Errors Lex LexSpec PropsLex1 LexSafe Stream EdgeSpec.

Definition ascii7 (l : bytes) : Prop := Forall (fun c => c < 128) l.
(** [r] is what remains of [l] after a 7-bit byte. *)
Definition after7 (l r : bytes) : Prop := exists x c, l = x ++ c :: r /\ c < 128.

Lemma enc_bytes c : scalar_value c -> exists a t, encode_utf8 c = a :: t /\ ~ 128 <= a <= 191 /\ Forall (fun x => 128 <= x <= 191) t /\ (t <> [] -> 192 <= a).
Proof.
  intros H. destruct (encode_shape c H) as [[? ->]|[(a & c1 & -> & ?)|[(a & c1 & c2 & -> & ?)|(a & c1 & c2 & c3 & -> & ?)]]]; eexists _, _; (split; [reflexivity|]); (split; [lia|]); split; try (intros; lia || congruence).
  all: repeat (constructor; [lia|]); constructor.
Qed.
Lemma utf8_app x y : utf8_text x -> utf8_text y -> utf8_text (x ++ y).
Proof. intros (cs & H & ->) (ds & G & ->). exists (cs ++ ds). split; [apply Forall_app; auto|]. symmetry. apply flat_map_app. Qed.
Lemma utf8_nil : utf8_text [].
Proof. exists []. split; [constructor|reflexivity]. Qed.

(** A text can be cut where no continuation byte follows or a 7-bit byte precedes. *)
Definition cuttable (x y : bytes) : Prop :=
  x = [] \/ y = [] \/ (exists c r, y = c :: r /\ ~ 128 <= c <= 191) \/ (exists z c, x = z ++ [c] /\ c < 128).
Lemma utf8_cut x y : utf8_text (x ++ y) -> cuttable x y -> utf8_text x /\ utf8_text y.
Proof.
  intros (cs & H & E). revert x y E. induction cs as [|c cs IH]; intros x y E C.
  - apply app_eq_nil in E. destruct E as [-> ->]. split; apply utf8_nil.
  - inversion H as [|? ? Hc Hcs]; subst. cbn [flat_map] in E. destruct x as [|x0 x].
    { split; [apply utf8_nil|]. cbn [app] in E. subst y. exists (c :: cs). split; auto. }
    destruct (enc_bytes c Hc) as (a & t & Ee & Ha & Ht & Hl). rewrite Ee in E. cbn [app] in E. injection E as -> E.
    (* compare x with t *)
    assert (G : (exists x', x = t ++ x' /\ flat_map encode_utf8 cs = x' ++ y) \/ (exists u v, t = x ++ u :: v /\ y = u :: v ++ flat_map encode_utf8 cs)).
    { clear - E. revert t E. induction x as [|p x IHx]; intros t E.
      - destruct t as [|u v]; [left|right]; cbn [app] in *; [exists []; auto|exists u, v; auto].
      - destruct t as [|u v]; cbn [app] in *; [left; exists (p :: x); auto|]. injection E as -> E. destruct (IHx v E) as [(x' & -> & E')|(u' & v' & -> & E')]; [left; eauto|right; eauto]. }
    destruct G as [(x' & -> & E')|(u & v & -> & ->)].
    + destruct (IH Hcs x' y (eq_sym E')) as [U1 U2].
      { destruct C as [C|[C|[C|(z & c' & C & Cc)]]]; [discriminate|right; left; auto|right; right; left; auto|].
        destruct x' as [|w x'] using rev_ind; [left; auto|]. right; right; right. exists x', w. split; [reflexivity|].
        change (a :: t ++ x' ++ [w]) with ((a :: t) ++ x' ++ [w]) in C. rewrite app_assoc in C. apply app_inj_tail in C. destruct C as [_ ->]. exact Cc. }
      split; [|exact U2]. change (a :: t ++ x') with ((a :: t) ++ x'). apply utf8_app; [|exact U1]. exists [c]. split; [auto|]. cbn [flat_map]. now rewrite Ee, app_nil_r.
    + exfalso. apply Forall_app in Ht. destruct Ht as [Ht1 Ht2]. inversion Ht2; subst. assert (Ha' : 192 <= a) by (apply Hl; now destruct x).
      destruct C as [C|[C|[(c' & r' & C & Cc)|(z & c' & C & Cc)]]]; [discriminate|discriminate|injection C as <- _; lia|].
      destruct x as [|w x] using rev_ind.
      * destruct z as [|? [|? ?]]; cbn in C; try discriminate. injection C as <-. lia.
      * change (a :: x ++ [w]) with ((a :: x) ++ [w]) in C. apply app_inj_tail in C. destruct C as [_ ->]. apply Forall_app in Ht1. destruct Ht1 as [_ Ht1]. inversion Ht1; subst. lia.
Qed.
Lemma utf8_after l r : utf8_text l -> r = [] \/ after7 l r -> utf8_text r.
Proof.
  intros H [->|(x & c & -> & Hc)]; [apply utf8_nil|]. rewrite <- (app_nil_r x) in H. change (c :: r) with ([c] ++ r) in H. rewrite app_nil_r, app_assoc in H.
  apply utf8_cut in H; [tauto|]. right; right; right. eauto.
Qed.
Lemma utf8_ascii_head x r : ascii7 x -> utf8_text (x ++ r) -> utf8_text x /\ utf8_text r.
Proof.
  intros Hx H. apply utf8_cut; auto. destruct x as [|w x] using rev_ind; [left; auto|]. right; right; right. exists x, w. split; auto. apply Forall_app in Hx. destruct Hx as [_ Hx]. now inversion Hx.
Qed.
Lemma after7_app y l r : after7 l r -> after7 (y ++ l) r.
Proof. intros (x & c & -> & H). exists (y ++ x), c. now rewrite <- app_assoc. Qed.
Lemma ascii_after x r : ascii7 x -> x <> [] -> after7 (x ++ r) r.
Proof.
  intros Hx Hn. destruct x as [|w x] using rev_ind; [congruence|]. clear IHx. exists x, w. rewrite <- app_assoc. split; auto. apply Forall_app in Hx. destruct Hx as [_ Hx]. now inversion Hx.
Qed.

(** ** Lexemes *)
Lemma tw_ascii p l : (forall c, p c = true -> c < 128) -> ascii7 (take_while p l).
Proof. intros H. apply Forall_forall. intros c Hc. apply H. pose proof (take_while_all p l) as G. rewrite forallb_forall in G. auto. Qed.
Ltac cls := unfold is_ident_char, is_ident_start, is_alnum, is_alpha, is_hex, is_upper, is_lower, is_skip, is_octal, is_digit, in_range in *; lia.
Lemma digits_ascii l : ascii7 (take_while is_digit l).
Proof. apply tw_ascii. intros c H. cls. Qed.
Lemma exp_ascii l : ascii7 (scan_exponent l).
Proof.
  unfold scan_exponent. destruct l as [|e r]; [constructor|]. destruct ((e =? 101) || (e =? 69)) eqn:E; [|constructor]. destruct r as [|c r]; [constructor|].
  destruct (is_digit c); [constructor; [lia|apply digits_ascii]|]. destruct ((c =? 43) || (c =? 45)) eqn:E2; [|constructor].
  pose proof (digits_ascii r) as D. destruct (take_while is_digit r) as [|d ds]; [constructor|]. repeat (constructor; [lia|]). exact D.
Qed.
Lemma fs_ascii l : ascii7 (scan_fsuffix l).
Proof. unfold scan_fsuffix. destruct l as [|c r]; [constructor|]. destruct (_ || _) eqn:E; [|constructor]. constructor; [lia|constructor]. Qed.
Lemma frac_ascii l : ascii7 (scan_frac l).
Proof. unfold scan_frac. cbv zeta. apply Forall_app. split; [apply digits_ascii|]. apply Forall_app. split; [apply exp_ascii|apply fs_ascii]. Qed.
Lemma number_ascii i l : ascii7 (snd (scan_number i l)).
Proof.
  unfold scan_number. cbv zeta. pose proof (digits_ascii l) as D. set (ds := take_while is_digit l) in *. set (rest := skipn (length ds) l). clearbody rest.
  destruct (head_is 46 rest); cbn [snd]. { apply Forall_app. split; auto. constructor; [lia|apply frac_ascii]. }
  destruct (Nat.ltb 0 (length (scan_exponent rest))); cbn [snd]. { apply Forall_app. split; auto. apply Forall_app. split; [apply exp_ascii|apply fs_ascii]. }
  destruct (head_is 48 ds); cbn [snd].
  - destruct (Nat.ltb 0 (length (tl ds))); cbn [snd]. { destruct i; [|exact D]. constructor; [lia|]. apply tw_ascii. intros c H. cls. }
    destruct (head_sat (fun x => (x =? 120) || (x =? 88)) rest && head_sat is_hex (tl rest)) eqn:E; cbn [snd].
    + apply Forall_app. split; auto. apply Forall_app. split; [|apply tw_ascii; intros c H; clear - H; cls]. destruct rest as [|y rest]; [constructor|]. cbn [firstn]. constructor; [|constructor]. cbn [head_sat] in E. lia.
    + destruct (Nat.ltb 0 (length (scan_fsuffix rest))); cbn [snd]; auto. apply Forall_app. split; auto. apply fs_ascii.
  - destruct (Nat.ltb 0 (length (scan_fsuffix rest))); cbn [snd]; auto. apply Forall_app. split; auto. apply fs_ascii.
Qed.
Lemma punct_ascii c t : punct c = Some t -> c < 128.
Proof. unfold punct. repeat (match goal with |- context [if ?x =? ?y then _ else _] => destruct (N.eqb_spec x y); [lia|] end). discriminate. Qed.
Lemma conts_after l : match skipn (conts l) l with c :: _ => is_cont c = false | [] => True end.
Proof. induction l as [|c l IH]; cbn [conts]; [exact I|]. destruct (is_cont c) eqn:E; cbn [skipn]; auto. Qed.
(** After a lexeme. *)
Lemma scan_cut i c r kind slice rest : scan i (c :: r) = (kind, slice) -> c :: r = slice ++ rest ->
  rest = [] \/ after7 (c :: r) rest \/ exists d q, rest = d :: q /\ is_cont d = false.
Proof.
  intros E Hs. assert (HA : ascii7 slice -> rest = [] \/ after7 (c :: r) rest \/ exists d q, rest = d :: q /\ is_cont d = false).
  { intros H. right. left. rewrite Hs. apply ascii_after; auto. pose proof (proj1 (scan_slice i c r)) as Hn. now rewrite E in Hn. }
  unfold scan in E. destruct (is_ident_start c) eqn:E1.
  { injection E as <- <-. apply HA. constructor; [cls|]. apply tw_ascii. intros d Hd. cls. }
  destruct (is_digit c) eqn:E2. { apply HA. change slice with (snd (kind, slice)). rewrite <- E. apply number_ascii. }
  destruct ((c =? 39) || (c =? 34)) eqn:E3. { injection E as <- <-. apply HA. constructor; [lia|constructor]. }
  destruct ((c =? 46) && head_sat is_digit r) eqn:E4. { injection E as <- <-. apply HA. constructor; [lia|apply frac_ascii]. }
  assert (HL : forall p q, c :: r = p ++ q -> slice = p ++ scan_line q -> rest = [] \/ after7 (c :: r) rest \/ exists d q, rest = d :: q /\ is_cont d = false).
  { intros p q Hp ->. rewrite Hp in Hs. rewrite <- app_assoc in Hs. apply app_inv_head in Hs. unfold scan_line in Hs. cbv zeta in Hs.
    pose proof (tw_split (fun c => negb (c =? 10)) q) as Hq. destruct (skipn (length (take_while (fun c => negb (c =? 10)) q)) q) as [|d q'] eqn:Es.
    - left. rewrite app_nil_r in Hq. rewrite Hq in Hs at 1. rewrite <- (app_nil_r (take_while _ q)) in Hs at 1. apply app_inv_head in Hs. auto.
    - right. left. exists (p ++ take_while (fun c => negb (c =? 10)) q), 10. split; [|lia]. rewrite Hp, <- app_assoc. f_equal. rewrite Hs at 1. now rewrite <- app_assoc. }
  destruct (c =? 35) eqn:E5. { injection E as <- <-. apply (HL [c] r); reflexivity. }
  destruct ((c =? 47) && head_is 47 r) eqn:E6.
  { injection E as <- <-. destruct r as [|d r]; [cbn in E6; lia|]. cbn [head_is] in E6. cbn [tl] in *. apply (HL [c; d] r); [reflexivity|]. assert (c = 47) by lia. assert (d = 47) by lia. subst. reflexivity. }
  destruct ((c =? 47) && head_is 42 r) eqn:E7. { injection E as <- <-. apply HA. repeat (constructor; [lia|]). constructor. }
  destruct (punct c) as [t|] eqn:E8. { injection E as <- <-. apply HA. constructor; [now apply punct_ascii in E8|constructor]. }
  injection E as <- <-. assert (Hr : rest = skipn (char_len (c :: r)) (c :: r)).
  { apply (app_inv_head (firstn (char_len (c :: r)) (c :: r))). rewrite firstn_skipn. auto. }
  cbn [char_len skipn] in Hr. pose proof (conts_after r) as G. rewrite <- Hr in G. destruct rest as [|d q]; [auto|]. right. right. eauto.
Qed.

(** ** Strings and comments *)
Lemma str_cut (G : bytes -> Prop) f : forall q off l acc es v fin r es', str_loop f q off l acc es = Done (v, fin, r, es') ->
  G [] -> (forall r0, after7 l r0 -> G r0) -> G r.
Proof.
  induction f as [|f IH]; intros q off l acc es v fin r es' E G0 GA; [discriminate|]. cbn [str_loop] in E. destruct l as [|c l]; [now injection E as _ _ <- _|].
  assert (GS : forall n r0, after7 (skipn n (c :: l)) r0 -> G r0).
  { intros n r0 H. apply GA. rewrite <- (firstn_skipn n (c :: l)). now apply after7_app. }
  destruct (str_comp (c :: l)) as [t|tc sl|tv sl|tv sl|sl|] eqn:Ec; try discriminate; try (eapply IH; [exact E|exact G0|apply GS]).
  - destruct (tc =? q); [|eapply IH; [exact E|exact G0|apply GS]]. injection E as _ _ <- _. apply GA. unfold str_comp in Ec. destruct (c =? 92) eqn:E1.
    { exfalso. clear - Ec. unfold str_escape, unicode_escape in Ec. repeat match type of Ec with context [match ?x with _ => _ end] => destruct x; try discriminate end. }
    destruct ((c =? 39) || (c =? 34)) eqn:E2; [|destruct (is_unescaped c); discriminate]. injection Ec as <- <-. cbn [length skipn]. exists [], c. split; [reflexivity|lia].
  - destruct (existsb (N.eqb 10) sl) eqn:Ex; [|eapply IH; [exact E|exact G0|apply GS]]. injection E as _ _ <- _. apply GA. unfold str_comp in Ec. destruct (c =? 92) eqn:E1.
    { exfalso. clear - Ec Ex. assert (H92 : forall x, existsb (N.eqb 10) x = false -> existsb (N.eqb 10) (92 :: x) = false) by (intros x H; cbn; exact H).
      assert (HD : forall p n x, (forall d, p d = true -> d <> 10) -> existsb (N.eqb 10) (take_while p (firstn n x)) = false).
      { intros p n x Hp. apply Bool.not_true_is_false. intros He. apply existsb_exists in He. destruct He as (d & Hd & He). apply N.eqb_eq in He. subst d.
        pose proof (take_while_all p (firstn n x)) as Ht. rewrite forallb_forall in Ht. exact (Hp _ (Ht _ Hd) eq_refl). }
      unfold str_escape in Ec. destruct l as [|d l]; [injection Ec as <-; discriminate|].
      destruct ((d =? 120) || (d =? 88)). { destruct (head_sat is_hex l); [|injection Ec as <-; discriminate]. destruct (hex_value _) as [h|]; [destruct (h <? 256); discriminate|discriminate]. }
      destruct (is_octal d). { destruct (from_str_radix _ _) as [h| | |]; try discriminate. destruct (h <? 256); [discriminate|]. injection Ec as <-. rewrite H92 in Ex; [discriminate|]. apply (HD is_octal 3%nat (d :: l)). intros y Hy ->. cls. }
      destruct (is_char_escape d). { destruct (char_escape d); discriminate. }
      assert (HU : forall n, (d =? 10) = false -> all_hex n l = true -> unicode_escape (92 :: d :: firstn n l) = SErr sl -> False).
      { intros n Hd Ha Hu. unfold unicode_escape in Hu. destruct (hex_value _) as [h|]; [|discriminate]. destruct (is_scalar h); [discriminate|]. injection Hu as <-.
        rewrite H92 in Ex; [discriminate|]. cbn [existsb]. rewrite N.eqb_sym, Hd. cbn [orb]. apply Bool.not_true_is_false. intros He. apply existsb_exists in He. destruct He as (y & Hy & He). apply N.eqb_eq in He. subst y.
        unfold all_hex in Ha. apply andb_prop in Ha. destruct Ha as [_ Ha]. rewrite forallb_forall in Ha. apply Ha in Hy. cls. }
      destruct ((d =? 117) && all_hex 4 l) eqn:E4. { apply andb_prop in E4. destruct E4 as [E4 E5]. eapply HU; [|exact E5|exact Ec]. lia. }
      destruct ((d =? 85) && all_hex 8 l) eqn:E6. { apply andb_prop in E6. destruct E6 as [E6 E7]. eapply HU; [|exact E7|exact Ec]. lia. }
      injection Ec as <-. discriminate. }
    destruct ((c =? 39) || (c =? 34)) eqn:E2; [discriminate|]. destruct (is_unescaped c) eqn:E3; [discriminate|]. injection Ec as <-. cbn [existsb] in Ex. cbn [length skipn]. exists [], c. split; [reflexivity|]. lia.
Qed.
Lemma block_cut (G : bytes -> Prop) f : forall off l d le acc es v fin r es', block_loop f off l d le acc es = Done (v, fin, r, es') ->
  G [] -> (forall e r0, le = Some (e, r0) -> G r0) -> (forall r0, after7 l r0 -> G r0) -> G r.
Proof.
  induction f as [|f IH]; intros off l d le acc es v fin r es' E G0 GL GA; [discriminate|]. cbn [block_loop] in E. destruct l as [|c l].
  { destruct le as [[e r0]|]; injection E as _ _ <- _; eauto. }
  assert (GS : forall y z, c :: l = y ++ z -> forall r0, after7 z r0 -> G r0). { intros y z Ey r0 H. apply GA. rewrite Ey. now apply after7_app. }
  destruct ((c =? 42) && head_is 47 l) eqn:E1.
  { destruct l as [|c2 l]; [cbn in E1; lia|]. cbn [tl head_is] in *. cbv zeta in E. set (w := take_while is_skip l) in *. pose proof (tw_split is_skip l) as Hw. fold w in Hw.
    assert (Hp : after7 (c :: c2 :: l) (skipn (length w) l)).
    { rewrite Hw at 1. change (c :: c2 :: w ++ skipn (length w) l) with ((c :: c2 :: w) ++ skipn (length w) l). apply ascii_after; [|discriminate]. repeat (constructor; [lia|]). apply tw_ascii. intros y Hy. cls. }
    destruct (d =? 1); [injection E as _ _ <- _; auto|]. eapply IH; [exact E|exact G0| |].
    - intros e r0 [= <- <-]. auto.
    - apply (GS (c :: c2 :: w)). cbn [app]. now rewrite <- Hw. }
  destruct ((c =? 47) && head_is 42 l). { destruct l as [|c2 l]; [cbn [tl] in E; eapply IH; [exact E|exact G0|exact GL|apply (GS [c]); reflexivity]|]. eapply IH; [exact E|exact G0|exact GL|apply (GS [c; c2]); reflexivity]. }
  destruct (c =? 10).
  - cbv zeta in E. destruct (trim_start_suffix l) as (p & Hp). destruct (head_is 42 (trim_start l) && negb (head_is 47 (tl (trim_start l)))).
    + eapply IH; [exact E|exact G0|exact GL|]. destruct (trim_start l) as [|y z]; [intros r0 (x & c' & Hx & _); now destruct x|]. apply (GS (c :: p ++ [y])). cbn [app tl]. rewrite <- app_assoc. cbn [app]. now rewrite <- Hp.
    + eapply IH; [exact E|exact G0|exact GL|]. apply (GS (c :: p)). cbn [app]. now rewrite <- Hp.
  - eapply IH; [exact E|exact G0|exact GL|]. apply (GS (firstn (char_len (c :: l)) (c :: l))). symmetry. apply firstn_skipn.
Qed.

(** ** Tokens *)
Lemma lex_cut k s r s' : lex_next k s = Done (r, s') -> utf8_text (l_rest s) ->
  exists w, l_rest s = w ++ skipn (length w) (l_rest s) /\ l_start s' = l_end s + len w /\ utf8_text w /\ utf8_text (skipn (length w) (l_rest s)) /\ utf8_text (l_rest s').
Proof.
  intros E U. exists (take_while is_skip (l_rest s)). pose proof (tw_split is_skip (l_rest s)) as Hw. split; [exact Hw|].
  rewrite Hw in U. apply utf8_ascii_head in U; [|apply tw_ascii; intros c H; cls]. destruct U as [U1 U2].
  unfold lex_next in E. cbv zeta in E. set (w := take_while is_skip (l_rest s)) in *. destruct (skipn (length w) (l_rest s)) as [|c l] eqn:El.
  { injection E as _ <-. cbn [l_start l_rest]. repeat split; auto. }
  destruct (scan (munch_ideal k) (c :: l)) as [kd sl] eqn:Es. pose proof (proj2 (scan_slice (munch_ideal k) c l)) as Hs. rewrite Es in Hs. cbn [snd] in Hs. destruct Hs as (rest1 & Hr1).
  assert (Hsk : skipn (length sl) (c :: l) = rest1) by (rewrite Hr1; apply skip_app). rewrite Hsk in E.
  pose proof (scan_cut _ _ _ _ _ _ Es Hr1) as Hc. assert (U3 : utf8_text rest1).
  { destruct Hc as [Hc|[Hc|(d & q & -> & Hd)]]; [apply (utf8_after _ _ U2); auto|apply (utf8_after _ _ U2); auto|]. rewrite Hr1 in U2. apply (utf8_cut sl (d :: q)); auto. right; right; left. exists d, q. split; auto.
    unfold is_cont, in_range in Hd. lia. }
  assert (HK : l_start s' = l_end s + len w /\ utf8_text (l_rest s')); [|tauto].
  destruct kd.
  1,2,8,11: injection E as _ <-; auto.
  1,2,3: destruct (cb_int _ _ _ _ _) as [[v es] a]; injection E as _ <-; auto.
  - destruct (cb_float _ _ _) as [v es]; injection E as _ <-; auto.
  - destruct (str_loop _ _ _ _ _ _) as [[[[v1 v2] v3] v4]| |] eqn:Eq; cbn [obind] in E; try discriminate. injection E as _ <-. split; [reflexivity|]. cbn [l_rest].
    apply (str_cut utf8_text _ _ _ _ _ _ _ _ _ _ Eq); [apply utf8_nil|]. intros r0 Hr0. apply (utf8_after _ _ U3). auto.
  - destruct (cb_line _ _ _) as [[v es]| |]; cbn [obind] in E; try discriminate. injection E as _ <-; auto.
  - destruct (block_loop _ _ _ _ _ _ _) as [[[[v1 v2] v3] v4]| |] eqn:Eq; cbn [obind] in E; try discriminate. injection E as _ <-. split; [reflexivity|]. cbn [l_rest].
    apply (block_cut utf8_text _ _ _ _ _ _ _ _ _ _ _ Eq); [apply utf8_nil|discriminate|]. intros r0 Hr0. apply (utf8_after _ _ U3). auto.
Qed.

(** ** Boundaries *)

Theorem stream_boundary k src : utf8_text src -> forall x, In x (stream k src 0) -> char_boundary src (s_start (snd x)) /\ char_boundary src (s_end (snd x)).
Proof.
  intros U. assert (G : forall s, forall pre, src = pre ++ l_rest s -> l_end s = len pre -> utf8_text pre -> utf8_text (l_rest s) ->
    forall x, In x (stream k (l_rest s) (l_end s)) -> char_boundary src (s_start (snd x)) /\ char_boundary src (s_end (snd x))).
  { apply (lex_ind k (fun s => forall pre, src = pre ++ l_rest s -> l_end s = len pre -> utf8_text pre -> utf8_text (l_rest s) ->
      forall x, In x (stream k (l_rest s) (l_end s)) -> char_boundary src (s_start (snd x)) /\ char_boundary src (s_end (snd x)))).
    - intros s s' H pre _ _ _ _ x Hx. rewrite (stream_step _ _ _ _ (lx_eq _ _ _ _ H)) in Hx. destruct Hx.
    - intros s t s' H IH pre Hp He Up Ur x Hx. rewrite (stream_step _ _ _ _ (lx_eq _ _ _ _ H)) in Hx.
      destruct (lex_cut _ _ _ _ (lx_eq _ _ _ _ H) Ur) as (w & Hw & Hst & Uw & Ul & Ur').
      destruct (lx_split _ _ _ _ H) as (w' & used & Hsp & _ & Hs1 & He1 & _).
      assert (Lw : len w' = len w) by lia.
      assert (Ew : w' = w).
      { assert (L : length w' = length w) by (unfold len in Lw; lia).
        assert (FA : forall a c : bytes, firstn (length a) (a ++ c) = a) by (intros a c; now rewrite firstn_app, Nat.sub_diag, firstn_O, app_nil_r, firstn_all).
        pose proof (FA w (skipn (length w) (l_rest s))) as F1. rewrite <- Hw in F1. pose proof (FA w' (used ++ l_rest s')) as F2. rewrite <- Hsp, L in F2. congruence. }
      subst w'. assert (Hu : skipn (length w) (l_rest s) = used ++ l_rest s') by (rewrite Hsp; apply skip_app). rewrite Hu in Ul.
      assert (Uu : utf8_text (pre ++ w ++ used)).
      { apply utf8_app; [exact Up|]. apply utf8_app; [exact Uw|]. destruct (utf8_cut used (l_rest s') Ul); auto.
        destruct Ur' as (cs & Hc & Ec). destruct cs as [|c cs]; [right; left; exact Ec|]. inversion Hc; subst. destruct (enc_bytes c) as (a & q & Ee & Ha & _); auto.
        right; right; left. exists a, (q ++ flat_map encode_utf8 cs). split; [|exact Ha]. rewrite Ec. cbn [flat_map]. now rewrite Ee. }
      destruct Hx as [<-|Hx].
      + cbn [snd s_start s_end fst]. split.
        * exists (pre ++ w), (used ++ l_rest s'). rewrite Hst, He, len_app, <- app_assoc, <- Hsp. repeat split; auto. now apply utf8_app.
        * exists (pre ++ w ++ used), (l_rest s'). rewrite He1, Hst, He, !len_app, <- !app_assoc, <- Hsp. repeat split; auto. lia.
      + apply (IH (pre ++ w ++ used)); auto.
        * rewrite <- !app_assoc, <- Hsp. exact Hp.
        * rewrite He1, Hst, He, !len_app. lia. }
  apply (G (lex_init src) []); auto. apply utf8_nil.
Qed.
