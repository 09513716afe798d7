(** Lemmas for C63: what the writer writes is a sentence of the grammar that means the descriptor. *)
From Coq Require Import ZifyBool ZifyN.
From Verif Require Import Base Utf8 Utf8Spec Errors Lex Ast Descriptor LexSpec Decimal Grammar Meaning WriteSpec CharEdge GenProofs.

Local Existing Instance any_comments.
Definition T (t : token) : tk := (t, (0, 0), false).
Definition tks (ts : list token) : list tk := map T ts.
Lemma tks_app x y : tks (x ++ y) = tks x ++ tks y. Proof. apply map_app. Qed.
Lemma tks_cons t x : tks (t :: x) = sym t (0, 0) ++ tks x. Proof. reflexivity. Qed.
Lemma tks_one t : tks [t] = sym t (0, 0). Proof. reflexivity. Qed.
Definition c0 : acomments := {| ac_detached := []; ac_leading := None; ac_trailing := None |}.

(** ** Lists *)
Definition meets {A B} (g : list tk -> A -> Prop) (R : A -> B -> Prop) (ts : list token) (x : B) : Prop := exists a, g (tks ts) a /\ R a x.
Lemma sep_w {A B} sep (g : list tk -> A -> Prop) (R : A -> B -> Prop) (w : B -> list token) l : l <> [] -> (forall x, In x l -> meets g R (w x) x) ->
  exists la, g_sep sep g (tks (separated sep (map w l))) la /\ Forall2 R la l.
Proof.
  intros Hn H. induction l as [|x l IH]; [congruence|]. destruct (H x) as (a & G & Ra); [now left|]. destruct l as [|y l].
  - exists [a]. split; [now constructor|repeat constructor; auto].
  - destruct IH as (la & Gl & Rl); [discriminate|intros; apply H; now right|]. exists (a :: la). split; [|now constructor].
    change (separated sep (map w (x :: y :: l))) with (w x ++ sep :: separated sep (map w (y :: l))). rewrite tks_app, tks_cons. now constructor.
Qed.
Lemma many_w {A B} (g : list tk -> A -> Prop) (R : A -> B -> Prop) (w : B -> list token) l : (forall x, In x l -> meets g R (w x) x) ->
  exists la, g_many g (tks (flat_map w l)) la /\ Forall2 R la l.
Proof.
  intros H. induction l as [|x l IH]; [exists []; split; constructor|]. destruct (H x) as (a & G & Ra); [now left|]. destruct IH as (la & Gl & Rl); [intros; apply H; now right|].
  exists (a :: la). split; [|now constructor]. cbn [flat_map]. rewrite tks_app. now constructor.
Qed.
Lemma many_app {A} (g : list tk -> A -> Prop) ts l ts' l' : g_many g ts l -> g_many g ts' l' -> g_many g (ts ++ ts') (l ++ l').
Proof. induction 1; intros H'; [exact H'|]. rewrite <- app_assoc. cbn [app]. constructor; auto. Qed.
Lemma many_map {A B} (g : list tk -> A -> Prop) (g' : list tk -> B -> Prop) (c : A -> B) ts l : (forall ts a, g ts a -> g' ts (c a)) -> g_many g ts l -> g_many g' ts (map c l).
Proof. intros Hc. induction 1; constructor; auto. Qed.
Lemma F2_map {A B} (f : A -> B) la l : Forall2 (fun a x => f a = x) la l -> map f la = l.
Proof. induction 1; cbn; congruence. Qed.
Lemma F2_and {A B} (R S : A -> B -> Prop) la l : Forall2 (fun a x => R a x /\ S a x) la l -> Forall2 R la l /\ Forall2 S la l.
Proof. induction 1 as [|a x la l [H1 H2] H [IH1 IH2]]; split; constructor; auto. Qed.
Lemma F2_all {A B} (Q : A -> Prop) la (l : list B) : Forall2 (fun a _ => Q a) la l -> all Q la.
Proof. induction 1; cbn; auto. Qed.
Lemma F2_impl {A B} (R S : A -> B -> Prop) la l : (forall a x, R a x -> S a x) -> Forall2 R la l -> Forall2 S la l.
Proof. induction 2; constructor; auto. Qed.

(** ** Names *)
Lemma no_dot w : identifier w -> ~ In 46 w.
Proof. intros (c & r & -> & Hc & Hr) [E|Hi]; [subst; unfold letter_ in Hc; lia|]. rewrite Forall_forall in Hr. apply Hr in Hi. unfold name_char, letter_, dec_digit in Hi. lia. Qed.
Lemma dot_split_word w : ~ In 46 w -> dot_split w = [w].
Proof. induction w as [|c w IH]; intros H; [reflexivity|]. cbn. rewrite (proj2 (N.eqb_neq c 46)) by (intros ->; apply H; now left). rewrite IH by (intros Hi; apply H; now right). reflexivity. Qed.
Lemma dot_split_app w r : ~ In 46 w -> dot_split (w ++ 46 :: r) = w :: dot_split r.
Proof. induction w as [|c w IH]; intros H; cbn; [reflexivity|]. rewrite (proj2 (N.eqb_neq c 46)) by (intros ->; apply H; now left). rewrite IH by (intros Hi; apply H; now right). reflexivity. Qed.
Lemma dot_split_words ws : ws <> [] -> Forall identifier ws -> dot_split (separated 46 ws) = ws.
Proof.
  intros Hn H. induction H as [|w ws Hw Hws IH]; [congruence|]. destruct ws as [|v ws]; [apply dot_split_word; now apply no_dot|].
  change (separated 46 (w :: v :: ws)) with (w ++ 46 :: separated 46 (v :: ws)). rewrite dot_split_app by now apply no_dot. now rewrite IH.
Qed.
Lemma dotted_separated ws : dotted ws = separated 46 ws.
Proof. induction ws as [|w ws IH]; [reflexivity|]. destruct ws as [|v ws]; [reflexivity|]. cbn [dotted separated] in *. rewrite IH. reflexivity. Qed.
Lemma name_w n : qualified n -> meets g_full_ident (fun a x => full_text a = x) (w_name n) n.
Proof.
  intros (ws & Hn & Hws & ->). unfold w_name. rewrite dot_split_words by auto.
  destruct (sep_w TDot g_ident (fun a x => id_val a = x) (fun w => [TIdent w]) ws Hn) as (la & G & F).
  { intros x _. exists {| id_val := x; id_span := (0, 0) |}. split; [constructor|reflexivity]. }
  exists la. split; [exact G|]. unfold full_text. rewrite (F2_map _ _ _ F). apply dotted_separated.
Qed.
Lemma not_dot n : qualified n -> exists c r, n = c :: r /\ c <> 46.
Proof.
  intros (ws & Hn & Hws & ->). destruct Hws as [|w ws Hw Hws]; [congruence|]. pose proof (no_dot _ Hw) as Hd. destruct Hw as (c & r & -> & Hc & _).
  destruct ws; eexists; eexists; (split; [reflexivity|]); intros ->; apply Hd; now left.
Qed.
Lemma type_w n : qualified n \/ absolute n -> meets g_type_name (fun a x => tname_text a = x) (w_type n) n.
Proof.
  intros [H|(m & -> & H)].
  - destruct (not_dot n H) as (c & r & E & Hc). unfold w_type. rewrite E. rewrite (proj2 (N.eqb_neq _ _) Hc). rewrite <- E. destruct (name_w n H) as (a & G & Ra).
    exists {| tn_dot := None; tn_name := a |}. split; [now constructor|exact Ra].
  - unfold w_type. rewrite N.eqb_refl. destruct (name_w m H) as (a & G & Ra). exists {| tn_dot := Some (0, 0); tn_name := a |}. split; [rewrite tks_cons; now constructor|]. unfold tname_text. cbn [tn_dot tn_name]. now rewrite Ra.
Qed.
Lemma type_ref_any ks n : type_ref ks n -> qualified n \/ absolute n.
Proof. intros [H|(w & ws & _ & H & ->)]; [now right|left]. exists (w :: ws). repeat split; auto. discriminate. Qed.
(** The first token of a written type. *)
Lemma type_first ks n ts : type_ref ks n -> exists t, first_tok (tks (w_type n ++ ts)) = Some t /\ forall s, In s ks -> t <> TIdent s.
Proof.
  intros [(m & -> & _)|(w & ws & Hk & H & ->)].
  - unfold w_type. rewrite N.eqb_refl. exists TDot. split; [reflexivity|discriminate].
  - assert (Hq : qualified (separated 46 (w :: ws))) by (exists (w :: ws); repeat split; auto; discriminate). destruct (not_dot _ Hq) as (c & r & E & Hc). unfold w_type. rewrite E. rewrite (proj2 (N.eqb_neq _ _) Hc). rewrite <- E.
    unfold w_name. rewrite dot_split_words by (auto; discriminate). exists (TIdent w). split; [destruct ws; reflexivity|]. intros s Hs [= ->]. contradiction.
Qed.
Lemma type_not_kw k0 n ts ks : type_ref k0 n -> (forall s, In s ks -> In s k0) -> not_kw ks (tks (w_type n ++ ts)).
Proof. intros H Hs s Hi. destruct (type_first k0 n ts H) as (t & -> & Ht). intros [= ->]. eapply Ht; eauto. Qed.

(** ** Numbers *)
Lemma Z_w z : meets g_int (fun a x => int_value a = x) (w_Z z) z.
Proof.
  unfold w_Z. destruct (z <? 0)%Z eqn:E.
  - exists {| i_neg := true; i_val := Z.to_N (- z); i_span := join_span (0, 0) (0, 0) |}. split; [rewrite tks_cons; apply g_neg|]. unfold int_value. cbn. lia.
  - exists {| i_neg := false; i_val := Z.to_N z; i_span := (0, 0) |}. split; [apply g_pos|]. unfold int_value. cbn. lia.
Qed.
Lemma if_within_in lo hi a z : int_value a = z -> (lo <= z <= hi)%Z -> if_within lo hi a = Some z.
Proof. intros <- H. unfold if_within, within. rewrite (proj2 (Z.leb_le _ _)) by lia. rewrite (proj2 (Z.leb_le _ _)) by lia. reflexivity. Qed.

(** ** Options *)
Lemma part_w p : part_ok p -> meets g_optname_part (fun a x => den_part a = x) (w_part p) p.
Proof.
  destruct p as [n [|]]; unfold part_ok, w_part; cbn [fst snd]; intros H.
  - destruct (type_w n H) as (a & G & Ra). exists (ONExtension a (join_span (0, 0) (0, 0))). split; [rewrite tks_cons, tks_app; now constructor|]. cbn [den_part]. now rewrite Ra.
  - exists (ONIdent {| id_val := n; id_span := (0, 0) |}). split; [constructor; constructor|reflexivity].
Qed.
Lemma setting_w k u : option_ok u -> meets (g_option_body k) (fun a x => den_option a = x /\ ok_option a) (w_setting u) u.
Proof.
  intros (Hn & Hp & H). destruct (sep_w TDot g_optname_part (fun a x => den_part a = x) w_part (uo_name u) Hn) as (la & G & F). { intros x Hx. apply part_w. rewrite Forall_forall in Hp. auto. }
  apply F2_map in F. assert (B : forall v, g_optval k (tks (w_value u)) v -> den_option {| ob_name := la; ob_value := v |} = u -> ok_option {| ob_name := la; ob_value := v |} -> meets (g_option_body k) (fun a x => den_option a = x /\ ok_option a) (w_setting u) u).
  { intros v Gv E O. exists {| ob_name := la; ob_value := v |}. split; [|auto]. unfold w_setting. rewrite tks_app, tks_cons. now constructor. }
  destruct H as [(i & Hi & E)|[(p & Hp' & E)|[(z & Hz & E)|[(s & Hs & E)|(neg & x & Hx & E)]]]].
  - apply (B (OVIdent false {| id_val := i; id_span := (0, 0) |} (0, 0))); [rewrite E; constructor|unfold den_option; cbn; rewrite F; now symmetry|exact I].
  - apply (B (OVInt {| i_neg := false; i_val := p; i_span := (0, 0) |})); [rewrite E; constructor; constructor|unfold den_option; cbn; rewrite F; now symmetry|]. unfold ok_option, int_value. cbn. lia.
  - apply (B (OVInt {| i_neg := true; i_val := Z.to_N (- z); i_span := join_span (0, 0) (0, 0) |})); [rewrite E; constructor; cbn [w_value uo_identifier uo_positive uo_negative]; rewrite tks_cons; constructor| |unfold ok_option, int_value; cbn; lia].
    unfold den_option. cbn [ob_value i_neg ob_name]. rewrite F. rewrite (if_within_in _ _ _ z); [now symmetry|unfold int_value; cbn; lia|lia].
  - apply (B (OVString {| st_val := s; st_span := (0, 0) |})); [rewrite E; constructor; constructor|unfold den_option; cbn; rewrite F; now symmetry|exact I].
  - apply (B (OVFloat {| fl_neg := neg; fl_text := x; fl_span := if neg then join_span (0, 0) (0, 0) else (0, 0) |})); [rewrite E; destruct neg; [unfold w_value; cbn [uo_identifier uo_positive uo_negative uo_double]; rewrite tks_cons|]; constructor|unfold den_option; cbn; rewrite F; now symmetry|exact I].
Qed.
Lemma option_w k u : option_ok u -> meets (g_option k) (fun a x => den_option (op_body a) = x /\ ok_option (op_body a)) (w_option u) u.
Proof.
  intros H. destruct (setting_w k u H) as (o & G & Ro). exists {| op_body := o; op_comments := c0; op_span := join_span (0, 0) (0, 0) |}. split; [|exact Ro].
  unfold w_option. rewrite tks_cons, tks_app. constructor; [exact G|exact I].
Qed.
Lemma options_w k o : options_ok o -> exists la, g_many (g_option k) (tks (flat_map w_option (items o))) la /\ den_options la = o /\ ok_options la.
Proof.
  intros H. destruct (many_w (g_option k) (fun a x => den_option (op_body a) = x /\ ok_option (op_body a)) w_option (items o)) as (la & G & F).
  { intros x Hx. apply option_w. destruct o as [l|]; [|destruct Hx]. destruct H as [_ H]. rewrite Forall_forall in H. auto. }
  exists la. split; [exact G|]. apply F2_and in F. destruct F as [F1 F2]. split; [|exact (F2_all _ _ _ F2)].
  unfold den_options. rewrite (F2_map (fun o => den_option (op_body o)) _ _ F1). destruct o as [[|x l]|]; cbn in *; auto. destruct H; congruence.
Qed.
Lemma settings_w k o : options_ok o -> exists ol, g_opt_options k (tks (w_settings o)) ol /\ den_optlist ol = o /\ ok_optlist ol /\ (o = None -> ol = None).
Proof.
  intros H. destruct o as [[|u l]|]; [destruct H; congruence| |exists None; repeat split; constructor]. destruct H as [_ H].
  destruct (sep_w TComma (g_option_body k) (fun a x => den_option a = x /\ ok_option a) w_setting (u :: l)) as (la & G & F); [discriminate|intros x Hx; apply setting_w; rewrite Forall_forall in H; auto|].
  apply F2_and in F. destruct F as [F1 F2]. exists (Some {| ol_options := la; ol_span := join_span (0, 0) (0, 0) |}). split; [|split; [|split; [exact (F2_all _ _ _ F2)|discriminate]]].
  - constructor. unfold w_settings, w_brackets. cbn [items]. change (match map w_setting (u :: l) with [] => [] | _ => TLeftBracket :: separated TComma (map w_setting (u :: l)) ++ [TRightBracket] end) with (TLeftBracket :: separated TComma (map w_setting (u :: l)) ++ [TRightBracket]).
    rewrite tks_cons, tks_app. now constructor.
  - unfold den_optlist, optlist_options. cbn [ol_options]. rewrite (F2_map _ _ _ F1). reflexivity.
Qed.

(** ** Reserved ranges and names *)
Lemma fm_sing {A B D} (f : B -> list D) (c : A -> B) (g : A -> D) l : (forall a, f (c a) = [g a]) -> flat_map f (map c l) = map g l.
Proof. intros H. induction l as [|x l IH]; [reflexivity|]. cbn. now rewrite H, IH. Qed.
Lemma fm_nil {A B D} (f : B -> list D) (c : A -> B) l : (forall a, f (c a) = []) -> flat_map f (map c l) = [].
Proof. intros H. induction l as [|x l IH]; [reflexivity|]. cbn. now rewrite H, IH. Qed.
Lemma range_w lo hi : exists i j, int_value i = lo /\ int_value j = hi /\ g_range (tks (w_range lo hi)) {| rr_start := i; rr_end := REInt j |}.
Proof. destruct (Z_w lo) as (i & Gi & Ei). destruct (Z_w hi) as (j & Gj & Ej). exists i, j. repeat split; auto. unfold w_range. rewrite tks_app, tks_cons. now constructor. Qed.
Lemma ranges_w {X} (den : rrange -> X) (okr : rrange -> Prop) (w : X -> list token) l :
  (forall x, In x l -> exists rr tr, w x = kw "reserved" :: tr ++ [TSemicolon] /\ g_range (tks tr) rr /\ den rr = x /\ okr rr) ->
  exists rs, g_many g_reserved (tks (flat_map w l)) rs /\ map den (flat_map res_ranges rs) = l /\ all okr (flat_map res_ranges rs) /\ flat_map res_names rs = [].
Proof.
  intros H. destruct (many_w g_reserved (fun a x => exists rr, rs_kind a = RKRanges [rr] /\ den rr = x /\ okr rr) w l) as (rs & G & F).
  { intros x Hx. destruct (H x Hx) as (rr & tr & Ew & Gr & Hd & Ho). exists {| rs_kind := RKRanges [rr]; rs_comments := c0; rs_span := join_span (0, 0) (0, 0) |}.
    split; [rewrite Ew, tks_cons, tks_app; constructor; [now constructor|exact I]|]. eexists. split; [reflexivity|]. auto. }
  exists rs. split; [exact G|]. clear -F. induction F as [|a x rs l (rr & E & E1 & E2) F (I1 & I2 & I3)]; [repeat split|]. cbn [flat_map]. unfold res_ranges at 1 3, res_names at 1. rewrite E. cbn. rewrite E1, I1. auto.
Qed.
Lemma ascii_utf8 v : ascii7 v -> utf8_text v.
Proof. intros H. exists v. split; [eapply Forall_impl; [|exact H]; unfold scalar_value; cbn; intros; lia|]. induction H as [|c v Hc Hv IH]; [reflexivity|]. cbn [flat_map]. rewrite <- IH. unfold encode_utf8. rewrite (proj2 (N.ltb_lt _ _) Hc). reflexivity. Qed.
Lemma name_char_word c : name_char c -> word_char c. Proof. unfold name_char, word_char, letter_, letter, dec_digit. lia. Qed.
Lemma reserved_word n : reserved_name_ok n -> word n /\ utf8_text n /\ octets n.
Proof.
  intros (c & r & -> & Hc & Hr). split; [exists c, r; split; [reflexivity|split; [exact Hc|eapply Forall_impl; [apply name_char_word|exact Hr]]]|].
  assert (A : ascii7 (c :: r)) by (constructor; [lia|eapply Forall_impl; [|exact Hr]; unfold name_char, letter_, dec_digit; cbn; intros; lia]). split; [now apply ascii_utf8|]. eapply Forall_impl; [|exact A]. cbn. lia.
Qed.
Lemma names_w l : Forall reserved_name_ok l -> exists rs, g_many g_reserved (tks (flat_map w_reserved_name l)) rs /\ den_reserved_names rs = l /\ flat_map res_ranges rs = [].
Proof.
  intros H. destruct (many_w g_reserved (fun a x => exists i, rs_kind a = RKNames [i] /\ id_val i = x) w_reserved_name l) as (rs & G & F).
  { intros x Hx. rewrite Forall_forall in H. destruct (reserved_word x (H x Hx)) as (H1 & H2 & _). exists {| rs_kind := RKNames [{| id_val := x; id_span := (0, 0) |}]; rs_comments := c0; rs_span := join_span (0, 0) (0, 0) |}.
    split; [|eexists; split; reflexivity]. unfold w_reserved_name. rewrite tks_cons. change (tks [TStr x; TSemicolon]) with (sym (TStr x) (0, 0) ++ sym TSemicolon (0, 0)). apply g_rnames; [|exact I]. constructor. constructor; [|exact H1].
    exact (g_utf8 _ {| st_val := x; st_span := (0, 0) |} (g_str x (0, 0)) H2). }
  exists rs. split; [exact G|]. unfold den_reserved_names. clear -F. induction F as [|a x rs l (i & E & E1) F (I1 & I2)]; [split; reflexivity|]. cbn [flat_map]. unfold res_ranges at 1, res_names at 1. rewrite E. cbn. rewrite E1, I1. auto.
Qed.

(** ** Enums *)
Lemma enum_value_w k v : enum_value_ok v -> meets (g_enum_value k) (fun a x => den_enum_value a = x /\ ok_enum_value a) (w_enum_value v) v.
Proof.
  intros ((n & En & _ & N1 & N2) & (z & Ez & Hz) & Ho). destruct (Z_w z) as (i & Gi & Ei). destruct (settings_w k _ Ho) as (ol & Go & Eo & Oo & _).
  exists {| ev_name := {| id_val := n; id_span := (0, 0) |}; ev_number := i; ev_options := ol; ev_comments := c0; ev_span := join_span (0, 0) (0, 0) |}.
  split; [unfold w_enum_value; rewrite En, Ez; cbn [text num]; rewrite !tks_cons, !tks_app; apply g_ev; auto; exact I|].
  split; [|split; [unfold ok_enum_number; cbn; lia|exact Oo]]. destruct v as [vn vv vo]. cbn in *. subst vn vv. unfold den_enum_value. cbn [ev_name ev_number ev_options id_val]. rewrite Eo. unfold den_enum_number. rewrite (if_within_in _ _ _ z) by (auto; lia). reflexivity.
Qed.
Lemma enum_w k e : enum_ok e -> meets (g_enum k) (fun a x => den_enum_ a = x /\ ok_enum a) (w_enum e) e.
Proof.
  intros ((n & En & _) & Hv & Ho & Hr & Hn).
  destruct (options_w k _ Ho) as (os & Go & Eo & Oo).
  destruct (many_w (g_enum_value k) (fun a x => den_enum_value a = x /\ ok_enum_value a) w_enum_value (e_value e)) as (vs & Gv & Fv); [intros x Hx; apply enum_value_w; rewrite Forall_forall in Hv; auto|].
  apply F2_and in Fv. destruct Fv as [Fv1 Fv2]. apply F2_map in Fv1. apply F2_all in Fv2.
  destruct (ranges_w den_enum_range ok_enum_range w_enum_range (e_reserved_range e)) as (rs & Gr & Er & Or & Nr).
  { intros x Hx. rewrite Forall_forall in Hr. destruct (Hr x Hx) as ((lo & El & Hl) & (hi & Eh & Hh)). destruct (range_w lo hi) as (i & j & Ei & Ej & Gr). exists {| rr_start := i; rr_end := REInt j |}, (w_range lo hi). split; [unfold w_enum_range; rewrite El, Eh; reflexivity|]. split; [exact Gr|]. unfold den_enum_range, ok_enum_range, den_enum_number, ok_enum_number. cbn [rr_start rr_end].
    rewrite (if_within_in _ _ i lo), (if_within_in _ _ j hi) by auto. split; [destruct x; cbn in *; congruence|lia]. }
  destruct (names_w _ Hn) as (ns & Gn & Enm & Nn).
  pose (l := map EEOption os ++ map EEValue vs ++ map EEReserved rs ++ map EEReserved ns).
  exists {| en_name := {| id_val := n; id_span := (0, 0) |}; en_options := flat_map (fun x => match x with EEOption o => [o] | _ => [] end) l; en_values := flat_map (fun x => match x with EEValue o => [o] | _ => [] end) l;
            en_reserved := flat_map (fun x => match x with EEReserved o => [o] | _ => [] end) l; en_comments := c0; en_span := join_span (0, 0) (0, 0) |}.
  split.
  - unfold w_enum, w_braces. rewrite En. cbn [text]. rewrite !tks_cons, tks_app. apply g_en; [|exact I]. rewrite !tks_app. unfold l. repeat apply many_app.
    + eapply many_map; [|exact Go]. intros; now constructor.
    + eapply many_map; [|exact Gv]. intros; now constructor.
    + eapply many_map; [|exact Gr]. intros; now constructor.
    + eapply many_map; [|exact Gn]. intros; now constructor.
  - assert (L1 : flat_map (fun x => match x with EEOption o => [o] | _ => [] end) l = os).
    { unfold l. rewrite !flat_map_app, (fm_sing _ _ (fun x => x)), !fm_nil, map_id, !app_nil_r by reflexivity. reflexivity. }
    assert (L2 : flat_map (fun x => match x with EEValue o => [o] | _ => [] end) l = vs).
    { unfold l. rewrite !flat_map_app, (fm_sing _ EEValue (fun x => x)), !fm_nil, map_id, !app_nil_r by reflexivity. reflexivity. }
    assert (L3 : flat_map (fun x => match x with EEReserved o => [o] | _ => [] end) l = rs ++ ns).
    { unfold l. rewrite !flat_map_app, !(fm_sing _ EEReserved (fun x => x)), !fm_nil, !map_id by reflexivity. reflexivity. }
    rewrite L1, L2, L3. unfold den_enum_, ok_enum. cbn [en_name en_values en_options en_reserved id_val]. unfold den_reserved_names in *. rewrite !flat_map_app, Nn, Nr, app_nil_r. cbn [app]. rewrite Eo, Fv1, Er, Enm. split; [destruct e; cbn in *; congruence|auto].
Qed.

(** ** Services *)
Lemma stream_w o n t : flag_ok o -> n = Some t -> type_ref (stream_words o) t -> exists cs a, g_stream (tks (match o with Some true => [kw "stream"] | _ => [] end ++ w_type t)) cs a /\ tname_text a = t /\ (if cs then Some true else None) = o.
Proof.
  intros Hf -> Ht. destruct (type_w t (type_ref_any _ _ Ht)) as (a & G & E). destruct Hf as [-> | ->].
  - exists None, a. cbn [app]. split; [|auto]. constructor; [exact G|]. rewrite <- (app_nil_r (w_type t)). eapply type_not_kw; [exact Ht|auto].
  - exists (Some (0, 0)), a. cbn [app]. split; [|auto]. rewrite tks_cons. now constructor.
Qed.
Lemma method_w k m : method_ok m -> meets (g_method k) (fun a x => den_method a = x /\ ok_options (me_options a)) (w_method m) m.
Proof.
  intros ((n & En & _) & (ti & Eti & Hti) & (to & Eto & Hto) & Ho & Hc & Hs).
  destruct (options_w k _ Ho) as (os & Go & Eo & Oo). destruct (stream_w _ _ _ Hc Eti Hti) as (cs & ai & Gi & Ei & Ec). destruct (stream_w _ _ _ Hs Eto Hto) as (ss & ao & Gs & Eso & Es).
  exists {| me_name := {| id_val := n; id_span := (0, 0) |}; me_input := ai; me_output := ao; me_options := somes (map Some os); me_client := cs; me_server := ss; me_comments := c0; me_span := join_span (0, 0) (0, 0) |}.
  assert (Es' : somes (map Some os) = os) by (unfold somes; rewrite (fm_sing _ _ (fun x => x)), map_id; reflexivity).
  split.
  - unfold w_method, w_stream. rewrite En, Eti, Eto. cbn [text]. rewrite app_assoc. set (x1 := _ ++ w_type ti) in *. rewrite (app_assoc _ (w_type to)). set (x2 := _ ++ w_type to) in *. clearbody x1 x2. cbn [app]. rewrite <- ?app_assoc. repeat first [rewrite tks_cons | rewrite tks_app]. change (tks []) with (@nil tk). cbn [app]. rewrite <- ?app_assoc. cbn [app]. apply g_me; auto; [|exact I].
    unfold w_braces. rewrite tks_cons, tks_app. constructor. eapply many_map; [|exact Go]. intros; now constructor.
  - split; [|cbn [me_options]; now rewrite Es']. unfold den_method. cbn. rewrite Es', Eo, Ei, Eso, Ec, Es. destruct m; cbn in *; congruence.
Qed.
Lemma service_w k s : service_ok s -> meets (g_service k) (fun a x => den_service_ a = x /\ ok_service a) (w_service s) s.
Proof.
  intros ((n & En & _) & Hm & Ho). destruct (options_w k _ Ho) as (os & Go & Eo & Oo).
  destruct (many_w (g_method k) (fun a x => den_method a = x /\ ok_options (me_options a)) w_method (s_method s)) as (ms & Gm & Fm); [intros x Hx; apply method_w; rewrite Forall_forall in Hm; auto|].
  apply F2_and in Fm. destruct Fm as [Fm1 Fm2]. apply F2_map in Fm1. apply F2_all in Fm2.
  pose (l := map SEOption os ++ map SEMethod ms).
  exists {| sv_name := {| id_val := n; id_span := (0, 0) |}; sv_options := flat_map (fun x => match x with SEOption o => [o] | _ => [] end) l; sv_methods := flat_map (fun x => match x with SEMethod o => [o] | _ => [] end) l; sv_comments := c0; sv_span := join_span (0, 0) (0, 0) |}.
  split.
  - unfold w_service, w_braces. rewrite En. cbn [text]. rewrite !tks_cons, tks_app. apply g_sv; [|exact I]. rewrite !tks_app. unfold l. apply many_app.
    + eapply many_map; [|exact Go]. intros; now constructor.
    + eapply many_map; [|exact Gm]. intros; now constructor.
  - assert (L1 : flat_map (fun x => match x with SEOption o => [o] | _ => [] end) l = os) by (unfold l; rewrite !flat_map_app, (fm_sing _ _ (fun x => x)), !fm_nil, map_id, !app_nil_r by reflexivity; reflexivity).
    assert (L2 : flat_map (fun x => match x with SEMethod o => [o] | _ => [] end) l = ms) by (unfold l; rewrite !flat_map_app, (fm_sing _ SEMethod (fun x => x)), !fm_nil, map_id by reflexivity; reflexivity).
    rewrite L1, L2. unfold den_service_, ok_service. cbn. rewrite Eo, Fm1. split; [destruct s; cbn in *; congruence|auto].
Qed.

(** ** Fields *)
Lemma sep_F2 {A} sep (g : list tk -> A -> Prop) lt la : lt <> [] -> Forall2 (fun ts a => g (tks ts) a) lt la -> g_sep sep g (tks (separated sep lt)) la.
Proof.
  intros Hn F. induction F as [|ts a lt la H F IH]; [congruence|]. destruct F as [|ts' a' lt la H' F]; [now constructor|].
  change (separated sep (ts :: ts' :: lt)) with (ts ++ sep :: separated sep (ts' :: lt)). rewrite tks_app, tks_cons. constructor; [exact H|]. apply IH. discriminate.
Qed.
Definition brackets (l : list optbody) : option optlist := match l with [] => None | _ => Some {| ol_options := l; ol_span := join_span (0, 0) (0, 0) |} end.
Lemma brackets_options l : optlist_options (brackets l) = l. Proof. destruct l; reflexivity. Qed.
Lemma brackets_w k lt la : Forall2 (fun ts a => g_option_body k (tks ts) a) lt la -> g_opt_options k (tks (w_brackets lt)) (brackets la).
Proof.
  intros F. destruct lt as [|t lt]; [inversion F; subst; constructor|]. assert (Hl : la <> []) by (inversion F; discriminate). destruct la as [|a la]; [congruence|]. constructor. unfold w_brackets. rewrite tks_cons, tks_app. constructor. apply sep_F2; [discriminate|exact F].
Qed.
Definition special (n : bytes) (v : optval) : optbody := {| ob_name := [ONIdent {| id_val := n; id_span := (0, 0) |}]; ob_value := v |}.
Lemma special_w k n v ts : g_optval k (tks ts) v -> g_option_body k (tks (TIdent n :: TEquals :: ts)) (special n v).
Proof. intros G. rewrite !tks_cons. apply g_ob; [|exact G]. constructor. constructor. constructor. Qed.
Lemma den_option_name o : ok_option o -> uo_name (den_option o) = map den_part (ob_name o).
Proof. unfold ok_option, den_option. destruct (ob_value o) as [[|]| | | |]; [contradiction|..]; try reflexivity. destruct (i_neg i); reflexivity. Qed.
Lemma not_called n o : ok_option o -> uo_name (den_option o) <> [(n, false)] -> called n o = false.
Proof.
  intros H Hn. rewrite den_option_name in Hn by auto. unfold called. destruct (ob_name o) as [|[i|t sp] [|? ?]]; try reflexivity. destruct (bytes_eqb (id_val i) n) eqn:E; [|reflexivity]. apply bytes_eqb_eq in E. subst n. now destruct Hn.
Qed.
Lemma find_none {A} (p : A -> bool) l : Forall (fun x => p x = false) l -> find p l = None.
Proof. induction 1 as [|x l H F IH]; cbn; [reflexivity|]. now rewrite H. Qed.
Lemma drop_none n l : Forall (fun x => called n x = false) l -> drop_called n l = l.
Proof. induction 1 as [|x l H F IH]; cbn; [reflexivity|]. now rewrite H, IH. Qed.
Lemma called_same n v : called n (special n v) = true. Proof. unfold called. cbn. apply bytes_eqb_refl. Qed.
Lemma called_dj v : called (b "json_name") (special (b "default") v) = false. Proof. reflexivity. Qed.
Lemma called_jd v : called (b "default") (special (b "json_name") v) = false. Proof. reflexivity. Qed.

Lemma tail_w k f (dv : option optval) : tail_ok f ->
  match f_default f with None => dv = None | Some v => exists x, dv = Some x /\ g_optval k (tks (w_default_value (f_type f) v)) x end ->
  exists ol, g_opt_options k (tks (w_brackets (w_field_settings f))) ol /\ forall fd : field, fd_options fd = ol ->
    option_map ob_value (default_of fd) = dv /\ f_json_name f = match json_of fd with Some o => den_string (ob_value o) | None => None end /\
    match json_of fd with None => True | Some o => den_string (ob_value o) <> None end /\
    den_optlist (rest_options fd) = f_options f /\ ok_optlist (rest_options fd).
Proof.
  intros (_ & _ & Hj & Ho & Hs) Hd.
  assert (R : exists rs, Forall2 (fun ts a => g_option_body k (tks ts) a) (map w_setting (items (f_options f))) rs /\ map den_option rs = items (f_options f) /\ all ok_option rs).
  { assert (Hf : Forall option_ok (items (f_options f))) by (destruct (f_options f); [apply Ho|constructor]). clear -Hf. induction Hf as [|u l Hu Hl (rs & I1 & I2 & I3)]; [exists []; repeat split; constructor|]. destruct (setting_w k u Hu) as (a & G & E & O). exists (a :: rs). cbn. rewrite E, I2. repeat split; auto. }
  destruct R as (rs & Fr & Er & Or).
  assert (Nd : (f_default f = None -> Forall (fun x => called (b "default") x = false) rs) /\ (f_json_name f = None -> Forall (fun x => called (b "json_name") x = false) rs)).
  { clear -Er Or Hs. rewrite <- Er in Hs. clear Er. induction rs as [|x rs IH]; [split; constructor|]. destruct Or as [O1 O2]. inversion Hs as [|? ? [H1 H2] H3]; subst. destruct (IH H3 O2). split; intros; constructor; auto; apply not_called; auto. }
  destruct Nd as [Nd Nj]. assert (Hdv : dv = None -> f_default f = None) by (intros ->; destruct (f_default f); [destruct Hd as (? & ? & _); discriminate|reflexivity]).
  pose (D := match dv with Some x => [special (b "default") x] | None => [] end).
  pose (J := match f_json_name f with Some s => [special (b "json_name") (OVString {| st_val := s; st_span := (0, 0) |})] | None => [] end).
  exists (brackets (D ++ J ++ rs)). split.
  - apply brackets_w. unfold w_field_settings. repeat apply Forall2_app; [| |exact Fr].
    + unfold D. destruct (f_default f) as [v|]; [destruct Hd as (x & -> & G)|subst dv; constructor]. constructor; [|constructor]. now apply special_w.
    + unfold J. destruct (f_json_name f) as [s|]; [|constructor]. constructor; [|constructor]. apply special_w. apply g_ovstring. constructor.
  - intros fd E. unfold default_of, json_of, rest_options. rewrite E, brackets_options.
    assert (FD : find (called (b "default")) (D ++ J ++ rs) = option_map (special (b "default")) dv).
    { unfold D. destruct dv as [x|]; [cbn [app find]; now rewrite called_same|]. unfold J. cbn [app]. destruct (f_json_name f); cbn [app find]; [rewrite called_jd|]; rewrite find_none by auto; reflexivity. }
    assert (FJ : find (called (b "json_name")) (D ++ J ++ rs) = option_map (fun s => special (b "json_name") (OVString {| st_val := s; st_span := (0, 0) |})) (f_json_name f)).
    { unfold D, J. destruct dv as [x|]; cbn [app find]; [rewrite called_dj|]; (destruct (f_json_name f); cbn [app find option_map]; [now rewrite called_same|rewrite find_none by auto; reflexivity]). }
    assert (DR : drop_called (b "json_name") (drop_called (b "default") (D ++ J ++ rs)) = rs).
    { assert (E1 : drop_called (b "default") (D ++ J ++ rs) = J ++ rs). { unfold D. destruct dv as [x|]; cbn [app drop_called]; [now rewrite called_same|]. apply drop_none. apply Forall_app. split; [|auto]. unfold J. destruct (f_json_name f); repeat constructor. }
      rewrite E1. unfold J. destruct (f_json_name f); cbn [app drop_called]; [now rewrite called_same|]. apply drop_none; auto. }
    rewrite FD, FJ. split; [destruct dv; reflexivity|]. split; [|split].
    + destruct (f_json_name f) as [s|]; [|reflexivity]. apply proj2, utf8_valid_iff in Hj. change (Some s = if utf8_valid s then Some s else None). now rewrite Hj.
    + destruct (f_json_name f) as [s|]; [|exact I]. apply proj2, utf8_valid_iff in Hj. change ((if utf8_valid s then Some s else None) <> None). rewrite Hj. discriminate.
    + assert (Eo : optlist_options (option_map (fun l => {| ol_options := drop_called (b "json_name") (drop_called (b "default") (ol_options l)); ol_span := ol_span l |}) (brackets (D ++ J ++ rs))) = rs).
      { rewrite <- DR at 2. generalize (D ++ J ++ rs). intros [|? ?]; reflexivity. }
      unfold den_optlist, ok_optlist. rewrite Eo, Er. split; [|exact Or]. destruct (f_options f) as [[|u l]|]; cbn in *; auto. destruct Ho. congruence.
Qed.
