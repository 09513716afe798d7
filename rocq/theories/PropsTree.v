(** C51: every part of every declaration is located, inside it and with its comments. *)
From Coq Require Import Sorting.Permutation.
From Verif Require Import Base SynSpec Utf8 Errors Lex LexSafe Ast Comments AttachSpec Parse Lines Descriptor Generate ParseApi Stream Grammar Walk WalkG3 Meaning Erase AstWf
  GenProofs AstWfG PropsParse DescSpec PropsDesc LocSpec PropsLoc AttachDecl PropsAttach AstNames AstNest LocTree.

Lemma each_app {A} keep doc ins pre (e : A -> elem) l l' : forall i, each keep doc ins pre e i (l ++ l') = each keep doc ins pre e i l ++ each keep doc ins pre e (i + len l) l'.
Proof.
  induction l as [|x l IH]; intros i; cbn [app each]; [now rewrite N.add_0_r|]. rewrite IH, <- app_assoc, len_cons. do 3 f_equal. lia.
Qed.
Lemma incl_app_l {A} (a c l : list A) : incl (a ++ c) l -> incl a l.
Proof. intros H x Hx. apply H, in_or_app. auto. Qed.
Lemma incl_app_r {A} (a c l : list A) : incl (a ++ c) l -> incl c l.
Proof. intros H x Hx. apply H, in_or_app. auto. Qed.
Lemma incl_cons_l {A} x (c l : list A) : incl (x :: c) l -> In x l.
Proof. intros H. apply H. now left. Qed.
Lemma incl_cons_r {A} x (c l : list A) : incl (x :: c) l -> incl c l.
Proof. intros H y Hy. apply H. now right. Qed.
Lemma all_to {A} (Q : A -> Prop) l : all Q l -> Forall Q l.
Proof. induction l as [|x l IH]; cbn; intros H; constructor; tauto. Qed.
Lemma Forall_app_l {A} (Q : A -> Prop) a c : Forall Q (a ++ c) -> Forall Q a.
Proof. intros H. now apply Forall_app in H. Qed.
Lemma Forall_app_r {A} (Q : A -> Prop) a c : Forall Q (a ++ c) -> Forall Q c.
Proof. intros H. now apply Forall_app in H. Qed.

Definition nocom : acomments := {| ac_detached := []; ac_leading := None; ac_trailing := None |}.
Lemma at_eq p sp : at_ p sp = (p, sp, nocom).
Proof. reflexivity. Qed.

Section Tree.
Variable k : cfg.
Variable syn : syntax.
Variable src : bytes.
Variable ls : list Z.
Hypothesis small : len src <= i32_max.
Hypothesis ls_ok : lines_new src = Done ls.
Variable R : list rawloc.
Variable locs : list location.
Hypothesis R_locs : forall x, In x R -> In (mk ls x) locs.
Hypothesis R_spans : forall p sp c, In (p, sp, c) R -> span_ok (len src) sp \/ sp = (len src, 0).
Hypothesis R_spans' : forall p sp c, p <> [] -> In (p, sp, c) R -> span_ok (len src) sp.

Notation p2 := (p2 syn).
Definition D (v : doc) : Prop :=
  let '(h, sp, c) := v in
  exists st t e, @com (com_of k src) st e c /\ In (Some t, e) (stream k src 0) /\ s_start sp = s_start st /\ head_end h t e sp.
Definition hd_docs (h : hkind) : docs := match h with HBrace => DocBlock | HStmt => DocStatement | HRpc => DocRpc end.
Notation placed := (placed k src p2 locs).
(** The child [c] of a node with the path [p] and the span [sp]. *)
Definition okc (p : list Z) (sp : span) (c : child) : Prop :=
  exists sp' co, In (p ++ c_path c, sp', co) R /\ documented k src (c_doc c) (mk ls (p ++ c_path c, sp', co)) /\
    (c_in c = true -> inn sp sp') /\ placed (mk ls (p ++ c_path c, sp', co)) (c_elem c).
Notation oks p sp l := (Forall (okc p sp) l).

Lemma node p sp co e : In (p, sp, co) R -> oks p sp (children p2 e) -> placed (mk ls (p, sp, co)) e.
Proof.
  intros Hr Ho. constructor. intros c Hc. rewrite Forall_forall in Ho. destruct (Ho _ Hc) as (sp' & co' & H1 & H2 & H3 & H4).
  exists (mk ls (p ++ c_path c, sp', co')). split; [apply R_locs, H1|]. split; [reflexivity|]. split; [exact H2|]. split; [|exact H4].
  intros Hin. specialize (H3 Hin).
  assert (S' : span_ok (len src) sp'). { eapply R_spans'; [|exact H1]. intros E. apply app_eq_nil in E. destruct E as [_ E].
    clear - Hc E. revert E. assert (G : forall c, In c (children p2 e) -> c_path c <> []); [|apply (G c Hc)]. clear. intros c Hc E.
    assert (GE : forall A keep doc ins pre (f : A -> elem) l i, In c (each keep doc ins pre f i l) -> False).
    { intros A keep doc ins pre f l. induction l as [|x l IH]; intros i H; [destruct H|]. cbn [each] in H. apply in_app_or in H. destruct H as [H|H]; [|eauto]. destruct (keep i x); [|destruct H].
      destruct H as [<-|[]]. cbn in E. destruct pre; discriminate. }
    assert (GS : forall A t doc (f : A -> elem) o, In c (if_set t doc f o) -> False). { intros A t doc f [x|] H; [|destruct H]. destruct H as [<-|[]]. discriminate. }
    assert (GO : forall doc ins t me o, In c (opts doc ins t me o) -> False). { intros doc ins t me [l|] H; [|destruct H]. destruct H as [<-|H]; [discriminate|eauto]. }
    destruct e as [d|m|f|o|x|r|e|v|s|m|en l|u|s|s| |l]; cbn [children] in Hc; try (destruct Hc; fail);
      repeat (match type of Hc with In _ (_ ++ _) => apply in_app_or in Hc; destruct Hc as [Hc|Hc] end); eauto.
    - destruct (m_options m); [eauto|destruct Hc].
    - destruct (f_extendee f); [|destruct Hc]. destruct Hc as [<-|[]]. discriminate.
    - destruct (label_written p2 f); [eauto|destruct Hc].
    - destruct (is_map f); [destruct Hc|eauto]. }
  assert (S : span_ok (len src) sp). { destruct (R_spans _ _ _ Hr) as [S|S]; [exact S|]. subst sp. destruct S' as [S1 S2]. destruct H3 as [I1 I2]. unfold span_ok, s_start, s_end in *. cbn [fst snd] in *. lia. }
  exists (s_start sp), (s_end sp), (s_start sp'), (s_end sp'). destruct H3, S, S'. split; [now apply mk_span|]. split; [now apply mk_span|]. auto.
Qed.
(** Leaves. *)
Lemma leaf p sp co e : In (p, sp, co) R -> match e with EOpts _ _ | EOpt _ | EName _ | EText _ | EVal | EList _ => True | _ => False end -> placed (mk ls (p, sp, co)) e.
Proof. intros H L. apply node; [exact H|]. destruct e; try destruct L; constructor. Qed.
Lemma nodoc p sp : documented k src NoDoc (mk ls (p, sp, nocom)).
Proof. repeat split. Qed.
Lemma doc_ok h p sp c : p <> [] -> In (p, sp, c) R -> D (h, sp, c) -> documented k src (hd_docs h) (mk ls (p, sp, c)).
Proof.
  intros Hp Hr (st & t & e & Hc & Hi & Hs & Hh). pose proof (R_spans' _ _ _ Hp Hr) as S. pose proof (mk_span src ls sp p c small ls_ok S) as E. destruct S as [S1 S2].
  assert (K : exists st t e en, comments_at (stream k src 0) st e {| ac_detached := loc_detached (mk ls (p, sp, c)); ac_leading := loc_leading (mk ls (p, sp, c)); ac_trailing := loc_trailing (mk ls (p, sp, c)) |} /\
      In (Some t, e) (stream k src 0) /\ s_start st <= en /\ en <= len src /\ loc_span (mk ls (p, sp, c)) = encode src (s_start st) en /\
      match hd_docs h with DocBlock => t = TLeftBrace | DocRpc => (t = TSemicolon \/ t = TRightBrace) /\ s_end e = en | _ => t = TSemicolon /\ s_end e = en end).
  { exists st, t, e, (s_end sp). split; [destruct c; exact Hc|]. split; [exact Hi|]. rewrite <- Hs. split; [exact S1|]. split; [exact S2|]. split; [exact E|]. destruct h; exact Hh. }
  destruct h; exact K.
Qed.

Lemma set_ok {A} t (e : A -> elem) o p sp : (forall x, o = Some x -> match e x with EName _ | EText _ | EVal => True | _ => False end /\ exists sp', In (at_ (p ++ [t]) sp') R /\ inn sp sp') -> oks p sp (if_set t NoDoc e o).
Proof.
  intros H. destruct o as [x|]; [|constructor]. destruct (H x eq_refl) as (He & sp' & H1 & H2). constructor; [|constructor]. exists sp', nocom. cbn [c_path c_elem c_doc c_in]. rewrite <- at_eq.
  split; [exact H1|]. split; [apply nodoc|]. split; [auto|]. apply leaf; [exact H1|]. destruct (e x); auto.
Qed.
Lemma set_one {A} t (e : A -> elem) x p sp sp' : match e x with EName _ | EText _ | EVal => True | _ => False end -> In (at_ (p ++ [t]) sp') R -> inn sp sp' -> oks p sp (if_set t NoDoc e (Some x)).
Proof. intros H1 H2 H3. apply set_ok. intros y [= <-]. split; eauto. Qed.
Lemma each_ok {A B} (den : A -> B) keep dc ins pre (e : B -> elem) (F : Z -> A -> list rawloc) p sp l : forall i, incl (l_idx F i l) R ->
  (forall j a, In a l -> incl (F (Z.of_N j) a) R -> keep j (den a) = true -> okc p sp {| c_path := pre ++ [Z.of_N j]; c_elem := e (den a); c_doc := dc (den a); c_in := ins |}) ->
  oks p sp (each keep dc ins pre e i (map den l)).
Proof.
  induction l as [|x l IH]; intros i Hi H; cbn [map each l_idx] in *; [constructor|]. apply Forall_app. split.
  - destruct (keep i (den x)) eqn:E; constructor; [|constructor]. apply H; [now left|now apply incl_app_l in Hi|exact E].
  - apply IH; [now apply incl_app_r in Hi|]. intros j a Ha. apply H. now right.
Qed.
Lemma idx_loc {A} (F : Z -> A -> list rawloc) l : forall i x, incl (l_idx F i l) R -> In x l -> exists j, incl (F (Z.of_N j) x) R.
Proof.
  induction l as [|y l IH]; intros i x Hi Hx; [destruct Hx|]. cbn [l_idx] in Hi. destruct Hx as [->|Hx]; [exists i; now apply incl_app_l in Hi|]. eapply IH; [eapply incl_app_r; exact Hi|exact Hx].
Qed.
Lemma snoc (p q : list Z) x : p ++ q ++ [x] <> [].
Proof. destruct p; [destruct q|]; discriminate. Qed.

(** ** Options *)
Lemma options_t p sp t me l : incl (l_options (p ++ [t]) l) R -> Forall D (flat_map d_option l) -> ns_options sp l -> oks p sp (opts DocStatement true t me (den_options l)).
Proof.
  intros Hi Hd Hn. unfold den_options. destruct l as [|o0 l0] eqn:E; [constructor|]. cbn [nonempty map]. rewrite <- E in Hi, Hd, Hn. constructor.
  - rewrite E in Hi, Hn. exists (op_span o0), nocom. cbn [c_path c_elem c_doc c_in]. assert (Hr : In (p ++ [t], op_span o0, nocom) R) by (apply Hi; now left).
    split; [exact Hr|]. split; [apply nodoc|]. split; [intros _; now inversion Hn|]. now apply leaf.
  - change (den_option (op_body o0) :: map (fun o => den_option (op_body o)) l0) with (map (fun o => den_option (op_body o)) (o0 :: l0)). rewrite <- E. eapply each_ok; [exact Hi|].
    intros j o Ho Hj _. exists (op_span o), (op_comments o). cbn [c_path c_elem c_doc c_in app].
    assert (Hr : In (p ++ [t; 999%Z; Z.of_N j], op_span o, op_comments o) R) by (apply Hj; right; left; now rewrite <- app_assoc).
    split; [exact Hr|]. split; [|split; [intros _; unfold ns_options in Hn; rewrite Forall_forall in Hn; now apply Hn|now apply leaf]]. apply (doc_ok HStmt); [apply (snoc p [t; 999%Z])|exact Hr|].
    rewrite Forall_forall in Hd. apply Hd. apply in_flat_map. exists o. split; [exact Ho|now left].
Qed.
Lemma optlist_t p sp t ins ol : incl (l_optlist (p ++ [t]) ol) R -> (ins = true -> ns_optlist sp ol) -> oks p sp (opts NoDoc ins t None (den_optlist ol)).
Proof.
  intros Hi Hn. unfold den_optlist. destruct ol as [l|]; [|constructor]. cbn [l_optlist optlist_options ns_optlist] in *. destruct (ol_options l) as [|o0 l0] eqn:E; [constructor|]. cbn [nonempty map]. rewrite <- E in *. constructor.
  - exists (ol_span l), nocom. cbn [c_path c_elem c_doc c_in]. assert (Hr := incl_cons_l _ _ _ Hi). split; [exact Hr|]. split; [apply nodoc|]. split; [intros H; now apply Hn|]. now apply leaf.
  - change (den_option o0 :: map den_option l0) with (map den_option (o0 :: l0)). rewrite <- E. eapply each_ok; [exact (incl_cons_r _ _ _ Hi)|].
    intros j o Ho Hj _. exists (body_span o), nocom. cbn [c_path c_elem c_doc c_in app].
    assert (Hr : In (p ++ [t; 999%Z; Z.of_N j], body_span o, nocom) R) by (apply Hj; left; now rewrite <- app_assoc).
    split; [exact Hr|]. split; [apply nodoc|]. split; [|now apply leaf]. intros H. destruct (Hn H) as [_ Hn']. rewrite Forall_forall in Hn'. now apply Hn'.
Qed.

(** ** Ranges and reserved names *)
Ltac noden := match goal with |- Forall _ [] => constructor end.
Lemma range_parts p sp r s e : incl (l_range p r) R -> inn sp (i_span (rr_start r)) -> inn sp (rr_end_span r) -> oks p sp (if_set 1 NoDoc (@EVal' Z) s ++ if_set 2 NoDoc (@EVal' Z) e).
Proof.
  intros Hi H1 H2. unfold l_range in Hi. apply Forall_app. split; apply set_ok; intros x _; (split; [exact I|]).
  - exists (i_span (rr_start r)). split; [apply Hi; right; now left|exact H1].
  - exists (rr_end_span r). split; [apply Hi; right; right; now left|exact H2].
Qed.
Lemma range_t p sp t n (den : rrange -> reserved_range) r : incl (l_range (p ++ [t; n]) r) R -> ns_range sp r ->
  okc p sp {| c_path := [t] ++ [n]; c_elem := ERange (den r); c_doc := NoDoc; c_in := true |}.
Proof.
  intros Hi (N1 & N2 & N3). exists (rr_span r), nocom. cbn [c_path c_elem c_doc c_in app]. assert (Hr := incl_cons_l _ _ _ Hi). rewrite at_eq in Hr. split; [exact Hr|]. split; [apply nodoc|]. split; [auto|].
  apply node; [exact Hr|]. cbn [children]. eapply range_parts; eauto.
Qed.
Lemma reserved_t p sp rt nt (den : rrange -> reserved_range) rs : forall i j, incl (l_reserved rt nt p i j rs) R -> Forall (ns_reserved sp) rs ->
  oks p sp (each every (alike NoDoc) true [rt] ERange i (map den (flat_map res_ranges rs))) /\
  oks p sp (each every (alike NoDoc) true [nt] EText j (map id_val (flat_map res_names rs))).
Proof.
  induction rs as [|r rs IH]; intros i j Hi Hn; [split; constructor|]. cbn [l_reserved flat_map] in *. inversion Hn as [|? ? N1 N2]; subst. destruct (IH _ _ (incl_app_r _ _ _ Hi) N2) as [I1 I2]. apply incl_app_l in Hi.
  assert (E1 : len (map den (res_ranges r)) = len (res_ranges r)) by (unfold len; now rewrite map_length). assert (E2 : len (map id_val (res_names r)) = len (res_names r)) by (unfold len; now rewrite map_length).
  rewrite !map_app, !each_app, E1, E2. revert I1 I2. generalize (i + len (res_ranges r)) (j + len (res_names r)). intros i' j' I1 I2. unfold ns_reserved in N1. unfold res_ranges at 1. unfold res_names at 1.
  destruct (rs_kind r) as [l|l]; cbn [map each app] in *; rewrite Forall_forall in N1; apply incl_cons_r in Hi.
  - split; [|exact I2]. apply Forall_app. split; [|exact I1]. eapply each_ok; [exact Hi|]. intros n x Hx Hx' _. apply range_t; auto.
  - split; [exact I1|]. apply Forall_app. split; [|exact I2]. eapply each_ok; [exact Hi|]. intros n x Hx Hx' _. exists (id_span x), nocom. cbn [c_path c_elem c_doc c_in app]. assert (Hr := incl_cons_l _ _ _ Hx').
    rewrite at_eq in Hr. split; [exact Hr|]. split; [apply nodoc|]. split; [auto|]. now apply leaf.
Qed.
Lemma extensions_t p sp ms l : forall i, incl (l_extensions (p ++ [5%Z]) i l) R -> Forall (ns_exts sp) l ->
  oks p sp (each every (alike NoDoc) true [5%Z] EExtRange i (den_extensions ms l)).
Proof.
  induction l as [|x l IH]; intros i Hi Hn; [constructor|]. cbn [l_extensions den_extensions flat_map] in *. inversion Hn as [|? ? N1 N2]; subst. apply incl_cons_r in Hi.
  rewrite each_app. apply Forall_app. unfold len at 1. rewrite map_length. split; [|apply IH; [exact (incl_app_r _ _ _ Hi)|exact N2]]. apply incl_app_l in Hi. unfold ns_exts in N1. rewrite Forall_forall in N1.
  eapply each_ok; [exact Hi|]. intros n r Hr Hin _. destruct (N1 _ Hr) as (A1 & A2 & A3). cbv beta in Hin. rewrite <- !app_assoc in Hin. cbn [app] in Hin. exists (rr_span r), nocom. cbn [c_path c_elem c_doc c_in app].
  assert (Hx := incl_cons_l _ _ _ (incl_app_l _ _ _ Hin)). rewrite at_eq in Hx. split; [exact Hx|]. split; [apply nodoc|]. split; [auto|]. apply node; [exact Hx|]. cbn [children den_ext_range x_start x_end x_options].
  rewrite app_assoc. apply Forall_app. split; [eapply range_parts; eauto; exact (incl_app_l _ _ _ Hin)|]. apply optlist_t; [|discriminate]. rewrite <- app_assoc. exact (incl_app_r _ _ _ Hin).
Qed.

(** ** Enums and services *)
Ltac docd h := apply (doc_ok h); [first [apply (snoc _ [])|match goal with |- ?q ++ [_; _] <> [] => destruct q; discriminate end]|eassumption|].
Lemma value_t p sp n v : incl (l_enum_value (p ++ [2%Z; n]) v) R -> Forall D (d_value v) -> inn sp (ev_span v) /\ ns_value v ->
  okc p sp {| c_path := [2%Z] ++ [n]; c_elem := EValue (den_enum_value v); c_doc := DocStatement; c_in := true |}.
Proof.
  intros Hi Hd (N0 & N1 & N2 & N3). unfold l_enum_value in Hi. exists (ev_span v), (ev_comments v). cbn [c_path c_elem c_doc c_in app]. assert (Hr := incl_cons_l _ _ _ Hi). split; [exact Hr|]. inversion Hd as [|? ? Hd' _]; subst.
  split; [docd HStmt; exact Hd'|]. split; [auto|]. apply node; [exact Hr|]. cbn [children den_enum_value v_name v_number v_options]. apply Forall_app. split; [|apply Forall_app; split].
  - eapply set_one; [exact I|apply Hi; right; left; reflexivity|exact N1].
  - apply set_ok. intros x _. split; [exact I|]. exists (i_span (ev_number v)). split; [apply Hi; right; right; left; reflexivity|exact N2].
  - apply optlist_t; [|auto]. intros x Hx. apply Hi. cbn. auto.
Qed.
Lemma flat_D {A} (f : A -> list doc) l x : Forall D (flat_map f l) -> In x l -> Forall D (f x).
Proof. intros H Hx. apply Forall_forall. intros v Hv. rewrite Forall_forall in H. apply H. apply in_flat_map. eauto. Qed.
Lemma enum_t p sp t n e : incl (l_enum (p ++ [t; n]) e) R -> Forall D (d_enum e) -> inn sp (en_span e) /\ ns_enum e ->
  okc p sp {| c_path := [t] ++ [n]; c_elem := EEnum (den_enum_ e); c_doc := DocBlock; c_in := true |}.
Proof.
  intros Hi Hd (N0 & N1 & N2 & N3 & N4). unfold l_enum in Hi. unfold d_enum in Hd. exists (en_span e), (en_comments e). cbn [c_path c_elem c_doc c_in app]. assert (Hr := incl_cons_l _ _ _ Hi). split; [exact Hr|].
  apply Forall_app in Hd. destruct Hd as [Hd1 Hd]. apply Forall_app in Hd. destruct Hd as [Hd2 Hd]. apply Forall_app in Hd. destruct Hd as [Hd3 Hd4].
  inversion Hd1 as [|? ? Hd' _]; subst. split; [docd HBrace; exact Hd'|]. split; [auto|]. apply node; [exact Hr|].
  cbn [children den_enum_ e_name e_value e_options e_reserved_range e_reserved_name]. apply incl_cons_r in Hi. assert (Hn := incl_cons_l _ _ _ Hi). apply incl_cons_r in Hi.
  destruct (reserved_t (p ++ [t; n]) (en_span e) 4%Z 5%Z den_enum_range (en_reserved e) 0 0 (incl_app_l _ _ _ (incl_app_r _ _ _ Hi)) N3) as [G1 G2].
  apply Forall_app; split; [|apply Forall_app; split; [|apply Forall_app; split; [|apply Forall_app; split; [exact G1|exact G2]]]].
  - eapply set_one; [exact I|exact Hn|exact N1].
  - eapply each_ok; [exact (incl_app_l _ _ _ Hi)|]. intros j v Hv Hj _. rewrite Forall_forall in N2. apply value_t; auto. eapply flat_D; eauto.
  - apply options_t; auto. exact (incl_app_r _ _ _ (incl_app_r _ _ _ Hi)).
Qed.
Lemma method_t p sp n m : incl (l_method (p ++ [2%Z; n]) m) R -> Forall D (d_method m) -> inn sp (me_span m) /\ ns_method m ->
  okc p sp {| c_path := [2%Z] ++ [n]; c_elem := EMethod (den_method m); c_doc := DocRpc; c_in := true |}.
Proof.
  intros Hi Hd (N0 & N1 & N2 & N3 & N4 & N5 & N6). unfold l_method in Hi. unfold d_method in Hd. exists (me_span m), (me_comments m). cbn [c_path c_elem c_doc c_in app]. assert (Hr := incl_cons_l _ _ _ Hi). split; [exact Hr|].
  apply Forall_app in Hd. destruct Hd as [Hd1 Hd]. inversion Hd1 as [|? ? Hd' _]; subst. split; [docd HRpc; exact Hd'|]. split; [auto|]. apply node; [exact Hr|].
  cbn [children den_method me_d_name me_d_input me_d_output me_d_options me_d_client me_d_server]. apply incl_cons_r in Hi. assert (L1 := incl_cons_l _ _ _ Hi). apply incl_cons_r in Hi. assert (L2 := incl_cons_l _ _ _ Hi). apply incl_cons_r in Hi. assert (L3 := incl_cons_l _ _ _ Hi). apply incl_cons_r in Hi.
  assert (L4 := incl_app_l _ _ _ Hi). apply incl_app_r in Hi. assert (L5 := incl_app_l _ _ _ Hi). apply incl_app_r in Hi.
  apply Forall_app; split; [|apply Forall_app; split; [|apply Forall_app; split; [|apply Forall_app; split; [|apply Forall_app; split]]]].
  - eapply set_one; [exact I|exact L1|auto].
  - eapply set_one; [exact I|exact L2|auto].
  - eapply set_one; [exact I|exact L3|auto].
  - apply options_t; auto.
  - destruct (me_client m) as [s|]; [|constructor]. eapply set_one; [exact I|apply L4; now left|auto].
  - destruct (me_server m) as [s|]; [|constructor]. eapply set_one; [exact I|apply L5; now left|auto].
Qed.
Lemma service_t p sp n s : incl (l_service (p ++ [6%Z; n]) s) R -> Forall D (d_service s) -> inn sp (sv_span s) /\ ns_service s ->
  okc p sp {| c_path := [6%Z] ++ [n]; c_elem := EService (den_service_ s); c_doc := DocBlock; c_in := true |}.
Proof.
  intros Hi Hd (N0 & N1 & N2 & N3). unfold l_service in Hi. unfold d_service in Hd. exists (sv_span s), (sv_comments s). cbn [c_path c_elem c_doc c_in app]. assert (Hr := incl_cons_l _ _ _ Hi). split; [exact Hr|].
  apply Forall_app in Hd. destruct Hd as [Hd1 Hd]. apply Forall_app in Hd. destruct Hd as [Hd2 Hd3]. inversion Hd1 as [|? ? Hd' _]; subst. split; [docd HBrace; exact Hd'|]. split; [auto|]. apply node; [exact Hr|].
  cbn [children den_service_ s_name s_method s_options]. apply incl_cons_r in Hi. assert (L1 := incl_cons_l _ _ _ Hi). apply incl_cons_r in Hi.
  apply Forall_app; split; [|apply Forall_app; split].
  - eapply set_one; [exact I|exact L1|auto].
  - eapply each_ok; [exact (incl_app_l _ _ _ Hi)|]. intros j v Hv Hj _. rewrite Forall_forall in N2. apply method_t; auto. eapply flat_D; eauto.
  - apply options_t; auto. exact (incl_app_r _ _ _ Hi).
Qed.

(** ** Fields *)
Definition desc_of_field (sc : scope) (oi : option Z) (x : option bytes) (f : field) : field_desc := set_extendee x (set_oneof_index oi (den_field k syn sc None f)).
Lemma desc_message oi (f : field) : den_field k syn ScMessage oi f = desc_of_field ScMessage oi None f.
Proof. unfold desc_of_field, den_field. destruct (fd_kind f); reflexivity. Qed.
Lemma desc_oneof oi (f : field) : set_oneof_index oi (den_field k syn ScOneof None f) = desc_of_field ScOneof oi None f.
Proof. unfold desc_of_field, den_field. destruct (fd_kind f); reflexivity. Qed.
Lemma desc_extend x (f : field) : set_extendee x (den_field k syn ScExtend None f) = desc_of_field ScExtend None x f.
Proof. unfold desc_of_field, den_field. destruct (fd_kind f); reflexivity. Qed.

Lemma ns_rest sp (f : field) : ns_optlist sp (fd_options f) -> ns_optlist sp (rest_options f).
Proof.
  unfold rest_options. destruct (fd_options f) as [l|]; [|auto]. cbn [option_map ns_optlist ol_options ol_span]. intros [H1 H2]. split; [exact H1|].
  assert (G : forall n l, Forall (ns_ob sp) l -> Forall (ns_ob sp) (drop_called n l)). { clear. induction 1 as [|o l H Hl IH]; cbn [drop_called]; [constructor|]. destruct (called n o); auto. }
  auto.
Qed.
Lemma found_ns sp n (f : field) o : ns_optlist sp (fd_options f) -> find (called n) (optlist_options (fd_options f)) = Some o -> ns_ob sp o.
Proof.
  destruct (fd_options f) as [l|]; [|discriminate]. cbn [ns_optlist optlist_options]. intros [_ H] E. apply find_some in E. rewrite Forall_forall in H. now apply H.
Qed.
Lemma field_parts sc oi x (f : field) fp mp : (sc = ScOneof -> oi <> None) ->
  incl (l_field syn (l_body k syn) sc fp mp f) R -> ok_field k syn (ok_body k syn) sc f -> ns_field ns_body f ->
  (x <> None -> exists xs, In (at_ (fp ++ [2%Z]) xs) R) -> oks fp (fd_span f) (children p2 (EField (desc_of_field sc oi x f))).
Proof.
  intros Ho Hi (K1 & K2 & K3 & K4) (N1 & N2 & N3 & N4 & N5) Hx. cbn [children]. unfold l_field in Hi.
  assert (L1 : In (at_ (fp ++ [1%Z]) (id_span (fd_name f))) R) by (apply Hi; now left). assert (L3 : In (at_ (fp ++ [3%Z]) (i_span (fd_number f))) R) by (apply Hi; right; now left).
  apply incl_app_r in Hi. assert (Lk := incl_app_l _ _ _ Hi). apply incl_app_r in Hi. assert (Lj := incl_app_l _ _ _ Hi). assert (Lo := incl_app_r _ _ _ Hi). clear Hi.
  assert (Hname : exists s, f_name (desc_of_field sc oi x f) = Some s) by (unfold desc_of_field, den_field; destruct (fd_kind f); eexists; reflexivity). destruct Hname as [s Es]. rewrite Es.
  assert (Ex : f_extendee (desc_of_field sc oi x f) = x) by reflexivity. assert (Eo : f_options (desc_of_field sc oi x f) = den_optlist (rest_options f)) by (unfold desc_of_field, den_field; destruct (fd_kind f); reflexivity).
  assert (Ej : f_json_name (desc_of_field sc oi x f) = match json_of f with Some o => den_string (ob_value o) | None => None end) by (unfold desc_of_field, den_field; destruct (fd_kind f); reflexivity).
  rewrite Ex, Eo, Ej. apply Forall_app; split; [eapply set_one; [exact I|exact L1|exact N1]|].
  apply Forall_app; split.
  { destruct x as [tx|]; constructor; [|constructor]. destruct Hx as (xs & Hx); [discriminate|]. exists xs, nocom. cbn [c_path c_elem c_doc c_in]. rewrite <- at_eq. split; [exact Hx|]. split; [apply nodoc|]. split; [discriminate|]. now apply leaf. }
  apply Forall_app; split; [apply set_ok; intros y _; split; [exact I|]; eauto|].
  apply Forall_app; split.
  { destruct (label_written p2 (desc_of_field sc oi x f)) eqn:El; [|constructor]. apply set_ok. intros y Ey. split; [exact I|].
    assert (G : exists lb lsp, fd_label f = Some (lb, lsp) /\ den_label syn sc (fd_label f) <> None /\ match fd_kind f with FKMap _ _ _ _ _ => False | _ => True end).
    { unfold label_written, is_map, is_p3_optional in El. unfold desc_of_field, den_field in El, Ey. unfold den_label, p3_optional in *. destruct (fd_kind f) as [t tsp|gsp gb|msp kt ksp vt vsp]; cbn in El, Ey; [| |discriminate].
      - destruct K2 as [K2 _]. destruct (fd_label f) as [[lb lsp]|]; [exists lb, lsp; auto|]. exfalso. destruct p2 eqn:Ep; cbn in *.
        + destruct sc; cbn in *; try congruence. destruct oi; [destruct t; discriminate|]. now apply Ho.
        + destruct sc; cbn in *; destruct t; cbn in El; discriminate.
      - destruct K2 as (Ep & K2 & _). rewrite Ep in *. destruct (fd_label f) as [[lb lsp]|]; [exists lb, lsp; auto|]. exfalso. destruct sc; cbn in *; try congruence. destruct oi; [discriminate|]. now apply Ho. }
    destruct G as (lb & lsp & G1 & G2 & G3). exists lsp. rewrite G1 in N5. split; [|exact N5].
    assert (L : incl (l_label syn fp sc (fd_label f)) R).
    { destruct (fd_kind f) as [[]| |]; try destruct G3; exact (incl_app_l _ _ _ Lk). }
    apply L. unfold l_label. rewrite G1 in *. destruct (den_label syn sc (Some (lb, lsp))); [now left|congruence]. }
  apply Forall_app; split.
  { unfold is_map. unfold desc_of_field, den_field. destruct (fd_kind f) as [t tsp|gsp gb|msp kt ksp vt vsp]; cbn [set_extendee set_oneof_index f_type].
    - assert (G : scalar_type t = None \/ incl [at_ (fp ++ [5%Z]) tsp] R /\ scalar_type t <> Some FTMessage).
      { destruct t; cbn [scalar_type]; [right; split; [intros z [<-|[]]; apply Lk; apply in_or_app; right; apply in_or_app; right; right; now left|discriminate]..|now left]. }
      destruct G as [-> |[G1 G2]]; [constructor|]. destruct N3 as [N3 _]. destruct (scalar_type t) as [ft|]; [|constructor]. destruct ft; try congruence; (eapply set_one; [exact I|apply G1; now left|exact N3]).
    - destruct N3 as [N3 _]. eapply set_one; [exact I| |exact N3]. apply Lk. apply in_or_app. right. right. now left.
    - constructor. }
  apply Forall_app; split.
  { unfold desc_of_field, den_field. destruct (fd_kind f) as [t tsp|gsp gb|msp kt ksp vt vsp]; cbn [set_extendee set_oneof_index f_type_name].
    - destruct t; [cbn; constructor..|]. cbn [ty_text]. eapply set_one; [exact I| |exact (proj2 N3)]. apply Lk. apply in_or_app. right. right. now left.
    - eapply set_one; [exact I| |exact N1]. apply Lk. apply in_or_app. right. right. right. now left.
    - eapply set_one; [exact I| |exact N3]. apply Lk. right. now left. }
  apply Forall_app; split.
  { apply set_ok. intros y Ey. split; [exact I|]. unfold desc_of_field, den_field in Ey. destruct (fd_kind f) as [t tsp|gsp gb|msp kt ksp vt vsp]; cbn [set_extendee set_oneof_index f_default] in Ey; [|discriminate|discriminate].
    destruct (default_of f) as [o|] eqn:Ed; [|discriminate]. exists (optval_span (ob_value o)). split; [|eapply found_ns; eauto].
    assert (L : incl (l_default fp f) R).
    { destruct t; [try exact (incl_app_l _ _ _ (incl_app_r _ _ _ Lk))..|]. intros z Hz. apply Lk. apply in_or_app. right. right. right. exact Hz. }
    apply L. unfold l_default. rewrite Ed. now left. }
  apply Forall_app; split; [apply optlist_t; [exact Lo|intros _; now apply ns_rest]|].
  apply set_ok. intros y Ey. split; [exact I|]. destruct (json_of f) as [o|] eqn:Ed; [|discriminate]. exists (optval_span (ob_value o)). split; [apply Lj; right; now left|eapply found_ns; eauto].
Qed.
Lemma field_t sc oi x (f : field) p sp t i mp : (sc = ScOneof -> oi <> None) ->
  incl (l_field syn (l_body k syn) sc (p ++ [t; i]) mp f) R -> ok_field k syn (ok_body k syn) sc f -> ns_infield ns_body sp f -> Forall D (d_field d_body f) ->
  (x <> None -> exists xs, In (at_ ((p ++ [t; i]) ++ [2%Z]) xs) R) ->
  okc p sp {| c_path := [t] ++ [i]; c_elem := EField (desc_of_field sc oi x f); c_doc := field_doc (desc_of_field sc oi x f); c_in := true |}.
Proof.
  intros Ho Hi Hk [N0 N] Hd Hx. assert (Hp := field_parts sc oi x f _ _ Ho Hi Hk N Hx). unfold l_field in Hi. apply incl_app_r in Hi. apply incl_app_l in Hi.
  assert (G : exists co, In (p ++ [t; i], fd_span f, co) R /\ documented k src (field_doc (desc_of_field sc oi x f)) (mk ls (p ++ [t; i], fd_span f, co))).
  { assert (Hne : p ++ [t; i] <> []) by (destruct p; discriminate). unfold d_field in Hd. apply Forall_app_l in Hd. inversion Hd as [|? ? Hd' _]; subst.
    unfold field_doc, is_group, desc_of_field, den_field in *. destruct (fd_kind f) as [ty tsp|gsp gb|msp kt ksp vt vsp]; cbn [set_extendee set_oneof_index f_type].
    - exists (fd_comments f). assert (Hr : In (p ++ [t; i], fd_span f, fd_comments f) R).
      { destruct ty; [apply Hi; apply in_or_app; right; apply in_or_app; right; now left..|apply Hi; apply in_or_app; right; now left]. }
      split; [exact Hr|]. destruct ty; cbn [scalar_type]; exact (doc_ok HStmt _ _ _ Hne Hr Hd').
    - exists nocom. split; [apply Hi; apply in_or_app; right; now left|apply nodoc].
    - exists (fd_comments f). assert (Hr := incl_cons_l _ _ _ Hi). split; [exact Hr|]. exact (doc_ok HStmt _ _ _ Hne Hr Hd'). }
  destruct G as (co & G1 & G2). exists (fd_span f), co. cbn [c_path c_elem c_doc c_in app]. split; [exact G1|]. split; [exact G2|]. split; [auto|]. apply node; [exact G1|exact Hp].
Qed.

(** ** Messages *)
Definition body_parts (d : msg_desc) : list child := children p2 (EMsg (with_name None d)).
Lemma message_parts n d : children p2 (EMsg (with_name (Some n) d)) = if_set 1 NoDoc EName (Some n) ++ body_parts d.
Proof. destruct d. reflexivity. Qed.
Definition TQ (bd : body) : Prop := forall p sp, incl (l_body k syn p bd) R -> Forall D (d_body bd) -> ns_body sp bd -> ok_body k syn bd -> oks p sp (body_parts (den_body k syn bd)).
Notation entries := (fun (_ : N) m => negb (is_entry m)).
Lemma message_node p sp co nm (bd : body) nsp : TQ bd -> In (p, sp, co) R -> In (at_ (p ++ [1%Z]) nsp) R -> inn sp nsp -> incl (l_body k syn p bd) R -> Forall D (d_body bd) -> ns_body sp bd -> ok_body k syn bd ->
  placed (mk ls (p, sp, co)) (EMsg (with_name (Some nm) (den_body k syn bd))).
Proof.
  intros Hq H1 H2 H3 H4 H5 H6 H7. apply node; [exact H1|]. rewrite message_parts. apply Forall_app. split; [eapply set_one; [exact I|exact H2|exact H3]|]. now apply Hq.
Qed.
Lemma field_messages_t sc (f : field) p sp t j fp : on_kind TQ f -> 
  incl (l_field syn (l_body k syn) sc fp (p ++ [t; Z.of_N j]) f) R -> ok_field k syn (ok_body k syn) sc f -> ns_infield ns_body sp f -> Forall D (d_field d_body f) ->
  oks p sp (each entries (alike DocBlock) true [t] EMsg j (den_field_messages (den_body k syn) f)).
Proof.
  intros Hq Hi (_ & K2 & _) [N0 (N1 & _ & N3 & _)] Hd. unfold l_field in Hi. apply incl_app_r in Hi. apply incl_app_l in Hi. unfold den_field_messages, on_kind, d_field in *.
  destruct (fd_kind f) as [ty tsp|gsp gb|msp kt ksp vt vsp]; [constructor| |constructor]. cbn [each].
  assert (G : okc p sp {| c_path := [t] ++ [Z.of_N j]; c_elem := EMsg (with_name (Some (id_val (fd_name f))) (den_body k syn gb)); c_doc := DocBlock; c_in := true |}).
  { apply Forall_app in Hd. destruct Hd as [Hd1 Hd2]. inversion Hd1 as [|? ? Hd' _]; subst. apply incl_app_r in Hi.
    assert (Hr : In (p ++ [t; Z.of_N j], fd_span f, fd_comments f) R) by (apply Hi; do 3 right; now left).
    exists (fd_span f), (fd_comments f). cbn [c_path c_elem c_doc c_in app]. split; [exact Hr|]. split; [apply (doc_ok HBrace); [destruct p; discriminate|exact Hr|exact Hd']|]. split; [auto|].
    eapply (message_node _ _ _ _ _ (id_span (fd_name f))); [exact Hq|exact Hr|apply Hi; do 4 right; now left|exact N1| |exact Hd2|exact (proj2 N3)|apply K2]. intros z Hz. apply Hi. do 5 right. exact Hz. }
  destruct (negb _); constructor; [exact G|constructor].
Qed.
Lemma fields_t sc oi x extra ft mt p sp (l : list field) : Forall (on_kind TQ) l -> (sc = ScOneof -> oi <> None) -> (x <> None -> forall fp, exists xs, In (at_ (fp ++ [2%Z]) xs) (extra fp)) ->
  all (ok_field k syn (ok_body k syn) sc) l -> all (ns_infield ns_body sp) l -> Forall D (flat_map (d_field d_body) l) -> forall i j,
  incl (l_fields syn (den_body k syn) (l_body k syn) sc extra ft mt p i j l) R ->
  oks p sp (each every field_doc true [ft] EField i (map (desc_of_field sc oi x) l)) /\
  oks p sp (each entries (alike DocBlock) true [mt] EMsg j (flat_map (den_field_messages (den_body k syn)) l)).
Proof.
  intros Hq Ho Hx. induction Hq as [|f l Hf Hl IH]; intros Hk Hn Hd i j Hi; [split; constructor|]. cbn [l_fields map flat_map each all] in *. destruct Hk as [K1 K2], Hn as [N1 N2]. apply Forall_app in Hd. destruct Hd as [D1 D2].
  destruct (IH K2 N2 D2 _ _ (incl_app_r _ _ _ (incl_app_r _ _ _ Hi))) as [I1 I2]. assert (He := incl_app_l _ _ _ Hi). apply incl_app_r, incl_app_l in Hi. rewrite each_app. split; apply Forall_app; (split; [|assumption]).
  - constructor; [|constructor]. eapply field_t; eauto. intros Hne. destruct (Hx Hne (p ++ [ft; Z.of_N i])) as (xs & Hxs). eauto.
  - eapply field_messages_t; eauto.
Qed.
Lemma extend_t xt mt p sp i j (e : extend) : Forall (on_kind TQ) (et_fields e) -> incl (l_extend syn (den_body k syn) (l_body k syn) xt mt p i j e) R -> ok_extend k syn (ok_body k syn) e ->
  all (ns_infield ns_body sp) (et_fields e) -> Forall D (d_extend d_body e) ->
  oks p sp (each every field_doc true [xt] EField i (den_extend k syn e)) /\
  oks p sp (each entries (alike DocBlock) true [mt] EMsg j (flat_map (den_field_messages (den_body k syn)) (et_fields e))).
Proof.
  intros Hq Hi Hk Hn Hd. unfold l_extend in Hi. unfold den_extend. apply incl_cons_r in Hi.
  replace (map (fun f => set_extendee (Some (tname_text (et_extendee e))) (den_field k syn ScExtend None f)) (et_fields e)) with (map (desc_of_field ScExtend None (Some (tname_text (et_extendee e)))) (et_fields e)) by (apply map_ext; intros f; now rewrite desc_extend).
  eapply fields_t; eauto; [discriminate| |exact (Forall_app_r _ _ _ Hd)]. intros _ fp. eexists. left. reflexivity.
Qed.
Lemma oneof_t p sp n (o : oneof_ body) : incl ((p ++ [8%Z; n], oo_span o, oo_comments o) :: at_ (p ++ [8%Z; n; 1%Z]) (id_span (oo_name o)) :: l_options (p ++ [8%Z; n; 2%Z]) (oo_options o)) R ->
  Forall D (d_oneof d_body o) -> ns_oneof ns_body sp o ->
  okc p sp {| c_path := [8%Z] ++ [n]; c_elem := EOneof (den_oneof_ o); c_doc := DocBlock; c_in := true |}.
Proof.
  intros Hi Hd (N0 & N1 & N2 & _). unfold d_oneof in Hd. assert (Hr := incl_cons_l _ _ _ Hi). apply incl_cons_r in Hi. assert (L1 := incl_cons_l _ _ _ Hi). apply incl_cons_r in Hi.
  apply Forall_app in Hd. destruct Hd as [Hd1 Hd]. apply Forall_app_l in Hd. inversion Hd1 as [|? ? Hd' _]; subst. exists (oo_span o), (oo_comments o). cbn [c_path c_elem c_doc c_in app].
  split; [exact Hr|]. split; [docd HBrace; exact Hd'|]. split; [auto|]. apply node; [exact Hr|]. cbn [children den_oneof_ o_name o_options]. apply Forall_app; split.
  - eapply set_one; [exact I| |exact N1]. rewrite <- app_assoc. exact L1.
  - apply options_t; auto. rewrite <- app_assoc. exact Hi.
Qed.
Lemma message_t p sp t n (m : message_ body) : TQ (ms_body m) -> incl (l_message (l_body k syn) (p ++ [t; n]) m) R -> Forall D (d_message d_body m) -> inn sp (ms_span m) /\ ns_message ns_body m -> ok_body k syn (ms_body m) ->
  okc p sp {| c_path := [t] ++ [n]; c_elem := EMsg (den_message_ (den_body k syn) m); c_doc := DocBlock; c_in := true |}.
Proof.
  intros Hq Hi Hd (N0 & N1 & N2) Hk. unfold l_message in Hi. unfold d_message in Hd. assert (Hr := incl_cons_l _ _ _ Hi). apply incl_cons_r in Hi. assert (L1 := incl_cons_l _ _ _ Hi). apply incl_cons_r in Hi.
  apply Forall_app in Hd. destruct Hd as [Hd1 Hd]. inversion Hd1 as [|? ? Hd' _]; subst. exists (ms_span m), (ms_comments m). cbn [c_path c_elem c_doc c_in app].
  split; [exact Hr|]. split; [docd HBrace; exact Hd'|]. split; [auto|]. eapply message_node; eauto.
Qed.
Lemma each_one {A} keep dc ins pre (e : A -> elem) p sp i x : okc p sp {| c_path := pre ++ [Z.of_N i]; c_elem := e x; c_doc := dc x; c_in := ins |} -> oks p sp (each keep dc ins pre e i [x]).
Proof. intros H. cbn [each]. destruct (keep i x); repeat constructor. exact H. Qed.
Lemma items_t p sp (items : list mitem) : Forall (on_item TQ) items -> all (ok_item k syn (ok_body k syn)) items -> all (ns_item ns_body sp) items -> Forall D (flat_map (d_item d_body) items) -> forall nf nx nm ne no r s,
  incl (l_items k syn (den_body k syn) (l_body k syn) p nf nx nm ne no items) R ->
  oks p sp (each every field_doc true [2%Z] EField nf (den_fields k syn r s items)) /\
  oks p sp (each every field_doc true [6%Z] EField nx (flat_map (item_extensions k syn) items)) /\
  oks p sp (each entries (alike DocBlock) true [3%Z] EMsg nm (flat_map (item_messages (den_body k syn)) items)) /\
  oks p sp (each every (alike DocBlock) true [4%Z] EEnum ne (flat_map item_enums items)) /\
  forall keep, oks p sp (each keep (alike DocBlock) true [8%Z] EOneof no (flat_map item_real items)).
Proof.
  induction 1 as [|it items Hq _ IH]; intros Hk Hn Hd nf nx nm ne no r s Hi; [repeat split; intros; constructor|].
  cbn [all l_items flat_map] in *. destruct Hk as [K1 K2], Hn as [N1 N2]. apply Forall_app in Hd. destruct Hd as [D1 D2].
  assert (Hi2 := incl_app_r _ _ _ Hi). apply incl_app_l in Hi. rewrite !each_app.
  assert (IH' := fun r s => IH K2 N2 D2 _ _ _ _ _ r s Hi2). clear IH Hi2.
  destruct it as [f|e|m|e|o]; cbn [ok_item ns_item d_item on_item item_nfields item_extensions item_messages item_enums item_real den_fields map each app] in *.
  - destruct (IH' r (s + len (den_field_oneofs syn f))) as (I1 & I2 & I3 & I4 & I5). clear IH'. rewrite ?len_nil, ?N.add_0_r in *.
    split; [|split; [exact I2|split; [apply Forall_app; split; [|exact I3]|split; [exact I4|]]]].
    + constructor; [|exact I1]. rewrite desc_message. eapply field_t; eauto; congruence.
    + eapply field_messages_t; eauto.
    + intros keep. exact (I5 keep).
  - destruct (IH' r s) as (I1 & I2 & I3 & I4 & I5). clear IH'. rewrite ?len_nil, ?N.add_0_r in *. split; [exact I1|]. split; [exact I2|]. split; [exact I3|]. split; [|exact I5]. constructor; [|exact I4]. apply enum_t; auto.
  - destruct (IH' r s) as (I1 & I2 & I3 & I4 & I5). clear IH'. rewrite ?len_nil, ?N.add_0_r in *. split; [exact I1|]. split; [exact I2|]. split; [|split; [exact I4|exact I5]]. apply Forall_app. split; [|exact I3].
    apply (each_one entries (alike DocBlock) true [3%Z] EMsg p sp nm). eapply message_t; eauto.
  - destruct (IH' r s) as (I1 & I2 & I3 & I4 & I5). clear IH'. rewrite ?len_nil, ?N.add_0_r in *. destruct (extend_t _ _ _ _ _ _ _ Hq Hi K1 N1 D1) as [E1 E2].
    split; [exact I1|]. split; [apply Forall_app; split; assumption|]. split; [apply Forall_app; split; assumption|]. split; assumption.
  - destruct (IH' (r + 1) s) as (I1 & I2 & I3 & I4 & I5). clear IH'. rewrite ?len_nil, ?N.add_0_r in *. destruct K1 as (_ & K1 & K3). unfold d_oneof in D1. assert (D1' := Forall_app_r _ _ _ (Forall_app_r _ _ _ D1)).
    assert (Hf : incl (l_fields syn (den_body k syn) (l_body k syn) ScOneof (fun _ => []) 2%Z 3%Z p nf nm (oo_fields o)) R) by (intros z Hz; apply Hi; right; right; apply in_or_app; now right).
    assert (Hh : incl ((p ++ [8%Z; Z.of_N no], oo_span o, oo_comments o) :: at_ (p ++ [8%Z; Z.of_N no; 1%Z]) (id_span (oo_name o)) :: l_options (p ++ [8%Z; Z.of_N no; 2%Z]) (oo_options o)) R).
    { intros z [Hz|[Hz|Hz]]; apply Hi; [now left|right; now left|right; right; apply in_or_app; now left]. }
    replace (map (fun f : field => set_oneof_index (Some (Z.of_N r)) (den_field k syn ScOneof None f)) (oo_fields o)) with (map (desc_of_field ScOneof (Some (Z.of_N r)) None) (oo_fields o)) by (apply map_ext; intros f; now rewrite desc_oneof).
    destruct (fields_t ScOneof (Some (Z.of_N r)) None (fun _ => []) 2%Z 3%Z p sp (oo_fields o) Hq) with (i := nf) (j := nm) as [E1 E2]; [discriminate|congruence|exact K3|apply N1|exact D1'|exact Hf|].
    split; [|split; [exact I2|split; [apply Forall_app; split; [exact E2|exact I3]|split; [exact I4|]]]].
    + rewrite each_app. apply Forall_app. split; [exact E1|]. unfold len in *. rewrite map_length. exact I1.
    + intros keep. apply Forall_app. split; [destruct (keep no (den_oneof_ o)); repeat constructor; apply oneof_t; auto|apply I5].
Qed.
Lemma each_none {A} keep dc ins pre (e : A -> elem) l : forall i, (forall j x, i <= j -> j < i + len l -> keep j x = false) -> each keep dc ins pre e i l = [].
Proof.
  induction l as [|x l IH]; intros i H; [reflexivity|]. cbn [each]. rewrite len_cons in H. rewrite H by lia. cbn [app]. apply IH. intros j y H1 H2. apply H; lia.
Qed.
Notation syn_at j := (fun f => is_p3_optional f && match f_oneof_index f with Some z => (z =? Z.of_N j)%Z | None => false end).
Lemma synthetic_at (items : list mitem) : forall r s j, s <= j -> j < s + len (flat_map (item_synthetic syn) items) -> existsb (syn_at j) (den_fields k syn r s items) = true.
Proof.
  induction items as [|it items IH]; intros r s j H1 H2; cbn [flat_map den_fields] in *; [rewrite len_nil in H2; lia|]. rewrite len_app in H2.
  destruct it as [f|e|m|e|o]; cbn [item_synthetic] in H2; try (apply IH; [exact H1|rewrite len_nil in H2; lia]).
  - cbn [existsb]. apply orb_true_iff. unfold den_field_oneofs in *. destruct (p3_optional syn f) eqn:E; cycle 1.
    + right. apply IH; rewrite len_nil in *; lia.
    + rewrite len_cons, len_nil in *. destruct (N.eq_dec j s) as [-> |Hne]; [left|right; apply IH; lia].
      unfold den_field. destruct (fd_kind f); cbn [is_p3_optional f_proto3_optional f_oneof_index]; unfold is_p3_optional; cbn [f_proto3_optional]; rewrite E; cbn; apply Z.eqb_refl.
  - rewrite existsb_app. apply orb_true_iff. right. apply IH; [exact H1|rewrite len_nil in H2; lia].
Qed.
Lemma body_t : forall bd, TQ bd.
Proof.
  apply body_rect'. intros items exts opts res Hq p sp Hi Hd (N1 & N2 & N3 & N4) (K1 & K2 & K3 & K4). cbn [l_body d_body den_body] in *. unfold body_parts. cbn [children with_name m_name m_field m_extension m_nested m_enum m_ext_range m_oneof m_options m_reserved_range m_reserved_name].
  apply Forall_app in Hd. destruct Hd as [D1 Hd]. apply Forall_app in Hd. destruct Hd as [D2 Hd]. apply Forall_app in Hd. destruct Hd as [D3 D4].
  assert (L1 := incl_app_l _ _ _ Hi). apply incl_app_r in Hi. assert (L2 := incl_app_l _ _ _ Hi). apply incl_app_r in Hi. assert (L3 := incl_app_l _ _ _ Hi). apply incl_app_r in Hi.
  destruct (items_t p sp items Hq K1 N1 D1 _ _ _ _ _ 0 (len (flat_map item_real items)) L1) as (I1 & I2 & I3 & I4 & I5).
  destruct (reserved_t p sp 9%Z 10%Z (den_range (message_set opts)) res 0 0 L2 N4) as [R1 R2].
  apply Forall_app; split; [constructor|]. apply Forall_app; split; [exact I1|]. apply Forall_app; split; [exact I2|]. apply Forall_app; split; [exact I3|]. apply Forall_app; split; [exact I4|].
  apply Forall_app; split; [apply extensions_t; auto|]. apply Forall_app; split.
  { rewrite each_app. apply Forall_app. split; [apply I5|]. rewrite each_none; [constructor|]. intros j _ H1 H2. unfold is_synthetic. cbn [m_field]. rewrite N.add_0_l in *.
    apply negb_false_iff. now apply synthetic_at. }
  apply Forall_app; split; [|apply Forall_app; split; [exact R1|exact R2]].
  pose proof (options_t p sp 7%Z None opts Hi D4 N3) as O. destruct (den_options opts); [exact O|constructor].
Qed.

(** ** Files *)
Lemma imports_t sp l : Forall (fun im => inn sp (im_span im) /\ match im_kind im with Some (_, s) => inn sp s | None => True end) l -> Forall D (flat_map d_import l) -> forall i pub weak,
  incl (l_imports [] i pub weak l) R ->
  oks [] sp (each every (alike DocStatement) true [3%Z] EText i (map im_value l)) /\
  oks [] sp (each every (alike NoDoc) true [10%Z] (@EVal' Z) pub (kind_indices IPublic i l)) /\
  oks [] sp (each every (alike NoDoc) true [11%Z] (@EVal' Z) weak (kind_indices IWeak i l)).
Proof.
  induction 1 as [|im l [N0 N1] _ IH]; intros Hd i pub weak Hi; [repeat split; constructor|]. cbn [l_imports flat_map map kind_indices each] in *. apply Forall_app in Hd. destruct Hd as [D1 D2].
  destruct (IH D2 _ _ _ (incl_app_r _ _ _ (incl_cons_r _ _ _ Hi))) as (I1 & I2 & I3). clear IH. assert (Hr := incl_cons_l _ _ _ Hi). apply incl_cons_r, incl_app_l in Hi. rewrite !each_app.
  assert (V : forall t n s, In (at_ ([] ++ [t; Z.of_N n]) s) R -> inn sp s -> okc [] sp {| c_path := [t] ++ [Z.of_N n]; c_elem := EVal; c_doc := NoDoc; c_in := true |}).
  { intros t n s Hs Hn. rewrite at_eq in Hs. exists s, nocom. cbn [c_path c_elem c_doc c_in app] in *. split; [exact Hs|]. split; [apply nodoc|]. split; [auto|]. now apply leaf. }
  split; [apply Forall_app; split; [|exact I1]|split; apply Forall_app; split].
  - cbn [every]. constructor; [|constructor]. inversion D1 as [|? ? Hd' _]; subst. exists (im_span im), (im_comments im). cbn [c_path c_elem c_doc c_in app] in *. split; [exact Hr|].
    split; [apply (doc_ok HStmt); [discriminate|exact Hr|exact Hd']|]. split; [auto|]. now apply leaf.
  - unfold is_kind. destruct (im_kind im) as [[[] s]|]; try constructor; [|constructor]. eapply V; [apply Hi; now left|exact N1].
  - unfold is_kind in *. destruct (im_kind im) as [[[] s]|]; try (rewrite len_nil, N.add_0_r); exact I2.
  - unfold is_kind. destruct (im_kind im) as [[[] s]|]; try constructor; [|constructor]. eapply V; [apply Hi; now left|exact N1].
  - unfold is_kind in *. destruct (im_kind im) as [[[] s]|]; try (rewrite len_nil, N.add_0_r); exact I3.
Qed.
Lemma fitems_t sp (items : list fitem) : Forall (ns_fitem sp) items -> all (ok_fitem k syn) items -> Forall D (flat_map d_fitem items) -> forall nm ne ns nx,
  incl (l_fitems k syn [] nm ne ns nx items) R ->
  oks [] sp (each entries (alike DocBlock) true [4%Z] EMsg nm (flat_map (fitem_messages k syn) items)) /\
  oks [] sp (each every (alike DocBlock) true [5%Z] EEnum ne (flat_map fitem_enums items)) /\
  oks [] sp (each every (alike DocBlock) true [6%Z] EService ns (flat_map fitem_services items)) /\
  oks [] sp (each every field_doc true [7%Z] EField nx (flat_map (fitem_extensions k syn) items)).
Proof.
  induction 1 as [|it items N1 _ IH]; intros Hk Hd nm ne ns nx Hi; [repeat split; constructor|].
  cbn [all l_fitems flat_map] in *. destruct Hk as [K1 K2]. apply Forall_app in Hd. destruct Hd as [D1 D2]. destruct (IH K2 D2 _ _ _ _ (incl_app_r _ _ _ Hi)) as (I1 & I2 & I3 & I4). clear IH. apply incl_app_l in Hi. rewrite !each_app.
  destruct it as [e|m|e|s]; cbn [ok_fitem ns_fitem d_fitem fitem_messages fitem_enums fitem_services fitem_extensions] in *; (split; [|split; [|split]]); apply Forall_app; (split; [|assumption]); try (constructor; fail).
  - apply each_one. apply enum_t; auto.
  - apply each_one. eapply message_t; eauto. apply body_t.
  - destruct (extend_t _ _ _ _ _ _ _ (kinds_alls (et_fields e) TQ body_t) Hi K1 N1 D1) as [E1 E2]. exact E2.
  - destruct (extend_t _ _ _ _ _ _ _ (kinds_alls (et_fields e) TQ body_t) Hi K1 N1 D1) as [E1 E2]. exact E1.
  - apply each_one. apply service_t; auto.
Qed.
Lemma file_t name (f : file) li : fi_syntax f = syn -> incl (l_file k syn f) R -> ok_file k syn f -> ns_file f -> Forall D (d_file f) -> (fi_syntax f = Proto3 -> fi_syntax_span f <> None) ->
  placed (mk ls (at_ [] (fi_span f))) (EFile (with_source_info (den_file k syn name f) li)).
Proof.
  intros Hs Hi (K1 & K2) (N1 & N2 & N3 & N4 & N5) Hd Hp. unfold l_file in Hi. unfold d_file in Hd. assert (Hr := incl_cons_l _ _ _ Hi). rewrite at_eq in *. apply node; [exact Hr|].
  apply incl_cons_r in Hi. assert (L1 := incl_app_l _ _ _ Hi). apply incl_app_r in Hi. assert (L2 := incl_app_l _ _ _ Hi). apply incl_app_r in Hi. assert (L3 := incl_app_l _ _ _ Hi). apply incl_app_r in Hi. assert (L4 := incl_app_l _ _ _ Hi). apply incl_app_r in Hi.
  apply Forall_app in Hd. destruct Hd as [D1 Hd]. apply Forall_app in Hd. destruct Hd as [D2 Hd]. apply Forall_app in Hd. destruct Hd as [D3 Hd]. apply Forall_app in Hd. destruct Hd as [D4 D5].
  destruct (imports_t _ _ N3 D2 _ _ _ L2) as (I1 & I2 & I3). destruct (fitems_t _ _ N5 K1 D3 _ _ _ _ L3) as (F1 & F2 & F3 & F4).
  assert (T : forall A t (e : A -> elem) (x : A) s c, In ([t], s, c) R -> D (HStmt, s, c) -> inn (fi_span f) s -> match e x with EName _ | EText _ | EVal => True | _ => False end -> oks [] (fi_span f) (if_set t DocStatement e (Some x))).
  { intros A t e x s c H1 H2 H3 H4. constructor; [|constructor]. exists s, c. cbn [c_path c_elem c_doc c_in app]. split; [exact H1|]. split; [apply (doc_ok HStmt); [discriminate|exact H1|exact H2]|]. split; [auto|]. apply leaf; [exact H1|]. destruct (e x); auto. }
  cbn [children with_source_info den_file Descriptor.d_package d_dependency d_public d_weak Descriptor.d_message Descriptor.d_enum Descriptor.d_service d_extension d_options d_syntax].
  apply Forall_app; split.
  { destruct (fi_package f) as [pk|]; [|constructor]. cbn [option_map flat_map] in *. apply Forall_app_l in D1. inversion D1 as [|? ? Hd' _]; subst. eapply T; [apply L1; now left|exact Hd'|exact N2|exact I]. }
  apply Forall_app; split; [exact I1|]. apply Forall_app; split; [exact I2|]. apply Forall_app; split; [exact I3|]. apply Forall_app; split; [exact F1|]. apply Forall_app; split; [exact F2|].
  apply Forall_app; split; [exact F3|]. apply Forall_app; split; [exact F4|]. apply Forall_app; split; [apply (options_t [] (fi_span f) 8%Z None); assumption|].
  destruct (fi_syntax f); [constructor|]. destruct (fi_syntax_span f) as [[s c]|]; [|now destruct Hp]. cbn [d_syn] in D5. inversion D5 as [|? ? Hd' _]; subst. eapply T; [apply Hi; now left|exact Hd'|exact N1|exact I].
Qed.
End Tree.

(** ** C51 *)
Definition is_p2 (d : file_desc) : bool := match d_syntax d with None => true | Some _ => false end.
Definition covers_all (k : cfg) (src : bytes) (x : location) : Prop :=
  match filter significant (stream k src 0) with
  | [] => True   (* a file without tokens *)
  | t :: ts => loc_span x = encode src (s_start (snd t)) (s_end (snd (last ts t)))
  end.
Theorem C51_located k sort name src d a : sorting sort -> parse k sort name src = Done (inl d, a) ->
  exists locs x, d_source_info d = Some locs /\ In x locs /\ loc_path x = [] /\ documented k src NoDoc x /\ covers_all k src x /\
    placed k src (is_p2 d) locs x (EFile d).
Proof.
  intros Hsort E. destruct (parse_ok_inv _ _ _ _ _ _ E) as (Hn & f & Ha & Hok & (ls & El & Ed)).
  destruct (locations k name src f d Ha Hok (ex_intro _ _ Ed)) as (rest & Er & Hroot & Hrest).
  pose proof (accepted_wf _ _ _ Ha) as (W1 & _). destruct Ha as (ts & G & Hs & Hm).
  destruct (@file_own (com_of k src) _ _ _ _ G) as (ds & F & Hc). pose proof (tok_in_nodup _ _ _ (accepted_tok_in _ _ _ Hs)) as HN.
  assert (HN' : NoDup (map snd (map fst ts))) by (rewrite map_map; exact HN).
  destruct (num_nodup (map snd ds) (map fst ts) HN') as [_ I2]; [intros x; apply Hc|].
  assert (Hin : forall x, In x (map fst ts) -> In (Some (fst x), snd x) (stream k src 0)).
  { intros x Hx. apply in_map_iff in Hx. destruct Hx as (y & <- & Hy). apply (filter_In significant). fold (sigs (stream k src 0)). rewrite Hs. apply in_map_iff. exists y. auto. }
  pose proof (@file_ns _ _ _ _ _ _ _ G (accepted_tok_in _ _ _ Hs)) as Hns.
  destruct (Hsort (map (mk ls) (l_file k (fi_syntax f) f))) as [Hp _].
  assert (Hx : fi_syntax f = Proto3 -> fi_syntax_span f <> None).
  { clear - G. destruct G as [ss sx sxs ts l pkg H1 H2 H3]. cbn [fi_syntax fi_syntax_span]. destruct H1; discriminate. }
  assert (HD : Forall (D k src) (d_file f)).
  { clear - F I2 Hin. induction F as [|[[h sp] c] [[t1 st] [t2 e]] V ds' Ho F IH]; constructor.
    - destruct Ho as (O1 & O2 & O3). exists st, t2, e. split; [exact O1|]. split; [apply (Hin (t2, e)); apply I2; now left|]. split; [exact O2|exact O3].
    - apply IH. intros z Hz. apply I2. now right. }
  exists (sort (map (mk ls) (l_file k (fi_syntax f) f))), (mk ls (at_ [] (fi_span f))).
  split; [rewrite Ed; reflexivity|]. split; [apply (Permutation_in _ Hp); apply in_map; rewrite Er; now left|]. split; [reflexivity|]. split; [repeat split|]. split.
  - unfold covers_all. fold (sigs (stream k src 0)). rewrite Hs. destruct Hroot as [Hr|Hr]; [|rewrite <- Hs, Hr; exact I].
    pose proof (mk_span src ls (fi_span f) [] nocom Hn El Hr) as M. rewrite at_eq.
    assert (Hf : match ts with [] => True | x :: _ => fi_span f = join_span (snd (fst x)) (last_span ts) end).
    { clear - G. destruct G as [ss sx sxs ts l pkg H1 H2 H3]. cbn [fi_span]. destruct (ss ++ ts); [exact I|reflexivity]. }
    destruct ts as [|x us]; [exact I|]. cbn [map]. rewrite M, Hf. unfold join_span, s_start at 1, s_end at 1. cbn [fst snd]. f_equal. unfold last_span. clear.
    assert (L : forall us (x : tk), last (x :: us) x = last us x) by (intros [|y l] z; reflexivity). rewrite L. clear L. revert x.
    assert (L : forall us x, snd (last (map inj us) (inj x)) = tk_span (last us x)); [|intros x; rewrite L; reflexivity].
    intros vs. induction vs as [|y vs IH]; intros x; [reflexivity|]. destruct vs as [|z vs]; [reflexivity|]. exact (IH x).
  - replace (is_p2 d) with (p2 (fi_syntax f)) by (rewrite Ed; unfold is_p2, p2; cbn; destruct (fi_syntax f); reflexivity). rewrite Ed at 1.
    apply (file_t k (fi_syntax f) src ls Hn El (l_file k (fi_syntax f) f) (sort (map (mk ls) (l_file k (fi_syntax f) f)))); auto.
    + intros x H. apply (Permutation_in _ Hp). now apply in_map.
    + intros p sp c H. rewrite Er in H. destruct H as [H|H]; [|left; rewrite Forall_forall in Hrest; destruct (Hrest _ H) as [Hx'|(_ & _ & Hx')]; [apply Hx'|exact Hx']].
      injection H as <- <- <-. exact W1.
    + intros p sp c Hne H. rewrite Er in H. destruct H as [H|H]; [injection H as <- _ _; congruence|]. rewrite Forall_forall in Hrest. destruct (Hrest _ H) as [Hx'|(_ & _ & Hx')]; [apply Hx'|exact Hx'].
    + apply incl_refl.
Qed.
Print Assumptions C51_located.

(** In particular every part of the file, at any depth, has a location. *)
Inductive part (p2 : bool) : elem -> list Z -> elem -> Prop :=
| part_self e : part p2 e [] e
| part_child e c p e' : In c (children p2 e) -> part p2 (c_elem c) p e' -> part p2 e (c_path c ++ p) e'.
Theorem C51_every_part k sort name src d a p e : sorting sort -> parse k sort name src = Done (inl d, a) -> part (is_p2 d) (EFile d) p e ->
  exists locs y, d_source_info d = Some locs /\ In y locs /\ loc_path y = p /\ follow (EFile d) p = Some e.
Proof.
  intros Hs E Hp. destruct (C51_located _ _ _ _ _ _ Hs E) as (locs & x & Ei & Hx & Px & _ & _ & H). exists locs.
  assert (G : forall e0 p e, part (is_p2 d) e0 p e -> forall x, In x locs -> placed k src (is_p2 d) locs x e0 -> exists y, In y locs /\ loc_path y = loc_path x ++ p /\ follow e0 p = Some e).
  { clear. induction 1 as [e|e c p e' Hc Hp IH]; intros x Hx H.
    - exists x. rewrite app_nil_r. auto.
    - destruct H as [x e H]. destruct (H c Hc) as (y & Hy & Py & _ & _ & Hpl). destruct (IH y Hy Hpl) as (z & Hz & Pz & Fz). exists z. split; [exact Hz|]. split; [rewrite Pz, Py; now rewrite <- app_assoc|].
      assert (FA : forall q r x, follow x (q ++ r) = match follow x q with Some y => follow y r | None => None end).
      { clear. induction q as [|z q IH]; intros r x; cbn [app follow]; [reflexivity|]. destruct (member x z); auto. }
      rewrite FA, (children_follow _ _ _ Hc). exact Fz. }
  destruct (G _ _ _ Hp x Hx H) as (y & Hy & Py & Fy). exists y. rewrite Px in Py. auto.
Qed.
Print Assumptions C51_every_part.

(** Example: the parts of a file, and the paths of its locations. *)
Fixpoint parts (n : nat) (p2 : bool) (p : list Z) (e : elem) : list (list Z) :=
  match n with 0%nat => [] | S m => p :: flat_map (fun c => parts m p2 (p ++ c_path c) (c_elem c)) (children p2 e) end.
Definition ex_tree : bytes :=
  b "package p; // doc" ++ nl_ ++ b "message M { repeated group G = 1 [deprecated = true] { optional int32 a = 2 [default = 1, json_name = 'b']; } map<string, int32> m = 3; oneof o { option (x) = 1; M n = 4; } " ++
  b "extensions 100 to max; reserved 9, 10 to 12; reserved 'z'; message N { } extend M { repeated N y = 100; } }" ++ nl_ ++
  b "enum E { option allow_alias = true; Z = 0 [(q) = 1]; } service S { rpc Q(stream M) returns (M) { option idempotency_level = IDEMPOTENT; } }".
Definition loc_paths (src : bytes) : list (list Z) := match d_source_info (desc_of src) with Some l => map loc_path l | None => [] end.
Example C51_example : ok_result ex_tree = true /\ length (parts 9 true [] (EFile (desc_of ex_tree))) = 69%nat /\
  forallb (fun p => existsb (fun q => if list_eq_dec Z.eq_dec p q then true else false) (loc_paths ex_tree)) (parts 9 true [] (EFile (desc_of ex_tree))) = true.
Proof. split; [|split]; vm_compute; reflexivity. Qed.
(** The example meets the hypotheses: the synthetic oneof of a proto3 optional field and the entry of a map have no location. *)
Definition ex_tree3 : bytes := b "syntax = 'proto3'; message M { optional int32 a = 1; map<int32, M> m = 2; oneof o { int32 b = 3; } }".
Example C51_example3 : ok_result ex_tree3 = true /\ map o_name (flat_map m_oneof (Descriptor.d_message (desc_of ex_tree3))) = [Some (b "o"); Some (b "_a")] /\
  map c_path (filter (fun c => match c_elem c with EOneof _ | EMsg _ => true | _ => false end) (flat_map (fun m => children false (EMsg m)) (Descriptor.d_message (desc_of ex_tree3)))) = [[8; 0]%Z] /\
  existsb (fun q => if list_eq_dec Z.eq_dec [4; 0; 8; 1]%Z q then true else false) (loc_paths ex_tree3) = false.
Proof. split; [|split; [|split]]; vm_compute; reflexivity. Qed.
