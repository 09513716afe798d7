(** C61: whatever points into the source points between characters: error spans
    can be used to slice the source text, and so can the offsets behind the
    source locations. *)
From Coq Require Import Sorting.Permutation ZifyBool ZifyN.
From Verif Require Import Base Utf8 Utf8Spec SynSpec Errors Lex LexSpec LexSafe Ast Comments Parse Lines Descriptor Generate ParseApi Stream Grammar Walk WalkG3 Meaning AstWf Erase GenProofs DescSpec PropsDesc
  AstWfG PropsParse LocSpec PropsLoc ErrSpec PropsErr PropsSyn Lam EdgeSpec CharEdge Edge PropsNest.

(** ** Boundaries *)
Lemma cb_len src n : char_boundary src n -> n <= len src.
Proof. intros (x & y & -> & <- & _). rewrite len_app. lia. Qed.
Lemma app_same_len {A} (x y x' y' : list A) : x ++ y = x' ++ y' -> length x = length x' -> x = x' /\ y = y'.
Proof. intros E L. revert x' E L. induction x as [|a x IH]; intros [|c x'] E L; cbn in *; try lia; [auto|]. injection E as -> E. destruct (IH x' E); [lia|]. subst. auto. Qed.
Lemma cb_cut src x y n : char_boundary src n -> src = x ++ y -> len x = n -> utf8_text x /\ utf8_text y.
Proof. intros (x' & y' & E & L & U1 & U2) E' L'. subst src. destruct (app_same_len _ _ _ _ E'); [unfold len in *; lia|]. subst. auto. Qed.
(** Between two boundaries there is text. *)
Lemma cb_slice src sp : char_boundary src (s_start sp) -> char_boundary src (s_end sp) -> s_start sp <= s_end sp -> exists t, slice src sp t.
Proof.
  intros (x & y & E & L & U1 & U2) (x' & y' & E' & L' & U1' & U2') Hle.
  exists (skipn (length x) x'). assert (Hx : x' = x ++ skipn (length x) x').
  { assert (F : firstn (length x) x' = x). { assert (F : firstn (length x) (x' ++ y') = x) by (rewrite <- E', E; rewrite firstn_app, Nat.sub_diag, firstn_O, app_nil_r; apply firstn_all).
      rewrite firstn_app in F. replace (length x - length x')%nat with 0%nat in F by (unfold len in *; lia). now rewrite firstn_O, app_nil_r in F. }
    rewrite <- F at 1. now rewrite firstn_skipn. }
  set (t := skipn (length x) x') in *. clearbody t. subst x'. rewrite len_app in L'. exists x, y'. split; [rewrite E', <- app_assoc; reflexivity|]. split; [auto|]. split; [lia|]. split; [exact U1|]. split; [|exact U2'].
  rewrite E in E'. rewrite <- app_assoc in E'. apply app_inv_head in E'. subst y. clear - U1' U1 U2 U2'.
  destruct (utf8_cut t y' U2); auto.
  destruct U2' as (cs & Hc & Ec). destruct cs as [|c cs]; [right; left; exact Ec|]. inversion Hc; subst. destruct (enc_bytes c) as (a & q & Ee & Ha & _); auto.
  right; right; left. exists a, (q ++ flat_map encode_utf8 cs). split; [|exact Ha]. cbn [flat_map]. now rewrite Ee.
Qed.
(** 7-bit text standing in the source. *)
Lemma cb_ascii src p t q : utf8_text src -> src = p ++ t ++ q -> ascii7 t -> char_boundary src (len p) -> char_boundary src (len p + len t).
Proof.
  intros U E A C. destruct (cb_cut _ p (t ++ q) _ C E eq_refl) as [U1 U2]. destruct (utf8_ascii_head t q A U2) as [U3 U4].
  exists (p ++ t), q. rewrite <- app_assoc, len_app. repeat split; auto. now apply utf8_app.
Qed.
Lemma cb_before src p c q : utf8_text src -> src = p ++ c :: q -> c < 128 -> char_boundary src (len p).
Proof. intros U E A. exists p, (c :: q). subst src. destruct (utf8_cut _ _ U); [|auto 6]. right; right; left. exists c, q. split; [reflexivity|lia]. Qed.
(** 7-bit text is on boundaries. *)
Lemma reads_ascii src sp c t : utf8_text src -> reads src sp (c :: t) -> ascii7 (c :: t) -> char_boundary src (s_start sp) /\ char_boundary src (s_end sp).
Proof.
  intros U (p & q & E & -> & ->) A. assert (C : char_boundary src (len p)) by (inversion A; subst; eapply (cb_before _ p c (t ++ q)); eauto). split; [exact C|]. eapply cb_ascii; eauto.
Qed.

(** ** Spans of the syntax errors *)
Definition on_edges (src : bytes) (sp : span) : Prop := char_boundary src (s_start sp) /\ char_boundary src (s_end sp).
Lemma edges_join src x y : on_edges src x -> on_edges src y -> on_edges src (join_span x y).
Proof. intros [H1 H2] [H3 H4]. split; auto. Qed.
Lemma sig_edges k src x : utf8_text src -> In x (sigs (stream k src 0)) -> on_edges src (snd x).
Proof. intros U H. apply filter_In in H. destruct H. now apply (stream_boundary k). Qed.
Lemma string_edges k src sp v : utf8_text src -> string_at k src sp v -> on_edges src sp.
Proof.
  intros U (pre & vs & post & x & y & E & _ & Hx & Hy & ->).
  assert (G : forall z, In z vs -> on_edges src (snd z)).
  { intros z Hz. change (snd z) with (snd (Some (TStr (fst z)), snd z)). apply (sig_edges k); auto. rewrite E. apply in_or_app; right. apply in_or_app; left. apply (in_map (fun x : bytes * span => (Some (TStr (fst x)), snd x))). exact Hz. }
  apply edges_join; apply G; [|apply in_rev]; [destruct vs|destruct (rev vs)]; cbn in *; try discriminate; left; congruence.
Qed.
Lemma package_edges k src sp : utf8_text src -> package_at k src sp -> on_edges src sp.
Proof.
  intros U (p1 & st & p2 & e & p3 & E & ->). apply edges_join.
  - change st with (snd (Some (kw "package"), st)). apply (sig_edges k); auto. rewrite E. apply in_or_app; right. now left.
  - change e with (snd (Some TSemicolon, e)). apply (sig_edges k); auto. rewrite E. apply in_or_app; right. right. apply in_or_app; right. now left.
Qed.
Lemma radix_ascii pre radix : radix_prefix pre radix -> ascii7 pre.
Proof. intros [[-> _]|[[-> _]|[[->| ->] _]]]; repeat constructor; cbn; lia. Qed.
Lemma hex_ascii c : hex_digit c -> c < 128.
Proof. unfold hex_digit. cbn. lia. Qed.
Lemma bad_ascii x r : bad_char x r -> ascii7 x.
Proof.
  destruct 1 as [r|r H|x y z r H _|u n ds r H _ H2 _].
  - repeat constructor.
  - repeat constructor.
  - constructor; [lia|]. eapply Forall_impl; [|exact H]. unfold oct_digit. intros; lia.
  - constructor; [lia|]. constructor; [destruct H as [[-> _]|[-> _]]; cbn; lia|]. eapply Forall_impl; [|exact H2]. exact hex_ascii.
Qed.
Lemma bads_ascii x r : bad_chars x r -> ascii7 x.
Proof. induction 1 as [x r H|x y r H _ IH]; [eapply bad_ascii; eauto|]. apply Forall_app. split; [eapply bad_ascii; eauto|exact IH]. Qed.
Lemma reads_start src tsp a c : utf8_text src -> on_edges src tsp -> reads src tsp (a ++ c) -> ascii7 a -> char_boundary src (s_start tsp + len a).
Proof. intros U [H1 _] (p & q & E & E1 & _) A. rewrite E1 in *. rewrite <- app_assoc in E. exact (cb_ascii src p a (c ++ q) U E A H1). Qed.
Lemma fault_edges k src t tsp e : utf8_text src -> In (Some t, tsp) (stream k src 0) -> fault k src t tsp e -> Forall (on_edges src) (perr_spans e).
Proof.
  intros U Hin H. pose proof (stream_boundary k src U _ Hin) as HT. cbn [snd] in HT. change (on_edges src tsp) in HT.
  destruct e; cbn [fault perr_spans] in *; try contradiction; try (constructor; fail); (constructor; [|constructor]).
  - destruct H as (_ & pre & radix & ds & Hr & Hp & -> & _). split; [|apply HT]. cbn [s_start s_end fst snd]. eapply reads_start; eauto. eapply radix_ascii; eauto.
  - destruct H as (_ & _ & _ & x & r & (p & E & E1 & E2) & B). eapply (reads_ascii src _ 0 x); [exact U| |eapply bads_ascii; eauto]. exists p, r. auto.
  - destruct H as (_ & _ & _ & Hr). eapply (reads_ascii src _ 10 []); eauto. repeat constructor.
  - destruct H as (_ & _ & _ & x & r & (p & E & E1 & E2) & B). eapply (reads_ascii src _ (N_of_ascii "\") x); [exact U| |eapply bads_ascii; eauto]. exists p, r. auto.
  - destruct H as (_ & _ & Hr). eapply (reads_ascii src _ 47 [42]); eauto. repeat constructor.
  - destruct H as (_ & pre & radix & ds & c & cs & Hr & Hp & Hs & Hc & Hl & Hls). split.
    + rewrite Hs. eapply reads_start; eauto. eapply radix_ascii; eauto.
    + destruct Hc as (p & q & E & E1 & E2). cbn [s_start s_end fst snd] in E1, E2. unfold s_end in *. rewrite E2. eapply cb_ascii; [exact U|exact E| |].
      * constructor; [unfold letter_ in Hl; cbn in Hl; lia|]. eapply Forall_impl; [|exact Hls]. intros d Hd. unfold letter in Hd. cbn in Hd. lia.
      * rewrite <- E1. apply HT.
  - destruct H as [-> _]. exact HT.
  - destruct H as [-> _]. exact HT.
Qed.
Theorem truth_edges k src e : utf8_text src -> truth k src e -> Forall (on_edges src) (perr_spans e).
Proof.
  intros U [_ H].
  destruct e; cbn [perr_spans]; try (destruct H as (t & tsp & Hin & F); exact (fault_edges _ _ _ _ _ U Hin F)); try (constructor; fail).
  - constructor; [|constructor]. exact (stream_boundary k src U _ H).
  - destruct H as (v & H & _). constructor; [|constructor]. eapply string_edges; eauto.
  - destruct H as (v & H & _). constructor; [|constructor]. eapply string_edges; eauto.
  - destruct H as (v & w & H & _). constructor; [|constructor]. eapply string_edges; eauto.
  - destruct H as (v & H & _). constructor; [|constructor]. exact (stream_boundary k src U _ H).
  - destruct H as (v & w & H & _). constructor; [|constructor]. eapply string_edges; eauto.
  - destruct H as (H1 & H2 & _). constructor; [|constructor; [|constructor]]; eapply package_edges; eauto.
  - destruct H as (t & H & _). constructor; [|constructor]. exact (stream_boundary k src U _ H).
Qed.

(** ** Spans of the semantic errors *)
Definition nspans (x : node) : list span :=
  match x with
  | NField _ f => s_field s_body f | NEnum e => s_enum e | NOneof o => s_oneof s_body o | NService s => s_service s
  | NBody exts opts res => flat_map s_exts exts ++ s_options opts ++ flat_map s_reserved res
  | NFile opts => s_options opts
  end.
Lemma option_flaw_in o e : option_flaw o e -> incl (perr_spans e) [optval_span (ob_value o)].
Proof. destruct 1 as [i sp E|i E _]; rewrite E; cbn [perr_spans optval_span]; apply incl_refl. Qed.
Lemma options_flaw_in l e : options_flaw l e -> incl (perr_spans e) (s_options l).
Proof. intros (o & Hi & H). intros y Hy. apply (option_flaw_in _ _ H) in Hy. unfold s_options. apply in_flat_map. exists o. split; [exact Hi|]. destruct Hy as [<-|[]]. right. now left. Qed.
Lemma optlist_in o x : In x (optlist_options o) -> incl (s_ob x) (s_optlist o).
Proof. destruct o as [l|]; cbn; [|tauto]. intros H y Hy. right. apply in_flat_map. eauto. Qed.
Lemma optlist_flaw_in o e : optlist_flaw o e -> incl (perr_spans e) (s_optlist o).
Proof. intros (x & Hi & H) y Hy. apply (optlist_in _ _ Hi). apply (option_flaw_in _ _ H) in Hy. destruct Hy as [<-|[]]. right. now left. Qed.
Lemma find_in {A} (p : A -> bool) l x : find p l = Some x -> In x l.
Proof. intros H. now apply find_some in H. Qed.
Lemma rest_in {B} (f : field_ B) : incl (s_optlist (rest_options f)) (s_optlist (fd_options f)).
Proof.
  unfold rest_options. destruct (fd_options f) as [l|]; cbn [option_map s_optlist ol_span ol_options]; [|apply incl_refl]. apply incl_cons; [now left|]. apply incl_tl. apply flat_map_incl. eapply incl_tran; apply drop_incl.
Qed.
Lemma field_flaw_in k syn sc f e : field_flaw k syn sc f e -> incl (perr_spans e) (s_field s_body f).
Proof.
  intros H. assert (HO : incl (s_optlist (fd_options f)) (s_field s_body f)) by (unfold s_field; intros y Hy; right; rewrite !in_app_iff; cbn [In]; rewrite !in_app_iff; tauto).
  assert (HL : forall l sp, fd_label f = Some (l, sp) -> In sp (s_field s_body f)) by (intros l sp El; unfold s_field; rewrite El; right; now left).
  assert (HD : forall o, default_of f = Some o \/ json_of f = Some o -> incl (s_ob o) (s_field s_body f)) by (intros o [Ho|Ho]; apply find_in in Ho; exact (incl_tran (optlist_in _ _ Ho) HO)).
  assert (HV : forall o v, default_of f = Some o \/ json_of f = Some o -> ob_value o = v -> In (optval_span v) (s_field s_body f)) by (intros o v Ho <-; apply (HD o Ho); right; now left).
  assert (HB : forall o, default_of f = Some o \/ json_of f = Some o -> In (body_span o) (s_field s_body f)) by (intros o Ho; apply (HD o Ho); now left).
  destruct H; cbn [perr_spans]; try (intros y [<-|[]]; first [eapply HL; eassumption | apply HB; auto; fail | now left | eapply HV; [left; eassumption|reflexivity] | eapply HV; [right; eassumption|reflexivity]]).
  - intros y [<-|[]]. unfold s_field. right. rewrite !in_app_iff. cbn [In]. tauto.
  - intros y [<-|[]]. unfold s_field. right. rewrite !in_app_iff. right. left. match goal with E : fd_kind f = _ |- _ => rewrite E end. right. now left.
  - intros y [<-|[]]. match goal with E : ob_value _ = OVInt ?i |- _ => apply (HV _ (OVInt i)) in E; [exact E|auto] end.
  - intros y [<-|[]]. match goal with E : ob_value _ = OVString ?i |- _ => apply (HV _ (OVString i)) in E; [exact E|auto] end.
  - intros y [<-|[]]. match goal with E : ob_value _ = OVString ?i |- _ => apply (HV _ (OVString i)) in E; [exact E|auto] end.
  - eapply incl_tran; [apply optlist_flaw_in; eassumption|]. eapply incl_tran; [apply rest_in|exact HO].
Qed.
Lemma range_in r i : In i (range_numbers r) -> In (i_span i) (s_range r).
Proof.
  unfold range_numbers, s_range, rr_end_span. intros [<-|H]; [right; now left|]. destruct (rr_end r); [destruct H|destruct H as [<-|[]]|destruct H]; do 2 right; now left.
Qed.
Lemma ranges_in res r : In r (message_ranges res) -> incl (s_range r) (flat_map s_reserved res).
Proof.
  unfold message_ranges. intros H. apply in_flat_map in H. destruct H as (x & Hx & H). intros y Hy. apply in_flat_map. exists x. split; [exact Hx|]. unfold s_reserved. destruct (rs_kind x); [|destruct H]. right. apply in_flat_map. eauto.
Qed.
Lemma flaw_in k syn x e : flaw k syn x e -> incl (perr_spans e) (nspans x).
Proof.
  destruct 1; cbn [nspans].
  - eapply field_flaw_in; eassumption.
  - intros y [<-|[]]. unfold s_enum. do 2 right. apply in_or_app. left. apply in_flat_map. exists v. split; [assumption|]. do 2 right. now left.
  - intros y Hy. apply (optlist_flaw_in _ _ H0) in Hy. unfold s_enum. do 2 right. apply in_or_app. left. apply in_flat_map. exists v. split; [assumption|]. do 3 right. exact Hy.
  - intros y [<-|[]]. unfold s_enum. do 2 right. rewrite !in_app_iff. right. left. eapply ranges_in; eauto. now apply range_in.
  - intros y Hy. apply (options_flaw_in _ _ H) in Hy. unfold s_enum. do 2 right. rewrite !in_app_iff. tauto.
  - intros y [<-|[]]. now left.
  - intros y Hy. apply (options_flaw_in _ _ H) in Hy. unfold s_oneof. do 2 right. rewrite !in_app_iff. tauto.
  - intros y Hy. apply (options_flaw_in _ _ H) in Hy. unfold s_service. do 2 right. rewrite !in_app_iff. tauto.
  - intros y Hy. apply (options_flaw_in _ _ H0) in Hy. unfold s_service. do 2 right. rewrite !in_app_iff. left. apply in_flat_map. exists m. split; [assumption|]. unfold s_method. do 2 right. rewrite !in_app_iff. cbn [In]. rewrite !in_app_iff. cbn [In]. tauto.
  - intros y [<-|[]]. rewrite !in_app_iff. left. apply in_flat_map. exists x. split; [assumption|]. unfold s_exts. right. rewrite in_app_iff. left. apply in_flat_map. exists r. split; [assumption|]. now apply range_in.
  - intros y Hy. apply (optlist_flaw_in _ _ H1) in Hy. rewrite !in_app_iff. left. apply in_flat_map. exists x. split; [assumption|]. unfold s_exts. right. rewrite in_app_iff. tauto.
  - intros y Hy. apply (options_flaw_in _ _ H) in Hy. rewrite !in_app_iff. tauto.
  - intros y [<-|[]]. rewrite !in_app_iff. do 2 right. eapply ranges_in; eauto. now apply range_in.
  - apply options_flaw_in. assumption.
Qed.
Definition within (l : list node) (s : list span) : Prop := forall x, In x l -> incl (nspans x) s.
Lemma within_flat {A} (N : A -> list node) (S : A -> list span) l : (forall a, In a l -> within (N a) (S a)) -> within (flat_map N l) (flat_map S l).
Proof. intros H x Hx. apply in_flat_map in Hx. destruct Hx as (a & Ha & Hx). intros y Hy. apply in_flat_map. exists a. split; [exact Ha|]. exact (H a Ha x Hx y Hy). Qed.
Lemma within_weak l s s' : within l s -> incl s s' -> within l s'.
Proof. intros H1 H2 x Hx. exact (incl_tran (H1 x Hx) H2). Qed.
Lemma within_cons x l s : incl (nspans x) s -> within l s -> within (x :: l) s.
Proof. intros H1 H2 z [<-|Hz]; auto. Qed.
Lemma within_nil s : within [] s.
Proof. intros x []. Qed.
Definition bw (bd : body) : Prop := within (nodes_body bd) (s_body bd).
Lemma field_within sc (f : field) : on_kind bw f -> within (nodes_field nodes_body sc f) (s_field s_body f).
Proof.
  unfold on_kind. intros H. unfold nodes_field. apply within_cons; [apply incl_refl|]. destruct (fd_kind f) as [? ?|sp bd|? ? ? ? ?] eqn:E; try apply within_nil.
  eapply within_weak; [exact H|]. unfold s_field; rewrite E; cbn [s_kind s_tail]. intros y Hy; right; rewrite !in_app_iff; cbn [In]; rewrite !in_app_iff; tauto.
Qed.
Lemma fields_within sc (l : list field) : Forall (on_kind bw) l -> within (flat_map (nodes_field nodes_body sc) l) (flat_map (s_field s_body) l).
Proof. intros H. apply within_flat. rewrite Forall_forall in H. intros a Ha. apply field_within. auto. Qed.
Lemma item_within (it : mitem) : on_item bw it -> within (nodes_item nodes_body it) (s_item s_body it).
Proof.
  destruct it as [f|e|m|e|o]; cbn [on_item nodes_item s_item]; intros H.
  - now apply field_within.
  - apply within_cons; [apply incl_refl|apply within_nil].
  - eapply within_weak; [exact H|]. unfold s_message. do 2 apply incl_tl. apply incl_refl.
  - eapply within_weak; [apply fields_within; exact H|]. unfold s_extend. do 2 apply incl_tl. apply incl_refl.
  - apply within_cons; [apply incl_refl|]. eapply within_weak; [apply fields_within; exact H|]. unfold s_oneof. do 2 apply incl_tl. apply incl_appr, incl_refl.
Qed.
Lemma body_within bd : bw bd.
Proof.
  induction bd as [items exts opts res IH] using body_rect'. unfold bw. cbn [nodes_body s_body]. apply within_cons.
  - cbn [nspans]. intros y. rewrite !in_app_iff. tauto.
  - eapply within_weak; [apply within_flat; rewrite Forall_forall in IH; intros a Ha; apply item_within; exact (IH a Ha)|]. apply incl_appl, incl_refl.
Qed.
Lemma kinds_within (l : list field) : Forall (on_kind bw) l.
Proof. apply Forall_forall. intros f _. unfold on_kind. destruct (fd_kind f); auto using body_within. Qed.
Lemma file_within f : within (nodes f) (s_file f).
Proof.
  unfold nodes, s_file. apply within_cons.
  - cbn [nspans]. intros y Hy. right. rewrite !in_app_iff. tauto.
  - eapply within_weak; [apply (within_flat _ s_fitem)|intros y Hy; right; rewrite !in_app_iff; tauto].
    intros [e|m|e|s] _; cbn [nodes_fitem s_fitem].
    + apply within_cons; [apply incl_refl|apply within_nil].
    + eapply within_weak; [apply body_within|]. unfold s_message. do 2 apply incl_tl. apply incl_refl.
    + eapply within_weak; [apply fields_within, kinds_within|]. unfold s_extend. do 2 apply incl_tl. apply incl_refl.
    + apply within_cons; [apply incl_refl|apply within_nil].
Qed.
Theorem breaks_in k syn f e : breaks k syn f e -> incl (perr_spans e) (s_file f).
Proof. intros (x & Hx & H). exact (incl_tran (flaw_in _ _ _ _ H) (file_within f x Hx)). Qed.

(** ** The declarations of an accepted file *)
Lemma accepted_edges k src f : utf8_text src -> accepted k src f -> Forall (on_edges src) (s_file f).
Proof.
  intros U (ts & G & Hs & _).
  assert (C0 : char_boundary src 0) by (exists [], src; repeat split; auto using utf8_nil).
  assert (Cn : char_boundary src (len src)) by (exists src, []; rewrite app_nil_r; repeat split; auto using utf8_nil).
  eapply (file_on (on_edges src)); [apply edges_join|split; exact C0|split; [exact Cn|exact C0]|exact G|].
  apply Forall_forall. intros x Hx. assert (Hi : In (inj x) (sigs (stream k src 0))) by (rewrite Hs; now apply in_map).
  pose proof (sig_edges k src _ U Hi) as H. destruct x as [[t s] m]. exact H.
Qed.

(** * C61 *)
(** The source is a Rust [&str], so it is UTF-8 text. Whatever error is reported, its spans cut out text. *)
Theorem C61_error_spans k sort name src err a : utf8_text src -> parse k sort name src = Done (inr err, a) ->
  forall e sp, In e (pe_all err) -> In sp (perr_spans e) -> exists t, slice src sp t.
Proof.
  intros U E e sp He Hsp. destruct (C24_error_spans _ _ _ _ _ _ E e sp He Hsp) as [Hle _].
  assert (G : on_edges src sp); [|destruct G; apply cb_slice; auto].
  destruct (C54_rejections k sort name src) as (r & a' & E' & H). rewrite E in E'. injection E' as <- <-.
  destruct H as [[_ H]|[(_ & f & Ha & _ & H)|(_ & _ & _ & H)]].
  - rewrite H in He. destruct He as [<-|[]]. destruct Hsp.
  - pose proof (accepted_edges _ _ _ U Ha) as F. rewrite Forall_forall in F. apply F. exact (breaks_in _ _ _ _ (H e He) _ Hsp).
  - rewrite Forall_forall in H. pose proof (truth_edges _ _ _ U (H e He)) as F. rewrite Forall_forall in F. auto.
Qed.
Print Assumptions C61_error_spans.
(** In particular the span [ParseError::span] gives. *)
Theorem C61_span k sort name src err a sp : utf8_text src -> parse k sort name src = Done (inr err, a) -> perr_span (pe_kind err) = Some sp ->
  exists t, slice src sp t.
Proof.
  intros U E H. eapply (C61_error_spans k sort name src err a U E (pe_kind err)); [now left|].
  destruct (pe_kind err); cbn [perr_span perr_spans] in *; try discriminate; injection H as <-; now left.
Qed.
Print Assumptions C61_span.
(** The text a source location stands for is a slice of the source. (A file without tokens has one location, for the whole file: C58.) *)
Theorem C61_locations k sort name src d a : utf8_text src -> sorting sort -> parse k sort name src = Done (inl d, a) -> sigs (stream k src 0) <> [] ->
  exists locs, d_source_info d = Some locs /\
    forall x, In x locs -> exists sp t, slice src sp t /\ loc_span x = encode src (s_start sp) (s_end sp).
Proof.
  intros U Hsort E Hne. destruct (parse_ok_inv _ _ _ _ _ _ E) as (Hn & f & Ha & Hok & (ls & El & Ed)). pose proof (accepted_edges _ _ _ U Ha) as F. rewrite Forall_forall in F.
  pose proof (accepted_seg _ _ _ Ha Hne) as [SG _].
  exists (sort (map (mk ls) (l_file k (fi_syntax f) f))). split; [rewrite Ed; reflexivity|]. destruct (Hsort (map (mk ls) (l_file k (fi_syntax f) f))) as [Hp _].
  intros x Hx. apply (Permutation_in _ (Permutation_sym Hp)) in Hx. apply in_map_iff in Hx. destruct Hx as ([[p sp] c] & <- & Hx). apply in_sps in Hx. cbn [fst snd] in Hx.
  apply (sps_file k (fi_syntax f) f) in Hx. destruct (F _ Hx) as [F1 F2]. specialize (SG _ Hx). exists sp. destruct (cb_slice src sp F1 F2) as (t & Ht); [lia|]. exists t. split; [exact Ht|].
  apply (mk_span src ls); auto. split; lia.
Qed.
Print Assumptions C61_locations.
(** The lexer never stops inside a character (Logos' [bump] and the slices it takes are in bounds and on boundaries). *)
Theorem C61_tokens k src : utf8_text src -> forall x, In x (stream k src 0) -> char_boundary src (s_start (snd x)) /\ char_boundary src (s_end (snd x)).
Proof. exact (stream_boundary k src). Qed.
Print Assumptions C61_tokens.
(** Examples: names, strings and comments with characters of two to four bytes. *)
Definition ex_euro : bytes := [195; 188; 226; 130; 172; 240; 159; 152; 128].   (* u umlaut, euro sign, an emoji *)
Definition ex_edge_err : bytes := b "// " ++ ex_euro ++ nl_ ++ b "message A { optional string s = 1 [default = '" ++ ex_euro ++ b "\z" ++ ex_euro ++ b "']; } " ++ ex_euro.
Definition ex_edge_rule : bytes := b "message A { optional int32 s = 1 [default = '" ++ ex_euro ++ b "']; oneof /*" ++ ex_euro ++ b "*/ o {} } ".
Definition ex_edge_ok : bytes := b "syntax = 'proto2'; // " ++ ex_euro ++ nl_ ++ b "message A { optional string s = 1 [default = '" ++ ex_euro ++ b "']; } ".
Definition spans_of (src : bytes) : list (list span) := match parse ex_k0 loc_sort (b "x.proto") src with Done (inr e, _) => map perr_spans (pe_all e) | _ => [] end.
Example C61_example_text : utf8_text ex_edge_err /\ utf8_text ex_edge_rule /\ utf8_text ex_edge_ok.
Proof. repeat split; apply utf8_valid_iff; vm_compute; reflexivity. Qed.
Example C61_example_spans : spans_of ex_edge_err = [[(68, 69)]; [(85, 87)]; [(87, 90)]; [(90, 94)]] /\ spans_of ex_edge_rule = [[(44, 55)]; [(58, 82)]].
Proof. split; vm_compute; reflexivity. Qed.
(** The last of them is the emoji, and half of it would not do. *)
Example C61_example_slice : slice ex_edge_err (90, 94) [240; 159; 152; 128] /\ ~ char_boundary ex_edge_err 92.
Proof.
  assert (U : forall v, utf8_valid v = true -> utf8_text v) by (intros v; apply utf8_valid_iff).
  split.
  - exists (firstn 90 ex_edge_err), (@nil N). repeat split; try (apply U); vm_compute; reflexivity.
  - intros (x & y & E & L & Hx & Hy). assert (Ey : y = skipn 92 ex_edge_err).
    { rewrite E. assert (L' : length x = 92%nat) by (unfold len in L; lia). rewrite <- L'. rewrite skipn_app, Nat.sub_diag, skipn_all. reflexivity. }
    apply utf8_valid_iff in Hy. rewrite Ey in Hy. vm_compute in Hy. discriminate Hy.
Qed.
Example C61_example_accepted : ok_result ex_edge_ok = true /\ sigs (stream ex_k0 ex_edge_ok 0) <> [].
Proof. split; [lazy; reflexivity|]. assert (E : sigs (stream ex_k0 ex_edge_ok 0) = [] -> length (sigs (stream ex_k0 ex_edge_ok 0)) = 0%nat) by (intros ->; reflexivity). intros H. apply E in H. vm_compute in H. discriminate H. Qed.
