(** C47: the span of an import error. *)
From Coq Require Import Sorting.Sorted Sorting.Permutation.
From Verif Require Import Base Utf8 Errors Lex Ast Parse Lines Descriptor Generate ParseApi PropsLines LexSafe Stream Grammar Walk WalkG3 Meaning Erase AstWf
  GenProofs AstWfG PropsParse DescSpec DescLemmas PropsDesc PropsTokens LocSpec AstNames PropsLoc Paths Resolver Compiler CompilerProofs CompilerHistory.

(** ** Only imports have locations [3, i] *)
Definition safe (p : list Z) : Prop := match p with z :: _ => z <> 3%Z | [] => False end.
Definition spath (x : rawloc) : Prop := safe (fst (fst x)).
Notation S3 := (Forall spath).
Lemma safe_app p q : safe p -> safe (p ++ q).
Proof. destruct p; [intros []|auto]. Qed.
Lemma s_idx {A} (f : Z -> A -> list rawloc) (l : list A) : forall i, (forall j x, S3 (f j x)) -> S3 (l_idx f i l).
Proof. induction l as [|x l IH]; intros i H; cbn [l_idx]; [constructor|]. apply Forall_app. auto. Qed.
Lemma F_app {A} (Q : A -> Prop) x y : Forall Q x -> Forall Q y -> Forall Q (x ++ y).
Proof. intros. apply Forall_app. auto. Qed.
Create HintDb s3.
#[local] Hint Resolve safe_app : s3.
Ltac s3 := repeat first
  [ apply F_app | solve [auto 4 with s3] | apply Forall_cons | apply Forall_nil | apply s_idx; intros ? ?
  | match goal with |- spath _ => unfold spath, at_; cbn [fst] end | solve [repeat apply safe_app; assumption] ].
Lemma s_options p l : safe p -> S3 (l_options p l).
Proof. intros H. unfold l_options. s3. Qed.
#[local] Hint Resolve s_options : s3.
Lemma s_optlist p l : safe p -> S3 (l_optlist p l).
Proof. intros H. destruct l; cbn; s3. Qed.
#[local] Hint Resolve s_optlist : s3.
Lemma s_range p r : safe p -> S3 (l_range p r).
Proof. intros H. unfold l_range. s3. Qed.
#[local] Hint Resolve s_range : s3.
Lemma s_reserved a c p rs : safe p -> forall i j, S3 (l_reserved a c p i j rs).
Proof.
  intros H. induction rs as [|r rs IH]; intros i j; cbn [l_reserved]; [constructor|]. apply Forall_app; split; [|apply IH]. destruct (rs_kind r); s3.
Qed.
#[local] Hint Resolve s_reserved : s3.
Lemma s_enum p e : safe p -> S3 (l_enum p e).
Proof.
  intros H. unfold l_enum. s3.
Qed.
#[local] Hint Resolve s_enum : s3.
Lemma s_opt p o : safe p -> S3 (opt_loc p o).
Proof. intros H. destruct o; cbn; s3. Qed.
#[local] Hint Resolve s_opt : s3.
Lemma s_service p s : safe p -> S3 (l_service p s).
Proof.
  intros H. unfold l_service. s3.
Qed.
#[local] Hint Resolve s_service : s3.
Section Fields.
Variable k : cfg.
Variable syn : syntax.
Definition sbody (bd : body) : Prop := forall p, safe p -> S3 (l_body k syn p bd).
Lemma s_field sc fp mp (f : field) : safe fp -> safe mp -> on_kind sbody f -> S3 (l_field syn (l_body k syn) sc fp mp f).
Proof.
  intros H1 H2 Hb. unfold l_field.
  assert (Hl : S3 (l_label syn fp sc (fd_label f))).
  { unfold l_label. destruct (den_label _ _); [|constructor]. destruct (fd_label f) as [[? ?]|]; s3. }
  assert (Hd : S3 (l_default fp f)).
  { unfold l_default. destruct (default_of f); s3. }
  unfold on_kind in Hb. destruct (json_of f), (fd_kind f) as [t ?|? ?|]; try destruct t; s3.
Qed.
(** Paths [p ++ ..] that continue with one of the given tags. *)
Lemma s_fields sc extra ft mt p (l : list field) : forall i j,
  (forall i, safe (p ++ [ft; i])) -> (forall i, safe (p ++ [mt; i])) -> (forall q, safe q -> S3 (extra q)) -> Forall (on_kind sbody) l ->
  S3 (l_fields syn (den_body k syn) (l_body k syn) sc extra ft mt p i j l).
Proof.
  induction l as [|f l IH]; intros i j H1 H2 H3 H4; cbn [l_fields]; [constructor|]. inversion H4; subst. apply F_app; [auto|]. apply F_app; [now apply s_field|auto].
Qed.
Lemma s_extend xt mt p i j (x : extend) : safe (p ++ [xt]) -> (forall i, safe (p ++ [xt; i])) -> (forall i, safe (p ++ [mt; i])) -> Forall (on_kind sbody) (et_fields x) ->
  S3 (l_extend syn (den_body k syn) (l_body k syn) xt mt p i j x).
Proof. intros H1 H2 H3 H4. unfold l_extend. constructor; [exact H1|]. apply s_fields; auto. intros q Hq. s3. Qed.
Lemma s_items p (items : list mitem) : safe p -> Forall (on_item sbody) items -> forall nf nx nm ne no, S3 (l_items k syn (den_body k syn) (l_body k syn) p nf nx nm ne no items).
Proof.
  intros H Hi. induction Hi as [|it items Hit Hi IH]; intros nf nx nm ne no; cbn [l_items]; [constructor|]. apply F_app; [|apply IH].
  destruct it as [f|e|m|x|o]; cbn [on_item] in Hit.
  - apply s_field; auto; now apply safe_app.
  - apply s_enum. now apply safe_app.
  - unfold l_message. assert (safe (p ++ [3%Z; Z.of_N nm])) by now apply safe_app. s3.
  - apply s_extend; auto; try (intros; now apply safe_app).
  - s3. apply s_fields; auto; try (intros; now apply safe_app).
Qed.
Lemma s_extensions p (l : list extensions) : safe p -> forall i, S3 (l_extensions p i l).
Proof.
  intros H. induction l as [|x l IH]; intros i; cbn [l_extensions]; [constructor|]. s3.
Qed.
Lemma s_body bd : sbody bd.
Proof.
  induction bd as [items exts opts res IH] using body_rect'. intros p H. cbn [l_body].
  repeat apply F_app; [now apply s_items|now apply s_reserved|apply s_extensions; now apply safe_app|apply s_options; now apply safe_app].
Qed.
Lemma s_fitems (items : list fitem) : forall nm ne ns nx, S3 (l_fitems k syn [] nm ne ns nx items).
Proof.
  induction items as [|it items IH]; intros nm ne ns nx; cbn [l_fitems]; [constructor|]. apply F_app; [|apply IH]. destruct it as [e|m|x|s].
  - apply s_enum. discriminate.
  - unfold l_message. constructor; [discriminate|]. constructor; [discriminate|]. apply s_body. discriminate.
  - apply s_extend; try (intros; discriminate). apply Forall_forall. intros f _. unfold on_kind. destruct (fd_kind f); auto. apply s_body.
  - apply s_service. discriminate.
Qed.
End Fields.

(** The only location with path [3; i] is that of the i-th import. *)
Lemma imports_only (l : list import) : forall n pub weak i,
  (forall im, nth_error l i = Some im -> In ([3%Z; Z.of_N n + Z.of_nat i]%Z, im_span im, im_comments im) (l_imports [] n pub weak l)) /\
  (forall x, In x (l_imports [] n pub weak l) -> fst (fst x) = [3%Z; Z.of_N n + Z.of_nat i]%Z ->
     exists im, nth_error l i = Some im /\ x = ([3%Z; Z.of_N n + Z.of_nat i]%Z, im_span im, im_comments im)).
Proof.
  induction l as [|im l IH]; intros n pub weak i; cbn [l_imports]; split.
  - destruct i; discriminate.
  - intros x [].
  - intros im'. destruct i as [|i]; cbn [nth_error].
    + intros [= <-]. left. cbn [app]. now rewrite Z.add_0_r.
    + intros E. right. apply in_or_app. right. match goal with |- In _ (l_imports _ ?a ?b ?c _) => destruct (IH a b c i) as [H _] end.
      apply H in E. replace (Z.of_N n + Z.of_nat (S i))%Z with (Z.of_N (n + 1) + Z.of_nat i)%Z by lia. exact E.
  - intros x [<-|Hx] E.
    + cbn in E. injection E as E. assert (i = 0)%nat as -> by lia. exists im. split; [reflexivity|]. cbn [app]. now rewrite Z.add_0_r.
    + apply in_app_or in Hx. destruct Hx as [Hx|Hx].
      * destruct (im_kind im) as [[[|] sp]|]; [| |destruct Hx]; destruct Hx as [<-|[]]; cbn in E; discriminate.
      * destruct i as [|i].
        -- exfalso. assert (Hn : (Z.of_N n + Z.of_nat 0 < Z.of_N (n + 1))%Z) by lia. revert Hn Hx E. generalize (n + 1). generalize (Z.of_N n + Z.of_nat 0)%Z.
           match goal with |- context [l_imports [] _ ?b ?c _] => generalize b c end. clear. intros a b z m. revert a b m. induction l as [|im l IH]; cbn [l_imports]; [intros a b n Hn []|].
           intros a b n Hn [<-|Hx] E; [cbn in E; injection E as E; lia|]. apply in_app_or in Hx. destruct Hx as [Hx|Hx].
           ++ destruct (im_kind im) as [[[|] sp]|]; [| |destruct Hx]; destruct Hx as [<-|[]]; cbn in E; discriminate.
           ++ eapply IH in Hx; eauto. lia.
        -- match type of Hx with In _ (l_imports _ ?a ?b ?c _) => destruct (IH a b c i) as [_ H] end.
           replace (Z.of_N n + Z.of_nat (S i))%Z with (Z.of_N (n + 1) + Z.of_nat i)%Z in * by lia. apply H; auto.
Qed.
Lemma file_only k syn f i x : In x (l_file k syn f) -> fst (fst x) = [3%Z; Z.of_nat i] ->
  exists im, nth_error (fi_imports f) i = Some im /\ x = ([3%Z; Z.of_nat i], im_span im, im_comments im).
Proof.
  intros Hx E. unfold l_file in Hx. destruct Hx as [<-|Hx]; [discriminate|]. repeat (apply in_app_or in Hx; destruct Hx as [Hx|Hx]).
  - destruct (fi_package f); [|destruct Hx]. destruct Hx as [<-|[]]. discriminate.
  - destruct (imports_only (fi_imports f) 0 0 0 i) as [_ H]. apply (H x); auto.
  - pose proof (s_fitems k syn (fi_items f) 0 0 0 0) as H. rewrite Forall_forall in H. apply H in Hx. unfold spath in Hx. rewrite E in Hx. now destruct Hx.
  - pose proof (s_options [8%Z] (fi_options f)) as H. rewrite Forall_forall in H. apply H in Hx; [|discriminate]. unfold spath in Hx. rewrite E in Hx. now destruct Hx.
  - destruct (fi_syntax_span f) as [[sp c]|]; [|destruct Hx]. destruct Hx as [<-|[]]. discriminate.
Qed.
Lemma file_has k syn f i im : nth_error (fi_imports f) i = Some im -> In ([3%Z; Z.of_nat i], im_span im, im_comments im) (l_file k syn f).
Proof.
  intros H. unfold l_file. right. apply in_or_app. right. apply in_or_app. left. destruct (imports_only (fi_imports f) 0 0 0 i) as [H' _]. now apply (H' im).
Qed.


(** ** [from_location] *)
Definition ascii_only (l : bytes) : Prop := Forall (fun c => c < 128) l.
Definition conts (l : bytes) : N := len (filter is_cont l).
Lemma from_ge src : forall line col ll lc off, off <= from_location src line col ll lc off.
Proof.
  induction src as [|c r IH]; intros line col ll lc off; cbn [from_location]; [lia|].
  destruct (is_cont c); [etransitivity; [|apply IH]; lia|]. destruct (_ && _); [lia|]. destruct (c =? 10); (etransitivity; [|apply IH]; lia).
Qed.
(** Whole lines before the wanted one. *)
Lemma from_lines A R : forall line col ll lc off, line + N.of_nat (newlines A) + 1 < ll ->
  from_location (A ++ 10 :: R) line col ll lc off = from_location R (line + N.of_nat (newlines A) + 1) 0 ll lc (off + len A + 1).
Proof.
  induction A as [|c A IH]; intros line col ll lc off H; cbn [app from_location newlines] in *.
  - change (is_cont 10) with false. cbn [newlines] in H. rewrite (proj2 (N.leb_gt ll (line + 1))) by lia. cbn. f_equal; lia.
  - rewrite len_cons. destruct (is_cont c) eqn:Ec.
    + assert (E10 : (c =? 10) = false). { destruct (c =? 10) eqn:E; auto. apply N.eqb_eq in E. subst. discriminate. } rewrite E10 in *.
      rewrite IH by lia. f_equal; lia.
    + rewrite (proj2 (N.leb_gt ll (line + 1))) by (destruct (c =? 10); lia). cbn [andb]. destruct (c =? 10); rewrite IH by lia; f_equal; lia.
Qed.
Lemma conts_cons c B : conts (c :: B) = (if is_cont c then 1 else 0) + conts B.
Proof. unfold conts. cbn [filter]. destruct (is_cont c); rewrite ?len_cons; lia. Qed.
Lemma conts_le B : conts B <= len B.
Proof. induction B as [|c B IH]; [reflexivity|]. rewrite conts_cons, len_cons. destruct (is_cont c); lia. Qed.
(** The text before the wanted column on its line. *)
Lemma from_line B R : newlines B = 0%nat -> forall line col ll lc off, col + len B + 1 <= lc + conts B ->
  from_location (B ++ R) line col ll lc off = from_location R line (col + len B - conts B) ll lc (off + len B).
Proof.
  induction B as [|c B IH]; intros Hn line col ll lc off H; cbn [app from_location newlines] in *.
  - unfold conts. cbn [filter]. rewrite len_nil. f_equal; lia.
  - rewrite len_cons, conts_cons in *. pose proof (conts_le B) as Hle. destruct (c =? 10); [discriminate|]. destruct (is_cont c).
    + rewrite IH by (auto; lia). f_equal; lia.
    + rewrite (proj2 (N.leb_gt lc (col + 1))) by lia. rewrite andb_false_r. rewrite IH by (auto; lia). f_equal; lia.
Qed.
(** A text is some whole lines and the start of the next one. *)
Lemma split_last p : newlines p = 0%nat /\ last_line p = p \/ exists A, p = A ++ 10 :: last_line p /\ newlines p = S (newlines A) /\ newlines (last_line p) = 0%nat.
Proof.
  destruct (newlines p) as [|m] eqn:E; [left; split; [reflexivity|now apply last_line_none]|right].
  destruct (split_nl p m) as (A & B & Ep & Em); [lia|]. assert (Hb : newlines B = 0%nat). { rewrite Ep, newlines_app in E. cbn in E. lia. }
  assert (El : last_line p = B) by (rewrite Ep; now apply last_line_app). exists A. rewrite El. auto.
Qed.
(** The position found for the line and byte column of offset [s]. *)
Lemma from_offset src s : s <= len src ->
  from_location src 0 0 (Z.to_N (line_of src s) + 1) (Z.to_N (column_of src s) + 1) 0 =
  from_location (skipn (N.to_nat s) src) (Z.to_N (line_of src s)) (len (last_line (before src s)) - conts (last_line (before src s)))
    (Z.to_N (line_of src s) + 1) (len (last_line (before src s)) + 1) s.
Proof.
  intros Hs. pose proof (firstn_skipn (N.to_nat s) src) as E. fold (before src s) in E. unfold line_of, column_of.
  assert (Hl : len (before src s) = s). { unfold before, len in *. rewrite firstn_length. lia. }
  set (p := before src s) in *. set (q := skipn _ src) in *. clearbody p q. subst src.
  replace (Z.to_N (Z.of_nat (length (last_line p)))) with (len (last_line p)) by (unfold len; lia).
  pose proof (conts_le (last_line p)) as Hc. destruct (split_last p) as [[H1 H2]|(A & H1 & H2 & H3)].
  - rewrite H1, H2 in *. change (Z.to_N (Z.of_nat 0)) with 0. rewrite from_line by (auto; lia). f_equal; lia.
  - set (B := last_line p) in *. clearbody B. subst p. rewrite H2. rewrite len_app, len_cons in Hl. rewrite <- app_assoc. cbn [app]. rewrite from_lines by lia.
    rewrite from_line by (auto; lia). f_equal; lia.
Qed.
Lemma ascii_conts l : ascii_only l -> conts l = 0.
Proof. induction 1 as [|c l H _ IH]; [reflexivity|]. rewrite conts_cons, IH. unfold is_cont, in_range. rewrite (proj2 (N.leb_gt 128 c)) by exact H. reflexivity. Qed.

(** ** The text of an import *)
Definition import_text (l : bytes) : Prop := exists m, l = b "import" ++ m ++ b ";".
Lemma between_two (w1 a z1 w2 c z2 src : bytes) : src = w1 ++ a ++ z1 -> src = w2 ++ c ++ z2 -> len w1 + len a <= len w2 ->
  exists m, between src (len w1) (len w2 + len c) = a ++ m ++ c.
Proof.
  intros E1 E2 H. assert (E : (w1 ++ a) ++ z1 = w2 ++ c ++ z2) by (rewrite <- app_assoc; congruence).
  destruct (app_eq_app _ _ _ _ E) as (l & [[E3 E4]|[E3 E4]]).
  - assert (Hl : len (w1 ++ a) = len w2 + len l) by (rewrite E3; apply len_app). rewrite len_app in Hl. assert (len l = 0) by lia.
    destruct l; [|rewrite len_cons in *; lia]. rewrite app_nil_r in E3. exists []. cbn [app]. rewrite E2, <- E3. rewrite <- app_assoc.
    replace (len (w1 ++ a) + len c) with (len w1 + len (a ++ c)) by (rewrite !len_app; lia). rewrite (app_assoc a). apply between_app.
  - exists l. rewrite E2, E3. rewrite <- !app_assoc. replace (len (w1 ++ a ++ l) + len c) with (len w1 + len (a ++ l ++ c)) by (rewrite !len_app; lia).
    replace (w1 ++ a ++ l ++ c ++ z2) with (w1 ++ (a ++ l ++ c) ++ z2) by now rewrite <- !app_assoc. apply between_app.
Qed.
Lemma import_written {CS : comspec} src k : forall ts l, g_many (g_statement k) ts l -> forall lo, tok_in lo (len src) ts -> Forall (fun x => written_at k src (tk_mark x) (tk_tok x) (tk_span x)) ts ->
  Forall (fun im => import_text (between src (s_start (im_span im)) (s_end (im_span im)))) (flat_map st_imports l).
Proof.
  induction 1 as [|ts a ts' l H _ IH]; intros lo Ht Hw; cbn [flat_map]; [constructor|]. apply tok_in_app in Ht. destruct Ht as (m & T1 & T2).
  apply Forall_app in Hw. destruct Hw as [W1 W2]. apply F_app; [|eauto]. clear IH T2 W2. inversion H; subst; cbn [st_imports]; try constructor; [|constructor].
  match goal with H : g_import _ _ |- _ => inversion H; subst end. cbn [im_span].
  apply tok_in_app in T1. destruct T1 as (m1 & A1 & A2). apply tok_in_app in A2. destruct A2 as (m2 & A2 & A3). apply tok_in_app in A3. destruct A3 as (m3 & A3 & A4).
  apply tok_in_le in A2, A3. apply tok_in_sym in A1, A4.
  apply Forall_app in W1. destruct W1 as [B1 W1]. apply Forall_app in W1. destruct W1 as [_ W1]. apply Forall_app in W1. destruct W1 as [_ B4].
  inversion B1 as [|? ? (w1 & a1 & z1 & X1 & X2 & X3) _]; inversion B4 as [|? ? (w2 & a2 & z2 & Y1 & Y2 & Y3) _].
  cbn [tk_tok tk_span sym fst snd written kw] in *. unfold kw in X3. cbn [written] in X3. destruct X3 as (X3 & _). subst a1 a2 st e. unfold join_span, s_start, s_end in *. cbn [fst snd] in *.
  destruct (between_two w1 (b "import") z1 w2 (b ";") z2 src X1 Y1 ltac:(lia)) as (mm & E). exists mm. exact E.
Qed.

(** ** The theorem *)
(** A file whose descriptor comes from parsing its source, as [File::open] and [File::from_source] build it. *)
Definition from_text (k : cfg) (sort : list location -> list location) (name src : bytes) (pf : pfile) : Prop :=
  pf_source pf = Some src /\ exists a, parse k sort name src = Done (inl (pf_desc pf), a).
(** The text of the line of offset [o] before it. *)
Definition line_before (src : bytes) (o : N) : bytes := last_line (before src o).

Lemma find_span_at locs src i x : In x locs -> loc_path x = [3%Z; i] -> (forall y, In y locs -> loc_path y = [3%Z; i] -> loc_span y = loc_span x) ->
  find_span locs src i = match loc_span x with
    | [sl; sc; ec] => find_span [x] src i
    | _ => Done None
    end.
Proof.
  intros Hx Ep Hu. assert (G : forall l, (forall y, In y l -> loc_path y = [3%Z; i] -> loc_span y = loc_span x) ->
    find_span l src i = if existsb (fun y => list_Z_eqb (loc_path y) [3%Z; i]) l then match loc_span x with [sl; sc; ec] => find_span [x] src i | _ => Done None end else Done None).
  { induction l as [|y l IH]; intros H; [reflexivity|]. cbn [find_span existsb]. specialize (IH (fun z Hz => H z (or_intror Hz))).
    destruct (list_Z_eqb (loc_path y) [3%Z; i]) eqn:Ey; [|cbn [orb]; rewrite IH; reflexivity]. cbn [orb].
    unfold list_Z_eqb in Ey. destruct (list_eq_dec Z.eq_dec (loc_path y) [3%Z; i]) as [E|]; [|discriminate].
    rewrite (H y (or_introl eq_refl) E). unfold list_Z_eqb. rewrite Ep. destruct (list_eq_dec Z.eq_dec [3%Z; i] [3%Z; i]); [|congruence].
    destruct (loc_span x) as [|a [|c [|d [|? ?]]]]; try reflexivity; rewrite IH; destruct (existsb _ l); reflexivity. }
  rewrite (G locs Hu). assert (E : existsb (fun y => list_Z_eqb (loc_path y) [3%Z; i]) locs = true).
  { apply existsb_exists. exists x. split; [exact Hx|]. unfold list_Z_eqb. rewrite Ep. destruct (list_eq_dec _ _ _); congruence. }
  now rewrite E.
Qed.

Lemma column_diff src s e : s <= e -> e <= len src -> line_of src s = line_of src e -> (column_of src e = column_of src s + Z.of_N (e - s))%Z.
Proof.
  intros H1 H2. assert (Hp : before src e = before src s ++ between src s e).
  { unfold before, between. rewrite <- (firstn_skipn (N.to_nat s) (firstn (N.to_nat e) src)). f_equal.
    - rewrite firstn_firstn. f_equal. lia.
    - rewrite skipn_firstn_comm. f_equal. lia. }
  assert (Hl : length (between src s e) = N.to_nat (e - s)). { unfold between. rewrite firstn_length, skipn_length. unfold len in H2. lia. }
  revert Hp Hl. generalize (between src s e). intros m Em Hl. unfold line_of, column_of. rewrite Em, newlines_app. intros E. assert (Hm : newlines m = 0%nat) by lia.
  destruct (split_last (before src s)) as [[H3 H4]|(A & H3 & H4 & H5)].
  - rewrite !last_line_none by (rewrite ?newlines_app; lia). rewrite app_length. lia.
  - rewrite H3 at 1. rewrite <- app_assoc. cbn [app]. rewrite last_line_app by (rewrite newlines_app; lia). rewrite app_length. lia.
Qed.

(** What [find_import_span] gives, in terms of the accepted file. *)
Lemma find_import k sort name src pf : sorting sort -> from_text k sort name src pf ->
  exists f, accepted k src f /\ d_dependency (pf_desc pf) = map im_value (fi_imports f) /\
  forall i, match nth_error (fi_imports f) i with
    | None => find_import_span pf i = Done None
    | Some im => let s := s_start (im_span im) in let e := s_end (im_span im) in span_ok (len src) (im_span im) /\
        find_import_span pf i = match encode src s e with
          | [sl; sc; ec] => Done (Some (from_location src 0 0 (Z.to_N (line_of src s) + 1) (Z.to_N (column_of src s) + 1) 0, e - s)) | _ => Done None end
    end.
Proof.
  intros Hsort (Esrc & a & E). destruct (parse_ok_inv _ _ _ _ _ _ E) as (Hn & f & Ha & Hok & (ls & El & Ed)).
  exists f. split; [exact Ha|]. split; [rewrite Ed; reflexivity|]. intros i.
  pose proof (accepted_wf _ _ _ Ha) as (_ & _ & _ & W4 & _).
  destruct (Hsort (map (mk ls) (l_file k (fi_syntax f) f))) as [Hp _].
  assert (Ef : find_import_span pf i = find_span (sort (map (mk ls) (l_file k (fi_syntax f) f))) src (Z.of_nat i)).
  { unfold find_import_span. rewrite Ed at 1. cbn [with_source_info d_source_info]. now rewrite Esrc. }
  destruct (nth_error (fi_imports f) i) as [im|] eqn:Him.
  - intros s e. assert (Hsp : span_ok (len src) (im_span im)). { rewrite Forall_forall in W4. apply W4. eapply nth_error_In; eauto. }
    split; [exact Hsp|]. rewrite Ef.
    set (x := mk ls ([3%Z; Z.of_nat i], im_span im, im_comments im)).
    assert (Ex : loc_span x = encode src s e) by now apply (mk_span src ls).
    rewrite (find_span_at _ src (Z.of_nat i) x).
    + rewrite Ex. unfold encode. destruct (_ =? _)%Z eqn:Eq; [|reflexivity]. cbn [find_span]. unfold list_Z_eqb. rewrite Ex. unfold encode. rewrite Eq.
      change (loc_path x) with [3%Z; Z.of_nat i]. destruct (list_eq_dec _ _ _) as [_|]; [|congruence].
      apply Z.eqb_eq in Eq. destruct Hsp as [Hs1 Hs2]. pose proof (column_diff src s e Hs1 Hs2 Eq) as Hcol.
      assert (0 <= column_of src s)%Z by (unfold column_of; lia). assert (0 <= line_of src s)%Z by (unfold line_of; lia).
      repeat match goal with |- context [(?u <? ?v)%Z] => rewrite (proj2 (Z.ltb_ge u v)) by lia end. cbn [orb]. f_equal. f_equal. f_equal. lia.
    + apply (Permutation_in _ Hp). apply in_map. now apply file_has.
    + reflexivity.
    + intros y Hy Ey. apply (Permutation_in _ (Permutation_sym Hp)) in Hy. apply in_map_iff in Hy. destruct Hy as ([[q sp] c] & <- & Hy).
      destruct (file_only _ _ _ i _ Hy Ey) as (im' & Hi' & E'). rewrite Him in Hi'. injection Hi' as <-. rewrite E'. reflexivity.
  - rewrite Ef. assert (Hno : forall y, In y (sort (map (mk ls) (l_file k (fi_syntax f) f))) -> loc_path y <> [3%Z; Z.of_nat i]).
    { intros y Hy Ey. apply (Permutation_in _ (Permutation_sym Hp)) in Hy. apply in_map_iff in Hy. destruct Hy as ([[q sp] c] & <- & Hy).
      destruct (file_only _ _ _ i _ Hy Ey) as (im' & Hi' & E'). congruence. }
    revert Hno. generalize (sort (map (mk ls) (l_file k (fi_syntax f) f))). induction l as [|y l IH]; intros Hno; [reflexivity|]. cbn [find_span]. unfold list_Z_eqb.
    destruct (list_eq_dec Z.eq_dec (loc_path y) [3%Z; Z.of_nat i]) as [Ey|_]; [exfalso; eapply Hno; [now left|exact Ey]|]. apply IH. intros z Hz. apply Hno. now right.
Qed.
(** An import error never makes the compiler panic. *)
Lemma find_total k sort name src pf i : sorting sort -> from_text k sort name src pf -> exists sp, find_import_span pf i = Done sp.
Proof.
  intros Hs H. destruct (find_import _ _ _ _ _ Hs H) as (f & _ & _ & F). specialize (F i). destruct (nth_error (fi_imports f) i); [|eauto].
  destruct F as [_ F]. rewrite F. destruct (encode _ _ _) as [|? [|? [|? [|? ?]]]]; eauto.
Qed.

Theorem C47_import_span k sort name src pf : sorting sort -> from_text k sort name src pf ->
  exists f, accepted k src f /\ d_dependency (pf_desc pf) = map im_value (fi_imports f) /\
  forall i im, nth_error (fi_imports f) i = Some im ->
  let s := s_start (im_span im) in let e := s_end (im_span im) in
  s < e /\ e <= len src /\ import_text (between src s e) /\
  (line_of src s = line_of src e -> ascii_only (line_before src s) -> find_import_span pf i = Done (Some (s, e - s))) /\
  (line_of src s = line_of src e -> ~ (forall c, In c (line_before src s) -> is_cont c = false) ->
     exists o, s < o /\ find_import_span pf i = Done (Some (o, e - s))) /\
  (line_of src s <> line_of src e -> find_import_span pf i = Done None).
Proof.
  intros Hsort Hpf. destruct (find_import _ _ _ _ _ Hsort Hpf) as (f & Ha & Ed & Hfi).
  exists f. split; [exact Ha|]. split; [exact Ed|]. intros i im Him s e. specialize (Hfi i). rewrite Him in Hfi. cbv zeta in Hfi. fold s e in Hfi. rename Hfi into Hfind.
  destruct Ha as (ts & Hg & Hs & Hm).
  assert (Htxt : import_text (between src s e)).
  { pose proof (mclean_written k (marks ts) src 0 Hm [] eq_refl ts Hs eq_refl) as Hw. cbn [app] in Hw. destruct Hg as [ss sx sxs ts l pkg G1 G2 G3]. cbn [fi_imports] in Him.
    pose proof (stream_tiles k (lex_init src)) as T. cbn [lex_init l_end l_rest] in T. apply (tiles_tok _ _ _ T) in Hs.
    2:{ unfold stream. match goal with |- context [lex_all k ?s0] => destruct (lex_all_total k s0) as (us0 & s1 & El') end. rewrite El'. eapply lex_all_ok; eauto. }
    rewrite N.add_0_l in Hs. apply tok_in_app in Hs. destruct Hs as (m & _ & Hs). apply Forall_app in Hw. destruct Hw as [_ Hw].
    pose proof (import_written _ _ _ _ G2 _ Hs Hw) as F. rewrite Forall_forall in F. apply F. eapply nth_error_In; eauto. }
  destruct Hfind as [Hsp Hfind].
  split; [|split; [apply Hsp|split; [exact Htxt|]]].
  { destruct Htxt as (m & Htxt). destruct (N.lt_ge_cases s e) as [|Hle]; auto. exfalso. unfold between in Htxt. replace (e - s) with 0 in Htxt by lia. discriminate. }
  rewrite Hfind. unfold encode. 
  assert (Hd : exists r, skipn (N.to_nat s) src = N_of_ascii "i" :: r).
  { destruct Htxt as (m & Htxt). unfold between in Htxt. destruct (skipn (N.to_nat s) src) as [|c r]; [rewrite firstn_nil in Htxt; discriminate|].
    destruct (N.to_nat (e - s)); cbn in Htxt; [discriminate|]. injection Htxt as Hc _. exists r. now rewrite Hc. }
  destruct Hd as (r & Hd).
  assert (Hsl : s <= len src) by (destruct Hsp; subst s e; lia).
  split; [|split]; intros H; [intros Hb|intros Hb|].
  - rewrite (proj2 (Z.eqb_eq _ _) H). rewrite from_offset by exact Hsl. rewrite Hd. fold (line_before src s). rewrite (ascii_conts _ Hb), N.sub_0_r.
    cbn [from_location]. change (is_cont (N_of_ascii "i")) with false. cbv iota. rewrite !(proj2 (N.leb_le _ _)) by lia. reflexivity.
  - rewrite (proj2 (Z.eqb_eq _ _) H). rewrite from_offset by exact Hsl. rewrite Hd. fold (line_before src s). eexists. split; [|reflexivity].
    assert (Hc : 0 < conts (line_before src s)).
    { destruct (N.eq_0_gt_0_cases (conts (line_before src s))) as [H0|]; auto. exfalso. apply Hb. intros c. revert H0. clear. generalize (line_before src s).
      induction b as [|x l IH]; intros H0 Hc; [destruct Hc|]. rewrite conts_cons in H0. destruct Hc as [->|Hc]; [destruct (is_cont c); [lia|auto]|]. apply IH; auto. lia. }
    pose proof (conts_le (line_before src s)) as Hle. cbn [from_location]. change (is_cont (N_of_ascii "i")) with false. cbv iota.
    rewrite (proj2 (N.leb_gt (len (line_before src s) + 1) _)) by lia. rewrite andb_false_r. change (N_of_ascii "i" =? 10) with false. cbv iota.
    eapply N.lt_le_trans; [|apply from_ge]. lia.
  - rewrite (proj2 (Z.eqb_neq _ _) H). reflexivity.
Qed.
Print Assumptions C47_import_span.

(** Files built by [File::from_source] and [File::open] are of this kind. *)
Lemma from_source_text k sort name src pf : file_from_source k sort name src = Done (inl pf) -> from_text k sort name src pf.
Proof.
  unfold file_from_source. destruct (parse k sort name src) as [[[d|e] a]| |] eqn:E; cbn; try discriminate. intros [= <-]. split; [reflexivity|]. eauto.
Qed.
Lemma open_text k sort fs name path pf : file_open k sort fs name path = Done (inl pf) -> exists src, from_text k sort name src pf.
Proof.
  unfold file_open. generalize i32_max. intros M. destruct (fs path) as [|h]; [discriminate|]. destruct (fs_len h); [discriminate|]. destruct (_ <? _); [discriminate|]. destruct (fs_read h); [discriminate|].
  destruct (utf8_valid _); [|discriminate]. destruct (parse k sort name _) as [[[d|e] a]| |] eqn:E; cbn; try discriminate. intros [= <-]. eexists. split; [reflexivity|]. eauto.
Qed.

(** Non-vacuity: the second import is on a line with ASCII text before it; behind a comment with one two-byte
    character the span is one byte off; a statement on two lines has none. *)
Definition ex_imp : bytes := b "syntax = 'proto3';" ++ nl_ ++ b "import 'a.proto'; import public 'b.proto';" ++ nl_ ++ b "/* " ++ [195; 169] ++ b " */ import 'c.proto';" ++ nl_ ++
  b "import" ++ nl_ ++ b "'d.proto';".
Definition ex_pf : option pfile := match file_from_source ex_k0 loc_sort (b "x.proto") ex_imp with Done (inl pf) => Some pf | _ => None end.
Definition ex_spans : list (out (option (N * N))) := match ex_pf with Some pf => map (find_import_span pf) [0; 1; 2; 3]%nat | None => [] end.
Example C47_ex : ex_spans = [Done (Some (19, 17)); Done (Some (37, 24)); Done (Some (72, 17)); Done None].
Proof. vm_compute. reflexivity. Qed.
Example C47_ex_texts : map (fun p => between ex_imp (fst p) (fst p + snd p)) [(19, 17); (37, 24); (72, 17)] =
  [b "import 'a.proto';"; b "import public 'b.proto';"; b "mport 'c.proto';" ++ nl_].
Proof. vm_compute. reflexivity. Qed.

(** ** Errors of the compiler *)
(** Every span in an import error of [open_file] is the one found for a faulty import of the named file
    (resolvers that never return such errors themselves). *)
Theorem C47_compiler_errors (rs : nat -> resolver) (lk : linker) :
  named rs -> linker_ok lk ->
  (forall a e, fails rs a e -> forall u v t w, e <> EDuplicateImport u v t w /\ e <> EImportNotFound u v t w) ->
  forall ok c fuel path e c' sp file text x, history rs lk ok c ->
  open_file rs lk fuel path c = Done (inr e, c') -> e = EImportNotFound sp file text x \/ e = EDuplicateImport sp file text x ->
  exists f i y, opened rs file f /\ nth_error (d_dependency (pf_desc f)) i = Some y /\ find_import_span f i = Done sp /\ text = pf_text f /\
    (e = EImportNotFound sp file text x -> fails rs y (EFileNotFound x)) /\
    (e = EDuplicateImport sp file text x -> y = x /\ In x (firstn i (d_dependency (pf_desc f)))).
Proof.
  intros Hn Hl Hres ok c fuel path e c' sp file text x Hh Ho He.
  pose proof (history_Inv rs lk Hn Hl _ _ Hh) as HI. eapply open_file_spec in Ho; eauto. destruct Ho as (_ & _ & [[Ho _]|(_ & Ho & _)]); [|destruct He; congruence].
  assert (Hf : forall a e', fails rs a e' -> e' = e -> False). { intros a e' Hf ->. destruct (Hres _ _ Hf sp file text x) as [H1 H2]. destruct He; auto. }
  inversion Ho; subst; try (destruct He; discriminate).
  - exfalso. eauto.
  - match goal with H : loop_err _ _ _ _ _ _ |- _ => inversion H; subst end.
    + destruct He as [He|He]; [discriminate|]. injection He as -> <- <- ->. exists f, i, x. rewrite (Hn n f) by auto. repeat split; auto; try discriminate; intros; try discriminate.
    + destruct He as [He|He]; [|discriminate]. injection He as -> <- <- ->. exists f, i, x0. rewrite (Hn n f) by auto. repeat split; auto; intros; try discriminate.
    + match goal with H : load_err _ _ _ _ _ |- _ => inversion H; subst end; try (destruct He; discriminate).
      * destruct He as [He|He]; [discriminate|]. injection He as -> <- <- ->. exists f0, i, x. rewrite (Hn m f0) by auto. repeat split; auto; try discriminate; intros; try discriminate.
      * destruct He as [He|He]; [|discriminate]. injection He as -> <- <- ->. exists f0, i, x1. rewrite (Hn m f0) by auto. repeat split; eauto; intros; try discriminate.
      * exfalso. eauto.
Qed.
Print Assumptions C47_compiler_errors.
