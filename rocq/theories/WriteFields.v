(** Lemmas for C63: fields, oneofs, extensions. *)
From Coq Require Import ZifyBool ZifyN.
From Verif Require Import PropsDesc2 Base Utf8 Utf8Spec Errors Lex Ast Descriptor LexSpec Decimal Grammar Meaning CharEdge GenProofs WriteSpec WriteProofs.

Local Existing Instance any_comments.

(** ** Types *)
Lemma field_type_w ks f : type_ok ks f -> (forall s, In s scalar_words -> In s ks) -> exists t tsp, g_field_type (tks (w_field_type f)) (t, tsp) /\ scalar_type t = f_type f /\ ty_text t = f_type_name f.
Proof.
  unfold type_ok, w_field_type. destruct (f_type f) as [t|].
  - assert (S : forall ty, In (scalar_word t, ty) scalar_names -> scalar_type ty = Some t -> ty_text ty = None -> f_type_name f = None ->
      exists t0 tsp, g_field_type (tks [TIdent (scalar_word t)]) (t0, tsp) /\ scalar_type t0 = Some t /\ ty_text t0 = f_type_name f).
    { intros ty Hi E1 E2 E3. exists ty, (0, 0). split; [now constructor|]. split; congruence. }
    intros H _. destruct t; try contradiction;
      [apply (S TyDouble)|apply (S TyFloat)|apply (S TyInt64)|apply (S TyUint64)|apply (S TyInt32)|apply (S TyFixed64)|apply (S TyFixed32)|apply (S TyBool)
      |apply (S TyString)|apply (S TyBytes)|apply (S TyUint32)|apply (S TySfixed32)|apply (S TySfixed64)|apply (S TySint32)|apply (S TySint64)]; auto; unfold scalar_names, scalar_word; cbn [In]; tauto.
  - intros (n & En & Hn) Hk. rewrite En. cbn [text]. destruct (type_w n (type_ref_any _ _ Hn)) as (a & G & E). exists (TyNamed a), (join_span (first_span (tks (w_type n))) (last_span (tks (w_type n)))).
    split; [|split; [reflexivity|cbn; congruence]]. constructor; [exact G|]. rewrite <- (app_nil_r (w_type n)). eapply type_not_kw; [exact Hn|]. intros s Hs. apply Hk. unfold scalar_words, scalar_names in *. cbn [map fst In] in *. tauto.
Qed.
Definition no_scalar (ks : list bytes) : bool := negb (existsb (fun s => existsb (bytes_eqb s) scalar_words) ks).
Lemma no_scalar_in ks s : no_scalar ks = true -> In s ks -> ~ In s scalar_words.
Proof.
  unfold no_scalar. intros H Hs Hi. apply negb_true_iff in H. assert (E : existsb (fun s => existsb (bytes_eqb s) scalar_words) ks = true); [|congruence].
  apply existsb_exists. exists s. split; [exact Hs|]. apply existsb_exists. exists s. split; [exact Hi|apply bytes_eqb_refl].
Qed.
Lemma field_type_not_kw k0 f ts ks : type_ok k0 f -> (forall s, In s ks -> In s k0) -> no_scalar ks = true -> not_kw ks (tks (w_field_type f ++ ts)).
Proof.
  unfold type_ok, w_field_type. intros H Hk Hd. destruct (f_type f) as [t|].
  - intros s Hs. cbn [tks map app first_tok tk_tok T fst]. intros [= E]. subst s. apply (no_scalar_in ks _ Hd) in Hs. apply Hs. unfold scalar_words. destruct t; try contradiction; cbn [scalar_word In]; tauto.
  - destruct H as (n & -> & Hn). cbn [text]. eapply type_not_kw; [exact Hn|exact Hk].
Qed.
Lemma words_scalar u pl s : In s scalar_words -> In s (field_words u pl). Proof. intros. unfold field_words. apply in_or_app. now left. Qed.
Lemma words_kinds u pl s : In s [b "map"; b "group"] -> In s (field_words u pl). Proof. intros. unfold field_words. apply in_or_app. right. apply in_or_app. now left. Qed.
Lemma words_labels pl s : In s label_words -> In s (field_words true pl). Proof. intros. unfold field_words. apply in_or_app. right. apply in_or_app. right. apply in_or_app. now left. Qed.
Lemma words_place pl s : In s (place_words pl) -> In s (field_words true pl). Proof. intros. unfold field_words. apply in_or_app. right. apply in_or_app. right. apply in_or_app. now right. Qed.

(** ** Default values *)
Lemma decimal_first n t : decimal n t -> exists c r, t = c :: r /\ c <> 45.
Proof. intros (H1 & H2 & _). destruct t as [|c r]; [congruence|]. exists c, r. split; [reflexivity|]. inversion H2; subst. lia. Qed.
Lemma decimal_is n t : decimal n t -> decimal_value t = n. Proof. now intros (_ & _ & H & _). Qed.
Lemma escaped_same s : octets s -> flat_map escaped s = flat_map escape_byte s.
Proof.
  intros H. rewrite PropsDesc2.escape_same. induction H as [|c s Hc H IH]; [reflexivity|]. cbn [flat_map]. rewrite IH. f_equal. unfold escaped, PropsDesc2.c_escape. rewrite (N.mod_small (c / 64) 8) by (apply N.div_lt_upper_bound; lia). reflexivity.
Qed.
Lemma unescaped_cons c r : c < 256 -> unescaped (escaped c ++ r) = c :: unescaped r.
Proof.
  intros Hc. unfold escaped.
  assert (D : c <> 92 -> unescaped ([c] ++ r) = c :: unescaped r).
  { intros Hn. destruct c as [|p]; [reflexivity|]. do 7 (destruct p as [p|p|]; try reflexivity). congruence. }
  assert (O : unescaped ([92; 48 + c / 64; 48 + c / 8 mod 8; 48 + c mod 8] ++ r) = c :: unescaped r).
  { pose proof (N.div_mod' c 8) as A1. pose proof (N.div_mod' (c / 8) 8) as A2. rewrite N.div_div in A2 by discriminate. change (8 * 8) with 64 in A2. pose proof (N.mod_upper_bound c 8 ltac:(discriminate)) as B1. pose proof (N.mod_upper_bound (c / 8) 8 ltac:(discriminate)) as B2.
    assert (B3 : c / 64 < 4) by (apply N.div_lt_upper_bound; lia). revert A1 A2 B1 B2 B3. generalize (c / 64) (c / 8) (c / 8 mod 8) (c mod 8). intros x y z u A1 A2 B1 B2 B3. cbn [app unescaped].
    replace (48 + x =? 116) with false by lia. replace (48 + x =? 110) with false by lia. replace (48 + x =? 114) with false by lia. replace ((48 <=? 48 + x) && (48 + x <=? 55)) with true by lia. f_equal. lia. }
  destruct (N.eqb_spec c 9) as [->|]; [reflexivity|]. destruct (N.eqb_spec c 10) as [->|]; [reflexivity|]. destruct (N.eqb_spec c 13) as [->|]; [reflexivity|].
  destruct (N.eqb_spec c 34) as [->|]; [reflexivity|]. destruct (N.eqb_spec c 39) as [->|]; [reflexivity|]. destruct (N.eqb_spec c 92) as [->|]; [reflexivity|].
  assert (K : (if (32 <=? c) && (c <=? 126) then [c] else [92; 48 + c / 64; 48 + c / 8 mod 8; 48 + c mod 8]) = escaped c).
  { unfold escaped. destruct c as [|p]; [reflexivity|]. do 7 (destruct p as [p|p|]; try reflexivity; try congruence). }
  unfold escaped in K. rewrite <- K. destruct ((32 <=? c) && (c <=? 126)); auto.
Qed.
Lemma unescaped_escaped s : octets s -> unescaped (flat_map escaped s) = s.
Proof. induction 1 as [|c s Hc H IH]; [reflexivity|]. cbn [flat_map]. now rewrite unescaped_cons, IH. Qed.
Definition plain_number (t : option ftype) : Prop := t <> Some FTString /\ t <> Some FTBytes /\ t <> Some FTBool /\ t <> None.
Lemma number_w k n v t : plain_number t -> decimal n v -> g_optval k (tks (w_default_value t v)) (OVInt {| i_neg := false; i_val := n; i_span := (0, 0) |}).
Proof.
  intros (H1 & H1' & H2 & H3) H. destruct (decimal_first _ _ H) as (c & r & E & Hc). pose proof (decimal_is _ _ H) as Ev. assert (Ew : w_default_value t v = [TInt n]).
  { assert (E' : match v with c :: ds => if c =? 45 then [TMinus; TInt (decimal_value ds)] else [TInt (decimal_value v)] | [] => [] end = [TInt n]) by (subst v; rewrite (proj2 (N.eqb_neq _ _) Hc); now rewrite Ev).
    destruct t as [[| | | | | | | | | | | | | | | | |]|]; try congruence; exact E'. }
  rewrite Ew. constructor. constructor.
Qed.
Lemma minus_w k n v t : plain_number t -> decimal n v -> g_optval k (tks (w_default_value t (45 :: v))) (OVInt {| i_neg := true; i_val := n; i_span := join_span (0, 0) (0, 0) |}).
Proof.
  intros (H1 & H1' & H2 & H3) H. pose proof (decimal_is _ _ H) as Ev. assert (Ew : w_default_value t (45 :: v) = [TMinus; TInt n]).
  { assert (E' : [TMinus; TInt (decimal_value v)] = [TMinus; TInt n]) by now rewrite Ev.
    destruct t as [[| | | | | | | | | | | | | | | | |]|]; try congruence; exact E'. }
  rewrite Ew. constructor. rewrite tks_cons. constructor.
Qed.
Lemma numberZ_w k z v t lo hi : plain_number t -> (lo <= z <= hi)%Z -> decimalZ z v -> exists i, g_optval k (tks (w_default_value t v)) (OVInt i) /\ option_map decZ (if_within lo hi i) = Some v.
Proof.
  intros Ht Hz H. assert (E : v = decZ z) by now apply decimalZ_decZ. destruct H as [(Hp & H)|(Hn & r & Er & H)].
  - exists {| i_neg := false; i_val := Z.to_N z; i_span := (0, 0) |}. split; [now apply number_w|]. rewrite (if_within_in _ _ _ z) by (auto; unfold int_value; cbn; lia). cbn [option_map]. now rewrite E.
  - exists {| i_neg := true; i_val := Z.to_N (- z); i_span := join_span (0, 0) (0, 0) |}. split; [rewrite Er; now apply minus_w|]. rewrite (if_within_in _ _ _ z) by (auto; unfold int_value; cbn; lia). cbn [option_map]. now rewrite E.
Qed.
Lemma default_w k p3 f v t ks : default_ok p3 f -> type_ok ks f -> f_default f = Some v -> scalar_type t = f_type f -> ty_text t = f_type_name f ->
  exists dv, g_optval k (tks (w_default_value (f_type f) v)) dv /\ den_default k t dv = Some v.
Proof.
  unfold default_ok, type_ok. intros H Ht Ev Est Ett. rewrite Ev in H. destruct H as (_ & _ & H). destruct (f_type f) as [ft|] eqn:Ef.
  - assert (PN : ft <> FTString -> ft <> FTBytes -> ft <> FTBool -> plain_number (Some ft)) by (intros; repeat split; congruence).
    assert (I : forall lo hi, ft <> FTString -> ft <> FTBytes -> ft <> FTBool -> (forall i, den_default k t (OVInt i) = option_map decZ (if_within lo hi i)) -> (exists z, (lo <= z <= hi)%Z /\ decimalZ z v) ->
      exists dv, g_optval k (tks (w_default_value (Some ft) v)) dv /\ den_default k t dv = Some v).
    { intros lo hi N1 N1' N2 Hd (z & Hz & Hv). destruct (numberZ_w k z v (Some ft) lo hi (PN N1 N1' N2) Hz Hv) as (i & G & E). exists (OVInt i). split; [exact G|]. now rewrite Hd. }
    assert (U : forall m, ft <> FTString -> ft <> FTBytes -> ft <> FTBool -> (forall n, n < m -> den_default k t (OVInt {| i_neg := false; i_val := n; i_span := (0, 0) |}) = Some (dec n)) -> (exists n, n < m /\ decimal n v) ->
      exists dv, g_optval k (tks (w_default_value (Some ft) v)) dv /\ den_default k t dv = Some v).
    { intros m N1 N1' N2 Hd (n & Hn & Hv). eexists. split; [apply (number_w k n v _ (PN N1 N1' N2) Hv)|]. rewrite Hd by exact Hn. f_equal. symmetry. now apply decimal_dec. }
    destruct ft; try contradiction; destruct t; cbn [scalar_type] in Est; try discriminate Est;
      try (eapply I; [discriminate|discriminate|discriminate| |exact H]; reflexivity);
      try (eapply U; [discriminate|discriminate|discriminate| |exact H]; intros n Hn; cbn [den_default i_neg i_val negb andb]; rewrite ?(proj2 (N.leb_le _ _)) by lia; reflexivity).
    + exists (OVIdent false {| id_val := v; id_span := (0, 0) |} (0, 0)). split; [constructor|]. cbn [den_default id_val]. destruct H as [-> | ->]; reflexivity.
    + exists (OVString {| st_val := v; st_span := (0, 0) |}). split; [constructor; constructor|]. cbn [den_default]. unfold den_string. cbn [st_val]. destruct H as [_ H]. apply utf8_valid_iff in H. now rewrite H.
    + destruct H as (s & Hs & ->). exists (OVString {| st_val := s; st_span := (0, 0) |}). cbn [w_default_value]. rewrite unescaped_escaped by exact Hs. split; [constructor; constructor|]. cbn [den_default]. unfold astring_display. cbn [st_val]. now rewrite escaped_same.
  - destruct t; cbn [scalar_type] in Est; try discriminate Est. exists (OVIdent false {| id_val := v; id_span := (0, 0) |} (0, 0)). split; [constructor|reflexivity].
Qed.

(** ** Fields *)
Definition scope_of (pl : place_of_field) : scope := match pl with InMessage => ScMessage | InOneof => ScOneof | InExtend => ScExtend end.
Definition syn_of (p3 : bool) : syntax := if p3 then Proto3 else Proto2.
Lemma p2_syn p3 : p2 (syn_of p3) = negb p3. Proof. destruct p3; reflexivity. Qed.
Lemma label_w p3 pl f : label_ok p3 pl f -> exists lab, g_label (tks (w_label p3 pl f)) lab /\ (lab = None -> w_label p3 pl f = []) /\
  den_label (syn_of p3) (scope_of pl) lab = f_label f /\ f_label f <> None /\
  match p2 (syn_of p3), lab with false, Some (LOptional, _) => true | _, _ => false end = optional3 f /\ (if optional3 f then Some true else None) = f_proto3_optional f /\
  (f_label f <> Some LabRepeated -> option_map fst lab <> Some LRepeated).
Proof.
  assert (L : forall s l, In (s, l) label_names -> g_label (tks [TIdent s]) (Some (l, (0, 0)))) by (intros; constructor; auto).
  pose proof (L (b "optional") LOptional ltac:(unfold label_names; cbn; tauto)) as LO. pose proof (L (b "required") LRequired ltac:(unfold label_names; cbn; tauto)) as LR. pose proof (L (b "repeated") LRepeated ltac:(unfold label_names; cbn; tauto)) as LP. clear L.
  unfold label_ok, w_label, optional3. destruct (f_label f) as [[| |]|]; [| | |contradiction].
  - intros [E|(E & -> & Hp)].
    + rewrite E. destruct pl; cbn [scope_of].
      * destruct p3; cbn [negb orb]; [exists None; repeat split; (try constructor); discriminate|]. exists (Some (LOptional, (0, 0))). split; [exact LO|]. repeat split; discriminate.
      * exists None. destruct p3; repeat split; (try constructor); discriminate.
      * destruct p3; cbn [negb orb]; [exists None; repeat split; (try constructor); discriminate|]. exists (Some (LOptional, (0, 0))). split; [exact LO|]. repeat split; discriminate.
    + rewrite E. exists (Some (LOptional, (0, 0))). destruct pl; [|congruence|]; (split; [exact LO|]); repeat split; discriminate.
  - intros (-> & -> & E). rewrite E. exists (Some (LRequired, (0, 0))). split; [exact LR|]. repeat split; discriminate.
  - intros (Hp & E). rewrite E. exists (Some (LRepeated, (0, 0))). destruct pl; [|congruence|]; (split; [exact LP|]); destruct p3; repeat split; try discriminate; congruence.
Qed.
Lemma synthetic_own n : synthetic_name n = match n with c :: r => if c =? 95 then b "X" ++ c :: r else b "_" ++ c :: r | [] => b "_" end.
Proof.
  destruct n as [|c r]; [reflexivity|]. destruct (N.eqb_spec c 95) as [->|H]; [reflexivity|]. unfold synthetic_name.
  destruct c as [|p]; [reflexivity|]. do 7 (destruct p as [p|p|]; try reflexivity). congruence.
Qed.
Lemma first_app a ts ts' : first_tok (tks (a :: ts) ++ ts') = Some a. Proof. reflexivity. Qed.

(** What follows a field's type. *)
Definition tail_of (lab : option (flabel * span)) (f : field_desc) (kd : fkind_ body) (n : aint) (ol : option optlist) : field :=
  {| fd_label := lab; fd_name := {| id_val := text (f_name f); id_span := (0, 0) |}; fd_kind := kd; fd_number := n; fd_options := ol; fd_comments := c0; fd_span := join_span (0, 0) (0, 0) |}.
Lemma tail_tks f : tks (w_tail f) = sym (TIdent (text (f_name f))) (0, 0) ++ sym TEquals (0, 0) ++ tks (w_Z (num (f_number f))) ++ tks (w_brackets (w_field_settings f)) ++ sym TSemicolon (0, 0).
Proof. unfold w_tail. rewrite !tks_cons, !tks_app. reflexivity. Qed.
Lemma first_00 ts : first_span (tks ts) = (0, 0). Proof. destruct ts; reflexivity. Qed.

Section Field.
Variables (k : cfg) (G : list tk -> body * span -> Prop) (D : body -> msg_desc) (V : body -> Prop) (p3 : bool).
Lemma field_w pl f : field_ok p3 pl f ->
  exists a, g_field k G (tks (w_field p3 pl f)) a /\
    (forall oi, den_field k (syn_of p3) (scope_of pl) oi a = set_extendee None (set_oneof_index oi f)) /\
    ok_field k (syn_of p3) V (scope_of pl) a /\ p3_optional (syn_of p3) a = optional3 f /\ den_field_messages D a = [] /\
    den_field_oneofs (syn_of p3) a = if optional3 f then [own_oneof f] else [].
Proof.
  intros (Ht & Hl & Hty & Hd). destruct (label_w _ _ _ Hl) as (lab & Gl & Nl & El & Nn & Eo & Ep & Er). destruct (field_type_w _ _ Hty) as (t & tsp & Gt & Est & Ett); [apply words_scalar|].
  assert (Ddv : exists dv, match f_default f with None => dv = None | Some v => exists x, dv = Some x /\ g_optval k (tks (w_default_value (f_type f) v)) x end /\
     match dv with Some x => den_default k t x | None => None end = f_default f /\ (f_default f = None -> dv = None)).
  { destruct (f_default f) as [v|] eqn:Ev; [|exists None; auto]. destruct (default_w k p3 f v t _ Hd Hty Ev Est Ett) as (dv & Gd & Ed). exists (Some dv). split; [exists dv; auto|]. split; [exact Ed|discriminate]. }
  destruct Ddv as (dv & Gd & Edv & Ndv). destruct (tail_w k f dv Ht Gd) as (ol & Gol & Hol). destruct Ht as ((n & En & _) & (z & Ez & Hz) & _).
  destruct (Z_w z) as (i & Gi & Ei). pose (a := tail_of lab f (FKNormal t tsp) i ol). destruct (Hol a eq_refl) as (E1 & E2 & E3 & E4 & E5).
  assert (Edef : match default_of a with Some o => den_default k t (ob_value o) | None => None end = f_default f).
  { rewrite <- Edv, <- E1. destruct (default_of a); reflexivity. }
  exists a. split; [|split; [|split; [|split; [exact Eo|split; [reflexivity|]]]]].
  - unfold w_field. rewrite tks_app. eapply g_fd; [exact Gl| |].
    + intros E. apply Nl in E. rewrite E in Hty. eapply field_type_not_kw; [exact Hty| |vm_compute; reflexivity]. apply words_labels.
    + rewrite <- tks_app, first_00, tks_app, tail_tks. unfold a, tail_of. apply g_normal; [|exact Gt|rewrite Ez; exact Gi|exact Gol|exact I].
      rewrite <- (app_nil_r (w_field_type f)). eapply field_type_not_kw; [exact Hty| |vm_compute; reflexivity]. apply words_kinds.
  - intros oi. unfold den_field. change (fd_kind a) with (FKNormal (B := body) t tsp). cbn beta iota zeta. rewrite Edef, E4, <- E2. unfold p3_optional. change (fd_label a) with lab. rewrite Eo, El, Ep, Est, Ett. change (fd_number a) with i. unfold den_number. rewrite (if_within_in _ _ i z Ei Hz). change (id_val (fd_name a)) with (text (f_name f)). rewrite En. cbn [text]. rewrite <- En, <- Ez. reflexivity.
  - split; [unfold ok_number; change (fd_number a) with i; lia|]. split; [|split; [exact E3|exact E5]]. change (fd_kind a) with (FKNormal (B := body) t tsp). change (fd_label a) with lab. split; [now rewrite El|].
    destruct (default_of a) as [o|] eqn:Eda; [|exact I]. cbn [option_map] in E1. destruct (f_default f) as [v|] eqn:Ev; [|specialize (Ndv eq_refl); congruence].
    unfold default_ok in Hd. rewrite Ev in Hd. destruct Hd as (-> & Hr & _). split; [reflexivity|]. split; [auto|]. rewrite Edef. discriminate.
  - unfold den_field_oneofs, p3_optional. change (fd_label a) with lab. rewrite Eo. destruct (optional3 f); [|reflexivity]. unfold own_oneof. rewrite synthetic_own. reflexivity.
Qed.
Lemma field_start pl f : field_ok p3 pl f -> not_kw (place_words pl) (tks (w_field p3 pl f)).
Proof.
  intros (_ & Hl & Hty & _). unfold w_field. destruct (w_label p3 pl f) as [|x l] eqn:E.
  - eapply field_type_not_kw; [exact Hty|apply words_place|destruct pl; vm_compute; reflexivity].
  - assert (X : In x [kw "optional"; kw "required"; kw "repeated"]).
    { unfold w_label in E. destruct pl, (f_label f) as [[| |]|]; try discriminate E; try (destruct (negb p3 || _) in E; [|discriminate E]); injection E as <- _; cbn [In]; tauto. }
    intros s Hs. cbn [app]. unfold tks. cbn [map first_tok]. intros [= E']. unfold T, tk_tok in E'. cbn [fst] in E'. subst x. clear E. revert X Hs. cbn [In]. unfold kw.
    intros [X|[X|[X|[]]]]; injection X as X; rewrite <- X; intros Hs; destruct pl; cbn [place_words In] in Hs; repeat (destruct Hs as [Hs|Hs]; [discriminate Hs|]); exact Hs.
Qed.

Lemma camel_is n : camel_entry n = entry_name n. Proof. reflexivity. Qed.
Lemma key_w kt : ~ In kt [FTDouble; FTFloat; FTBytes; FTGroup; FTMessage; FTEnum] -> exists t, In (scalar_word kt, t) scalar_names /\ scalar_type t = Some kt /\ key_type t = true.
Proof.
  assert (S : forall ty, In (scalar_word kt, ty) scalar_names -> scalar_type ty = Some kt -> key_type ty = true -> exists t, In (scalar_word kt, t) scalar_names /\ scalar_type t = Some kt /\ key_type t = true) by (intros ty; intros; exists ty; auto).
  intros H. destruct kt; try (exfalso; apply H; cbn; tauto);
    [apply (S TyInt64)|apply (S TyUint64)|apply (S TyInt32)|apply (S TyFixed64)|apply (S TyFixed32)|apply (S TyBool)
    |apply (S TyString)|apply (S TyUint32)|apply (S TySfixed32)|apply (S TySfixed64)|apply (S TySint32)|apply (S TySint64)]; auto; unfold scalar_names, scalar_word; cbn [In]; tauto.
Qed.
Lemma map_w m f : map_ok f m -> f_type f = Some FTMessage -> f_extendee f = None ->
  exists a, g_field k G (tks (w_map m f)) a /\
    den_field k (syn_of p3) ScMessage None a = f /\
    ok_field k (syn_of p3) V ScMessage a /\ p3_optional (syn_of p3) a = false /\ den_field_messages D a = [m] /\ den_field_oneofs (syn_of p3) a = [].
Proof.
  intros (Ht & Hl & Hty & Hd & Ho & Hp & kt & value & He & Hk & Hv) Hft Hx.
  destruct (key_w kt Hk) as (kty & Gk & Ek & Kk). destruct (field_type_w _ _ Hv) as (vt & vsp & Gv & Ev & Evn); [auto|].
  destruct (tail_w k f None Ht) as (ol & Gol & Hol); [now rewrite Hd|]. destruct Ht as ((n & En & _) & (z & Ez & Hz) & _).
  destruct (Z_w z) as (i & Gi & Ei). pose (a := tail_of None f (FKMap (join_span (0, 0) (0, 0)) kty (0, 0) vt vsp) i ol). destruct (Hol a eq_refl) as (E1 & E2 & E3 & E4 & E5).
  assert (Nd : default_of a = None) by (destruct (default_of a); [discriminate E1|reflexivity]).
  exists a. rewrite He. split; [|split; [|split; [|split; [|split]]]].
  - unfold w_map. cbn [option_map entry m_field]. unfold w_field_type at 1. cbn [f_type entry_field].
    assert (Ew : w_field_type (entry_field (b "value") 2 (f_type value) (f_type_name value)) = w_field_type value) by reflexivity. rewrite Ew.
    change (kw "map" :: TLeftAngle :: [TIdent (scalar_word kt)] ++ TComma :: w_field_type value ++ TRightAngle :: w_tail f) with ([] ++ kw "map" :: TLeftAngle :: [TIdent (scalar_word kt)] ++ TComma :: w_field_type value ++ TRightAngle :: w_tail f).
    rewrite tks_app. change (tks []) with (@nil tk). eapply g_fd; [apply g_no_label| |].
    + intros _ s Hs. cbn [app]. cbn [tks map first_tok tk_tok T fst]. intros [= E]. subst s. cbn [In] in Hs. repeat (destruct Hs as [Hs|Hs]; [discriminate Hs|]). exact Hs.
    + cbn [app]. rewrite first_00. rewrite !tks_cons, tks_app, tks_cons, tail_tks. unfold a, tail_of. apply g_map; [constructor; exact Gk|exact Gv|rewrite Ez; exact Gi|exact Gol|exact I].
  - unfold den_field. change (fd_kind a) with (FKMap (B := body) (join_span (0, 0) (0, 0)) kty (0, 0) vt vsp). cbn beta iota zeta. rewrite E4, <- E2. change (fd_number a) with i. unfold den_number. rewrite (if_within_in _ _ i z Ei Hz). change (id_val (fd_name a)) with (text (f_name f)). rewrite <- camel_is, <- Hty. unfold p3_optional. change (fd_label a) with (@None (flabel * span)).
    rewrite En. change (text (Some n)) with n. clear -Hl Hft Hx Hd Ho Hp En Ez. destruct (p2 (syn_of p3)), f; cbn in *; congruence.
  - split; [unfold ok_number; change (fd_number a) with i; lia|]. split; [|split; [exact E3|exact E5]]. change (fd_kind a) with (FKMap (B := body) (join_span (0, 0) (0, 0)) kty (0, 0) vt vsp). split; [reflexivity|]. split; [reflexivity|]. split; [exact Nd|exact Kk].
  - unfold p3_optional. change (fd_label a) with (@None (flabel * span)). destruct (p2 (syn_of p3)); reflexivity.
  - unfold den_field_messages. change (fd_kind a) with (FKMap (B := body) (join_span (0, 0) (0, 0)) kty (0, 0) vt vsp). cbn beta iota. change (id_val (fd_name a)) with (text (f_name f)). rewrite <- camel_is. unfold entry_desc, entry, entry_field. rewrite Ek, Ev, Evn, Hty. reflexivity.
  - unfold den_field_oneofs, p3_optional. change (fd_label a) with (@None (flabel * span)). destruct (p2 (syn_of p3)); reflexivity.
Qed.
Lemma map_start m f pl : map_ok f m -> not_kw (place_words pl) (tks (w_map m f)).
Proof.
  intros (_ & _ & _ & _ & _ & _ & kt & value & He & _ & _) s Hs. rewrite He. unfold w_map. cbn [entry m_field]. cbn [tks map first_tok tk_tok T fst]. intros [= E]. subst s. revert Hs.
  intros Hs; destruct pl; cbn [place_words In] in Hs; repeat (destruct Hs as [Hs|Hs]; [discriminate Hs|]); exact Hs.
Qed.
Lemma extension_w f : extension_ok p3 f ->
  exists a, g_extend k G (tks (w_extension p3 f)) a /\ den_extend k (syn_of p3) a = [f] /\ ok_extend k (syn_of p3) V a /\ flat_map (den_field_messages D) (et_fields a) = [].
Proof.
  intros (Hf & Ho & t & Et & Ht). destruct (field_w InExtend f Hf) as (a & Ga & Ea & Oa & _ & Ma & _). destruct (type_w t Ht) as (n & Gn & En).
  exists {| et_extendee := n; et_fields := somes [Some a]; et_comments := c0; et_span := join_span (0, 0) (0, 0) |}. split; [|split; [|split]].
  - unfold w_extension, w_braces. rewrite Et. cbn [text]. rewrite tks_cons, tks_app, tks_cons, tks_app. apply g_et; [exact Gn| |exact I]. rewrite <- (app_nil_r (tks (w_field p3 InExtend f))). constructor; [now constructor|constructor].
  - unfold den_extend. cbn [et_fields somes flat_map app map et_extendee]. rewrite En, <- Et. change ScExtend with (scope_of InExtend). rewrite Ea. f_equal. clear -Ho. destruct f; cbn in *; subst; reflexivity.
  - unfold ok_extend. cbn. auto.
  - cbn. now rewrite Ma.
Qed.
End Field.
