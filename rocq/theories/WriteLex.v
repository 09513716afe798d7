(** Lemmas for C63: the written tokens are lexed back. *)
From Coq Require Import ZifyBool ZifyN.
From Verif Require Import PropsDesc2 PropsComplete PropsAggregate SameTokens.
From Verif Require Import Base Utf8 Utf8Spec Errors Lex Ast Comments Parse Descriptor LexSpec Stream SynSpec Walk Decimal Grammar Meaning WriteSpec WriteProofs WriteFields WriteMessage.

Definition simple (t : token) : Prop :=
  match t with
  | TIdent s => identifier s | TInt n => n < 2 ^ 64 | TStr s => octets s
  | TFloat x => float_text x
  | TPlus | TColon | TSlash | TLineComment _ | TBlockComment _ | TNewline => False
  | _ => True
  end.
Notation simples := (Forall simple).

(** ** Lexing *)
Lemma simple_spells k m t : simple t -> spells k m t (spell t).
Proof.
  intros H. assert (P : (forall x, t <> TFloat x) -> PropsAggregate.plain k t -> token_display k t = spell t -> spells k m t (spell t)) by (intros Hf Hp <-; now apply plain_spells).
  destruct t; cbn [simple] in H; try contradiction; try (apply P; [discriminate|exact H|reflexivity]). cbn [spell]. apply float_spells; [apply H|]. intros sp. apply cb_plain. apply H.
Qed.
Lemma simple_significant t : simple t -> is_trivia t = false. Proof. destruct t; cbn; intros; try contradiction; reflexivity. Qed.
Lemma spelled_lexes k ts : simples ts -> map fst (sigs (stream k (spelled ts) 0)) = map Some ts /\ mclean k (marks (tks ts)) (spelled ts) 0.
Proof.
  intros H. assert (Ht : Forall (fun t => is_trivia t = false) ts) by (eapply Forall_impl; [|exact H]; apply simple_significant).
  assert (Es : spelled ts = text_of (map spell ts)) by (unfold spelled, text_of; clear; induction ts as [|t ts IH]; [reflexivity|]; cbn [flat_map map]; now rewrite IH).
  assert (F : Forall2 (fun p s => spells k (fst p) (snd p) s) (combine (marks (tks ts)) ts) (map spell ts)).
  { clear - H. induction H as [|t ts H F IH]; [constructor|]. cbn [tks map marks combine]. constructor; [cbn [fst snd]; now apply simple_spells|exact IH]. }
  rewrite Es. destruct (text_lexes k ts Ht _ _ F) with (pos := 0) as [A B]; [unfold marks, tks; now rewrite !map_length|]. auto.
Qed.

(** ** The written tokens are simple *)
Definition identb (s : bytes) : bool := match s with c :: r => is_ident_start c && forallb is_ident_char r | [] => false end.
Lemma identb_ok s : identb s = true -> identifier s.
Proof.
  destruct s as [|c r]; [discriminate|]. cbn [identb]. intros H. apply andb_true_iff in H. destruct H as [H1 H2]. exists c, r. split; [reflexivity|].
  unfold is_ident_start, is_alpha, is_upper, is_lower, in_range, letter_ in *. split; [lia|]. apply Forall_forall. intros x Hx. rewrite forallb_forall in H2. specialize (H2 x Hx). unfold is_ident_char, is_alnum, is_alpha, is_upper, is_lower, is_digit, in_range, name_char, letter_, dec_digit in *. lia.
Qed.
Lemma sim_app x y : simples x -> simples y -> simples (x ++ y). Proof. intros; apply Forall_app; auto. Qed.
Lemma sim_cons t x : simple t -> simples x -> simples (t :: x). Proof. intros; constructor; auto. Qed.
Lemma sim_fm {A} (w : A -> list token) l : (forall x, In x l -> simples (w x)) -> simples (flat_map w l).
Proof. induction l as [|x l IH]; intros H; cbn; [constructor|]. apply sim_app; [apply H; now left|apply IH; intros; apply H; now right]. Qed.
Lemma sim_sep sep l : simple sep -> (forall x, In x l -> simples x) -> simples (separated sep l).
Proof.
  intros Hs. induction l as [|x l IH]; intros H; [constructor|]. destruct l as [|y l]; [apply H; now left|]. change (separated sep (x :: y :: l)) with (x ++ sep :: separated sep (y :: l)). apply sim_app; [apply H; now left|]. constructor; [exact Hs|]. apply IH. intros; apply H; now right.
Qed.
Ltac kwd := match goal with |- simple (kw _) => apply identb_ok; vm_compute; reflexivity | |- simple (TIdent (b _)) => apply identb_ok; vm_compute; reflexivity end.
Ltac go := repeat match goal with |- True => exact I | |- simple (kw _) => kwd | |- simple (TIdent (b _)) => kwd | |- simple _ => exact I | |- simples (_ :: _) => apply sim_cons | |- simples (_ ++ _) => apply sim_app | |- simples [] => apply Forall_nil end.

Lemma sim_name n : qualified n -> simples (w_name n).
Proof.
  intros (ws & Hn & Hw & ->). unfold w_name. rewrite dot_split_words by auto. apply sim_sep; [exact I|]. intros x Hx. apply in_map_iff in Hx. destruct Hx as (w & <- & Hi). rewrite Forall_forall in Hw. constructor; [apply Hw, Hi|constructor].
Qed.
Lemma sim_type n : qualified n \/ absolute n -> simples (w_type n).
Proof.
  intros [H|(m & -> & H)].
  - destruct (not_dot n H) as (c & r & E & Hc). unfold w_type. rewrite E. rewrite (proj2 (N.eqb_neq _ _) Hc). rewrite <- E. now apply sim_name.
  - unfold w_type. rewrite N.eqb_refl. constructor; [exact I|now apply sim_name].
Qed.
Lemma sim_Z z : (-18446744073709551616 < z < 18446744073709551616)%Z -> simples (w_Z z).
Proof. intros H. unfold w_Z. destruct (z <? 0)%Z eqn:E; repeat constructor; cbn [simple]; change (2 ^ 64) with 18446744073709551616; lia. Qed.
Lemma sim_number lo hi o : (-18446744073709551616 < lo)%Z -> (hi < 18446744073709551616)%Z -> number_in lo hi o -> simples (w_Z (num o)).
Proof. intros H1 H2 (z & -> & H). apply sim_Z. cbn. lia. Qed.
Lemma sim_setting u : option_ok u -> simples (w_setting u).
Proof.
  intros (Hn & Hp & H). unfold w_setting. apply sim_app.
  - apply sim_sep; [exact I|]. intros x Hx. apply in_map_iff in Hx. destruct Hx as (p & <- & Hi). rewrite Forall_forall in Hp. specialize (Hp p Hi). unfold part_ok, w_part in *. destruct (snd p); [|constructor; [exact Hp|constructor]]. go. now apply sim_type.
  - constructor; [exact I|]. destruct H as [(i & Hi & E)|[(p & Hp' & E)|[(z & Hz & E)|[(s & Hs & E)|([|] & x & Hx & E)]]]]; rewrite E; unfold w_value; cbn [uo_identifier uo_positive uo_negative uo_double uo_string]; go; auto.
    cbn [simple]. change (2 ^ 64) with 18446744073709551616. lia.
Qed.
Lemma sim_options o : options_ok o -> simples (flat_map w_option (items o)).
Proof. intros H. apply sim_fm. intros u Hu. unfold w_option. go. apply sim_setting. destruct o as [l|]; [|destruct Hu]. destruct H as [_ H]. rewrite Forall_forall in H. auto. Qed.
Lemma sim_brackets l : (forall x, In x l -> simples x) -> simples (w_brackets l).
Proof. intros H. unfold w_brackets. destruct l as [|x l]; [constructor|]. go. apply sim_sep; [exact I|exact H]. Qed.
Lemma sim_map_settings o : options_ok o -> forall x, In x (map w_setting (items o)) -> simples x.
Proof. intros H x Hx. apply in_map_iff in Hx. destruct Hx as (u & <- & Hu). apply sim_setting. destruct o as [l|]; [|destruct Hu]. destruct H as [_ H]. rewrite Forall_forall in H. auto. Qed.
Lemma sim_settings o : options_ok o -> simples (w_settings o).
Proof. intros H. apply sim_brackets. now apply sim_map_settings. Qed.
Lemma sim_name_ok o : name_ok o -> simple (TIdent (text o)). Proof. intros (n & -> & H). exact H. Qed.
Lemma sim_reserved n : reserved_name_ok n -> simples (w_reserved_name n).
Proof. intros H. unfold w_reserved_name. go. apply reserved_word in H. apply H. Qed.
Lemma sim_names l : Forall reserved_name_ok l -> simples (flat_map w_reserved_name l).
Proof. intros H. apply sim_fm. intros x Hx. rewrite Forall_forall in H. apply sim_reserved; auto. Qed.
Lemma sim_enum e : enum_ok e -> simples (w_enum e).
Proof.
  intros (Hn & Hv & Ho & Hr & Hnm). unfold w_enum, w_braces. go; [now apply sim_name_ok|now apply sim_options| | |now apply sim_names].
  - apply sim_fm. intros v Hi. rewrite Forall_forall in Hv. destruct (Hv v Hi) as ((n & En & Hid & _) & Hz & Hopt). unfold w_enum_value. rewrite En. cbn [text]. go; [exact Hid|eapply sim_number; [| |exact Hz]; lia|now apply sim_settings].
  - apply sim_fm. intros r Hi. rewrite Forall_forall in Hr. destruct (Hr r Hi) as (H1 & H2). unfold w_enum_range, w_range. go; [eapply sim_number; [| |exact H1]; lia|eapply sim_number; [| |exact H2]; lia].
Qed.
Lemma sim_stream o n t ks : n = Some t -> type_ref ks t -> simples (w_stream o n).
Proof. intros -> H. unfold w_stream. go; [destruct o as [[|]|]; go|]. cbn [text]. apply sim_type. eapply type_ref_any; eauto. Qed.
Lemma sim_service s : service_ok s -> simples (w_service s).
Proof.
  intros (Hn & Hm & Ho). unfold w_service, w_braces. go; [now apply sim_name_ok|now apply sim_options|]. apply sim_fm. intros m Hi. rewrite Forall_forall in Hm. destruct (Hm m Hi) as (H1 & (ti & E2 & H2) & (to & E3 & H3) & H4 & _).
  unfold w_method, w_braces. go; [now apply sim_name_ok|eapply sim_stream; eauto|eapply sim_stream; eauto|now apply sim_options].
Qed.
Lemma scalar_ident t : match t with FTGroup | FTMessage | FTEnum => True | _ => identifier (scalar_word t) end.
Proof. destruct t; try exact I; apply identb_ok; vm_compute; reflexivity. Qed.
Lemma sim_field_type ks f : type_ok ks f -> simples (w_field_type f).
Proof.
  unfold type_ok, w_field_type. destruct (f_type f) as [t|].
  - intros H. pose proof (scalar_ident t) as Hs. destruct t; try contradiction; (constructor; [exact Hs|constructor]).
  - intros (n & -> & H). apply sim_type. eapply type_ref_any; eauto.
Qed.
Lemma sim_decimal n v t : t <> Some FTString -> t <> Some FTBytes -> t <> Some FTBool -> t <> None -> n < 2 ^ 64 -> decimal n v -> simples (w_default_value t v) /\ simples (w_default_value t (45 :: v)).
Proof.
  intros H1 H1' H2 H3 Hn Hd. assert (Ev : decimal_value v = n) by apply Hd. assert (Hne : v <> []) by apply Hd. assert (Hf : Forall (fun c => 48 <= c <= 57) v) by apply Hd.
  assert (A : simples (match v with c :: ds => if c =? 45 then [TMinus; TInt (decimal_value ds)] else [TInt (decimal_value v)] | [] => [] end)).
  { rewrite Ev. destruct v as [|c r]; [constructor|]. inversion Hf; subst. rewrite (proj2 (N.eqb_neq c 45)) by lia. constructor; [exact Hn|constructor]. }
  assert (B : simples [TMinus; TInt (decimal_value v)]) by (rewrite Ev; go; exact Hn).
  split; destruct t as [[| | | | | | | | | | | | | | | | |]|]; try congruence; auto; exact A.
Qed.
Lemma sim_default p3 f v : default_ok p3 f -> f_default f = Some v -> simples (w_default_value (f_type f) v).
Proof.
  unfold default_ok. intros H E. rewrite E in H. destruct H as (_ & _ & H).
  assert (Z : forall z lo hi, f_type f <> Some FTString -> f_type f <> Some FTBytes -> f_type f <> Some FTBool -> f_type f <> None -> (-18446744073709551616 < lo)%Z -> (hi < 18446744073709551616)%Z -> (lo <= z <= hi)%Z -> decimalZ z v -> simples (w_default_value (f_type f) v)).
  { intros z lo hi N1 N1' N2 N3 B1 B2 Hz [(_ & Hd)|(Hneg & r & -> & Hd)].
    - eapply (proj1 (sim_decimal (Z.to_N z) v (f_type f) N1 N1' N2 N3 ltac:(change (2 ^ 64) with 18446744073709551616; lia) Hd)).
    - eapply (proj2 (sim_decimal (Z.to_N (- z)) r (f_type f) N1 N1' N2 N3 ltac:(change (2 ^ 64) with 18446744073709551616; lia) Hd)). }
  assert (U : forall n, f_type f <> Some FTString -> f_type f <> Some FTBytes -> f_type f <> Some FTBool -> f_type f <> None -> n < 2 ^ 64 -> decimal n v -> simples (w_default_value (f_type f) v)).
  { intros n N1 N1' N2 N3 Hn Hd. eapply (proj1 (sim_decimal n v (f_type f) N1 N1' N2 N3 Hn Hd)). }
  destruct (f_type f) as [[]|] eqn:Ef; try contradiction;
    try (destruct H as (z & Hz & Hd); (eapply Z; [discriminate|discriminate|discriminate|discriminate| | |exact Hz|exact Hd]; lia));
    try (destruct H as (n & Hn & Hd); (eapply U; [discriminate|discriminate|discriminate|discriminate| |exact Hd]; revert Hn; change (2 ^ 64) with 18446744073709551616; try (change (2 ^ 32) with 4294967296); lia)).
  - cbn [w_default_value]. destruct H as [-> | ->]; go.
  - cbn [w_default_value]. go. apply H.
  - cbn [w_default_value]. go. destruct H as (s & Hs & ->). rewrite unescaped_escaped by exact Hs. exact Hs.
  - cbn [w_default_value]. go. exact H.
Qed.
Lemma sim_tail f : tail_ok f -> (forall v, f_default f = Some v -> simples (w_default_value (f_type f) v)) -> simples (w_tail f).
Proof.
  intros (H1 & H2 & H3 & H4 & _) Hd. unfold w_tail. go; [now apply sim_name_ok|eapply sim_number; [| |exact H2]; lia|]. apply sim_brackets. unfold w_field_settings. intros x Hx. apply in_app_or in Hx. destruct Hx as [Hx|Hx].
  - destruct (f_default f) as [v|]; [|destruct Hx]. destruct Hx as [<-|[]]. go. now apply Hd.
  - apply in_app_or in Hx. destruct Hx as [Hx|Hx]; [|eapply sim_map_settings; eauto]. destruct (f_json_name f) as [v|]; [|destruct Hx]. destruct Hx as [<-|[]]. go. apply H3.
Qed.
Lemma sim_label p3 pl f : simples (w_label p3 pl f).
Proof. unfold w_label. destruct pl, (f_label f) as [[| |]|]; try (destruct (negb p3 || _)); go. Qed.
Lemma sim_field p3 pl f : field_ok p3 pl f -> simples (w_field p3 pl f).
Proof. intros (H1 & H2 & H3 & H4). unfold w_field. apply sim_app; [apply sim_label|]. apply sim_app; [eapply sim_field_type; eauto|]. apply sim_tail; [exact H1|]. intros v E. eapply sim_default; eauto. Qed.
Lemma sim_extension p3 f : extension_ok p3 f -> simples (w_extension p3 f).
Proof. intros (H1 & _ & t & E & H2). unfold w_extension, w_braces. rewrite E. cbn [text]. go; [now apply sim_type|now apply sim_field]. Qed.
Lemma sim_map m f : map_ok f m -> simples (w_map m f).
Proof.
  intros (Ht & _ & _ & Hd & _ & _ & kt & value & He & Hk & Hv). rewrite He. unfold w_map. cbn [option_map entry m_field]. unfold w_field_type at 1. cbn [f_type entry_field].
  assert (Ew : w_field_type (entry_field (b "value") 2 (f_type value) (f_type_name value)) = w_field_type value) by reflexivity. rewrite Ew.
  go; [|eapply sim_field_type; eauto|apply sim_tail; [exact Ht|intros v E; congruence]]. pose proof (scalar_ident kt) as Hs. destruct kt; try exact Hs; exfalso; apply Hk; cbn [In]; tauto.
Qed.
Lemma sim_oneof p3 o fs : oneof_ok o -> Forall (field_ok p3 InOneof) fs -> simples (w_oneof p3 (Some o) fs).
Proof.
  intros (H1 & H2) Hf. unfold w_oneof, w_braces. go; [now apply sim_name_ok|now apply sim_options|]. apply sim_fm. intros f Hi. rewrite Forall_forall in Hf. now apply sim_field, Hf.
Qed.
Lemma sim_before l : (forall x, In x l -> is_entry (fst x) = false -> simples (snd x)) -> Forall (fun x : msg_desc * list token => is_entry (fst x) = false) l -> simples (flat_map snd l).
Proof. intros H F. apply sim_fm. intros x Hx. rewrite Forall_forall in F. auto. Qed.
Lemma sim_runs p3 oneofs rs : forall nested, Forall run_shape rs ->
  Forall (fun f => is_map f = false -> field_ok p3 (if oneof_of f then InOneof else InMessage) f) (flat_map snd rs) ->
  Forall2 map_ok (filter is_map (flat_map snd rs)) (filter is_entry (map fst nested)) ->
  (forall i, In i (flat_map key rs) -> exists o, nth_error oneofs (Z.to_nat i) = Some o /\ oneof_ok o) ->
  (forall x, In x nested -> is_entry (fst x) = false -> simples (snd x)) -> simples (w_runs p3 oneofs rs nested).
Proof.
  induction rs as [|[[i|] fs] rs IH]; intros nested Hs Hf Hm Ho Hn; cbn [w_runs].
  - apply sim_before; [exact Hn|]. apply no_entry. inversion Hm; reflexivity.
  - destruct (Forall_inv Hs) as [Hs1 Hs2]. pose proof (Forall_inv_tail Hs) as Hs3. cbn [flat_map snd key fst app] in *. apply Forall_app in Hf. destruct Hf as [Hf1 Hf2].
    rewrite filter_app in Hm. apply Forall2_app_inv_l in Hm. destruct Hm as (l1 & l2 & Hm1 & Hm2 & Em).
    assert (Hmap : forall f, In f fs -> is_map f = false).
    { intros f Hif. rewrite Forall_forall in Hs2. specialize (Hs2 f Hif). destruct (is_map f) eqn:Ef; [|reflexivity]. exfalso.
      assert (Hin : In f (filter is_map fs)) by (apply filter_In; auto). clear -Hm1 Hin Hs2.
      induction Hm1 as [|x y l l' Hxy Hm IH]; [destruct Hin|]. destruct Hin as [->|Hin]; [|auto]. destruct Hxy as (_ & _ & _ & _ & E & _). apply oneof_of_index in Hs2. congruence. }
    assert (El : l1 = []) by (rewrite filter_false in Hm1 by (apply Forall_forall; exact Hmap); inversion Hm1; reflexivity). subst l1. cbn [app] in Em. rewrite <- Em in Hm2.
    destruct (Ho i (or_introl eq_refl)) as (o & Eo & Oo). apply sim_app; [|apply IH; auto; intros j Hj; apply Ho; now right]. rewrite Eo. apply sim_oneof; [exact Oo|].
    apply Forall_forall. intros f Hif. rewrite Forall_forall in Hs2, Hf1. specialize (Hf1 f Hif (Hmap f Hif)). rewrite (Hs2 f Hif) in Hf1. exact Hf1.
  - destruct (Forall_inv Hs) as (f & -> & Hof). pose proof (Forall_inv_tail Hs) as Hs3. cbn [flat_map snd key fst app] in *. pose proof (Forall_inv Hf) as Hf1. pose proof (Forall_inv_tail Hf) as Hf2. cbn beta in Hf1. rewrite Hof in Hf1. cbn [filter] in Hm. destruct (is_map f) eqn:Em.
    + inversion Hm as [|? m0 ? ms Hm0 Hms E1 E2]; subst. symmetry in E2. destruct (next_entry_split _ _ _ E2) as (pr & t & po & -> & P1 & P2 & P3 & P4). rewrite P2. go.
      * apply sim_before; [|exact P1]. intros; apply Hn; auto. apply in_or_app. now left.
      * now apply sim_map.
      * apply IH; auto; [now rewrite P3|]. intros; apply Hn; auto. apply in_or_app. right. now right.
    + apply sim_app; [apply sim_field; auto|apply IH; auto].
Qed.
Lemma sim_range ms lo hi : range_ok ms lo hi -> simples (w_Z (num lo)) /\ simples (w_range_end (num hi)).
Proof.
  intros ((l & -> & H1) & H). cbn [num]. split; [apply sim_Z; lia|]. unfold w_range_end. destruct H as [(h & -> & H2)|(_ & ->)]; cbn [num].
  - destruct (_ =? _)%Z; [go|apply sim_Z; lia].
  - rewrite Z.eqb_refl. go.
Qed.
Lemma sim_message p3 m : message_ok p3 m -> simples (w_message p3 m).
Proof.
  induction 1 as [name fields exts nested enums xrs oneofs options rrs rns written Hname Hopt Hx Hf Hm Hk Hoo Heo Hidx Hexts Hsub IH Henums Hxrs Hrrs Hrns].
  cbn [w_message]. unfold w_braces. go.
  - now apply sim_name_ok.
  - assert (Ho : options_ok (match options with Some o => Some (mo_uninterpreted o) | None => None end)) by (destruct Hopt as [-> | (l & -> & H1 & H2)]; [exact I|split; assumption]). apply sim_options in Ho. destruct options; exact Ho.
  - destruct (runs_shape fields) as [Er Sr]. apply sim_runs; [exact Sr|now rewrite Er|rewrite Er, map_map; cbn [fst]; rewrite map_id; exact Hm| |].
    + intros i Hi. change (flat_map key (runs fields)) with (flat_map (fun r => match fst r with Some i => [i] | None => [] end) (runs fields)) in Hi. rewrite Hk in Hi. apply in_map_iff in Hi. destruct Hi as (j & <- & Hj). apply in_seq in Hj. rewrite Nat2Z.id, Heo.
      rewrite nth_error_app1 by lia. destruct (nth_error written j) as [o|] eqn:E; [|apply nth_error_None in E; lia]. exists o. split; [reflexivity|]. rewrite Forall_forall in Hoo. apply Hoo. eapply nth_error_In; eauto.
    + intros x Hxi Ex. apply in_map_iff in Hxi. destruct Hxi as (m & <- & Hm'). cbn [fst snd] in *. now apply IH.
  - apply sim_fm. intros f Hi. rewrite Forall_forall in Hexts. apply sim_extension; auto.
  - apply sim_fm. intros e Hi. rewrite Forall_forall in Henums. apply sim_enum; auto.
  - apply sim_fm. intros r Hr. rewrite Forall_forall in Hxrs. destruct (Hxrs r Hr) as [H1 H2]. apply sim_range in H1. unfold w_ext_range. go; [apply H1|apply H1|now apply sim_settings].
  - apply sim_fm. intros r Hr. rewrite Forall_forall in Hrrs. specialize (Hrrs r Hr). apply sim_range in Hrrs. unfold w_message_range. go; apply Hrrs.
  - now apply sim_names.
Qed.
Lemma sim_imports d l : Forall import_ok l -> forall i, simples (w_imports d i l).
Proof. induction 1 as [|v l (H1 & _) Hl IH]; intros i; cbn [w_imports]; [constructor|]. go; [|exact H1|apply IH]. unfold w_kind. destruct (existsb _ _); [go|]. destruct (existsb _ _); go. Qed.
Lemma sim_file d : writable d -> simples (w_file d).
Proof.
  intros (Hsyn & Hpkg & Him & _ & _ & _ & Hopt & Hmsg & Hen & Hsv & Hext). unfold w_file. go.
  - unfold octets. destruct (is_proto3 d); repeat constructor.
  - destruct (d_package d) as [n|]; [|constructor]. go. now apply sim_name.
  - now apply sim_imports.
  - now apply sim_options.
  - apply sim_fm. intros m Hm. rewrite Forall_forall in Hmsg. apply sim_message. apply Hmsg, Hm.
  - apply sim_fm. intros e Hi. rewrite Forall_forall in Hen. apply sim_enum; auto.
  - apply sim_fm. intros e Hi. rewrite Forall_forall in Hsv. apply sim_service; auto.
  - apply sim_fm. intros e Hi. rewrite Forall_forall in Hext. apply sim_extension; auto.
Qed.
