(** Lemmas for C63: files. *)
From Coq Require Import ZifyBool ZifyN.
From Verif Require Import PropsDesc2 Base Utf8 Utf8Spec Errors Lex Ast Descriptor LexSpec Decimal Grammar Meaning CharEdge GenProofs WriteSpec WriteProofs WriteFields WriteMessage.

Local Existing Instance any_comments.

(** ** Imports *)
Lemma join_separated ns : join_slash ns = separated 47 ns.
Proof. induction ns as [|n ns IH]; [reflexivity|]. destruct ns as [|n' ns]; [reflexivity|]. cbn [join_slash separated] in *. now rewrite IH. Qed.
Definition listed (l : list Z) (i : nat) : bool := existsb (Z.eqb (Z.of_nat i)) l.
Definition kind_of (d : file_desc) (i : nat) : option (import_kind * span) :=
  if listed (d_public d) i then Some (IPublic, (0, 0)) else if listed (d_weak d) i then Some (IWeak, (0, 0)) else None.
Definition chosen (p : nat -> bool) (i n : nat) : list Z := flat_map (fun j => if p j then [Z.of_nat j] else []) (seq i n).
Lemma imports_w d l : forall i, Forall import_ok l ->
  exists la, g_many g_import (tks (w_imports d i l)) la /\ map im_value la = l /\
    kind_indices IPublic (N.of_nat i) la = chosen (listed (d_public d)) i (length l) /\
    kind_indices IWeak (N.of_nat i) la = chosen (fun j => negb (listed (d_public d) j) && listed (d_weak d) j) i (length l).
Proof.
  induction l as [|v l IH]; intros i H; [exists []; repeat split; constructor|]. inversion H as [|? ? (Ho & Hu & ns & Hn & Hc & Ev) Hl]; subst. destruct (IH (S i) Hl) as (la & G & E1 & E2 & E3). set (v := separated 47 ns) in *.
  exists ({| im_kind := kind_of d i; im_value := v; im_value_span := (0, 0); im_comments := c0; im_span := join_span (0, 0) (0, 0) |} :: la). split; [|split; [|split]].
  - change (w_imports d i (v :: l)) with (kw "import" :: w_kind d i ++ TStr v :: TSemicolon :: w_imports d (S i) l).
    replace (kw "import" :: w_kind d i ++ TStr v :: TSemicolon :: w_imports d (S i) l) with ((kw "import" :: w_kind d i ++ [TStr v; TSemicolon]) ++ w_imports d (S i) l) by (cbn [app]; now rewrite <- app_assoc). rewrite tks_app.
    constructor; [|exact G]. rewrite tks_cons, tks_app. change (tks [TStr v; TSemicolon]) with (sym (TStr v) (0, 0) ++ sym TSemicolon (0, 0)). apply g_im; [| | |exact I].
    + unfold w_kind, kind_of, listed. destruct (existsb _ (d_public d)); [constructor|]. destruct (existsb _ (d_weak d)); constructor.
    + apply (g_utf8 _ {| st_val := v; st_span := (0, 0) |}); [constructor|exact Hu].
    + exists ns. split; [exact Hn|]. split; [exact Hc|]. now rewrite join_separated.
  - cbn [map im_value]. now rewrite E1.
  - cbn [kind_indices length]. unfold chosen. cbn [seq flat_map]. replace (N.of_nat i + 1) with (N.of_nat (S i)) by lia. rewrite E2. f_equal. unfold is_kind, kind_of. cbn [im_kind]. destruct (listed (d_public d) i); [f_equal; lia|]. destruct (listed (d_weak d) i); reflexivity.
  - cbn [kind_indices length]. unfold chosen. cbn [seq flat_map]. replace (N.of_nat i + 1) with (N.of_nat (S i)) by lia. rewrite E3. f_equal. unfold is_kind, kind_of. cbn [im_kind]. destruct (listed (d_public d) i); [reflexivity|]. destruct (listed (d_weak d) i); [cbn; f_equal; lia|reflexivity].
Qed.
Lemma chosen_filter p l n : (forall i, p i = listed l i) -> forall i, chosen p i n = filter (fun z => existsb (Z.eqb z) l) (map Z.of_nat (seq i n)).
Proof. intros Hp. unfold chosen. induction n as [|n IH]; intros i; [reflexivity|]. cbn [seq flat_map map filter]. rewrite IH, Hp. unfold listed. destruct (existsb _ l); reflexivity. Qed.
Lemma listed_in l i : listed l i = true -> In (Z.of_nat i) l.
Proof. unfold listed. rewrite existsb_exists. intros (z & Hz & E). apply Z.eqb_eq in E. now subst z. Qed.

(** ** Files *)
Definition statements (pk : list package) (ia : list import) (os : list option_) (ma : list message) (ea : list enum) (sa : list service) (xa : list extend) : list statement :=
  map StPackage pk ++ map StImport ia ++ map StOption os ++ map (fun x => StMessage x) ma ++ map (fun x => StEnum x) ea ++ map (fun x => StService x) sa ++ map (fun x => StExtend x) xa.
Lemma statements_fm {X} (f : statement -> list X) pk ia os ma ea sa xa : flat_map f (statements pk ia os ma ea sa xa) =
  flat_map (fun x => f (StPackage x)) pk ++ flat_map (fun x => f (StImport x)) ia ++ flat_map (fun x => f (StOption x)) os ++ flat_map (fun x => f (StMessage x)) ma ++ flat_map (fun x => f (StEnum x)) ea ++ flat_map (fun x => f (StService x)) sa ++ flat_map (fun x => f (StExtend x)) xa.
Proof. unfold statements. now rewrite !flat_map_app, !fm_map. Qed.

Lemma file_w k n d name : writable d -> d_name d = Some name ->
  exists f, g_file k n (tks (w_file d)) f /\ fi_syntax f = syn_of (is_proto3 d) /\ den_file k (syn_of (is_proto3 d)) name f = with_source_info d None /\ ok_file k (syn_of (is_proto3 d)) f.
Proof.
  intros (Hsyn & Hpkg & Him & Hpub & Hweak & Hdis & Hopt & Hmsg & Hen & Hsv & Hext) Hname. set (p3 := is_proto3 d) in *.
  assert (P : exists pk, g_many g_package (tks (match d_package d with Some n => kw "package" :: w_name n ++ [TSemicolon] | None => [] end)) (match pk with Some p => [p] | None => [] end) /\ option_map (fun p => full_text (pk_name p)) pk = d_package d).
  { destruct (d_package d) as [pn|]; [|exists None; repeat constructor]. destruct (name_w pn Hpkg) as (a & Ga & Ea). exists (Some {| pk_name := a; pk_comments := c0; pk_span := join_span (0, 0) (0, 0) |}). split; [|cbn [option_map pk_name]; now rewrite Ea].
    rewrite <- (app_nil_r (tks _)). constructor; [|constructor]. rewrite tks_cons, tks_app. constructor; [exact Ga|exact I]. }
  destruct P as (pk & Gpk & Epk). destruct (imports_w d (d_dependency d) 0 Him) as (ia & Gia & Eia & Epub & Eweak). destruct (options_w k _ Hopt) as (os & Go & Eo & Oo).
  destruct (messages_w k p3 (d_message d)) as (m & ma & Gm & Fm); [intros x Hx; rewrite Forall_forall in Hmsg; destruct (Hmsg x Hx); now apply message_w|].
  destruct (many_w (g_enum k) (fun a x => den_enum_ a = x /\ ok_enum a) w_enum (d_enum d)) as (ea & Ge & Fe); [intros x Hx; rewrite Forall_forall in Hen; apply enum_w; auto|].
  destruct (many_w (g_service k) (fun a x => den_service_ a = x /\ ok_service a) w_service (d_service d)) as (sa & Gs & Fs); [intros x Hx; rewrite Forall_forall in Hsv; apply service_w; auto|].
  destruct (many_w (g_extend k (g_body k)) (fun a f => den_extend k (syn_of p3) a = [f] /\ (ok_extend k (syn_of p3) (ok_body k (syn_of p3)) a /\ flat_map (den_field_messages (den_body k (syn_of p3))) (et_fields a) = [])) (w_extension p3) (d_extension d)) as (xa & Gx & Fx).
  { intros f Hf. rewrite Forall_forall in Hext. destruct (extension_w k (g_body k) (den_body k (syn_of p3)) (ok_body k (syn_of p3)) p3 f (Hext f Hf)) as (a & G1 & G2 & G3 & G4). exists a. auto. }
  pose (pl := match pk with Some p => [p] | None => [] end). pose (l := statements pl ia os ma ea sa xa).
  assert (Lp : flat_map st_packages l = match pk with Some p => [p] | None => [] end) by (unfold l; rewrite statements_fm; cbn [st_packages]; rewrite !fm_const, fm_single, map_id, !app_nil_r; reflexivity).
  assert (Li : flat_map st_imports l = ia) by (unfold l; rewrite statements_fm; cbn [st_imports]; rewrite !fm_const, fm_single, map_id, !app_nil_r; reflexivity).
  assert (Lo : flat_map st_options l = os) by (unfold l; rewrite statements_fm; cbn [st_options]; rewrite !fm_const, fm_single, map_id, !app_nil_r; reflexivity).
  assert (Lf : flat_map st_items l = map (fun x => FIMessage x) ma ++ map (fun x => FIEnum x) ea ++ map (fun x => FIService x) sa ++ map (fun x => FIExtend x) xa) by (unfold l; rewrite statements_fm; cbn [st_items]; rewrite !fm_const, !fm_single; reflexivity).
  pose (ss := [kw "syntax"; TEquals; TStr (if p3 then b "proto3" else b "proto2"); TSemicolon]). pose (ts := skipn 4 (w_file d)).
  assert (Ew : w_file d = ss ++ ts) by reflexivity.
  assert (Gsx : g_syntax (tks ss) (syn_of p3) (Some (join_span (0, 0) (0, 0), c0))).
  { change (tks ss) with (sym (kw "syntax") (0, 0) ++ sym TEquals (0, 0) ++ sym (TStr (if p3 then b "proto3" else b "proto2")) (0, 0) ++ sym TSemicolon (0, 0)). eapply g_sx; [constructor| |exact I]. destruct p3; reflexivity. }
  assert (Gl : g_many (g_statement k) (tks ts) l).
  { unfold ts, w_file. cbn [skipn]. rewrite !tks_app. unfold l, statements. repeat apply many_app.
    - eapply many_map; [apply g_st_package|exact Gpk].
    - eapply many_map; [apply g_st_import|exact Gia].
    - eapply many_map; [apply g_st_option|exact Go].
    - eapply many_map; [apply g_st_message|]. eapply WriteMessage.many_mono; [|exact Gm]. apply WriteMessage.message_mono. intros ts' x' H'. now exists m.
    - eapply many_map; [apply g_st_enum|exact Ge].
    - eapply many_map; [apply g_st_service|exact Gs].
    - eapply many_map; [apply g_st_extend|exact Gx]. }
  rewrite Ew, tks_app. eexists. split; [eapply g_fi; [exact Gsx|exact Gl|exact Lp]|]. split; [reflexivity|]. split.
  - unfold den_file. cbn [fi_package fi_imports fi_items fi_options fi_syntax]. rewrite Li, Lo, Eia, Eo, Epk. change 0 with (N.of_nat 0). rewrite Epub, Eweak.
    apply F2_and in Fx. destruct Fx as [Fx1 Fx2]. apply F2_and in Fx2. destruct Fx2 as [_ Fx2]. apply F2_and in Fe. destruct Fe as [Fe _]. apply F2_and in Fs. destruct Fs as [Fs _]. apply F2_and in Fm. destruct Fm as [Fm _]. apply F2_map in Fm, Fe, Fs.
    rewrite (chosen_filter _ (d_public d)) by reflexivity. rewrite (chosen_filter _ (d_weak d)).
    2: { intros i. destruct (listed (d_weak d) i) eqn:Ei; [|now rewrite andb_false_r]. destruct (listed (d_public d) i) eqn:Ep; [|reflexivity]. apply listed_in in Ei, Ep. destruct (Hdis _ Ep Ei). }
    unfold indices_ok in *. rewrite <- Hpub, <- Hweak.
    rewrite Lf, !flat_map_app, !fm_map. cbn [fitem_messages fitem_enums fitem_services fitem_extensions]. rewrite !fm_const, !fm_single, !app_nil_r. cbn [app].
    rewrite (F2_fm (fun x => flat_map (den_field_messages (den_body k (syn_of p3))) (et_fields x)) (fun _ => []) _ _ Fx2), fm_const, app_nil_r.
    rewrite (F2_fm (fun x => den_extend k (syn_of p3) x) (fun f => [f]) _ _ Fx1), fm_single, map_id.
    rewrite Fm, Fe, Fs.
    assert (Es : match syn_of p3 with Proto2 => None | Proto3 => Some (b "proto3") end = d_syntax d) by (unfold p3, is_proto3; destruct Hsyn as [-> | ->]; reflexivity). rewrite Es.
    unfold with_source_info. rewrite Hname. reflexivity.
  - unfold ok_file. cbn [fi_items fi_options]. rewrite Lf, Lo. split; [|exact Oo].
    apply F2_and in Fx. destruct Fx as [_ Fx2]. apply F2_and in Fx2. destruct Fx2 as [Fx2 _]. apply F2_and in Fe. destruct Fe as [_ Fe]. apply F2_and in Fs. destruct Fs as [_ Fs]. apply F2_and in Fm. destruct Fm as [_ Fm]. apply F2_all in Fm, Fe, Fs, Fx2.
    assert (M : forall A (c : A -> fitem) l, all (fun x => ok_fitem k (syn_of p3) (c x)) l -> all (ok_fitem k (syn_of p3)) (map c l)) by (induction l0; cbn; intuition).
    repeat (apply all_app; split); apply M; auto.
Qed.
