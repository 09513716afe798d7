(** Specification of the completeness of source locations (C51): which parts
    of a declaration have a location of their own, which of these carry the
    comments of the source, and that they lie inside the declaration. Written
    in terms of the descriptor (LocSpec.v), its tokens and comments
    (AttachSpec.v). *)
From Verif Require Import Base Lex Ast Descriptor Lines PropsLines LocSpec AttachSpec Stream.

(** How the head of a declaration that carries comments ends: its trailing
    comment is the one of that token. *)
Inductive docs : Type :=
| NoDoc             (* has no comments *)
| DocStatement      (* ends with a semicolon *)
| DocBlock          (* head ends with an opening brace *)
| DocRpc.           (* rpc: ends with a semicolon or a closing brace *)

(** A part of a declaration: its path relative to the declaration, what it
    is, its comments, and whether it is written inside the declaration. *)
Record child : Type := { c_path : list Z; c_elem : elem; c_doc : docs; c_in : bool }.

(** Members that are set. *)
Definition if_set {A} (t : Z) (doc : docs) (e : A -> elem) (o : option A) : list child :=
  match o with Some x => [{| c_path := [t]; c_elem := e x; c_doc := doc; c_in := true |}] | None => [] end.
(** The elements of a repeated member, from index [i] on, except the ones not kept. *)
Fixpoint each {A} (keep : N -> A -> bool) (doc : A -> docs) (inside : bool) (pre : list Z) (e : A -> elem) (i : N) (l : list A) : list child :=
  match l with
  | [] => []
  | x :: r =>
    (if keep i x then [{| c_path := pre ++ [Z.of_N i]; c_elem := e x; c_doc := doc x; c_in := inside |}] else []) ++
    each keep doc inside pre e (i + 1) r
  end.
Definition every {A} (_ : N) (_ : A) : bool := true.
Definition alike {A} (doc : docs) (_ : A) : docs := doc.
(** An options message, and the options in it. *)
Definition opts (doc : docs) (inside : bool) (t : Z) (entry : option bool) (o : option (list uopt)) : list child :=
  match o with
  | None => []
  | Some l => {| c_path := [t]; c_elem := EOpts entry l; c_doc := NoDoc; c_in := inside |} ::
              each every (alike doc) inside [t; 999%Z] EOpt 0 l
  end.

(** Elements without a text of their own in the source. *)
Definition is_map (f : field_desc) : bool := match f_type f with Some FTMessage => true | _ => false end.
Definition is_group (f : field_desc) : bool := match f_type f with Some FTGroup => true | _ => false end.
Definition is_entry (m : msg_desc) : bool :=
  match m_options m with Some o => match mo_map_entry o with Some true => true | _ => false end | None => false end.
Definition is_p3_optional (f : field_desc) : bool := match f_proto3_optional f with Some true => true | _ => false end.
Definition is_synthetic (m : msg_desc) (i : N) : bool :=
  existsb (fun f => is_p3_optional f && match f_oneof_index f with Some j => (j =? Z.of_N i)%Z | None => false end) (m_field m).
(** The label is written for every field of a proto2 message or extension,
    and in proto3 for repeated and optional fields; never for a map. *)
Definition label_written (p2 : bool) (f : field_desc) : bool :=
  negb (is_map f) &&
  (if p2 then match f_oneof_index f with None => true | Some _ => false end
   else is_p3_optional f || match f_label f with Some LabRepeated => true | _ => false end).

Definition EVal' {A} (_ : A) : elem := EVal.
Definition field_doc (f : field_desc) : docs := if is_group f then NoDoc else DocStatement.   (* the comments of a group are at its message *)
(** The parts of a declaration of a proto2 ([p2]) or proto3 file. *)
Definition children (p2 : bool) (e : elem) : list child :=
  match e with
  | EFile d =>
    if_set 2 DocStatement EText (d_package d) ++
    each every (alike DocStatement) true [3%Z] EText 0 (d_dependency d) ++
    each every (alike NoDoc) true [10%Z] EVal' 0 (d_public d) ++
    each every (alike NoDoc) true [11%Z] EVal' 0 (d_weak d) ++
    each (fun _ m => negb (is_entry m)) (alike DocBlock) true [4%Z] EMsg 0 (d_message d) ++
    each every (alike DocBlock) true [5%Z] EEnum 0 (d_enum d) ++
    each every (alike DocBlock) true [6%Z] EService 0 (d_service d) ++
    each every field_doc true [7%Z] EField 0 (d_extension d) ++
    opts DocStatement true 8 None (d_options d) ++
    if_set 12 DocStatement EText (d_syntax d)
  | EMsg m =>
    if_set 1 NoDoc EName (m_name m) ++
    each every field_doc true [2%Z] EField 0 (m_field m) ++
    each every field_doc true [6%Z] EField 0 (m_extension m) ++
    each (fun _ m => negb (is_entry m)) (alike DocBlock) true [3%Z] EMsg 0 (m_nested m) ++
    each every (alike DocBlock) true [4%Z] EEnum 0 (m_enum m) ++
    each every (alike NoDoc) true [5%Z] EExtRange 0 (m_ext_range m) ++
    each (fun i _ => negb (is_synthetic m i)) (alike DocBlock) true [8%Z] EOneof 0 (m_oneof m) ++
    match m_options m with Some o => opts DocStatement true 7 (mo_map_entry o) (Some (mo_uninterpreted o)) | None => [] end ++
    each every (alike NoDoc) true [9%Z] ERange 0 (m_reserved_range m) ++
    each every (alike NoDoc) true [10%Z] EText 0 (m_reserved_name m)
  | EField f =>
    if_set 1 NoDoc EName (f_name f) ++
    match f_extendee f with Some x => [{| c_path := [2%Z]; c_elem := EText x; c_doc := NoDoc; c_in := false |}] | None => [] end ++   (* before the block *)
    if_set 3 NoDoc EVal' (f_number f) ++
    (if label_written p2 f then if_set 4 NoDoc EVal' (f_label f) else []) ++
    (if is_map f then [] else if_set 5 NoDoc EVal' (f_type f)) ++
    if_set 6 NoDoc EText (f_type_name f) ++
    if_set 7 NoDoc EText (f_default f) ++
    opts NoDoc true 8 None (f_options f) ++
    if_set 10 NoDoc EText (f_json_name f)
  | EOneof o => if_set 1 NoDoc EName (o_name o) ++ opts DocStatement true 2 None (o_options o)
  | EExtRange x =>
    if_set 1 NoDoc EVal' (x_start x) ++ if_set 2 NoDoc EVal' (x_end x) ++ opts NoDoc false 3 None (x_options x)   (* behind the last range *)
  | ERange r => if_set 1 NoDoc EVal' (r_start r) ++ if_set 2 NoDoc EVal' (r_end r)
  | EEnum x =>
    if_set 1 NoDoc EName (e_name x) ++
    each every (alike DocStatement) true [2%Z] EValue 0 (e_value x) ++
    opts DocStatement true 3 None (e_options x) ++
    each every (alike NoDoc) true [4%Z] ERange 0 (e_reserved_range x) ++
    each every (alike NoDoc) true [5%Z] EText 0 (e_reserved_name x)
  | EValue v => if_set 1 NoDoc EName (v_name v) ++ if_set 2 NoDoc EVal' (v_number v) ++ opts NoDoc true 3 None (v_options v)
  | EService s =>
    if_set 1 NoDoc EName (s_name s) ++
    each every (alike DocRpc) true [2%Z] EMethod 0 (s_method s) ++
    opts DocStatement true 3 None (s_options s)
  | EMethod m =>
    if_set 1 NoDoc EName (me_d_name m) ++ if_set 2 NoDoc EText (me_d_input m) ++ if_set 3 NoDoc EText (me_d_output m) ++
    opts DocStatement true 4 None (me_d_options m) ++
    if_set 5 NoDoc EVal' (me_d_client m) ++ if_set 6 NoDoc EVal' (me_d_server m)
  | EOpts _ _ | EOpt _ | EName _ | EText _ | EVal | EList _ => []
  end.

(** Sanity: every part is where its path leads. *)
Lemma each_follow {A} keep doc ins pre (e : A -> elem) p l : follow p pre = Some (EList (map e l)) ->
  forall c, In c (each keep doc ins pre e 0 l) -> follow p (c_path c) = Some (c_elem c).
Proof.
  intros H. assert (FA : forall q r x, follow x (q ++ r) = match follow x q with Some y => follow y r | None => None end).
  { induction q as [|z q IH]; intros r x; cbn [app follow]; [reflexivity|]. destruct (member x z); auto. }
  assert (G : forall l2 l1, l = l1 ++ l2 -> forall c, In c (each keep doc ins pre e (len l1) l2) -> follow p (c_path c) = Some (c_elem c)).
  { induction l2 as [|x l2 IH]; intros l1 -> c Hc; [destruct Hc|]. cbn [each] in Hc. apply in_app_or in Hc. destruct Hc as [Hc|Hc].
    - destruct (keep (len l1) x); [|destruct Hc]. destruct Hc as [<-|[]]. cbn [c_path c_elem]. rewrite FA, H. cbn [follow member].
      destruct (Z.of_N (len l1) <? 0)%Z eqn:E; [apply Z.ltb_lt in E; lia|]. replace (Z.to_nat (Z.of_N (len l1))) with (length (map e l1)) by (unfold len; rewrite map_length; lia).
      rewrite map_app, nth_error_app2 by lia. rewrite Nat.sub_diag. reflexivity.
    - apply (IH (l1 ++ [x])); [now rewrite <- app_assoc|]. rewrite len_app. exact Hc. }
  intros c Hc. exact (G l [] eq_refl c Hc).
Qed.
Lemma set_follow {A} t doc (e : A -> elem) o p : (forall x, o = Some x -> member p t = Some (e x)) -> forall c, In c (if_set t doc e o) -> follow p (c_path c) = Some (c_elem c).
Proof. intros H c Hc. destruct o as [x|]; [|destruct Hc]. destruct Hc as [<-|[]]. cbn. now rewrite (H x). Qed.
Lemma opts_follow doc ins t me o p : (forall l, o = Some l -> member p t = Some (EOpts me l)) -> forall c, In c (opts doc ins t me o) -> follow p (c_path c) = Some (c_elem c).
Proof.
  intros H c Hc. destruct o as [l|]; [|destruct Hc]. specialize (H l eq_refl). destruct Hc as [<-|Hc]; [cbn; now rewrite H|]. revert c Hc. apply each_follow. cbn. rewrite H. reflexivity.
Qed.
Theorem children_follow p2 e c : In c (children p2 e) -> follow e (c_path c) = Some (c_elem c).
Proof.
  destruct e as [d|m|f|o|x|r|e|v|s|m|en l|u|s|s| |l]; cbn [children]; try (intros []; fail); intros H;
    repeat (match type of H with In _ (_ ++ _) => apply in_app_or in H; destruct H as [H|H] end);
    try (revert c H; apply each_follow; reflexivity);
    try (revert c H; apply opts_follow; intros ? E; cbn; rewrite E; reflexivity);
    try (revert c H; apply set_follow; intros ? E; cbn; rewrite E; reflexivity).
  - destruct (m_options m) as [o|] eqn:E; [|destruct H]. revert c H. apply opts_follow. intros l [= <-]. cbn. rewrite E. reflexivity.
  - destruct (f_extendee f) as [x|] eqn:E; [|destruct H]. destruct H as [<-|[]]. cbn. now rewrite E.
  - destruct (label_written p2 f); [|destruct H]. revert c H; apply set_follow; intros ? E; cbn; rewrite E; reflexivity.
  - destruct (is_map f); [destruct H|]. revert c H; apply set_follow; intros ? E; cbn; rewrite E; reflexivity.
Qed.

(** The comments of a location are those of a declaration that starts where
    the location does, and whose head ends as described. *)
Definition documented (k : cfg) (src : bytes) (h : docs) (y : location) : Prop :=
  match h with
  | NoDoc => loc_detached y = [] /\ loc_leading y = None /\ loc_trailing y = None
  | _ => exists st t e en,
      comments_at (stream k src 0) st e {| ac_detached := loc_detached y; ac_leading := loc_leading y; ac_trailing := loc_trailing y |} /\
      In (Some t, e) (stream k src 0) /\
      s_start st <= en /\ en <= len src /\ loc_span y = encode src (s_start st) en /\
      match h with
      | DocBlock => t = TLeftBrace
      | DocRpc => (t = TSemicolon \/ t = TRightBrace) /\ s_end e = en
      | _ => t = TSemicolon /\ s_end e = en
      end
  end.
(** The text of [y] is part of the text of [x]. *)
Definition inside (src : bytes) (y x : location) : Prop :=
  exists s e s' e', loc_span x = encode src s e /\ loc_span y = encode src s' e' /\ s <= s' /\ s' <= e' /\ e' <= e /\ e <= len src.

(** [placed x e]: [x] is the location of [e], and all parts of [e] are located, recursively. *)
Inductive placed (k : cfg) (src : bytes) (p2 : bool) (locs : list location) : location -> elem -> Prop :=
| placed_ x e :
    (forall c, In c (children p2 e) -> exists y, In y locs /\ loc_path y = loc_path x ++ c_path c /\
       documented k src (c_doc c) y /\ (c_in c = true -> inside src y x) /\ placed k src p2 locs y (c_elem c)) ->
    placed k src p2 locs x e.
