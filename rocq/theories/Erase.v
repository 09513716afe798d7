(** Declarations without their positions: every span is replaced by [(0, 0)] and
    every comment is dropped. The meaning of declarations (Meaning.v), apart from
    source locations, depends on nothing else. *)
From Verif Require Import Base Utf8 Errors Lex Ast Descriptor Meaning.

Definition no_span : span := (0, 0).
Definition no_comments : acomments := {| ac_detached := []; ac_leading := None; ac_trailing := None |}.
Definition er_ident (i : ident) : ident := {| id_val := id_val i; id_span := no_span |}.
Definition er_full (l : full_ident) : full_ident := map er_ident l.
Definition er_ospan (o : option span) : option span := option_map (fun _ => no_span) o.
Definition er_tname (t : type_name) : type_name := {| tn_dot := er_ospan (tn_dot t); tn_name := er_full (tn_name t) |}.
Definition er_int (i : aint) : aint := {| i_neg := i_neg i; i_val := i_val i; i_span := no_span |}.
Definition er_float (f : afloat) : afloat := {| fl_neg := fl_neg f; fl_text := fl_text f; fl_span := no_span |}.
Definition er_string (s : astring) : astring := {| st_val := st_val s; st_span := no_span |}.
Definition er_optval (v : optval) : optval :=
  match v with
  | OVIdent n i _ => OVIdent n (er_ident i) no_span
  | OVInt i => OVInt (er_int i)
  | OVFloat f => OVFloat (er_float f)
  | OVString s => OVString (er_string s)
  | OVAggregate t _ => OVAggregate t no_span
  end.
Definition er_part (x : optname_part) : optname_part :=
  match x with ONIdent i => ONIdent (er_ident i) | ONExtension t _ => ONExtension (er_tname t) no_span end.
Definition er_optbody (o : optbody) : optbody := {| ob_name := map er_part (ob_name o); ob_value := er_optval (ob_value o) |}.
Definition er_option (o : option_) : option_ := {| op_body := er_optbody (op_body o); op_comments := no_comments; op_span := no_span |}.
Definition er_ol (l : optlist) : optlist := {| ol_options := map er_optbody (ol_options l); ol_span := no_span |}.
Definition er_optlist (o : option optlist) : option optlist := option_map er_ol o.
Definition er_range_end (e : range_end) : range_end := match e with RENone => RENone | REInt i => REInt (er_int i) | REMax _ => REMax no_span end.
Definition er_range (r : rrange) : rrange := {| rr_start := er_int (rr_start r); rr_end := er_range_end (rr_end r) |}.
Definition er_rkind (x : reserved_kind) : reserved_kind :=
  match x with RKRanges l => RKRanges (map er_range l) | RKNames l => RKNames (map er_ident l) end.
Definition er_reserved (r : reserved) : reserved := {| rs_kind := er_rkind (rs_kind r); rs_comments := no_comments; rs_span := no_span |}.
Definition er_extensions (x : extensions) : extensions :=
  {| ex_ranges := map er_range (ex_ranges x); ex_options := er_optlist (ex_options x); ex_comments := no_comments; ex_span := no_span |}.
Definition er_enum_value (v : enum_value) : enum_value :=
  {| ev_name := er_ident (ev_name v); ev_number := er_int (ev_number v); ev_options := er_optlist (ev_options v);
     ev_comments := no_comments; ev_span := no_span |}.
Definition er_enum (e : enum) : enum :=
  {| en_name := er_ident (en_name e); en_options := map er_option (en_options e); en_values := map er_enum_value (en_values e);
     en_reserved := map er_reserved (en_reserved e); en_comments := no_comments; en_span := no_span |}.
Definition er_method (m : method) : method :=
  {| me_name := er_ident (me_name m); me_input := er_tname (me_input m); me_output := er_tname (me_output m);
     me_options := map er_option (me_options m); me_client := er_ospan (me_client m); me_server := er_ospan (me_server m);
     me_comments := no_comments; me_span := no_span |}.
Definition er_service (s : service) : service :=
  {| sv_name := er_ident (sv_name s); sv_options := map er_option (sv_options s); sv_methods := map er_method (sv_methods s);
     sv_comments := no_comments; sv_span := no_span |}.
Definition er_ty (t : ty) : ty := match t with TyNamed n => TyNamed (er_tname n) | _ => t end.
Definition er_label (l : option (flabel * span)) : option (flabel * span) := option_map (fun x => (fst x, no_span)) l.
Section WithBody.
Context {B : Type}.
Variable eb : B -> B.
Definition er_kind (x : fkind_ B) : fkind_ B :=
  match x with
  | FKNormal t _ => FKNormal (er_ty t) no_span
  | FKGroup _ bd => FKGroup no_span (eb bd)
  | FKMap _ kt _ vt _ => FKMap no_span (er_ty kt) no_span (er_ty vt) no_span
  end.
Definition er_field (f : field_ B) : field_ B :=
  {| fd_label := er_label (fd_label f); fd_name := er_ident (fd_name f); fd_kind := er_kind (fd_kind f); fd_number := er_int (fd_number f);
     fd_options := er_optlist (fd_options f); fd_comments := no_comments; fd_span := no_span |}.
Definition er_message (m : message_ B) : message_ B :=
  {| ms_name := er_ident (ms_name m); ms_body := eb (ms_body m); ms_comments := no_comments; ms_span := no_span |}.
Definition er_extend (e : extend_ B) : extend_ B :=
  {| et_extendee := er_tname (et_extendee e); et_fields := map er_field (et_fields e); et_comments := no_comments; et_span := no_span |}.
Definition er_oneof (o : oneof_ B) : oneof_ B :=
  {| oo_name := er_ident (oo_name o); oo_options := map er_option (oo_options o); oo_fields := map er_field (oo_fields o);
     oo_comments := no_comments; oo_span := no_span |}.
Definition er_item (it : mitem_ B) : mitem_ B :=
  match it with
  | MIField f => MIField (er_field f)
  | MIEnum e => MIEnum (er_enum e)
  | MIMessage m => MIMessage (er_message m)
  | MIExtend e => MIExtend (er_extend e)
  | MIOneof o => MIOneof (er_oneof o)
  end.
End WithBody.
Fixpoint er_body (bd : body) : body :=
  match bd with
  | Body items exts opts res => Body (map (er_item er_body) items) (map er_extensions exts) (map er_option opts) (map er_reserved res)
  end.
Definition er_fitem (it : fitem) : fitem :=
  match it with
  | FIEnum e => FIEnum (er_enum e)
  | FIMessage m => FIMessage (er_message er_body m)
  | FIExtend e => FIExtend (er_extend er_body e)
  | FIService s => FIService (er_service s)
  end.
Definition er_package (p : package) : package := {| pk_name := er_full (pk_name p); pk_comments := no_comments; pk_span := no_span |}.
Definition er_import (i : import) : import :=
  {| im_kind := option_map (fun x => (fst x, no_span)) (im_kind i); im_value := im_value i; im_value_span := no_span;
     im_comments := no_comments; im_span := no_span |}.
Definition er_file (f : file) : file :=
  {| fi_span := no_span; fi_syntax := fi_syntax f; fi_syntax_span := None;
     fi_package := option_map er_package (fi_package f); fi_imports := map er_import (fi_imports f);
     fi_options := map er_option (fi_options f); fi_items := map er_fitem (fi_items f) |}.

(** ** The meaning does not depend on what is erased *)
Lemma full_text_er l : full_text (er_full l) = full_text l.
Proof. unfold full_text, er_full. now rewrite map_map. Qed.
Lemma tname_text_er t : tname_text (er_tname t) = tname_text t.
Proof. unfold tname_text, er_tname. cbn [tn_dot tn_name]. rewrite full_text_er. now destruct (tn_dot t). Qed.
Lemma int_value_er i : int_value (er_int i) = int_value i.
Proof. reflexivity. Qed.
Lemma den_part_er x : den_part (er_part x) = den_part x.
Proof. destruct x; cbn [er_part den_part]; [reflexivity|]. now rewrite tname_text_er. Qed.
Lemma den_option_er o : den_option (er_optbody o) = den_option o.
Proof.
  unfold den_option, er_optbody. cbn [ob_name ob_value]. rewrite map_map, (map_ext _ _ den_part_er).
  destruct (ob_value o) as [[] i sp|i|f|s|t sp]; reflexivity.
Qed.
Lemma ok_option_er o : ok_option (er_optbody o) <-> ok_option o.
Proof. unfold ok_option, er_optbody. cbn [ob_value]. destruct (ob_value o) as [[] i sp|i|f|s|t sp]; cbn; tauto. Qed.
Lemma called_er n o : called n (er_optbody o) = called n o.
Proof. unfold called, er_optbody. cbn [ob_name]. destruct (ob_name o) as [|[i|t sp] [|]]; reflexivity. Qed.

Lemma all_map {A A'} (Q : A' -> Prop) (f : A -> A') l : all Q (map f l) <-> all (fun x => Q (f x)) l.
Proof. induction l as [|x l IH]; cbn [map all]; [reflexivity|]. fold (all Q (map f l)). fold (all (fun x => Q (f x)) l). now rewrite IH. Qed.
Lemma all_iff {A} (Q R : A -> Prop) l : (forall x, Q x <-> R x) -> all Q l <-> all R l.
Proof. intros H. induction l as [|x l IH]; cbn [all]; [reflexivity|]. fold (all Q l). fold (all R l). now rewrite H, IH. Qed.
Lemma nonempty_map {A A'} (f : A -> A') l : nonempty (map f l) = option_map (map f) (nonempty l).
Proof. now destruct l. Qed.
Lemma flat_map_map {A A' C} (g : A' -> list C) (f : A -> A') l : flat_map g (map f l) = flat_map (fun x => g (f x)) l.
Proof. induction l as [|x l IH]; cbn; [auto|now rewrite IH]. Qed.
Lemma flat_map_ext' {A C} (g h : A -> list C) l : (forall x, g x = h x) -> flat_map g l = flat_map h l.
Proof. intros H. induction l as [|x l IH]; cbn; [auto|now rewrite IH, H]. Qed.
Lemma find_map {A} (f : A -> A) p l : (forall x, p (f x) = p x) -> find p (map f l) = option_map f (find p l).
Proof. intros H. induction l as [|x l IH]; cbn; [auto|]. rewrite H. destruct (p x); auto. Qed.
Lemma flat_map_map_out {A C C'} (g : A -> list C) (f : C -> C') l : map f (flat_map g l) = flat_map (fun x => map f (g x)) l.
Proof. induction l as [|x l IH]; cbn; [auto|]. now rewrite map_app, IH. Qed.

Lemma den_options_er l : den_options (map er_option l) = den_options l.
Proof. unfold den_options. rewrite map_map. f_equal. apply map_ext. intros o. apply den_option_er. Qed.
Lemma ok_options_er l : ok_options (map er_option l) <-> ok_options l.
Proof. unfold ok_options. rewrite all_map. apply all_iff. intros o. apply ok_option_er. Qed.
Lemma optlist_options_er ol : optlist_options (er_optlist ol) = map er_optbody (optlist_options ol).
Proof. now destruct ol. Qed.
Lemma den_optlist_er ol : den_optlist (er_optlist ol) = den_optlist ol.
Proof. unfold den_optlist. rewrite optlist_options_er, map_map. f_equal. apply map_ext, den_option_er. Qed.
Lemma ok_optlist_er ol : ok_optlist (er_optlist ol) <-> ok_optlist ol.
Proof. unfold ok_optlist. rewrite optlist_options_er, all_map. apply all_iff, ok_option_er. Qed.
Lemma drop_called_er n l : drop_called n (map er_optbody l) = map er_optbody (drop_called n l).
Proof. induction l as [|o l IH]; cbn [map drop_called]; [auto|]. rewrite called_er. destruct (called n o); cbn [map]; congruence. Qed.

Lemma den_range_er ms r : den_range ms (er_range r) = den_range ms r.
Proof. unfold den_range, den_range_end. cbn. now destruct (rr_end r). Qed.
Lemma den_ext_range_er ms ol r : den_ext_range ms (er_optlist ol) (er_range r) = den_ext_range ms ol r.
Proof. unfold den_ext_range, den_range_end. cbn. rewrite den_optlist_er. now destruct (rr_end r). Qed.
Lemma den_enum_range_er r : den_enum_range (er_range r) = den_enum_range r.
Proof. unfold den_enum_range. cbn. now destruct (rr_end r). Qed.
Lemma ok_range_er r : ok_range (er_range r) <-> ok_range r.
Proof. unfold ok_range. cbn. destruct (rr_end r); reflexivity. Qed.
Lemma ok_enum_range_er r : ok_enum_range (er_range r) <-> ok_enum_range r.
Proof. unfold ok_enum_range. cbn. destruct (rr_end r); reflexivity. Qed.
Lemma res_ranges_er l : flat_map res_ranges (map er_reserved l) = map er_range (flat_map res_ranges l).
Proof. rewrite flat_map_map, flat_map_map_out. apply flat_map_ext'. intros r. unfold res_ranges. cbn. now destruct (rs_kind r). Qed.
Lemma res_names_er l : den_reserved_names (map er_reserved l) = den_reserved_names l.
Proof.
  unfold den_reserved_names. rewrite flat_map_map, !flat_map_map_out. apply flat_map_ext'. intros r. unfold res_names. cbn. destruct (rs_kind r); [reflexivity|]. cbn. now rewrite map_map.
Qed.

Lemma den_enum_er e : den_enum_ (er_enum e) = den_enum_ e.
Proof.
  unfold den_enum_, er_enum. cbn [en_name en_options en_values en_reserved]. rewrite den_options_er, res_ranges_er, res_names_er, !map_map, (map_ext _ _ den_enum_range_er). f_equal.
  apply map_ext. intros v. unfold den_enum_value, er_enum_value. cbn. now rewrite den_optlist_er.
Qed.
Lemma ok_enum_er e : ok_enum (er_enum e) <-> ok_enum e.
Proof.
  unfold ok_enum, er_enum. cbn [en_options en_values en_reserved]. rewrite ok_options_er, res_ranges_er, !all_map, (all_iff _ _ _ ok_enum_range_er).
  rewrite (all_iff (fun x => ok_enum_value (er_enum_value x)) ok_enum_value); [reflexivity|]. intros v. unfold ok_enum_value. cbn. now rewrite ok_optlist_er.
Qed.
Lemma den_service_er s : den_service_ (er_service s) = den_service_ s.
Proof.
  unfold den_service_, er_service. cbn [sv_name sv_methods sv_options]. rewrite den_options_er, map_map. f_equal. apply map_ext. intros m. unfold den_method, er_method. cbn [me_name me_input me_output me_options me_client me_server].
  rewrite den_options_er, !tname_text_er. destruct (me_client m), (me_server m); reflexivity.
Qed.
Lemma ok_service_er s : ok_service (er_service s) <-> ok_service s.
Proof.
  unfold ok_service, er_service. cbn [sv_methods sv_options]. rewrite ok_options_er, all_map. rewrite (all_iff _ (fun m => ok_options (me_options m))); [reflexivity|]. intros m. cbn. apply ok_options_er.
Qed.

Section Fields.
Variable k : cfg.
Variable syn : syntax.
Lemma ty_text_er t : ty_text (er_ty t) = ty_text t.
Proof. destruct t; cbn [er_ty ty_text]; auto. now rewrite tname_text_er. Qed.
Lemma scalar_type_er t : scalar_type (er_ty t) = scalar_type t.
Proof. now destruct t. Qed.
Lemma key_type_er t : key_type (er_ty t) = key_type t.
Proof. now destruct t. Qed.
Lemma label_fst_er l : option_map fst (er_label l) = option_map fst l.
Proof. destruct l as [[]|]; reflexivity. Qed.
Lemma den_label_er sc l : den_label syn sc (er_label l) = den_label syn sc l.
Proof. unfold den_label. now rewrite label_fst_er. Qed.
Lemma display_er v : optval_token_string k (er_optval v) = optval_token_string k v.
Proof. destruct v; reflexivity. Qed.
Lemma den_string_er v : den_string (er_optval v) = den_string v.
Proof. destruct v; reflexivity. Qed.
Lemma den_default_er t v : den_default k (er_ty t) (er_optval v) = den_default k t v.
Proof.
  destruct t; cbn [er_ty den_default]; try (destruct v as [[] i sp|i|f|s|x sp]; reflexivity).
Qed.

Section WithBody.
Context {B : Type}.
Variable eb : B -> B.
Variable dbody : B -> msg_desc.
Variable vbody : B -> Prop.
Notation er_field := (er_field eb).
Lemma default_of_er f : default_of (er_field f) = option_map er_optbody (default_of f).
Proof. unfold default_of, er_field. cbn [fd_options]. rewrite optlist_options_er. apply find_map. intros; apply called_er. Qed.
Lemma json_of_er f : json_of (er_field f) = option_map er_optbody (json_of f).
Proof. unfold json_of, er_field. cbn [fd_options]. rewrite optlist_options_er. apply find_map. intros; apply called_er. Qed.
Lemma rest_options_er f : rest_options (er_field f) = er_optlist (rest_options f).
Proof.
  unfold rest_options, er_field. cbn [fd_options]. destruct (fd_options f) as [l|]; cbn; [|reflexivity]. unfold er_ol. cbn [ol_options ol_span]. now rewrite !drop_called_er.
Qed.
Lemma p3_optional_er f : p3_optional syn (er_field f) = p3_optional syn f.
Proof. unfold p3_optional, er_field. cbn [fd_label]. destruct (p2 syn); auto. destruct (fd_label f) as [[]|]; reflexivity. Qed.
Lemma den_field_er sc oi f : den_field k syn sc oi (er_field f) = den_field k syn sc oi f.
Proof.
  unfold den_field. rewrite json_of_er, default_of_er, rest_options_er, den_optlist_er, p3_optional_er. 
  replace (match option_map er_optbody (json_of f) with Some o => den_string (ob_value o) | None => None end)
    with (match json_of f with Some o => den_string (ob_value o) | None => None end) by (destruct (json_of f); [cbn; now rewrite den_string_er|reflexivity]).
  unfold er_field. cbn [fd_kind fd_name fd_number fd_label er_kind].
  destruct (fd_kind f); cbn [er_kind]; try reflexivity.
  - rewrite scalar_type_er, ty_text_er, den_label_er. destruct (default_of f); cbn; [rewrite den_default_er|]; reflexivity.
  - rewrite den_label_er. reflexivity.
Qed.
Lemma den_field_oneofs_er f : den_field_oneofs syn (er_field f) = den_field_oneofs syn f.
Proof. unfold den_field_oneofs. now rewrite p3_optional_er. Qed.
(** What is known of the field's own body (a group). *)
Definition on_kind (Q : B -> Prop) (f : field_ B) : Prop := match fd_kind f with FKGroup _ bd => Q bd | _ => True end.
Lemma den_field_messages_er f : on_kind (fun bd => dbody (eb bd) = dbody bd) f -> den_field_messages dbody (er_field f) = den_field_messages dbody f.
Proof.
  unfold on_kind, den_field_messages, er_field. cbn [fd_kind fd_name]. destruct (fd_kind f); cbn; intros H; auto.
  - now rewrite H.
  - unfold entry_desc. now rewrite ty_text_er, !scalar_type_er.
Qed.
Lemma ok_field_er sc f : on_kind (fun bd => vbody (eb bd) <-> vbody bd) f -> ok_field k syn vbody sc (er_field f) <-> ok_field k syn vbody sc f.
Proof.
  unfold on_kind, ok_field. rewrite json_of_er, default_of_er, rest_options_er, ok_optlist_er. unfold er_field. cbn [fd_kind fd_number fd_label].
  replace (match option_map er_optbody (json_of f) with Some o => den_string (ob_value o) <> None | None => True end)
    with (match json_of f with Some o => den_string (ob_value o) <> None | None => True end) by (destruct (json_of f); [cbn; now rewrite den_string_er|reflexivity]).
  assert (Hd : forall o : option optbody, option_map er_optbody o = None <-> o = None) by (intros [|]; cbn; split; congruence).
  assert (Hl : er_label (fd_label f) = None <-> fd_label f = None) by (destruct (fd_label f); cbn; split; congruence).
  intros H. destruct (fd_kind f); cbn [er_kind].
  - rewrite den_label_er. destruct (default_of f); cbn [option_map]; [|reflexivity]. rewrite label_fst_er. unfold er_optbody. cbn [ob_value]. now rewrite den_default_er.
  - rewrite den_label_er, Hd, H. reflexivity.
  - rewrite Hd, Hl, key_type_er. reflexivity.
Qed.

Definition on_item (Q : B -> Prop) (it : mitem_ B) : Prop :=
  match it with
  | MIField f => on_kind Q f
  | MIMessage m => Q (ms_body m)
  | MIExtend e => Forall (on_kind Q) (et_fields e)
  | MIOneof o => Forall (on_kind Q) (oo_fields o)
  | MIEnum _ => True
  end.
Lemma fields_messages_er l : Forall (on_kind (fun bd => dbody (eb bd) = dbody bd)) l -> flat_map (den_field_messages dbody) (map er_field l) = flat_map (den_field_messages dbody) l.
Proof. induction 1 as [|f l H _ IH]; cbn; [auto|]. now rewrite IH, den_field_messages_er. Qed.
Lemma ok_fields_er sc l : Forall (on_kind (fun bd => vbody (eb bd) <-> vbody bd)) l -> all (ok_field k syn vbody sc) (map er_field l) <-> all (ok_field k syn vbody sc) l.
Proof. induction 1 as [|f l H _ IH]; cbn [map all]; [reflexivity|]. fold (all (ok_field k syn vbody sc) (map er_field l)). fold (all (ok_field k syn vbody sc) l). now rewrite IH, ok_field_er. Qed.
Lemma den_extend_er e : den_extend k syn (er_extend eb e) = den_extend k syn e.
Proof. unfold den_extend, er_extend. cbn [et_fields et_extendee]. rewrite map_map, tname_text_er. apply map_ext. intros f. now rewrite den_field_er. Qed.
Lemma den_fields_er items : forall r s, den_fields k syn r s (map (er_item eb) items) = den_fields k syn r s items.
Proof.
  induction items as [|it items IH]; intros r s; cbn [map den_fields]; [reflexivity|]. destruct it; cbn [er_item]; auto.
  - now rewrite p3_optional_er, den_field_er, den_field_oneofs_er, IH.
  - unfold er_oneof at 1. cbn [oo_fields]. rewrite map_map, IH. f_equal. apply map_ext. intros f. now rewrite den_field_er.
Qed.
Lemma item_real_er it : item_real (er_item eb it) = item_real it.
Proof. destruct it; cbn; auto. unfold den_oneof_, er_oneof. cbn. now rewrite den_options_er. Qed.
Lemma item_synthetic_er it : item_synthetic syn (er_item eb it) = item_synthetic syn it.
Proof. destruct it; cbn; auto. apply den_field_oneofs_er. Qed.
Lemma item_extensions_er it : item_extensions k syn (er_item eb it) = item_extensions k syn it.
Proof. destruct it; cbn; auto. apply den_extend_er. Qed.
Lemma item_enums_er it : item_enums (er_item eb it) = item_enums it.
Proof. destruct it; cbn; auto. now rewrite den_enum_er. Qed.
Lemma item_messages_er it : on_item (fun bd => dbody (eb bd) = dbody bd) it -> item_messages dbody (er_item eb it) = item_messages dbody it.
Proof.
  destruct it; cbn; auto.
  - apply den_field_messages_er.
  - intros H. unfold den_message_, er_message. cbn. now rewrite H.
  - apply fields_messages_er.
  - apply fields_messages_er.
Qed.
Lemma ok_item_er it : on_item (fun bd => vbody (eb bd) <-> vbody bd) it -> ok_item k syn vbody (er_item eb it) <-> ok_item k syn vbody it.
Proof.
  destruct it; cbn; intros H; auto.
  - now apply ok_field_er.
  - apply ok_enum_er.
  - now apply ok_fields_er.
  - unfold ok_oneof, er_oneof. cbn. rewrite ok_options_er, ok_fields_er by auto. 
    assert (Hd : map er_field (oo_fields o) = [] <-> oo_fields o = []) by (destruct (oo_fields o); cbn; split; congruence). now rewrite Hd.
Qed.
End WithBody.

Lemma message_set_er l : message_set (map er_option l) = message_set l.
Proof.
  unfold message_set. rewrite find_map by (intros o; apply called_er). destruct (find _ l) as [o|]; [|reflexivity]. cbn. destruct (ob_value (op_body o)); reflexivity.
Qed.
Lemma den_extensions_er ms l : den_extensions ms (map er_extensions l) = den_extensions ms l.
Proof. unfold den_extensions. rewrite flat_map_map. apply flat_map_ext'. intros x. cbn. rewrite map_map. apply map_ext. intros r. apply den_ext_range_er. Qed.
Lemma ok_extensions_er x : ok_extensions (er_extensions x) <-> ok_extensions x.
Proof.
  unfold ok_extensions, er_extensions. cbn. rewrite all_map, (all_iff _ _ _ ok_range_er), ok_optlist_er.
  assert (Hd : map er_range (ex_ranges x) = [] <-> ex_ranges x = []) by (destruct (ex_ranges x); cbn; split; congruence). now rewrite Hd.
Qed.

(** Induction over message bodies. *)
Section Ind.
Variable Q : body -> Prop.
Hypothesis step : forall items exts opts res, Forall (on_item Q) items -> Q (Body items exts opts res).
Lemma body_rect' : forall bd, Q bd.
Proof.
  fix F 1. intros [items exts opts res]. apply step. induction items as [|it items IH]; constructor; [|exact IH]. clear IH.
  destruct it as [[lab nm [t tsp|gsp gb|msp kt ksp vt vsp] num os c sp]|e|[nm mb c sp]|[ex fs c sp]|[nm os fs c sp]]; unfold on_item, on_kind; cbn [fd_kind ms_body et_fields oo_fields]; try exact I; try apply F.
  - induction fs as [|[lab nm [t tsp|gsp gb|msp kt ksp vt vsp] num os c' sp'] l IH]; constructor; try exact IH; unfold on_kind; cbn [fd_kind]; [exact I|apply F|exact I].
  - induction fs as [|[lab nm' [t tsp|gsp gb|msp kt ksp vt vsp] num os' c' sp'] l IH]; constructor; try exact IH; unfold on_kind; cbn [fd_kind]; [exact I|apply F|exact I].
Qed.
End Ind.

Lemma den_body_er bd : den_body k syn (er_body bd) = den_body k syn bd.
Proof.
  induction bd as [items exts opts res IH] using body_rect'. cbn [er_body den_body].
  rewrite message_set_er, den_fields_er, den_options_er, den_extensions_er, res_ranges_er, res_names_er, map_map, !flat_map_map.
  rewrite (flat_map_ext' (fun x => item_real (er_item er_body x)) item_real) by (intros; apply item_real_er).
  rewrite (flat_map_ext' (fun x => item_synthetic syn (er_item er_body x)) (item_synthetic syn)) by (intros; apply item_synthetic_er).
  rewrite (flat_map_ext' (fun x => item_extensions k syn (er_item er_body x)) (item_extensions k syn)) by (intros; apply item_extensions_er).
  rewrite (flat_map_ext' (fun x => item_enums (er_item er_body x)) item_enums) by (intros; apply item_enums_er).
  rewrite (map_ext (fun x => den_range (message_set opts) (er_range x)) (den_range (message_set opts))) by (intros; apply den_range_er).
  f_equal. induction IH as [|it items H _ IH]; cbn; [auto|]. now rewrite IH, item_messages_er.
Qed.
Lemma ok_body_er bd : ok_body k syn (er_body bd) <-> ok_body k syn bd.
Proof.
  induction bd as [items exts opts res IH] using body_rect'. cbn [er_body ok_body].
  rewrite ok_options_er, res_ranges_er, !all_map, (all_iff _ _ _ ok_range_er), (all_iff _ _ _ ok_extensions_er).
  assert (H : all (fun x => ok_item k syn (ok_body k syn) (er_item er_body x)) items <-> all (ok_item k syn (ok_body k syn)) items); [|now rewrite H].
  induction IH as [|it items H _ IH]; cbn [all]; [reflexivity|]. fold (all (fun x => ok_item k syn (ok_body k syn) (er_item er_body x)) items). fold (all (ok_item k syn (ok_body k syn)) items).
  now rewrite IH, ok_item_er.
Qed.
Lemma kinds_all (f : field) (Q : body -> Prop) : (forall bd, Q bd) -> on_kind Q f.
Proof. intros H. unfold on_kind. destruct (fd_kind f); auto. Qed.
Lemma kinds_alls (l : list field) (Q : body -> Prop) : (forall bd, Q bd) -> Forall (on_kind Q) l.
Proof. intros H. apply Forall_forall. intros f _. now apply kinds_all. Qed.
End Fields.

Lemma kind_indices_er ik l : forall i, kind_indices ik i (map er_import l) = kind_indices ik i l.
Proof.
  induction l as [|im l IH]; intros i; cbn [map kind_indices]; [reflexivity|]. rewrite IH. f_equal. unfold is_kind. cbn. destruct (im_kind im) as [[[] sp]|]; destruct ik; reflexivity.
Qed.
Theorem den_file_er k syn name f : den_file k syn name (er_file f) = den_file k syn name f.
Proof.
  unfold den_file, er_file. cbn [fi_package fi_imports fi_items fi_options fi_syntax]. rewrite map_map, !kind_indices_er, !flat_map_map, den_options_er.
  replace (option_map (fun p => full_text (pk_name p)) (option_map er_package (fi_package f))) with (option_map (fun p => full_text (pk_name p)) (fi_package f))
    by (destruct (fi_package f); cbn [option_map er_package pk_name]; [now rewrite full_text_er|reflexivity]).
  f_equal; apply flat_map_ext'; intros it; destruct it; cbn; auto.
  - unfold den_message_, er_message. cbn. now rewrite den_body_er.
  - apply fields_messages_er. apply kinds_alls. intros; apply den_body_er.
  - now rewrite den_enum_er.
  - now rewrite den_service_er.
  - apply den_extend_er.
Qed.
Theorem ok_file_er k syn f : ok_file k syn (er_file f) <-> ok_file k syn f.
Proof.
  unfold ok_file, er_file. cbn [fi_items fi_options]. rewrite ok_options_er, all_map.
  rewrite (all_iff _ (ok_fitem k syn)); [reflexivity|]. intros it. destruct it; cbn.
  - apply ok_enum_er.
  - apply ok_body_er.
  - apply ok_fields_er. apply kinds_alls. intros; apply ok_body_er.
  - apply ok_service_er.
Qed.
Print Assumptions ok_file_er.
