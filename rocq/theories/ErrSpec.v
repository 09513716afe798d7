(** Specification of the semantic errors (C53): the rules a well-formed file can
    break, and what is reported for each. *)
From Verif Require Import Base Utf8 Errors Lex Ast Parse Meaning.

(** The declarations of a file, at all depths. *)
Inductive node : Type :=
| NField (sc : scope) (f : field)
| NEnum (e : enum)
| NOneof (o : oneof)
| NService (s : service)
| NBody (exts : list extensions) (opts : list option_) (res : list reserved)   (* the other members of a message or group *)
| NFile (opts : list option_).
Section WithBody.
Variable nb : body -> list node.
Definition nodes_field (sc : scope) (f : field) : list node :=
  NField sc f :: match fd_kind f with FKGroup _ bd => nb bd | _ => [] end.
Definition nodes_item (it : mitem) : list node :=
  match it with
  | MIField f => nodes_field ScMessage f
  | MIEnum e => [NEnum e]
  | MIMessage m => nb (ms_body m)
  | MIExtend e => flat_map (nodes_field ScExtend) (et_fields e)
  | MIOneof o => NOneof o :: flat_map (nodes_field ScOneof) (oo_fields o)
  end.
End WithBody.
Fixpoint nodes_body (bd : body) : list node :=
  match bd with Body items exts opts res => NBody exts opts res :: flat_map (nodes_item nodes_body) items end.
Definition nodes_fitem (it : fitem) : list node :=
  match it with
  | FIMessage m => nodes_body (ms_body m)
  | FIEnum e => [NEnum e]
  | FIExtend e => flat_map (nodes_field nodes_body ScExtend) (et_fields e)
  | FIService s => [NService s]
  end.
Definition nodes (f : file) : list node := NFile (fi_options f) :: flat_map nodes_fitem (fi_items f).

(** ** Numbers and options *)
Definition field_number (i : aint) : Prop := (1 <= int_value i <= 536870911)%Z.
Definition int32 (i : aint) : Prop := (-2147483648 <= int_value i <= 2147483647)%Z.
Definition range_numbers (r : rrange) : list aint := rr_start r :: match rr_end r with REInt j => [j] | _ => [] end.
(** A literal as written: its sign and its value in decimal. *)
Definition literal (i : aint) : bytes := (if i_neg i then b "-" else []) ++ dec (i_val i).

Inductive option_flaw (o : optbody) : perr -> Prop :=
| negative_name i sp : ob_value o = OVIdent true i sp -> option_flaw o (NegativeIdentOutsideDefault sp)
| option_range i : ob_value o = OVInt i -> (int_value i < -9223372036854775808)%Z ->
    option_flaw o (IntegerValueOutOfRange (b "a 64-bit integer") (literal i) (decZ (-9223372036854775808)) (decZ 18446744073709551615) (i_span i)).
(** One of the options. *)
Definition options_flaw (l : list option_) (e : perr) : Prop := exists o, In o l /\ option_flaw (op_body o) e.
Definition optlist_flaw (o : option optlist) (e : perr) : Prop := exists x, In x (optlist_options o) /\ option_flaw x e.

(** ** Default values *)
Definition is_int (t : ty) : Prop :=
  match t with
  | TyInt32 | TyInt64 | TyUint32 | TyUint64 | TySint32 | TySint64 | TyFixed32 | TyFixed64 | TySfixed32 | TySfixed64 => True
  | _ => False
  end.
(** What kind of value a scalar type wants, and whether [v] is one. *)
Definition wanted (t : ty) : bytes :=
  match t with
  | TyDouble | TyFloat => b "a floating-point number"
  | TyBool => b "either 'true' or 'false'"
  | TyString | TyBytes => b "a string"
  | _ => b "an integer"
  end.
Definition of_kind (t : ty) (v : optval) : Prop :=
  match t, v with
  | (TyDouble | TyFloat), (OVInt _ | OVFloat _) => True
  | (TyDouble | TyFloat), OVIdent _ i _ => id_val i = b "nan" \/ id_val i = b "inf"
  | TyBool, OVIdent false i _ => id_val i = b "true" \/ id_val i = b "false"
  | (TyString | TyBytes), OVString _ => True
  | (TyInt32 | TyInt64 | TyUint32 | TyUint64 | TySint32 | TySint64 | TyFixed32 | TyFixed64 | TySfixed32 | TySfixed64), OVInt _ => True
  | TyNamed _, _ => True
  | _, _ => False
  end.
(** The range of an integer type, and its name. *)
Definition range_of (t : ty) : option (bytes * Z * Z) :=
  match t with
  | TyInt32 | TySint32 | TySfixed32 => Some (b "a signed 32-bit integer", -2147483648, 2147483647)%Z
  | TyInt64 | TySint64 | TySfixed64 => Some (b "a signed 64-bit integer", -9223372036854775808, 9223372036854775807)%Z
  | TyUint32 | TyFixed32 => Some (b "an unsigned 32-bit integer", 0, 4294967295)%Z
  | TyUint64 | TyFixed64 => Some (b "an unsigned 64-bit integer", 0, 18446744073709551615)%Z
  | _ => None
  end.

(** ** The rules *)
Section Rules.
Variable k : cfg.
Variable syn : syntax.
Inductive field_flaw (sc : scope) (f : field) : perr -> Prop :=
| f_number_range : ~ field_number (fd_number f) -> field_flaw sc f (InvalidMessageNumber (i_span (fd_number f)))
(* labels; [is_map] fields have rules of their own *)
| f_required_extension sp : match fd_kind f with FKMap _ _ _ _ _ => False | _ => True end -> sc = ScExtend -> fd_label f = Some (LRequired, sp) -> field_flaw sc f (RequiredExtendField sp)
| f_oneof_label l sp : match fd_kind f with FKMap _ _ _ _ _ => False | _ => True end -> sc = ScOneof -> fd_label f = Some (l, sp) -> field_flaw sc f (OneofFieldWithLabel sp)
| f_no_label : match fd_kind f with FKMap _ _ _ _ _ => False | _ => True end -> sc <> ScOneof -> syn = Proto2 -> fd_label f = None -> field_flaw sc f (Proto2FieldMissingLabel (fd_span f))
| f_required sp : match fd_kind f with FKMap _ _ _ _ _ => False | _ => True end -> sc = ScMessage -> syn = Proto3 -> fd_label f = Some (LRequired, sp) -> field_flaw sc f (Proto3RequiredField sp)
(* maps *)
| f_map_oneof a c d e g : fd_kind f = FKMap a c d e g -> sc = ScOneof -> field_flaw sc f (InvalidOneofFieldKind (b "map") (fd_span f))
| f_map_extend a c d e g : fd_kind f = FKMap a c d e g -> sc = ScExtend -> field_flaw sc f (InvalidExtendFieldKind (b "map") (fd_span f))
| f_map_label a c d e g l sp : fd_kind f = FKMap a c d e g -> sc = ScMessage -> fd_label f = Some (l, sp) -> field_flaw sc f (MapFieldWithLabel sp)
| f_map_key a c d e g : fd_kind f = FKMap a c d e g -> key_type c = false -> field_flaw sc f (InvalidMapFieldKeyType d)
(* groups *)
| f_group a c : fd_kind f = FKGroup a c -> syn = Proto3 -> field_flaw sc f (Proto3GroupField (fd_span f))
(* default values *)
| f_map_default a c d e g o : fd_kind f = FKMap a c d e g -> default_of f = Some o -> field_flaw sc f (InvalidDefault (b "map") (body_span o))
| f_repeated_default sp o : match fd_kind f with FKMap _ _ _ _ _ => False | _ => True end -> fd_label f = Some (LRepeated, sp) -> default_of f = Some o ->
    field_flaw sc f (InvalidDefault (b "repeated") (body_span o))
| f_proto3_default o : match fd_kind f with FKMap _ _ _ _ _ => False | _ => True end -> (forall sp, fd_label f <> Some (LRepeated, sp)) -> syn = Proto3 -> default_of f = Some o ->
    field_flaw sc f (Proto3DefaultValue (body_span o))
| f_group_default a c o : fd_kind f = FKGroup a c -> default_of f = Some o -> field_flaw sc f (InvalidDefault (b "group") (body_span o))
| f_default_kind t a o : fd_kind f = FKNormal t a -> default_of f = Some o -> ~ of_kind t (ob_value o) ->
    field_flaw sc f (ValueInvalidType (wanted t) (optval_display k (ob_value o)) (optval_span (ob_value o)))
| f_default_range t a o i name lo hi : fd_kind f = FKNormal t a -> default_of f = Some o -> ob_value o = OVInt i -> range_of t = Some (name, lo, hi) ->
    ~ (lo <= int_value i <= hi)%Z \/ lo = 0%Z /\ i_neg i = true ->       (* -0 is not unsigned *)
    field_flaw sc f (IntegerValueOutOfRange name (literal i) (decZ lo) (decZ hi) (i_span i))
| f_default_utf8 a o s : fd_kind f = FKNormal TyString a -> default_of f = Some o -> ob_value o = OVString s -> utf8_valid (st_val s) = false -> field_flaw sc f (InvalidUtf8String (st_span s))
(* json_name *)
| f_json_kind o : json_of f = Some o -> (forall s, ob_value o <> OVString s) -> field_flaw sc f (ValueInvalidType (b "a string") (optval_display k (ob_value o)) (optval_span (ob_value o)))
| f_json_utf8 o s : json_of f = Some o -> ob_value o = OVString s -> utf8_valid (st_val s) = false -> field_flaw sc f (InvalidUtf8String (st_span s))
(* the options other than default and json_name *)
| f_option e : optlist_flaw (rest_options f) e -> field_flaw sc f e.

Definition message_ranges (res : list reserved) : list rrange := flat_map (fun r => match rs_kind r with RKRanges l => l | RKNames _ => [] end) res.
Inductive flaw : node -> perr -> Prop :=
| flaw_field sc f e : field_flaw sc f e -> flaw (NField sc f) e
| flaw_value x v : In v (en_values x) -> ~ int32 (ev_number v) -> flaw (NEnum x) (InvalidEnumNumber (i_span (ev_number v)))
| flaw_value_option x v e : In v (en_values x) -> optlist_flaw (ev_options v) e -> flaw (NEnum x) e
| flaw_enum_reserved x r i : In r (message_ranges (en_reserved x)) -> In i (range_numbers r) -> ~ int32 i -> flaw (NEnum x) (InvalidEnumNumber (i_span i))
| flaw_enum_option x e : options_flaw (en_options x) e -> flaw (NEnum x) e
| flaw_oneof_empty o : oo_fields o = [] -> flaw (NOneof o) (EmptyOneof (oo_span o))
| flaw_oneof_option o e : options_flaw (oo_options o) e -> flaw (NOneof o) e
| flaw_service_option s e : options_flaw (sv_options s) e -> flaw (NService s) e
| flaw_method_option s m e : In m (sv_methods s) -> options_flaw (me_options m) e -> flaw (NService s) e
| flaw_extensions exts opts res x r i : In x exts -> In r (ex_ranges x) -> In i (range_numbers r) -> ~ field_number i -> flaw (NBody exts opts res) (InvalidMessageNumber (i_span i))
| flaw_extensions_option exts opts res x r e : In x exts -> In r (ex_ranges x) -> optlist_flaw (ex_options x) e -> flaw (NBody exts opts res) e
| flaw_message_option exts opts res e : options_flaw opts e -> flaw (NBody exts opts res) e
| flaw_reserved exts opts res r i : In r (message_ranges res) -> In i (range_numbers r) -> ~ field_number i -> flaw (NBody exts opts res) (InvalidMessageNumber (i_span i))
| flaw_file_option opts e : options_flaw opts e -> flaw (NFile opts) e.
(** [e] is reported for some rule that the file breaks. *)
Definition breaks (f : file) (e : perr) : Prop := exists x, In x (nodes f) /\ flaw x e.
End Rules.
