(** Model of protox-parse/src/ast/mod.rs. The recursive types are written as
    types parametric in the message body, tied in [body]. *)
From Verif Require Import Base Utf8 Errors Lex.

Inductive syntax : Type := Proto2 | Proto3.                     (* ast/mod.rs:11-16 *)

(* ast/mod.rs:37-42 *)
Record acomments : Type := {
  ac_detached : list bytes; ac_leading : option bytes; ac_trailing : option bytes }.

Record ident : Type := { id_val : bytes; id_span : span }.       (* ast/mod.rs:44-48 *)

(* ast/mod.rs:50-53: FullIdent is a (non-empty) list of parts *)
Definition full_ident := list ident.

(* ast/mod.rs:55-59 *)
Record type_name : Type := { tn_dot : option span; tn_name : full_ident }.

Record aint : Type := { i_neg : bool; i_val : N; i_span : span }.  (* ast/mod.rs:61-66 *)

(* ast/mod.rs:68-72; the f64 is kept as sign and decimal text *)
Record afloat : Type := { fl_neg : bool; fl_text : bytes; fl_span : span }.

Record astring : Type := { st_val : bytes; st_span : span }.      (* ast/mod.rs:74-78 *)

(* ast/mod.rs:80-91 *)
Inductive optval : Type :=
| OVIdent (negative : bool) (i : ident) (sp : span)
| OVInt (i : aint)
| OVFloat (f : afloat)
| OVString (s : astring)
| OVAggregate (text : bytes) (sp : span).

Inductive import_kind : Type := IWeak | IPublic.                  (* ast/mod.rs:102-106 *)

(* ast/mod.rs:93-100 *)
Record import : Type := {
  im_kind : option (import_kind * span); im_value : bytes; im_value_span : span;
  im_comments : acomments; im_span : span }.

(* ast/mod.rs:108-113 *)
Record package : Type := { pk_name : full_ident; pk_comments : acomments; pk_span : span }.

(* ast/mod.rs:122-126 *)
Inductive optname_part : Type :=
| ONIdent (i : ident)
| ONExtension (t : type_name) (sp : span).

(* ast/mod.rs:128-132 *)
Record optbody : Type := { ob_name : list optname_part; ob_value : optval }.

(* ast/mod.rs:115-120 *)
Record option_ : Type := { op_body : optbody; op_comments : acomments; op_span : span }.

(* ast/mod.rs:134-138 *)
Record optlist : Type := { ol_options : list optbody; ol_span : span }.

Inductive flabel : Type := LOptional | LRequired | LRepeated.     (* ast/mod.rs:159-164 *)

(* ast/mod.rs:202-220 *)
Inductive ty : Type :=
| TyDouble | TyFloat | TyInt32 | TyInt64 | TyUint32 | TyUint64 | TySint32 | TySint64
| TyFixed32 | TyFixed64 | TySfixed32 | TySfixed64 | TyBool | TyString | TyBytes
| TyNamed (t : type_name).

(* ast/mod.rs:266-271, 260-264 *)
Inductive range_end : Type := RENone | REInt (i : aint) | REMax (sp : span).
Record rrange : Type := { rr_start : aint; rr_end : range_end }.

(* ast/mod.rs:254-258, 239-244 *)
Inductive reserved_kind : Type := RKRanges (l : list rrange) | RKNames (l : list ident).
Record reserved : Type := { rs_kind : reserved_kind; rs_comments : acomments; rs_span : span }.

(* ast/mod.rs:246-252 *)
Record extensions : Type := {
  ex_ranges : list rrange; ex_options : option optlist; ex_comments : acomments; ex_span : span }.

(* ast/mod.rs:283-290 *)
Record enum_value : Type := {
  ev_name : ident; ev_number : aint; ev_options : option optlist;
  ev_comments : acomments; ev_span : span }.

(* ast/mod.rs:273-281 *)
Record enum : Type := {
  en_name : ident; en_options : list option_; en_values : list enum_value;
  en_reserved : list reserved; en_comments : acomments; en_span : span }.

(* ast/mod.rs:301-311 *)
Record method : Type := {
  me_name : ident; me_input : type_name; me_output : type_name; me_options : list option_;
  me_client : option span; me_server : option span; me_comments : acomments; me_span : span }.

(* ast/mod.rs:292-299 *)
Record service : Type := {
  sv_name : ident; sv_options : list option_; sv_methods : list method;
  sv_comments : acomments; sv_span : span }.

(* ast/mod.rs:183-200 *)
Inductive fkind_ (B : Type) : Type :=
| FKNormal (t : ty) (ty_span : span)
| FKGroup (ty_span : span) (body : B)
| FKMap (ty_span : span) (key : ty) (key_span : span) (val : ty) (val_span : span).
Arguments FKNormal {B}. Arguments FKGroup {B}. Arguments FKMap {B}.

(* ast/mod.rs:148-157 *)
Record field_ (B : Type) : Type := {
  fd_label : option (flabel * span); fd_name : ident; fd_kind : fkind_ B; fd_number : aint;
  fd_options : option optlist; fd_comments : acomments; fd_span : span }.
Arguments fd_label {B}. Arguments fd_name {B}. Arguments fd_kind {B}. Arguments fd_number {B}.
Arguments fd_options {B}. Arguments fd_comments {B}. Arguments fd_span {B}.
Arguments Build_field_ {B}.

(* ast/mod.rs:140-146 *)
Record message_ (B : Type) : Type := {
  ms_name : ident; ms_body : B; ms_comments : acomments; ms_span : span }.
Arguments ms_name {B}. Arguments ms_body {B}. Arguments ms_comments {B}. Arguments ms_span {B}.
Arguments Build_message_ {B}.

(* ast/mod.rs:231-237 *)
Record extend_ (B : Type) : Type := {
  et_extendee : type_name; et_fields : list (field_ B); et_comments : acomments; et_span : span }.
Arguments et_extendee {B}. Arguments et_fields {B}. Arguments et_comments {B}. Arguments et_span {B}.
Arguments Build_extend_ {B}.

(* ast/mod.rs:222-229 *)
Record oneof_ (B : Type) : Type := {
  oo_name : ident; oo_options : list option_; oo_fields : list (field_ B);
  oo_comments : acomments; oo_span : span }.
Arguments oo_name {B}. Arguments oo_options {B}. Arguments oo_fields {B}.
Arguments oo_comments {B}. Arguments oo_span {B}. Arguments Build_oneof_ {B}.

(* ast/mod.rs:174-181 *)
Inductive mitem_ (B : Type) : Type :=
| MIField (f : field_ B)
| MIEnum (e : enum)
| MIMessage (m : message_ B)
| MIExtend (e : extend_ B)
| MIOneof (o : oneof_ B).
Arguments MIField {B}. Arguments MIEnum {B}. Arguments MIMessage {B}.
Arguments MIExtend {B}. Arguments MIOneof {B}.

(* ast/mod.rs:166-172 *)
Inductive body : Type :=
| Body (items : list (mitem_ body)) (exts : list extensions)
       (opts : list option_) (res : list reserved).
Definition bd_items (x : body) := match x with Body i _ _ _ => i end.
Definition bd_extensions (x : body) := match x with Body _ e _ _ => e end.
Definition bd_options (x : body) := match x with Body _ _ o _ => o end.
Definition bd_reserved (x : body) := match x with Body _ _ _ r => r end.

Notation fkind := (fkind_ body).
Notation field := (field_ body).
Notation message := (message_ body).
Notation extend := (extend_ body).
Notation oneof := (oneof_ body).
Notation mitem := (mitem_ body).

(* FieldScope, generate/mod.rs:56-60: where a field is declared *)
Inductive scope : Type := ScMessage | ScOneof | ScExtend.

(* ast/mod.rs:29-35 *)
Inductive fitem : Type :=
| FIEnum (e : enum)
| FIMessage (m : message)
| FIExtend (e : extend)
| FIService (s : service).

(* ast/mod.rs:18-27 *)
Record file : Type := {
  fi_span : span; fi_syntax : syntax; fi_syntax_span : option (span * acomments);
  fi_package : option package; fi_imports : list import; fi_options : list option_;
  fi_items : list fitem }.

(** ** Methods *)

Definition i32_max : N := 2147483647.
Definition i64_max : N := 9223372036854775807.

(* Int::as_i32, ast/mod.rs:314-324 *)
Definition as_i32 (i : aint) : option Z :=
  if i_neg i then
    if i_val i =? i32_max + 1 then Some (- Z.of_N (i32_max + 1))%Z
    else if i_val i <=? i32_max then Some (- Z.of_N (i_val i))%Z else None
  else if i_val i <=? i32_max then Some (Z.of_N (i_val i)) else None.
(* Int::as_i64, ast/mod.rs:326-336 *)
Definition as_i64 (i : aint) : option Z :=
  if i_neg i then
    if i_val i =? i64_max + 1 then Some (- Z.of_N (i64_max + 1))%Z
    else if i_val i <=? i64_max then Some (- Z.of_N (i_val i))%Z else None
  else if i_val i <=? i64_max then Some (Z.of_N (i_val i)) else None.
(* Int::as_u32, ast/mod.rs:338-344 *)
Definition as_u32 (i : aint) : option N :=
  if i_neg i then None else if i_val i <=? 4294967295 then Some (i_val i) else None.
(* Int::as_u64, ast/mod.rs:346-352 *)
Definition as_u64 (i : aint) : option N := if i_neg i then None else Some (i_val i).

(* FullIdent::span, ast/mod.rs:376-380; [None] is the unwrap on an empty list *)
Definition full_ident_span (f : full_ident) : option span :=
  match f with
  | [] => None
  | x :: _ => Some (s_start (id_span x), s_end (id_span (last f x)))
  end.
(* TypeName::span, ast/mod.rs:382-390 *)
Definition type_name_span (t : type_name) : option span :=
  match full_ident_span (tn_name t) with
  | None => None
  | Some sp => Some (match tn_dot t with Some d => join_span d sp | None => sp end)
  end.
(* OptionNamePart::span, ast/mod.rs:422-429 *)
Definition optname_part_span (p : optname_part) : span :=
  match p with ONIdent i => id_span i | ONExtension _ sp => sp end.
(* OptionBody::has_name, ast/mod.rs:432-434 *)
Definition has_name (o : optbody) (n : bytes) : bool :=
  match ob_name o with [ONIdent i] => bytes_eqb (id_val i) n | _ => false end.
(* OptionBody::name_span, ast/mod.rs:436-442 *)
Definition ob_name_span (o : optbody) : option span :=
  match ob_name o with
  | [] => None
  | x :: _ => Some (join_span (optname_part_span x) (optname_part_span (last (ob_name o) x)))
  end.
(* OptionValue::span, ast/mod.rs:450-458 *)
Definition optval_span (v : optval) : span :=
  match v with
  | OVIdent _ _ sp => sp | OVInt i => i_span i | OVFloat f => fl_span f
  | OVString s => st_span s | OVAggregate _ sp => sp
  end.
(* OptionBody::span, ast/mod.rs:444-446 *)
Definition ob_span (o : optbody) : option span :=
  match ob_name_span o with Some sp => Some (join_span sp (optval_span (ob_value o))) | None => None end.
(* ReservedRange::end_span and span, ast/mod.rs:515-531 *)
Definition rr_end_span (r : rrange) : span :=
  match rr_end r with RENone => i_span (rr_start r) | REInt e => i_span e | REMax sp => sp end.
Definition rr_span (r : rrange) : span := join_span (i_span (rr_start r)) (rr_end_span r).

(* Display for FullIdent, ast/mod.rs:561-569; [None] is parts[0] on an empty list *)
Definition full_ident_display (f : full_ident) : option bytes :=
  match f with
  | [] => None
  | x :: r => Some (id_val x ++ flat_map (fun i => b "." ++ id_val i) r)
  end.
(* Display for TypeName, ast/mod.rs:571-578 *)
Definition type_name_display (t : type_name) : option bytes :=
  match full_ident_display (tn_name t) with
  | None => None
  | Some d => Some ((if tn_dot t then b "." else []) ++ d)
  end.
(* Display for Int, ast/mod.rs:600-608 *)
Definition aint_display (i : aint) : bytes :=
  (if i_neg i then b "-" else []) ++ dec (i_val i).
(* Display for Float, ast/mod.rs:610-618 *)
Definition afloat_display (k : cfg) (f : afloat) : bytes := f64_display k (fl_neg f) (fl_text f).
(* Display for String, ast/mod.rs:630-649 *)
Definition escape_byte (c : N) : bytes :=
  if c =? 9 then b "\t"
  else if c =? 13 then b "\r"
  else if c =? 10 then b "\n"
  else if c =? 92 then b "\\"
  else if c =? 39 then b "\'"
  else if c =? 34 then [92; 34]
  else if in_range 32 126 c then [c]
  else 92 :: oct3 c.
Definition astring_display (s : astring) : bytes := flat_map escape_byte (st_val s).
(* Display for OptionValue, ast/mod.rs:580-598 *)
Definition optval_display (k : cfg) (v : optval) : bytes :=
  match v with
  | OVIdent neg i _ => (if neg then b "-" else []) ++ id_val i
  | OVInt i => aint_display i
  | OVFloat f => afloat_display k f
  | OVString s => astring_display s
  | OVAggregate t _ => t
  end.
(* OptionValue::to_token_string, ast/mod.rs:460-465 *)
Definition optval_token_string (k : cfg) (v : optval) : bytes :=
  match v with
  | OVString s => [34] ++ astring_display s ++ [34]
  | _ => optval_display k v
  end.
(* OptionValue::as_bool, ast/mod.rs:498-512 *)
Definition as_bool (v : optval) : option bool :=
  match v with
  | OVIdent false i _ =>
    if bytes_eqb (id_val i) (b "false") then Some false
    else if bytes_eqb (id_val i) (b "true") then Some true else None
  | _ => None
  end.

(** [Statement], parse/mod.rs:42-51, 1328-1341. *)
Inductive statement : Type :=
| StEmpty (sp : span)
| StPackage (x : package)
| StImport (x : import)
| StOption (x : option_)
| StMessage (x : message)
| StEnum (x : enum)
| StService (x : service)
| StExtend (x : extend).
