(** Vocabulary for the properties of descriptors: the elements of a descriptor
    and the declarations of a file, at any nesting depth. *)
From Verif Require Import Base Utf8 Errors Lex Ast Descriptor.

(** ** Elements of a descriptor *)
Inductive nested_in : msg_desc -> msg_desc -> Prop :=
| ni_refl m : nested_in m m
| ni_step m c p : In c (m_nested p) -> nested_in m c -> nested_in m p.
Definition message_of (d : file_desc) (m : msg_desc) : Prop := exists top, In top (d_message d) /\ nested_in m top.
Definition field_of (d : file_desc) (x : field_desc) : Prop :=
  In x (d_extension d) \/ exists m, message_of d m /\ In x (m_field m ++ m_extension m).
Definition enum_of (d : file_desc) (e : enum_desc) : Prop :=
  In e (d_enum d) \/ exists m, message_of d m /\ In e (m_enum m).

(** ** Declarations of a file *)

(** The message bodies directly inside a field (a group), an item, a body. *)
Definition field_sub (fd : field) : list body := match fd_kind fd with FKGroup _ bd => [bd] | _ => [] end.
Definition item_sub (it : mitem) : list body :=
  match it with
  | MIField fd => field_sub fd
  | MIMessage m => [ms_body m]
  | MIExtend e => flat_map field_sub (et_fields e)
  | MIOneof o => flat_map field_sub (oo_fields o)
  | MIEnum _ => []
  end.
Definition fitem_sub (it : fitem) : list body :=
  match it with FIMessage m => [ms_body m] | FIExtend e => flat_map field_sub (et_fields e) | _ => [] end.
Inductive body_in : body -> body -> Prop :=
| bi_refl bd : body_in bd bd
| bi_step bd c p : In c (flat_map item_sub (bd_items p)) -> body_in bd c -> body_in bd p.
Definition body_of (f : file) (bd : body) : Prop := exists it c, In it (fi_items f) /\ In c (fitem_sub it) /\ body_in bd c.

(** Fields declared directly in a message, in a oneof, in an extend block. *)
Inductive decl_of (f : file) : scope -> field -> Prop :=
| do_field bd fd : body_of f bd -> In (MIField fd) (bd_items bd) -> decl_of f ScMessage fd
| do_oneof bd o fd : body_of f bd -> In (MIOneof o) (bd_items bd) -> In fd (oo_fields o) -> decl_of f ScOneof fd
| do_extend bd e fd : body_of f bd -> In (MIExtend e) (bd_items bd) -> In fd (et_fields e) -> decl_of f ScExtend fd
| do_fextend e fd : In (FIExtend e) (fi_items f) -> In fd (et_fields e) -> decl_of f ScExtend fd.
Inductive enum_decl (f : file) : enum -> Prop :=
| ed_top e : In (FIEnum e) (fi_items f) -> enum_decl f e
| ed_nested bd e : body_of f bd -> In (MIEnum e) (bd_items bd) -> enum_decl f e.
