(** The prost_types messages that protox-parse produces (google/protobuf/descriptor.proto),
    restricted to the members the code ever sets. An options message
    (FileOptions, FieldOptions, ...) is its list of uninterpreted options, except
    for [MessageOptions], where [map_entry] is set too. *)
From Verif Require Import Base.

(* field_descriptor_proto::Type *)
Inductive ftype : Type :=
| FTDouble | FTFloat | FTInt64 | FTUint64 | FTInt32 | FTFixed64 | FTFixed32 | FTBool | FTString
| FTGroup | FTMessage | FTBytes | FTUint32 | FTEnum | FTSfixed32 | FTSfixed64 | FTSint32 | FTSint64.

(* field_descriptor_proto::Label *)
Inductive label : Type := LabOptional | LabRequired | LabRepeated.

(* UninterpretedOption; a double is its sign and decimal text *)
Record uopt : Type := {
  uo_name : list (bytes * bool);
  uo_identifier : option bytes;
  uo_positive : option N;
  uo_negative : option Z;
  uo_double : option (bool * bytes);
  uo_string : option bytes;
  uo_aggregate : option bytes }.
Definition uopt_default : uopt :=
  {| uo_name := []; uo_identifier := None; uo_positive := None; uo_negative := None;
     uo_double := None; uo_string := None; uo_aggregate := None |}.

Record field_desc : Type := {
  f_name : option bytes;
  f_number : option Z;
  f_label : option label;
  f_type : option ftype;
  f_type_name : option bytes;
  f_extendee : option bytes;
  f_default : option bytes;
  f_oneof_index : option Z;
  f_json_name : option bytes;
  f_options : option (list uopt);
  f_proto3_optional : option bool }.

(** [f.oneof_index = i], [f.extendee = e] *)
Definition set_oneof_index (i : option Z) (f : field_desc) : field_desc :=
  {| f_name := f_name f; f_number := f_number f; f_label := f_label f; f_type := f_type f;
     f_type_name := f_type_name f; f_extendee := f_extendee f; f_default := f_default f;
     f_oneof_index := i; f_json_name := f_json_name f; f_options := f_options f;
     f_proto3_optional := f_proto3_optional f |}.
Definition set_extendee (e : option bytes) (f : field_desc) : field_desc :=
  {| f_name := f_name f; f_number := f_number f; f_label := f_label f; f_type := f_type f;
     f_type_name := f_type_name f; f_extendee := e; f_default := f_default f;
     f_oneof_index := f_oneof_index f; f_json_name := f_json_name f; f_options := f_options f;
     f_proto3_optional := f_proto3_optional f |}.

Record oneof_desc : Type := { o_name : option bytes; o_options : option (list uopt) }.
Definition oneof_default : oneof_desc := {| o_name := None; o_options := None |}.

Record reserved_range : Type := { r_start : option Z; r_end : option Z }.

Record ext_range : Type := { x_start : option Z; x_end : option Z; x_options : option (list uopt) }.

Record enum_value_desc : Type := {
  v_name : option bytes; v_number : option Z; v_options : option (list uopt) }.

Record enum_desc : Type := {
  e_name : option bytes;
  e_value : list enum_value_desc;
  e_options : option (list uopt);
  e_reserved_range : list reserved_range;
  e_reserved_name : list bytes }.

(* MessageOptions *)
Record msg_options : Type := { mo_map_entry : option bool; mo_uninterpreted : list uopt }.

Inductive msg_desc : Type := MsgDesc
  (name : option bytes)
  (field : list field_desc)
  (extension : list field_desc)
  (nested : list msg_desc)
  (enums : list enum_desc)
  (ext_ranges : list ext_range)
  (oneofs : list oneof_desc)
  (options : option msg_options)
  (reserved_ranges : list reserved_range)
  (reserved_names : list bytes).
Definition m_name d := match d with MsgDesc x _ _ _ _ _ _ _ _ _ => x end.
Definition m_field d := match d with MsgDesc _ x _ _ _ _ _ _ _ _ => x end.
Definition m_extension d := match d with MsgDesc _ _ x _ _ _ _ _ _ _ => x end.
Definition m_nested d := match d with MsgDesc _ _ _ x _ _ _ _ _ _ => x end.
Definition m_enum d := match d with MsgDesc _ _ _ _ x _ _ _ _ _ => x end.
Definition m_ext_range d := match d with MsgDesc _ _ _ _ _ x _ _ _ _ => x end.
Definition m_oneof d := match d with MsgDesc _ _ _ _ _ _ x _ _ _ => x end.
Definition m_options d := match d with MsgDesc _ _ _ _ _ _ _ x _ _ => x end.
Definition m_reserved_range d := match d with MsgDesc _ _ _ _ _ _ _ _ x _ => x end.
Definition m_reserved_name d := match d with MsgDesc _ _ _ _ _ _ _ _ _ x => x end.
(** [DescriptorProto { name, ..d }] *)
Definition with_name (n : option bytes) (d : msg_desc) : msg_desc :=
  match d with MsgDesc _ f e ns en xr oo op rr rn => MsgDesc n f e ns en xr oo op rr rn end.

Record method_desc : Type := {
  me_d_name : option bytes;
  me_d_input : option bytes;
  me_d_output : option bytes;
  me_d_options : option (list uopt);
  me_d_client : option bool;
  me_d_server : option bool }.

Record service_desc : Type := {
  s_name : option bytes; s_method : list method_desc; s_options : option (list uopt) }.

(* source_code_info::Location *)
Record location : Type := {
  loc_path : list Z;
  loc_span : list Z;
  loc_leading : option bytes;
  loc_trailing : option bytes;
  loc_detached : list bytes }.

Record file_desc : Type := {
  d_name : option bytes;
  d_package : option bytes;
  d_dependency : list bytes;
  d_public : list Z;
  d_weak : list Z;
  d_message : list msg_desc;
  d_enum : list enum_desc;
  d_service : list service_desc;
  d_extension : list field_desc;
  d_options : option (list uopt);
  d_source_info : option (list location);
  d_syntax : option bytes }.
(** [FileDescriptorProto { source_code_info: l, ..d }] *)
Definition with_source_info (d : file_desc) (l : option (list location)) : file_desc :=
  {| d_name := d_name d; d_package := d_package d; d_dependency := d_dependency d;
     d_public := d_public d; d_weak := d_weak d; d_message := d_message d; d_enum := d_enum d;
     d_service := d_service d; d_extension := d_extension d; d_options := d_options d;
     d_source_info := l; d_syntax := d_syntax d |}.
