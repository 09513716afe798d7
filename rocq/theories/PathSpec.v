(** The paths of source locations that several locations may share, in terms of
    the field numbers of descriptor.proto. *)
From Verif Require Import Base.

Inductive kind := KMessage | KEnum | KValue | KField | KOneof | KService | KMethod.
(** A path leads to an element of this kind. *)
Inductive element : kind -> list Z -> Prop :=
| el_message i : element KMessage [4; i]%Z                                        (* FileDescriptorProto.message_type *)
| el_nested p i : element KMessage p -> element KMessage (p ++ [3; i]%Z)          (* DescriptorProto.nested_type *)
| el_enum i : element KEnum [5; i]%Z                                              (* FileDescriptorProto.enum_type *)
| el_nested_enum p i : element KMessage p -> element KEnum (p ++ [4; i]%Z)        (* DescriptorProto.enum_type *)
| el_value p i : element KEnum p -> element KValue (p ++ [2; i]%Z)               (* EnumDescriptorProto.value *)
| el_field p i : element KMessage p -> element KField (p ++ [2; i]%Z)             (* DescriptorProto.field *)
| el_nested_extension p i : element KMessage p -> element KField (p ++ [6; i]%Z)  (* DescriptorProto.extension *)
| el_extension i : element KField [7; i]%Z                                        (* FileDescriptorProto.extension *)
| el_oneof p i : element KMessage p -> element KOneof (p ++ [8; i]%Z)             (* DescriptorProto.oneof_decl *)
| el_service i : element KService [6; i]%Z                                        (* FileDescriptorProto.service *)
| el_method p i : element KService p -> element KMethod (p ++ [2; i]%Z).          (* ServiceDescriptorProto.method *)
(** Paths of members that several declarations contribute to, and json_name (whose option and value are both located). *)
Inductive shared : list Z -> Prop :=
| sh_file_options : shared [8]%Z
| sh_extend : shared [7]%Z
| sh_message p t : element KMessage p -> In t [5; 6; 7; 9; 10]%Z -> shared (p ++ [t])   (* extension_range, extension, options, reserved_range, reserved_name *)
| sh_enum p t : element KEnum p -> In t [3; 4; 5]%Z -> shared (p ++ [t])                (* options, reserved_range, reserved_name *)
| sh_oneof p : element KOneof p -> shared (p ++ [2]%Z)                                  (* options *)
| sh_service p : element KService p -> shared (p ++ [3]%Z)                              (* options *)
| sh_method p : element KMethod p -> shared (p ++ [4]%Z)                                (* options *)
| sh_json p : element KField p -> shared (p ++ [10]%Z).                                 (* json_name *)
