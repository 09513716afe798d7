(** Specification of source locations: which element of a descriptor a path
    leads to (the comment of SourceCodeInfo.Location.path in
    google/protobuf/descriptor.proto), and how a piece of the source is written
    as a list of numbers. Refers to the descriptors only (and to the lines and
    columns of PropsLines.v). *)
From Verif Require Import Base Descriptor Lines PropsLines.

(** What a path may lead to. [EName] is the name of a declaration; [EText] any
    other string, [EVal] any other scalar; [EList] a repeated field. *)
Inductive elem : Type :=
| EFile (d : file_desc) | EMsg (m : msg_desc) | EField (f : field_desc) | EOneof (o : oneof_desc)
| EExtRange (x : ext_range) | ERange (r : reserved_range) | EEnum (e : enum_desc) | EValue (v : enum_value_desc)
| EService (s : service_desc) | EMethod (m : method_desc)
| EOpts (map_entry : option bool) (l : list uopt) | EOpt (u : uopt)
| EName (s : bytes) | EText (s : bytes) | EVal
| EList (l : list elem).

(** An optional member exists when it is set. *)
Definition if_name (o : option bytes) : option elem := option_map EName o.
Definition if_text (o : option bytes) : option elem := option_map EText o.
Definition if_val {A} (o : option A) : option elem := option_map (fun _ => EVal) o.
Definition if_opts (o : option (list uopt)) : option elem := option_map (EOpts None) o.
Definition many {A} (f : A -> elem) (l : list A) : option elem := Some (EList (map f l)).

(** The member with the given field number. *)
Definition member (e : elem) (tag : Z) : option elem :=
  match e with
  | EFile d =>                                         (* FileDescriptorProto *)
    match tag with
    | 1 => if_text (d_name d) | 2 => if_text (d_package d) | 3 => many EText (d_dependency d)
    | 4 => many EMsg (d_message d) | 5 => many EEnum (d_enum d) | 6 => many EService (d_service d)
    | 7 => many EField (d_extension d) | 8 => if_opts (d_options d)
    | 10 => many (fun _ => EVal) (d_public d) | 11 => many (fun _ => EVal) (d_weak d) | 12 => if_text (d_syntax d)
    | _ => None
    end%Z
  | EMsg m =>                                          (* DescriptorProto *)
    match tag with
    | 1 => if_name (m_name m) | 2 => many EField (m_field m) | 3 => many EMsg (m_nested m)
    | 4 => many EEnum (m_enum m) | 5 => many EExtRange (m_ext_range m) | 6 => many EField (m_extension m)
    | 7 => option_map (fun o => EOpts (mo_map_entry o) (mo_uninterpreted o)) (m_options m)
    | 8 => many EOneof (m_oneof m) | 9 => many ERange (m_reserved_range m) | 10 => many EText (m_reserved_name m)
    | _ => None
    end%Z
  | EField f =>                                        (* FieldDescriptorProto *)
    match tag with
    | 1 => if_name (f_name f) | 2 => if_text (f_extendee f) | 3 => if_val (f_number f) | 4 => if_val (f_label f)
    | 5 => if_val (f_type f) | 6 => if_text (f_type_name f) | 7 => if_text (f_default f) | 8 => if_opts (f_options f)
    | 9 => if_val (f_oneof_index f) | 10 => if_text (f_json_name f) | 17 => if_val (f_proto3_optional f)
    | _ => None
    end%Z
  | EOneof o =>                                        (* OneofDescriptorProto *)
    match tag with 1 => if_name (o_name o) | 2 => if_opts (o_options o) | _ => None end%Z
  | EExtRange x =>                                     (* DescriptorProto.ExtensionRange *)
    match tag with 1 => if_val (x_start x) | 2 => if_val (x_end x) | 3 => if_opts (x_options x) | _ => None end%Z
  | ERange x =>                                        (* ReservedRange, EnumReservedRange *)
    match tag with 1 => if_val (r_start x) | 2 => if_val (r_end x) | _ => None end%Z
  | EEnum x =>                                         (* EnumDescriptorProto *)
    match tag with
    | 1 => if_name (e_name x) | 2 => many EValue (e_value x) | 3 => if_opts (e_options x)
    | 4 => many ERange (e_reserved_range x) | 5 => many EText (e_reserved_name x)
    | _ => None
    end%Z
  | EValue v =>                                        (* EnumValueDescriptorProto *)
    match tag with 1 => if_name (v_name v) | 2 => if_val (v_number v) | 3 => if_opts (v_options v) | _ => None end%Z
  | EService s =>                                      (* ServiceDescriptorProto *)
    match tag with 1 => if_name (s_name s) | 2 => many EMethod (s_method s) | 3 => if_opts (s_options s) | _ => None end%Z
  | EMethod m =>                                       (* MethodDescriptorProto *)
    match tag with
    | 1 => if_name (me_d_name m) | 2 => if_text (me_d_input m) | 3 => if_text (me_d_output m)
    | 4 => if_opts (me_d_options m) | 5 => if_val (me_d_client m) | 6 => if_val (me_d_server m)
    | _ => None
    end%Z
  | EOpts entry l =>                                   (* FileOptions, MessageOptions, ... *)
    match tag with 7 => if_val entry | 999 => many EOpt l | _ => None end%Z
  | EList l => if (tag <? 0)%Z then None else nth_error l (Z.to_nat tag)   (* an index *)
  | EOpt _ | EName _ | EText _ | EVal => None
  end.

(** The element a path leads to. *)
Fixpoint follow (e : elem) (path : list Z) : option elem :=
  match path with
  | [] => Some e
  | x :: r => match member e x with Some e' => follow e' r | None => None end
  end.

(** The source between two offsets. *)
Definition between (src : bytes) (s e : N) : bytes := firstn (N.to_nat (e - s)) (skipn (N.to_nat s) src).

(** How the text between two offsets is written as numbers. *)
Definition encode (src : bytes) (s e : N) : list Z :=
  if (line_of src s =? line_of src e)%Z
  then [line_of src s; column_of src s; column_of src e]
  else [line_of src s; column_of src s; line_of src e; column_of src e].
