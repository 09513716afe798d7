(** Model of protox-parse/src/generate/mod.rs, case.rs and tag.rs, function by
    function. *)
From Verif Require Import Base Utf8 Errors Lex Ast Comments Lines Descriptor.

(** ** The context, generate/mod.rs:48-54. [path] is mutable state; [errors]
    and [locations] are only ever pushed to while generating, so they are the
    outputs of a writer: [m path = Done (value, path', new errors, new locations)]. *)
Definition gres (A : Type) : Type := (A * list Z * list perr * list location)%type.
Definition G (A : Type) : Type := list Z -> out (gres A).
Definition gret {A} (a : A) : G A := fun p => Done (a, p, [], []).
Definition gbind {A B} (m : G A) (f : A -> G B) : G B :=
  fun p => match m p with
           | Done (a, p1, e1, l1) =>
             match f a p1 with
             | Done (v, p2, e2, l2) => Done (v, p2, e1 ++ e2, l1 ++ l2)
             | Panic => Panic
             | NoFuel => NoFuel
             end
           | Panic => Panic
           | NoFuel => NoFuel
           end.
Notation "x <-- m ;; f" := (gbind m (fun x => f)) (at level 60, m at next level, right associativity).
Notation "' p <-- m ;; f" := (gbind m (fun x => match x with p => f end))
  (at level 60, p pattern, m at next level, right associativity).
Notation "m ;;;; f" := (gbind m (fun _ => f)) (at level 60, right associativity).

(** A result that may be a panic. *)
Definition glift {A} (o : out A) : G A :=
  fun p => match o with Done a => Done (a, p, [], []) | Panic => Panic | NoFuel => NoFuel end.
(** [Option::unwrap] and indexing. *)
Definition gunwrap {A} (o : option A) : G A := glift (match o with Some a => Done a | None => Panic end).
Definition gpanic {A} : G A := fun _ => Panic.
(** [self.errors.push(e)] *)
Definition gerr (e : perr) : G unit := fun p => Done (tt, p, [e], []).
(** [self.path.extend(items)] *)
Definition gpush (items : list Z) : G unit := fun p => Done (tt, p ++ items, [], []).
(** [self.path.pop()] (no panic on an empty vector) *)
Definition gpop1 : G unit := fun p => Done (tt, removelast p, [], []).
(** [pop_path], generate/mod.rs:1262-1264; the subtraction must not underflow. *)
Definition gpop (n : nat) : G unit :=
  fun p => if Nat.ltb (length p) n then Panic
           else Done (tt, firstn (length p - n) p, [], []).
Definition gindex (n : N) : G Z := glift (index_to_i32 n).

(** [for x in l { s = f(s, x) }] *)
Definition gfold {S A} (f : S -> A -> G S) : list A -> S -> G S :=
  fix go (l : list A) (s : S) : G S :=
    match l with [] => gret s | x :: r => gbind (f s x) (fun s' => go r s') end.

(** ** tag.rs *)
Definition tag_uninterpreted : Z := 999.
Definition tag_file_package : Z := 2.
Definition tag_file_dependency : Z := 3.
Definition tag_file_public : Z := 10.
Definition tag_file_weak : Z := 11.
Definition tag_file_message : Z := 4.
Definition tag_file_enum : Z := 5.
Definition tag_file_service : Z := 6.
Definition tag_file_extension : Z := 7.
Definition tag_file_options : Z := 8.
Definition tag_file_syntax : Z := 12.
Definition tag_msg_name : Z := 1.
Definition tag_msg_field : Z := 2.
Definition tag_msg_extension : Z := 6.
Definition tag_msg_nested : Z := 3.
Definition tag_msg_enum : Z := 4.
Definition tag_msg_ext_range : Z := 5.
Definition tag_msg_options : Z := 7.
Definition tag_msg_oneof : Z := 8.
Definition tag_msg_reserved_range : Z := 9.
Definition tag_msg_reserved_name : Z := 10.
Definition tag_range_start : Z := 1.
Definition tag_range_end : Z := 2.
Definition tag_ext_range_options : Z := 3.
Definition tag_field_name : Z := 1.
Definition tag_field_extendee : Z := 2.
Definition tag_field_number : Z := 3.
Definition tag_field_label : Z := 4.
Definition tag_field_type : Z := 5.
Definition tag_field_type_name : Z := 6.
Definition tag_field_default : Z := 7.
Definition tag_field_json_name : Z := 10.
Definition tag_field_options : Z := 8.
Definition tag_oneof_name : Z := 1.
Definition tag_oneof_options : Z := 2.
Definition tag_enum_name : Z := 1.
Definition tag_enum_value : Z := 2.
Definition tag_enum_options : Z := 3.
Definition tag_enum_reserved_range : Z := 4.
Definition tag_enum_reserved_name : Z := 5.
Definition tag_value_name : Z := 1.
Definition tag_value_number : Z := 2.
Definition tag_value_options : Z := 3.
Definition tag_service_name : Z := 1.
Definition tag_service_method : Z := 2.
Definition tag_service_options : Z := 3.
Definition tag_method_name : Z := 1.
Definition tag_method_input : Z := 2.
Definition tag_method_output : Z := 3.
Definition tag_method_options : Z := 4.
Definition tag_method_client : Z := 5.
Definition tag_method_server : Z := 6.

(** ** Small functions *)

(** [u8::to_ascii_lowercase], [u8::to_ascii_uppercase] *)
Definition to_lower (c : N) : N := if is_upper c then c + 32 else c.
Definition to_upper (c : N) : N := if is_lower c then c - 32 else c.

(** [to_pascal_case], case.rs:17-33. It works on chars; ASCII case mapping and
    the underscore test are the same on bytes. *)
Fixpoint pascal_loop (up : bool) (l : bytes) : bytes :=
  match l with
  | [] => []
  | c :: r => if c =? 95 then pascal_loop true r
              else if up then to_upper c :: pascal_loop false r
              else c :: pascal_loop false r
  end.
Definition to_pascal_case (l : bytes) : bytes := pascal_loop true l.

(** [Ty::proto_ty], ast/mod.rs:393-412 *)
Definition proto_ty (t : ty) : option ftype :=
  match t with
  | TyDouble => Some FTDouble | TyFloat => Some FTFloat
  | TyInt32 => Some FTInt32 | TyInt64 => Some FTInt64
  | TyUint32 => Some FTUint32 | TyUint64 => Some FTUint64
  | TySint32 => Some FTSint32 | TySint64 => Some FTSint64
  | TyFixed32 => Some FTFixed32 | TyFixed64 => Some FTFixed64
  | TySfixed32 => Some FTSfixed32 | TySfixed64 => Some FTSfixed64
  | TyBool => Some FTBool | TyString => Some FTString | TyBytes => Some FTBytes
  | TyNamed _ => None
  end.
(** The key types allowed at generate/mod.rs:499-513. *)
Definition valid_key_type (t : ty) : bool :=
  match t with
  | TyInt32 | TyInt64 | TyUint32 | TyUint64 | TySint32 | TySint64 | TyFixed32 | TyFixed64
  | TySfixed32 | TySfixed64 | TyBool | TyString => true
  | TyDouble | TyFloat | TyBytes | TyNamed _ => false
  end.

(** [take_option], generate/mod.rs:1267-1275: the first option with that simple
    name, and the list without it. *)
Fixpoint take_first (n : bytes) (l : list optbody) : option (optbody * list optbody) :=
  match l with
  | [] => None
  | o :: r => if has_name o n then Some (o, r)
              else match take_first n r with
                   | Some (x, r') => Some (x, o :: r')
                   | None => None
                   end
  end.
Definition take_option (n : bytes) (ol : option optlist) : option optbody * option optlist :=
  match ol with
  | Some l => match take_first n (ol_options l) with
              | Some (o, r) => (Some o, Some {| ol_options := r; ol_span := ol_span l |})
              | None => (None, ol)
              end
  | None => (None, None)
  end.


Definition max_field_number : Z := 536870911.                   (* lib.rs:23 *)
Definition i32_maxZ : Z := 2147483647.

(** [as_f64] followed by [to_string] and [make_ascii_lowercase],
    ast/mod.rs:467-496 and generate/mod.rs:632-635. *)
Definition f64_default (k : cfg) (v : optval) : option bytes :=
  match v with
  | OVIdent neg i _ =>
    if bytes_eqb (id_val i) (b "nan") then Some (b "nan")
    else if bytes_eqb (id_val i) (b "inf") then Some (if neg then b "-inf" else b "inf")
    else None
  | OVInt i => Some (map to_lower (f64_to_string k (i_neg i) (dec (i_val i))))
  | OVFloat f => Some (map to_lower (f64_to_string k (fl_neg f) (fl_text f)))
  | OVString _ | OVAggregate _ _ => None
  end.

Section Generate.
Variable k : cfg.
Variable lines : list Z.                                        (* ctx.lines *)
Variable syn : syntax.                                          (* ctx.syntax *)

Definition is_proto2 : bool := match syn with Proto2 => true | Proto3 => false end.

(** ** Locations: generate/mod.rs:1230-1260 *)
Definition no_comments : acomments := {| ac_detached := []; ac_leading := None; ac_trailing := None |}.
Definition add_comments (sp : span) (c : acomments) : G unit :=
  r <-- glift (resolve_span lines sp) ;;
  fun p => Done (tt, p, [], [{| loc_path := p; loc_span := r; loc_leading := ac_leading c;
                                loc_trailing := ac_trailing c; loc_detached := ac_detached c |}]).
Definition add_span (sp : span) : G unit := add_comments sp no_comments.
Definition add_span_for (items : list Z) (sp : span) : G unit :=
  gpush items ;;;; add_span sp ;;;; gpop (length items).
Definition add_comments_for (items : list Z) (sp : span) (c : acomments) : G unit :=
  gpush items ;;;; add_comments sp c ;;;; gpop (length items).

(** ** Options: generate/mod.rs:1105-1228 *)

(** The name parts, generate/mod.rs:1151-1165. *)
Fixpoint option_name_parts (l : list optname_part) : G (list (bytes * bool)) :=
  match l with
  | [] => gret []
  | ONIdent i :: r => rest <-- option_name_parts r ;; gret ((id_val i, false) :: rest)
  | ONExtension t _ :: r =>
    d <-- gunwrap (type_name_display t) ;;
    rest <-- option_name_parts r ;; gret ((d, true) :: rest)
  end.

Definition i64_min_text := b "-9223372036854775808".
Definition i64_max_text := b "9223372036854775807".
Definition u64_max_text := b "18446744073709551615".

(** [generate_option], generate/mod.rs:1150-1228. *)
Definition generate_option (o : optbody) : G uopt :=
  name <-- option_name_parts (ob_name o) ;;
  let mk ident pos neg dbl str agg :=
    {| uo_name := name; uo_identifier := ident; uo_positive := pos; uo_negative := neg;
       uo_double := dbl; uo_string := str; uo_aggregate := agg |} in
  match ob_value o with
  | OVIdent false i _ => gret (mk (Some (id_val i)) None None None None None)
  | OVIdent true _ sp => gerr (NegativeIdentOutsideDefault sp) ;;;; gret uopt_default
  | OVInt i =>
    if i_neg i then
      (match as_i64 i with
       | None => gerr (IntegerValueOutOfRange (b "a 64-bit integer") (aint_display i)
                                              i64_min_text u64_max_text (i_span i))
       | Some _ => gret tt
       end) ;;;;
      gret (mk None None (as_i64 i) None None None)
    else gret (mk None (Some (i_val i)) None None None None)
  | OVFloat f => gret (mk None None None (Some (fl_neg f, fl_text f)) None None)
  | OVString s => gret (mk None None None None (Some (st_val s)) None)
  | OVAggregate t _ => gret (mk None None None None None (Some t))
  end.

Definition some_nonempty {A} (l : list A) : option (list A) :=
  match l with [] => None | _ => Some l end.

(** [generate_options], generate/mod.rs:1105-1123. *)
Definition generate_options (l : list option_) : G (option (list uopt)) :=
  os <-- gfold (fun acc o =>
    add_span (op_span o) ;;;;
    i <-- gindex (len acc) ;;
    add_comments_for [tag_uninterpreted; i] (op_span o) (op_comments o) ;;;;
    u <-- generate_option (op_body o) ;;
    gret (acc ++ [u])) l [] ;;
  gret (some_nonempty os).

(** [generate_options_list], generate/mod.rs:1125-1148. *)
Definition generate_options_list (ol : option optlist) : G (option (list uopt)) :=
  os <-- (match ol with
          | None => gret []
          | Some l =>
            add_span (ol_span l) ;;;;
            gfold (fun acc o =>
              i <-- gindex (len acc) ;;
              sp <-- gunwrap (ob_span o) ;;
              add_span_for [tag_uninterpreted; i] sp ;;;;
              u <-- generate_option o ;;
              gret (acc ++ [u])) (ol_options l) []
          end) ;;
  gret (some_nonempty os).

(** ** Numbers and ranges *)

(** [generate_message_number], generate/mod.rs:771-780. *)
Definition generate_message_number (i : aint) : G (option Z) :=
  match as_i32 i with
  | Some n => if ((1 <=? n) && (n <=? max_field_number))%Z then gret (Some n)
              else gerr (InvalidMessageNumber (i_span i)) ;;;; gret None
  | None => gerr (InvalidMessageNumber (i_span i)) ;;;; gret None
  end.

(** [generate_enum_number], generate/mod.rs:1003-1012. *)
Definition generate_enum_number (i : aint) : G (option Z) :=
  match as_i32 i with
  | Some n => gret (Some n)
  | None => gerr (InvalidEnumNumber (i_span i)) ;;;; gret None
  end.

(** [n + 1] on i32: overflow panics in a debug build. *)
Definition i32_succ (o : option Z) : G (option Z) :=
  match o with
  | None => gret None
  | Some n => if (n <? i32_maxZ)%Z then gret (Some (n + 1)%Z) else gpanic
  end.

(** The end of a message range, generate/mod.rs:792-800 and 823-831. *)
Definition message_range_end (start : option Z) (e : range_end) (message_set : bool) : G (option Z) :=
  match e with
  | RENone => gret start
  | REInt v => generate_message_number v
  | REMax _ => gret (Some (if message_set then i32_maxZ - 1 else max_field_number)%Z)
  end.

Definition add_range_spans (r : rrange) : G unit :=
  add_span (rr_span r) ;;;;
  add_span_for [tag_range_start] (i_span (rr_start r)) ;;;;
  add_span_for [tag_range_end] (rr_end_span r).

(** [generate_message_reserved_range], generate/mod.rs:782-806. *)
Definition generate_message_reserved_range (message_set : bool) (r : rrange) : G reserved_range :=
  add_range_spans r ;;;;
  st <-- generate_message_number (rr_start r) ;;
  e <-- message_range_end st (rr_end r) message_set ;;
  e' <-- i32_succ e ;;
  gret {| r_start := st; r_end := e' |}.

(** [generate_message_extension_range], generate/mod.rs:808-840. *)
Definition generate_message_extension_range (message_set : bool) (os : option optlist) (r : rrange)
  : G ext_range :=
  add_range_spans r ;;;;
  gpush [tag_ext_range_options] ;;;;
  options <-- generate_options_list os ;;
  gpop1 ;;;;
  st <-- generate_message_number (rr_start r) ;;
  e <-- message_range_end st (rr_end r) message_set ;;
  e' <-- i32_succ e ;;
  gret {| x_start := st; x_end := e'; x_options := options |}.

(** [generate_enum_reserved_range], generate/mod.rs:1014-1030. *)
Definition generate_enum_reserved_range (r : rrange) : G reserved_range :=
  add_range_spans r ;;;;
  st <-- generate_enum_number (rr_start r) ;;
  e <-- (match rr_end r with
         | RENone => gret st
         | REInt v => generate_enum_number v
         | REMax _ => gret (Some i32_maxZ)
         end) ;;
  gret {| r_start := st; r_end := e |}.

(** The two loops over reserved declarations, generate/mod.rs:270-293 and
    941-963; they differ in the tags and in the range function. *)
Definition generate_reserved (range_tag name_tag : Z) (grange : rrange -> G reserved_range)
           (rs : list reserved) : G (list reserved_range * list bytes) :=
  gfold (fun '(ranges, names) r =>
    match rs_kind r with
    | RKRanges l =>
      gpush [range_tag] ;;;;
      add_comments (rs_span r) (rs_comments r) ;;;;
      ranges' <-- gfold (fun acc x =>
        i <-- gindex (len acc) ;;
        gpush [i] ;;;;
        y <-- grange x ;;
        gpop1 ;;;;
        gret (acc ++ [y])) l ranges ;;
      gpop1 ;;;;
      gret (ranges', names)
    | RKNames l =>
      gpush [name_tag] ;;;;
      add_comments (rs_span r) (rs_comments r) ;;;;
      names' <-- gfold (fun acc n =>
        i <-- gindex (len acc) ;;
        add_span_for [i] (id_span n) ;;;;
        gret (acc ++ [id_val n])) l names ;;
      gpop1 ;;;;
      gret (ranges, names')
    end) rs ([], []).

(** ** Enums *)

(** [generate_enum_value_descriptor], generate/mod.rs:981-1001. *)
Definition generate_enum_value_descriptor (v : enum_value) : G enum_value_desc :=
  add_comments (ev_span v) (ev_comments v) ;;;;
  add_span_for [tag_value_name] (id_span (ev_name v)) ;;;;
  add_span_for [tag_value_number] (i_span (ev_number v)) ;;;;
  number <-- generate_enum_number (ev_number v) ;;
  gpush [tag_value_options] ;;;;
  options <-- generate_options_list (ev_options v) ;;
  gpop1 ;;;;
  gret {| v_name := Some (id_val (ev_name v)); v_number := number; v_options := options |}.

(** [generate_enum_descriptor], generate/mod.rs:925-979. *)
Definition generate_enum_descriptor (e : enum) : G enum_desc :=
  add_comments (en_span e) (en_comments e) ;;;;
  add_span_for [tag_enum_name] (id_span (en_name e)) ;;;;
  values <-- gfold (fun acc v =>
    i <-- gindex (len acc) ;;
    gpush [tag_enum_value; i] ;;;;
    x <-- generate_enum_value_descriptor v ;;
    gpop 2 ;;;;
    gret (acc ++ [x])) (en_values e) [] ;;
  ' (ranges, names) <-- generate_reserved tag_enum_reserved_range tag_enum_reserved_name
                          generate_enum_reserved_range (en_reserved e) ;;
  gpush [tag_enum_options] ;;;;
  options <-- generate_options (en_options e) ;;
  gpop1 ;;;;
  gret {| e_name := Some (id_val (en_name e)); e_value := values; e_options := options;
          e_reserved_range := ranges; e_reserved_name := names |}.

(** ** Services *)

(** [generate_method_descriptor], generate/mod.rs:1060-1103. *)
Definition generate_method_descriptor (m : method) : G method_desc :=
  add_comments (me_span m) (me_comments m) ;;;;
  add_span_for [tag_method_name] (id_span (me_name m)) ;;;;
  isp <-- gunwrap (type_name_span (me_input m)) ;;
  add_span_for [tag_method_input] isp ;;;;
  input <-- gunwrap (type_name_display (me_input m)) ;;
  osp <-- gunwrap (type_name_span (me_output m)) ;;
  add_span_for [tag_method_output] osp ;;;;
  output <-- gunwrap (type_name_display (me_output m)) ;;
  (match me_client m with Some sp => add_span_for [tag_method_client] sp | None => gret tt end) ;;;;
  (match me_server m with Some sp => add_span_for [tag_method_server] sp | None => gret tt end) ;;;;
  gpush [tag_method_options] ;;;;
  options <-- generate_options (me_options m) ;;
  gpop1 ;;;;
  gret {| me_d_name := Some (id_val (me_name m)); me_d_input := Some input; me_d_output := Some output;
          me_d_options := options;
          me_d_client := if me_client m then Some true else None;
          me_d_server := if me_server m then Some true else None |}.

(** [generate_service_descriptor], generate/mod.rs:1032-1058. *)
Definition generate_service_descriptor (s : service) : G service_desc :=
  add_comments (sv_span s) (sv_comments s) ;;;;
  add_span_for [tag_service_name] (id_span (sv_name s)) ;;;;
  gpush [tag_service_method] ;;;;
  methods <-- gfold (fun acc m =>
    i <-- gindex (len acc) ;;
    gpush [i] ;;;;
    x <-- generate_method_descriptor m ;;
    gpop1 ;;;;
    gret (acc ++ [x])) (sv_methods s) [] ;;
  gpop1 ;;;;
  gpush [tag_service_options] ;;;;
  options <-- generate_options (sv_options s) ;;
  gpop1 ;;;;
  gret {| s_name := Some (id_val (sv_name s)); s_method := methods; s_options := options |}.

(** ** Fields *)

(** [generate_string_option_value], generate/mod.rs:749-769. *)
Definition generate_string_option_value (v : optval) : G (option bytes) :=
  match v with
  | OVString s =>
    if utf8_valid (st_val s) then gret (Some (st_val s))
    else gerr (InvalidUtf8String (st_span s)) ;;;; gret None
  | _ => gerr (ValueInvalidType (b "a string") (optval_display k v) (optval_span v)) ;;;; gret None
  end.

(** One integer default, generate/mod.rs:645-700. *)
Definition int_default (text : option bytes) (i : aint) (expected mn mx : bytes) : G (option bytes) :=
  match text with
  | Some t => gret (Some t)
  | None => gerr (IntegerValueOutOfRange expected (aint_display i) mn mx (i_span i)) ;;;; gret None
  end.
Definition invalid_type (expected : bytes) (v : optval) : G (option bytes) :=
  gerr (ValueInvalidType expected (optval_display k v) (optval_span v)) ;;;; gret None.

(** [generate_field_default_value], generate/mod.rs:623-747. *)
Definition generate_field_default_value (t : option ftype) (v : optval) : G (option bytes) :=
  match t with
  | Some FTDouble | Some FTFloat =>
    match f64_default k v with
    | Some s => gret (Some s)
    | None => invalid_type (b "a floating-point number") v
    end
  | Some FTInt64 | Some FTSfixed64 | Some FTSint64 =>
    match v with
    | OVInt i => int_default (option_map decZ (as_i64 i)) i (b "a signed 64-bit integer") i64_min_text i64_max_text
    | _ => invalid_type (b "an integer") v
    end
  | Some FTInt32 | Some FTSfixed32 | Some FTSint32 =>
    match v with
    | OVInt i => int_default (option_map decZ (as_i32 i)) i (b "a signed 32-bit integer")
                             (b "-2147483648") (b "2147483647")
    | _ => invalid_type (b "an integer") v
    end
  | Some FTUint64 | Some FTFixed64 =>
    match v with
    | OVInt i => int_default (option_map dec (as_u64 i)) i (b "an unsigned 64-bit integer") (b "0") u64_max_text
    | _ => invalid_type (b "an integer") v
    end
  | Some FTUint32 | Some FTFixed32 =>
    match v with
    | OVInt i => int_default (option_map dec (as_u32 i)) i (b "an unsigned 32-bit integer") (b "0") (b "4294967295")
    | _ => invalid_type (b "an integer") v
    end
  | Some FTBool =>
    match as_bool v with
    | Some x => gret (Some (if x then b "true" else b "false"))
    | None => invalid_type (b "either 'true' or 'false'") v
    end
  | Some FTString => generate_string_option_value v
  | Some FTBytes =>
    match v with
    | OVString s => gret (Some (astring_display s))
    | _ => invalid_type (b "a string") v
    end
  | None | Some FTMessage | Some FTGroup | Some FTEnum => gpanic      (* unreachable! *)
  end.

(** [generate_field_label], generate/mod.rs:578-621; the cases are in the order
    of the Rust match arms. *)
Definition generate_field_label (lab : option (flabel * span)) (fspan : span) (sc : scope)
  : G (option label) :=
  match sc, lab with
  | ScExtend, Some (LRequired, sp) => gerr (RequiredExtendField sp) ;;;; gret None
  | ScOneof, Some (_, sp) => gerr (OneofFieldWithLabel sp) ;;;; gret None
  | _, None =>
    match sc with
    | ScMessage | ScExtend =>
      if is_proto2 then gerr (Proto2FieldMissingLabel fspan) ;;;; gret None
      else gret (Some LabOptional)
    | ScOneof => gret (Some LabOptional)
    end
  | _, Some (LRequired, sp) =>
    if is_proto2 then add_span_for [tag_field_label] sp ;;;; gret (Some LabRequired)
    else gerr (Proto3RequiredField sp) ;;;; gret None
  | _, Some (LRepeated, sp) => add_span_for [tag_field_label] sp ;;;; gret (Some LabRepeated)
  | _, Some (LOptional, sp) => add_span_for [tag_field_label] sp ;;;; gret (Some LabOptional)
  end.

(** The map entry message, generate/mod.rs:518-544. *)
Definition map_entry (name : bytes) (key value : ty) (value_name : option bytes) : msg_desc :=
  let mkf n num t tn :=
    {| f_name := Some n; f_number := Some num; f_label := Some LabOptional; f_type := t;
       f_type_name := tn; f_extendee := None; f_default := None; f_oneof_index := None;
       f_json_name := Some n; f_options := None; f_proto3_optional := None |} in
  MsgDesc (Some name)
    [mkf (b "key") 1%Z (proto_ty key) None; mkf (b "value") 2%Z (proto_ty value) value_name]
    [] [] [] [] [] (Some {| mo_map_entry := Some true; mo_uninterpreted := [] |}) [] [].

Section WithBody.
Context {B : Type}.
(** [generate_message_body_descriptor], called recursively. *)
Variable gbody : B -> G msg_desc.

(** The synthetic oneof, generate/mod.rs:349-373: proto3_optional, oneof_index
    and the oneofs. *)
Definition synthetic_oneof (f : field_ B) (oneof_tag : option Z) (oneofs : list oneof_desc)
  : G (option bool * option Z * list oneof_desc) :=
  match is_proto2, fd_label f with
  | false, Some (LOptional, _) =>
    match oneof_tag with
    | Some ot =>
      let fname := id_val (fd_name f) in
      let oname := if head_is 95 fname then b "X" ++ fname else b "_" ++ fname in
      i <-- gindex (len oneofs) ;;
      gpush [ot; i] ;;;;
      gpop 2 ;;;;
      gret (Some true, Some i, oneofs ++ [{| o_name := Some oname; o_options := None |}])
    | None => gret (Some true, None, oneofs)
    end
  | _, _ => gret (None, None, oneofs)
  end.

(** The checks on a default option, generate/mod.rs:378-391. *)
Definition check_default (f : field_ B) (o : option optbody) : G unit :=
  match o with
  | None => gret tt
  | Some o =>
    sp <-- gunwrap (ob_span o) ;;
    match fd_kind f, fd_label f with
    | FKMap _ _ _ _ _, _ => gerr (InvalidDefault (b "map") sp)
    | _, Some (LRepeated, _) => gerr (InvalidDefault (b "repeated") sp)
    | _, _ => if is_proto2 then gret tt else gerr (Proto3DefaultValue sp)
    end
  end.

(** The match on the kind, generate/mod.rs:393-546: name, label, type,
    type_name, default_value and the messages. *)
Definition generate_field_kind (f : field_ B) (field_index : N) (field_tag message_tag : Z)
           (messages : list msg_desc) (default : option optbody) (sc : scope)
  : G (bytes * option label * option ftype * option bytes * option bytes * list msg_desc) :=
  let fname := id_val (fd_name f) in
  match fd_kind f with
  | FKNormal (TyNamed t) _ =>
    lab <-- generate_field_label (fd_label f) (fd_span f) sc ;;
    tn <-- gunwrap (type_name_display t) ;;
    add_comments (fd_span f) (fd_comments f) ;;;;
    tsp <-- gunwrap (type_name_span t) ;;
    add_span_for [tag_field_type_name] tsp ;;;;
    dv <-- (match default with
            | Some o => add_span_for [tag_field_default] (optval_span (ob_value o)) ;;;;
                        gret (Some (optval_token_string k (ob_value o)))
            | None => gret None
            end) ;;
    gret (fname, lab, None, Some tn, dv, messages)
  | FKNormal t tsp =>
    lab <-- generate_field_label (fd_label f) (fd_span f) sc ;;
    dv <-- (match default with
            | Some o => add_span_for [tag_field_default] (optval_span (ob_value o)) ;;;;
                        generate_field_default_value (proto_ty t) (ob_value o)
            | None => gret None
            end) ;;
    add_comments (fd_span f) (fd_comments f) ;;;;
    add_span_for [tag_field_type] tsp ;;;;
    gret (fname, lab, proto_ty t, None, dv, messages)
  | FKGroup tsp bd =>
    lab <-- generate_field_label (fd_label f) (fd_span f) sc ;;
    (if is_proto2 then gret tt else gerr (Proto3GroupField (fd_span f))) ;;;;
    (match default with
     | Some o => sp <-- gunwrap (ob_span o) ;; gerr (InvalidDefault (b "group") sp)
     | None => gret tt
     end) ;;;;
    add_span (fd_span f) ;;;;
    add_span_for [tag_field_type] tsp ;;;;
    add_span_for [tag_field_type_name] (id_span (fd_name f)) ;;;;
    gpop 2 ;;;;
    mi <-- gindex (len messages) ;;
    gpush [message_tag; mi] ;;;;
    add_comments (fd_span f) (fd_comments f) ;;;;
    add_span_for [tag_msg_name] (id_span (fd_name f)) ;;;;
    d <-- gbody bd ;;
    gpop 2 ;;;;
    fi <-- gindex field_index ;;
    gpush [field_tag; fi] ;;;;
    gret (map to_lower fname, lab, Some FTGroup, Some fname, None,
          messages ++ [with_name (Some fname) d])
  | FKMap tsp kt ks vt vs =>
    (match sc with
     | ScOneof => gerr (InvalidOneofFieldKind (b "map") (fd_span f))
     | ScExtend => gerr (InvalidExtendFieldKind (b "map") (fd_span f))
     | ScMessage => match fd_label f with
                    | Some (_, sp) => gerr (MapFieldWithLabel sp)
                    | None => gret tt
                    end
     end) ;;;;
    add_comments (fd_span f) (fd_comments f) ;;;;
    add_span_for [tag_field_type_name] tsp ;;;;
    (if valid_key_type kt then gret tt else gerr (InvalidMapFieldKeyType ks)) ;;;;
    vn <-- (match vt with
            | TyNamed t => d <-- gunwrap (type_name_display t) ;; gret (Some d)
            | _ => gret None
            end) ;;
    let tn := to_pascal_case fname ++ b "Entry" in
    gret (fname, Some LabRepeated, Some FTMessage, Some tn, None,
          messages ++ [map_entry tn kt vt vn])
  end.

(** [generate_field_descriptor], generate/mod.rs:333-576. *)
Definition generate_field_descriptor (f : field_ B) (field_index : N) (field_tag message_tag : Z)
           (messages : list msg_desc) (oneof_tag : option Z) (oneofs : list oneof_desc) (sc : scope)
  : G (field_desc * list msg_desc * list oneof_desc) :=
  fi <-- gindex field_index ;;
  gpush [field_tag; fi] ;;;;
  add_span_for [tag_field_name] (id_span (fd_name f)) ;;;;
  add_span_for [tag_field_number] (i_span (fd_number f)) ;;;;
  number <-- generate_message_number (fd_number f) ;;
  ' (p3o, oi, oneofs') <-- synthetic_oneof f oneof_tag oneofs ;;
  let '(default, options1) := take_option (b "default") (fd_options f) in
  check_default f default ;;;;
  ' (name, lab, t, tn, dv, messages') <--
    generate_field_kind f field_index field_tag message_tag messages default sc ;;
  let '(json, options2) := take_option (b "json_name") options1 in
  jn <-- (match json with
          | Some o =>
            sp <-- gunwrap (ob_span o) ;;
            add_span_for [tag_field_json_name] sp ;;;;
            add_span_for [tag_field_json_name] (optval_span (ob_value o)) ;;;;
            generate_string_option_value (ob_value o)
          | None => gret None
          end) ;;
  gpush [tag_field_options] ;;;;
  options <-- generate_options_list options2 ;;
  gpop 3 ;;;;
  gret ({| f_name := Some name; f_number := number; f_label := lab; f_type := t; f_type_name := tn;
           f_extendee := None; f_default := dv; f_oneof_index := oi; f_json_name := jn;
           f_options := options; f_proto3_optional := p3o |}, messages', oneofs').


(** [generate_oneof_descriptor], generate/mod.rs:843-889. *)
Definition generate_oneof_descriptor (o : oneof_ B) (oneof_index : N) (oneof_tag message_tag : Z)
           (messages : list msg_desc) (field_tag : Z) (fields : list field_desc)
  : G (oneof_desc * list msg_desc * list field_desc) :=
  oi <-- gindex oneof_index ;;
  gpush [oneof_tag; oi] ;;;;
  add_comments (oo_span o) (oo_comments o) ;;;;
  add_span_for [tag_oneof_name] (id_span (oo_name o)) ;;;;
  gpush [tag_oneof_options] ;;;;
  options <-- generate_options (oo_options o) ;;
  gpop1 ;;;;
  gpop 2 ;;;;
  (match oo_fields o with [] => gerr (EmptyOneof (oo_span o)) | _ => gret tt end) ;;;;
  ' (messages', fields') <-- gfold (fun '(ms, fs) f =>
    i <-- gindex oneof_index ;;
    ' (fd, ms', _) <-- generate_field_descriptor f (len fs) field_tag message_tag ms None [] ScOneof ;;
    gret (ms', fs ++ [set_oneof_index (Some i) fd])) (oo_fields o) (messages, fields) ;;
  gret ({| o_name := Some (id_val (oo_name o)); o_options := options |}, messages', fields').

(** [generate_extend_descriptors], generate/mod.rs:891-923: extensions and messages. *)
Definition generate_extend_descriptors (e : extend_ B) (extension_tag : Z) (extensions : list field_desc)
           (message_tag : Z) (messages : list msg_desc) : G (list field_desc * list msg_desc) :=
  gpush [extension_tag] ;;;;
  add_comments (et_span e) (et_comments e) ;;;;
  gpop1 ;;;;
  gfold (fun '(xs, ms) f =>
    i <-- gindex (len xs) ;;
    gpush [extension_tag; i] ;;;;
    sp <-- gunwrap (type_name_span (et_extendee e)) ;;
    add_span_for [tag_field_extendee] sp ;;;;
    gpop 2 ;;;;
    ex <-- gunwrap (type_name_display (et_extendee e)) ;;
    ' (fd, ms', _) <-- generate_field_descriptor f (len xs) extension_tag message_tag ms None [] ScExtend ;;
    gret (xs ++ [set_extendee (Some ex) fd], ms')) (et_fields e) (extensions, messages).

(** [generate_message_descriptor], generate/mod.rs:180-190. *)
Definition generate_message_descriptor (m : message_ B) : G msg_desc :=
  add_comments (ms_span m) (ms_comments m) ;;;;
  add_span_for [tag_msg_name] (id_span (ms_name m)) ;;;;
  d <-- gbody (ms_body m) ;;
  gret (with_name (Some (id_val (ms_name m))) d).

(** The mutable vectors of [generate_message_body_descriptor]. *)
Record mstate : Type := {
  mb_field : list field_desc;
  mb_extension : list field_desc;
  mb_nested : list msg_desc;
  mb_enum : list enum_desc;
  mb_oneof : list oneof_desc;
  mb_real : N }.

(** [v[i] = x]; [None] when out of bounds. *)
Fixpoint set_nth {A} (n : nat) (x : A) (l : list A) : option (list A) :=
  match l, n with
  | [], _ => None
  | _ :: r, O => Some (x :: r)
  | y :: r, S n' => option_map (cons y) (set_nth n' x r)
  end.

(** One item, generate/mod.rs:212-258. *)
Definition generate_item (s : mstate) (it : mitem_ B) : G mstate :=
  match it with
  | MIField f =>
    ' (fd, ns, os) <-- generate_field_descriptor f (len (mb_field s)) tag_msg_field tag_msg_nested
                         (mb_nested s) (Some tag_msg_oneof) (mb_oneof s) ScMessage ;;
    gret {| mb_field := mb_field s ++ [fd]; mb_extension := mb_extension s; mb_nested := ns;
            mb_enum := mb_enum s; mb_oneof := os; mb_real := mb_real s |}
  | MIEnum e =>
    i <-- gindex (len (mb_enum s)) ;;
    gpush [tag_msg_enum; i] ;;;;
    d <-- generate_enum_descriptor e ;;
    gpop 2 ;;;;
    gret {| mb_field := mb_field s; mb_extension := mb_extension s; mb_nested := mb_nested s;
            mb_enum := mb_enum s ++ [d]; mb_oneof := mb_oneof s; mb_real := mb_real s |}
  | MIMessage m =>
    i <-- gindex (len (mb_nested s)) ;;
    gpush [tag_msg_nested; i] ;;;;
    d <-- generate_message_descriptor m ;;
    gpop 2 ;;;;
    gret {| mb_field := mb_field s; mb_extension := mb_extension s; mb_nested := mb_nested s ++ [d];
            mb_enum := mb_enum s; mb_oneof := mb_oneof s; mb_real := mb_real s |}
  | MIExtend e =>
    ' (xs, ns) <-- generate_extend_descriptors e tag_msg_extension (mb_extension s) tag_msg_nested (mb_nested s) ;;
    gret {| mb_field := mb_field s; mb_extension := xs; mb_nested := ns;
            mb_enum := mb_enum s; mb_oneof := mb_oneof s; mb_real := mb_real s |}
  | MIOneof o =>
    ' (od, ns, fs) <-- generate_oneof_descriptor o (mb_real s) tag_msg_oneof tag_msg_nested (mb_nested s)
                         tag_msg_field (mb_field s) ;;
    os <-- gunwrap (set_nth (N.to_nat (mb_real s)) od (mb_oneof s)) ;;
    gret {| mb_field := fs; mb_extension := mb_extension s; mb_nested := ns;
            mb_enum := mb_enum s; mb_oneof := os; mb_real := mb_real s + 1 |}
  end.

Definition is_oneof_item (it : mitem_ B) : bool := match it with MIOneof _ => true | _ => false end.
End WithBody.

(** [is_message_set], generate/mod.rs:261-268. *)
Definition is_message_set (os : list option_) : bool :=
  match find (fun o => has_name (op_body o) (b "message_set_wire_format")) os with
  | Some o => match as_bool (ob_value (op_body o)) with Some x => x | None => false end
  | None => false
  end.

(** The extension ranges, generate/mod.rs:295-309. *)
Definition generate_extension_ranges (message_set : bool) (exts : list extensions) : G (list ext_range) :=
  gpush [tag_msg_ext_range] ;;;;
  rs <-- gfold (fun acc x =>
    add_comments (ex_span x) (ex_comments x) ;;;;
    gfold (fun acc r =>
      i <-- gindex (len acc) ;;
      gpush [i] ;;;;
      y <-- generate_message_extension_range message_set (ex_options x) r ;;
      gpop1 ;;;;
      gret (acc ++ [y])) (ex_ranges x) acc) exts [] ;;
  gpop1 ;;;;
  gret rs.

(** [generate_message_body_descriptor], generate/mod.rs:192-330. *)
Fixpoint generate_message_body_descriptor (bd : body) : G msg_desc :=
  match bd with
  | Body items exts opts res =>
    s <-- gfold (generate_item generate_message_body_descriptor) items
            {| mb_field := []; mb_extension := []; mb_nested := []; mb_enum := [];
               mb_oneof := repeat oneof_default (length (filter is_oneof_item items)); mb_real := 0 |} ;;
    let ms := is_message_set opts in
    ' (ranges, names) <-- generate_reserved tag_msg_reserved_range tag_msg_reserved_name
                            (generate_message_reserved_range ms) res ;;
    xrs <-- generate_extension_ranges ms exts ;;
    gpush [tag_msg_options] ;;;;
    options <-- generate_options opts ;;
    gpop1 ;;;;
    gret (MsgDesc None (mb_field s) (mb_extension s) (mb_nested s) (mb_enum s) xrs (mb_oneof s)
            (option_map (fun u => {| mo_map_entry := None; mo_uninterpreted := u |}) options)
            ranges names)
  end.

(** ** Files: generate/mod.rs:63-178 *)

(** The imports, generate/mod.rs:73-109: dependency, public and weak indices. *)
Definition generate_imports (l : list import) : G (list bytes * list Z * list Z) :=
  gfold (fun '(deps, pub, weak) im =>
    i <-- gindex (len deps) ;;
    add_comments_for [tag_file_dependency; i] (im_span im) (im_comments im) ;;;;
    match im_kind im with
    | Some (IPublic, sp) =>
      j <-- gindex (len pub) ;;
      add_span_for [tag_file_public; j] sp ;;;;
      gret (deps ++ [im_value im], pub ++ [i], weak)
    | Some (IWeak, sp) =>
      j <-- gindex (len weak) ;;
      add_span_for [tag_file_weak; j] sp ;;;;
      gret (deps ++ [im_value im], pub, weak ++ [i])
    | None => gret (deps ++ [im_value im], pub, weak)
    end) l ([], [], []).

Record fstate : Type := {
  fb_message : list msg_desc;
  fb_enum : list enum_desc;
  fb_service : list service_desc;
  fb_extension : list field_desc }.

(** One item, generate/mod.rs:116-146. *)
Definition generate_file_item (s : fstate) (it : fitem) : G fstate :=
  match it with
  | FIMessage m =>
    i <-- gindex (len (fb_message s)) ;;
    gpush [tag_file_message; i] ;;;;
    d <-- generate_message_descriptor generate_message_body_descriptor m ;;
    gpop 2 ;;;;
    gret {| fb_message := fb_message s ++ [d]; fb_enum := fb_enum s; fb_service := fb_service s;
            fb_extension := fb_extension s |}
  | FIEnum e =>
    i <-- gindex (len (fb_enum s)) ;;
    gpush [tag_file_enum; i] ;;;;
    d <-- generate_enum_descriptor e ;;
    gpop 2 ;;;;
    gret {| fb_message := fb_message s; fb_enum := fb_enum s ++ [d]; fb_service := fb_service s;
            fb_extension := fb_extension s |}
  | FIService x =>
    i <-- gindex (len (fb_service s)) ;;
    gpush [tag_file_service; i] ;;;;
    d <-- generate_service_descriptor x ;;
    gpop 2 ;;;;
    gret {| fb_message := fb_message s; fb_enum := fb_enum s; fb_service := fb_service s ++ [d];
            fb_extension := fb_extension s |}
  | FIExtend e =>
    ' (xs, ms) <-- generate_extend_descriptors generate_message_body_descriptor e tag_file_extension
                     (fb_extension s) tag_file_message (fb_message s) ;;
    gret {| fb_message := ms; fb_enum := fb_enum s; fb_service := fb_service s; fb_extension := xs |}
  end.

(** [Display for Syntax], ast/mod.rs:552-559. *)
Definition syntax_display (s : syntax) : bytes :=
  match s with Proto2 => b "proto2" | Proto3 => b "proto3" end.

(** [generate_file_descriptor], generate/mod.rs:63-178. [Syntax::default()] is Proto2. *)
Definition generate_file_descriptor (name : bytes) (f : file) : G file_desc :=
  add_span (fi_span f) ;;;;
  package <-- (match fi_package f with
               | Some p =>
                 add_comments_for [tag_file_package] (pk_span p) (pk_comments p) ;;;;
                 d <-- gunwrap (full_ident_display (pk_name p)) ;;
                 gret (Some d)
               | None => gret None
               end) ;;
  ' (deps, pub, weak) <-- generate_imports (fi_imports f) ;;
  s <-- gfold generate_file_item (fi_items f)
          {| fb_message := []; fb_enum := []; fb_service := []; fb_extension := [] |} ;;
  gpush [tag_file_options] ;;;;
  options <-- generate_options (fi_options f) ;;
  gpop1 ;;;;
  (match fi_syntax_span f with
   | Some (sp, c) => add_comments_for [tag_file_syntax] sp c
   | None => gret tt
   end) ;;;;
  gret {| d_name := Some name; d_package := package; d_dependency := deps; d_public := pub;
          d_weak := weak; d_message := fb_message s; d_enum := fb_enum s; d_service := fb_service s;
          d_extension := fb_extension s; d_options := options; d_source_info := None;
          d_syntax := match fi_syntax f with Proto2 => None | x => Some (syntax_display x) end |}.
End Generate.


(** [generate_file], generate/mod.rs:19-46. [sort] stands for
    [sort_unstable_by(path)]. *)
Definition generate_file (k : cfg) (sort : list location -> list location)
           (f : file) (name src : bytes) : out (file_desc + list perr) :=
  obind (lines_new src) (fun ls =>
  obind (generate_file_descriptor k ls (fi_syntax f) name f []) (fun '(d, _, errs, locs) =>
  match errs with
  | [] => Done (inl (with_source_info d (Some (sort locs))))
  | _ => Done (inr errs)
  end)).
