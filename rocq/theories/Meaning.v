(** The meaning of declarations, independently of the generator: the descriptor
    each declaration denotes ([den_...]), the semantic rules it must obey
    ([ok_...]) and the source locations it gives rise to ([l_...]), as pure
    structural definitions without paths, indices into mutable vectors, errors or
    panics. This file does not refer to the generator (Generate.v); GenProofs.v
    shows that the generator computes exactly these. Paths are given with the
    field numbers of google/protobuf/descriptor.proto as literals. *)
From Verif Require Import Base Utf8 Errors Lex Ast Descriptor.

(** ** Values *)
Definition int_value (i : aint) : Z := if i_neg i then (- Z.of_N (i_val i))%Z else Z.of_N (i_val i).
Definition within (lo hi z : Z) : bool := ((lo <=? z) && (z <=? hi))%Z.
Definition if_within (lo hi : Z) (i : aint) : option Z :=
  if within lo hi (int_value i) then Some (int_value i) else None.

(** Names separated by dots. *)
Fixpoint dotted (l : list bytes) : bytes :=
  match l with [] => [] | [x] => x | x :: r => x ++ b "." ++ dotted r end.
Definition full_text (l : full_ident) : bytes := dotted (map id_val l).
Definition tname_text (t : type_name) : bytes := (if tn_dot t then b "." else []) ++ full_text (tn_name t).

Definition all {A} (Q : A -> Prop) : list A -> Prop :=
  fix go (l : list A) : Prop := match l with [] => True | x :: r => Q x /\ go r end.

(** A location before its span is turned into lines and columns. *)
Definition rawloc : Type := (list Z * span * acomments)%type.
Definition at_ (p : list Z) (sp : span) : rawloc := (p, sp, {| ac_detached := []; ac_leading := None; ac_trailing := None |}).
(** Consecutive elements of a repeated member, from index [i]. *)
Fixpoint l_idx {A} (f : Z -> A -> list rawloc) (i : N) (l : list A) : list rawloc :=
  match l with [] => [] | x :: r => f (Z.of_N i) x ++ l_idx f (i + 1) r end.

(** [None] for no elements. *)
Definition nonempty {A} (l : list A) : option (list A) := match l with [] => None | _ => Some l end.

(** ** Options *)
Definition den_part (x : optname_part) : bytes * bool :=
  match x with ONIdent i => (id_val i, false) | ONExtension t _ => (tname_text t, true) end.
Definition den_option (o : optbody) : uopt :=
  let mk ident pos neg dbl str agg :=
    {| uo_name := map den_part (ob_name o); uo_identifier := ident; uo_positive := pos; uo_negative := neg;
       uo_double := dbl; uo_string := str; uo_aggregate := agg |} in
  match ob_value o with
  | OVIdent false i _ => mk (Some (id_val i)) None None None None None
  | OVIdent true _ _ => uopt_default
  | OVInt i => if i_neg i then mk None None (if_within (-9223372036854775808) 9223372036854775807 i) None None None
               else mk None (Some (i_val i)) None None None None
  | OVFloat f => mk None None None (Some (fl_neg f, fl_text f)) None None
  | OVString s => mk None None None None (Some (st_val s)) None
  | OVAggregate t _ => mk None None None None None (Some t)
  end.
Definition ok_option (o : optbody) : Prop :=
  match ob_value o with
  | OVIdent true _ _ => False
  | OVInt i => (-9223372036854775808 <= int_value i)%Z
  | _ => True
  end.

Definition den_options (l : list option_) : option (list uopt) := nonempty (map (fun o => den_option (op_body o)) l).
Definition ok_options (l : list option_) : Prop := all (fun o => ok_option (op_body o)) l.
Definition l_options (p : list Z) (l : list option_) : list rawloc :=
  l_idx (fun i o => [at_ p (op_span o); (p ++ [999%Z; i], op_span o, op_comments o)]) 0 l.

(** Options with a simple name: the first one called [n], and the list without it. *)
Definition called (n : bytes) (o : optbody) : bool :=
  match ob_name o with [ONIdent i] => bytes_eqb (id_val i) n | _ => false end.
Fixpoint drop_called (n : bytes) (l : list optbody) : list optbody :=
  match l with [] => [] | o :: r => if called n o then r else o :: drop_called n r end.

Definition body_span (o : optbody) : span := match ob_span o with Some sp => sp | None => (0, 0) end.
Definition optlist_options (ol : option optlist) : list optbody := match ol with Some l => ol_options l | None => [] end.
Definition den_optlist (ol : option optlist) : option (list uopt) := nonempty (map den_option (optlist_options ol)).
Definition ok_optlist (ol : option optlist) : Prop := all ok_option (optlist_options ol).
Definition l_optlist (p : list Z) (ol : option optlist) : list rawloc :=
  match ol with
  | None => []
  | Some l => at_ p (ol_span l) :: l_idx (fun i o => [at_ (p ++ [999%Z; i]) (body_span o)]) 0 (ol_options l)
  end.

(** ** Numbers and ranges *)
Definition den_number (i : aint) : option Z := if_within 1 536870911%Z i.
Definition ok_number (i : aint) : Prop := (1 <= int_value i <= 536870911%Z)%Z.
Definition den_enum_number (i : aint) : option Z := if_within (-2147483648) 2147483647 i.
Definition ok_enum_number (i : aint) : Prop := (-2147483648 <= int_value i <= 2147483647)%Z.

Definition succ (o : option Z) : option Z := option_map (fun z => (z + 1)%Z) o.
(** Message ranges have an exclusive end; [max] is 2^29 - 1, or i32::MAX - 1 in a message set. *)
Definition den_range_end (message_set : bool) (r : rrange) : option Z :=
  match rr_end r with
  | RENone => succ (den_number (rr_start r))
  | REInt v => succ (den_number v)
  | REMax _ => Some (if message_set then 2147483647 else 536870912)%Z
  end.
Definition ok_range (r : rrange) : Prop :=
  ok_number (rr_start r) /\ match rr_end r with REInt v => ok_number v | _ => True end.
Definition den_range (message_set : bool) (r : rrange) : reserved_range :=
  {| r_start := den_number (rr_start r); r_end := den_range_end message_set r |}.
Definition den_ext_range (message_set : bool) (os : option optlist) (r : rrange) : ext_range :=
  {| x_start := den_number (rr_start r); x_end := den_range_end message_set r; x_options := den_optlist os |}.
(** Enum ranges have an inclusive end. *)
Definition den_enum_range (r : rrange) : reserved_range :=
  {| r_start := den_enum_number (rr_start r);
     r_end := match rr_end r with
              | RENone => den_enum_number (rr_start r)
              | REInt v => den_enum_number v
              | REMax _ => Some 2147483647%Z
              end |}.
Definition ok_enum_range (r : rrange) : Prop :=
  ok_enum_number (rr_start r) /\ match rr_end r with REInt v => ok_enum_number v | _ => True end.
Definition l_range (p : list Z) (r : rrange) : list rawloc :=
  [at_ p (rr_span r); at_ (p ++ [1%Z]) (i_span (rr_start r)); at_ (p ++ [2%Z]) (rr_end_span r)].

Definition res_ranges (r : reserved) : list rrange := match rs_kind r with RKRanges l => l | RKNames _ => [] end.
Definition res_names (r : reserved) : list ident := match rs_kind r with RKNames l => l | RKRanges _ => [] end.
Definition den_reserved_names (l : list reserved) : list bytes := map id_val (flat_map res_names l).
Fixpoint l_reserved (range_tag name_tag : Z) (p : list Z) (i j : N) (rs : list reserved) : list rawloc :=
  match rs with
  | [] => []
  | r :: rest =>
    match rs_kind r with
    | RKRanges l => (p ++ [range_tag], rs_span r, rs_comments r) :: l_idx (fun n x => l_range (p ++ [range_tag; n]) x) i l
    | RKNames l => (p ++ [name_tag], rs_span r, rs_comments r) :: l_idx (fun n x => [at_ (p ++ [name_tag; n]) (id_span x)]) j l
    end ++ l_reserved range_tag name_tag p (i + len (res_ranges r)) (j + len (res_names r)) rest
  end.

(** ** Enums *)
Definition den_enum_value (v : enum_value) : enum_value_desc :=
  {| v_name := Some (id_val (ev_name v)); v_number := den_enum_number (ev_number v); v_options := den_optlist (ev_options v) |}.
Definition ok_enum_value (v : enum_value) : Prop := ok_enum_number (ev_number v) /\ ok_optlist (ev_options v).
Definition l_enum_value (p : list Z) (v : enum_value) : list rawloc :=
  (p, ev_span v, ev_comments v) :: at_ (p ++ [1%Z]) (id_span (ev_name v)) ::
  at_ (p ++ [2%Z]) (i_span (ev_number v)) :: l_optlist (p ++ [3%Z]) (ev_options v).

Definition den_enum_ (e : enum) : enum_desc :=
  {| e_name := Some (id_val (en_name e)); e_value := map den_enum_value (en_values e); e_options := den_options (en_options e);
     e_reserved_range := map den_enum_range (flat_map res_ranges (en_reserved e));
     e_reserved_name := den_reserved_names (en_reserved e) |}.
Definition ok_enum (e : enum) : Prop :=
  all ok_enum_value (en_values e) /\ all ok_enum_range (flat_map res_ranges (en_reserved e)) /\ ok_options (en_options e).
Definition l_enum (p : list Z) (e : enum) : list rawloc :=
  (p, en_span e, en_comments e) :: at_ (p ++ [1%Z]) (id_span (en_name e)) ::
  l_idx (fun i v => l_enum_value (p ++ [2%Z; i]) v) 0 (en_values e) ++
  l_reserved 4%Z 5%Z p 0 0 (en_reserved e) ++
  l_options (p ++ [3%Z]) (en_options e).

(** ** Services *)
Definition tname_span (t : type_name) : span := match type_name_span t with Some sp => sp | None => (0, 0) end.
Definition opt_loc (p : list Z) (o : option span) : list rawloc := match o with Some sp => [at_ p sp] | None => [] end.
Definition den_method (m : method) : method_desc :=
  {| me_d_name := Some (id_val (me_name m)); me_d_input := Some (tname_text (me_input m));
     me_d_output := Some (tname_text (me_output m)); me_d_options := den_options (me_options m);
     me_d_client := if me_client m then Some true else None; me_d_server := if me_server m then Some true else None |}.
Definition l_method (p : list Z) (m : method) : list rawloc :=
  (p, me_span m, me_comments m) :: at_ (p ++ [1%Z]) (id_span (me_name m)) ::
  at_ (p ++ [2%Z]) (tname_span (me_input m)) :: at_ (p ++ [3%Z]) (tname_span (me_output m)) ::
  opt_loc (p ++ [5%Z]) (me_client m) ++ opt_loc (p ++ [6%Z]) (me_server m) ++
  l_options (p ++ [4%Z]) (me_options m).
Definition den_service_ (s : service) : service_desc :=
  {| s_name := Some (id_val (sv_name s)); s_method := map den_method (sv_methods s); s_options := den_options (sv_options s) |}.
Definition ok_service (s : service) : Prop :=
  all (fun m => ok_options (me_options m)) (sv_methods s) /\ ok_options (sv_options s).
Definition l_service (p : list Z) (s : service) : list rawloc :=
  (p, sv_span s, sv_comments s) :: at_ (p ++ [1%Z]) (id_span (sv_name s)) ::
  l_idx (fun i m => l_method (p ++ [2%Z; i]) m) 0 (sv_methods s) ++
  l_options (p ++ [3%Z]) (sv_options s).

(** ** Types and names *)
Definition scalar_type (t : ty) : option ftype :=
  match t with
  | TyDouble => Some FTDouble | TyFloat => Some FTFloat | TyBool => Some FTBool | TyString => Some FTString | TyBytes => Some FTBytes
  | TyInt32 => Some FTInt32 | TyUint32 => Some FTUint32 | TySint32 => Some FTSint32 | TyFixed32 => Some FTFixed32 | TySfixed32 => Some FTSfixed32
  | TyInt64 => Some FTInt64 | TyUint64 => Some FTUint64 | TySint64 => Some FTSint64 | TyFixed64 => Some FTFixed64 | TySfixed64 => Some FTSfixed64
  | TyNamed _ => None
  end.
(** Map keys: any integral type, bool or string. *)
Definition key_type (t : ty) : bool := match t with TyDouble | TyFloat | TyBytes | TyNamed _ => false | _ => true end.
Definition ty_text (t : ty) : option bytes := match t with TyNamed n => Some (tname_text n) | _ => None end.
Definition lower (c : N) : N := if (65 <=? c) && (c <=? 90) then c + 32 else c.
Definition upper (c : N) : N := if (97 <=? c) && (c <=? 122) then c - 32 else c.
(** The words between underscores, capitalised. *)
Fixpoint words (l : bytes) : list bytes :=
  match l with
  | [] => [[]]
  | c :: r => if c =? 95 then [] :: words r else match words r with w :: ws => (c :: w) :: ws | [] => [[c]] end
  end.
Definition capital (w : bytes) : bytes := match w with [] => [] | c :: r => upper c :: r end.
Definition entry_name (n : bytes) : bytes := flat_map capital (words n) ++ b "Entry".
(** A map entry message. *)
Definition entry_desc (name : bytes) (kt vt : ty) : msg_desc :=
  let mkf n num t tn :=
    {| f_name := Some n; f_number := Some num; f_label := Some LabOptional; f_type := scalar_type t; f_type_name := tn;
       f_extendee := None; f_default := None; f_oneof_index := None; f_json_name := Some n; f_options := None; f_proto3_optional := None |} in
  MsgDesc (Some name) [mkf (b "key") 1%Z kt None; mkf (b "value") 2%Z vt (ty_text vt)] [] [] [] [] []
    (Some {| mo_map_entry := Some true; mo_uninterpreted := [] |}) [] [].

(** ** Fields *)
Section Fields.
Variable k : cfg.
Variable syn : syntax.
Definition p2 : bool := match syn with Proto2 => true | Proto3 => false end.

(** The label stored, [None] if the written one is not allowed. *)
Definition den_label (sc : scope) (lab : option (flabel * span)) : option label :=
  match sc, option_map fst lab with
  | ScOneof, None => Some LabOptional
  | ScOneof, Some _ => None
  | _, None => if p2 then None else Some LabOptional
  | ScExtend, Some LRequired => None
  | _, Some LRequired => if p2 then Some LabRequired else None
  | _, Some LRepeated => Some LabRepeated
  | _, Some LOptional => Some LabOptional
  end.
Definition l_label (p : list Z) (sc : scope) (lab : option (flabel * span)) : list rawloc :=
  match den_label sc lab, lab with Some _, Some (_, sp) => [at_ (p ++ [4%Z]) sp] | _, _ => [] end.

(** A floating-point default; the text of the number is [k]'s. *)
Definition den_float (v : optval) : option bytes :=
  match v with
  | OVIdent neg i _ =>
    if bytes_eqb (id_val i) (b "nan") then Some (b "nan")
    else if bytes_eqb (id_val i) (b "inf") then Some ((if neg then b "-" else []) ++ b "inf") else None
  | OVInt i => Some (map lower (f64_to_string k (i_neg i) (dec (i_val i))))
  | OVFloat f => Some (map lower (f64_to_string k (fl_neg f) (fl_text f)))
  | _ => None
  end.
Definition den_string (v : optval) : option bytes :=
  match v with OVString s => if utf8_valid (st_val s) then Some (st_val s) else None | _ => None end.
(** The text of a default value of scalar type [t]; [None] if it does not suit the type. *)
Definition den_default (t : ty) (v : optval) : option bytes :=
  let int lo hi := match v with OVInt i => option_map decZ (if_within lo hi i) | _ => None end in
  let uint hi := match v with
                 | OVInt i => if negb (i_neg i) && (i_val i <=? hi) then Some (dec (i_val i)) else None
                 | _ => None
                 end in
  match t with
  | TyDouble | TyFloat => den_float v
  | TyInt32 | TySint32 | TySfixed32 => int (-2147483648)%Z 2147483647%Z
  | TyInt64 | TySint64 | TySfixed64 => int (-9223372036854775808)%Z 9223372036854775807%Z
  | TyUint32 | TyFixed32 => uint 4294967295
  | TyUint64 | TyFixed64 => match v with OVInt i => if i_neg i then None else Some (dec (i_val i)) | _ => None end   (* i_val is a u64 *)
  | TyBool => match v with
              | OVIdent false i _ => if bytes_eqb (id_val i) (b "true") then Some (b "true")
                                     else if bytes_eqb (id_val i) (b "false") then Some (b "false") else None
              | _ => None
              end
  | TyString => den_string v
  | TyBytes => match v with OVString s => Some (astring_display s) | _ => None end
  | TyNamed _ => Some (optval_token_string k v)
  end.

Section WithBody.
Context {B : Type}.
Variable dbody : B -> msg_desc.
Variable vbody : B -> Prop.
Variable lbody : list Z -> B -> list rawloc.

Definition default_of (f : field_ B) : option optbody := find (called (b "default")) (optlist_options (fd_options f)).
Definition json_of (f : field_ B) : option optbody := find (called (b "json_name")) (optlist_options (fd_options f)).
Definition rest_options (f : field_ B) : option optlist :=
  option_map (fun l => {| ol_options := drop_called (b "json_name") (drop_called (b "default") (ol_options l)); ol_span := ol_span l |}) (fd_options f).
(** proto3 [optional] *)
Definition p3_optional (f : field_ B) : bool :=
  match p2, fd_label f with false, Some (LOptional, _) => true | _, _ => false end.

(** The field descriptor, up to [oneof_index] and [extendee]. *)
Definition den_field (sc : scope) (oneof : option Z) (f : field_ B) : field_desc :=
  let name := id_val (fd_name f) in
  let mk n lab t tn dv :=
    {| f_name := Some n; f_number := den_number (fd_number f); f_label := lab; f_type := t; f_type_name := tn;
       f_extendee := None; f_default := dv; f_oneof_index := oneof;
       f_json_name := match json_of f with Some o => den_string (ob_value o) | None => None end;
       f_options := den_optlist (rest_options f);
       f_proto3_optional := if p3_optional f then Some true else None |} in
  match fd_kind f with
  | FKNormal t _ =>
    mk name (den_label sc (fd_label f)) (scalar_type t) (ty_text t)
       (match default_of f with Some o => den_default t (ob_value o) | None => None end)
  | FKGroup _ _ => mk (map lower name) (den_label sc (fd_label f)) (Some FTGroup) (Some name) None
  | FKMap _ _ _ _ _ => mk name (Some LabRepeated) (Some FTMessage) (Some (entry_name name)) None
  end.
(** The messages a field declares: a group's body, a map's entry. *)
Definition den_field_messages (f : field_ B) : list msg_desc :=
  match fd_kind f with
  | FKNormal _ _ => []
  | FKGroup _ bd => [with_name (Some (id_val (fd_name f))) (dbody bd)]
  | FKMap _ kt _ vt _ => [entry_desc (entry_name (id_val (fd_name f))) kt vt]
  end.
Definition synthetic_name (n : bytes) : bytes := match n with 95 :: _ => b "X" ++ n | _ => b "_" ++ n end.
Definition den_field_oneofs (f : field_ B) : list oneof_desc :=
  if p3_optional f then [{| o_name := Some (synthetic_name (id_val (fd_name f))); o_options := None |}] else [].

Definition ok_field (sc : scope) (f : field_ B) : Prop :=
  ok_number (fd_number f) /\
  match fd_kind f with
  | FKNormal t _ =>
    den_label sc (fd_label f) <> None /\
    match default_of f with
    | None => True
    | Some o => p2 = true /\ option_map fst (fd_label f) <> Some LRepeated /\ den_default t (ob_value o) <> None
    end
  | FKGroup _ bd => p2 = true /\ den_label sc (fd_label f) <> None /\ default_of f = None /\ vbody bd
  | FKMap _ kt _ _ _ => sc = ScMessage /\ fd_label f = None /\ default_of f = None /\ key_type kt = true
  end /\
  match json_of f with None => True | Some o => den_string (ob_value o) <> None end /\
  ok_optlist (rest_options f).

Definition l_default (p : list Z) (f : field_ B) : list rawloc :=
  match default_of f with Some o => [at_ (p ++ [7%Z]) (optval_span (ob_value o))] | None => [] end.
(** [p] is the path of the parent, [fp] that of the field and [mp] that of the message it may declare. *)
Definition l_field (sc : scope) (fp mp : list Z) (f : field_ B) : list rawloc :=
  [at_ (fp ++ [1%Z]) (id_span (fd_name f)); at_ (fp ++ [3%Z]) (i_span (fd_number f))] ++
  match fd_kind f with
  | FKNormal (TyNamed t) _ =>
    l_label fp sc (fd_label f) ++ [(fp, fd_span f, fd_comments f); at_ (fp ++ [6%Z]) (tname_span t)] ++ l_default fp f
  | FKNormal _ tsp =>
    l_label fp sc (fd_label f) ++ l_default fp f ++ [(fp, fd_span f, fd_comments f); at_ (fp ++ [5%Z]) tsp]
  | FKGroup tsp bd =>
    l_label fp sc (fd_label f) ++
    [at_ fp (fd_span f); at_ (fp ++ [5%Z]) tsp; at_ (fp ++ [6%Z]) (id_span (fd_name f));
     (mp, fd_span f, fd_comments f); at_ (mp ++ [1%Z]) (id_span (fd_name f))] ++ lbody mp bd
  | FKMap tsp _ _ _ _ => [(fp, fd_span f, fd_comments f); at_ (fp ++ [6%Z]) tsp]
  end ++
  match json_of f with
  | Some o => [at_ (fp ++ [10%Z]) (body_span o); at_ (fp ++ [10%Z]) (optval_span (ob_value o))]
  | None => []
  end ++
  l_optlist (fp ++ [8%Z]) (rest_options f).

(** Consecutive fields of a oneof or an extend block: field indices from [i], message indices from [j]. *)
Fixpoint l_fields (sc : scope) (extra : list Z -> list rawloc) (field_tag message_tag : Z) (p : list Z) (i j : N) (l : list (field_ B)) : list rawloc :=
  match l with
  | [] => []
  | f :: r => extra (p ++ [field_tag; Z.of_N i]) ++
              l_field sc (p ++ [field_tag; Z.of_N i]) (p ++ [message_tag; Z.of_N j]) f ++
              l_fields sc extra field_tag message_tag p (i + 1) (j + len (den_field_messages f)) r
  end.

(** ** Oneofs, extend blocks, messages *)
Definition den_oneof_ (o : oneof_ B) : oneof_desc :=
  {| o_name := Some (id_val (oo_name o)); o_options := den_options (oo_options o) |}.
Definition ok_oneof (o : oneof_ B) : Prop :=
  oo_fields o <> [] /\ ok_options (oo_options o) /\ all (ok_field ScOneof) (oo_fields o).
Definition den_extend (e : extend_ B) : list field_desc :=
  map (fun f => set_extendee (Some (tname_text (et_extendee e))) (den_field ScExtend None f)) (et_fields e).
Definition ok_extend (e : extend_ B) : Prop := all (ok_field ScExtend) (et_fields e).
Definition l_extend (extension_tag message_tag : Z) (p : list Z) (i j : N) (e : extend_ B) : list rawloc :=
  (p ++ [extension_tag], et_span e, et_comments e) ::
  l_fields ScExtend (fun fp => [at_ (fp ++ [2%Z]) (tname_span (et_extendee e))])
           extension_tag message_tag p i j (et_fields e).
Definition den_message_ (m : message_ B) : msg_desc := with_name (Some (id_val (ms_name m))) (dbody (ms_body m)).
Definition l_message (p : list Z) (m : message_ B) : list rawloc :=
  (p, ms_span m, ms_comments m) :: at_ (p ++ [1%Z]) (id_span (ms_name m)) :: lbody p (ms_body m).

(** ** Members of a message *)
Definition item_real (it : mitem_ B) : list oneof_desc := match it with MIOneof o => [den_oneof_ o] | _ => [] end.
Definition item_synthetic (it : mitem_ B) : list oneof_desc := match it with MIField f => den_field_oneofs f | _ => [] end.
(** The fields: [r] real oneofs precede; the next synthetic oneof has index [s]. *)
Fixpoint den_fields (r s : N) (items : list (mitem_ B)) : list field_desc :=
  match items with
  | [] => []
  | MIField f :: rest =>
    den_field ScMessage (if p3_optional f then Some (Z.of_N s) else None) f :: den_fields r (s + len (den_field_oneofs f)) rest
  | MIOneof o :: rest =>
    map (fun f => set_oneof_index (Some (Z.of_N r)) (den_field ScOneof None f)) (oo_fields o) ++ den_fields (r + 1) s rest
  | _ :: rest => den_fields r s rest
  end.
Definition item_extensions (it : mitem_ B) : list field_desc := match it with MIExtend e => den_extend e | _ => [] end.
Definition item_enums (it : mitem_ B) : list enum_desc := match it with MIEnum e => [den_enum_ e] | _ => [] end.
Definition item_messages (it : mitem_ B) : list msg_desc :=
  match it with
  | MIField f => den_field_messages f
  | MIMessage m => [den_message_ m]
  | MIExtend e => flat_map den_field_messages (et_fields e)
  | MIOneof o => flat_map den_field_messages (oo_fields o)
  | MIEnum _ => []
  end.
Definition ok_item (it : mitem_ B) : Prop :=
  match it with
  | MIField f => ok_field ScMessage f
  | MIEnum e => ok_enum e
  | MIMessage m => vbody (ms_body m)
  | MIExtend e => ok_extend e
  | MIOneof o => ok_oneof o
  end.
Definition item_nfields (it : mitem_ B) : N := match it with MIField _ => 1 | MIOneof o => len (oo_fields o) | _ => 0 end.
(** Indices of the next field, extension, nested message, enum and oneof. *)
Fixpoint l_items (p : list Z) (nf nx nm ne no : N) (items : list (mitem_ B)) : list rawloc :=
  match items with
  | [] => []
  | it :: rest =>
    match it with
    | MIField f => l_field ScMessage (p ++ [2%Z; Z.of_N nf]) (p ++ [3%Z; Z.of_N nm]) f
    | MIEnum e => l_enum (p ++ [4%Z; Z.of_N ne]) e
    | MIMessage m => l_message (p ++ [3%Z; Z.of_N nm]) m
    | MIExtend e => l_extend 6%Z 3%Z p nx nm e
    | MIOneof o =>
      (p ++ [8%Z; Z.of_N no], oo_span o, oo_comments o) ::
      at_ (p ++ [8%Z; Z.of_N no; 1%Z]) (id_span (oo_name o)) ::
      l_options (p ++ [8%Z; Z.of_N no; 2%Z]) (oo_options o) ++
      l_fields ScOneof (fun _ => []) 2%Z 3%Z p nf nm (oo_fields o)
    end ++
    l_items p (nf + item_nfields it) (nx + len (item_extensions it)) (nm + len (item_messages it))
            (ne + len (item_enums it)) (no + len (item_real it)) rest
  end.
End WithBody.

(** ** Message bodies *)
Definition den_extensions (ms : bool) (l : list extensions) : list ext_range :=
  flat_map (fun x => map (den_ext_range ms (ex_options x)) (ex_ranges x)) l.
Definition ok_extensions (x : extensions) : Prop :=
  all ok_range (ex_ranges x) /\ (ex_ranges x = [] \/ ok_optlist (ex_options x)).
Fixpoint l_extensions (p : list Z) (i : N) (l : list extensions) : list rawloc :=
  match l with
  | [] => []
  | x :: r => (p, ex_span x, ex_comments x) ::
              l_idx (fun n rr => l_range (p ++ [n]) rr ++ l_optlist (p ++ [n; 3%Z]) (ex_options x)) i (ex_ranges x) ++
              l_extensions p (i + len (ex_ranges x)) r
  end.

(** The first option message_set_wire_format is true. *)
Definition message_set (l : list option_) : bool :=
  match find (fun o => called (b "message_set_wire_format") (op_body o)) l with
  | Some o => match ob_value (op_body o) with OVIdent false i _ => bytes_eqb (id_val i) (b "true") | _ => false end
  | None => false
  end.
Fixpoint den_body (bd : body) : msg_desc :=
  match bd with
  | Body items exts opts res =>
    let ms := message_set opts in
    MsgDesc None (den_fields 0 (len (flat_map item_real items)) items)
      (flat_map item_extensions items) (flat_map (item_messages den_body) items) (flat_map item_enums items)
      (den_extensions ms exts) (flat_map item_real items ++ flat_map item_synthetic items)
      (option_map (fun u => {| mo_map_entry := None; mo_uninterpreted := u |}) (den_options opts))
      (map (den_range ms) (flat_map res_ranges res)) (den_reserved_names res)
  end.
Fixpoint ok_body (bd : body) : Prop :=
  match bd with
  | Body items exts opts res =>
    all (ok_item ok_body) items /\ all ok_range (flat_map res_ranges res) /\ all ok_extensions exts /\ ok_options opts
  end.
Fixpoint l_body (p : list Z) (bd : body) : list rawloc :=
  match bd with
  | Body items exts opts res =>
    l_items den_body l_body p 0 0 0 0 0 items ++
    l_reserved 9%Z 10%Z p 0 0 res ++
    l_extensions (p ++ [5%Z]) 0 exts ++
    l_options (p ++ [7%Z]) opts
  end.

(** ** Files *)
Definition is_kind (ik : import_kind) (im : import) : bool :=
  match im_kind im, ik with Some (IPublic, _), IPublic => true | Some (IWeak, _), IWeak => true | _, _ => false end.
(** The indices, from [i], of the imports of the given kind. *)
Fixpoint kind_indices (ik : import_kind) (i : N) (l : list import) : list Z :=
  match l with
  | [] => []
  | im :: r => (if is_kind ik im then [Z.of_N i] else []) ++ kind_indices ik (i + 1) r
  end.
Fixpoint l_imports (p : list Z) (i pub weak : N) (l : list import) : list rawloc :=
  match l with
  | [] => []
  | im :: r =>
    (p ++ [3%Z; Z.of_N i], im_span im, im_comments im) ::
    match im_kind im with
    | Some (IPublic, sp) => [at_ (p ++ [10%Z; Z.of_N pub]) sp]
    | Some (IWeak, sp) => [at_ (p ++ [11%Z; Z.of_N weak]) sp]
    | None => []
    end ++
    l_imports p (i + 1) (if is_kind IPublic im then pub + 1 else pub) (if is_kind IWeak im then weak + 1 else weak) r
  end.

Definition fitem_messages (it : fitem) : list msg_desc :=
  match it with FIMessage m => [den_message_ den_body m] | FIExtend e => flat_map (den_field_messages den_body) (et_fields e) | _ => [] end.
Definition fitem_enums (it : fitem) : list enum_desc := match it with FIEnum e => [den_enum_ e] | _ => [] end.
Definition fitem_services (it : fitem) : list service_desc := match it with FIService s => [den_service_ s] | _ => [] end.
Definition fitem_extensions (it : fitem) : list field_desc := match it with FIExtend e => den_extend e | _ => [] end.
Definition ok_fitem (it : fitem) : Prop :=
  match it with
  | FIMessage m => ok_body (ms_body m)
  | FIEnum e => ok_enum e
  | FIService s => ok_service s
  | FIExtend e => ok_extend ok_body e
  end.
Fixpoint l_fitems (p : list Z) (nm ne ns nx : N) (l : list fitem) : list rawloc :=
  match l with
  | [] => []
  | it :: rest =>
    match it with
    | FIMessage m => l_message l_body (p ++ [4%Z; Z.of_N nm]) m
    | FIEnum e => l_enum (p ++ [5%Z; Z.of_N ne]) e
    | FIService s => l_service (p ++ [6%Z; Z.of_N ns]) s
    | FIExtend e => l_extend den_body l_body 7%Z 4%Z p nx nm e
    end ++
    l_fitems p (nm + len (fitem_messages it)) (ne + len (fitem_enums it)) (ns + len (fitem_services it))
             (nx + len (fitem_extensions it)) rest
  end.

Definition den_file (name : bytes) (f : file) : file_desc :=
  {| d_name := Some name;
     d_package := option_map (fun p => full_text (pk_name p)) (fi_package f);
     d_dependency := map im_value (fi_imports f);
     d_public := kind_indices IPublic 0 (fi_imports f);
     d_weak := kind_indices IWeak 0 (fi_imports f);
     d_message := flat_map fitem_messages (fi_items f);
     d_enum := flat_map fitem_enums (fi_items f);
     d_service := flat_map fitem_services (fi_items f);
     d_extension := flat_map fitem_extensions (fi_items f);
     d_options := den_options (fi_options f);
     d_source_info := None;
     d_syntax := match fi_syntax f with Proto2 => None | Proto3 => Some (b "proto3") end |}.
Definition ok_file (f : file) : Prop := all ok_fitem (fi_items f) /\ ok_options (fi_options f).
Definition l_file (f : file) : list rawloc :=
  at_ [] (fi_span f) ::
  match fi_package f with Some p => [([2%Z], pk_span p, pk_comments p)] | None => [] end ++
  l_imports [] 0 0 0 (fi_imports f) ++
  l_fitems [] 0 0 0 0 (fi_items f) ++
  l_options [8%Z] (fi_options f) ++
  match fi_syntax_span f with Some (sp, c) => [([12%Z], sp, c)] | None => [] end.
End Fields.
