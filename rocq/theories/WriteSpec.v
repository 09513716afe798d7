(** Specification for C63: a text for a descriptor. The writer goes through the
    descriptor member by member and gives a list of tokens; the text is the
    tokens' texts with blanks between them. It is independent of the parser, the
    declarations (Ast.v) and their meaning. *)
From Verif Require Import Base Utf8Spec LexSpec Lex Decimal Descriptor.

(** ** The writer *)
Fixpoint separated {A} (sep : A) (l : list (list A)) : list A :=
  match l with [] => [] | [x] => x | x :: r => x ++ sep :: separated sep r end.
(** The words between dots. *)
Fixpoint dot_split (l : bytes) : list bytes :=
  match l with
  | [] => [[]]
  | c :: r => if c =? 46 then [] :: dot_split r else match dot_split r with w :: ws => (c :: w) :: ws | [] => [[c]] end
  end.
Definition text (o : option bytes) : bytes := match o with Some t => t | None => [] end.
Definition num (o : option Z) : Z := match o with Some z => z | None => 0%Z end.
Definition items {A} (o : option (list A)) : list A := match o with Some l => l | None => [] end.

Definition w_name (n : bytes) : list token := separated TDot (map (fun w => [TIdent w]) (dot_split n)).
Definition w_type (n : bytes) : list token := match n with c :: r => if c =? 46 then TDot :: w_name r else w_name n | [] => [] end.
Definition w_Z (z : Z) : list token := if (z <? 0)%Z then [TMinus; TInt (Z.to_N (- z))] else [TInt (Z.to_N z)].

(** Options: [name.(ext.name).name = value] *)
Definition w_part (p : bytes * bool) : list token := if snd p then TLeftParen :: w_type (fst p) ++ [TRightParen] else [TIdent (fst p)].
Definition w_value (u : uopt) : list token :=
  match uo_identifier u, uo_positive u, uo_negative u, uo_double u, uo_string u with
  | Some i, _, _, _, _ => [TIdent i]
  | _, Some n, _, _, _ => [TInt n]
  | _, _, Some z, _, _ => [TMinus; TInt (Z.to_N (- z))]
  | _, _, _, Some (true, x), _ => [TMinus; TFloat x]
  | _, _, _, Some (false, x), _ => [TFloat x]
  | _, _, _, _, Some s => [TStr s]
  | _, _, _, _, _ => []
  end.
Definition w_setting (u : uopt) : list token := separated TDot (map w_part (uo_name u)) ++ TEquals :: w_value u.
Definition w_option (u : uopt) : list token := kw "option" :: w_setting u ++ [TSemicolon].
Definition w_brackets (l : list (list token)) : list token :=
  match l with [] => [] | _ => TLeftBracket :: separated TComma l ++ [TRightBracket] end.
Definition w_settings (o : option (list uopt)) : list token := w_brackets (map w_setting (items o)).
Definition w_braces (l : list token) : list token := TLeftBrace :: l ++ [TRightBrace].

(** Enums *)
Definition w_range (lo hi : Z) : list token := w_Z lo ++ kw "to" :: w_Z hi.
Definition w_reserved_name (n : bytes) : list token := [kw "reserved"; TStr n; TSemicolon].
Definition w_enum_value (v : enum_value_desc) : list token :=
  TIdent (text (v_name v)) :: TEquals :: w_Z (num (v_number v)) ++ w_settings (v_options v) ++ [TSemicolon].
Definition w_enum_range (r : reserved_range) : list token := kw "reserved" :: w_range (num (r_start r)) (num (r_end r)) ++ [TSemicolon].
Definition w_enum (e : enum_desc) : list token :=
  kw "enum" :: TIdent (text (e_name e)) :: w_braces
    (flat_map w_option (items (e_options e)) ++ flat_map w_enum_value (e_value e) ++
     flat_map w_enum_range (e_reserved_range e) ++ flat_map w_reserved_name (e_reserved_name e)).

(** Services *)
Definition w_stream (o : option bool) (n : option bytes) : list token :=
  TLeftParen :: match o with Some true => [kw "stream"] | _ => [] end ++ w_type (text n) ++ [TRightParen].
Definition w_method (m : method_desc) : list token :=
  kw "rpc" :: TIdent (text (me_d_name m)) :: w_stream (me_d_client m) (me_d_input m) ++
  kw "returns" :: w_stream (me_d_server m) (me_d_output m) ++ w_braces (flat_map w_option (items (me_d_options m))).
Definition w_service (s : service_desc) : list token :=
  kw "service" :: TIdent (text (s_name s)) :: w_braces (flat_map w_option (items (s_options s)) ++ flat_map w_method (s_method s)).

(** Fields *)
Definition scalar_word (t : ftype) : bytes :=
  match t with
  | FTDouble => b "double" | FTFloat => b "float" | FTInt64 => b "int64" | FTUint64 => b "uint64" | FTInt32 => b "int32"
  | FTFixed64 => b "fixed64" | FTFixed32 => b "fixed32" | FTBool => b "bool" | FTString => b "string" | FTBytes => b "bytes"
  | FTUint32 => b "uint32" | FTSfixed32 => b "sfixed32" | FTSfixed64 => b "sfixed64" | FTSint32 => b "sint32" | FTSint64 => b "sint64"
  | FTGroup | FTMessage | FTEnum => []
  end.
Inductive place_of_field : Type := InMessage | InOneof | InExtend.
Definition w_label (p3 : bool) (pl : place_of_field) (f : field_desc) : list token :=
  match pl, f_label f with
  | InOneof, _ => []
  | _, Some LabRepeated => [kw "repeated"]
  | _, Some LabRequired => [kw "required"]
  | _, Some LabOptional => if negb p3 || match f_proto3_optional f with Some true => true | _ => false end then [kw "optional"] else []
  | _, None => []
  end.
Definition w_field_type (f : field_desc) : list token :=
  match f_type f with Some t => [TIdent (scalar_word t)] | None => w_type (text (f_type_name f)) end.
(** The bytes an escaped text stands for. *)
Fixpoint unescaped (l : bytes) : bytes :=
  match l with
  | 92 :: c :: r =>
    if c =? 116 then 9 :: unescaped r else if c =? 110 then 10 :: unescaped r else if c =? 114 then 13 :: unescaped r
    else if (48 <=? c) && (c <=? 55) then match r with d :: e :: r' => 64 * (c - 48) + 8 * (d - 48) + (e - 48) :: unescaped r' | _ => [] end
    else c :: unescaped r
  | c :: r => c :: unescaped r
  | [] => []
  end.
Definition w_default_value (t : option ftype) (v : bytes) : list token :=
  match t with
  | Some FTString => [TStr v]
  | Some FTBytes => [TStr (unescaped v)]
  | Some FTBool | None => [TIdent v]
  | _ => match v with c :: ds => if c =? 45 then [TMinus; TInt (decimal_value ds)] else [TInt (decimal_value v)] | [] => [] end
  end.
Definition w_field_settings (f : field_desc) : list (list token) :=
  match f_default f with Some v => [kw "default" :: TEquals :: w_default_value (f_type f) v] | None => [] end ++
  match f_json_name f with Some v => [[kw "json_name"; TEquals; TStr v]] | None => [] end ++
  map w_setting (items (f_options f)).
Definition w_tail (f : field_desc) : list token :=
  TIdent (text (f_name f)) :: TEquals :: w_Z (num (f_number f)) ++ w_brackets (w_field_settings f) ++ [TSemicolon].
Definition w_field (p3 : bool) (pl : place_of_field) (f : field_desc) : list token := w_label p3 pl f ++ w_field_type f ++ w_tail f.
Definition w_extension (p3 : bool) (f : field_desc) : list token :=
  kw "extend" :: w_type (text (f_extendee f)) ++ w_braces (w_field p3 InExtend f).
(** A field of message type is a map field; [m] is its entry. *)
Definition is_map (f : field_desc) : bool := match f_type f with Some FTMessage => true | _ => false end.
Definition w_map (m : msg_desc) (f : field_desc) : list token :=
  match m_field m with
  | [key; value] => kw "map" :: TLeftAngle :: w_field_type key ++ TComma :: w_field_type value ++ TRightAngle :: w_tail f
  | _ => []
  end.

(** Messages. The [optional] fields of proto3 have a oneof of their own, which is not written. *)
Definition optional3 (f : field_desc) : bool := match f_proto3_optional f with Some true => true | _ => false end.
Definition oneof_of (f : field_desc) : option Z := if optional3 f then None else f_oneof_index f.
(** The fields in order, those of a oneof together. *)
Fixpoint runs (l : list field_desc) : list (option Z * list field_desc) :=
  match l with
  | [] => []
  | f :: r =>
    match oneof_of f, runs r with
    | Some i, (Some j, fs) :: rs => if (i =? j)%Z then (Some j, f :: fs) :: rs else (Some i, [f]) :: (Some j, fs) :: rs
    | o, rs => (o, [f]) :: rs
    end
  end.
Definition is_entry (m : msg_desc) : bool :=
  match m_options m with Some o => match mo_map_entry o with Some true => true | _ => false end | None => false end.
(** The nested messages (with their texts) up to the first map entry, this entry, and those after it. *)
Fixpoint next_entry (l : list (msg_desc * list token)) : list token * option (msg_desc * list (msg_desc * list token)) :=
  match l with
  | [] => ([], None)
  | (m, t) :: r => if is_entry m then ([], Some (m, r)) else let '(ts, e) := next_entry r in (t ++ ts, e)
  end.
Definition w_oneof (p3 : bool) (o : option oneof_desc) (fs : list field_desc) : list token :=
  kw "oneof" :: TIdent (text (match o with Some x => o_name x | None => None end)) ::
  w_braces (flat_map w_option (items (match o with Some x => o_options x | None => None end)) ++ flat_map (w_field p3 InOneof) fs).
(** Fields and nested messages. Map fields are written when the nested messages before their entry have been. *)
Fixpoint w_runs (p3 : bool) (oneofs : list oneof_desc) (rs : list (option Z * list field_desc)) (nested : list (msg_desc * list token)) : list token :=
  match rs with
  | [] => flat_map snd nested
  | (Some i, fs) :: r => w_oneof p3 (nth_error oneofs (Z.to_nat i)) fs ++ w_runs p3 oneofs r nested
  | (None, fs) :: r =>
    match fs with
    | [f] =>
      if is_map f then
        let '(ts, e) := next_entry nested in
        match e with Some (m, nested') => ts ++ w_map m f ++ w_runs p3 oneofs r nested' | None => [] end
      else w_field p3 InMessage f ++ w_runs p3 oneofs r nested
    | _ => []
    end
  end.
(** The end of a range is exclusive; with the option message_set_wire_format it can be i32::MAX. *)
Definition w_range_end (z : Z) : list token := if (z =? 2147483647)%Z then [kw "max"] else w_Z (z - 1).
Definition w_message_range (r : reserved_range) : list token := kw "reserved" :: w_Z (num (r_start r)) ++ kw "to" :: w_range_end (num (r_end r)) ++ [TSemicolon].
Definition w_ext_range (r : ext_range) : list token :=
  kw "extensions" :: w_Z (num (x_start r)) ++ kw "to" :: w_range_end (num (x_end r)) ++ w_settings (x_options r) ++ [TSemicolon].
Fixpoint w_message (p3 : bool) (m : msg_desc) : list token :=
  match m with
  | MsgDesc name fields exts nested enums xrs oneofs options rrs rns =>
    kw "message" :: TIdent (text name) :: w_braces
      (flat_map w_option (match options with Some o => mo_uninterpreted o | None => [] end) ++
       w_runs p3 oneofs (runs fields) (map (fun n => (n, w_message p3 n)) nested) ++
       flat_map (w_extension p3) exts ++ flat_map w_enum enums ++
       flat_map w_ext_range xrs ++ flat_map w_message_range rrs ++ flat_map w_reserved_name rns)
  end.

(** Files *)
Definition w_kind (d : file_desc) (i : nat) : list token :=
  if existsb (Z.eqb (Z.of_nat i)) (d_public d) then [kw "public"]
  else if existsb (Z.eqb (Z.of_nat i)) (d_weak d) then [kw "weak"] else [].
Fixpoint w_imports (d : file_desc) (i : nat) (l : list bytes) : list token :=
  match l with [] => [] | x :: r => kw "import" :: w_kind d i ++ TStr x :: TSemicolon :: w_imports d (S i) r end.
Definition is_proto3 (d : file_desc) : bool := match d_syntax d with Some _ => true | None => false end.
Definition w_file (d : file_desc) : list token :=
  kw "syntax" :: TEquals :: TStr (if is_proto3 d then b "proto3" else b "proto2") :: TSemicolon ::
  match d_package d with Some n => kw "package" :: w_name n ++ [TSemicolon] | None => [] end ++
  w_imports d 0 (d_dependency d) ++ flat_map w_option (items (d_options d)) ++
  flat_map (w_message (is_proto3 d)) (d_message d) ++ flat_map w_enum (d_enum d) ++ flat_map w_service (d_service d) ++
  flat_map (w_extension (is_proto3 d)) (d_extension d).

(** The text. *)
Definition spell (t : token) : bytes :=
  match t with
  | TIdent s => s
  | TInt n => dec n
  | TFloat x => x
  | TStr s => [34] ++ flat_map ascii_escape_default s ++ [34]
  | TDot => b "." | TMinus => b "-"
  | TLeftParen => b "(" | TRightParen => b ")"
  | TLeftBrace => b "{" | TRightBrace => b "}"
  | TLeftBracket => b "[" | TRightBracket => b "]"
  | TLeftAngle => b "<" | TRightAngle => b ">"
  | TComma => b "," | TEquals => b "=" | TSemicolon => b ";"
  | _ => []
  end.
Definition spelled (ts : list token) : bytes := flat_map (fun t => 32 :: spell t) ts.
Definition write (d : file_desc) : bytes := spelled (w_file d).

(** ** Which descriptors *)
Definition octets (s : bytes) : Prop := Forall (fun c => c < 256) s.
Definition qualified (n : bytes) : Prop := exists ws, ws <> [] /\ Forall identifier ws /\ n = separated 46 ws.
Definition absolute (n : bytes) : Prop := exists m, n = 46 :: m /\ qualified m.
(** A type name whose first word is not one of [ks]. *)
Definition type_ref (ks : list bytes) (n : bytes) : Prop :=
  absolute n \/ exists w ws, ~ In w ks /\ Forall identifier (w :: ws) /\ n = separated 46 (w :: ws).
(** Words that mean something else at the start of a field's type. *)
Definition scalar_words : list bytes :=
  [b "double"; b "float"; b "int32"; b "int64"; b "uint32"; b "uint64"; b "sint32"; b "sint64"; b "fixed32"; b "fixed64"; b "sfixed32"; b "sfixed64";
   b "bool"; b "string"; b "bytes"].
Definition label_words : list bytes := [b "optional"; b "required"; b "repeated"].
Definition place_words (pl : place_of_field) : list bytes :=
  match pl with
  | InMessage => [b "oneof"; b "enum"; b "message"; b "extend"; b "option"; b "reserved"; b "extensions"]
  | InOneof => [b "option"]
  | InExtend => []
  end.
(** Words a field's type cannot start with; if there is no label before it, more of them. *)
Definition field_words (unlabelled : bool) (pl : place_of_field) : list bytes :=
  scalar_words ++ [b "map"; b "group"] ++ if unlabelled then label_words ++ place_words pl else [].

Definition part_ok (p : bytes * bool) : Prop := if snd p then qualified (fst p) \/ absolute (fst p) else identifier (fst p).
(** A floating-point literal (lex/mod.rs:28-40) without the suffix of the text format. *)
Definition float_text (x : bytes) : Prop :=
  (exists r, In (r, KFloat) patterns /\ matches r x) /\ ~ (exists v c, x = v ++ [c] /\ (c = N_of_ascii "f" \/ c = N_of_ascii "F")).
(** Options with an identifier, a number or a string as value. *)
Definition option_ok (u : uopt) : Prop :=
  uo_name u <> [] /\ Forall part_ok (uo_name u) /\
  let with_ i p n d s := u = {| uo_name := uo_name u; uo_identifier := i; uo_positive := p; uo_negative := n; uo_double := d; uo_string := s; uo_aggregate := None |} in
  ((exists i, identifier i /\ with_ (Some i) None None None None) \/
   (exists p, p < 2 ^ 64 /\ with_ None (Some p) None None None) \/
   (exists z, (-9223372036854775808 <= z <= 0)%Z /\ with_ None None (Some z) None None) \/
   (exists s, octets s /\ with_ None None None None (Some s)) \/
   (exists neg x, float_text x /\ with_ None None None (Some (neg, x)) None)).
Definition options_ok (o : option (list uopt)) : Prop := match o with None => True | Some l => l <> [] /\ Forall option_ok l end.
Definition name_ok (o : option bytes) : Prop := exists n, o = Some n /\ identifier n.
Definition number_in (lo hi : Z) (o : option Z) : Prop := exists z, o = Some z /\ (lo <= z <= hi)%Z.

Definition enum_value_ok (v : enum_value_desc) : Prop :=
  (exists n, v_name v = Some n /\ identifier n /\ n <> b "option" /\ n <> b "reserved") /\
  number_in (-2147483648) 2147483647 (v_number v) /\ options_ok (v_options v).
Definition reserved_name_ok (n : bytes) : Prop := exists c r, n = c :: r /\ (65 <= c <= 90 \/ 97 <= c <= 122) /\ Forall name_char r.
Definition enum_ok (e : enum_desc) : Prop :=
  name_ok (e_name e) /\ Forall enum_value_ok (e_value e) /\ options_ok (e_options e) /\
  Forall (fun r => number_in (-2147483648) 2147483647 (r_start r) /\ number_in (-2147483648) 2147483647 (r_end r)) (e_reserved_range e) /\
  Forall reserved_name_ok (e_reserved_name e).

Definition flag_ok (o : option bool) : Prop := o = None \/ o = Some true.
(** Without the word stream before it, a type cannot start with it. *)
Definition stream_words (o : option bool) : list bytes := match o with Some true => [] | _ => [b "stream"] end.
Definition method_ok (m : method_desc) : Prop :=
  name_ok (me_d_name m) /\ (exists t, me_d_input m = Some t /\ type_ref (stream_words (me_d_client m)) t) /\ (exists t, me_d_output m = Some t /\ type_ref (stream_words (me_d_server m)) t) /\
  options_ok (me_d_options m) /\ flag_ok (me_d_client m) /\ flag_ok (me_d_server m).
Definition service_ok (s : service_desc) : Prop := name_ok (s_name s) /\ Forall method_ok (s_method s) /\ options_ok (s_options s).

Definition label_ok (p3 : bool) (pl : place_of_field) (f : field_desc) : Prop :=
  match f_label f with
  | Some LabOptional => f_proto3_optional f = None \/ (f_proto3_optional f = Some true /\ p3 = true /\ pl <> InOneof)
  | Some LabRepeated => pl <> InOneof /\ f_proto3_optional f = None
  | Some LabRequired => pl = InMessage /\ p3 = false /\ f_proto3_optional f = None
  | None => False
  end.
Definition type_ok (ks : list bytes) (f : field_desc) : Prop :=
  match f_type f with
  | None => exists t, f_type_name f = Some t /\ type_ref ks t
  | Some (FTGroup | FTMessage | FTEnum) => False
  | Some _ => f_type_name f = None
  end.
(** How a byte is escaped in the default value of a bytes field. *)
Definition escaped (c : N) : bytes :=
  match c with
  | 9 => b "\t" | 10 => b "\n" | 13 => b "\r" | 34 => [92; 34] | 39 => b "\'" | 92 => b "\\"
  | _ => if (32 <=? c) && (c <=? 126) then [c] else [92; 48 + c / 64; 48 + c / 8 mod 8; 48 + c mod 8]
  end.
Definition default_ok (p3 : bool) (f : field_desc) : Prop :=
  match f_default f with
  | None => True
  | Some v => p3 = false /\ f_label f <> Some LabRepeated /\
    match f_type f with
    | None => identifier v
    | Some FTString => octets v /\ utf8_text v
    | Some FTBytes => exists s, octets s /\ v = flat_map escaped s
    | Some FTBool => v = b "true" \/ v = b "false"
    | Some (FTInt32 | FTSint32 | FTSfixed32) => exists z, (-2147483648 <= z <= 2147483647)%Z /\ decimalZ z v
    | Some (FTInt64 | FTSint64 | FTSfixed64) => exists z, (-9223372036854775808 <= z <= 9223372036854775807)%Z /\ decimalZ z v
    | Some (FTUint32 | FTFixed32) => exists n, n < 2 ^ 32 /\ decimal n v
    | Some (FTUint64 | FTFixed64) => exists n, n < 2 ^ 64 /\ decimal n v
    | Some _ => False
    end
  end.
(** The options default and json_name are kept apart, once. *)
Definition not_special (f : field_desc) (u : uopt) : Prop :=
  (f_default f = None -> uo_name u <> [(b "default", false)]) /\ (f_json_name f = None -> uo_name u <> [(b "json_name", false)]).
(** What plain and map fields have in common. *)
Definition tail_ok (f : field_desc) : Prop :=
  name_ok (f_name f) /\ number_in 1 536870911 (f_number f) /\
  match f_json_name f with Some s => octets s /\ utf8_text s | None => True end /\
  options_ok (f_options f) /\ Forall (not_special f) (items (f_options f)).
Definition field_ok (p3 : bool) (pl : place_of_field) (f : field_desc) : Prop :=
  tail_ok f /\ label_ok p3 pl f /\ type_ok (field_words (match w_label p3 pl f with [] => true | _ => false end) pl) f /\ default_ok p3 f.
Definition extension_ok (p3 : bool) (f : field_desc) : Prop :=
  field_ok p3 InExtend f /\ f_oneof_index f = None /\ exists t, f_extendee f = Some t /\ (qualified t \/ absolute t).
(** The entry message of a map. *)
Definition entry_field (n : bytes) (i : Z) (t : option ftype) (tn : option bytes) : field_desc :=
  {| f_name := Some n; f_number := Some i; f_label := Some LabOptional; f_type := t; f_type_name := tn; f_extendee := None; f_default := None;
     f_oneof_index := None; f_json_name := Some n; f_options := None; f_proto3_optional := None |}.
Definition entry (name : option bytes) (kt : ftype) (vt : option ftype) (vtn : option bytes) : msg_desc :=
  MsgDesc name [entry_field (b "key") 1 (Some kt) None; entry_field (b "value") 2 vt vtn] [] [] [] [] []
    (Some {| mo_map_entry := Some true; mo_uninterpreted := [] |}) [] [].
Definition camel_entry (n : bytes) : bytes := flat_map (fun w => match w with c :: r => (if (97 <=? c) && (c <=? 122) then c - 32 else c) :: r | [] => [] end)
  ((fix words (l : bytes) : list bytes := match l with [] => [[]] | c :: r => if c =? 95 then [] :: words r else match words r with w :: ws => (c :: w) :: ws | [] => [[c]] end end) n) ++ b "Entry".
(** [f] is a map field with the entry [m]. *)
Definition map_ok (f : field_desc) (m : msg_desc) : Prop :=
  tail_ok f /\ f_label f = Some LabRepeated /\ f_type_name f = Some (camel_entry (text (f_name f))) /\
  f_default f = None /\ f_oneof_index f = None /\ f_proto3_optional f = None /\
  exists kt value, m = entry (f_type_name f) kt (f_type value) (f_type_name value) /\
    ~ In kt [FTDouble; FTFloat; FTBytes; FTGroup; FTMessage; FTEnum] /\ type_ok scalar_words value.
Definition oneof_ok (o : oneof_desc) : Prop := name_ok (o_name o) /\ options_ok (o_options o).
Definition own_oneof (f : field_desc) : oneof_desc :=
  {| o_name := Some (match text (f_name f) with c :: r => if c =? 95 then b "X" ++ c :: r else b "_" ++ c :: r | [] => b "_" end); o_options := None |}.
(** The first option message_set_wire_format is [true]. *)
Definition message_set_format (o : option msg_options) : bool :=
  match find (fun u => match uo_name u with [(n, false)] => bytes_eqb n (b "message_set_wire_format") | _ => false end) (match o with Some x => mo_uninterpreted x | None => [] end) with
  | Some u => match uo_identifier u with Some i => bytes_eqb i (b "true") | None => false end
  | None => false
  end.
Definition range_ok (ms : bool) (lo hi : option Z) : Prop := number_in 1 536870911 lo /\ (number_in 2 536870912 hi \/ (ms = true /\ hi = Some 2147483647%Z)).

(** Any message without groups. The oneofs are numbered in the order of their fields, first the written ones, then those of [optional] fields;
    the map fields have their entries in the same order. *)
Inductive message_ok (p3 : bool) : msg_desc -> Prop :=
| message_ok_ name fields exts nested enums xrs oneofs options rrs rns written :
    name_ok name ->
    (options = None \/ exists l, options = Some {| mo_map_entry := None; mo_uninterpreted := l |} /\ l <> [] /\ Forall option_ok l) ->
    Forall (fun f => f_extendee f = None) fields ->
    Forall (fun f => is_map f = false -> field_ok p3 (if oneof_of f then InOneof else InMessage) f) fields ->
    Forall2 map_ok (filter is_map fields) (filter is_entry nested) ->
    flat_map (fun r => match fst r with Some i => [i] | None => [] end) (runs fields) = map Z.of_nat (seq 0 (length written)) ->
    Forall oneof_ok written ->
    oneofs = written ++ map own_oneof (filter optional3 fields) ->
    map f_oneof_index (filter optional3 fields) = map (fun i => Some (Z.of_nat i)) (seq (length written) (length (filter optional3 fields))) ->
    Forall (extension_ok p3) exts ->
    (forall m, In m nested -> is_entry m = false -> message_ok p3 m) ->
    Forall enum_ok enums ->
    Forall (fun r => range_ok (message_set_format options) (x_start r) (x_end r) /\ options_ok (x_options r)) xrs ->
    Forall (fun r => range_ok (message_set_format options) (r_start r) (r_end r)) rrs ->
    Forall reserved_name_ok rns ->
    message_ok p3 (MsgDesc name fields exts nested enums xrs oneofs options rrs rns).

(** Import paths: components other than [.] and [..] separated by slashes, no backslash. *)
Definition component_ok (s : bytes) : Prop := s <> [] /\ s <> b "." /\ s <> b ".." /\ ~ In 47 s /\ ~ In 92 s.
Definition import_ok (v : bytes) : Prop := octets v /\ utf8_text v /\ exists ns, ns <> [] /\ Forall component_ok ns /\ v = separated 47 ns.
(** Indices of imports, in order. *)
Definition indices_ok (n : nat) (l : list Z) : Prop := l = filter (fun z => existsb (Z.eqb z) l) (map Z.of_nat (seq 0 n)).
Definition writable (d : file_desc) : Prop :=
  (d_syntax d = None \/ d_syntax d = Some (b "proto3")) /\
  match d_package d with Some n => qualified n | None => True end /\
  Forall import_ok (d_dependency d) /\ indices_ok (length (d_dependency d)) (d_public d) /\ indices_ok (length (d_dependency d)) (d_weak d) /\
  (forall z, In z (d_public d) -> ~ In z (d_weak d)) /\
  options_ok (d_options d) /\
  Forall (fun m => is_entry m = false /\ message_ok (is_proto3 d) m) (d_message d) /\
  Forall enum_ok (d_enum d) /\ Forall service_ok (d_service d) /\ Forall (extension_ok (is_proto3 d)) (d_extension d).

(** ** What the writer does not write: groups, aggregate option values, default values of type float and double, and
    those of a named type other than identifiers. *)
Definition plain_option (u : uopt) : Prop := uo_aggregate u = None.
Definition plain_options (o : option (list uopt)) : Prop := Forall plain_option (items o).
Definition plain_field (f : field_desc) : Prop :=
  f_type f <> Some FTGroup /\ plain_options (f_options f) /\
  match f_default f with
  | Some v => match f_type f with Some (FTDouble | FTFloat) => False | None => identifier v | _ => True end
  | None => True
  end.
Definition plain_enum (e : enum_desc) : Prop := plain_options (e_options e) /\ Forall (fun v => plain_options (v_options v)) (e_value e).
Definition plain_service (s : service_desc) : Prop := plain_options (s_options s) /\ Forall (fun m => plain_options (me_d_options m)) (s_method s).
Inductive plain_message : msg_desc -> Prop :=
| plain_message_ name fields exts nested enums xrs oneofs options rrs rns :
    Forall plain_field fields -> Forall plain_field exts -> Forall plain_message nested -> Forall plain_enum enums ->
    Forall (fun r => plain_options (x_options r)) xrs -> Forall (fun o => plain_options (o_options o)) oneofs ->
    Forall plain_option (match options with Some o => mo_uninterpreted o | None => [] end) ->
    plain_message (MsgDesc name fields exts nested enums xrs oneofs options rrs rns).
Definition plain_file (d : file_desc) : Prop :=
  plain_options (d_options d) /\ Forall plain_message (d_message d) /\ Forall plain_enum (d_enum d) /\ Forall plain_service (d_service d) /\
  Forall plain_field (d_extension d).
