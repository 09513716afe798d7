(** Specification of the language accepted by protox-parse: the protobuf
    grammar as relations between lists of significant tokens (no comments, no
    newlines) and declarations. This file does not refer to the parser; it uses
    the tokens (Lex.v), the declarations (Ast.v) and UTF-8 (Utf8Spec.v).

    Comments are not part of the significant tokens. The relations are
    parametric in a relation [com st e c], which says which comments [c] a
    declaration carries that starts with the token at [st] and whose head ends
    with the token at [e] (the opening brace or the semicolon; for an rpc with a
    body the closing brace). It is
    instantiated with the specification of comment attachment of AttachSpec.v,
    or with the total relation where comments do not matter. Spans are exact:
    those of the tokens. *)
From Verif Require Import Base Utf8 Utf8Spec Errors Lex Ast.

(** A significant token, its span, and whether it stands inside a text-format
    message (an aggregate option value), where the lexer accepts two more
    lexical forms: hash comments and f-suffixed floats. *)
Definition tk : Type := (token * span * bool)%type.
Definition tk_tok (x : tk) : token := fst (fst x).
Definition tk_span (x : tk) : span := snd (fst x).
Definition tk_mark (x : tk) : bool := snd x.

Definition sym (t : token) (sp : span) : list tk := [(t, sp, false)].
Definition first_tok (ts : list tk) : option token := match ts with [] => None | x :: _ => Some (tk_tok x) end.
Definition first_span (ts : list tk) : span := match ts with [] => (0, 0) | x :: _ => tk_span x end.
Definition last_span (ts : list tk) : span := match ts with [] => (0, 0) | x :: _ => tk_span (last ts x) end.

(** The first token is none of the given keywords. *)
Definition not_kw (ks : list bytes) (ts : list tk) : Prop :=
  forall s, In s ks -> first_tok ts <> Some (TIdent s).

(** [item]s, and [item]s separated by [sep]. *)
Inductive g_many {A} (item : list tk -> A -> Prop) : list tk -> list A -> Prop :=
| g_nil : g_many item [] []
| g_cons ts a ts' l : item ts a -> g_many item ts' l -> g_many item (ts ++ ts') (a :: l).
Inductive g_sep {A} (sep : token) (item : list tk -> A -> Prop) : list tk -> list A -> Prop :=
| g_one ts a : item ts a -> g_sep sep item ts [a]
| g_more ts a sp ts' l : item ts a -> g_sep sep item ts' l -> g_sep sep item (ts ++ sym sep sp ++ ts') (a :: l).

(** ** Words *)
Definition letter (c : N) : Prop := 65 <= c <= 90 \/ 97 <= c <= 122.
Definition word_char (c : N) : Prop := letter c \/ 48 <= c <= 57 \/ c = 95.
(** A letter followed by letters, digits and underscores. *)
Definition word (n : bytes) : Prop := exists c r, n = c :: r /\ letter c /\ Forall word_char r.
(** The same, starting with an upper-case letter. *)
Definition capitalised (n : bytes) : Prop := exists c r, n = c :: r /\ 65 <= c <= 90 /\ Forall word_char r.
(** Relative paths without [.], [..], empty components and backslashes. *)
Definition safe_component (s : bytes) : Prop := s <> [] /\ s <> b "." /\ s <> b ".." /\ ~ In 47 s /\ ~ In 92 s.
Definition relative_path (v : bytes) : Prop := exists ns, ns <> [] /\ Forall safe_component ns /\ v = join_slash ns.

Definition scalar_names : list (bytes * ty) :=
  [(b "double", TyDouble); (b "float", TyFloat); (b "int32", TyInt32); (b "int64", TyInt64);
   (b "uint32", TyUint32); (b "uint64", TyUint64); (b "sint32", TySint32); (b "sint64", TySint64);
   (b "fixed32", TyFixed32); (b "fixed64", TyFixed64); (b "sfixed32", TySfixed32); (b "sfixed64", TySfixed64);
   (b "bool", TyBool); (b "string", TyString); (b "bytes", TyBytes)].
Definition label_names : list (bytes * flabel) :=
  [(b "optional", LOptional); (b "required", LRequired); (b "repeated", LRepeated)].

(** ** Names, numbers, strings *)
Inductive g_ident : list tk -> ident -> Prop :=
| g_ident_ v sp : g_ident (sym (TIdent v) sp) {| id_val := v; id_span := sp |}.

Definition g_full_ident : list tk -> full_ident -> Prop := g_sep TDot g_ident.

Inductive g_type_name : list tk -> type_name -> Prop :=
| g_relative ts n : g_full_ident ts n -> g_type_name ts {| tn_dot := None; tn_name := n |}
| g_absolute sp ts n : g_full_ident ts n -> g_type_name (sym TDot sp ++ ts) {| tn_dot := Some sp; tn_name := n |}.

Inductive g_int : list tk -> aint -> Prop :=
| g_pos v sp : g_int (sym (TInt v) sp) {| i_neg := false; i_val := v; i_span := sp |}
| g_neg st v sp : g_int (sym TMinus st ++ sym (TInt v) sp) {| i_neg := true; i_val := v; i_span := join_span st sp |}.

(** Adjacent string literals are concatenated. *)
Inductive g_string : list tk -> astring -> Prop :=
| g_str v sp : g_string (sym (TStr v) sp) {| st_val := v; st_span := sp |}
| g_strs v sp ts r : g_string ts r ->
    g_string (sym (TStr v) sp ++ ts) {| st_val := v ++ st_val r; st_span := join_span sp (st_span r) |}.
Inductive g_utf8_string : list tk -> bytes * span -> Prop :=
| g_utf8 ts r : g_string ts r -> utf8_text (st_val r) -> g_utf8_string ts (st_val r, st_span r).
Inductive g_ident_string : list tk -> ident -> Prop :=
| g_ids ts v sp : g_utf8_string ts (v, sp) -> word v -> g_ident_string ts {| id_val := v; id_span := sp |}.

(** ** Options *)
Inductive g_optname_part : list tk -> optname_part -> Prop :=
| g_onident ts i : g_ident ts i -> g_optname_part ts (ONIdent i)
| g_onext st ts n e : g_type_name ts n ->
    g_optname_part (sym TLeftParen st ++ ts ++ sym TRightParen e) (ONExtension n (join_span st e)).

(** Brace-balanced token lists, given [level] open braces. *)
Fixpoint balanced (level : N) (ts : list token) : Prop :=
  match ts with
  | [] => level = 0
  | TLeftBrace :: r => balanced (level + 1) r
  | TRightBrace :: r => level <> 0 /\ balanced (level - 1) r
  | _ :: r => balanced level r
  end.
(** The tokens' texts separated by single spaces. *)
Definition aggregate_text (k : cfg) (ts : list token) : bytes :=
  fold_left (fun acc t => (match acc with [] => [] | _ => acc ++ b " " end) ++ token_display k t) ts [].
Definition g_aggregate (ts : list tk) : Prop :=
  balanced 0 (map tk_tok ts) /\ Forall (fun x => tk_mark x = true) ts.

Inductive g_optval (k : cfg) : list tk -> optval -> Prop :=
| g_ovident v sp : g_optval k (sym (TIdent v) sp) (OVIdent false {| id_val := v; id_span := sp |} sp)
| g_ovnident st v sp : g_optval k (sym TMinus st ++ sym (TIdent v) sp) (OVIdent true {| id_val := v; id_span := sp |} (join_span st sp))
| g_ovint ts i : g_int ts i -> g_optval k ts (OVInt i)
| g_ovfloat v sp : g_optval k (sym (TFloat v) sp) (OVFloat {| fl_neg := false; fl_text := v; fl_span := sp |})
| g_ovnfloat st v sp : g_optval k (sym TMinus st ++ sym (TFloat v) sp) (OVFloat {| fl_neg := true; fl_text := v; fl_span := join_span st sp |})
| g_ovstring ts s : g_string ts s -> g_optval k ts (OVString s)
| g_ovagg st ts e : g_aggregate ts ->
    g_optval k (sym TLeftBrace st ++ ts ++ [(TRightBrace, e, true)]) (OVAggregate (aggregate_text k (map tk_tok ts)) (join_span st e)).

Inductive g_option_body (k : cfg) : list tk -> optbody -> Prop :=
| g_ob ts n sp ts' v : g_sep TDot g_optname_part ts n -> g_optval k ts' v ->
    g_option_body k (ts ++ sym TEquals sp ++ ts') {| ob_name := n; ob_value := v |}.

(** Which comments a declaration carries. *)
Class comspec : Type := com : span -> span -> acomments -> Prop.
Definition any_comments : comspec := fun _ _ _ => True.
Section Comspec.
Context {C : comspec}.

Inductive g_option (k : cfg) : list tk -> option_ -> Prop :=
| g_opt st ts o e c : g_option_body k ts o -> com st e c ->
    g_option k (sym (kw "option") st ++ ts ++ sym TSemicolon e) {| op_body := o; op_comments := c; op_span := join_span st e |}.

Inductive g_options_list (k : cfg) : list tk -> optlist -> Prop :=
| g_ol st ts os e : g_sep TComma (g_option_body k) ts os ->
    g_options_list k (sym TLeftBracket st ++ ts ++ sym TRightBracket e) {| ol_options := os; ol_span := join_span st e |}.
Inductive g_opt_options (k : cfg) : list tk -> option optlist -> Prop :=
| g_no_options : g_opt_options k [] None
| g_some_options ts o : g_options_list k ts o -> g_opt_options k ts (Some o).

(** ** Reserved and extension ranges *)
Inductive g_range : list tk -> rrange -> Prop :=
| g_rsingle ts i : g_int ts i -> g_range ts {| rr_start := i; rr_end := RENone |}
| g_rto ts i sp ts' j : g_int ts i -> g_int ts' j ->
    g_range (ts ++ sym (kw "to") sp ++ ts') {| rr_start := i; rr_end := REInt j |}
| g_rmax ts i sp e : g_int ts i ->
    g_range (ts ++ sym (kw "to") sp ++ sym (kw "max") e) {| rr_start := i; rr_end := REMax e |}.

Inductive g_reserved : list tk -> reserved -> Prop :=
| g_rranges st ts l e c : g_sep TComma g_range ts l -> com st e c ->
    g_reserved (sym (kw "reserved") st ++ ts ++ sym TSemicolon e) {| rs_kind := RKRanges l; rs_comments := c; rs_span := join_span st e |}
| g_rnames st ts l e c : g_sep TComma g_ident_string ts l -> com st e c ->
    g_reserved (sym (kw "reserved") st ++ ts ++ sym TSemicolon e) {| rs_kind := RKNames l; rs_comments := c; rs_span := join_span st e |}.

(** Here protox deviates from the language reference: options are accepted only
    after a range with an upper bound ([extensions 5 [deprecated = true];] is
    refused, [extensions 5 to 5 [deprecated = true];] is not). *)
Inductive g_extensions (k : cfg) : list tk -> extensions -> Prop :=
| g_ext st ts l os o e c : g_sep TComma g_range ts l -> g_opt_options k os o ->
    (o = None \/ exists l' r, l = l' ++ [r] /\ rr_end r <> RENone) -> com st e c ->
    g_extensions k (sym (kw "extensions") st ++ ts ++ os ++ sym TSemicolon e)
      {| ex_ranges := l; ex_options := o; ex_comments := c; ex_span := join_span st e |}.

(** ** Fields *)
Inductive g_field_type : list tk -> ty * span -> Prop :=
| g_scalar s t sp : In (s, t) scalar_names -> g_field_type (sym (TIdent s) sp) (t, sp)
| g_named ts n : g_type_name ts n -> not_kw (map fst scalar_names) ts ->
    g_field_type ts (TyNamed n, join_span (first_span ts) (last_span ts)).

Inductive g_label : list tk -> option (flabel * span) -> Prop :=
| g_no_label : g_label [] None
| g_some_label s l sp : In (s, l) label_names -> g_label (sym (TIdent s) sp) (Some (l, sp)).

Section WithBody.
Variable k : cfg.
(** Message bodies up to and including the closing brace, whose span is the second component. *)
Variable g_body : list tk -> body * span -> Prop.

(** What follows the label. *)
Inductive g_field_rest (start : span) (label : option (flabel * span)) : list tk -> field -> Prop :=
| g_normal ts t tsp sp1 v sp2 ts' n os o e c :
    not_kw [b "map"; b "group"] ts -> g_field_type ts (t, tsp) -> g_int ts' n -> g_opt_options k os o -> com start e c ->
    g_field_rest start label (ts ++ sym (TIdent v) sp1 ++ sym TEquals sp2 ++ ts' ++ os ++ sym TSemicolon e)
      {| fd_label := label; fd_name := {| id_val := v; id_span := sp1 |}; fd_kind := FKNormal t tsp; fd_number := n;
         fd_options := o; fd_comments := c; fd_span := join_span start e |}
| g_map m0 m1 kts kt ksp m2 vts vt vsp m3 v sp1 sp2 ts' n os o e c :
    g_field_type kts (kt, ksp) -> g_field_type vts (vt, vsp) -> g_int ts' n -> g_opt_options k os o -> com start e c ->
    g_field_rest start label
      (sym (kw "map") m0 ++ sym TLeftAngle m1 ++ kts ++ sym TComma m2 ++ vts ++ sym TRightAngle m3 ++
       sym (TIdent v) sp1 ++ sym TEquals sp2 ++ ts' ++ os ++ sym TSemicolon e)
      {| fd_label := label; fd_name := {| id_val := v; id_span := sp1 |}; fd_kind := FKMap (join_span m0 m3) kt ksp vt vsp;
         fd_number := n; fd_options := o; fd_comments := c; fd_span := join_span start e |}
| g_group m0 v sp1 sp2 ts' n os o sp3 bts bd e c :
    capitalised v -> g_int ts' n -> g_opt_options k os o -> g_body bts (bd, e) -> com start sp3 c ->
    g_field_rest start label
      (sym (kw "group") m0 ++ sym (TIdent v) sp1 ++ sym TEquals sp2 ++ ts' ++ os ++ sym TLeftBrace sp3 ++ bts)
      {| fd_label := label; fd_name := {| id_val := v; id_span := sp1 |}; fd_kind := FKGroup m0 bd;
         fd_number := n; fd_options := o; fd_comments := c; fd_span := join_span start e |}.

Inductive g_field : list tk -> field -> Prop :=
| g_fd ls label ts f :
    g_label ls label -> (label = None -> not_kw [b "optional"; b "required"; b "repeated"] ts) ->
    g_field_rest (first_span (ls ++ ts)) label ts f -> g_field (ls ++ ts) f.

(** Elements of an extend block; [None] is a semicolon. *)
Inductive g_extend_elem : list tk -> option field -> Prop :=
| g_ee_empty sp : g_extend_elem (sym TSemicolon sp) None
| g_ee_field ts f : g_field ts f -> g_extend_elem ts (Some f).
Definition somes {A} (l : list (option A)) : list A := flat_map (fun o => match o with Some x => [x] | None => [] end) l.
Inductive g_extend : list tk -> extend -> Prop :=
| g_et st ts n sp es l e c : g_type_name ts n -> g_many g_extend_elem es l -> com st sp c ->
    g_extend (sym (kw "extend") st ++ ts ++ sym TLeftBrace sp ++ es ++ sym TRightBrace e)
      {| et_extendee := n; et_fields := somes l; et_comments := c; et_span := join_span st e |}.

Inductive oneof_elem : Type := OEEmpty | OEOption (o : option_) | OEField (f : field).
Inductive g_oneof_elem : list tk -> oneof_elem -> Prop :=
| g_oe_empty sp : g_oneof_elem (sym TSemicolon sp) OEEmpty
| g_oe_option ts o : g_option k ts o -> g_oneof_elem ts (OEOption o)
| g_oe_field ts f : not_kw [b "option"] ts -> g_field ts f -> g_oneof_elem ts (OEField f).
Inductive g_oneof : list tk -> oneof -> Prop :=
| g_oo st v sp0 sp es l e c : g_many g_oneof_elem es l -> com st sp c ->
    g_oneof (sym (kw "oneof") st ++ sym (TIdent v) sp0 ++ sym TLeftBrace sp ++ es ++ sym TRightBrace e)
      {| oo_name := {| id_val := v; id_span := sp0 |};
         oo_options := flat_map (fun x => match x with OEOption o => [o] | _ => [] end) l;
         oo_fields := flat_map (fun x => match x with OEField f => [f] | _ => [] end) l;
         oo_comments := c; oo_span := join_span st e |}.

Inductive g_message : list tk -> message -> Prop :=
| g_ms st v sp0 sp ts bd e c : g_body ts (bd, e) -> com st sp c ->
    g_message (sym (kw "message") st ++ sym (TIdent v) sp0 ++ sym TLeftBrace sp ++ ts)
      {| ms_name := {| id_val := v; id_span := sp0 |}; ms_body := bd; ms_comments := c; ms_span := join_span st e |}.
End WithBody.

(** ** Enums *)
Inductive g_enum_value (k : cfg) : list tk -> enum_value -> Prop :=
| g_ev v sp0 sp ts n os o e c : v <> b "option" -> v <> b "reserved" -> g_int ts n -> g_opt_options k os o -> com sp0 e c ->
    g_enum_value k (sym (TIdent v) sp0 ++ sym TEquals sp ++ ts ++ os ++ sym TSemicolon e)
      {| ev_name := {| id_val := v; id_span := sp0 |}; ev_number := n; ev_options := o; ev_comments := c; ev_span := join_span sp0 e |}.
Inductive enum_elem : Type := EEEmpty | EEOption (o : option_) | EEReserved (r : reserved) | EEValue (v : enum_value).
Inductive g_enum_elem (k : cfg) : list tk -> enum_elem -> Prop :=
| g_en_empty sp : g_enum_elem k (sym TSemicolon sp) EEEmpty
| g_en_option ts o : g_option k ts o -> g_enum_elem k ts (EEOption o)
| g_en_reserved ts r : g_reserved ts r -> g_enum_elem k ts (EEReserved r)
| g_en_value ts v : g_enum_value k ts v -> g_enum_elem k ts (EEValue v).
Inductive g_enum (k : cfg) : list tk -> enum -> Prop :=
| g_en st v sp0 sp es l e c : g_many (g_enum_elem k) es l -> com st sp c ->
    g_enum k (sym (kw "enum") st ++ sym (TIdent v) sp0 ++ sym TLeftBrace sp ++ es ++ sym TRightBrace e)
      {| en_name := {| id_val := v; id_span := sp0 |};
         en_options := flat_map (fun x => match x with EEOption o => [o] | _ => [] end) l;
         en_values := flat_map (fun x => match x with EEValue o => [o] | _ => [] end) l;
         en_reserved := flat_map (fun x => match x with EEReserved o => [o] | _ => [] end) l;
         en_comments := c; en_span := join_span st e |}.

(** ** Message bodies *)
Inductive body_elem : Type :=
| BEEmpty | BEItem (i : mitem) | BEOption (o : option_) | BEReserved (r : reserved) | BEExtensions (e : extensions).
Definition be_item (x : body_elem) := match x with BEItem i => [i] | _ => [] end.
Definition be_option (x : body_elem) := match x with BEOption i => [i] | _ => [] end.
Definition be_reserved (x : body_elem) := match x with BEReserved i => [i] | _ => [] end.
Definition be_extensions (x : body_elem) := match x with BEExtensions i => [i] | _ => [] end.

Inductive g_body_elem (k : cfg) (g_body : list tk -> body * span -> Prop) : list tk -> body_elem -> Prop :=
| g_be_empty sp : g_body_elem k g_body (sym TSemicolon sp) BEEmpty
| g_be_oneof ts x : g_oneof k g_body ts x -> g_body_elem k g_body ts (BEItem (MIOneof x))
| g_be_enum ts x : g_enum k ts x -> g_body_elem k g_body ts (BEItem (MIEnum x))
| g_be_message ts x : g_message g_body ts x -> g_body_elem k g_body ts (BEItem (MIMessage x))
| g_be_extend ts x : g_extend k g_body ts x -> g_body_elem k g_body ts (BEItem (MIExtend x))
| g_be_option ts x : g_option k ts x -> g_body_elem k g_body ts (BEOption x)
| g_be_reserved ts x : g_reserved ts x -> g_body_elem k g_body ts (BEReserved x)
| g_be_extensions ts x : g_extensions k ts x -> g_body_elem k g_body ts (BEExtensions x)
| g_be_field ts x : not_kw [b "oneof"; b "enum"; b "message"; b "extend"; b "option"; b "reserved"; b "extensions"] ts ->
    g_field k g_body ts x -> g_body_elem k g_body ts (BEItem (MIField x)).

(** Bodies of nesting depth below [n]. *)
Fixpoint g_body_n (k : cfg) (n : nat) : list tk -> body * span -> Prop :=
  match n with
  | O => fun _ _ => False
  | S m => fun ts r => exists es l, g_many (g_body_elem k (g_body_n k m)) es l /\
      ts = es ++ sym TRightBrace (snd r) /\
      fst r = Body (flat_map be_item l) (flat_map be_extensions l) (flat_map be_option l) (flat_map be_reserved l)
  end.
Definition g_body (k : cfg) (ts : list tk) (r : body * span) : Prop := exists n, g_body_n k n ts r.

(** ** Services *)
Inductive g_stream : list tk -> option span -> type_name -> Prop :=
| g_no_stream ts t : g_type_name ts t -> not_kw [b "stream"] ts -> g_stream ts None t
| g_is_stream sp ts t : g_type_name ts t -> g_stream (sym (kw "stream") sp ++ ts) (Some sp) t.
Inductive g_rpc_elem (k : cfg) : list tk -> option option_ -> Prop :=
| g_re_empty sp : g_rpc_elem k (sym TSemicolon sp) None
| g_re_option ts o : g_option k ts o -> g_rpc_elem k ts (Some o).
Inductive g_rpc_end (k : cfg) : list tk -> list option_ * span -> Prop :=
| g_rpc_semi sp : g_rpc_end k (sym TSemicolon sp) ([], sp)
| g_rpc_body sp es l e : g_many (g_rpc_elem k) es l ->
    g_rpc_end k (sym TLeftBrace sp ++ es ++ sym TRightBrace e) (somes l, e).
Inductive g_method (k : cfg) : list tk -> method -> Prop :=
| g_me st v sp0 p1 its cs it p2 r p3 ots ss ot p4 ets os e c :
    g_stream its cs it -> g_stream ots ss ot -> g_rpc_end k ets (os, e) -> com st e c ->
    g_method k (sym (kw "rpc") st ++ sym (TIdent v) sp0 ++ sym TLeftParen p1 ++ its ++ sym TRightParen p2 ++
                sym (kw "returns") r ++ sym TLeftParen p3 ++ ots ++ sym TRightParen p4 ++ ets)
      {| me_name := {| id_val := v; id_span := sp0 |}; me_input := it; me_output := ot; me_options := os;
         me_client := cs; me_server := ss; me_comments := c; me_span := join_span st e |}.
Inductive service_elem : Type := SEEmpty | SEOption (o : option_) | SEMethod (m : method).
Inductive g_service_elem (k : cfg) : list tk -> service_elem -> Prop :=
| g_se_empty sp : g_service_elem k (sym TSemicolon sp) SEEmpty
| g_se_option ts o : g_option k ts o -> g_service_elem k ts (SEOption o)
| g_se_method ts m : g_method k ts m -> g_service_elem k ts (SEMethod m).
Inductive g_service (k : cfg) : list tk -> service -> Prop :=
| g_sv st v sp0 sp es l e c : g_many (g_service_elem k) es l -> com st sp c ->
    g_service k (sym (kw "service") st ++ sym (TIdent v) sp0 ++ sym TLeftBrace sp ++ es ++ sym TRightBrace e)
      {| sv_name := {| id_val := v; id_span := sp0 |};
         sv_options := flat_map (fun x => match x with SEOption o => [o] | _ => [] end) l;
         sv_methods := flat_map (fun x => match x with SEMethod o => [o] | _ => [] end) l;
         sv_comments := c; sv_span := join_span st e |}.

(** ** Files *)
Inductive g_package : list tk -> package -> Prop :=
| g_pk st ts n e c : g_full_ident ts n -> com st e c ->
    g_package (sym (kw "package") st ++ ts ++ sym TSemicolon e) {| pk_name := n; pk_comments := c; pk_span := join_span st e |}.

Inductive g_import_kind : list tk -> option (import_kind * span) -> Prop :=
| g_ik_none : g_import_kind [] None
| g_ik_weak sp : g_import_kind (sym (kw "weak") sp) (Some (IWeak, sp))
| g_ik_public sp : g_import_kind (sym (kw "public") sp) (Some (IPublic, sp)).
Inductive g_import : list tk -> import -> Prop :=
| g_im st ks ik ts v vsp e c : g_import_kind ks ik -> g_utf8_string ts (v, vsp) -> relative_path v -> com st e c ->
    g_import (sym (kw "import") st ++ ks ++ ts ++ sym TSemicolon e)
      {| im_kind := ik; im_value := v; im_value_span := vsp; im_comments := c; im_span := join_span st e |}.

Inductive g_statement (k : cfg) : list tk -> statement -> Prop :=
| g_st_empty sp : g_statement k (sym TSemicolon sp) (StEmpty sp)
| g_st_package ts x : g_package ts x -> g_statement k ts (StPackage x)
| g_st_import ts x : g_import ts x -> g_statement k ts (StImport x)
| g_st_option ts x : g_option k ts x -> g_statement k ts (StOption x)
| g_st_message ts x : g_message (g_body k) ts x -> g_statement k ts (StMessage x)
| g_st_enum ts x : g_enum k ts x -> g_statement k ts (StEnum x)
| g_st_service ts x : g_service k ts x -> g_statement k ts (StService x)
| g_st_extend ts x : g_extend k (g_body k) ts x -> g_statement k ts (StExtend x).

Definition st_packages (s : statement) := match s with StPackage x => [x] | _ => [] end.
Definition st_imports (s : statement) := match s with StImport x => [x] | _ => [] end.
Definition st_options (s : statement) := match s with StOption x => [x] | _ => [] end.
Definition st_items (s : statement) : list fitem :=
  match s with
  | StMessage x => [FIMessage x] | StEnum x => [FIEnum x] | StService x => [FIService x] | StExtend x => [FIExtend x]
  | _ => []
  end.

(** The syntax declaration; without one the file is proto2. *)
Definition syntax_text (sx : syntax) : bytes := match sx with Proto2 => b "proto2" | Proto3 => b "proto3" end.
Inductive g_syntax : list tk -> syntax -> option (span * acomments) -> Prop :=
| g_sx_none : g_syntax [] Proto2 None
| g_sx st sp ts v e c sx : g_string ts v -> st_val v = syntax_text sx -> com st e c ->
    g_syntax (sym (kw "syntax") st ++ sym TEquals sp ++ ts ++ sym TSemicolon e) sx (Some (join_span st e, c)).

(** A file of [n] bytes. Its span covers all tokens (and is [(n, 0)] if there is none). *)
Inductive g_file (k : cfg) (n : N) : list tk -> file -> Prop :=
| g_fi ss sx sxs ts l pkg :
    g_syntax ss sx sxs -> g_many (g_statement k) ts l ->
    flat_map st_packages l = match pkg with Some p => [p] | None => [] end ->
    g_file k n (ss ++ ts)
      {| fi_span := match ss ++ ts with [] => (n, 0) | _ => join_span (first_span (ss ++ ts)) (last_span (ss ++ ts)) end;
         fi_syntax := sx; fi_syntax_span := sxs; fi_package := pkg;
         fi_imports := flat_map st_imports l; fi_options := flat_map st_options l; fi_items := flat_map st_items l |}.
End Comspec.
