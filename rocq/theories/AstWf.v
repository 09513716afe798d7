(** Well-formedness of the declarations of a source of [n] bytes: spans are
    ordered and inside the source, names are not empty, and there are at most
    [n] of anything. Derived from the grammar in AstWfG.v. *)
From Verif Require Import Base Utf8 Errors Lex Ast Parse LexSafe Grammar.

Section Wf.
Variable n : N.
Notation sok := (span_ok n).

Definition wf_tname (t : type_name) : Prop := tn_name t <> [] /\ exists sp, type_name_span t = Some sp /\ sok sp.
Definition wf_part (x : optname_part) : Prop := match x with ONIdent _ => True | ONExtension t _ => wf_tname t end.
Definition wf_body_ (o : optbody) : Prop :=
  Forall wf_part (ob_name o) /\ (exists sp, ob_span o = Some sp /\ sok sp) /\ sok (optval_span (ob_value o)) /\
  match ob_value o with OVInt i => i_val i < 2 ^ 64 | _ => True end.
Definition wf_option (o : option_) : Prop := wf_body_ (op_body o) /\ sok (op_span o).
Definition wf_options (l : list option_) : Prop := Forall wf_option l /\ len l <= n.
Definition wf_optlist (o : option optlist) : Prop :=
  match o with None => True | Some l => Forall wf_body_ (ol_options l) /\ len (ol_options l) <= n /\ sok (ol_span l) end.
Definition wf_range (r : rrange) : Prop := sok (i_span (rr_start r)) /\ sok (rr_end_span r) /\ sok (rr_span r).
Definition wf_reserved (r : reserved) : Prop :=
  sok (rs_span r) /\ match rs_kind r with RKRanges l => Forall wf_range l | RKNames l => Forall (fun i => sok (id_span i)) l end.
Definition res_size (r : reserved) : N := match rs_kind r with RKRanges l => len l | RKNames l => len l end.
Definition total {A} (f : A -> N) (l : list A) : N := fold_right (fun x a => f x + a) 0 l.
Definition wf_reserveds (l : list reserved) : Prop := Forall wf_reserved l /\ total res_size l <= n.
Definition wf_extension (x : extensions) : Prop := sok (ex_span x) /\ Forall wf_range (ex_ranges x) /\ wf_optlist (ex_options x).
Definition wf_extensions (l : list extensions) : Prop := Forall wf_extension l /\ total (fun x => len (ex_ranges x)) l <= n.
Definition wf_enum_value (v : enum_value) : Prop :=
  sok (ev_span v) /\ sok (id_span (ev_name v)) /\ sok (i_span (ev_number v)) /\ wf_optlist (ev_options v).
Definition wf_enum (e : enum) : Prop :=
  sok (en_span e) /\ sok (id_span (en_name e)) /\ Forall wf_enum_value (en_values e) /\ len (en_values e) <= n /\
  wf_reserveds (en_reserved e) /\ wf_options (en_options e).
Definition wf_opt_span (o : option span) : Prop := match o with Some sp => sok sp | None => True end.
Definition wf_method (m : method) : Prop :=
  sok (me_span m) /\ sok (id_span (me_name m)) /\ wf_tname (me_input m) /\ wf_tname (me_output m) /\
  wf_opt_span (me_client m) /\ wf_opt_span (me_server m) /\ wf_options (me_options m).
Definition wf_service (s : service) : Prop :=
  sok (sv_span s) /\ sok (id_span (sv_name s)) /\ Forall wf_method (sv_methods s) /\ len (sv_methods s) <= n /\ wf_options (sv_options s).

Definition wf_ty (t : ty) : Prop := match t with TyNamed t => wf_tname t | _ => True end.
Section WithBody.
Context {B : Type}.
Variable wf_b : B -> Prop.
Definition wf_kind (nm : bytes) (x : fkind_ B) : Prop :=
  match x with
  | FKNormal t sp => wf_ty t /\ sok sp
  | FKGroup sp bd => sok sp /\ wf_b bd /\ capitalised nm
  | FKMap sp kt ks vt vs => sok sp /\ wf_ty kt /\ sok ks /\ wf_ty vt /\ sok vs
  end.
Definition wf_field (f : field_ B) : Prop :=
  sok (fd_span f) /\ sok (id_span (fd_name f)) /\ sok (i_span (fd_number f)) /\ wf_kind (id_val (fd_name f)) (fd_kind f) /\
  wf_optlist (fd_options f) /\ match fd_label f with Some (_, sp) => sok sp | None => True end.
Definition wf_extend (e : extend_ B) : Prop := sok (et_span e) /\ wf_tname (et_extendee e) /\ Forall wf_field (et_fields e).
Definition wf_oneof (o : oneof_ B) : Prop :=
  sok (oo_span o) /\ sok (id_span (oo_name o)) /\ wf_options (oo_options o) /\ Forall wf_field (oo_fields o).
Definition wf_message (m : message_ B) : Prop := sok (ms_span m) /\ sok (id_span (ms_name m)) /\ wf_b (ms_body m).
Definition wf_item (it : mitem_ B) : Prop :=
  match it with
  | MIField f => wf_field f
  | MIEnum e => wf_enum e
  | MIMessage m => wf_message m
  | MIExtend e => wf_extend e
  | MIOneof o => wf_oneof o
  end.
(** An upper bound for the number of fields, extensions, messages, enums and oneofs it adds. *)
Definition weight (it : mitem_ B) : N :=
  match it with MIExtend e => 1 + len (et_fields e) | MIOneof o => 1 + len (oo_fields o) | _ => 1 end.
End WithBody.

(** Bodies of nesting depth below [d]. *)
Fixpoint wf_body_n (d : nat) (bd : body) : Prop :=
  match d with
  | O => False
  | S d' =>
    Forall (wf_item (wf_body_n d')) (bd_items bd) /\ total weight (bd_items bd) <= n /\
    wf_extensions (bd_extensions bd) /\ wf_options (bd_options bd) /\ wf_reserveds (bd_reserved bd)
  end.
Definition wf_body (bd : body) : Prop := exists d, wf_body_n d bd.

Definition wf_import (i : import) : Prop :=
  sok (im_span i) /\ match im_kind i with Some (_, sp) => sok sp | None => True end.
Definition wf_fitem (it : fitem) : Prop :=
  match it with
  | FIEnum e => wf_enum e
  | FIMessage m => wf_message wf_body m
  | FIExtend e => wf_extend wf_body e
  | FIService s => wf_service s
  end.
Definition fweight (it : fitem) : N := match it with FIExtend e => 1 + len (et_fields e) | _ => 1 end.
Definition wf_file (f : file) : Prop :=
  (sok (fi_span f) \/ fi_span f = (n, 0)) /\
  match fi_syntax_span f with Some (sp, _) => sok sp | None => True end /\
  match fi_package f with Some p => sok (pk_span p) /\ pk_name p <> [] | None => True end /\
  Forall wf_import (fi_imports f) /\ len (fi_imports f) <= n /\
  wf_options (fi_options f) /\
  Forall wf_fitem (fi_items f) /\ total fweight (fi_items f) <= n.
End Wf.
