(** Every action of the parser keeps the first error of a run, and looking ahead
    adds only errors of the lexer. *)
From Coq Require Import ZifyBool ZifyN.
From Verif Require Import Base Utf8 Errors Lex LexSpec Stream Ast Comments Parse Walk Kept.

Section Keeps.
Variable k : cfg.

Definition quiet {A} (m : P A) : Prop := forall s, match m s with POk _ s' | PErr s' => keptx (errs s) (errs s') | _ => True end.
Definition keeps {A} (m : P A) : Prop := forall s, errs s <> [] -> match m s with POk _ s' | PErr s' => keptx (errs s) (errs s') | _ => True end.

Lemma keptx_more x y : keptx x y -> x <> [] -> y <> [].
Proof. destruct x as [|e x]; [congruence|]. cbn [keptx]. destruct (unx e); [intros H _ ->; discriminate H|intros (e' & H & _) _ ->; discriminate H]. Qed.
Lemma quiet_keeps {A} (m : P A) : quiet m -> keeps m.
Proof. intros H s _. apply H. Qed.
Lemma quiet_bind {A B} (m : P A) (f : A -> P B) : quiet m -> (forall a, quiet (f a)) -> quiet (bind m f).
Proof.
  intros H1 H2 s. unfold bind. specialize (H1 s). destruct (m s) as [a s'|s'| |]; auto. specialize (H2 a s'). destruct (f a s'); eauto using keptx_trans.
Qed.
Lemma keeps_bind {A B} (m : P A) (f : A -> P B) : keeps m -> (forall a, keeps (f a)) -> keeps (bind m f).
Proof.
  intros H1 H2 s Hs. unfold bind. specialize (H1 s Hs). destruct (m s) as [a s'|s'| |]; auto. specialize (H2 a s' (keptx_more _ _ H1 Hs)). destruct (f a s'); eauto using keptx_trans.
Qed.
Lemma quiet_same {A} (m : P A) : (forall s, match m s with POk _ s' | PErr s' => errs s' = errs s | _ => True end) -> quiet m.
Proof. intros H s. specialize (H s). destruct (m s); auto; rewrite H; apply keptx_refl. Qed.
Lemma quiet_ret {A} (a : A) : quiet (ret a).
Proof. now apply quiet_same. Qed.
Lemma quiet_fail {A} : quiet (@fail A).
Proof. now apply quiet_same. Qed.
Lemma quiet_panic {A} : quiet (@panic A).
Proof. now apply quiet_same. Qed.
Lemma quiet_get : quiet get.
Proof. now apply quiet_same. Qed.
Lemma quiet_dassert c : quiet (dassert c).
Proof. now apply quiet_same. Qed.
Lemma quiet_cm f : quiet (cm f).
Proof. apply quiet_same. intros s. unfold cm. destruct (f (p_cm s)). reflexivity. Qed.
Lemma quiet_set_tfm t : quiet (set_tfm t).
Proof. now apply quiet_same. Qed.
Lemma quiet_lexer_span : quiet lexer_span.
Proof. now apply quiet_same. Qed.
Lemma quiet_bump : quiet bump.
Proof. apply quiet_same. intros s. unfold bump, bind, get, ret, panic. destruct (p_peek s) as [[[t sp]|]|]; auto. destruct (is_trivia t); reflexivity. Qed.
Lemma quiet_upd {A} (f : pst -> A) (g : pst -> comments) : quiet (fun s => POk (f s) (set_cm s (g s))).
Proof. now apply quiet_same. Qed.
Lemma quiet_set_peek x : quiet (fun s => POk tt (set_peek s x)).
Proof. now apply quiet_same. Qed.
Lemma quiet_add_error e : unx e = false -> quiet (add_error e).
Proof. intros He s. cbn. apply keptx_app. now repeat constructor. Qed.
Lemma keeps_add_error e : keeps (add_error e).
Proof.
  intros s Hs. cbn [add_error set_lex p_lex with_errs l_errs]. destruct (errs s) as [|e0 l]; [congruence|]. cbn [app keptx hd_error]. destruct (unx e0) eqn:E; eauto.
Qed.
Lemma quiet_lexer_next : quiet (lexer_next k).
Proof. intros s. unfold lexer_next. destruct (lex_next k (p_lex s)) as [[r l]| |] eqn:E; auto. apply (lex_keptx _ _ _ _ E). Qed.
Lemma quiet_loop {A B} (f : A -> P (A + B)) a : (forall a, quiet (f a)) -> quiet (loop f a).
Proof.
  intros H. assert (G : forall n a, quiet (loopf n f a)). { induction n as [|n IH]; intros a0; [intros s; exact I|]. cbn [loopf]. apply quiet_bind; [apply H|]. intros [a'|v]; [apply IH|apply quiet_ret]. }
  intros s. apply (G (S (measure s)) a s).
Qed.
Lemma keeps_loop {A B} (f : A -> P (A + B)) a : (forall a, keeps (f a)) -> keeps (loop f a).
Proof.
  intros H. assert (G : forall n a, keeps (loopf n f a)). { induction n as [|n IH]; intros a0; [intros s _; exact I|]. cbn [loopf]. apply keeps_bind; [apply H|]. intros [a'|v]; [apply IH|apply quiet_keeps, quiet_ret]. }
  intros s Hs. apply (G (S (measure s)) a s Hs).
Qed.
Lemma quiet_catch {A B} (m : P A) (h : option A -> pst -> pres B) : quiet m -> (forall r, quiet (h r)) ->
  quiet (fun s => match m s with POk a s' => h (Some a) s' | PErr s' => h None s' | PPanic => PPanic | PNoFuel => PNoFuel end).
Proof.
  intros Hm Hh s. specialize (Hm s). destruct (m s) as [a t|t| |]; auto.
  - pose proof (Hh (Some a) t) as V. destruct (h (Some a) t); eauto using keptx_trans.
  - pose proof (Hh None t) as V. destruct (h None t); eauto using keptx_trans.
Qed.
Lemma keeps_catch {A B} (m : P A) (h : option A -> pst -> pres B) : keeps m -> (forall r, keeps (h r)) ->
  keeps (fun s => match m s with POk a s' => h (Some a) s' | PErr s' => h None s' | PPanic => PPanic | PNoFuel => PNoFuel end).
Proof.
  intros Hm Hh s Hs. specialize (Hm s Hs). destruct (m s) as [a t|t| |]; auto.
  - pose proof (Hh (Some a) t (keptx_more _ _ Hm Hs)) as V. destruct (h (Some a) t); eauto using keptx_trans.
  - pose proof (Hh None t (keptx_more _ _ Hm Hs)) as V. destruct (h None t); eauto using keptx_trans.
Qed.
Lemma quiet_ext {A} (m n : P A) : (forall s, m s = n s) -> quiet n -> quiet m.
Proof. intros H G s. rewrite H. apply G. Qed.
Lemma keeps_ext {A} (m n : P A) : (forall s, m s = n s) -> keeps n -> keeps m.
Proof. intros H G s. rewrite H. apply G. Qed.

(** ** Looking ahead *)
Create HintDb qd.
#[local] Hint Resolve quiet_ret quiet_fail quiet_panic quiet_get quiet_dassert quiet_cm quiet_set_tfm quiet_lexer_span quiet_bump quiet_set_peek quiet_upd quiet_lexer_next : qd.
Ltac qall := repeat
  match goal with
  | |- forall _, _ => intros
  | |- quiet (bind _ _) => apply quiet_bind
  | |- quiet (loop _ _) => apply quiet_loop
  | |- quiet (add_error _) => apply quiet_add_error; reflexivity
  | |- quiet _ => solve [auto with qd nocore]
  | |- quiet (match ?x with _ => _ end) => destruct x
  end.
Lemma quiet_next : quiet (next_ k).
Proof. unfold next_. qall. Qed.
#[local] Hint Resolve quiet_next : qd.
Lemma quiet_peek_comments : quiet (peek_comments k).
Proof. unfold peek_comments. qall. Qed.
#[local] Hint Resolve quiet_peek_comments : qd.
Lemma quiet_peek_skip : quiet (peek_skip_comments k).
Proof. unfold peek_skip_comments. qall. Qed.
Lemma quiet_peek_loop : quiet (peek_loop k).
Proof. unfold peek_loop. qall. Qed.
#[local] Hint Resolve quiet_peek_skip quiet_peek_loop : qd.
Lemma quiet_peek : quiet (peek k).
Proof. unfold peek. qall. Qed.
#[local] Hint Resolve quiet_peek : qd.
Lemma quiet_peek_ignore : quiet (peek_ignore k).
Proof. eapply quiet_ext; [|apply (quiet_catch (peek k) (fun _ => ret tt) quiet_peek)]; [intros s; unfold peek_ignore; destruct (peek k s); reflexivity|qall]. Qed.
#[local] Hint Resolve quiet_peek_ignore : qd.
Lemma quiet_leading : quiet (parse_leading_comments k).
Proof. unfold parse_leading_comments. apply quiet_bind; [auto with qd|]. intros _. exact (quiet_upd (fun s => fst (c_take_leading (p_cm s))) (fun s => snd (c_take_leading (p_cm s)))). Qed.
Lemma quiet_trailing lead : quiet (parse_trailing_comment k lead).
Proof. unfold parse_trailing_comment. apply quiet_bind; [auto with qd|]. intros _. exact (quiet_upd (fun s => {| ac_detached := fst lead; ac_leading := snd lead; ac_trailing := fst (c_take_trailing (p_cm s)) |}) (fun s => snd (c_take_trailing (p_cm s)))). Qed.
#[local] Hint Resolve quiet_leading quiet_trailing : qd.
Lemma quiet_skip_until ts : quiet (skip_until k ts).
Proof.
  unfold skip_until. apply quiet_loop. intros a.
  set (h := fun r : option (option (token * span)) => match r with Some None => ret (inr tt) | Some (Some (t, _)) => if mem_token t ts then ret (inr tt) else bump ;;; ret (inl tt) | None => (fun s => POk tt (set_peek s None)) ;;; ret (inl tt) end).
  eapply quiet_ext; [|apply (quiet_catch (peek k) h quiet_peek)].
  - intros s. cbv beta. destruct (peek k s) as [[[t sp]|] s'|s'| |]; try reflexivity. cbn [h]. destruct (mem_token t ts); reflexivity.
  - intros r. unfold h. qall.
Qed.

(** ** The parser *)
Create HintDb kd.
Lemma keeps_ret {A} (a : A) : keeps (ret a).
Proof. apply quiet_keeps, quiet_ret. Qed.
Lemma keeps_fail {A} : keeps (@fail A).
Proof. apply quiet_keeps, quiet_fail. Qed.
Lemma keeps_panic {A} : keeps (@panic A).
Proof. apply quiet_keeps, quiet_panic. Qed.
Lemma keeps_get : keeps get.
Proof. apply quiet_keeps, quiet_get. Qed.
Lemma keeps_dassert c : keeps (dassert c).
Proof. apply quiet_keeps, quiet_dassert. Qed.
Lemma keeps_cm f : keeps (cm f).
Proof. apply quiet_keeps, quiet_cm. Qed.
Lemma keeps_set_tfm t : keeps (set_tfm t).
Proof. apply quiet_keeps, quiet_set_tfm. Qed.
Lemma keeps_bump : keeps bump.
Proof. apply quiet_keeps, quiet_bump. Qed.
Lemma keeps_peek_skip : keeps (peek_skip_comments k).
Proof. apply quiet_keeps, quiet_peek_skip. Qed.
Lemma keeps_peek : keeps (peek k).
Proof. apply quiet_keeps, quiet_peek. Qed.
Lemma keeps_leading : keeps (parse_leading_comments k).
Proof. apply quiet_keeps, quiet_leading. Qed.
Lemma keeps_trailing l : keeps (parse_trailing_comment k l).
Proof. apply quiet_keeps, quiet_trailing. Qed.
Lemma keeps_skip_until l : keeps (skip_until k l).
Proof. apply quiet_keeps, quiet_skip_until. Qed.
#[local] Hint Resolve keeps_add_error keeps_ret keeps_fail keeps_panic keeps_get keeps_dassert keeps_cm keeps_set_tfm keeps_bump keeps_peek_skip keeps_peek keeps_leading keeps_trailing keeps_skip_until : kd.
Ltac kall := repeat
  match goal with
  | |- forall _, _ => intros
  | |- keeps (bind _ _) => apply keeps_bind
  | |- keeps (loop _ _) => apply keeps_loop
  | |- keeps _ => solve [auto with kd nocore]
  | |- keeps (match ?x with _ => _ end) => destruct x
  end.
Lemma keeps_unexpected {A} e : keeps (@unexpected_token k A e).
Proof. unfold unexpected_token. kall. Qed.
#[local] Hint Resolve keeps_unexpected : kd.
Lemma keeps_expect_eq t : keeps (expect_eq k t).
Proof. unfold expect_eq. kall. Qed.
#[local] Hint Resolve keeps_expect_eq : kd.
Lemma keeps_p_ident  : keeps (parse_ident k ).
Proof. unfold parse_ident. kall. Qed.
#[local] Hint Resolve keeps_p_ident : kd.
Lemma keeps_p_int  : keeps (parse_int k ).
Proof. unfold parse_int. kall. Qed.
#[local] Hint Resolve keeps_p_int : kd.
Lemma keeps_p_string  : keeps (parse_string k ).
Proof. unfold parse_string. kall. Qed.
#[local] Hint Resolve keeps_p_string : kd.
Lemma keeps_p_utf8_string  : keeps (parse_utf8_string k ).
Proof. unfold parse_utf8_string. kall. Qed.
#[local] Hint Resolve keeps_p_utf8_string : kd.
Lemma keeps_p_ident_string  : keeps (parse_ident_string k ).
Proof. unfold parse_ident_string. kall. Qed.
#[local] Hint Resolve keeps_p_ident_string : kd.
Lemma keeps_p_full_ident l : keeps (parse_full_ident k l).
Proof. unfold parse_full_ident. kall. Qed.
#[local] Hint Resolve keeps_p_full_ident : kd.
Lemma keeps_p_type_name l : keeps (parse_type_name k l).
Proof. unfold parse_type_name. kall. Qed.
#[local] Hint Resolve keeps_p_type_name : kd.
Lemma keeps_p_text_format_message  : keeps (parse_text_format_message k ).
Proof. unfold parse_text_format_message. kall. Qed.
#[local] Hint Resolve keeps_p_text_format_message : kd.
Lemma keeps_p_option_name_part  : keeps (parse_option_name_part k ).
Proof. unfold parse_option_name_part. kall. Qed.
#[local] Hint Resolve keeps_p_option_name_part : kd.
Lemma keeps_p_option_value  : keeps (parse_option_value k ).
Proof. unfold parse_option_value. kall. Qed.
#[local] Hint Resolve keeps_p_option_value : kd.
Lemma keeps_p_option_body  : keeps (parse_option_body k ).
Proof. unfold parse_option_body. kall. Qed.
#[local] Hint Resolve keeps_p_option_body : kd.
Lemma keeps_p_option  : keeps (parse_option k ).
Proof. unfold parse_option. kall. Qed.
#[local] Hint Resolve keeps_p_option : kd.
Lemma keeps_p_options_list  : keeps (parse_options_list k ).
Proof. unfold parse_options_list. kall. Qed.
#[local] Hint Resolve keeps_p_options_list : kd.
Lemma keeps_p_opt_options t e : keeps (parse_opt_options k t e).
Proof. unfold parse_opt_options. kall. Qed.
#[local] Hint Resolve keeps_p_opt_options : kd.
Lemma keeps_p_reserved_range  : keeps (parse_reserved_range k ).
Proof. unfold parse_reserved_range. kall. Qed.
#[local] Hint Resolve keeps_p_reserved_range : kd.
Lemma keeps_p_reserved_ranges l : keeps (parse_reserved_ranges k l).
Proof. unfold parse_reserved_ranges. kall. Qed.
#[local] Hint Resolve keeps_p_reserved_ranges : kd.
Lemma keeps_p_reserved_names  : keeps (parse_reserved_names k ).
Proof. unfold parse_reserved_names. kall. Qed.
#[local] Hint Resolve keeps_p_reserved_names : kd.
Lemma keeps_p_reserved  : keeps (parse_reserved k ).
Proof. unfold parse_reserved. kall. Qed.
#[local] Hint Resolve keeps_p_reserved : kd.
Lemma keeps_p_extensions  : keeps (parse_extensions k ).
Proof. unfold parse_extensions. kall. Qed.
#[local] Hint Resolve keeps_p_extensions : kd.
Lemma keeps_p_named_type l : keeps (parse_named_type k l).
Proof. unfold parse_named_type. kall. Qed.
#[local] Hint Resolve keeps_p_named_type : kd.
Lemma keeps_p_field_type l : keeps (parse_field_type k l).
Proof. unfold parse_field_type. kall. Qed.
#[local] Hint Resolve keeps_p_field_type : kd.
Lemma keeps_p_map lead st label : keeps (parse_map k lead st label).
Proof. unfold parse_map. kall. Qed.
#[local] Hint Resolve keeps_p_map : kd.
Lemma keeps_p_group pbody lead st label : keeps pbody -> keeps (parse_group k pbody lead st label).
Proof. intros Hb. unfold parse_group. kall. Qed.
#[local] Hint Resolve keeps_p_group : kd.
Lemma keeps_p_normal_field lead st label : keeps (parse_normal_field k lead st label).
Proof. unfold parse_normal_field. kall. Qed.
#[local] Hint Resolve keeps_p_normal_field : kd.
Lemma keeps_p_field pbody  : keeps pbody -> keeps (parse_field k pbody ).
Proof. intros Hb. unfold parse_field. kall. Qed.
#[local] Hint Resolve keeps_p_field : kd.
Lemma keeps_p_extend pbody  : keeps pbody -> keeps (parse_extend k pbody ).
Proof. intros Hb. unfold parse_extend. kall. Qed.
#[local] Hint Resolve keeps_p_extend : kd.
Lemma keeps_p_oneof pbody  : keeps pbody -> keeps (parse_oneof k pbody ).
Proof. intros Hb. unfold parse_oneof. kall. Qed.
#[local] Hint Resolve keeps_p_oneof : kd.
Lemma keeps_p_message pbody  : keeps pbody -> keeps (parse_message k pbody ).
Proof. intros Hb. unfold parse_message. kall. Qed.
#[local] Hint Resolve keeps_p_message : kd.
Lemma keeps_p_enum_value  : keeps (parse_enum_value k ).
Proof. unfold parse_enum_value. kall. Qed.
#[local] Hint Resolve keeps_p_enum_value : kd.
Lemma keeps_p_enum  : keeps (parse_enum k ).
Proof. unfold parse_enum. kall. Qed.
#[local] Hint Resolve keeps_p_enum : kd.
Lemma keeps_p_message_body n : keeps (parse_message_body k n).
Proof. induction n as [|n IH]; [intros s _; exact I|]. cbn [parse_message_body]. kall. Qed.
#[local] Hint Resolve keeps_p_message_body : kd.
Lemma keeps_p_stream  : keeps (parse_stream k ).
Proof. unfold parse_stream. kall. Qed.
#[local] Hint Resolve keeps_p_stream : kd.
Lemma keeps_p_rpc_end  : keeps (parse_rpc_end k ).
Proof. unfold parse_rpc_end. kall. Qed.
#[local] Hint Resolve keeps_p_rpc_end : kd.
Lemma keeps_p_service_rpc  : keeps (parse_service_rpc k ).
Proof. unfold parse_service_rpc. kall. Qed.
#[local] Hint Resolve keeps_p_service_rpc : kd.
Lemma keeps_p_service  : keeps (parse_service k ).
Proof. unfold parse_service. kall. Qed.
#[local] Hint Resolve keeps_p_service : kd.
Lemma keeps_p_syntax  : keeps (parse_syntax k ).
Proof. unfold parse_syntax. kall. Qed.
#[local] Hint Resolve keeps_p_syntax : kd.
Lemma keeps_p_package  : keeps (parse_package k ).
Proof. unfold parse_package. kall. Qed.
#[local] Hint Resolve keeps_p_package : kd.
Lemma keeps_p_import_kind  : keeps (parse_import_kind k ).
Proof. unfold parse_import_kind. kall. Qed.
#[local] Hint Resolve keeps_p_import_kind : kd.
Lemma keeps_p_import  : keeps (parse_import k ).
Proof. unfold parse_import. kall. Qed.
#[local] Hint Resolve keeps_p_import : kd.
Lemma keeps_p_statement n : keeps (parse_statement k n).
Proof. unfold parse_statement. kall. Qed.
#[local] Hint Resolve keeps_p_statement : kd.
Lemma keeps_add_statement f st : keeps (add_statement f st).
Proof. unfold add_statement. cbv zeta. kall. Qed.
#[local] Hint Resolve keeps_add_statement : kd.
Lemma keeps_file_step n f : keeps (file_step k n f).
Proof.
  unfold file_step.
  set (h := fun r : option (option statement) => match r with Some (Some st) => f' <- add_statement f st ;; ret (inl f') | Some None => ret (inr f) | None => s1 <- get ;; dassert (Nat.ltb 0 (length (l_errs (p_lex s1)))) ;;; skip_until k sync_tokens ;;; ret (inl f) end).
  eapply keeps_ext; [|apply (keeps_catch (parse_statement k n) h (keeps_p_statement n))].
  - intros s. cbv beta. destruct (parse_statement k n s) as [[st|] s'|s'| |]; reflexivity.
  - intros r. unfold h. kall.
Qed.
End Keeps.
#[export] Hint Resolve keeps_add_error keeps_ret keeps_fail keeps_panic keeps_get keeps_dassert keeps_cm keeps_set_tfm keeps_bump keeps_peek_skip keeps_peek keeps_leading keeps_trailing keeps_skip_until keeps_unexpected keeps_expect_eq keeps_p_ident keeps_p_int keeps_p_string keeps_p_utf8_string keeps_p_ident_string keeps_p_full_ident keeps_p_type_name keeps_p_text_format_message keeps_p_option_name_part keeps_p_option_value keeps_p_option_body keeps_p_option keeps_p_options_list keeps_p_opt_options keeps_p_reserved_range keeps_p_reserved_ranges keeps_p_reserved_names keeps_p_reserved keeps_p_extensions keeps_p_named_type keeps_p_field_type keeps_p_map keeps_p_group keeps_p_normal_field keeps_p_field keeps_p_extend keeps_p_oneof keeps_p_message keeps_p_enum_value keeps_p_enum keeps_p_message_body keeps_p_stream keeps_p_rpc_end keeps_p_service_rpc keeps_p_service keeps_p_syntax keeps_p_package keeps_p_import_kind keeps_p_import keeps_p_statement keeps_add_statement keeps_file_step : kd.
Ltac kall := repeat
  match goal with
  | |- forall _, _ => intros
  | |- keeps (bind _ _) => apply keeps_bind
  | |- keeps (loop _ _) => apply keeps_loop
  | |- keeps _ => solve [auto with kd nocore]
  | |- keeps (match ?x with _ => _ end) => destruct x
  end.
