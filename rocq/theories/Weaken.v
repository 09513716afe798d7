(** The grammar does not depend on what it says about comments: a derivation
    for one reading of comments is one for every wider reading. *)
From Verif Require Import Base Errors Lex Ast Comments Parse Grammar.

Section Weaken.
Variables C C' : comspec.
Hypothesis HC : forall a e c, @com C a e c -> @com C' a e c.

Lemma w_many {A} (p q : list tk -> A -> Prop) : (forall ts a, p ts a -> q ts a) -> forall ts l, g_many p ts l -> g_many q ts l.
Proof. intros H ts l. induction 1; constructor; auto. Qed.
Ltac w := destruct 1; econstructor; eauto.
Lemma w_option k ts o : @g_option C k ts o -> @g_option C' k ts o.
Proof. w. Qed.
Lemma w_reserved ts o : @g_reserved C ts o -> @g_reserved C' ts o.
Proof. w. Qed.
Lemma w_extensions k ts o : @g_extensions C k ts o -> @g_extensions C' k ts o.
Proof. w. Qed.
Hint Resolve w_option w_reserved w_extensions : core.

Section Body.
Variable k : cfg.
Variables p q : list tk -> body * span -> Prop.
Hypothesis Hpq : forall ts r, p ts r -> q ts r.
Lemma w_field_rest st l ts f : @g_field_rest C k p st l ts f -> @g_field_rest C' k q st l ts f.
Proof. w. Qed.
Lemma w_field ts f : @g_field C k p ts f -> @g_field C' k q ts f.
Proof. destruct 1; econstructor; eauto using w_field_rest. Qed.
Lemma w_extend_elem ts f : @g_extend_elem C k p ts f -> @g_extend_elem C' k q ts f.
Proof. destruct 1; econstructor; eauto using w_field. Qed.
Lemma w_extend ts f : @g_extend C k p ts f -> @g_extend C' k q ts f.
Proof. destruct 1; econstructor; eauto. eapply w_many; [|eassumption]. exact w_extend_elem. Qed.
Lemma w_oneof_elem ts f : @g_oneof_elem C k p ts f -> @g_oneof_elem C' k q ts f.
Proof. destruct 1; econstructor; eauto using w_field. Qed.
Lemma w_oneof ts f : @g_oneof C k p ts f -> @g_oneof C' k q ts f.
Proof. destruct 1; econstructor; eauto. eapply w_many; [|eassumption]. exact w_oneof_elem. Qed.
Lemma w_message ts f : @g_message C p ts f -> @g_message C' q ts f.
Proof. w. Qed.
End Body.
Lemma w_enum_value k ts v : @g_enum_value C k ts v -> @g_enum_value C' k ts v.
Proof. w. Qed.
Lemma w_enum_elem k ts v : @g_enum_elem C k ts v -> @g_enum_elem C' k ts v.
Proof. destruct 1; econstructor; eauto using w_enum_value. Qed.
Lemma w_enum k ts v : @g_enum C k ts v -> @g_enum C' k ts v.
Proof. destruct 1; econstructor; eauto. eapply w_many; [|eassumption]. exact (w_enum_elem k). Qed.
Lemma w_body_elem k (p q : list tk -> body * span -> Prop) : (forall ts r, p ts r -> q ts r) -> forall ts x, @g_body_elem C k p ts x -> @g_body_elem C' k q ts x.
Proof. intros H ts x. destruct 1; econstructor; eauto using w_oneof, w_enum, w_message, w_extend, w_field. Qed.
Lemma w_body_n k n : forall ts r, @g_body_n C k n ts r -> @g_body_n C' k n ts r.
Proof.
  induction n as [|n IH]; intros ts r H; [destruct H|]. destruct H as (es & l & H1 & H2 & H3). exists es, l. split; [|auto].
  eapply w_many; [|exact H1]. apply w_body_elem. exact IH.
Qed.
Lemma w_body k ts r : @g_body C k ts r -> @g_body C' k ts r.
Proof. intros (n & H). exists n. now apply w_body_n. Qed.
Lemma w_rpc_elem k ts v : @g_rpc_elem C k ts v -> @g_rpc_elem C' k ts v.
Proof. w. Qed.
Lemma w_rpc_end k ts v : @g_rpc_end C k ts v -> @g_rpc_end C' k ts v.
Proof. destruct 1; econstructor; eauto. eapply w_many; [|eassumption]. exact (w_rpc_elem k). Qed.
Lemma w_method k ts v : @g_method C k ts v -> @g_method C' k ts v.
Proof. destruct 1; econstructor; eauto using w_rpc_end. Qed.
Lemma w_service_elem k ts v : @g_service_elem C k ts v -> @g_service_elem C' k ts v.
Proof. destruct 1; econstructor; eauto using w_method. Qed.
Lemma w_service k ts v : @g_service C k ts v -> @g_service C' k ts v.
Proof. destruct 1; econstructor; eauto. eapply w_many; [|eassumption]. exact (w_service_elem k). Qed.
Lemma w_package ts v : @g_package C ts v -> @g_package C' ts v.
Proof. w. Qed.
Lemma w_import ts v : @g_import C ts v -> @g_import C' ts v.
Proof. w. Qed.
Lemma w_statement k ts v : @g_statement C k ts v -> @g_statement C' k ts v.
Proof. destruct 1; econstructor; eauto using w_package, w_import, w_option, w_enum, w_service. all: first [eapply w_message|eapply w_extend]; try eassumption; exact (w_body k). Qed.
Lemma w_statements k ts l : g_many (@g_statement C k) ts l -> g_many (@g_statement C' k) ts l.
Proof. apply w_many. exact (w_statement k). Qed.
Lemma w_syntax ts sx s : @g_syntax C ts sx s -> @g_syntax C' ts sx s.
Proof. w. Qed.
End Weaken.
