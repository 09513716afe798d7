(** Declarations at any depth of a well-formed file are well-formed. *)
From Verif Require Import Base Utf8 Errors Lex Ast Parse LexSafe AstWf DescSpec.

Section Wf.
Variable n : N.
Notation wfb := (wf_body n).
Notation wff := (wf_field n wfb).
Lemma wf_field_n d (fd : field) : wf_field n (wf_body_n n d) fd -> wff fd.
Proof. unfold wf_field, wf_kind. destruct (fd_kind fd) as [t s|s bd|s kt ks vt vs]; auto. intros (H1 & H2 & H3 & (H4 & H5 & H6) & H7). assert (wfb bd) by (exists d; auto). tauto. Qed.
Lemma wf_item_n d (it : mitem) : wf_item n (wf_body_n n d) it -> wf_item n wfb it.
Proof.
  destruct it as [fd|e|m|e|o]; cbn [wf_item]; auto.
  - apply wf_field_n.
  - unfold wf_message. intros (H1 & H2 & H3). repeat split; auto; try apply H1; try apply H2. exists d. auto.
  - unfold wf_extend. intros (H1 & H2 & H3). split; auto. split; auto. eapply Forall_impl; [|exact H3]. apply wf_field_n.
  - unfold wf_oneof. intros (H1 & H2 & H3 & H4). split; auto. split; auto. split; auto. eapply Forall_impl; [|exact H4]. apply wf_field_n.
Qed.
Lemma wf_items bd : wfb bd -> Forall (wf_item n wfb) (bd_items bd).
Proof. intros [[|d] H]; [destruct H|]. destruct H as [H _]. eapply Forall_impl; [|exact H]. apply wf_item_n. Qed.
Lemma wf_parts bd : wfb bd -> wf_extensions n (bd_extensions bd) /\ wf_options n (bd_options bd) /\ wf_reserveds n (bd_reserved bd).
Proof. intros [[|d] H]; [destruct H|]. destruct H as (_ & _ & H). exact H. Qed.
Lemma wff_sub (fd : field) c : wff fd -> In c (field_sub fd) -> wfb c.
Proof. unfold wf_field, wf_kind, field_sub. destruct (fd_kind fd); cbn; try tauto. intros (_ & _ & _ & (_ & H & _) & _) [<-|[]]. exact H. Qed.
Lemma wf_sub bd c : wfb bd -> In c (flat_map item_sub (bd_items bd)) -> wfb c.
Proof.
  intros H Hc. apply wf_items in H. rewrite Forall_forall in H. apply in_flat_map in Hc. destruct Hc as (it & Hi & Hc). apply H in Hi.
  destruct it as [fd|e|m|e|o]; cbn [item_sub wf_item] in *.
  - eapply wff_sub; eauto.
  - destruct Hc.
  - destruct Hc as [<-|[]]. apply Hi.
  - apply in_flat_map in Hc. destruct Hc as (fd & Hf & Hc). destruct Hi as (_ & _ & Hi). rewrite Forall_forall in Hi. eapply wff_sub; eauto.
  - apply in_flat_map in Hc. destruct Hc as (fd & Hf & Hc). destruct Hi as (_ & _ & _ & Hi). rewrite Forall_forall in Hi. eapply wff_sub; eauto.
Qed.
Lemma wf_in bd c : body_in c bd -> wfb bd -> wfb c.
Proof. induction 1 as [|bd c p H1 H2 IH]; auto. intros H. apply IH. eapply wf_sub; eauto. Qed.
Lemma wf_of f bd : wf_file n f -> body_of f bd -> wfb bd.
Proof.
  intros (_ & _ & _ & _ & _ & _ & H & _) (it & c & Hi & Hc & Hb). apply (wf_in _ _ Hb). rewrite Forall_forall in H. apply H in Hi.
  destruct it as [e|m|e|s]; cbn [fitem_sub wf_fitem] in *; try destruct Hc as [<-|[]]; try destruct Hc; try apply Hi.
  apply in_flat_map in Hc. destruct Hc as (fd & Hf & Hc). destruct Hi as (_ & _ & Hi). rewrite Forall_forall in Hi. eapply wff_sub; eauto.
Qed.
Lemma decl_wf f sc fd : wf_file n f -> decl_of f sc fd -> wff fd.
Proof.
  intros Hf H. destruct H as [bd fd H1 H2|bd o fd H1 H2 H3|bd e fd H1 H2 H3|e fd H2 H3].
  - apply (wf_of _ _ Hf) in H1. apply wf_items in H1. rewrite Forall_forall in H1. exact (H1 _ H2).
  - apply (wf_of _ _ Hf) in H1. apply wf_items in H1. rewrite Forall_forall in H1. destruct (H1 _ H2) as (_ & _ & _ & H). rewrite Forall_forall in H. auto.
  - apply (wf_of _ _ Hf) in H1. apply wf_items in H1. rewrite Forall_forall in H1. destruct (H1 _ H2) as (_ & _ & H). rewrite Forall_forall in H. auto.
  - destruct Hf as (_ & _ & _ & _ & _ & _ & H & _). rewrite Forall_forall in H. destruct (H _ H2) as (_ & _ & H'). rewrite Forall_forall in H'. auto.
Qed.
End Wf.
