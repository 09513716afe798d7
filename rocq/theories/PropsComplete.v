(** C04, C05: the parser accepts every sentence of the grammar; white space,
    comments and the spelling of tokens do not matter. *)
From Verif Require Import Base SynSpec Utf8 Errors Lex LexSpec PropsLex1 LexSafe Stream Ast Comments Parse Lines Descriptor Generate ParseApi Grammar Walk WalkG3 Meaning Erase AstWfG GenProofs PropsParse Complete1 Complete2 Complete3.

Lemma er_syntax f f' : er_file f' = er_file f -> fi_syntax f' = fi_syntax f.
Proof. intros E. exact (f_equal fi_syntax E). Qed.
Lemma er_ok k f f' : er_file f' = er_file f -> ok_file k (fi_syntax f') f' <-> ok_file k (fi_syntax f) f.
Proof. intros E. rewrite <- (ok_file_er k (fi_syntax f') f'), <- (ok_file_er k (fi_syntax f) f), E, (er_syntax _ _ E). reflexivity. Qed.
Lemma er_den k name f f' : er_file f' = er_file f -> den_file k (fi_syntax f') name f' = den_file k (fi_syntax f) name f.
Proof. intros E. rewrite <- (den_file_er k (fi_syntax f') name f'), <- (den_file_er k (fi_syntax f) name f), E, (er_syntax _ _ E). reflexivity. Qed.

Lemma accepted_lexes k src f : accepted k src f -> exists ts, @g_file (com_of k src) k (len src) ts f /\ lexes_to k src ts.
Proof. intros (ts & G & E & M). exists ts. split; [exact G|]. split; [|exact M]. rewrite E, map_map. reflexivity. Qed.

(** ** C04: a source that lexes without error to a sentence of the grammar is
    accepted, provided the sentence satisfies the checks of the descriptor generator ([ok_file]);
    its descriptor is the meaning of the sentence. *)
Theorem C04_complete {CS : comspec} k sort name src n ts f : len src <= i32_max ->
  g_file k n ts f -> map fst (sigs (stream k src 0)) = map (fun x => Some (tk_tok x)) ts -> mclean k (marks ts) src 0 -> ok_file k (fi_syntax f) f ->
  exists d a, parse k sort name src = Done (inl d, a) /\ with_source_info d None = den_file k (fi_syntax f) name f.
Proof.
  intros Hn G H1 H2 Hok. destruct (parse_file_complete k src n ts f G (conj H1 H2)) as (f' & a & E & Er).
  destruct (parse_file_sound k src) as (r & a' & E' & _ & Hr). rewrite E in E'. injection E' as <- <-.
  unfold parse. apply N.ltb_ge in Hn. rewrite Hn, E. apply N.ltb_ge in Hn. cbn [obind].
  destruct (generate_file_spec k sort f' name src Hn (accepted_wf _ _ _ Hr)) as (ls & Els & [(Hok' & Eg)|(Hno & _)]).
  - rewrite Eg. cbn [obind]. eexists _, _. split; [reflexivity|]. rewrite <- (er_den k name _ _ Er). reflexivity.
  - exfalso. apply Hno, (er_ok k _ _ Er), Hok.
Qed.
Print Assumptions C04_complete.

(** Acceptance is exactly: short enough, a sentence, and valid. *)
Theorem C04_accepts_iff k sort name src :
  (exists d a, parse k sort name src = Done (inl d, a)) <-> len src <= i32_max /\ exists f, accepted k src f /\ ok_file k (fi_syntax f) f.
Proof.
  split.
  - intros (d & a & E). destruct (parse_ok_inv _ _ _ _ _ _ E) as (Hn & f & Ha & Hok & _). eauto.
  - intros (Hn & f & Ha & Hok). destruct (accepted_lexes _ _ _ Ha) as (ts & G & L1 & L2). destruct (C04_complete (CS := com_of k src) k sort name src _ ts f Hn G L1 L2 Hok) as (d & a & E & _). eauto.
Qed.
Print Assumptions C04_accepts_iff.

(** The grammar is unambiguous: all sentences a source lexes to have the same meaning. *)
Theorem C04_unambiguous k src f f' : accepted k src f -> accepted k src f' -> er_file f = er_file f'.
Proof.
  intros H H'. destruct (accepted_lexes _ _ _ H) as (ts & G & L). destruct (accepted_lexes _ _ _ H') as (ts' & G' & L').
  destruct (parse_file_complete _ _ _ _ _ G L) as (g & a & E & Er). destruct (parse_file_complete _ _ _ _ _ G' L') as (g' & a' & E' & Er'). congruence.
Qed.
Print Assumptions C04_unambiguous.

(** The deviation recorded in the grammar is real: options after an extension range without an end are rejected, although protoc takes them. *)
Theorem C04_extension_options_deviation :
  ok_result (b "message M { extensions 5 [deprecated = false]; }") = false /\
  ok_result (b "message M { extensions 5 to 5 [deprecated = false]; }") = true /\
  ok_result (b "message M { extensions 5; }") = true.
Proof. vm_compute. auto. Qed.
Print Assumptions C04_extension_options_deviation.
(** So is this one: [map] not followed by an angle bracket is not taken as the name of a type. *)
Theorem C04_type_named_map_deviation :
  ok_result (b "message M { optional map.T x = 1; }") = false /\ ok_result (b "message M { optional .map.T x = 1; }") = true.
Proof. vm_compute. auto. Qed.
Print Assumptions C04_type_named_map_deviation.
(** The hypotheses are met. *)
Example C04_example : exists f, accepted ex_k0 ex_proto2 f /\ ok_file ex_k0 (fi_syntax f) f.
Proof.
  apply (C04_accepts_iff ex_k0 loc_sort (b "x.proto") ex_proto2). pose proof ex_proto2_ok as H. unfold ok_result in H.
  destruct (parse ex_k0 loc_sort (b "x.proto") ex_proto2) as [[[d|e] a]| |]; try discriminate. eauto.
Qed.

(** ** C05: what matters is the sequence of significant tokens. [src2] has the same
    tokens as [src1] (their values: spelling, white space and comments may differ) and no lexical error
    where [src1] has none; then it is accepted too, with the same descriptor up to source info. *)
Theorem C05_same_tokens k sort sort' name src1 src2 d1 a1 :
  map fst (sigs (stream k src1 0)) = map fst (sigs (stream k src2 0)) ->
  (forall modes, mclean k modes src1 0 -> mclean k modes src2 0) -> len src2 <= i32_max ->
  parse k sort name src1 = Done (inl d1, a1) ->
  exists d2 a2, parse k sort' name src2 = Done (inl d2, a2) /\ with_source_info d2 None = with_source_info d1 None.
Proof.
  intros Es Hm Hn E. destruct (parse_ok_inv _ _ _ _ _ _ E) as (_ & f & Ha & Hok & (ls & _ & ->)). destruct (accepted_lexes _ _ _ Ha) as (ts & G & L1 & L2).
  destruct (C04_complete k sort' name src2 _ ts f Hn G) as (d2 & a2 & E2 & Ed); [congruence|auto|exact Hok|]. exists d2, a2. split; [exact E2|exact Ed].
Qed.
Print Assumptions C05_same_tokens.

(** In particular if [src2] lexes without error when nothing is taken as text format. *)
Lemma mclean_length k ms rest pos : mclean k ms rest pos -> length ms = length (sigs (stream k rest pos)).
Proof.
  induction 1 as [rest pos s' E|ms rest pos t s' E Ht He Hm IH|m ms rest pos t s' E Ht He Hm IH].
  - pose proof (stream_step _ _ _ _ E) as S. cbn [canon l_rest l_end] in S. now rewrite S.
  - pose proof (stream_step _ _ _ _ E) as S. cbn [canon l_rest l_end] in S. rewrite S, sigs_cons. unfold significant at 1. cbn [fst]. rewrite Ht. exact IH.
  - pose proof (stream_step _ _ _ _ E) as S. cbn [canon l_rest l_end] in S. rewrite S, sigs_cons. unfold significant at 1. cbn [fst]. rewrite Ht. cbn [negb length]. now rewrite IH.
Qed.
Lemma mclean_clean_false k s : clean k false (l_rest s) (l_end s) -> forall ms, length ms = length (sigs (stream k (l_rest s) (l_end s))) ->
  Forall (fun x => fst x <> None) (sigs (stream k (l_rest s) (l_end s))) -> mclean k ms (l_rest s) (l_end s).
Proof.
  apply (lex_ind k (fun s => clean k false (l_rest s) (l_end s) -> forall ms, length ms = length (sigs (stream k (l_rest s) (l_end s))) ->
    Forall (fun x => fst x <> None) (sigs (stream k (l_rest s) (l_end s))) -> mclean k ms (l_rest s) (l_end s))); clear s.
  - intros s s' H _ ms Hl _. rewrite (stream_step _ _ _ _ (lx_eq _ _ _ _ H)) in Hl. destruct ms; [|discriminate].
    destruct (lx_same _ _ _ _ H (canon false (l_rest s) (l_end s)) eq_refl eq_refl) as (c' & E & _). eapply mc_end. exact E.
  - intros s t s' H IH Hc ms Hl Hv. rewrite (stream_step _ _ _ _ (lx_eq _ _ _ _ H)), sigs_cons in Hl, Hv.
    assert (K : exists c', lex_next k (canon (hd false ms) (l_rest s) (l_end s)) = Done (Some t, c') /\ l_errs c' = [] /\ l_rest c' = l_rest s' /\ l_end c' = l_end s').
    { destruct (clean_fwd k false (canon (hd false ms) (l_rest s) (l_end s)) Hc) as (r & c' & Hx & He & _); [discriminate|].
      destruct (lx_same _ _ _ _ H (canon (hd false ms) (l_rest s) (l_end s)) eq_refl eq_refl) as (c2 & E2 & R1 & _ & R2 & _). rewrite (lx_eq _ _ _ _ Hx) in E2. injection E2 as <- <-.
      exists c'. split; [apply (lx_eq _ _ _ _ Hx)|]. auto. }
    destruct K as (c' & E & He & R1 & R2).
    assert (Hc' : clean k false (l_rest s') (l_end s')).
    { destruct (clean_fwd k false s Hc) as (r & s2 & Hx & _ & Hc'); [discriminate|]. pose proof (lx_eq _ _ _ _ Hx) as E2. rewrite (lx_eq _ _ _ _ H) in E2. injection E2 as <- <-. exact Hc'. }
    unfold significant in Hl at 1, Hv at 1. cbn [fst] in Hl, Hv. destruct t as [t|].
    + destruct (is_trivia t) eqn:Et; cbn [negb] in *.
      * eapply mc_trivia; [exact E|exact Et|exact He|]. rewrite R1, R2. auto.
      * destruct ms as [|m ms]; [discriminate|]. cbn [hd] in E. eapply mc_tok; [exact E|exact Et|exact He|]. rewrite R1, R2. apply IH; [exact Hc'|cbn in Hl; congruence|now inversion Hv].
    + inversion Hv; subst. cbn in *. congruence.
Qed.
Theorem C05_same_tokens_plain k sort sort' name src1 src2 d1 a1 :
  map fst (sigs (stream k src1 0)) = map fst (sigs (stream k src2 0)) -> clean k false src2 0 -> len src2 <= i32_max ->
  parse k sort name src1 = Done (inl d1, a1) ->
  exists d2 a2, parse k sort' name src2 = Done (inl d2, a2) /\ with_source_info d2 None = with_source_info d1 None.
Proof.
  intros Es Hc Hn E. destruct (parse_ok_inv _ _ _ _ _ _ E) as (_ & f & (ts & _ & S & _) & _).
  apply (C05_same_tokens k sort sort' name src1 src2 d1 a1 Es); auto. intros ms Hm. apply (mclean_clean_false k (canon false src2 0)); cbn [canon l_rest l_end].
  - exact Hc.
  - apply mclean_length in Hm. rewrite Hm. apply (f_equal (@length _)) in Es. rewrite !map_length in Es. exact Es.
  - apply Forall_forall. intros x Hx. apply (in_map fst) in Hx. rewrite <- Es, S, map_map in Hx. apply in_map_iff in Hx. destruct Hx as (y & <- & _). discriminate.
Qed.
Print Assumptions C05_same_tokens_plain.

(** Two layouts of the same declarations. *)
Definition c05_a : bytes := b "message M{optional int32 a=16[default=-5];}enum E{A=0;}option o='xy';".
Definition c05_b : bytes := b "/* c */message  M { // d" ++ nl_ ++ b "optional" ++ nl_ ++ b "int32 a = 0x10 /**/ [ default =" ++ [9] ++ b "- 05 ] ;" ++ nl_ ++ nl_ ++ b "}" ++ nl_ ++ b "// e" ++ nl_ ++ b "enum E { A = 00; } option o = ""x\171"" ; // f".
Example C05_example : map fst (sigs (stream ex_k0 c05_a 0)) = map fst (sigs (stream ex_k0 c05_b 0)) /\ clean ex_k0 false c05_b 0 /\ ok_result c05_a = true.
Proof. vm_compute. auto. Qed.
