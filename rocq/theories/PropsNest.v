(** C58: the texts of two source locations are nested or disjoint. *)
From Coq Require Import Sorting.Permutation.
From Verif Require Import Base SynSpec Utf8 Errors Lex LexSafe Ast Comments AttachSpec Parse Lines PropsLines Descriptor Generate ParseApi Stream Grammar Walk WalkG3 Meaning Erase AstWf
  GenProofs AstWfG PropsParse DescSpec PropsDesc LocSpec PropsLoc AttachDecl PropsAttach LocTree WalkG2 AstNames AstNest PropsTree SpanSpec Lam.

(** ** Positions are ordered like offsets *)
Lemma last_line_keep a c : newlines c = 0%nat -> last_line (a ++ c) = last_line a ++ c.
Proof.
  intros H. unfold last_line. rewrite rev_app_distr.
  assert (G : forall x y, newlines x = 0%nat -> take_while (fun c => negb (c =? 10)) (x ++ y) = x ++ take_while (fun c => negb (c =? 10)) y).
  { clear. intros x y. induction x as [|z x IH]; intros H; [reflexivity|]. change (z :: x) with ([z] ++ x) in H. rewrite newlines_app in H. unfold newlines at 1 in H. cbn [app take_while].
    cbn in H. destruct (z =? 10) eqn:E; cbn in H; [lia|]. cbn [negb]. f_equal. apply IH. lia. }
  assert (Hr : newlines (rev c) = 0%nat). { clear -H. induction c as [|z c IH]; [reflexivity|]. cbn [rev]. change (z :: c) with ([z] ++ c) in H. rewrite newlines_app in *. rewrite IH by lia. lia. }
  rewrite G by exact Hr. rewrite rev_app_distr, rev_involutive. reflexivity.
Qed.
Definition pos (src : bytes) (o : N) : position := (line_of src o, column_of src o).
Lemma pos_earlier src s e : s < e -> e <= len src -> earlier (pos src s) (pos src e).
Proof.
  intros H1 H2. unfold earlier, pos, line_of, column_of. cbn [fst snd].
  assert (E : exists c, before src e = before src s ++ c /\ (0 < length c)%nat).
  { exists (firstn (N.to_nat (e - s)) (skipn (N.to_nat s) src)). unfold before, len in *. split.
    - rewrite <- (firstn_skipn (N.to_nat s) (firstn (N.to_nat e) src)) at 1. rewrite firstn_firstn, skipn_firstn_comm. f_equal; f_equal; lia.
    - rewrite firstn_length, skipn_length. lia. }
  destruct E as (c & -> & Hc). rewrite newlines_app. destruct (newlines c) as [|n] eqn:E; [right|left; lia]. rewrite last_line_keep by exact E. rewrite app_length. split; [lia|]. lia.
Qed.
Lemma pos_not_after src s e : s <= e -> e <= len src -> not_after (pos src s) (pos src e).
Proof. intros H1 H2. destruct (N.eq_dec s e) as [->|Hn]; [now left|right]. apply pos_earlier; lia. Qed.
Lemma encode_covered src s e : covered (encode src s e) (pos src s) (pos src e).
Proof. unfold covered, encode, pos. cbn [fst snd]. destruct (_ =? _)%Z eqn:E; [left|now right]. apply Z.eqb_eq in E. now split. Qed.

Lemma in_sps (x : rawloc) l : In x l -> In (snd (fst x)) (sps l).
Proof. intros H. unfold sps. now apply (in_map (fun x => snd (fst x))). Qed.
Lemma accepted_seg k src f : accepted k src f -> sigs (stream k src 0) <> [] -> seg 0 (len src) (s_file f).
Proof.
  intros Ha Hne.
  pose proof Ha as (ts & G & Hs & Hm). pose proof (accepted_tok_in _ _ _ Hs) as T.
  assert (Hf : match ts with [] => True | x :: _ => fi_span f = join_span (first_span ts) (last_span ts) end).
  { clear - G. destruct G as [ss sx sxs ts l pkg H1 H2 H3]. cbn [fi_span]. destruct (ss ++ ts); [exact I|reflexivity]. }
  destruct ts as [|t0 ts]; [rewrite Hs in Hne; cbn in Hne; congruence|]. set (us := t0 :: ts) in *.
  destruct (tok_in_ends _ _ _ T ltac:(discriminate)) as (A1 & A2 & A3).
  assert (T' : tok_in (s_start (fi_span f)) (s_end (fi_span f)) us).
  { rewrite Hf. clear - T. subst us. unfold join_span, s_start, s_end. cbn [fst snd]. cbn [first_span]. destruct T as (T1 & T2 & T3 & T4). split; [unfold s_start; lia|]. split; [exact T2|]. split; [|exact T4].
    clear T1 T2 T4. revert t0 T3. induction ts as [|y l IH]; intros x T3; [cbn; reflexivity|]. rewrite last_span_cons by discriminate. destruct T3 as (T1 & T2 & T3 & T4).
    split; [exact T1|]. split; [exact T2|]. split; [apply IH; exact T3|exact T4]. }
  assert (Hi : s_start (fi_span f) < s_end (fi_span f) /\ s_end (fi_span f) <= len src) by (rewrite Hf; unfold join_span, s_start, s_end in *; cbn [fst snd]; lia).
  apply (seg_whole 0 (len src) (fi_span f) (tl (s_file f))); [exact (file_seg _ _ _ _ _ _ G T')|lia..].
Qed.
Theorem C58_nested_or_apart k sort name src d a : sorting sort -> parse k sort name src = Done (inl d, a) -> sigs (stream k src 0) <> [] ->
  exists locs, d_source_info d = Some locs /\
    (forall x, In x locs -> exists s e, covered (loc_span x) s e /\ earlier s e) /\
    forall x y, In x locs -> In y locs -> exists s e s' e', covered (loc_span x) s e /\ covered (loc_span y) s' e' /\ nested_or_apart s e s' e'.
Proof.
  intros Hsort E Hne. destruct (parse_ok_inv _ _ _ _ _ _ E) as (Hn & f & Ha & Hok & (ls & El & Ed)).
  pose proof (accepted_seg _ _ _ Ha Hne) as SG.
  exists (sort (map (mk ls) (l_file k (fi_syntax f) f))). split; [rewrite Ed; reflexivity|].
  destruct (Hsort (map (mk ls) (l_file k (fi_syntax f) f))) as [Hp _].
  assert (Hx : forall x, In x (sort (map (mk ls) (l_file k (fi_syntax f) f))) -> exists sp, In sp (s_file f) /\ loc_span x = encode src (s_start sp) (s_end sp)).
  { intros x Hx. apply (Permutation_in _ (Permutation_sym Hp)) in Hx. apply in_map_iff in Hx. destruct Hx as ([[p sp] c] & <- & Hx). apply in_sps in Hx. cbn [fst snd] in Hx.
    apply (sps_file k (fi_syntax f) f) in Hx. exists sp. split; [exact Hx|]. apply (mk_span src ls); auto. destruct SG as [SG _]. specialize (SG _ Hx). split; lia. }
  destruct SG as [SG1 SG2]. split.
  - intros x Hxi. destruct (Hx x Hxi) as (sp & I1 & E1). specialize (SG1 _ I1). exists (pos src (s_start sp)), (pos src (s_end sp)). rewrite E1. split; [apply encode_covered|apply pos_earlier; lia].
  - intros x y Hxi Hyi. destruct (Hx x Hxi) as (sp & I1 & E1). destruct (Hx y Hyi) as (sp' & I2 & E2). pose proof (SG1 _ I1) as B1. pose proof (SG1 _ I2) as B2. specialize (SG2 _ _ I1 I2).
    exists (pos src (s_start sp)), (pos src (s_end sp)), (pos src (s_start sp')), (pos src (s_end sp')). rewrite E1, E2. split; [apply encode_covered|]. split; [apply encode_covered|].
    unfold nested_or_apart, nested. unfold lam2, inn in SG2. destruct SG2 as [SG2|[SG2|[SG2|SG2]]]; [left|right; left|right; right; left|right; right; right]; try split; apply pos_not_after; lia.
Qed.
Print Assumptions C58_nested_or_apart.
(** The positions are determined by the numbers. *)
Lemma covered_unique l s e s' e' : covered l s e -> covered l s' e' -> s = s' /\ e = e'.
Proof. destruct s, e, s', e'. unfold covered. cbn [fst snd]. intros [[-> H1]|H1] [[H2 H3]|H2]; [|congruence|congruence|]; split; congruence. Qed.
(** A file without tokens has one location only. *)
Theorem C58_no_tokens k sort name src d a : sorting sort -> parse k sort name src = Done (inl d, a) -> sigs (stream k src 0) = [] ->
  exists x, d_source_info d = Some [x] /\ loc_path x = [].
Proof.
  intros Hsort E Hs. destruct (parse_ok_inv _ _ _ _ _ _ E) as (Hn & f & (ts & G & Hs' & Hm) & Hok & (ls & El & Ed)). rewrite Hs in Hs'. destruct ts; [|discriminate Hs'].
  assert (El' : l_file k (fi_syntax f) f = [at_ [] (fi_span f)]).
  { clear - G. remember [] as ts eqn:Et. destruct G as [ss sx sxs ts l pkg H1 H2 H3]. apply app_eq_nil in Et. destruct Et; subst. inversion H1; subst.
    inversion H2 as [|us a us' l' G1 G2 E1 E2]; subst.
    - cbn in H3. destruct pkg; [discriminate|]. reflexivity.
    - exfalso. apply app_eq_nil in E1. destruct E1; subst. clear - G1. inversion G1; subst; match goal with H : _ [] _ |- _ => inversion H end. }
  destruct (Hsort (map (mk ls) (l_file k (fi_syntax f) f))) as [Hp _]. rewrite El' in Hp. cbn [map] in Hp. apply Permutation_length_1_inv in Hp. exists (mk ls (at_ [] (fi_span f))). rewrite Ed, El'. cbn [map]. rewrite Hp. split; reflexivity.
Qed.

Print Assumptions C58_no_tokens.

(** Example: a group field and its message share their text; a oneof lies inside its message and around its fields; names and numbers lie apart. *)
Definition ex_nest : bytes := b "message M {" ++ nl_ ++ b "  optional group G = 1 { }" ++ nl_ ++ b "  oneof o { int32 a = 2; }" ++ nl_ ++ b "}".
Definition spans_at (src : bytes) (p : list Z) : list (list Z) :=
  match d_source_info (desc_of src) with Some l => map loc_span (filter (fun x => if list_eq_dec Z.eq_dec (loc_path x) p then true else false) l) | None => [] end.
Example C58_example : ok_result ex_nest = true /\ spans_at ex_nest [4; 0]%Z = [[0; 0; 3; 1]%Z] /\
  spans_at ex_nest [4; 0; 2; 0]%Z = [[1; 2; 26]%Z] /\ spans_at ex_nest [4; 0; 3; 0]%Z = [[1; 2; 26]%Z] /\
  spans_at ex_nest [4; 0; 8; 0]%Z = [[2; 2; 26]%Z] /\ spans_at ex_nest [4; 0; 2; 1]%Z = [[2; 12; 24]%Z] /\
  spans_at ex_nest [4; 0; 2; 1; 1]%Z = [[2; 18; 19]%Z] /\ spans_at ex_nest [4; 0; 2; 1; 3]%Z = [[2; 22; 23]%Z].
Proof. repeat split; vm_compute; reflexivity. Qed.
Example C58_example_tokens : sigs (stream ex_k0 ex_nest 0) <> [].
Proof. intros H. apply (f_equal (@length _)) in H. vm_compute in H. discriminate H. Qed.
