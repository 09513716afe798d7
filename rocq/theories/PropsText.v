(** C62: how errors are printed. *)
From Coq Require Import ZifyBool ZifyN.
From Verif Require Import Base Utf8 Utf8Spec Errors Lex Ast Parse Lines PropsLines Descriptor ParseApi Paths Resolver ErrText TextSpec Meaning ErrSpec PropsParse PropsImport Compiler CompilerProofs CompilerHistory WalkG3 Ast LocSpec PropsLoc.

Lemma span_ind (Q : bytes -> Prop) : Q [] -> (forall c r, Q r -> (forall d r', r = d :: r' -> Q r') -> Q (c :: r)) -> forall l, Q l.
Proof.
  intros H0 HS. assert (G : forall l, Q l /\ match l with _ :: r => Q r | [] => True end).
  { induction l as [|c l [IH1 IH2]]; [auto|]. split; [|exact IH1]. apply HS; [exact IH1|]. intros d r' ->. exact IH2. }
  intros l. apply G.
Qed.
(** The loop past the start of the span changes neither line nor column. *)
Lemma loop_past start n : forall l offset line column, start <= offset -> exists off', span_loop start n l offset line column = (off', line, column) /\ offset <= off' /\ (start + n <= offset + len l -> start + n - 1 <= off').
Proof.
  refine (span_ind _ _ _); [|intros c r IH1 IH2]; intros offset line column H; cbn [span_loop].
  - exists offset. rewrite len_nil. repeat split; lia.
  - rewrite len_cons. destruct r as [|d r'].
    + assert (E : (if (c =? 10) || (c =? 13) then if offset <? start then (line + 1, 0) else (line, column) else if offset <? start then (line, column + 1) else (line, column)) = (line, column)) by (destruct (_ || _); rewrite (proj2 (N.ltb_ge _ _) H); reflexivity).
      rewrite E. destruct (start + n - 1 <=? offset) eqn:B; [exists (offset + 1); repeat split; lia|]. destruct (IH1 (offset + 1) line column) as (off' & -> & G1 & G2); [lia|]. exists off'. split; [reflexivity|]. split; [lia|]. rewrite len_nil in *. intros. apply G2. lia.
    + assert (E : forall o, offset <= o -> (if (c =? 10) || (c =? 13) then if o <? start then (line + 1, 0) else (line, column) else if o <? start then (line, column + 1) else (line, column)) = (line, column)) by (intros o Ho; destruct (_ || _); rewrite (proj2 (N.ltb_ge _ _)) by lia; reflexivity).
      rewrite !len_cons. destruct ((c =? 13) && (d =? 10)); rewrite E by lia.
      * destruct (start + n - 1 <=? offset + 1) eqn:B; [exists (offset + 1 + 1); repeat split; lia|]. destruct (IH2 _ _ eq_refl (offset + 1 + 1) line column) as (off' & -> & G1 & G2); [lia|]. exists off'. split; [reflexivity|]. split; [lia|]. intros. apply G2. lia.
      * destruct (start + n - 1 <=? offset) eqn:B; [exists (offset + 1); repeat split; lia|]. destruct (IH1 (offset + 1) line column) as (off' & -> & G1 & G2); [lia|]. exists off'. split; [reflexivity|]. split; [lia|]. rewrite !len_cons in G2. intros. apply G2. lia.
Qed.
Definition moved (line column L C : N) : N * N := if L =? 0 then (line, column + C) else (line + L, C).
Lemma loop_place start n : forall l offset line column, offset <= start -> start <= offset + len l ->
  exists off' L C, span_loop start n l offset line column = (off', fst (moved line column L C), snd (moved line column L C)) /\
    place l (start - offset) L C /\ start <= off' /\ (start + n <= offset + len l -> start + n - 1 <= off').
Proof.
  refine (span_ind _ _ _); [|intros c r IH1 IH2]; intros offset line column H1 H2.
  - rewrite len_nil in H2. exists offset, 0, 0. cbn [span_loop]. unfold moved. rewrite N.eqb_refl, N.add_0_r. cbn [fst snd]. split; [reflexivity|]. replace (start - offset) with 0 by lia. split; [constructor|]. rewrite len_nil. lia.
  - destruct (N.eq_dec offset start) as [->|Hne].
    { destruct (loop_past start n (c :: r) start line column) as (off' & E & G1 & G2); [lia|]. exists off', 0, 0. unfold moved. cbn [N.eqb fst snd]. rewrite N.add_0_r, N.sub_diag. split; [exact E|]. split; [constructor|auto]. }
    rewrite len_cons in *. assert (Hlt : offset < start) by lia. cbn [span_loop].
    (* one byte *)
    assert (One : (c <> 13 \/ hd_error r <> Some 10) -> exists off' L C,
      (let '(line0, column0) := if (c =? 10) || (c =? 13) then (if offset <? start then (line + 1, 0) else (line, column)) else if offset <? start then (line, column + 1) else (line, column) in
       if start + n - 1 <=? offset then (offset + 1, line0, column0) else span_loop start n r (offset + 1) line0 column0) = (off', fst (moved line column L C), snd (moved line column L C)) /\
      place (c :: r) (start - offset) L C /\ start <= off' /\ (start + n <= offset + (1 + len r) -> start + n - 1 <= off')).
    { intros Hcr. rewrite (proj2 (N.ltb_lt _ _) Hlt).
      assert (G : forall line0 column0 P1 P2, (forall L C, place r (start - offset - 1) L C -> place (c :: r) (start - offset) (P1 L C) (P2 L C) /\ moved line0 column0 L C = moved line column (P1 L C) (P2 L C)) ->
        exists off' L C, (if start + n - 1 <=? offset then (offset + 1, line0, column0) else span_loop start n r (offset + 1) line0 column0) = (off', fst (moved line column L C), snd (moved line column L C)) /\
        place (c :: r) (start - offset) L C /\ start <= off' /\ (start + n <= offset + (1 + len r) -> start + n - 1 <= off')).
      { intros line0 column0 P1 P2 GP. destruct (start + n - 1 <=? offset) eqn:B.
        - assert (E0 : start - offset - 1 = 0) by lia. destruct (GP 0 0) as [G1 G2]; [rewrite E0; constructor|]. exists (offset + 1), (P1 0 0), (P2 0 0). rewrite <- G2. unfold moved at 1 2. cbn [N.eqb fst snd]. rewrite N.add_0_r. split; [reflexivity|]. split; [exact G1|]. lia.
        - destruct (IH1 (offset + 1) line0 column0) as (off' & L & C & E & Pl & G1 & G2); [lia|lia|]. replace (start - (offset + 1)) with (start - offset - 1) in Pl by lia. destruct (GP L C Pl) as [G3 G4]. exists off', (P1 L C), (P2 L C). rewrite <- G4. split; [exact E|]. split; [exact G3|]. split; [exact G1|]. intros. apply G2. lia. }
      assert (So : start - offset = start - offset - 1 + 1) by lia.
      destruct (c =? 10) eqn:E1; [|destruct (c =? 13) eqn:E2]; cbn [orb].
      - apply N.eqb_eq in E1. subst c. apply (G _ _ (fun L _ => L + 1) (fun _ C => C)). intros L C Pl. split; [rewrite So; now constructor|]. unfold moved. destruct (L =? 0) eqn:B; rewrite (proj2 (N.eqb_neq (L + 1) 0)) by lia; f_equal; lia.
      - apply N.eqb_eq in E2. subst c. apply (G _ _ (fun L _ => L + 1) (fun _ C => C)). intros L C Pl. split; [rewrite So; constructor; [destruct Hcr; [congruence|assumption]|exact Pl]|]. unfold moved. destruct (L =? 0) eqn:B; rewrite (proj2 (N.eqb_neq (L + 1) 0)) by lia; f_equal; lia.
      - apply N.eqb_neq in E1, E2. apply (G _ _ (fun L _ => L) (fun L C => if L =? 0 then C + 1 else C)). intros L C Pl. rewrite So. destruct (L =? 0) eqn:B; unfold moved; rewrite B.
        + apply N.eqb_eq in B. subst L. split; [now constructor|]. f_equal. lia.
        + split; [constructor; auto; lia|reflexivity]. }
    destruct r as [|d r']; [apply One; right; discriminate|]. destruct ((c =? 13) && (d =? 10)) eqn:B; [|apply One; destruct (N.eq_dec c 13); [right; intros [= ->]; subst; discriminate B|now left]].
    clear One IH1. apply andb_prop in B. destruct B as [B1 B2]. apply N.eqb_eq in B1, B2. subst c d. cbn [N.eqb orb Pos.eqb]. rewrite !len_cons in *.
    destruct (N.eq_dec (offset + 1) start) as [Es|Es].
    { rewrite (proj2 (N.ltb_ge (offset + 1) start)) by lia. assert (Pl : place (13 :: 10 :: r') (start - offset) 0 0) by (replace (start - offset) with 1 by lia; constructor).
      destruct (start + n - 1 <=? offset + 1) eqn:B.
      - exists (offset + 1 + 1), 0, 0. unfold moved. cbn [N.eqb fst snd]. rewrite N.add_0_r. split; [reflexivity|]. split; [exact Pl|]. lia.
      - destruct (loop_past start n r' (offset + 1 + 1) line column) as (off' & E & G1 & G2); [lia|]. exists off', 0, 0. unfold moved. cbn [N.eqb fst snd]. rewrite N.add_0_r. split; [exact E|]. split; [exact Pl|]. split; [lia|]. intros. apply G2. lia. }
    rewrite (proj2 (N.ltb_lt (offset + 1) start)) by lia. destruct (start + n - 1 <=? offset + 1) eqn:B.
    + exists (offset + 1 + 1), 1, 0. unfold moved. cbn [N.eqb fst snd]. split; [reflexivity|]. split; [|lia]. replace (start - offset) with (0 + 2) by lia. change 1 with (0 + 1). constructor. constructor.
    + destruct (IH2 _ _ eq_refl (offset + 1 + 1) (line + 1) 0) as (off' & L & C & E & Pl & G1 & G2); [lia|lia|]. exists off', (L + 1), C. split; [|split; [|split; [exact G1|intros; apply G2; lia]]].
      * rewrite E. unfold moved. rewrite (proj2 (N.eqb_neq (L + 1) 0)) by lia. destruct (L =? 0) eqn:B'; cbn [fst snd]; f_equal; f_equal; lia.
      * replace (start - offset) with (start - (offset + 1 + 1) + 2) by lia. now constructor.
Qed.
Theorem read_span_place src start n : start + n <= len src -> exists L C, place src start L C /\ read_span src start n = Done (Some (L, C)).
Proof.
  intros H. destruct (loop_place start n src 0 0 0) as (off' & L & C & E & Pl & G1 & G2); [lia|lia|]. rewrite N.sub_0_r in Pl. exists L, C. split; [exact Pl|].
  unfold read_span. rewrite E. rewrite (proj2 (N.leb_le _ _)) by (apply G2; lia). rewrite (proj2 (N.leb_le _ _) G1). unfold moved. destruct (L =? 0) eqn:B; cbn [fst snd]; do 3 f_equal; lia.
Qed.
(** ** Lines and columns *)
Lemma place_le t o L C : place t o L C -> o <= len t.
Proof. induction 1; rewrite ?len_cons in *; lia. Qed.
Theorem C62_place_unique t o L C L' C' : place t o L C -> place t o L' C' -> L = L' /\ C = C'.
Proof.
  intros H. revert L' C'. induction H; intros L' C' G; inversion G; subst; try lia; try congruence; try (match goal with Hx : ?x + 1 = ?y + 1 |- _ => assert (x = y) by lia; clear Hx; subst end || match goal with Hx : ?x + 2 = ?y + 2 |- _ => assert (x = y) by lia; clear Hx; subst end);
    try (match goal with IH : forall L' C', place _ _ L' C' -> _, P : place _ _ _ _ |- _ => destruct (IH _ _ P); subst; split; lia end); try (cbn in *; congruence); try lia.
Qed.
Theorem C62_place_exists t o : o <= len t -> exists L C, place t o L C.
Proof. intros H. destruct (read_span_place t o 0) as (L & C & Hp & _); [lia|]. eauto. Qed.
Lemma take_while_stop p x y : (exists d, In d x /\ p d = false) -> take_while p (x ++ y) = take_while p x.
Proof. induction x as [|e x IH]; intros (d & Hi & Hd); [destruct Hi|]. cbn. destruct (p e) eqn:E; [|reflexivity]. f_equal. apply IH. destruct Hi as [->|Hi]; [congruence|eauto]. Qed.
Lemma newlines_in x : newlines x <> 0%nat -> In 10 x.
Proof. induction x as [|c x IH]; cbn; [congruence|]. destruct (c =? 10) eqn:E; [apply N.eqb_eq in E; auto|auto]. Qed.
Lemma last_line_cons c x : c = 10 \/ newlines x <> 0%nat -> last_line (c :: x) = last_line x.
Proof.
  intros H. unfold last_line. f_equal. cbn [rev]. destruct H as [->|H].
  - rewrite (take_while_app_stop (fun c => negb (c =? 10)) (rev x) 10 []); reflexivity.
  - apply take_while_stop. exists 10. split; [apply in_rev; rewrite rev_involutive; now apply newlines_in|reflexivity].
Qed.
(** Where a text has no carriage return, this is the position of the locations (C27). *)
Theorem C62_place_lines t o L C : ~ In 13 t -> place t o L C -> line_of t o = Z.of_N L /\ column_of t o = Z.of_N C.
Proof.
  intros Hn H. unfold line_of, column_of, before. revert Hn. induction H; intros Hn; try (exfalso; apply Hn; left; reflexivity); try (specialize (IHplace (fun i => Hn (or_intror i))));
    try (replace (N.to_nat (o + 1)) with (S (N.to_nat o)) by lia; cbn [firstn newlines]).
  - split; reflexivity.
  - rewrite (proj2 (N.eqb_neq _ _) H). destruct IHplace as [I1 I2]. split; [exact I1|]. rewrite last_line_none in * by (cbn [newlines]; rewrite ?(proj2 (N.eqb_neq _ _) H); lia). cbn [length]. lia.
  - rewrite (proj2 (N.eqb_neq _ _) H). destruct IHplace as [I1 I2]. split; [exact I1|]. rewrite last_line_cons by (right; lia). exact I2.
  - rewrite N.eqb_refl. destruct IHplace as [I1 I2]. split; [lia|]. rewrite last_line_cons by (left; reflexivity). exact I2.
Qed.

(** ** Parse errors *)
Lemma debug_text k sort name src e a : parse k sort name src = Done (inr e, a) ->
  match perr_span (pe_kind e) with
  | Some sp => exists L C, place src (s_start sp) L C /\
      parse_error_debug e = Done (name ++ b ":" ++ dec (L + 1) ++ b ":" ++ dec (C + 1) ++ b ": " ++ perr_text (pe_kind e))
  | None => parse_error_debug e = Done (perr_text (pe_kind e))
  end.
Proof.
  intros E. pose proof (parse_spec k sort name src) as H. unfold parse_error_debug. destruct (perr_span (pe_kind e)) as [sp|] eqn:Es; [|reflexivity].
  assert (Hin : In sp (perr_spans (pe_kind e))) by (revert Es; generalize (pe_kind e); intros x; destruct x; cbn; congruence || (intros [= ->]; auto)).
  destruct (C24_error_spans _ _ _ _ _ _ E (pe_kind e) sp) as [H1 H2]; [left; reflexivity|exact Hin|].
  destruct (i32_max <? len src).
  - rewrite E in H. injection H as -> _. cbn in Es. congruence.
  - destruct H as (r & a' & E' & _ & H). rewrite E in E'. injection E' as <- <-. destruct H as (Hn & Hs & _). rewrite Hn, Hs.
    destruct (read_span_place src (s_start sp) (s_end sp - s_start sp)) as (L & C & Hp & Hr); [lia|]. exists L, C. split; [exact Hp|]. rewrite Hr. cbn [obind]. unfold position_text, parse_error_text. cbn [fst snd]. now rewrite <- !app_assoc.
Qed.
(** The primary span of an error is its first one; errors about the end of the file, a second package and the file's size print none. *)
Theorem C62_debug k sort name src e a : parse k sort name src = Done (inr e, a) ->
  match pe_kind e with
  | UnexpectedEof _ | DuplicatePackage _ _ | FileTooLarge => parse_error_debug e = Done (perr_text (pe_kind e))
  | _ => exists sp L C, hd_error (perr_spans (pe_kind e)) = Some sp /\ place src (s_start sp) L C /\
      parse_error_debug e = Done (name ++ b ":" ++ dec (L + 1) ++ b ":" ++ dec (C + 1) ++ b ": " ++ perr_text (pe_kind e))
  end.
Proof. intros E. pose proof (debug_text _ _ _ _ _ _ E) as H. destruct (pe_kind e); cbn [perr_span perr_spans] in *; exact H || (eexists; destruct H as (L & C & H); exists L, C; split; [reflexivity|exact H]). Qed.
Print Assumptions C62_debug.

(** ** Errors of the compiler about imports *)
Lemma from_le src : forall l c x y o, from_location src l c x y o <= o + len src.
Proof.
  induction src as [|h r IH]; intros l c x y o; cbn [from_location]; rewrite ?len_nil, ?len_cons; [lia|].
  pose proof (IH l c x y (o + 1)). pose proof (IH (l + 1) 0 x y (o + 1)). pose proof (IH l (c + 1) x y (o + 1)). repeat destruct (_ : bool); lia.
Qed.
Lemma find_le locs src i sp : find_span locs src i = Done (Some sp) -> fst sp <= len src.
Proof.
  induction locs as [|x r IH]; cbn [find_span]; [discriminate|]. destruct (list_Z_eqb _ _); [|exact IH]. destruct (loc_span x) as [|sl [|sc [|ec [|? ?]]]]; try exact IH.
  destruct (_ || _); [discriminate|]. intros [= <-]. cbn [fst]. exact (from_le src 0 0 _ _ 0).
Qed.
Lemma import_le f i sp : find_import_span f i = Done (Some sp) -> fst sp <= len (pf_text f).
Proof. unfold find_import_span, pf_text. destruct (d_source_info _); [|discriminate]. destruct (pf_source f); [|discriminate]. apply find_le. Qed.
Lemma read_span_done src start n : start <= len src -> exists r, read_span src start n = Done r.
Proof.
  intros H. destruct (loop_place start n src 0 0 0) as (off' & L & C & E & Pl & G1 & G2); [lia|lia|]. unfold read_span. rewrite E.
  rewrite (proj2 (N.leb_le _ _) G1). destruct (_ <=? _); eauto.
Qed.
(** Printing an error about an import never panics, and the text starts with the name of the importing file and ends with the message. *)
Lemma import_debug tx f i sp x e : find_import_span f i = Done sp -> e = EImportNotFound sp (pf_name f) (pf_text f) x \/ e = EDuplicateImport sp (pf_name f) (pf_text f) x ->
  exists p, error_debug tx e = Done (pf_name f ++ b ":" ++ p ++ error_text tx e).
Proof.
  intros Hf He. assert (G : exists r, match sp with Some s => read_span (pf_text f) (fst s) (snd s) | None => Done None end = Done r).
  { destruct sp as [s|]; [|eauto]. apply read_span_done. exact (import_le _ _ _ Hf). }
  destruct G as [r G]. destruct He as [-> | ->]; cbn [error_debug]; rewrite G; cbn [obind]; eauto.
Qed.
Theorem C62_import_errors tx (rs : nat -> resolver) (lk : linker) :
  named rs -> linker_ok lk ->
  (forall a e, fails rs a e -> forall u v t w, e <> EDuplicateImport u v t w /\ e <> EImportNotFound u v t w) ->
  forall ok c fuel path e c' sp file text x, history rs lk ok c ->
  open_file rs lk fuel path c = Done (inr e, c') -> e = EImportNotFound sp file text x \/ e = EDuplicateImport sp file text x ->
  exists p, error_debug tx e = Done (file ++ b ":" ++ p ++ b "import '" ++ x ++ b "' " ++ (match e with EImportNotFound _ _ _ _ => b "not found" | _ => b "was listed twice" end)).
Proof.
  intros Hn Hl Hres ok c fuel path e c' sp file text x Hh Ho He.
  destruct (C47_compiler_errors rs lk Hn Hl Hres ok c fuel path e c' sp file text x Hh Ho He) as (f & i & y & Hf & _ & Hi & -> & _).
  assert (Ef : file = pf_name f) by (symmetry; eapply Hn; exact Hf). subst file.
  destruct (import_debug tx f i sp x e Hi He) as [p Hp]. exists p. rewrite Hp. destruct He as [-> | ->]; cbn [error_text]; unfold quoted; rewrite <- ?app_assoc; reflexivity.
Qed.
Print Assumptions C62_import_errors.
(** No error of [open_file] panics when it is printed, if the errors of the resolvers do not. *)
Theorem C62_never_panics tx (rs : nat -> resolver) (lk : linker) :
  named rs -> linker_ok lk -> (forall a e, fails rs a e -> exists t, error_debug tx e = Done t) ->
  forall ok c fuel path e c', history rs lk ok c -> open_file rs lk fuel path c = Done (inr e, c') -> exists t, error_debug tx e = Done t.
Proof.
  intros Hn Hl Hres ok c fuel path e c' Hh Ho. pose proof (history_Inv rs lk Hn Hl _ _ Hh) as HI. eapply open_file_spec in Ho; eauto. destruct Ho as (_ & _ & [[Ho _]|(_ & -> & _)]); [|eexists; reflexivity].
  assert (Im : forall f i x sp e', find_import_span f i = Done sp -> e' = EImportNotFound sp (pf_name f) (pf_text f) x \/ e' = EDuplicateImport sp (pf_name f) (pf_text f) x -> exists t, error_debug tx e' = Done t) by (intros f i x sp e' H1 H2; destruct (import_debug tx f i sp x e' H1 H2) as [p Hp]; eauto).
  inversion Ho; subst; try (eexists; reflexivity); eauto.
  match goal with H : loop_err _ _ _ _ _ _ |- _ => inversion H; subst end; eauto.
  match goal with H : load_err _ _ _ _ _ |- _ => inversion H; subst end; try (eexists; reflexivity); eauto.
Qed.
(** The errors of parsing do not. *)
Theorem C62_parse_never_panics tx k sort name src e a : parse k sort name src = Done (inr e, a) -> exists t, error_debug tx (EParse e) = Done t.
Proof. intros E. pose proof (debug_text _ _ _ _ _ _ E) as H. cbn [error_debug]. destruct (perr_span _); [destruct H as (L & C & _ & H)|]; eauto. Qed.
(** The position is the one of the import statement, provided that it is on one line with only ASCII before it; a statement over several lines has no position. *)
Theorem C62_import_position tx k sort name src pf : sorting sort -> from_text k sort name src pf ->
  exists f, accepted k src f /\ d_dependency (pf_desc pf) = map im_value (fi_imports f) /\
  forall i im x e, nth_error (fi_imports f) i = Some im ->
  into_import_error (EFileNotFound x) pf i = Done e \/ duplicated_import x pf i = Done e ->
  let s := s_start (im_span im) in
  (line_of src s = line_of src (s_end (im_span im)) -> ascii_only (line_before src s) -> exists L C, place src s L C /\
     error_debug tx e = Done (pf_name pf ++ b ":" ++ dec (L + 1) ++ b ":" ++ dec (C + 1) ++ b ": " ++ error_text tx e)) /\
  (line_of src s <> line_of src (s_end (im_span im)) -> error_debug tx e = Done (pf_name pf ++ b ":" ++ error_text tx e)).
Proof.
  intros Hs Hpf. destruct (C47_import_span _ _ _ _ _ Hs Hpf) as (f & Ha & Ed & H). exists f. split; [exact Ha|]. split; [exact Ed|].
  intros i im x e Him He s. specialize (H i im Him). cbv zeta in H. fold s in H. destruct H as (H1 & H2 & _ & H4 & _ & H6).
  assert (Et : pf_text pf = src) by (unfold pf_text; destruct Hpf as [-> _]; reflexivity).
  assert (G : exists sp, find_import_span pf i = Done sp /\ (e = EImportNotFound sp (pf_name pf) src x \/ e = EDuplicateImport sp (pf_name pf) src x)).
  { unfold into_import_error, duplicated_import in He. rewrite Et in He. destruct (find_import_span pf i) as [sp| |]; cbn [obind] in He; destruct He as [He|He]; try discriminate; injection He as <-; eauto. }
  destruct G as (sp & Hf & G). split.
  - intros Hl Hasc. rewrite (H4 Hl Hasc) in Hf. injection Hf as <-. destruct (read_span_place src s (s_end (im_span im) - s)) as (L & C & Hp & Hr); [lia|]. exists L, C. split; [exact Hp|].
    destruct G as [-> | ->]; cbn [error_debug fst snd]; rewrite Hr; cbn [obind]; unfold position_text; cbn [fst snd]; now rewrite <- !app_assoc.
  - intros Hl. rewrite (H6 Hl) in Hf. injection Hf as <-. destruct G as [-> | ->]; reflexivity.
Qed.
Print Assumptions C62_import_position.

(** The bounds printed in the messages about numbers are the bounds of the rules (the rules are [field_number] and [int32] of ErrSpec, which C53 shows to be the ones enforced). *)
Lemma bounds_unique (lo hi lo' hi' : Z) : (lo <= hi)%Z -> (forall i, (lo <= int_value i <= hi)%Z <-> (lo' <= int_value i <= hi')%Z) -> lo = lo' /\ hi = hi'.
Proof.
  intros H0 H. assert (K : forall z, (lo <= z <= hi)%Z <-> (lo' <= z <= hi')%Z).
  { intros z. specialize (H {| i_neg := (z <? 0)%Z; i_val := Z.to_N (Z.abs z); i_span := (0, 0) |}). unfold int_value in H. cbn [i_neg i_val] in H.
    rewrite N2Z.inj_abs_N || rewrite Z2N.id in H by lia. destruct (Z.ltb_spec z 0); [rewrite Z.abs_neq, Z.opp_involutive in H by lia|rewrite Z.abs_eq in H by lia]; exact H. }
  pose proof (K lo). pose proof (K hi). pose proof (K lo'). pose proof (K hi'). lia.
Qed.
Theorem C62_ranges lo hi :
  ((forall i, field_number i <-> (lo <= int_value i <= hi)%Z) -> forall sp, perr_text (InvalidMessageNumber sp) = b "message numbers must be between " ++ decZ lo ++ b " and " ++ decZ hi) /\
  ((forall i, int32 i <-> (lo <= int_value i <= hi)%Z) -> forall sp, perr_text (InvalidEnumNumber sp) = b "enum numbers must be between " ++ decZ lo ++ b " and " ++ decZ hi).
Proof.
  split; intros H sp; (apply bounds_unique in H; [|lia]); destruct H as [<- <-]; vm_compute; reflexivity.
Qed.
Print Assumptions C62_ranges.
Example C62_ranges_example : (forall i, field_number i <-> (1 <= int_value i <= 536870911)%Z) /\ (forall i, int32 i <-> (-2147483648 <= int_value i <= 2147483647)%Z).
Proof. split; intros i; reflexivity. Qed.

(** ** Examples (the tests of protox/tests/compiler.rs and protox-parse/src/error.rs) *)
Definition debug_of (name src : bytes) : out bytes := match parse ex_k0 loc_sort name src with Done (inr e, _) => parse_error_debug e | _ => NoFuel end.
Example C62_example : debug_of (b "foo.proto") (b "message {}") = Done (b "foo.proto:1:9: expected an identifier, but found '{'").
Proof. lazy. reflexivity. Qed.
Example C62_example2 : debug_of (b "file.proto") (b "invalid") = Done (b "file.proto:1:1: expected 'enum', 'extend', 'import', 'message', 'option', 'service', 'package' or ';', but found 'invalid'").
Proof. lazy. reflexivity. Qed.
(** Carriage returns, with and without a line feed. *)
Example C62_example3 : debug_of (b "x.proto") (b "//" ++ [13; 10] ++ b "enum A {" ++ [10] ++ b "  B = ;" ++ [10] ++ b "}") = Done (b "x.proto:3:7: expected an integer, but found ';'").
Proof. lazy. reflexivity. Qed.
Example C62_example3' : debug_of (b "x.proto") (b "enum A" ++ [13] ++ b "{ B = ; }") = Done (b "x.proto:2:7: expected an integer, but found ';'").
Proof. lazy. reflexivity. Qed.
Example C62_example4 : debug_of (b "x.proto") (b "package a;" ++ [10] ++ b "package b;") = Done (b "multiple package names specified").
Proof. lazy. reflexivity. Qed.
Definition missing_of (src : bytes) (i : nat) : out bytes :=
  match file_from_source ex_k0 loc_sort (b "root.proto") src with
  | Done (inl pf) => obind (into_import_error (EFileNotFound (b "notfound.proto")) pf i) (error_debug {| t_io := fun _ => []; t_check := fun _ => []; t_check_debug := fun _ => []; t_custom := fun _ => []; t_custom_debug := fun _ => [] |})
  | _ => NoFuel end.
Example C62_example5 : missing_of (b "// comment " ++ [10] ++ b "import 'notfound.proto';") 0 = Done (b "root.proto:2:1: import 'notfound.proto' not found").
Proof. lazy. reflexivity. Qed.
Example C62_example6 : missing_of (b "import" ++ [10] ++ b "'notfound.proto';") 0 = Done (b "root.proto:import 'notfound.proto' not found").
Proof. lazy. reflexivity. Qed.
