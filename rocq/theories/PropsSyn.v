(** C54: what a syntax error says is true. *)
From Verif Require Import Base Utf8 Utf8Spec Errors Lex LexSafe Stream StrSpec Ast Comments Parse ParseApi Generate Grammar SynSpec Utf8Lossy Walk WalkG3 PropsParse PropsLoc Complete3 PropsComplete PropsErr.

(** Every error reported for a source that is no sentence of the grammar is a
    true statement about the source and its tokens. *)
Theorem C54_syntax_errors k sort name src err a : parse k sort name src = Done (inr err, a) -> len src <= i32_max -> (forall f, ~ accepted k src f) ->
  Forall (truth k src) (pe_all err).
Proof.
  intros E Hn Hno. destruct (parse_file_sound k src) as (r & a' & Er & _ & Hr). unfold parse in E. apply N.ltb_ge in Hn. rewrite Hn, Er in E. cbn [obind] in E.
  destruct r as [f|es]; [destruct (Hno f Hr)|]. destruct Hr as [Hne Hes]. destruct es as [|e es]; [congruence|]. cbn [obind parse_error_new] in E. injection E as <- <-. exact Hes.
Qed.
Print Assumptions C54_syntax_errors.

(** The three ways [parse] ends: a descriptor, or the rules a sentence breaks, or true syntax errors about
    a source that is no sentence; a source beyond the size limit is only told so. *)
Theorem C54_rejections k sort name src : exists r a, parse k sort name src = Done (r, a) /\
  match r with
  | inl _ => len src <= i32_max /\ exists f, accepted k src f
  | inr err =>
    (i32_max < len src /\ pe_all err = [FileTooLarge]) \/
    (len src <= i32_max /\ (exists f, accepted k src f /\ pe_all err <> [] /\ forall e, In e (pe_all err) -> ErrSpec.breaks k (fi_syntax f) f e)) \/
    (len src <= i32_max /\ (forall f, ~ accepted k src f) /\ pe_all err <> [] /\ Forall (truth k src) (pe_all err))
  end.
Proof.
  pose proof (parse_spec k sort name src) as H. destruct (i32_max <? len src) eqn:El.
  - eexists _, _. split; [exact H|]. left. split; [now apply N.ltb_lt|reflexivity].
  - apply N.ltb_ge in El. destruct H as (r & a & E & _ & H). exists r, a. split; [exact E|]. destruct r as [d|err].
    + destruct H as (f & Hf & _). eauto.
    + right. assert (Hne : pe_all err <> []) by (unfold pe_all; discriminate).
      destruct (parse_file_sound k src) as (r' & a' & Er & _ & Hr). destruct r' as [f|es].
      * left. split; [exact El|]. destruct (C53_errors _ _ _ _ _ _ E El (ex_intro _ f Hr)) as (f' & Ha' & _ & HE). exists f'. split; [exact Ha'|]. split; [exact Hne|]. intros e. apply HE.
      * right. split; [exact El|]. assert (Hno : forall f, ~ accepted k src f).
        { intros f Hf. destruct (accepted_lexes _ _ _ Hf) as (ts & G & L). destruct (parse_file_complete k src _ ts f G L) as (f' & a2 & E' & _). congruence. }
        split; [exact Hno|]. split; [exact Hne|]. exact (C54_syntax_errors _ _ _ _ _ _ E El Hno).
Qed.
Print Assumptions C54_rejections.

(** Each kind of error, read on its own. *)
Theorem C54_unexpected k sort name src err a expected found sp : parse k sort name src = Done (inr err, a) -> len src <= i32_max -> (forall f, ~ accepted k src f) ->
  In (UnexpectedToken expected found sp) (pe_all err) ->
  exists t, In (Some t, sp) (stream k src 0) /\ is_trivia t = false /\ found = token_display k t /\ expects expected t = false.
Proof.
  intros E Hn Hno Hi. pose proof (C54_syntax_errors _ _ _ _ _ _ E Hn Hno) as H. rewrite Forall_forall in H. destruct (H _ Hi) as (_ & t & H1 & H2 & H3 & _ & H4). eauto.
Qed.
Print Assumptions C54_unexpected.

(** ** Examples *)
(** A source with many faults. *)
Definition ex_faults : bytes :=
  b "package a; package b; import '/x'; import ""\q""; message M { int32 a = 99999999999999999999; int32 b = 07f; option x = 1f; group g = 1 {} }" ++ nl_ ++ b "enum E { = }  /* x" ++ nl_.
Example C54_example : err_of ex_faults =
  [DuplicatePackage (0, 10) (11, 21); InvalidImport (29, 33); InvalidStringEscape (43, 44); IntegerOutOfRange (70, 90); NoSpaceBetweenIntAndIdent (103, 105);
   UnexpectedToken (b "';' or '['") (b "f") (104, 105); FloatSuffixOutsideTextFormat (118, 120);
   UnexpectedToken (b "'enum', 'extend', 'import', 'message', 'option', 'service', 'package' or ';'") (b "group") (122, 127);
   UnexpectedToken (b "an identifier, '}', 'reserved' or 'option'") (b "=") (148, 149); UnexpectedEof (b "comment terminator")].
Proof. vm_compute. reflexivity. Qed.
(** It is no sentence, so the theorems apply to it. *)
Lemma not_sentence src : parsed src = None -> forall f, ~ accepted ex_k0 src f.
Proof.
  intros H f Hf. unfold parsed in H. destruct (accepted_lexes _ _ _ Hf) as (ts & G & L). destruct (parse_file_complete ex_k0 src _ ts f G L) as (f' & a2 & E' & _). rewrite E' in H. discriminate.
Qed.
Example C54_example_truth : Forall (truth ex_k0 ex_faults) (err_of ex_faults).
Proof.
  destruct (err_of_inv _ _ C54_example ltac:(discriminate)) as (err & a & E & HE). rewrite C54_example, <- HE.
  eapply C54_syntax_errors; [exact E|apply N.leb_le; lazy; reflexivity|]. apply not_sentence. vm_compute. reflexivity.
Qed.
(** The texts are read as one expects. *)
Example C54_texts :
  listed [] (b "an identifier, '}', 'reserved' or 'option'") = [b "an identifier"; b "'}'"; b "'reserved'"; b "'option'"] /\
  map (expects (b "an identifier, '}', 'reserved' or 'option'")) [TIdent (b "x"); TRightBrace; TEquals; TInt 1] = [true; true; false; false] /\
  map (expects (b "'public' or ','")) [kw "public"; TComma; kw "weak"; TStr (b "public")] = [true; true; false; false] /\
  map readable [b "a fish"; b "';' or '['"; b "'; or '['"; b "an integer or ')'"] = [false; true; false; true].
Proof. vm_compute. auto. Qed.
(** A text that names no token is never true. *)
Example C54_false k src sp : ~ truth k src (UnexpectedToken (b "a fish") (b "x") sp).
Proof. intros (_ & t & _ & _ & _ & H & _). discriminate H. Qed.
Example C54_false_package : ~ truth ex_k0 (b "package a; import 'x';") (DuplicatePackage (0, 10) (0, 10)).
Proof. intros (_ & _ & _ & H). vm_compute in H. apply H. reflexivity. Qed.
Example C54_false_token : ~ truth ex_k0 (b "enum E { = }") (UnexpectedToken (b "an identifier or '='") (b "=") (9, 10)).
Proof.
  intros (_ & t & H & _ & _ & _ & He). assert (Hs : stream ex_k0 (b "enum E { = }") 0 = [(Some (kw "enum"), (0, 4)); (Some (kw "E"), (5, 6)); (Some TLeftBrace, (7, 8)); (Some TEquals, (9, 10)); (Some TRightBrace, (11, 12))]) by (vm_compute; reflexivity).
  rewrite Hs in H. clear Hs. cbn [In] in H. destruct H as [H|[H|[H|[H|[H|[]]]]]]; try discriminate H. assert (t = TEquals) as -> by congruence. exact (Bool.diff_true_false He).
Qed.
