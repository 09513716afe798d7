(** C67: the help given with parse errors. *)
From Coq Require Import ZifyBool ZifyN.
From Verif Require Import Base Utf8 Utf8Spec Errors Lex LexSafe Stream StrSpec Ast Comments Parse Descriptor ParseApi Generate Grammar Meaning SynSpec ErrSpec Utf8Lossy Walk WalkG3 PropsParse PropsLoc
  Classify PropsErr PropsSyn Paths Resolver ErrText HelpSpec.

Lemma split_head w s ss : split_on 47 w = s :: ss ->
  (exists y, w = s ++ y /\ (y = [] \/ exists y', y = 47 :: y')) /\
  forall t, In t ss -> exists x y, w = x ++ 47 :: t ++ y /\ (y = [] \/ exists y', y = 47 :: y').
Proof.
  revert s ss. induction w as [|c w IH]; intros s ss E; cbn [split_on] in E.
  - injection E as <- <-. split; [exists []; auto|intros t []].
  - pose proof (split_on_ne w) as Hne. destruct (N.eqb_spec c 47) as [->|Hc].
    + injection E as <- <-. split; [exists (47 :: w); eauto|]. destruct (split_on 47 w) as [|s0 ss0] eqn:E0; [congruence|]. destruct (IH _ _ eq_refl) as [(y & Hy & Hy') H2].
      intros t [<-|Ht]; [exists [], y; subst; auto|]. destruct (H2 _ Ht) as (x & z & -> & Hz). exists (47 :: x), z. auto.
    + destruct (split_on 47 w) as [|s0 ss0] eqn:E0; [congruence|]. destruct (IH _ _ eq_refl) as [(y & Hy & Hy') H2]. injection E as <- <-.
      split; [exists y; subst; auto|]. intros t Ht. destruct (H2 _ Ht) as (x & z & -> & Hz). exists (c :: x), z. auto.
Qed.
Lemma split_component w s : In s (split_on 47 w) -> component_of s w.
Proof.
  destruct (split_on 47 w) as [|s0 ss] eqn:E; [intros []|]. destruct (split_head _ _ _ E) as [(y & Hy & Hy') H2]. intros [<-|Hs].
  - exists [], y. auto.
  - destruct (H2 _ Hs) as (x & z & -> & Hz). exists (x ++ [47]), z. rewrite <- app_assoc. eauto.
Qed.
(** What the rule for imports does not say: no empty path, no slash at either end. *)
Lemma import_help w : import_rule w -> ~ relative_path w -> w = [] \/ (exists r, w = 47 :: r) \/ exists r, w = r ++ [47].
Proof.
  intros (H1 & H2 & H3 & H4) Hn. assert (D : (exists s, In s (split_on 47 w) /\ s = []) \/ forall s, In s (split_on 47 w) -> s <> []).
  { induction (split_on 47 w) as [|s ss IH]; [right; intros s []|]. destruct s; [left; exists []; split; [now left|reflexivity]|]. destruct IH as [(t & Ht & E)|IH]; [left; exists t; split; [now right|exact E]|right; intros t [<-|Ht]; [discriminate|auto]]. }
  destruct D as [(s & Hs & ->)|D].
  - apply split_component in Hs. destruct Hs as (x & y & -> & Hx & Hy). cbn [app] in *. destruct Hx as [->|[x' ->]], Hy as [->|[y' ->]]; cbn [app].
    + auto.
    + right; left. eauto.
    + right; right. exists x'. now rewrite app_nil_r.
    + exfalso. apply (H2 x' y'). rewrite <- app_assoc. reflexivity.
  - exfalso. apply Hn. exists (split_on 47 w). split; [|split; [|symmetry; apply split_on_join]].
    + apply split_on_ne.
    + apply Forall_forall. intros s Hs. pose proof (split_component _ _ Hs) as C. split; [auto|]. split; [intros ->; auto|]. split; [intros ->; auto|]. split; [exact (proj1 (Forall_forall _ _) (split_on_no w) _ Hs)|].
      intros Hb. apply H1. destruct C as (x & y & -> & _). apply in_or_app. right. apply in_or_app. now left.
Qed.
(** What the rule for identifiers does not say: no empty name, no underscore first. *)
Lemma identifier_help w : identifier_rule w -> ~ word w -> w = [] \/ exists r, w = 95 :: r.
Proof.
  intros [H1 H2] Hn. destruct w as [|c r]; [auto|]. right. exists r. f_equal. pose proof (Forall_inv H1) as Hc. pose proof (H2 _ _ eq_refl) as Hd. destruct Hc as [Hc|[Hc|Hc]]; [|tauto|exact Hc].
  exfalso. apply Hn. exists c, r. split; [reflexivity|]. split; [exact Hc|exact (Forall_inv_tail H1)].
Qed.

(** The rules of grammatical sources come without help, apart from ranges. *)
Lemma breaks_help k sy f e h : ErrSpec.breaks k sy f e -> perr_help e = Some h -> exists w x lo hi sp, e = IntegerValueOutOfRange w x lo hi sp.
Proof.
  intros (x & _ & F) Hh. destruct e; try discriminate Hh; [..|eauto 9|]; exfalso.
  all: inversion F; subst; try (match goal with H : options_flaw _ _ |- _ => destruct H as (? & _ & Hflaw); inversion Hflaw | H : optlist_flaw _ _ |- _ => destruct H as (? & _ & Hflaw); inversion Hflaw end; fail).
  all: match goal with H : field_flaw _ _ _ _ _ |- _ => inversion H; subst end; match goal with H : optlist_flaw _ _ |- _ => destruct H as (? & _ & Hflaw); inversion Hflaw end.
Qed.

(** Every parse error that comes with help: the text, and what is wrong with the source. An identifier or import that keeps
    the rule quoted is rejected for a reason the text does not give. *)
Theorem C67_help k sort name src err a e h : parse k sort name src = Done (inr err, a) -> In e (pe_all err) -> perr_help e = Some h ->
  (e = FileTooLarge /\ h = b "the maximum file length is 2,147,483,647 bytes" /\ 2147483647 < len src) \/
  (exists text sp v, e = UnknownSyntax text sp /\ h = b "possible values are 'proto2' and 'proto3'" /\
     string_at k src sp v /\ v <> b "proto2" /\ v <> b "proto3") \/
  (exists sp v w, e = InvalidIdentifier sp /\ h = b "identifiers must consist of letters, numbers and underscores, and may not start with a number" /\
     string_at k src sp v /\ lossy v w /\ ~ word w /\ (identifier_rule w -> w = [] \/ exists r, w = b "_" ++ r)) \/
  (exists sp v, e = InvalidGroupName sp /\ h = b "group names must consist of a capital letter followed by letters, numbers and underscores" /\
     In (Some (TIdent v), sp) (stream k src 0) /\ ~ capitalised v) \/
  (exists sp v w, e = InvalidImport sp /\ h = b "imports may not contain backslashes, repeated forward slashes, '.' or '..' components" /\
     string_at k src sp v /\ lossy v w /\ ~ relative_path w /\ (import_rule w -> w = [] \/ (exists r, w = b "/" ++ r) \/ exists r, w = r ++ b "/")) \/
  (exists what i lo hi, e = IntegerValueOutOfRange what (literal i) (decZ lo) (decZ hi) (i_span i) /\
     h = b "the value must be between " ++ decZ lo ++ b " and " ++ decZ hi ++ b " inclusive" /\ (~ (lo <= int_value i <= hi)%Z \/ lo = 0%Z /\ i_neg i = true)).
Proof.
  intros E Hin Hh. destruct (C54_rejections k sort name src) as (r & a' & E' & Hr). rewrite E in E'. injection E' as <- <-. destruct Hr as [[Hl He]|[(Hl & f & Hf & _ & Hb)|(Hl & _ & _ & Ht)]].
  - left. rewrite He in Hin. destruct Hin as [<-|[]]. split; [reflexivity|]. cbn [perr_help] in Hh. injection Hh as <-. split; [reflexivity|exact Hl].
  - do 5 right. destruct (breaks_help _ _ _ _ _ (Hb _ Hin) Hh) as (w & x & lo & hi & sp & ->).
    destruct (C53_range_message _ _ _ _ _ _ _ _ _ _ _ E Hl (ex_intro _ f Hf) Hin) as (i & l & u & -> & -> & -> & -> & Hv). exists w, i, l, u. split; [reflexivity|]. cbn [perr_help] in Hh. injection Hh as <-. split; [reflexivity|exact Hv].
  - rewrite Forall_forall in Ht. destruct (Ht _ Hin) as [_ T]. destruct e; try discriminate Hh; cbn [perr_help] in Hh; injection Hh as <-.
    + right; left. destruct T as (v & T1 & T2 & T3 & _). eexists _, _, v. split; [reflexivity|]. auto.
    + do 2 right; left. destruct T as (v & w & T1 & T2 & T3). eexists _, v, w. do 2 (split; [reflexivity|]). split; [exact T1|]. split; [exact T2|]. split; [exact T3|]. intros R. exact (identifier_help w R T3).
    + do 3 right; left. destruct T as (v & T1 & T2). eexists _, v. do 2 (split; [reflexivity|]). auto.
    + do 4 right; left. destruct T as (v & w & T1 & T2 & T3). eexists _, v, w. do 2 (split; [reflexivity|]). split; [exact T1|]. split; [exact T2|]. split; [exact T3|]. intros R. exact (import_help w R T3).
    + destruct T as (t & tsp & _ & []).
    + destruct T as (t & tsp & _ & []).
Qed.
Print Assumptions C67_help.
(** Which errors come with help: the kinds of which [C67_help] speaks. *)
Theorem C67_given e : perr_help e <> None <->
  e = FileTooLarge \/ (exists t sp, e = UnknownSyntax t sp) \/ (exists sp, e = InvalidIdentifier sp \/ e = InvalidGroupName sp \/ e = InvalidImport sp) \/ (exists w x lo hi sp, e = IntegerValueOutOfRange w x lo hi sp).
Proof.
  split.
  - destruct e; intros H; try (exfalso; apply H; reflexivity); clear H; eauto 12.
  - intros [->|[(t & sp & ->)|[(sp & [->|[->| ->]])|(w & x & lo & hi & sp & ->)]]]; discriminate.
Qed.
Print Assumptions C67_given.
(** The limit quoted when a file is opened. *)
Theorem C67_file_too_large k sort fs name path n : file_open k sort fs name path = Done (inr (EFileTooLarge n)) ->
  n = name /\ error_help (EFileTooLarge n) = Some (b "the maximum file length is 2,147,483,647 bytes") /\ exists h m, fs path = inr h /\ fs_len h = inr m /\ 2147483647 < m.
Proof.
  unfold file_open. destruct (fs path) as [e|h]; [destruct e; discriminate|]. destruct (fs_len h) as [e|m] eqn:El; [destruct e; discriminate|].
  change i32_max with 2147483647. destruct (2147483647 <? m) eqn:Em.
  - intros H. injection H as <-. split; [reflexivity|]. split; [reflexivity|]. exists h, m. split; [reflexivity|]. split; [exact El|]. now apply N.ltb_lt.
  - generalize (N.to_nat 2147483647). intros M. destruct (fs_read h) as [e|c]; [destruct e; discriminate|]. cbv zeta. destruct (utf8_valid _); [|discriminate]. destruct (parse _ _ _ _) as [[[d|e] a]| |]; discriminate.
Qed.
Print Assumptions C67_file_too_large.

(** ** Examples *)
Definition help_of (src : bytes) : option (list (option bytes)) := match parse ex_k0 loc_sort (b "a.proto") src with Done (inr e, _) => Some (map perr_help (pe_all e)) | _ => None end.
Example C67_ex_syntax : help_of (b "syntax = 'proto4';") = Some [Some (b "possible values are 'proto2' and 'proto3'")] /\ help_of (b "syntax = 'proto2';") = None /\ help_of (b "syntax = 'proto3';") = None.
Proof. split; [|split]; lazy; reflexivity. Qed.
Example C67_ex_identifier : help_of (b "message A { reserved '1a'; }") = Some [Some (b "identifiers must consist of letters, numbers and underscores, and may not start with a number")].
Proof. lazy. reflexivity. Qed.
(** [_a] keeps the rule. *)
Example C67_ex_underscore : help_of (b "message A { reserved '_a'; }") = Some [Some (b "identifiers must consist of letters, numbers and underscores, and may not start with a number")] /\ identifier_rule (b "_a").
Proof. split; [lazy; reflexivity|]. split; [repeat (constructor; [unfold word_char, letter; cbn; lia|]); constructor|]. intros c r [= <- _]. lia. Qed.
Example C67_ex_import : help_of (b "import 'a//b';") = Some [Some (b "imports may not contain backslashes, repeated forward slashes, '.' or '..' components")].
Proof. lazy. reflexivity. Qed.
(** So does the import of [/]. *)
Example C67_ex_slash : help_of (b "import '/';") = Some [Some (b "imports may not contain backslashes, repeated forward slashes, '.' or '..' components")] /\ import_rule (b "/").
Proof.
  split; [lazy; reflexivity|]. split; [cbn; intros [H|[]]; discriminate|]. split.
  - intros x y E. apply (f_equal (@length N)) in E. rewrite !app_length in E. cbn in E. lia.
  - split; intros (x & y & E & _); assert (Hin : In 46 (b "/")) by (rewrite E; apply in_or_app; right; apply in_or_app; left; cbn; auto); cbn in Hin; destruct Hin as [Hin|[]]; discriminate.
Qed.
Example C67_ex_range : help_of (b "message A { optional int32 a = 1 [default = 2147483648]; }") = Some [Some (b "the value must be between -2147483648 and 2147483647 inclusive")].
Proof. lazy. reflexivity. Qed.
Example C67_ex_group : help_of (b "message A { optional group a = 1 {} }") = Some [Some (b "group names must consist of a capital letter followed by letters, numbers and underscores")].
Proof. lazy. reflexivity. Qed.
