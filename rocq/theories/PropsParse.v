(** Properties of [protox_parse::parse]: C01, C02, C03, C06, C22, C24, C26, C27,
    C43. They combine the parser's soundness (WalkG3.v), the well-formedness of
    parsed declarations (AstWfG.v) and the generator's correctness (GenProofs.v).

    The theorems quantify over the configuration [k] (the lexer variant and the
    printing of doubles), the sorting function [sort], the file name and the
    source. [Done] is a normal return; [Panic] and [NoFuel] are the other outcomes
    of the model (a panic, a loop that did not end). *)
From Verif Require Import Base Utf8 Errors Lex Ast Comments Parse Lines Descriptor Generate ParseApi Paths Resolver.
From Coq Require Import Sorting.Sorted.
From Verif Require Import LexSafe Stream Grammar Utf8Spec Classify SynSpec Walk WalkG1 WalkG2 WalkG3 Meaning AstWf GenProofs AstWfG PropsPaths.

(** ** Specification *)

(** [d] is the descriptor, named [name], denoted by the declarations [f] of [src]. *)
Definition describes (k : cfg) (sort : list location -> list location) (name src : bytes) (f : file) (d : file_desc) : Prop :=
  exists ls, lines_new src = Done ls /\
  d = with_source_info (den_file k (fi_syntax f) name f) (Some (sort (map (mk ls) (l_file k (fi_syntax f) f)))).

(** ** The result of [parse] *)
Theorem parse_spec k sort name src :
  if i32_max <? len src then
    parse k sort name src = Done (inr {| pe_kind := FileTooLarge; pe_related := []; pe_name := name; pe_source := [] |}, false)
  else exists r a, parse k sort name src = Done (r, a) /\ (a = true -> munch_ideal k = false /\ bad_run src /\ exists e, r = inr e) /\
    match r with
    | inl d => exists f, accepted k src f /\ ok_file k (fi_syntax f) f /\ describes k sort name src f d
    | inr e => pe_name e = name /\ pe_source e = src /\ Forall (err_ok (len src)) (pe_all e) /\
               forall f, accepted k src f -> parse_file k src = Done (inl f, a) -> ~ ok_file k (fi_syntax f) f
    end.
Proof.
  unfold parse. destruct (i32_max <? len src) eqn:El; [reflexivity|]. apply N.ltb_ge in El.
  destruct (parse_file_sound k src) as (r & a & E & Ha & Hr). rewrite E. cbn [obind]. destruct r as [f|es].
  - assert (Ef : a = false) by (destruct a; [destruct (Ha eq_refl) as (_ & _ & ? & ?); discriminate|reflexivity]). subst a. clear Ha.
    destruct (generate_file_spec k sort f name src El (accepted_wf _ _ _ Hr)) as (ls & Els & [(Hok & Eg)|(Hno & es & Eg & Hne & Hes)]); rewrite Eg; cbn [obind].
    + eexists _, _. split; [reflexivity|]. split; [discriminate|]. exists f. split; [auto|]. split; [auto|]. exists ls. auto.
    + destruct es as [|e es]; [congruence|]. cbn [parse_error_new obind]. eexists _, _. split; [reflexivity|]. split; [discriminate|].
      cbn. repeat split; auto. intros g _ [= <-]. exact Hno.
  - destruct Hr as [Hne Hes]. destruct es as [|e es]; [congruence|]. cbn [parse_error_new obind]. eexists _, _. split; [reflexivity|]. split; [intros Hat; destruct (Ha Hat) as (? & ? & _); eauto|].
    cbn. repeat split; auto; [|intros g _ [= ]]. eapply Forall_impl; [|exact Hes]. intros x Hx. exact (proj1 Hx).
Qed.

Lemma parse_ok_inv k sort name src d a : parse k sort name src = Done (inl d, a) ->
  len src <= i32_max /\ exists f, accepted k src f /\ ok_file k (fi_syntax f) f /\ describes k sort name src f d.
Proof.
  intros E. pose proof (parse_spec k sort name src) as H. destruct (i32_max <? len src) eqn:El; [congruence|]. apply N.ltb_ge in El. split; auto.
  destruct H as (r & a' & E' & _ & H). rewrite E in E'. injection E' as <- <-. exact H.
Qed.
Lemma parse_err_inv k sort name src e a : parse k sort name src = Done (inr e, a) ->
  (i32_max < len src /\ pe_all e = [FileTooLarge]) \/ (len src <= i32_max /\ pe_source e = src /\ Forall (err_ok (len src)) (pe_all e)).
Proof.
  intros E. pose proof (parse_spec k sort name src) as H. destruct (i32_max <? len src) eqn:El.
  - left. rewrite E in H. injection H as -> _. split; [now apply N.ltb_lt|reflexivity].
  - right. apply N.ltb_ge in El. destruct H as (r & a' & E' & _ & H). rewrite E in E'. injection E' as <- <-. destruct H as (_ & H2 & H3 & _). auto.
Qed.

(** Examples used below. *)
Definition nl_ : bytes := [10].
Definition ex_proto2 : bytes :=
  b "package foo.bar;" ++ nl_ ++ b "import public ""a/b.proto"";" ++ nl_ ++ b "import 'c.proto';" ++ nl_ ++
  b "message M { optional int32 a = 1 [default = -5, deprecated = true]; repeated group Grp = 2 { required .foo.T x = 1; }" ++ nl_ ++
  b " map<string, M> m = 3; oneof o { bool p = 4; bytes q = 5; } extensions 100 to max; reserved 7, 9 to 12; reserved 'r'; }" ++ nl_ ++
  b "enum E { A = 0; B = -1; reserved -5 to max; option (x.y).z = { k: 1 # c" ++ nl_ ++ b " v: 2f }; } extend M { optional E e = 100; }" ++ nl_ ++
  b "service S { rpc R (stream M) returns (.M) { option o = 'v' ""w""; } }".
Definition ex_proto3 : bytes :=
  b "syntax = 'proto3'; // c" ++ nl_ ++ b "message M { optional int32 a = 1; oneof o { M m = 2; } optional M _b = 3; uint64 c = 4; }".
Definition ex_k0 : cfg := {| munch_ideal := false; f64_display := fun _ t => t; f64_to_string := fun _ t => t |}.
Definition ok_result (src : bytes) : bool := match parse ex_k0 loc_sort (b "x.proto") src with Done (inl _, false) => true | _ => false end.
Example ex_proto2_ok : ok_result ex_proto2 = true.
Proof. vm_compute. reflexivity. Qed.
Example ex_proto3_ok : ok_result ex_proto3 = true.
Proof. vm_compute. reflexivity. Qed.

(** ** C01: [parse] returns for every input; an error carries at least one error. *)
Theorem C01_parse_total k sort name src :
  exists r a, parse k sort name src = Done (r, a) /\
    match r with inl _ => True | inr e => exists first others, pe_all e = first :: others end.
Proof.
  pose proof (parse_spec k sort name src) as H. destruct (i32_max <? len src).
  - rewrite H. eexists _, _. split; [reflexivity|]. unfold pe_all. eauto.
  - destruct H as (r & a & E & _). exists r, a. split; auto. destruct r; auto. unfold pe_all. eauto.
Qed.
Print Assumptions C01_parse_total.

(** ** C02: a debug build returns the same as a release build, unless the release
    build reports an error and the source contains a digit run of the form 0,
    octal digits, 8 or 9 (and logos takes it as one literal). *)
Theorem C02_debug_assertions k sort name src :
  (exists r, parse_debug k sort name src = Done r /\ parse k sort name src = Done (r, false)) \/
  (munch_ideal k = false /\ (exists e, parse k sort name src = Done (inr e, true)) /\ exists pre os d post, src = pre ++ b "0" ++ os ++ d :: post /\ os <> [] /\ Forall (fun c => 48 <= c <= 55) os /\ (d = 56 \/ d = 57)).
Proof.
  unfold parse_debug. pose proof (parse_spec k sort name src) as H. destruct (i32_max <? len src).
  - rewrite H. cbn [obind]. left. eauto.
  - destruct H as (r & a & E & Ha & _). rewrite E. cbn [obind]. destruct a; [|left; eauto]. right.
    destruct (Ha eq_refl) as (Hm & (pre & os & dg & post & -> & Ho & Hf & Hd) & e & ->). split; auto. split; [eauto|]. exists pre, os, dg, post. repeat split; auto.
    rewrite forallb_forall in Hf. apply Forall_forall. intros c Hc. apply Hf in Hc. unfold is_octal in Hc. apply andb_prop in Hc. destruct Hc as [H1 H2].
    apply N.leb_le in H1, H2. change (N_of_ascii "0"%char) with 48 in H1. change (N_of_ascii "7"%char) with 55 in H2. lia.
Qed.
Print Assumptions C02_debug_assertions.
(** What a release build accepts, a debug build accepts, with the same result. *)
Theorem C02_accepted_in_debug k sort name src d a : parse k sort name src = Done (inl d, a) ->
  parse_debug k sort name src = Done (inl d).
Proof.
  intros E. destruct (C02_debug_assertions k sort name src) as [(r & Er & Ep)|(_ & (e & Ee) & _)]; rewrite E in *; [|discriminate].
  injection Ep as <- _. exact Er.
Qed.
Print Assumptions C02_accepted_in_debug.
Lemma ok_result_done src : ok_result src = true -> exists d, parse ex_k0 loc_sort (b "x.proto") src = Done (inl d, false).
Proof. unfold ok_result. generalize (parse ex_k0 loc_sort (b "x.proto") src). intros [[[d|e] [|]]| |] H; try discriminate H. eauto. Qed.
Example C02_accepted_ex : exists d, parse_debug ex_k0 loc_sort (b "x.proto") ex_proto2 = Done (inl d).
Proof. destruct (ok_result_done _ ex_proto2_ok) as (d & E). exists d. exact (C02_accepted_in_debug _ _ _ _ _ _ E). Qed.
(** The exception is real. *)
Theorem C02_assertion_fails : parse_debug ex_k0 loc_sort (b "x.proto") (b "enum E { A = 018; }") = Panic.
Proof. vm_compute. reflexivity. Qed.
Print Assumptions C02_assertion_fails.
Example C02_ideal : exists r, parse_debug {| munch_ideal := true; f64_display := fun _ t => t; f64_to_string := fun _ t => t |} loc_sort (b "x.proto") (b "enum E { A = 018; }") = Done r.
Proof. eexists. vm_compute. reflexivity. Qed.

(** ** C03: what is accepted is a sentence of the grammar (Grammar.v), and the
    descriptor is the one that sentence's declarations denote (Meaning.v). *)
Theorem C03_sound k sort name src d a : parse k sort name src = Done (inl d, a) ->
  exists ts f, sigs (stream k src 0) = map inj ts /\ @g_file (com_of k src) k (len src) ts f /\ ok_file k (fi_syntax f) f /\ describes k sort name src f d.
Proof. intros E. destruct (parse_ok_inv _ _ _ _ _ _ E) as (_ & f & (ts & H1 & H2 & _) & H3 & H4). eauto 10. Qed.
Print Assumptions C03_sound.

(** ** C06: lexing the whole source of an accepted file gives no lexical error
    and no invalid token; comments starting with a hash and floats with an f suffix
    (errors except in text-format messages) occur inside aggregate values only. *)
Lemma mclean_clean k ms rest pos : mclean k ms rest pos -> clean k true rest pos.
Proof.
  induction 1 as [rest pos s' E|ms rest pos t s' E Ht He Hm IH|m ms rest pos t s' E Ht He Hm IH].
  - assert (He : l_errs s' = []) by (rewrite (lx_none _ _ _ _ (lexes_det _ _ _ _ E) eq_refl); reflexivity).
    apply (clean_back _ _ _ _ E He). congruence.
  - apply (clean_back _ _ _ _ E He). auto.
  - apply (clean_back _ _ _ _ E He). auto.
Qed.
Lemma inj_valid l ts : sigs l = map inj ts -> Forall (fun x => fst x <> None) l.
Proof.
  revert ts. induction l as [|x l IH]; intros ts E; constructor.
  - rewrite sigs_cons in E. unfold significant in E. destruct x as [[t|] sp]; [discriminate|]. cbn [fst] in E. destruct ts; [discriminate|]. injection E. discriminate.
  - rewrite sigs_cons in E. destruct (significant x); [destruct ts; [discriminate|]; injection E; eauto|eauto].
Qed.
Theorem C06_no_lexical_error k sort name src d a : parse k sort name src = Done (inl d, a) ->
  (exists toks s, lex_all k (canon true src 0) = Done (toks, s) /\ l_errs s = [] /\ l_rest s = [] /\ Forall (fun x => fst x <> None) toks) /\
  exists ts f, @g_file (com_of k src) k (len src) ts f /\ sigs (stream k src 0) = map inj ts /\ mclean k (marks ts) src 0.
Proof.
  intros E. destruct (parse_ok_inv _ _ _ _ _ _ E) as (_ & f & (ts & H1 & H2 & H3) & _). split; [|eauto].
  pose proof (mclean_clean _ _ _ _ H3) as Hc. unfold clean in Hc. unfold stream in H2.
  destruct (lex_all_total k (canon true src 0)) as (toks & s & El). rewrite El in *. exists toks, s. repeat split; auto.
  - clear - El. revert toks s El. apply (lex_ind k (fun s0 => forall toks s, lex_all k s0 = Done (toks, s) -> l_rest s = [])).
    + intros s s' H toks s0 E. rewrite (lex_all_step _ _ _ _ (lx_eq _ _ _ _ H)) in E. injection E as <- <-. destruct (lx_split _ _ _ _ H) as (w & used & _ & _ & _ & _ & _ & Hr). exact Hr.
    + intros s t s' H IH toks s0 E. rewrite (lex_all_step _ _ _ _ (lx_eq _ _ _ _ H)) in E. destruct (lex_all_total k s') as (ts1 & s1 & E1). rewrite E1 in E. cbn [obind] in E. injection E as <- <-. eauto.
  - eapply inj_valid; eauto.
Qed.
Print Assumptions C06_no_lexical_error.

(** ** C24: error spans lie inside the source. *)
Theorem C24_error_spans k sort name src e a : parse k sort name src = Done (inr e, a) ->
  forall err sp, In err (pe_all e) -> In sp (perr_spans err) -> s_start sp <= s_end sp /\ s_end sp <= len src.
Proof.
  intros E err sp Hi Hs. destruct (parse_err_inv _ _ _ _ _ _ E) as [[_ H]|(_ & _ & H)].
  - rewrite H in Hi. destruct Hi as [<-|[]]. destruct Hs.
  - rewrite Forall_forall in H. apply H in Hi. unfold err_ok in Hi. rewrite Forall_forall in Hi. apply Hi in Hs. exact Hs.
Qed.
Print Assumptions C24_error_spans.
Definition err_result (src : bytes) : list (list span) := match parse ex_k0 loc_sort (b "x.proto") src with Done (inr e, _) => map perr_spans (pe_all e) | _ => [] end.
Example C24_example : err_result (b "message M { int32 a = 0; required M b = 3 } enum E { A = $; }") <> [].
Proof. vm_compute. discriminate. Qed.
Example C24_example2 : err_result (b "package a; message M { int32 a = 0; optional int32 b = 3 [default = true]; }") <> [].
Proof. vm_compute. discriminate. Qed.

(** ** C26: at most one package statement, and its name is the package. *)
Theorem C26_package k sort name src d a : parse k sort name src = Done (inl d, a) ->
  exists ss sx sxs ts l, sigs (stream k src 0) = map inj (ss ++ ts) /\ @g_syntax (com_of k src) ss sx sxs /\ g_many (@g_statement (com_of k src) k) ts l /\
    match flat_map st_packages l with
    | [] => d_package d = None
    | [p] => d_package d = Some (dotted (map id_val (pk_name p)))
    | _ => False
    end.
Proof.
  intros E. destruct (parse_ok_inv _ _ _ _ _ _ E) as (_ & f & (ts & H1 & H2 & _) & _ & (ls & _ & ->)). inversion H1; subst. exists ss, sx, sxs, ts0, l. split; [auto|]. split; [auto|]. split; [auto|].
  match goal with H : flat_map st_packages l = _ |- _ => rewrite H end. destruct pkg; reflexivity.
Qed.
Print Assumptions C26_package.
Example C26_example : match parse ex_k0 loc_sort (b "x.proto") ex_proto2 with Done (inl d, _) => d_package d | _ => None end = Some (b "foo.bar").
Proof. vm_compute. reflexivity. Qed.
Example C26_twice : err_result (b "package a; package b;") = [[(0, 10); (11, 21)]].
Proof. vm_compute. reflexivity. Qed.

(** ** C22: imports *)
Lemma kind_indices_spec ik l i z : In z (kind_indices ik i l) <-> exists n im, nth_error l n = Some im /\ is_kind ik im = true /\ z = Z.of_N (i + N.of_nat n).
Proof.
  revert i. induction l as [|x l IH]; intros i; cbn [kind_indices].
  - split; [intros []|]. intros (n & im & H & _). destruct n; discriminate.
  - rewrite in_app_iff, IH. split.
    + intros [H|(n & im & H1 & H2 & ->)].
      * destruct (is_kind ik x) eqn:Ex; [|destruct H]. destruct H as [<-|[]]. exists 0%nat, x. repeat split; auto. f_equal. lia.
      * exists (S n), im. repeat split; auto. f_equal. lia.
    + intros (n & im & H1 & H2 & ->). destruct n as [|n].
      * injection H1 as ->. left. rewrite H2. left. f_equal. lia.
      * right. exists n, im. repeat split; auto. f_equal. lia.
Qed.
Lemma kind_indices_ge ik l i z : In z (kind_indices ik i l) -> (Z.of_N i <= z)%Z.
Proof. intros H. apply kind_indices_spec in H. destruct H as (n & im & _ & _ & ->). lia. Qed.
Lemma kind_indices_sorted ik l i : StronglySorted Z.lt (kind_indices ik i l).
Proof.
  revert i. induction l as [|x l IH]; intros i; cbn [kind_indices]; [constructor|]. destruct (is_kind ik x); cbn [app]; auto. constructor; auto.
  apply Forall_forall. intros z Hz. apply kind_indices_ge in Hz. lia.
Qed.
Lemma g_many_imports {CS : comspec} k ts l : g_many (g_statement k) ts l -> Forall (fun im => relative_path (im_value im)) (flat_map st_imports l).
Proof.
  induction 1 as [|ts s ts' l H H1 IH]; cbn [flat_map]; [constructor|]. apply Forall_app. split; auto. destruct H; cbn [st_imports]; constructor; auto. destruct H; auto.
Qed.
(** [is] are the import statements of the source, in order. *)
Theorem C22_imports k sort name src d a : parse k sort name src = Done (inl d, a) ->
  exists ss sx sxs ts l, sigs (stream k src 0) = map inj (ss ++ ts) /\ @g_syntax (com_of k src) ss sx sxs /\ g_many (@g_statement (com_of k src) k) ts l /\
    let is := flat_map st_imports l in
    d_dependency d = map im_value is /\
    Forall relative_path (d_dependency d) /\
    (forall i : nat, In (Z.of_nat i) (d_public d) <-> exists im sp, nth_error is i = Some im /\ im_kind im = Some (IPublic, sp)) /\
    (forall i : nat, In (Z.of_nat i) (d_weak d) <-> exists im sp, nth_error is i = Some im /\ im_kind im = Some (IWeak, sp)) /\
    StronglySorted Z.lt (d_public d) /\ StronglySorted Z.lt (d_weak d) /\
    Forall (fun z => 0 <= z < Z.of_nat (length (d_dependency d)))%Z (d_public d ++ d_weak d).
Proof.
  intros E. destruct (parse_ok_inv _ _ _ _ _ _ E) as (_ & f & (ts & H1 & H2 & _) & _ & (ls & _ & ->)). inversion H1; subst. exists ss, sx, sxs, ts0, l. split; [auto|]. split; [auto|]. split; [auto|].
  cbn [with_source_info den_file d_dependency d_public d_weak fi_imports]. set (is := flat_map st_imports l). cbn zeta. split; [reflexivity|].
  assert (Hk : forall ik (i : nat), In (Z.of_nat i) (kind_indices ik 0 is) <-> exists im sp, nth_error is i = Some im /\ im_kind im = Some (ik, sp)).
  { intros ik i. rewrite kind_indices_spec. split.
    - intros (n & im & Hn & Hi & Hz). assert (n = i) by lia. subst n. unfold is_kind in Hi. destruct (im_kind im) as [[[] sp]|] eqn:Ek, ik; try discriminate; eauto.
    - intros (im & sp & Hn & Hi). exists i, im. split; auto. unfold is_kind. rewrite Hi. split; [destruct ik; auto|lia]. }
  split; [|split; [apply Hk|split; [apply Hk|split; [apply kind_indices_sorted|split; [apply kind_indices_sorted|]]]]].
  - apply Forall_map. eapply Forall_impl; [|eapply g_many_imports; eauto]. auto.
  - apply Forall_forall. intros z Hz. rewrite map_length. assert (Hz' : exists ik, In z (kind_indices ik 0 is)) by (apply in_app_iff in Hz; destruct Hz; eauto).
    destruct Hz' as (ik & Hz'). apply kind_indices_spec in Hz'. destruct Hz' as (n & im & Hn & _ & ->). assert (n < length is)%nat by (apply nth_error_Some; congruence). lia.
Qed.
Print Assumptions C22_imports.
Example C22_example : match parse ex_k0 loc_sort (b "x.proto") ex_proto2 with Done (inl d, _) => (d_dependency d, d_public d, d_weak d) | _ => ([], [], []) end
  = ([b "a/b.proto"; b "c.proto"], [0%Z], []).
Proof. vm_compute. reflexivity. Qed.
Example C22_rejects : forallb (fun s => match err_result (b "import '" ++ s ++ b "';") with [] => false | _ => true end)
  [b "../x.proto"; b "/etc/passwd"; b "a//b.proto"; b "./a"; b "a\\b"; b ""; b "a/"; b "a/../b"] = true.
Proof. vm_compute. reflexivity. Qed.

(** ** C43: the file opened for an import lies below the include directory. *)
Theorem C43_no_escape k sort name src d a include dep :
  parse k sort name src = Done (inl d, a) -> In dep (d_dependency d) ->
  (exists ns, ns <> [] /\ Forall plain ns /\ components (path_join include dep) = components include ++ map Normal ns) /\
  (forall k' sort' fs fs', fs (path_join include dep) = fs' (path_join include dep) ->
     r_open (include_resolver k' sort' fs include) dep = r_open (include_resolver k' sort' fs' include) dep).
Proof.
  intros E Hd. destruct (C22_imports _ _ _ _ _ _ E) as (ss & sx & sxs & ts & l & _ & _ & _ & _ & Hf & _). rewrite Forall_forall in Hf.
  destruct (Hf dep Hd) as (ns & Hn & Hs & ->). split.
  - exists ns. assert (Hp : Forall plain ns) by (eapply Forall_impl; [|exact Hs]; intros s (H1 & H2 & H3 & H4 & H5); repeat split; auto).
    split; auto. split; auto. apply components_join; auto.
  - intros k' sort' fs fs' Hfs. cbn [include_resolver r_open]. unfold file_open. now rewrite Hfs.
Qed.
Print Assumptions C43_no_escape.

(** ** C27: oversized sources are rejected up front, others never overflow an index. *)
Theorem C27_file_too_large k sort name src :
  (i32_max < len src -> exists e, parse k sort name src = Done (inr e, false) /\ pe_all e = [FileTooLarge]) /\
  exists r, parse k sort name src = Done r.
Proof.
  split.
  - intros H. pose proof (parse_spec k sort name src) as S. apply N.ltb_lt in H. rewrite H in S. eexists. split; [exact S|reflexivity].
  - destruct (C01_parse_total k sort name src) as (r & a & E & _). eauto.
Qed.
Print Assumptions C27_file_too_large.
