(** C64: what [parse] returns can be written and parsed again. *)
From Verif Require Import PropsDesc2 PropsComplete PropsParse PropsTokens PropsAggregate CharEdge.
From Verif Require Import Base Utf8 Utf8Spec Errors Lex Ast Descriptor LexSpec Stream SynSpec Walk WalkG3 Decimal Grammar Meaning Generate ParseApi WriteSpec WriteProofs WriteFields WriteMessage WriteFile WriteLex WriteBack WriteBack4 PropsWrite.

(** The tokens of an accepted text. *)
Lemma accepted_toks k src ts : Forall (fun c => c < 256) src -> sigs (stream k src 0) = map inj ts -> mclean k (marks ts) src 0 -> toks ts.
Proof.
  intros Hb Hs Hmc. pose proof (mclean_written k (marks ts) src 0 Hmc [] eq_refl ts Hs eq_refl) as Hwr. cbn [app] in Hwr. unfold toks. rewrite Forall_forall in Hwr |- *. intros x Hin.
  destruct (tk_tok x) eqn:Et; try exact I.
  3: { intros Hm. destruct (Hwr x Hin) as (? & s & ? & _ & _ & H). rewrite Et, Hm in H. cbn [written] in H. destruct H as [H1 [[-> H2]|[H2 _]]]; [split; auto|discriminate H2]. }
  all: assert (Hp : PropsAggregate.plain k (tk_tok x)) by (eapply written_plain; [exact Hb|exact (Hwr x Hin)|apply (sigs_significant (stream k src 0)); rewrite Hs; apply in_map_iff; exists x; split; [reflexivity|exact Hin]|rewrite Et; discriminate]).
  all: rewrite Et in Hp; exact Hp.
Qed.

(** Every descriptor [parse] returns, if it has nothing the writer leaves out, is in the class of C63. *)
Theorem C64_in_class k sort name src d a : Forall (fun c => c < 256) src -> parse k sort name src = Done (inl d, a) -> plain_file d -> writable (with_source_info d None) /\ d_name d = Some name.
Proof.
  intros Hb E Hp. destruct (parse_ok_inv _ _ _ _ _ _ E) as (_ & f & (ts & G & Hs & Hmc) & Ok & ls & _ & ->). split; [|reflexivity].
  assert (Es : exists p3, fi_syntax f = syn_of p3) by (destruct (fi_syntax f); [exists false|exists true]; reflexivity). destruct Es as [p3 Es]. rewrite Es in *.
  exact (file_back (C := com_of k src) k p3 _ ts f name G (accepted_toks k src ts Hb Hs Hmc) Es Ok Hp).
Qed.
Print Assumptions C64_in_class.

Lemma write_source_info d l : write (with_source_info d l) = write d.
Proof.
  assert (E : forall ds i, w_imports (with_source_info d l) i ds = w_imports d i ds) by (induction ds as [|x ds IH]; intros i; [reflexivity|]; cbn [w_imports]; rewrite IH; reflexivity).
  unfold write, w_file. rewrite E. reflexivity.
Qed.
(** Written and parsed again it is the same descriptor. *)
Theorem C64_reparse k sort name src d a : Forall (fun c => c < 256) src -> parse k sort name src = Done (inl d, a) -> plain_file d -> len (write d) <= i32_max ->
  exists d' a', parse k sort name (write d) = Done (inl d', a') /\ with_source_info d' None = with_source_info d None.
Proof.
  intros Hb E Hp Hl. destruct (C64_in_class _ _ _ _ _ _ Hb E Hp) as [Hw Hn].
  pose proof (write_source_info d None) as Ew. assert (En : d_name (with_source_info d None) = Some name) by (destruct d; exact Hn).
  assert (Ei : with_source_info (with_source_info d None) None = with_source_info d None) by (destruct d; reflexivity).
  pose proof (C63_round_trip k sort (with_source_info d None) name Hw En) as R. rewrite Ew, Ei in R. exact (R Hl).
Qed.
Print Assumptions C64_reparse.

(** Files with the same text written for them have the same descriptor. *)
Theorem C64_text_determines d1 d2 name : writable d1 -> writable d2 -> d_name d1 = Some name -> d_name d2 = Some name -> len (write d1) <= i32_max -> write d1 = write d2 ->
  with_source_info d1 None = with_source_info d2 None.
Proof.
  intros W1 W2 N1 N2 L E. destruct (C63_round_trip ex_k0 loc_sort d1 name W1 N1 L) as (d & a & E1 & F1). rewrite E in L. destruct (C63_round_trip ex_k0 loc_sort d2 name W2 N2 L) as (d' & a' & E2 & F2).
  rewrite E in E1. rewrite E1 in E2. injection E2 as <- <-. congruence.
Qed.
Print Assumptions C64_text_determines.

(** ** Concrete files: comments, members in any order, options in several places, nested messages, maps, oneofs, an extension. *)
Definition ex_back : bytes :=
  b "// A file" ++ nl_ ++ b "option java_package = 'a' ""b""; message M { reserved 3, 7 to max; repeated string s = 0x10 [(.o.p).q = -5, json_name = 'S'];" ++ nl_ ++
  b " message I { enum E { Z = 0; } } map<int32, I.E> names = 1; oneof which { M m = 2; option x = y; bytes z = 4; } /* c */ extend .M { optional I i = 6; } option message_set_wire_format = true; extensions 5, 20 to max [a = 1]; }" ++ nl_ ++
  b "service S { rpc R (stream M) returns (.M); ; option o = 'v'; } package x.y; import weak 'c.proto'; import public 'd/e.proto';".
Example ex_back_result : exists d a, parse ex_k0 loc_sort (b "x.proto") ex_back = Done (inl d, a) /\ plain_file d /\ len (write d) <= i32_max /\
  write d = b " syntax = ""proto2"" ; package x . y ; import weak ""c.proto"" ; import public ""d/e.proto"" ; option java_package = ""ab"" ; message M { option message_set_wire_format = true ; repeated string s = 16 [ json_name = ""S"" , ( . o . p ) . q = - 5 ] ; message I { enum E { Z = 0 ; } } map < int32 , I . E > names = 1 ; oneof which { option x = y ; M m = 2 ; bytes z = 4 ; } extend . M { optional I i = 6 ; } extensions 5 to 5 [ a = 1 ] ; extensions 20 to max [ a = 1 ] ; reserved 3 to 3 ; reserved 7 to max ; } service S { option o = ""v"" ; rpc R ( stream M ) returns ( . M ) { } }".
Proof.
  eexists _, _. split; [vm_compute; reflexivity|]. split; [|split].
  - repeat (split || constructor); try discriminate.
  - vm_compute. discriminate.
  - vm_compute. reflexivity.
Qed.
Example ex_back3_result : exists d a, parse ex_k0 loc_sort (b "x.proto") ex_proto3 = Done (inl d, a) /\ plain_file d /\ len (write d) <= i32_max /\
  write d = b " syntax = ""proto3"" ; message M { optional int32 a = 1 ; oneof o { M m = 2 ; } optional M _b = 3 ; uint64 c = 4 ; }".
Proof.
  eexists _, _. split; [vm_compute; reflexivity|]. split; [|split].
  - repeat (split || constructor); try discriminate.
  - vm_compute. discriminate.
  - vm_compute. reflexivity.
Qed.
Example ex_back_bytes : exists d a, parse ex_k0 loc_sort (b "x.proto") (b "option (o) = -1.5e3; message M { optional bytes z = 1 [default = '\x00\377a""\n', w = .5]; }") = Done (inl d, a) /\ plain_file d /\ len (write d) <= i32_max /\
  write d = b " syntax = ""proto2"" ; option ( o ) = - 1.5e3 ; message M { optional bytes z = 1 [ default = ""\x00\xffa\""\n"" , w = .5 ] ; }".
Proof.
  eexists _, _. split; [vm_compute; reflexivity|]. split; [|split].
  - repeat (split || constructor); try discriminate.
  - vm_compute. discriminate.
  - vm_compute. reflexivity.
Qed.
