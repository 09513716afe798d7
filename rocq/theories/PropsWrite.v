(** C63: every descriptor in the class of WriteSpec.v has a text that parses to it. *)
From Coq Require Import ZifyBool ZifyN.
From Verif Require Import PropsDesc2 PropsComplete PropsParse CharEdge.
From Verif Require Import Base Utf8 Utf8Spec Errors Lex Ast Descriptor LexSpec Stream SynSpec Walk Decimal Grammar Meaning ParseApi WriteSpec WriteProofs WriteFields WriteMessage WriteFile WriteLex.

Theorem C63_round_trip k sort d name : writable d -> d_name d = Some name -> len (write d) <= i32_max ->
  exists d' a, parse k sort name (write d) = Done (inl d', a) /\ with_source_info d' None = with_source_info d None.
Proof.
  intros Hw Hn Hl. pose (C := any_comments). destruct (file_w k 0 d name Hw Hn) as (f & G & Es & Ed & Ok). rewrite <- Es in Ed, Ok.
  destruct (spelled_lexes k (w_file d) (sim_file d Hw)) as [L1 L2].
  destruct (C04_complete (CS := C) k sort name (write d) 0 (tks (w_file d)) f Hl G) as (d' & a & E & E'); [|exact L2|exact Ok|].
  - unfold write. rewrite L1. unfold tks. rewrite map_map. reflexivity.
  - exists d', a. split; [exact E|]. now rewrite E', Ed.
Qed.
Print Assumptions C63_round_trip.

(** ** Concrete descriptors of the class: proto3 with a map, a oneof and an optional field; proto2 with defaults, ranges, an extension and a service. *)
Definition wf (n : string) (i : Z) (l : label) (t : option ftype) (tn : option bytes) : field_desc :=
  {| f_name := Some (b n); f_number := Some i; f_label := Some l; f_type := t; f_type_name := tn; f_extendee := None; f_default := None; f_oneof_index := None; f_json_name := None; f_options := None; f_proto3_optional := None |}.
Definition wo3 (f : field_desc) (i : Z) : field_desc :=
  {| f_name := f_name f; f_number := f_number f; f_label := f_label f; f_type := f_type f; f_type_name := f_type_name f; f_extendee := None; f_default := None; f_oneof_index := Some i; f_json_name := None; f_options := None; f_proto3_optional := Some true |}.
Definition wdef (f : field_desc) (v j : string) (o : list uopt) : field_desc :=
  {| f_name := f_name f; f_number := f_number f; f_label := f_label f; f_type := f_type f; f_type_name := f_type_name f; f_extendee := f_extendee f; f_default := Some (b v); f_oneof_index := f_oneof_index f; f_json_name := Some (b j); f_options := Some o; f_proto3_optional := None |}.
Definition wopt (n : list (bytes * bool)) (v : string) : uopt :=
  {| uo_name := n; uo_identifier := Some (b v); uo_positive := None; uo_negative := None; uo_double := None; uo_string := None; uo_aggregate := None |}.
Definition ex_write3 : file_desc :=
  {| d_name := Some (b "a.proto"); d_package := Some (b "p.q"); d_dependency := [b "x/y.proto"; b "z.proto"]; d_public := [1%Z]; d_weak := [];
     d_message := [MsgDesc (Some (b "M"))
       [wo3 (wf "a" 2 LabOptional (Some FTInt32) None) 1%Z; set_oneof_index (Some 0%Z) (wf "u" 3 LabOptional None (Some (b ".p.q.M.Inner")));
        set_oneof_index (Some 0%Z) (wf "v" 4 LabOptional (Some FTString) None); wf "counts" 1 LabRepeated (Some FTMessage) (Some (b "CountsEntry"))]
       []
       [MsgDesc (Some (b "Inner")) [] [] [] [] [] [] None [] [b "old"]; entry (Some (b "CountsEntry")) FTString (Some FTInt64) None]
       [] [] [{| o_name := Some (b "which"); o_options := None |}; {| o_name := Some (b "_a"); o_options := None |}]
       (Some {| mo_map_entry := None; mo_uninterpreted := [wopt [(b "deprecated", false)] "true"] |})
       [{| r_start := Some 5%Z; r_end := Some 11%Z |}] []];
     d_enum := [{| e_name := Some (b "E"); e_value := [{| v_name := Some (b "A"); v_number := Some 0%Z; v_options := None |}; {| v_name := Some (b "B"); v_number := Some (-1)%Z; v_options := Some [wopt [(b ".o.pt", true); (b "x", false)] "y"] |}];
                   e_options := None; e_reserved_range := [{| r_start := Some (-9)%Z; r_end := Some (-7)%Z |}]; e_reserved_name := [] |}];
     d_service := []; d_extension := []; d_options := None; d_source_info := None; d_syntax := Some (b "proto3") |}.
Definition ex_write2 : file_desc :=
  {| d_name := Some (b "b.proto"); d_package := None; d_dependency := []; d_public := []; d_weak := [];
     d_message := [MsgDesc (Some (b "N"))
       [wdef (wf "n" 1 LabOptional (Some FTInt32) None) "-7" "N" [wopt [(b "deprecated", false)] "true"]; wf "m" 2 LabRequired None (Some (b "N"))]
       [] [] [] [{| x_start := Some 100%Z; x_end := Some 200%Z; x_options := None |}] [] None [] []];
     d_enum := [];
     d_service := [{| s_name := Some (b "S"); s_method := [{| me_d_name := Some (b "F"); me_d_input := Some (b "N"); me_d_output := Some (b ".N"); me_d_options := None; me_d_client := None; me_d_server := Some true |}]; s_options := None |}];
     d_extension := [set_extendee (Some (b "N")) (wf "ext" 150 LabRepeated (Some FTBytes) None)]; d_options := None; d_source_info := None; d_syntax := None |}.

Lemma qualified_b ws s : forallb identb ws = true -> ws <> [] -> s = separated 46 ws -> qualified s.
Proof. intros H Hn E. exists ws. split; [exact Hn|]. split; [|exact E]. apply Forall_forall. intros x Hx. rewrite forallb_forall in H. now apply identb_ok, H. Qed.
Lemma name_b n : identb n = true -> name_ok (Some n). Proof. intros H. exists n. split; [reflexivity|now apply identb_ok]. Qed.
Lemma ref_b ks w : identb w = true -> existsb (bytes_eqb w) ks = false -> type_ref ks w.
Proof.
  intros H1 H2. right. exists w, []. split; [|split; [constructor; [now apply identb_ok|constructor]|reflexivity]]. intros Hi. assert (E : existsb (bytes_eqb w) ks = true) by (apply existsb_exists; exists w; split; [exact Hi|apply bytes_eqb_refl]). congruence.
Qed.
Lemma in_b lo hi z : ((lo <=? z) && (z <=? hi))%Z = true -> number_in lo hi (Some z). Proof. intros H. exists z. split; [reflexivity|lia]. Qed.
Ltac idn := apply identb_ok; vm_compute; reflexivity.
Ltac nm := apply name_b; vm_compute; reflexivity.
Ltac nb := apply in_b; vm_compute; reflexivity.
Lemma wopt_ok n v : n <> [] -> Forall part_ok n -> identb (b v) = true -> option_ok (wopt n v).
Proof. intros H1 H2 H3. split; [exact H1|]. split; [exact H2|]. left. exists (b v). split; [now apply identb_ok|reflexivity]. Qed.
Lemma import_b ns s : ns <> [] -> forallb (fun c => negb (bytes_eqb c []) && negb (bytes_eqb c (b ".")) && negb (bytes_eqb c (b "..")) && forallb (fun x => (x <? 128) && negb (x =? 47) && negb (x =? 92)) c) ns = true -> s = separated 47 ns -> ascii7 s -> import_ok s.
Proof.
  intros Hn H -> Ha. split; [eapply Forall_impl; [|exact Ha]; cbn; intros; lia|]. split; [now apply ascii_utf8|]. exists ns. split; [exact Hn|]. split; [|reflexivity]. apply Forall_forall. intros c Hc. rewrite forallb_forall in H. specialize (H c Hc).
  repeat (apply andb_true_iff in H; destruct H as [H ?]). rewrite forallb_forall in H0. repeat split; try (intros ->; discriminate); intros Hi; apply H0 in Hi; discriminate.
Qed.
Lemma ex_write3_ok : writable ex_write3.
Proof.
  split; [now right|]. split; [apply (qualified_b [b "p"; b "q"]); [reflexivity|discriminate|reflexivity]|].
  split; [constructor; [apply (import_b [b "x"; b "y.proto"]); [discriminate|reflexivity|reflexivity|unfold ascii7; cbn; repeat constructor]|constructor; [apply (import_b [b "z.proto"]); [discriminate|reflexivity|reflexivity|unfold ascii7; cbn; repeat constructor]|constructor]]|].
  split; [reflexivity|]. split; [reflexivity|]. split; [intros z _ []|]. split; [exact I|]. split; [|split; [|split; constructor]].
  - constructor; [|constructor]. split; [reflexivity|]. apply (message_ok_ _ _ _ _ _ _ _ _ _ _ _ [{| o_name := Some (b "which"); o_options := None |}]).
    + nm.
    + right. eexists. split; [reflexivity|]. split; [discriminate|]. constructor; [|constructor]. apply wopt_ok; [discriminate|constructor; [idn|constructor]|reflexivity].
    + repeat constructor.
    + repeat (apply Forall_cons || apply Forall_nil); intros Hs; try discriminate Hs; cbn [oneof_of optional3 f_proto3_optional f_oneof_index wf wo3 set_oneof_index].
      * split; [split; [nm|split; [nb|split; [exact I|split; [exact I|constructor]]]]|]. split; [right; repeat split; discriminate|]. split; [reflexivity|exact I].
      * split; [split; [nm|split; [nb|split; [exact I|split; [exact I|constructor]]]]|]. split; [now left|]. split; [|exact I]. eexists. split; [reflexivity|]. left. eexists. split; [reflexivity|]. apply (qualified_b [b "p"; b "q"; b "M"; b "Inner"]); [reflexivity|discriminate|reflexivity].
      * split; [split; [nm|split; [nb|split; [exact I|split; [exact I|constructor]]]]|]. split; [now left|]. split; [reflexivity|exact I].
    + cbn [filter is_map is_entry wf wo3 set_oneof_index f_type m_options entry mo_map_entry]. constructor; [|constructor].
      split; [split; [nm|split; [nb|split; [exact I|split; [exact I|constructor]]]]|]. repeat (split; [reflexivity|]). exists FTString, (wf "value" 2 LabOptional (Some FTInt64) None). split; [reflexivity|]. split; [cbn [In]; intros H; repeat (destruct H as [H|H]; [discriminate|]); exact H|reflexivity].
    + reflexivity.
    + constructor; [|constructor]. split; [nm|exact I].
    + reflexivity.
    + reflexivity.
    + constructor.
    + intros m [<-|[<-|[]]] He; [|discriminate He]. apply (message_ok_ _ _ _ _ _ _ _ _ _ _ _ []); try (now constructor); try reflexivity.
      * nm.
      * intros m [].
      * constructor; [|constructor]. eexists _, _. split; [reflexivity|]. split; [right; vm_compute; split; discriminate|]. repeat (constructor; [left; right; left; vm_compute; split; discriminate|]). constructor.
    + constructor.
    + constructor.
    + constructor; [|constructor]. split; [nb|left; nb].
    + constructor.
  - constructor; [|constructor]. split; [nm|]. split; [|split; [exact I|split; [|constructor]]].
    + constructor; [|constructor; [|constructor]]; (split; [eexists; split; [reflexivity|]; split; [idn|split; discriminate]|split; [nb|]]); [exact I|]. split; [discriminate|]. constructor; [|constructor]. apply wopt_ok; [discriminate| |reflexivity]. constructor; [right; eexists; split; [reflexivity|]; apply (qualified_b [b "o"; b "pt"]); [reflexivity|discriminate|reflexivity]|constructor; [idn|constructor]].
    + constructor; [|constructor]. split; nb.
Qed.
Lemma ex_write2_ok : writable ex_write2.
Proof.
  split; [now left|]. split; [exact I|]. split; [constructor|]. split; [reflexivity|]. split; [reflexivity|]. split; [intros z _ []|]. split; [exact I|]. split; [|split; [constructor|split]].
  - constructor; [|constructor]. split; [reflexivity|]. apply (message_ok_ _ _ _ _ _ _ _ _ _ _ _ []); try (now constructor); try reflexivity.
    + nm.
    + repeat constructor.
    + repeat (apply Forall_cons || apply Forall_nil); intros Hs; cbn [oneof_of optional3 f_proto3_optional f_oneof_index wf wdef].
      * split; [split; [nm|split; [nb|split; [|split; [|constructor; [|constructor]]]]]|].
        -- split; [repeat constructor|apply ascii_utf8; repeat constructor].
        -- split; [discriminate|]. constructor; [|constructor]. apply wopt_ok; [discriminate|constructor; [idn|constructor]|reflexivity].
        -- split; discriminate.
        -- split; [now left|]. split; [reflexivity|]. split; [reflexivity|]. split; [discriminate|]. exists (-7)%Z. split; [lia|]. right. split; [lia|]. eexists. split; [reflexivity|]. apply dec_decimal.
      * split; [split; [nm|split; [nb|split; [exact I|split; [exact I|constructor]]]]|]. split; [repeat split|]. split; [|exact I]. eexists. split; [reflexivity|]. apply ref_b; reflexivity.
    + intros m [].
    + constructor; [|constructor]. split; [split; [nb|left; nb]|exact I].
  - constructor; [|constructor]. split; [nm|]. split; [|exact I]. constructor; [|constructor]. split; [nm|]. split; [eexists; split; [reflexivity|]; apply ref_b; reflexivity|]. split; [eexists; split; [reflexivity|]; left; eexists; split; [reflexivity|]; apply (qualified_b [b "N"]); [reflexivity|discriminate|reflexivity]|]. split; [exact I|]. split; [now left|now right].
  - constructor; [|constructor]. split; [|split; [reflexivity|]].
    + split; [split; [nm|split; [nb|split; [exact I|split; [exact I|constructor]]]]|]. split; [split; [discriminate|reflexivity]|]. split; [reflexivity|exact I].
    + eexists. split; [reflexivity|]. left. apply (qualified_b [b "N"]); [reflexivity|discriminate|reflexivity].
Qed.
(** The texts. *)
Lemma ex_write2_text : write ex_write2 = b " syntax = ""proto2"" ; message N { optional int32 n = 1 [ default = - 7 , json_name = ""N"" , deprecated = true ] ; required N m = 2 ; extensions 100 to 199 ; } service S { rpc F ( N ) returns ( stream . N ) { } } extend N { repeated bytes ext = 150 ; }".
Proof. vm_compute. reflexivity. Qed.
Lemma ex_write3_text : write ex_write3 = b " syntax = ""proto3"" ; package p . q ; import ""x/y.proto"" ; import public ""z.proto"" ; message M { option deprecated = true ; optional int32 a = 2 ; oneof which { . p . q . M . Inner u = 3 ; string v = 4 ; } message Inner { reserved ""old"" ; } map < string , int64 > counts = 1 ; reserved 5 to 10 ; } enum E { A = 0 ; B = - 1 [ ( . o . pt ) . x = y ] ; reserved - 9 to - 7 ; }".
Proof. vm_compute. reflexivity. Qed.
Lemma ex_write_short : len (write ex_write2) <= i32_max /\ len (write ex_write3) <= i32_max.
Proof. rewrite ex_write2_text, ex_write3_text. unfold i32_max. split; vm_compute; discriminate. Qed.
Lemma ex_write_parsed k sort : exists d2 a2 d3 a3, parse k sort (b "b.proto") (write ex_write2) = Done (inl d2, a2) /\ with_source_info d2 None = ex_write2 /\
  parse k sort (b "a.proto") (write ex_write3) = Done (inl d3, a3) /\ with_source_info d3 None = ex_write3.
Proof.
  destruct (C63_round_trip k sort ex_write2 (b "b.proto") ex_write2_ok eq_refl (proj1 ex_write_short)) as (d2 & a2 & E2 & F2). destruct (C63_round_trip k sort ex_write3 (b "a.proto") ex_write3_ok eq_refl (proj2 ex_write_short)) as (d3 & a3 & E3 & F3).
  exists d2, a2, d3, a3. auto.
Qed.
