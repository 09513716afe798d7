(** C05: spaces, line ends and comments between tokens do not matter. *)
From Coq Require Import ZifyBool ZifyN.
From Verif Require Import Base Errors Lex LexSpec Stream Ast Descriptor Parse Grammar SynSpec SpaceSpec Walk Insert ParseApi PropsParse PropsComplete.

(** Writing spacing at a place that lies inside no token leaves the outcome as it is. *)
Theorem C05_insert k sort sort' name p w q d a :
  parse k sort name (p ++ q) = Done (inl d, a) ->
  spacing w -> between (stream k (p ++ q) 0) (len p) -> ~ slashes p w ->
  (q = [] -> ~ open_comment (stream k p 0) p) -> len (p ++ w ++ q) <= i32_max ->
  exists d' a', parse k sort' name (p ++ w ++ q) = Done (inl d', a') /\ with_source_info d' None = with_source_info d None.
Proof.
  intros E Hw Hb Hs Ho Hn. assert (G : forall ms, mclean k ms (p ++ q) 0 -> mclean k ms (p ++ w ++ q) 0 /\ tokens_of k (p ++ w ++ q) 0 = tokens_of k (p ++ q) 0).
  { intros ms Hm. destruct w as [|c w]; [auto|]. destruct (mclean_reads _ _ _ _ Hm) as (ts & Hr & Et). rewrite Et. apply reads_mclean.
    apply (insert_reads k (c :: w) q Hw ltac:(discriminate) ms p ts 0 Hr); [exact Hb|exact Hs|]. intros Hq t sp Hi He. specialize (Ho Hq). subst q. rewrite app_nil_r in Hi. clear - Ho Hi He.
    destruct p as [|z p _] using rev_ind; [unfold stream in Hi; cbn in Hi; destruct Hi|]. destruct (N.eq_dec z 10) as [-> |Hz]; [eauto|]. exfalso. apply Ho. exists t, sp. split; [exact Hi|]. split; [exact He|].
    intros (u & Eu). apply app_inj_tail in Eu. destruct Eu. congruence. }
  destruct (parse_ok_inv _ _ _ _ _ _ E) as (_ & f & (ts & _ & _ & Hm) & _). destruct (G _ Hm) as [_ Et]. symmetry in Et.
  apply (C05_same_tokens k sort sort' name (p ++ q) (p ++ w ++ q) d a Et); [intros ms H; exact (proj1 (G ms H))|exact Hn|exact E].
Qed.
Print Assumptions C05_insert.

(** A case that meets the hypotheses: two comments, with stars and a line end, between a number and a semicolon. *)
Definition ins_p : bytes := b "message M { optional int32 a = 1".
Definition ins_q : bytes := b "; }".
Definition ins_w : bytes := b "/* x" ++ 10 :: b " ** y / */ // z;" ++ [10; 9].
Ltac no_occurrence := intros (u & v & E); repeat (destruct u as [|? u]; cbn in E; [discriminate E|first [discriminate E|injection E as _ E]]).
Example ins_spacing : spacing ins_w.
Proof.
  apply (sp_block (b " x" ++ 10 :: b " ** y / ") (b " // z;" ++ [10; 9])).
  - no_occurrence.
  - no_occurrence.
  - apply (sp_blank 32); [cbn; tauto|]. apply (sp_line (b " z;") [9]); [cbn; intuition discriminate|]. apply sp_blank; [cbn; tauto|constructor].
Qed.
Example C05_insert_example : exists d a, parse ex_k0 loc_sort (b "x.proto") (ins_p ++ ins_q) = Done (inl d, a) /\ spacing ins_w /\
  between (stream ex_k0 (ins_p ++ ins_q) 0) (len ins_p) /\ ~ slashes ins_p ins_w /\ (ins_q = [] -> ~ open_comment (stream ex_k0 ins_p 0) ins_p) /\ len (ins_p ++ ins_w ++ ins_q) <= i32_max.
Proof.
  assert (Eb : forallb (fun x => (snd (snd x) <=? len ins_p) || (len ins_p <=? fst (snd x))) (stream ex_k0 (ins_p ++ ins_q) 0) = true) by (vm_compute; reflexivity).
  destruct (parse ex_k0 loc_sort (b "x.proto") (ins_p ++ ins_q)) as [[[d|e] a]| |] eqn:E.
  2-4: exfalso; assert (F : ok_result (ins_p ++ ins_q) = true) by (vm_compute; reflexivity); unfold ok_result in F; rewrite E in F; discriminate F.
  exists d, a. split; [reflexivity|]. split; [exact ins_spacing|]. split; [|split; [|split]].
  - intros t sp Hi. rewrite forallb_forall in Eb. specialize (Eb _ Hi). cbn [snd fst] in Eb. unfold s_end, s_start. lia.
  - intros ((u & Eu) & _). apply (f_equal (fun l => hd 0 (rev l))) in Eu. rewrite rev_app_distr in Eu. cbn in Eu. discriminate Eu.
  - discriminate.
  - vm_compute. discriminate.
Qed.
(** Without the side conditions it is false: a comment behind a slash or in an open line comment. *)
Example ins_open : ok_result (b "message M {} // x") = true /\ spacing (b "/* " ++ 10 :: b "*/") /\ ok_result (b "message M {} // x" ++ b "/* " ++ 10 :: b "*/") = false.
Proof. split; [vm_compute; reflexivity|]. split; [|vm_compute; reflexivity]. apply (sp_block (b " " ++ [10]) []); [| |constructor]; no_occurrence. Qed.
