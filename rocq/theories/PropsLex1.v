(** C07: the scanner of the model implements longest match over the declared
    patterns, so that [lex_next] tokenises as the declarations say. *)
From Coq Require Import ZifyBool ZifyN.
From Verif Require Import Base Utf8 Errors Lex LexSpec.

(** ** Regular expression lemmas *)
Lemma m_class_inv rs p : matches (Class rs) p <-> exists c, p = [c] /\ in_class rs c = true.
Proof. split; [inversion 1; subst; eauto|]. intros (c & -> & H). now constructor. Qed.
Lemma m_seq_inv r1 r2 p : matches (Seq r1 r2) p <-> exists x y, p = x ++ y /\ matches r1 x /\ matches r2 y.
Proof. split; [inversion 1; subst; eauto 6|]. intros (x & y & -> & H1 & H2). now constructor. Qed.
Lemma m_alt_inv r1 r2 p : matches (Alt r1 r2) p <-> matches r1 p \/ matches r2 p.
Proof. split; [inversion 1; subst; auto|]. intros [H|H]; [now apply m_alt_l|now apply m_alt_r]. Qed.
Lemma m_eps_inv p : matches Eps p <-> p = [].
Proof. split; [now inversion 1|]. intros ->. constructor. Qed.
Lemma m_star_class rs p : matches (Star (Class rs)) p <-> forallb (in_class rs) p = true.
Proof.
  split.
  - intros H. remember (Star (Class rs)) as r eqn:E. induction H; try discriminate; auto.
    injection E as ->. apply m_class_inv in H. destruct H as (c & -> & Hc). simpl. rewrite Hc. auto.
  - induction p as [|c p IH]; simpl; intro H; [constructor|]. apply andb_prop in H. destruct H as [H1 H2].
    change (c :: p) with ([c] ++ p). constructor; auto. now constructor.
Qed.
Lemma m_star_notclass rs p : matches (Star (NotClass rs)) p <-> forallb (fun c => negb (in_class rs c)) p = true.
Proof.
  split.
  - intros H. remember (Star (NotClass rs)) as r eqn:E. induction H; try discriminate; auto.
    injection E as ->. inversion H; subst. simpl. rewrite H2. auto.
  - induction p as [|c p IH]; simpl; intro H; [constructor|]. apply andb_prop in H. destruct H as [H1 H2].
    change (c :: p) with ([c] ++ p). constructor; auto. constructor. now apply negb_true_iff.
Qed.
Lemma m_plus_class rs p : matches (plus (Class rs)) p <-> p <> [] /\ forallb (in_class rs) p = true.
Proof.
  unfold plus. rewrite m_seq_inv. split.
  - intros (x & y & -> & H1 & H2). apply m_class_inv in H1. destruct H1 as (c & -> & Hc).
    apply m_star_class in H2. split; [discriminate|]. simpl. now rewrite Hc.
  - intros [Hn H]. destruct p as [|c p]; [congruence|]. simpl in H. apply andb_prop in H. destruct H.
    exists [c], p. repeat split; [now constructor|now apply m_star_class].
Qed.
Lemma m_opt_inv r p : matches (opt r) p <-> p = [] \/ matches r p.
Proof. unfold opt. rewrite m_alt_inv, m_eps_inv. tauto. Qed.

(** First characters: a cheap way to discard patterns. *)
Fixpoint nullable (r : re) : bool :=
  match r with
  | Eps | Star _ => true
  | Class _ | NotClass _ => false
  | Seq a c => nullable a && nullable c
  | Alt a c => nullable a || nullable c
  end.
Fixpoint first (r : re) (c : N) : bool :=
  match r with
  | Eps => false
  | Class rs => in_class rs c
  | NotClass rs => negb (in_class rs c)
  | Seq a d => first a c || (if nullable a then first d c else false)
  | Alt a d => first a c || first d c
  | Star a => first a c
  end.
Lemma nullable_ok r p : matches r p -> p = [] -> nullable r = true.
Proof.
  induction 1; intros E; try discriminate; simpl; auto.
  - apply app_eq_nil in E. destruct E. rewrite IHmatches1, IHmatches2; auto.
  - rewrite IHmatches; auto.
  - rewrite IHmatches; auto. apply orb_true_r.
Qed.
Lemma first_ok r p : matches r p -> forall c q, p = c :: q -> first r c = true.
Proof.
  induction 1; intros d q E; try discriminate; simpl.
  - injection E as <- <-. assumption.
  - injection E as <- <-. now rewrite H.
  - destruct x as [|e x].
    + rewrite (nullable_ok _ _ H eq_refl). rewrite (IHmatches2 _ _ E). apply orb_true_r.
    + simpl in E. injection E as -> E. rewrite (IHmatches1 _ _ eq_refl). reflexivity.
  - rewrite (IHmatches _ _ E). reflexivity.
  - rewrite (IHmatches _ _ E). apply orb_true_r.
  - destruct x as [|e x]; [eauto|]. simpl in E. injection E as -> E. eauto.
Qed.
Lemma patterns_nonempty r k p : In (r, k) patterns -> matches r p -> p <> [].
Proof.
  intros Hin Hm ->. apply nullable_ok in Hm; auto.
  revert Hm. repeat (destruct Hin as [H|Hin]; [injection H as <- <-; discriminate|]). destruct Hin.
Qed.

(** ** Prefixes *)
Lemma take_while_prefix f p s : forallb f p = true -> take_while f (p ++ s) = p ++ take_while f s.
Proof. induction p as [|c p IH]; simpl; intro H; [reflexivity|]. apply andb_prop in H. destruct H as [-> H]. f_equal. auto. Qed.
Lemma take_while_stop f c s : f c = false -> take_while f (c :: s) = [].
Proof. simpl. now intros ->. Qed.
Lemma take_while_exact f p c s : forallb f p = true -> f c = false -> take_while f (p ++ c :: s) = p.
Proof. intros H1 H2. rewrite take_while_prefix by auto. rewrite take_while_stop by auto. apply app_nil_r. Qed.
Lemma skip_app {A} (p s : list A) : skipn (length p) (p ++ s) = s.
Proof. induction p; simpl; auto. Qed.
Lemma skip_cons_app {A} (x : A) (p s : list A) : skipn (length (x :: p)) (x :: p ++ s) = s.
Proof. simpl. apply skip_app. Qed.
Lemma tw_split f l : l = take_while f l ++ skipn (length (take_while f l)) l.
Proof. induction l as [|c l IH]; simpl; [reflexivity|]. destruct (f c); simpl; congruence. Qed.
Lemma tw_after f l : head_sat f (skipn (length (take_while f l)) l) = false.
Proof. induction l as [|c l IH]; simpl; [reflexivity|]. destruct (f c) eqn:E; simpl; auto. Qed.
Lemma forallb_ext' {A} (f g : A -> bool) l : (forall x, f x = g x) -> forallb f l = forallb g l.
Proof. intros H. induction l; simpl; congruence. Qed.
Lemma take_while_ext f g l : (forall c, f c = g c) -> take_while f l = take_while g l.
Proof. intros H. induction l as [|c l IH]; simpl; [reflexivity|]. rewrite H. destruct (g c); congruence. Qed.
Lemma prefix_cmp {A} (p q s t : list A) : p ++ s = q ++ t -> (length p <= length q)%nat ->
  (length p < length q)%nat \/ p = q.
Proof.
  intros E H. destruct (Nat.eq_dec (length p) (length q)) as [He|]; [right|left; lia].
  apply (f_equal (firstn (length p))) in E. rewrite firstn_app, firstn_all, Nat.sub_diag, firstn_O, app_nil_r in E.
  rewrite He, firstn_app, firstn_all, Nat.sub_diag, firstn_O, app_nil_r in E. exact E.
Qed.

(** The model's character classes are those of the patterns. *)
Ltac ascii_vals := repeat match goal with
  | |- context [N_of_ascii ?a] => let v := eval vm_compute in (N_of_ascii a) in change (N_of_ascii a) with v
  | H : context [N_of_ascii ?a] |- _ => let v := eval vm_compute in (N_of_ascii a) in change (N_of_ascii a) with v in H end.
Ltac nums := cbv [is_ident_start is_ident_char is_alnum is_alpha is_digit is_octal is_hex is_upper is_lower in_range] in *.
Ltac bools := rewrite ?andb_true_iff, ?orb_true_iff, ?negb_true_iff, ?andb_false_iff, ?orb_false_iff, ?negb_false_iff, ?N.leb_le, ?N.eqb_eq, ?N.eqb_neq, ?N.leb_gt in *.
Ltac cls := intros; nums; unfold in_class, nl; cbn [existsb]; ascii_vals; lia.
Lemma c_digit c : in_class [("0", "9")]%char c = is_digit c. Proof. cls. Qed.
Lemma c_octal c : in_class [("0", "7")]%char c = is_octal c. Proof. cls. Qed.
Lemma c_hex c : in_class [("0", "9"); ("A", "F"); ("a", "f")]%char c = is_hex c. Proof. cls. Qed.
Lemma c_ident c : in_class [("A", "Z"); ("a", "z"); ("0", "9"); ("_", "_")]%char c = is_ident_char c. Proof. cls. Qed.
Lemma c_ident_start c : in_class [("A", "Z"); ("a", "z"); ("_", "_")]%char c = is_ident_start c. Proof. cls. Qed.
Lemma c_f c : in_class [("f", "f"); ("F", "F")]%char c = (c =? 102) || (c =? 70). Proof. cls. Qed.
Lemma c_e c : in_class [("e", "e"); ("E", "E")]%char c = (c =? 101) || (c =? 69). Proof. cls. Qed.
Lemma c_sign c : in_class [("+", "+"); ("-", "-")]%char c = (c =? 43) || (c =? 45). Proof. cls. Qed.
Lemma c_x c : in_class [("x", "x"); ("X", "X")]%char c = (c =? 120) || (c =? 88). Proof. cls. Qed.
Lemma c_nl c : in_class [(nl, nl)] c = (c =? 10). Proof. cls. Qed.
Lemma c_19 c : in_class [("1", "9")]%char c = is_digit c && negb (c =? 48). Proof. cls. Qed.

Definition digits (p : bytes) : Prop := forallb is_digit p = true.
Lemma m_digits p : matches (Star digit) p <-> digits p.
Proof. unfold digit, digits. rewrite m_star_class. now rewrite (forallb_ext' _ _ _ c_digit). Qed.
Lemma m_digits1 p : matches (plus digit) p <-> p <> [] /\ digits p.
Proof. unfold digit, digits. rewrite m_plus_class. now rewrite (forallb_ext' _ _ _ c_digit). Qed.

Ltac bool_lia := nums; lia.

(** ** Exponents and fractions *)
Lemma m_exponent p : matches exponent p <->
  exists e sg ds, p = e :: sg ++ ds /\ (e =? 101) || (e =? 69) = true /\
    (sg = [] \/ exists c, sg = [c] /\ (c =? 43) || (c =? 45) = true) /\ ds <> [] /\ digits ds.
Proof.
  unfold exponent. rewrite m_seq_inv. setoid_rewrite m_seq_inv. setoid_rewrite m_opt_inv.
  setoid_rewrite m_class_inv. setoid_rewrite m_digits1. split.
  - intros (x & y & -> & (e & -> & He) & sg & ds & -> & Hs & Hn & Hd). rewrite c_e in He.
    exists e, sg, ds. repeat split; auto. destruct Hs as [->|(c & -> & Hc)]; [auto|]. rewrite c_sign in Hc. eauto.
  - intros (e & sg & ds & -> & He & Hs & Hn & Hd). exists [e], (sg ++ ds). repeat split; auto.
    + exists e. rewrite c_e. auto.
    + exists sg, ds. repeat split; auto. destruct Hs as [->|(c & -> & Hc)]; [auto|]. right. exists c. rewrite c_sign. auto.
Qed.

Lemma scan_exponent_complete p s : matches exponent p -> scan_exponent (p ++ s) = p ++ take_while is_digit s.
Proof.
  intros H. apply m_exponent in H. destruct H as (e & sg & ds & -> & He & Hs & Hn & Hd).
  cbn [app scan_exponent]. rewrite He. destruct ds as [|d ds]; [congruence|].
  unfold digits in Hd. pose proof Hd as Hd0. cbn [forallb] in Hd0. apply andb_prop in Hd0. destruct Hd0 as [Hd1 Hd2].
  destruct Hs as [->|(c & -> & Hc)]; cbn [app].
  - rewrite Hd1. change (d :: ds ++ s) with ((d :: ds) ++ s). rewrite take_while_prefix by auto. reflexivity.
  - assert (is_digit c = false) as -> by (bool_lia). rewrite Hc.
    change (d :: ds ++ s) with ((d :: ds) ++ s). rewrite take_while_prefix by auto. reflexivity.
Qed.

Lemma scan_exponent_sound l : scan_exponent l = [] \/
  (matches exponent (scan_exponent l) /\ exists s, l = scan_exponent l ++ s).
Proof.
  destruct l as [|e r]; simpl; auto. destruct ((e =? 101) || (e =? 69)) eqn:Ee; auto.
  destruct r as [|c r']; auto. destruct (is_digit c) eqn:Ec.
  - right. simpl. rewrite Ec. split.
    + apply m_exponent. exists e, [], (c :: take_while is_digit r'). repeat split; auto; [discriminate|].
      unfold digits. simpl. rewrite Ec. apply take_while_all.
    + exists (skipn (length (take_while is_digit r')) r'). simpl. now rewrite <- tw_split.
  - destruct ((c =? 43) || (c =? 45)) eqn:Es; auto.
    destruct (take_while is_digit r') as [|d ds] eqn:Ed; auto. right. split.
    + apply m_exponent. exists e, [c], (d :: ds). repeat split; auto; [right; eauto|discriminate|].
      unfold digits. rewrite <- Ed. apply take_while_all.
    + exists (skipn (length (d :: ds)) r'). pose proof (tw_split is_digit r') as E. rewrite Ed in E. simpl. f_equal. f_equal. exact E.
Qed.

Lemma scan_exponent_no_e c r : (c =? 101) || (c =? 69) = false -> scan_exponent (c :: r) = [].
Proof. simpl. now intros ->. Qed.

Lemma exponent_head p : matches exponent p -> exists e q, p = e :: q /\ (e =? 101) || (e =? 69) = true.
Proof. intros H. apply m_exponent in H. destruct H as (e & sg & ds & -> & He & _). eauto. Qed.

Lemma m_fsuffix p : matches fsuffix p <-> exists c, p = [c] /\ (c =? 102) || (c =? 70) = true.
Proof. unfold fsuffix. rewrite m_class_inv. split; intros (c & -> & H); exists c; rewrite c_f in *; auto. Qed.

(** The tail [0-9]* exponent? [fF]?: *)
Definition frac_re : re := Seq (Star digit) (Seq (opt exponent) (opt fsuffix)).
Lemma m_frac p : matches frac_re p <-> exists d e f, p = d ++ e ++ f /\ digits d /\
  (e = [] \/ matches exponent e) /\ (f = [] \/ matches fsuffix f).
Proof.
  unfold frac_re. rewrite m_seq_inv. setoid_rewrite (m_seq_inv (opt exponent)). setoid_rewrite m_opt_inv. setoid_rewrite m_digits. split.
  - intros (d & y & -> & Hd & e & f & -> & He & Hf). exists d, e, f. auto.
  - intros (d & e & f & -> & Hd & He & Hf). exists d, (e ++ f). repeat split; auto. exists e, f. auto.
Qed.

Lemma fsuffix_sound l : scan_fsuffix l = [] \/ matches fsuffix (scan_fsuffix l).
Proof.
  destruct l as [|c l]; simpl; auto. destruct ((c =? 102) || (c =? 70)) eqn:E; auto. right. apply m_fsuffix. eauto.
Qed.
Lemma fsuffix_prefix l : exists s, l = scan_fsuffix l ++ s.
Proof. destruct l as [|c l]; simpl; [exists []; auto|]. destruct ((c =? 102) || (c =? 70)); simpl; eauto. Qed.

Lemma scan_frac_sound l : matches frac_re (scan_frac l) /\ exists s, l = scan_frac l ++ s.
Proof.
  unfold scan_frac. set (ds := take_while is_digit l). set (l1 := skipn (length ds) l).
  set (ex := scan_exponent l1). set (l2 := skipn (length ex) l1). split.
  - apply m_frac. exists ds, ex, (scan_fsuffix l2). split; [reflexivity|]. split; [apply take_while_all|].
    split; [|apply fsuffix_sound]. destruct (scan_exponent_sound l1) as [H|[H _]]; auto.
  - destruct (fsuffix_prefix l2) as (s & Es). exists s.
    rewrite (tw_split is_digit l) at 1. fold ds. rewrite <- !app_assoc. f_equal. fold l1.
    destruct (scan_exponent_sound l1) as [H|[_ (t & H)]].
    + unfold l2, ex in *. rewrite H in *. simpl in *. exact Es.
    + rewrite H at 1. fold ex. f_equal. rewrite <- Es. unfold l2. rewrite H. fold ex. now rewrite skip_app.
Qed.

Lemma exf_complete e f s : matches exponent e -> (f = [] \/ matches fsuffix f) ->
  (length (e ++ f) <= length (scan_exponent (e ++ f ++ s) ++
     scan_fsuffix (skipn (length (scan_exponent (e ++ f ++ s))) (e ++ f ++ s))))%nat.
Proof.
  intros He Hf. rewrite scan_exponent_complete by auto. destruct Hf as [->|Hf].
  - rewrite app_nil_r. rewrite !app_length. lia.
  - apply m_fsuffix in Hf. destruct Hf as (c & -> & Hc).
    assert (Hd : is_digit c = false) by bool_lia.
    simpl ([c] ++ s). rewrite take_while_stop by auto. rewrite app_nil_r, skip_app. simpl. rewrite Hc.
    rewrite !app_length. simpl. lia.
Qed.

Lemma scan_frac_complete p s : matches frac_re p -> (length p <= length (scan_frac (p ++ s)))%nat.
Proof.
  intros H. apply m_frac in H. destruct H as (d & e & f & -> & Hd & He & Hf).
  unfold scan_frac. rewrite <- !app_assoc. destruct He as [->|He].
  - destruct Hf as [->|Hf].
    + simpl. rewrite app_nil_r. rewrite take_while_prefix by auto. rewrite !app_length. lia.
    + apply m_fsuffix in Hf. destruct Hf as (c & -> & Hc). cbn [app].
      rewrite (take_while_exact _ d c) by (auto; bool_lia). rewrite skip_app.
      rewrite (scan_exponent_no_e c) by bool_lia. cbn [app length skipn scan_fsuffix]. rewrite Hc. lia.
  - destruct (exponent_head e He) as (x & q & Ex & Hx).
    assert (Etw : take_while is_digit (d ++ e ++ f ++ s) = d).
    { subst e. cbn [app]. apply take_while_exact; auto. bool_lia. }
    rewrite Etw, skip_app. rewrite !app_length. pose proof (exf_complete e f s He Hf) as H.
    rewrite !app_length in H. lia.
Qed.

(** ** Numbers *)
Lemma in_patterns r k : In (r, k) patterns -> In (r, k) patterns. Proof. auto. Qed.
Ltac pick n := let rec go n := match n with O => left; reflexivity | S ?m => right; go m end in go n.

Lemma digit_head l c r : l = c :: r -> is_digit c = true -> take_while is_digit l = c :: take_while is_digit r.
Proof. intros -> H. simpl. now rewrite H. Qed.

Definition scan_number_true (l : bytes) := scan_number true l.

(** Soundness: the lexeme matches a pattern of the returned kind. *)
Lemma number_sound c r kind slice : is_digit c = true -> scan_number true (c :: r) = (kind, slice) ->
  (exists re, In (re, kind) patterns /\ matches re slice) /\ exists s, c :: r = slice ++ s.
Proof.
  intros Hc. unfold scan_number. set (l := c :: r). set (ds := take_while is_digit l).
  set (rest := skipn (length ds) l). set (ex := scan_exponent rest). set (fs := scan_fsuffix rest).
  assert (El : l = ds ++ rest) by apply tw_split.
  assert (Eds : ds = c :: take_while is_digit r) by (unfold ds, l; simpl; now rewrite Hc).
  assert (Hds : digits ds) by apply take_while_all.
  assert (Hdn : ds <> []) by (rewrite Eds; discriminate).
  assert (Hdec : c <> 48 -> matches (Seq digit19 (Star digit)) ds).
  { intros Hne. rewrite Eds. apply m_seq_inv. exists [c], (take_while is_digit r). repeat split; auto.
    - constructor. rewrite c_19, Hc. simpl. now apply negb_true_iff, N.eqb_neq.
    - apply m_digits. apply take_while_all. }
  assert (Hhead : head_is 48 ds = (c =? 48)) by (rewrite Eds; reflexivity). rewrite Hhead.
  assert (Hexs := scan_exponent_sound rest). assert (Hfss := fsuffix_sound rest). assert (Hfsp := fsuffix_prefix rest).
  fold ex in Hexs. fold fs in Hfss, Hfsp. clearbody ex fs rest ds l.
  destruct (head_is 46 rest) eqn:Edot.
  - intros H. injection H as <- <-. destruct rest as [|x rest'] eqn:Er; [discriminate|]. simpl in Edot. apply N.eqb_eq in Edot. subst x.
    cbn [tl]. destruct (scan_frac_sound rest') as [Hf (s & Es)]. split.
    + eexists. split; [pick 7%nat|]. apply m_seq_inv. exists ds, (46 :: scan_frac rest'). split; auto. split; [now apply m_digits1|].
      apply m_seq_inv. exists [46], (scan_frac rest'). repeat split; auto. now constructor.
    + exists s. rewrite El. rewrite <- app_assoc. simpl. now rewrite <- Es.
  - destruct (Nat.ltb 0 (length ex)) eqn:Eex.
    + apply Nat.ltb_lt in Eex. intros H. injection H as <- <-.
      destruct Hexs as [H|[H (s & Es)]]; [rewrite H in Eex; simpl in Eex; lia|].
      split.
      * eexists. split; [pick 8%nat|]. apply m_seq_inv. exists ds, (ex ++ scan_fsuffix (skipn (length ex) rest)).
        split; auto. split; [now apply m_digits1|]. apply m_seq_inv. do 2 eexists. split; [reflexivity|]. split; auto.
        apply m_opt_inv. apply fsuffix_sound.
      * rewrite Es, skip_app. destruct (fsuffix_prefix s) as (t & Et). exists t. rewrite El, Es. rewrite <- !app_assoc. f_equal. f_equal. exact Et.
    + destruct (c =? 48) eqn:E48.
      * apply N.eqb_eq in E48. subst c.
        destruct (Nat.ltb 0 (length (tl ds))) eqn:Em.
        -- cbn iota. set (os := take_while is_octal (tl ds)).
           assert (Ho : forallb is_octal os = true) by apply take_while_all.
           assert (Eos : tl ds = os ++ skipn (length os) (tl ds)) by apply tw_split.
           assert (Epre : exists s, l = (48 :: os) ++ s).
           { exists (skipn (length os) (tl ds) ++ rest). rewrite El, Eds. cbn [app]. f_equal. rewrite app_assoc. f_equal.
             rewrite Eds in Eos. exact Eos. }
           destruct (Nat.ltb 0 (length os)) eqn:Eo; intros H; injection H as <- <-; split; auto.
           ++ eexists. split; [pick 2%nat|]. apply m_seq_inv. exists [48], os. repeat split; auto; [now constructor|].
              apply m_plus_class. split; [intros E; rewrite E in Eo; discriminate|]. rewrite (forallb_ext' _ _ _ c_octal). exact Ho.
           ++ eexists. split; [pick 1%nat|]. destruct os; [|discriminate]. now constructor.
        -- assert (Ed48 : ds = [48]).
           { apply Nat.ltb_ge in Em. rewrite Eds in Em |- *. simpl in Em. destruct (take_while is_digit r); [reflexivity|simpl in Em; lia]. }
           destruct (head_sat (fun x => (x =? 120) || (x =? 88)) rest && head_sat is_hex (tl rest)) eqn:Eh.
           ++ apply andb_prop in Eh. destruct Eh as [Eh1 Eh2]. intros H. injection H as <- <-.
              destruct rest as [|x rest'] eqn:Er; [discriminate|]. cbn [tl firstn head_sat] in *.
              split.
              ** eexists. split; [pick 4%nat|]. rewrite Ed48. apply m_seq_inv. exists [48], ([x] ++ take_while is_hex rest').
                 repeat split; auto; [now constructor|]. apply m_seq_inv. do 2 eexists. split; [reflexivity|]. split.
                 --- constructor. now rewrite c_x.
                 --- apply m_plus_class. rewrite (forallb_ext' _ _ _ c_hex). split; [|apply take_while_all].
                     destruct rest' as [|y rest']; [discriminate|]. simpl in *. rewrite Eh2. discriminate.
              ** exists (skipn (length (take_while is_hex rest')) rest'). rewrite El. rewrite <- !app_assoc. f_equal. cbn [app]. f_equal. apply tw_split.
           ++ destruct (Nat.ltb 0 (length fs)) eqn:Ef.
              ** intros H. injection H as <- <-. destruct Hfss as [Hf|Hf].
                 { rewrite Hf in Ef. discriminate. }
                 split.
                 --- eexists. split; [pick 5%nat|]. rewrite Ed48. apply m_seq_inv. exists [48], fs. repeat split; auto. now constructor.
                 --- destruct Hfsp as (t & Et). exists t. rewrite El, Et at 1. now rewrite app_assoc.
              ** intros H. injection H as <- <-. split; [|eauto]. eexists. split; [pick 1%nat|]. rewrite Ed48. now constructor.
      * apply N.eqb_neq in E48. destruct (Nat.ltb 0 (length fs)) eqn:Ef.
        -- intros H. injection H as <- <-. destruct Hfss as [Hf|Hf].
           { rewrite Hf in Ef. discriminate. }
           split.
           ++ eexists. split; [pick 6%nat|]. apply m_seq_inv. exists ds, fs. auto.
           ++ destruct Hfsp as (t & Et). exists t. rewrite El, Et at 1. now rewrite app_assoc.
        -- intros H. injection H as <- <-. split; [|eauto]. eexists. split; [pick 3%nat|]. auto.
Qed.

(** Completeness: no pattern matches a longer prefix, and an equally long one
    has the same kind. *)
Definition beats (res : rawkind * bytes) (k : rawkind) (p : bytes) : Prop :=
  (length p < length (snd res))%nat \/ (length p = length (snd res) /\ fst res = k).
Lemma beats_le kind slice k p : (length p <= length slice)%nat -> kind = k -> beats (kind, slice) k p.
Proof. unfold beats. simpl. intros. destruct (Nat.eq_dec (length p) (length slice)); [right; auto|left; lia]. Qed.
Lemma beats_lt kind slice k p : (length p < length slice)%nat -> beats (kind, slice) k p.
Proof. left. auto. Qed.

Lemma tw_app_le f p s : forallb f p = true -> (length p <= length (take_while f (p ++ s)))%nat.
Proof. intros H. rewrite take_while_prefix by auto. rewrite app_length. lia. Qed.
Lemma tw_digits_app d y : digits d -> head_sat is_digit y = false -> take_while is_digit (d ++ y) = d.
Proof. intros Hd Hy. destruct y as [|c y]; [rewrite take_while_prefix by auto; apply app_nil_r|]. apply take_while_exact; auto. Qed.

Lemma number_0 s : beats (scan_number true (48 :: s)) KZero [48].
Proof.
  unfold scan_number. set (ds := take_while is_digit (48 :: s)). set (rest := skipn _ _).
  assert (Eds : ds = 48 :: take_while is_digit s) by reflexivity.
  assert (Hl : (1 <= length ds)%nat) by (rewrite Eds; simpl; lia).
  destruct (head_is 46 rest); [apply beats_lt; rewrite app_length; simpl; lia|].
  destruct (Nat.ltb_spec 0 (length (scan_exponent rest))); [apply beats_lt; rewrite !app_length; simpl; lia|].
  rewrite Eds. cbn [head_is]. rewrite N.eqb_refl. cbn [tl].
  destruct (Nat.ltb_spec 0 (length (take_while is_digit s))).
  - destruct (Nat.ltb_spec 0 (length (take_while is_octal (take_while is_digit s)))).
    + apply beats_lt. simpl. lia.
    + apply beats_le; [simpl; lia|reflexivity].
  - destruct (head_sat _ rest && head_sat is_hex (tl rest)) eqn:Eh.
    + apply beats_lt. apply andb_prop in Eh. destruct Eh as [Eh _]. destruct rest; [discriminate|]. rewrite !app_length. simpl. lia.
    + destruct (Nat.ltb_spec 0 (length (scan_fsuffix rest))).
      * apply beats_lt. rewrite app_length. simpl. lia.
      * apply beats_le; [simpl; lia|reflexivity].
Qed.

Lemma number_oct os s : os <> [] -> forallb is_octal os = true -> beats (scan_number true (48 :: os ++ s)) KOct (48 :: os).
Proof.
  intros Hn Ho.
  assert (Hd : digits os). { revert Ho. unfold digits. clear. induction os as [|c os IH]; simpl; auto. intros H. apply andb_prop in H. destruct H as [H1 H2]. rewrite IH by auto. nums. lia. }
  unfold scan_number. set (ds := take_while is_digit (48 :: os ++ s)). set (rest := skipn _ _).
  assert (Eds : ds = 48 :: os ++ take_while is_digit s) by (unfold ds; simpl; now rewrite take_while_prefix by auto).
  assert (Hl : (S (length os) <= length ds)%nat) by (rewrite Eds; simpl; rewrite app_length; lia).
  destruct (head_is 46 rest); [apply beats_lt; rewrite app_length; simpl in *; lia|].
  destruct (Nat.ltb_spec 0 (length (scan_exponent rest))); [apply beats_lt; rewrite !app_length; simpl in *; lia|].
  rewrite Eds. cbn [head_is]. rewrite N.eqb_refl. cbn [tl].
  assert (Hpos : (0 < length os)%nat) by (destruct os; [congruence|simpl; lia]).
  destruct (Nat.ltb_spec 0 (length (os ++ take_while is_digit s))) as [|Hz]; [|rewrite app_length in Hz; lia].
  pose proof (tw_app_le is_octal os (take_while is_digit s) Ho).
  destruct (Nat.ltb_spec 0 (length (take_while is_octal (os ++ take_while is_digit s)))); [|lia].
  apply beats_le; [|reflexivity]. simpl. lia.
Qed.

Lemma number_dec c ds0 s : is_digit c && negb (c =? 48) = true -> digits ds0 -> beats (scan_number true (c :: ds0 ++ s)) KDec (c :: ds0).
Proof.
  intros Hc Hd. apply andb_prop in Hc. destruct Hc as [Hc Hc0].
  unfold scan_number. set (ds := take_while is_digit (c :: ds0 ++ s)). set (rest := skipn _ _).
  assert (Eds : ds = c :: ds0 ++ take_while is_digit s) by (unfold ds; simpl; rewrite Hc; now rewrite take_while_prefix by auto).
  assert (Hl : (length (c :: ds0) <= length ds)%nat) by (rewrite Eds; simpl; rewrite app_length; lia).
  destruct (head_is 46 rest); [apply beats_lt; rewrite app_length; simpl in *; lia|].
  destruct (Nat.ltb_spec 0 (length (scan_exponent rest))); [apply beats_lt; rewrite !app_length; simpl in *; lia|].
  assert (head_is 48 ds = false) as ->. { rewrite Eds. simpl. now apply negb_true_iff in Hc0. }
  destruct (Nat.ltb_spec 0 (length (scan_fsuffix rest))); [apply beats_lt; rewrite !app_length; simpl in *; lia|].
  apply beats_le; auto.
Qed.

Lemma number_hex x hs s : (x =? 120) || (x =? 88) = true -> hs <> [] -> forallb is_hex hs = true ->
  beats (scan_number true (48 :: x :: hs ++ s)) KHex (48 :: x :: hs).
Proof.
  intros Hx Hn Hh. unfold scan_number.
  assert (take_while is_digit (48 :: x :: hs ++ s) = [48]) as ->.
  { cbn [take_while]. assert (is_digit x = false) as -> by bool_lia. reflexivity. }
  cbn [length skipn]. assert (head_is 46 (x :: hs ++ s) = false) as -> by (cbn [head_is]; bool_lia).
  rewrite scan_exponent_no_e by bool_lia. cbn [length Nat.ltb Nat.leb head_is]. rewrite N.eqb_refl. cbn [tl head_sat length Nat.ltb Nat.leb]. rewrite Hx.
  destruct hs as [|h hs]; [congruence|]. cbn [app head_sat]. cbn [forallb] in Hh. apply andb_prop in Hh. destruct Hh as [Hh1 Hh2]. rewrite Hh1.
    cbn [andb]. apply beats_le; [|reflexivity]. cbn [firstn app length take_while]. rewrite Hh1. cbn [length].
  pose proof (tw_app_le is_hex hs s Hh2). lia.
Qed.

Lemma number_0f c s : (c =? 102) || (c =? 70) = true -> beats (scan_number true (48 :: c :: s)) KFloat [48; c].
Proof.
  intros Hc. unfold scan_number.
  assert (take_while is_digit (48 :: c :: s) = [48]) as ->.
  { cbn [take_while]. assert (is_digit c = false) as -> by bool_lia. reflexivity. }
  cbn [length skipn]. assert (head_is 46 (c :: s) = false) as -> by (cbn [head_is]; bool_lia).
  rewrite scan_exponent_no_e by bool_lia. cbn [length Nat.ltb Nat.leb head_is]. rewrite N.eqb_refl. cbn [tl head_sat length Nat.ltb Nat.leb].
  assert ((c =? 120) || (c =? 88) = false) as -> by bool_lia. cbn [andb scan_fsuffix]. rewrite Hc. cbn [length Nat.ltb Nat.leb].
  apply beats_le; auto.
Qed.

Lemma number_f c ds0 f s : is_digit c && negb (c =? 48) = true -> digits ds0 -> (f =? 102) || (f =? 70) = true ->
  beats (scan_number true (c :: ds0 ++ f :: s)) KFloat (c :: ds0 ++ [f]).
Proof.
  intros Hc Hd Hf. apply andb_prop in Hc. destruct Hc as [Hc Hc0].
  unfold scan_number.
  assert (take_while is_digit (c :: ds0 ++ f :: s) = c :: ds0) as ->.
  { cbn [take_while]. rewrite Hc. f_equal. apply take_while_exact; auto. bool_lia. }
  rewrite skip_cons_app. assert (head_is 46 (f :: s) = false) as -> by (cbn [head_is]; bool_lia).
  rewrite scan_exponent_no_e by bool_lia. cbn [length Nat.ltb Nat.leb head_is]. apply negb_true_iff in Hc0. rewrite Hc0.
  cbn [scan_fsuffix]. rewrite Hf. cbn [length Nat.ltb Nat.leb]. apply beats_le; auto.
Qed.

Lemma number_dot d fr s : d <> [] -> digits d -> matches frac_re fr ->
  beats (scan_number true (d ++ 46 :: fr ++ s)) KFloat (d ++ 46 :: fr).
Proof.
  intros Hn Hd Hf. unfold scan_number. rewrite (take_while_exact _ d 46) by auto. rewrite skip_app. cbn [head_is]. rewrite N.eqb_refl. cbn [tl].
  apply beats_le; [|reflexivity]. rewrite !app_length. cbn [length]. pose proof (scan_frac_complete fr s Hf). lia.
Qed.

Lemma number_exp d e f s : d <> [] -> digits d -> matches exponent e -> (f = [] \/ matches fsuffix f) ->
  beats (scan_number true (d ++ e ++ f ++ s)) KFloat (d ++ e ++ f).
Proof.
  intros Hn Hd He Hf. destruct (exponent_head e He) as (x & q & Ex & Hx). unfold scan_number.
  assert (take_while is_digit (d ++ e ++ f ++ s) = d) as ->.
  { apply tw_digits_app; auto. rewrite Ex. cbn [app head_sat]. bool_lia. }
  rewrite skip_app. assert (head_is 46 (e ++ f ++ s) = false) as ->.
  { rewrite Ex. cbn [app head_is]. bool_lia. }
  pose proof (exf_complete e f s He Hf) as Hlen.
  assert (Hpos : (0 < length (scan_exponent (e ++ f ++ s)))%nat).
  { rewrite scan_exponent_complete by auto. rewrite Ex. simpl. lia. }
  destruct (Nat.ltb_spec 0 (length (scan_exponent (e ++ f ++ s)))); [|lia].
  apply beats_le; [|reflexivity]. rewrite !app_length in *. lia.
Qed.

(** ** All patterns *)
Ltac cval H := cbv [lit] in H; apply m_class_inv in H; let c := fresh "c" in let E := fresh "E" in let Hc := fresh "Hc" in
  destruct H as (c & E & Hc).
Lemma lit_val a p : matches (lit a) p -> p = [N_of_ascii a].
Proof. unfold lit. rewrite m_class_inv. intros (c & -> & H). unfold in_class in H. cbn [existsb] in H. f_equal. lia. Qed.

Lemma scan_complete r k p s : In (r, k) patterns -> matches r p -> beats (scan true (p ++ s)) k p.
Proof.
  intros Hin Hm. unfold patterns in Hin.
  Local Ltac next H Hin := destruct Hin as [H|Hin]; [injection H as <- <-|].
  Local Ltac single Hm := apply lit_val in Hm; subst.
  next H Hin.
  { (* identifier *)
    apply m_seq_inv in Hm. destruct Hm as (x & y & -> & Hx & Hy). apply m_class_inv in Hx. destruct Hx as (c & -> & Hc).
    rewrite c_ident_start in Hc. rewrite m_star_class in Hy. rewrite (forallb_ext' _ _ _ c_ident) in Hy.
    cbn [app scan]. rewrite Hc. apply beats_le; [|reflexivity]. cbn [length]. pose proof (tw_app_le _ y s Hy). lia. }
  assert (Hnum : forall c q, is_digit c = true -> scan true (c :: q) = scan_number true (c :: q)).
  { intros c q Hc. unfold scan. assert (is_ident_start c = false) as -> by bool_lia. now rewrite Hc. }
  next H Hin. { single Hm. cbn [app]. rewrite Hnum by reflexivity. apply number_0. }
  next H Hin.
  { apply m_seq_inv in Hm. destruct Hm as (x & y & -> & Hx & Hy). single Hx. apply m_plus_class in Hy. destruct Hy as [Hn Hy].
    rewrite (forallb_ext' _ _ _ c_octal) in Hy. cbn [app]. rewrite Hnum by reflexivity. apply number_oct; auto. }
  next H Hin.
  { apply m_seq_inv in Hm. destruct Hm as (x & y & -> & Hx & Hy). apply m_class_inv in Hx. destruct Hx as (c & -> & Hc).
    rewrite c_19 in Hc. apply m_digits in Hy. cbn [app]. rewrite Hnum by (nums; lia). apply number_dec; auto. }
  next H Hin.
  { apply m_seq_inv in Hm. destruct Hm as (x & y & -> & Hx & Hy). single Hx. apply m_seq_inv in Hy. destruct Hy as (x & z & -> & Hx & Hz).
    apply m_class_inv in Hx. destruct Hx as (c & -> & Hc). rewrite c_x in Hc. apply m_plus_class in Hz. destruct Hz as [Hn Hz].
    rewrite (forallb_ext' _ _ _ c_hex) in Hz. cbn [app]. rewrite Hnum by reflexivity. apply number_hex; auto. }
  next H Hin.
  { apply m_seq_inv in Hm. destruct Hm as (x & y & -> & Hx & Hy). single Hx. apply m_fsuffix in Hy. destruct Hy as (c & -> & Hc).
    cbn [app]. rewrite Hnum by reflexivity. apply number_0f; auto. }
  next H Hin.
  { apply m_seq_inv in Hm. destruct Hm as (xy & f & -> & Hxy & Hf). apply m_seq_inv in Hxy. destruct Hxy as (x & y & -> & Hx & Hy).
    apply m_class_inv in Hx. destruct Hx as (c & -> & Hc).
    rewrite c_19 in Hc. apply m_digits in Hy. apply m_fsuffix in Hf. destruct Hf as (f' & -> & Hf). cbn [app]. rewrite <- app_assoc. cbn [app]. rewrite Hnum by (nums; lia). apply number_f; auto. }
  assert (Hnum' : forall d q, d <> [] -> digits d -> scan true (d ++ q) = scan_number true (d ++ q)).
  { intros d q Hn Hd. destruct d as [|c d]; [congruence|]. unfold digits in Hd. cbn [forallb] in Hd. apply andb_prop in Hd. destruct Hd. cbn [app]. now apply Hnum. }
  next H Hin.
  { apply m_seq_inv in Hm. destruct Hm as (d & y & -> & Hd & Hy). apply m_digits1 in Hd. destruct Hd as [Hn Hd].
    apply m_seq_inv in Hy. destruct Hy as (x & fr & -> & Hx & Hfr). single Hx. rewrite <- app_assoc. rewrite Hnum' by auto. apply number_dot; auto. }
  next H Hin.
  { apply m_seq_inv in Hm. destruct Hm as (d & y & -> & Hd & Hy). apply m_digits1 in Hd. destruct Hd as [Hn Hd].
    apply m_seq_inv in Hy. destruct Hy as (e & f & -> & He & Hf). apply m_opt_inv in Hf. rewrite <- !app_assoc. rewrite Hnum' by auto. apply number_exp; auto. }
  next H Hin.
  { apply m_seq_inv in Hm. destruct Hm as (x & y & -> & Hx & Hy). single Hx. apply m_seq_inv in Hy. destruct Hy as (d & y' & -> & Hd & Hy).
    apply m_digits1 in Hd. destruct Hd as [Hn Hd]. 
    assert (Hf : matches frac_re (d ++ y')) by (apply m_seq; [now apply m_digits|exact Hy]).
    destruct d as [|c d]; [congruence|]. cbn [app]. unfold digits in Hd. cbn [forallb] in Hd. apply andb_prop in Hd. destruct Hd as [Hc _].
    unfold scan. change (is_ident_start (N_of_ascii ".")) with false. change (is_digit (N_of_ascii ".")) with false.
    change (N_of_ascii "." =? 46) with true. change ((N_of_ascii "." =? 39) || (N_of_ascii "." =? 34)) with false. cbn [head_sat andb]. rewrite Hc.
    apply beats_le; [|reflexivity]. pose proof (scan_frac_complete _ s Hf) as Hl. cbn [length app] in *. lia. }
  next H Hin.
  { apply m_class_inv in Hm. destruct Hm as (c & -> & Hc). assert (c = 39 \/ c = 34) as [-> | ->].
    { unfold in_class in Hc. cbn [existsb] in Hc. ascii_vals. lia. }
    all: apply beats_le; reflexivity. }
  next H Hin.
  { single Hm. cbn [app]. change (N_of_ascii ".") with 46. unfold scan. change (is_ident_start 46) with false. change (is_digit 46) with false. cbn iota.
    change ((46 =? 39) || (46 =? 34)) with false. cbn iota. change (46 =? 46) with true. cbn [andb].
    destruct (head_sat is_digit s) eqn:Es.
    - apply beats_lt. destruct s as [|c s]; [discriminate|]. cbn [head_sat] in Es. unfold scan_frac. cbn [take_while]. rewrite Es. cbn [length app]. lia.
    - apply beats_le; reflexivity. }
  do 14 (next H Hin; [single Hm; apply beats_le; reflexivity|]).
  next H Hin.
  { single Hm. cbn [app]. change (N_of_ascii "/") with 47. unfold scan. change (is_ident_start 47) with false. change (is_digit 47) with false. cbn iota.
    change ((47 =? 39) || (47 =? 34)) with false. change (47 =? 46) with false. change (47 =? 35) with false. change (47 =? 47) with true. cbn [andb].
    destruct (head_is 47 s). { apply beats_lt. cbn [length]. lia. }
    destruct (head_is 42 s). { apply beats_lt. cbn [length]. lia. }
    apply beats_le; reflexivity. }
  assert (Hline : forall y z, matches (Star (NotClass [(nl, nl)])) y -> matches (opt (lit nl)) z -> (length (y ++ z) <= length (scan_line ((y ++ z) ++ s)))%nat).
  { intros y z Hy Hz. rewrite m_star_notclass in Hy. rewrite (forallb_ext' _ (fun c => negb (c =? 10)) y) in Hy by (intros; now rewrite c_nl).
    apply m_opt_inv in Hz. unfold scan_line. rewrite <- app_assoc.
    destruct Hz as [->|Hz].
    - cbn [app]. rewrite take_while_prefix by auto. rewrite app_nil_r. destruct (skipn _ _); rewrite ?app_length; lia.
    - apply lit_val in Hz. change (N_of_ascii nl) with 10 in Hz. subst z. cbn [app]. rewrite (take_while_exact _ y 10 s) by auto. rewrite skip_app. lia. }
  next H Hin.
  { apply m_seq_inv in Hm. destruct Hm as (x & y & -> & Hx & Hy). apply m_seq_inv in Hy. destruct Hy as (y' & z & -> & Hy & Hz).
    pose proof (Hline y' z Hy Hz) as Hl. apply m_alt_inv in Hx. destruct Hx as [Hx|Hx].
    - apply m_seq_inv in Hx. destruct Hx as (x1 & x2 & -> & H1 & H2). apply lit_val in H1, H2. subst. 
      change ([N_of_ascii "/"] ++ [N_of_ascii "/"]) with [47; 47].
      cbn [app]. apply beats_le; [|reflexivity]. cbn [length tl]. lia.
    - apply lit_val in Hx. subst. change (N_of_ascii "#") with 35. apply beats_le; [|reflexivity]. cbn [length app]. exact (le_n_S _ _ Hl). }
  next H Hin.
  { apply m_seq_inv in Hm. destruct Hm as (x1 & x2 & -> & H1 & H2). apply lit_val in H1, H2. subst. apply beats_le; reflexivity. }
  next H Hin. { single Hm. apply beats_le; reflexivity. }
  destruct Hin.
Qed.

Lemma scan_line_sound l : matches (Seq (Star (NotClass [(nl, nl)])) (opt (lit nl))) (scan_line l) /\ exists s, l = scan_line l ++ s.
Proof.
  unfold scan_line. set (f := fun c => negb (c =? 10)). pose proof (tw_split f l) as E. pose proof (tw_after f l) as Ha. pose proof (take_while_all f l) as Hall.
  destruct (skipn (length (take_while f l)) l) as [|c r] eqn:Er.
  - split; [|exists []; exact E]. rewrite <- (app_nil_r (take_while f l)). constructor.
    + rewrite m_star_notclass. rewrite (forallb_ext' _ f) by (intros; unfold f; now rewrite c_nl). exact Hall.
    + apply m_opt_inv. auto.
  - cbn [head_sat] in Ha. unfold f in Ha. apply negb_false_iff, N.eqb_eq in Ha. subst c. split.
    + constructor.
      * rewrite m_star_notclass. rewrite (forallb_ext' _ f) by (intros; unfold f; now rewrite c_nl). exact Hall.
      * apply m_opt_inv. right. now constructor.
    + exists r. rewrite <- app_assoc. exact E.
Qed.

Lemma scan_sound c r kind slice : scan true (c :: r) = (kind, slice) -> kind <> KErr ->
  (exists re, In (re, kind) patterns /\ matches re slice) /\ exists s, c :: r = slice ++ s.
Proof.
  unfold scan. destruct (is_ident_start c) eqn:Ei.
  { intros H _. injection H as <- <-. split; [|exists (skipn (length (take_while is_ident_char r)) r); cbn [app]; f_equal; apply tw_split].
    eexists. split; [pick 0%nat|]. change (c :: ?x) with ([c] ++ x). constructor.
    - constructor. now rewrite c_ident_start.
    - rewrite m_star_class. rewrite (forallb_ext' _ _ _ c_ident). apply take_while_all. }
  destruct (is_digit c) eqn:Ed. { intros H _. eapply number_sound; eauto. }
  destruct ((c =? 39) || (c =? 34)) eqn:Eq.
  { intros H _. injection H as <- <-. split; [|exists r; reflexivity]. eexists. split; [pick 10%nat|]. constructor. unfold in_class. cbn [existsb]. ascii_vals. lia. }
  destruct ((c =? 46) && head_sat is_digit r) eqn:Edot.
  { apply andb_prop in Edot. destruct Edot as [E46 Hd]. apply N.eqb_eq in E46. subst c. intros H _. injection H as <- <-.
    split.
    - eexists. split; [pick 9%nat|]. change (46 :: ?x) with ([46] ++ x). constructor; [now constructor|].
      destruct (scan_frac_sound r) as [Hf _]. unfold frac_re in Hf. destruct r as [|d r]; [discriminate|]. cbn [head_sat] in Hd.
      unfold scan_frac. constructor.
      + apply m_digits1. split; [cbn [take_while]; rewrite Hd; discriminate|apply take_while_all].
      + constructor; apply m_opt_inv; [|apply fsuffix_sound].
        destruct (scan_exponent_sound (skipn (length (take_while is_digit (d :: r))) (d :: r))) as [H|[H _]]; auto.
    - destruct (scan_frac_sound r) as [_ (s & Es)]. exists s. cbn [app]. now f_equal. }
  destruct (c =? 35) eqn:E35.
  { apply N.eqb_eq in E35. subst c. intros H _. injection H as <- <-. destruct (scan_line_sound r) as [H1 (s & H2)]. split.
    - eexists. split; [pick 27%nat|]. change (35 :: ?x) with ([35] ++ x). constructor; auto. apply m_alt_r. now constructor.
    - exists s. cbn [app]. now f_equal. }
  destruct ((c =? 47) && head_is 47 r) eqn:E47.
  { apply andb_prop in E47. destruct E47 as [E1 E2]. apply N.eqb_eq in E1. subst c. destruct r as [|d r]; [discriminate|]. cbn [head_is] in E2. apply N.eqb_eq in E2. subst d.
    intros H _. injection H as <- <-. cbn [tl]. destruct (scan_line_sound r) as [H1 (s & H2)]. split.
    - eexists. split; [pick 27%nat|]. change (47 :: 47 :: ?x) with (([47] ++ [47]) ++ x). constructor; auto. apply m_alt_l. constructor; now constructor.
    - exists s. cbn [app]. now do 2 f_equal. }
  destruct ((c =? 47) && head_is 42 r) eqn:E42.
  { apply andb_prop in E42. destruct E42 as [E1 E2]. apply N.eqb_eq in E1. subst c. destruct r as [|d r]; [discriminate|]. cbn [head_is] in E2. apply N.eqb_eq in E2. subst d.
    intros H _. injection H as <- <-. split; [|exists r; reflexivity]. eexists. split; [pick 28%nat|]. change [47; 42] with ([47] ++ [42]). constructor; now constructor. }
  destruct (punct c) as [t|] eqn:Ep.
  - intros H _. injection H as <- <-. split; [|exists r; reflexivity]. revert Ep. unfold punct. clear. intros H.
    repeat match type of H with (if ?x =? ?y then _ else _) = _ => destruct (N.eqb_spec x y) as [->|_]; [injection H as <-|] end; [..|discriminate].
    all: match goal with |- exists re, In (re, KPunct ?t) _ /\ matches re [?n] =>
      exists (lit (ascii_of_N n)); split; [cbv [patterns]; repeat (first [left; reflexivity|right])|now constructor] end.
  - intros H Hk. injection H as <- <-. congruence.
Qed.

Lemma scan_err c r slice : scan true (c :: r) = (KErr, slice) -> slice = firstn (char_len (c :: r)) (c :: r) /\ no_match (c :: r).
Proof.
  intros Hs. split.
  - revert Hs. unfold scan, scan_number.
    repeat match goal with |- context [if ?x then _ else _] => destruct x; try discriminate end.
    destruct (punct c); try discriminate. now intros [= <-].
  - intros r0 k p s Hin Hm El. pose proof (scan_complete _ _ p s Hin Hm) as Hb. rewrite <- El, Hs in Hb.
    (* an error lexeme starts with a character no pattern starts with *)
    assert (Hpn := patterns_nonempty _ _ _ Hin Hm). destruct p as [|c' p']; [congruence|]. cbn [app] in El. injection El as <- El.
    pose proof (first_ok _ _ Hm _ _ eq_refl) as Hf.
    revert Hs. unfold scan. destruct (is_ident_start c) eqn:Ei; [discriminate|]. destruct (is_digit c) eqn:Ed.
    { unfold scan_number. repeat match goal with |- context [if ?x then _ else _] => destruct x; try discriminate end. }
    destruct ((c =? 39) || (c =? 34)) eqn:Eq; [discriminate|]. destruct ((c =? 46) && _); [discriminate|].
    destruct (c =? 35) eqn:E35; [discriminate|]. destruct ((c =? 47) && head_is 47 r); [discriminate|]. destruct ((c =? 47) && head_is 42 r); [discriminate|].
    destruct (punct c) eqn:Ep; [discriminate|]. intros _.
    assert (Hnp : c <> 46 /\ c <> 45 /\ c <> 43 /\ c <> 40 /\ c <> 41 /\ c <> 123 /\ c <> 125 /\ c <> 91 /\ c <> 93 /\ c <> 60 /\ c <> 62 /\ c <> 44 /\ c <> 61 /\ c <> 58 /\ c <> 59 /\ c <> 47 /\ c <> 10).
    { revert Ep. unfold punct. clear. intros H.
      repeat match type of H with (if ?x =? ?y then _ else _) = _ => destruct (N.eqb_spec x y) as [|]; [discriminate|] end. repeat split; assumption. }
    clear - Hf Hin Ei Ed Eq E35 Hnp.
    repeat (destruct Hin as [H|Hin]; [injection H as <- <-; revert Hf; cbv [lit digit digit19 exponent fsuffix opt plus in_class nl]; cbn [first nullable andb orb existsb]; cbv [in_class]; cbn [existsb]; ascii_vals; nums; lia|]).
    destruct Hin.
Qed.

Theorem C07_scan_longest l : l <> [] ->
  (fst (scan true l) = KErr /\ snd (scan true l) = firstn (char_len l) l /\ no_match l) \/
  longest_match l (fst (scan true l)) (snd (scan true l)).
Proof.
  intros Hn. destruct l as [|c r]; [congruence|]. destruct (scan true (c :: r)) as [kind slice] eqn:Es. cbn [fst snd].
  assert (Hk : kind = KErr \/ kind <> KErr) by (destruct kind; auto; right; discriminate).
  destruct Hk as [->|Hk].
  - left. split; auto. now apply scan_err.
  - right. destruct (scan_sound _ _ _ _ Es Hk) as [H1 (s0 & H2)]. split; [|split]; eauto.
    intros re k p s Hin Hm El. pose proof (scan_complete _ _ p s Hin Hm) as Hb. rewrite <- El, Es in Hb. destruct Hb as [Hb|[Hb1 Hb2]]; cbn [fst snd] in *; auto.
    right. split; auto. rewrite El in H2. destruct (prefix_cmp p slice s s0 H2); [lia|lia|auto].
Qed.
Print Assumptions C07_scan_longest.
