(** C25: comments in the source info. *)
From Coq Require Import Sorting.Permutation.
From Verif Require Import Base SynSpec Utf8 Errors Lex LexSafe Ast Comments AttachSpec Parse Lines Descriptor Generate ParseApi Stream Grammar Walk WalkG3 Meaning Erase AstWf
  GenProofs AstWfG PropsParse DescSpec PropsDesc LocSpec PropsLoc AttachDecl.

(** ** The specification determines the comments *)
Lemma lines_split ts : forall ts' r r', (forall t, hd_error r <> Some (TLineComment t)) -> (forall t, hd_error r' <> Some (TLineComment t)) ->
  map TLineComment ts ++ r = map TLineComment ts' ++ r' -> ts = ts' /\ r = r'.
Proof.
  induction ts as [|t ts IH]; intros [|t' ts'] r r' H H' E; cbn [map app] in E.
  - auto.
  - exfalso. subst r. now apply (H t').
  - exfalso. subst r'. now apply (H' t).
  - injection E as -> E. destruct (IH _ _ _ H H' E). subst. auto.
Qed.
Lemma paragraphs_det T ps : paragraphs T ps -> forall ps', paragraphs T ps' -> ps = ps'.
Proof.
  induction 1 as [|r ps H IH|t r ps Hn H IH|t r ps H IH|ts r ps Hn Hr H IH]; intros ps' H'.
  - inversion H' as [| | | |ts r ps0 Hn0 Hr0 H0 E]; [reflexivity|]. destruct ts; [congruence|discriminate].
  - inversion H' as [|? ? H0| | |ts0 r0 ps0 Hn0 Hr0 H0 E]; subst; [f_equal; auto|]. destruct ts0; [congruence|discriminate].
  - inversion H' as [| |? ? ? ? H0|? ? ? H0|ts0 r0 ps0 Hn0 Hr0 H0 E]; subst; [f_equal; auto|exfalso; now apply Hn|]. destruct ts0; [congruence|discriminate].
  - inversion H' as [| |? ? ? H1 H0|? ? ? H0|ts0 r0 ps0 Hn0 Hr0 H0 E]; subst; [exfalso; now apply H1|f_equal; auto|]. destruct ts0; [congruence|discriminate].
  - destruct ts as [|x ts]; [congruence|]. inversion H' as [| | | |ts0 r0 ps0 Hn0 Hr0 H0 E]; subst. destruct (lines_split _ (x :: ts) _ _ Hr0 Hr E). subst. f_equal. auto.
Qed.
Lemma attached_det closing first T tr dt ld tr' dt' ld' : attached closing first T tr dt ld -> attached closing first T tr' dt' ld' -> tr = tr' /\ dt = dt' /\ ld = ld'.
Proof.
  intros H H'. destruct H as [T ps H| |t T ps H|T ps H|t T ps ps' H E|t T H]; inversion H' as [T0 ps0 H0| |t0 T0 ps0 H0|T0 ps0 H0|t0 T0 ps0 ps0' H0 E0|t0 T0 H0]; subst;
    repeat match goal with H1 : paragraphs ?T ?a, H2 : paragraphs ?T ?c |- _ => assert (a = c) by (eapply paragraphs_det; eauto); clear H2; subst c end; auto; exfalso; auto.
Qed.

Lemma cut_at {A B} (f : A -> B) (L L2 : list A) x x2 R R2 : NoDup (map f (L ++ x :: R)) -> f x = f x2 -> L ++ x :: R = L2 ++ x2 :: R2 -> L = L2 /\ x = x2 /\ R = R2.
Proof.
  revert L2. induction L as [|y L IH]; intros [|y2 L2] H E E2; cbn [app map] in *.
  - injection E2 as -> ->. auto.
  - exfalso. injection E2 as -> ->. apply NoDup_cons_iff in H. destruct H as [H1 _]. apply H1. rewrite map_app. apply in_or_app. right. left. now symmetry.
  - exfalso. injection E2 as -> <-. apply NoDup_cons_iff in H. destruct H as [H1 _]. apply H1. rewrite map_app. apply in_or_app. right. left. auto.
  - injection E2 as -> E3. apply NoDup_cons_iff in H. destruct H as [_ H3]. destruct (IH _ H3 E E3) as (-> & -> & ->). auto.
Qed.
Definition ends_in_token (L : list item) : Prop := L = [] \/ exists L0 u sp, L = L0 ++ [(Some u, sp)] /\ ~ trivia u.
Lemma items_In T x sp : In (x, sp) (items T) -> exists t, x = Some t /\ In (t, sp) T.
Proof. unfold items. intros H. apply in_map_iff in H. destruct H as ([t sp'] & E & H). injection E as <- <-. eauto. Qed.
Lemma items_inj T T' : items T = items T' -> T = T'.
Proof.
  unfold items. revert T'. induction T as [|[t sp] T IH]; intros [|[t' sp'] T'] E; cbn in E; try discriminate; [reflexivity|]. injection E as -> -> E. f_equal. auto.
Qed.
Lemma back_run L L2 T T2 : ends_in_token L -> ends_in_token L2 -> all_trivia T -> all_trivia T2 -> L ++ items T = L2 ++ items T2 -> L = L2 /\ T = T2.
Proof.
  assert (W : forall L L2 T T2 l, ends_in_token L -> all_trivia T2 -> L = L2 ++ l -> items T2 = l ++ items T -> L = L2 /\ T = T2).
  { clear. intros L L2 T T2 l H H2 E1 E2. destruct l as [|x l _] using rev_ind.
    - rewrite app_nil_r in E1. cbn in E2. apply items_inj in E2. auto.
    - exfalso. rewrite app_assoc in E1. destruct H as [->|(L0 & u & sp & -> & Hu)]; [destruct (L2 ++ l); discriminate|]. apply app_inj_tail in E1. destruct E1 as [_ <-].
      assert (Hi : In (Some u, sp) (items T2)) by (rewrite E2; apply in_or_app; left; apply in_or_app; right; now left).
      apply items_In in Hi. destruct Hi as (t & [= <-] & Hi). unfold all_trivia in H2. rewrite Forall_forall in H2. exact (Hu (H2 _ Hi)). }
  intros H H2 HT HT2 E. destruct (app_eq_app _ _ _ _ E) as (l & [[E1 E2]|[E1 E2]]).
  - eapply W; eauto.
  - destruct (W L2 L T2 T l) as [-> ->]; auto.
Qed.
Definition starts_with_token (L : list item) : Prop := match L with (Some t, _) :: _ => ~ trivia t | (None, _) :: _ => False | [] => True end.
Lemma front_run L L2 T : forall T2, starts_with_token L -> starts_with_token L2 -> all_trivia T -> all_trivia T2 -> items T ++ L = items T2 ++ L2 -> L = L2 /\ T = T2.
Proof.
  induction T as [|[t sp] T IH]; intros [|[t2 sp2] T2] H H2 HT HT2 E; cbn in E.
  - auto.
  - exfalso. subst L. cbn in H. inversion HT2; subst. auto.
  - exfalso. subst L2. cbn in H2. inversion HT; subst. auto.
  - injection E as -> -> E. inversion HT; inversion HT2; subst. destruct (IH T2) as [-> ->]; auto.
Qed.
Theorem comments_determined S st e c c' : NoDup (map snd S) -> comments_at S st e c -> comments_at S st e c' -> c = c'.
Proof.
  intros HN [(L & T & t & L' & E1 & HT & Ht & tr & Ha & HL) (M & u & U & M' & E2 & Hu & HU & HM & dt & ld & Hb)]
            [(L2 & T2 & t2 & L2' & E3 & HT2 & Ht2 & tr2 & Ha2 & HL2) (M2 & u2 & U2 & M2' & E4 & Hu2 & HU2 & HM2 & dt2 & ld2 & Hb2)].
  assert (HN1 := HN). assert (HN2 := HN). rewrite E1, app_assoc in HN1. rewrite E2 in HN2.
  destruct (cut_at snd (L ++ items T) (L2 ++ items T2) (Some t, st) (Some t2, st) L' L2' HN1 eq_refl) as (C1 & C2 & C3); [rewrite <- !app_assoc; congruence|].
  destruct (back_run L L2 T T2 HL HL2 HT HT2 C1) as [-> ->]. injection C2 as <-. subst L2'.
  destruct (cut_at snd M M2 (Some u, e) (Some u2, e) (items U ++ M') (items U2 ++ M2') HN2 eq_refl) as (C4 & C5 & C6); [congruence|].
  destruct (front_run M' M2' U U2 HM HM2 HU HU2 C6) as [-> ->].
  destruct (attached_det _ _ _ _ _ _ _ _ _ Ha Ha2) as (_ & D1 & D2). destruct (attached_det _ _ _ _ _ _ _ _ _ Hb Hb2) as (D3 & _ & _).
  destruct c, c'; cbn in *. congruence.
Qed.

(** ** The comments between two tokens are shared out without repetition or loss *)
Definition comment_text (t : token) : bytes := match t with TLineComment s | TBlockComment s => s | _ => [] end.
Definition opt_list {A} (o : option A) : list A := match o with Some x => [x] | None => [] end.
Lemma paragraphs_text T ps : paragraphs T ps -> concat (texts ps) = flat_map comment_text T.
Proof.
  induction 1 as [|r ps H IH|t r ps Hn H IH|t r ps H IH|ts r ps Hn Hr H IH]; unfold texts in *; cbn [flat_map app concat comment_text] in *; auto.
  - now rewrite IH.
  - now rewrite IH.
  - rewrite IH, flat_map_app. f_equal. clear. induction ts as [|t ts IH]; cbn; [reflexivity|]. now rewrite IH.
Qed.
Lemma texts_app a c : texts (a ++ c) = texts a ++ texts c.
Proof. apply flat_map_app. Qed.
Lemma others_lead closing ps : texts ps = texts (others closing ps) ++ opt_list (lead_of closing ps).
Proof.
  unfold others, lead_of. destruct closing; [now rewrite app_nil_r|]. destruct (last ps None) as [t|] eqn:E; [|now rewrite app_nil_r].
  assert (Hne : ps <> []) by (intros ->; discriminate). rewrite (app_removelast_last None Hne) at 1. rewrite E, texts_app. reflexivity.
Qed.
Lemma trail_rest ps : texts ps = opt_list (trail_of ps) ++ texts (tl ps).
Proof. destruct ps as [|[t|] ps]; reflexivity. Qed.
Theorem shared_out closing first T tr dt ld : attached closing first T tr dt ld ->
  concat (opt_list tr ++ dt ++ opt_list ld) = flat_map comment_text T \/
  ((exists t T', first = false /\ T = TBlockComment t :: T' /\ hd_error T' <> Some TNewline) /\ tr = None /\ dt = [] /\ ld = None).
Proof.
  destruct 1 as [T ps H| |t T ps H|T ps H|t T ps ps' H E|t T H]; [left|left|left|left|left|right; eauto 10].
  - cbn [opt_list app]. rewrite <- others_lead. now apply paragraphs_text.
  - reflexivity.
  - cbn [opt_list app concat flat_map comment_text]. rewrite <- others_lead, (paragraphs_text _ _ H). reflexivity.
  - rewrite app_assoc, <- trail_rest, <- others_lead. cbn [flat_map comment_text app]. now apply paragraphs_text.
  - rewrite app_assoc, <- trail_rest, <- others_lead. subst ps'. cbn [texts flat_map comment_text app concat]. f_equal. exact (paragraphs_text _ _ H).
Qed.

(** ** Source info *)
Definition loc_comments (x : location) : acomments :=
  {| ac_detached := loc_detached x; ac_leading := loc_leading x; ac_trailing := loc_trailing x |}.
Definition commented (x : location) : bool :=
  match loc_detached x, loc_leading x, loc_trailing x with [], None, None => false | _, _, _ => true end.

Lemma tok_in_nodup hi ts : forall lo, tok_in lo hi ts -> NoDup (map tk_span ts).
Proof.
  induction ts as [|x ts IH]; intros lo H; cbn [map]; constructor; destruct H as (H1 & H2 & H3 & _); [|eauto].
  intros Hin. apply in_map_iff in Hin. destruct Hin as (y & E & Hy). assert (G : forall l lo, tok_in lo hi l -> In y l -> lo <= s_start (tk_span y)).
  { clear. induction l as [|z l IH]; intros lo H Hi; [destruct Hi|]. destruct H as (H1 & H2 & H3 & _). destruct Hi as [->|Hi]; [exact H1|]. specialize (IH _ H3 Hi). lia. }
  specialize (G _ _ H3 Hy). rewrite E in G. lia.
Qed.
Lemma accepted_tok_in k src ts : sigs (stream k src 0) = map inj ts -> tok_in 0 (len src) ts.
Proof.
  intros E. pose proof (stream_tiles k (lex_init src)) as T. cbn [lex_init l_end l_rest] in T.
  apply (tiles_tok _ _ _ T) in E; [exact E|]. unfold stream. match goal with |- context [lex_all k ?s0] => destruct (lex_all_total k s0) as (us & s1 & El) end. rewrite El. eapply lex_all_ok; eauto.
Qed.
Lemma num_nodup (ds ts : list occ) : NoDup (map snd ts) -> (forall x, (num ds x <= num ts x)%nat) -> NoDup (map snd ds) /\ incl ds ts.
Proof.
  intros HN Hx. assert (Hi : incl ds ts). { intros x Hi. specialize (Hx x). unfold num in Hx. apply (count_occ_In occ_dec) in Hi. apply (count_occ_In occ_dec). lia. }
  split; [|exact Hi]. assert (Hinj : forall x y, In x ts -> In y ts -> snd x = snd y -> x = y).
  { clear - HN. induction ts as [|z ts IH]; intros x y Hx Hy E; [destruct Hx|]. cbn [map] in HN. inversion HN as [|? ? H1 H2]; subst.
    destruct Hx as [->|Hx], Hy as [->|Hy]; auto; exfalso; apply H1; apply in_map_iff; eauto. }
  assert (Hle : forall x, (num ds x <= 1)%nat).
  { intros x. specialize (Hx x). assert (num ts x <= 1)%nat; [|lia]. apply (NoDup_count_occ occ_dec). eapply NoDup_map_inv; eauto. }
  clear Hx HN. revert Hi Hle. induction ds as [|x ds IH]; intros Hi Hle; cbn [map]; constructor.
  - intros Hin. apply in_map_iff in Hin. destruct Hin as (y & E & Hy). assert (y = x) by (apply Hinj; auto; apply Hi; [now right|now left]). subst y.
    specialize (Hle x). unfold num in Hle. cbn [count_occ] in Hle. destruct (occ_dec x x); [|congruence]. apply (count_occ_In occ_dec) in Hy. lia.
  - apply IH; [intros z Hz; apply Hi; now right|]. intros z. specialize (Hle z). unfold num in *. cbn [count_occ] in Hle. destruct (occ_dec x z); lia.
Qed.

(** What it means for the comments of a location to be those of a declaration
    that starts with token [fst o] and whose head ends with token [snd o]. *)
Definition documents (k : cfg) (src : bytes) (x : location) (o : occ * occ) : Prop :=
  let st := snd (fst o) in let '(t, e) := snd o in
  comments_at (stream k src 0) st e (loc_comments x) /\
  exists en, s_start st <= en /\ en <= len src /\ loc_span x = encode src (s_start st) en /\
    (t = TLeftBrace \/ (t = TSemicolon \/ t = TRightBrace) /\ en = s_end e).

Lemma filter_perm {A} (f : A -> bool) l l' : Permutation l l' -> Permutation (filter f l) (filter f l').
Proof.
  induction 1 as [|x l l' H IH|x y l|l l' l'' H1 IH1 H2 IH2]; cbn; auto.
  - destruct (f x); auto.
  - destruct (f x), (f y); auto. apply perm_swap.
  - now transitivity (filter f l').
Qed.
Lemma Forall2_perm {A B} (R : A -> B -> Prop) l l' ds : Permutation l l' -> Forall2 R l ds -> exists es, Permutation ds es /\ Forall2 R l' es.
Proof.
  intros P. revert ds. induction P as [|v V W P IH|v w V|V W U P1 IH1 P2 IH2]; intros ds F.
  - exists ds. auto.
  - inversion F; subst. destruct (IH _ H3) as (es & E1 & E2). exists (y :: es). split; auto.
  - inversion F; subst. inversion H3; subst. eexists. split; [apply perm_swap|]. auto.
  - destruct (IH1 _ F) as (es & E1 & E2). destruct (IH2 _ E2) as (fs & G1 & G2). exists fs. split; auto. now transitivity es.
Qed.

Theorem C25_attached k sort name src d a : sorting sort -> parse k sort name src = Done (inl d, a) ->
  exists locs ds, d_source_info d = Some locs /\ Forall2 (documents k src) (filter commented locs) ds /\
    NoDup (map (fun o => snd (fst o)) ds) /\ NoDup (map (fun o => snd (snd o)) ds) /\
    Forall (fun o => In (Some (fst (fst o)), snd (fst o)) (stream k src 0) /\ In (Some (fst (snd o)), snd (snd o)) (stream k src 0)) ds.
Proof.
  intros Hsort E. destruct (parse_ok_inv _ _ _ _ _ _ E) as (Hn & f & Ha & Hok & (ls & El & Ed)).
  destruct (locations k name src f d Ha Hok (ex_intro _ _ Ed)) as (rest & Er & _ & Hrest).
  destruct Ha as (ts & G & Hs & Hm). destruct (own_vd _ _ _ (@file_own (com_of k src) _ _ _ _ G)) as (ds & F & Hc). rewrite <- (vw_file k (fi_syntax f)) in F.
  pose proof (tok_in_nodup _ _ _ (accepted_tok_in _ _ _ Hs)) as HN.
  assert (HN' : NoDup (map snd (map fst ts))) by (rewrite map_map; exact HN).
  destruct (num_nodup (map fst ds) (map fst ts) HN') as [D1 I1]; [intros x; apply Hc|]. destruct (num_nodup (map snd ds) (map fst ts) HN') as [D2 I2]; [intros x; apply Hc|].
  destruct (Hsort (map (mk ls) (l_file k (fi_syntax f) f))) as [Hp _].
  assert (F2 : Forall2 (documents k src) (filter commented (map (mk ls) (l_file k (fi_syntax f) f))) ds).
  { rewrite Er in *. clear Er Hp Hc D1 D2 I1 I2. cbn [map]. replace (filter commented (mk ls (at_ [] (fi_span f)) :: map (mk ls) rest)) with (filter commented (map (mk ls) rest)) by reflexivity.
    rewrite vw_at in F. clear Ed. revert ds F. induction Hrest as [|[[p sp] c] rest Hx Hrest IH]; intros ds F; [inversion F; constructor|].
    assert (Hsp : span_ok (len src) sp) by (destruct Hx as [Hx|(_ & _ & Hx)]; [apply Hx|exact Hx]). clear Hx.
    rewrite vw_cons in F. unfold v1 in F. cbn [map filter]. change (commented (mk ls (p, sp, c))) with (has_comments c). destruct (has_comments c); [|apply IH; exact F].
    cbn [app] in F. inversion F as [|v o V ds' Ho F']; subst. destruct o as [[t1 st] [t2 e]]. destruct Ho as (h & O1 & O2 & O3). constructor; [|apply IH; exact F']. split; [destruct c; exact O1|].
    exists (s_end sp). cbn [fst snd]. destruct Hsp as [S1 S2]. rewrite <- O2. split; [exact S1|]. split; [exact S2|]. split; [apply mk_span; [exact Hn|exact El|split; assumption]|].
    destruct h; cbn [head_end fst snd] in O3; [left; exact O3|right; destruct O3; auto|right; destruct O3; auto]. }
  destruct (Forall2_perm _ _ _ _ (filter_perm commented _ _ Hp) F2) as (es & Pe & F3). exists (sort (map (mk ls) (l_file k (fi_syntax f) f))), es.
  split; [rewrite Ed; reflexivity|]. split; [exact F3|]. split; [|split].
  - eapply Permutation_NoDup; [apply Permutation_map; exact Pe|]. rewrite <- map_map. exact D1.
  - eapply Permutation_NoDup; [apply Permutation_map; exact Pe|]. rewrite <- map_map. exact D2.
  - assert (Hin : forall x, In x (map fst ts) -> In (Some (fst x), snd x) (stream k src 0)).
    { intros x Hx. apply in_map_iff in Hx. destruct Hx as (y & <- & Hy). apply (filter_In significant). fold (sigs (stream k src 0)). rewrite Hs. apply in_map_iff. exists y. auto. }
    apply Forall_forall. intros o Ho. apply (Permutation_in _ (Permutation_sym Pe)) in Ho. split; apply Hin; [apply I1|apply I2]; now apply in_map.
Qed.
Print Assumptions C25_attached.

(** The comments of a declaration are a function of the source, and of where the declaration stands. *)
Lemma stream_nodup k src : NoDup (map snd (stream k src 0)).
Proof.
  pose proof (stream_tiles k (lex_init src)) as T. cbn [lex_init l_end l_rest] in T. 
  assert (G : forall off l s, tiles off l s -> NoDup (map snd s) /\ Forall (fun x => off <= s_start (snd x)) s).
  { clear. induction 1 as [off w Hw|off w lexeme rest t ts Hw Hl H [IH1 IH2]]; cbn [map]; [split; constructor|]. assert (Hp : 0 < len lexeme) by (destruct lexeme; [congruence|rewrite len_cons; lia]). split.
    - constructor; [|exact IH1]. intros Hi. apply in_map_iff in Hi. destruct Hi as (x & Ex & Hx). rewrite Forall_forall in IH2. specialize (IH2 _ Hx). rewrite Ex in IH2. cbn in IH2. lia.
    - constructor; [cbn; lia|]. eapply Forall_impl; [|exact IH2]. intros x Hx. cbn beta in Hx. lia. }
  apply (G _ _ _ T).
Qed.
Theorem C25_determined k src st e c c' : comments_at (stream k src 0) st e c -> comments_at (stream k src 0) st e c' -> c = c'.
Proof. apply comments_determined, stream_nodup. Qed.
Print Assumptions C25_determined.
Theorem C25_shared_out closing first T tr dt ld : attached closing first T tr dt ld ->
  concat (opt_list tr ++ dt ++ opt_list ld) = flat_map comment_text T \/
  ((exists t T', first = false /\ T = TBlockComment t :: T' /\ hd_error T' <> Some TNewline) /\ tr = None /\ dt = [] /\ ld = None).
Proof. apply shared_out. Qed.
Print Assumptions C25_shared_out.

(** Examples: a file with all three kinds of comments. *)
Definition ex_comments : bytes :=
  b "// detached" ++ nl_ ++ nl_ ++ b "// a" ++ nl_ ++ b "// b" ++ nl_ ++ b "syntax = 'proto3'; // on the same line" ++ nl_ ++ b "/* lead */" ++ nl_ ++
  b "message M { // head" ++ nl_ ++ b " // lost?" ++ nl_ ++ nl_ ++ b " int32 a = 1; /* t */" ++ nl_ ++ nl_ ++ b " /* nobody's */ }".
Definition comments_of (src : bytes) : list (list Z * list bytes * option bytes * option bytes) :=
  match d_source_info (desc_of src) with Some l => map (fun x => (loc_path x, loc_detached x, loc_leading x, loc_trailing x)) (filter commented l) | None => [] end.
Example C25_example : ok_result ex_comments = true /\ comments_of ex_comments =
  [([4; 0]%Z, [], Some (b " lead "), Some (b " head" ++ nl_)); ([4; 0; 2; 0]%Z, [b " lost?" ++ nl_], None, Some (b " t "));
   ([12]%Z, [b " detached" ++ nl_], Some (b " a" ++ nl_ ++ b " b" ++ nl_), Some (b " on the same line" ++ nl_))].
Proof. split; vm_compute; reflexivity. Qed.
(** Two deviations from protoc, which the specification records: a block comment on the same line which is followed by more on that line
    drops all comments up to the next token; and one that ends the line is the leading comment of a declaration on the next line. *)
Definition ex_dropped : bytes := b "message M { optional int32 a = 1; /* x */ /* y */" ++ nl_ ++ b " // z" ++ nl_ ++ b " optional int32 b = 2; }".
Example C25_dropped : ok_result ex_dropped = true /\ comments_of ex_dropped = [].
Proof. split; vm_compute; reflexivity. Qed.
Definition ex_stolen : bytes := b "message M { optional int32 a = 1; /* x */" ++ nl_ ++ b " optional int32 b = 2; }".
Example C25_stolen : ok_result ex_stolen = true /\ comments_of ex_stolen = [([4; 0; 2; 1]%Z, [], Some (b " x "), None)].
Proof. split; vm_compute; reflexivity. Qed.
