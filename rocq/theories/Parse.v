(** Model of protox-parse/src/parse/mod.rs, function by function. *)
From Verif Require Import Base Utf8 Errors Lex Ast Comments.

(** ** State and monad *)

(** [Parser], parse/mod.rs:30-34. [p_peek = Some None] is [Some(Err(()))]. *)
Record pst : Type := {
  p_lex : lexst;
  p_peek : option (option (token * span));
  p_cm : comments;
}.

Inductive pres (A : Type) : Type :=
| POk (a : A) (s : pst)
| PErr (s : pst)          (* Err(()) *)
| PPanic
| PNoFuel.
Arguments POk {A} a s.
Arguments PErr {A} s.
Arguments PPanic {A}.
Arguments PNoFuel {A}.

Definition P (A : Type) : Type := pst -> pres A.
Definition ret {A} (a : A) : P A := fun s => POk a s.
Definition bind {A B} (m : P A) (f : A -> P B) : P B :=
  fun s => match m s with
           | POk a s' => f a s'
           | PErr s' => PErr s'
           | PPanic => PPanic
           | PNoFuel => PNoFuel
           end.
Definition fail {A} : P A := fun s => PErr s.
Definition panic {A} : P A := fun _ => PPanic.

Notation "x <- m ;; f" := (bind m (fun x => f)) (at level 60, m at next level, right associativity).
Notation "' p <- m ;; f" := (bind m (fun x => match x with p => f end))
  (at level 60, p pattern, m at next level, right associativity).
Notation "m ;;; f" := (bind m (fun _ => f)) (at level 60, right associativity).

(** What a loop iteration that goes on must decrease. *)
Definition measure (s : pst) : nat :=
  (2 * length (l_rest (p_lex s)) + match p_peek s with Some _ => 1 | None => 0 end)%nat.

(** Rust's [loop]: [inl] continues, [inr] breaks. *)
Fixpoint loopf {A B} (fuel : nat) (f : A -> P (A + B)) (a : A) : P B :=
  match fuel with
  | O => fun _ => PNoFuel
  | S n => r <- f a ;; match r with inl a' => loopf n f a' | inr v => ret v end
  end.
Definition loop {A B} (f : A -> P (A + B)) (a : A) : P B :=
  fun s => loopf (S (measure s)) f a s.

Definition set_lex (s : pst) (l : lexst) : pst := {| p_lex := l; p_peek := p_peek s; p_cm := p_cm s |}.
Definition set_peek (s : pst) (x : option (option (token * span))) : pst :=
  {| p_lex := p_lex s; p_peek := x; p_cm := p_cm s |}.
Definition set_cm (s : pst) (c : comments) : pst := {| p_lex := p_lex s; p_peek := p_peek s; p_cm := c |}.

(** [add_error], parse/mod.rs:1298-1300. *)
Definition with_errs (l : lexst) (e : list perr) : lexst :=
  {| l_rest := l_rest l; l_start := l_start l; l_end := l_end l; l_errs := e;
     l_tfm := l_tfm l; l_assert := l_assert l |}.
Definition add_error (e : perr) : P unit :=
  fun s => POk tt (set_lex s (with_errs (p_lex s) (l_errs (p_lex s) ++ [e]))).

(** [debug_assert!(c)]: a failure is recorded, see [lexst]. *)
Definition with_assert (l : lexst) (a : bool) : lexst :=
  {| l_rest := l_rest l; l_start := l_start l; l_end := l_end l; l_errs := l_errs l;
     l_tfm := l_tfm l; l_assert := a |}.
Definition dassert (c : bool) : P unit :=
  fun s => POk tt (set_lex s (with_assert (p_lex s) (l_assert (p_lex s) || negb c))).

Definition with_tfm (l : lexst) (t : bool) : lexst :=
  {| l_rest := l_rest l; l_start := l_start l; l_end := l_end l; l_errs := l_errs l;
     l_tfm := t; l_assert := l_assert l |}.
Definition set_tfm (t : bool) : P unit := fun s => POk tt (set_lex s (with_tfm (p_lex s) t)).

Definition get : P pst := fun s => POk s s.

(** A method of [Comments] that may hit its debug assertion. *)
Definition cm (f : comments -> comments * bool) : P unit :=
  fun s => let '(c, ok) := f (p_cm s) in dassert ok (set_cm s c).

Section Parser.
Variable k : cfg.

(** ** Token access: parse/mod.rs:1175-1300 *)

(** [self.lexer.next()] and [self.lexer.span()] *)
Definition lexer_next : P (option (option token)) :=
  fun s => match lex_next k (p_lex s) with
           | Done (r, l) => POk r (set_lex s l)
           | Panic => PPanic
           | NoFuel => PNoFuel
           end.
Definition lexer_span : P span := fun s => POk (l_start (p_lex s), l_end (p_lex s)) s.

(** [next], parse/mod.rs:1260-1273; the result is what [peek_comments] stores:
    [None] at the end of the file, [Some None] after an error. *)
Definition next_ : P (option (option (token * span))) :=
  s <- get ;;
  dassert (negb (is_some (p_peek s))) ;;;
  r <- lexer_next ;;
  match r with
  | Some None =>
    (fun s => POk tt (set_cm s c_reset)) ;;;
    sp <- lexer_span ;;
    add_error (InvalidToken sp) ;;;
    ret (Some None)
  | Some (Some t) => sp <- lexer_span ;; ret (Some (Some (t, sp)))
  | None => ret None
  end.

(** [peek_comments], parse/mod.rs:1253-1258. *)
Definition peek_comments : P (option (token * span)) :=
  s <- get ;;
  (match p_peek s with
   | None => x <- next_ ;; (fun s => POk tt (set_peek s x))
   | Some _ => ret tt
   end) ;;;
  s <- get ;;
  match p_peek s with
  | None => ret None
  | Some (Some ts) => ret (Some ts)
  | Some None => fail
  end.

Definition is_trivia (t : token) : bool :=
  match t with TLineComment _ | TBlockComment _ | TNewline => true | _ => false end.

(** [bump], parse/mod.rs:1175-1186. *)
Definition bump : P span :=
  s <- get ;;
  match p_peek s with
  | Some (Some (t, sp)) =>
    (fun s => POk tt (set_peek (if is_trivia t then s else set_cm s c_reset) None)) ;;;
    ret sp
  | _ => panic                                    (* the two expects *)
  end.

(** [peek_skip_comments], parse/mod.rs:1240-1251. *)
Definition peek_skip_comments : P (option (token * span)) :=
  loop (fun _ : unit =>
    t <- peek_comments ;;
    match t with
    | Some (TLineComment _, _) | Some (TBlockComment _, _) | Some (TNewline, _) =>
      bump ;;; ret (inl tt)
    | _ => ret (inr t)
    end) tt.

(** The loop of [peek], parse/mod.rs:1212-1237. *)
Definition peek_loop : P (option (token * span)) :=
  loop (fun _ : unit =>
    t <- peek_comments ;;
    match t with
    | Some (TLineComment c, _) =>
      bump ;;; cm (fun x => c_line_comment x c) ;;; ret (inl tt)
    | Some (TBlockComment c, _) =>
      bump ;;; cm (fun x => c_block_comment x c) ;;;
      t2 <- peek_comments ;;
      match t2 with
      | Some (TNewline, _) => bump ;;; ret (inl tt)
      | _ => ret (inl tt)
      end
    | Some (TNewline, _) =>
      bump ;;; cm c_flush ;;; cm (fun x => (c_detach x, true)) ;;; ret (inl tt)
    | None | Some (TRightBrace, _) | Some (TRightBracket, _) | Some (TRightParen, _) =>
      cm c_flush ;;; ret (inr t)
    | _ => ret (inr t)
    end) tt.

(** [peek], parse/mod.rs:1188-1238. *)
Definition peek : P (option (token * span)) :=
  sp <- lexer_span ;;
  if (s_start sp =? 0) && (s_end sp =? 0) then peek_loop
  else
    t <- peek_comments ;;
    match t with
    | Some (TLineComment c, _) =>
      bump ;;; cm (fun x => c_line_comment x c) ;;; cm c_flush ;;; peek_loop
    | Some (TBlockComment c, _) =>
      bump ;;;
      t2 <- peek_comments ;;
      match t2 with
      | Some (TNewline, _) => bump ;;; cm (fun x => c_block_comment x c) ;;; peek_loop
      | _ => peek_skip_comments
      end
    | Some (TNewline, _) => bump ;;; peek_loop
    | _ => ret t
    end.

(** [unexpected_token] and [eof], parse/mod.rs:1275-1296. *)
Definition unexpected_token {A} (expected : bytes) : P A :=
  t <- peek_skip_comments ;;
  match t with
  | Some (found, sp) =>
    add_error (UnexpectedToken expected (token_display k found) sp) ;;; fail
  | None => add_error (UnexpectedEof expected) ;;; fail
  end.

(** [tokens.contains(&tok)] *)
Definition mem_token (t : token) (l : list token) : bool := existsb (token_eqb t) l.

(** [skip_until], parse/mod.rs:1160-1173. *)
Definition skip_until (tokens : list token) : P unit :=
  loop (fun _ : unit => fun s =>
    match peek s with
    | POk None s' => POk (inr tt) s'
    | POk (Some (t, _)) s' =>
      if mem_token t tokens then POk (inr tt) s' else (bump ;;; ret (inl tt)) s'
    | PErr s' => POk (inl tt) (set_peek s' None)
    | PPanic => PPanic
    | PNoFuel => PNoFuel
    end) tt.

Definition quote (x : bytes) : bytes := b "'" ++ x ++ b "'".

(** [expect_eq], parse/mod.rs:1138-1143. *)
Definition expect_eq (t : token) : P span :=
  x <- peek_skip_comments ;;
  match x with
  | Some (tok, _) => if token_eqb tok t then bump
                     else unexpected_token (quote (token_display k t))
  | None => unexpected_token (quote (token_display k t))
  end.

(** [parse_leading_comments], parse/mod.rs:1119-1122: the result of [peek] is
    ignored, its effects are kept. *)
Definition peek_ignore : P unit :=
  fun s => match peek s with
           | POk _ s' => POk tt s'
           | PErr s' => POk tt s'
           | PPanic => PPanic
           | PNoFuel => PNoFuel
           end.
Definition parse_leading_comments : P (list bytes * option bytes) :=
  peek_ignore ;;;
  (fun s => let '(r, c) := c_take_leading (p_cm s) in POk r (set_cm s c)).

(** [parse_trailing_comment], parse/mod.rs:1124-1136. *)
Definition parse_trailing_comment (lead : list bytes * option bytes) : P acomments :=
  peek_ignore ;;;
  (fun s => let '(t, c) := c_take_trailing (p_cm s) in
            POk {| ac_detached := fst lead; ac_leading := snd lead; ac_trailing := t |} (set_cm s c)).


(** [matches!(t, Some((tok, _)) if tok == t)] *)
Definition at_ (t : option (token * span)) (x : token) : bool :=
  match t with Some (y, _) => token_eqb y x | None => false end.
Definition at_ident (t : option (token * span)) : bool :=
  match t with Some (TIdent _, _) => true | _ => false end.
(** [Some((Token::Dot | Token::Ident(_), _))] *)
Definition at_dot_or_ident (t : option (token * span)) : bool :=
  match t with Some (TIdent _, _) | Some (TDot, _) => true | _ => false end.
Definition at_string (t : option (token * span)) : bool :=
  match t with Some (TStr _, _) => true | _ => false end.
Definition at_int_or_minus (t : option (token * span)) : bool :=
  match t with Some (TInt _, _) | Some (TMinus, _) => true | _ => false end.

(** [ExpectedToken], parse/mod.rs:36-40, 1303-1326; [ETIdent] is [Ident]. *)
Inductive expected_token : Type := ETTok (t : token) | ETIdent.
Definition et_matches (e : expected_token) (t : token) : bool :=
  match e with
  | ETTok x => token_eqb x t
  | ETIdent => match t with TIdent _ => true | _ => false end
  end.
Definition et_display (e : expected_token) : bytes :=
  match e with ETTok x => quote (token_display k x) | ETIdent => b "an identifier" end.
(** [fmt_expected], parse/mod.rs:1343-1357. *)
Fixpoint fmt_rest (l : list expected_token) : bytes :=
  match l with
  | [] => []
  | [x] => b " or " ++ et_display x
  | x :: r => b ", " ++ et_display x ++ fmt_rest r
  end.
Definition fmt_expected (l : list expected_token) : bytes :=
  match l with [] => [] | x :: r => et_display x ++ fmt_rest r end.
Definition at_terminator (t : option (token * span)) (ts : list expected_token) : bool :=
  match t with Some (tok, _) => existsb (fun e => et_matches e tok) ts | None => false end.

(** ** Leaves: parse/mod.rs:1008-1117 *)

(** [parse_ident], parse/mod.rs:1043-1051 (with [expect], 1145-1158). *)
Definition parse_ident : P ident :=
  t <- peek_skip_comments ;;
  match t with
  | Some (TIdent v, sp) => bump ;;; ret {| id_val := v; id_span := sp |}
  | _ => unexpected_token (b "an identifier")
  end.

(** [parse_int], parse/mod.rs:1053-1079. *)
Definition parse_int : P aint :=
  t <- peek_skip_comments ;;
  neg <- (match t with
          | Some (TMinus, sp) => bump ;;; ret (Some sp)
          | _ => ret None
          end) ;;
  t2 <- peek_skip_comments ;;
  match t2 with
  | Some (TInt v, e) =>
    bump ;;;
    ret {| i_neg := is_some neg; i_val := v;
           i_span := match neg with None => e | Some st => join_span st e end |}
  | _ => unexpected_token (b "an integer")
  end.

(** [parse_string], parse/mod.rs:1098-1117. *)
Definition parse_string : P astring :=
  t <- peek_skip_comments ;;
  first <- (match t with
            | Some (TStr v, sp) => bump ;;; ret {| st_val := v; st_span := sp |}
            | _ => unexpected_token (b "a string literal")
            end) ;;
  loop (fun r =>
    t <- peek_skip_comments ;;
    match t with
    | Some (TStr v, sp) =>
      bump ;;;
      ret (inl {| st_val := st_val r ++ v; st_span := join_span (st_span r) sp |})
    | _ => ret (inr r)
    end) first.

(** [parse_utf8_string], parse/mod.rs:1081-1096. *)
Definition parse_utf8_string : P (bytes * span) :=
  s <- parse_string ;;
  if utf8_valid (st_val s) then ret (st_val s, st_span s)
  else add_error (InvalidUtf8String (st_span s)) ;;;
       ret (utf8_lossy (st_val s), st_span s).

(** [is_valid_ident], case.rs:1-7. *)
Definition is_valid_ident (s : bytes) : bool :=
  match s with
  | [] => false
  | c :: r => is_alpha c && forallb (fun c => is_alnum c || (c =? 95)) r
  end.
(** [is_valid_group_name], case.rs:9-15. *)
Definition is_valid_group_name (s : bytes) : bool :=
  match s with
  | [] => false
  | c :: r => is_upper c && forallb (fun c => is_alnum c || (c =? 95)) r
  end.

(** [parse_ident_string], parse/mod.rs:801-807. *)
Definition parse_ident_string : P ident :=
  ' (v, sp) <- parse_utf8_string ;;
  (if is_valid_ident v then ret tt else add_error (InvalidIdentifier sp)) ;;;
  ret {| id_val := v; id_span := sp |}.

(** [parse_full_ident], parse/mod.rs:1023-1041; the debug assertion of
    [FullIdent::from], ast/mod.rs:541, is at its end. *)
Definition parse_full_ident (terms : list expected_token) : P full_ident :=
  x <- parse_ident ;;
  loop (fun r =>
    t <- peek_skip_comments ;;
    if at_ t TDot then
      bump ;;; y <- parse_ident ;; ret (inl (r ++ [y]))
    else if at_terminator t terms then
      dassert (Nat.ltb 0 (length r)) ;;; ret (inr r)
    else unexpected_token (fmt_expected (ETTok TDot :: terms))) [x].

(** [parse_type_name], parse/mod.rs:1008-1021. *)
Definition parse_type_name (terms : list expected_token) : P type_name :=
  t <- peek ;;
  dot <- (match t with
          | Some (TDot, sp) => bump ;;; ret (Some sp)
          | Some (TIdent _, _) => ret None
          | _ => unexpected_token (b "a type name")
          end) ;;
  n <- parse_full_ident terms ;;
  ret {| tn_dot := dot; tn_name := n |}.

(** ** Options: parse/mod.rs:856-1006 *)

(** [parse_text_format_message], parse/mod.rs:980-1006. [brace_level] is a u32
    in the code, bounded by the length of the file. *)
Definition parse_text_format_message : P bytes :=
  s <- get ;;
  dassert (negb (is_some (p_peek s))) ;;;
  set_tfm true ;;;
  r <- loop (fun '(level, acc) =>
    t <- peek ;;
    match t with
    | None => ret (inr acc)
    | Some (tok, _) =>
      let go level' :=
        bump ;;;
        ret (inl (level', (match acc with [] => [] | _ => acc ++ [32] end) ++ token_display k tok)) in
      match tok with
      | TLeftBrace => go (level + 1)
      | TRightBrace => if level =? 0 then ret (inr acc) else go (level - 1)
      | _ => go level
      end
    end) (0, []) ;;
  set_tfm false ;;;
  ret r.

(** [parse_option_name_part], parse/mod.rs:967-978. *)
Definition parse_option_name_part : P optname_part :=
  t <- peek ;;
  match t with
  | Some (TIdent _, _) => i <- parse_ident ;; ret (ONIdent i)
  | Some (TLeftParen, st) =>
    bump ;;;
    n <- parse_type_name [ETTok TRightParen] ;;
    e <- expect_eq TRightParen ;;
    ret (ONExtension n (join_span st e))
  | _ => unexpected_token (b "an identifier or '('")
  end.

(** The option value, parse/mod.rs:910-962. *)
Definition parse_option_value : P optval :=
  t <- peek_skip_comments ;;
  match t with
  | Some (TMinus, st) =>
    bump ;;;
    t2 <- peek_skip_comments ;;
    match t2 with
    | Some (TIdent _, e) => i <- parse_ident ;; ret (OVIdent true i (join_span st e))
    | Some (TInt v, e) =>
      bump ;;; ret (OVInt {| i_neg := true; i_val := v; i_span := join_span st e |})
    | Some (TFloat v, e) =>
      bump ;;; ret (OVFloat {| fl_neg := true; fl_text := v; fl_span := join_span st e |})
    | _ => unexpected_token (b "a numeric literal")
    end
  | Some (TIdent _, sp) => i <- parse_ident ;; ret (OVIdent false i sp)
  | Some (TInt v, sp) => bump ;;; ret (OVInt {| i_neg := false; i_val := v; i_span := sp |})
  | Some (TFloat v, sp) => bump ;;; ret (OVFloat {| fl_neg := false; fl_text := v; fl_span := sp |})
  | Some (TStr _, _) => s <- parse_string ;; ret (OVString s)
  | Some (TLeftBrace, st) =>
    bump ;;;
    v <- parse_text_format_message ;;
    e <- expect_eq TRightBrace ;;
    ret (OVAggregate v (join_span st e))
  | _ => unexpected_token (b "a constant")
  end.

(** [parse_option_body], parse/mod.rs:893-965. *)
Definition parse_option_body : P optbody :=
  p <- parse_option_name_part ;;
  name <- loop (fun r =>
    t <- peek_skip_comments ;;
    if at_ t TDot then bump ;;; q <- parse_option_name_part ;; ret (inl (r ++ [q]))
    else if at_ t TEquals then bump ;;; ret (inr r)
    else unexpected_token (b "'=' or '.'")) [p] ;;
  v <- parse_option_value ;;
  ret {| ob_name := name; ob_value := v |}.

(** [parse_option], parse/mod.rs:877-891. *)
Definition parse_option : P option_ :=
  lead <- parse_leading_comments ;;
  st <- expect_eq (kw "option") ;;
  bd <- parse_option_body ;;
  e <- expect_eq TSemicolon ;;
  c <- parse_trailing_comment lead ;;
  ret {| op_body := bd; op_comments := c; op_span := join_span st e |}.

(** [parse_options_list], parse/mod.rs:856-875. *)
Definition parse_options_list : P optlist :=
  st <- expect_eq TLeftBracket ;;
  o <- parse_option_body ;;
  ' (os, e) <- loop (fun r =>
    t <- peek_skip_comments ;;
    if at_ t TComma then bump ;;; o <- parse_option_body ;; ret (inl (r ++ [o]))
    else if at_ t TRightBracket then e <- bump ;; ret (inr (r, e))
    else unexpected_token (b "',' or ']'")) [o] ;;
  ret {| ol_options := os; ol_span := join_span st e |}.

(** The pattern [match self.peek_skip_comments()? { '[' => options, term => None }]
    used at parse/mod.rs:355-359, 400-404, 437-441, 650-654, 766-770. *)
Definition parse_opt_options (term : token) (expected : bytes) : P (option optlist) :=
  t <- peek_skip_comments ;;
  if at_ t TLeftBracket then o <- parse_options_list ;; ret (Some o)
  else if at_ t term then ret None
  else unexpected_token expected.

(** ** Reserved and extension ranges: parse/mod.rs:731-854 *)

(** [parse_reserved_range], parse/mod.rs:832-854. *)
Definition parse_reserved_range : P rrange :=
  st <- parse_int ;;
  t <- peek_skip_comments ;;
  e <- (if at_ t (kw "to") then
          bump ;;;
          t2 <- peek_skip_comments ;;
          match t2 with
          | Some (TInt _, _) | Some (TMinus, _) => i <- parse_int ;; ret (REInt i)
          | Some (tok, sp) => if token_eqb tok (kw "max") then bump ;;; ret (REMax sp)
                              else unexpected_token (b "an integer or 'max'")
          | None => unexpected_token (b "an integer or 'max'")
          end
        else if at_ t TComma || at_ t TSemicolon then ret RENone
        else unexpected_token (b "'to', ',' or ';'")) ;;
  ret {| rr_start := st; rr_end := e |}.

(** [parse_reserved_ranges], parse/mod.rs:809-830. *)
Definition parse_reserved_ranges (terms : list expected_token) : P (list rrange) :=
  r0 <- parse_reserved_range ;;
  loop (fun r =>
    t <- peek_skip_comments ;;
    if at_ t TComma then bump ;;; x <- parse_reserved_range ;; ret (inl (r ++ [x]))
    else if at_terminator t terms then ret (inr r)
    else unexpected_token (fmt_expected (ETTok TComma :: terms))) [r0].

(** [parse_reserved_names], parse/mod.rs:784-799. *)
Definition parse_reserved_names : P (list ident * span) :=
  x <- parse_ident_string ;;
  loop (fun r =>
    t <- peek_skip_comments ;;
    if at_ t TComma then bump ;;; y <- parse_ident_string ;; ret (inl (r ++ [y]))
    else if at_ t TSemicolon then e <- bump ;; ret (inr (r, e))
    else unexpected_token (b "',' or ';'")) [x].

(** [parse_reserved], parse/mod.rs:731-757. *)
Definition parse_reserved : P reserved :=
  lead <- parse_leading_comments ;;
  st <- expect_eq (kw "reserved") ;;
  t <- peek_skip_comments ;;
  if at_int_or_minus t then
    rs <- parse_reserved_ranges [ETTok TSemicolon] ;;
    e <- expect_eq TSemicolon ;;
    c <- parse_trailing_comment lead ;;
    ret {| rs_kind := RKRanges rs; rs_comments := c; rs_span := join_span st e |}
  else if at_string t then
    ' (ns, e) <- parse_reserved_names ;;
    c <- parse_trailing_comment lead ;;
    ret {| rs_kind := RKNames ns; rs_comments := c; rs_span := join_span st e |}
  else unexpected_token (b "a positive integer or string").

(** [parse_extensions], parse/mod.rs:759-782. *)
Definition parse_extensions : P extensions :=
  lead <- parse_leading_comments ;;
  st <- expect_eq (kw "extensions") ;;
  rs <- parse_reserved_ranges [ETTok TSemicolon; ETTok TLeftBracket] ;;
  os <- parse_opt_options TSemicolon (b "';' or '['") ;;
  e <- expect_eq TSemicolon ;;
  c <- parse_trailing_comment lead ;;
  ret {| ex_ranges := rs; ex_options := os; ex_comments := c; ex_span := join_span st e |}.

(** ** Fields: parse/mod.rs:307-455, 702-729 *)

Definition scalar_of (s : bytes) : option ty :=
  if bytes_eqb s (b "double") then Some TyDouble
  else if bytes_eqb s (b "float") then Some TyFloat
  else if bytes_eqb s (b "int32") then Some TyInt32
  else if bytes_eqb s (b "int64") then Some TyInt64
  else if bytes_eqb s (b "uint32") then Some TyUint32
  else if bytes_eqb s (b "uint64") then Some TyUint64
  else if bytes_eqb s (b "sint32") then Some TySint32
  else if bytes_eqb s (b "sint64") then Some TySint64
  else if bytes_eqb s (b "fixed32") then Some TyFixed32
  else if bytes_eqb s (b "fixed64") then Some TyFixed64
  else if bytes_eqb s (b "sfixed32") then Some TySfixed32
  else if bytes_eqb s (b "sfixed64") then Some TySfixed64
  else if bytes_eqb s (b "bool") then Some TyBool
  else if bytes_eqb s (b "string") then Some TyString
  else if bytes_eqb s (b "bytes") then Some TyBytes
  else None.

(** The [Named] branch, parse/mod.rs:719-723. *)
Definition parse_named_type (terms : list expected_token) : P (ty * span) :=
  n <- parse_type_name terms ;;
  match type_name_span n with
  | Some sp => ret (TyNamed n, sp)
  | None => panic
  end.

(** [parse_field_type], parse/mod.rs:702-729. *)
Definition parse_field_type (terms : list expected_token) : P (ty * span) :=
  t <- peek ;;
  match t with
  | Some (TIdent s, sp) =>
    match scalar_of s with
    | Some y => bump ;;; ret (y, sp)
    | None => parse_named_type terms
    end
  | Some (TDot, _) => parse_named_type terms
  | _ => unexpected_token (b "a field type")
  end.

Section WithBody.
(** [parse_message_body], called recursively. *)
Variable pbody : P (body * span).

(** [parse_map], parse/mod.rs:334-379. *)
Definition parse_map (lead : list bytes * option bytes) (start : span)
           (label : option (flabel * span)) : P field :=
  ts <- expect_eq (kw "map") ;;
  expect_eq TLeftAngle ;;;
  ' (kt, ks) <- parse_field_type [ETTok TComma] ;;
  expect_eq TComma ;;;
  ' (vt, vs) <- parse_field_type [ETTok TRightAngle] ;;
  te <- expect_eq TRightAngle ;;
  name <- parse_ident ;;
  expect_eq TEquals ;;;
  number <- parse_int ;;
  os <- parse_opt_options TSemicolon (b "';' or '['") ;;
  e <- expect_eq TSemicolon ;;
  c <- parse_trailing_comment lead ;;
  ret {| fd_label := label; fd_name := name; fd_kind := FKMap (join_span ts te) kt ks vt vs;
         fd_number := number; fd_options := os; fd_comments := c; fd_span := join_span start e |}.

(** [parse_group], parse/mod.rs:381-421. *)
Definition parse_group (lead : list bytes * option bytes) (start : span)
           (label : option (flabel * span)) : P field :=
  ts <- expect_eq (kw "group") ;;
  name <- parse_ident ;;
  (if is_valid_group_name (id_val name) then ret tt
   else add_error (InvalidGroupName (id_span name))) ;;;
  expect_eq TEquals ;;;
  number <- parse_int ;;
  os <- parse_opt_options TLeftBrace (b "'{' or '['") ;;
  expect_eq TLeftBrace ;;;
  c <- parse_trailing_comment lead ;;
  ' (bd, e) <- pbody ;;
  ret {| fd_label := label; fd_name := name; fd_kind := FKGroup ts bd;
         fd_number := number; fd_options := os; fd_comments := c; fd_span := join_span start e |}.

(** [parse_normal_field], parse/mod.rs:423-455. *)
Definition parse_normal_field (lead : list bytes * option bytes) (start : span)
           (label : option (flabel * span)) : P field :=
  ' (t, ts) <- parse_field_type [ETIdent] ;;
  name <- parse_ident ;;
  expect_eq TEquals ;;;
  number <- parse_int ;;
  os <- parse_opt_options TSemicolon (b "';' or '['") ;;
  e <- expect_eq TSemicolon ;;
  c <- parse_trailing_comment lead ;;
  ret {| fd_label := label; fd_name := name; fd_kind := FKNormal t ts;
         fd_number := number; fd_options := os; fd_comments := c; fd_span := join_span start e |}.

Definition label_of (t : token) : option flabel :=
  if token_eqb t (kw "optional") then Some LOptional
  else if token_eqb t (kw "required") then Some LRequired
  else if token_eqb t (kw "repeated") then Some LRepeated
  else None.

(** [parse_field], parse/mod.rs:307-332. *)
Definition parse_field : P field :=
  lead <- parse_leading_comments ;;
  t <- peek ;;
  ' (label, start) <-
    (match t with
     | Some (tok, sp) =>
       match label_of tok with
       | Some l => bump ;;; ret (Some (l, sp), sp)
       | None => if at_dot_or_ident t then ret (None, sp)
                 else unexpected_token (b "a message field")
       end
     | None => unexpected_token (b "a message field")
     end) ;;
  t2 <- peek ;;
  if at_ t2 (kw "map") then parse_map lead start label
  else if at_ t2 (kw "group") then parse_group lead start label
  else parse_normal_field lead start label.

(** [parse_extend], parse/mod.rs:457-486. *)
Definition parse_extend : P extend :=
  lead <- parse_leading_comments ;;
  st <- expect_eq (kw "extend") ;;
  n <- parse_type_name [ETTok TLeftBrace] ;;
  expect_eq TLeftBrace ;;;
  c <- parse_trailing_comment lead ;;
  ' (fs, e) <- loop (fun r =>
    t <- peek ;;
    if at_ t TSemicolon then bump ;;; ret (inl r)
    else if at_ t TRightBrace then e <- bump ;; ret (inr (r, e))
    else if at_dot_or_ident t then f <- parse_field ;; ret (inl (r ++ [f]))
    else unexpected_token (b "a message field, '}' or ';'")) [] ;;
  ret {| et_extendee := n; et_fields := fs; et_comments := c; et_span := join_span st e |}.

(** [parse_oneof], parse/mod.rs:668-700. *)
Definition parse_oneof : P oneof :=
  lead <- parse_leading_comments ;;
  st <- expect_eq (kw "oneof") ;;
  n <- parse_ident ;;
  expect_eq TLeftBrace ;;;
  c <- parse_trailing_comment lead ;;
  ' (fs, os, e) <- loop (fun '(fs, os) =>
    t <- peek ;;
    if at_ t (kw "option") then o <- parse_option ;; ret (inl (fs, os ++ [o]))
    else if at_ t TSemicolon then bump ;;; ret (inl (fs, os))
    else if at_ t TRightBrace then e <- bump ;; ret (inr (fs, os, e))
    else if at_dot_or_ident t then f <- parse_field ;; ret (inl (fs ++ [f], os))
    else unexpected_token (b "a message field, option or '}'")) ([], []) ;;
  ret {| oo_name := n; oo_options := os; oo_fields := fs; oo_comments := c; oo_span := join_span st e |}.

(** [parse_message], parse/mod.rs:243-261. *)
Definition parse_message : P message :=
  lead <- parse_leading_comments ;;
  st <- expect_eq (kw "message") ;;
  n <- parse_ident ;;
  expect_eq TLeftBrace ;;;
  c <- parse_trailing_comment lead ;;
  ' (bd, e) <- pbody ;;
  ret {| ms_name := n; ms_body := bd; ms_comments := c; ms_span := join_span st e |}.
End WithBody.

(** [parse_enum_value], parse/mod.rs:641-666. *)
Definition parse_enum_value : P enum_value :=
  lead <- parse_leading_comments ;;
  n <- parse_ident ;;
  expect_eq TEquals ;;;
  number <- parse_int ;;
  os <- parse_opt_options TSemicolon (b "';' or '['") ;;
  e <- expect_eq TSemicolon ;;
  c <- parse_trailing_comment lead ;;
  ret {| ev_name := n; ev_number := number; ev_options := os; ev_comments := c;
         ev_span := join_span (id_span n) e |}.

(** [parse_enum], parse/mod.rs:597-639. *)
Definition parse_enum : P enum :=
  lead <- parse_leading_comments ;;
  st <- expect_eq (kw "enum") ;;
  n <- parse_ident ;;
  expect_eq TLeftBrace ;;;
  c <- parse_trailing_comment lead ;;
  ' (vs, os, rs, e) <- loop (fun '(vs, os, rs) =>
    t <- peek ;;
    if at_ t (kw "option") then o <- parse_option ;; ret (inl (vs, os ++ [o], rs))
    else if at_ t (kw "reserved") then r <- parse_reserved ;; ret (inl (vs, os, rs ++ [r]))
    else if at_ t TSemicolon then bump ;;; ret (inl (vs, os, rs))
    else if at_ident t then v <- parse_enum_value ;; ret (inl (vs ++ [v], os, rs))
    else if at_ t TRightBrace then e <- bump ;; ret (inr (vs, os, rs, e))
    else unexpected_token (b "an identifier, '}', 'reserved' or 'option'")) ([], [], []) ;;
  ret {| en_name := n; en_options := os; en_values := vs; en_reserved := rs; en_comments := c;
         en_span := join_span st e |}.

(** [parse_message_body], parse/mod.rs:263-305, with one unit of fuel per
    nesting level. *)
Fixpoint parse_message_body (fuel : nat) : P (body * span) :=
  match fuel with
  | O => fun _ => PNoFuel
  | S f =>
    let pbody := parse_message_body f in
    ' (items, exts, opts, res, e) <- loop (fun '(items, exts, opts, res) =>
      t <- peek ;;
      if at_ t (kw "oneof") then
        x <- parse_oneof pbody ;; ret (inl (items ++ [MIOneof x], exts, opts, res))
      else if at_ t (kw "enum") then
        x <- parse_enum ;; ret (inl (items ++ [MIEnum x], exts, opts, res))
      else if at_ t (kw "message") then
        x <- parse_message pbody ;; ret (inl (items ++ [MIMessage x], exts, opts, res))
      else if at_ t (kw "extend") then
        x <- parse_extend pbody ;; ret (inl (items ++ [MIExtend x], exts, opts, res))
      else if at_ t (kw "option") then
        x <- parse_option ;; ret (inl (items, exts, opts ++ [x], res))
      else if at_ t (kw "reserved") then
        x <- parse_reserved ;; ret (inl (items, exts, opts, res ++ [x]))
      else if at_ t (kw "extensions") then
        x <- parse_extensions ;; ret (inl (items, exts ++ [x], opts, res))
      else if at_dot_or_ident t then
        x <- parse_field pbody ;; ret (inl (items ++ [MIField x], exts, opts, res))
      else if at_ t TSemicolon then bump ;;; ret (inl (items, exts, opts, res))
      else if at_ t TRightBrace then e <- bump ;; ret (inr (items, exts, opts, res, e))
      else unexpected_token (b "a message field, oneof, reserved range, enum, message, option or '}'"))
      ([], [], [], []) ;;
    ret (Body items exts opts res, e)
  end.

(** ** Services: parse/mod.rs:488-595 *)

(** The optional [stream] keyword, parse/mod.rs:536-540 and 548-552. *)
Definition parse_stream : P (option span) :=
  t <- peek_skip_comments ;;
  if at_ t (kw "stream") then sp <- bump ;; ret (Some sp)
  else if at_dot_or_ident t then ret None
  else unexpected_token (b "'stream' or a type name").

(** The end of an rpc, parse/mod.rs:558-581. *)
Definition parse_rpc_end : P (list option_ * span) :=
  t <- peek_skip_comments ;;
  match t with
  | Some (TSemicolon, sp) => bump ;;; ret ([], sp)
  | Some (TLeftBrace, _) =>
    bump ;;;
    loop (fun os =>
      t <- peek ;;
      if at_ t (kw "option") then o <- parse_option ;; ret (inl (os ++ [o]))
      else if at_ t TRightBrace then e <- bump ;; ret (inr (os, e))
      else if at_ t TSemicolon then bump ;;; ret (inl os)
      else unexpected_token (b "'option', '}' or ';'")) []
  | _ => unexpected_token (b "';' or '{'")
  end.

(** [parse_service_rpc], parse/mod.rs:527-595. *)
Definition parse_service_rpc : P method :=
  lead <- parse_leading_comments ;;
  st <- expect_eq (kw "rpc") ;;
  n <- parse_ident ;;
  expect_eq TLeftParen ;;;
  cs <- parse_stream ;;
  it <- parse_type_name [ETTok TRightParen] ;;
  expect_eq TRightParen ;;;
  expect_eq (kw "returns") ;;;
  expect_eq TLeftParen ;;;
  ss <- parse_stream ;;
  ot <- parse_type_name [ETTok TRightParen] ;;
  expect_eq TRightParen ;;;
  ' (os, e) <- parse_rpc_end ;;
  c <- parse_trailing_comment lead ;;
  ret {| me_name := n; me_input := it; me_output := ot; me_options := os; me_client := cs;
         me_server := ss; me_comments := c; me_span := join_span st e |}.

(** [parse_service], parse/mod.rs:488-525. *)
Definition parse_service : P service :=
  lead <- parse_leading_comments ;;
  st <- expect_eq (kw "service") ;;
  n <- parse_ident ;;
  expect_eq TLeftBrace ;;;
  c <- parse_trailing_comment lead ;;
  ' (os, ms, e) <- loop (fun '(os, ms) =>
    t <- peek ;;
    if at_ t (kw "rpc") then m <- parse_service_rpc ;; ret (inl (os, ms ++ [m]))
    else if at_ t (kw "option") then o <- parse_option ;; ret (inl (os ++ [o], ms))
    else if at_ t TSemicolon then bump ;;; ret (inl (os, ms))
    else if at_ t TRightBrace then e <- bump ;; ret (inr (os, ms, e))
    else unexpected_token (b "'rpc', '}', 'option' or ';'")) ([], []) ;;
  ret {| sv_name := n; sv_options := os; sv_methods := ms; sv_comments := c; sv_span := join_span st e |}.

(** ** File level: parse/mod.rs:62-241 *)

(** [parse_syntax], parse/mod.rs:136-165. *)
Definition parse_syntax : P (syntax * span * acomments) :=
  lead <- parse_leading_comments ;;
  st <- expect_eq (kw "syntax") ;;
  expect_eq TEquals ;;;
  t <- peek ;;
  sx <- (if at_string t then
           v <- parse_string ;;
           if bytes_eqb (st_val v) (b "proto2") then ret Proto2
           else if bytes_eqb (st_val v) (b "proto3") then ret Proto3
           else add_error (UnknownSyntax (utf8_lossy (st_val v)) (st_span v)) ;;; fail
         else unexpected_token (b "a string")) ;;
  e <- expect_eq TSemicolon ;;
  c <- parse_trailing_comment lead ;;
  ret (sx, join_span st e, c).

(** [parse_package], parse/mod.rs:187-203. *)
Definition parse_package : P package :=
  lead <- parse_leading_comments ;;
  st <- expect_eq (kw "package") ;;
  n <- parse_full_ident [ETTok TSemicolon] ;;
  e <- expect_eq TSemicolon ;;
  c <- parse_trailing_comment lead ;;
  ret {| pk_name := n; pk_comments := c; pk_span := join_span st e |}.

(** [str::split('/')]: always at least one piece. *)
Fixpoint split_on (sep : N) (l : bytes) : list bytes :=
  match l with
  | [] => [[]]
  | c :: r => if c =? sep then [] :: split_on sep r
              else match split_on sep r with
                   | x :: xs => (c :: x) :: xs
                   | [] => [[c]]
                   end
  end.

(** [is_valid_import], parse/mod.rs:1359-1368; [Path::is_absolute] on unix is
    "starts with a slash". *)
Definition is_valid_import (s : bytes) : bool :=
  forallb (fun c => negb (Nat.eqb (length c) 0) && negb (existsb (N.eqb 92) c)
                    && negb (bytes_eqb c (b ".")) && negb (bytes_eqb c (b "..")))
          (split_on 47 s)
  && negb (head_is 47 s).

(** The optional import kind, parse/mod.rs:210-221. *)
Definition parse_import_kind : P (option (import_kind * span)) :=
  t <- peek_skip_comments ;;
  match t with
  | Some (TStr _, _) => ret None
  | Some (tok, sp) =>
    if token_eqb tok (kw "weak") then bump ;;; ret (Some (IWeak, sp))
    else if token_eqb tok (kw "public") then bump ;;; ret (Some (IPublic, sp))
    else unexpected_token (b "a string literal, 'public' or 'weak'")
  | None => unexpected_token (b "a string literal, 'public' or 'weak'")
  end.

(** [parse_import], parse/mod.rs:205-241. *)
Definition parse_import : P import :=
  lead <- parse_leading_comments ;;
  st <- expect_eq (kw "import") ;;
  kind <- parse_import_kind ;;
  ' (v, vs) <- parse_utf8_string ;;
  (if is_valid_import v then ret tt else add_error (InvalidImport vs)) ;;;
  e <- expect_eq TSemicolon ;;
  c <- parse_trailing_comment lead ;;
  ret {| im_kind := kind; im_value := v; im_value_span := vs; im_comments := c;
         im_span := join_span st e |}.

Definition statement_span (s : statement) : span :=
  match s with
  | StEmpty sp => sp | StPackage x => pk_span x | StImport x => im_span x
  | StOption x => op_span x | StMessage x => ms_span x | StEnum x => en_span x
  | StService x => sv_span x | StExtend x => et_span x
  end.

(** [parse_statement], parse/mod.rs:167-185. *)
Definition parse_statement (fuel : nat) : P (option statement) :=
  let pbody := parse_message_body fuel in
  t <- peek ;;
  match t with
  | None => ret None
  | Some (tok, sp) =>
    if token_eqb tok TSemicolon then bump ;;; ret (Some (StEmpty sp))
    else if token_eqb tok (kw "import") then x <- parse_import ;; ret (Some (StImport x))
    else if token_eqb tok (kw "package") then x <- parse_package ;; ret (Some (StPackage x))
    else if token_eqb tok (kw "option") then x <- parse_option ;; ret (Some (StOption x))
    else if token_eqb tok (kw "extend") then x <- parse_extend pbody ;; ret (Some (StExtend x))
    else if token_eqb tok (kw "message") then x <- parse_message pbody ;; ret (Some (StMessage x))
    else if token_eqb tok (kw "enum") then x <- parse_enum ;; ret (Some (StEnum x))
    else if token_eqb tok (kw "service") then x <- parse_service ;; ret (Some (StService x))
    else unexpected_token
           (b "'enum', 'extend', 'import', 'message', 'option', 'service', 'package' or ';'")
  end.

(** The tokens [parse_file] resynchronises on, parse/mod.rs:112-120. *)
Definition sync_tokens : list token :=
  [kw "enum"; kw "extend"; kw "import"; kw "message"; kw "option"; kw "service"; kw "package"].

(** Handling of one statement, parse/mod.rs:88-107. *)
Definition add_statement (f : file) (st : statement) : P file :=
  let f := {| fi_span := join_span (fi_span f) (statement_span st); fi_syntax := fi_syntax f;
              fi_syntax_span := fi_syntax_span f; fi_package := fi_package f;
              fi_imports := fi_imports f; fi_options := fi_options f; fi_items := fi_items f |} in
  let upd pkg ims ops its :=
    {| fi_span := fi_span f; fi_syntax := fi_syntax f; fi_syntax_span := fi_syntax_span f;
       fi_package := pkg; fi_imports := ims; fi_options := ops; fi_items := its |} in
  let item i := ret (upd (fi_package f) (fi_imports f) (fi_options f) (fi_items f ++ [i])) in
  match st with
  | StEmpty _ => ret f
  | StPackage p =>
    match fi_package f with
    | Some old => add_error (DuplicatePackage (pk_span old) (pk_span p)) ;;; ret f
    | None => ret (upd (Some p) (fi_imports f) (fi_options f) (fi_items f))
    end
  | StImport i => ret (upd (fi_package f) (fi_imports f ++ [i]) (fi_options f) (fi_items f))
  | StOption o => ret (upd (fi_package f) (fi_imports f) (fi_options f ++ [o]) (fi_items f))
  | StMessage m => item (FIMessage m)
  | StEnum e => item (FIEnum e)
  | StService s => item (FIService s)
  | StExtend e => item (FIExtend e)
  end.

(** One iteration of the statement loop, parse/mod.rs:85-123. *)
Definition file_step (fuel : nat) (f : file) : P (file + file) :=
  fun s =>
    match parse_statement fuel s with
    | POk (Some st) s' => (f' <- add_statement f st ;; ret (inl f')) s'
    | POk None s' => POk (inr f) s'
    | PErr s' =>
      (s1 <- get ;;
       dassert (Nat.ltb 0 (length (l_errs (p_lex s1)))) ;;;
       skip_until sync_tokens ;;;
       ret (inl f)) s'
    | PPanic => PPanic
    | PNoFuel => PNoFuel
    end.

(** [Parser::parse_file], parse/mod.rs:62-134. *)
Definition parse_file_p (src : bytes) : P file :=
  let fuel := S (2 * length src) in
  t <- peek ;;
  f0 <- (match t with
         | Some (tok, sp) =>
           if token_eqb tok (kw "syntax") then
             ' (sx, sp, c) <- parse_syntax ;;
             ret {| fi_span := sp; fi_syntax := sx; fi_syntax_span := Some (sp, c);
                    fi_package := None; fi_imports := []; fi_options := []; fi_items := [] |}
           else
             ret {| fi_span := sp; fi_syntax := Proto2; fi_syntax_span := None;
                    fi_package := None; fi_imports := []; fi_options := []; fi_items := [] |}
         | None =>
           ret {| fi_span := (len src, 0); fi_syntax := Proto2; fi_syntax_span := None;
                  fi_package := None; fi_imports := []; fi_options := []; fi_items := [] |}
         end) ;;
  loop (file_step fuel) f0.

Definition p_init (src : bytes) : pst :=
  {| p_lex := lex_init src; p_peek := None; p_cm := c_new |}.

(** [parse_file], parse/mod.rs:22-28: [inl] is Ok, [inr] the errors; the
    boolean says whether a debug assertion failed on the way. *)
Definition parse_file (src : bytes) : out ((file + list perr) * bool) :=
  match parse_file_p src (p_init src) with
  | POk f s =>
    let l := p_lex s in
    match l_errs l with
    | [] => Done (inl f, l_assert l)
    | es => Done (inr es, l_assert l)
    end
  | PErr s => Done (inr (l_errs (p_lex s)), l_assert (p_lex s))
  | PPanic => Panic
  | PNoFuel => NoFuel
  end.
End Parser.
