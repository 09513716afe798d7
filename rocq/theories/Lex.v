(** Model of protox-parse/src/lex/mod.rs.

    The automaton that the [logos] derive macro generates is not part of the
    sandbox; [scan] below is a hand-written longest-match scanner for the
    patterns declared at lex/mod.rs:10-68 (C07 proves that it is one). The
    callbacks are modelled line by line. *)
From Verif Require Import Base Utf8 Errors.

(** ** Tokens: lex/mod.rs:14-68.
    A float literal is represented by the decimal text it was parsed from
    (lex/mod.rs:200-216 without the f suffix). *)
Inductive token : Type :=
| TIdent (s : bytes)
| TInt (n : N)
| TFloat (text : bytes)
| TStr (s : bytes)
| TDot | TMinus | TPlus
| TLeftParen | TRightParen
| TLeftBrace | TRightBrace
| TLeftBracket | TRightBracket
| TLeftAngle | TRightAngle
| TComma | TEquals | TColon | TSemicolon | TSlash
| TLineComment (s : bytes)
| TBlockComment (s : bytes)
| TNewline.

(** [PartialEq for Token] (derived, lex/mod.rs:10). For two float literals it
    compares texts; the code never compares two float literals. *)
Definition token_eqb (x y : token) : bool :=
  match x, y with
  | TIdent a, TIdent c => bytes_eqb a c
  | TInt a, TInt c => a =? c
  | TFloat a, TFloat c => bytes_eqb a c
  | TStr a, TStr c => bytes_eqb a c
  | TDot, TDot | TMinus, TMinus | TPlus, TPlus
  | TLeftParen, TLeftParen | TRightParen, TRightParen
  | TLeftBrace, TLeftBrace | TRightBrace, TRightBrace
  | TLeftBracket, TLeftBracket | TRightBracket, TRightBracket
  | TLeftAngle, TLeftAngle | TRightAngle, TRightAngle
  | TComma, TComma | TEquals, TEquals | TColon, TColon
  | TSemicolon, TSemicolon | TSlash, TSlash | TNewline, TNewline => true
  | TLineComment a, TLineComment c => bytes_eqb a c
  | TBlockComment a, TBlockComment c => bytes_eqb a c
  | _, _ => false
  end.

(** Configuration: universally quantified in every theorem.
    - [munch_ideal]: whether the generated automaton backtracks correctly out
      of the [0-9]+ loop on inputs like 08 and 018 ([false] is what the
      regression test prop_regression_1, lex/tests.rs, exhibits);
    - [f64_display]: how a finite/infinite double denoted by (sign, decimal
      text) is printed by the code at lex/mod.rs:128-134 and ast/mod.rs:610-618;
    - [f64_to_string]: the same double printed with plain [{}]. *)
Record cfg : Type := {
  munch_ideal : bool;
  f64_display : bool -> bytes -> bytes;
  f64_to_string : bool -> bytes -> bytes;
}.

(** [core::ascii::escape_default] of one byte. *)
Definition hex_char (n : N) : N := if n <? 10 then 48 + n else 87 + n.
Definition ascii_escape_default (c : N) : bytes :=
  if c =? 9 then b "\t"
  else if c =? 13 then b "\r"
  else if c =? 10 then b "\n"
  else if c =? 39 then b "\'"
  else if c =? 34 then [92; 34]
  else if c =? 92 then b "\\"
  else if in_range 32 126 c then [c]
  else [92; 120; hex_char (c / 16); hex_char (c mod 16)].

(** [Display for Token], lex/mod.rs:123-164. *)
Definition token_display (k : cfg) (t : token) : bytes :=
  match t with
  | TIdent s => s
  | TInt n => dec n
  | TFloat s => f64_display k false s
  | TStr s => [34] ++ flat_map ascii_escape_default s ++ [34]
  | TDot => b "." | TMinus => b "-" | TPlus => b "+"
  | TLeftParen => b "(" | TRightParen => b ")"
  | TLeftBrace => b "{" | TRightBrace => b "}"
  | TLeftBracket => b "[" | TRightBracket => b "]"
  | TLeftAngle => b "<" | TRightAngle => b ">"
  | TComma => b "," | TEquals => b "=" | TColon => b ":"
  | TSemicolon => b ";" | TSlash => b "/"
  | TLineComment s => b "//" ++ s ++ [10]
  | TBlockComment s => b "/*" ++ s ++ b "*/"
  | TNewline => [10]
  end.

(** ** The scanner (lex/mod.rs:11-67) *)

(** [l.first() == Some(&c)] and [l.first()] satisfying [p]. *)
Definition head_is (c : N) (l : bytes) : bool := match l with d :: _ => d =? c | [] => false end.
Definition head_sat (p : N -> bool) (l : bytes) : bool := match l with d :: _ => p d | [] => false end.

(** Skip pattern, lex/mod.rs:12: tab, VT, FF, CR, space. *)
Definition is_skip (c : N) : bool := (c =? 9) || (c =? 11) || (c =? 12) || (c =? 13) || (c =? 32).

Definition is_ident_start (c : N) : bool := is_alpha c || (c =? 95).
Definition is_ident_char (c : N) : bool := is_alnum c || (c =? 95).

(** The exponent subpattern [eE][+\-]?[0-9]+, lex/mod.rs:13: the longest match
    at the head of [l], [] if there is none. *)
Definition scan_exponent (l : bytes) : bytes :=
  match l with
  | e :: r =>
    if (e =? 101) || (e =? 69) then
      match r with
      | c :: r' =>
        if is_digit c then e :: take_while is_digit r
        else if (c =? 43) || (c =? 45) then
          match take_while is_digit r' with
          | [] => []
          | ds => e :: c :: ds
          end
        else []
      | [] => []
      end
    else []
  | [] => []
  end.

(** Optional suffix [fF]? *)
Definition scan_fsuffix (l : bytes) : bytes :=
  match l with c :: _ => if (c =? 102) || (c =? 70) then [c] else [] | [] => [] end.

(** Fractional tail: [0-9]* exponent? [fF]? *)
Definition scan_frac (l : bytes) : bytes :=
  let ds := take_while is_digit l in
  let l1 := skipn (length ds) l in
  let ex := scan_exponent l1 in
  let l2 := skipn (length ex) l1 in
  ds ++ ex ++ scan_fsuffix l2.

Inductive rawkind : Type :=
| KIdent | KZero | KOct | KDec | KHex | KFloat | KQuote
| KPunct (t : token) | KLine | KBlock | KErr.

(** Lexeme starting with a decimal digit: patterns at lex/mod.rs:17-25. *)
Definition scan_number (ideal : bool) (l : bytes) : rawkind * bytes :=
  let ds := take_while is_digit l in
  let rest := skipn (length ds) l in
  let ex := scan_exponent rest in
  let fs := scan_fsuffix rest in
  if head_is 46 rest then (KFloat, ds ++ 46 :: scan_frac (tl rest))
  else if Nat.ltb 0 (length ex) then
    (KFloat, ds ++ ex ++ scan_fsuffix (skipn (length ex) rest))
  else if head_is 48 ds then
    let more := tl ds in
    if Nat.ltb 0 (length more) then
      let os := take_while is_octal more in
      (if Nat.ltb 0 (length os) then KOct else KZero, if ideal then 48 :: os else ds)
    else if head_sat (fun x => (x =? 120) || (x =? 88)) rest && head_sat is_hex (tl rest)
    then (KHex, ds ++ firstn 1 rest ++ take_while is_hex (tl rest))
    else if Nat.ltb 0 (length fs) then (KFloat, ds ++ fs)
    else (KZero, ds)
  else if Nat.ltb 0 (length fs) then (KFloat, ds ++ fs)
  else (KDec, ds).

(** Line comment: (//|#)[^\n]*\n?, lex/mod.rs:62; [l] is what follows // or #. *)
Definition scan_line (l : bytes) : bytes :=
  let body := take_while (fun c => negb (c =? 10)) l in
  match skipn (length body) l with
  | _ :: _ => body ++ [10]
  | [] => body
  end.

Definition punct (c : N) : option token :=
  if c =? 46 then Some TDot
  else if c =? 45 then Some TMinus
  else if c =? 43 then Some TPlus
  else if c =? 40 then Some TLeftParen
  else if c =? 41 then Some TRightParen
  else if c =? 123 then Some TLeftBrace
  else if c =? 125 then Some TRightBrace
  else if c =? 91 then Some TLeftBracket
  else if c =? 93 then Some TRightBracket
  else if c =? 60 then Some TLeftAngle
  else if c =? 62 then Some TRightAngle
  else if c =? 44 then Some TComma
  else if c =? 61 then Some TEquals
  else if c =? 58 then Some TColon
  else if c =? 59 then Some TSemicolon
  else if c =? 47 then Some TSlash
  else if c =? 10 then Some TNewline
  else None.

(** One lexeme at the head of a non-empty input that does not start with a
    skipped character: its kind and its bytes. *)
Definition scan (ideal : bool) (l : bytes) : rawkind * bytes :=
  match l with
  | [] => (KErr, [])
  | c :: r =>
    if is_ident_start c then (KIdent, c :: take_while is_ident_char r)
    else if is_digit c then scan_number ideal l
    else if (c =? 39) || (c =? 34) then (KQuote, [c])
    else if (c =? 46) && head_sat is_digit r
    then (KFloat, 46 :: scan_frac r)
    else if c =? 35 then (KLine, c :: scan_line r)
    else if (c =? 47) && head_is 47 r
    then (KLine, 47 :: 47 :: scan_line (tl r))
    else if (c =? 47) && head_is 42 r
    then (KBlock, [47; 42])
    else match punct c with
         | Some t => (KPunct t, [c])
         | None => (KErr, firstn (char_len l) l)
         end
  end.

(** ** Lexer state: [logos::Lexer] (token_start, token_end, remainder) and
    [TokenExtras] (lex/mod.rs:166-170). [l_assert] records that a debug
    assertion failed; a debug build panics there, a release build goes on. *)
Record lexst : Type := {
  l_rest : bytes;
  l_start : N;
  l_end : N;
  l_errs : list perr;
  l_tfm : bool;
  l_assert : bool;
}.

(** [Token::lexer(source)] *)
Definition lex_init (src : bytes) : lexst :=
  {| l_rest := src; l_start := 0; l_end := 0; l_errs := []; l_tfm := false; l_assert := false |}.

(** ** [u64::from_str_radix] *)
Inductive radix_result : Type := ROk (n : N) | RPosOverflow | RInvalidDigit | REmpty.
Definition u64_max : N := 18446744073709551615.
Fixpoint radix_loop (radix : N) (acc : N) (l : bytes) : radix_result :=
  match l with
  | [] => ROk acc
  | c :: r =>
    match digit_val c with
    | Some d => if d <? radix then
                  let acc' := acc * radix + d in
                  if acc' <=? u64_max then radix_loop radix acc' r else RPosOverflow
                else RInvalidDigit
    | None => RInvalidDigit
    end
  end.
Definition from_str_radix (radix : N) (l : bytes) : radix_result :=
  match l with [] => REmpty | _ => radix_loop radix 0 l end.

(** [int], lex/mod.rs:172-198. [start] is the token's start, [slice] its text,
    [rest] the remainder. Returns the value, the new errors and whether a debug
    assertion failed. *)
Definition cb_int (radix : N) (prefix : nat) (start : N) (slice rest : bytes)
  : N * list perr * bool :=
  let sp_start := start + N.of_nat prefix in
  let sp_end := start + len slice in
  let glued :=
    match rest with
    | c :: r =>
      if is_alpha c || (c =? 95)
      then [NoSpaceBetweenIntAndIdent (sp_start, sp_end + 1 + len (take_while is_alpha r))]
      else []
    | [] => []
    end in
  let short := negb (Nat.ltb prefix (length slice)) in       (* debug_assert!, line 173 *)
  match from_str_radix radix (skipn prefix slice) with
  | ROk v => (v, glued, short)
  | RPosOverflow => (0, glued ++ [IntegerOutOfRange (sp_start, sp_end)], short)
  | _ => (0, glued ++ [IntegerOutOfRange (sp_start, sp_end)], true)   (* line 191 *)
  end.

(** [float], lex/mod.rs:200-216. [f64::from_str] succeeds on every lexeme of
    the float patterns and never yields NaN (trusted), so the [expect] and the
    debug assertion in [EqFloat::new] hold; the value is kept as text. *)
Definition cb_float (tfm : bool) (sp : span) (slice : bytes) : bytes * list perr :=
  match rev slice with
  | c :: r => if (c =? 102) || (c =? 70)
              then (rev r, if tfm then [] else [FloatSuffixOutsideTextFormat sp])
              else (slice, [])
  | [] => (slice, [])
  end.

(** ** String literals: lex/mod.rs:218-348 *)

(** [Component], lex/mod.rs:221-236, with the result of its callbacks; a failed
    callback and an unmatched input are both [SErr] with the slice. *)
Inductive scomp : Type :=
| SText (txt : bytes)
| STerm (q : N) (slice : bytes)
| SByte (v : N) (slice : bytes)
| SChar (c : N) (slice : bytes)
| SErr (slice : bytes)
| SPanic.

Definition is_unescaped (c : N) : bool :=
  negb ((c =? 0) || (c =? 10) || (c =? 92) || (c =? 39) || (c =? 34)).

(** [char_escape], lex/mod.rs:257-272; [None] is [unreachable!]. *)
Definition char_escape (c : N) : option N :=
  if c =? 97 then Some 7
  else if c =? 98 then Some 8
  else if c =? 102 then Some 12
  else if c =? 110 then Some 10
  else if c =? 114 then Some 13
  else if c =? 116 then Some 9
  else if c =? 118 then Some 11
  else if c =? 63 then Some 63
  else if c =? 92 then Some 92
  else if c =? 39 then Some 39
  else if c =? 34 then Some 34
  else None.

(** The character set of the pattern at lex/mod.rs:228: abfnrtv, question mark,
    backslash and the two quotes. *)
Definition is_char_escape (c : N) : bool :=
  existsb (N.eqb c) [97; 98; 102; 110; 114; 116; 118; 63; 92; 39; 34].

Definition hex_value (ds : bytes) : option N :=
  match from_str_radix 16 ds with ROk v => Some v | _ => None end.

(** [unicode_escape], lex/mod.rs:274-277; [slice] is the whole escape. *)
Definition unicode_escape (slice : bytes) : scomp :=
  match hex_value (skipn 2 slice) with
  | Some v => if is_scalar v then SChar v slice else SErr slice
  | None => SPanic                                  (* expect *)
  end.

Definition all_hex (n : nat) (l : bytes) : bool :=
  Nat.eqb (length (firstn n l)) n && forallb is_hex (firstn n l).

(** An escape: [r] is what follows the backslash. *)
Definition str_escape (r : bytes) : scomp :=
  match r with
  | [] => SErr [92]
  | c :: r1 =>
    if (c =? 120) || (c =? 88) then
      if head_sat is_hex r1 then
        let ds := take_while is_hex (firstn 2 r1) in
        (* hex_escape, lex/mod.rs:243-248 *)
        match hex_value ds with
        | Some v => if v <? 256 then SByte v (92 :: c :: ds) else SPanic
        | None => SPanic
        end
      else SErr [92]
    else if is_octal c then
      let ds := take_while is_octal (firstn 3 r) in
      (* oct_escape, lex/mod.rs:250-255 *)
      match from_str_radix 8 ds with
      | ROk v => if v <? 256 then SByte v (92 :: ds) else SErr (92 :: ds)
      | _ => SPanic
      end
    else if is_char_escape c then
      match char_escape c with
      | Some v => SByte v [92; c]
      | None => SPanic
      end
    else if (c =? 117) && all_hex 4 r1 then unicode_escape (92 :: c :: firstn 4 r1)
    else if (c =? 85) && all_hex 8 r1 then unicode_escape (92 :: c :: firstn 8 r1)
    else SErr [92]
  end.

(** The next component of the string body [l <> []]. *)
Definition str_comp (l : bytes) : scomp :=
  match l with
  | [] => SErr []
  | c :: r =>
    if c =? 92 then str_escape r
    else if (c =? 39) || (c =? 34) then STerm c [c]
    else if is_unescaped c then SText (c :: take_while is_unescaped r)
    else SErr [c]
  end.

(** The error branch, lex/mod.rs:311-334: extend the last error if it is a
    string error ending where this one starts. *)
Definition push_string_error (errs : list perr) (slice : bytes) (start fin : N) : list perr :=
  let fresh := errs ++ [if starts_with [92] slice
                        then InvalidStringEscape (start, fin)
                        else InvalidStringCharacters (start, fin)] in
  match rev errs with
  | InvalidStringCharacters (s0, e0) :: before =>
    if e0 =? start then rev before ++ [InvalidStringCharacters (s0, fin)] else fresh
  | InvalidStringEscape (s0, e0) :: before =>
    if e0 =? start then rev before ++ [InvalidStringEscape (s0, fin)] else fresh
  | _ => fresh
  end.

(** The loop, lex/mod.rs:284-344. [off] is the absolute offset of [l]. Result:
    the bytes, the number of bytes consumed in total, the errors. *)
Fixpoint str_loop (fuel : nat) (q : N) (off : N) (l : bytes) (acc : bytes) (errs : list perr)
  : out (bytes * N * bytes * list perr) :=
  match fuel with
  | O => NoFuel
  | S f =>
    match l with
    | [] => Done (acc, off, [], errs ++ [UnexpectedEof (b "string terminator")])
    | _ =>
      match str_comp l with
      | SText t => str_loop f q (off + len t) (skipn (length t) l) (acc ++ t) errs
      | STerm c sl =>
        if c =? q then Done (acc, off + len sl, skipn (length sl) l, errs)
        else str_loop f q (off + len sl) (skipn (length sl) l) (acc ++ [c]) errs
      | SByte v sl => str_loop f q (off + len sl) (skipn (length sl) l) (acc ++ [v]) errs
      | SChar v sl => str_loop f q (off + len sl) (skipn (length sl) l) (acc ++ encode_utf8 v) errs
      | SErr sl =>
        let fin := off + len sl in
        if existsb (N.eqb 10) sl
        then Done (acc, fin, skipn (length sl) l, errs ++ [UnterminatedString (off, fin)])
        else str_loop f q fin (skipn (length sl) l) acc (push_string_error errs sl off fin)
      | SPanic => Panic
      end
    end
  end.

(** ** Comments *)

(** [normalize_newlines], lex/mod.rs:440-446. *)
Fixpoint normalize_newlines (l : bytes) : bytes :=
  match l with
  | c :: r => if (c =? 13) && head_is 10 r then normalize_newlines r
              else c :: normalize_newlines r
  | [] => []
  end.

(** [line_comment], lex/mod.rs:350-363. *)
Definition cb_line (tfm : bool) (sp : span) (slice : bytes) : out (bytes * list perr) :=
  let errs := if negb tfm && starts_with [35] slice then [HashCommentOutsideTextFormat sp] else [] in
  if starts_with [47; 47] slice then Done (normalize_newlines (skipn 2 slice), errs)
  else if starts_with [35] slice then Done (normalize_newlines (skipn 1 slice), errs)
  else Panic.                                    (* expect: invalid line comment *)

(** [block_comment], lex/mod.rs:365-424. [off] is the absolute offset of [l],
    [last_end] the offset and remainder at the last inner terminator. [depth]
    is a u32 in the code; it is bounded by the length of the file. *)
Fixpoint block_loop (fuel : nat) (off : N) (l : bytes) (depth : N) (last_end : option (N * bytes))
         (acc : bytes) (errs : list perr) : out (bytes * N * bytes * list perr) :=
  match fuel with
  | O => NoFuel
  | S f =>
    match l with
    | [] =>
      match last_end with
      | Some (e, r) => Done (acc, e, r, errs)
      | None => Done (acc, off, [], errs ++ [UnexpectedEof (b "comment terminator")])
      end
    | c :: r =>
      if (c =? 42) && head_is 47 r then
        let w := take_while is_skip (tl r) in
        let off' := off + 2 + len w in
        let r' := skipn (length w) (tl r) in
        if depth =? 1 then Done (acc, off', r', errs)
        else block_loop f off' r' (depth - 1) (Some (off', r')) acc errs
      else if (c =? 47) && head_is 42 r then
        block_loop f (off + 2) (tl r) (depth + 1) last_end acc
                   (errs ++ [NestedBlockComment (off, off + 2)])
      else if c =? 10 then
        let st := trim_start r in
        let st' := if head_is 42 st && negb (head_is 47 (tl st)) then tl st else st in
        block_loop f (off + 1 + (len r - len st')) st' depth last_end (acc ++ [10]) errs
      else
        let n := char_len l in
        block_loop f (off + N.of_nat n) (skipn n l) depth last_end (acc ++ firstn n l) errs
    end
  end.

(** ** [Lexer::next] *)
Definition lex_next (k : cfg) (s : lexst) : out (option (option token) * lexst) :=
  let w := take_while is_skip (l_rest s) in
  let l := skipn (length w) (l_rest s) in
  let start := l_end s + len w in
  match l with
  | [] => Done (None, {| l_rest := []; l_start := start; l_end := start;
                         l_errs := l_errs s; l_tfm := l_tfm s; l_assert := l_assert s |})
  | _ =>
    let '(kind, slice) := scan (munch_ideal k) l in
    let rest := skipn (length slice) l in
    let fin := start + len slice in
    let ret t rest' fin' errs asrt :=
      Done (Some t, {| l_rest := rest'; l_start := start; l_end := fin';
                       l_errs := errs; l_tfm := l_tfm s; l_assert := l_assert s || asrt |}) in
    let int radix prefix :=
      let '(v, es, asrt) := cb_int radix prefix start slice rest in
      ret (Some (TInt v)) rest fin (l_errs s ++ es) asrt in
    match kind with
    | KErr => ret None rest fin (l_errs s) false
    | KPunct t => ret (Some t) rest fin (l_errs s) false
    | KIdent => ret (Some (TIdent slice)) rest fin (l_errs s) false
    | KZero => ret (Some (TInt 0)) rest fin (l_errs s) false
    | KOct => int 8 1%nat
    | KDec => int 10 0%nat
    | KHex => int 16 2%nat
    | KFloat =>
      let '(t, es) := cb_float (l_tfm s) (start, fin) slice in
      ret (Some (TFloat t)) rest fin (l_errs s ++ es) false
    | KQuote =>
      obind (str_loop (S (length rest)) (hd 0 slice) fin rest [] (l_errs s))
            (fun '(v, fin', rest', errs) => ret (Some (TStr v)) rest' fin' errs false)
    | KLine =>
      obind (cb_line (l_tfm s) (start, fin) slice)
            (fun '(v, es) => ret (Some (TLineComment v)) rest fin (l_errs s ++ es) false)
    | KBlock =>
      obind (block_loop (S (length rest)) fin rest 1 None [] (l_errs s))
            (fun '(v, fin', rest', errs) =>
               ret (Some (TBlockComment (normalize_newlines v))) rest' fin' errs false)
    end
  end.

(** The whole iteration [while let Some(t) = lexer.next()], as the unit tests
    do it; results are (token or error, span). *)
Fixpoint lex_iter (fuel : nat) (k : cfg) (s : lexst) : out (list (option token * span) * lexst) :=
  match fuel with
  | O => NoFuel
  | S f =>
    obind (lex_next k s) (fun '(t, s') =>
      match t with
      | None => Done ([], s')
      | Some t => obind (lex_iter f k s') (fun '(ts, s'') =>
                    Done ((t, (l_start s', l_end s')) :: ts, s''))
      end)
  end.
Definition lex_all (k : cfg) (s : lexst) := lex_iter (S (length (l_rest s))) k s.

(** The token of a keyword. *)
Definition kw (s : String.string) : token := TIdent (b s).
Arguments kw s%string.
