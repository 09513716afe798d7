(** Specification of the syntax errors (C54): what an error of each kind says
    about the source text and its tokens. *)
From Verif Require Import Base Utf8 Utf8Spec Errors Lex LexSpec LexSafe Stream PropsLex StrSpec Ast Comments Parse Grammar.

(** Tokens other than comments and line ends; [None] is an invalid token. *)
Definition significant (x : option token * span) : bool :=
  match fst x with Some t => negb (is_trivia t) | None => true end.
Definition sigs (l : list (option token * span)) := filter significant l.

(** The bytes [t] stand at [sp] in the source. *)
Definition reads (src : bytes) (sp : span) (t : bytes) : Prop :=
  exists p q, src = p ++ t ++ q /\ s_start sp = len p /\ s_end sp = len p + len t.
(** The same, and [rest] is what follows. *)
Definition reads_then (src : bytes) (sp : span) (t rest : bytes) : Prop :=
  exists p, src = p ++ t ++ rest /\ s_start sp = len p /\ s_end sp = len p + len t.

(** ** What the text after "expected" lists *)
(** Its items, separated by ", " and " or ". *)
Fixpoint listed (cur l : bytes) : list bytes :=
  match l with
  | [] => [rev cur]
  | c :: r =>
    match r with
    | c2 :: r2 =>
      if (c =? 44) && (c2 =? 32) then rev cur :: listed [] r2
      else match r2 with
           | c3 :: c4 :: r4 =>
             if (c =? 32) && (c2 =? 111) && (c3 =? 114) && (c4 =? 32) then rev cur :: listed [] r4 else listed (c :: cur) r
           | _ => listed (c :: cur) r
           end
    | [] => listed (c :: cur) r
    end
  end.
Fixpoint same (x y : bytes) : bool :=
  match x, y with
  | [], [] => true
  | c :: x', d :: y' => (c =? d) && same x' y'
  | _, _ => false
  end.
(** The token written [x]: a keyword or one punctuation character. *)
Definition lowercase (x : bytes) : bool := match x with c :: _ => (97 <=? c) && (c <=? 122) | [] => false end.
Definition spelled (x : bytes) (t : token) : bool :=
  match t with
  | TIdent v => lowercase x && bytes_eqb v x
  | TDot => same x (b ".") | TMinus => same x (b "-") | TPlus => same x (b "+")
  | TLeftParen => same x (b "(") | TRightParen => same x (b ")")
  | TLeftBrace => same x (b "{") | TRightBrace => same x (b "}")
  | TLeftBracket => same x (b "[") | TRightBracket => same x (b "]")
  | TLeftAngle => same x (b "<") | TRightAngle => same x (b ">")
  | TComma => same x (b ",") | TEquals => same x (b "=") | TColon => same x (b ":")
  | TSemicolon => same x (b ";") | TSlash => same x (b "/")
  | _ => false
  end.
Definition is_name (t : token) : bool := match t with TIdent _ => true | _ => false end.
Definition is_int (t : token) : bool := match t with TInt _ => true | _ => false end.
Definition is_number (t : token) : bool := match t with TInt _ | TFloat _ => true | _ => false end.
Definition is_str (t : token) : bool := match t with TStr _ => true | _ => false end.
Definition is_type (t : token) : bool := match t with TIdent _ | TDot => true | _ => false end.
Definition phrases : list (bytes * (token -> bool)) :=
  [(b "an identifier", is_name); (b "a type name", is_type); (b "a field type", is_type); (b "a message field", is_type);
   (b "an integer", is_int); (b "a positive integer", is_int); (b "a numeric literal", is_number);
   (b "a string literal", is_str); (b "a string", is_str); (b "string", is_str);
   (b "a constant", fun t => is_name t || is_number t || is_str t);
   (b "oneof", spelled (b "oneof")); (b "enum", spelled (b "enum")); (b "message", spelled (b "message"));
   (b "option", spelled (b "option")); (b "reserved range", spelled (b "reserved"))].
Definition unquoted (x : bytes) : option bytes :=
  match x with
  | c :: r => match rev r with d :: y => if (c =? 39) && (d =? 39) then Some (rev y) else None | [] => None end
  | [] => None
  end.
(** The tokens an item stands for; [None] if it stands for nothing. *)
Definition meaning (x : bytes) : option (token -> bool) :=
  match unquoted x with
  | Some y => Some (spelled y)
  | None => option_map snd (find (fun p => same (fst p) x) phrases)
  end.
(** Every item stands for some token. *)
Definition spellable (x : bytes) : bool :=
  lowercase x || existsb (same x) (map b ["."; "-"; "+"; "("; ")"; "{"; "}"; "["; "]"; "<"; ">"; ","; "="; ":"; ";"; "/"]%string).
Definition readable_item (x : bytes) : bool :=
  match unquoted x with
  | Some y => spellable y
  | None => match meaning x with Some _ => true | None => false end
  end.
Definition readable (text : bytes) : bool := forallb readable_item (listed [] text).
(** Some item stands for [t]. *)
Definition expects (text : bytes) (t : token) : bool :=
  existsb (fun x => match meaning x with Some f => f t | None => false end) (listed [] text).

(** ** Strings *)
(** Adjacent string literals that make up one value. *)
Definition string_at (k : cfg) (src : bytes) (sp : span) (v : bytes) : Prop :=
  exists pre vs post first last,
    sigs (stream k src 0) = pre ++ map (fun x : bytes * span => (Some (TStr (fst x)), snd x)) vs ++ post /\
    v = concat (map fst vs) /\ hd_error vs = Some first /\ hd_error (rev vs) = Some last /\ sp = join_span (snd first) (snd last).

(** [x], followed by [r], is a character or an escape a string cannot contain. *)
Definition hexes (n : nat) (r : bytes) : Prop := exists ds q, r = ds ++ q /\ length ds = n /\ Forall hex_digit ds.
Definition no_escape (r : bytes) : Prop :=
  forall c q, r = c :: q ->
    (forall a x, In (a, x) simple_escapes -> c <> N_of_ascii a) /\ ~ oct_digit c /\
    (c = N_of_ascii "x" \/ c = N_of_ascii "X" -> ~ starts hex_digit q) /\
    (c = N_of_ascii "u" -> ~ hexes 4 q) /\ (c = N_of_ascii "U" -> ~ hexes 8 q).
Inductive bad_char : bytes -> bytes -> Prop :=
| bc_nul r : bad_char [0] r
| bc_escape r : no_escape r -> bad_char [92] r
| bc_octal x y z r : Forall oct_digit [x; y; z] -> 256 <= numeral 8 [x; y; z] -> bad_char [92; x; y; z] r
| bc_unicode u n ds r : (u = N_of_ascii "u" /\ n = 4%nat) \/ (u = N_of_ascii "U" /\ n = 8%nat) ->
    length ds = n -> Forall hex_digit ds -> ~ scalar_value (numeral 16 ds) -> bad_char (92 :: u :: ds) r.
Inductive bad_chars : bytes -> bytes -> Prop :=
| bcs_one x r : bad_char x r -> bad_chars x r
| bcs_more x y r : bad_char x (y ++ r) -> bad_chars y r -> bad_chars (x ++ y) r.

(** Decoding with replacement characters (Unicode 3.9, substitution of maximal
    subparts): a maximal ill-formed piece becomes U+FFFD. *)
Definition begins (x y : bytes) : Prop := exists z, y = x ++ z.
Definition ill_formed (p r : bytes) : Prop :=
  p <> [] /\ (forall c, scalar_value c -> ~ begins (encode_utf8 c) (p ++ r)) /\
  (length p = 1%nat \/ exists c, scalar_value c /\ begins p (encode_utf8 c)) /\
  (forall x q c, r = x :: q -> scalar_value c -> ~ begins (p ++ [x]) (encode_utf8 c)).
Inductive lossy : bytes -> bytes -> Prop :=
| lo_nil : lossy [] []
| lo_char c r t : scalar_value c -> lossy r t -> lossy (encode_utf8 c ++ r) (encode_utf8 c ++ t)
| lo_bad p r t : ill_formed p r -> lossy r t -> lossy (p ++ r) (encode_utf8 65533 ++ t).

(** ** Errors inside one token *)
(** The token [t] at [tsp] is written in a way the error [e] describes. *)
Definition radix_prefix (pre : bytes) (radix : N) : Prop :=
  (pre = [] /\ radix = 10) \/ (pre = b "0" /\ radix = 8) \/ ((pre = b "0x" \/ pre = b "0X") /\ radix = 16).
Definition fault (k : cfg) (src : bytes) (t : token) (tsp : span) (e : perr) : Prop :=
  match e with
  | IntegerOutOfRange sp => t = TInt 0 /\ exists pre radix ds,
      reads src tsp (pre ++ ds) /\ radix_prefix pre radix /\ sp = (s_start tsp + len pre, s_end tsp) /\
      (2 ^ 64 <= numeral radix ds \/ (radix = 8 /\ munch_ideal k = false /\ ~ Forall oct_digit ds))
  | NoSpaceBetweenIntAndIdent sp => (exists v, t = TInt v) /\ exists pre radix ds c cs,
      reads src tsp (pre ++ ds) /\ radix_prefix pre radix /\ s_start sp = s_start tsp + len pre /\
      reads src (s_end tsp, s_end sp) (c :: cs) /\ letter_ c /\ Forall letter cs
  | FloatSuffixOutsideTextFormat sp => sp = tsp /\ exists v c, t = TFloat v /\ reads src tsp (v ++ [c]) /\ (c = N_of_ascii "f" \/ c = N_of_ascii "F")
  | HashCommentOutsideTextFormat sp => sp = tsp /\ exists v x, t = TLineComment v /\ reads src tsp (N_of_ascii "#" :: x)
  | NestedBlockComment sp => (exists v, t = TBlockComment v) /\ s_start tsp + 2 <= s_start sp /\ reads src sp (b "/*")
  | InvalidStringEscape sp => (exists v, t = TStr v) /\ s_start tsp < s_start sp /\ s_end sp <= s_end tsp /\
      exists x r, reads_then src sp (N_of_ascii "\" :: x) r /\ bad_chars (N_of_ascii "\" :: x) r
  | InvalidStringCharacters sp => (exists v, t = TStr v) /\ s_start tsp < s_start sp /\ s_end sp <= s_end tsp /\
      exists x r, reads_then src sp (0 :: x) r /\ bad_chars (0 :: x) r
  | UnterminatedString sp => (exists v, t = TStr v) /\ s_start tsp < s_start sp /\ s_end sp = s_end tsp /\ reads src sp [10]
  | UnexpectedEof x => s_end tsp = len src /\
      (((exists v, t = TStr v) /\ x = b "string terminator") \/ ((exists v, t = TBlockComment v) /\ x = b "comment terminator"))
  | _ => False
  end.

(** ** The errors *)
(** [sp] runs from the keyword [package] to a semicolon. *)
Definition package_at (k : cfg) (src : bytes) (sp : span) : Prop :=
  exists p1 st p2 e p3, sigs (stream k src 0) = p1 ++ (Some (kw "package"), st) :: p2 ++ (Some TSemicolon, e) :: p3 /\ sp = join_span st e.
Definition truth (k : cfg) (src : bytes) (e : perr) : Prop :=
  err_ok (len src) e /\
  match e with
  | InvalidToken sp => In (None, sp) (stream k src 0)
  | UnexpectedToken expected found sp => exists t, In (Some t, sp) (stream k src 0) /\ is_trivia t = false /\
      found = token_display k t /\ readable expected = true /\ expects expected t = false
  | UnexpectedEof x => readable x = true \/ exists t tsp, In (Some t, tsp) (stream k src 0) /\ fault k src t tsp e
  | InvalidUtf8String sp => exists v, string_at k src sp v /\ ~ utf8_text v
  | InvalidIdentifier sp => exists v w, string_at k src sp v /\ lossy v w /\ ~ word w
  | InvalidImport sp => exists v w, string_at k src sp v /\ lossy v w /\ ~ relative_path w
  | UnknownSyntax text sp => exists v, string_at k src sp v /\ v <> b "proto2" /\ v <> b "proto3" /\ lossy v text
  | InvalidGroupName sp => exists v, In (Some (TIdent v), sp) (stream k src 0) /\ ~ capitalised v
  | DuplicatePackage x y => package_at k src x /\ package_at k src y /\ s_end x <= s_start y
  | _ => exists t tsp, In (Some t, tsp) (stream k src 0) /\ fault k src t tsp e
  end.
