(** Specification of the lexical syntax: regular expressions and the token
    patterns as declared in protox-parse/src/lex/mod.rs:10-68, transcribed. *)
From Verif Require Import Base Lex.

Inductive re : Type :=
| Eps
| Class (ranges : list (ascii * ascii))      (* [a-z...] *)
| NotClass (ranges : list (ascii * ascii))   (* [^...] *)
| Seq (r1 r2 : re)
| Alt (r1 r2 : re)
| Star (r : re).

Definition in_class (ranges : list (ascii * ascii)) (c : N) : bool :=
  existsb (fun '(lo, hi) => (N_of_ascii lo <=? c) && (c <=? N_of_ascii hi)) ranges.

(** The language of an expression. Text is UTF-8; a negated class of ASCII
    characters under a star accepts the same byte strings as the same class
    of characters. *)
Inductive matches : re -> bytes -> Prop :=
| m_eps : matches Eps []
| m_class rs c : in_class rs c = true -> matches (Class rs) [c]
| m_notclass rs c : in_class rs c = false -> matches (NotClass rs) [c]
| m_seq r1 r2 x y : matches r1 x -> matches r2 y -> matches (Seq r1 r2) (x ++ y)
| m_alt_l r1 r2 x : matches r1 x -> matches (Alt r1 r2) x
| m_alt_r r1 r2 x : matches r2 x -> matches (Alt r1 r2) x
| m_star_nil r : matches (Star r) []
| m_star_cons r x y : matches r x -> matches (Star r) y -> matches (Star r) (x ++ y).

Definition lit (c : ascii) : re := Class [(c, c)].
Definition opt (r : re) : re := Alt Eps r.
Definition plus (r : re) : re := Seq r (Star r).

Local Open Scope char_scope.
Definition nl : ascii := "010".
Definition digit : re := Class [("0", "9")].
Definition digit19 : re := Class [("1", "9")].
(* lex/mod.rs:13 *)
Definition exponent : re := Seq (Class [("e", "e"); ("E", "E")]) (Seq (opt (Class [("+", "+"); ("-", "-")])) (plus digit)).
Definition fsuffix : re := Class [("f", "f"); ("F", "F")].

(* lex/mod.rs:15-67, in order; the kind names the variant and the callback *)
Definition patterns : list (re * rawkind) :=
  [ (Seq (Class [("A", "Z"); ("a", "z"); ("_", "_")]) (Star (Class [("A", "Z"); ("a", "z"); ("0", "9"); ("_", "_")])), KIdent);
    (lit "0", KZero);
    (Seq (lit "0") (plus (Class [("0", "7")])), KOct);
    (Seq digit19 (Star digit), KDec);
    (Seq (lit "0") (Seq (Class [("x", "x"); ("X", "X")]) (plus (Class [("0", "9"); ("A", "F"); ("a", "f")]))), KHex);
    (Seq (lit "0") fsuffix, KFloat);
    (Seq (Seq digit19 (Star digit)) fsuffix, KFloat);
    (Seq (plus digit) (Seq (lit ".") (Seq (Star digit) (Seq (opt exponent) (opt fsuffix)))), KFloat);
    (Seq (plus digit) (Seq exponent (opt fsuffix)), KFloat);
    (Seq (lit ".") (Seq (plus digit) (Seq (opt exponent) (opt fsuffix))), KFloat);
    (Class [("'", "'"); ("034", "034")], KQuote);
    (lit ".", KPunct TDot);
    (lit "-", KPunct TMinus);
    (lit "+", KPunct TPlus);
    (lit "(", KPunct TLeftParen);
    (lit ")", KPunct TRightParen);
    (lit "{", KPunct TLeftBrace);
    (lit "}", KPunct TRightBrace);
    (lit "[", KPunct TLeftBracket);
    (lit "]", KPunct TRightBracket);
    (lit "<", KPunct TLeftAngle);
    (lit ">", KPunct TRightAngle);
    (lit ",", KPunct TComma);
    (lit "=", KPunct TEquals);
    (lit ":", KPunct TColon);
    (lit ";", KPunct TSemicolon);
    (lit "/", KPunct TSlash);
    (Seq (Alt (Seq (lit "/") (lit "/")) (lit "#")) (Seq (Star (NotClass [(nl, nl)])) (opt (lit nl))), KLine);
    (Seq (lit "/") (lit "*"), KBlock);
    (lit nl, KPunct TNewline) ].
(* lex/mod.rs:12 *)
Definition skip_pattern : re := plus (Class [("009", "009"); ("011", "011"); ("012", "012"); ("013", "013"); (" ", " ")]).
Local Close Scope char_scope.

(** The characters of the skip pattern, as numbers: tab, vertical tab, form
    feed, carriage return, space. Newlines are tokens. *)
Definition blank (c : N) : Prop := In c [9; 11; 12; 13; 32].
(** Digits and letters, as numbers. *)
Definition dec_digit (c : N) : Prop := 48 <= c <= 57.
Definition hex_digit (c : N) : Prop := 48 <= c <= 57 \/ 65 <= c <= 70 \/ 97 <= c <= 102.
Definition oct_digit (c : N) : Prop := 48 <= c <= 55.
Definition letter_ (c : N) : Prop := 65 <= c <= 90 \/ 97 <= c <= 122 \/ c = 95.
Definition starts (p : N -> Prop) (l : bytes) : Prop := exists c r, l = c :: r /\ p c.
Definition name_char (c : N) : Prop := letter_ c \/ dec_digit c.
Definition identifier (t : bytes) : Prop := exists c r, t = c :: r /\ letter_ c /\ Forall name_char r.

(** [slice] is the longest prefix of [l] that some pattern matches, and
    [kind] the pattern that matches it (no other kind does). *)
Definition longest_match (l : bytes) (kind : rawkind) (slice : bytes) : Prop :=
  (exists r, In (r, kind) patterns /\ matches r slice) /\
  (exists s, l = slice ++ s) /\
  (forall r k p s, In (r, k) patterns -> matches r p -> l = p ++ s ->
     (length p < length slice)%nat \/ (p = slice /\ k = kind)).

(** No pattern matches any prefix of [l]. *)
Definition no_match (l : bytes) : Prop :=
  forall r k p s, In (r, k) patterns -> matches r p -> l <> p ++ s.
