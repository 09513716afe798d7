(** Specification of what may be written between two tokens, and of where that is. *)
From Verif Require Import Base LexSpec Lex.

Definition occurs (t l : bytes) : Prop := exists u v, l = u ++ t ++ v.

(** Blanks, line ends and closed comments. Block comments do not nest: neither
    mark may occur in one, also not a slash directly before the closing star. *)
Inductive spacing : bytes -> Prop :=
| sp_end : spacing []
| sp_blank c w : blank c -> spacing w -> spacing (c :: w)
| sp_newline w : spacing w -> spacing (10 :: w)
| sp_line line w : ~ In 10 line -> spacing w -> spacing (b "//" ++ line ++ 10 :: w)
| sp_block body w : ~ occurs (b "*/") body -> ~ occurs (b "/*") (body ++ b "*") -> spacing w ->
    spacing (b "/*" ++ body ++ b "*/" ++ w).

(** Offset [n] lies inside none of the tokens. *)
Definition between (toks : list (option token * span)) (n : N) : Prop :=
  forall t sp, In (t, sp) toks -> s_end sp <= n \/ n <= s_start sp.
(** A line comment runs up to the end of the text [p] and has no line end: what
    is appended to [p] becomes part of it. *)
Definition open_comment (toks : list (option token * span)) (p : bytes) : Prop :=
  exists c sp, In (Some (TLineComment c), sp) toks /\ s_end sp = len p /\ ~ exists u, p = u ++ [10].
(** [w] starts a comment with a slash that would stand behind another slash. *)
Definition slashes (p w : bytes) : Prop := (exists u, p = u ++ b "/") /\ exists v, w = b "/" ++ v.
(** Nothing, or white space and then anything. *)
Definition spaced (q : bytes) : Prop := q = [] \/ exists c r, q = c :: r /\ (blank c \/ c = 10).
