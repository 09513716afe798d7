(** Specification of string literals: what the text between the quotes
    denotes (protobuf language reference, strLit; C escapes). *)
From Verif Require Import Base Utf8Spec LexSpec PropsLex.

(** The single-character escapes and the bytes they stand for. *)
Definition simple_escapes : list (ascii * N) :=
  [("a", 7); ("b", 8); ("f", 12); ("n", 10); ("r", 13); ("t", 9); ("v", 11);
   ("?", 63); ("\", 92); ("'", 39); ("034", 34)]%char.

(** UTF-8 (RFC 3629): the encoding of a code point. *)
Inductive utf8_of : N -> bytes -> Prop :=
| u8_1 c : c < 128 -> utf8_of c [c]
| u8_2 x y : x < 32 -> y < 64 -> 128 <= 64 * x + y -> utf8_of (64 * x + y) [192 + x; 128 + y]
| u8_3 x y z : x < 16 -> y < 64 -> z < 64 -> 2048 <= 4096 * x + 64 * y + z ->
    utf8_of (4096 * x + 64 * y + z) [224 + x; 128 + y; 128 + z]
| u8_4 x y z w : x < 8 -> y < 64 -> z < 64 -> w < 64 -> 65536 <= 262144 * x + 4096 * y + 64 * z + w ->
    utf8_of (262144 * x + 4096 * y + 64 * z + w) [240 + x; 128 + y; 128 + z; 128 + w].

(** [decodes q body value]: the text [body], written between two quote
    characters [q], denotes the bytes [value]. *)
Inductive decodes (q : N) : bytes -> bytes -> Prop :=
| dc_end : decodes q [] []
| dc_raw c r v : c <> 0 -> c <> 10 -> c <> 92 -> c <> q ->        (* any other byte stands for itself *)
    decodes q r v -> decodes q (c :: r) (c :: v)
| dc_simple c x r v : In (c, x) simple_escapes ->
    decodes q r v -> decodes q (92 :: N_of_ascii c :: r) (x :: v)
| dc_hex x ds r v : x = N_of_ascii "x" \/ x = N_of_ascii "X" ->   (* one or two hex digits, as many as there are *)
    (1 <= length ds <= 2)%nat -> Forall hex_digit ds -> (length ds = 2%nat \/ ~ starts hex_digit r) ->
    decodes q r v -> decodes q (92 :: x :: ds ++ r) (numeral 16 ds :: v)
| dc_oct ds r v : (1 <= length ds <= 3)%nat -> Forall oct_digit ds -> (length ds = 3%nat \/ ~ starts oct_digit r) ->
    numeral 8 ds < 256 ->
    decodes q r v -> decodes q (92 :: ds ++ r) (numeral 8 ds :: v)
| dc_unicode u n ds bs r v : (u = N_of_ascii "u" /\ n = 4%nat) \/ (u = N_of_ascii "U" /\ n = 8%nat) ->
    length ds = n -> Forall hex_digit ds -> scalar_value (numeral 16 ds) -> utf8_of (numeral 16 ds) bs ->
    decodes q r v -> decodes q (92 :: u :: ds ++ r) (bs ++ v).
