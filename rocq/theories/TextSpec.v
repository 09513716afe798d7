(** Specification for C62: lines and columns of a text (as text editors count
    them). *)
From Verif Require Import Base.

(** Offset [o] of the text is in line [L], column [C] (both from 0; columns in
    bytes). Lines end with [\n], [\r\n] or [\r]; an offset between [\r] and
    [\n] counts as the end of the line. *)
Inductive place : bytes -> N -> N -> N -> Prop :=
| pl_here l : place l 0 0 0
| pl_char c r o C : c <> 10 -> c <> 13 -> place r o 0 C -> place (c :: r) (o + 1) 0 (C + 1)
| pl_skip c r o L C : c <> 10 -> c <> 13 -> 0 < L -> place r o L C -> place (c :: r) (o + 1) L C
| pl_lf r o L C : place r o L C -> place (10 :: r) (o + 1) (L + 1) C
| pl_cr r o L C : hd_error r <> Some 10 -> place r o L C -> place (13 :: r) (o + 1) (L + 1) C
| pl_crlf r o L C : place r o L C -> place (13 :: 10 :: r) (o + 2) (L + 1) C
| pl_inside r : place (13 :: 10 :: r) 1 0 0.
