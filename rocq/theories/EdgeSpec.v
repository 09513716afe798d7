(** Specification for C61: places where a text may be cut. Uses UTF-8 text
    (Utf8Spec.v) only. *)
From Verif Require Import Base Utf8Spec.

(** Offset [n] is between two characters of the text [src] (or at its start or end). *)
Definition char_boundary (src : bytes) (n : N) : Prop :=
  exists x y, src = x ++ y /\ len x = n /\ utf8_text x /\ utf8_text y.
(** [sp] can be used to slice [src] ([&src[start..end]] in Rust), and the slice is the text [t]. *)
Definition slice (src : bytes) (sp : span) (t : bytes) : Prop :=
  exists x y, src = x ++ t ++ y /\ s_start sp = len x /\ s_end sp = len x + len t /\ utf8_text x /\ utf8_text t /\ utf8_text y.
