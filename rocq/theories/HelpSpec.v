(** Specification for C67: the rules that help texts quote, in their words. *)
From Verif Require Import Base Grammar.

(** "identifiers must consist of letters, numbers and underscores, and may not start with a number" *)
Definition identifier_rule (w : bytes) : Prop := Forall word_char w /\ forall c r, w = c :: r -> ~ (48 <= c <= 57).
(** [s] is a component of [w]: what stands between two slashes, or a slash and an end. *)
Definition component_of (s w : bytes) : Prop :=
  exists x y, w = x ++ s ++ y /\ (x = [] \/ exists x', x = x' ++ [47]) /\ (y = [] \/ exists y', y = 47 :: y').
(** "imports may not contain backslashes, repeated forward slashes, '.' or '..' components" *)
Definition import_rule (w : bytes) : Prop :=
  ~ In 92 w /\ (forall x y, w <> x ++ [47; 47] ++ y) /\ ~ component_of (b ".") w /\ ~ component_of (b "..") w.
(** "group names must consist of a capital letter followed by letters, numbers and underscores": [capitalised] (Grammar.v). *)
