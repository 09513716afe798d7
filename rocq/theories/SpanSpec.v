(** The text a source location covers, from the numbers descriptor.proto
    stores: line and column of the start, line (unless it is the same) and
    column of the end. *)
From Verif Require Import Base.

Definition position : Type := (Z * Z)%type.
Definition earlier (p q : position) : Prop := (fst p < fst q \/ fst p = fst q /\ snd p < snd q)%Z.
Definition not_after (p q : position) : Prop := p = q \/ earlier p q.
Definition covered (span : list Z) (s e : position) : Prop :=
  span = [fst s; snd s; snd e] /\ fst e = fst s \/ span = [fst s; snd s; fst e; snd e].
(** Of the texts [s, e) and [s', e') one is part of the other, or one ends before the other starts. *)
Definition nested (s e s' e' : position) : Prop := not_after s s' /\ not_after e' e.
Definition nested_or_apart (s e s' e' : position) : Prop :=
  nested s e s' e' \/ nested s' e' s e \/ not_after e s' \/ not_after e' s.
