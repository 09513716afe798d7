(** Specification for C60: when a file can be opened. *)
From Verif Require Import Base Paths Resolver Descriptor ParseApi Compiler CompilerProofs.

(** The resolver knows the file and everything it needs: every file reached by following imports can be
    opened and imports no file twice, and no file reached imports itself, directly or through others. *)
Definition complete_closure (rs : nat -> resolver) (n : bytes) : Prop :=
  (forall m, reaches rs n m -> exists f, opened rs m f /\ NoDup (d_dependency (pf_desc f))) /\
  (forall m k, reaches rs n m -> imports rs m k -> ~ reaches rs k m).

(** The linker finds nothing wrong with the files reached, as long as it is given imports first. *)
Definition links (rs : nat -> resolver) (lk : linker) (n : bytes) : Prop :=
  forall m f pool, reaches rs n m -> opened rs m f -> linkable pool f ->
  exists pool', lk pool (pf_desc f) (pf_encoded f) = inl pool'.

(** The file the resolver gives for [n] is the one at [path], if the resolver says where it comes from. *)
Definition not_shadowed (rs : nat -> resolver) (path n : bytes) : Prop :=
  forall f a, opened rs n f -> pf_path f = Some a -> path_eq a path = true.

(** [path] stands for a file that can be opened ([requested]: the name it stands for, and whether the resolver gave it). *)
Definition openable (rs : nat -> resolver) (c : cst) (path : bytes) : Prop :=
  exists n isr, requested rs c path = Some (n, isr) /\ complete_closure rs n /\ (isr = true -> not_shadowed rs path n).
