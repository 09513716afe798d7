(** Specification for C59: the descriptor of two files written one after the other. *)
From Verif Require Import Base Descriptor.

(** The text that makes a file a proto2 or a proto3 file. *)
Definition proto2_line : bytes := b "syntax = ""proto2"";".
Definition proto3_line : bytes := b "syntax = ""proto3"";".

Definition opt_app {A} (x y : option (list A)) : option (list A) :=
  match x, y with Some l, Some m => Some (l ++ m) | Some l, None => Some l | None, m => m end.
Definition or_else {A} (x y : option A) : option A := match x with Some _ => x | None => y end.

(** The declarations of [p] followed by those of [q]. The indices of public and weak imports
    of [q] count the imports of [p] as well. *)
Definition file_sum (p q : file_desc) : file_desc :=
  let shift := map (fun i => (Z.of_nat (length (d_dependency p)) + i)%Z) in
  {| d_name := d_name p;
     d_package := or_else (d_package p) (d_package q);
     d_dependency := d_dependency p ++ d_dependency q;
     d_public := d_public p ++ shift (d_public q);
     d_weak := d_weak p ++ shift (d_weak q);
     d_message := d_message p ++ d_message q;
     d_enum := d_enum p ++ d_enum q;
     d_service := d_service p ++ d_service q;
     d_extension := d_extension p ++ d_extension q;
     d_options := opt_app (d_options p) (d_options q);
     d_source_info := None;
     d_syntax := d_syntax p |}.
