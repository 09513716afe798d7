(** Model of protox-parse/src/parse/comments.rs. *)
From Verif Require Import Base.

(* comments.rs:3-11 *)
Record comments : Type := {
  c_detached : list bytes;
  c_leading : option bytes;
  c_trailing : option bytes;
  c_is_trailing : bool;
  c_is_line : bool;
}.

(* comments.rs:13-16 *)
Definition c_new : comments :=
  {| c_detached := []; c_leading := None; c_trailing := None; c_is_trailing := false; c_is_line := false |}.

Definition opt_list {A} (o : option A) : list A := match o with Some x => [x] | None => [] end.

(* comments.rs:40-49; the boolean says that the debug assertion at line 42 holds *)
Definition c_flush (c : comments) : comments * bool :=
  if c_is_trailing c then
    ({| c_detached := c_detached c; c_leading := None; c_trailing := c_leading c;
        c_is_trailing := false; c_is_line := false |},
     match c_detached c with [] => true | _ => false end)
  else
    ({| c_detached := c_detached c ++ opt_list (c_leading c); c_leading := None;
        c_trailing := c_trailing c; c_is_trailing := false; c_is_line := false |}, true).

Definition c_set_leading (c : comments) (l : option bytes) (line : bool) : comments :=
  {| c_detached := c_detached c; c_leading := l; c_trailing := c_trailing c;
     c_is_trailing := c_is_trailing c; c_is_line := line |}.

Definition is_some {A} (o : option A) : bool := match o with Some _ => true | None => false end.

(* comments.rs:18-23 *)
Definition c_block_comment (c : comments) (t : bytes) : comments * bool :=
  let '(c1, ok) := if is_some (c_leading c) then c_flush c else (c, true) in
  (c_set_leading c1 (Some t) (c_is_line c1), ok).

(* comments.rs:25-34 *)
Definition c_line_comment (c : comments) (t : bytes) : comments * bool :=
  let '(c1, ok) := if is_some (c_leading c) && negb (c_is_line c) then c_flush c else (c, true) in
  (c_set_leading c1 (Some (match c_leading c1 with None => t | Some cur => cur ++ t end)) true, ok).

(* comments.rs:36-38 *)
Definition c_detach (c : comments) : comments :=
  {| c_detached := c_detached c; c_leading := c_leading c; c_trailing := c_trailing c;
     c_is_trailing := false; c_is_line := c_is_line c |}.

(* comments.rs:51-58 *)
Definition c_reset : comments :=
  {| c_detached := []; c_leading := None; c_trailing := None; c_is_trailing := true; c_is_line := false |}.

(* comments.rs:60-62 *)
Definition c_take_leading (c : comments) : (list bytes * option bytes) * comments :=
  ((c_detached c, c_leading c),
   {| c_detached := []; c_leading := None; c_trailing := c_trailing c;
      c_is_trailing := c_is_trailing c; c_is_line := c_is_line c |}).

(* comments.rs:64-66 *)
Definition c_take_trailing (c : comments) : option bytes * comments :=
  (c_trailing c,
   {| c_detached := c_detached c; c_leading := c_leading c; c_trailing := None;
      c_is_trailing := c_is_trailing c; c_is_line := c_is_line c |}).
