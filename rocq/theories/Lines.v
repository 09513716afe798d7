(** Model of protox-parse/src/generate/lines.rs and [index_to_i32] (lib.rs:94-98). *)
From Verif Require Import Base Ast.

(** [index_to_i32], protox-parse/src/lib.rs:94-98: the unwrap of a failed conversion panics. *)
Definition index_to_i32 (n : N) : out Z :=
  if n <=? i32_max then Done (Z.of_N n) else Panic.

(** [LineResolver::new], lines.rs:9-15: the offsets following each newline
    byte; [off] is the offset of [src]. *)
Fixpoint line_starts (off : N) (src : bytes) : out (list Z) :=
  match src with
  | [] => Done []
  | c :: r =>
    if c =? 10 then
      obind (index_to_i32 (off + 1)) (fun x =>
      obind (line_starts (off + 1) r) (fun xs => Done (x :: xs)))
    else line_starts (off + 1) r
  end.
Definition lines_new (src : bytes) : out (list Z) := line_starts 0 src.

(** [slice::binary_search] by its contract on a sorted slice without repetition
    (line offsets are strictly increasing, see [line_starts_sorted] in LinesProofs.v):
    [inl i] is Ok(i), [inr i] is Err(i). *)
Fixpoint binary_search (ls : list Z) (x : Z) : N + N :=
  match ls with
  | [] => inr 0
  | y :: r =>
    if (y =? x)%Z then inl 0
    else if (x <? y)%Z then inr 0
    else match binary_search r x with inl i => inl (i + 1) | inr i => inr (i + 1) end
  end.

(** [LineResolver::resolve], lines.rs:17-26. *)
Definition resolve (ls : list Z) (offset : N) : out (Z * Z) :=
  obind (index_to_i32 offset) (fun o =>
  match binary_search ls o with
  | inl i => obind (index_to_i32 (i + 1)) (fun l => Done (l, 0%Z))
  | inr i =>
    if i =? 0 then Done (0%Z, o)
    else obind (index_to_i32 i) (fun l =>
         match nth_error ls (N.to_nat (i - 1)) with
         | Some st => Done (l, (o - st)%Z)
         | None => Panic
         end)
  end).

(** [LineResolver::resolve_span], lines.rs:28-37. *)
Definition resolve_span (ls : list Z) (sp : span) : out (list Z) :=
  obind (resolve ls (s_start sp)) (fun '(sl, sc) =>
  obind (resolve ls (s_end sp)) (fun '(el, ec) =>
  Done (if (sl =? el)%Z then [sl; sc; ec] else [sl; sc; el; ec]))).

(** The unit tests at lines.rs:40-69. *)
Definition lr (s : bytes) (os : list N) :=
  match lines_new s with
  | Done ls => map (resolve ls) os
  | _ => []
  end.
Example lines_test1 :
  lr (b "hello" ++ [10] ++ b "world" ++ [10] ++ b "foo") [0;4;5;6;7;10;11;12;13;14;15]
  = map Done [(0,0);(0,4);(0,5);(1,0);(1,1);(1,4);(1,5);(2,0);(2,1);(2,2);(2,3)]%Z.
Proof. vm_compute. reflexivity. Qed.
Example lines_test2 :
  lr (b "f" ++ [10;10] ++ b "oo" ++ [13;10] ++ b "bar") [0;1;2;3;4;5;6;7;8;9;10]
  = map Done [(0,0);(0,1);(1,0);(2,0);(2,1);(2,2);(2,3);(3,0);(3,1);(3,2);(3,3)]%Z.
Proof. vm_compute. reflexivity. Qed.
