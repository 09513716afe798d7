(** Model of the public API of protox-parse: lib.rs, error.rs:217-236. *)
From Verif Require Import Base Utf8 Errors Lex Ast Comments Parse Lines Descriptor Generate.

(** [ParseError], error.rs:12-19; [pe_kind] is the first error, [pe_related] the
    others. *)
Record parse_error : Type := {
  pe_kind : perr; pe_related : list perr; pe_name : bytes; pe_source : bytes }.
Definition pe_all (e : parse_error) : list perr := pe_kind e :: pe_related e.

(** [ParseError::new], error.rs:218-226: [Vec::remove(0)] panics on an empty
    vector (and the debug assertion fails). *)
Definition parse_error_new (errs : list perr) (name src : bytes) : out parse_error :=
  match errs with
  | [] => Panic
  | e :: r => Done {| pe_kind := e; pe_related := r; pe_name := name; pe_source := src |}
  end.

(** [parse], lib.rs:76-90; [MAX_FILE_LEN] is i32::MAX, lib.rs:92. The boolean
    is the sticky flag of failed debug assertions: a debug build panics iff it is set. *)
Definition parse (k : cfg) (sort : list location -> list location) (name src : bytes)
  : out ((file_desc + parse_error) * bool) :=
  if i32_max <? len src then
    obind (parse_error_new [FileTooLarge] name []) (fun e => Done (inr e, false))
  else
    obind (parse_file k src) (fun '(r, asrt) =>
    match r with
    | inr errs => obind (parse_error_new errs name src) (fun e => Done (inr e, asrt))
    | inl f =>
      obind (generate_file k sort f name src) (fun g =>
      match g with
      | inl d => Done (inl d, asrt)
      | inr errs => obind (parse_error_new errs name src) (fun e => Done (inr e, asrt))
      end)
    end).

(** A debug build. *)
Definition parse_debug (k : cfg) (sort : list location -> list location) (name src : bytes)
  : out (file_desc + parse_error) :=
  obind (parse k sort name src) (fun '(r, asrt) => if asrt then Panic else Done r).

(** [sort_unstable_by(|l, r| l.path.cmp(&r.path))]: any function returning a
    permutation sorted by path. [path_cmp] is [Ord for Vec<i32>]. *)
Fixpoint path_leb (x y : list Z) : bool :=
  match x, y with
  | [], _ => true
  | _ :: _, [] => false
  | a :: x', c :: y' => (a <? c)%Z || ((a =? c)%Z && path_leb x' y')
  end.

(** One such function: insertion sort. *)
Fixpoint loc_insert (x : location) (l : list location) : list location :=
  match l with
  | [] => [x]
  | y :: r => if path_leb (loc_path x) (loc_path y) then x :: l else y :: loc_insert x r
  end.
Definition loc_sort (l : list location) : list location := fold_right loc_insert [] l.
