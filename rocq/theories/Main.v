(** Model of the command line program, protox/src/main.rs. *)
From Verif Require Import Base Utf8 Errors Lex Ast Comments Parse Lines Descriptor Generate ParseApi Paths Resolver Compiler.

(** [Args], main.rs:7-36, as the command line gives them. The parsing of the command line itself (clap) is not modelled. *)
Record args : Type := {
  a_files : list bytes;
  a_includes : list bytes;
  a_output : option bytes;
  a_include_source_info : bool;
  a_include_imports : bool }.

(** [default_value = "."], main.rs:18: the current directory, if no [--include] is given. *)
Definition include_dirs (a : args) : list bytes :=
  match a_includes a with [] => [b "."] | l => l end.

(** How the program ends: well, with the error of the compiler, or because [fs::write] failed. *)
Inductive ending : Type := Success | CompileError (e : error) | WriteError (e : iokind).

Section Main.
Variables (k : cfg) (sort : list location -> list location) (google : bytes -> bytes).
Variable fs : nat -> filesystem.                       (* the file system at each call of the resolver *)
Variable write : bytes -> bytes -> option iokind.      (* [fs::write path contents]: the error if it fails *)
Variable lk : linker.
Variables (enc : file_desc -> bytes) (redec : bool -> bytes -> bytes).

(** main.rs:44-46: [for file in args.files { compiler.open_file(file)?; }] *)
Fixpoint open_all (rs : nat -> resolver) (fuel : nat) (paths : list bytes) (c : cst) : cres unit :=
  match paths with
  | [] => Done (inl tt, c)
  | p :: r =>
    obind (open_file rs lk fuel p c) (fun '(res, c') =>
    match res with
    | inr e => Done (inr e, c')
    | inl _ => open_all rs fuel r c'
    end)
  end.

(** main.rs:38-53 [main]: how it ends, and the calls of [fs::write] made. *)
Definition main (fuel : nat) (a : args) : out (ending * list (bytes * bytes)) :=
  let rs := fun t => default_resolver k sort (fs t) google (include_dirs a) in
  let c := include_source_info (a_include_source_info a) (include_imports (a_include_imports a) compiler_new) in
  obind (open_all rs fuel (a_files a) c) (fun '(res, c) =>
  match res with
  | inr e => Done (CompileError e, [])
  | inl _ =>
    match a_output a with
    | None => Done (Success, [])
    | Some o =>
      obind (encode_file_descriptor_set enc redec c) (fun bs =>
      Done (match write o bs with None => Success | Some e => WriteError e end, [(o, bs)]))
    end
  end).
End Main.
