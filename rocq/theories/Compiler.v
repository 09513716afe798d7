(** Model of protox/src/compile/mod.rs and protox/src/lib.rs. *)
From Verif Require Import Base Utf8 Errors Lex Ast Comments Parse Lines Descriptor Generate ParseApi Paths Resolver.

(** [FileMetadata], file/mod.rs:72-76. *)
Record meta : Type := { fm_name : bytes; fm_path : option bytes; fm_is_import : bool }.

(** [Compiler], compile/mod.rs:48-54. [c_pool] is the list of files of the
    [DescriptorPool] in order of addition, [c_files] the hash map. The resolver is
    not part of the state; [c_tick] counts the calls made to it, so that it can
    be modelled as giving a different answer every time (the file system changes). *)
Record cst : Type := {
  c_pool : list file_desc;
  c_files : list (bytes * meta);
  c_include_imports : bool;
  c_include_source_info : bool;
  c_tick : nat }.

Definition set_pool p c := {| c_pool := p; c_files := c_files c; c_include_imports := c_include_imports c;
  c_include_source_info := c_include_source_info c; c_tick := c_tick c |}.
Definition set_files m c := {| c_pool := c_pool c; c_files := m; c_include_imports := c_include_imports c;
  c_include_source_info := c_include_source_info c; c_tick := c_tick c |}.
Definition tick c := {| c_pool := c_pool c; c_files := c_files c; c_include_imports := c_include_imports c;
  c_include_source_info := c_include_source_info c; c_tick := S (c_tick c) |}.

(** [HashMap::get] and [HashMap::insert] *)
Fixpoint lookup (n : bytes) (m : list (bytes * meta)) : option meta :=
  match m with
  | [] => None
  | (k, v) :: r => if bytes_eqb k n then Some v else lookup n r
  end.
Fixpoint insert (n : bytes) (v : meta) (m : list (bytes * meta)) : list (bytes * meta) :=
  match m with
  | [] => [(n, v)]
  | (k, w) :: r => if bytes_eqb k n then (k, v) :: r else (k, w) :: insert n v r
  end.

(** compile/mod.rs:80-91 [with_file_resolver] *)
Definition compiler_new : cst :=
  {| c_pool := []; c_files := []; c_include_imports := false; c_include_source_info := false; c_tick := 0 |}.
(** compile/mod.rs:98-110 *)
Definition include_source_info (yes : bool) c :=
  {| c_pool := c_pool c; c_files := c_files c; c_include_imports := c_include_imports c;
     c_include_source_info := yes; c_tick := c_tick c |}.
Definition include_imports (yes : bool) c :=
  {| c_pool := c_pool c; c_files := c_files c; c_include_imports := yes;
     c_include_source_info := c_include_source_info c; c_tick := c_tick c |}.

(** The linker: [DescriptorPool::add_file_descriptor_proto] and
    [decode_file_descriptor_proto]: the new list of files, or an error (then the
    pool is unchanged) carrying the file it reports. Its arguments are the pool's
    files, the descriptor and the encoded form if there is one. *)
Definition linker := list file_desc -> file_desc -> option bytes -> list file_desc + option bytes.

(** Outcome of a compiler operation: result or error, and the new state. *)
Definition cres (A : Type) := out ((A + error) * cst)%type.

Definition arrow : bytes := b " -> ".

Section Compiler.
Variable rs : nat -> resolver.   (* the resolver at each call *)
Variable lk : linker.

(** compile/mod.rs:298-320 [check_file] *)
Definition check_file (f : pfile) (c : cst) : (option bytes + error) * cst :=
  match lk (c_pool c) (pf_desc f) (pf_encoded f) with
  | inl p => (inl (pf_path f), set_pool p c)
  | inr e => (inr (ECheck e), c)
  end.

Definition call_open (name : bytes) (c : cst) : cres pfile :=
  obind (r_open (rs (c_tick c)) name) (fun r => Done (r, tick c)).

(** The loop over the dependencies, compile/mod.rs:151-158 and 276-283. *)
Section Imports.
Variable add_import : bytes -> list bytes -> cst -> cres unit.
Fixpoint import_loop (f : pfile) (stack : list bytes) (deps : list bytes) (i : nat)
                     (already : list bytes) (c : cst) : cres unit :=
  match deps with
  | [] => Done (inl tt, c)
  | import :: r =>
    if existsb (bytes_eqb import) already then
      obind (duplicated_import import f i) (fun e => Done (inr e, c))
    else
      obind (add_import import stack c) (fun '(res, c') =>
      match res with
      | inr e => obind (into_import_error e f i) (fun e' => Done (inr e', c'))
      | inl _ => import_loop f stack r (S i) (import :: already) c'
      end)
  end.
End Imports.

(** compile/mod.rs:255-296 [add_import]. The import stack is pushed and popped
    around the loop; on an error it is left as it is, but nobody reads it
    any more. The recursion runs on fuel. *)
Fixpoint add_import (fuel : nat) (name : bytes) (stack : list bytes) (c : cst) : cres unit :=
  match fuel with
  | O => NoFuel
  | S fl =>
    if existsb (fun n => bytes_eqb n name) stack then
      Done (inr (ECircularImport name (flat_map (fun n => n ++ arrow) stack ++ name)), c)
    else match lookup name (c_files c) with
    | Some _ => Done (inl tt, c)
    | None =>
      obind (call_open name c) (fun '(r, c) =>
      match r with
      | inr e => Done (inr e, c)
      | inl f =>
        obind (import_loop (add_import fl) f (stack ++ [name]) (d_dependency (pf_desc f)) 0 [] c)
          (fun '(res, c) =>
        match res with
        | inr e => Done (inr e, c)
        | inl _ =>
          let '(res, c) := check_file f c in
          match res with
          | inr e => Done (inr e, c)
          | inl path =>
            Done (inl tt, set_files (insert name {| fm_name := name; fm_path := path; fm_is_import := true |} (c_files c)) c)
          end
        end)
      end)
    end
  end.

(** compile/mod.rs:129-169: the rest of [open_file], once the name is known. *)
Definition open_named (fuel : nat) (path name : bytes) (is_resolved : bool) (c : cst) : cres unit :=
  match lookup name (c_files c) with
  | Some m =>
    match (if is_resolved then check_shadow name (fm_path m) path else None) with
    | Some e => Done (inr e, c)
    | None =>
      Done (inl tt, set_files (insert name {| fm_name := fm_name m; fm_path := fm_path m; fm_is_import := false |} (c_files c)) c)
    end
  | None =>
    obind (call_open name c) (fun '(r, c) =>
    match r with
    | inr e => Done (inr (if is_file_not_found e then EFileNotIncluded path else e), c)
    | inl f =>
      match (if is_resolved then check_shadow name (pf_path f) path else None) with
      | Some e => Done (inr e, c)
      | None =>
        obind (import_loop (add_import fuel) f [name] (d_dependency (pf_desc f)) 0 [] c)
          (fun '(res, c) =>
        match res with
        | inr e => Done (inr e, c)
        | inl _ =>
          let '(res, c) := check_file f c in
          match res with
          | inr e => Done (inr e, c)
          | inl p =>
            Done (inl tt, set_files (insert name {| fm_name := name; fm_path := p; fm_is_import := false |} (c_files c)) c)
          end
        end)
      end
    end)
  end.

(** compile/mod.rs:117-170 [open_file] *)
Definition open_file (fuel : nat) (path : bytes) (c : cst) : cres unit :=
  match r_resolve (rs (c_tick c)) path with
  | Some name => open_named fuel path name true (tick c)
  | None =>
    match path_to_file_name (components path) with
    | Some name => open_named fuel path name false (tick c)
    | None => Done (inr (EFileNotIncluded path), tick c)
    end
  end.

(** compile/mod.rs:175-184 [open_files] *)
Fixpoint open_files (fuel : nat) (paths : list bytes) (c : cst) : cres unit :=
  match paths with
  | [] => Done (inl tt, c)
  | p :: r =>
    obind (open_file fuel p c) (fun '(res, c') =>
    match res with
    | inr e => Done (inr e, c')
    | inl _ => open_files fuel r c'
    end)
  end.
End Compiler.

(** [self.files[name]]: panics if absent. *)
Definition index_files (c : cst) (n : bytes) : out meta :=
  match lookup n (c_files c) with Some m => Done m | None => Panic end.

Fixpoint omap {A B} (f : A -> out B) (l : list A) : out (list B) :=
  match l with
  | [] => Done []
  | x :: r => obind (f x) (fun y => obind (omap f r) (fun ys => Done (y :: ys)))
  end.
Fixpoint ofilter {A} (f : A -> out bool) (l : list A) : out (list A) :=
  match l with
  | [] => Done []
  | x :: r => obind (f x) (fun y => obind (ofilter f r) (fun ys => Done (if y then x :: ys else ys)))
  end.

(** compile/mod.rs:251-253 [files] *)
Definition files (c : cst) : out (list meta) :=
  omap (fun d => index_files c (fd_name d)) (c_pool c).

(** compile/mod.rs:193 and 224, the filter closure *)
Definition emitted (c : cst) (d : file_desc) : out bool :=
  if c_include_imports c then Done true
  else obind (index_files c (fd_name d)) (fun m => Done (negb (fm_is_import m))).

(** [FileDescriptorProto { source_code_info: None, ..f }] *)
Definition clear_source_info (d : file_desc) : file_desc :=
  {| d_name := d_name d; d_package := d_package d; d_dependency := d_dependency d;
     d_public := d_public d; d_weak := d_weak d; d_message := d_message d; d_enum := d_enum d;
     d_service := d_service d; d_extension := d_extension d; d_options := d_options d;
     d_source_info := None; d_syntax := d_syntax d |}.

(** compile/mod.rs:189-207 [file_descriptor_set] *)
Definition file_descriptor_set (c : cst) : out (list file_desc) :=
  obind (ofilter (emitted c) (c_pool c)) (fun l =>
  Done (map (fun d => if c_include_source_info c then d else clear_source_info d) l)).

(** Length-delimited field 1, as prost encodes a repeated message field:
    key 0x0a, varint length, payload. *)
Fixpoint encode_varint_fuel (fuel : nat) (n : N) : bytes :=
  match fuel with
  | O => []
  | S f => if n <? 128 then [n] else (128 + n mod 128) :: encode_varint_fuel f (n / 128)
  end.
Definition encode_varint (n : N) : bytes := encode_varint_fuel 10 n.
Definition frame (e : bytes) : bytes := 10 :: encode_varint (len e) ++ e.

(** compile/mod.rs:213-241 [encode_file_descriptor_set]. [enc] is
    [FileDescriptor::encode_to_vec], [redec] is decoding into a
    [DynamicMessage], optionally clearing [source_code_info], and encoding again. *)
Definition encode_file_descriptor_set (enc : file_desc -> bytes) (redec : bool -> bytes -> bytes)
    (c : cst) : out bytes :=
  if c_include_imports c && c_include_source_info c then
    Done (flat_map (fun d => frame (enc d)) (c_pool c))
  else
    obind (ofilter (emitted c) (c_pool c)) (fun l =>
    Done (flat_map (fun d => frame (redec (negb (c_include_source_info c)) (enc d))) l)).

(** lib.rs:178-187 [compile] *)
Definition compile (rs : nat -> resolver) (lk : linker) (fuel : nat) (paths : list bytes)
  : out (list file_desc + error) :=
  let c := include_imports true (include_source_info true compiler_new) in
  obind (open_files rs lk fuel paths c) (fun '(res, c) =>
  match res with
  | inr e => Done (inr e)
  | inl _ => obind (file_descriptor_set c) (fun l => Done (inl l))
  end).
