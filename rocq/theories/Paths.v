(** Unix paths: the parts of [std::path] that protox uses, and the path
    functions of protox/src/file/include.rs. A [Path] is the list of its bytes. *)
From Verif Require Import Base Utf8.

(** [std::path::Component] on unix (no prefixes). *)
Inductive comp : Type := RootDir | CurDir | ParentDir | Normal (name : bytes).

(** Split on ['/'], as [<[u8]>::split]. *)
Fixpoint split_slash (l : bytes) : list bytes :=
  match l with
  | [] => [[]]
  | c :: r =>
    match split_slash r with
    | s :: ss => if c =? slash then [] :: s :: ss else (c :: s) :: ss
    | [] => [[c]]   (* unreachable *)
    end
  end.

Definition is_absolute (p : bytes) : bool :=
  match p with c :: _ => c =? slash | [] => false end.

(** Components of the part between separators: empty parts and ["."] vanish. *)
Definition seg_comp (s : bytes) : list comp :=
  if bytes_eqb s [] then []
  else if bytes_eqb s (b ".") then []
  else if bytes_eqb s (b "..") then [ParentDir]
  else [Normal s].

(** [Path::components]: a leading ["."] is kept as [CurDir], a leading slash is
    [RootDir], other ["."] and empty parts are skipped. *)
Definition components (p : bytes) : list comp :=
  let body := flat_map seg_comp (split_slash p) in
  if is_absolute p then RootDir :: body
  else match split_slash p with
       | s :: _ => if bytes_eqb s (b ".") then CurDir :: body else body
       | [] => body
       end.

(** [Path::join] (PathBuf::push). *)
Definition path_join (base p : bytes) : bytes :=
  if is_absolute p then p
  else match base with
       | [] => p
       | _ => if last base 0 =? slash then base ++ p else base ++ [slash] ++ p
       end.

Definition comp_eqb (x y : comp) : bool :=
  match x, y with
  | RootDir, RootDir | CurDir, CurDir | ParentDir, ParentDir => true
  | Normal a, Normal c => bytes_eqb a c
  | _, _ => false
  end.

(** include.rs:72-95 [path_to_file_name], on the components of the path. *)
Fixpoint file_name_loop (cs : list comp) (name : bytes) : option bytes :=
  match cs with
  | [] => if bytes_eqb name [] then None else Some name
  | Normal c :: r =>
    if utf8_valid c then
      file_name_loop r ((if bytes_eqb name [] then name else name ++ [slash]) ++ c)
    else None
  | _ :: _ => None
  end.
Definition path_to_file_name (cs : list comp) : option bytes := file_name_loop cs [].

(** include.rs:121-141 [path_eq] (each step removes a component). *)
Fixpoint path_eq_loop (fuel : nat) (l r : list comp) : bool :=
  match fuel with
  | O => false  (* unreachable with enough fuel, see [path_eq] *)
  | S f =>
    match l, r with
    | [], [] => true
    | CurDir :: l', _ => path_eq_loop f l' r
    | _, CurDir :: r' => path_eq_loop f l r'
    | x :: l', y :: r' => if comp_eqb x y then path_eq_loop f l' r' else false
    | _, _ => false
    end
  end.
Definition path_eq (l r : bytes) : bool :=
  path_eq_loop (S (length (components l) + length (components r))) (components l) (components r).

(** include.rs:144-170 [iter_after]. [None] for no match. *)
Fixpoint iter_after (fuel : nat) (iter prefix : list comp) : option (list comp) :=
  match fuel with
  | O => None   (* unreachable with enough fuel, see [strip_prefix] *)
  | S f =>
    match iter, prefix with
    | CurDir :: i', _ => iter_after f i' prefix
    | _, CurDir :: p' => iter_after f iter p'
    | x :: i', y :: p' => if comp_eqb x y then iter_after f i' p' else None
    | _ :: _, [] => Some iter
    | [], [] => Some iter
    | [], _ :: _ => None
    end
  end.
(** include.rs:116-118 [strip_prefix]; [Components::as_path] of the rest is
    kept as the list of remaining components, which is what [components] gives
    for it: the only use of the result is to iterate over its components. *)
Definition strip_prefix (path prefix : bytes) : option (list comp) :=
  iter_after (S (length (components path) + length (components prefix)))
             (components path) (components prefix).

(** include.rs:32-40 [IncludeFileResolver::resolve_path]. *)
Definition include_resolve_path (include path : bytes) : option bytes :=
  match strip_prefix path include with
  | Some rel => path_to_file_name rel
  | None => None
  end.

(** Tests of include.rs and file/tests.rs. *)
Example components_1 : components (b "./a//b/./../c/") = [CurDir; Normal (b "a"); Normal (b "b"); ParentDir; Normal (b "c")].
Proof. reflexivity. Qed.
Example components_2 : components (b "//a") = [RootDir; Normal (b "a")]. Proof. reflexivity. Qed.
Example components_3 : components (b "") = []. Proof. reflexivity. Qed.
Example components_4 : components (b "/./a") = [RootDir; Normal (b "a")]. Proof. reflexivity. Qed.
Example include_tests :
  map (include_resolve_path (b "/path/to/include"))
    [b "/path/to/include/foo.proto"; b "/path/nope/include/foo.proto"; b "/path/./to/include/foo.proto";
     b "/path/to/include"; b "/path/to/../to/include/foo.proto"; b "/path/to"; b "/path/to/include/dir/foo.proto";
     b "/path/to/include/./foo.proto"; b "/path/to/include/dir/./foo.proto"; b "/path/to/include/dir/../foo.proto";
     path_join (b "/path/to/include") [0; 159; 146; 150]]
  = [Some (b "foo.proto"); None; Some (b "foo.proto"); None; None; None; Some (b "dir/foo.proto");
     Some (b "foo.proto"); Some (b "dir/foo.proto"); None; None].
Proof. vm_compute. reflexivity. Qed.
Example include_tests_2 :
  include_resolve_path (path_join (b "/path/to/include") [0; 159; 146; 150])
    (path_join (path_join (b "/path/to/include") [0; 159; 146; 150]) (b "foo.proto")) = Some (b "foo.proto").
Proof. vm_compute. reflexivity. Qed.
