(** Model of protox/src/error.rs and protox/src/file/{mod,chain,google,include}.rs. *)
From Verif Require Import Base Utf8 Errors Lex Ast Comments Parse Lines Descriptor Generate ParseApi Paths.

(** [File], file/mod.rs:62-68. *)
Record pfile : Type := {
  pf_path : option bytes;
  pf_source : option bytes;
  pf_desc : file_desc;
  pf_encoded : option bytes }.

(** [FileDescriptorProto::name()]: empty if unset (prost accessor). *)
Definition fd_name (d : file_desc) : bytes := match d_name d with Some n => n | None => [] end.
(** file/mod.rs:233-235 *)
Definition pf_name (f : pfile) : bytes := fd_name (pf_desc f).

(** [io::ErrorKind], as far as it is inspected. *)
Inductive iokind : Type := IoNotFound | IoInvalidData | IoOther.

(** [ErrorKind], error.rs:18-70. The payload of [Check] is the file reported by
    prost-reflect's error; a [Custom] error is tagged by whether it is an
    [io::Error]. [NamedSource] is its name and text. *)
Inductive error : Type :=
| EParse (err : parse_error)
| ECheck (file : option bytes)
| EOpenFile (name path : bytes) (err : iokind)
| EFileTooLarge (name : bytes)
| EFileInvalidUtf8 (name : bytes)
| EFileNotFound (name : bytes)
| EImportNotFound (sp : option (N * N)) (source_name source : bytes) (name : bytes)
| ECircularImport (name cycle : bytes)
| EFileNotIncluded (path : bytes)
| EFileShadowed (name path shadow : bytes)
| EDuplicateImport (sp : option (N * N)) (source_name source : bytes) (name : bytes)
| ECustom (is_io : bool).

(** [Error::file], error.rs:91-106. *)
Definition err_file (e : error) : option bytes :=
  match e with
  | EParse err => Some (pe_name err)
  | ECheck f => f
  | EOpenFile n _ _ | EFileTooLarge n | EFileInvalidUtf8 n | EFileNotFound n
  | ECircularImport n _ | EFileShadowed n _ _ => Some n
  | EFileNotIncluded _ => None
  | ECustom _ => None
  | EImportNotFound _ s _ _ | EDuplicateImport _ s _ _ => Some s
  end.
(** error.rs:120-127 *)
Definition is_file_not_found (e : error) : bool :=
  match e with EFileNotFound _ | EImportNotFound _ _ _ _ | EFileNotIncluded _ => true | _ => false end.
(** error.rs:130-137 *)
Definition is_parse (e : error) : bool :=
  match e with EParse _ | EFileTooLarge _ | EFileInvalidUtf8 _ => true | _ => false end.
(** error.rs:140-146 *)
Definition is_io (e : error) : bool :=
  match e with EOpenFile _ _ _ => true | ECustom io => io | _ => false end.

(** miette [SourceOffset::from_location] (1-based line and column, counted in
    characters): the loop over [source.chars()]. A character is a lead byte and
    its continuation bytes. *)
Fixpoint from_location (src : bytes) (line col loc_line loc_col offset : N) : N :=
  match src with
  | [] => offset
  | c :: r =>
    if is_cont c then from_location r line col loc_line loc_col (offset + 1)
    else if (loc_line <=? line + 1) && (loc_col <=? col + 1) then offset
    else if c =? 10 then from_location r (line + 1) 0 loc_line loc_col (offset + 1)
    else from_location r line (col + 1) loc_line loc_col (offset + 1)
  end.

(** error.rs:176-196 [find_import_span]. The casts [as usize] of negative
    numbers and the subtraction can go wrong only for hand-made locations, which
    come without a source ([File::from_file_descriptor_proto]); they are [Panic]. *)
Definition list_Z_eqb (x y : list Z) : bool := if list_eq_dec Z.eq_dec x y then true else false.
Fixpoint find_span (locs : list location) (src : bytes) (idx : Z) : out (option (N * N)) :=
  match locs with
  | [] => Done None
  | l :: r =>
    if list_Z_eqb (loc_path l) [3; idx]%Z then
      match loc_span l with
      | [sl; sc; ec] =>
        if (sl <? 0)%Z || (sc <? 0)%Z || (ec <? 0)%Z || (ec <? sc)%Z then Panic
        else Done (Some (from_location src 0 0 (Z.to_N sl + 1) (Z.to_N sc + 1) 0,
                         (Z.to_N ec + 1) - (Z.to_N sc + 1)))
      | _ => find_span r src idx
      end
    else find_span r src idx
  end.
Definition find_import_span (f : pfile) (idx : nat) : out (option (N * N)) :=
  match d_source_info (pf_desc f) with
  | Some locs =>
    match pf_source f with
    | Some src => find_span locs src (Z.of_nat idx)
    | None => Done None
    end
  | None => Done None
  end.

(** [file.source().unwrap_or_default()], error.rs:152, 166. *)
Definition pf_text (f : pfile) : bytes := match pf_source f with Some s => s | None => [] end.
(** error.rs:148-162 [into_import_error]. *)
Definition into_import_error (e : error) (f : pfile) (idx : nat) : out error :=
  match e with
  | EFileNotFound name =>
    obind (find_import_span f idx) (fun sp => Done (EImportNotFound sp (pf_name f) (pf_text f) name))
  | _ => Done e
  end.
(** error.rs:164-173 [duplicated_import]. *)
Definition duplicated_import (name : bytes) (f : pfile) (idx : nat) : out error :=
  obind (find_import_span f idx) (fun sp => Done (EDuplicateImport sp (pf_name f) (pf_text f) name)).

(** include.rs:97-114 [check_shadow]. *)
Definition check_shadow (file : bytes) (actual : option bytes) (expected : bytes) : option error :=
  match actual with
  | Some a => if path_eq a expected then None else Some (EFileShadowed file expected a)
  | None => None
  end.

(** Results of [FileResolver::open_file]: a file, an error, or a panic of the
    resolver itself. *)
Definition result (A : Type) := out (A + error)%type.

(** [FileResolver], file/mod.rs:34-46. *)
Record resolver : Type := {
  r_resolve : bytes -> option bytes;
  r_open : bytes -> result pfile }.

(** ** The file system, as an oracle: [fs::File::open], [metadata().len()] and
    the bytes that reading gives. *)
Record fs_file : Type := { fs_len : iokind + N; fs_read : iokind + bytes }.
Definition filesystem := bytes -> iokind + fs_file.

Section Open.
Variables (k : cfg) (sort : list location -> list location) (fs : filesystem).

(** file/mod.rs:120-132 [map_io_err] *)
Definition map_io_err (name path : bytes) (e : iokind) : error :=
  match e with
  | IoNotFound => EFileNotFound name
  | IoInvalidData => EFileInvalidUtf8 name
  | IoOther => EOpenFile name path IoOther
  end.

(** file/mod.rs:119-156 [File::open]; [read_to_string] of [take(MAX_FILE_LEN)]
    fails with [InvalidData] if the bytes read are not UTF-8. *)
Definition file_open (name path : bytes) : result pfile :=
  match fs path with
  | inl e => Done (inr (map_io_err name path e))
  | inr h =>
    match fs_len h with
    | inl e => Done (inr (map_io_err name path e))
    | inr n =>
      if i32_max <? n then Done (inr (EFileTooLarge name))
      else match fs_read h with
        | inl e => Done (inr (map_io_err name path e))
        | inr content =>
          let buf := firstn (N.to_nat i32_max) content in
          if utf8_valid buf then
            obind (parse k sort name buf) (fun '(r, _) =>
            match r with
            | inl d => Done (inl {| pf_path := Some path; pf_source := Some buf; pf_desc := d; pf_encoded := None |})
            | inr e => Done (inr (EParse e))
            end)
          else Done (inr (map_io_err name path IoInvalidData))
        end
    end
  end.

(** file/mod.rs:189-198 [File::from_source] *)
Definition file_from_source (name src : bytes) : result pfile :=
  obind (parse k sort name src) (fun '(r, _) =>
  match r with
  | inl d => Done (inl {| pf_path := None; pf_source := Some src; pf_desc := d; pf_encoded := None |})
  | inr e => Done (inr (EParse e))
  end).

(** file/mod.rs:203-210 [File::from_file_descriptor_proto] *)
Definition file_from_desc (d : file_desc) : pfile :=
  {| pf_path := None; pf_source := None; pf_desc := d; pf_encoded := None |}.

(** include.rs:20-70 [IncludeFileResolver] *)
Definition include_resolver (include : bytes) : resolver :=
  {| r_resolve := include_resolve_path include;
     r_open := fun name => file_open name (path_join include name) |}.

(** google.rs:40-60 [GoogleFileResolver]; the embedded sources (git submodule,
    not in /repo) are the function [google]. *)
Definition google_names : list bytes :=
  [b "google/protobuf/any.proto"; b "google/protobuf/api.proto"; b "google/protobuf/descriptor.proto";
   b "google/protobuf/duration.proto"; b "google/protobuf/empty.proto"; b "google/protobuf/field_mask.proto";
   b "google/protobuf/source_context.proto"; b "google/protobuf/struct.proto"; b "google/protobuf/timestamp.proto";
   b "google/protobuf/type.proto"; b "google/protobuf/wrappers.proto"; b "google/protobuf/compiler/plugin.proto"].
Definition google_resolver (google : bytes -> bytes) : resolver :=
  {| r_resolve := fun _ => None;
     r_open := fun name =>
       if existsb (bytes_eqb name) google_names then file_from_source name (google name)
       else Done (inr (EFileNotFound name)) |}.
End Open.

(** chain.rs:31-53 [ChainFileResolver] *)
Fixpoint chain_resolve (rs : list resolver) (path : bytes) : option bytes :=
  match rs with
  | [] => None
  | r :: rs' => match r_resolve r path with Some n => Some n | None => chain_resolve rs' path end
  end.
Fixpoint chain_open (rs : list resolver) (name : bytes) : result pfile :=
  match rs with
  | [] => Done (inr (EFileNotFound name))
  | r :: rs' =>
    obind (r_open r name) (fun x =>
    match x with
    | inl f => Done (inl f)
    | inr e => if is_file_not_found e then chain_open rs' name else Done (inr e)
    end)
  end.
Definition chain_resolver (rs : list resolver) : resolver :=
  {| r_resolve := chain_resolve rs; r_open := chain_open rs |}.

(** compile/mod.rs:61-77 [Compiler::new]: include resolvers, then Google's. *)
Definition default_resolver k sort fs google (includes : list bytes) : resolver :=
  chain_resolver (map (include_resolver k sort fs) includes ++ [google_resolver k sort google]).
