(** Model of how errors are printed: [Display] and [Debug] of [ParseError]
    (protox-parse/src/error.rs) and of [Error] (protox/src/error.rs). *)
From Verif Require Import Base Utf8 Errors Descriptor ParseApi Paths Resolver.

Definition quoted (x : bytes) : bytes := b "'" ++ x ++ b "'".

(** [Display for ParseErrorKind] (the [#[error]] attributes), protox-parse/src/error.rs:21-207. *)
Definition perr_text (e : perr) : bytes :=
  match e with
  | InvalidToken _ => b "invalid token"
  | IntegerOutOfRange _ => b "integer is too large"
  | InvalidStringCharacters _ => b "invalid string character"
  | UnterminatedString _ => b "unterminated string"
  | InvalidStringEscape _ => b "invalid string escape"
  | InvalidUtf8String _ => b "string is not valid utf-8"
  | NestedBlockComment _ => b "nested block comments are not supported"
  | UnknownSyntax s _ => b "unknown syntax " ++ quoted s
  | InvalidIdentifier _ => b "invalid identifier"
  | InvalidGroupName _ => b "invalid group name"
  | InvalidImport _ => b "invalid group name"
  | DuplicatePackage _ _ => b "multiple package names specified"
  | NoSpaceBetweenIntAndIdent _ => b "whitespace is required between an integer literal and an identifier"
  | HashCommentOutsideTextFormat _ => b "'#' comments are not allowed here"
  | FloatSuffixOutsideTextFormat _ => b "'f' suffix for float literals is not allowed"
  | UnexpectedToken expected found _ => b "expected " ++ expected ++ b ", but found " ++ quoted found
  | UnexpectedEof expected => b "expected " ++ expected ++ b ", but reached end of file"
  | NegativeIdentOutsideDefault _ => b "identifiers may not be negative"
  | InvalidMessageNumber _ => b "message numbers must be between 1 and 536870911"
  | InvalidEnumNumber _ => b "enum numbers must be between -2147483648 and 2147483647"
  | InvalidDefault kind _ => kind ++ b " fields may not have default values"
  | Proto3DefaultValue _ => b "default values are not allowed in proto3"
  | InvalidExtendFieldKind kind _ => kind ++ b " fields are not allowed in extensions"
  | RequiredExtendField _ => b "extension fields may not be required"
  | MapFieldWithLabel _ => b "map fields cannot have labels"
  | OneofFieldWithLabel _ => b "oneof fields cannot have labels"
  | Proto2FieldMissingLabel _ => b "fields must have a label with proto2 syntax (expected one of 'optional', 'repeated' or 'required')"
  | Proto3GroupField _ => b "groups are not allowed in proto3 syntax"
  | Proto3RequiredField _ => b "required fields are not allowed in proto3 syntax"
  | InvalidOneofFieldKind kind _ => kind ++ b " fields are not allowed in a oneof"
  | InvalidMapFieldKeyType _ => b "a map field key type must be an integer, boolean or string"
  | ValueInvalidType expected actual _ => b "expected value to be " ++ expected ++ b ", but found " ++ quoted actual
  | IntegerValueOutOfRange expected actual _ _ _ => b "expected value to be " ++ expected ++ b ", but the value " ++ actual ++ b " is out of range"
  | EmptyOneof _ => b "a oneof must have at least one field"
  | FileTooLarge => b "file is too large"
  end.

(** [SourceCode::read_span(span, 0, 0)] of miette 7 ([context_info] in
    source_impls.rs, reconstructed), as far as [line()] and [column()] go: the
    loop over the bytes, which treats [\r\n] as one line end, with no context
    lines before and after. [start] and [n] are the offset and length of the
    span. The last offset, line and column; with no context lines after, the
    loop stops at the last byte of the span. *)
Fixpoint span_loop (start n : N) (l : bytes) (offset line column : N) : N * N * N :=
  match l with
  | [] => (offset, line, column)
  | c :: r =>
    let step offset r' loop :=
      let '(line, column) :=
        if (c =? 10) || (c =? 13) then (if offset <? start then (line + 1, 0) else (line, column))
        else if offset <? start then (line, column + 1) else (line, column) in
      if start + n - 1 <=? offset then (offset + 1, line, column) else loop r' (offset + 1) line column in
    match r with
    | d :: r' => if (c =? 13) && (d =? 10) then step (offset + 1) r' (span_loop start n) else step offset r (span_loop start n)
    | [] => step offset r (span_loop start n)
    end
  end.
(** [Ok((line, column))], or [None] for [OutOfBounds]. The contents are
    [&input[start..offset]], which panics if [offset < start]. *)
Definition read_span (src : bytes) (start n : N) : out (option (N * N)) :=
  let '(offset, line, column) := span_loop start n src 0 0 0 in
  if start + n - 1 <=? offset then (if start <=? offset then Done (Some (line, column)) else Panic) else Done None.
Definition position_text (p : N * N) : bytes := dec (fst p + 1) ++ b ":" ++ dec (snd p + 1) ++ b ": ".

(** [Display] and [Debug for ParseError], protox-parse/src/error.rs:10-19, 282-301.
    [NamedSource::read_span] always gives the name. *)
Definition parse_error_text (e : parse_error) : bytes := perr_text (pe_kind e).
Definition parse_error_debug (e : parse_error) : out bytes :=
  match perr_span (pe_kind e) with
  | Some sp =>
    obind (read_span (pe_source e) (s_start sp) (s_end sp - s_start sp)) (fun r =>
    Done (match r with Some p => pe_name e ++ b ":" ++ position_text p | None => [] end ++ parse_error_text e))
  | None => Done (parse_error_text e)
  end.

(** What other crates print: [io::Error], prost-reflect's [DescriptorError] and
    errors of custom resolvers. *)
Record texts : Type := {
  t_io : iokind -> bytes;
  t_check : option bytes -> bytes; t_check_debug : option bytes -> bytes;
  t_custom : bool -> bytes; t_custom_debug : bool -> bytes }.
Section Texts.
Variable tx : texts.
(** [Path::display]. *)
Definition path_display (p : bytes) : bytes := utf8_lossy p.
(** [Display for ErrorKind], protox/src/error.rs:18-70. *)
Definition error_text (e : error) : bytes :=
  match e with
  | EParse err => parse_error_text err
  | ECheck f => t_check tx f
  | EOpenFile _ path _ => b "error opening file " ++ quoted (path_display path)
  | EFileTooLarge n => b "file " ++ quoted n ++ b " is too large"
  | EFileInvalidUtf8 n => b "file " ++ quoted n ++ b " is not valid utf-8"
  | EFileNotFound n => b "file " ++ quoted n ++ b " not found"
  | EImportNotFound _ _ _ n => b "import " ++ quoted n ++ b " not found"
  | ECircularImport _ cycle => b "import cycle detected: " ++ cycle
  | EFileNotIncluded path => b "file " ++ quoted (path_display path) ++ b " is not in any include path"
  | EFileShadowed _ path shadow => b "path " ++ quoted (path_display path) ++ b " is shadowed by " ++ quoted (path_display shadow) ++ b " in the include paths"
  | EDuplicateImport _ _ _ n => b "import " ++ quoted n ++ b " was listed twice"
  | ECustom io => t_custom tx io
  end.
(** [Debug for Error], protox/src/error.rs:217-252. *)
Definition error_debug (e : error) : out bytes :=
  match e with
  | EParse err => parse_error_debug err
  | ECheck f => Done (t_check_debug tx f)
  | EOpenFile _ _ io => Done (error_text e ++ b ": " ++ t_io tx io)
  | EFileTooLarge _ | EFileInvalidUtf8 _ | EFileNotFound _ | ECircularImport _ _ | EFileNotIncluded _ | EFileShadowed _ _ _ => Done (error_text e)
  | ECustom io => Done (t_custom_debug tx io)
  | EDuplicateImport sp name src _ | EImportNotFound sp name src _ =>
    obind (match sp with Some s => read_span src (fst s) (snd s) | None => Done None end) (fun r =>
    Done (name ++ b ":" ++ match r with Some p => position_text p | None => [] end ++ error_text e))
  end.
(** [Diagnostic::help], protox/src/error.rs:34, 53 and protox-parse/src/error.rs
    (the [#[diagnostic(help)]] attributes of [ParseErrorKind], lines 59-82, 199, 214;
    protox-parse/src/error.rs:10-19 forwards to the kind). The help of prost-reflect's
    errors and of custom errors (which have none) is left out. *)
Definition perr_help (e : perr) : option bytes :=
  match e with
  | UnknownSyntax _ _ => Some (b "possible values are 'proto2' and 'proto3'")
  | InvalidIdentifier _ => Some (b "identifiers must consist of letters, numbers and underscores, and may not start with a number")
  | InvalidGroupName _ => Some (b "group names must consist of a capital letter followed by letters, numbers and underscores")
  | InvalidImport _ => Some (b "imports may not contain backslashes, repeated forward slashes, '.' or '..' components")
  | IntegerValueOutOfRange _ _ lo hi _ => Some (b "the value must be between " ++ lo ++ b " and " ++ hi ++ b " inclusive")
  | FileTooLarge => Some (b "the maximum file length is 2,147,483,647 bytes")
  | _ => None
  end.
Definition error_help (e : error) : option bytes :=
  match e with
  | EParse err => perr_help (pe_kind err)
  | EFileTooLarge _ => Some (b "the maximum file length is 2,147,483,647 bytes")
  | EFileShadowed _ path shadow => Some (b "either pass " ++ quoted (path_display shadow) ++ b " as the input file, or re-order the include paths so that " ++ quoted (path_display path) ++ b " comes first")
  | _ => None
  end.
End Texts.
