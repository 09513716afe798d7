(** [ParseErrorKind], protox-parse/src/error.rs:21-216.
    [&'static str] and [String] payloads are bytes. *)
From Verif Require Import Base.

Inductive perr : Type :=
| InvalidToken (sp : span)
| IntegerOutOfRange (sp : span)
| InvalidStringCharacters (sp : span)
| UnterminatedString (sp : span)
| InvalidStringEscape (sp : span)
| InvalidUtf8String (sp : span)
| NestedBlockComment (sp : span)
| UnknownSyntax (syntax : bytes) (sp : span)
| InvalidIdentifier (sp : span)
| InvalidGroupName (sp : span)
| InvalidImport (sp : span)
| DuplicatePackage (first second : span)
| NoSpaceBetweenIntAndIdent (sp : span)
| HashCommentOutsideTextFormat (sp : span)
| FloatSuffixOutsideTextFormat (sp : span)
| UnexpectedToken (expected found : bytes) (sp : span)
| UnexpectedEof (expected : bytes)
| NegativeIdentOutsideDefault (sp : span)
| InvalidMessageNumber (sp : span)
| InvalidEnumNumber (sp : span)
| InvalidDefault (kind : bytes) (sp : span)
| Proto3DefaultValue (sp : span)
| InvalidExtendFieldKind (kind : bytes) (sp : span)
| RequiredExtendField (sp : span)
| MapFieldWithLabel (sp : span)
| OneofFieldWithLabel (sp : span)
| Proto2FieldMissingLabel (sp : span)
| Proto3GroupField (sp : span)
| Proto3RequiredField (sp : span)
| InvalidOneofFieldKind (kind : bytes) (sp : span)
| InvalidMapFieldKeyType (sp : span)
| ValueInvalidType (expected actual : bytes) (sp : span)
| IntegerValueOutOfRange (expected actual min max : bytes) (sp : span)
| EmptyOneof (sp : span)
| FileTooLarge.

(** Every span carried by an error (the [#[label]] fields). *)
Definition perr_spans (e : perr) : list span :=
  match e with
  | InvalidToken sp | IntegerOutOfRange sp | InvalidStringCharacters sp
  | UnterminatedString sp | InvalidStringEscape sp | InvalidUtf8String sp
  | NestedBlockComment sp | UnknownSyntax _ sp | InvalidIdentifier sp
  | InvalidGroupName sp | InvalidImport sp | NoSpaceBetweenIntAndIdent sp
  | HashCommentOutsideTextFormat sp | FloatSuffixOutsideTextFormat sp
  | UnexpectedToken _ _ sp | NegativeIdentOutsideDefault sp
  | InvalidMessageNumber sp | InvalidEnumNumber sp | InvalidDefault _ sp
  | Proto3DefaultValue sp | InvalidExtendFieldKind _ sp | RequiredExtendField sp
  | MapFieldWithLabel sp | OneofFieldWithLabel sp | Proto2FieldMissingLabel sp
  | Proto3GroupField sp | Proto3RequiredField sp | InvalidOneofFieldKind _ sp
  | InvalidMapFieldKeyType sp | ValueInvalidType _ _ sp
  | IntegerValueOutOfRange _ _ _ _ sp | EmptyOneof sp => [sp]
  | DuplicatePackage a z => [a; z]
  | UnexpectedEof _ | FileTooLarge => []
  end.

(** [ParseError::span] of the primary error, error.rs:241-279. *)
Definition perr_span (e : perr) : option span :=
  match e with
  | DuplicatePackage _ _ | UnexpectedEof _ | FileTooLarge => None
  | _ => match perr_spans e with sp :: _ => Some sp | [] => None end
  end.
