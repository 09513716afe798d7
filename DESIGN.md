# Formal model of protox (Rocq/Coq 8.16.1)

This file was written before the proofs and is kept current. It says what is
modelled, how every property is to be proved, what is trusted, and what the
work found out about the code.

## 1. Shape of the model

All model files are under `rocq/theories/`. Each definition carries a comment
citing the file and lines in /repo it models.

| layer | file | code modelled |
|---|---|---|
| bytes, UTF-8 | `Base.v`, `Utf8.v` | `&str`/`[u8]` as `list N`; `str::from_utf8`, `from_utf8_lossy`, `char::encode_utf8`, decimal printing, `from_str_radix`, `ascii::escape_default` |
| lexer | `Lex.v` | protox-parse/src/lex/mod.rs (all callbacks; the logos-generated automaton is reconstructed) |
| AST | `Ast.v` | protox-parse/src/ast/mod.rs |
| comments | `Comments.v` | protox-parse/src/parse/comments.rs |
| parser | `Parse.v` | protox-parse/src/parse/mod.rs (every function) |
| lines | `Lines.v` | protox-parse/src/generate/lines.rs |
| generator | `Descriptor.v`, `Generate.v` | protox-parse/src/generate/mod.rs, tag.rs, case.rs |
| parse API | `ParseApi.v` | protox-parse/src/lib.rs, error.rs |
| paths | `Paths.v` | unix `std::path` components; protox/src/file/mod.rs path functions |
| resolvers | `Resolver.v`, `DescSet.v` | protox/src/file/{chain,google,include,descriptor_set,mod}.rs |
| compiler | `Compiler.v` | protox/src/compile/mod.rs, lib.rs, error.rs |

### Modelling decisions

* **Bytes.** A source is `list N`; Rust guarantees it is valid UTF-8, which we
  assume only in theorems that need it.
* **Panics, asserts and fuel are explicit outcomes.** `debug_assert!` failures
  are recorded in the lexer state (`l_assert`); `parse_debug` panics on them,
  `parse` (a release build) goes on. Loops run on fuel
  and have an explicit out-of-fuel outcome that is proved unreachable.
* **Lexer.** logos is not in the sandbox. Its automaton is reconstructed as a
  hand-written longest-match scanner. One known deviation of logos 0.15 from
  longest match (the regression test `prop_regression_1`, lex/tests.rs, shows
  `08` being one `IntLiteral(0)`) is a configuration flag `munch_ideal`:
  `false` is the behaviour that test demonstrates, `true` is the ideal. All
  theorems are for both values unless they say otherwise. An error token is
  one character long.
* **Floats** are symbolic: a float is the text that denotes it plus a sign
  (`f64` parsing and printing are oracles, universally quantified).
* **Parser** is a state monad over the lexer state, the one-token lookahead,
  the error list and the comment state, following the Rust control flow.
* **Generator** is a state monad with the mutable path stack kept explicit.
  `sort_unstable` on locations is any function returning a sorted permutation.
* **prost-reflect's `DescriptorPool`** (the linker) is an oracle whose assumed
  behaviour is a visible premise of each compiler theorem that needs it.
* **Resolvers** in compiler theorems are arbitrary functions that may answer
  differently from one call to the next.
* **File system** is an oracle function from paths to results.

## 2. Properties: what is modelled and how each is proved

Theorem names start with the property's id. "Spec" names the small separate
specification file or the vocabulary block the statements rest on; those files
do not mention the functions the theorem is about.

| id | file | spec | how it is proved |
|---|---|---|---|
| C01 | PropsParse | – | the lexer consumes input (LexSafe), so fuel linear in the source suffices for the parser (Walk: measure = bytes left); the generator never panics on well-formed declarations (GenProofs, AstWfG); errors are non-empty on failure |
| C02 | PropsParse | `bad_run` | the assertion flag is only set at a digit run of the bad class, and only together with an error: what release accepts, debug accepts identically; witness for `018` |
| C03 | PropsParse, PropsTokens | Grammar, LexSpec | every parser function returns only sentences of the grammar (weakest preconditions in Walk, WalkG1–3); tokens are what is written (`written`) |
| C04 | PropsComplete | Grammar | completeness by induction on grammar derivations (Complete1–3); unambiguity; two deviations proved |
| C05 | PropsComplete, PropsInsert, SameTokens | SpaceSpec (`spacing`, `between`) | declarations modulo positions are a function of the token values (C03+C04 determinism), and the meaning ignores positions and comments (Erase); `C05_insert` is the textual form: lexing is local (Insert), so spacing and comments written between two tokens change no significant token; `C05_both_accepted`: two accepted sources with equal tokens have a common respelling that is clean under the modes of both, so completeness gives both the same tree up to positions |
| C06 | PropsParse | – | `mclean`: the whole source was lexed without error |
| C07 | PropsLex1, PropsLex | LexSpec (regular expressions transcribed from the derive attributes) | longest match of the scanner for every pattern; tiling by induction |
| C08–C10 | PropsLex, PropsStr, PropsTokens | LexSpec `int_literal`, StrSpec `decodes` | lexer level (sound, complete, unique), then for all tokens of accepted files |
| C11 | PropsStr, PropsTokens | StrSpec | round trip by induction on bytes, lifted to all bytes fields |
| C12 | PropsAggregate (AstOpts) | `lexes_to`, `same_token`, `prints_finite` | each token's text followed by a blank lexes to it; induction over the tokens; AstOpts ties each option to the tokens it is written with |
| C13 | PropsLines | newline counting | binary search against counting |
| C14, C15 | PropsLoc | LocSpec (`leads`, `covers`) | locations of a file are `l_file` (Meaning, GenProofs); induction over declarations |
| C16–C21 | PropsDesc, PropsDesc2 | DescSpec | elements at any depth of the denoted descriptor come from declarations (DescLemmas) |
| C22, C24, C26, C27 | PropsParse | – | parser/generator correctness |
| C23 | PropsOpts | `option_means` | both directions between written and stored options |
| C25 | PropsAttach (Attach, AttachDecl) | AttachSpec | comment state invariant tied to the token stream; each declaration starts and ends its head at tokens of its own |
| C30–C39 | PropsCompiler (CompilerProofs, CompilerHistory) | `history` | invariants over arbitrary histories of API calls, resolver answers may change from call to call |
| C40, C46 | PropsDescSet | protobuf wire format | encode/decode by induction, skip_field |
| C41, C42, C43 | PropsPaths, PropsParse | component lists | resolver composition and path algebra |
| C44, C45 | PropsCompiler | `history` | case analysis on the compiler's outcomes |
| C47 | PropsImport | – | the reported span of a failing import covers the quoted name when written on one line in ASCII |
| C48–C50 | PropsDefault | `regular`, `missing`, `bundled` | `File::open`, the default resolver, and `compile` composed from the parts |
| C51 | PropsTree (AstNest) | LocTree (`children`, `documented`, `inside`, `placed`) | nesting of spans from the grammar; induction over the syntax tree, each child of a descriptor found among the generated locations |
| C52 | PropsMain | `codable`, `given` | the program is `open_files` and `encode_file_descriptor_set`; options commute with opening (C39), decoding by C40 |
| C53 | PropsErr | ErrSpec (`nodes`, `flaw`, `breaks`) | Hoare-style predicate `es m Q` (m reports exactly Q) through every function of the generator; induction over the syntax tree |
| C54 | PropsSyn | SynSpec (`truth`, `fault`, `lossy`, `expects`) | the parser's invariant (Walk) says every error collected so far is true, through recovery; the lexer's errors are read off its callbacks (LexErr); the texts after "expected" are decoded and compared with the tests the code made before reporting |
| C55 | PropsLocal (Local) | SpaceSpec (`spaced`) | relational: two runs of the parser on texts sharing a prefix agree until one asks for the token after it; every parser function keeps the pair in step, one token behind, or already holding the same first error |
| C56 | PropsViable (Kept, Keeps, Viable1–4, ViableText, ViableDup) | Grammar (`accepted`) | the parser walks along with the grammar: at every point where it can report an unexpected token, the tokens consumed so far start a sentence whose rest consists of simple tokens; the rest is written out, lexed back, and parsed by the completeness theorem |
| C57 | PropsPath (PathOnce) | PathSpec (`element`, `shared`) | induction over the declarations: the locations of each declaration go on from its path, siblings differ in the next tag or index; the sort is a permutation |
| C58 | PropsNest (Lam) | SpanSpec (`covered`, `nested_or_apart`) | induction over the grammar: the spans of a declaration lie between its first and last token and are pairwise nested or apart; line and column grow with the offset |
| C59 | PropsSum (Weaken, Ends) | SumSpec (`file_sum`) | the two readings are glued at the newline (lexing is local), the two derivations are appended (the grammar is monotone in what it says about comments), completeness (C04) gives the descriptor, which is a homomorphism; conversely no declaration is a proper beginning of another (brace counting over the whole grammar, Ends), so the derivation of the longer file is cut where the shorter one ends |
| C60 | PropsOpen | OpenSpec (`openable`, `complete_closure`, `links`) | completeness by the classification of all errors of open_file (none of the causes is there) and termination; the other direction from the invariant |
| C61 | PropsBoundary (CharEdge, Edge) | EdgeSpec (`char_boundary`, `slice`) | each step of the lexer leaves UTF-8 text before and after the token (a text can be cut before a non-continuation byte and after a 7-bit byte); the spans of all declarations are joins of token spans, by induction over the grammar; the error spans are among these by the characterisations of C53 and C54, or are 7-bit text |
| C62 | PropsText (ErrText) | TextSpec (`place`), ErrSpec (the number rules, for the printed bounds) | miette's loop over the source computes the line and column of the span's start, by induction over the text; the spans are those of C24 and C47, so the slice never panics; the texts are concatenations |
| C63 | WriteProofs, WriteFields, WriteMessage, WriteFile, WriteLex, PropsWrite | WriteSpec (a writer from descriptors to tokens and text; the class `writable`) | the written tokens are a sentence of Grammar.v whose meaning (Meaning.v) is the descriptor, by induction over the descriptor; the text is lexed back to these tokens (SameTokens); C04_complete then gives the parse |
| C64 | WriteBack, WriteBack2, WriteBack3, WriteBack4, PropsWriteBack | WriteSpec (`write`, `writable`, and the exclusions `plain_file`) | from an accepted text: its tokens are plain (C12's lemma), so by induction over the derivation of Grammar.v and the rules of Meaning.v the denoted descriptor is `writable`; C63 then parses its text |
| C65 | PropsName | `named_desc`, `named_error` (record updates), `sorting` (PropsLoc), `shared` (PathSpec) | the generator uses the name in one place (commutation of relabelling with bind); two sorted permutations have the same list of keys, and by C57 a key that is not shared determines its element |
| C66 | PropsAdvice (ErrText: `error_help`) | `follows`, `shadowed`, `found`, `ignores_dots` (in PropsAdvice), `missing` (PropsDefault), `lossy` (SynSpec) | the index of the shadowing directory falls by two with every further step: the advised path exists (the text parses under any name, C65), so it resolves in a strictly earlier directory (or to the same name, which earlier directories lack) and is shadowed in a still earlier one |
| C67 | PropsHelp (ErrText: `perr_help`) | HelpSpec (the rules quoted), SynSpec (`string_at`, `lossy`), Grammar (`word`, `capitalised`, `relative_path`), ErrSpec (`literal`, `int_value`) | by cases from C54 and C53: the errors of grammatical sources have no help but ranges; the exceptions by splitting the string at its slashes |

## 3. Theory files

| files | purpose |
|---|---|
| Base, Utf8, Errors, Lex, Ast, Comments, Parse, Lines, Descriptor, Generate, ParseApi | model of protox-parse |
| Paths, Resolver, DescSet, Compiler, Main, ErrText (printing of errors, help texts) | model of protox |
| LexSpec, StrSpec, CommentSpec, Utf8Spec, AttachSpec, Grammar, DescSpec, LocSpec, LocTree, ErrSpec, SynSpec, SpaceSpec, PathSpec, SpanSpec, SumSpec, OpenSpec, EdgeSpec, TextSpec, HelpSpec, WriteSpec | specifications |
| LexTests, ParseTests | the project's own unit tests and snapshots, evaluated in the model (they check the reading of the code, they are not counted as proofs) |
| Meaning, Erase | declarative meaning of declarations; independent of positions |
| SameTokens, Ends, LexSafe, Stream, PropsLex1, LexErr, Utf8Lossy, Insert, Local, Kept, Keeps, Viable1–4, ViableText, ViableDup, PathOnce, Lam, CharEdge, Edge, WriteProofs, WriteFields, WriteMessage, WriteFile, WriteLex, WriteBack, WriteBack2–4, Weaken, Walk, WalkG1–3, Classify, Attach, AstWf, AstWfG, AstNames, AstOpts, GenProofs, Complete1–3, DescLemmas, DescWf, Decimal, AttachDecl, AstNest, CompilerProofs, CompilerHistory | proof layers |
| Props* | the property theorems, each with `Print Assumptions` and concrete cases |

`tools/mktests.py` generates ParseTests.v, `tools/mkprops.py` properties.jsonl
and `tools/mkmanifest.py` MANIFEST.json (from the theorem names and
`tools/notes.json`). `seeded/LOG.jsonl` records the wrong programs the theorems
were tested against.

## 4. Trusted base

* Coq 8.16.1's kernel (and its virtual machine, used by `vm_compute` in
  examples). `Print Assumptions` of every property theorem prints "Closed under
  the global context": no axioms, neither ours nor the standard library's. The
  seven constants a scan of the loaded libraries lists are `Coq.ssr.ssrunder`
  module-type fields loaded with the standard library's `ssreflect` files; no
  theorem depends on them.
* The reading of the Rust code into the model. Nothing is executed; the 300
  cases of LexTests and ParseTests (the project's own expectations) evaluate
  to the expected results in the model.

**Modelled:** all non-test code of protox-parse (lexer callbacks, parser,
comments, lines, generator, API) and of protox's `compile`, `file` and `error`
modules, `lib.rs::compile` and `main.rs` (from the parsed arguments on).

**Reconstructed or assumed:** the logos automaton (longest match with the
deviation the project's tests show), UTF-8 functions of the Rust standard
library, unix `std::path`, miette 7's `read_span` and `from_location`, prost's encoding of `FileDescriptorSet`. Oracles:
`f64` parsing and printing, the file system, prost-reflect's linker
(`linker_ok`: adding a file whose imports are present keeps or refuses the
pool), the bundled Google sources (a git submodule, empty here).

**Not modelled:** command line parsing (clap, in protox/src/main.rs), miette's rendering of diagnostics, derived `Debug` implementations,
name resolution and option interpretation (prost-reflect), stack depth (the
parser has no recursion limit, so deep nesting overflows the real stack), memory
exhaustion, Windows paths.

## 5. Findings about the code

Deviations and surprises the proofs brought out. Each is a theorem or example
beside the property named.

* `extensions 5 [opts];` is rejected; a type named `map` not followed by `<` is
  rejected (C04).
* `08` is lexed as 0 without an error; `018` trips a debug assertion (C02, C08);
  `0abc` is accepted (C09).
* A float literal that overflows is printed as `inf` in an aggregate value
  (C12).
* The root location of a file without tokens is inverted (C14). A field whose
  only options are `default`/`json_name` has an options location although the
  descriptor has no options; an explicit `syntax = "proto2"` has a location
  although the descriptor's syntax is unset (C15).
* Options of an `extensions` statement are repeated for each of its ranges (C23).
* Comments: blank lines at the start of a block comment's lines are swallowed by
  `trim_start`; a same-line trailing block comment directly followed by the next
  declaration becomes that declaration's leading comment; a block comment
  followed by something on its line discards the whole run (C25).
* Reversed reserved/extension ranges are not rejected by `parse`; unsigned
  defaults reject `-0`; a proto3 `optional` extension gets `proto3_optional`
  without a oneof (C16, C18, C21).
* `find_import_span` mixes character and byte counts, so the span can end behind
  the source; imports over several lines get no span (C47).
* A resolver that returns a file under another name makes `files()` and the
  accessors panic (C38). A failed `open_file` keeps the imports loaded so far in
  the pool (C35 says what is preserved).
* Documentation slips: `FileMetadata::is_import` is documented inverted; the
  message of `InvalidImport` says "invalid group name"; a backslash is allowed
  in `path_to_file_name` on unix but rejected in imports.
* Text-format mode stays on when an aggregate is abandoned because of a lexical
  error, so later `#` comments and float suffixes go unreported (the file is
  rejected anyway).
* `Debug` of a parse error prints no file name and no position when the first
  error is a second `package` or the end of the file; of an import error over
  several lines it prints `file:import ...`, without position and space (C62).
* A path that does not exist, in an include directory, is reported as shadowed
  when any other include directory has a file of that name, even a later one;
  neither the message nor the second advice then applies (C66). With nested
  include directories the first advice may have to be followed repeatedly.
* The help for names and imports leaves out reasons for rejection: a quoted
  reserved name starting with an underscore, an import that is empty or starts
  or ends with a slash (C67).
