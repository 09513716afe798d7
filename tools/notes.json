{
 "C33": {
  "note": "linker is a parameter constrained by linker_ok; resolver answers may differ per call (rs : nat -> resolver), the cycle-never-opens half needs a stable resolver"
 },
 "C38": {
  "note": "C38_misnamed_file_panics is the negative half: a misnamed file makes the accessors panic"
 },
 "C44": {
  "note": "compiler part; include-directory agreement is C42"
 },
 "C07": {
  "note": "for munch_ideal=false (what lex/tests.rs demonstrates) a 0 followed by decimal digits that are not all octal is one lexeme: stated as the explicit alternative logos_digit_run"
 },
 "C08": {
  "note": "C08_deviation_refuted: under the behaviour shown in lex/tests.rs, 08 is silently 0"
 },
 "C09": {
  "note": "C09_zero_glued_accepted is the witness of the exception"
 },
 "C04": {
  "note": "grammar = Grammar.v; options after an extension range without an end are excluded from the grammar and the deviation is proved (C04_extension_options_deviation)"
 },
 "C05": {
  "note": "C05_both_accepted: two accepted sources with the same significant tokens give descriptors that differ at most in source info (they have a common respelling); C05_same_tokens: with the same tokens and no new lexical error the second source is accepted too; C05_insert: writing blanks, line ends and closed comments at any place inside no token of an accepted source keeps it accepted with the same descriptor up to source info"
 },
 "C10": {
  "note": "decoding relation StrSpec.decodes; lexer level (sound, complete, unique, rejects, not_literals) and whole files (C10_parse_strings)"
 },
 "C11": {
  "note": "bytes are numbers below 256 in the source value"
 },
 "C14": {
  "note": "sort_unstable_by is any function satisfying [sorting] (a permutation ascending by path); the model's insertion sort is one. The exception (file without tokens) is exhibited by C14_exception."
 },
 "C15": {
  "note": "two exceptions, both real and exhibited by C15_exceptions: the options location of a field whose only options were default/json_name, and the syntax location of an explicit proto2"
 },
 "C25": {
  "note": "specification AttachSpec.v (written from the tokens only); every location with comments belongs to its own declaration, identified by its first token and the token ending its head; the comments between two neighbouring tokens are shared out in order, each once (C25_shared_out), and are a function of the source (C25_determined). C25_dropped / C25_stolen are the two deviations from protoc, which the specification spells out"
 },
 "C12": {
  "note": "C12_relex: printing any list of tokens (no comments/newlines; floats printed as digits.digits) as an aggregate and lexing it in text-format mode gives the same tokens and no error. C12_aggregates: for every option in a descriptor returned by parse, the aggregate text belongs to an option written in the file, between a brace and its matching brace, and re-lexes to the tokens written there. Assumption visible in the statement: floats in it print as finite doubles (prints_finite); C12_inf shows it is needed (1e999 prints as inf, an identifier). Float printing itself is an oracle of the model."
 },
 "C52": {
  "note": "clap's parsing of the command line is not modelled (Args are given); prost's encoder and decoder enter through the contract codable, as in C40, for the files loaded; the linker through linker_ok"
 },
 "C51": {
  "note": "C51_located is the recursive statement (placed), C51_every_part the flat corollary. Inside is nesting of byte ranges, not strict. sort_unstable is any sorting function (hypothesis sorting, met by loc_sort). A location may not be the only one at its path (e.g. json_name has two)."
 },
 "C53": {
  "note": "Rules in ErrSpec.v (flaw, breaks). C53_valid: accepted iff no rule broken. C53_errors: set equality of reported errors and broken rules; not their order or multiplicity. The tree is existential but unique up to spans (C04_unambiguous). Found: default = -0 is rejected for unsigned types with the message that -0 is outside 0..max."
 },
 "C54": {
  "note": "What each error says is in SynSpec.v (truth). C54_syntax_errors: all errors of a non-sentence are true. C54_rejections: the complete case split of parse's outcomes together with C53. UnexpectedEof for a token (no span in the error) only has its text checked for readability. That a first error about a token stands at the earliest possible token is C55 and C56."
 },
 "C55": {
  "note": "The continuation must be separated from the token by white space (a token can be a prefix of a longer one); first errors of other kinds are not covered: a lexical error may grow with the text and a missing end can be supplied."
 },
 "C56": {
  "note": "completable p: some q makes p ++ q a sentence (accepted), or the only error of the syntax stage is DuplicatePackage (needed: `package a; package b {`). The completion is constructed: a newline and the texts of simple tokens. First errors of other kinds (lexical, invalid import path etc.) are not about viability and are covered by C54."
 },
 "C57": {
  "note": "distinct: equal paths at two places of the list only for the paths of PathSpec.shared; the example has a file in which every form of shared path is listed twice, so the list of exceptions is exact. C57_one_location joins it with C51 (every part has a location) to 'exactly one'."
 },
 "C58": {
  "note": "On the numbers of the span itself (covered, with covered_unique: the positions are determined by the numbers). The spans are shown nested or apart by induction over the grammar (Lam.seg: spans between two offsets), positions are monotone in offsets."
 },
 "C59": {
  "note": "Equality of the descriptors with the source info removed. C59_either_order: both parts under the syntax line, in either order. C59_cut: the converse, for a first part that starts with a syntax line (without one a syntax declaration may follow an empty first part: C59_cut_syntax). Example: first part ends in a line comment."
 },
 "C60": {
  "note": "links: the (abstract) linker accepts every reached file when its imports are in the pool, each once and imports first, and the file itself is not. Finiteness: the names the resolver can open lie in a list U; the fuel of the model is at least its length (more changes nothing, C33)."
 },
 "C62": {
  "note": "miette's read_span is reconstructed; the texts of DescriptorError, io::Error and custom errors are parameters. Findings: no position for a second package statement, end of file and imports over several lines."
 },
 "C63": {
  "note": "Proved for the class writable (WriteSpec.v); groups, float and double defaults and aggregate option values are not in the class; the value of a float option is its literal. The text must not exceed i32::MAX bytes (C11)."
 },
 "C64": {
  "note": "The exclusions are plain_file (WriteSpec.v): groups, aggregate option values, float and double defaults, and defaults of a named type that are no identifiers. The written text must not exceed i32::MAX bytes (C11); the input's elements must be bytes (below 256)."
 },
 "C65": {
  "note": "C65_name: both outcomes for two names. C65_unstable_sort: two functions that return a permutation sorted by path; the example has two that differ."
 },
 "C66": {
  "note": "Over the default resolver (include directories, then the bundled files), a file system that does not change meanwhile, unix paths. C66_ex_twice: the bound is reached. C66_ex_nonexistent: a path that does not exist is reported as shadowed by a later directory."
 },
 "C67": {
  "note": "Whether an identifier or import keeps the rule is judged on the string as decoded with replacement characters (lossy), as the code does. C67_ex_underscore and C67_ex_slash: rejected although they keep the rule quoted."
 }
}