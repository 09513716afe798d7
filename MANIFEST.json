{
 "claims": [
  {
   "property": "C01",
   "status": "proved",
   "theorems": [
    "C01_parse_total"
   ],
   "note": ""
  },
  {
   "property": "C02",
   "status": "proved",
   "theorems": [
    "C02_debug_assertions",
    "C02_accepted_in_debug",
    "C02_assertion_fails"
   ],
   "note": ""
  },
  {
   "property": "C03",
   "status": "proved",
   "theorems": [
    "C03_sound",
    "C03_tokens_written"
   ],
   "note": ""
  },
  {
   "property": "C04",
   "status": "proved",
   "theorems": [
    "C04_complete",
    "C04_accepts_iff",
    "C04_unambiguous",
    "C04_extension_options_deviation",
    "C04_type_named_map_deviation"
   ],
   "note": "grammar = Grammar.v; options after an extension range without an end are excluded from the grammar and the deviation is proved (C04_extension_options_deviation)"
  },
  {
   "property": "C05",
   "status": "proved",
   "theorems": [
    "C05_same_tokens",
    "C05_same_tokens_plain",
    "C05_insert",
    "C05_both_accepted"
   ],
   "note": "C05_both_accepted: two accepted sources with the same significant tokens give descriptors that differ at most in source info (they have a common respelling); C05_same_tokens: with the same tokens and no new lexical error the second source is accepted too; C05_insert: writing blanks, line ends and closed comments at any place inside no token of an accepted source keeps it accepted with the same descriptor up to source info"
  },
  {
   "property": "C06",
   "status": "proved",
   "theorems": [
    "C06_no_lexical_error"
   ],
   "note": ""
  },
  {
   "property": "C07",
   "status": "proved",
   "theorems": [
    "C07_scan_longest",
    "C07_longest_match",
    "C07_tiling"
   ],
   "note": "for munch_ideal=false (what lex/tests.rs demonstrates) a 0 followed by decimal digits that are not all octal is one lexeme: stated as the explicit alternative logos_digit_run"
  },
  {
   "property": "C08",
   "status": "proved",
   "theorems": [
    "C08_int_value",
    "C08_int_complete",
    "C08_deviation_refuted",
    "C08_parse_ints"
   ],
   "note": "C08_deviation_refuted: under the behaviour shown in lex/tests.rs, 08 is silently 0"
  },
  {
   "property": "C09",
   "status": "proved",
   "theorems": [
    "C09_glued_int_error",
    "C09_parse_glued",
    "C09_zero_glued_accepted"
   ],
   "note": "C09_zero_glued_accepted is the witness of the exception"
  },
  {
   "property": "C10",
   "status": "proved",
   "theorems": [
    "C10_string_sound",
    "C10_string_complete",
    "C10_unique",
    "C10_rejects",
    "C10_not_literals",
    "C10_parse_strings"
   ],
   "note": "decoding relation StrSpec.decodes; lexer level (sound, complete, unique, rejects, not_literals) and whole files (C10_parse_strings)"
  },
  {
   "property": "C11",
   "status": "proved",
   "theorems": [
    "C11_escape_round_trip",
    "C11_bytes_default_round_trip"
   ],
   "note": "bytes are numbers below 256 in the source value"
  },
  {
   "property": "C12",
   "status": "proved",
   "theorems": [
    "C12_relex",
    "C12_aggregates"
   ],
   "note": "C12_relex: printing any list of tokens (no comments/newlines; floats printed as digits.digits) as an aggregate and lexing it in text-format mode gives the same tokens and no error. C12_aggregates: for every option in a descriptor returned by parse, the aggregate text belongs to an option written in the file, between a brace and its matching brace, and re-lexes to the tokens written there. Assumption visible in the statement: floats in it print as finite doubles (prints_finite); C12_inf shows it is needed (1e999 prints as inf, an identifier). Float printing itself is an oracle of the model."
  },
  {
   "property": "C13",
   "status": "proved",
   "theorems": [
    "C13_resolve",
    "C13_resolve_span"
   ],
   "note": ""
  },
  {
   "property": "C14",
   "status": "proved",
   "theorems": [
    "C14_locations"
   ],
   "note": "sort_unstable_by is any function satisfying [sorting] (a permutation ascending by path); the model's insertion sort is one. The exception (file without tokens) is exhibited by C14_exception."
  },
  {
   "property": "C15",
   "status": "proved",
   "theorems": [
    "C15_paths",
    "C15_names"
   ],
   "note": "two exceptions, both real and exhibited by C15_exceptions: the options location of a field whose only options were default/json_name, and the syntax location of an explicit proto2"
  },
  {
   "property": "C16",
   "status": "proved",
   "theorems": [
    "C16_numbers_valid",
    "C16_values"
   ],
   "note": ""
  },
  {
   "property": "C17",
   "status": "proved",
   "theorems": [
    "C17_syntax_rules",
    "C17_source_labels"
   ],
   "note": ""
  },
  {
   "property": "C18",
   "status": "proved",
   "theorems": [
    "C18_oneofs"
   ],
   "note": ""
  },
  {
   "property": "C19",
   "status": "proved",
   "theorems": [
    "C19_maps"
   ],
   "note": ""
  },
  {
   "property": "C20",
   "status": "proved",
   "theorems": [
    "C20_groups"
   ],
   "note": ""
  },
  {
   "property": "C21",
   "status": "proved",
   "theorems": [
    "C21_defaults",
    "C21_text_unique"
   ],
   "note": ""
  },
  {
   "property": "C22",
   "status": "proved",
   "theorems": [
    "C22_imports"
   ],
   "note": ""
  },
  {
   "property": "C23",
   "status": "proved",
   "theorems": [
    "C23_options_kept",
    "C23_options_only"
   ],
   "note": ""
  },
  {
   "property": "C24",
   "status": "proved",
   "theorems": [
    "C24_error_spans"
   ],
   "note": ""
  },
  {
   "property": "C25",
   "status": "proved",
   "theorems": [
    "C25_attached",
    "C25_determined",
    "C25_shared_out"
   ],
   "note": "specification AttachSpec.v (written from the tokens only); every location with comments belongs to its own declaration, identified by its first token and the token ending its head; the comments between two neighbouring tokens are shared out in order, each once (C25_shared_out), and are a function of the source (C25_determined). C25_dropped / C25_stolen are the two deviations from protoc, which the specification spells out"
  },
  {
   "property": "C26",
   "status": "proved",
   "theorems": [
    "C26_package"
   ],
   "note": ""
  },
  {
   "property": "C27",
   "status": "proved",
   "theorems": [
    "C27_file_too_large"
   ],
   "note": ""
  },
  {
   "property": "C30",
   "status": "proved",
   "theorems": [
    "C30_output_topological"
   ],
   "note": ""
  },
  {
   "property": "C31",
   "status": "proved",
   "theorems": [
    "C31_no_duplicates_and_complete"
   ],
   "note": ""
  },
  {
   "property": "C32",
   "status": "proved",
   "theorems": [
    "C32_is_import_exact"
   ],
   "note": ""
  },
  {
   "property": "C33",
   "status": "proved",
   "theorems": [
    "C33_reported_cycles_are_real",
    "C33_cycles_never_open",
    "C33_open_file_terminates"
   ],
   "note": "linker is a parameter constrained by linker_ok; resolver answers may differ per call (rs : nat -> resolver), the cycle-never-opens half needs a stable resolver"
  },
  {
   "property": "C34",
   "status": "proved",
   "theorems": [
    "C34_no_duplicate_imports"
   ],
   "note": ""
  },
  {
   "property": "C35",
   "status": "proved",
   "theorems": [
    "C35_failure_preserves_state"
   ],
   "note": ""
  },
  {
   "property": "C36",
   "status": "proved",
   "theorems": [
    "C36_loads_exactly_closure",
    "C36_order_independent"
   ],
   "note": ""
  },
  {
   "property": "C37",
   "status": "proved",
   "theorems": [
    "C37_open_loaded_file"
   ],
   "note": ""
  },
  {
   "property": "C38",
   "status": "proved",
   "theorems": [
    "C38_accessors_never_panic",
    "C38_misnamed_file_panics"
   ],
   "note": "C38_misnamed_file_panics is the negative half: a misnamed file makes the accessors panic"
  },
  {
   "property": "C39",
   "status": "proved",
   "theorems": [
    "C39_options_only_filter",
    "C39_settings"
   ],
   "note": ""
  },
  {
   "property": "C40",
   "status": "proved",
   "theorems": [
    "C40_encoded_set_agrees"
   ],
   "note": ""
  },
  {
   "property": "C41",
   "status": "proved",
   "theorems": [
    "C41_first_hit_wins",
    "C41_first_resolved_path_wins",
    "C41_nesting_is_flattening"
   ],
   "note": ""
  },
  {
   "property": "C42",
   "status": "proved",
   "theorems": [
    "C42_resolve_path_iff",
    "C42_resolve_then_open_agree",
    "C42_outside_not_resolved"
   ],
   "note": ""
  },
  {
   "property": "C43",
   "status": "proved",
   "theorems": [
    "C43_no_escape"
   ],
   "note": ""
  },
  {
   "property": "C44",
   "status": "proved",
   "theorems": [
    "C44_no_silent_shadowing"
   ],
   "note": "compiler part; include-directory agreement is C42"
  },
  {
   "property": "C45",
   "status": "proved",
   "theorems": [
    "C45_missing_files",
    "C45_missing_import_fails",
    "C45_error_classes_exclusive"
   ],
   "note": ""
  },
  {
   "property": "C46",
   "status": "proved",
   "theorems": [
    "C46_decodes_exactly_the_wire_format",
    "C46_truncated_input_rejected",
    "C46_lookup_first_match"
   ],
   "note": ""
  },
  {
   "property": "C47",
   "status": "proved",
   "theorems": [
    "C47_import_span",
    "C47_compiler_errors"
   ],
   "note": ""
  },
  {
   "property": "C48",
   "status": "proved",
   "theorems": [
    "C48_open_regular",
    "C48_open_fails",
    "C48_open_total"
   ],
   "note": ""
  },
  {
   "property": "C49",
   "status": "proved",
   "theorems": [
    "C49_default_open",
    "C49_default_resolve",
    "C49_default_well_behaved"
   ],
   "note": ""
  },
  {
   "property": "C50",
   "status": "proved",
   "theorems": [
    "C50_open_files_sequential",
    "C50_compile",
    "C50_compile_error",
    "C50_compile_total",
    "C50_compile_default",
    "C50_compile_default_total"
   ],
   "note": ""
  },
  {
   "property": "C51",
   "status": "proved",
   "theorems": [
    "C51_located",
    "C51_every_part"
   ],
   "note": "C51_located is the recursive statement (placed), C51_every_part the flat corollary. Inside is nesting of byte ranges, not strict. sort_unstable is any sorting function (hypothesis sorting, met by loc_sort). A location may not be the only one at its path (e.g. json_name has two)."
  },
  {
   "property": "C52",
   "status": "proved",
   "theorems": [
    "C52_output",
    "C52_error",
    "C52_compile",
    "C52_total"
   ],
   "note": "clap's parsing of the command line is not modelled (Args are given); prost's encoder and decoder enter through the contract codable, as in C40, for the files loaded; the linker through linker_ok"
  },
  {
   "property": "C53",
   "status": "proved",
   "theorems": [
    "C53_valid",
    "C53_errors",
    "C53_range_message"
   ],
   "note": "Rules in ErrSpec.v (flaw, breaks). C53_valid: accepted iff no rule broken. C53_errors: set equality of reported errors and broken rules; not their order or multiplicity. The tree is existential but unique up to spans (C04_unambiguous). Found: default = -0 is rejected for unsigned types with the message that -0 is outside 0..max."
  },
  {
   "property": "C54",
   "status": "proved",
   "theorems": [
    "C54_syntax_errors",
    "C54_rejections",
    "C54_unexpected"
   ],
   "note": "What each error says is in SynSpec.v (truth). C54_syntax_errors: all errors of a non-sentence are true. C54_rejections: the complete case split of parse's outcomes together with C53. UnexpectedEof for a token (no span in the error) only has its text checked for readability. That a first error about a token stands at the earliest possible token is C55 and C56."
  },
  {
   "property": "C55",
   "status": "proved",
   "theorems": [
    "C55_unexpected_token",
    "C55_no_continuation"
   ],
   "note": "The continuation must be separated from the token by white space (a token can be a prefix of a longer one); first errors of other kinds are not covered: a lexical error may grow with the text and a missing end can be supplied."
  },
  {
   "property": "C56",
   "status": "proved",
   "theorems": [
    "C56_viable_prefix",
    "C56_viable_file",
    "C56_no_syntax_error"
   ],
   "note": "completable p: some q makes p ++ q a sentence (accepted), or the only error of the syntax stage is DuplicatePackage (needed: `package a; package b {`). The completion is constructed: a newline and the texts of simple tokens. First errors of other kinds (lexical, invalid import path etc.) are not about viability and are covered by C54."
  },
  {
   "property": "C57",
   "status": "proved",
   "theorems": [
    "C57_distinct_paths",
    "C57_one_location",
    "C57_element_once"
   ],
   "note": "distinct: equal paths at two places of the list only for the paths of PathSpec.shared; the example has a file in which every form of shared path is listed twice, so the list of exceptions is exact. C57_one_location joins it with C51 (every part has a location) to 'exactly one'."
  },
  {
   "property": "C58",
   "status": "proved",
   "theorems": [
    "C58_nested_or_apart",
    "C58_no_tokens"
   ],
   "note": "On the numbers of the span itself (covered, with covered_unique: the positions are determined by the numbers). The spans are shown nested or apart by induction over the grammar (Lam.seg: spans between two offsets), positions are monotone in offsets."
  },
  {
   "property": "C59",
   "status": "proved",
   "theorems": [
    "C59_sum",
    "C59_either_order",
    "C59_cut"
   ],
   "note": "Equality of the descriptors with the source info removed. C59_either_order: both parts under the syntax line, in either order. C59_cut: the converse, for a first part that starts with a syntax line (without one a syntax declaration may follow an empty first part: C59_cut_syntax). Example: first part ends in a line comment."
  },
  {
   "property": "C60",
   "status": "proved",
   "theorems": [
    "C60_opens_exactly",
    "C60_compile_exactly"
   ],
   "note": "links: the (abstract) linker accepts every reached file when its imports are in the pool, each once and imports first, and the file itself is not. Finiteness: the names the resolver can open lie in a list U; the fuel of the model is at least its length (more changes nothing, C33)."
  },
  {
   "property": "C61",
   "status": "proved",
   "theorems": [
    "C61_error_spans",
    "C61_span",
    "C61_locations",
    "C61_tokens"
   ],
   "note": ""
  },
  {
   "property": "C62",
   "status": "proved",
   "theorems": [
    "C62_place_unique",
    "C62_place_exists",
    "C62_place_lines",
    "C62_debug",
    "C62_import_errors",
    "C62_never_panics",
    "C62_parse_never_panics",
    "C62_import_position",
    "C62_ranges"
   ],
   "note": "miette's read_span is reconstructed; the texts of DescriptorError, io::Error and custom errors are parameters. Findings: no position for a second package statement, end of file and imports over several lines."
  },
  {
   "property": "C63",
   "status": "proved",
   "theorems": [
    "C63_round_trip"
   ],
   "note": "Proved for the class writable (WriteSpec.v); groups, float and double defaults and aggregate option values are not in the class; the value of a float option is its literal. The text must not exceed i32::MAX bytes (C11)."
  },
  {
   "property": "C64",
   "status": "proved",
   "theorems": [
    "C64_in_class",
    "C64_reparse",
    "C64_text_determines"
   ],
   "note": "The exclusions are plain_file (WriteSpec.v): groups, aggregate option values, float and double defaults, and defaults of a named type that are no identifiers. The written text must not exceed i32::MAX bytes (C11); the input's elements must be bytes (below 256)."
  },
  {
   "property": "C65",
   "status": "proved",
   "theorems": [
    "C65_name",
    "C65_unstable_sort"
   ],
   "note": "C65_name: both outcomes for two names. C65_unstable_sort: two functions that return a permutation sorted by path; the example has two that differ."
  },
  {
   "property": "C66",
   "status": "proved",
   "theorems": [
    "C66_pass_the_shadow",
    "C66_shadow_exists",
    "C66_reorder",
    "C66_text"
   ],
   "note": "Over the default resolver (include directories, then the bundled files), a file system that does not change meanwhile, unix paths. C66_ex_twice: the bound is reached. C66_ex_nonexistent: a path that does not exist is reported as shadowed by a later directory."
  },
  {
   "property": "C67",
   "status": "proved",
   "theorems": [
    "C67_help",
    "C67_given",
    "C67_file_too_large"
   ],
   "note": "Whether an identifier or import keeps the rule is judged on the string as decoded with replacement characters (lossy), as the code does. C67_ex_underscore and C67_ex_slash: rejected although they keep the rule quoted."
  }
 ]
}