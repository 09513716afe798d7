{"id": "C01", "title": "parse() is total: it terminates and never panics", "statement": "For every file name and every source string, protox_parse::parse returns (no infinite loop, no panic in a release build); the result is either Ok or an Err carrying at least one error.", "quantifier": "every source byte string", "why_tests_cant": "unbounded input space; panics hide in error-recovery interleavings of the lexer and the parser", "anchors": ["protox-parse/src/parse/mod.rs:parse_file,bump,skip_until", "protox-parse/src/error.rs:ParseError::new", "protox-parse/src/lib.rs:parse"]}
{"id": "C02", "title": "Debug assertions of the parser hold, or the exact class of inputs that breaks them", "statement": "In a debug build parse() does not hit a debug_assert, except for digit runs such as 018 (leading 0, then octal digits, then an 8 or 9) which trip the assertion in the integer callback. Even then a release build reports an error: a source a release build accepts is accepted by a debug build with the same descriptor.", "quantifier": "every source byte string", "why_tests_cant": "needs the complement of a set of inputs, not a sample", "anchors": ["protox-parse/src/lex/mod.rs:int", "protox-parse/src/parse/comments.rs:flush"]}
{"id": "C03", "title": "Accepted files conform to the protobuf grammar (soundness)", "statement": "If parse() succeeds, the significant tokens of the whole source (comments and newlines dropped) form a sentence of the protobuf grammar, and the declarations reported are the ones that sentence denotes, with the spans of their first and last tokens.", "quantifier": "every source on which parse succeeds", "why_tests_cant": "the language is infinite; a test shows only that some sentences parse", "anchors": ["protox-parse/src/parse/mod.rs:parse_statement..parse_string"]}
{"id": "C04", "title": "Every sentence of the grammar is accepted by the parser (completeness)", "statement": "If the source lexes without lexical error and its significant tokens are a sentence of the grammar, syntax analysis succeeds.", "quantifier": "every sentence of the grammar", "why_tests_cant": "infinite language, arbitrary nesting", "anchors": ["protox-parse/src/parse/mod.rs"]}
{"id": "C05", "title": "Whitespace and comments never change the meaning", "statement": "Two accepted sources with the same sequence of significant tokens give descriptors that differ at most in source_code_info; a source with the tokens of an accepted one and no lexical error is accepted as well.", "quantifier": "every pair of sources with equal significant token sequences", "why_tests_cant": "pairs of unbounded inputs", "anchors": ["protox-parse/src/parse/mod.rs:peek,peek_skip_comments", "protox-parse/src/generate/mod.rs"]}
{"id": "C06", "title": "No lexical error is swallowed", "statement": "If parse() succeeds then lexing the whole source up to end of file produced no lexical error (invalid token, bad escape, out-of-range integer, nested block comment, unterminated string or comment).", "quantifier": "every source", "why_tests_cant": "errors may be produced while peeking, skipping or recovering", "anchors": ["protox-parse/src/lex/mod.rs", "protox-parse/src/parse/mod.rs:parse_file"]}
{"id": "C07", "title": "Tokenisation is maximal munch over the declared token patterns", "statement": "Each token the lexer returns is a longest prefix of the remaining input matching one of the declared token regular expressions, tokens and skipped whitespace tile the source with no gap or overlap, and lexing always advances.", "quantifier": "every source, every position", "why_tests_cant": "all strings", "anchors": ["protox-parse/src/lex/mod.rs:Token"]}
{"id": "C08", "title": "Integer literals denote their value", "statement": "Decimal, octal and hexadecimal literals yield exactly the number they denote when it is below 2^64 and are rejected otherwise.", "quantifier": "every digit string and radix", "why_tests_cant": "unbounded digit strings", "anchors": ["protox-parse/src/lex/mod.rs:int"]}
{"id": "C09", "title": "Integer literals glued to identifiers are rejected - except after 0", "statement": "An integer literal immediately followed by a letter or underscore makes parse fail; this is violated for the literal 0 (0abc lexes silently as 0 and abc; with the digit-run behaviour shown in lex/tests.rs also for 0 followed by digits that are not all octal).", "quantifier": "every literal and following text", "why_tests_cant": "universal claim with a hidden exception", "anchors": ["protox-parse/src/lex/mod.rs:int"]}
{"id": "C10", "title": "String literals decode as documented", "statement": "For every error-free string literal the token's bytes are the concatenation of the decoded components (raw text, hex, octal, character and unicode escapes), and literals containing NUL, a newline, a bad escape, an octal escape above 255 or a surrogate are rejected.", "quantifier": "every literal body", "why_tests_cant": "all escape sequences in all combinations", "anchors": ["protox-parse/src/lex/mod.rs:string"]}
{"id": "C11", "title": "Bytes defaults round-trip", "statement": "For every byte sequence, the escaped text stored as default_value of a bytes field, put between double quotes, lexes back to exactly that byte sequence with no error.", "quantifier": "every byte sequence", "why_tests_cant": "unbounded", "anchors": ["protox-parse/src/ast/mod.rs:Display for String", "protox-parse/src/lex/mod.rs:string"]}
{"id": "C12", "title": "Aggregate option text round-trips", "statement": "The aggregate_value string produced for an option lexes (in text-format mode) to exactly the token sequence written between the braces in the source.", "quantifier": "every aggregate option value", "why_tests_cant": "token interaction when re-joined with spaces, all token kinds", "anchors": ["protox-parse/src/parse/mod.rs:parse_text_format_message", "protox-parse/src/lex/mod.rs:Display for Token"]}
{"id": "C13", "title": "Offsets map to the right line and column", "statement": "For every source and every offset in it, the reported line is the number of newline bytes before the offset and the column is the distance in bytes to the start of that line; the span is encoded with three numbers iff it stays on one line.", "quantifier": "every source and offset", "why_tests_cant": "unbounded", "anchors": ["protox-parse/src/generate/lines.rs"]}
{"id": "C14", "title": "Source locations are in range and ordered", "statement": "For every successfully parsed file, source_code_info locations are sorted by path and every span lies inside the file with start <= end, except the root location of a file without any statement, which is inverted.", "quantifier": "every source on which parse succeeds", "why_tests_cant": "every declaration shape and nesting", "anchors": ["protox-parse/src/generate/mod.rs:generate_file,add_span", "protox-parse/src/parse/mod.rs:parse_file"]}
{"id": "C15", "title": "Location paths point at existing descriptor elements", "statement": "Every path in source_code_info leads to an element of the descriptor it accompanies (tags are fields of that message type, indices are within the repeated field), except the options of a field whose only options are default or json_name and the syntax of an explicit proto2 file; the location of a name covers exactly that name in the source.", "quantifier": "every source on which parse succeeds", "why_tests_cant": "index bookkeeping with shared counters across fields, groups, oneofs, extends", "anchors": ["protox-parse/src/generate/mod.rs"]}
{"id": "C16", "title": "Field numbers and ranges are valid", "statement": "In every descriptor returned by parse, each field and extension number is in 1..=536870911, each enum number fits i32, and each reserved/extension range has in-range start and exclusive end with no overflow (end at most 2^29, or i32::MAX for message sets).", "quantifier": "every source on which parse succeeds", "why_tests_cant": "numbers at all nesting levels and radixes", "anchors": ["protox-parse/src/generate/mod.rs:generate_message_number,generate_message_reserved_range"]}
{"id": "C17", "title": "proto2/proto3 field rules are enforced everywhere", "statement": "In a proto3 file that parses there are no groups, no default values and no required fields at any nesting level; in a proto2 file every non-oneof, non-map field had an explicit label; extensions are never required; proto3_optional never appears in proto2.", "quantifier": "every source on which parse succeeds", "why_tests_cant": "all nesting levels, groups inside oneofs inside extends", "anchors": ["protox-parse/src/generate/mod.rs:generate_field_descriptor,generate_field_label"]}
{"id": "C18", "title": "Oneofs are well formed", "statement": "In every message descriptor returned by parse, each oneof_index is in range, real oneofs come first in source order and have at least one member, and each proto3 optional field has its own synthetic oneof, placed after all real ones, with it as only member.", "quantifier": "every source on which parse succeeds", "why_tests_cant": "interleavings of fields and oneofs", "anchors": ["protox-parse/src/generate/mod.rs:generate_message_body_descriptor,generate_oneof_descriptor"]}
{"id": "C19", "title": "Map fields are desugared correctly", "statement": "Each map field becomes a repeated message field whose type names a nested map_entry message with exactly key=1 and value=2 of the declared types; key types are integral, bool or string; map entries are produced by map fields only.", "quantifier": "every source on which parse succeeds", "why_tests_cant": "all type combinations and names", "anchors": ["protox-parse/src/generate/mod.rs:generate_field_descriptor", "protox-parse/src/case.rs:to_pascal_case"]}
{"id": "C20", "title": "Groups are desugared correctly", "statement": "Each group becomes a field of type GROUP with the lower-cased name and a nested message with the original (capitalised) name holding the group's body.", "quantifier": "every source on which parse succeeds", "why_tests_cant": "nesting", "anchors": ["protox-parse/src/generate/mod.rs:generate_field_descriptor", "protox-parse/src/parse/mod.rs:parse_group"]}
{"id": "C21", "title": "Integer, bool, string and bytes defaults are canonical and in range", "statement": "A scalar default is stored only if it has the field's type and range, and then as the canonical decimal text of the literal's value (true/false, the UTF-8 text, the C-escaped bytes); otherwise parse fails.", "quantifier": "every field type and option value", "why_tests_cant": "boundary values of four integer widths with sign", "anchors": ["protox-parse/src/generate/mod.rs:generate_field_default_value", "protox-parse/src/ast/mod.rs:as_i32,as_i64"]}
{"id": "C22", "title": "Imports are reported faithfully and safely", "statement": "The dependency list of the descriptor is the list of import strings in source order, public/weak dependency lists hold exactly the indices of public/weak imports in order, and every dependency is a non-empty relative path without empty, '.', '..' or backslash components.", "quantifier": "every source on which parse succeeds", "why_tests_cant": "all strings incl. escapes", "anchors": ["protox-parse/src/parse/mod.rs:parse_import,is_valid_import", "protox-parse/src/generate/mod.rs:generate_file_descriptor"]}
{"id": "C23", "title": "Options are preserved", "statement": "Each option written in the source yields exactly one UninterpretedOption, in order, with exactly one value set, except that the first 'default' and 'json_name' of a field are moved to the dedicated members.", "quantifier": "every source on which parse succeeds", "why_tests_cant": "list positions", "anchors": ["protox-parse/src/generate/mod.rs:generate_options,generate_option,take_option"]}
{"id": "C24", "title": "Error spans lie inside the source", "statement": "Every span reported in a ParseError (lexical, syntactic or semantic) satisfies start <= end <= source length.", "quantifier": "every source on which parse fails", "why_tests_cant": "miette rendering depends on it for arbitrary garbage input", "anchors": ["protox-parse/src/error.rs:span", "protox-parse/src/lex/mod.rs", "protox-parse/src/parse/mod.rs"]}
{"id": "C25", "title": "Comments are attached from the source, at most once", "statement": "Leading, trailing and detached comments in source_code_info are texts of comment tokens of the source adjacent to the declaration; no comment is attached to two declarations.", "quantifier": "every source on which parse succeeds", "why_tests_cant": "comment state machine over arbitrary token interleavings", "anchors": ["protox-parse/src/parse/comments.rs", "protox-parse/src/parse/mod.rs:peek"]}
{"id": "C26", "title": "At most one package", "statement": "If parse succeeds the source has at most one package statement and the descriptor's package is its dotted name.", "quantifier": "every source", "why_tests_cant": "global property of a file", "anchors": ["protox-parse/src/parse/mod.rs:parse_file"]}
{"id": "C27", "title": "Oversized files are rejected up front", "statement": "Sources longer than i32::MAX bytes give FileTooLarge and for all others every index and offset fits i32 (no conversion panic).", "quantifier": "every source length", "why_tests_cant": "cannot allocate or enumerate such inputs", "anchors": ["protox-parse/src/lib.rs:parse,index_to_i32"]}
{"id": "C30", "title": "Output is in topological order", "statement": "After any sequence of open_file calls (successful or not), in files() and file_descriptor_set() with imports each file comes after all files it imports.", "quantifier": "every resolver (even one that changes between calls), every history", "why_tests_cant": "histories and import graphs are unbounded", "anchors": ["protox/src/compile/mod.rs:open_file,add_import,file_descriptor_set"]}
{"id": "C31", "title": "No file appears twice and imports are complete", "statement": "With include_imports the output contains every file at most once and contains every dependency of every file in it.", "quantifier": "every history", "why_tests_cant": "graph shapes with shared imports", "anchors": ["protox/src/compile/mod.rs"]}
{"id": "C32", "title": "is_import is exact", "statement": "A file is reported as non-import (and emitted without include_imports) iff some successful open_file call named it; all other files in the output were reached as imports.", "quantifier": "every history", "why_tests_cant": "order of explicit opening vs importing", "anchors": ["protox/src/compile/mod.rs:open_file", "protox/src/file/mod.rs:FileMetadata"]}
{"id": "C33", "title": "Circular imports are always detected, and only real cycles are reported", "statement": "If open_file reports an import cycle, the message is a chain of files each importing the next ending in a repeat; if the imports reachable from a not yet loaded file contain a cycle through unloaded files, open_file fails; for a resolver with finitely many files open_file terminates.", "quantifier": "every import graph", "why_tests_cant": "all graphs", "anchors": ["protox/src/compile/mod.rs:add_import"]}
{"id": "C34", "title": "Duplicate imports are rejected", "statement": "If open_file succeeds, no file it newly added lists the same import twice; a DuplicateImport error names an import that really occurs twice in the named file.", "quantifier": "every history", "why_tests_cant": "all graphs", "anchors": ["protox/src/compile/mod.rs:open_file,add_import", "protox/src/error.rs:duplicated_import"]}
{"id": "C35", "title": "Failed calls do not corrupt the compiler", "statement": "A failing open_file never removes, reorders or changes files already present nor their import flags, does not add the requested file as a non-import, and leaves every later call's guarantees intact.", "quantifier": "every failure point in every history", "why_tests_cant": "every point at which resolver, parser or linker may fail", "anchors": ["protox/src/compile/mod.rs:open_file"]}
{"id": "C36", "title": "Successful open loads exactly the import closure", "statement": "After a successful open_file the set of files is the previous set plus the transitive imports of the requested name that were missing; hence opening a set of files in any order gives the same set of files.", "quantifier": "every finite resolver, every set of names", "why_tests_cant": "all graphs and permutations", "anchors": ["protox/src/compile/mod.rs"]}
{"id": "C37", "title": "open_file is idempotent", "statement": "Opening a file that is already loaded succeeds (unless shadowed) and changes nothing but its import flag.", "quantifier": "every state", "why_tests_cant": "all states", "anchors": ["protox/src/compile/mod.rs:open_file"]}
{"id": "C38", "title": "Accessors never panic for well-behaved resolvers", "statement": "files() and file_descriptor_set() never hit the internal map lookup panic if the resolver returns files carrying the requested name; a resolver returning another name makes them panic.", "quantifier": "every history", "why_tests_cant": "custom resolvers are arbitrary code", "anchors": ["protox/src/compile/mod.rs:files,file_descriptor_set"]}
{"id": "C39", "title": "Source info and import options affect only what they say", "statement": "include_source_info(false) clears exactly source_code_info of each file; include_imports only filters; neither affects later compilation.", "quantifier": "every history", "why_tests_cant": "option toggles at any point", "anchors": ["protox/src/compile/mod.rs:file_descriptor_set,include_imports"]}
{"id": "C40", "title": "Encoded descriptor sets agree with the structured ones", "statement": "encode_file_descriptor_set encodes the same files in the same order as file_descriptor_set returns, so that decoding it with DescriptorSetFileResolver resolves every emitted file.", "quantifier": "every history and option setting", "why_tests_cant": "two different code paths", "anchors": ["protox/src/compile/mod.rs:encode_file_descriptor_set", "protox/src/file/descriptor_set.rs"]}
{"id": "C41", "title": "Chained resolvers: first hit wins", "statement": "A chain returns the result of the first resolver whose answer is not a not-found error, otherwise not-found with the requested name; nesting chains is the same as flattening them.", "quantifier": "every list of resolvers and name", "why_tests_cant": "arbitrary resolvers", "anchors": ["protox/src/file/chain.rs"]}
{"id": "C42", "title": "Include paths: resolve_path and open_file agree", "statement": "If resolve_path maps a path to a name, joining that name to the include directory gives the same path up to '.' components (so opening it is not reported as shadowed), the name is relative, without '.', '..' or empty components; paths outside the include directory are not resolved.", "quantifier": "every include path and path", "why_tests_cant": "all paths", "anchors": ["protox/src/file/include.rs"]}
{"id": "C43", "title": "Imports cannot escape the include directory", "statement": "The path opened for any import accepted by the parser is the include directory followed by ordinary components: no absolute path and no '..'.", "quantifier": "every accepted import string and include directory", "why_tests_cant": "all strings", "anchors": ["protox-parse/src/parse/mod.rs:is_valid_import", "protox/src/file/include.rs:open_file"]}
{"id": "C44", "title": "Shadowed files are reported, never silently substituted", "statement": "If open_file succeeds for a path inside an include directory, the loaded file's path (if it has one) equals the requested path up to '.' components.", "quantifier": "every set of include paths and every path", "why_tests_cant": "filesystem layouts", "anchors": ["protox/src/compile/mod.rs:open_file", "protox/src/file/include.rs:check_shadow"]}
{"id": "C45", "title": "Missing files are classified", "statement": "A missing top-level file yields an error about the requested path; a missing import yields is_file_not_found with file() the importing file and the missing name, at any depth; the three predicates is_file_not_found, is_parse and is_io are mutually exclusive.", "quantifier": "every history", "why_tests_cant": "depth of import chain", "anchors": ["protox/src/error.rs", "protox/src/compile/mod.rs"]}
{"id": "C46", "title": "DescriptorSetFileResolver preserves bytes", "statement": "Decoding a serialized FileDescriptorSet keeps, for each file in order, exactly the bytes it was encoded from, skips unknown fields, looks names up first-match, and rejects truncated input without panicking or reading past the end.", "quantifier": "every byte buffer", "why_tests_cant": "all byte strings", "anchors": ["protox/src/file/descriptor_set.rs"]}
{"id": "C47", "title": "Import error spans point at the import statement", "statement": "For a single-line import preceded on its line only by ASCII text the reported span is exactly the import statement; with non-ASCII text before it on the line the span is displaced.", "quantifier": "every source", "why_tests_cant": "needs all columns and all characters", "anchors": ["protox/src/error.rs:find_import_span", "protox-parse/src/generate/lines.rs"]}
{"id": "C48", "title": "Opening a file on disk", "statement": "File::open of a regular file gives exactly what parsing its contents under the given name gives, plus the path; contents longer than i32::MAX bytes are reported too large and contents that are not UTF-8 as such; an operating system error is classified as not found, invalid data or I/O according to its kind; every error carries the requested name; it never panics, even on inputs that change while being read.", "quantifier": "every name, path, file contents and file system behaviour", "why_tests_cant": "the file system and the contents are arbitrary", "anchors": ["protox/src/file/mod.rs:File::open"]}
{"id": "C49", "title": "The resolver of Compiler::new", "statement": "A name is opened in the first include directory where it is not missing, else among the bundled google files, else not found; paths are resolved against the include directories in order; include directories shadow bundled files. The resolver meets every condition the compiler properties ask of a resolver.", "quantifier": "every include list, file system and name", "why_tests_cant": "all directory layouts", "anchors": ["protox/src/compile/mod.rs:Compiler::new", "protox/src/file/chain.rs", "protox/src/file/google.rs", "protox/src/file/include.rs"]}
{"id": "C50", "title": "open_files and compile", "statement": "open_files opens paths in order and stops at the first error, which it returns; compile returns, on success, exactly the import closure of the requested files, once each and imports first, with source info; on failure the error of the first path that cannot be opened; with finitely many files it terminates and never panics.", "quantifier": "every list of paths, resolver and file system", "why_tests_cant": "any number of files and imports", "anchors": ["protox/src/compile/mod.rs:open_files", "protox/src/lib.rs:compile"]}
{"id": "C51", "title": "Source locations are complete and nested", "statement": "Every part of every declaration of a parsed file (package, imports, messages, fields with label, type, number, default and json name, oneofs, extension and reserved ranges, enums, values, services, methods, options) has a source location at its path, except the parts that are not written in the source (map entries, synthetic oneofs, unwritten labels); its span lies inside the span of the declaration it belongs to (extendees and options of extension ranges excepted); declarations carry the comments found at their first token and the end of their head, other parts none; the root location covers all tokens.", "quantifier": "every accepted source text", "why_tests_cant": "all sources, at any nesting depth", "anchors": ["protox-parse/src/generate/mod.rs:generate_file", "protox-parse/src/parse/mod.rs", "protox-parse/src/generate/lines.rs"]}
{"id": "C52", "title": "The command line program", "statement": "protox FILES -I DIRS -o OUT ends with the error compile reports for those files and directories (the current directory if none is given) and then writes nothing; otherwise every file compiled and, if an output was asked for, exactly that one file is written, and it decodes to the files compile returns: without those not named on the command line unless --include_imports is given, without source info unless --include_source_info is given. It terminates without panic when finitely many files exist.", "quantifier": "every argument list, file system and outcome of writing", "why_tests_cant": "all combinations of flags, file sets and failures", "anchors": ["protox/src/main.rs:main", "protox/src/compile/mod.rs:encode_file_descriptor_set"]}
{"id": "C53", "title": "Semantic errors are exactly the broken rules", "statement": "For a source that is a sentence of the protobuf grammar, parse fails exactly when the file breaks one of the rules (numbers out of range, missing or forbidden labels, map and group restrictions, default and json_name values of the wrong kind or out of range, empty oneofs, option values out of range, ...), and the errors reported are exactly those of the rules broken, each with the span and the text the rule prescribes: none is missed, none is made up, and an out-of-range message states the value written and bounds it really violates.", "quantifier": "every sentence of the grammar", "why_tests_cant": "any number and combination of mistakes in any declaration at any depth", "anchors": ["protox-parse/src/generate/mod.rs", "protox-parse/src/error.rs"]}
{"id": "C54", "title": "Syntax errors tell the truth", "statement": "If the source is not a sentence of the grammar (and not over the size limit), parse fails, and every error it reports is a true statement about the source: an invalid token is where the lexer finds none; an unexpected token stands at the span given, is quoted as written, and is none of the tokens the message says were expected, every item of which names a token; an integer out of range is a literal of 2^64 or more (or, written with a leading 0, one with digits other than 0-7); an invalid escape or character, an unterminated string, a nested comment, a missing space after a number, a hash comment or float suffix outside the text format stand exactly at the span given; an end-of-file error about a string or comment means it reaches the end; an invalid import, identifier, group name or syntax is the decoded string at that span and is indeed invalid; a duplicate package names two package statements, in order.", "quantifier": "every source text and every error in the result", "why_tests_cant": "an error is reported from some fifty places in the parser, after arbitrary recovery from earlier errors; tests see a few", "anchors": ["protox-parse/src/parse/mod.rs:Parser::unexpected_token", "protox-parse/src/parse/mod.rs:Parser::skip_until", "protox-parse/src/lex/mod.rs:Token", "protox-parse/src/error.rs:ParseErrorKind"]}
{"id": "C55", "title": "An unexpected token is really unexpected", "statement": "If the first error parse reports is an unexpected token, then every source that agrees with this one up to the end of that token, and goes on with nothing or with white space and any text at all, fails with the same first error: the error is found as early as the text allows and nothing written behind the token can make it good.", "quantifier": "every source whose first error is an unexpected token and every text that replaces what follows the token (within the size limit)", "why_tests_cant": "It compares the parser's run on one source with its runs on infinitely many others; tests only see single sources.", "anchors": ["protox-parse/src/parse/mod.rs: Parser::unexpected_token, peek, peek_comments, skip_until, all parse_* functions", "protox-parse/src/lex/mod.rs: Token"]}
{"id": "C56", "title": "The text before an unexpected token is good so far", "statement": "If the first error parse reports is an unexpected token, then some text can be put in place of that token and what follows so that the whole is a well-formed file (or a file whose only flaw is a second package declaration); and if it is an unexpected end of file (not inside a string or a comment), some text can be appended with that effect. The error is thus not reported too late: together with C55 it is reported at exactly the first token that cannot be right.", "quantifier": "every source whose first error is an unexpected token or an unexpected end of file", "why_tests_cant": "For each of infinitely many rejected sources a completion must exist; a test can only exhibit it for a few.", "anchors": ["protox-parse/src/parse/mod.rs: Parser::unexpected_token, eof, peek, all parse_* functions", "protox-parse/src/lex/mod.rs: Token"]}
{"id": "C57", "title": "A source location is identified by its path", "statement": "In the source code info of a parsed file no two locations have the same path, except for the paths that by design collect several statements: the list of file options, of extend blocks, of a message's options, reserved ranges, reserved names, extension ranges, of an enum's options, reserved ranges and names, of a oneof's, service's or method's options, and a field's json_name (located once as option and once as value). So every message, field, enum, value, oneof, service and method, its name, its number and so on has exactly one location.", "quantifier": "every accepted source, every path", "why_tests_cant": "Paths contain indices that the generator computes in several places (group messages and map entries take up message indices, oneof fields take up field indices); a clash needs a particular combination of declarations.", "anchors": ["protox-parse/src/generate/mod.rs: generate_message_descriptors, generate_message_body, generate_field_descriptors, Context::add_location, in_path"]}
{"id": "C58", "title": "Source locations are nested or disjoint", "statement": "In the source code info of a parsed file (with at least one token) every location covers a non-empty text, and of any two locations one lies inside the other or one ends before the other starts: the locations form a forest, no two texts overlap partially. A file without tokens has only the location of the file itself.", "quantifier": "every accepted source, every pair of locations", "why_tests_cant": "All pairs of locations of all files; spans are computed from start and end tokens in many places and joined.", "anchors": ["protox-parse/src/generate/mod.rs: Context::add_location", "protox-parse/src/parse/mod.rs: join_span", "protox-parse/src/generate/lines.rs"]}
{"id": "C59", "title": "A file is the sum of its declarations", "statement": "If a text is accepted as a file, and further declarations are accepted under a syntax line of the same syntax, and not both contain a package, then the text, a newline and the further declarations form an accepted file. Its descriptor has the imports, messages, enums, services, extensions and options of the first part followed by those of the second; the indices of public and weak imports of the second part count the imports of the first part as well. No declaration changes the meaning of another one. Conversely, if a file with a syntax line and the same file followed by a newline and more text are both accepted, then the further text is accepted under that syntax line, not both parts contain a package, and the descriptor is again the sum.", "quantifier": "every pair of accepted texts (any white space and comments at the seam)", "why_tests_cant": "All pairs of files; a parser or generator with state carried from one declaration to the next (comments, text-format mode, scopes, indices, syntax) would break it only for particular pairs.", "anchors": ["protox-parse/src/parse/mod.rs: parse_file, parse_statement", "protox-parse/src/generate/mod.rs: generate_file_descriptor", "protox-parse/src/lex/mod.rs: Token"]}
{"id": "C60", "title": "What can be compiled is compiled", "statement": "With a resolver that answers the same every time and knows finitely many files, and a linker that finds nothing wrong, open_file(path) succeeds exactly if the path stands for a file the resolver has (and that is not shadowed by another one), every file reached from it by imports can be opened, no file reached imports the same file twice, and there is no import cycle. What was opened before, successfully or not, does not matter. compile(paths) succeeds exactly if that holds for every path, whatever their order and repetitions.", "quantifier": "every resolver, import graph, history of calls, list of paths", "why_tests_cant": "The negative half of each check (no spurious cycle, no spurious duplicate, diamonds, files loaded by failed calls) must hold for every import graph and every history.", "anchors": ["protox/src/compile/mod.rs: Compiler::open_file, add_import, check_file", "protox/src/lib.rs: compile"]}
{"id": "C61", "title": "Everything that points into the source points between characters", "statement": "For UTF-8 source text, every span of every error parse reports (including ParseError::span()) starts and ends on a character boundary with start <= end, so slicing the source with it does not panic and gives valid text; the same holds of the text behind every source location of a result, and the lexer never begins or ends a token inside a multi-byte character.", "quantifier": "all UTF-8 source texts with characters of any length in any place, all errors, all source locations, all lexer choices the model leaves open", "why_tests_cant": "The lexer works on bytes and adds lengths by hand; a panic needs a multi-byte character at exactly the place an offset is computed for, of which there are many, inside strings, comments, invalid tokens and after them.", "anchors": ["protox-parse/src/lex/mod.rs: Token, lexer.bump, callbacks", "protox-parse/src/parse/mod.rs: Parser, join_span", "protox-parse/src/error.rs: ParseError::span, ParseErrorKind", "protox-parse/src/generate/lines.rs: LineResolver"]}
{"id": "C62", "title": "Printed errors name the file, line and column", "statement": "Formatting an error with {:?} never panics. For a parse error it gives file:line:column: message, where file is the name passed to parse and line and column (from 1) are those of the start of the primary span, counting \\n, \\r\\n and \\r as line ends; only errors without a span (end of file, duplicate package, too large) print just the message. For a missing or repeated import the text starts with the importing file's name and ends with the message naming the import; if the import statement is on one line after ASCII text the position printed is that of the statement. The bounds quoted in the messages about field and enum numbers are the bounds that are enforced.", "quantifier": "all sources, names and parse errors; all compiler states, files and imports", "why_tests_cant": "the position depends on every byte before the error; tests have a few fixed texts", "anchors": ["protox-parse/src/error.rs: impl Debug for ParseError, ParseErrorKind", "protox/src/error.rs: impl Debug for Error, find_import_span"]}
{"id": "C63", "title": "Every descriptor of a large class has a text that parses to it", "statement": "For every file descriptor without groups, floating-point defaults and aggregate options, whose members are in the order in which text can declare them (the fields of a oneof are consecutive and oneofs are numbered by first field; map entries follow the order of their fields) and whose names, numbers and ranges are within the language's bounds, the text obtained by writing its members one after the other (WriteSpec.v) is accepted by parse and gives back exactly that descriptor, apart from source_code_info: package, imports with their public and weak indices, options, messages at any depth with fields, labels, types, defaults, json names, maps, oneofs, proto3 optional fields with their synthetic oneofs, extensions, ranges and reserved names, enums and services.", "quantifier": "all descriptors of the class (any number of members, any nesting depth), all file names, all sort functions, all float printers", "why_tests_cant": "A test can write and read back finitely many descriptors; that no member is lost, reordered or changed for any descriptor is a statement about all of them.", "anchors": ["protox-parse/src/lib.rs: parse", "protox-parse/src/parse/mod.rs", "protox-parse/src/generate/mod.rs"]}
{"id": "C64", "title": "What parse returns can be written down and parsed again to the same descriptor", "statement": "Whenever parse accepts a text and the descriptor contains no group, no aggregate option value and no default of type float, double or (unless an identifier) of a named type, then the text written for that descriptor by the writer of C63 (a canonical text: comments, spelling of numbers and strings, order of declarations and splitting of ranges are gone) is accepted under the same name and gives the same descriptor apart from source_code_info; every such descriptor is in the class of C63, so the class leaves out nothing parse can return; and two descriptors of the class with the same name and the same text are equal.", "quantifier": "all source texts (any bytes, any size and nesting depth), all file names, sort functions and float printers", "why_tests_cant": "A test can re-read finitely many files; that nothing the parser accepts gives a descriptor that cannot be expressed again is a statement about all texts.", "anchors": ["protox-parse/src/lib.rs: parse", "protox-parse/src/parse/mod.rs", "protox-parse/src/generate/mod.rs"]}
{"id": "C65", "title": "The file name is only a label and the unstable sort is harmless", "statement": "parse of the same text under two names gives the same outcome: the same descriptor (source_code_info included) but for its name, or the same errors but for the name they carry. The freedom sort_unstable has shows nowhere but in the order of source locations that share a path: errors and everything else in the descriptor are the same, the list of paths is the same, and a location whose path is not one of the shared ones (C57) stands at the same index.", "quantifier": "all texts, all pairs of names, all pairs of sorting functions", "why_tests_cant": "A test compares finitely many texts, and one implementation of the sort.", "anchors": ["protox-parse/src/lib.rs: parse", "protox-parse/src/generate/mod.rs: generate_file"]}
{"id": "C66", "title": "The advice given with a shadowing error works", "statement": "When Compiler::open_file fails because the path is shadowed, the error's help names the shadowing path and the requested path (with replacement characters for bytes that are not UTF-8). The shadowing path is that of the first include directory having a file of that name; it exists, parses, and lies in an include directory. Passing it instead (first advice), and the path of the next shadowing error if there is one, ends: with k include directories at most (k+1)/2 such errors follow each other, at most k/2 if the directories the path lies in have the file; so with up to three directories one step is enough. Putting the directory of the path first (second advice) gets rid of the error whenever the directory has the file; if it has not, the error stays.", "quantifier": "all file systems (that treat paths alike which differ only in '.' components and repeated slashes), include directories (any number, nested or not), paths, linkers, and compilers after any sequence of calls", "why_tests_cant": "Tests try a few directory layouts; include directories inside one another make the advised path resolve to another name, which may be shadowed again, so that following the advice ends is a statement about all layouts.", "anchors": ["protox/src/error.rs: FileShadowed", "protox/src/compile/mod.rs: Compiler::open_file", "protox/src/file/include.rs: check_shadow, IncludeFileResolver", "protox/src/file/chain.rs: ChainFileResolver"]}
{"id": "C67", "title": "The help given with an error is true", "statement": "Every error that parse reports with a help text is about something in the source that breaks the rule the help quotes: a syntax value other than 'proto2' and 'proto3'; a quoted name that is not a letter followed by letters, digits and underscores; a group name that does not start with a capital letter; an import that is no relative path of safe components; an integer outside the two bounds printed (or a negative zero where the lower bound is 0); a file longer than the number of bytes printed (also when a file is opened). A name that keeps the rule quoted and is rejected anyway is empty or starts with an underscore; an import that keeps the rule quoted and is rejected anyway is empty or starts or ends with a slash: these are the only reasons the help does not give.", "quantifier": "all source texts, all errors of all failing calls", "why_tests_cant": "A test looks at the help of a few errors; that it is never misleading, apart from the exceptions listed, is a statement about all rejected texts.", "anchors": ["protox-parse/src/error.rs: ParseErrorKind", "protox/src/error.rs: ErrorKind::FileTooLarge", "protox-parse/src/parse/mod.rs: is_valid_import", "protox-parse/src/case.rs: is_valid_ident, is_valid_group_name"]}
