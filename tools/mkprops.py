import json
P=[]
def p(id,title,statement,quantifier,why,anchors):
    P.append(dict(id=id,title=title,statement=statement,quantifier=quantifier,why_tests_cant=why,anchors=anchors))
C="protox/src/compile/mod.rs"; F="protox/src/file/"; PP="protox-parse/src/parse/mod.rs"; G="protox-parse/src/generate/mod.rs"; L="protox-parse/src/lex/mod.rs"
p("C01","parse() is total: it terminates and never panics",
 "For every file name and every source string, protox_parse::parse returns (no infinite loop, no panic in a release build); the result is either Ok or an Err carrying at least one error.",
 "every source byte string","unbounded input space; panics hide in error-recovery interleavings of the lexer and the parser",
 [PP+":parse_file,bump,skip_until","protox-parse/src/error.rs:ParseError::new","protox-parse/src/lib.rs:parse"])
p("C02","Debug assertions of the parser hold, or the exact class of inputs that breaks them",
 "In a debug build parse() does not hit a debug_assert, except for digit runs such as 018 (leading 0, then octal digits, then an 8 or 9) which trip the assertion in the integer callback. Even then a release build reports an error: a source a release build accepts is accepted by a debug build with the same descriptor.",
 "every source byte string","needs the complement of a set of inputs, not a sample",[L+":int","protox-parse/src/parse/comments.rs:flush"])
p("C03","Accepted files conform to the protobuf grammar (soundness)",
 "If parse() succeeds, the significant tokens of the whole source (comments and newlines dropped) form a sentence of the protobuf grammar, and the declarations reported are the ones that sentence denotes, with the spans of their first and last tokens.",
 "every source on which parse succeeds","the language is infinite; a test shows only that some sentences parse",[PP+":parse_statement..parse_string"])
p("C04","Every sentence of the grammar is accepted by the parser (completeness)",
 "If the source lexes without lexical error and its significant tokens are a sentence of the grammar, syntax analysis succeeds.",
 "every sentence of the grammar","infinite language, arbitrary nesting",[PP])
p("C05","Whitespace and comments never change the meaning",
 "Two accepted sources with the same sequence of significant tokens give descriptors that differ at most in source_code_info; a source with the tokens of an accepted one and no lexical error is accepted as well.",
 "every pair of sources with equal significant token sequences","pairs of unbounded inputs",[PP+":peek,peek_skip_comments",G])
p("C06","No lexical error is swallowed",
 "If parse() succeeds then lexing the whole source up to end of file produced no lexical error (invalid token, bad escape, out-of-range integer, nested block comment, unterminated string or comment).",
 "every source","errors may be produced while peeking, skipping or recovering",[L,PP+":parse_file"])
p("C07","Tokenisation is maximal munch over the declared token patterns",
 "Each token the lexer returns is a longest prefix of the remaining input matching one of the declared token regular expressions, tokens and skipped whitespace tile the source with no gap or overlap, and lexing always advances.",
 "every source, every position","all strings",[L+":Token"])
p("C08","Integer literals denote their value",
 "Decimal, octal and hexadecimal literals yield exactly the number they denote when it is below 2^64 and are rejected otherwise.",
 "every digit string and radix","unbounded digit strings",[L+":int"])
p("C09","Integer literals glued to identifiers are rejected - except after 0",
 "An integer literal immediately followed by a letter or underscore makes parse fail; this is violated for the literal 0 (0abc lexes silently as 0 and abc; with the digit-run behaviour shown in lex/tests.rs also for 0 followed by digits that are not all octal).",
 "every literal and following text","universal claim with a hidden exception",[L+":int"])
p("C10","String literals decode as documented",
 "For every error-free string literal the token's bytes are the concatenation of the decoded components (raw text, hex, octal, character and unicode escapes), and literals containing NUL, a newline, a bad escape, an octal escape above 255 or a surrogate are rejected.",
 "every literal body","all escape sequences in all combinations",[L+":string"])
p("C11","Bytes defaults round-trip",
 "For every byte sequence, the escaped text stored as default_value of a bytes field, put between double quotes, lexes back to exactly that byte sequence with no error.",
 "every byte sequence","unbounded",["protox-parse/src/ast/mod.rs:Display for String",L+":string"])
p("C12","Aggregate option text round-trips",
 "The aggregate_value string produced for an option lexes (in text-format mode) to exactly the token sequence written between the braces in the source.",
 "every aggregate option value","token interaction when re-joined with spaces, all token kinds",[PP+":parse_text_format_message",L+":Display for Token"])
p("C13","Offsets map to the right line and column",
 "For every source and every offset in it, the reported line is the number of newline bytes before the offset and the column is the distance in bytes to the start of that line; the span is encoded with three numbers iff it stays on one line.",
 "every source and offset","unbounded",["protox-parse/src/generate/lines.rs"])
p("C14","Source locations are in range and ordered",
 "For every successfully parsed file, source_code_info locations are sorted by path and every span lies inside the file with start <= end, except the root location of a file without any statement, which is inverted.",
 "every source on which parse succeeds","every declaration shape and nesting",[G+":generate_file,add_span",PP+":parse_file"])
p("C15","Location paths point at existing descriptor elements",
 "Every path in source_code_info leads to an element of the descriptor it accompanies (tags are fields of that message type, indices are within the repeated field), except the options of a field whose only options are default or json_name and the syntax of an explicit proto2 file; the location of a name covers exactly that name in the source.",
 "every source on which parse succeeds","index bookkeeping with shared counters across fields, groups, oneofs, extends",[G])
p("C16","Field numbers and ranges are valid",
 "In every descriptor returned by parse, each field and extension number is in 1..=536870911, each enum number fits i32, and each reserved/extension range has in-range start and exclusive end with no overflow (end at most 2^29, or i32::MAX for message sets).",
 "every source on which parse succeeds","numbers at all nesting levels and radixes",[G+":generate_message_number,generate_message_reserved_range"])
p("C17","proto2/proto3 field rules are enforced everywhere",
 "In a proto3 file that parses there are no groups, no default values and no required fields at any nesting level; in a proto2 file every non-oneof, non-map field had an explicit label; extensions are never required; proto3_optional never appears in proto2.",
 "every source on which parse succeeds","all nesting levels, groups inside oneofs inside extends",[G+":generate_field_descriptor,generate_field_label"])
p("C18","Oneofs are well formed",
 "In every message descriptor returned by parse, each oneof_index is in range, real oneofs come first in source order and have at least one member, and each proto3 optional field has its own synthetic oneof, placed after all real ones, with it as only member.",
 "every source on which parse succeeds","interleavings of fields and oneofs",[G+":generate_message_body_descriptor,generate_oneof_descriptor"])
p("C19","Map fields are desugared correctly",
 "Each map field becomes a repeated message field whose type names a nested map_entry message with exactly key=1 and value=2 of the declared types; key types are integral, bool or string; map entries are produced by map fields only.",
 "every source on which parse succeeds","all type combinations and names",[G+":generate_field_descriptor","protox-parse/src/case.rs:to_pascal_case"])
p("C20","Groups are desugared correctly",
 "Each group becomes a field of type GROUP with the lower-cased name and a nested message with the original (capitalised) name holding the group's body.",
 "every source on which parse succeeds","nesting",[G+":generate_field_descriptor",PP+":parse_group"])
p("C21","Integer, bool, string and bytes defaults are canonical and in range",
 "A scalar default is stored only if it has the field's type and range, and then as the canonical decimal text of the literal's value (true/false, the UTF-8 text, the C-escaped bytes); otherwise parse fails.",
 "every field type and option value","boundary values of four integer widths with sign",[G+":generate_field_default_value","protox-parse/src/ast/mod.rs:as_i32,as_i64"])
p("C22","Imports are reported faithfully and safely",
 "The dependency list of the descriptor is the list of import strings in source order, public/weak dependency lists hold exactly the indices of public/weak imports in order, and every dependency is a non-empty relative path without empty, '.', '..' or backslash components.",
 "every source on which parse succeeds","all strings incl. escapes",[PP+":parse_import,is_valid_import",G+":generate_file_descriptor"])
p("C23","Options are preserved",
 "Each option written in the source yields exactly one UninterpretedOption, in order, with exactly one value set, except that the first 'default' and 'json_name' of a field are moved to the dedicated members.",
 "every source on which parse succeeds","list positions",[G+":generate_options,generate_option,take_option"])
p("C24","Error spans lie inside the source",
 "Every span reported in a ParseError (lexical, syntactic or semantic) satisfies start <= end <= source length.",
 "every source on which parse fails","miette rendering depends on it for arbitrary garbage input",["protox-parse/src/error.rs:span",L,PP])
p("C25","Comments are attached from the source, at most once",
 "Leading, trailing and detached comments in source_code_info are texts of comment tokens of the source adjacent to the declaration; no comment is attached to two declarations.",
 "every source on which parse succeeds","comment state machine over arbitrary token interleavings",["protox-parse/src/parse/comments.rs",PP+":peek"])
p("C26","At most one package",
 "If parse succeeds the source has at most one package statement and the descriptor's package is its dotted name.",
 "every source","global property of a file",[PP+":parse_file"])
p("C27","Oversized files are rejected up front",
 "Sources longer than i32::MAX bytes give FileTooLarge and for all others every index and offset fits i32 (no conversion panic).",
 "every source length","cannot allocate or enumerate such inputs",["protox-parse/src/lib.rs:parse,index_to_i32"])
p("C30","Output is in topological order",
 "After any sequence of open_file calls (successful or not), in files() and file_descriptor_set() with imports each file comes after all files it imports.",
 "every resolver (even one that changes between calls), every history","histories and import graphs are unbounded",[C+":open_file,add_import,file_descriptor_set"])
p("C31","No file appears twice and imports are complete",
 "With include_imports the output contains every file at most once and contains every dependency of every file in it.",
 "every history","graph shapes with shared imports",[C])
p("C32","is_import is exact",
 "A file is reported as non-import (and emitted without include_imports) iff some successful open_file call named it; all other files in the output were reached as imports.",
 "every history","order of explicit opening vs importing",[C+":open_file",F+"mod.rs:FileMetadata"])
p("C33","Circular imports are always detected, and only real cycles are reported",
 "If open_file reports an import cycle, the message is a chain of files each importing the next ending in a repeat; if the imports reachable from a not yet loaded file contain a cycle through unloaded files, open_file fails; for a resolver with finitely many files open_file terminates.",
 "every import graph","all graphs",[C+":add_import"])
p("C34","Duplicate imports are rejected",
 "If open_file succeeds, no file it newly added lists the same import twice; a DuplicateImport error names an import that really occurs twice in the named file.",
 "every history","all graphs",[C+":open_file,add_import","protox/src/error.rs:duplicated_import"])
p("C35","Failed calls do not corrupt the compiler",
 "A failing open_file never removes, reorders or changes files already present nor their import flags, does not add the requested file as a non-import, and leaves every later call's guarantees intact.",
 "every failure point in every history","every point at which resolver, parser or linker may fail",[C+":open_file"])
p("C36","Successful open loads exactly the import closure",
 "After a successful open_file the set of files is the previous set plus the transitive imports of the requested name that were missing; hence opening a set of files in any order gives the same set of files.",
 "every finite resolver, every set of names","all graphs and permutations",[C])
p("C37","open_file is idempotent",
 "Opening a file that is already loaded succeeds (unless shadowed) and changes nothing but its import flag.",
 "every state","all states",[C+":open_file"])
p("C38","Accessors never panic for well-behaved resolvers",
 "files() and file_descriptor_set() never hit the internal map lookup panic if the resolver returns files carrying the requested name; a resolver returning another name makes them panic.",
 "every history","custom resolvers are arbitrary code",[C+":files,file_descriptor_set"])
p("C39","Source info and import options affect only what they say",
 "include_source_info(false) clears exactly source_code_info of each file; include_imports only filters; neither affects later compilation.",
 "every history","option toggles at any point",[C+":file_descriptor_set,include_imports"])
p("C40","Encoded descriptor sets agree with the structured ones",
 "encode_file_descriptor_set encodes the same files in the same order as file_descriptor_set returns, so that decoding it with DescriptorSetFileResolver resolves every emitted file.",
 "every history and option setting","two different code paths",[C+":encode_file_descriptor_set",F+"descriptor_set.rs"])
p("C41","Chained resolvers: first hit wins",
 "A chain returns the result of the first resolver whose answer is not a not-found error, otherwise not-found with the requested name; nesting chains is the same as flattening them.",
 "every list of resolvers and name","arbitrary resolvers",[F+"chain.rs"])
p("C42","Include paths: resolve_path and open_file agree",
 "If resolve_path maps a path to a name, joining that name to the include directory gives the same path up to '.' components (so opening it is not reported as shadowed), the name is relative, without '.', '..' or empty components; paths outside the include directory are not resolved.",
 "every include path and path","all paths",[F+"include.rs"])
p("C43","Imports cannot escape the include directory",
 "The path opened for any import accepted by the parser is the include directory followed by ordinary components: no absolute path and no '..'.",
 "every accepted import string and include directory","all strings",[PP+":is_valid_import",F+"include.rs:open_file"])
p("C44","Shadowed files are reported, never silently substituted",
 "If open_file succeeds for a path inside an include directory, the loaded file's path (if it has one) equals the requested path up to '.' components.",
 "every set of include paths and every path","filesystem layouts",[C+":open_file",F+"include.rs:check_shadow"])
p("C45","Missing files are classified",
 "A missing top-level file yields an error about the requested path; a missing import yields is_file_not_found with file() the importing file and the missing name, at any depth; the three predicates is_file_not_found, is_parse and is_io are mutually exclusive.",
 "every history","depth of import chain",["protox/src/error.rs",C])
p("C46","DescriptorSetFileResolver preserves bytes",
 "Decoding a serialized FileDescriptorSet keeps, for each file in order, exactly the bytes it was encoded from, skips unknown fields, looks names up first-match, and rejects truncated input without panicking or reading past the end.",
 "every byte buffer","all byte strings",[F+"descriptor_set.rs"])
p("C47","Import error spans point at the import statement",
 "For a single-line import preceded on its line only by ASCII text the reported span is exactly the import statement; with non-ASCII text before it on the line the span is displaced.",
 "every source","needs all columns and all characters",["protox/src/error.rs:find_import_span","protox-parse/src/generate/lines.rs"])
p("C48","Opening a file on disk",
 "File::open of a regular file gives exactly what parsing its contents under the given name gives, plus the path; contents longer than i32::MAX bytes are reported too large and contents that are not UTF-8 as such; an operating system error is classified as not found, invalid data or I/O according to its kind; every error carries the requested name; it never panics, even on inputs that change while being read.",
 "every name, path, file contents and file system behaviour","the file system and the contents are arbitrary",[F+"mod.rs:File::open"])
p("C49","The resolver of Compiler::new",
 "A name is opened in the first include directory where it is not missing, else among the bundled google files, else not found; paths are resolved against the include directories in order; include directories shadow bundled files. The resolver meets every condition the compiler properties ask of a resolver.",
 "every include list, file system and name","all directory layouts",[C+":Compiler::new",F+"chain.rs",F+"google.rs",F+"include.rs"])
p("C50","open_files and compile",
 "open_files opens paths in order and stops at the first error, which it returns; compile returns, on success, exactly the import closure of the requested files, once each and imports first, with source info; on failure the error of the first path that cannot be opened; with finitely many files it terminates and never panics.",
 "every list of paths, resolver and file system","any number of files and imports",[C+":open_files","protox/src/lib.rs:compile"])
p("C51","Source locations are complete and nested",
 "Every part of every declaration of a parsed file (package, imports, messages, fields with label, type, number, default and json name, oneofs, extension and reserved ranges, enums, values, services, methods, options) has a source location at its path, except the parts that are not written in the source (map entries, synthetic oneofs, unwritten labels); its span lies inside the span of the declaration it belongs to (extendees and options of extension ranges excepted); declarations carry the comments found at their first token and the end of their head, other parts none; the root location covers all tokens.",
 "every accepted source text","all sources, at any nesting depth",["protox-parse/src/generate/mod.rs:generate_file","protox-parse/src/parse/mod.rs","protox-parse/src/generate/lines.rs"])
p("C52","The command line program",
 "protox FILES -I DIRS -o OUT ends with the error compile reports for those files and directories (the current directory if none is given) and then writes nothing; otherwise every file compiled and, if an output was asked for, exactly that one file is written, and it decodes to the files compile returns: without those not named on the command line unless --include_imports is given, without source info unless --include_source_info is given. It terminates without panic when finitely many files exist.",
 "every argument list, file system and outcome of writing","all combinations of flags, file sets and failures",["protox/src/main.rs:main",C+":encode_file_descriptor_set"])
p("C53","Semantic errors are exactly the broken rules",
 "For a source that is a sentence of the protobuf grammar, parse fails exactly when the file breaks one of the rules (numbers out of range, missing or forbidden labels, map and group restrictions, default and json_name values of the wrong kind or out of range, empty oneofs, option values out of range, ...), and the errors reported are exactly those of the rules broken, each with the span and the text the rule prescribes: none is missed, none is made up, and an out-of-range message states the value written and bounds it really violates.",
 "every sentence of the grammar","any number and combination of mistakes in any declaration at any depth",["protox-parse/src/generate/mod.rs","protox-parse/src/error.rs"])
p("C54","Syntax errors tell the truth",
 "If the source is not a sentence of the grammar (and not over the size limit), parse fails, and every error it reports is a true statement about the source: an invalid token is where the lexer finds none; an unexpected token stands at the span given, is quoted as written, and is none of the tokens the message says were expected, every item of which names a token; an integer out of range is a literal of 2^64 or more (or, written with a leading 0, one with digits other than 0-7); an invalid escape or character, an unterminated string, a nested comment, a missing space after a number, a hash comment or float suffix outside the text format stand exactly at the span given; an end-of-file error about a string or comment means it reaches the end; an invalid import, identifier, group name or syntax is the decoded string at that span and is indeed invalid; a duplicate package names two package statements, in order.",
 "every source text and every error in the result",
 "an error is reported from some fifty places in the parser, after arbitrary recovery from earlier errors; tests see a few",
 ["protox-parse/src/parse/mod.rs:Parser::unexpected_token","protox-parse/src/parse/mod.rs:Parser::skip_until","protox-parse/src/lex/mod.rs:Token","protox-parse/src/error.rs:ParseErrorKind"])
p("C55","An unexpected token is really unexpected",
  "If the first error parse reports is an unexpected token, then every source that agrees with this one up to the end of that token, and goes on with nothing or with white space and any text at all, fails with the same first error: the error is found as early as the text allows and nothing written behind the token can make it good.",
  "every source whose first error is an unexpected token and every text that replaces what follows the token (within the size limit)",
  "It compares the parser's run on one source with its runs on infinitely many others; tests only see single sources.",
  ["protox-parse/src/parse/mod.rs: Parser::unexpected_token, peek, peek_comments, skip_until, all parse_* functions","protox-parse/src/lex/mod.rs: Token"])
p("C56","The text before an unexpected token is good so far",
  "If the first error parse reports is an unexpected token, then some text can be put in place of that token and what follows so that the whole is a well-formed file (or a file whose only flaw is a second package declaration); and if it is an unexpected end of file (not inside a string or a comment), some text can be appended with that effect. The error is thus not reported too late: together with C55 it is reported at exactly the first token that cannot be right.",
  "every source whose first error is an unexpected token or an unexpected end of file",
  "For each of infinitely many rejected sources a completion must exist; a test can only exhibit it for a few.",
  ["protox-parse/src/parse/mod.rs: Parser::unexpected_token, eof, peek, all parse_* functions","protox-parse/src/lex/mod.rs: Token"])
p("C57","A source location is identified by its path",
  "In the source code info of a parsed file no two locations have the same path, except for the paths that by design collect several statements: the list of file options, of extend blocks, of a message's options, reserved ranges, reserved names, extension ranges, of an enum's options, reserved ranges and names, of a oneof's, service's or method's options, and a field's json_name (located once as option and once as value). So every message, field, enum, value, oneof, service and method, its name, its number and so on has exactly one location.",
  "every accepted source, every path",
  "Paths contain indices that the generator computes in several places (group messages and map entries take up message indices, oneof fields take up field indices); a clash needs a particular combination of declarations.",
  ["protox-parse/src/generate/mod.rs: generate_message_descriptors, generate_message_body, generate_field_descriptors, Context::add_location, in_path"])
p("C58","Source locations are nested or disjoint",
  "In the source code info of a parsed file (with at least one token) every location covers a non-empty text, and of any two locations one lies inside the other or one ends before the other starts: the locations form a forest, no two texts overlap partially. A file without tokens has only the location of the file itself.",
  "every accepted source, every pair of locations",
  "All pairs of locations of all files; spans are computed from start and end tokens in many places and joined.",
  ["protox-parse/src/generate/mod.rs: Context::add_location","protox-parse/src/parse/mod.rs: join_span","protox-parse/src/generate/lines.rs"])
p("C59","A file is the sum of its declarations",
  "If a text is accepted as a file, and further declarations are accepted under a syntax line of the same syntax, and not both contain a package, then the text, a newline and the further declarations form an accepted file. Its descriptor has the imports, messages, enums, services, extensions and options of the first part followed by those of the second; the indices of public and weak imports of the second part count the imports of the first part as well. No declaration changes the meaning of another one. Conversely, if a file with a syntax line and the same file followed by a newline and more text are both accepted, then the further text is accepted under that syntax line, not both parts contain a package, and the descriptor is again the sum.",
  "every pair of accepted texts (any white space and comments at the seam)",
  "All pairs of files; a parser or generator with state carried from one declaration to the next (comments, text-format mode, scopes, indices, syntax) would break it only for particular pairs.",
  ["protox-parse/src/parse/mod.rs: parse_file, parse_statement","protox-parse/src/generate/mod.rs: generate_file_descriptor","protox-parse/src/lex/mod.rs: Token"])
p("C60","What can be compiled is compiled",
  "With a resolver that answers the same every time and knows finitely many files, and a linker that finds nothing wrong, open_file(path) succeeds exactly if the path stands for a file the resolver has (and that is not shadowed by another one), every file reached from it by imports can be opened, no file reached imports the same file twice, and there is no import cycle. What was opened before, successfully or not, does not matter. compile(paths) succeeds exactly if that holds for every path, whatever their order and repetitions.",
  "every resolver, import graph, history of calls, list of paths",
  "The negative half of each check (no spurious cycle, no spurious duplicate, diamonds, files loaded by failed calls) must hold for every import graph and every history.",
  ["protox/src/compile/mod.rs: Compiler::open_file, add_import, check_file","protox/src/lib.rs: compile"])
p("C61","Everything that points into the source points between characters",
"For UTF-8 source text, every span of every error parse reports (including ParseError::span()) starts and ends on a character boundary with start <= end, so slicing the source with it does not panic and gives valid text; the same holds of the text behind every source location of a result, and the lexer never begins or ends a token inside a multi-byte character.",
"all UTF-8 source texts with characters of any length in any place, all errors, all source locations, all lexer choices the model leaves open",
"The lexer works on bytes and adds lengths by hand; a panic needs a multi-byte character at exactly the place an offset is computed for, of which there are many, inside strings, comments, invalid tokens and after them.",
["protox-parse/src/lex/mod.rs: Token, lexer.bump, callbacks","protox-parse/src/parse/mod.rs: Parser, join_span","protox-parse/src/error.rs: ParseError::span, ParseErrorKind","protox-parse/src/generate/lines.rs: LineResolver"])
p("C62","Printed errors name the file, line and column",
"Formatting an error with {:?} never panics. For a parse error it gives file:line:column: message, where file is the name passed to parse and line and column (from 1) are those of the start of the primary span, counting \\n, \\r\\n and \\r as line ends; only errors without a span (end of file, duplicate package, too large) print just the message. For a missing or repeated import the text starts with the importing file's name and ends with the message naming the import; if the import statement is on one line after ASCII text the position printed is that of the statement. The bounds quoted in the messages about field and enum numbers are the bounds that are enforced.",
"all sources, names and parse errors; all compiler states, files and imports","the position depends on every byte before the error; tests have a few fixed texts",
["protox-parse/src/error.rs: impl Debug for ParseError, ParseErrorKind","protox/src/error.rs: impl Debug for Error, find_import_span"])
p("C63","Every descriptor of a large class has a text that parses to it",
 "For every file descriptor without groups, floating-point defaults and aggregate options, whose members are in the order in which text can declare them (the fields of a oneof are consecutive and oneofs are numbered by first field; map entries follow the order of their fields) and whose names, numbers and ranges are within the language's bounds, the text obtained by writing its members one after the other (WriteSpec.v) is accepted by parse and gives back exactly that descriptor, apart from source_code_info: package, imports with their public and weak indices, options, messages at any depth with fields, labels, types, defaults, json names, maps, oneofs, proto3 optional fields with their synthetic oneofs, extensions, ranges and reserved names, enums and services.",
 "all descriptors of the class (any number of members, any nesting depth), all file names, all sort functions, all float printers",
 "A test can write and read back finitely many descriptors; that no member is lost, reordered or changed for any descriptor is a statement about all of them.",
 ["protox-parse/src/lib.rs: parse","protox-parse/src/parse/mod.rs","protox-parse/src/generate/mod.rs"])
p("C64","What parse returns can be written down and parsed again to the same descriptor",
 "Whenever parse accepts a text and the descriptor contains no group, no aggregate option value and no default of type float, double or (unless an identifier) of a named type, then the text written for that descriptor by the writer of C63 (a canonical text: comments, spelling of numbers and strings, order of declarations and splitting of ranges are gone) is accepted under the same name and gives the same descriptor apart from source_code_info; every such descriptor is in the class of C63, so the class leaves out nothing parse can return; and two descriptors of the class with the same name and the same text are equal.",
 "all source texts (any bytes, any size and nesting depth), all file names, sort functions and float printers",
 "A test can re-read finitely many files; that nothing the parser accepts gives a descriptor that cannot be expressed again is a statement about all texts.",
 ["protox-parse/src/lib.rs: parse","protox-parse/src/parse/mod.rs","protox-parse/src/generate/mod.rs"])
p("C65","The file name is only a label and the unstable sort is harmless",
 "parse of the same text under two names gives the same outcome: the same descriptor (source_code_info included) but for its name, or the same errors but for the name they carry. The freedom sort_unstable has shows nowhere but in the order of source locations that share a path: errors and everything else in the descriptor are the same, the list of paths is the same, and a location whose path is not one of the shared ones (C57) stands at the same index.",
 "all texts, all pairs of names, all pairs of sorting functions",
 "A test compares finitely many texts, and one implementation of the sort.",
 ["protox-parse/src/lib.rs: parse","protox-parse/src/generate/mod.rs: generate_file"])
p("C66","The advice given with a shadowing error works",
 "When Compiler::open_file fails because the path is shadowed, the error's help names the shadowing path and the requested path (with replacement characters for bytes that are not UTF-8). The shadowing path is that of the first include directory having a file of that name; it exists, parses, and lies in an include directory. Passing it instead (first advice), and the path of the next shadowing error if there is one, ends: with k include directories at most (k+1)/2 such errors follow each other, at most k/2 if the directories the path lies in have the file; so with up to three directories one step is enough. Putting the directory of the path first (second advice) gets rid of the error whenever the directory has the file; if it has not, the error stays.",
 "all file systems (that treat paths alike which differ only in '.' components and repeated slashes), include directories (any number, nested or not), paths, linkers, and compilers after any sequence of calls",
 "Tests try a few directory layouts; include directories inside one another make the advised path resolve to another name, which may be shadowed again, so that following the advice ends is a statement about all layouts.",
 ["protox/src/error.rs: FileShadowed","protox/src/compile/mod.rs: Compiler::open_file","protox/src/file/include.rs: check_shadow, IncludeFileResolver","protox/src/file/chain.rs: ChainFileResolver"])
p("C67","The help given with an error is true",
 "Every error that parse reports with a help text is about something in the source that breaks the rule the help quotes: a syntax value other than 'proto2' and 'proto3'; a quoted name that is not a letter followed by letters, digits and underscores; a group name that does not start with a capital letter; an import that is no relative path of safe components; an integer outside the two bounds printed (or a negative zero where the lower bound is 0); a file longer than the number of bytes printed (also when a file is opened). A name that keeps the rule quoted and is rejected anyway is empty or starts with an underscore; an import that keeps the rule quoted and is rejected anyway is empty or starts or ends with a slash: these are the only reasons the help does not give.",
 "all source texts, all errors of all failing calls",
 "A test looks at the help of a few errors; that it is never misleading, apart from the exceptions listed, is a statement about all rejected texts.",
 ["protox-parse/src/error.rs: ParseErrorKind","protox/src/error.rs: ErrorKind::FileTooLarge","protox-parse/src/parse/mod.rs: is_valid_import","protox-parse/src/case.rs: is_valid_ident, is_valid_group_name"])
open("/verif/properties.jsonl","w").write("".join(json.dumps(x)+"\n" for x in P))
print(len(P))
