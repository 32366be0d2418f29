{"id": "C01", "title": "Arena blocks are aligned, in bounds and disjoint", "statement": "Every successful allocation from an Arena returns a block that is aligned as requested, lies wholly inside the arena's memory, and overlaps no block returned since the last clear of the arena.", "quantifier": "every arena base address and size, every history of allocation requests (any sizes and alignments) and FREE_ALL calls", "why_tests_cant": "Overlap depends on the whole history of sizes and alignments; the failing interleavings are sparse and need a particular mix.", "anchors": ["base/dependencies/memory.hpp: arena_*", "base/dependencies/memory.cpp: arena_allocator_proc"]}
{"id": "C02", "title": "Pool never hands a block to two owners and never loses one", "statement": "A Pool of n blocks serves exactly n live allocations, never returns a block that is still owned, returns only addresses of its own blocks, those blocks do not overlap, and freeing a block makes precisely that block available again; clear makes all n blocks available.", "quantifier": "every pool geometry and every history of allocate / free / free-all in which only owned blocks are freed", "why_tests_cant": "The intrusive free list threads through user memory; correctness is an invariant over every history.", "anchors": ["base/dependencies/memory.cpp: pool_init_align, pool_allocator_proc, pool_clear"]}
{"id": "C03", "title": "Alignment helpers compute the least aligned value", "statement": "is_power_of_two(x) is true exactly for x = 2^k; align_forward(p,a) is the least multiple of a that is >= p; align_forward_s64(v,a) is the least multiple of a that is >= v.", "quantifier": "every 64-bit address / non-negative value and every power-of-two (resp. positive) alignment that does not overflow", "why_tests_cant": "Bit tricks over the full 64-bit range cannot be enumerated.", "anchors": ["base/dependencies/memory.hpp: is_power_of_two, align_forward, align_forward_s64"]}
{"id": "C04", "title": "mem_set writes exactly the requested range", "statement": "mem_set(dst,c,n) leaves every byte of [dst,dst+n) equal to c and every other byte of memory unchanged.", "quantifier": "every memory content, destination address (every alignment), byte value and length", "why_tests_cant": "The routine has six overlapping-store stages depending on n and the address alignment; all combinations must be covered.", "anchors": ["base/dependencies/memory.hpp: mem_set"]}
{"id": "C05", "title": "mem_move copies correctly for every overlap", "statement": "After mem_move(dst,src,n), byte dst+i holds what src+i held before the call for every 0<=i<n, and bytes outside [dst,dst+n) are unchanged, whatever the overlap and relative alignment.", "quantifier": "every memory content, pair of addresses and length", "why_tests_cant": "Forward/backward, byte/word paths depend on distance and congruence; the space is infinite.", "anchors": ["base/dependencies/memory.hpp: mem_move", "base/dependencies/memory.cpp: mem_copy"]}
{"id": "C06", "title": "mem_find returns the first occurrence", "statement": "mem_find(data,c,n) returns the address of the first byte equal to c in [data,data+n), or NULL exactly when there is none; c_str_len_capped(s,n) is the number of bytes before the first NUL, at most n.", "quantifier": "every memory content, address alignment, byte and length", "why_tests_cant": "The word-at-a-time zero-byte trick must be right for all 2^64 words.", "anchors": ["base/dependencies/memory.cpp: mem_find", "base/dependencies/string_ops.hpp: c_str_len_capped"]}
{"id": "C07", "title": "Default resize preserves content", "statement": "default_resize_align returns a block whose first min(old,new) bytes equal the old block's; shrinking returns the same block; size 0 frees it and returns null; a null block allocates.", "quantifier": "every memory content, old and new size, and every allocator that returns blocks disjoint from live ones", "why_tests_cant": "Content preservation is a for-all over sizes, addresses and memory.", "anchors": ["base/dependencies/memory.hpp: default_resize_align"]}
{"id": "C08", "title": "Dynamic array behaves as a sequence", "statement": "Any history of init/append/pop/clear/remove_at/fill/resize/set_capacity/back on an Array observes exactly what the same history on a mathematical sequence would observe, with Num <= Capacity throughout and reallocation invisible.", "quantifier": "every history of operations with in-range arguments, all element values, all initial capacities", "why_tests_cant": "Growth happens at history-dependent points; only induction covers every history.", "anchors": ["base/dependencies/containers.hpp: array_*"]}
{"id": "C09", "title": "Bulk append extends the array by the given items", "statement": "array_append_items / array_append_array leave the array equal to its old contents followed by the items.", "quantifier": "every array state and every item list", "why_tests_cant": "Needs every capacity/length combination.", "anchors": ["base/dependencies/containers.hpp: array_append_items, array_append_array"]}
{"id": "C10", "title": "Insert-at puts the item at the index", "statement": "array_append_at(array,item,i) leaves the array equal to the old contents with item inserted at position i (at the end if i is past the end).", "quantifier": "every array state, item and index", "why_tests_cant": "Needs every length/index/capacity combination.", "anchors": ["base/dependencies/containers.hpp: array_append_at"]}
{"id": "C11", "title": "Hashtable behaves as a map for any history", "statement": "After any history of set/clear, get(k) returns the value of the latest set of k since the last clear, and null if there was none; growth and rehash are invisible.", "quantifier": "every history of operations, all 64-bit keys (any collision pattern), all initial sizes", "why_tests_cant": "Chaining, growth and rehash interleave with arbitrary collisions.", "anchors": ["base/dependencies/containers.hpp: hashtable_*"]}
{"id": "C12", "title": "Hashtable lookups terminate and load stays bounded", "statement": "Every lookup chain in a reachable table is acyclic and in range so every get and set terminates; the entry count never exceeds the load threshold after a set.", "quantifier": "every reachable hashtable state", "why_tests_cant": "Termination over all reachable states is not testable.", "anchors": ["base/dependencies/containers.hpp: hashtable__find, hashtable_set, hashtable_rehash, hashtable_full"]}
{"id": "C13", "title": "Removing a key removes only that key", "statement": "hashtable_remove(k) makes get(k) null and changes no other key's value.", "quantifier": "every reachable table and key", "why_tests_cant": "Whether a later lookup breaks depends on collision chains built by arbitrary histories.", "anchors": ["base/dependencies/containers.hpp: hashtable_remove, hashtable_remove_entry"]}
{"id": "C14", "title": "crc32/crc64 are the documented CRC of the bytes", "statement": "crc32(data,len) equals the reflected CRC-32 with polynomial 0xEDB88320, init and final xor 0xFFFFFFFF, and crc64 the table polynomial's CRC, computed bit by bit over every byte sequence.", "quantifier": "every byte sequence", "why_tests_cant": "A wrong table entry only shows on inputs that reach it; equality with the bitwise definition is for all inputs.", "anchors": ["base/dependencies/hashing.cpp: crc32, crc64"]}
{"id": "C15", "title": "Interned strings keep their text", "statement": "cache_str(s) returns a string whose text equals s; the same text always yields the same cached string, and earlier cached strings are never changed.", "quantifier": "every history of cached strings", "why_tests_cant": "Collisions of the 32-bit key need particular strings in one history.", "anchors": ["base/components/interface.cpp: cache_str, get_cached_str_allocator"]}
{"id": "C16", "title": "Interning never overruns its string arenas", "statement": "Every string accepted by cache_str is stored in memory that is in bounds and disjoint from all strings cached before.", "quantifier": "every history of cached strings and every arena size configuration", "why_tests_cant": "Depends on all length sequences against the bucket boundary.", "anchors": ["base/components/interface.cpp: get_cached_str_allocator, cache_str"]}
{"id": "C17", "title": "StrBuilder appends concatenate", "statement": "After any sequence of appends the builder's text is the concatenation of the appended texts, its length is the sum of lengths, the byte after the text is NUL and length never exceeds capacity.", "quantifier": "every initial capacity and every sequence of appended byte strings", "why_tests_cant": "Reallocation points depend on the history.", "anchors": ["base/dependencies/strings.hpp: strbuilder_*", "base/dependencies/strings.cpp"]}
{"id": "C18", "title": "StrBuilder edits match their description", "statement": "strbuilder_trim removes exactly the maximal leading and trailing runs of cut-set characters; strbuilder_strip_space removes exactly the white space; strbuilder_clear yields the empty string; strbuilder_skip_line drops the first line.", "quantifier": "every text and cut set", "why_tests_cant": "Boundary conditions for all texts (all-whitespace, empty, embedded).", "anchors": ["base/dependencies/strings.hpp: strbuilder_trim, strbuilder_strip_space, strbuilder_skip_line, strbuilder_clear"]}
{"id": "C19", "title": "String predicates decide what they name", "statement": "str_are_equal, str_contains, str_starts_with, strbuilder_are_equal, strbuilder_contains_*, strbuilder_starts_with_* decide equality, substring and prefix of the texts.", "quantifier": "every pair of strings", "why_tests_cant": "Off-by-one errors appear only on particular pairs.", "anchors": ["base/dependencies/strings.hpp: str_are_equal, str_contains, str_starts_with, strbuilder_starts_with_string, strbuilder_starts_with_str"]}
{"id": "C20", "title": "Integer/text conversion round-trips", "statement": "c_str_to_i64(i64_to_str(v)) = v and the text is the canonical numeral, for the bases both sides support; likewise for unsigned values.", "quantifier": "every 64-bit value and every base 2..16", "why_tests_cant": "2^64 values.", "anchors": ["base/dependencies/string_ops.cpp: i64_to_str, u64_to_str, c_str_to_i64, _scan_u64"]}
{"id": "C21", "title": "Character classification and case conversion", "statement": "char_is_* decide exactly the ASCII classes they name, char_to_lower/upper change only letters and are mutually inverse on letters, digit_to_int/hex_digit_to_int return the digit's value.", "quantifier": "every byte value", "why_tests_cant": "Exhaustive over the byte domain; used by every parser decision.", "anchors": ["base/dependencies/string_ops.hpp: char_*, digit_to_int, hex_digit_to_int"]}
{"id": "C22", "title": "Keyword tables are inverse to printing", "statement": "For every specifier s, str_to_specifier(spec_to_str(s)) = s; every keyword text is classified to the token whose text it is; no other text is classified as a keyword.", "quantifier": "every enum value and every string", "why_tests_cant": "'No other text' ranges over all strings; lookups compare only 32-bit hashes.", "anchors": ["base/components/gen/especifier.hpp", "base/components/gen/etoktype.hpp"]}
{"id": "C23", "title": "Access specifiers and module flags print their C++ keyword", "statement": "access_spec_to_str(a) is the keyword of a ('' / public / protected / private) with its exact length; module_flag_to_str likewise.", "quantifier": "every enumerator", "why_tests_cant": "A wrong length reads past the literal, invisible in most tests.", "anchors": ["base/components/types.hpp: access_spec_to_str, module_flag_to_str"]}
{"id": "C24", "title": "make_code always yields a fresh, zeroed node", "statement": "Every Code returned by make_code is all-zero, and distinct from every Code returned earlier in the same context, for any number of nodes; pools grow as needed.", "quantifier": "every history of node creations since init/reset, every pool size", "why_tests_cant": "Distinctness across pool boundaries for unbounded counts.", "anchors": ["base/components/interface.cpp: make_code, init, reset"]}
{"id": "C25", "title": "Appending keeps order and count", "statement": "After appending codes c1..cn (each not yet in a list) to a body, iterating the body visits exactly c1..cn in order, the entry count is n, Front is c1 and Back is cn; previously appended nodes keep their content.", "quantifier": "every sequence of appended nodes", "why_tests_cant": "Pointer-list invariants over all histories.", "anchors": ["base/components/inlines.hpp: code_append, body_append, begin_CodeBody, end_CodeBody, next_CodeBody, code_entry"]}
{"id": "C26", "title": "Appending a code already in use adds an independent copy", "statement": "Appending a code that already has a parent appends a copy with the same content, leaves the first list unchanged, and iterating either list yields only its own members.", "quantifier": "every pair of lists and every re-appended node", "why_tests_cant": "Aliasing shows only for particular list shapes and later mutations.", "anchors": ["base/components/inlines.hpp: code_append", "base/components/ast.cpp: code_duplicate"]}
{"id": "C27", "title": "Appending a body splices its entries", "statement": "body_append_body(b,other) appends the entries of other, in order, to b.", "quantifier": "every two bodies", "why_tests_cant": "All body shapes and lengths.", "anchors": ["base/components/inlines.hpp: body_append_body"]}
{"id": "C28", "title": "Parameter lists keep order, count and indexed access", "statement": "Building a parameter list by def_params / params_append gives a list whose count and order are those of the arguments; params_get(list,i) returns the i-th parameter.", "quantifier": "every parameter sequence and index", "why_tests_cant": "Head node is counted separately; off-by-one for all lengths.", "anchors": ["base/components/inlines.hpp: params_append, params_get", "base/components/interface.upfront.cpp: def_params, def_params_arr"]}
{"id": "C29", "title": "Specifier lists are bounded ordered collections", "statement": "specifiers_append keeps up to the capacity in order and rejects more without writing outside the node; specifiers_has(s) is true exactly when s was appended and not removed; specifiers_remove removes exactly that specifier.", "quantifier": "every sequence of append/remove", "why_tests_cant": "All sequences up to and beyond the capacity.", "anchors": ["base/components/inlines.hpp: specifiers_append, specifiers_has, specifiers_index_of, specifiers_remove"]}
{"id": "C30", "title": "Structural equality is an equivalence that separates different code", "statement": "code_is_equal is reflexive and symmetric, and code_is_equal(a,b) implies that a and b serialize to the same text.", "quantifier": "every pair of ASTs", "why_tests_cant": "Equality is recursive over unbounded trees.", "anchors": ["base/components/ast.cpp: code_is_equal"]}
{"id": "C31", "title": "Body validation terminates with the right verdict", "statement": "code_validate_body terminates on every body and returns true exactly when every entry is of an allowed kind.", "quantifier": "every body", "why_tests_cant": "Non-termination cannot be observed by a test.", "anchors": ["base/components/ast.cpp: code_validate_body"]}
{"id": "C32", "title": "Constructors accept exactly well-formed arguments", "statement": "Each def_* constructor returns an invalid code exactly when an argument violates its documented requirements, and otherwise a node of the documented kind carrying precisely the given parts (definition when a body is given, forward declaration otherwise).", "quantifier": "every argument combination", "why_tests_cant": "The product of optional arguments and node kinds.", "anchors": ["base/components/interface.upfront.cpp: def_*"]}
{"id": "C33", "title": "Operator validation classifies operators correctly", "statement": "def_operator rejects impossible parameter counts and classifies the operator as member or global according to its parameters.", "quantifier": "every operator, parameter list and return type", "why_tests_cant": "All operators x parameter shapes.", "anchors": ["base/components/interface.upfront.cpp: operator__validate, def_operator"]}
{"id": "C34", "title": "Body constructors build exactly the given entries", "statement": "def_*_body(n, c1..cn) and its array form either return invalid (when n <= 0, an entry is null or of an unallowed kind) or a body of the named kind whose entries are exactly c1..cn in order.", "quantifier": "every entry sequence", "why_tests_cant": "All sequences and kinds.", "anchors": ["base/components/interface.upfront.cpp: def_*_body, def_*_body_arr", "base/components/ast_case_macros.cpp"]}
{"id": "C35", "title": "def_comment never lets text escape the comment", "statement": "Every line of the generated text of def_comment(s) begins with // and the concatenation of the lines without // is s (plus a final newline).", "quantifier": "every text, every memory following the text", "why_tests_cant": "Newline placement and slice boundaries over all strings.", "anchors": ["base/components/interface.upfront.cpp: def_comment"]}
{"id": "C36", "title": "Token substitution replaces exactly the named tokens", "statement": "token_fmt replaces every <name> whose name is among the given pairs with its value, leaves all other text unchanged, and terminates.", "quantifier": "every format text and every token list", "why_tests_cant": "Termination and all text shapes.", "anchors": ["base/components/interface.untyped.cpp: token_fmt_va"]}
{"id": "C37", "title": "The formatter emits literals and arguments verbatim and within bounds", "statement": "c_str_fmt(buf,n,fmt,...) writes the literal text with %s/%S/%SB/%d/%% replaced by their arguments, NUL terminated, and never writes outside buf[0,n).", "quantifier": "every format string, argument list and buffer size", "why_tests_cant": "All format/argument combinations; overflow only at boundaries.", "anchors": ["base/dependencies/printing.cpp: c_str_fmt_va, _print_string"]}
{"id": "C38", "title": "Lexing terminates and tokens are ordered slices of the source", "statement": "lex terminates for every input; every token's text is a slice of the source, tokens appear in source order without overlap, and every source position outside a token is white space or a consumed delimiter.", "quantifier": "every source text", "why_tests_cant": "Termination and coverage over all texts.", "anchors": ["base/components/lexer.cpp: lex, lex_preprocessor_directive, lex_found_token"]}
{"id": "C39", "title": "Token positions are right", "statement": "Each token's Line and Column equal the 1-based line and column of its first character in the source.", "quantifier": "every source text", "why_tests_cant": "All texts.", "anchors": ["base/components/lexer.cpp: move_forward"]}
{"id": "C40", "title": "Identifiers, keywords and macros are classified correctly", "statement": "A maximal identifier character run is lexed as one token, whose kind is the keyword's kind if it is a keyword, the macro kind if it names a registered macro, and Identifier otherwise.", "quantifier": "every identifier text and macro table", "why_tests_cant": "All identifier texts.", "anchors": ["base/components/lexer.cpp: lex_found_token"]}
{"id": "C41", "title": "Serializing a body is the concatenation of its entries", "statement": "body_to_strbuilder(b) is the concatenation of the texts of the entries in order; namespace/extern/struct bodies are wrapped in their header and braces; the text depends only on the tree's content.", "quantifier": "every body", "why_tests_cant": "All trees.", "anchors": ["base/components/code_serialization.cpp"]}
{"id": "C42", "title": "Macro registry returns the last registration", "statement": "lookup_macro(name) returns the macro last registered under that name, and nothing if none was.", "quantifier": "every history of registrations", "why_tests_cant": "All histories; hash keyed.", "anchors": ["base/components/interface.cpp: register_macro, lookup_macro"]}
{"id": "C43", "title": "CSV parsing recovers the written cells", "statement": "csv_parse of a table written with the delimiter recovers the same cells, column by column, and rejects ragged rows.", "quantifier": "every table of cells", "why_tests_cant": "All tables.", "anchors": ["base/dependencies/parsing.cpp: csv_parse_delimiter, csv_write_delimiter"]}
{"id": "C44", "title": "scan_file drops exactly the intellisense header", "statement": "scan_file returns the file's text without everything up to and including the first INTELLISENSE_DIRECTIVES block's #endif line, and the unchanged text when there is no such block.", "quantifier": "every file content", "why_tests_cant": "All contents.", "anchors": ["base/auxiliary/scanner.cpp: scan_file"]}
{"id": "C45", "title": "reset keeps library constants usable", "statement": "After reset the library's global constants are still valid and distinct from codes created later.", "quantifier": "every history of init / create / reset", "why_tests_cant": "Aliasing after reset depends on later allocations.", "anchors": ["base/components/interface.cpp: reset, init, define_constants"]}
{"id": "C46", "title": "C string helpers agree with their mathematical counterparts", "statement": "c_str_len, c_str_compare, c_str_compare_len, c_str_copy, c_str_copy_nulpad, c_str_reverse, c_str_skip, c_str_skip_any, c_str_trim compute length, lexicographic order, copy, reversal and the described suffix of NUL-terminated strings.", "quantifier": "every pair of NUL-terminated strings and every bound", "why_tests_cant": "All strings.", "anchors": ["base/dependencies/string_ops.hpp", "base/dependencies/string_ops.cpp"]}
{"id": "C47", "title": "Token stream navigation stays in range", "statement": "During parsing, consuming a token of the expected kind advances by one; consuming at the end or with another kind fails without moving; comment and newline skipping never skips other tokens.", "quantifier": "every token stream and parser state", "why_tests_cant": "All streams.", "anchors": ["base/components/parser.cpp: parser__eat", "base/components/lexer.cpp: lex__eat"]}
{"id": "C48", "title": "Generated text re-lexes to the tokens of the code", "statement": "Serializing a piece of code (declarations, definitions, types, parameters, specifiers, templates, bodies) produces text from which the lexer recovers exactly the keywords, punctuation and names of that code, in order: no two tokens run together and none is split.", "quantifier": "every piece of code of any size, every identifier, specifier list and macro table", "why_tests_cant": "All code trees, identifiers and specifier lists; a wrong boundary only shows for particular neighbours.", "anchors": ["base/components/code_serialization.cpp", "base/components/ast.cpp: code_to_strbuilder_ref", "base/components/lexer.cpp: lex"]}
{"id": "C49", "title": "Adding an interface appends a base type", "statement": "class_add_interface(c,t) / struct_add_interface(c,t) add t after every base type c already has, make the inheritance public, and change nothing else.", "quantifier": "every class, every chain of base types", "why_tests_cant": "Chains of every length.", "anchors": ["base/components/inlines.hpp: class_add_interface, struct_add_interface"]}
{"id": "C50", "title": "A parse failure is reported within the text", "statement": "When the parser finds an unexpected token it reports the failure and the parse function returns InvalidCode; composing the report reads only the source text and the token array.", "quantifier": "every source text, token stream, scope and position of the error", "why_tests_cant": "The over-read depends on where in the text the error is; tests with short texts rarely crash.", "anchors": ["base/components/parser.cpp: parser_to_strbuilder, lex__eat"]}
{"id": "C51", "title": "Parsed text keeps its content", "statement": "The text the parser takes over from the source as a whole (type names, attributes, default values, #define bodies) keeps its words in order; only white space changes, and string and character literals and comments are kept character by character.", "quantifier": "every text, with any nesting of literals, comments, white space and line continuations", "why_tests_cant": "Whether a blank is inside a literal depends on the whole text before it.", "anchors": ["base/components/parser.cpp: parser_strip_formatting", "base/components/interface.parsing.cpp: parse_type, parse_define"]}
{"id": "C52", "title": "Parsing a using declaration keeps its content", "statement": "parse_using of a text that begins with a using declaration (export, name, attribute, type with specifiers, qualifiers and template arguments, array sizes, a comment on its line) returns a new Code whose content is that of the declaration, changes no other Code, and serializes to the declaration's text.", "quantifier": "every text, every declaration in it, every state of the AST and of the token buffer", "why_tests_cant": "Texts, nestings of template arguments and places of line ends and comments are unbounded; a test parses a few declarations.", "anchors": ["base/components/parser.cpp: parser_parse_using, parse_array_decl, parser_parse_type", "base/components/interface.parsing.cpp: parse_using"]}
{"id": "C53", "title": "Parsing a typedef keeps its content", "statement": "parse_typedef of a text that begins with a typedef returns a new Code with the typedef's type, name, array sizes and comment, and changes no other Code.", "quantifier": "every text, every typedef in it, every state of the AST and of the token buffer", "why_tests_cant": "As for C52: types and texts are unbounded.", "anchors": ["base/components/parser.cpp: parser_parse_typedef, parser_parse_type", "base/components/interface.parsing.cpp: parse_typedef"]}
{"id": "C54", "title": "Parsing a variable keeps its content", "statement": "parse_variable of a text that begins with a variable definition returns a new Code with its attributes, specifiers, type, name, array sizes, bit field or initial value and comment, changes no other Code, and serializes to the definition's text.", "quantifier": "every text, every variable definition in it, every state of the AST and of the token buffer", "why_tests_cant": "Initializers nest to any depth and line ends and comments may stand anywhere; a test parses a few definitions.", "anchors": ["base/components/parser.cpp: parser_parse_variable, parse_variable_after_name, parse_variable_assignment, parse_variable_declaration_list", "base/components/interface.parsing.cpp: parse_variable"]}
{"id": "C55", "title": "Parsing an enum keeps its entries", "statement": "parse_enum of a text that begins with an enum returns a new Code with its name, underlying type, all its entries with their values and the comments between them in order, changes no other Code, and serializes to the enum's text.", "quantifier": "every text, every enum in it, every state of the AST and of the token buffer", "why_tests_cant": "Enums have any number of entries with values of any form.", "anchors": ["base/components/parser.cpp: parser_parse_enum", "base/components/interface.parsing.cpp: parse_enum"]}
{"id": "C56", "title": "Attributes are recognized in every spelling", "statement": "Where a declaration may have attributes, the parser takes those written [[...]], __attribute__(...) and __declspec(...) as well as API macros into the Code of the declaration.", "quantifier": "every text with attributes", "why_tests_cant": "The recognition rests on a flag that the lexer sets per token; whether any text gets it is a statement about all texts.", "anchors": ["base/components/parser.cpp: parse_attributes", "base/components/lexer.cpp: lex_found_token"]}
{"id": "C57", "title": "Parsing the text written for a declaration gives the same content back", "statement": "For a using declaration, typedef, variable or enum built from names, types, specifiers, array sizes, initializers and entries, the text that serialization writes for it, followed by any further declarations, is parsed back into a node with the same content, which is then written as the same text; two such declarations with the same text have the same content.", "quantifier": "every such declaration (names, nested template arguments, specifiers, array sizes, values, entries of any number), every following text, every registered macro set, every state of the code pool", "why_tests_cant": "A test parses some chosen texts; the claim ranges over unboundedly many declarations, macro sets and following texts.", "anchors": ["base/components/ast.cpp:code_to_strbuilder", "base/components/code_types.hpp", "base/components/lexer.cpp:lex", "base/components/parser.cpp:parse_using", "base/components/parser.cpp:parse_typedef", "base/components/parser.cpp:parser_parse_variable", "base/components/parser.cpp:parser_parse_enum"]}
{"id": "C58", "title": "Code made from text or a format carries that text", "statement": "untyped_str turns every non-empty text into a new untyped node with that name and content; code_fmt gives a node whose content is the template with every named token replaced; untyped_fmt and untyped_token_fmt give a node with the formatted text. Nothing else changes.", "quantifier": "every text, every template, every list of tokens, every format and argument list, every state of the library", "why_tests_cant": "Texts, templates and token lists are unbounded, and the shared static buffers make results depend on earlier calls.", "anchors": ["base/components/interface.untyped.cpp:untyped_str", "base/components/interface.untyped.cpp:untyped_fmt", "base/components/interface.untyped.cpp:untyped_token_fmt", "base/components/inlines.hpp:token_fmt_impl", "base/components/interface.hpp:code_fmt"]}
{"id": "C59", "title": "The builder's file is the concatenation of what was printed", "statement": "After builder_open, any sequence of builder_print, builder_print_fmt and builder_pad_lines, and builder_write, the file holds the serialized codes, formatted texts and the requested number of line ends, in call order and nothing else; a failed or incomplete write is reported.", "quantifier": "every sequence of calls, every code and format, every outcome of opening and writing the file (crash points)", "why_tests_cant": "Histories are unbounded, and the operating system's partial writes and failures cannot be enumerated by tests.", "anchors": ["base/auxiliary/builder.cpp", "base/dependencies/filesystem.hpp:file_write", "base/dependencies/filesystem.cpp:_posix_file_write"]}
{"id": "C60", "title": "A memory stream behaves as a file", "statement": "Over file_stream_new and file_stream_open, file_write, file_write_at, file_read, file_read_at, file_seek, file_tell and file_size answer as on a file: what is read is what was last written there, positions and sizes are exact.", "quantifier": "every history of calls, every content of freshly allocated memory", "why_tests_cant": "The claim ranges over all histories and over what uninitialised memory contains.", "anchors": ["base/dependencies/filesystem.cpp:_memory_file_write", "base/dependencies/filesystem.cpp:_memory_file_read", "base/dependencies/filesystem.cpp:_memory_file_seek", "base/dependencies/filesystem.cpp:file_stream_new", "base/dependencies/filesystem.cpp:file_stream_open"]}
{"id": "C61", "title": "The fallback allocator hands out valid, disjoint memory", "statement": "With no user allocator, every block the library allocates is aligned, lies inside memory obtained from the heap, overlaps no other block, is zeroed, and earlier blocks keep their content, over any number of buckets; a request fails only if the heap is exhausted.", "quantifier": "every history of allocations and frees, every sequence of regions returned by the heap, every bucket size", "why_tests_cant": "Bucket boundaries are hit only after particular unbounded histories.", "anchors": ["base/components/interface.cpp:fallback_allocator_proc", "base/components/interface.cpp:init", "base/dependencies/memory.cpp:arena_allocator_proc"]}
{"id": "C62", "title": "Parsing a function keeps its signature and body", "statement": "Parsing the text of a function definition or declaration gives a new function node that holds exactly what the text declares: whether it is exported, its attribute, the specifiers in front of and behind the signature, the return type, the name, every parameter in order with its type, name and default value, and either the text between the braces or, for a declaration, the comment on its line. Printing that node writes that content, and nothing that existed before is changed.", "quantifier": "Every function text (any number of specifiers, parameters, nesting of brackets in default values and of braces in the body, any layout and comments-free gaps), every text behind it, every earlier state of the heap, macro table and token buffer", "why_tests_cant": "A test fixes one signature; the parameter loop, the default-value bracket counting and the body brace counting range over unboundedly many token sequences, and several of them (const return types, comparisons in default values, = delete) break only for particular shapes.", "anchors": ["base/components/parser.cpp: parse_function, parse_function_after_name, parse_params, parse_function_body, parser_parse_identifier", "base/components/interface.parsing.cpp: parse_function"]}
{"id": "C63", "title": "Parsing a body keeps every declaration, in order, at every depth", "statement": "parse_global_body on a text of declarations returns a new body whose entries are exactly those declarations, in their order and with their content: blank lines, comments, preprocessor directives, using declarations, typedefs, enums, variables, functions, namespaces and extern blocks, which contain bodies of the same form to any depth; parse_namespace returns a namespace of the given name around such a body. Nothing that existed before is changed, and writing the result gives the texts of the members one behind the other.", "quantifier": "all texts made of such declarations, any number and any depth, whatever the token buffer was left with by earlier calls", "why_tests_cant": "the number of members, their nesting and the tokens left behind by earlier calls are unbounded; the decision what a declaration is looks ahead across the rest of the text", "anchors": ["base/components/parser.cpp:parse_global_nspace", "base/components/parser.cpp:parser_parse_namespace", "base/components/parser.cpp:parse_extern_link", "base/components/interface.parsing.cpp:parse_global_body"]}
{"id": "C64", "title": "Parsing a class or struct keeps its head and its members", "statement": "parse_class / parse_struct on a definition (optional export, attribute, final, one base, a body of members to any depth of nested classes, a trailing comment) return a new node that declares the same name, attribute, final, base, comment and, in their order, the same members (access labels, variables, methods, nested classes and forward declarations, enums, using, typedef, comments, directives); a forward declaration gives a forward node. No older node is changed. Serialising the result writes that declaration again.", "quantifier": "every class or struct, every list of members, every depth of nesting, every white space and comments between the tokens, every state of the library's heap", "why_tests_cant": "members nest without bound and every one may be preceded by comments, labels and line ends; the parser scans ahead to decide what a member is, so each member's reading depends on the whole rest of the text", "anchors": ["base/components/parser.cpp:parse_class_struct", "base/components/parser.cpp:parse_class_struct_body", "base/components/parser.cpp:parse_complicated_definition", "base/components/interface.parsing.cpp:parse_class", "base/components/interface.parsing.cpp:parse_struct"]}
{"id": "C65", "title": "A whole file survives writing and parsing", "statement": "A file whose members are using declarations, typedefs, variables, function declarations and definitions, enums, forward declarations, comments and empty lines, in any order and number, is written by the serializer as a text which the parser reads as a body with the same members, in the same order and with the same content; writing that body gives the same text, however often this is repeated. No older node is changed.", "quantifier": "every list of members whose parts are written as the lexical grammar says, every content of each part, every state of the library's heap, every earlier text whose tokens remain", "why_tests_cant": "the number and order of the members is unbounded and the parser decides by scanning ahead, sometimes past the member, what each member is; whether two neighbours stay apart depends on the text of both", "anchors": ["base/components/parser.cpp:parse_global_body", "base/components/parser.cpp:parse_global_nspace", "base/components/parser.cpp:parse_complicated_definition", "base/components/parser.cpp:parse_operator_function_or_variable", "base/components/ast.cpp:to_strbuilder", "base/components/lexer.cpp:lex"]}
{"id": "C66", "title": "Nested blocks read back, one empty line longer", "statement": "A text with namespaces, linkage blocks, classes and structs nested to any depth, as the library writes it, parses; the result has the same members in the same order at the same places, except that every block has exactly one more empty line at its end. So writing and reading again keeps the content apart from empty lines, however often, and the text grows by one line end per block and cycle and never becomes stable.", "quantifier": "for every such file, any nesting depth, number and order of members, any number of cycles, and any state of the library ready to parse", "why_tests_cant": "tests read back a handful of files once; depth, order and number of cycles are unbounded", "anchors": ["base/components/parser.cpp:parse_global_nspace", "base/components/parser.cpp:parser_parse_namespace", "base/components/parser.cpp:parse_extern_link", "base/components/parser.cpp:parse_class_struct_body", "base/components/code_serialization.cpp:class_to_strbuilder", "base/components/interface.parsing.cpp:parse_global_body"]}
{"id": "C67", "title": "Friend declarations keep their content", "statement": "parse_friend of a friend declaration - of a type, of a function with its specifiers, return type, name and parameters, or of a function that is defined there - returns a new node with that content, writing it gives a friend declaration of the same thing, and no text is read outside the given one.", "quantifier": "all friend declarations of types, declared functions and defined functions, in all texts and library states", "why_tests_cant": "there are infinitely many declarations, continuations of the text and library states", "anchors": ["base/components/parser.cpp:parser_parse_friend", "base/components/interface.parsing.cpp:parse_friend", "base/components/inlines.hpp:friend_to_strbuilder_ref"]}
{"id": "C68", "title": "Unions keep their content", "statement": "parse_union of a union - exported or not, with attributes, a name or none, and members that are variables, enums, comments, blank lines, preprocessor lines and further unions to any depth - returns a new node with that content, writing it gives a union of the same content, the function returns, and no text is read outside the given one.", "quantifier": "all unions with any members to any depth of nesting, in all texts and library states", "why_tests_cant": "there are infinitely many unions, depths, texts and library states", "anchors": ["base/components/parser.cpp:parser_parse_union", "base/components/interface.parsing.cpp:parse_union", "base/components/parser.cpp:parse_complicated_definition"]}
