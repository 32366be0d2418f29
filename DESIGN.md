# Formal model of Ed94/gencpp in Coq 8.16.1

## Layout
`rocq/theories/` (logical name `Verif`), per area:

* `XxxModel.v`  – executable Gallina model, function by function, each definition citing `/repo` file:lines.
* `XxxSpec.v`   – (where needed) the small independent specification used in theorem statements.
* `XxxProofs.v` – lemmas.
* `XxxProps.v`  – only the property theorems (`exact lemma`), `Example`s showing the hypotheses are
  satisfiable, and `Print Assumptions`.

Naming: `cNN_*` theorem belongs to property CNN; `*_partial` proves part of the property;
`*_refuted` exhibits a concrete input on which the code (as modelled) violates the property.

## Modelling conventions
* Addresses, sizes: `Z`; bytes: `Z` in 0..255 (or `ascii`-free `Z` lists); wrap-around is written explicitly
  where C semantics wrap (`mod 2^32`, `mod 2^64`).
* Memory: total function `Z -> Z` (address to byte); stores are functional updates. Statements are pointwise,
  so no functional extensionality is needed.
* Undefined behaviour / `GEN_ASSERT` / `GEN_FATAL` failures are distinct outcomes, never silently totalised.
* Loops: structural recursion or fuel with a distinct out-of-fuel result which theorems exclude.

## Plan per property
| id | modelled | proof |
|----|----------|-------|
| C01 | arena_init*, arena_allocator_proc | invariant over op list; refuted for mixed alignments, proved for a single alignment |
| C02 | pool_init_align, pool_allocator_proc, pool_clear | invariant: free list = duplicate-free list of block addresses |
| C03 | is_power_of_two, align_forward, align_forward_s64 | bit lemmas |
| C04 | mem_set | stage by stage coverage, induction on the 32-byte loop |
| C05 | mem_move, mem_copy | induction on each loop |
| C06 | mem_find, c_str_len_capped | SWAR lemma by induction on bytes + loop invariants |
| C07 | default_resize_align | over an allocator oracle, uses C05 |
| C08-C10 | array_* | refinement to `list`; C09, C10 refuted |
| C11-C13 | hashtable_* | refinement to a finite map |
| C14 | crc32, crc64 with the literal tables | table = bitwise by computation (256 entries), bytes by induction |
| C15,C16 | cache_str, get_cached_str_allocator | invariant over histories; collision witness by computation |
| C17-C19 | strbuilder_*, str_* | refinement to byte lists |
| C20,C21,C46 | string_ops | induction on digits / lists, finite sweep over bytes |
| C22,C23 | enum tables | finite computation + general lemma about hash-only lookup |
| C24-C29 | make_code, code_append, code_duplicate, body_append, params_*, specifiers_* | heap model (finite map node id -> AST), list-segment invariant |
| C30,C31 | code_is_equal, code_validate_body | induction on fuel/tree; refutations |
| C32-C35 | interface.upfront.cpp | case analysis, inductions over entry lists |
| C36 | token_fmt_va | induction on text |
| C37 | c_str_fmt_va | induction on format; overflow refuted |
| C38-C40 | lexer.cpp: lex and its branches, line by line | loop invariant on the scanner state (fuel proved sufficient for every text) |
| C41 | ast.cpp code_to_strbuilder_ref, code_serialization.cpp *_to_strbuilder_ref | content trees (SerSpec.tree) and their text (render), one simulation lemma per kind, induction on the tree |
| C42 | register_macro, lookup_macro | corollary of C11 and C16 |
| C43 | parsing.cpp csv_parse_delimiter, csv_write_node | invariant over rows and cells of a grammar of tables (CsvSpec) |
| C44 | scanner.cpp scan_file | induction on the directives of the text |
| C45 | init, reset, define_constants | trace model over MakeCode |
| C47, C50 | parser.cpp/lexer.cpp token navigation, parser_to_strbuilder | induction over the token array |
| C48 | lex and the serialization together | writer-side lexical grammar (RelexSpec.writes); lexer inverts it; induction over the content tree |
| C49 | class_add_interface, struct_add_interface | list-segment invariant of C26 |
| C51 | parser.cpp parser_strip_formatting | loop invariant over a grammar of pieces (words, blanks, comments, literals) |
| C52-C55 | parser.cpp parser_parse_using, _typedef, _variable, _enum, _type, parse_attributes, _specifiers, _identifier, _template_args, _array_decl, with lex in front | token grammar with the declared content (ParseSpec), induction over each token sequence; combined with C38 (positions) and C41 (text) |
| C56 | lexer flags and parse_attributes | invariant of the lexer over all tokens (ParseProofs10.lex_fits); refuted |
| C57 | serializer + lexer + parser together (SerModel, LexModel, ParseModel) | [plain] describes the declarations by the texts of their parts (RoundSpec.v); every piece of the text is located in the token array (RoundProofs3-5) and the parser theorems C52-C55 are applied to it (RoundProofs6-8); the uncovered cases are refuted |
| C58 | interface.untyped.cpp wrappers, token_fmt_impl (UntypedModel) | composition of C36/C37 with the node model; universal refutation for untyped_fmt |
| C59 | builder.cpp, file_write on POSIX with the OS as an oracle (BuilderModel) | induction over the history, C41 and C37 for each entry; oracle for short writes |
| C60 | memory streams of filesystem.cpp (StreamModel), fresh memory arbitrary | simulation between a stream and a file (content, position) over all histories |
| C61 | fallback_allocator_proc (FallbackModel), heap() as an oracle of disjoint regions | invariant over all histories, arena steps by C01 |
| C62 | parse_function, parse_function_after_name, parse_params, parse_function_body (FnModel) | functions as token sequences (FnSpec); induction over the parameters, the brackets of a default value and the braces of a body (FnProofs2-3), then C41 for the text; loss of content and the endless loop refuted |
| C63 | parse_global_nspace, parse_complicated_definition, parse_operator_function_or_variable, parse_namespace, extern blocks, directives (GlobalModel) | bodies as token sequences, nested to any depth (GlobalSpec); induction over the members with an invariant on the list being built (GlobalProofs2, 9, 10); what the look-ahead decides is proved for each form of declaration (GlobalProofs5-8); endless loop on export proved for every text, other failures by evaluation |
| C64 | parse_class_struct, parse_class_struct_body, parse_class, parse_struct, constructors and destructors (GlobalModel) | heads and bodies as token sequences (GlobalSpec: class_head, members, class_tokens); one induction over the members of all bodies, shared with C63 (ClassProofs, 2, 3, GlobalProofs10, ClassProofs4); losses of destructor names, default, explicit, bases by evaluation |
| C65 | parse_global_body over the text a serializer writes (ParseModel, GlobalModel, LexModel, SerModel) | which members, by the texts of their parts, and what follows what (FileSpec: member, begun, no_outside); by induction over the members: the text writes a token sequence (FileProofs5), the sequence is a list of members in the sense of C63 generalised to carry content (FileProofs-4), the result `holds` the list (C41's relation), so C41 gives the text back; functions: their tokens (FileFnProofs), with a flat bracket condition on parameter values and bodies; namespaces, class bodies and directives in a file are missing; losses by evaluation |
| C66 | as C65, with parser_parse_namespace, parse_extern_link, parse_class_struct and its body | blocks nested to any depth (FileNestSpec: item, body, grown): by mutual induction over items and bodies, a read text continues the tokens of its serialisation (FileNestProofs), built on the step of C65 for one member (FileProofs4.file_step); the closing brace is read as one more empty line, so the result is `grown`; its tokens are those of the original, hence it can be read again any number of times; length and content without empty lines by the same induction (FileNestProofs2) |
| C67 | parser_parse_friend with parse_type and parse_function_after_name (FriendModel) | friend declarations as token sequences with their content (FriendSpec); type_full (C52) and after_name_ok (C62) give the nodes; the second search for `;` behind a declared function is followed to the report, which is proved to read past the text when the declaration ends it |
| C68 | parser_parse_union (inplace_def false) with parse_complicated_definition (union_member, union_loop, parse_union_with in GlobalModel; class_struct dispatches nested unions) | unions as token sequences with their content (union_tokens in GlobalSpec); the member loop keeps a body that is open for more members (as C63), by induction on the members with the nested union as a case; C41 gives the text |

## Trusted base
* The kernel of Coq 8.16.1 (with its virtual machine: `vm_compute` is used for finite tables and concrete
  witnesses; no `native_compute`).
* `Print Assumptions` stands behind every theorem in `*Props*.v` and prints "Closed under the global context" for
  each of them: no axiom, not even one of the standard library. No `Admitted`, no functor, no module type, no
  disabled check. Section variables and hypotheses are all discharged.
* The reading of the C++ text by hand: that each definition in `*Model.v` says what the cited lines do. This is the
  main thing to trust. Each definition cites its lines and states the simplification it makes.
* Compiler and platform assumptions: 64-bit little-endian, `char` bytes, two's complement, no strict-aliasing
  miscompilation. Undefined behaviour (null or out-of-range access, signed overflow where the code relies on it) is
  the outcome `Undefined`; a failed `GEN_ASSERT`/`GEN_FATAL` is a distinct outcome; running out of fuel is
  `NoFuel`. All theorems about success exclude them, and where a loop can diverge the theorem says "for every fuel".

## What is modelled
| source | modelled | not modelled |
|--------|----------|--------------|
| memory.hpp/.cpp | align_forward*, is_power_of_two, mem_set/move/copy/find, heap-agnostic default_resize_align, arena and pool allocators | vm_* (platform calls), heap statistics, swap |
| containers.hpp | array_* and hashtable_* as used by the library | template wrappers |
| hashing.cpp | crc32, crc64 with the full tables | - |
| strings.hpp/.cpp, string_ops.cpp | strbuilder_* except append_fmt and read-only views; str_*; char_*; c_str_*; integer conversion | float parsing, c_str helpers not used |
| printing.cpp | c_str_fmt_va: %c %d %i %u %s %S %SB %p %% and unsigned/long forms; buffer discipline | widths and flags only to the extent of C37; floats; files |
| interface.cpp | cache_str, string allocation, make_code, reset/init as a trace, register_macro/lookup_macro | heap-backed arenas' growth (fallback allocator: FallbackModel.v) |
| ast.hpp, inlines.hpp, ast.cpp | node layout as a record, append/duplicate/iterate/params/specifiers, is_equal, validate_body, debug strings not | debug_str |
| interface.upfront.cpp | def_* (all constructors), name checks, operator classification, bodies, comments | - |
| interface.untyped.cpp | token_fmt_va, untyped_str | - |
| lexer.cpp, parser.cpp | lex completely; token navigation; strip_formatting; parse_using, parse_typedef, parse_variable, parse_enum, parse_type and what they call (ParseModel.v), parse_function (FnModel.v), parse_global_body and parse_namespace (GlobalModel.v: all of parse_global_nspace but unions, templates, macros, static_assert, modules), parse_class and parse_struct (GlobalModel.v: all of parse_class_struct_body but operator casts, friends, templates, unions, macros) | the other grammar functions of parser.cpp; in the modelled ones: function types, decltype, typedefs of class/struct/union/enum and macros (outcome NoFuel, about which no theorem speaks) |
| code_serialization.cpp | all kinds listed in SerModel.v | parse-only kinds whose nodes no constructor makes |
| parsing.cpp, scanner.cpp | CSV reader/writer, scan_file | ADT/JSON numbers, parse_csv_one_column etc. |
| filesystem.cpp, builder.cpp | memory streams, file_write, builder_* | opening, directories, Windows |
| gen_c_library, editor support | not modelled: they are scripts over the API or operating-system output | |

Simplifications that matter: interned strings are compared by identity in the code and by text in AstModel and later
(justified by C15/C16: texts with different contents get different handles only outside hash collisions); node
addresses are abstract ids allocated in order (C24); token texts are (offset, length) into the source.

## Findings
Every `*_refuted` theorem is a concrete input on which the modelled code does not do what the English property says.
The most consequential: arena overlap with mixed alignments (C01), array_append_items / append_items_at (C09, C10),
string interning merges texts with equal crc32 (C15), reset hands out live nodes (C45), code_is_equal and
code_validate_body (C30, C31), class/namespace body_arr (C34), the 128 KB format buffer (C37, C41), lexer reads past the
end of texts ending in a comment (C38), "&" "&" specifiers (C48), nested #if in scan_file (C44).
