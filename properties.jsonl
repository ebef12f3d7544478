{"id": "C01", "title": "Scanner implements the lexical rules", "statement": "For every input text and every scanner position, the token the shipped table-driven scanner takes next is exactly the longest prefix matched by any active rule of struct_lex.l, and among equally long matches the rule written first (trailing-context and beginning-of-line rules included; a byte no rule matches is a one-byte echo).", "quantifier": "every byte string, both start conditions, at or not at beginning of line", "why_tests_cant": "the input space is infinite and the tables have 133 states x 256 bytes reached by unboundedly many prefixes", "anchors": ["src/lex_parse/struct_lex.l", "src/lex_parse/tokenize.cpp: yy::Lexer::lex, yy_accept, yy_ec, yy_base, yy_def, yy_nxt, yy_chk, yy_meta"]}
{"id": "C02", "title": "Scanning terminates and consumes every byte once", "statement": "On every input file the scanner reaches end of file without ever being stuck, and the lexemes it took, in order, concatenate to exactly the input: no byte is lost, duplicated or reordered.", "quantifier": "every byte string", "why_tests_cant": "must hold for every input, including unterminated comments, lone quotes, NULs and files without a final newline", "anchors": ["src/lex_parse/struct_lex.l", "src/lex_parse/tokenize.cpp: yy::Lexer::lex, yy_accept, yy_ec, yy_base, yy_def, yy_nxt, yy_chk, yy_meta"]}
{"id": "C03", "title": "Scanner tables are never indexed out of bounds", "statement": "While scanning any input, every access the scanner makes to its compressed tables is inside the array and the default-chain loop always ends.", "quantifier": "every byte string and every reachable scanner state", "why_tests_cant": "an out-of-bounds read is silent and depends on which of all reachable state/byte pairs occurs", "anchors": ["src/lex_parse/struct_lex.l", "src/lex_parse/tokenize.cpp: yy::Lexer::lex, yy_accept, yy_ec, yy_base, yy_def, yy_nxt, yy_chk, yy_meta"]}
{"id": "C04", "title": "Every C identifier is one NAME token", "statement": "A maximal run of letters, digits and underscores starting with a letter or underscore that is not one of the reserved words is returned as exactly one NAME token carrying exactly that text, although the ID macro in the rules file misspells A-Z as A_Z; a reserved word is returned as its own token.", "quantifier": "every identifier of every length, followed by any byte that cannot extend it", "why_tests_cant": "identifiers are unbounded; the misspelt character class makes correctness non-obvious", "anchors": ["src/lex_parse/struct_lex.l", "src/lex_parse/tokenize.cpp: yy::Lexer::lex, yy_accept, yy_ec, yy_base, yy_def, yy_nxt, yy_chk, yy_meta"]}
{"id": "C05", "title": "White space and comments do not change the token stream", "statement": "Blanks, tabs, line ends, newline-terminated // comments, newline-terminated # lines at the start of a line and closed /* */ comments produce no token: the tokens that follow are those obtained from the remaining text.", "quantifier": "every comment or blank text, every remaining text", "why_tests_cant": "comment bodies and remaining text are arbitrary", "anchors": ["src/lex_parse/struct_lex.l", "src/lex_parse/tokenize.cpp: yy::Lexer::lex, yy_accept, yy_ec, yy_base, yy_def, yy_nxt, yy_chk, yy_meta"]}
{"id": "C06", "title": "Last line without newline: // and # lines are not ignored", "statement": "A // comment or # line that ends at end of file without a newline is NOT skipped: its words reach the parser as tokens, so a valid header can be rejected because it lacks a final newline.", "quantifier": "texts ending without newline", "why_tests_cant": "depends on the end-of-input behaviour of the trailing-context rules for every comment body", "anchors": ["src/lex_parse/struct_lex.l", "src/lex_parse/tokenize.cpp: yy::Lexer::lex, yy_accept, yy_ec, yy_base, yy_def, yy_nxt, yy_chk, yy_meta"]}
{"id": "C07", "title": "String constants are greedy to the last quote of the line", "statement": "A double quote followed later on the same line by other double quotes yields one STRING_CONSTANT that extends to the LAST quote on that line; therefore a literal is read exactly only when it is the last one on its line, and two members with string defaults on one line are swallowed into one token.", "quantifier": "every line content", "why_tests_cant": "quantifies over arbitrary line contents after the quote", "anchors": ["src/lex_parse/struct_lex.l", "src/lex_parse/tokenize.cpp: yy::Lexer::lex, yy_accept, yy_ec, yy_base, yy_def, yy_nxt, yy_chk, yy_meta"]}
{"id": "C08", "title": "Bytes outside the language are dropped, not rejected", "statement": "A byte that starts no rule (such as '-', '(', '.', '+', ':' or '&') never produces a token or an error: it is echoed to standard output and the token stream is that of the text without it. In particular a negative default value is recorded without its sign.", "quantifier": "every such byte and every remaining text", "why_tests_cant": "for every position at which such a byte may appear", "anchors": ["src/lex_parse/struct_lex.l", "src/lex_parse/tokenize.cpp: yy::Lexer::lex, yy_accept, yy_ec, yy_base, yy_def, yy_nxt, yy_chk, yy_meta"]}
{"id": "C09", "title": "Line numbers in diagnostics are exact", "statement": "The line number attached to each token is one plus the number of newline bytes before it in the file.", "quantifier": "every input and every token", "why_tests_cant": "all prefixes, comment styles and line endings", "anchors": ["src/lex_parse/struct_lex.l", "src/lex_parse/tokenize.cpp: yy::Lexer::lex, yy_accept, yy_ec, yy_base, yy_def, yy_nxt, yy_chk, yy_meta", "src/lex_parse/Location.hpp: position, location"]}
{"id": "C10", "title": "Column numbers in diagnostics", "statement": "The column recorded for a token equals its byte offset in the line plus one provided the line contains no comment delimiter and no echoed byte before it; after a /* */ delimiter or an echoed byte the column is too small.", "quantifier": "every line", "why_tests_cant": "all line prefixes", "anchors": ["src/lex_parse/struct_lex.l", "src/lex_parse/tokenize.cpp: yy::Lexer::lex, yy_accept, yy_ec, yy_base, yy_def, yy_nxt, yy_chk, yy_meta", "src/lex_parse/Location.hpp: position, location"]}
{"id": "C11", "title": "Parser accepts exactly the documented grammar", "statement": "For every token sequence the shipped table-driven parser returns success if and only if the sequence is derivable from the grammar of struct_yacc.y (a non-empty list of enum, enum class and struct definitions).", "quantifier": "every finite token sequence", "why_tests_cant": "infinitely many token sequences; LALR tables are opaque", "anchors": ["src/lex_parse/struct_yacc.y", "src/lex_parse/Parser.cpp: yy::Parser::parse, yypact_, yydefact_, yypgoto_, yydefgoto_, yytable_, yycheck_, yyr1_, yyr2_"]}
{"id": "C12", "title": "Parsing always ends, without stack underflow or table overrun", "statement": "For every token sequence the parser stops after a number of steps linear in the number of tokens, never pops below the bottom of its stack, never indexes a table out of range and never reads a semantic value as the wrong type.", "quantifier": "every finite token sequence", "why_tests_cant": "non-termination and memory errors depend on every reachable stack", "anchors": ["src/lex_parse/struct_yacc.y", "src/lex_parse/Parser.cpp: yy::Parser::parse, yypact_, yydefact_, yypgoto_, yydefgoto_, yytable_, yycheck_, yyr1_, yyr2_"]}
{"id": "C13", "title": "Accepted input is recorded completely and in source order", "statement": "When a file is accepted, the definitions reported to the item store are exactly those written in the file, in source order: each enum with each enumerator and its explicit value text, each struct with each member, its type and its default text.", "quantifier": "every accepted token sequence", "why_tests_cant": "all nestings and lengths of definitions", "anchors": ["src/lex_parse/struct_yacc.y", "src/lex_parse/Parser.cpp: yy::Parser::parse, yypact_, yydefact_, yypgoto_, yydefgoto_, yytable_, yycheck_, yyr1_, yyr2_"]}
{"id": "C14", "title": "Syntax error: nothing but the correct prefix is recorded", "statement": "When a file is rejected the parser returns 1, the first rejected token is the first token that no valid file could have at that place, and what was reported to the item store is exactly what the correctly read prefix determines.", "quantifier": "every rejected token sequence", "why_tests_cant": "the error can be at any token of any file", "anchors": ["src/lex_parse/struct_yacc.y", "src/lex_parse/Parser.cpp: yy::Parser::parse, yypact_, yydefact_, yypgoto_, yydefgoto_, yytable_, yycheck_, yyr1_, yyr2_"]}
{"id": "C15", "title": "A file without definitions is rejected", "statement": "A file that yields no tokens (empty, only comments or only preprocessor lines) is a syntax error, never a success with empty output.", "quantifier": "every text without tokens", "why_tests_cant": "all such texts", "anchors": ["src/lex_parse/struct_yacc.y", "src/lex_parse/Parser.cpp: yy::Parser::parse, yypact_, yydefact_, yypgoto_, yydefgoto_, yytable_, yycheck_, yyr1_, yyr2_", "src/lex_parse/struct_lex.l", "src/lex_parse/tokenize.cpp: yy::Lexer::lex, yy_accept, yy_ec, yy_base, yy_def, yy_nxt, yy_chk, yy_meta"]}
{"id": "C16", "title": "One name space for structs and enums", "statement": "Whatever sequence of files and definitions is processed, no name is ever both an enum and a struct, each name has one entry, and the lookup of a name says struct, enum or unknown accordingly.", "quantifier": "every history of parser callbacks", "why_tests_cant": "unbounded histories", "anchors": ["src/items.cpp: info_items_C", "src/items.h"]}
{"id": "C17", "title": "Distinct names: the store is the file", "statement": "If all definitions of the processed files have distinct names, the store holds for each name exactly its definition, with all members or enumerators in order and nothing else, for any number of files.", "quantifier": "every list of accepted files with distinct names", "why_tests_cant": "unbounded lists of definitions", "anchors": ["src/items.cpp: info_items_C", "src/items.h", "src/lex_parse/struct_yacc.y", "src/lex_parse/Parser.cpp: yy::Parser::parse, yypact_, yydefact_, yypgoto_, yydefgoto_, yytable_, yycheck_, yyr1_, yyr2_"]}
{"id": "C18", "title": "Redefinition corrupts the previous definition", "statement": "A redefinition of a used name is reported but its body is not discarded: its members are appended to the definition of the same kind that was current before (possibly from an earlier file), or dropped if the current one is of the other kind; the parse still succeeds. Definitions other than the current one are never changed.", "quantifier": "every store and every redefinition", "why_tests_cant": "depends on the history before the redefinition", "anchors": ["src/items.cpp: info_items_C", "src/items.h"]}
{"id": "C19", "title": "Non-common sections cannot change the common items", "statement": "Processing the input files of a non-common section leaves the common items unchanged provided the first definition of the section has a fresh name; otherwise the copied current-definition pointer makes it append members to the common items, so a section can leak into later sections.", "quantifier": "every common store and every section", "why_tests_cant": "aliasing of two live objects across all histories", "anchors": ["src/items.cpp: info_items_C", "src/items.h", "src/main.cpp: main, process_single_header, process_stfx_file"]}
{"id": "C20", "title": "Member types are resolved correctly", "statement": "After type resolution a member written with a user type name is struct if and only if a struct of that name was declared, enum if and only if an enum was, independent of declaration order (forward references allowed); resolution reports failure if and only if some such member names an undeclared type.", "quantifier": "every store", "why_tests_cant": "all combinations of declarations", "anchors": ["src/creation/process_items.cpp: process_items_C"]}
{"id": "C21", "title": "Type resolution is idempotent and touches nothing else", "statement": "Resolving twice equals resolving once, and resolution changes neither names, order, simple members nor enums.", "quantifier": "every store", "why_tests_cant": "all stores", "anchors": ["src/creation/process_items.cpp: process_items_C"]}
{"id": "C22", "title": "Unresolved common types stay unresolved", "statement": "A common struct member whose type is defined only in a non-common section is marked unknown while the common output is produced and is never resolved later, so the section's output reports failure although the type is then declared.", "quantifier": "every common store with such a member", "why_tests_cant": "cross-phase history", "anchors": ["src/creation/process_items.cpp: process_items_C", "src/main.cpp: main, process_single_header, process_stfx_file"]}
{"id": "C23", "title": "Entry points are generated for exactly the unreferenced structs", "statement": "The generated reader has a read_from_file overload (and the writer a write_to_file overload) for a struct if and only if no resolved member of any struct has that struct as its type or vector element type; this also holds for the combined items of a non-common section after the common items were processed (a member left unknown by the pass over the common items, see C22, does not count as a reference).", "quantifier": "every store, every number of processing passes", "why_tests_cant": "all reference graphs", "anchors": ["src/creation/process_items.cpp: process_items_C", "src/creation/xml/process_items_xml_attrib.cpp: process_items_xml_attrib_C", "src/creation/xml/process_items_xml.cpp: process_all_structs", "src/creation/xml/process_items_xml.cpp: process_items_xml_C", "src/creation/ini/process_items_ini.cpp: process_items_ini_C, process_items_n_ini_C"]}
{"id": "C24", "title": "Acyclic definitions have an entry point", "statement": "If the reference relation between structs is well founded and there is at least one struct, at least one entry point is generated; a cyclic definition may yield none, with success reported.", "quantifier": "every store", "why_tests_cant": "all reference graphs of all sizes", "anchors": ["src/creation/process_items.cpp: process_items_C"]}
{"id": "C25", "title": "Success means every non-vector member type is known", "statement": "If the generation step reports success then every member of user type refers to a declared enum or struct; a vector of an undeclared type or of an enum is not detected: success is reported and the generated code calls a function that is never defined.", "quantifier": "every store", "why_tests_cant": "all stores", "anchors": ["src/creation/process_items.cpp: process_items_C", "src/creation/xml/process_items_xml_attrib.cpp: process_items_xml_attrib_C", "src/creation/xml/process_items_xml.cpp: process_all_structs", "src/creation/xml/process_items_xml.cpp: process_items_xml_C"]}
{"id": "C26", "title": "Generated calls have definitions", "statement": "When generation succeeds and every vector element type is a declared struct, every do_/do_wr_ function that the generated class calls is defined exactly once in it, for the xml and xml_attrib back ends.", "quantifier": "every store", "why_tests_cant": "all stores", "anchors": ["src/creation/xml/process_items_xml_attrib.cpp: process_items_xml_attrib_C", "src/creation/xml/process_items_xml.cpp: process_all_structs", "src/creation/xml/process_items_xml.cpp: process_items_xml_C"]}
{"id": "C27", "title": "Output does not depend on declaration order", "statement": "Permuting the definitions of a header with distinct names leaves every generated file unchanged.", "quantifier": "every permutation of every header", "why_tests_cant": "all permutations", "anchors": ["src/items.cpp: info_items_C", "src/items.h", "src/creation/process_items.cpp: process_items_C", "src/creation/xml/process_items_xml_attrib.cpp: process_items_xml_attrib_C", "src/creation/xml/process_items_xml.cpp: process_all_structs", "src/creation/xml/process_items_xml.cpp: process_items_xml_C", "src/creation/ini/process_items_ini.cpp: process_items_ini_C, process_items_n_ini_C"]}
{"id": "C28", "title": "Format strings never fail and names are copied verbatim", "statement": "Every line the generator prints expands without a format error whatever the names are, and every name is inserted unchanged.", "quantifier": "every store and every output specification", "why_tests_cant": "names are arbitrary", "anchors": ["src/creation/process_items.cpp: process_items_C", "src/creation/xml/process_items_xml_attrib.cpp: process_items_xml_attrib_C", "src/creation/xml/process_items_xml.cpp: process_all_structs", "src/creation/xml/process_items_xml.cpp: process_items_xml_C", "src/creation/ini/process_items_ini.cpp: process_items_ini_C, process_items_n_ini_C"]}
{"id": "C29", "title": "Enum to string to enum is the identity", "statement": "For every enum of the header and every value a variable of it can hold (named, aliased, or an unnamed int the enum has room for), generated s_to_e applied to the text that generated s_from_e gives for the value stores the same value, and returns true exactly when the value has an enumerator.", "quantifier": "every acceptable header, every enum in it, every value with an enumerator and every int that the enum can hold, every variable of that type", "why_tests_cant": "all enums, aliases and unnamed values", "anchors": ["src/creation/process_items.cpp: process_items_C"]}
{"id": "C30", "title": "String to enum: unknown strings", "statement": "Generated s_to_e on a string that is no enumerator returns false; it leaves the variable unchanged if the string does not begin with an int (after blanks and a sign), and otherwise stores that int; for an unscoped enum whose value range does not include the int the conversion is undefined behaviour, an enum class stores every int.", "quantifier": "every string", "why_tests_cant": "all strings", "anchors": ["src/creation/process_items.cpp: process_items_C"]}
{"id": "C31", "title": "xml_attrib: full write then read restores the data", "statement": "For every schema accepted by the generator and every value of it whose scalars are initialised, whose longs fit in 32 bits, whose strings contain neither NUL nor carriage return, whose enum values the enumeration can hold and whose floating point numbers are read back from their printed text, writing with delta off and reading into an object with empty vectors (such as a default constructed one) gives back the same value, all nested structs and vectors included.", "quantifier": "every schema, every value, every nesting depth", "why_tests_cant": "unbounded schemas, vectors and depths", "anchors": ["src/creation/xml/process_items_xml_attrib.cpp: process_items_xml_attrib_C", "src/creation/xml/process_items_xml.cpp: process_all_structs"]}
{"id": "C32", "title": "xml_attrib: delta write then read", "statement": "With delta on the same holds, up to floating point numbers that compare equal, for values that leave out no short or long typed member and schemas whose struct members have no initialiser that disagrees with the nested type's own defaults; an omitted short, unsigned short, long or unsigned long member at any depth makes the reader use an uninitialised variable (undefined behaviour), and a struct member with an initialiser of its own is not always restored.", "quantifier": "every schema and value", "why_tests_cant": "depends on which members equal their defaults", "anchors": ["src/creation/xml/process_items_xml_attrib.cpp: process_items_xml_attrib_C", "src/creation/xml/process_items_xml.cpp: process_all_structs"]}
{"id": "C33", "title": "xml_attrib: 64-bit long values are truncated", "statement": "A long or unsigned long member is written through a 32-bit conversion, so it is restored if and only if it fits in 32 bits; with the element back end reading back a long that does not fit is undefined behaviour.", "quantifier": "every 64-bit value", "why_tests_cant": "2^64 values", "anchors": ["src/creation/xml/process_items_xml_attrib.cpp: process_items_xml_attrib_C", "src/creation/xml/process_items_xml.cpp: process_all_structs"]}
{"id": "C34", "title": "Delta files contain exactly the differences", "statement": "A delta write emits a scalar or enum member if and only if its value differs from the type's default; with the no_special_delta option or delta off all members are emitted. Struct and vector members are always emitted.", "quantifier": "every schema and value", "why_tests_cant": "all subsets of changed members", "anchors": ["src/creation/xml/process_items_xml_attrib.cpp: process_items_xml_attrib_C", "src/creation/xml/process_items_xml.cpp: process_all_structs", "src/creation/xml/process_items_xml.cpp: process_items_xml_C"]}
{"id": "C35", "title": "xml_attrib: absent items keep their value", "statement": "Reading an element in which a bool, int, unsigned, float, double, string, enum, struct or vector member is absent leaves that member unchanged; for short and long types the result is undefined behaviour.", "quantifier": "every element and every member", "why_tests_cant": "all subsets of present attributes", "anchors": ["src/creation/xml/process_items_xml_attrib.cpp: process_items_xml_attrib_C", "src/creation/xml/process_items_xml.cpp: process_all_structs"]}
{"id": "C36", "title": "Unknown attributes and elements are ignored", "statement": "Adding attributes or child elements whose names are not members never changes what is read (forward compatibility), at any depth.", "quantifier": "every document and every addition", "why_tests_cant": "all documents", "anchors": ["src/creation/xml/process_items_xml_attrib.cpp: process_items_xml_attrib_C", "src/creation/xml/process_items_xml.cpp: process_all_structs", "src/creation/xml/process_items_xml.cpp: process_items_xml_C"]}
{"id": "C37", "title": "Reading appends to vectors", "statement": "Reading preserves the number and order of vector elements in the file and appends them to whatever the target already holds; hence reading the same file twice into one object doubles its vectors.", "quantifier": "every document and target value", "why_tests_cant": "all lengths", "anchors": ["src/creation/xml/process_items_xml_attrib.cpp: process_items_xml_attrib_C", "src/creation/xml/process_items_xml.cpp: process_all_structs", "src/creation/xml/process_items_xml.cpp: process_items_xml_C"]}
{"id": "C38", "title": "Root element name is not checked", "statement": "read_from_file accepts any document whose root has any name and reads it as the struct; a document without a root element is dereferenced as a null pointer.", "quantifier": "every document", "why_tests_cant": "all documents", "anchors": ["src/creation/xml/process_items_xml_attrib.cpp: process_items_xml_attrib_C", "src/creation/xml/process_items_xml.cpp: process_all_structs", "src/creation/xml/process_items_xml.cpp: process_items_xml_C"]}
{"id": "C39", "title": "xml: full write then read restores the data", "statement": "The element back end restores every value as in C31 provided strings are not blank; an empty or blank string is read back as the default, so it is lost if the default is different.", "quantifier": "every schema and value", "why_tests_cant": "unbounded schemas, vectors and depths", "anchors": ["src/creation/xml/process_items_xml.cpp: process_items_xml_C"]}
{"id": "C40", "title": "xml: delta write then read", "statement": "The element back end restores delta files also for short and long members, since absent elements are skipped.", "quantifier": "every schema and value", "why_tests_cant": "all subsets of changed members", "anchors": ["src/creation/xml/process_items_xml.cpp: process_items_xml_C"]}
{"id": "C41", "title": "n_ini: top-level scalars are never restored", "statement": "With the n_ini back end, reading any file never changes a scalar or enum member of the top-level struct, so written top-level values are lost.", "quantifier": "every file and every schema", "why_tests_cant": "all file contents", "anchors": ["src/creation/ini/process_items_ini.cpp: process_items_ini_C, process_items_n_ini_C"]}
{"id": "C42", "title": "n_ini: nested scalars round-trip", "statement": "With the n_ini back end the scalars of nested structs that have a member of a built-in type are restored when their text has no comment character, is not empty, contains no line break or NUL and fits the 79-byte line limit, or, for a string, is a newline followed by lines that begin with a space and end with a newline (longer ones must have a space at each place where the 79-byte buffer is filled anew), section names fit too, and no enum member follows a struct member in its struct. An enum member after a struct member ends up in the nested struct's section.", "quantifier": "every schema and value under those limits", "why_tests_cant": "byte-level format over all strings and integers", "anchors": ["src/creation/ini/process_items_ini.cpp: process_items_ini_C, process_items_n_ini_C"]}
{"id": "C43", "title": "n_ini: structs with only enum members are not read", "statement": "Enum members of a struct that has no simple member are written but never read by the n_ini back end.", "quantifier": "every such schema", "why_tests_cant": "all schemas", "anchors": ["src/creation/ini/process_items_ini.cpp: process_items_ini_C, process_items_n_ini_C"]}
{"id": "C44", "title": "n_ini: vectors are refused", "statement": "If any struct has a vector member the n_ini generation step reports failure, and so does the plain ini back end for any struct at all.", "quantifier": "every store", "why_tests_cant": "all stores", "anchors": ["src/creation/ini/process_items_ini.cpp: process_items_ini_C, process_items_n_ini_C"]}
{"id": "C45", "title": "n_ini: section names are unambiguous", "statement": "Replacing underscores by blanks maps different member names to different section names, so sibling and nested sections never collide.", "quantifier": "all pairs of member paths", "why_tests_cant": "all names", "anchors": ["src/creation/ini/process_items_ini.cpp: process_items_ini_C, process_items_n_ini_C"]}
{"id": "C46", "title": "Exit status of the single-header mode", "statement": "stfx <header> exits 0 if and only if the header was opened and parsed; in particular a failing generation step (unknown type, unwritable output file) still exits 0.", "quantifier": "every header and file system", "why_tests_cant": "all failures of the later steps", "anchors": ["src/main.cpp: main, process_single_header, process_stfx_file"]}
{"id": "C47", "title": "Exit status of the .stfx mode", "statement": "stfx <config> exits 0 whenever the configuration file itself could be read, whatever happens to the input or output files named in it, unless a requested output directory cannot be made, which ends the program by an uncaught exception.", "quantifier": "every configuration and file system", "why_tests_cant": "all combinations of failures", "anchors": ["src/main.cpp: main, process_single_header, process_stfx_file"]}
{"id": "C48", "title": "Output file set", "statement": "For each output specification the files written are exactly <enum_file>.cpp/.h unless enum_file is empty or '-', and <structs_file>.cpp/.h unless structs_file is empty or '-' (for names that do not end in a separator, and as far as the files can be opened); nothing else is written.", "quantifier": "every configuration", "why_tests_cant": "all configurations", "anchors": ["src/main.cpp: main, process_single_header, process_stfx_file", "src/creation/process_items.cpp: process_items_C"]}
{"id": "C49", "title": "Read-only and failure to open", "statement": "With only_read_code no writer class is emitted; failure to open a struct output file makes generation report failure while failure to open an enum output file is reported as success.", "quantifier": "every store and output specification", "why_tests_cant": "all stores", "anchors": ["src/creation/process_items.cpp: process_items_C", "src/creation/xml/process_items_xml_attrib.cpp: process_items_xml_attrib_C", "src/creation/xml/process_items_xml.cpp: process_all_structs", "src/creation/xml/process_items_xml.cpp: process_items_xml_C", "src/creation/ini/process_items_ini.cpp: process_items_ini_C, process_items_n_ini_C"]}
{"id": "C50", "title": "Files are cumulative", "statement": "Parsing several files one after the other into one store has the same effect as parsing the concatenation of their definitions, also when the last definition of one file is followed by a redefinition in the next.", "quantifier": "every list of accepted files", "why_tests_cant": "all splits", "anchors": ["src/items.cpp: info_items_C", "src/items.h", "src/lex_parse/struct_yacc.y", "src/lex_parse/Parser.cpp: yy::Parser::parse, yypact_, yydefact_, yypgoto_, yydefgoto_, yytable_, yycheck_, yyr1_, yyr2_"]}
{"id": "C51", "title": "An unclosed block comment silently swallows the rest of the file", "statement": "If a header contains a comment opener /* (outside a string or another comment) that is never closed, no token is produced from it onwards and no diagnostic is given by the scanner; everything after the opener is lost.", "quantifier": "for every text following an opener that contains no closing */, from either beginning-of-line state", "why_tests_cant": "The text after the opener is arbitrary and unbounded; tests use only closed comments.", "anchors": ["src/lex_parse/struct_lex.l: C_COMMENT rules", "src/lex_parse/tokenize.cpp: yylex cases 1-3 and EOF"]}
{"id": "C52", "title": "Numbers: plain digit runs are integers, any separator byte makes one floating constant", "statement": "A digit run not followed by a digit, x, f or a separator followed by a digit is one integer token; two digit runs separated by any single byte except newline and x form one floating-point token whose text is the whole run (so 1,2 or 1;2 is read as one number).", "quantifier": "for every pair of nonempty digit runs, every separator byte except digit, newline and x, and every following text", "why_tests_cant": "The unescaped dot in the pattern matches every byte; tests only use a real decimal point.", "anchors": ["src/lex_parse/struct_lex.l: VALUE and FVALUE rules", "src/lex_parse/tokenize.cpp: yy_ec, yy_accept"]}
{"id": "C53", "title": "Every token offered by a syntax error message is possible", "statement": "A rejected file produces exactly one message, naming the rejected token and its location, and each token kind listed after 'expecting' really can follow the text read so far in some valid file (the list may be incomplete: after a complete definition only 'end of file' is offered).", "quantifier": "every rejected token sequence", "why_tests_cant": "the list is computed from the tables at whatever state the error occurs in", "anchors": ["src/lex_parse/Parser.cpp: context::expected_tokens, yy_syntax_error_arguments_, yysyntax_error_", "src/lex_parse/struct_yacc.y: Parser::error"]}
{"id": "C54", "title": "From the command line to the generated program", "statement": "For every header (or configuration of headers) that is accepted and meets the naming rules under which the generated code compiles, running stfx leaves source files whose text is, as C++, exactly the functions specified for the definitions of the inputs: the conversion functions of its enums, and for every struct the reader and writer functions of the chosen back end, with entry points for exactly the structs that are not used by another one; with several sections each output is that of the common definitions together with its own.", "quantifier": "every header text, every configuration, every file system in which the files can be opened, every names of classes and files", "why_tests_cant": "the set of headers and configurations is infinite and the outcome involves parsing, resolution, emission and file handling at once", "anchors": ["src/main.cpp: main, process_single_header, process_stfx_file"]}
{"id": "C55", "title": "One name for enum and struct files loses the enum code", "statement": "If enum_file and structs_file are the same name, the generated struct files are all that remains in that place: the enum conversion code is overwritten.", "quantifier": "every store, back end and output specification with equal names", "why_tests_cant": "a test shows one configuration; the claim is that nothing of the enum code survives for any store", "anchors": ["src/main.cpp: main, process_single_header, process_stfx_file"]}
{"id": "C56", "title": "A header named structs.h is overwritten by the tool", "statement": "stfx <dir>/structs.h replaces its own input: after the run the file holds the generated declarations instead of the header, and the exit status is 0.", "quantifier": "every accepted header text", "why_tests_cant": "destructive behaviour for every input, not one sample", "anchors": ["src/main.cpp: main, process_single_header, process_stfx_file"]}
{"id": "C57", "title": "A half opened pair leaves an empty source file", "statement": "If the .cpp file of an output can be opened but the .h file cannot, the .cpp file is left empty (any earlier generated code in it is lost) and the step reports failure.", "quantifier": "every store, back end and file system", "why_tests_cant": "depends on file system answers that tests rarely provoke", "anchors": ["src/main.cpp: main, process_single_header, process_stfx_file"]}
{"id": "C58", "title": "xml: what becomes of a string", "statement": "A string member of the struct in the file comes back as its characters up to the first NUL with carriage returns turned into line feeds; with the element back end a blank text leaves the target's string as it was.", "quantifier": "every string, schema and target object, both xml back ends", "why_tests_cant": "all byte strings", "anchors": ["src/creation/xml/process_items_xml_attrib.cpp: process_items_xml_attrib_C", "src/creation/xml/process_items_xml.cpp: process_items_xml_C", "src/creation/xml/process_items_xml.cpp: process_all_structs"]}
{"id": "C59", "title": "Reading keeps objects well typed", "statement": "Whatever element is read, if the behaviour is defined the object read into is still a valid object of its type: every number in the range of its member's type, vectors of the right structs, at every depth.", "quantifier": "every document and target object", "why_tests_cant": "all documents, also hostile ones", "anchors": ["src/creation/xml/process_items_xml_attrib.cpp: process_items_xml_attrib_C", "src/creation/xml/process_items_xml.cpp: process_items_xml_C", "src/creation/xml/process_items_xml.cpp: process_all_structs"]}
{"id": "C60", "title": "Files that cannot be loaded or written are reported", "statement": "read_from_file of a file that does not exist or does not parse returns false and leaves the object and everything else unchanged; write_to_file to a file that cannot be written returns false and changes nothing.", "quantifier": "every file name, object and state of the file system", "why_tests_cant": "all states of the file system", "anchors": ["src/creation/xml/process_items_xml_attrib.cpp: process_items_xml_attrib_C", "src/creation/xml/process_items_xml.cpp: process_items_xml_C", "src/creation/xml/process_items_xml.cpp: process_all_structs"]}
{"id": "C61", "title": "Writing uninitialised members is undefined", "statement": "write_to_file has undefined behaviour if and only if some scalar in the object, at any depth, is not initialised or, when defaults are left out, is compared with a default that is not initialised.", "quantifier": "every schema and value", "why_tests_cant": "undefined behaviour usually goes unnoticed in a test", "anchors": ["src/creation/xml/process_items_xml_attrib.cpp: process_items_xml_attrib_C", "src/creation/xml/process_items_xml.cpp: process_items_xml_C", "src/creation/xml/process_items_xml.cpp: process_all_structs"]}
{"id": "C62", "title": "n_ini: sections that are missing", "statement": "A struct whose section does not occur in the file keeps all its own members, if the reader object is new; a reader object that has read another file before restores values of that file instead.", "quantifier": "every file, schema and target object", "why_tests_cant": "all file contents and all histories of the reader object", "anchors": ["src/creation/ini/process_items_ini.cpp: process_items_ini_C, process_items_n_ini_C"]}
{"id": "C63", "title": "n_ini: the result is that of the last nested struct", "statement": "read_from_file returns what reading the last nested struct of the top-level struct returned, so a failed conversion in an earlier one is not reported.", "quantifier": "every file, schema, target object and reader object", "why_tests_cant": "all file contents", "anchors": ["src/creation/ini/process_items_ini.cpp: process_items_ini_C, process_items_n_ini_C"]}
{"id": "C64", "title": "n_ini: writing uninitialised members is undefined", "statement": "write_to_file of the n_ini back end has undefined behaviour if and only if some scalar in the object, at any depth of nested structs, is not initialised or, when defaults are left out, is compared with a default that is not initialised.", "quantifier": "every schema and value", "why_tests_cant": "undefined behaviour usually goes unnoticed in a test", "anchors": ["src/creation/ini/process_items_ini.cpp: process_items_ini_C, process_items_n_ini_C"]}
{"id": "C65", "title": "n_ini: reading any file is safe with scoped enums", "statement": "read_from_file of the n_ini back end has defined behaviour for every file content and leaves an object of its type, if every enumeration has room for every int; scoped enumerations have. With an unscoped enumeration it can be undefined.", "quantifier": "every file (also hostile ones), schema, target object and reader object", "why_tests_cant": "all file contents", "anchors": ["src/creation/ini/process_items_ini.cpp: process_items_ini_C, process_items_n_ini_C"]}
{"id": "C66", "title": "n_ini: files that cannot be opened are reported", "statement": "read_from_file of a file that does not exist returns false and changes nothing; write_to_file to a file that cannot be written returns false and changes neither the file system nor the object; the constructor's argument decides whether defaults are left out.", "quantifier": "every file name, object and state", "why_tests_cant": "all states of the file system", "anchors": ["src/creation/ini/process_items_ini.cpp: process_items_ini_C, process_items_n_ini_C"]}
{"id": "C67", "title": "Meaning of a configuration file", "statement": "What main obtains from a configuration file through the generated reader in src/configuration is exactly the independently defined meaning of the document: absent attributes get their defaults, every child element of a list counts whatever its name, a file that cannot be opened or parsed is an error, a document without elements or with an overflowing number as a flag is undefined behaviour.", "quantifier": "every file content and every result of the XML parser", "why_tests_cant": "all documents, including hostile ones", "anchors": ["src/configuration/structs.cpp", "src/configuration/enums.cpp", "src/configuration/config_data.h", "src/main.cpp:99-107"]}
{"id": "C68", "title": "From the configuration document to the generated programs", "statement": "With the shipped reader, stfx on a configuration file that cannot be read exits with 1 and writes nothing; on a document without meaning behaviour is undefined before any file is written; otherwise it writes exactly the files that the document asks for, and the sources contain the programs for the headers listed in the document.", "quantifier": "every document, file system and set of headers", "why_tests_cant": "all configurations with any number of sections and headers", "anchors": ["src/configuration/structs.cpp", "src/configuration/enums.cpp", "src/configuration/config_data.h", "src/main.cpp:99-107", "src/main.cpp:109-240"]}
{"id": "C69", "title": "The attribute file_type", "statement": "The five names stand for the five kinds; a text beginning like a number stands for that value whatever follows; every other text silently means the same as no attribute, i.e. xml_attrib. Only values 0 to 3 select a back end.", "quantifier": "every text of the attribute", "why_tests_cant": "all texts", "anchors": ["src/configuration/structs.cpp", "src/configuration/enums.cpp", "src/configuration/config_data.h", "src/main.cpp:99-107", "src/main.cpp:140-174"]}
{"id": "C70", "title": "Bootstrap", "statement": "stfx run on config_data.h writes exactly the enums and structs sources that the repository contains, in every environment with the same time stamp.", "quantifier": "every file system, directory and command line with config_data.h as first argument", "why_tests_cant": "all directories and environments", "anchors": ["src/configuration/structs.cpp", "src/configuration/enums.cpp", "src/configuration/config_data.h", "src/main.cpp:99-107"]}
{"id": "C71", "title": "Configurations survive writing and reading", "statement": "A configuration written by the shipped writer, with or without leaving out defaults, has the same meaning when it is read again, for texts without NUL and CR and kinds in the range of int.", "quantifier": "every configuration with any number of sections and inputs", "why_tests_cant": "all configurations", "anchors": ["src/configuration/structs.cpp", "src/configuration/enums.cpp", "src/configuration/config_data.h", "src/main.cpp:99-107"]}
{"id": "C72", "title": "Unknown attributes and elements in a configuration are ignored", "statement": "Adding attributes and elements that the structs do not have anywhere in a configuration document does not change its meaning.", "quantifier": "every document and every addition", "why_tests_cant": "all documents", "anchors": ["src/configuration/structs.cpp", "src/configuration/enums.cpp", "src/configuration/config_data.h", "src/main.cpp:99-107"]}
{"id": "C73", "title": "Declarations and definitions match", "statement": "Each of the two generated headers declares exactly the functions that its source file defines: same result types, classes, names and parameters, in the same order. No two declarations have the same qualified name and parameter types. Only the constructor is named like its class, unless the configuration names a class like one of its functions (do_ followed by a struct, read_from_file, write_to_file).", "quantifier": "every run, back end, header and output specification", "why_tests_cant": "all headers and configurations; the text of the files is read back", "anchors": ["src/creation/process_items.cpp:140-226", "src/creation/xml/process_items_xml.cpp:85-193", "src/creation/ini/process_items_ini.cpp:90-266"]}
{"id": "C74", "title": "Interface of the generated classes", "statement": "The header for the structs declares one reader class and, unless only reading is wanted, one writer class that derives publicly from it. The constructors and a virtual entry point for exactly the structs that no other struct uses are public, a function for every struct is protected, the data members are private with the initialisers m_delta_only{} and m_file{nullptr}; the writer's constructor has the default argument true.", "quantifier": "every run, back end, header and output specification", "why_tests_cant": "all headers and configurations", "anchors": ["src/creation/xml/process_items_xml.cpp:85-193", "src/creation/ini/process_items_ini.cpp:90-266"]}
{"id": "C75", "title": "Interface for the enumerations", "statement": "The header for the enumerations declares s_from_e and s_to_e for exactly the enumerations of the input, and a formatter for each. Formatting a value gives the text of s_from_e: the first enumerator with the value, else the number.", "quantifier": "every run, header, enumeration and value", "why_tests_cant": "all enumerations and all values", "anchors": ["src/creation/process_items.cpp:97-122", "src/creation/process_items.cpp:140-226"]}
{"id": "C76", "title": "Preprocessor lines", "statement": "The preprocessor lines of the four generated files are exactly the expected ones: the own header, the standard and library headers of the back end, the enumeration header, and the input files in order. The enumeration header includes what declares the library types it uses. The struct header does so exactly for the xml back ends and for read-only output: the ini writer uses std::FILE without <cstdio>.", "quantifier": "every run, configuration and header", "why_tests_cant": "all combinations of inputs, back ends and options", "anchors": ["src/creation/process_items.cpp:60-140", "src/creation/xml", "src/creation/ini"]}
{"id": "C77", "title": "Included files are found", "statement": "Looked for beside the including file, the own header is always found; the enumeration header exactly when the struct file name has no directory part; an input file exactly when the output is in the directory of the configuration. With everything in one directory, and for a single header always, every included file is one of the generated headers or an input.", "quantifier": "every run, configuration, path and included file", "why_tests_cant": "all directory layouts", "anchors": ["src/main.cpp:67-97", "src/main.cpp:101-240", "src/creation/process_items.cpp:60-140"]}
{"id": "C78", "title": "Layout of input files is free", "statement": "A text that consists of spellings of the tokens of a list of definitions, with any blanks, line ends, line and block comments and preprocessor lines before, between and behind them, is an input file with exactly these definitions. Each kind of token needs at most a condition on the text directly behind it.", "quantifier": "every list of definitions, every spelling of its tokens, every layout", "why_tests_cant": "unboundedly many layouts and definitions", "anchors": ["src/lex_parse/struct_lex.l:19-223", "src/lex_parse/struct_yacc.y:83-195"]}
{"id": "C79", "title": "Which definitions can be input", "statement": "Every token the scanner returns has the text of its kind (identifiers that are not reserved words, digits, 0x and hexadecimal digits, ...), and a list of definitions is the content of some file exactly when its bodies are not empty and all its names and values are such texts; printed with one token per line it is such a file, and stfx turns it into the program for these definitions.", "quantifier": "every text and every list of definitions", "why_tests_cant": "unboundedly many texts", "anchors": ["src/lex_parse/struct_lex.l:19-223", "src/lex_parse/tokenize.cpp", "src/main.cpp:67-97"]}
{"id": "C80", "title": "A run depends only on the definitions in the files it names", "statement": "Two disks on which the configuration file is the same and each named input file has the same definitions, in whatever layout, give the same exit status, the same generated files byte by byte and the same messages except for the scanner's own output. If the named files are the same bytes the runs are equal, whatever else is on the disk.", "quantifier": "every pair of disks, command line, configuration and environment", "why_tests_cant": "relates all pairs of runs", "anchors": ["src/main.cpp:20-238", "src/items.cpp:48-68", "src/creation/process_items.cpp:17-138"]}
{"id": "C81", "title": "From the command line to objects that come back", "statement": "Run on a header in any layout, or on a configuration document and the headers it names, stfx ends with status 0 and, for each wanted output, the functions read back from the source files on the disk store objects: for every struct that no other one contains, an object written to a file by write_to_file is restored from that file by read_from_file (xml attributes, xml elements; for ini files as far as C42 says).", "quantifier": "every environment, command line, header text, configuration document, set of definitions, object and previous content of the object read into", "why_tests_cant": "unbounded headers, documents and objects", "anchors": ["src/main.cpp:20-238", "src/creation/process_items.cpp:17-138", "src/creation/xml/process_items_xml_attrib.cpp", "src/creation/xml/process_items_xml.cpp", "src/creation/ini/process_items_ini.cpp"]}
{"id": "C82", "title": "The scanner's buffer is safe and invisible", "statement": "Reading a file byte by byte into its array, moving and doubling it, marking ends with NUL bytes and putting the overwritten character back, the generated scanner never accesses a byte outside of the array or one that was not written, no int overflows, no fatal error is reported, it ends, and its tokens, locations and messages are those of the lexical rules on the whole text, whatever the size of the first array and also when the text contains NUL bytes.", "quantifier": "every text below 1 GiB and every size of the first buffer", "why_tests_cant": "unbounded texts, buffer sizes and refills; reads of stale or uninitialised bytes do not fail in tests", "anchors": ["src/lex_parse/tokenize.cpp:632-1494", "src/lex_parse/tokenize.cpp:1608-1790", "src/lex_parse/Location.hpp:66-122"]}
{"id": "C83", "title": "The parser's semantic values are built, used and destroyed correctly", "statement": "The generated parser keeps its semantic values in untyped buffers and decides by the kind of a symbol, or of a state, what is in one. For every text, accepted or not, each value is built in a buffer that holds none, read, moved and destroyed as an object of the type it was built with, nothing is taken from an empty stack, and when parse returns every buffer that goes away is empty: nothing is leaked or destroyed twice. The result is that of the parser with tagged values, whenever the stack is reallocated, also when the tokens come from the scanner with its input buffer of any size.", "quantifier": "every text (below 1 GiB with the input buffer), every schedule of reallocations, every first buffer size", "why_tests_cant": "unbounded texts and stack depths; type confusion in raw memory and leaks do not fail in tests", "anchors": ["src/lex_parse/Parser.hpp:186-405", "src/lex_parse/Parser.hpp:567-720", "src/lex_parse/Parser.hpp:1495-1608", "src/lex_parse/Parser.cpp:188-560", "src/lex_parse/Parser.cpp:588-1140"]}
{"id": "C84", "title": "Initialisers written in a header", "statement": "If every initialiser and enumerator constant of a header compiles (decimal, octal and hexadecimal numbers and characters, with or without sign, strings with all kinds of escapes, true, false and enumerators, without narrowing), the initialisers have the types of their members, so that everything proved about stored objects holds for the header as it is written: stfx run on it generates functions that restore what they wrote. A delta file leaves out a member exactly if it has the value that the header spells, and enumeration texts follow the numbers that the header spells. A std::string can be given any text without a character 0 and no other. The rule for floating point constants takes two numbers with any character between them, so sums, comparisons and so on of two numbers and separated digits are accepted and have their value in C++. stfx itself does not check this: it accepts short size{70000} and int size{1,5}.", "quantifier": "every header in any layout, every object, every environment of a run, every floating point arithmetic", "why_tests_cant": "unbounded headers and literals; needs the meaning of C++ constants together with the generated code", "anchors": ["src/lex_parse/struct_yacc.y:83-195", "src/lex_parse/struct_lex.l:20-28", "src/creation/xml/process_items_xml_attrib.cpp: process_items_xml_attrib_C", "src/creation/process_items.cpp: process_items_C"]}
{"id": "C85", "title": "Line ends of input files", "statement": "Input files that differ only in their line ends (LF, CR LF, or mixed; CRs directly before a LF) have the same tokens at the same places, make the parser record the same definitions with the same result, and make a run write the same files with the same exit status. Printed scanner texts differ only in CRs, and a syntax error message can differ only when the file ends too early, and then only in the begin position of the end of the file.", "quantifier": "every pair of texts of any size, valid or not, with any line ends; every environment and command line of a run", "why_tests_cant": "CR is accepted by several scanner rules in several contexts (comments, line comments, blanks, echoed characters), and texts are unbounded", "anchors": ["src/lex_parse/struct_lex.l:10-60", "src/creation/items.cpp:48-68", "src/main.cpp: main"]}
{"id": "C86", "title": "Headers as the compiler reads them", "statement": "stfx reads a header like a C++ compiler does: for every text that is, by the lexical rules of C++ (comments, preprocessor lines, names, numbers, characters, strings, marks), a sequence of enum and struct definitions, stfx finds the same definitions, only without the signs of constants, which its scanner skips (as in int i{ -42 } of the shipped src/test/config_data.h). The dropped signs are harmless: the generated program does not depend on the constants of a header, and it restores stored objects of the structs as the compiler sees them, for single headers and for configurations. Needed: a line end behind every // and #, and no line with more than two double quotes; otherwise stfx finds other members (two strings on a line) or an error. The converse is false: stfx takes int *size; int area(); for int members.", "quantifier": "every text of any size, every header, object, environment of a run, command line and configuration document", "why_tests_cant": "all layouts of all headers, and the agreement of two different lexers (longest match over whole lines against C++ tokens)", "anchors": ["src/lex_parse/struct_lex.l:10-60", "src/lex_parse/struct_yacc.y:83-195", "src/creation/process_items.cpp: process_items_C", "src/main.cpp: main", "src/test/config_data.h"]}
{"id": "C87", "title": "Running again changes nothing", "statement": "Run a second time in the environment that the first run left behind, with the files it has written, stfx gives the same exit status, the same messages and the same files, provided that no file that the run reads (the header, or the configuration file and the inputs it names) is among the files it has written. For a header this only means that it is not called enums.h, enums.cpp, structs.h or structs.cpp; for a configuration, that no output is also an input. Without it the claim is false: a header called structs.h is replaced by generated code with exit status 0, and the second run fails.", "quantifier": "every environment, command line, configuration and set of files", "why_tests_cant": "relates all pairs of successive runs", "anchors": ["src/main.cpp:20-238", "src/creation/process_items.cpp:17-138"]}
{"id": "C88", "title": "Generated files do not depend on the constants of a header", "statement": "If the input files of two runs have definitions that differ only in initialisers, in the constants of enumerators and in a comma behind the last enumerator, the runs have the same exit status and messages (apart from the scanner's own output) and write the same files byte by byte, also when the definitions are erroneous (unknown types, redefinitions) or come from several files of a configuration. So a rebuild after a changed default value leaves the generated code as it is.", "quantifier": "every pair of disks, command line, configuration and environment", "why_tests_cant": "relates all pairs of runs", "anchors": ["src/items.cpp:48-330", "src/main.cpp:20-238", "src/creation/process_items.cpp:17-138", "src/creation/xml/process_items_xml_attrib.cpp", "src/creation/xml/process_items_xml.cpp", "src/creation/ini/process_items_ini.cpp"]}
{"id": "C89", "title": "What a run reports", "statement": "The lines that a run prints, apart from what the scanner, the parser and the store print while a file is read, are determined line by line: for each input whether it could be opened and parsed, for each output which files were opened, which could not be, and which members no code is generated for, and the final verdict. For a configuration, whose exit status is always 0, the line 'ERROR : failed to process F' is printed exactly if some named input F is missing or is not a list of definitions. A member of unknown type is named in the warnings of every xml or n_ini output that writes struct files, and without such members (or vectors with n_ini) there are no warnings. But it is not reported at all if the struct files are left out, or for the type ini.", "quantifier": "every environment, command line, configuration and set of files, as long as no output is also an input", "why_tests_cant": "relates the whole console output to all inputs", "anchors": ["src/main.cpp:20-238", "src/items.cpp:48-68", "src/creation/process_items.cpp:17-138", "src/creation/xml/process_items_xml.cpp:17-210", "src/creation/ini/process_items_ini.cpp:17-284", "src/creation/xml/process_items_xml_attrib.cpp:119-133"]}
{"id": "C90", "title": "From the command line to deltas, foreign files and missing files", "statement": "The functions that a run of stfx leaves on the disk, parsed and executed: an xml file of any content with a root element leaves every object well typed, attributes and elements that belong to no member do not matter, a document without root element is undefined behaviour for structs with members, a file that cannot be loaded or written makes the call return false and changes nothing else, and a delta is read back into a new object as an object like the original. The n_ini functions read any text into a well typed object, are never undefined if enumerations have room for every int, never read members of the outermost struct that are no structs, and return false for files that cannot be opened.", "quantifier": "every environment, command line, header or configuration document with its headers, back end, object, file content and calling state", "why_tests_cant": "quantifies over all headers, objects and file contents at once", "anchors": ["src/main.cpp:20-238", "src/items.cpp:48-330", "src/creation/process_items.cpp:17-290", "src/creation/xml/process_items_xml_attrib.cpp", "src/creation/xml/process_items_xml.cpp", "src/creation/ini/process_items_ini.cpp"]}
{"id": "C91", "title": "Builds of stfx differ only in the time stamp of the head lines", "statement": "Two builds of the program, with different time stamps, give the same exit status, write the same files, and these agree byte by byte except for the stamp in their first comment lines; the console output agrees except for the line with the stamp. The stamp of every build, whatever __DATE__ and __TIME__ expand to, contains no line end or quote, so the files are correct programs whenever stfx was built.", "quantifier": "every pair of stamps, environment, command line and configuration whose section inputs are not outputs of the run", "why_tests_cant": "relates all pairs of builds", "anchors": ["src/timestamp.cpp:1-12", "src/version.h:1-4", "src/main.cpp:20-238", "src/creation/process_items.cpp:17-138"]}
{"id": "C92", "title": "Empty strings in xml files", "statement": "With the back end xml, a blank string is not read back but leaves the member of the object as it is. So an object is read back into a new object exactly if each of its strings either is not blank and has no NUL and no CR, or is blank and equal to the default value of its member; with xml_attrib blank strings are no exception. The same for deltas in one direction.", "quantifier": "every header, object of any depth whose other scalars are kept, and calling state", "why_tests_cant": "exact condition over all objects", "anchors": ["src/creation/xml/process_items_xml.cpp:17-210", "src/creation/xml/process_items_xml_attrib.cpp:119-420"]}
{"id": "C93", "title": "From headers as the compiler reads them to all that the generated functions do; the project in src/test", "statement": "For a configuration document and headers that a C++ compiler reads as certain definitions (signs included), the functions that the run leaves on the disk do everything that C81 and C90 say, for each wanted output. The project in src/test, in any directory of any file system, gives three such programs; what src/test/test_main.cpp does with the first: its object config is written, the file it writes would be read back into the same object, a missing file makes the reader return false and leaves the object, a document without root element is undefined behaviour.", "quantifier": "every environment, command line, configuration document and set of headers; for the project every directory and file system", "why_tests_cant": "quantifies over all configurations and file systems", "anchors": ["src/test/config.stfx:1-24", "src/test/config_data.h:1-64", "src/test/test_enums.h:1-21", "src/test/test_extra1.h:1-13", "src/test/test_extra2.h:1-7", "src/test/test_main.cpp:1-19", "src/main.cpp:20-238"]}
{"id": "C94", "title": "Objects come back from the bytes of xml files", "statement": "What the generated write_to_file hands to tinyxml2 is saved as a text that is xml and stands for that document. Whatever comes back when the writing program reads its file (complete files, deltas, empty strings) also comes back, in any other run and under any other name, from a file with these bytes. Condition: less than TINYXML2_MAX_ELEMENT_DEPTH elements inside of each other.", "quantifier": "every header, output, object of any depth, calling state, from the command line or a configuration document", "why_tests_cant": "all objects, strings and depths; the limit of the library is a parameter", "anchors": ["src/creation/xml/process_items_xml.cpp:17-210", "src/creation/xml/process_items_xml_attrib.cpp:119-420", "src/main.cpp:20-238"]}
{"id": "C95", "title": "The layout of xml files does not matter", "statement": "All texts of a document (blanks, quotes, declarations, comments, DOCTYPE, CDATA, entities, <a/> or <a></a>, byte order mark) are read alike: by generated readers, and by stfx as its configuration. So what is proved about configuration documents holds for the bytes of the file; the project in src/test with the bytes of config.stfx gives the three programs of C93.", "quantifier": "every text that stands for a document, of any length and depth below the limit of the library", "why_tests_cant": "infinitely many texts per document", "anchors": ["src/test/config.stfx:1-24", "src/configuration/structs.cpp:31-38", "src/main.cpp:101-107", "src/creation/xml/process_items_xml.cpp:106-121"]}
{"id": "C96", "title": "Files that are cut off are refused", "statement": "If a file written by a generated writer is cut off anywhere (by more than its last line end) the generated reader returns false and leaves the object; likewise for every file that tinyxml2 finds malformed. A configuration file that ends inside its root element makes stfx exit with 1 and write nothing; one that ends before the root element, after a declaration or comment, is undefined behaviour (null pointer).", "quantifier": "every object, every document text and every place to cut it", "why_tests_cant": "all cuts of all files", "anchors": ["src/creation/xml/process_items_xml.cpp:106-121", "src/creation/xml/process_items_xml_attrib.cpp:119-140", "src/configuration/structs.cpp:31-38", "src/main.cpp:101-107"]}
{"id": "C97", "title": "Files of one version of a header can be read with another", "statement": "If stfx runs on two versions of a header, and a file written with the functions of the first is read with those of the second, then members that both versions have come back with their values, enumerators by name whatever numbers they have in the second version, members that only the second version has keep the value of the object that is read into, and members that a delta file leaves out keep the value of the object read into (so changed defaults change what such a file means). This holds for members in another order, members removed and members added, except that a new member of type short or long (read through a conversion) makes reading an old file with attributes undefined behaviour.", "quantifier": "every two headers that agree in the kinds of common members, every object and every object read into", "why_tests_cant": "all pairs of versions, all objects", "anchors": ["src/creation/xml/process_items_xml_attrib.cpp:16-260", "src/creation/xml/process_items_xml.cpp:213-560"]}
{"id": "C98", "title": "The order of attributes and elements in an xml file does not matter", "statement": "Two documents that differ only in the order of attributes, and of the child elements of elements that stand for structs (elements of one name keep their order among each other; only the first counts), at any depth, are read with the same result: by generated readers of both xml back ends, on every object, and as configuration files by stfx. The child elements of an element that stands for a vector are read in their order, so there it does matter.", "quantifier": "every header, every two such documents and texts of them, every object read into", "why_tests_cant": "all permutations at all depths of all documents", "anchors": ["src/creation/xml/process_items_xml_attrib.cpp:16-140", "src/creation/xml/process_items_xml.cpp:213-405", "src/configuration/structs.cpp", "src/main.cpp:101-107"]}
{"id": "C99", "title": "n_ini: what files written by hand mean", "statement": "For files of sections, items, items of several lines, comments and empty lines with no line longer than 79 characters, every member of a built-in type or enumeration in a struct that has members of built-in types becomes the value of its item in the last part of the file with the struct's section name (the last one there if it is repeated), or keeps its value if there is none; all other members keep theirs. A reader that has read files before takes each section from the last file that has it. So comments, empty lines, the order of sections and items, and items and sections of no member do not matter, also if values cannot be converted. An item of several lines at the end of the file is lost, and the end of a comment of more than 79 characters is read as a line.", "quantifier": "every header, every such file, every sequence of files read before, every object read into", "why_tests_cant": "all texts and all histories of the reader object", "anchors": ["src/creation/ini/process_items_ini.cpp: process_items_ini_C, process_items_n_ini_C"]}
{"id": "C100", "title": "n_ini: what written files hold, and other versions of the header", "statement": "The file a generated writer leaves is made of sections and items as in C99 and has exactly one value for each scalar member below the outermost struct that is not left out as equal to its default, at the section of its struct, and no others, provided each of these values fits on one line. Read with the program of another version of the header, every member that is an item there takes the value converted from that text if there is one, and every other member keeps what it had; members of the same built-in type or the same enumeration in both versions get the value itself if it is one that n_ini files keep. A long that becomes an int can stop the reading.", "quantifier": "every two headers, every written object, every object read into, both writing modes", "why_tests_cant": "all pairs of versions and all values", "anchors": ["src/creation/ini/process_items_ini.cpp: process_items_n_ini_C"]}
{"id": "C101", "title": "n_ini: files that are cut off", "statement": "If a file left by a generated writer is cut off anywhere, a new reader finds only values of the written object, except that a single one, the last, may have lost its end; if all of them can be converted then reading reports success and every other member keeps what it had. If the file is cut off at the end of a line (or is empty) then reading always reports success, and every member has the value of the whole file or keeps its own: nothing is noticed, other than for xml files (C96). Cut off elsewhere, a number can be read with fewer digits and reading reports success.", "quantifier": "every header, also another version for reading, every written object whose values fit on one line, every place of the cut, every object read into", "why_tests_cant": "all files and all places in them", "anchors": ["src/creation/ini/process_items_ini.cpp: process_items_ini_C, process_items_n_ini_C"]}
{"id": "C102", "title": "n_ini: which strings can be read at all", "statement": "Whatever files a generated reader has read before and whatever the file, after read_from_file a std::string member has the value it had or a text without percent signs and characters 0 that is either one line that is not empty and has place on a line of 79 characters behind the name of the member and a space, or a newline and lines of at most 79 characters that begin with a space. All of these texts can be read: for every std::string in a nested struct there is a file that gives it this text and changes nothing else. So an empty string, one with a percent sign, a long one, or one of several lines whose first line is not empty never comes back once written: the empty string comes back as a newline, text behind a percent sign is gone, and later lines of a string can set members in other sections.", "quantifier": "every header and options, every object, every file, every reader and what it has read before, every string", "why_tests_cant": "all files and all strings", "anchors": ["src/creation/ini/process_items_ini.cpp: process_items_ini_C, process_items_n_ini_C"]}
{"id": "C103", "title": "n_ini: numbers, and what an unreadable text spoils", "statement": "Read from any files that are lines of the n_ini syntax, one after the other, by a generated reader: the members of built-in types and the enums of a struct take the values in the files, in the order in which the generated code reads them, up to the first text that cannot be converted; behind it, and in all structs nested in this one, nothing changes; structs beside it are not affected. A member that is a number is unchanged or gets what the decimal number at the start of the text means: blanks, a sign perhaps, digits; anything behind the digits is ignored; int, bool and short must lie in the range of int, long in that of long; a short, unsigned short, unsigned int or unsigned long gets what is left of the number modulo its size. So -1 and 70000 are read into an unsigned int and a short as other numbers, and a text that is no number in any struct but the last is not reported.", "quantifier": "every header and options, every object, every files, every text for a number, every nested struct", "why_tests_cant": "all texts, all places where one can be wrong, all nestings", "anchors": ["src/creation/ini/process_items_ini.cpp: process_struct_reader, process_items_n_ini_C"]}
{"id": "C104", "title": "xml: what files written by hand mean, and which of them are undefined behaviour", "statement": "For any element and any object: reading the element into the object with the functions generated for xml or xml_attrib is undefined if and only if somewhere in the element, at a place that belongs to a member, there is a number that is too big for the conversion, a text that is no number or no text at all for a member of a short or long type (as an attribute also: a missing attribute), or a number that an unscoped enumeration cannot hold. Otherwise every nested struct is read from the element at its place, or unchanged if there is none, and every member of a built-in or enumeration type is unchanged if the item is missing or means nothing, and else has the value that the text means: decimal numbers, hexadecimal numbers of 32 bits, the words for bool, the names of enumerators. Structs of strings, floating point numbers and scoped enumerations can be read from any document. Numbers of other types and texts that are no numbers are not reported.", "quantifier": "every header and options, every document, every object, every nested struct and vector element", "why_tests_cant": "all documents, all texts of numbers, all nestings", "anchors": ["src/creation/xml/process_items_xml.cpp: process_struct_reader", "src/creation/xml/process_items_xml_attrib.cpp: process_struct_reader"]}
{"id": "C105", "title": "n_ini: exactly which strings come back", "statement": "An object is written by the generated n_ini writer and read by the generated reader, new or having read any files before. Of all scalars of the object but one string member of a nested struct it is known that they come back. The string is written (not left out as a default), its name has at most 77 characters, and the object that is read into has another string at that place. Then after reading the member has the written string if and only if the string is one line that is not empty, has no percent sign, carriage return, line feed or character 0 and fits on a line of 79 characters behind the name and a space, or is a newline and lines that begin with a space, each ended by a newline within 79 characters or continued with a space at each piece of 79 characters. Every other string comes back as another text or not at all.", "quantifier": "every header and options, every object, every nested struct and string member, every string, every earlier use of the reader", "why_tests_cant": "all strings, and all texts in front of and behind them in the file", "anchors": ["src/creation/ini/process_items_ini.cpp: process_items_ini_C, process_items_n_ini_C"]}
