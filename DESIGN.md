# Formal model of gx-dk/stfx in Rocq (Coq 8.16.1)

stfx reads C++ headers (enum / enum class / struct definitions) with a flex
scanner and a bison parser, stores them, resolves member types and prints C++
code that reads and writes the structs from and to XML (attributes or elements)
or a blank-separated ini file.  The model follows that pipeline function by
function, and does not stop at the printed text: the text is parsed as C++ and
executed, so the properties of the generated code are statements about runs of
the text that the generator prints.

    header bytes --Flex--> tokens --Bison--> callbacks --Items/Store--> store
      --Resolve--> store --Emit--> text of the generated files
      --Cpp--> syntax (= Ast) --CppSem--> values, files, undefined behaviour
    command line, disk --Main--> disk, exit status

`properties.jsonl` lists the properties, `MANIFEST.json` the theorems for each.

## Layers of the model (rocq/theories)

| File | Contents | Source |
|---|---|---|
| `Base`, `Map`, `Decimal` | option binding, table access; `std::map<std::string,_>`; decimal text | - |
| **Scanner** | | |
| `FlexTables` | the flex tables, transcribed by `tools/gen_tables.py` | `lex_parse/tokenize.cpp` 311-503 |
| `Flex` | scanner loop, rule actions, locations, echo, warnings | `tokenize.cpp` yylex |
| `Regex`, `LexRules` | *specification*: regular expressions, rules of the rule file, longest match, first rule | `struct_lex.l` |
| `LexCorrect`, `LexWhole`, `LexLoc`, `LexStep`, `LexProps`, `LexBlank`, `LexMore`, `LexGap` | proofs | |
| `LineEnds`, `LineParse` | texts with other line ends: scanner and parser do the same | |
| `Buffer` | the scanner with its input buffer | `tokenize.cpp` 632-1494, 1608-1790 |
| `BufferProps`, `BufferStep`, `BufferScan` | proofs: the buffer is invisible | |
| `Layout`, `Lexable` | *specification* of how each token can be written, layouts, a printer for definitions; proofs | `struct_lex.l` |
| **Parser** | | |
| `BisonTables`, `Bison` | LALR tables (transcribed) and driver with semantic actions | `Parser.cpp`, `Parser.hpp` |
| `Grammar`, `ParseSpec`, `Cfg`, `ParseLang` | *specification*: abstract syntax and its token sequences; the context-free grammar production by production, and their equivalence | `struct_yacc.y` 83-195 |
| `LR`, `LRSim`, `GramSim`, `Parse`, `ParseCorrect` | proofs: simulation of the driver | |
| `BisonStos`, `ParserMem` | the symbols of states (transcribed); the parser with the memory of its semantic values | `Parser.hpp` 186-405, 567-720, 1495-1608; `Parser.cpp` 188-560, 588-1140, 1372-1384 |
| `ParserMemProps`, `Front` | proofs: the memory is used correctly and is invisible; the buffered scanner and this parser together | |
| **Store** | | |
| `Items`, `Store` | `info_items_C` with its two raw pointers (they may point into another store after a copy), `process_input_file` | `items.cpp`, `items.h` |
| `Resolve` | `fixup_types_of_names`, `find_top_struct` | `creation/process_items.cpp` 229-274 |
| `StoreProps`, `StoreDefs`, `StoreRedef`, `ResolveProps`, `ItemsEnd` | proofs | |
| **Generator** | | |
| `Templates`, `MainTemplates` | every format string, extracted by `tools/templates.py`, one definition per call | `creation/**`, `main.cpp`, `items.cpp` |
| `Fmt` | `fmt::println` / `fmt::format`, C string escapes | - |
| `Emit` | every function of the generator as the list of its print commands | `creation/**` |
| `Shipped`, `EmitCheck` | the generated files that the repository contains, copied by `tools/shipped.py`; the model prints exactly these from `config_data.h` | `configuration/` |
| **Generated code** | | |
| `Cpp` | lexer and parser for the C++ subset that is emitted | - |
| `Xml`, `Rx`, `Val`, `CppSem` | tinyxml2, `std::regex`, values, interpreter; undefined behaviour is an outcome | - |
| `Ast` | the functions of the generated files as syntax | `creation/**` |
| `SymLex`, `SymParse`, `PrintXa`, `PrintXm`, `PrintEnum`, `PrintIni`, `PrintFile` | proof: for every store, `Cpp` parses the printed text to the trees of `Ast` | |
| `CppH`, `HeadSpec` | parser for the emitted headers; *specification* of what they should declare | - |
| `PrintH`, `HeadProps` | proof: for every store, the printed headers parse to that | |
| `Direct`, `DirectFiles`, `Found` | *specification* of the preprocessor lines; proof that the files have these; where included files are looked for | `creation/**` |
| `Prog`, `Header`, `Link`, `DecText` | which function a call finds; what headers are assumed to look like; numbers as text | |
| `EnumSem`, `EnumCall`, `EnumRound` | the enum conversion functions | |
| `XmlSpec` | *specification* of reading and writing elements | |
| `XmlRdSimple` ... `XmlThms`, `XmlBlank`, `XmlCase` | proofs that calls of the generated functions do that; round trips | |
| `IniSpec` | *specification* of scanning lines, reading and writing sections | |
| `XmlText` | tinyxml2 at the level of texts: XMLPrinter, XMLDocument::Parse | the library, as assumed |
| `XmlTextSpec` | *specification*: which texts stand for a document | xml |
| `XmlTextRead`, `XmlPrint`, `XmlBytes`, `XmlCut` | proofs: these texts are read, printed documents are such texts, parts of them are refused | |
| `XmlUp` | *specification* of reading with another version of the header what one version wrote; proofs | |
| `XmlOrder` | *specification* of documents in another order; proof that they are read alike | |
| `IniRead` ... `IniThms`, `IniCase` | the same for the n_ini back end | |
| `IniBlock` | *specification* of the strings of several lines that survive; what the scanner makes of their text | |
| `IniVersions` | *specification* of the items an object gives; the text written for an object as lines of C99 | |
| `IniCut` | beginnings of the texts of C100: the scanner sees the lines that are left, and at most one shortened item | |
| `IniRange` | invariant of the scanner: which texts its lookups hold, for any files; files for all of these texts; where the values of members come from, for any lookups | |
| `NumText` | decimal numbers and their meaning in the types of members, and that the model of std::stoi, std::stol and std::stoul agrees | |
| `IniLocal` | what reading does to each struct of an object, when some texts cannot be converted | |
| `XmlMean` | meaning of the texts in xml documents, and the elements for which reading is undefined | |
| `IniExact` | the strings that the reader finds again behind the lines that the writer makes of them, in the text of any object | |
| `IniText`, `IniMean` | *specification* of the lines of n_ini files and of the values they give; scanning them; objects take these values and depend on nothing else | |
| **Configuration files** | | |
| `ConfSpec` | what main gets: the shipped text of `structs.cpp`, parsed and executed; *specification*: the meaning of a configuration document | `configuration/`, `main.cpp` 101-107 |
| `ConfRead`, `ConfRound` | proofs that these agree; round trip | |
| **Program** | | |
| `Main` | `main` over an abstract file system | `main.cpp`, file parts of `creation/**` |
| `MainProps`, `RunProps`, `EmitProps`, `Pipeline` | proofs; from the command line to the generated program | |
| `Depend` | two runs on different disks compared: what a run depends on | |
| `Stamp` | the time stamp of a build; two runs of different builds compared | `timestamp.cpp`, `version.h` |
| **Properties** | | |
| `Lit`, `LitProps` | *specification* of the initialisers and enumerator constants a header can contain, as C++ understands them; proofs | C++ standard |
| `Cxx`, `CxxProps` | *specification* of the tokens of a header by the rules of C++; proofs that the scanner finds the same | C++ standard |
| `Shape`, `Erase` | headers that differ in constants only: the generated program is the same; the store without its constants | |
| `Console` | the lines that a run prints, specified and proved | main.cpp, process_items*.cpp (the `fmt::println` without a file) |
| `P_Lex`, `P_Parse`, `P_Items`, `P_Emit`, `P_Enum`, `P_Xml`, `P_Ini`, `P_Main`, `P_Conf`, `P_Head`, `P_Text`, `P_Whole`, `P_Buffer`, `P_Mem`, `P_Lit`, `P_LitText`, `P_Cxx`, `P_Again`, `P_Console`, `P_Serve`, `P_Stamp`, `P_Ship`, `P_File`, `P_Evolve`, `P_Order`, `P_IniText`, `P_IniVersion`, `P_IniCut`, `P_IniRange`, `P_IniExact`, `P_IniNumber`, `P_XmlMean` | the property theorems, concrete cases, `Print Assumptions` | |

## How the properties are proved

* C01-C10, C51, C52: bisimulation between table states and vectors of
  derivatives of the rules.  The set of pairs is finite and checked by computation;
  all inputs by induction on the text.
* C11-C15, C53: simulation between the LALR driver on its real tables and
  unfinished definitions, by induction on the tokens; equivalence of these with the
  grammar of the `.y` file.
* C16-C24, C50: invariants by induction over callbacks and files; refutations by witness.
* C23, C25-C28, C44: induction over the store; parsing of the printed text.
* C29, C30: execution of the generated functions for an arbitrary enumeration.
* C31-C40, C58-C61: execution of the generated functions for an arbitrary header,
  document, object and calling state; induction on the height of the element or
  object.  Round trips: what is written is described independently (`describes`),
  what is read by `read_struct`.
* C41-C43, C45, C62-C66: the same with texts; the line loop by induction on the text.
* C46-C49, C54-C57: induction over the sections and files of a configuration.
* C67-C72: the shipped reader is the generated program for `config_data.h` (by
  computation), so the theorems for all headers apply to it.
* C73-C75: parsing of the printed headers; comparison with the functions that the
  source files parse to.
* C76, C77: induction over the printed lines; the names between separators of paths.
* C78, C79: the derivative vectors reached by the texts of each kind of token; inversion of
  the regular expressions; induction over layouts.
* C80: simulation between two runs of the program.
* C81: composition of C54/C68 (command line to program) with C31, C39 and C42 (program to stored objects); the only facts passed between the two halves are `has_program` and `header_ok`.
* C82, C83: refinement.  A relation between the state with memory (buffer and pointers, raw buffers of the stack symbols) and the abstract state is kept by every step; the partial operations of the memory are shown to be defined in related states.
* C85: the scanner started in every derivative vector that a lexeme can reach, before CR and before LF (finite, by computation); induction over the text for all lexemes; then as C80.
* C86: one step of the C++ lexer against the lemmas on lexemes and gaps of the scanner; what
  follows a number by the grammar; induction over the text; then the emitted functions do not
  use the recorded constants, and composition with C54, C68, C81 and C84.
* C87: C80 with the disk that the first run left.
* C88: constants are erased from the store; every operation on the store, and every generated
  file, is shown to be the same on a store and on its erasure; then as C80.
* C89: the log of every step of the run, with the invariant that no input has been written;
  the texts of different lines start differently.
* C90: composition of C54/C68 with C31-C38, C41, C58, C60 and C66, as C81.
* C91: simulation between the runs of two builds; the files written so far differ in head lines
  only.  A configuration must not name an output of the run as input of a section.
* C92: as C31-C40, with the default values of strings carried along.
* C93: composition of C68, C86, C81 and C90; for the project in src/test the conditions are
  computed, and the paths compared behind their common beginning.
* C94-C96: simulation of the parser on all texts of a document, by induction on their
  derivation; printed documents have one (induction on the tree); the parser's answers are
  stable under more text, so a part of an element is never accepted.
* C97: induction on the height of the written object, over the members of both versions; then
  C94 for the bytes.  A new member of type short or long makes old files with attributes
  undefined behaviour to read (the local variable for the conversion is never set).
* C98: mutual induction on the relation between the documents: reading a member looks at one
  attribute, or at the first element of a name.
* C99: an invariant of the scanner over the lines of the file relates its tables to the
  specification of values; the rest is induction on objects.
* C100: induction on objects: the text of an object is the text of a list of sections and
  items whose values are those of the specification; then C99 for the version that reads.
* C101: induction on the lines up to the cut, case analysis on the line that is cut; values in
  the part that is left by induction on the sections, which are distinct.
* C102: invariant of the scanner over the pieces that fgets gives, for all files one after the
  other; conversely a file for every such text, by induction on the indented lines.
* C103: equivalence of scanning with a declarative grammar of numerals, by induction on digits;
  induction on the members, and on the path to a struct.
* C104: equivalence of the conversions with declarative meanings of texts; induction on the
  height of an element, and on the path to a struct.
* C105: the longest part of a string that is a block of lines, a bound for the lengths of texts
  that the rest of it can leave behind, and the invariant of C102; induction on the path to the string.
* C84: case analysis on types and constants; composition with C29, C34 and C81; the reader of string literals agrees with
  a declarative spelling of the C++ rule (`P_LitText`), and operations on signed numbers with their mathematical meaning.

A property that is false as first stated is stated with the condition it needs, and
the failing case is a theorem of its own with a witness (`_refuted`).

## Trusted base

* The Coq kernel (8.16.1) and `coqchk`.  `vm_compute` is used.
* No axioms.  `Print Assumptions` answers "Closed under the global context" for every
  property theorem.  (`coqchk` lists axioms of `Coq.ssr.ssrunder`, which the standard
  library loads with `Lia`; no theorem depends on them.)
* The tables, format strings and shipped files are copied by the scripts in `tools/`
  from the sources at the pinned commit.
* The hand-written parts of the model agree with the C++ they cite.  Evidence: the
  model prints the shipped files byte by byte (`EmitCheck`); `Ast` is not trusted, since
  parsing the text gives it (`Print*`).
* `Cpp`, `Xml`, `Rx`, `Val`, `CppSem`: the meaning of the emitted C++ and of the
  libraries it uses.

### What is modelled, and where it is simplified

* Scanner: in `Flex` the input is one list of bytes and counters do not overflow.
  `Buffer` models the array the scanner reads from (refilling, moving, growing, the held
  character, NUL bytes, the int counters) and C82 proves that it gives the same results
  for texts below 1 GiB.  Allocation does not fail and the stream is not broken.
* Parser: locations of stack entries are left out (only used for error tokens, which
  this grammar does not shift); debug output is off.  In `Bison` the semantic values are
  tagged and need no destruction; `ParserMem` models the untyped buffers, their
  construction, moves, destruction and the reallocation of the stack, and C83 proves that
  it gives the same results.  When the stack is reallocated is arbitrary.  Objects that
  are moved from are destroyed at once, as in the code; no exception is thrown.
* Store: the raw pointers are modelled as positions in one of the stores.  Copies of
  the common store are made as in `main.cpp` 179.
* `fmt`: format strings with `{}`, `{0}` ..., `{{`, `}}` and `std::string` arguments.
* `Main`: answers of the file system do not change during a run; paths are texts (two names
  of one file are two files),
  without drive letters; writing never runs out of space; line end translation of text
  mode is left out (for input files C85 shows that it would not matter).  The configuration reader is a parameter in `Main`; `own_reader`
  in `P_Conf` sets it to what the shipped code does.  A document is reloaded for the
  round trip of configurations as for other structs (`reload`).
* The emitted C++: a pointer or reference argument is bound to a copy that is copied
  back on return (the emitted calls pass one each).  Struct copies of uninitialised
  members are defined.  Overload resolution is by parameter types.  An expression
  outside the subset, or a name that is not visible, gives `Bad`; theorems about calls
  exclude `Bad` by stating the exact outcome.
* Emitted headers: `const` is skipped, so declarations and definitions are compared
  without it.  The parsers skip preprocessor lines and comments; the preprocessor lines
  are compared separately (C76).  `#include "x"` is looked for beside the including file;
  further search directories are not modelled.  The return statement of a
  formatter is matched as a sequence of tokens; a `string_view` has the text of the string it
  is made from.
* tinyxml2: elements, attributes and text nodes; no comments and declarations.  The theorems
  up to C93 hold for any parser of files not written by the program itself (`l_parse`), and
  take a written document to be what is read again.  C94 to C96 justify the latter: `XmlText`
  models the printer and the parser, and `parses limit L` says that `l_parse` agrees with that
  (`limit`: TINYXML2_MAX_ELEMENT_DEPTH; no claim where the result is `Other`: numeric
  character references, markup like <!DOCTYPE inside of elements).  `prints_text`: numbers are
  printed without NUL.  The library is not in the repository; the model is of releases 9 to 11
  from memory of their source, and part of the trusted base for C94 to C96.
  The text 0x without digits is taken for 0, as by the scanf of glibc.
  `SaveFile` then `LoadFile` keeps the tree up to line ends and blank texts.  Loading
  any other file is a parameter (`l_parse`), so theorems about reading hold for every
  result of the XML parser.  `find_element` of tinyxml2-ex with a plain name is
  `FirstChildElement`.
* Floating point numbers are codes; their comparison, printing and reading are
  parameters.  `int` has 32 bits, `short` 16; `long` is a parameter.
* Values of default initialisers and of enumerator expressions are parameters (they
  are only assumed to have the right type, `lits_fit`).  `Lit` gives them their meaning in
  C++ (integers, operations on two of them, characters, strings, bools, enumerators; narrowing is an error) and C84
  shows that the assumption holds if all of them compile, which is a check on the header;
  floating point constants, operations on numbers that are no `int`, and initialisers with a
  value for struct members are left without meaning there.
* `text_of` (C54, C68, C81, C84): the definitions as the scanner reads them, which drops signs
  and other characters without a rule.  C86 starts from the definitions as the compiler reads
  them instead.  `Cxx` covers comments, `#include` and `#pragma`, names (qualified once),
  numbers without suffixes and separators, characters and strings without prefix, the seven
  marks of the grammar and the signs; other C++ gives `None`.
* `std::regex`: characters, classes, `+` and groups, which is all that is emitted.
* `src/test/test_main.cpp`: its two calls, in any calling state; the construction of the writer
  object is its member `m_delta_only` (C34).
* Files: a name holds a document or a text.  `fopen` for reading of a file written by
  tinyxml2 in the same program is not modelled.
* n_ini: reading into a member of the reader object itself is left out (`lv_this l =
  false`).  `read_from_file` may be called on a writer object too (`reader_or_writer`), as
  src/test/test_main.cpp does.

### Conditions on headers for the generated code

`header_ok` (`Prog.v`): names are distinct and not those that generated functions
declare themselves (list `reserved`), user types are declared before use, vectors hold
structs.  `ini_setting` also excludes scalar members named `items` or `data`: the
generated n_ini reader would take its local variables for them.

### Not covered

Timing and memory use; the C++ compiler; text encodings;
`tinyxml2-ex` beyond `find_element` and
its iteration over children; Windows paths.

## Testing the theorems

`seeded/LOG.jsonl`: wrong programs tried in a scratch copy, one per line, with the
theorems and lemmas that failed.  If all had gone through, the theorem was tightened.
