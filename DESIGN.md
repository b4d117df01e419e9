# Design: a Rocq model of sjml/beschi

beschi is a code generator.  It loads a protocol description (TOML), validates
it, and prints source code in one of eight languages.  The printed code reads
and writes messages in a binary format.  Users rely on two things: the Python
program (loader, validator, text generation, command line), and the behaviour of
the programs it prints.  The model covers both, and a theorem (C45) ties the two
together: the text that the generators print is the text of the programs whose
behaviour is studied.

## 1. Layers

Models live in files without proofs.  Proofs are in `*Facts.v`.  The property
theorems are in `Prop*.v`; each is closed by `exact`, with `Print Assumptions`
beneath and an `Example` that meets its hypotheses.

| layer | model | specification | proofs |
|---|---|---|---|
| bytes, dictionaries, text | `Bytes`, `Utf8` | | `BytesFacts`, `Utf8Facts` |
| loader, `beschi/protocol.py` | `Protocol` | `ProtocolSpec` (rules of docs/protocols.md) | `ProtocolFacts`, `ProtocolFacts2..4`, `PropProtocol*` |
| wire format | `Wire` (a relation) | `Wire` | `WireFacts`, `WireExec`, `PropWire*` |
| printed statements and their meaning | `IR`, `Measure` | | `IRFacts`, `WriterFacts`, `MeasureFacts`, `LocalsFacts`, `OverlongFacts` |
| streams, packed buffers | `Stream` | `CodecSpec` | `StreamFacts`, `CutFacts`, `LooseFacts` |
| reference readers (proof devices) | `Dec`, `GoDec` | | `DecFacts`, `ReaderFacts` |
| generators and runtimes | `TypeScript`, `AssemblyScript`, `CSharp`, `Swift`, `Rust`, `Zig`, `Go`, `C`, `Lang`, `Rename` | `CodecSpec`, `LangSpec`, `GoSpec`, `ZigSpec`, `CSpec` | `<Lang>Facts`, `CReadFacts`, `CWriteFacts`, `CStreamFacts`, `Prop<Lang>*` |
| memory in C and Zig | `Blocks`, `C`, `ZigMemory` | `Blocks`, `CSpec`, `ZigMemorySpec` | `BlocksFacts`, `CReadFacts`, `ZigMemoryFacts` |
| names of locals in TypeScript, AssemblyScript, C#, Swift | `Scopes` | `ScopesSpec` | `ScopesFacts`, `PropScopes*` |
| comments of the generated text, lines of a file | `Cli`, `Lines` | `CommentSpec`, `SplitSpec` | `CommentFacts`, `SplitFacts`, `PropComment*` |
| later versions and other names | `Wire`, `Cross` | `GrowSpec` | `GrowFacts`, `GrowFileFacts`, `PropGrow*` |
| indentation | `Lines`, the `XText` files, `Cli` | `IndentSpec` | `IndentFacts`, `PropIndent*` |
| loader soundness | `Protocol` | `ProtocolSpec`, `LoadSpec` | `LoadFacts`, `PropLoad*` |
| top-level names | `XText`, `Boilerplate*`, `Cli` | `TopSpec`, `GoTopSpec` | `TopFacts`, `XTopFacts`, `PropTop*` |
| members of the printed types | `XText`, `Boilerplate*`, `Cli` | `FieldSpec` | `FieldFacts`, `XFieldFacts`, `PropField*` |
| declarations of the printed C, and their order | `CText`, `Boilerplate*`, `Cli` | `CDeclSpec` | `CDeclFacts`, `PropCDecl*` |
| functions of the printed C | `CText`, `Boilerplate*`, `Cli` | `CFunSpec` | `CFunFacts`, `PropCFun*` |
| methods of the printed Go, Rust, C#, Swift, TypeScript and AssemblyScript | `GoText`, `RustText`, `CSharpText`, `SwiftText`, `TypeScriptText`, `Boilerplate*`, `Cli` | `GoMethodSpec`, `RustMethodSpec`, `CSharpMethodSpec`, `SwiftMethodSpec`, `TypeScriptMethodSpec` | `GoMethodFacts`, `RustMethodFacts`, `CSharpMethodFacts`, `SwiftMethodFacts`, `TypeScriptMethodFacts`, `PropMethod*` |
| all languages side by side | `Cross` | `CodecSpec` | `PropCross*` |
| names, `TextUtil` | `TextUtil` | `TextSpec` | `TextFacts`, `PropText*` |
| printing, `beschi/writer.py` | `Lines`, `BoilerplateFiles` | `LinesSpec` | `LinesFacts`, `BoilerplateFacts`, `PropBoilerplate*` |
| printed text of the generators | `TypeScriptText`, `CSharpText`, `SwiftText`, `RustText`, `ZigText`, `GoText`, `CText` | `LinesSpec` | `<Lang>TextFacts`, `PropNesting*` |
| how programs look in print | | `Syntax`, `<Lang>Syntax` | `SyntaxFacts`, `<Lang>SyntaxFacts`, `<Lang>ClassFacts`, `PropPrinted*` |
| command line, `beschi/cli.py` | `Cli` | `CliSpec` | `PropCli*` |
| examples | `Samples`, `WireSamples`, `LangSamples` | | `LangSampleFacts` |

### Two models of each generator, and why

A generator is a function from protocols to programs, so "the generated reader
returns the value" ranges over programs.

* `<Lang>.v` models a generator as a function that returns *statements*, in the
  order in which the Python branches print them, and gives these statements the
  meaning that the target language gives the printed lines.  Local variables are
  looked up by their printed name, so shadowing and capture are visible.  Object
  fields are assigned one by one.  A failing primitive stops the function, throws,
  panics or is ignored exactly as the printed lines say.
* `<Lang>Text.v` models the same generator as a function that returns *lines of
  text*, f-string by f-string, with the indentation level as state.
* `<Lang>Syntax.v` says how a program of the first kind is written in the target
  language.  It does not look at the generator.
* C45 proves, for every protocol, that the text is the program written that way.
  A mistake in one of the two models therefore shows up as a failed proof, unless
  the same mistake is in all three files.

### Independent specification

`Wire.v` says what the bytes of a value are, as an inductive relation between a
type, a value and a list of bytes.  It does not mention generators, statements,
computed sizes or fuel.  Integers are specified by the positional sum of their
bytes, not by the function the model uses to split them.  `CodecSpec.v` says what
readers, writers, size functions and stream functions should do in terms of that
relation only, for any reader, writer and so on; the property theorems apply these
predicates to the functions of each language.  `ProtocolSpec.v` states the
documented rules as propositions about the TOML document.

### Loops

Python's `while` loop in the cycle check, the recursion over structs, and the loops
of generated code take fuel.  Running out is a value of its own (`Diverges` or
`None`), and the theorems show that it does not occur; C03 and C34 show where it
must occur.

## 2. Plan and outcome per property

"False" means that a theorem with the suffix `_refuted` gives a concrete accepted
protocol (and value, and bytes) on which the code breaks the property.  The other
theorems of that property then say for which protocols it holds.

| id | how it is modelled and proved | outcome |
|---|---|---|
| C01 | inversion of `load`: every member of an accepted protocol passed `validate_struct` | proved |
| C02 | the work list of `check_for_cycles` follows every containment path; pigeonhole bounds the depth | proved |
| C03 | the work list never empties when it enters a cycle that avoids its start | false; exact good case proved |
| C04 | inversion of `load` | false for duplicate enum names and reserved member names; rest proved |
| C05 | converse of C01, C02, C04: the rules imply that `load` succeeds | proved |
| C06 | analysis of the encoding loop | proved |
| C07 | position in the message list, bounded by the 255 check | proved per language |
| C08, C09 | induction on the wire relation | proved |
| C10-C17 | generated statements are executed against the reference reader, which is compared once with the wire relation | proved up to the counterexamples |
| C18 | all pairs of languages, from C10-C17 | proved where both sides hold; false for the documented example |
| C19 | induction on containment depth for `gen_measurement` | proved for Swift; otherwise exact conditions and counterexamples |
| C20 | reference reader on strict prefixes | conditions and counterexamples |
| C21, C22 | inversion of a successful read | conditions and counterexamples |
| C23 | a writer's state is its buffer and position | conditions and counterexamples |
| C24-C26 | induction on the list of messages | proved per language; false for AssemblyScript (C26) |
| C27-C29 | as C24, with the framing | conditions and counterexamples |
| C30 | execution of the default constructors | proved; false for C `_Create` |
| C31 | from C10-C17 | false for Zig and C |
| C32 | name tables of the generated classes and locals | false in every language; exact conditions for TypeScript, AssemblyScript, C#, Swift, C; sufficient ones for Rust, Go, Zig |
| C33 | every generator function ends at the indentation level it began with; the braces of the text balance | proved |
| C34 | case analysis of `main`; file system and argparse results are parameters | false in two ways; otherwise proved |
| C35 | the boilerplate files are in the model; the rewriting is specified as a relation on characters | false for C namespaces that contain "BESCHI"; otherwise proved |
| C36 | string induction | proved |
| C37 | wire relation with length bounds, from C10-C17 | false for the longest Zig strings |
| C38 | representation of C objects with length fields | proved for reads; false for `_Create` |
| C39 | the release code is a program of its own; its trace of freed blocks is compared with the blocks that the read allocated | proved for Zig; for C with list lengths of at most four bytes |
| C40 | every outcome of the interpreters is classified; crashes are values | proved for TypeScript and C#; conditions and counterexamples for the others |
| C41 | values whose lists and strings are too long | proved for Swift; false in five languages |
| C42, C43 | C object life cycle | false |
| C44 | `Utf8.v` against the independent definition of well-formed text | proved |
| C45 | text models against the pretty-printers | proved in all eight languages; C needs names without `[i..]` |
| C46, C47 | Zig statements once more with an account of the blocks, proved to agree with the first meaning | C46 false, proved for protocols where only last members need memory; C47 proved |
| C48 | the comments are taken out of the texts printed with and without the option; the lines put together again are the file | proved for the lines; proved for Zig; for the others when the file holds no comment marks; false otherwise |
| C49 | old encodings are encodings of the extended protocol, by induction on the format; then C18 on both sides | proved for the format; for the languages as C18; limits refuted |
| C50 | encodings of a renamed protocol, by induction on the format; then C18 on both sides | proved for the format; for the languages as C18 |
| C51 | two runs of a writer side by side, printing lines that are alike at each step | proved |
| C52 | inversion of each loader function, down to the entries of the file | proved for plain files; false for repeated enum or value names, a `meta` array, a namespace that is not text, misspelt sections |
| C53 | lines at the level of the declarations, found in the output of each writer by walking through its blocks; names behind `class`, `enum`, `fn`, … | proved for words: distinct iff no type has one of the writer's own names; false for a type `Message`, an empty namespace in Rust, `a-b` and `a-c`; the reserved word `for` is declared; in Go the text declares exactly the names of C32, false for a struct `NoteType` besides a message `Note` and for values `A.BC` and `AB.C`; in C the names of the types, false for a struct `DataAccess` |
| C54 | a reader of the text that goes into a type at its opening line and out at its end; the table of types and initial values is written anew | proved, in both directions, for seven languages; false in TypeScript and AssemblyScript for an enum called `bigint`; C has its own reader, as the name of a type stands behind its members |
| C55 | the members and types that the reader of C finds, in order | holds exactly if every struct stands in the file behind the structs of its members; false for a file that declares them the other way round |
| C56 | the functions that the reader of C finds declared and defined, with their signatures (names of parameters do not count) | the same functions, each once; a struct may be called like one of them |
| C57 | the interface and the methods that the reader of Go finds; the trait and its implementations in Rust; the abstract class and what the derived classes override in C# and Swift, or have in TypeScript and AssemblyScript | messages, and only messages (in Rust also the enum of them), have all that is demanded; no method twice |

## 3. Trusted base

* The kernel of Coq 8.16.1.  `coqchk` rechecks the compiled files.
* `Print Assumptions` prints "Closed under the global context" for every theorem in
  the `Prop*.v` files: no axiom of ours, and none of the standard library.  Only the
  standard library is imported.  (`coqchk` lists `Coq.ssr.ssrunder` entries in its
  context summary; they belong to the standard library's `ssreflect` files, and no
  theorem depends on them.)
* The reading of the Python source by hand, cited at each definition.  The two models
  of each generator are checked against each other by C45.  The text models were also
  compared by hand with the examples in docs/; those were printed by version 0.3.0 and
  differ from the code in a few places (section 5).
* The meaning given to the printed statements of the eight target languages and
  to the library calls they make (`binary.Read`, `DataView`, `BinaryReader`,
  `std.mem`, ...), written down in the interpreters and the runtime models.  Where
  a library may behave in more than one way (does `String(data:encoding:)` drop a byte
  order mark, is `malloc(0)` null, how much memory is there), the behaviour is a
  parameter of the model, and the theorems hold for all its values or name the ones
  they need.
* `tomllib`: documents enter the model as parsed values with unique keys.

## 4. What is modelled and what is not

Modelled, function by function:

* `protocol.py`: everything.
* `writer.py`: `TextUtil`, `Writer.write_line`, `add_boilerplate`, the embedding of the
  protocol text, `get_protocol`.
* every writer: `__init__` (renaming), `deserializer`, `serializer`, `gen_measurement`,
  `gen_struct`, `gen_message`, `gen_enum`, `gen_default` and its relatives, `destructor`
  in C and Zig, and `generate`, both as programs and as text.
* the boilerplate files: as text (all eight), and as functions with the meaning of the
  target language (readers, writers, `ProcessRawBytes`, `PackMessages`,
  `UnpackMessages`, `GetPackedSize`).
* `cli.py`: `main`, after argparse.

Not modelled:

* TOML syntax, argparse, the operating system, the Python recursion limit, the time
  taken, Python's memory.
* Floating point values are bit patterns; JavaScript's NaN canonicalisation is left out.
* Names are byte strings; case mapping is ASCII only.
* Whether the printed text compiles is modelled only as far as names, types of lengths,
  order of declarations and the like go: the conditions `go_names`, `zig_names`,
  `c_compiles` and so on.  There is no parser or type checker of a target language.
* `test/`, `scripts/`, `setup.py`.

## 5. Findings

Defects that theorems show, by property:

* loader: endless loop on some cyclic documents (C03, C34); duplicate enum names accepted (C04).
* TypeScript: byte order marks are dropped from strings; DataViews with an offset are
  misread and `PackMessages` writes outside them; 64 bit size types do not work; a list
  inside a list of the same name is measured wrongly; overlong lists get a wrapped
  length (C11, C19, C20, C23, C27, C41).
* AssemblyScript: enums whose last value is not the largest cannot be read (most values
  of the documented `TeamRole`); unknown tags, and cut streams, are accepted; packed
  buffers of less than 12 bytes cannot be unpacked (C17, C20, C21, C26, C27).
* C#: strings are measured in UTF-16 units; a string cut off at the end of the input is
  accepted; negative lengths give empty lists; a string or enum called `el` next to a list
  does not compile (C19, C20, C22, C32).
* Swift: slices of `Data` are misread or crash; negative lengths crash; enums `x` and
  `xRead` in one struct do not compile (C15, C32, C40).
* Rust: lists of bytes or bools do not compile; a member called `reader`, or names that
  coincide in snake case, are overwritten (C13, C32).
* Go: errors of nested readers and of string lengths are ignored; `--go-no-rename`
  panics on fixed-size structs; invalid enum values inside structs are kept (C10, C20, C21, C22).
* Zig: string lengths are written with the list size type; enums inside fixed-size
  structs are not written; strings close to the maximum panic; a read that fails
  loses the memory of the members, and of the messages, before the broken one (C16, C31, C37, C46).
* C: lists of strings do not compile when the size types differ; `_Create` leaves length
  fields undefined, and `_Cleanup` after it frees a literal; empty lists are unreadable
  where `malloc(0)` is null; 64 bit lengths wrap; a failed `ProcessRawBytes` leaves a list
  that cannot be destroyed; `PackMessages` and `UnpackMessages` work only at position 0;
  a string member called `x[i3]` is taken for an element of a list (C12, C27, C30, C38-C43, C45).
* command line: a failing write leaves a truncated file (C34).  With a C namespace that
  contains "BESCHI" the boilerplate is replaced twice (C35).  With `--embed-protocol`, a
  `*/` in the protocol file ends the comment, and a `/*` hides the Swift and Rust code (C48).

Seen while reading, not stated as theorems:

* with `--go-no-rename` the Go package is called `beschi` whatever the namespace is.
* the Go writer computes new names for enum values and throws them away.
* a namespace that is a TOML array or table passes the whitespace check.
* `--typescript-use-namespace` without a namespace prints `namespace None`.
* a struct or enum called `bigint` or `boolean` gets the default of that TypeScript type.
* the C boilerplate does not include `<string.h>`.
* the documentation says that the default of an enum is zero if that is valid; the code
  takes the first value.
* docs/ shows output of version 0.3.0: other names in C, other errors in Go and Zig.

## 6. Testing the theorems

`seeded/LOG.jsonl` has one line per wrong program: a definition of the model is edited in
a scratch copy, everything is rebuilt, each lemma whose proof breaks is replaced by an
assumption, and the theorems that rest on such an assumption are listed as failed.  Edits
marked as controls do not change what users see; no theorem is expected to fail.  Where an
edit that breaks a claim went unnoticed, the theorem was tightened and the edit repeated.

## 7. Building

`cd rocq && coq_makefile -f _CoqProject -o Makefile && make -j4`.  About ten minutes on
four cores.
