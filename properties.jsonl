{"id": "C01", "title": "Accepted protocols use only declared types", "statement": "If Protocol(file) returns without raising, then every data member of every struct and every message has a type (or list element type) that is one of the ten base types, 'string', a declared struct or a declared enum; never a message and never an undeclared name.", "quantifier": "all parsed TOML documents, of any shape and size", "why_tests_cant": "The set of protocol files is infinite; tests only try a handful of broken files.", "anchors": ["beschi/protocol.py:Protocol.__init__", "beschi/protocol.py:validate_struct"]}
{"id": "C02", "title": "Accepted protocols are acyclic", "statement": "If Protocol(file) returns without raising, no struct contains itself, directly or through any chain of members and lists, and no message reaches such a struct. So every value of every accepted message is a finite tree.", "quantifier": "all parsed TOML documents; containment chains of any length", "why_tests_cant": "Cycles can have any length and any shape; tests exercise one or two of them.", "anchors": ["beschi/protocol.py:check_for_cycles"]}
{"id": "C03", "title": "A cyclic protocol is reported, not looped on", "statement": "For every protocol whose struct containment graph has a cycle, Protocol(file) stops and raises RecursionError ('Cycle detected ...').", "quantifier": "all parsed TOML documents whose only defect is a containment cycle", "why_tests_cant": "Termination on every input cannot be observed by finitely many runs; the bad orderings are specific.", "anchors": ["beschi/protocol.py:check_for_cycles"]}
{"id": "C04", "title": "Accepted names are non-empty, whitespace free, not reserved, and unique", "statement": "If Protocol(file) returns, every struct, message and enum name is non-empty, has no ASCII whitespace and is not (case-insensitively) a base type, 'string' or 'list'; no two declarations among structs, messages and enums share a name; member and enum value names have no whitespace; within one struct member names are distinct.", "quantifier": "all parsed TOML documents", "why_tests_cant": "Quantifies over all names and all pairs of declarations.", "anchors": ["beschi/protocol.py:validate_struct", "beschi/protocol.py:validate_enum", "beschi/protocol.py:RESERVED_WORDS", "docs/protocols.md"]}
{"id": "C05", "title": "Valid protocols are accepted and loaded faithfully", "statement": "A document that follows the documented rules (well-formed names, declared acyclic types, legal size types, fitting enum values, at most 255 messages) is accepted, and the result has exactly the declared structs, messages, members and enum values, in declaration order, with keys starting with an underscore ignored.", "quantifier": "all documents that satisfy the rules", "why_tests_cant": "Completeness of a validator is a statement about all valid inputs.", "anchors": ["beschi/protocol.py:Protocol.__init__", "beschi/protocol.py:build_struct"]}
{"id": "C06", "title": "Enums get the smallest encoding that holds every value", "statement": "An accepted enum is stored in byte if all values are in 0..255, otherwise in int16 if they all fit, otherwise in int32 if they all fit; enums with a value outside int32 are rejected. Name-only enums number their values 0,1,2,... in order.", "quantifier": "all enum declarations, any number of values, any integers", "why_tests_cant": "The value range is unbounded and the boundaries are many.", "anchors": ["beschi/protocol.py:Enum.__init__", "beschi/protocol.py:NUMERIC_TYPE_RANGES"]}
{"id": "C07", "title": "Message identifiers are 1..n, distinct, and fit the tag byte", "statement": "In every target language the i-th declared message (counting from one) is tagged with the byte i; tags are pairwise distinct, never zero, never above 255; protocols with more than 255 messages are rejected.", "quantifier": "all accepted protocols; every target language", "why_tests_cant": "Ranges over all numbers of messages; off-by-one at 255/256 and language-specific zero-based enums.", "anchors": ["beschi/protocol.py:Protocol.__init__", "beschi/writers/go.py:generate", "beschi/writers/typescript.py:generate", "beschi/writers/assemblyscript.py:generate", "beschi/writers/csharp.py:generate", "beschi/writers/rust.py:generate", "beschi/writers/swift.py:generate", "beschi/writers/zig.py:generate", "beschi/writers/c.py:generate"]}
{"id": "C08", "title": "Fixed-size types really have a fixed size", "statement": "If a type is classified as simple then every value of it encodes to exactly the same number of bytes, namely the size the generator computes for it; types containing a string or a list at any depth are not simple.", "quantifier": "all accepted protocols, all types, all values", "why_tests_cant": "Nested structs of any depth and all values.", "anchors": ["beschi/protocol.py:Variable.is_simple", "beschi/protocol.py:Struct.is_simple", "beschi/protocol.py:Protocol.get_size_of"]}
{"id": "C09", "title": "The wire format is unambiguous", "statement": "A value has exactly one encoding; two different values of a message never share an encoding; and no encoding of a message is a proper prefix of another encoding of the same message, so concatenated messages can be split again.", "quantifier": "all accepted protocols, all pairs of values", "why_tests_cant": "A statement on all pairs of values.", "anchors": ["docs/protocols.md", "README.md", "beschi/writers/go.py", "beschi/writers/typescript.py", "beschi/writers/assemblyscript.py", "beschi/writers/csharp.py", "beschi/writers/rust.py", "beschi/writers/swift.py", "beschi/writers/zig.py", "beschi/writers/c.py"]}
{"id": "C10", "title": "Go: generated writers emit the wire format and readers get the value back", "statement": "For every accepted protocol and every in-range message value, the Go WriteBytes code the generator emits appends exactly the wire encoding of the value, and the Go FromBytes code it emits, run on that encoding followed by anything, returns the same value and stops exactly at the end of the encoding.", "quantifier": "all accepted protocols, all messages, all in-range values, all trailing bytes", "why_tests_cant": "The protocol itself is an input: the generated program differs for each, and tests generate six of them.", "anchors": ["beschi/writers/go.py:deserializer", "beschi/writers/go.py:serializer", "beschi/writers/go.py:gen_struct", "beschi/writers/boilerplate/Go.go"]}
{"id": "C11", "title": "TypeScript: generated writers emit the wire format and readers get the value back", "statement": "For every accepted protocol and every in-range message value, the TypeScript WriteBytes code the generator emits appends exactly the wire encoding of the value, and the TypeScript FromBytes code it emits, run on that encoding followed by anything, returns the same value and stops exactly at the end of the encoding.", "quantifier": "all accepted protocols, all messages, all in-range values, all trailing bytes", "why_tests_cant": "The protocol itself is an input: the generated program differs for each, and tests generate six of them.", "anchors": ["beschi/writers/typescript.py:deserializer", "beschi/writers/typescript.py:serializer", "beschi/writers/typescript.py:gen_struct", "beschi/writers/boilerplate/TypeScript.ts"]}
{"id": "C12", "title": "C: generated writers emit the wire format and readers get the value back", "statement": "For every accepted protocol and every in-range message value, the C WriteBytes code the generator emits appends exactly the wire encoding of the value, and the C FromBytes code it emits, run on that encoding followed by anything, returns the same value and stops exactly at the end of the encoding.", "quantifier": "all accepted protocols, all messages, all in-range values, all trailing bytes", "why_tests_cant": "The protocol itself is an input: the generated program differs for each, and tests generate six of them.", "anchors": ["beschi/writers/c.py:deserializer", "beschi/writers/c.py:serializer", "beschi/writers/c.py:gen_struct", "beschi/writers/boilerplate/C.1.h"]}
{"id": "C13", "title": "Rust: generated writers emit the wire format and readers get the value back", "statement": "For every accepted protocol and every in-range message value, the Rust WriteBytes code the generator emits appends exactly the wire encoding of the value, and the Rust FromBytes code it emits, run on that encoding followed by anything, returns the same value and stops exactly at the end of the encoding.", "quantifier": "all accepted protocols, all messages, all in-range values, all trailing bytes", "why_tests_cant": "The protocol itself is an input: the generated program differs for each, and tests generate six of them.", "anchors": ["beschi/writers/rust.py:deserializer", "beschi/writers/rust.py:serializer", "beschi/writers/rust.py:gen_struct", "beschi/writers/boilerplate/Rust.rs"]}
{"id": "C14", "title": "C#: generated writers emit the wire format and readers get the value back", "statement": "For every accepted protocol and every in-range message value, the C# WriteBytes code the generator emits appends exactly the wire encoding of the value, and the C# FromBytes code it emits, run on that encoding followed by anything, returns the same value and stops exactly at the end of the encoding.", "quantifier": "all accepted protocols, all messages, all in-range values, all trailing bytes", "why_tests_cant": "The protocol itself is an input: the generated program differs for each, and tests generate six of them.", "anchors": ["beschi/writers/csharp.py:deserializer", "beschi/writers/csharp.py:serializer", "beschi/writers/csharp.py:gen_struct", "beschi/writers/boilerplate/CSharp.0.cs"]}
{"id": "C15", "title": "Swift: generated writers emit the wire format and readers get the value back", "statement": "For every accepted protocol and every in-range message value, the Swift WriteBytes code the generator emits appends exactly the wire encoding of the value, and the Swift FromBytes code it emits, run on that encoding followed by anything, returns the same value and stops exactly at the end of the encoding.", "quantifier": "all accepted protocols, all messages, all in-range values, all trailing bytes", "why_tests_cant": "The protocol itself is an input: the generated program differs for each, and tests generate six of them.", "anchors": ["beschi/writers/swift.py:deserializer", "beschi/writers/swift.py:serializer", "beschi/writers/swift.py:gen_struct", "beschi/writers/boilerplate/Swift.0.swift"]}
{"id": "C16", "title": "Zig: generated writers emit the wire format and readers get the value back", "statement": "For every accepted protocol and every in-range message value, the Zig WriteBytes code the generator emits appends exactly the wire encoding of the value, and the Zig FromBytes code it emits, run on that encoding followed by anything, returns the same value and stops exactly at the end of the encoding.", "quantifier": "all accepted protocols, all messages, all in-range values, all trailing bytes", "why_tests_cant": "The protocol itself is an input: the generated program differs for each, and tests generate six of them.", "anchors": ["beschi/writers/zig.py:deserializer", "beschi/writers/zig.py:serializer", "beschi/writers/zig.py:gen_struct", "beschi/writers/boilerplate/Zig.zig"]}
{"id": "C17", "title": "AssemblyScript: generated writers emit the wire format and readers get the value back", "statement": "For every accepted protocol and every in-range message value, the AssemblyScript WriteBytes code the generator emits appends exactly the wire encoding of the value, and the AssemblyScript FromBytes code it emits, run on that encoding followed by anything, returns the same value and stops exactly at the end of the encoding.", "quantifier": "all accepted protocols, all messages, all in-range values, all trailing bytes", "why_tests_cant": "The protocol itself is an input: the generated program differs for each, and tests generate six of them.", "anchors": ["beschi/writers/assemblyscript.py:deserializer", "beschi/writers/assemblyscript.py:serializer", "beschi/writers/assemblyscript.py:gen_struct", "beschi/writers/boilerplate/AssemblyScript.ts"]}
{"id": "C18", "title": "Generated code in different languages is byte compatible", "statement": "For any two target languages, bytes written by the code generated for one are read by the code generated for the other to the same value, and both produce identical bytes for the same value.", "quantifier": "all accepted protocols, all pairs of the eight languages, all in-range values", "why_tests_cant": "Tests compare files for one protocol and one value per protocol.", "anchors": ["beschi/writers/go.py", "beschi/writers/typescript.py", "beschi/writers/assemblyscript.py", "beschi/writers/csharp.py", "beschi/writers/rust.py", "beschi/writers/swift.py", "beschi/writers/zig.py", "beschi/writers/c.py"]}
{"id": "C19", "title": "The reported size is the number of bytes written", "statement": "In every language GetSizeInBytes() of a message equals the number of bytes WriteBytes(tag=false) produces for it, so a buffer of that size is always enough.", "quantifier": "all accepted protocols, all in-range values, all eight languages", "why_tests_cant": "The size code is a separate generator (gen_measurement) that inlines nested structs and loops; it can drift from the writer for some shape of protocol.", "anchors": ["beschi/writers/go.py:gen_measurement", "beschi/writers/typescript.py:gen_measurement", "beschi/writers/assemblyscript.py:gen_measurement", "beschi/writers/csharp.py:gen_measurement", "beschi/writers/rust.py:gen_measurement", "beschi/writers/swift.py:gen_measurement", "beschi/writers/zig.py:gen_measurement", "beschi/writers/c.py:gen_measurement"]}
{"id": "C20", "title": "Truncated messages are rejected", "statement": "Reading a message from any strict prefix of its encoding fails (error, exception or null as the language does it) and never returns a message.", "quantifier": "all accepted protocols, all values, every cut point, all eight languages", "why_tests_cant": "Every cut point of every encoding of every protocol.", "anchors": ["beschi/writers/go.py:deserializer", "beschi/writers/typescript.py:deserializer", "beschi/writers/assemblyscript.py:deserializer", "beschi/writers/csharp.py:deserializer", "beschi/writers/rust.py:deserializer", "beschi/writers/swift.py:deserializer", "beschi/writers/zig.py:deserializer", "beschi/writers/c.py:deserializer", "test/05_broken_messages_test.py"]}
{"id": "C21", "title": "Enum values that were not declared are rejected", "statement": "A reader never returns a message in which an enum member holds a value outside the declared ones, and never rejects a declared one.", "quantifier": "all accepted protocols, all byte strings", "why_tests_cant": "All enum shapes (gaps, negative, non monotone, full byte) and all positions of the enum in nested structs.", "anchors": ["beschi/writers/go.py:deserializer", "beschi/writers/typescript.py:deserializer", "beschi/writers/assemblyscript.py:deserializer", "beschi/writers/csharp.py:deserializer", "beschi/writers/rust.py:deserializer", "beschi/writers/swift.py:deserializer", "beschi/writers/zig.py:deserializer", "beschi/writers/c.py:deserializer"]}
{"id": "C22", "title": "Whatever a reader accepts is an encoding", "statement": "If a reader returns a message, the bytes it consumed are the wire encoding of that message, except that a bool may be any non-zero byte; so a reader never invents data.", "quantifier": "all accepted protocols, all byte strings", "why_tests_cant": "Ranges over arbitrary (hostile) input bytes.", "anchors": ["beschi/writers/go.py:deserializer", "beschi/writers/typescript.py:deserializer", "beschi/writers/assemblyscript.py:deserializer", "beschi/writers/csharp.py:deserializer", "beschi/writers/rust.py:deserializer", "beschi/writers/swift.py:deserializer", "beschi/writers/zig.py:deserializer", "beschi/writers/c.py:deserializer"]}
{"id": "C23", "title": "Writers into caller-provided buffers stay inside them", "statement": "C, TypeScript, AssemblyScript: WriteBytes at position p changes only the bytes p..p+size-1, never bytes outside the buffer; if the buffer is too small the call fails; the position afterwards is p+size.", "quantifier": "all protocols, values, buffers, positions", "why_tests_cant": "Memory safety for every position/size combination.", "anchors": ["beschi/writers/boilerplate/C.1.h", "beschi/writers/boilerplate/TypeScript.ts", "beschi/writers/boilerplate/AssemblyScript.ts"]}
{"id": "C24", "title": "A stream of tagged messages is read back in order", "statement": "ProcessRawBytes on the concatenation of any list of tagged messages, followed by end of data or by a zero byte and anything, returns exactly that list in order.", "quantifier": "all accepted protocols, all lists of messages, any length", "why_tests_cant": "Unbounded lists of messages.", "anchors": ["beschi/writers/go.py:generate", "beschi/writers/typescript.py:generate", "beschi/writers/assemblyscript.py:generate", "beschi/writers/csharp.py:generate", "beschi/writers/rust.py:generate", "beschi/writers/swift.py:generate", "beschi/writers/zig.py:generate", "beschi/writers/c.py:generate"]}
{"id": "C25", "title": "The max argument limits how many messages are read", "statement": "ProcessRawBytes with max = n >= 0 returns the first min(n, available) messages and does not look at bytes after them; a negative max means no limit.", "quantifier": "all lists of messages, all max values", "why_tests_cant": "Unbounded lists and integers.", "anchors": ["beschi/writers/go.py:generate", "beschi/writers/typescript.py:generate", "beschi/writers/assemblyscript.py:generate", "beschi/writers/csharp.py:generate", "beschi/writers/rust.py:generate", "beschi/writers/swift.py:generate", "beschi/writers/zig.py:generate", "beschi/writers/c.py:generate"]}
{"id": "C26", "title": "Unknown tags are reported", "statement": "ProcessRawBytes on a stream in which a known-good list of messages is followed by a tag byte that belongs to no message fails instead of returning data.", "quantifier": "all accepted protocols, all tag bytes, all message lists before it", "why_tests_cant": "All byte values and all prefixes.", "anchors": ["beschi/writers/go.py:generate", "beschi/writers/typescript.py:generate", "beschi/writers/assemblyscript.py:generate", "beschi/writers/csharp.py:generate", "beschi/writers/rust.py:generate", "beschi/writers/swift.py:generate", "beschi/writers/zig.py:generate", "beschi/writers/c.py:generate"]}
{"id": "C27", "title": "Pack and Unpack are inverse", "statement": "UnpackMessages(PackMessages(list)) returns list, for every list of messages including the empty one, in every language.", "quantifier": "all accepted protocols, all lists of fewer than 2^31 messages", "why_tests_cant": "Unbounded lists; small and empty lists are corner cases in some runtimes.", "anchors": ["beschi/writers/boilerplate/Go.go", "beschi/writers/boilerplate/TypeScript.ts", "beschi/writers/boilerplate/C.1.h", "beschi/writers/boilerplate/Rust.rs", "beschi/writers/boilerplate/CSharp.1.cs", "beschi/writers/boilerplate/Swift.1.swift", "beschi/writers/boilerplate/Zig.zig", "beschi/writers/boilerplate/AssemblyScript.ts"]}
{"id": "C28", "title": "GetPackedSize is exact", "statement": "GetPackedSize(list) equals the number of bytes PackMessages(list) writes: the sizes of the messages, one tag each, and nine bytes of framing.", "quantifier": "all lists of messages", "why_tests_cant": "Unbounded lists.", "anchors": ["beschi/writers/boilerplate/Go.go", "beschi/writers/boilerplate/TypeScript.ts", "beschi/writers/boilerplate/C.1.h", "beschi/writers/boilerplate/Rust.rs", "beschi/writers/boilerplate/CSharp.1.cs", "beschi/writers/boilerplate/Swift.1.swift", "beschi/writers/boilerplate/Zig.zig", "beschi/writers/boilerplate/AssemblyScript.ts"]}
{"id": "C29", "title": "Damaged packed buffers are rejected", "statement": "UnpackMessages fails when the first four bytes are not 'BSCI', when the count is missing, or when the number of messages in the buffer is smaller than the recorded count.", "quantifier": "all byte strings", "why_tests_cant": "Arbitrary input bytes.", "anchors": ["beschi/writers/boilerplate/Go.go", "beschi/writers/boilerplate/TypeScript.ts", "beschi/writers/boilerplate/C.1.h", "beschi/writers/boilerplate/Rust.rs", "beschi/writers/boilerplate/CSharp.1.cs", "beschi/writers/boilerplate/Swift.1.swift", "beschi/writers/boilerplate/Zig.zig", "beschi/writers/boilerplate/AssemblyScript.ts"]}
{"id": "C30", "title": "Fresh messages are the zero message everywhere", "statement": "A default-constructed message has zero numbers, false, empty strings and lists, and the first listed value of each enum, in every language; so writing it gives the same bytes in all of them.", "quantifier": "all accepted protocols, all messages, all eight languages", "why_tests_cant": "Depends on the protocol (enum whose first value is not zero, nested structs).", "anchors": ["beschi/writers/go.py:get_default_value", "beschi/writers/typescript.py:get_default_value", "beschi/writers/assemblyscript.py:get_default_value", "beschi/writers/csharp.py:get_default_value", "beschi/writers/rust.py:get_default_value", "beschi/writers/swift.py:get_default_value", "beschi/writers/zig.py:get_default_value", "beschi/writers/c.py:get_default_value", "test/08_uninitialized_test.py"]}
{"id": "C31", "title": "Lengths use the configured size types", "statement": "Every list length is stored with list_size_type and every string length (including strings inside lists) with string_size_type, little endian, in every language; in particular the two may differ.", "quantifier": "all pairs of size types, all protocols", "why_tests_cant": "Seven times seven combinations times all protocols; tests have one file, with equal types.", "anchors": ["beschi/protocol.py:Protocol.__init__", "beschi/writers/boilerplate/Zig.zig", "beschi/writers/c.py"]}
{"id": "C32", "title": "Generated identifiers keep distinct members apart", "statement": "Distinct data members of a struct stay distinct in the generated code after the renaming done for the target language (capitalisation in Go, snake case in Rust), and local variables of generated readers never capture a member's value.", "quantifier": "all accepted protocols, all member names", "why_tests_cant": "All pairs of names.", "anchors": ["beschi/writer.py:TextUtil", "beschi/writers/go.py:__init__", "beschi/writers/rust.py:__init__", "beschi/writers/rust.py:deserializer", "beschi/writers/typescript.py:gen_measurement"]}
{"id": "C33", "title": "Generated text is well nested", "statement": "For every accepted protocol the generator finishes with indentation level zero (the assertion at the end of each generate() cannot fail), and never writes a line at negative indentation.", "quantifier": "all accepted protocols, all languages", "why_tests_cant": "Depends on every branch combination the protocol can trigger.", "anchors": ["beschi/writer.py:write_line", "beschi/writers/go.py:generate", "beschi/writers/typescript.py:generate", "beschi/writers/assemblyscript.py:generate", "beschi/writers/csharp.py:generate", "beschi/writers/rust.py:generate", "beschi/writers/swift.py:generate", "beschi/writers/zig.py:generate", "beschi/writers/c.py:generate"]}
{"id": "C34", "title": "The command line tool is all or nothing", "statement": "If anything goes wrong (missing file, unknown language, invalid protocol, generator error) the tool exits with status 1 and neither prints generated code nor touches the output file; otherwise it emits exactly the generated text.", "quantifier": "all argument vectors, all protocol files", "why_tests_cant": "All failure points.", "anchors": ["beschi/cli.py:main"]}
{"id": "C35", "title": "Boilerplate substitution only touches the marked places", "statement": "Boilerplate inserted into the output equals the boilerplate file with the marked names replaced and the indentation converted; whatever the namespace is, no other text changes and replaced text is not replaced again.", "quantifier": "all namespaces and substitution tables", "why_tests_cant": "All strings as namespaces.", "anchors": ["beschi/writer.py:add_boilerplate"]}
{"id": "C36", "title": "Name conversion helpers are stable", "statement": "Converting a name to lower snake case never yields upper-case letters, only ever adds underscores besides changing case, and converting twice is the same as once; capitalising changes at most the first character and is idempotent.", "quantifier": "all identifiers", "why_tests_cant": "All strings.", "anchors": ["beschi/writer.py:TextUtil"]}
{"id": "C37", "title": "Lists and strings up to the size type's maximum work", "statement": "A list or string whose length is representable in its size type round-trips, including the largest length; readers handle every length value found in input without misreading the bytes that follow.", "quantifier": "all size types, all lengths", "why_tests_cant": "Lengths up to 2^63.", "anchors": ["beschi/writers/go.py:deserializer", "beschi/writers/typescript.py:deserializer", "beschi/writers/assemblyscript.py:deserializer", "beschi/writers/csharp.py:deserializer", "beschi/writers/rust.py:deserializer", "beschi/writers/swift.py:deserializer", "beschi/writers/zig.py:deserializer", "beschi/writers/c.py:deserializer"]}
{"id": "C38", "title": "C objects carry consistent lengths", "statement": "After a successful C FromBytes every string and list member's _len field equals its element count, and writing the object back yields the bytes read; a freshly created C message has defined length fields.", "quantifier": "all accepted protocols, all inputs", "why_tests_cant": "All shapes of nesting.", "anchors": ["beschi/writers/c.py:gen_struct", "beschi/writers/c.py:deserializer"]}
{"id": "C39", "title": "C and Zig release everything exactly once", "statement": "Cleaning up a message obtained from a successful read releases each block the read allocated exactly once.", "quantifier": "all accepted protocols, all values", "why_tests_cant": "Nested lists of structs with strings of any depth.", "anchors": ["beschi/writers/c.py:destructor", "beschi/writers/zig.py:destructor"]}
{"id": "C40", "title": "Readers give an answer on every input", "statement": "Whatever bytes a generated reader, ProcessRawBytes or UnpackMessages is given, it returns a value or reports the failure in the language's documented way; it never runs forever, crashes the program or gets into undefined behaviour.", "quantifier": "all accepted protocols, all byte strings, all positions, all eight languages", "why_tests_cant": "Ranges over arbitrary (hostile) input bytes.", "anchors": ["beschi/writers/go.py:deserializer", "beschi/writers/typescript.py:deserializer", "beschi/writers/csharp.py:deserializer", "beschi/writers/rust.py:deserializer", "beschi/writers/swift.py:deserializer", "beschi/writers/zig.py:deserializer", "beschi/writers/c.py:deserializer", "beschi/writers/boilerplate"]}
{"id": "C42", "title": "A fresh C message can be destroyed", "statement": "Calling T_Cleanup or T_Destroy on a message that T_Create has just made releases each of its blocks once and nothing else.", "quantifier": "all accepted protocols, all messages", "why_tests_cant": "Depends on which members the message has; tests fill every message in before they destroy it.", "anchors": ["beschi/writers/c.py:destructor", "beschi/writers/c.py:gen_default", "beschi/writers/c.py:gen_implementation"]}
{"id": "C43", "title": "What a failed C ProcessRawBytes leaves behind can be released", "statement": "When ProcessRawBytes returns an error, calling DestroyMessageList on the list it has filled so far is well defined.", "quantifier": "all accepted protocols, all inputs", "why_tests_cant": "Needs every input that fails, at every point of a message.", "anchors": ["beschi/writers/c.py:generate", "beschi/writers/c.py:destructor"]}
{"id": "C41", "title": "Lists and strings that are too long are never written as something else", "statement": "If a writer completes without error, every list and string in the message has a length that its size type can hold. In particular the writer never stores a wrapped length, from which a reader would read a different message.", "quantifier": "all accepted protocols, all values of the declared types whose lists and strings have any length, all buffers", "why_tests_cant": "Needs lists one longer than each size type can hold, in every position of a message; tests only use short lists.", "anchors": ["beschi/writers/typescript.py:serializer", "beschi/writers/csharp.py:serializer", "beschi/writers/swift.py:serializer", "beschi/writers/rust.py:serializer", "beschi/writers/go.py:serializer", "beschi/writers/assemblyscript.py:serializer", "beschi/writers/zig.py:serializer"]}
{"id": "C44", "title": "Readers only return well-formed text", "statement": "In the languages whose strings are text (TypeScript, C#, Swift, Rust), every string in a message that a reader returns is well-formed UTF-8, whatever bytes it has read.", "quantifier": "all accepted protocols, all inputs and positions", "why_tests_cant": "Tests only read bytes that a writer made from good text; this is about every byte sequence.", "anchors": ["beschi/writers/boilerplate/TypeScript.ts", "beschi/writers/csharp.py:deserializer", "beschi/writers/swift.py:deserializer", "beschi/writers/boilerplate/Rust.rs"]}
{"id": "C45", "title": "The printed readers, writers and measures are the statements for the declared members, in order", "statement": "The file that a generator prints contains, for every declared struct and message in the order of declaration, a reader and a writer whose statements are exactly those for its members in order (and, for messages, a measure), each at its level of indentation, with the numbers of the messages and the enum values as declared; so the printed text is the program whose behaviour the other properties are about, for every protocol and every setting.", "quantifier": "all accepted protocols (for C: with names of members that have no brackets, as names in C do not), all settings of the generator (namespace, indentation, embedded protocol, flags), any boilerplate files", "why_tests_cant": "Tests compile and run the output for a handful of protocols; this compares the printed statements with the meant ones for every protocol.", "anchors": ["beschi/writers/typescript.py:gen_struct", "beschi/writers/csharp.py:gen_struct", "beschi/writers/swift.py:gen_struct", "beschi/writers/rust.py:gen_struct", "beschi/writers/zig.py:gen_struct", "beschi/writers/go.py:gen_struct", "beschi/writers/c.py:gen_struct", "beschi/writers/assemblyscript.py"]}
{"id": "C46", "title": "A failed Zig read leaves no memory behind", "statement": "When fromBytes, processRawBytes or unpackMessages return an error, they have released each block they allocated exactly once.", "quantifier": "all accepted protocols, all inputs", "why_tests_cant": "Needs every input that fails, at every point of a message, and a count of allocations.", "anchors": ["beschi/writers/zig.py:deserializer", "beschi/writers/zig.py:gen_struct", "beschi/writers/zig.py:generate", "beschi/writers/boilerplate/Zig.zig:readList", "beschi/writers/boilerplate/Zig.zig:unpackMessages"]}
{"id": "C47", "title": "A fresh Zig object can be released", "statement": "Calling deinit on an object made with T{} releases no memory and is well defined.", "quantifier": "all accepted protocols, all structs and messages", "why_tests_cant": "Depends on which members the object has, to any depth.", "anchors": ["beschi/writers/zig.py:destructor", "beschi/writers/zig.py:gen_struct"]}
{"id": "C48", "title": "--embed-protocol adds nothing but a comment", "statement": "The text generated with --embed-protocol contains the lines of the protocol file and, apart from comments and empty lines, is the text generated without it.", "quantifier": "all accepted protocols, all texts of the protocol file, all settings, all eight languages", "why_tests_cant": "Depends on every text that a protocol file may hold in its comments.", "anchors": ["beschi/cli.py:main", "beschi/writers/c.py:generate", "beschi/writers/csharp.py:generate", "beschi/writers/go.py:generate", "beschi/writers/rust.py:generate", "beschi/writers/swift.py:generate", "beschi/writers/typescript.py:generate", "beschi/writers/zig.py:generate"]}
{"id": "C49", "title": "A protocol can grow without breaking old data", "statement": "Adding structs, enums, values to an enum whose encoding stays, and messages after the others leaves the bytes of every old value, stream and packed buffer as they are: code for either version, in any language, writes them and reads the values back.", "quantifier": "all pairs of accepted protocols of which one extends the other, all values of the older one, all eight languages on either side", "why_tests_cant": "Ranges over all pairs of versions, all values and all pairs of languages.", "anchors": ["beschi/protocol.py:Protocol", "beschi/protocol.py:Enum", "beschi/writer.py:Writer", "docs/protocols.md"]}
{"id": "C50", "title": "Names are not part of the data", "statement": "Renaming types, members, values of enums and the namespace changes no byte of any encoding: code for either names, in any language, writes the same bytes and reads the corresponding values back.", "quantifier": "all accepted protocols, all renamings whose result is accepted, all values, all eight languages on either side", "why_tests_cant": "Ranges over all renamings, all values and all pairs of languages.", "anchors": ["beschi/protocol.py:Protocol", "beschi/writer.py:Writer", "docs/protocols.md"]}
{"id": "C51", "title": "--indent changes nothing but the indentation", "statement": "With two indentations made of spaces and tabs, the generated texts have the same lines up to the blanks at their starts.", "quantifier": "all protocols, all settings and boilerplate files, all pairs of indentations of spaces and tabs, all eight languages", "why_tests_cant": "Ranges over all indentations and protocols, and the lines that measure nested lists are indented by hand.", "anchors": ["beschi/writer.py:Writer.indent_string", "beschi/writer.py:Writer.add_boilerplate", "beschi/cli.py:main", "beschi/writers/c.py:gen_measurement", "beschi/writers/typescript.py:gen_measurement"]}
{"id": "C52", "title": "The loader drops nothing", "statement": "If the loader accepts a file, the protocol it returns contains every struct, message, enum, member, value and setting that the file declares, in order, and nothing else.", "quantifier": "all parsed TOML documents, all numbers of loader steps", "why_tests_cant": "Ranges over all documents; a dictionary that overwrites an entry or a test that quietly falls through loses declarations without any error.", "anchors": ["beschi/protocol.py:Protocol.__init__", "beschi/protocol.py:Enum.__init__", "beschi/protocol.py:build_struct"]}
{"id": "C53", "title": "The names at the top of a generated file are distinct", "statement": "For every accepted protocol, the text that a writer generates declares each of its top-level names once: the writer's own names and one name for every enum, struct and message (in Go also one for every value, every number of a message and the functions of each type), and no other names.", "quantifier": "all accepted protocols, all namespaces and indentations, all languages (in C, of the types)", "why_tests_cant": "Ranges over all type names; the fixtures never use a name that the boilerplate also declares.", "anchors": ["beschi/writers/typescript.py:generate", "beschi/writers/csharp.py:generate", "beschi/writers/swift.py:generate", "beschi/writers/rust.py:generate", "beschi/writers/zig.py:generate", "beschi/writers/go.py:generate", "beschi/writers/boilerplate", "beschi/protocol.py:RESERVED_WORDS", "beschi/writers/c.py:gen_struct"]}
{"id": "C54", "title": "The printed types declare exactly their members", "statement": "For every accepted protocol, the text that a writer generates opens one type for every struct and message, in the order of declaration, and declares in it exactly one member for every declared member, in order, with its name (converted for Rust and Go), the type that the language has for it, and, where the language writes one, the initial value: zero, nothing, or the first value of an enum.", "quantifier": "all accepted protocols, all namespaces and indentations, all languages", "why_tests_cant": "Ranges over all structs and messages; the fixtures read and write their members but never look at the declarations or the initial values of all combinations of types.", "anchors": ["beschi/writers/typescript.py:gen_struct", "beschi/writers/csharp.py:gen_struct", "beschi/writers/swift.py:gen_struct", "beschi/writers/rust.py:gen_struct", "beschi/writers/zig.py:gen_struct", "beschi/writers/go.py:gen_struct", "beschi/writer.py:Writer.__init__", "beschi/protocol.py:get_default_pair", "beschi/writers/c.py:gen_struct"]}
{"id": "C55", "title": "In C every type is declared before it is used", "statement": "For every accepted protocol, every member that the text for C declares has a type that C or an included header provides, or that the text has declared on an earlier line.", "quantifier": "all accepted protocols, all namespaces and indentations", "why_tests_cant": "Ranges over all orders of the structs in a protocol file; the fixtures declare every struct before the structs that contain it.", "anchors": ["beschi/writers/c.py:gen_struct", "beschi/writers/c.py:generate", "beschi/protocol.py:Protocol", "beschi/writers/boilerplate/C.0.h"]}
{"id": "C56", "title": "Every function that generated C declares is defined once, with the same types", "statement": "For every accepted protocol, the text for C declares a function for every operation of the boilerplate, for the check of every enum and for the operations of every struct and message; it defines each of these functions exactly once, with the same types for its result and parameters as declared, and defines no other function. No two types or functions that it declares have the same name.", "quantifier": "all accepted protocols, all namespaces and indentations", "why_tests_cant": "Ranges over all protocols, all seven string size types and all namespaces; a compiler run sees one generated file, and a function that is declared but never called may stay undefined without an error.", "anchors": ["beschi/writers/c.py:gen_enum", "beschi/writers/c.py:gen_struct", "beschi/writers/c.py:gen_enum_implementation", "beschi/writers/c.py:gen_implementation", "beschi/writers/c.py:generate", "beschi/writers/boilerplate/C.0.h", "beschi/writers/boilerplate/C.1.h"]}
{"id": "C57", "title": "Every message type has the methods that a message must have", "statement": "For every accepted protocol, the text for Go declares the three methods of its interface Message for every message, with the same signatures, and for no other type; the text for Rust implements all functions of its trait MessageCodec for every message and for the enum of all messages; the text for C# overrides the three abstract methods of its class Message in the class of every message; the texts for TypeScript and AssemblyScript do the same with three and four abstract methods, and that for Swift with the five functions of its class Message that are not static. No type gets another method, and no method twice.", "quantifier": "all accepted protocols, all settings without --embed-protocol", "why_tests_cant": "Ranges over all protocols; a Go type that misses a method only fails to compile where it is used as a Message.", "anchors": ["beschi/writers/go.py:gen_struct", "beschi/writers/go.py:generate", "beschi/writers/rust.py:gen_struct", "beschi/writers/rust.py:generate", "beschi/writers/boilerplate/Rust.rs", "beschi/writers/csharp.py:gen_struct", "beschi/writers/csharp.py:generate", "beschi/writers/typescript.py:gen_struct", "beschi/writers/boilerplate/TypeScript.ts", "beschi/writers/boilerplate/AssemblyScript.ts", "beschi/writers/swift.py:gen_struct", "beschi/writers/boilerplate/Swift.0.swift"]}
