(** C57: every message type has the methods that all messages must have (models: Lines.v, GoText.v, RustText.v, CSharpText.v, TypeScriptText.v, SwiftText.v, Cli.v; specifications: GoMethodSpec.v, RustMethodSpec.v, CSharpMethodSpec.v, TypeScriptMethodSpec.v, SwiftMethodSpec.v). *)
From Verif Require Import TopSpec GoMethodSpec RustMethodSpec CSharpMethodSpec TypeScriptMethodSpec SwiftMethodSpec PropTopFacts LangSampleFacts PropMethodFacts.
Open Scope string_scope.
Open Scope Z_scope.
Open Scope list_scope.

(** The text for Go has one interface, Message, with three methods. Its functions with a receiver are one
    WriteBytes for every struct, and the three methods of the interface for every message, in the order of
    declaration, and no others. The names of the types are words; no --embed-protocol. *)
Theorem C57_go_methods_partial p g parts :
  accepted p -> usual "go" g -> word_types p ->
  (go_file_methods p g parts <-> parts = go_method_parts p).
Proof. exact (go_methods_exactly p g parts). Qed.
Print Assumptions C57_go_methods_partial.
Example C57_go_methods_partial_met :
  accepted annotated /\ usual "go" (plain_settings "go" None) /\ word_types annotated /\
  go_method_parts annotated =
  [Demands "Message" "GetMessageType() MessageType"; Demands "Message" "WriteBytes(data io.Writer, tag bool)";
   Demands "Message" "GetSizeInBytes() int";
   Offers "Color" "WriteBytes(data io.Writer)"; Offers "Spectrum" "WriteBytes(data io.Writer)";
   Offers "Vector3Message" "GetMessageType() MessageType"; Offers "Vector3Message" "GetSizeInBytes() int";
   Offers "Vector3Message" "WriteBytes(data io.Writer, tag bool)";
   Offers "NewCharacterMessage" "GetMessageType() MessageType"; Offers "NewCharacterMessage" "GetSizeInBytes() int";
   Offers "NewCharacterMessage" "WriteBytes(data io.Writer, tag bool)";
   Offers "CharacterJoinedTeam" "GetMessageType() MessageType"; Offers "CharacterJoinedTeam" "GetSizeInBytes() int";
   Offers "CharacterJoinedTeam" "WriteBytes(data io.Writer, tag bool)"].
Proof. exact (annotated_methods). Qed.

(** A type implements the interface of the text for Go if and only if it is a message. *)
Theorem C57_go_implements_partial p g parts t i :
  accepted p -> usual "go" g -> word_types p -> go_file_methods p g parts -> is_demanded parts i ->
  (implements parts t i <-> In t (map fst (p_messages p))).
Proof. exact (go_implements p g parts t i). Qed.
Print Assumptions C57_go_implements_partial.
Example C57_go_implements_partial_met :
  is_demanded (go_method_parts annotated) "Message".
Proof. exact (ex_intro _ "GetMessageType() MessageType" (or_introl eq_refl)). Qed.

(** No method is declared twice for one type. *)
Theorem C57_go_once_partial p g parts :
  accepted p -> usual "go" g -> word_types p -> go_file_methods p g parts -> NoDup (flat_map offered parts).
Proof. exact (go_offered_once p g parts). Qed.
Print Assumptions C57_go_once_partial.
Example C57_go_once_partial_met :
  accepted annotated /\ usual "go" (plain_settings "go" None) /\ word_types annotated.
Proof. exact (conj (proj1 annotated_methods) (conj (proj1 (proj2 annotated_methods)) (proj1 (proj2 (proj2 annotated_methods))))). Qed.

(** The trait MessageCodec of the text for Rust lists four functions, and its implementations, one for the enum
    Message and one for every message, consist of these four. No --embed-protocol. *)
Theorem C57_rust_methods_partial p g parts :
  accepted p -> usual "rust" g -> (rust_file_methods p g parts <-> parts = rust_method_parts p).
Proof. exact (rust_methods_exactly p g parts). Qed.
Print Assumptions C57_rust_methods_partial.
Example C57_rust_methods_partial_met :
  accepted annotated /\ usual "rust" (plain_settings "rust" None) /\
  flat_map offered (rust_method_parts annotated) =
  [("Message", "get_message_type"); ("Message", "get_size_in_bytes"); ("Message", "from_bytes"); ("Message", "write_bytes");
   ("Vector3Message", "get_message_type"); ("Vector3Message", "get_size_in_bytes"); ("Vector3Message", "from_bytes");
   ("Vector3Message", "write_bytes");
   ("NewCharacterMessage", "get_message_type"); ("NewCharacterMessage", "get_size_in_bytes"); ("NewCharacterMessage", "from_bytes");
   ("NewCharacterMessage", "write_bytes");
   ("CharacterJoinedTeam", "get_message_type"); ("CharacterJoinedTeam", "get_size_in_bytes"); ("CharacterJoinedTeam", "from_bytes");
   ("CharacterJoinedTeam", "write_bytes")].
Proof. exact (annotated_codec). Qed.

(** A type implements the trait if and only if it is a message, or the enum Message. *)
Theorem C57_rust_implements_partial p g parts t i :
  accepted p -> usual "rust" g -> rust_file_methods p g parts -> is_demanded parts i ->
  (implements parts t i <-> In t ("Message" :: map fst (p_messages p))).
Proof. exact (rust_implements p g parts t i). Qed.
Print Assumptions C57_rust_implements_partial.
Example C57_rust_implements_partial_met :
  is_demanded (rust_method_parts annotated) "MessageCodec".
Proof. exact (ex_intro _ "get_message_type" (or_introl eq_refl)). Qed.

(** The class Message of the text for C# has three abstract methods. The classes derived from it are those of
    the messages, and they override these three and nothing else. No type is called override; no --embed-protocol. *)
Theorem C57_csharp_methods_partial p g parts :
  accepted p -> usual "csharp" g -> ~ In "override" (types_in_order p) ->
  (csharp_file_methods p g parts <-> parts = csharp_method_parts p).
Proof. exact (csharp_methods_exactly p g parts). Qed.
Print Assumptions C57_csharp_methods_partial.
Example C57_csharp_methods_partial_met :
  accepted annotated /\ usual "csharp" (plain_settings "csharp" None) /\
  ~ In "override" (types_in_order annotated) /\
  csharp_method_parts annotated =
  [Demands "Message" "MessageType GetMessageType()"; Demands "Message" "void WriteBytes(BinaryWriter bw, bool tag)"; Demands "Message" "int GetSizeInBytes()";
   Offers "Vector3Message" "MessageType GetMessageType()"; Offers "Vector3Message" "int GetSizeInBytes()"; Offers "Vector3Message" "void WriteBytes(BinaryWriter bw, bool tag)";
   Offers "NewCharacterMessage" "MessageType GetMessageType()"; Offers "NewCharacterMessage" "int GetSizeInBytes()"; Offers "NewCharacterMessage" "void WriteBytes(BinaryWriter bw, bool tag)";
   Offers "CharacterJoinedTeam" "MessageType GetMessageType()"; Offers "CharacterJoinedTeam" "int GetSizeInBytes()"; Offers "CharacterJoinedTeam" "void WriteBytes(BinaryWriter bw, bool tag)"].
Proof. exact (annotated_overrides). Qed.

(** A type overrides all that is abstract if and only if it is a message. *)
Theorem C57_csharp_implements_partial p g parts t i :
  accepted p -> usual "csharp" g -> ~ In "override" (types_in_order p) -> csharp_file_methods p g parts -> is_demanded parts i ->
  (implements parts t i <-> In t (map fst (p_messages p))).
Proof. exact (csharp_implements p g parts t i). Qed.
Print Assumptions C57_csharp_implements_partial.
Example C57_csharp_implements_partial_met :
  is_demanded (csharp_method_parts annotated) "Message".
Proof. exact (ex_intro _ "MessageType GetMessageType()" (or_introl eq_refl)). Qed.

(** The text for Rust implements no function twice for one type if and only if no message is called Message. *)
Theorem C57_rust_once_partial p g parts :
  accepted p -> usual "rust" g -> rust_file_methods p g parts ->
  (NoDup parts <-> ~ In "Message" (map fst (p_messages p))).
Proof. exact (rust_once_iff p g parts). Qed.
Print Assumptions C57_rust_once_partial.
Example C57_rust_once_partial_met :
  accepted annotated /\ usual "rust" (plain_settings "rust" None) /\
  flat_map offered (rust_method_parts annotated) =
  [("Message", "get_message_type"); ("Message", "get_size_in_bytes"); ("Message", "from_bytes"); ("Message", "write_bytes");
   ("Vector3Message", "get_message_type"); ("Vector3Message", "get_size_in_bytes"); ("Vector3Message", "from_bytes");
   ("Vector3Message", "write_bytes");
   ("NewCharacterMessage", "get_message_type"); ("NewCharacterMessage", "get_size_in_bytes"); ("NewCharacterMessage", "from_bytes");
   ("NewCharacterMessage", "write_bytes");
   ("CharacterJoinedTeam", "get_message_type"); ("CharacterJoinedTeam", "get_size_in_bytes"); ("CharacterJoinedTeam", "from_bytes");
   ("CharacterJoinedTeam", "write_bytes")].
Proof. exact (annotated_codec). Qed.

(** A message called Message is accepted; Rust then implements every function of the trait twice for it. *)
Theorem C57_rust_once_refuted :
  exists p g parts, accepted p /\ usual "rust" g /\ word_types p /\ rust_file_methods p g parts /\
  ~ NoDup (flat_map offered parts).
Proof. exact (rust_message_twice). Qed.
Print Assumptions C57_rust_once_refuted.

(** The text for C# overrides no method twice in one class. *)
Theorem C57_csharp_once_partial p g parts :
  accepted p -> usual "csharp" g -> ~ In "override" (types_in_order p) -> csharp_file_methods p g parts -> NoDup parts.
Proof. exact (csharp_once p g parts). Qed.
Print Assumptions C57_csharp_once_partial.
Example C57_csharp_once_partial_met :
  accepted annotated /\ usual "csharp" (plain_settings "csharp" None) /\
  ~ In "override" (types_in_order annotated) /\
  csharp_method_parts annotated =
  [Demands "Message" "MessageType GetMessageType()"; Demands "Message" "void WriteBytes(BinaryWriter bw, bool tag)"; Demands "Message" "int GetSizeInBytes()";
   Offers "Vector3Message" "MessageType GetMessageType()"; Offers "Vector3Message" "int GetSizeInBytes()"; Offers "Vector3Message" "void WriteBytes(BinaryWriter bw, bool tag)";
   Offers "NewCharacterMessage" "MessageType GetMessageType()"; Offers "NewCharacterMessage" "int GetSizeInBytes()"; Offers "NewCharacterMessage" "void WriteBytes(BinaryWriter bw, bool tag)";
   Offers "CharacterJoinedTeam" "MessageType GetMessageType()"; Offers "CharacterJoinedTeam" "int GetSizeInBytes()"; Offers "CharacterJoinedTeam" "void WriteBytes(BinaryWriter bw, bool tag)"].
Proof. exact (annotated_overrides). Qed.

(** A type called override is accepted; a member of this type is then read as an override. *)
Theorem C57_csharp_override_refuted :
  exists p g parts, accepted p /\ usual "csharp" g /\ word_types p /\ csharp_file_methods p g parts /\
  In (Offers "Pair" "first = override.x;") parts.
Proof. exact (csharp_override_type). Qed.
Print Assumptions C57_csharp_override_refuted.

(** The class Message of the text for TypeScript has three abstract methods, that for AssemblyScript four. The
    classes that extend it are those of the messages, and they have these methods and, but for static ones, no others.
    No name of a member has a parenthesis; no --embed-protocol. *)
Theorem C57_typescript_methods_partial lang p g parts :
  In lang ts_writers -> accepted p -> usual lang g -> no_parentheses p ->
  (ts_file_methods lang p g parts <-> parts = ts_method_parts lang p).
Proof. exact (ts_methods_exactly lang p g parts). Qed.
Print Assumptions C57_typescript_methods_partial.
Example C57_typescript_methods_partial_met :
  accepted annotated /\ usual "assemblyscript" (plain_settings "assemblyscript" None) /\ no_parentheses annotated /\
  ts_method_parts "assemblyscript" annotated =
  [Demands "Message" "getMessageType"; Demands "Message" "writeBytes"; Demands "Message" "writeBytesDA"; Demands "Message" "getSizeInBytes";
   Offers "Vector3Message" "getMessageType"; Offers "Vector3Message" "getSizeInBytes"; Offers "Vector3Message" "writeBytes";
   Offers "Vector3Message" "writeBytesDA";
   Offers "NewCharacterMessage" "getMessageType"; Offers "NewCharacterMessage" "getSizeInBytes"; Offers "NewCharacterMessage" "writeBytes";
   Offers "NewCharacterMessage" "writeBytesDA";
   Offers "CharacterJoinedTeam" "getMessageType"; Offers "CharacterJoinedTeam" "getSizeInBytes"; Offers "CharacterJoinedTeam" "writeBytes";
   Offers "CharacterJoinedTeam" "writeBytesDA"].
Proof. exact (annotated_calls). Qed.

(** A type has all that is abstract if and only if it is a message. *)
Theorem C57_typescript_implements_partial lang p g parts t i :
  In lang ts_writers -> accepted p -> usual lang g -> no_parentheses p -> ts_file_methods lang p g parts -> is_demanded parts i ->
  (implements parts t i <-> In t (map fst (p_messages p))).
Proof. exact (ts_implements lang p g parts t i). Qed.
Print Assumptions C57_typescript_implements_partial.
Example C57_typescript_implements_partial_met :
  is_demanded (ts_method_parts "typescript" annotated) "Message".
Proof. exact (ex_intro _ "getMessageType" (or_introl eq_refl)). Qed.

(** No method stands twice in one class. *)
Theorem C57_typescript_once_partial lang p g parts :
  In lang ts_writers -> accepted p -> usual lang g -> no_parentheses p -> ts_file_methods lang p g parts -> NoDup parts.
Proof. exact (ts_once lang p g parts). Qed.
Print Assumptions C57_typescript_once_partial.
Example C57_typescript_once_partial_met :
  accepted annotated /\ usual "assemblyscript" (plain_settings "assemblyscript" None) /\ no_parentheses annotated /\
  ts_method_parts "assemblyscript" annotated =
  [Demands "Message" "getMessageType"; Demands "Message" "writeBytes"; Demands "Message" "writeBytesDA"; Demands "Message" "getSizeInBytes";
   Offers "Vector3Message" "getMessageType"; Offers "Vector3Message" "getSizeInBytes"; Offers "Vector3Message" "writeBytes";
   Offers "Vector3Message" "writeBytesDA";
   Offers "NewCharacterMessage" "getMessageType"; Offers "NewCharacterMessage" "getSizeInBytes"; Offers "NewCharacterMessage" "writeBytes";
   Offers "NewCharacterMessage" "writeBytesDA";
   Offers "CharacterJoinedTeam" "getMessageType"; Offers "CharacterJoinedTeam" "getSizeInBytes"; Offers "CharacterJoinedTeam" "writeBytes";
   Offers "CharacterJoinedTeam" "writeBytesDA"].
Proof. exact (annotated_calls). Qed.

(** A member called f(x is accepted; it is then read as a method f. *)
Theorem C57_typescript_parenthesis_refuted lang :
  In lang ts_writers -> exists p g parts, accepted p /\ usual lang g /\ ts_file_methods lang p g parts /\
  In (Offers "Note" "f") parts.
Proof. exact (ts_opening lang). Qed.
Print Assumptions C57_typescript_parenthesis_refuted.
Example C57_typescript_parenthesis_refuted_met :
  In "typescript" ts_writers.
Proof. exact (or_introl eq_refl). Qed.

(** The class Message of the text for Swift has five functions that can be overridden. The classes derived from it
    are those of the messages, and they override these five, with the same signatures, and nothing else.
    No --embed-protocol. *)
Theorem C57_swift_methods_partial p g parts :
  accepted p -> usual "swift" g -> (swift_file_methods p g parts <-> parts = swift_method_parts p).
Proof. exact (swift_methods_exactly p g parts). Qed.
Print Assumptions C57_swift_methods_partial.
Example C57_swift_methods_partial_met :
  accepted (two_types "Item" "Note") /\ usual "swift" (plain_settings "swift" None) /\
  swift_method_parts (two_types "Item" "Note") =
  [Demands "Message" "func GetMessageType() -> MessageType";
   Demands "Message" "func WriteBytes(data: NSMutableData, tag: Bool) -> Void";
   Demands "Message" "func GetSizeInBytes() -> UInt32";
   Demands "Message" "class func FromBytes(_ fromData: Data) throws -> Self";
   Demands "Message" "class func FromBytes(dataReader: DataReader) throws -> Self";
   Offers "Note" "func GetMessageType() -> MessageType";
   Offers "Note" "func GetSizeInBytes() -> UInt32";
   Offers "Note" "class func FromBytes(_ fromData: Data) throws -> Self";
   Offers "Note" "class func FromBytes(dataReader: DataReader) throws -> Self";
   Offers "Note" "func WriteBytes(data: NSMutableData, tag: Bool) -> Void"].
Proof. exact (note_functions). Qed.

(** A type overrides all of them if and only if it is a message. *)
Theorem C57_swift_implements_partial p g parts t i :
  accepted p -> usual "swift" g -> swift_file_methods p g parts -> is_demanded parts i ->
  (implements parts t i <-> In t (map fst (p_messages p))).
Proof. exact (swift_implements p g parts t i). Qed.
Print Assumptions C57_swift_implements_partial.
Example C57_swift_implements_partial_met :
  is_demanded (swift_method_parts annotated) "Message".
Proof. exact (ex_intro _ "func GetMessageType() -> MessageType" (or_introl eq_refl)). Qed.

(** No function is overridden twice in one class. *)
Theorem C57_swift_once_partial p g parts :
  accepted p -> usual "swift" g -> swift_file_methods p g parts -> NoDup parts.
Proof. exact (swift_once p g parts). Qed.
Print Assumptions C57_swift_once_partial.
Example C57_swift_once_partial_met :
  accepted (two_types "Item" "Note") /\ usual "swift" (plain_settings "swift" None) /\
  swift_method_parts (two_types "Item" "Note") =
  [Demands "Message" "func GetMessageType() -> MessageType";
   Demands "Message" "func WriteBytes(data: NSMutableData, tag: Bool) -> Void";
   Demands "Message" "func GetSizeInBytes() -> UInt32";
   Demands "Message" "class func FromBytes(_ fromData: Data) throws -> Self";
   Demands "Message" "class func FromBytes(dataReader: DataReader) throws -> Self";
   Offers "Note" "func GetMessageType() -> MessageType";
   Offers "Note" "func GetSizeInBytes() -> UInt32";
   Offers "Note" "class func FromBytes(_ fromData: Data) throws -> Self";
   Offers "Note" "class func FromBytes(dataReader: DataReader) throws -> Self";
   Offers "Note" "func WriteBytes(data: NSMutableData, tag: Bool) -> Void"].
Proof. exact (note_functions). Qed.
