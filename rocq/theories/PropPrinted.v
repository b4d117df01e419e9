(** C45: the printed file has the programs that the models of the languages run (text:
    XText.v; programs: X.v; how a program is written: XSyntax.v).

    [g] are the settings: namespace, indentation, embedded protocol, boilerplate files
    with any lines. *)
From Verif Require Import Syntax LangSpec LangSamples LangSampleFacts PropPrintedFacts.
Open Scope string_scope.
Open Scope Z_scope.
Open Scope list_scope.

Example sample_protocol : accepted annotated.
Proof. exact annotated_accepted_proof. Qed.

(** TypeScript: in this order, the numbers of the messages, the choice of the reader in ProcessRawBytes, the enums, and for every struct and message its members with their first values, getSizeInBytes, and the programs of fromBytes and writeBytes. *)
Theorem C45_typescript_printed p g :
  accepted p -> prints (tst_generate p g false) (ts_file p g false).
Proof. exact (typescript_printed p g). Qed.
Print Assumptions C45_typescript_printed.
Example C45_typescript_printed_met :
  nth_error (ts_file annotated {| g_namespace := None; g_tab := "  "; g_embed := false; g_source := ""; g_flag := false; g_files := fun _ => [] |} false) 5 =
  Some [(2, "const nColor = new Color();"); (2, "nColor.red = da.getFloat32();"); (2, "nColor.green = da.getFloat32();");
        (2, "nColor.blue = da.getFloat32();"); (2, "nColor.alpha = da.getFloat32();"); (2, "return nColor;")].
Proof. exact (eq_refl). Qed.

(** AssemblyScript. *)
Theorem C45_assemblyscript_printed p g :
  accepted p -> prints (tst_generate p g true) (ts_file p g true).
Proof. exact (assemblyscript_printed p g). Qed.
Print Assumptions C45_assemblyscript_printed.

(** C#: the numbers of the messages, the enums, and for every struct and message its members with their first values, GetSizeInBytes, and the programs of FromBytes and WriteBytes. *)
Theorem C45_csharp_printed p g :
  accepted p -> prints (cst_generate p g) (cs_file p g).
Proof. exact (csharp_printed p g). Qed.
Print Assumptions C45_csharp_printed.
Example C45_csharp_printed_met :
  nth_error (cs_file annotated {| g_namespace := None; g_tab := "  "; g_embed := false; g_source := ""; g_flag := false; g_files := fun _ => [] |}) 4 =
  Some [(1, "public static Color FromBytes(BinaryReader br)"); (1, "{"); (2, "Color _nColor = new Color();");
        (2, "_nColor.red = br.ReadSingle();"); (2, "_nColor.green = br.ReadSingle();"); (2, "_nColor.blue = br.ReadSingle();");
        (2, "_nColor.alpha = br.ReadSingle();"); (2, "return _nColor;"); (1, "}")].
Proof. exact (eq_refl). Qed.

(** Swift: the numbers of the messages, the choice of the reader in ProcessRawBytes, the enums, and for every struct and message its members with their first values, GetSizeInBytes, and the programs of FromBytes and WriteBytes. *)
Theorem C45_swift_printed p g :
  accepted p -> prints (swt_generate p g) (sw_file p g).
Proof. exact (swift_printed p g). Qed.
Print Assumptions C45_swift_printed.
Example C45_swift_printed_met :
  nth_error (sw_file annotated {| g_namespace := None; g_tab := "  "; g_embed := false; g_source := ""; g_flag := false; g_files := fun _ => [] |}) 5 =
  Some [(1, "static func FromBytes(dataReader: DataReader) throws -> Self {"); (2, "var nColor = Self.init()"); (2, "nColor.red = try dataReader.GetFloat32()");
        (2, "nColor.green = try dataReader.GetFloat32()"); (2, "nColor.blue = try dataReader.GetFloat32()");
        (2, "nColor.alpha = try dataReader.GetFloat32()"); (2, "return nColor"); (1, "}")].
Proof. exact (eq_refl). Qed.

(** Rust: the numbers of the messages and the choices by message, the enums, and for every struct and message its members, get_size_in_bytes, from_bytes and write_bytes; with and without the renaming of the members. *)
Theorem C45_rust_printed rename p g :
  accepted p -> prints (rst_generate (rs_protocol rename p) g) (rs_file (rs_protocol rename p) g).
Proof. exact (rust_printed rename p g). Qed.
Print Assumptions C45_rust_printed.
Example C45_rust_printed_met :
  nth_error (rs_file annotated {| g_namespace := None; g_tab := "  "; g_embed := false; g_source := ""; g_flag := false; g_files := fun _ => [] |}) 10 =
  Some [(1, "fn from_bytes(reader: &mut BufferReader) -> Result<Color, BeschiError> {"); (2, "let red = reader.read_f32()?;");
        (2, "let green = reader.read_f32()?;"); (2, "let blue = reader.read_f32()?;"); (2, "let alpha = reader.read_f32()?;");
        (2, "Ok(Color {red, green, blue, alpha})"); (1, "}")].
Proof. exact (eq_refl). Qed.

(** Zig: MessageType, the union and the choices by message, the enums, and for every struct and message its members with their first values, getSizeInBytes, fromBytes and writeBytes. *)
Theorem C45_zig_printed p g :
  accepted p -> prints (zgt_generate p g) (zig_file p g).
Proof. exact (zig_printed p g). Qed.
Print Assumptions C45_zig_printed.
Example C45_zig_printed_met :
  nth_error (zig_file annotated {| g_namespace := None; g_tab := "  "; g_embed := false; g_source := ""; g_flag := false; g_files := fun _ => [] |}) 9 =
  Some [(1, "pub fn fromBytes(offset: usize, buffer: []const u8) !struct { value: Color, bytes_read: usize } {");
        (2, "const Color_red = (try readNumber(f32, offset + 0, buffer)).value;");
        (2, "const Color_green = (try readNumber(f32, offset + 4, buffer)).value;");
        (2, "const Color_blue = (try readNumber(f32, offset + 8, buffer)).value;");
        (2, "const Color_alpha = (try readNumber(f32, offset + 12, buffer)).value;");
        (2, "return .{ .value = Color{"); (3, ".red = Color_red,"); (3, ".green = Color_green,"); (3, ".blue = Color_blue,");
        (3, ".alpha = Color_alpha,"); (2, "}, .bytes_read = 16 };"); (1, "}")].
Proof. exact (eq_refl). Qed.

(** Go: MessageType, ProcessRawBytes, the enums with isValid, and for every struct and message its members, NewDefault, GetMessageType, GetSizeInBytes, FromBytes and WriteBytes; with and without the renaming of the members. *)
Theorem C45_go_printed rename p g :
  accepted p -> prints (got_generate (go_protocol rename p) g) (go_file (go_protocol rename p) g).
Proof. exact (go_printed rename p g). Qed.
Print Assumptions C45_go_printed.
Example C45_go_printed_met :
  nth_error (go_file (go_protocol true annotated) {| g_namespace := None; g_tab := "  "; g_embed := false; g_source := ""; g_flag := false; g_files := fun _ => [] |}) 11 =
  Some [(0, "func (output Spectrum) WriteBytes(data io.Writer) {");
        (1, "binary.Write(data, binary.LittleEndian, &output.DefaultColor)");
        (1, "Colors_Len := (uint16)(len(output.Colors))");
        (1, "binary.Write(data, binary.LittleEndian, Colors_Len)");
        (1, "for i1 := (uint16)(0); i1 < Colors_Len; i1++ {");
        (2, "binary.Write(data, binary.LittleEndian, &output.Colors[i1])"); (1, "}"); (0, "}")].
Proof. exact (eq_refl). Qed.

(** C: the numbers of the messages, the enums, the members of structs and messages, the functions for any message, IsValid, and for every struct and message its first values, GetSizeInBytes, Create, Cleanup, Destroy, FromBytes and WriteBytes.  A name with a bracket is no name in C. *)
Theorem C45_c_printed p g :
  accepted p -> no_brackets p -> prints (ct_generate p g) (c_file p g).
Proof. exact (c_printed p g). Qed.
Print Assumptions C45_c_printed.
Example C45_c_printed_met :
  no_brackets annotated /\
  nth_error (c_file annotated {| g_namespace := None; g_tab := "  "; g_embed := false; g_source := ""; g_flag := false; g_files := fun _ => [] |}) 33 =
  Some [(0, "void beschi_NewCharacterMessage_Cleanup(beschi_NewCharacterMessage *m) {"); (1, "BESCHI_FREE(m->characterName);");
        (1, "for (uint16_t i1 = 0; i1 < m->nicknames_len; i1++) {"); (2, "BESCHI_FREE(m->nicknames[i1]);"); (1, "}");
        (1, "BESCHI_FREE(m->nicknames_els_len);"); (1, "BESCHI_FREE(m->nicknames);"); (0, "}")].
Proof. exact (conj annotated_plain eq_refl). Qed.

(** With brackets in names: the length of a string named x[i3] is read into x_els_len[i3]. *)
Theorem C45_c_brackets_refuted :
  exists p g, accepted p /\ ~ prints (ct_generate p g) (c_file p g).
Proof. exact (c_brackets). Qed.
Print Assumptions C45_c_brackets_refuted.
