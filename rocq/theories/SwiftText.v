(** Model of the text that beschi/writers/swift.py prints.

    The statements inside the generated methods are modelled a second time, as
    programs, in Swift.v; PropPrinted.v shows that this text is the text of those
    programs. *)
From Verif Require Export Lines Swift.
Open Scope string_scope.
Open Scope Z_scope.
Open Scope list_scope.

(** swift.py:29-41, base_defaults, as text. *)
Definition swt_defaults : list (string * string) :=
  [("byte", "0"); ("bool", "false"); ("uint16", "0"); ("int16", "0"); ("uint32", "0"); ("int32", "0");
   ("uint64", "0"); ("int64", "0"); ("float", "0.0"); ("double", "0.0"); ("string", """""")].

Section Text.
Variable p : protocol.
Variable g : settings.
Let tab := g_tab g.
(** [self.protocol.namespace != None] *)
Let some_namespace : bool := match g_namespace g with Some _ => true | None => false end.

(** swift.py:17-28, type_mapping. *)
Definition swt_types : string -> ptext := mapping p (("string", "String") :: sw_types).
Let types := swt_types.
(** [self.type_mapping[t].lower()] *)
Definition swt_lowered (t : string) : ptext := x <- types t ;; Ret (lower x).
Let lowered := swt_lowered.

(** swift.py:43-75, deserializer. *)
Definition swt_deserializer_with (rec : var -> string -> gtext) (m : var) (accessor : string) : gtext :=
  (if (v_list m) then
     block [
       line [| "let "; v_name m; "_Length = try dataReader.Get"; types (p_list_size_type p); "()" |];
       line [| accessor; v_name m; " = []" |];
       line [| "for _ in 0..<"; v_name m; "_Length {" |];
       indent;
       (if mem (v_type m) (p_enums p) then
          given (get_enum p (v_type m)) (fun e =>
            block [
              line [| "let _"; v_name m; "Read = try dataReader.Get"; types (e_encoding e); "()" |];
              line [| "guard let _"; v_name m; "_el = "; v_type m; "(rawValue: _"; v_name m; "Read) else {" |];
              indent;
              line "throw DataReaderError.InvalidData";
              dedent;
              line "}"])
        else (let inner := MkVar ("let _" +++ v_name m +++ "_el") (v_type m) false in
           rec inner ""));
       line [| accessor; v_name m; ".append(_"; v_name m; "_el)" |];
       dedent;
       line "}"]
   else if (mem (v_type m) NUMERIC_TYPE_SIZES) || (String.eqb (v_type m) "string") then
     line [| accessor; v_name m; " = try dataReader.Get"; types (v_type m); "()" |]
   else if mem (v_type m) (p_enums p) then
     given (get_enum p (v_type m)) (fun e =>
       block [
         line [| "let _"; v_name m; "Read = try dataReader.Get"; types (e_encoding e); "()" |];
         line [| "guard let _"; v_name m; " = "; v_type m; "(rawValue: _"; v_name m; "Read) else {" |];
         indent;
         line "throw DataReaderError.InvalidData";
         dedent;
         line "}";
         line [| accessor; v_name m; " = _"; v_name m |]])
   else line [| accessor; v_name m; " = try "; v_type m; ".FromBytes(dataReader: dataReader)" |]).
Definition swt_deserializer : var -> string -> gtext := swt_deserializer_with (swt_deserializer_with no_more).

(** swift.py:77-92, serializer. *)
Definition swt_serializer_with (rec : var -> string -> gtext) (m : var) (accessor : string) : gtext :=
  (if (v_list m) then
     block [
       line [| "dataWriter.Write("; lowered (p_list_size_type p); ": ";
               types (p_list_size_type p); "("; accessor; v_name m; ".count))" |];
       line [| "for el in "; accessor; v_name m; " {" |];
       indent;
       (let inner := (MkVar "el" (v_type m) false) in block [rec inner ""; dedent; line "}"])]
   else if (mem (v_type m) NUMERIC_TYPE_SIZES) || (String.eqb (v_type m) "string") then
     line [| "dataWriter.Write("; lowered (v_type m); ": "; accessor; v_name m;
             ")" |]
   else if mem (v_type m) (p_enums p) then
     given (get_enum p (v_type m)) (fun e =>
       line [| "dataWriter.Write("; lowered (e_encoding e); ": "; accessor; v_name m;
               ".rawValue)" |])
   else line [| accessor; v_name m; ".WriteBytes(dataWriter)" |]).
Definition swt_serializer : var -> string -> gtext := swt_serializer_with (swt_serializer_with no_more).

(** swift.py:94-133, gen_measurement: the lines and the accumulated constant.  First
    the loop over the members; [rec] is the recursive call. *)
Definition swt_size_init : string := "var size = 0".
Fixpoint swt_measure_members (rec : struct -> string -> pyres (list string * Z)) (accessor : string)
         (ms : list var) (lines : list string) (accum : Z) : pyres (list string * Z) :=
  match ms with
  | [] => Ret (lines, accum)
  | m :: r =>
      let next := swt_measure_members rec accessor r in
      if v_list m then
        a <- numeric_size (p_list_size_type p) ;;
        let accum := accum + a in
        if is_simple p (v_type m) then
          l <- [| "size += "; accessor; v_name m; ".count * "; str_of (get_size_of p (v_type m)) |] ;;
          next (lines ++ [l]) accum
        else if String.eqb (v_type m) "string" then
          l1 <- [| "for s in "; accessor; v_name m; " {" |] ;;
          l2 <- [| tab; "size += "; str_of (numeric_size (p_string_size_type p));
                   " + s.data(using: String.Encoding.utf8)!.count" |] ;;
          next (lines ++ [l1; l2; "}"]) accum
        else
          l <- [| "for "; v_name m; "_el in "; accessor; v_name m; " {" |] ;;
          s <- get_struct p (v_type m) ;;
          c <- rec s (v_name m +++ "_el.") ;;
          clines <- drop_first_if swt_size_init (fst c) ;;
          l' <- [| "size += "; str_of_Z (snd c) |] ;;
          next (lines ++ [l] ++ map (fun l => tab +++ l) (clines ++ [l']) ++ ["}"]) accum
      else if is_simple p (v_type m) then
        a <- get_size_of p (v_type m) ;; next lines (accum + a)
      else if String.eqb (v_type m) "string" then
        a <- numeric_size (p_string_size_type p) ;;
        l <- [| "size += "; accessor; v_name m; ".data(using: String.Encoding.utf8)!.count" |] ;;
        next (lines ++ [l]) (accum + a)
      else
        s <- get_struct p (v_type m) ;;
        c <- rec s (accessor +++ v_name m +++ ".") ;;
        clines <- drop_first_if swt_size_init (fst c) ;;
        next (lines ++ clines) (accum + snd c)
  end.
(** [d] bounds the nesting of structs. *)
Fixpoint swt_measure (d : nat) (s : struct) (accessor : string) : pyres (list string * Z) :=
  match d with
  | O => OutOfSteps
  | S d' =>
      if is_simple p (s_name s) then
        l <- [| "return "; str_of (get_size_of p (s_name s)); ";" |] ;; Ret ([l], 0)
      else swt_measure_members (swt_measure d') accessor (s_members s) [swt_size_init] 0
  end.
Definition swt_gen_measurement : struct -> string -> pyres (list string * Z) := swt_measure (depth_of p).

(** swift.py:135-142, gen_enum. *)
Definition swt_gen_enum (ename : string) (e : enum) : gtext :=
  block [
    line [| "public enum "; ename; ": "; types (e_encoding e); " {" |];
    indent;
    each (e_values e) (fun '(v, vi) => line [| "case "; v; " = "; str_of_Z vi |]);
    dedent;
    line "}";
    blank].

(** swift.py:144-231, gen_struct. *)
Definition swt_gen_struct (sname : string) (s : struct) : gtext :=
  block [
    (if (s_is_message s) then
       line [| "public class "; sname; ": Message {" |]
     else line [| "public struct "; sname; " {" |]);
    indent;
    each (s_members s) (fun m =>
      (if (v_list m) then
         line [| "public var "; v_name m; ": ["; types (v_type m); "] = []" |]
       else given (match lookup (v_type m) swt_defaults with
                   | Some d => lit d
                   | None => if mem (v_type m) (p_enums p) then
                               e <- get_enum p (v_type m) ;; [| v_type m; "."; default_name e |]
                             else [| v_type m; "()" |]
                   end) (fun default_value =>
           line [| "public var "; v_name m; ": "; types (v_type m);
                   (if String.eqb default_value "" then lit "" else [| " = "; default_value |]) |])));
    blank;
    (if (s_is_message s) then line "public required override init() {}" else line "public init() {}");
    blank;
    (if (s_is_message s) then
       block [
         line "public override func GetMessageType() -> MessageType {";
         indent;
         line [| "return MessageType."; sname; "Type" |];
         dedent;
         line "}";
         blank;
         line "public override func GetSizeInBytes() -> UInt32 {";
         indent;
         given (swt_gen_measurement s "self.") (fun '(measure_lines, accumulator) =>
           block [
             each measure_lines (fun s => line s);
             when (accumulator >? 0) (line [| "size += "; str_of_Z accumulator; ";" |]);
             when (Z.of_nat (List.length measure_lines) >? 1) (line [| "return UInt32(size)" |]);
             dedent;
             line "}";
             blank;
             line [| "public override class func FromBytes(_ fromData: Data) throws -> Self {" |];
             indent;
             line "let dr = DataReader(fromData: fromData)";
             line "return try FromBytes(dataReader: dr)";
             dedent;
             line "}";
             blank;
             line [| "override class func FromBytes(dataReader: DataReader) throws -> Self {" |];
             indent])]
     else block [line [| "static func FromBytes(dataReader: DataReader) throws -> Self {" |]; indent]);
    (let decl := if (Z.of_nat (List.length (s_members s)) =? 0) || s_is_message s then "let" else "var" in
     block [
        line [| decl; " n"; sname; " = Self.init()" |];
        each (s_members s) (fun m => given ([| "n"; sname; "." |]) (fun x => swt_deserializer m x));
        line [| "return n"; sname |];
        dedent;
        line "}";
        blank;
        (if (s_is_message s) then
           block [
             line "public override func WriteBytes(data: NSMutableData, tag: Bool) -> Void {";
             indent;
             line "let dataWriter = DataWriter(withData: data)";
             line "if (tag) {";
             indent;
             line [| "dataWriter.Write(uint8: MessageType."; sname; "Type.rawValue)" |];
             dedent;
             line "}"]
         else block [line "func WriteBytes(_ dataWriter: DataWriter) -> Void {"; indent]);
        each (s_members s) (fun m => swt_serializer m "self.");
        dedent;
        line "}";
        dedent;
        line "}";
        blank])].

(** swift.py:258-261 and 338-340, the substitutions in the two files. *)
Definition swt_substitutions (string_size : string) : list (string * substitute_by) :=
  [("{# STRING_SIZE_TYPE #}", Text string_size); ("{# STRING_SIZE_TYPE_LOWER #}", Text (lower string_size))].
Definition swt_last_substitutions : list (string * substitute_by) :=
  [("{# NAMESPACE_PREFIX_DOT #}", Text (if some_namespace then or_none (g_namespace g) +++ "." else ""))].

(** swift.py:233-345, generate. *)
Definition swt_generate : gtext :=
  block [
    line [| "// This file was automatically generated by "; LIB_NAME; " v"; LIB_VERSION |];
    line "// <https://github.com/sjml/beschi>";
    line "// Do not edit directly.";
    blank;
    line "import Foundation";
    blank;
    when (g_embed g) (
      block [
        line "/*";
        line "DATA PROTOCOL";
        line "-----------------";
        each (splitlines (g_source g)) (fun l => line [| l |]);
        line "-----------------";
        line "END DATA PROTOCOL";
        line "*/";
        blank;
        blank]);
    when some_namespace (
      block [line [| "public /* namespace */ enum "; or_none (g_namespace g); " {" |]; indent]);
    given (types (p_string_size_type p)) (fun string_size =>
      add_boilerplate "    " tab
        (swt_substitutions string_size)
        (g_files g 0));
    line "public enum MessageType: UInt8 {";
    indent;
    when (Z.of_nat (List.length (p_messages p)) =? 0) (
      line "case __NullMessage = 0 /* to keep the compiler happy */");
    each (enumerate (p_messages p)) (fun '(i, k) => line [| "case "; k; "Type = "; str_of_Z (i + 1) |]);
    dedent;
    line "}";
    blank;
    (if some_namespace then
       block [
         line [| "public static func ProcessRawBytes(_ data: Data, max: Int) throws -> [Message] {" |];
         indent;
         line [| "var msgList: [Message] = []" |]]
     else block [
         line [| "public func ProcessRawBytes(_ data: Data, max: Int) throws -> [Message] {" |];
         indent;
         line "var msgList: [Message] = []"]);
    line "if max == 0 {";
    indent;
    line "return msgList";
    dedent;
    line "}";
    line "let dr = DataReader(fromData: data)";
    line "while !dr.IsFinished() && (max < 0 || msgList.count < max) {";
    indent;
    (let accessor := if some_namespace then or_none (g_namespace g) +++ "." else "" in
     block [
        line [| "let msgTypeByte = try dr.GetUInt8()" |];
        line "if msgTypeByte == 0 {";
        indent;
        line "return msgList";
        dedent;
        line "}";
        line [| "guard let msgType = "; accessor; "MessageType(rawValue: msgTypeByte)" |];
        line "else {";
        indent;
        line "throw DataReaderError.InvalidData";
        dedent;
        line "}";
        line "switch msgType {";
        indent;
        each (map fst (p_messages p)) (fun mt =>
          block [
            line [| "case "; accessor; "MessageType."; mt; "Type:" |];
            indent;
            line [| "msgList.append(try "; mt; ".FromBytes(dataReader: dr))" |];
            dedent]);
        when (Z.of_nat (List.length (p_messages p)) =? 0) (
          block [
            line [| "case "; accessor; "MessageType.__NullMessage:" |];
            indent;
            line [| "break" |];
            dedent]);
        dedent;
        line "}";
        dedent;
        line "}";
        line "return msgList";
        dedent;
        line "}";
        blank;
        each (p_enums p) (fun '(ename, e) => swt_gen_enum ename e);
        each (p_structs p) (fun '(sname, s) => swt_gen_struct sname s);
        each (p_messages p) (fun '(mname, mdata) => swt_gen_struct mname mdata);
        when some_namespace (block [dedent; line "}"]);
        blank;
        add_boilerplate "    " tab
          swt_last_substitutions
          (g_files g 1);
        blank;
        check_level])].

End Text.
