(** Model of the text that beschi/writers/rust.py prints.

    The statements inside the generated methods are modelled a second time, as
    programs, in Rust.v; PropPrinted.v shows that this text is the text of those
    programs.  [p] has the names that the printed code uses, [rs_protocol rename p]. *)
From Verif Require Export Lines Rust.
Open Scope string_scope.
Open Scope Z_scope.
Open Scope list_scope.

Section Text.
Variable p : protocol.
Variable g : settings.
Let tab := g_tab g.
(** rust.py:272-276, [self.prefix] *)
Let prefix : string := match g_namespace g with Some ns => ns | None => "Beschi" end.

(** rust.py:34-44, type_mapping. *)
Definition rst_types : string -> ptext := mapping p (("string", "String") :: rs_types).
Let types := rst_types.
Definition rst_maps : string -> bool := mapped p (("string", "String") :: rs_types).
Let maps := rst_maps.

(** rust.py:46-74, deserializer. *)
Definition rst_deserializer_with (rec : var -> string -> gtext) (m : var) (accessor : string) : gtext :=
  (if (v_list m) then
     block [
       line [| "let "; v_name m; "_len = reader.read_"; types (p_list_size_type p); "()?;" |];
       (if maps (v_type m) then
          line [| "let mut "; v_name m; ": Vec<"; types (v_type m); "> = Vec::new();" |]
        else line [| "let mut "; v_name m; ": Vec<"; v_type m; "> = Vec::new();" |]);
       line [| "for _ in 0.."; v_name m; "_len {" |];
       indent;
       (let inner := (MkVar "_el" (v_type m) false) in
        block [rec inner ""; line [| v_name m; ".push(_el);" |]; dedent; line "}"])]
   else if mem (v_type m) NUMERIC_TYPE_SIZES then
     (if String.eqb (v_type m) "byte" then
        line [| "let "; v_name m; " = reader.take_byte()?;" |]
      else if String.eqb (v_type m) "bool" then
        line [| "let "; v_name m; " = reader.take_byte()? > 0;" |]
      else line [| "let "; v_name m; " = reader.read_"; types (v_type m); "()?;" |])
   else if String.eqb (v_type m) "string" then
     line [| "let "; v_name m; " = reader.read_string()?;" |]
   else if mem (v_type m) (p_enums p) then
     given (get_enum p (v_type m)) (fun e =>
       block [
         line [| "let "; v_name m; " = reader.read_"; types (e_encoding e); "()?;" |];
         line [| "let "; v_name m; " = "; v_type m; "::try_from("; v_name m; ")?;" |]])
   else line [| "let "; v_name m; " = "; v_type m; "::from_bytes(reader)?;" |]).
Definition rst_deserializer : var -> string -> gtext := rst_deserializer_with (rst_deserializer_with no_more).

(** rust.py:76-102, serializer. *)
Definition rst_serializer_with (rec : var -> string -> gtext) (m : var) (accessor : string) : gtext :=
  (if (v_list m) then
     block [
       line [| "writer.extend(("; accessor; v_name m; ".len() as "; types (p_list_size_type p);
               ").to_le_bytes());" |];
       line [| "for _el in &"; accessor; v_name m; " {" |];
       indent;
       (let inner := (MkVar ((if mem (v_type m) (p_enums p) then "*" else "") +++ "_el") (v_type m) false) in
        block [rec inner ""; dedent; line "}"])]
   else if mem (v_type m) NUMERIC_TYPE_SIZES then
     (if String.eqb (v_type m) "byte" then
        line [| "writer.push("; accessor; v_name m; ");" |]
      else if String.eqb (v_type m) "bool" then
        line [| "writer.push(if "; accessor; v_name m; " {1_u8} else {0_u8});" |]
      else line [| "writer.extend("; accessor; v_name m; ".to_le_bytes());" |])
   else if String.eqb (v_type m) "string" then
     block [
       line [| "writer.extend(("; accessor; v_name m; ".len() as "; types (p_string_size_type p);
               ").to_le_bytes());" |];
       line [| "writer.extend("; accessor; v_name m; ".as_bytes());" |]]
   else if mem (v_type m) (p_enums p) then
     given (get_enum p (v_type m)) (fun e =>
       (if String.eqb (e_encoding e) "byte" then
          line [| "writer.push("; accessor; v_name m; " as "; types (e_encoding e); ");" |]
        else line [| "writer.extend(("; accessor; v_name m; " as "; types (e_encoding e); ").to_le_bytes());" |]))
   else line [| accessor; v_name m; ".write_bytes(writer);" |]).
Definition rst_serializer : var -> string -> gtext := rst_serializer_with (rst_serializer_with no_more).

(** rust.py:104-144, gen_measurement: the lines and the accumulated constant.  First
    the loop over the members; [rec] is the recursive call. *)
Definition rst_size_init : string := "let mut size: usize = 0;".
Fixpoint rst_measure_members (rec : struct -> string -> pyres (list string * Z)) (accessor : string)
         (ms : list var) (lines : list string) (accum : Z) : pyres (list string * Z) :=
  match ms with
  | [] => Ret (lines, accum)
  | m :: r =>
      let next := rst_measure_members rec accessor r in
      if v_list m then
        a <- numeric_size (p_list_size_type p) ;;
        let accum := accum + a in
        if is_simple p (v_type m) then
          l <- [| "size += "; accessor; v_name m; ".len() * "; str_of (get_size_of p (v_type m)); ";" |] ;;
          next (lines ++ [l]) accum
        else if String.eqb (v_type m) "string" then
          l1 <- [| "for s in &"; accessor; v_name m; " {" |] ;;
          l2 <- [| tab; "size += "; str_of (numeric_size (p_string_size_type p)); " + s.len();" |] ;;
          next (lines ++ [l1; l2; "}"]) accum
        else
          l <- [| "for el in &"; accessor; v_name m; " {" |] ;;
          s <- get_struct p (v_type m) ;;
          c <- rec s "el." ;;
          clines <- drop_first_if rst_size_init (fst c) ;;
          l' <- [| "size += "; str_of_Z (snd c); ";" |] ;;
          next (lines ++ [l] ++ map (fun l => tab +++ l) (clines ++ [l']) ++ ["}"]) accum
      else if is_simple p (v_type m) then
        a <- get_size_of p (v_type m) ;; next lines (accum + a)
      else if String.eqb (v_type m) "string" then
        a <- numeric_size (p_string_size_type p) ;;
        l <- [| "size += "; accessor; v_name m; ".len();" |] ;;
        next (lines ++ [l]) (accum + a)
      else
        s <- get_struct p (v_type m) ;;
        c <- rec s (accessor +++ v_name m +++ ".") ;;
        clines <- drop_first_if rst_size_init (fst c) ;;
        next (lines ++ clines) (accum + snd c)
  end.
(** [d] bounds the nesting of structs. *)
Fixpoint rst_measure (d : nat) (s : struct) (accessor : string) : pyres (list string * Z) :=
  match d with
  | O => OutOfSteps
  | S d' =>
      if is_simple p (s_name s) then
        l <- [| str_of (get_size_of p (s_name s)) |] ;; Ret ([l], 0)
      else rst_measure_members (rst_measure d') accessor (s_members s) [rst_size_init] 0
  end.
Definition rst_gen_measurement : struct -> string -> pyres (list string * Z) := rst_measure (depth_of p).

(** rust.py:146-178, gen_enum. *)
Definition rst_gen_enum (ename : string) (e : enum) : gtext :=
  block [
    line [| "#[repr("; types (e_encoding e); ")]" |];
    line "#[derive(Debug, Copy, Clone, PartialEq, Eq)]";
    line [| "pub enum "; ename; " {" |];
    indent;
    each (e_values e) (fun '(v, vi) => line [| v; " = "; str_of_Z vi; "," |]);
    dedent;
    line "}";
    blank;
    line [| "impl Default for "; ename; " {" |];
    indent;
    line [| "fn default() -> Self { "; ename; "::"; default_name e; " }" |];
    dedent;
    line "}";
    blank;
    line [| "impl TryFrom<"; types (e_encoding e); "> for "; ename; " {" |];
    indent;
    line [| "type Error = "; prefix; "Error;" |];
    blank;
    line [| "fn try_from(value: "; types (e_encoding e); ") -> Result<Self, "; prefix; "Error> {" |];
    indent;
    line "match value {";
    indent;
    each (e_values e) (fun '(v, vi) => line [| str_of_Z vi; " => Ok("; ename; "::"; v; ")," |]);
    line [| "_ => Err("; prefix; "Error::InvalidData)" |];
    dedent;
    line "}";
    dedent;
    line "}";
    dedent;
    line "}";
    blank].

(** rust.py:180-253, gen_struct. *)
Definition rst_gen_struct (sname : string) (s : struct) : gtext :=
  block [
    line "#[derive(Default)]";
    line [| "pub struct "; sname; " {" |];
    indent;
    each (s_members s) (fun m =>
      (if (v_list m) then
         (if maps (v_type m) then
            line [| "pub "; v_name m; ": Vec<"; types (v_type m); ">," |]
          else line [| "pub "; v_name m; ": Vec<"; v_type m; ">," |])
       else if maps (v_type m) then
         line [| "pub "; v_name m; ": "; types (v_type m); "," |]
       else if mem (v_type m) (p_enums p) then
         given (get_enum p (v_type m)) (fun e => line [| "pub "; v_name m; ": "; v_type m |])
       else line [| "pub "; v_name m; ": "; v_type m; "," |]));
    dedent;
    line "}";
    blank;
    (if (s_is_message s) then
       block [
         line [| "impl MessageCodec for "; sname; " {" |];
         indent;
         line "fn get_message_type(&self) -> MessageType {";
         indent;
         line [| "MessageType::"; sname |];
         dedent;
         line "}";
         blank]
     else block [line [| "impl "; sname; " {" |]; indent]);
    line "fn get_size_in_bytes(&self) -> usize {";
    indent;
    given (rst_gen_measurement s "self.") (fun '(measure_lines, accumulator) =>
      block [
        each measure_lines (fun s => line s);
        when (accumulator >? 0) (line [| "size += "; str_of_Z accumulator; ";" |]);
        when (Z.of_nat (List.length measure_lines) >? 1) (line "size");
        dedent;
        line "}";
        blank;
        line [| "fn from_bytes("; (if Z.of_nat (List.length (s_members s)) =? 0 then "_" else "");
                "reader: &mut BufferReader) -> Result<"; sname; ", "; prefix; "Error> {" |];
        indent;
        each (s_members s) (fun m => rst_deserializer m "");
        (let varnames := map v_name (s_members s) in
         block [
           line [| "Ok("; sname; " {"; String.concat ", " varnames; "})" |];
           dedent;
           line "}";
           blank;
           (if (s_is_message s) then
              block [
                line "fn write_bytes(&self, writer: &mut Vec<u8>, tag: bool) {";
                indent;
                line "if tag {";
                indent;
                given (position sname (map fst (p_messages p))) (fun i =>
                  block [line [| "writer.push("; str_of_Z (i + 1); "_u8);" |]; dedent; line "}"])]
            else block [line "pub fn write_bytes(&self, writer: &mut Vec<u8>) {"; indent]);
           each (s_members s) (fun m => rst_serializer m "self.");
           dedent;
           line "}";
           dedent;
           line "}";
           blank])])].

(** rust.py:272-278, the substitutions. *)
Definition rst_substitutions (string_size : string) : list (string * substitute_by) :=
  ("{# STRING_SIZE_TYPE #}", Text string_size)
  :: match g_namespace g with Some ns => [("Beschi", Text ns)] | None => [] end.

(** rust.py:255-387, generate. *)
Definition rst_generate : gtext :=
  block [
    line [| "// This file was automatically generated by "; LIB_NAME; " v"; LIB_VERSION |];
    line "// <https://github.com/sjml/beschi>";
    line "// Do not edit directly.";
    blank;
    when (g_embed g) (
      block [
        line "/*";
        line "DATA PROTOCOL";
        line "-----------------";
        each (splitlines (g_source g)) (fun l => line [| l |]);
        line "-----------------";
        line "END DATA PROTOCOL";
        line "*/";
        blank;
        blank]);
    given (types (p_string_size_type p)) (fun string_size =>
      add_boilerplate "    " tab
        (rst_substitutions string_size)
        (g_files g (-1)));
    blank;
    line "pub enum MessageType {";
    indent;
    each (map fst (p_messages p)) (fun mname => line [| mname; "," |]);
    dedent;
    line "}";
    blank;
    line "pub enum Message {";
    indent;
    each (map fst (p_messages p)) (fun mname => line [| mname; "("; mname; ")," |]);
    dedent;
    line "}";
    blank;
    line "impl MessageCodec for Message {";
    indent;
    line "fn get_message_type(&self) -> MessageType {";
    indent;
    line "match self {";
    indent;
    each (map fst (p_messages p)) (fun mname =>
      line [| "Message::"; mname; "(_) => MessageType::"; mname; "," |]);
    dedent;
    line "}";
    dedent;
    line "}";
    blank;
    line "fn get_size_in_bytes(&self) -> usize {";
    indent;
    line "match self {";
    indent;
    each (map fst (p_messages p)) (fun mname =>
      line [| "Message::"; mname; "(msg) => msg.get_size_in_bytes()," |]);
    dedent;
    line "}";
    dedent;
    line "}";
    blank;
    line [| "fn from_bytes(reader: &mut BufferReader) -> Result<Message, "; prefix; "Error> {" |];
    indent;
    line "let tag = reader.take_byte()?;";
    line "let msg = match tag {";
    indent;
    line [| "0 => return Err("; prefix; "Error::EndOfMessageList)," |];
    each (enumerate (p_messages p)) (fun '(mi, mname) =>
      line [| str_of_Z (mi + 1); " => Message::"; mname; "("; mname; "::from_bytes(reader)?)," |]);
    line [| "_ => return Err("; prefix; "Error::InvalidData)," |];
    dedent;
    line "};";
    line "Ok(msg)";
    dedent;
    line "}";
    blank;
    line "fn write_bytes(&self, writer: &mut Vec<u8>, tag: bool) {";
    indent;
    line "match self {";
    indent;
    each (map fst (p_messages p)) (fun mname =>
      line [| "Message::"; mname; "(msg) => msg.write_bytes(writer, tag)," |]);
    dedent;
    line "}";
    dedent;
    line "}";
    dedent;
    line "}";
    blank;
    line [| "pub fn process_raw_bytes(reader: &mut BufferReader, max: i32) -> Result<Vec<Message>, ";
            prefix; "Error> {" |];
    indent;
    line "let mut msg_list: Vec<Message> = Vec::new();";
    line "if max == 0 {";
    indent;
    line "return Ok(msg_list);";
    dedent;
    line "}";
    line "while !reader.is_finished() && (max < 0 || msg_list.len() < max as usize) {";
    indent;
    line "match Message::from_bytes(reader) {";
    indent;
    line "Err(e) => match e {";
    indent;
    line [| prefix; "Error::EndOfMessageList => return Ok(msg_list)," |];
    line "_ => return Err(e),";
    dedent;
    line "}";
    line "Ok(msg) => msg_list.push(msg),";
    dedent;
    line "}";
    dedent;
    line "}";
    line "Ok(msg_list)";
    dedent;
    line "}";
    blank;
    each (p_enums p) (fun '(ename, e) => rst_gen_enum ename e);
    each (p_structs p) (fun '(sname, s) => rst_gen_struct sname s);
    each (p_messages p) (fun '(mname, mdata) => rst_gen_struct mname mdata)].

End Text.
