(** Model of the text that beschi/writers/zig.py prints.

    The statements inside the generated functions are modelled a second time, as
    programs, in Zig.v; PropPrinted.v shows that this text is the text of those
    programs. *)
From Verif Require Export Lines Zig.
Open Scope string_scope.
Open Scope Z_scope.
Open Scope list_scope.

(** zig.py:31-43, base_defaults, as text. *)
Definition zgt_defaults : list (string * string) :=
  [("byte", "0"); ("bool", "false"); ("uint16", "0"); ("int16", "0"); ("uint32", "0"); ("int32", "0");
   ("uint64", "0"); ("int64", "0"); ("float", "0.0"); ("double", "0.0"); ("string", """""")].

Section Text.
Variable p : protocol.
Variable g : settings.
Let tab := g_tab g.

(** zig.py:19-29, type_mapping. *)
Definition zgt_types : string -> ptext := mapping p (("string", "[]const u8") :: zig_types).
Let types := zgt_types.

(** zig.py:45-73, deserializer. *)
Definition zgt_deserializer (m : var) (accessor : string) (parent_is_simple : bool) (simple_offset : Z) : gtext :=
  (if parent_is_simple then
     (if mem (v_type m) NUMERIC_TYPE_SIZES then
        line [| "const "; accessor; "_"; v_name m; " = (try readNumber("; types (v_type m); ", offset + ";
                str_of_Z simple_offset; ", buffer)).value;" |]
      else if mem (v_type m) (p_enums p) then
        given (get_enum p (v_type m)) (fun e =>
          line [| "const "; accessor; "_"; v_name m; " = (try readNumber("; v_type m; ", offset + ";
                  str_of_Z simple_offset; ", buffer)).value;" |])
      else block [
          line [| "const "; accessor; "_"; v_name m; "_read = "; v_type m; ".fromBytes(offset + ";
                  str_of_Z simple_offset; ", buffer);" |];
          line [| "const "; accessor; "_"; v_name m; " = "; accessor; "_"; v_name m; "_read.value;" |]])
   else block [
       (if (v_list m) then
          block [
            line [| "const "; accessor; "_"; v_name m; "_read = try readList("; types (v_type m);
                    ", allocator, local_offset, buffer);" |];
            line [| "const "; accessor; "_"; v_name m; " = "; accessor; "_"; v_name m; "_read.value;" |];
            line [| "local_offset += "; accessor; "_"; v_name m; "_read.bytes_read;" |]]
        else if (mem (v_type m) NUMERIC_TYPE_SIZES) || (mem (v_type m) (p_enums p)) then
          block [
            line [| "const "; accessor; "_"; v_name m; "_read = try readNumber("; types (v_type m);
                    ", local_offset, buffer);" |];
            line [| "const "; accessor; "_"; v_name m; " = "; accessor; "_"; v_name m; "_read.value;" |];
            line [| "local_offset += "; accessor; "_"; v_name m; "_read.bytes_read;" |]]
        else if String.eqb (v_type m) "string" then
          block [
            line [| "const "; accessor; "_"; v_name m;
                    "_read = try readString(allocator, local_offset, buffer);" |];
            line [| "const "; accessor; "_"; v_name m; " = "; accessor; "_"; v_name m; "_read.value;" |];
            line [| "local_offset += "; accessor; "_"; v_name m; "_read.bytes_read;" |]]
        else block [
            line [| "const "; accessor; "_"; v_name m; "_read = try "; v_type m; ".fromBytes(";
                    (if var_is_simple p m then "" else "allocator, "); "local_offset, buffer);" |];
            line [| "const "; accessor; "_"; v_name m; " = "; accessor; "_"; v_name m; "_read.value;" |];
            line [| "local_offset += "; accessor; "_"; v_name m; "_read.bytes_read;" |]]);
       blank]).

(** zig.py:75-87, serializer. *)
Definition zgt_serializer (m : var) (accessor : string) (parent_is_simple : bool) (simple_offset : Z) : gtext :=
  (if parent_is_simple then
     when (mem (v_type m) NUMERIC_TYPE_SIZES) (
       line [| "_ = writeNumber("; types (v_type m); ", offset + "; str_of_Z simple_offset; ", buffer, "; accessor;
               v_name m; ");" |])
   else if (v_list m) then
     line [| "local_offset += writeList("; types (v_type m); ", local_offset, buffer, "; accessor; v_name m;
             ");" |]
   else if (mem (v_type m) NUMERIC_TYPE_SIZES) || (mem (v_type m) (p_enums p)) then
     line [| "local_offset += writeNumber("; types (v_type m); ", local_offset, buffer, "; accessor; v_name m;
             ");" |]
   else if String.eqb (v_type m) "string" then
     line [| "local_offset += writeString(local_offset, buffer, "; accessor; v_name m; ");" |]
   else line [| "local_offset += "; accessor; v_name m; ".writeBytes(local_offset, buffer);" |]).

(** zig.py:92-132, gen_measurement: the lines and the accumulated constant.  First
    the loop over the members; [rec] is the recursive call. *)
Definition zgt_size_init : string := "var size: usize = 0;".
Fixpoint zgt_measure_members (rec : struct -> string -> Z -> pyres (list string * Z)) (accessor : string) (depth : Z)
         (ms : list var) (lines : list string) (accum : Z) : pyres (list string * Z) :=
  match ms with
  | [] => Ret (lines, accum)
  | m :: r =>
      let next := zgt_measure_members rec accessor depth r in
      if v_list m then
        a <- numeric_size (p_list_size_type p) ;;
        let accum := accum + a in
        if is_simple p (v_type m) then
          l <- [| "size += "; accessor; v_name m; ".len * "; str_of (get_size_of p (v_type m)); ";" |] ;;
          next (lines ++ [l]) accum
        else if String.eqb (v_type m) "string" then
          l1 <- [| "for ("; accessor; v_name m; ") |s| {" |] ;;
          l2 <- [| tab; "size += "; str_of (numeric_size (p_string_size_type p)); " + s.len;" |] ;;
          next (lines ++ [l1; l2; "}"]) accum
        else
          l <- [| "for ("; accessor; v_name m; ") |el"; str_of_Z depth; "| {" |] ;;
          s <- get_struct p (v_type m) ;;
          c <- rec s ("el" +++ str_of_Z depth +++ ".") (depth + 1) ;;
          clines <- drop_first_if zgt_size_init (fst c) ;;
          l' <- [| "size += "; str_of_Z (snd c); ";" |] ;;
          next (lines ++ [l] ++ map (fun l => tab +++ l) (clines ++ [l']) ++ ["}"]) accum
      else if is_simple p (v_type m) then
        a <- get_size_of p (v_type m) ;; next lines (accum + a)
      else if String.eqb (v_type m) "string" then
        a <- numeric_size (p_string_size_type p) ;;
        l <- [| "size += "; accessor; v_name m; ".len;" |] ;;
        next (lines ++ [l]) (accum + a)
      else
        s <- get_struct p (v_type m) ;;
        c <- rec s (accessor +++ v_name m +++ ".") (depth + 1) ;;
        clines <- drop_first_if zgt_size_init (fst c) ;;
        next (lines ++ clines) (accum + snd c)
  end.
(** [d] bounds the nesting of structs. *)
Fixpoint zgt_measure (d : nat) (s : struct) (accessor : string) (depth : Z) : pyres (list string * Z) :=
  match d with
  | O => OutOfSteps
  | S d' =>
      if is_simple p (s_name s) then
        l <- [| "return "; str_of (get_size_of p (s_name s)); ";" |] ;; Ret ([l], 0)
      else zgt_measure_members (zgt_measure d') accessor depth (s_members s) [zgt_size_init] 0
  end.
Definition zgt_gen_measurement : struct -> string -> Z -> pyres (list string * Z) := zgt_measure (depth_of p).

(** zig.py:134-150, destructor. *)
Definition zgt_destructor_with (rec : var -> string -> gtext) (m : var) (accessor : string) : gtext :=
  (if var_is_simple p m then
     skip
   else if (v_list m) then
     block [
       when (negb (is_simple p (v_type m))) (
         at_level (fun idx =>
           block [
             line [| "for ("; accessor; v_name m; ") |";
                     (if negb (String.eqb (v_type m) "string") then "*" else ""); "item"; str_of_Z idx; "| {" |];
             indent;
             (let inner := MkVar ("item" +++ str_of_Z idx) (v_type m) false in
              block [rec inner ""; dedent; line "}"])]));
       line [| "allocator.free("; accessor; v_name m; ");" |]]
   else if String.eqb (v_type m) "string" then
     line [| "allocator.free("; accessor; v_name m; ");" |]
   else line [| accessor; v_name m; ".deinit(allocator);" |]).
Definition zgt_destructor : var -> string -> gtext := zgt_destructor_with (zgt_destructor_with no_more).

(** zig.py:152-159, gen_enum. *)
Definition zgt_gen_enum (ename : string) (e : enum) : gtext :=
  block [
    line [| "pub const "; ename; " = enum("; types (e_encoding e); ") {" |];
    indent;
    each (e_values e) (fun '(v, vi) => line [| v; " = "; str_of_Z vi; "," |]);
    dedent;
    line "};";
    blank].

(** zig.py:203-206 and 252-255, the loops over the members, which keep the offset of
    the member if the type is of fixed size; then [rest]. *)
Fixpoint zgt_loop (simple : bool) (simple_offset : Z) (ms : list var) (f : var -> Z -> gtext) (rest : Z -> gtext) : gtext :=
  match ms with
  | [] => rest simple_offset
  | m :: r =>
      andthen (f m simple_offset)
              (if simple then given (get_size_of p (v_type m)) (fun z => zgt_loop simple (simple_offset + z) r f rest)
               else zgt_loop simple simple_offset r f rest)
  end.

(** zig.py:161-277, gen_struct. *)
Definition zgt_gen_struct (sname : string) (s : struct) : gtext :=
  block [
    line [| "pub const "; sname; " = struct {" |];
    indent;
    each (s_members s) (fun m =>
      (if (v_list m) then
         line [| v_name m; ": []"; types (v_type m); " = &.{}," |]
       else given (match lookup (v_type m) zgt_defaults with
                   | Some d => lit d
                   | None => if mem (v_type m) (p_enums p) then
                               e <- get_enum p (v_type m) ;; [| e_name e; "."; default_name e |]
                             else [| v_type m; "{}" |]
                   end) (fun default_value =>
           line [| v_name m; ": "; types (v_type m); " = "; default_value; "," |])));
    blank;
    line [| "pub fn getSizeInBytes(self: *const "; sname; ") usize {" |];
    indent;
    (if is_simple p (s_name s) then
       block [line "_ = self;"; line [| "return "; str_of (get_size_of p sname); ";" |]]
     else given (zgt_gen_measurement s "self." 0) (fun '(measure_lines, accumulator) =>
         block [
           each measure_lines (fun s => line s);
           when (accumulator >? 0) (line [| "size += "; str_of_Z accumulator; ";" |]);
           line "return size;"]));
    dedent;
    line "}";
    blank;
    line [| "pub fn fromBytes("; (if is_simple p (s_name s) then "" else "allocator: std.mem.Allocator, ");
            "offset: usize, buffer: []const u8) !struct { value: "; sname; ", bytes_read: usize } {" |];
    indent;
    when (Z.of_nat (List.length (s_members s)) =? 0) (block [line "_ = offset;"; line "_ = buffer;"]);
    when (negb (is_simple p (s_name s))) (block [line "var local_offset = offset;"; blank]);
    zgt_loop (is_simple p (s_name s)) (if is_simple p (s_name s) then 0 else -1) (s_members s)
      (fun m simple_offset => zgt_deserializer m sname (is_simple p (s_name s)) simple_offset) (fun _ => skip);
    line [| "return .{ .value = "; sname; "{" |];
    indent;
    each (s_members s) (fun m => line [| "."; v_name m; " = "; sname; "_"; v_name m; "," |]);
    dedent;
    (if is_simple p (s_name s) then
       line [| "}, .bytes_read = "; str_of (get_size_of p (s_name s)); " };" |]
     else line [| "}, .bytes_read = local_offset - offset };" |]);
    dedent;
    line "}";
    blank;
    (if (s_is_message s) then
       block [
         line [| "pub fn writeBytes(self: *const "; sname;
                 ", offset: usize, buffer: []u8, tag: bool) usize {" |];
         indent]
     else block [
         line [| "pub fn writeBytes(self: *const "; sname; ", offset: usize, buffer: []u8) usize {" |];
         indent]);
    when (Z.of_nat (List.length (s_members s)) =? 0) (
      block [line "_ = self;"; when (negb (s_is_message s)) (line "_ = offset;")]);
    (if is_simple p (s_name s) then
       when (s_is_message s) (
         block [
           line "var local_offset = offset;";
           blank;
           line "if (tag) {";
           indent;
           given (position sname (map fst (p_messages p))) (fun i =>
             block [
               line [| "local_offset += writeNumber(u8, local_offset, buffer, "; str_of_Z (i + 1); ");" |];
               dedent;
               line "}"])])
     else block [
         line "var local_offset = offset;";
         when (s_is_message s) (
           block [
             line "if (tag) {";
             indent;
             given (position sname (map fst (p_messages p))) (fun i =>
               block [
                 line [| "local_offset += writeNumber(u8, local_offset, buffer, "; str_of_Z (i + 1); ");" |];
                 dedent;
                 line "}"])]);
         blank]);
    zgt_loop (is_simple p (s_name s)) (if is_simple p (s_name s) then (if s_is_message s then 1 else 0) else -1)
      (s_members s)
      (fun m simple_offset =>
         zgt_serializer m "self." (is_simple p (s_name s) && negb (s_is_message s)) simple_offset)
      (fun simple_offset =>
         if is_simple p (s_name s) && negb (s_is_message s) then
           line [| "return "; str_of_Z simple_offset; ";" |]
         else block [blank; line [| "return local_offset - offset;" |]]);
    dedent;
    line "}";
    when (negb (is_simple p (s_name s))) (
      block [
        blank;
        line [| "pub fn deinit(self: *"; sname; ", allocator: std.mem.Allocator) void {" |];
        indent;
        each (s_members s) (fun m => zgt_destructor m "self.");
        dedent;
        line "}"]);
    dedent;
    line "};";
    blank].

(** zig.py:300-309, the names for the boilerplate. *)
Definition zgt_simpletons : list string :=
  map fst (filter (fun d => is_simple p (s_name (snd d))) (p_structs p ++ p_messages p)).
Definition zgt_names (l : list string) : string :=
  String.concat ", " l +++ (if Z.of_nat (List.length l) >? 0 then "," else "").

(** zig.py:306-312, the substitutions. *)
Definition zgt_substitutions (string_size list_size : string) : list (string * substitute_by) :=
  [("{# STRING_SIZE_TYPE #}", Text string_size); ("{# LIST_SIZE_TYPE #}", Text list_size);
   ("{# SIMPLE_TYPES #}", Text (zgt_names zgt_simpletons));
   ("{# ENUM_TYPES #}", Text (zgt_names (map (fun d => e_name (snd d)) (p_enums p))))].

(** zig.py:281-410, generate. *)
Definition zgt_generate : gtext :=
  block [
    line [| "// This file was automatically generated by "; LIB_NAME; " v"; LIB_VERSION |];
    line "// <https://github.com/sjml/beschi>";
    line [| "// Do not edit directly." |];
    blank;
    when (g_embed g) (
      block [
        line "// DATA PROTOCOL";
        line "// -----------------";
        each (splitlines (g_source g)) (fun l => line [| "// "; l |]);
        line "// -----------------";
        line "// END DATA PROTOCOL";
        blank;
        blank]);
    line "const std = @import(""std"");";
    blank;
    given (types (p_string_size_type p)) (fun string_size =>
      given (types (p_list_size_type p)) (fun list_size =>
        add_boilerplate "    " tab
          (zgt_substitutions string_size list_size)
          (g_files g (-1))));
    blank;
    line "pub const MessageType = enum(u8) {";
    indent;
    each (map fst (p_messages p)) (fun mname => line [| mname; "," |]);
    dedent;
    line "};";
    blank;
    line "pub const Message = union(MessageType) {";
    indent;
    each (map fst (p_messages p)) (fun mname => line [| mname; ": "; mname; "," |]);
    blank;
    line "pub fn getSizeInBytes(self: @This()) usize {";
    indent;
    line "return switch (self) {";
    indent;
    each (map fst (p_messages p)) (fun mname =>
      line [| "."; mname; " => self."; mname; ".getSizeInBytes()," |]);
    dedent;
    line "};";
    dedent;
    line "}";
    blank;
    line "pub fn writeBytes(self: @This(), offset: usize, buffer: []u8, tag: bool) usize {";
    indent;
    line "return switch (self) {";
    indent;
    each (map fst (p_messages p)) (fun mname =>
      line [| "."; mname; " => self."; mname; ".writeBytes(offset, buffer, tag)," |]);
    dedent;
    line "};";
    dedent;
    line "}";
    dedent;
    line "};";
    blank;
    line "pub fn processRawBytes(allocator: std.mem.Allocator, buffer: []const u8, max: i32) ![]Message {";
    indent;
    line "var msg_list = std.ArrayList(Message).init(allocator);";
    line "defer msg_list.deinit();";
    line "if (max == 0) {";
    indent;
    line "return msg_list.toOwnedSlice();";
    dedent;
    line "}";
    line "var local_offset: usize = 0;";
    line "while (local_offset < buffer.len and (max < 0 or msg_list.items.len < max)) {";
    indent;
    line "const msg_type_byte = (try readNumber(u8, local_offset, buffer)).value;";
    line "local_offset += 1;";
    line "if (msg_type_byte == 0) {";
    indent;
    line "return msg_list.toOwnedSlice();";
    dedent;
    line "}";
    line "const msg_type: MessageType = std.meta.intToEnum(MessageType, msg_type_byte - 1) catch return DataReaderError.InvalidData;";
    line "switch(msg_type) {";
    indent;
    each (p_messages p) (fun '(mname, mdata) =>
      block [
        line [| "."; mname; " => {" |];
        indent;
        (if is_simple p (s_name mdata) then
           line [| "const msg_read = try "; mname; ".fromBytes(local_offset, buffer);" |]
         else line [| "const msg_read = try "; mname; ".fromBytes(allocator, local_offset, buffer);" |]);
        line "local_offset += msg_read.bytes_read;";
        line [| "try msg_list.append(Message{ ."; mname; " = msg_read.value });" |];
        dedent;
        line "},"]);
    dedent;
    line "}";
    dedent;
    line "}";
    line "return msg_list.toOwnedSlice();";
    dedent;
    line "}";
    blank;
    each (p_enums p) (fun '(ename, e) => zgt_gen_enum ename e);
    each (p_structs p) (fun '(sname, s) => zgt_gen_struct sname s);
    each (p_messages p) (fun '(mname, mdata) => zgt_gen_struct mname mdata);
    blank;
    check_level].

End Text.
