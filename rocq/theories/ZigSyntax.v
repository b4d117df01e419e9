(** How the statements of IR.v, Measure.v and ZigMemory.v are written in Zig.  A specification: it
    does not look at the generator. *)
From Verif Require Export Syntax ZigMemory.
Open Scope string_scope.
Open Scope Z_scope.
Open Scope list_scope.

Definition zig_number (k : num) : string :=
  match k with
  | NByte => "u8" | NBool => "bool" | NU16 => "u16" | NI16 => "i16" | NU32 => "u32" | NI32 => "i32"
  | NU64 => "u64" | NI64 => "i64" | NF32 => "f32" | NF64 => "f64"
  end.
(** A type: a number type, a string or the declared name. *)
Definition zig_type_name (t : string) : string :=
  match num_of t with Some k => zig_number k | None => if String.eqb t "string" then "[]const u8" else t end.

Section Syntax.
Variable p : protocol.

(** ** Reading into constants *)

(** What a function of the reader returns is a value and the number of bytes. *)
Definition zig_take (lvl : Z) (x call : string) : list out_line :=
  [(lvl, cat ["const "; x; "_read = try "; call; ";"]);
   (lvl, cat ["const "; x; " = "; x; "_read.value;"]);
   (lvl, cat ["local_offset += "; x; "_read.bytes_read;"]);
   (lvl, "")].
(** The program for one member.  readNumber tests enums itself. *)
Definition zig_read_text (lvl : Z) (read : list rstmt) : list out_line :=
  match read with
  | [RNum (DLocal x) k] => zig_take lvl x (cat ["readNumber("; zig_number k; ", local_offset, buffer)"])
  | [RNum (DLocal x) k; REnumCheck _ e] => zig_take lvl x (cat ["readNumber("; e; ", local_offset, buffer)"])
  | [RStr (DLocal x)] => zig_take lvl x "readString(allocator, local_offset, buffer)"
  | [RList (DLocal x) t] => zig_take lvl x (cat ["readList("; zig_type_name t; ", allocator, local_offset, buffer)"])
  | [RCall (DLocal x) n] =>
      zig_take lvl x (cat [n; ".fromBytes("; (if is_simple p n then "" else "allocator, "); "local_offset, buffer)"])
  | _ => [(lvl, "?")]                          (* not used *)
  end.

(** The end of fromBytes. *)
Definition zig_build_text (lvl : Z) (s : struct) (build : list (string * string)) (bytes : string) : list out_line :=
  [(lvl, cat ["return .{ .value = "; s_name s; "{"])] ++
  map (fun b => (lvl + 1, cat ["."; fst b; " = "; snd b; ","])) build ++
  [(lvl, cat ["}, .bytes_read = "; bytes; " };"])].

(** The program of a struct of fixed size: one statement for every member, then the
    end.  A member that is a struct is not in the program (see [zig_read_at]); it
    stands [off] bytes after the start. *)
Fixpoint zig_at_text (lvl : Z) (s : struct) (off : Z) (ms : list var) (read : list rstmt) : list out_line :=
  match ms, read with
  | m :: ms, st :: read =>
      (match st with
       | RNumAt (DLocal x) k o => [(lvl, cat ["const "; x; " = (try readNumber("; zig_number k; ", offset + "; str_of_Z o; ", buffer)).value;"])]
       | REnumAt (DLocal x) e o => [(lvl, cat ["const "; x; " = (try readNumber("; e; ", offset + "; str_of_Z o; ", buffer)).value;"])]
       | _ =>
           let x := zig_local s m in
           [(lvl, cat ["const "; x; "_read = "; v_type m; ".fromBytes(offset + "; str_of_Z off; ", buffer);"]);
            (lvl, cat ["const "; x; " = "; x; "_read.value;"])]
       end) ++ zig_at_text lvl s (off + size_of p (v_type m)) ms read
  | [], [RBuild build; RAdvance n] => zig_build_text lvl s build (str_of_Z n)
  | _, _ => [(lvl, "?")]                       (* not used *)
  end.

(** ** Writing *)

Definition zig_source (s : src) : string :=
  match s with SField f => cat ["self."; f] | SElem f i => cat ["self."; f; "["; i; "]"] | SLocal x => x end.
(** A statement for a member of type [t].  writeNumber knows how enums are written. *)
Definition zig_wstmt (lvl : Z) (t : string) (st : wstmt) : list out_line :=
  match st with
  | WNum k s =>
      [(lvl, cat ["local_offset += writeNumber("; (if mem t (p_enums p) then t else zig_number k); ", local_offset, buffer, "; zig_source s; ");"])]
  | WStr s => [(lvl, cat ["local_offset += writeString(local_offset, buffer, "; zig_source s; ");"])]
  | WList t s => [(lvl, cat ["local_offset += writeList("; zig_type_name t; ", local_offset, buffer, "; zig_source s; ");"])]
  | WCall _ s => [(lvl, cat ["local_offset += "; zig_source s; ".writeBytes(local_offset, buffer);"])]
  | _ => [(lvl, "?")]                          (* not used *)
  end.
(** A statement for a struct of fixed size. *)
Definition zig_at_wstmt (lvl : Z) (st : wstmt) : list out_line :=
  match st with
  | WNumAt k s o => [(lvl, cat ["_ = writeNumber("; zig_number k; ", offset + "; str_of_Z o; ", buffer, "; zig_source s; ");"])]
  | WAdvance n => [(lvl, cat ["return "; str_of_Z n; ";"])]
  | _ => [(lvl, "?")]                          (* not used *)
  end.

(** ** Measuring, with [tab] for indentation *)

Fixpoint zig_path (q : mpath) : string :=
  match q with
  | MRoot => "self"
  | MVar x => x
  | MField q f => cat [zig_path q; "."; f]
  | MElem q i => cat [zig_path q; "["; i; "]"]
  end.
Fixpoint zig_mstmt (tab : string) (st : mstmt) : list string :=
  match st with
  | MInit => ["var size: usize = 0;"]
  | MAdd z => [cat ["size += "; str_of_Z z; ";"]]
  | MAddLen q z => [cat ["size += "; zig_path q; ".len * "; str_of_Z z; ";"]]
  | MAddStr q z => [cat ["size += "; (if z =? 0 then "" else cat [str_of_Z z; " + "]); zig_path q; ".len;"]]
  | MForEach x q body =>
      [cat ["for ("; zig_path q; ") |"; x; "| {"]] ++
      map (fun l => tab +++ l) (flat_map (zig_mstmt tab) body) ++ ["}"]
  | MReturn z => [cat ["return "; str_of_Z z; ";"]]
  | MReturnSize => ["return size;"]
  | _ => ["?"]                                 (* not used *)
  end.

(** ** Releasing *)

(** [i] is the item of the loop around. *)
Definition zig_lvalue (i : string) (x : zlv) : string := match x with ZSelf f => cat ["self."; f] | ZItem => i end.
Fixpoint zig_dstmt (lvl : Z) (i : string) (st : zdstmt) : list out_line :=
  match st with
  | ZFree x => [(lvl, cat ["allocator.free("; zig_lvalue i x; ");"])]
  | ZDeinit x => [(lvl, cat [zig_lvalue i x; ".deinit(allocator);"])]
  | ZEach f ptr body =>
      let i := cat ["item"; str_of_Z lvl] in
      [(lvl, cat ["for (self."; f; ") |"; (if ptr then "*" else ""); i; "| {"])] ++
      flat_map (zig_dstmt (lvl + 1) i) body ++ [(lvl, "}")]
  end.

(** ** A struct *)

Definition zig_initial (m : var) : string :=
  if v_list m then "&.{}"
  else match num_of (v_type m) with
  | Some NBool => "false"
  | Some NF32 | Some NF64 => "0.0"
  | Some _ => "0"
  | None =>
      if String.eqb (v_type m) "string" then """"""
      else match lookup (v_type m) (p_enums p) with
      | Some e => cat [v_type m; "."; match get_default_pair e with Some (d, _) => d | None => "" end]
      | None => cat [v_type m; "{}"]
      end
  end.
Definition zig_fields_text (lvl : Z) (s : struct) : list out_line :=
  [(lvl, cat ["pub const "; s_name s; " = struct {"])] ++
  map (fun m => (lvl + 1, cat [v_name m; ": "; (if v_list m then "[]" else ""); zig_type_name (v_type m); " = "; zig_initial m; ","])) (s_members s).
(** [simple]: it is of fixed size. *)
Definition zig_size_text (simple : bool) (lvl : Z) (s : struct) (tab : string) (size : list mstmt) : list out_line :=
  [(lvl, cat ["pub fn getSizeInBytes(self: *const "; s_name s; ") usize {"])] ++
  (if simple then [(lvl + 1, "_ = self;")] else []) ++
  at_lvl (lvl + 1) (flat_map (zig_mstmt tab) size) ++
  [(lvl, "}")].
Definition zig_from_bytes_text (simple : bool) (lvl : Z) (s : struct) : list out_line :=
  let b := lvl + 1 in
  [(lvl, cat ["pub fn fromBytes("; (if simple then "" else "allocator: std.mem.Allocator, ");
              "offset: usize, buffer: []const u8) !struct { value: "; s_name s; ", bytes_read: usize } {"])] ++
  match s_members s with [] => [(b, "_ = offset;"); (b, "_ = buffer;")] | _ => [] end ++
  (if simple then zig_at_text b s 0 (s_members s) (zig_reader p s)
   else [(b, "var local_offset = offset;"); (b, "")] ++
        flat_map (fun m => zig_read_text b (zig_read p s m)) (s_members s) ++
        zig_build_text b s (match last (zig_reader p s) RIllTyped with RBuild l => l | _ => [] end) "local_offset - offset") ++
  [(lvl, "}")].
Definition zig_write_bytes_text (simple : bool) (lvl : Z) (s : struct) (tag : option Z) : list out_line :=
  let b := lvl + 1 in
  [(lvl, cat ["pub fn writeBytes(self: *const "; s_name s; ", offset: usize, buffer: []u8"; (if s_is_message s then ", tag: bool" else ""); ") usize {"])] ++
  match s_members s with [] => [(b, "_ = self;")] ++ (if s_is_message s then [] else [(b, "_ = offset;")]) | _ => [] end ++
  (if simple && negb (s_is_message s) then flat_map (zig_at_wstmt b) (zig_writer p s)
   else [(b, "var local_offset = offset;")] ++
        (if simple then [(b, "")] else []) ++
        (if s_is_message s then
           [(b, "if (tag) {");
            (b + 1, cat ["local_offset += writeNumber(u8, local_offset, buffer, "; match tag with Some z => str_of_Z z | None => "" end; ");"]);
            (b, "}")]
         else []) ++
        (if simple then [] else [(b, "")]) ++
        flat_map (fun m => flat_map (zig_wstmt b (v_type m)) (zig_write p m)) (s_members s) ++
        [(b, ""); (b, "return local_offset - offset;")]) ++
  [(lvl, "}")].
Definition zig_deinit_text (lvl : Z) (s : struct) : list out_line :=
  [(lvl, cat ["pub fn deinit(self: *"; s_name s; ", allocator: std.mem.Allocator) void {"])] ++
  flat_map (fun m => flat_map (zig_dstmt (lvl + 1) "") (zig_release p m)) (s_members s) ++
  [(lvl, "}")].

(** ** Enums *)

Definition zig_enum_text (lvl : Z) (n : string) (e : enum) : list out_line :=
  [(lvl, cat ["pub const "; n; " = enum("; zig_type_name (e_encoding e); ") {"])] ++
  map (fun v => (lvl + 1, cat [fst v; " = "; str_of_Z (snd v); ","])) (e_values e) ++
  [(lvl, "};")].

(** ** The messages *)

(** The values of MessageType are numbered from 0, in the order in which they stand. *)
Definition zig_switch (lvl : Z) (first : string) (f : Z * string -> string) (tags : list (Z * string)) : list out_line :=
  [(lvl, first); (lvl + 1, "return switch (self) {")] ++ map (fun t => (lvl + 2, f t)) tags ++ [(lvl + 1, "};"); (lvl, "}")].
Definition zig_messages_text (tags : list (Z * string)) : list (list out_line) :=
  [[(0, "pub const MessageType = enum(u8) {")] ++ map (fun t => (1, cat [snd t; ","])) tags ++ [(0, "};")];
   [(0, "pub const Message = union(MessageType) {")] ++ map (fun t => (1, cat [snd t; ": "; snd t; ","])) tags;
   zig_switch 1 "pub fn getSizeInBytes(self: @This()) usize {"
     (fun t => cat ["."; snd t; " => self."; snd t; ".getSizeInBytes(),"]) tags;
   zig_switch 1 "pub fn writeBytes(self: @This(), offset: usize, buffer: []u8, tag: bool) usize {"
     (fun t => cat ["."; snd t; " => self."; snd t; ".writeBytes(offset, buffer, tag),"]) tags;
   [(2, "const msg_type: MessageType = std.meta.intToEnum(MessageType, msg_type_byte - 1) catch return DataReaderError.InvalidData;");
    (2, "switch(msg_type) {")] ++
   flat_map (fun t =>
     [(3, cat ["."; snd t; " => {"]);
      (4, cat ["const msg_read = try "; snd t; ".fromBytes("; (if is_simple p (snd t) then "" else "allocator, "); "local_offset, buffer);"]);
      (4, "local_offset += msg_read.bytes_read;");
      (4, cat ["try msg_list.append(Message{ ."; snd t; " = msg_read.value });"]);
      (3, "},")]) tags ++
   [(2, "}")]].

(** ** The whole file *)

Definition zig_class (g : settings) (s : struct) : list (list out_line) :=
  let simple := is_simple p (s_name s) in
  [zig_fields_text 0 s;
   zig_size_text simple 1 s (g_tab g) (match gen_size zig_style p 0 s with Some size => size | None => [] end);
   zig_from_bytes_text simple 1 s;
   zig_write_bytes_text simple 1 s (tag_of (s_name s) (zig_tags p))] ++
  (if simple then [] else [zig_deinit_text 1 s]).
End Syntax.

Definition zig_file (p : protocol) (g : settings) : list (list out_line) :=
  zig_messages_text p (zig_message_type p) ++
  map (fun e => zig_enum_text 0 (fst e) (snd e)) (p_enums p) ++
  flat_map (fun s => zig_class p g (snd s)) (p_structs p ++ p_messages p).
