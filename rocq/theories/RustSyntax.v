(** How the statements of IR.v and Measure.v are written in Rust.  A specification: it
    does not look at the generator. *)
From Verif Require Export Syntax Rust.
Open Scope string_scope.
Open Scope Z_scope.
Open Scope list_scope.

Definition rs_number (k : num) : string :=
  match k with
  | NByte => "u8" | NBool => "bool" | NU16 => "u16" | NI16 => "i16" | NU32 => "u32" | NI32 => "i32"
  | NU64 => "u64" | NI64 => "i64" | NF32 => "f32" | NF64 => "f64"
  end.
(** A type: a number type, String or the declared name. *)
Definition rs_type_name (t : string) : string :=
  match num_of t with Some k => rs_number k | None => if String.eqb t "string" then "String" else t end.
Definition rs_is_number (t : string) : bool := match num_of t with Some _ => true | None => false end.

Section Syntax.
Variable p : protocol.
(** The prefix of the type of errors. *)
Variable prefix : string.

(** ** Reading into locals *)

Definition rs_name (d : dst) : string := match d with DField f => f | DElem f _ => f | DLocal x => x end.

(** Numbers are read by read_<type>, except for members and elements that are bytes or
    bools; [t] is the type of the member or element, or None if a length is meant. *)
Definition rs_get (t : option string) (k : num) : string :=
  match t, k with
  | Some t, NByte => if rs_is_number t then "take_byte()?" else "read_u8()?"
  | Some t, NBool => if rs_is_number t then "take_byte()? > 0" else "read_bool()?"
  | _, _ => cat ["read_"; rs_number k; "()?"]
  end.
Fixpoint rs_stmt (t : string) (value : bool) (lvl : Z) (st : rstmt) : list out_line :=
  match st with
  | RNum d k => [(lvl, cat ["let "; rs_name d; " = reader."; rs_get (if value then Some t else None) k; ";"])]
  | RStr d => [(lvl, cat ["let "; rs_name d; " = reader.read_string()?;"])]
  | REnumCheck x e => [(lvl, cat ["let "; x; " = "; e; "::try_from("; x; ")?;"])]
  | RPush d x => [(lvl, cat [rs_name d; ".push("; x; ");"])]
  | RCall d n => [(lvl, cat ["let "; rs_name d; " = "; n; "::from_bytes(reader)?;"])]
  | RNew d n None => [(lvl, cat ["let mut "; rs_name d; ": Vec<"; rs_type_name n; "> = Vec::new();"])]
  | RFor x n body =>
      [(lvl, cat ["for "; x; " in 0.."; rs_name n; " {"])] ++
      flat_map (rs_stmt t true (lvl + 1)) body ++
      [(lvl, "}")]
  | _ => [(lvl, "?")]                          (* not used *)
  end.
(** A member that is a list starts with its length. *)
Definition rs_member_text (lvl : Z) (m : var) (read : list rstmt) : list out_line :=
  flat_map (rs_stmt (v_type m) (negb (v_list m)) lvl) read.

(** ** Writing *)

Definition rs_source (enum : bool) (s : src) : string :=
  match s with
  | SField f => cat ["self."; f]
  | SElem f i => cat ["self."; f; "["; i; "]"]
  | SLocal x => cat [(if enum then "*" else ""); x]
  end.

(** [enum]: the member is of an enum type, or a list of it. *)
Fixpoint rs_wstmt (enum : bool) (lvl : Z) (st : wstmt) : list out_line :=
  match st with
  | WNum k s =>
      let x := if enum then cat [rs_source enum s; " as "; rs_number k] else rs_source enum s in
      [(lvl, match k with
             | NByte => cat ["writer.push("; x; ");"]
             | NBool => cat ["writer.push(if "; x; " {1_u8} else {0_u8});"]
             | _ => cat ["writer.extend("; (if enum then cat ["("; x; ")"] else x); ".to_le_bytes());"]
             end)]
  | WStr s =>
      [(lvl, cat ["writer.extend(("; rs_source enum s; ".len() as "; rs_type_name (p_string_size_type p); ").to_le_bytes());"]);
       (lvl, cat ["writer.extend("; rs_source enum s; ".as_bytes());"])]
  | WCall _ s => [(lvl, cat [rs_source enum s; ".write_bytes(writer);"])]
  | WCount k s => [(lvl, cat ["writer.extend(("; rs_source enum s; ".len() as "; rs_number k; ").to_le_bytes());"])]
  | WForEach x s body =>
      [(lvl, cat ["for "; x; " in &"; rs_source enum s; " {"])] ++
      flat_map (rs_wstmt enum (lvl + 1)) body ++
      [(lvl, "}")]
  | _ => [(lvl, "?")]                          (* not used *)
  end.

(** ** Measuring, with [tab] for indentation *)

Fixpoint rs_path (q : mpath) : string :=
  match q with
  | MRoot => "self"
  | MVar x => x
  | MField q f => cat [rs_path q; "."; f]
  | MElem q i => cat [rs_path q; "["; i; "]"]
  end.
Fixpoint rs_mstmt (tab : string) (st : mstmt) : list string :=
  match st with
  | MInit => ["let mut size: usize = 0;"]
  | MAdd z => [cat ["size += "; str_of_Z z; ";"]]
  | MAddLen q z => [cat ["size += "; rs_path q; ".len() * "; str_of_Z z; ";"]]
  | MAddStr q z => [cat ["size += "; (if z =? 0 then "" else cat [str_of_Z z; " + "]); rs_path q; ".len();"]]
  | MForEach x q body =>
      [cat ["for "; x; " in &"; rs_path q; " {"]] ++
      map (fun l => tab +++ l) (flat_map (rs_mstmt tab) body) ++ ["}"]
  | MReturn z => [str_of_Z z]
  | MReturnSize => ["size"]
  | _ => ["?"]                                 (* not used *)
  end.

(** ** A struct, whose lines are at level [lvl] *)

Definition rs_fields_text (lvl : Z) (s : struct) : list out_line :=
  [(lvl, "#[derive(Default)]"); (lvl, cat ["pub struct "; s_name s; " {"])] ++
  map (fun m => (lvl + 1, cat ["pub "; v_name m; ": ";
                               (if v_list m then cat ["Vec<"; rs_type_name (v_type m); ">"] else rs_type_name (v_type m)); ","])) (s_members s) ++
  [(lvl, "}")].
Definition rs_size_text (lvl : Z) (tab : string) (size : list mstmt) : list out_line :=
  [(lvl, "fn get_size_in_bytes(&self) -> usize {")] ++
  at_lvl (lvl + 1) (flat_map (rs_mstmt tab) size) ++
  [(lvl, "}")].
(** [read] is the program, member by member; then the struct is built from the locals
    [build]. *)
Definition rs_from_bytes_text (lvl : Z) (s : struct) (read : var -> list rstmt) (build : list (string * string)) : list out_line :=
  [(lvl, cat ["fn from_bytes("; match s_members s with [] => "_" | _ => "" end; "reader: &mut BufferReader) -> Result<";
              s_name s; ", "; prefix; "Error> {"])] ++
  flat_map (fun m => rs_member_text (lvl + 1) m (read m)) (s_members s) ++
  [(lvl + 1, cat ["Ok("; s_name s; " {";
                  String.concat ", " (map (fun b => if String.eqb (fst b) (snd b) then fst b else cat [fst b; ": "; snd b]) build); "})"]);
   (lvl, "}")].
(** [tag] is the number of the message. *)
Definition rs_write_bytes_text (lvl : Z) (s : struct) (tag : option Z) (write : var -> list wstmt) : list out_line :=
  let b := lvl + 1 in
  (if s_is_message s then
     [(lvl, "fn write_bytes(&self, writer: &mut Vec<u8>, tag: bool) {");
      (b, "if tag {"); (b + 1, cat ["writer.push("; match tag with Some z => str_of_Z z | None => "" end; "_u8);"]); (b, "}")]
   else [(lvl, "pub fn write_bytes(&self, writer: &mut Vec<u8>) {")]) ++
  flat_map (fun m => flat_map (rs_wstmt (mem (v_type m) (p_enums p)) b) (write m)) (s_members s) ++
  [(lvl, "}"); (lvl - 1, "}")].

(** ** Enums *)

Definition rs_enum_text (lvl : Z) (n : string) (e : enum) : list out_line :=
  let t := rs_type_name (e_encoding e) in
  [(lvl, cat ["#[repr("; t; ")]"]);
   (lvl, "#[derive(Debug, Copy, Clone, PartialEq, Eq)]");
   (lvl, cat ["pub enum "; n; " {"])] ++
  map (fun v => (lvl + 1, cat [fst v; " = "; str_of_Z (snd v); ","])) (e_values e) ++
  [(lvl, "}");
   (lvl, "");
   (lvl, cat ["impl Default for "; n; " {"]);
   (lvl + 1, cat ["fn default() -> Self { "; n; "::"; match get_default_pair e with Some (d, _) => d | None => "" end; " }"]);
   (lvl, "}");
   (lvl, "");
   (lvl, cat ["impl TryFrom<"; t; "> for "; n; " {"]);
   (lvl + 1, cat ["type Error = "; prefix; "Error;"]);
   (lvl + 1, "");
   (lvl + 1, cat ["fn try_from(value: "; t; ") -> Result<Self, "; prefix; "Error> {"]);
   (lvl + 2, "match value {")] ++
  map (fun v => (lvl + 3, cat [str_of_Z (snd v); " => Ok("; n; "::"; fst v; "),"])) (e_values e) ++
  [(lvl + 3, cat ["_ => Err("; prefix; "Error::InvalidData)"]);
   (lvl + 2, "}");
   (lvl + 1, "}");
   (lvl, "}")].

(** ** The messages *)

(** A line for every message between two lines. *)
Definition rs_cases (lvl : Z) (first : string) (f : Z * string -> string) (tags : list (Z * string)) (last : string) : list out_line :=
  [(lvl, first)] ++ map (fun t => (lvl + 1, f t)) tags ++ [(lvl, last)].
Definition rs_messages_text (tags : list (Z * string)) : list (list out_line) :=
  [rs_cases 0 "pub enum MessageType {" (fun t => cat [snd t; ","]) tags "}";
   rs_cases 0 "pub enum Message {" (fun t => cat [snd t; "("; snd t; "),"]) tags "}";
   [(1, "fn get_message_type(&self) -> MessageType {")] ++
     rs_cases 2 "match self {" (fun t => cat ["Message::"; snd t; "(_) => MessageType::"; snd t; ","]) tags "}" ++ [(1, "}")];
   [(1, "fn get_size_in_bytes(&self) -> usize {")] ++
     rs_cases 2 "match self {" (fun t => cat ["Message::"; snd t; "(msg) => msg.get_size_in_bytes(),"]) tags "}" ++ [(1, "}")];
   [(1, cat ["fn from_bytes(reader: &mut BufferReader) -> Result<Message, "; prefix; "Error> {"]);
    (2, "let tag = reader.take_byte()?;");
    (2, "let msg = match tag {");
    (3, cat ["0 => return Err("; prefix; "Error::EndOfMessageList),"])] ++
   map (fun t => (3, cat [str_of_Z (fst t); " => Message::"; snd t; "("; snd t; "::from_bytes(reader)?),"])) tags ++
   [(3, cat ["_ => return Err("; prefix; "Error::InvalidData),"]);
    (2, "};");
    (2, "Ok(msg)");
    (1, "}")];
   [(1, "fn write_bytes(&self, writer: &mut Vec<u8>, tag: bool) {")] ++
     rs_cases 2 "match self {" (fun t => cat ["Message::"; snd t; "(msg) => msg.write_bytes(writer, tag),"]) tags "}" ++ [(1, "}")]].

(** ** The whole file *)

Definition rs_class (g : settings) (s : struct) : list (list out_line) :=
  [rs_fields_text 0 s;
   rs_size_text 1 (g_tab g) (match gen_size rs_style p 0 s with Some size => size | None => [] end);
   rs_from_bytes_text 1 s (rs_read p) (match last (rs_reader p s) RIllTyped with RBuild l => l | _ => [] end);
   rs_write_bytes_text 1 s (tag_of (s_name s) (rs_tags p)) (rs_write p)].
End Syntax.

Definition rs_file (p : protocol) (g : settings) : list (list out_line) :=
  let prefix := match g_namespace g with Some n => n | None => "Beschi" end in
  rs_messages_text prefix (rs_tags p) ++
  map (fun e => rs_enum_text prefix 0 (fst e) (snd e)) (p_enums p) ++
  flat_map (fun s => rs_class p prefix g (snd s)) (p_structs p ++ p_messages p).
