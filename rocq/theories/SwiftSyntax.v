(** How the statements of IR.v and Measure.v are written in Swift.  A specification: it
    does not look at the generator. *)
From Verif Require Export Syntax Swift.
Open Scope string_scope.
Open Scope Z_scope.
Open Scope list_scope.

(** A number type, which is also in the name of the method that reads it, and the label
    of the method that writes it. *)
Definition sw_number (k : num) : string :=
  match k with
  | NByte => "UInt8" | NBool => "Bool" | NU16 => "UInt16" | NI16 => "Int16" | NU32 => "UInt32" | NI32 => "Int32"
  | NU64 => "UInt64" | NI64 => "Int64" | NF32 => "Float32" | NF64 => "Float64"
  end.
Definition sw_label_name (k : num) : string :=
  match k with
  | NByte => "uint8" | NBool => "bool" | NU16 => "uint16" | NI16 => "int16" | NU32 => "uint32" | NI32 => "int32"
  | NU64 => "uint64" | NI64 => "int64" | NF32 => "float32" | NF64 => "float64"
  end.
(** A type: a number type, String or the declared name. *)
Definition sw_type_name (t : string) : string :=
  match num_of t with Some k => sw_number k | None => if String.eqb t "string" then "String" else t end.

Section Syntax.
Variable p : protocol.

(** ** Reading into the object [obj] *)
Section Read.
Variable obj : string.

(** Where a value goes; a local is declared. *)
Definition sw_place (d : dst) : string :=
  match d with
  | DField f => cat [obj; "."; f]
  | DElem f i => cat [obj; "."; f; "["; i; "]"]
  | DLocal x => cat ["let "; x]
  end.
Definition sw_name (d : dst) : string := match d with DField f => f | DElem f _ => f | DLocal x => x end.

(** The test of the number of an enum and the use of the value are one statement, with
    a local for the value if it goes to a member. *)
Definition sw_guard (lvl : Z) (x t y : string) : list out_line :=
  [(lvl, cat ["guard let "; y; " = "; t; "(rawValue: "; x; ") else {"]);
   (lvl + 1, "throw DataReaderError.InvalidData");
   (lvl, "}")].
Definition sw_enum (lvl : Z) (x t : string) (d : dst) : list out_line :=
  match d with
  | DLocal y => sw_guard lvl x t y
  | _ => sw_guard lvl x t (cat ["_"; sw_name d]) ++ [(lvl, cat [sw_place d; " = _"; sw_name d])]
  end.
(** [before]: the test, if the statement before was one. *)
Definition sw_move (lvl : Z) (before : option (string * string)) (d : dst) (x : string) : list out_line :=
  match before with
  | Some (y, t) => if String.eqb x y then sw_enum lvl x t d else [(lvl, "?")]
  | None => [(lvl, "?")]                       (* not used *)
  end.
Definition sw_tested (st : rstmt) : option (string * string) := match st with REnumCheck x t => Some (x, t) | _ => None end.
Fixpoint sw_stmt (before : option (string * string)) (lvl : Z) (st : rstmt) : list out_line :=
  match st with
  | RNum d k => [(lvl, cat [sw_place d; " = try dataReader.Get"; sw_number k; "()"])]
  | RStr d => [(lvl, cat [sw_place d; " = try dataReader.GetString()"])]
  | REnumCheck x t => []
  | RMove d x => sw_move lvl before d x
  | RPush d x => [(lvl, cat [sw_place d; ".append("; x; ")"])]
  | RCall d t => [(lvl, cat [sw_place d; " = try "; t; ".FromBytes(dataReader: dataReader)"])]
  | RNew d t None => [(lvl, cat [sw_place d; " = []"])]
  | RFor _ n body =>
      [(lvl, cat ["for _ in 0..<"; sw_name n; " {"])] ++
      (fix go (before : option (string * string)) (l : list rstmt) : list out_line :=
         match l with
         | [] => []
         | a :: r => sw_stmt before (lvl + 1) a ++ go (sw_tested a) r
         end) None body ++
      [(lvl, "}")]
  | _ => [(lvl, "?")]                          (* not used *)
  end.
Fixpoint sw_stmts (before : option (string * string)) (lvl : Z) (l : list rstmt) : list out_line :=
  match l with
  | [] => []
  | a :: r => sw_stmt before lvl a ++ sw_stmts (sw_tested a) lvl r
  end.
End Read.

(** ** Writing *)

Definition sw_source (s : src) : string :=
  match s with
  | SField f => cat ["self."; f]
  | SElem f i => cat ["self."; f; "["; i; "]"]
  | SLocal x => x
  end.

(** [enum]: the member is of an enum type, or a list of it. *)
Fixpoint sw_wstmt (enum : bool) (lvl : Z) (st : wstmt) : list out_line :=
  match st with
  | WNum k s => [(lvl, cat ["dataWriter.Write("; sw_label_name k; ": "; sw_source s; (if enum then ".rawValue" else ""); ")"])]
  | WStr s => [(lvl, cat ["dataWriter.Write(string: "; sw_source s; ")"])]
  | WCall _ s => [(lvl, cat [sw_source s; ".WriteBytes(dataWriter)"])]
  | WCount k s => [(lvl, cat ["dataWriter.Write("; sw_label_name k; ": "; sw_number k; "("; sw_source s; ".count))"])]
  | WForEach x s body =>
      [(lvl, cat ["for "; x; " in "; sw_source s; " {"])] ++
      flat_map (sw_wstmt enum (lvl + 1)) body ++
      [(lvl, "}")]
  | _ => [(lvl, "?")]                          (* not used *)
  end.

(** ** Measuring, with [tab] for indentation *)

Fixpoint sw_path (q : mpath) : string :=
  match q with
  | MRoot => "self"
  | MVar x => x
  | MField q f => cat [sw_path q; "."; f]
  | MElem q i => cat [sw_path q; "["; i; "]"]
  end.
(** [semi]: what ends an addition; nothing in a loop. *)
Fixpoint sw_mstmt (tab semi : string) (st : mstmt) : list string :=
  match st with
  | MInit => ["var size = 0"]
  | MAdd z => [cat ["size += "; str_of_Z z; semi]]
  | MAddLen q z => [cat ["size += "; sw_path q; ".count * "; str_of_Z z]]
  | MAddStr q z =>
      [cat ["size += "; (if z =? 0 then "" else cat [str_of_Z z; " + "]); sw_path q; ".data(using: String.Encoding.utf8)!.count"]]
  | MForEach x q body =>
      [cat ["for "; x; " in "; sw_path q; " {"]] ++
      map (fun l => tab +++ l) (flat_map (sw_mstmt tab "") body) ++ ["}"]
  | MReturn z => [cat ["return "; str_of_Z z; ";"]]
  | MReturnSize => ["return UInt32(size)"]
  | _ => ["?"]                                 (* not used *)
  end.

(** ** A class or struct, whose lines are at level [lvl] *)

(** The head: its members, with the initial values. *)
Definition sw_initial (m : var) : string :=
  if v_list m then "[]"
  else match num_of (v_type m) with
  | Some NBool => "false"
  | Some NF32 | Some NF64 => "0.0"
  | Some _ => "0"
  | None =>
      if String.eqb (v_type m) "string" then """"""
      else match lookup (v_type m) (p_enums p) with
      | Some e => cat [v_type m; "."; match get_default_pair e with Some (n, _) => n | None => "" end]
      | None => cat [v_type m; "()"]
      end
  end.
Definition sw_fields_text (lvl : Z) (s : struct) : list out_line :=
  [(lvl, cat ["public "; (if s_is_message s then "class" else "struct"); " "; s_name s; (if s_is_message s then ": Message" else ""); " {"])] ++
  map (fun m => (lvl + 1, cat ["public var "; v_name m; ": ";
                               (if v_list m then cat ["["; sw_type_name (v_type m); "]"] else sw_type_name (v_type m));
                               " = "; sw_initial m])) (s_members s) ++
  [(lvl + 1, "")].
Definition sw_size_text (lvl : Z) (tab : string) (size : list mstmt) : list out_line :=
  [(lvl, "public override func GetSizeInBytes() -> UInt32 {")] ++
  at_lvl (lvl + 1) (flat_map (sw_mstmt tab ";") size) ++
  [(lvl, "}")].
Definition sw_from_bytes_text (lvl : Z) (s : struct) (read : list rstmt) : list out_line :=
  let n := s_name s in
  let constant := s_is_message s || match s_members s with [] => true | _ => false end in
  [(lvl, cat [(if s_is_message s then "override class" else "static"); " func FromBytes(dataReader: DataReader) throws -> Self {"]);
   (lvl + 1, cat [(if constant then "let" else "var"); " n"; n; " = Self.init()"])] ++
  sw_stmts (cat ["n"; n]) None (lvl + 1) read ++
  [(lvl + 1, cat ["return n"; n]); (lvl, "}")].
Definition sw_write_bytes_text (lvl : Z) (s : struct) (write : var -> list wstmt) : list out_line :=
  let b := lvl + 1 in
  (if s_is_message s then
     [(lvl, "public override func WriteBytes(data: NSMutableData, tag: Bool) -> Void {");
      (b, "let dataWriter = DataWriter(withData: data)");
      (b, "if (tag) {"); (b + 1, cat ["dataWriter.Write(uint8: MessageType."; s_name s; "Type.rawValue)"]); (b, "}")]
   else [(lvl, "func WriteBytes(_ dataWriter: DataWriter) -> Void {")]) ++
  flat_map (fun m => flat_map (sw_wstmt (mem (v_type m) (p_enums p)) b) (write m)) (s_members s) ++
  [(lvl, "}"); (lvl - 1, "}")].

(** ** Enums *)

Definition sw_tags_text (lvl : Z) (tags : list (Z * string)) : list out_line :=
  [(lvl, "public enum MessageType: UInt8 {")] ++
  match tags with [] => [(lvl + 1, "case __NullMessage = 0 /* to keep the compiler happy */")] | _ => [] end ++
  map (fun t => (lvl + 1, cat ["case "; snd t; "Type = "; str_of_Z (fst t)])) tags ++
  [(lvl, "}")].
(** The choice of the reader; [prefix] is that of the namespace. *)
Definition sw_switch_text (lvl : Z) (prefix : string) (tags : list (Z * string)) : list out_line :=
  [(lvl, "switch msgType {")] ++
  flat_map (fun t => [(lvl + 1, cat ["case "; prefix; "MessageType."; snd t; "Type:"]);
                      (lvl + 2, cat ["msgList.append(try "; snd t; ".FromBytes(dataReader: dr))"])]) tags ++
  match tags with [] => [(lvl + 1, cat ["case "; prefix; "MessageType.__NullMessage:"]); (lvl + 2, "break")] | _ => [] end ++
  [(lvl, "}")].
Definition sw_enum_text (lvl : Z) (n : string) (e : enum) : list out_line :=
  [(lvl, cat ["public enum "; n; ": "; sw_type_name (e_encoding e); " {"])] ++
  map (fun v => (lvl + 1, cat ["case "; fst v; " = "; str_of_Z (snd v)])) (e_values e) ++
  [(lvl, "}")].

(** ** The whole file *)

Definition sw_class (g : settings) (lvl : Z) (s : struct) : list (list out_line) :=
  [sw_fields_text lvl s] ++
  (if s_is_message s then
     [sw_size_text (lvl + 1) (g_tab g) (match gen_size sw_style p 0 s with Some size => size | None => [] end)]
   else []) ++
  [sw_from_bytes_text (lvl + 1) s (sw_reader p s); sw_write_bytes_text (lvl + 1) s (sw_write p)].
Definition sw_file (g : settings) : list (list out_line) :=
  let lvl := match g_namespace g with Some _ => 1 | None => 0 end in
  let prefix := match g_namespace g with Some n => cat [n; "."] | None => "" end in
  [sw_tags_text lvl (sw_tags p); sw_switch_text (lvl + 2) prefix (sw_tags p)] ++
  map (fun e => sw_enum_text lvl (fst e) (snd e)) (p_enums p) ++
  flat_map (fun s => sw_class g lvl (snd s)) (p_structs p ++ p_messages p).
End Syntax.
