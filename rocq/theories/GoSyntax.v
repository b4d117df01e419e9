(** How the statements of IR.v and Measure.v are written in Go.  A specification: it
    does not look at the generator. *)
From Verif Require Export Syntax Go.
Open Scope string_scope.
Open Scope Z_scope.
Open Scope list_scope.

Definition go_number (k : num) : string :=
  match k with
  | NByte => "byte" | NBool => "bool" | NU16 => "uint16" | NI16 => "int16" | NU32 => "uint32" | NI32 => "int32"
  | NU64 => "uint64" | NI64 => "int64" | NF32 => "float32" | NF64 => "float64"
  end.
(** A type: a number type, string or the declared name. *)
Definition go_type_name (t : string) : string :=
  match num_of t with Some k => go_number k | None => t end.

Section Syntax.
Variable p : protocol.

(** ** Reading.  [obj] is the object that is filled; [message]: FromBytes of a message,
    which returns the object and the error. *)

Definition go_target (obj : string) (d : dst) : string :=
  match d with
  | DField f => cat [obj; "."; f]
  | DElem f i => cat [obj; "."; f; "["; i; "]"]
  | DLocal x => x
  end.
Definition go_give_up (message : bool) (lvl : Z) (what args : string) : list out_line :=
  [(lvl + 1, cat ["return "; (if message then "nil, " else ""); "fmt.Errorf("""; what; """, "; args; ")"]); (lvl, "}")].
(** A call that returns an error. *)
Definition go_try (message : bool) (lvl : Z) (call what : string) : list out_line :=
  (lvl, cat ["if err := "; call; "; err != nil {"]) ::
  go_give_up message lvl (cat ["could not read "; what; " at offset %d (%w)"]) "getDataOffset(data), err".
Definition go_binary_read (x : string) : string := cat ["binary.Read(data, binary.LittleEndian, &"; x; ")"].
(** [m] is the member that is read.  [value]: a local variable holds a value of the
    type of [m], and not a length. *)
Fixpoint go_stmt (obj : string) (message : bool) (m : var) (value : bool) (lvl : Z) (st : rstmt) : list out_line :=
  match st with
  | RNum (DLocal x) k =>
      (lvl, cat ["var "; x; " "; (if value then go_type_name (v_type m) else go_number k)]) ::
      go_try message lvl (go_binary_read x) (if value then go_target obj (DField (v_name m)) else x)
  | RNum d _ | RRaw d _ => go_try message lvl (go_binary_read (go_target obj d)) (go_target obj d)
  | RStr d => go_try message lvl (cat ["readString(data, &"; go_target obj d; ")"]) "string"
  | REnumCheck x e =>
      (lvl, cat ["if !isValid"; e; "("; x; ") {"]) :: go_give_up message lvl (cat ["enum %d out of range for "; e]) x
  | RMove d x => [(lvl, cat [go_target obj d; " = "; x])]
  | RCallInto d t _ => [(lvl, cat [t; "FromBytes(data, &"; go_target obj d; ")"])]
  | RNew d t (Some n) => [(lvl, cat [go_target obj d; " = make([]"; go_type_name t; ", "; go_target obj n; ")"])]
  | RFor i n body =>
      [(lvl, cat ["for "; i; " := ("; go_type_name (p_list_size_type p); ")(0); "; i; " < "; go_target obj n; "; "; i; "++ {"])] ++
      flat_map (go_stmt obj message m true (lvl + 1)) body ++
      [(lvl, "}")]
  | _ => [(lvl, "?")]                          (* not used *)
  end.
(** A member that is a list starts with its length. *)
Definition go_member_text (obj : string) (message : bool) (lvl : Z) (m : var) (read : list rstmt) : list out_line :=
  flat_map (go_stmt obj message m (negb (v_list m)) lvl) read.

(** ** Writing *)

Definition go_source (s : src) : string :=
  match s with
  | SField f => cat ["output."; f]
  | SElem f i => cat ["output."; f; "["; i; "]"]
  | SLocal x => x
  end.
(** binary.Write takes members by reference. *)
Definition go_binary_write (s : src) : string :=
  cat ["binary.Write(data, binary.LittleEndian, "; match s with SLocal _ => "" | _ => "&" end; go_source s; ")"].
Fixpoint go_wstmt (lvl : Z) (st : wstmt) : list out_line :=
  match st with
  | WNum _ s | WRaw _ s => [(lvl, go_binary_write s)]
  | WStr s => [(lvl, cat ["writeString(data, &"; go_source s; ")"])]
  | WCall _ s => [(lvl, cat [go_source s; ".WriteBytes(data)"])]
  | WLetCount x k s => [(lvl, cat [x; " := ("; go_number k; ")(len("; go_source s; "))"])]
  | WForIdx i (BVar x) body =>
      [(lvl, cat ["for "; i; " := ("; go_type_name (p_list_size_type p); ")(0); "; i; " < "; x; "; "; i; "++ {"])] ++
      flat_map (go_wstmt (lvl + 1)) body ++
      [(lvl, "}")]
  | _ => [(lvl, "?")]                          (* not used *)
  end.

(** ** Measuring, with [tab] for indentation *)

Fixpoint go_path (q : mpath) : string :=
  match q with
  | MRoot => "output"
  | MVar x => x
  | MField q f => cat [go_path q; "."; f]
  | MElem q i => cat [go_path q; "["; i; "]"]
  end.
Fixpoint go_mstmt (tab : string) (st : mstmt) : list string :=
  match st with
  | MInit => ["size := 0"]
  | MAdd z => [cat ["size += "; str_of_Z z]]
  | MAddLen q z => [cat ["size += len("; go_path q; ") * "; str_of_Z z]]
  | MAddStr q z => [cat ["size += "; (if z =? 0 then "" else cat [str_of_Z z; " + "]); "len("; go_path q; ")"]]
  | MForEach x q body =>
      [cat ["for _, "; x; " := range "; go_path q; " {"]] ++
      map (fun l => tab +++ l) (flat_map (go_mstmt tab) body) ++ ["}"]
  | MReturn z => [cat ["return "; str_of_Z z]]
  | MReturnSize => ["return size"]
  | _ => ["?"]                                 (* not used *)
  end.

(** ** A struct *)

(** A function: its first line, its lines, and the end. *)
Definition go_function (head : string) (body : list out_line) : list out_line := [(0, head)] ++ body ++ [(0, "}")].

Definition go_fields_text (s : struct) : list out_line :=
  go_function (cat ["type "; s_name s; " struct {"])
    (map (fun m => (1, cat [v_name m; " "; (if v_list m then "[]" else ""); go_type_name (v_type m)])) (s_members s)).
(** The object that is not all zeros, if there is an enum in it. *)
Definition go_fresh_member (m : var) : list out_line :=
  if v_list m then []
  else match lookup (v_type m) (p_enums p) with
  | Some e => [(2, cat [v_name m; ": "; v_type m; match get_default_pair e with Some (d, _) => d | None => "" end; ","])]
  | None =>
      match lookup (v_type m) (p_structs p) with
      | Some st => if go_has_enums p (depth_of p) st then [(2, cat [v_name m; ": New"; v_type m; "Default(),"])] else []
      | None => []
      end
  end.
Definition go_fresh_text (s : struct) : list out_line :=
  go_function (cat ["func New"; s_name s; "Default() "; s_name s; " {"])
    (if go_has_enums p (depth_of p) s then
       [(1, cat ["return "; s_name s; "{"])] ++ flat_map go_fresh_member (s_members s) ++ [(1, "}")]
     else [(1, cat ["return "; s_name s; "{}"])]).
Definition go_tag_text (s : struct) : list out_line :=
  go_function (cat ["func (output "; s_name s; ") GetMessageType() MessageType {"]) [(1, cat ["return "; s_name s; "Type"])].
Definition go_size_text (s : struct) (tab : string) (size : list mstmt) : list out_line :=
  go_function (cat ["func (output "; s_name s; ") GetSizeInBytes() int {"]) (at_lvl 1 (flat_map (go_mstmt tab) size)).
(** [read] is the program, member by member. *)
Definition go_from_bytes_text (s : struct) (read : var -> list rstmt) : list out_line :=
  let members obj message := flat_map (fun m => go_member_text obj message 1 m (read m)) (s_members s) in
  if s_is_message s then
    go_function (cat ["func "; s_name s; "FromBytes(data io.Reader) (*"; s_name s; ", error) {"])
      ([(1, cat ["msg := &"; s_name s; "{}"]); (1, "")] ++ members "msg" true ++ [(1, ""); (1, "return msg, nil")])
  else
    go_function (cat ["func "; s_name s; "FromBytes(data io.Reader, input *"; s_name s; ") error {"])
      (members "input" false ++ [(1, "return nil")]).
Definition go_write_bytes_text (s : struct) (write : var -> list wstmt) : list out_line :=
  go_function (cat ["func (output "; s_name s; ") WriteBytes(data io.Writer"; (if s_is_message s then ", tag bool" else ""); ") {"])
    ((if s_is_message s then
        [(1, "if tag {"); (2, cat ["binary.Write(data, binary.LittleEndian, "; s_name s; "Type)"]); (1, "}")]
      else []) ++
     flat_map (fun m => flat_map (go_wstmt 1) (write m)) (s_members s)).

(** ** Enums *)

Definition go_widest (l : list string) : nat := fold_right (fun n w => Nat.max (String.length n) w) O l.
Definition go_spaces (n : nat) : string := cat (repeat " " n).
Definition go_enum_text (n : string) (e : enum) : list out_line :=
  let w := go_widest (map fst (e_values e)) in
  [(0, cat ["type "; n; " "; go_type_name (e_encoding e)]);
   (0, "");
   (0, "const (")] ++
  map (fun v => (1, cat [n; fst v; go_spaces (w - String.length (fst v)); " "; n; " = "; str_of_Z (snd v)])) (e_values e) ++
  [(0, ")");
   (0, "");
   (0, cat ["func isValid"; n; "(value "; n; ") bool {"]);
   (1, "switch value {");
   (1, cat ["case "; String.concat ", " (map (fun v => n +++ v) (map fst (e_values e))); ":"]);
   (2, "return true");
   (1, "default:");
   (2, "return false");
   (1, "}");
   (0, "}")].

(** ** The messages *)

Definition go_tags_text (tags : list (Z * string)) : list out_line :=
  [(0, "type MessageType byte"); (0, "const (")] ++
  map (fun t => (1, cat [snd t; "Type MessageType = "; str_of_Z (fst t)])) tags ++
  [(0, ")")].
Definition go_process_text (tags : list (Z * string)) : list out_line :=
  go_function "func ProcessRawBytes(data io.Reader, max int) ([]Message, error) {"
    ([(1, "var msgList []Message");
      (1, "if max == 0 {"); (2, "return msgList, nil"); (1, "}");
      (1, "var err error");
      (1, "for (err != io.EOF) && (max < 0 || len(msgList) < max) {");
      (2, "var msgType MessageType");
      (2, "err = binary.Read(data, binary.LittleEndian, &msgType)");
      (2, "if err == io.EOF {"); (3, "break"); (2, "}");
      (2, "if msgType == 0 {"); (3, "return msgList, nil"); (2, "}");
      (2, "switch msgType {")] ++
     flat_map (fun t =>
       [(2, cat ["case "; snd t; "Type:"]);
        (3, cat ["msg, err := "; snd t; "FromBytes(data)"]);
        (3, "if err != nil {"); (4, cat ["return nil, fmt.Errorf(""err in "; snd t; " read (%w)"", err)"]); (3, "}");
        (3, "msgList = append(msgList, msg)")]) tags ++
     [(2, "default:"); (3, "return nil, fmt.Errorf(""unknown message type: %d"", msgType)"); (2, "}");
      (1, "}");
      (1, "return msgList, nil")]).

(** ** The whole file *)

Definition go_class (g : settings) (s : struct) : list (list out_line) :=
  [go_fields_text s; go_fresh_text s] ++
  (if s_is_message s then
     [go_tag_text s; go_size_text s (g_tab g) (match gen_size go_style p 0 s with Some size => size | None => [] end)]
   else []) ++
  [go_from_bytes_text s (go_read p); go_write_bytes_text s (go_write p)].
Definition go_file (g : settings) : list (list out_line) :=
  [go_tags_text (go_tags p); go_process_text (go_tags p)] ++
  map (fun e => go_enum_text (fst e) (snd e)) (p_enums p) ++
  flat_map (fun s => go_class g (snd s)) (p_structs p ++ p_messages p).
End Syntax.
