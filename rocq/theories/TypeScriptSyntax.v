(** How the statements of IR.v and Measure.v are written in TypeScript, and in
    AssemblyScript ([asm]).  A specification: it does not look at the generator. *)
From Verif Require Export Syntax AssemblyScript.
Open Scope string_scope.
Open Scope Z_scope.
Open Scope list_scope.

(** The accessor of a number, after get or set (boilerplate/TypeScript.ts:23-138,
    boilerplate/AssemblyScript.ts:17-211). *)
Definition ts_accessor (k : num) : string :=
  match k with
  | NByte => "Byte" | NBool => "Bool" | NU16 => "Uint16" | NI16 => "Int16" | NU32 => "Uint32" | NI32 => "Int32"
  | NU64 => "Uint64" | NI64 => "Int64" | NF32 => "Float32" | NF64 => "Float64"
  end.

(** A number type of AssemblyScript. *)
Definition as_number (k : num) : string :=
  match k with
  | NByte => "u8" | NBool => "bool" | NU16 => "u16" | NI16 => "i16" | NU32 => "u32" | NI32 => "i32"
  | NU64 => "u64" | NI64 => "i64" | NF32 => "f32" | NF64 => "f64"
  end.

Section Syntax.
Variable p : protocol.
Variable asm : bool.

(** A type. *)
Definition ts_type_name (t : string) : string := or_empty (if asm then as_type p t else ts_type p t).

(** The test behind a call that may fail, in AssemblyScript. *)
Definition ts_check (lvl : Z) (result : string) : list out_line :=
  if asm then [(lvl, cat ["if (da.hasError) { return "; result; "; }"])] else [].

(** ** Reading into the object [obj] *)
Section Read.
Variable obj : string.

Definition ts_member (d : dst) : string :=
  match d with DField f => f | DElem f i => cat [f; "["; i; "]"] | DLocal x => x end.
Definition ts_place (d : dst) : string :=
  match d with DLocal x => x | _ => cat [obj; "."; ts_member d] end.
(** A new local; in AssemblyScript the test of an enum may change it. *)
Definition ts_declare (d : dst) (next : list rstmt) : string :=
  match d with
  | DLocal x => match next with REnumCheck _ _ :: _ => if asm then "let " else "const " | _ => "const " end
  | _ => ""
  end.

Fixpoint ts_stmt (lvl : Z) (st : rstmt) (next : list rstmt) : list out_line :=
  match st with
  | RNum d k => (lvl, cat [ts_declare d next; ts_place d; " = da.get"; ts_accessor k; "();"]) :: ts_check lvl "null"
  | RStr d => (lvl, cat [ts_place d; " = da.getString();"]) :: ts_check lvl "null"
  | REnumCheck x t =>
      if asm then
        match lookup t (p_enums p) with
        | Some e =>
            let unknown := cat [t; "._Unknown as "; ts_type_name (e_encoding e)] in
            [(lvl, cat ["if ("; x; " < "; lowest e; " || "; x; " >= ("; unknown; ")) {"]);
             (lvl + 1, cat [x; " = "; unknown; ";"]);
             (lvl, "}")]
        | None => []
        end
      else
        [(lvl, cat ["if ("; t; "["; x; "] === undefined) {"]);
         (lvl + 1, cat ["throw new Error(`Enum (${"; x; "}) out of range for "; t; "`);"]);
         (lvl, "}")]
  | RMove d x => [(lvl, cat [ts_place d; " = "; x; ";"])]
  | RCall d t =>
      if asm then
        let x := cat ["_"; var_clean (ts_member d)] in
        [(lvl, cat ["const "; x; " = "; t; ".fromBytes(da);"]);
         (lvl, cat ["if ("; x; " == null) {"]); (lvl + 1, "return null;"); (lvl, "}");
         (lvl, "else {"); (lvl + 1, cat [ts_place d; " = "; x; ";"]); (lvl, "}")]
      else [(lvl, cat [ts_place d; " = "; t; ".fromBytes(da);"])]
  | RNew d t (Some n) => [(lvl, cat [ts_place d; " = new Array<"; ts_type_name t; ">("; ts_place n; ");"])]
  | RFor i n body =>
      [(lvl, cat ["for (let "; i; ": "; ts_type_name (p_list_size_type p); " = 0; "; i; " < "; ts_place n; "; "; i; "++) {"])] ++
      (fix go (l : list rstmt) : list out_line :=
         match l with [] => [] | a :: r => ts_stmt (lvl + 1) a r ++ go r end) body ++
      [(lvl, "}")]
  | _ => []
  end.
Fixpoint ts_stmts (lvl : Z) (l : list rstmt) : list out_line :=
  match l with [] => [] | a :: r => ts_stmt lvl a r ++ ts_stmts lvl r end.
End Read.

(** ** Writing *)

Definition ts_source (s : src) : string :=
  match s with
  | SField f => cat ["this."; f]
  | SElem f i => cat ["this."; f; "["; i; "]"]
  | SLocal x => x
  end.
Definition ts_bound (b : bound) : string :=
  match b with BVar x => x | BLen s => cat [ts_source s; ".length"] | BMember f => cat ["this."; f] end.
(** AssemblyScript needs a cast where the expression has another type. *)
Definition ts_cast (k : num) : string := if asm then cat [" as "; as_number k] else "".

(** [is_enum]: the numbers are values of an enum. *)
Fixpoint ts_wstmt (is_enum : bool) (lvl : Z) (st : wstmt) : list out_line :=
  match st with
  | WNum k s => (lvl, cat ["da.set"; ts_accessor k; "("; ts_source s; (if is_enum then ts_cast k else ""); ");"])
                :: ts_check lvl "false"
  | WStr s => (lvl, cat ["da.setString("; ts_source s; ");"]) :: ts_check lvl "false"
  | WCall t s =>
      if asm then [(lvl, cat ["if (!"; ts_source s; ".writeBytes(da)) { return false; };"])]
      else [(lvl, cat [ts_source s; ".writeBytes(da);"])]
  | WCount k s => (lvl, cat ["da.set"; ts_accessor k; "("; ts_source s; ".length"; ts_cast k; ");"]) :: ts_check lvl "false"
  | WLet x s => [(lvl, cat ["let "; x; " = "; ts_source s; ";"])]
  | WForIdx i b body =>
      [(lvl, cat ["for (let "; i; " = 0; "; i; " < "; ts_bound b; "; "; i; "++) {"])] ++
      flat_map (ts_wstmt is_enum (lvl + 1)) body ++
      [(lvl, "}")]
  | _ => []
  end.

(** ** Measuring, with [tab] for indentation *)

Fixpoint ts_path (q : mpath) : string :=
  match q with
  | MRoot => "this"
  | MVar x => x
  | MField q f => cat [ts_path q; "."; f]
  | MElem q i => cat [ts_path q; "["; i; "]"]
  end.
Definition ts_utf8 (q : mpath) : string :=
  if asm then cat ["String.UTF8.encode("; ts_path q; ", false).byteLength"]
  else cat ["_textEnc.encode("; ts_path q; ").byteLength"].
Fixpoint ts_mstmt (tab : string) (st : mstmt) : list string :=
  match st with
  | MInit => [if asm then "let size: usize = 0;" else "let size: number = 0;"]
  | MAdd z => [cat ["size += "; str_of_Z z; ";"]]
  | MAddLen q z => [cat ["size += "; ts_path q; ".length * "; str_of_Z z; ";"]]
  | MAddStr q z => [cat ["size += "; (if z =? 0 then "" else cat [str_of_Z z; " + "]); ts_utf8 q; ";"]]
  | MForIdx i q body =>
      [cat ["for (let "; i; "=0; "; i; " < "; ts_path q; ".length; "; i; "++) {"]] ++
      map (fun l => tab +++ l) (flat_map (ts_mstmt tab) body) ++ ["}"]
  | MReturn z => [cat ["return "; str_of_Z z; ";"]]
  | MReturnSize => ["return size;"]
  | _ => [""]                              (* not used *)
  end.

(** ** The methods of a class, whose lines are at level [lvl] *)

(** [read] is the program of fromBytes.  (TypeScript catches and rethrows in messages.) *)
Definition ts_from_bytes_text (lvl : Z) (s : struct) (read : list rstmt) : list out_line :=
  let n := s_name s in
  let b := lvl + (if s_is_message s && negb asm then 2 else 1) in
  [(b, cat ["const n"; n; " = new "; n; "();"])] ++
  ts_stmts (cat ["n"; n]) b read ++
  [(b, cat ["return n"; n; ";"])].
(** [write] is the program of writeBytes, member by member. *)
Definition ts_write_bytes_text (lvl : Z) (s : struct) (write : var -> list wstmt) : list out_line :=
  let b := lvl + 1 in
  (if s_is_message s then
     [(b, "if (tag) {"); (b + 1, cat ["da.setByte(MessageType."; s_name s; "Type"; ts_cast NByte; ");"])] ++
     ts_check (b + 1) "false" ++ [(b, "}")]
   else [(lvl, cat ["writeBytes(da: DataAccess): "; (if asm then "bool" else "void"); " {"])]) ++
  flat_map (fun m => flat_map (ts_wstmt (mem (v_type m) (p_enums p)) b) (write m)) (s_members s) ++
  (if asm then [(b, "return true;")] else []) ++
  [(lvl, "}")].
(** [size] is the program of getSizeInBytes. *)
Definition ts_size_text (lvl : Z) (tab : string) (size : list mstmt) : list out_line :=
  [(lvl, cat ["getSizeInBytes(): "; (if asm then "usize" else "number"); " {"])] ++
  at_lvl (lvl + 1) (flat_map (ts_mstmt tab) size) ++
  [(lvl, "}"); (lvl, "")].

(** The head of a class: its members, with the values of a new object. *)
Definition ts_value (m : var) : string :=
  if v_list m then "[]"
  else match ts_type_name (v_type m) with
  | "bigint" => "0n"
  | "boolean" => "false"
  | "string" => """"""
  | _ =>
      match lookup (v_type m) (p_enums p) with
      | Some e => cat [v_type m; "."; match get_default_pair e with Some (n, _) => n | None => "" end]
      | None => if mem (v_type m) (p_structs p) then cat ["new "; v_type m; "()"] else "0"
      end
  end.
Definition ts_fields_text (lvl : Z) (s : struct) : list out_line :=
  [(lvl, cat ["export class "; s_name s; (if s_is_message s then " extends Message" else ""); " {"])] ++
  map (fun m => (lvl + 1, cat [v_name m; ": "; ts_type_name (v_type m); (if v_list m then "[]" else ""); " = "; ts_value m; ";"]))
      (s_members s) ++
  [(lvl + 1, "")].

(** The enum of the message types. *)
Definition ts_tags_text (lvl : Z) (tags : list (Z * string)) : list out_line :=
  [(lvl, "export enum MessageType {")] ++
  map (fun t => (lvl + 1, cat [snd t; "Type = "; str_of_Z (fst t); ","])) tags ++
  (if asm then [(lvl + 1, "_Unknown,")] else []) ++
  [(lvl, "}")].
(** An enum of the protocol. *)
Definition ts_enum_text (lvl : Z) (n : string) (values : list (string * Z)) : list out_line :=
  [(lvl, cat ["export enum "; n; " {"])] ++
  map (fun v => (lvl + 1, cat [fst v; " = "; str_of_Z (snd v); ","])) values ++
  (if asm then [(lvl + 1, "_Unknown,")] else []) ++
  [(lvl, "}")].
(** How ProcessRawBytes chooses the reader. *)
Definition ts_switch_text (lvl : Z) (tags : list (Z * string)) : list out_line :=
  [(lvl, cat ["switch (msgType"; (if asm then " as i32" else ""); ") {"]);
   (lvl + 1, "case 0:"); (lvl + 2, "return msgList;")] ++
  flat_map (fun t =>
    [(lvl + 1, cat ["case MessageType."; snd t; "Type:"])] ++
    (if asm then
       [(lvl + 2, cat ["newMsg = "; snd t; ".fromBytesDA(da);"]);
        (lvl + 2, "if (newMsg == null) {"); (lvl + 3, "return msgList;"); (lvl + 2, "}")]
     else [(lvl + 2, cat ["newMsg = "; snd t; ".fromBytes(da);"])]) ++
    [(lvl + 2, "msgList.push(newMsg);"); (lvl + 2, "break;")]) tags ++
  [(lvl + 1, "default:");
   (lvl + 2, if asm then "return msgList;" else "throw new Error(`Unknown message type: ${msgType}`);");
   (lvl, "}")].
(** The classes of the messages. *)
Definition ts_map_text (lvl : Z) (tags : list (Z * string)) : list out_line :=
  [(lvl, "export const MessageTypeMap = new Map<MessageType, { new(): Message }>([")] ++
  map (fun t => (lvl + 1, cat ["[MessageType."; snd t; "Type, "; snd t; "],"])) tags ++
  [(lvl, "]);")].
End Syntax.

(** ** The whole file *)

(** A class: its members, its measure and its programs. *)
Definition ts_class (p : protocol) (g : settings) (asm : bool) (lvl : Z) (s : struct) : list (list out_line) :=
  [ts_fields_text p asm lvl s] ++
  (if s_is_message s then
     [ts_size_text asm (lvl + 1) (g_tab g) (match gen_size ts_style p 0 s with Some size => size | None => [] end)]
   else []) ++
  [ts_from_bytes_text p asm (lvl + 1) s (if asm then as_reader p s else ts_reader (g_flag g) p s);
   ts_write_bytes_text p asm (lvl + 1) s (if asm then as_write p else ts_write p)].
(** [g_flag] is --typescript-use-namespace. *)
Definition ts_file (p : protocol) (g : settings) (asm : bool) : list (list out_line) :=
  let lvl := if g_flag g && negb asm then 1 else 0 in
  let tags := if asm then as_tags p else ts_tags p in
  [ts_tags_text asm lvl tags; ts_switch_text asm (lvl + 2) tags] ++
  map (fun e => ts_enum_text asm lvl (fst e) (e_values (snd e))) (p_enums p) ++
  flat_map (fun s => ts_class p g asm lvl (snd s)) (p_structs p ++ p_messages p) ++
  (if asm then [] else [ts_map_text lvl tags]).
