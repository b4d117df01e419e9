(** How the statements of IR.v and Measure.v are written in C#.  A specification: it
    does not look at the generator. *)
From Verif Require Export Syntax CSharp.
Open Scope string_scope.
Open Scope Z_scope.
Open Scope list_scope.

(** A number type, and the method of BinaryReader for it. *)
Definition cs_number (k : num) : string :=
  match k with
  | NByte => "byte" | NBool => "bool" | NU16 => "ushort" | NI16 => "short" | NU32 => "uint" | NI32 => "int"
  | NU64 => "ulong" | NI64 => "long" | NF32 => "float" | NF64 => "double"
  end.
Definition cs_read_name (k : num) : string :=
  match k with
  | NByte => "Byte" | NBool => "Boolean" | NU16 => "UInt16" | NI16 => "Int16" | NU32 => "UInt32" | NI32 => "Int32"
  | NU64 => "UInt64" | NI64 => "Int64" | NF32 => "Single" | NF64 => "Double"
  end.

Section Syntax.
Variable p : protocol.

(** A type: a number type or the declared name. *)
Definition cs_type_name (t : string) : string := match num_of t with Some k => cs_number k | None => t end.
Definition cs_sized (t : string) (f : num -> string) : string := match num_of t with Some k => f k | None => "" end.

(** ** Reading into the object [obj] *)
Section Read.
Variable obj : string.

(** Where a value of type [t] goes; a local is declared. *)
Definition cs_place (t : string) (d : dst) : string :=
  match d with
  | DField f => cat [obj; "."; f]
  | DElem f i => cat [obj; "."; f; "["; i; "]"]
  | DLocal x => cat [t; " "; x]
  end.
(** The name that the locals for a string are made of. *)
Definition cs_base (d : dst) : string :=
  match d with DField f => cs_clean f | DElem f _ => cs_clean f | DLocal x => cs_clean ("string " +++ x) end.
Definition cs_name (d : dst) : string := match d with DField f => f | DElem f _ => f | DLocal x => x end.

(** [enum]: the enum that the number before has been tested for; then it is cast. *)
Definition cs_to_enum (enum : option string) : string := match enum with Some t => cat ["("; t; ")"] | None => "" end.
Fixpoint cs_stmt (enum : option string) (lvl : Z) (st : rstmt) : list out_line :=
  match st with
  | RNum d k => [(lvl, cat [cs_place (cs_number k) d; " = br.Read"; cs_read_name k; "();"])]
  | RStr d =>
      let b := cs_base d in
      [(lvl, cat [cs_type_name (p_string_size_type p); " "; b; "_Length = br.Read";
                  cs_sized (p_string_size_type p) cs_read_name; "();"]);
       (lvl, cat ["byte[] "; b; "_Buffer = br.ReadBytes((int)"; b; "_Length);"]);
       (lvl, cat [cs_place "string" d; " = System.Text.Encoding.UTF8.GetString("; b; "_Buffer);"])]
  | REnumCheck x t =>
      [(lvl, cat ["if (!Enum.IsDefined(typeof("; t; "), "; x; "))"]); (lvl, "{");
       (lvl + 1, cat ["throw new DataReadErrorException(String.Format(""Enum {0} out of range for "; t; """, "; x; "));"]);
       (lvl, "}")]
  | RMove d x => [(lvl, cat [cs_place "" d; " = "; cs_to_enum enum; x; ";"])]
  | RPush d x => [(lvl, cat [cs_place "" d; ".Add("; cs_to_enum enum; x; ");"])]
  | RCall d t => [(lvl, cat [cs_place t d; " = "; t; ".FromBytes(br);"])]
  | RNew d t None => [(lvl, cat [cs_place "" d; " = new List<"; cs_type_name t; ">();"])]
  | RFor i n body =>
      [(lvl, cat ["for (int "; i; " = 0; "; i; " < "; cs_name n; "; "; i; "++)"]); (lvl, "{")] ++
      (fix go (enum : option string) (l : list rstmt) : list out_line :=
         match l with
         | [] => []
         | a :: r => cs_stmt enum (lvl + 1) a ++ go (match a with REnumCheck _ t => Some t | _ => None end) r
         end) None body ++
      [(lvl, "}")]
  | _ => [(lvl, "?")]                          (* not used *)
  end.
Fixpoint cs_stmts (enum : option string) (lvl : Z) (l : list rstmt) : list out_line :=
  match l with
  | [] => []
  | a :: r => cs_stmt enum lvl a ++ cs_stmts (match a with REnumCheck _ t => Some t | _ => None end) lvl r
  end.
End Read.

(** ** Writing *)

Definition cs_source (s : src) : string :=
  match s with
  | SField f => cat ["this."; f]
  | SElem f i => cat ["this."; f; "["; i; "]"]
  | SLocal x => x
  end.
Definition cs_source_name (s : src) : string := match s with SField f => f | SElem f _ => f | SLocal x => x end.

(** The member has the type [t], or is a list of it. *)
Fixpoint cs_wstmt (t : string) (lvl : Z) (st : wstmt) : list out_line :=
  match st with
  | WNum k s => [(lvl, cat ["bw.Write("; (if mem t (p_enums p) then cat ["("; cs_number k; ")"] else ""); cs_source s; ");"])]
  | WStr s =>
      let b := cs_source_name s in
      [(lvl, cat ["byte[] "; b; "_Buffer = System.Text.Encoding.UTF8.GetBytes("; cs_source s; ");"]);
       (lvl, cat ["bw.Write(("; cs_type_name (p_string_size_type p); ")"; b; "_Buffer.Length);"]);
       (lvl, cat ["bw.Write("; b; "_Buffer);"])]
  | WCall _ s => [(lvl, cat [cs_source s; ".WriteBytes(bw);"])]
  | WCount k s => [(lvl, cat ["bw.Write(("; cs_number k; ")"; cs_source s; ".Count);"])]
  | WForEach x s body =>
      [(lvl, cat ["foreach ("; cs_type_name t; " "; x; " in "; cs_source s; ")"]); (lvl, "{")] ++
      flat_map (cs_wstmt t (lvl + 1)) body ++
      [(lvl, "}")]
  | _ => [(lvl, "?")]                          (* not used *)
  end.

(** ** Measuring, with [tab] for indentation *)

Fixpoint cs_path (q : mpath) : string :=
  match q with
  | MRoot => "this"
  | MVar x => x
  | MField q f => cat [cs_path q; "."; f]
  | MElem q i => cat [cs_path q; "["; i; "]"]
  end.
(** The type of an expression, or of its elements, in the class [root] and with the
    loop variables [env]. *)
Fixpoint cs_path_type (root : string) (env : list (string * string)) (q : mpath) : option string :=
  match q with
  | MRoot => Some root
  | MVar x => lookup x env
  | MField q f =>
      match cs_path_type root env q with
      | Some t =>
          match find_struct p t with
          | Some s => lookup f (map (fun m => (v_name m, v_type m)) (s_members s))
          | None => None
          end
      | None => None
      end
  | MElem q _ => cs_path_type root env q
  end.
Fixpoint cs_mstmt (root : string) (tab : string) (env : list (string * string)) (st : mstmt) : list string :=
  match st with
  | MInit => ["int size = 0;"]
  | MAdd z => [cat ["size += "; str_of_Z z; ";"]]
  | MAddLen q z => [cat ["size += "; cs_path q; ".Count * "; str_of_Z z; ";"]]
  | MAddStr q z => [cat ["size += "; str_of_Z z; " + System.Text.Encoding.UTF8.GetBytes("; cs_path q; ").Length;"]]
  | MAddStr16 q => [cat ["size += "; cs_path q; ".Length;"]]
  | MForEach x q body =>
      let t := or_empty (cs_path_type root env q) in
      [cat ["foreach ("; cs_type_name t; " "; x; " in "; cs_path q; ")"]; "{"] ++
      map (fun l => tab +++ l) (flat_map (cs_mstmt root tab ((x, t) :: env)) body) ++ ["}"]
  | MReturn z => [cat ["return "; str_of_Z z; ";"]]
  | MReturnSize => ["return size;"]
  | MForIdx _ _ _ => ["?"]                     (* not used *)
  end.

(** ** A class, whose lines are at level [lvl] *)

(** The head: its members, with the initialisers. *)
Definition cs_initialiser (m : var) : string :=
  if v_list m then cat [" = new List<"; cs_type_name (v_type m); ">()"]
  else if String.eqb (v_type m) "string" then " = """""
  else match lookup (v_type m) (p_enums p) with
  | Some e => cat [" = "; v_type m; "."; match get_default_pair e with Some (n, _) => n | None => "" end]
  | None => if mem (v_type m) (p_structs p) then cat [" = new "; v_type m; "()"] else ""
  end.
Definition cs_fields_text (lvl : Z) (s : struct) : list out_line :=
  [(lvl, cat ["public class "; s_name s; (if s_is_message s then " : Message" else "")]); (lvl, "{")] ++
  map (fun m => (lvl + 1, cat ["public "; (if v_list m then cat ["List<"; cs_type_name (v_type m); ">"] else cs_type_name (v_type m));
                               " "; v_name m; cs_initialiser m; ";"])) (s_members s).
Definition cs_size_text (lvl : Z) (s : struct) (tab : string) (size : list mstmt) : list out_line :=
  [(lvl, "public override int GetSizeInBytes()"); (lvl, "{")] ++
  at_lvl (lvl + 1) (flat_map (cs_mstmt (s_name s) tab []) size) ++
  [(lvl, "}")].
Definition cs_from_bytes_text (lvl : Z) (s : struct) (read : list rstmt) : list out_line :=
  let n := s_name s in
  let b := lvl + (if s_is_message s then 2 else 1) in
  [(lvl, cat ["public static "; n; " FromBytes(BinaryReader br)"]); (lvl, "{")] ++
  (if s_is_message s then [(lvl + 1, "try"); (lvl + 1, "{")] else []) ++
  [(b, cat [n; " _n"; n; " = new "; n; "();"])] ++
  cs_stmts (cat ["_n"; n]) None b read ++
  [(b, cat ["return _n"; n; ";"])] ++
  (if s_is_message s then
     [(lvl + 1, "}"); (lvl + 1, "catch (System.IO.EndOfStreamException)"); (lvl + 1, "{");
      (b, cat ["throw new DataReadErrorException(String.Format(""Could not read "; n; " from offset {0}"", br.BaseStream.Position));"]);
      (lvl + 1, "}")]
   else []) ++
  [(lvl, "}")].
Definition cs_write_bytes_text (lvl : Z) (s : struct) (write : var -> list wstmt) : list out_line :=
  let b := lvl + 1 in
  (if s_is_message s then
     [(lvl, "public override void WriteBytes(BinaryWriter bw, bool tag)"); (lvl, "{");
      (b, "if (tag)"); (b, "{"); (b + 1, cat ["bw.Write((byte)MessageType."; s_name s; "Type);"]); (b, "}")]
   else [(lvl, "public void WriteBytes(BinaryWriter bw)"); (lvl, "{")]) ++
  flat_map (fun m => flat_map (cs_wstmt (v_type m) b) (write m)) (s_members s) ++
  [(lvl, "}")].

(** ** Enums *)

Definition cs_tags_text (lvl : Z) (tags : list (Z * string)) : list out_line :=
  [(lvl, "public enum MessageType"); (lvl, "{")] ++
  map (fun t => (lvl + 1, cat [snd t; "Type = "; str_of_Z (fst t); ","])) tags ++
  [(lvl, "}")].
Definition cs_enum_text (lvl : Z) (n : string) (e : enum) : list out_line :=
  [(lvl, cat ["public enum "; n; " : "; cs_type_name (e_encoding e)]); (lvl, "{")] ++
  map (fun v => (lvl + 1, cat [fst v; " = "; str_of_Z (snd v); ","])) (e_values e) ++
  [(lvl, "}")].

(** ** The whole file *)

Definition cs_class (g : settings) (lvl : Z) (s : struct) : list (list out_line) :=
  let ns := has_namespace g in
  [cs_fields_text lvl s] ++
  (if s_is_message s then
     [cs_size_text (lvl + 1) s (g_tab g) (match gen_size cs_style p (if ns then 3 else 2) s with Some size => size | None => [] end)]
   else []) ++
  [cs_from_bytes_text (lvl + 1) s (cs_reader ns p s); cs_write_bytes_text (lvl + 1) s (cs_write p)].
Definition cs_file (g : settings) : list (list out_line) :=
  let lvl := if has_namespace g then 1 else 0 in
  [cs_tags_text lvl (cs_tags p)] ++
  map (fun e => cs_enum_text lvl (fst e) (snd e)) (p_enums p) ++
  flat_map (fun s => cs_class g lvl (snd s)) (p_structs p ++ p_messages p).
End Syntax.
