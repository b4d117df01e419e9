(** The members that a generated file declares for its types, as a reader of the text
    finds them. *)
From Verif Require Export TopSpec.
Open Scope string_scope.
Open Scope Z_scope.
Open Scope list_scope.

(** ** Reading *)

(** A text up to its first space, and the rest. *)
Fixpoint to_space (s : string) : string * string :=
  match s with
  | EmptyString => ("", "")
  | String c r => if Ascii.eqb c " " then ("", s) else let (a, b) := to_space r in (String c a, b)
  end.
(** A text without [e] at its end. *)
Fixpoint before (e s : string) : option string :=
  if String.eqb s e then Some "" else
  match s with
  | EmptyString => None
  | String c r => match before e r with Some t => Some (String c t) | None => None end
  end.
(** The line that opens a type: what stands before its name, behind the name and after
    the space that follows. *)
Definition head_name (h : string * string * string) (l : string) : option string :=
  match rest_after (fst (fst h)) l with
  | Some r => let (t, rest) := to_space r in if String.eqb rest (snd h) then before (snd (fst h)) t else None
  | None => None
  end.
Fixpoint opened (hs : list (string * string * string)) (l : string) : option string :=
  match hs with
  | [] => None
  | h :: r => match head_name h l with Some n => Some n | None => opened r l end
  end.
Definition heads_of (lang : string) : list (string * string * string) :=
  if in_strs lang ["typescript"; "assemblyscript"] then
    [("export class ", "", " {"); ("export class ", "", " extends Message {")]
  else if String.eqb lang "csharp" then [("public class ", "", ""); ("public class ", "", " : Message")]
  else if String.eqb lang "swift" then [("public struct ", "", " {"); ("public class ", ":", " Message {")]
  else if String.eqb lang "rust" then [("pub struct ", "", " {")]
  else if String.eqb lang "go" then [("type ", "", " struct {")]
  else [("pub const ", "", " = struct {")].
(** The members follow, up to an empty line, or the brace of Rust and Go. *)
Definition last_line (lang : string) : string := if in_strs lang ["rust"; "go"] then "}" else "".

Fixpoint without_blanks (l : string) : string :=
  match l with
  | String c r => if blank_char c then without_blanks r else l
  | EmptyString => EmptyString
  end.
Inductive place := Away | Within.
Inductive fpart := Opens (name : string) | Field (declaration : string).
Definition field_look (lang : string) (level : Z) (at_ : place) (l : out_line) : place * list fpart :=
  match at_ with
  | Away =>
      if fst l =? level then
        match opened (heads_of lang) (snd l) with Some n => (Within, [Opens n]) | None => (Away, []) end
      else (Away, [])
  | Within =>
      if String.eqb (snd l) (last_line lang) then (Away, [])
      else if String.eqb (snd l) "{" then (Within, [])
      else (Within, [Field (without_blanks (snd l))])
  end.
Fixpoint field_looks (lang : string) (level : Z) (at_ : place) (ls : list out_line) : place * list fpart :=
  match ls with
  | [] => (at_, [])
  | l :: r => let (a, n) := field_look lang level at_ l in let (a', n') := field_looks lang level a r in (a', n ++ n')
  end.
(** The text that is generated declares these types, with these members. *)
Definition file_fields (lang : string) (p : protocol) (g : settings) (parts : list fpart) : Prop :=
  exists ls, generate lang p g 0 = Ret (ls, 0) /\
    field_looks lang (if inside_namespace lang g then 1 else 0) Away ls = (Away, parts).

(** ** What is expected *)

(** The types of the languages. *)
Definition base_type_names : list string :=
  ["bool"; "byte"; "int16"; "uint16"; "int32"; "uint32"; "int64"; "uint64"; "float"; "double"; "string"].
Definition types_of (lang : string) : list string :=
  if String.eqb lang "typescript" then
    ["boolean"; "number"; "number"; "number"; "number"; "number"; "bigint"; "bigint"; "number"; "number"; "string"]
  else if String.eqb lang "assemblyscript" then ["bool"; "u8"; "i16"; "u16"; "i32"; "u32"; "i64"; "u64"; "f32"; "f64"; "string"]
  else if String.eqb lang "csharp" then ["bool"; "byte"; "short"; "ushort"; "int"; "uint"; "long"; "ulong"; "float"; "double"; "string"]
  else if String.eqb lang "swift" then
    ["Bool"; "UInt8"; "Int16"; "UInt16"; "Int32"; "UInt32"; "Int64"; "UInt64"; "Float32"; "Float64"; "String"]
  else if String.eqb lang "rust" then ["bool"; "u8"; "i16"; "u16"; "i32"; "u32"; "i64"; "u64"; "f32"; "f64"; "String"]
  else if String.eqb lang "go" then
    ["bool"; "byte"; "int16"; "uint16"; "int32"; "uint32"; "int64"; "uint64"; "float32"; "float64"; "string"]
  else ["bool"; "u8"; "i16"; "u16"; "i32"; "u32"; "i64"; "u64"; "f32"; "f64"; "[]const u8"].
Definition type_text (lang t : string) : string :=
  match lookup t (combine base_type_names (types_of lang)) with Some x => x | None => t end.

(** The initial values: zero, nothing, the first value of an enum.  In C# numbers have
    none, and in AssemblyScript numbers and bool have 0. *)
Definition first_value (p : protocol) (t : string) : string :=
  match lookup t (p_enums p) with
  | Some e => match e_values e with (v, _) :: _ => v | [] => "" end
  | None => ""
  end.
Definition zero_text (lang : string) (p : protocol) (t : string) : string :=
  if mem t (p_enums p) then t +++ "." +++ first_value p t
  else if mem t (p_structs p) then
    if String.eqb lang "swift" then t +++ "()" else if String.eqb lang "zig" then t +++ "{}" else "new " +++ t +++ "()"
  else if String.eqb t "string" then """"""
  else if String.eqb lang "assemblyscript" then "0"
  else if String.eqb t "bool" then "false"
  else if in_strs lang ["swift"; "zig"] && in_strs t ["float"; "double"] then "0.0"
  else if String.eqb lang "typescript" && in_strs t ["int64"; "uint64"] then "0n"
  else "0".

(** The declaration of a member.  (Leading blanks do not count; they only come from an
    empty name.) *)
Definition field_text (lang : string) (p : protocol) (m : var) : string :=
  let n := v_name m in
  let t := type_text lang (v_type m) in
  let zero := zero_text lang p (v_type m) in
  let l := v_list m in
  if in_strs lang ["typescript"; "assemblyscript"] then
    if l then n +++ ": " +++ t +++ "[] = [];" else n +++ ": " +++ t +++ " = " +++ zero +++ ";"
  else if String.eqb lang "csharp" then
    if l then "public List<" +++ t +++ "> " +++ n +++ " = new List<" +++ t +++ ">();"
    else if in_strs (v_type m) (map fst NUMERIC_TYPE_SIZES) then "public " +++ t +++ " " +++ n +++ ";"
    else "public " +++ t +++ " " +++ n +++ " = " +++ zero +++ ";"
  else if String.eqb lang "swift" then
    "public var " +++ n +++ ": " +++ (if l then "[" +++ t +++ "] = []" else t +++ " = " +++ zero)
  else if String.eqb lang "rust" then "pub " +++ n +++ ": " +++ (if l then "Vec<" +++ t +++ ">," else t +++ ",")
  else if String.eqb lang "go" then n +++ " " +++ (if l then "[]" else "") +++ t
  else n +++ ": " +++ (if l then "[]" +++ t +++ " = &.{}," else t +++ " = " +++ zero +++ ",").

(** The types that come with the boilerplate. *)
Definition own_parts (lang : string) : list fpart :=
  if String.eqb lang "typescript" then [Opens "DataAccess"; Field "data: DataView;"; Field "currentOffset: number;"]
  else if String.eqb lang "assemblyscript" then
    [Opens "DataAccess"; Field "data: DataView;"; Field "currentOffset: u32;"; Field "hasError: bool;"]
  else if String.eqb lang "rust" then
    [Opens "BufferReader<'a>"; Field "buffer: &'a [u8],"; Field "pub current_position: usize,"]
  else [].
(** The names of the members are converted for Rust and Go. *)
Definition as_printed (lang : string) (g : settings) (p : protocol) : protocol :=
  if g_flag g then p
  else if String.eqb lang "rust" then rename_members snake p
  else if String.eqb lang "go" then rename_members capitalize p
  else p.
Definition type_parts (lang : string) (p : protocol) (t : string * struct) : list fpart :=
  Opens (fst t) :: map (fun m => Field (without_blanks (field_text lang p m))) (s_members (snd t)).
Definition expected_parts (lang : string) (g : settings) (p : protocol) : list fpart :=
  own_parts lang ++ flat_map (type_parts lang (as_printed lang g p)) (p_structs (as_printed lang g p) ++ p_messages (as_printed lang g p)).

Definition field_writers : list string := ["typescript"; "assemblyscript"; "csharp"; "swift"; "rust"; "go"; "zig"].
(** The names of types hold no spaces. *)
Definition spaceless (s : string) : Prop := to_space s = (s, "").
(** A type with the name that TypeScript has for one of its own gets the value of that. *)
Definition no_builtin (lang : string) (p : protocol) : Prop :=
  in_strs lang ["typescript"; "assemblyscript"] = true -> ~ In "bigint" (types_in_order p) /\ ~ In "boolean" (types_in_order p).
