(** The functions that the class Message of a generated Swift file leaves to others, and
    those that the classes derived from it override, as a reader of the text finds them. *)
From Verif Require Export GoMethodSpec.
Open Scope string_scope.
Open Scope Z_scope.
Open Scope list_scope.

(** A line without public at its start. *)
Definition not_public (l : string) : string := match rest_after "public " l with Some r => r | None => l end.
(** A line without the brace at its end. *)
Definition unbraced (l : string) : string := match before " {" l with Some r => r | None => l end.
(** A function that can be overridden: not a static one. *)
Definition open_function (l : string) : list string :=
  match rest_after "func " (not_public l), rest_after "class func " (not_public l) with
  | None, None => []
  | _, _ => [unbraced (not_public l)]
  end.
Definition overridden (l : string) : list string :=
  match rest_after "override " (not_public l) with Some r => [unbraced r] | None => [] end.

Inductive splace := Apart | BaseClass | Subclass (type : string).
(** The classes are at [level]; the functions of the derived ones one level further in. *)
Definition swift_look (level : Z) (at_ : splace) (l : out_line) : splace * list mpart :=
  match at_ with
  | Apart =>
      if fst l =? level then
        if String.eqb (snd l) "public class Message {" then (BaseClass, [])
        else match head_name ("public class ", ":", " Message {") (snd l) with
             | Some t => (Subclass t, [])
             | None => (Apart, [])
             end
      else (Apart, [])
  | BaseClass =>
      if String.eqb (snd l) "}" then (Apart, [])
      else (BaseClass, map (Demands "Message") (open_function (without_blanks (snd l))))
  | Subclass t =>
      if (fst l =? level) && String.eqb (snd l) "}" then (Apart, [])
      else if fst l =? level + 1 then (Subclass t, map (Offers t) (overridden (snd l)))
      else (Subclass t, [])
  end.
Fixpoint swift_looks (level : Z) (at_ : splace) (ls : list out_line) : splace * list mpart :=
  match ls with
  | [] => (at_, [])
  | l :: r => let (a, n) := swift_look level at_ l in let (a', n') := swift_looks level a r in (a', n ++ n')
  end.
(** The text has this class and these derived ones, in this order. *)
Definition swift_file_methods (p : protocol) (g : settings) (parts : list mpart) : Prop :=
  exists ls, generate "swift" p g 0 = Ret (ls, 0) /\
    swift_looks (if inside_namespace "swift" g then 1 else 0) Apart ls = (Apart, parts).

(** What is expected: every message overrides all five. *)
Definition swift_demanded : list string :=
  ["func GetMessageType() -> MessageType"; "func WriteBytes(data: NSMutableData, tag: Bool) -> Void"; "func GetSizeInBytes() -> UInt32";
   "class func FromBytes(_ fromData: Data) throws -> Self"; "class func FromBytes(dataReader: DataReader) throws -> Self"].
Definition swift_offered : list string :=
  ["func GetMessageType() -> MessageType"; "func GetSizeInBytes() -> UInt32"; "class func FromBytes(_ fromData: Data) throws -> Self";
   "class func FromBytes(dataReader: DataReader) throws -> Self"; "func WriteBytes(data: NSMutableData, tag: Bool) -> Void"].
Definition swift_method_parts (p : protocol) : list mpart :=
  map (Demands "Message") swift_demanded ++
  flat_map (fun t => map (Offers t) swift_offered) (map fst (p_messages p)).
