(** The methods that the class Message of a generated C# file demands, and those that the
    classes derived from it override, as a reader of the text finds them. *)
From Verif Require Export GoMethodSpec.
Open Scope string_scope.
Open Scope Z_scope.
Open Scope list_scope.

(** A text up to its first closing parenthesis. *)
Fixpoint to_paren (s : string) : string :=
  match s with
  | EmptyString => EmptyString
  | String c r => if Ascii.eqb c ")" then String c "" else String c (to_paren r)
  end.
(** The signature behind [i], if a line starts with it. *)
Definition signature (i l : string) : list string :=
  match rest_after i l with Some r => [to_paren r] | None => [] end.

Inductive cplace := Nowhere | AbstractClass | Derived (type : string).
(** The classes are at [level]; the methods of the derived ones one level further in. *)
Definition csharp_look (level : Z) (at_ : cplace) (l : out_line) : cplace * list mpart :=
  match at_ with
  | Nowhere =>
      if fst l =? level then
        if String.eqb (snd l) "public abstract class Message" then (AbstractClass, [])
        else match head_name ("public class ", "", " : Message") (snd l) with
             | Some t => (Derived t, [])
             | None => (Nowhere, [])
             end
      else (Nowhere, [])
  | AbstractClass =>
      if String.eqb (snd l) "}" then (Nowhere, [])
      else (AbstractClass, map (Demands "Message") (signature "abstract public " (without_blanks (snd l))))
  | Derived t =>
      if (fst l =? level) && String.eqb (snd l) "}" then (Nowhere, [])
      else if fst l =? level + 1 then (Derived t, map (Offers t) (signature "public override " (snd l)))
      else (Derived t, [])
  end.
Fixpoint csharp_looks (level : Z) (at_ : cplace) (ls : list out_line) : cplace * list mpart :=
  match ls with
  | [] => (at_, [])
  | l :: r => let (a, n) := csharp_look level at_ l in let (a', n') := csharp_looks level a r in (a', n ++ n')
  end.
(** The text has this class and these derived ones, in this order. *)
Definition csharp_file_methods (p : protocol) (g : settings) (parts : list mpart) : Prop :=
  exists ls, generate "csharp" p g 0 = Ret (ls, 0) /\
    csharp_looks (if inside_namespace "csharp" g then 1 else 0) Nowhere ls = (Nowhere, parts).

(** What is expected: every message overrides all that is abstract. *)
Definition csharp_method_parts (p : protocol) : list mpart :=
  map (Demands "Message") ["MessageType GetMessageType()"; "void WriteBytes(BinaryWriter bw, bool tag)"; "int GetSizeInBytes()"] ++
  flat_map (fun t => map (Offers t) ["MessageType GetMessageType()"; "int GetSizeInBytes()"; "void WriteBytes(BinaryWriter bw, bool tag)"])
    (map fst (p_messages p)).
