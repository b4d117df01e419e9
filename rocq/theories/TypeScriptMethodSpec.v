(** The methods that the class Message of a generated TypeScript or AssemblyScript file
    demands, and those of the classes derived from it, as a reader of the text finds them. *)
From Verif Require Export GoMethodSpec.
Open Scope string_scope.
Open Scope Z_scope.
Open Scope list_scope.

(** The name before the first parenthesis, if there is no space before. *)
Fixpoint called (l : string) : option string :=
  match l with
  | EmptyString => None
  | String c r =>
      if Ascii.eqb c "(" then Some EmptyString
      else if Ascii.eqb c " " then None
      else match called r with Some n => Some (String c n) | None => None end
  end.
Definition calls (l : string) : list string := match called l with Some n => [n] | None => [] end.
Definition abstract_calls (l : string) : list string :=
  match rest_after "abstract " l with Some r => calls r | None => [] end.

Inductive tplace := NoClass | MessageClass | Extending (type : string).
(** The classes are at [level]; the methods of those that extend Message one level
    further in. *)
Definition ts_look (level : Z) (at_ : tplace) (l : out_line) : tplace * list mpart :=
  match at_ with
  | NoClass =>
      if fst l =? level then
        if String.eqb (snd l) "export abstract class Message {" then (MessageClass, [])
        else match head_name ("export class ", "", " extends Message {") (snd l) with
             | Some t => (Extending t, [])
             | None => (NoClass, [])
             end
      else (NoClass, [])
  | MessageClass =>
      if String.eqb (snd l) "}" then (NoClass, [])
      else (MessageClass, map (Demands "Message") (abstract_calls (without_blanks (snd l))))
  | Extending t =>
      if (fst l =? level) && String.eqb (snd l) "}" then (NoClass, [])
      else if fst l =? level + 1 then (Extending t, map (Offers t) (calls (snd l)))
      else (Extending t, [])
  end.
Fixpoint ts_looks (level : Z) (at_ : tplace) (ls : list out_line) : tplace * list mpart :=
  match ls with
  | [] => (at_, [])
  | l :: r => let (a, n) := ts_look level at_ l in let (a', n') := ts_looks level a r in (a', n ++ n')
  end.
(** The two languages that are printed like this. *)
Definition ts_writers : list string := ["typescript"; "assemblyscript"].
(** The text has this class and these that extend it, in this order. *)
Definition ts_file_methods (lang : string) (p : protocol) (g : settings) (parts : list mpart) : Prop :=
  exists ls, generate lang p g 0 = Ret (ls, 0) /\
    ts_looks (if inside_namespace lang g then 1 else 0) NoClass ls = (NoClass, parts).

(** What is expected: every message has all that is abstract. *)
Definition ts_demanded (lang : string) : list string :=
  if String.eqb lang "typescript" then ["getMessageType"; "writeBytes"; "getSizeInBytes"]
  else ["getMessageType"; "writeBytes"; "writeBytesDA"; "getSizeInBytes"].
Definition ts_offered (lang : string) : list string :=
  if String.eqb lang "typescript" then ["getMessageType"; "getSizeInBytes"; "writeBytes"]
  else ["getMessageType"; "getSizeInBytes"; "writeBytes"; "writeBytesDA"].
Definition ts_method_parts (lang : string) (p : protocol) : list mpart :=
  map (Demands "Message") (ts_demanded lang) ++
  flat_map (fun t => map (Offers t) (ts_offered lang)) (map fst (p_messages p)).

(** The names of the members have no parentheses. *)
Fixpoint parenthesis (s : string) : bool :=
  match s with EmptyString => false | String c r => Ascii.eqb c "(" || parenthesis r end.
Definition no_parentheses (p : protocol) : Prop :=
  forall n s m, In (n, s) (p_structs p ++ p_messages p) -> In m (s_members s) -> parenthesis (v_name m) = false.
