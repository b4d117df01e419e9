(** The interfaces and methods that a generated Go file declares, as a reader of the text
    finds them. *)
From Verif Require Export FieldSpec Go.
Open Scope string_scope.
Open Scope Z_scope.
Open Scope list_scope.

(** An interface demands the methods that are listed in it; a function with a receiver
    is a method that the type of the receiver offers. *)
Inductive mpart := Demands (interface method : string) | Offers (type method : string).

(** [func (output Note) GetSizeInBytes() int {] is the method [GetSizeInBytes() int] of
    [Note]. *)
Definition method_line (l : string) : list mpart :=
  match rest_after "func (" l with
  | None => []
  | Some r =>
      match rest_after " " (snd (to_space r)) with
      | None => []
      | Some r' =>
          let (t, m) := to_space r' in
          match before ")" t, rest_after " " m with
          | Some t', Some m' => match before " {" m' with Some m'' => [Offers t' m''] | None => [] end
          | _, _ => []
          end
      end
  end.
Inductive mplace := Elsewhere | Listing (interface : string).
Definition method_look (at_ : mplace) (l : out_line) : mplace * list mpart :=
  match at_ with
  | Elsewhere =>
      if fst l =? 0 then
        match head_name ("type ", "", " interface {") (snd l) with
        | Some i => (Listing i, [])
        | None => (Elsewhere, method_line (snd l))
        end
      else (Elsewhere, [])
  | Listing i => if (fst l =? 0) && String.eqb (snd l) "}" then (Elsewhere, []) else (Listing i, [Demands i (snd l)])
  end.
Fixpoint method_looks (at_ : mplace) (ls : list out_line) : mplace * list mpart :=
  match ls with
  | [] => (at_, [])
  | l :: r => let (a, n) := method_look at_ l in let (a', n') := method_looks a r in (a', n ++ n')
  end.
(** The text has these interfaces and methods, in this order. *)
Definition go_file_methods (p : protocol) (g : settings) (parts : list mpart) : Prop :=
  exists ls, generate "go" p g 0 = Ret (ls, 0) /\ method_looks Elsewhere ls = (Elsewhere, parts).

(** A type implements an interface if it offers all that is demanded. *)
Definition implements (parts : list mpart) (t i : string) : Prop :=
  forall m, In (Demands i m) parts -> In (Offers t m) parts.
Definition is_demanded (parts : list mpart) (i : string) : Prop := exists m, In (Demands i m) parts.

(** Which methods there are, by type and name. *)
Definition offered (x : mpart) : list (string * string) :=
  match x with Offers t m => [(t, first_word m)] | Demands _ _ => [] end.

(** What is expected. *)
Definition message_methods : list string :=
  ["GetMessageType() MessageType"; "GetSizeInBytes() int"; "WriteBytes(data io.Writer, tag bool)"].
Definition go_method_parts (p : protocol) : list mpart :=
  [Demands "Message" "GetMessageType() MessageType"; Demands "Message" "WriteBytes(data io.Writer, tag bool)";
   Demands "Message" "GetSizeInBytes() int"] ++
  map (fun t => Offers (fst t) "WriteBytes(data io.Writer)") (p_structs p) ++
  flat_map (fun t => map (Offers (fst t)) message_methods) (p_messages p).
