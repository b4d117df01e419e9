(** The functions that a generated C file declares and defines, as a reader of the text
    finds them. *)
From Verif Require Export CDeclSpec.
Open Scope string_scope.
Open Scope Z_scope.
Open Scope list_scope.

(** ** Reading *)

Definition blank_start (s : string) : bool := match s with String c _ => blank_char c | EmptyString => false end.
(** The name of a function stands before the first parenthesis. *)
Fixpoint fun_name (s now : string) : string :=
  match s with
  | EmptyString => ""
  | String c r =>
      if word_char c then fun_name r (now +++ String c "")
      else if Ascii.eqb c "(" then now
      else fun_name r ""
  end.
(** What a caller sees of a function: its text up to the closing parenthesis, without the
    word before every comma and before the parenthesis, as that is the name of a
    parameter. *)
Fixpoint signature (s now : string) : string :=
  match s with
  | EmptyString => ""
  | String c r =>
      if word_char c then signature r (now +++ String c "")
      else if Ascii.eqb c ")" then ")"
      else if Ascii.eqb c "," then String "," (signature r "")
      else now +++ String c (signature r "")
  end.
(** A line at the left margin with a parenthesis declares a function if it ends with a
    semicolon, and defines one if it ends with a brace. *)
Inductive c_fun := Declared (name sig : string) | Defined (name sig : string).
Definition function_line (l : string) : list c_fun :=
  if blank_start l || negb (has_char "(" l) then []
  else match last_char l with
       | Some ";" => [Declared (fun_name l "") (signature l "")]
       | Some "{" => [Defined (fun_name l "") (signature l "")]
       | _ => []
       end%char.
Definition functions_in (ls : list out_line) : list c_fun :=
  flat_map (fun l => if fst l =? 0 then function_line (snd l) else []) ls.
Definition declared_of (l : list c_fun) : list (string * string) :=
  flat_map (fun f => match f with Declared n s => [(n, s)] | Defined _ _ => [] end) l.
Definition defined_of (l : list c_fun) : list (string * string) :=
  flat_map (fun f => match f with Defined n s => [(n, s)] | Declared _ _ => [] end) l.
(** The text that is generated declares and defines these functions. *)
Definition c_text_functions (p : protocol) (g : settings) (declared defined : list (string * string)) : Prop :=
  exists ls, generate "c" p g 0 = Ret (ls, 0) /\
    declared_of (functions_in ls) = declared /\ defined_of (functions_in ls) = defined.

(** ** What is expected *)

Definition c_numbers : list string :=
  ["UInt8"; "Bool"; "Int16"; "UInt16"; "Int32"; "UInt32"; "Int64"; "UInt64"; "Float"; "Double"; "String"].
Definition c_own_functions : list string :=
  ["IsFinished"] ++ map (fun t => "Read" +++ t) c_numbers ++ map (fun t => "Write" +++ t) c_numbers ++
  ["GetMessageType"; "GetSizeInBytes"; "WriteBytes"; "ProcessRawBytes"; "Destroy"; "DestroyMessageList";
   "GetPackedSize"; "PackMessages"; "UnpackMessages"].
Definition c_type_functions (t : string * struct) : list string :=
  map (fun f => fst t +++ "_" +++ f)
    (["WriteBytes"; "FromBytes"] ++
     if s_is_message (snd t) then ["GetSizeInBytes"; "Create"; "Cleanup"; "Destroy"] else []).
Definition c_function_names (p : protocol) : list string :=
  c_own_functions ++ map (fun e => "IsValid" +++ fst e) (p_enums p) ++
  flat_map c_type_functions (p_structs p ++ p_messages p).
(** The types and functions, without the prefix. *)
Definition c_top_names (p : protocol) : list string := c_own_types ++ types_in_order p ++ c_function_names p.
