(** The types that a generated C file declares, with their members and in their order, as
    a reader of the text finds them. *)
From Verif Require Export FieldSpec.
Open Scope string_scope.
Open Scope Z_scope.
Open Scope list_scope.

(** ** Reading *)

Inductive c_place := AtTop | InStruct | InEnum.
Inductive c_part := CMember (declaration : string) | CType (name : string).
(** [typedef struct {] and [typedef enum {] open a type; [typedef a b;] declares [b]. *)
Definition c_opens (l : string) : c_place * list c_part :=
  match rest_after "typedef " l with
  | None => (AtTop, [])
  | Some r =>
      let (w, rest) := to_space r in
      if String.eqb w "struct" then (InStruct, [])
      else if String.eqb w "enum" then (InEnum, [])
      else match rest_after " " rest with
           | Some q => match before ";" q with Some n => (AtTop, [CType n]) | None => (AtTop, []) end
           | None => (AtTop, [])
           end
  end.
(** The name of a type stands behind its members. *)
Definition c_closes (l : string) : option string :=
  match rest_after "} " l with Some r => before ";" r | None => None end.
Definition c_look (level : Z) (at_ : c_place) (l : out_line) : c_place * list c_part :=
  match at_ with
  | AtTop => if fst l =? level then c_opens (snd l) else (AtTop, [])
  | InStruct | InEnum =>
      match (if fst l =? level then c_closes (snd l) else None) with
      | Some n => (AtTop, [CType n])
      | None => (at_, match at_ with InStruct => [CMember (without_blanks (snd l))] | _ => [] end)
      end
  end.
Fixpoint c_looks (level : Z) (at_ : c_place) (ls : list out_line) : c_place * list c_part :=
  match ls with
  | [] => (at_, [])
  | l :: r => let (a, n) := c_look level at_ l in let (a', n') := c_looks level a r in (a', n ++ n')
  end.
(** The text that is generated declares these types, with these members. *)
Definition c_declares (p : protocol) (g : settings) (parts : list c_part) : Prop :=
  exists ls, generate "c" p g 0 = Ret (ls, 0) /\ c_looks 0 AtTop ls = (AtTop, parts).

(** ** What is expected *)

Definition c_prefix (g : settings) : string :=
  match g_namespace g with Some ns => ns +++ "_" | None => "beschi_" end.
Definition c_type_names : list string :=
  ["bool"; "uint8_t"; "int16_t"; "uint16_t"; "int32_t"; "uint32_t"; "int64_t"; "uint64_t"; "float"; "double"; "char*"].
Definition c_type_text (g : settings) (t : string) : string :=
  match lookup t (combine base_type_names c_type_names) with Some x => x | None => c_prefix g +++ t end.

(** A list has a length and a pointer, a string too; the strings in a list have their
    lengths in a second list. *)
Definition c_member_texts (p : protocol) (g : settings) (m : var) : list string :=
  let n := v_name m in
  let t := c_type_text g (v_type m) in
  let count := c_type_text g (p_list_size_type p) in
  if v_list m then
    [count +++ " " +++ n +++ "_len;"] ++
    (if String.eqb (v_type m) "string" then [count +++ "* " +++ n +++ "_els_len;"] else []) ++
    [t +++ "* " +++ n +++ ";"]
  else
    (if String.eqb (v_type m) "string" then [c_type_text g (p_string_size_type p) +++ " " +++ n +++ "_len;"] else []) ++
    [t +++ " " +++ n +++ ";"].
Definition c_type_parts (p : protocol) (g : settings) (t : string * struct) : list c_part :=
  (if s_is_message (snd t) then [CMember (c_prefix g +++ "MessageType _mt;")] else []) ++
  map CMember (flat_map (c_member_texts p g) (s_members (snd t))) ++
  [CType (c_prefix g +++ fst t)].
Definition c_own_parts (g : settings) : list c_part :=
  [CType (c_prefix g +++ "err_t");
   CMember "uint8_t* buffer;"; CMember "size_t bufferSize;"; CMember "size_t position;";
   CType (c_prefix g +++ "DataAccess");
   CType (c_prefix g +++ "MessageType")].
(** The types of the boilerplate. *)
Definition c_own_types : list string := ["err_t"; "DataAccess"; "MessageType"].
Definition c_expected_parts (p : protocol) (g : settings) : list c_part :=
  c_own_parts g ++
  map (fun e => CType (c_prefix g +++ fst e)) (p_enums p) ++
  flat_map (c_type_parts p g) (p_structs p ++ p_messages p).

(** The names of the types, and a namespace, are words; the boilerplate of C has marks
    that a namespace can hit. *)
Definition c_usual (p : protocol) (g : settings) : Prop :=
  accepted p /\ usual "c" g /\ word_types p /\ word_namespace g /\
  (forall ns, g_namespace g = Some ns -> ~ inside "BESCHI" ns).

(** ** The order *)

(** The types that C, or a header that the file includes, declares. *)
Definition c_builtin : list string :=
  ["bool"; "uint8_t"; "int16_t"; "uint16_t"; "int32_t"; "uint32_t"; "int64_t"; "uint64_t"; "float"; "double"; "char"; "size_t"].
(** The type of a member is the first word of its declaration.  C wants it declared
    before. *)
Definition declared_first (parts : list c_part) : Prop :=
  forall a d b, parts = a ++ CMember d :: b -> In (first_word d) c_builtin \/ In (CType (first_word d)) a.
(** No type is declared twice. *)
Definition c_type_list (parts : list c_part) : list string :=
  flat_map (fun x => match x with CType n => [n] | CMember _ => [] end) parts.
