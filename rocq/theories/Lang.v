(** Parts shared by the models of the target languages. *)
From Coq Require Export DecimalString.
From Verif Require Export Measure.

(** Decimal digits of a number, as Python prints it in an f-string. *)
Definition dec_str (n : nat) : string := NilEmpty.string_of_uint (Nat.to_uint n).

(** The number kind that a generated call handles: a Python table gives the method
    name for a type, the boilerplate says what the method does.  [None] is a
    KeyError or a method that does not exist. *)
Definition prim (names : list (string * string)) (methods : list (string * num)) (t : string) : option num :=
  match lookup t names with Some n => lookup n methods | None => None end.

(** Statements for a primitive, when there is one. *)
Definition with_prim {A} (k : option num) (bad : A) (f : num -> list A) : list A :=
  match k with Some k => f k | None => [bad] end.

(** writer.py:18-21, TextUtil.replace with single characters: every [a] becomes [b]. *)
Fixpoint replace_char (a b : ascii) (s : string) : string :=
  match s with
  | EmptyString => EmptyString
  | String c r => String (if Ascii.eqb c a then b else c) (replace_char a b r)
  end.

(** var_clean of the writers: [TextUtil.replace(var.name, [("[", "_"), ("]", "_")])]. *)
Definition var_clean (s : string) : string := replace_char "]" "_" (replace_char "[" "_" s).

(** A size type of 64 bits. *)
Definition is_64 (t : string) : bool := String.eqb t "uint64" || String.eqb t "int64".

(** Some struct or message has a list member. *)
Definition has_lists (p : protocol) : bool :=
  existsb (fun ns => existsb v_list (s_members (snd ns))) (p_structs p ++ p_messages p).

(** writer.py:42-49, the type_mapping that Writer.__init__ builds: declared names
    stand for themselves. *)
Definition declared_names (p : protocol) : list string :=
  map fst (p_structs p) ++ map fst (p_messages p) ++ map fst (p_enums p).

(** Some struct or message has a string, or a list of strings. *)
Definition has_strings (p : protocol) : bool :=
  existsb (fun s => existsb (fun m => String.eqb (v_type m) "string") (s_members (snd s))) (p_structs p ++ p_messages p).
