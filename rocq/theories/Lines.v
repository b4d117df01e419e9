(** Model of Writer in beschi/writer.py: lines of text, indentation, boilerplate.

    A method of a writer that prints is a [gtext]: from the current
    [self.indent_level] to the lines it appends to [self.output] and the new level,
    or to an exception.  A line is kept with the level at which it was written;
    [layout] puts the indentation in front.

    Strings are sequences of bytes, as in Protocol.v. *)
From Verif Require Export Lang TextUtil.
Open Scope string_scope.
Open Scope Z_scope.
Open Scope list_scope.

(** beschi/__init__.py *)
Definition LIB_NAME : string := "Beschi".
Definition LIB_VERSION : string := "0.4.0".

(** ** Text that may raise an exception *)

Definition ptext := pyres string.
Definition lit (s : string) : ptext := Ret s.
Coercion lit : string >-> ptext.
Definition pcat (a b : ptext) : ptext := x <- a ;; y <- b ;; Ret (x +++ y).
(** An f-string: its parts, from left to right. *)
Notation "[| a ; .. ; b |]" := (pcat a .. (pcat b (lit "")) ..).

(** Numbers in f-strings. *)
Definition str_of_Z (z : Z) : string := NilZero.string_of_int (Z.to_int z).
Definition str_of (z : pyres Z) : ptext := n <- z ;; lit (str_of_Z n).

(** [d[k]] of a dictionary. *)
Definition item {A} (d : list (string * A)) (k : string) : pyres A :=
  match lookup k d with Some a => Ret a | None => Raise KeyError end.
Definition get_enum (p : protocol) (t : string) : pyres enum := item (p_enums p) t.
Definition get_struct (p : protocol) (t : string) : pyres struct := item (p_structs p) t.
(** [e.get_default_pair()[0]], [e.get_default_pair()[1]], [e.get_minimum_pair()[1]]. *)
Definition of_option {A} (o : option A) : pyres A :=
  match o with Some a => Ret a | None => Raise IndexError end.
Definition default_name (e : enum) : ptext := x <- of_option (get_default_pair e) ;; Ret (fst x).
Definition default_value (e : enum) : pyres Z := x <- of_option (get_default_pair e) ;; Ret (snd x).
Definition minimum_name (e : enum) : ptext := x <- of_option (get_minimum_pair e) ;; Ret (fst x).
Definition minimum_value (e : enum) : pyres Z := x <- of_option (get_minimum_pair e) ;; Ret (snd x).
(** [self.protocol.get_size_of(t)] and [NUMERIC_TYPE_SIZES[t]]. *)
Definition get_size_of (p : protocol) (t : string) : pyres Z := size_of_type p (depth_of p) t.
Definition numeric_size (t : string) : pyres Z := item NUMERIC_TYPE_SIZES t.

(** writer.py:42-49, type_mapping, with the entries that a writer adds; later
    entries replace earlier ones. *)
Definition mapping (p : protocol) (more : list (string * string)) (t : string) : ptext :=
  match lookup t more with
  | Some n => Ret n
  | None =>
      if String.eqb t "string" then Ret "string"
      else if in_strs t (declared_names p) then Ret t
      else Raise KeyError
  end.
(** [t in self.type_mapping] *)
Definition mapped (p : protocol) (more : list (string * string)) (t : string) : bool :=
  match mapping p more t with Ret _ => true | _ => false end.

(** What is given to generate() besides the structs, messages and enums: the namespace
    (a string here; Protocol.v says what else the loader lets pass), the indentation
    ([self.tab], from --indent), --embed-protocol, the text of the protocol file, the flag that is
    special to the language, and the lines of the boilerplate files, by index (-1 is
    the file without an index). *)
Record settings := {
  g_namespace : option string;
  g_tab : string;
  g_embed : bool;
  g_source : string;
  g_flag : bool;
  g_files : Z -> list string }.

(** [f"{x}"] where [x] may be None. *)
Definition or_none (x : option string) : string := match x with Some s => s | None => "None" end.

(** [if self.protocol.namespace:] *)
Definition has_namespace (g : settings) : bool :=
  match g_namespace g with Some s => negb (String.eqb s "") | None => false end.

(** [enumerate(d)] for a dictionary: numbers and keys. *)
Fixpoint enumerate_from {A} (i : Z) (d : list (string * A)) : list (Z * string) :=
  match d with [] => [] | (k, _) :: r => (i, k) :: enumerate_from (i + 1) r end.
Definition enumerate {A} (d : list (string * A)) : list (Z * string) := enumerate_from 0 d.

(** [enumerate(l)] for a list, from [i] on. *)
Fixpoint index_from {A} (i : Z) (l : list A) : list (Z * A) :=
  match l with [] => [] | x :: r => (i, x) :: index_from (i + 1) r end.

(** [l.index(x)] *)
Fixpoint position (x : string) (l : list string) : pyres Z :=
  match l with
  | [] => Raise ValueError
  | y :: r => if String.eqb y x then Ret 0 else i <- position x r ;; Ret (i + 1)
  end.

(** ** Printing *)

Definition out_line := (Z * string)%type.
Definition gtext := Z -> pyres (list out_line * Z).

Definition skip : gtext := fun n => Ret ([], n).
Definition andthen (a b : gtext) : gtext := fun n =>
  r <- a n ;; r' <- b (snd r) ;; Ret (fst r ++ fst r', snd r').
Definition block (l : list gtext) : gtext := fold_right andthen skip l.
(** writer.py:84-88, write_line. *)
Definition line (t : ptext) : gtext := fun n => s <- t ;; Ret ([(n, s)], n).
Definition blank : gtext := line "".
(** [self.indent_level += 1], [self.indent_level -= 1] *)
Definition indent : gtext := fun n => Ret ([], n + 1).
Definition dedent : gtext := fun n => Ret ([], n - 1).
(** [assert self.indent_level == 0] *)
Definition check_level : gtext := fun n => if n =? 0 then Ret ([], n) else Raise AssertionError.
(** [if b: ...] *)
Definition when (b : bool) (g : gtext) : gtext := if b then g else skip.
(** [for x in l: ...] *)
Definition each {A} (l : list A) (f : A -> gtext) : gtext := block (map f l).
(** [x = ...] where the right side may raise. *)
Definition given {A} (m : pyres A) (f : A -> gtext) : gtext := fun n => a <- m ;; f a n.
(** [idx = self.indent_level] *)
Definition at_level (f : Z -> gtext) : gtext := fun n => f n n.

(** The serializers and deserializers call themselves for the elements of a list, with
    a variable that is no list, so that the recursion is one step deep. *)
Definition no_more : var -> string -> gtext := fun _ _ _ => OutOfSteps.
(** [if clines[0] == size_init: clines = clines[1:]] *)
Definition drop_first_if (l : string) (ls : list string) : pyres (list string) :=
  match ls with
  | [] => Raise IndexError
  | x :: r => Ret (if String.eqb x l then r else ls)
  end.

(** ** Layout *)

(** [s * n]; nothing if [n] is negative. *)
Fixpoint repeat_str (n : nat) (s : string) : string :=
  match n with O => EmptyString | S n' => s +++ repeat_str n' s end.
(** writer.py:84-92, write_line and indent_string. *)
Definition layout_line (tab : string) (l : out_line) : string :=
  if String.eqb (snd l) "" then "" else repeat_str (Z.to_nat (fst l)) tab +++ snd l.
Definition line_feed : string := String "010"%char EmptyString.
(** ["\n".join(self.output)] *)
Definition layout (tab : string) (ls : list out_line) : string :=
  String.concat line_feed (map (layout_line tab) ls).

(** [s.splitlines()]: at the line ends that Python knows, in UTF-8; [cur] is the
    line so far. *)
Definition is_byte (n : nat) (c : ascii) : bool := Nat.eqb (nat_of_ascii c) n.
Definition ends_line (c : ascii) : bool :=
  let n := nat_of_ascii c in (Nat.leb 10 n && Nat.leb n 13) || (Nat.leb 28 n && Nat.leb n 30).
Fixpoint splitlines_from (cur s : string) : list string :=
  match s with
  | EmptyString => if String.eqb cur "" then [] else [cur]
  | String c r =>
      if ends_line c then
        match r with
        | String d r' => if is_byte 13 c && is_byte 10 d then cur :: splitlines_from "" r'
                         else cur :: splitlines_from "" r
        | EmptyString => cur :: splitlines_from "" r
        end
      else match r with
      | String d r' =>
          if is_byte 194 c && is_byte 133 d then cur :: splitlines_from "" r'
          else match r' with
          | String e r'' =>
              if is_byte 226 c && is_byte 128 d && (is_byte 168 e || is_byte 169 e)
              then cur :: splitlines_from "" r''
              else splitlines_from (cur +++ String c "") r
          | EmptyString => splitlines_from (cur +++ String c "") r
          end
      | EmptyString => splitlines_from (cur +++ String c "") r
      end
  end.
Definition splitlines (s : string) : list string := splitlines_from "" s.

(** What generate() returns: the level starts at 0. *)
Definition generated (tab : string) (g : gtext) : pyres string :=
  r <- g 0 ;; Ret (layout tab (fst r)).

(** ** Boilerplate *)

(** [s.startswith(old)] *)
Fixpoint starts_with (old s : string) : bool :=
  match old, s with
  | EmptyString, _ => true
  | String a r, String b r' => Ascii.eqb a b && starts_with r r'
  | String _ _, EmptyString => false
  end.
(** [s.replace(old, new)], from left to right, without overlaps; [gap] is the number
    of characters of a match that are still to be dropped. *)
Fixpoint replace_from (old new : string) (gap : nat) (s : string) : string :=
  match s with
  | EmptyString => EmptyString
  | String c r =>
      match gap with
      | S g => replace_from old new g r
      | O => if starts_with old s then new +++ replace_from old new (String.length old - 1) r
             else String c (replace_from old new 0 r)
      end
  end.
(** The same for an empty [old]: around every character. *)
Fixpoint replace_empty (new s : string) : string :=
  match s with EmptyString => new | String c r => new +++ String c (replace_empty new r) end.
Definition replace (old new s : string) : string :=
  match old with EmptyString => replace_empty new s | _ => replace_from old new 0 s end.

(** A substitution: text, or lines. *)
Inductive substitute_by := Text (s : string) | Lines (l : list string).

(** writer.py:65-68: from the last line to the first, a line that is [old] becomes
    [new]; [i] lines are still to be looked at. *)
Fixpoint splice (old : string) (new : list string) (i : nat) (ls : list string) : list string :=
  match i with
  | O => ls
  | S j =>
      match nth_error ls j with
      | Some l => splice old new j (if String.eqb l old then firstn j ls ++ new ++ skipn (S j) ls else ls)
      | None => splice old new j ls
      end
  end.

(** writer.py:61-68 *)
Definition substitute (ls : list string) (s : string * substitute_by) : list string :=
  match snd s with
  | Text new => map (replace (fst s) new) ls
  | Lines new => splice (fst s) new (List.length ls) ls
  end.

(** writer.py:69-73, replace_indent: how often [old] stands at the start, and the
    rest.  ([old] is not empty: it is the indentation that a writer chooses.)
    [fuel]: at least the length of the line. *)
Fixpoint unindent (fuel : nat) (old s : string) : nat * string :=
  match fuel with
  | O => (O, s)
  | S f => if starts_with old s then
             let (k, r) := unindent f old (substring (String.length old) (String.length s) s) in (S k, r)
           else (O, s)
  end.
Definition replace_indent (old new s : string) : string :=
  let (k, r) := unindent (String.length s) old s in repeat_str k new +++ r.

(** writer.py:52-77, add_boilerplate, when the file is there; [ls] are its lines. *)
Definition boilerplate_lines (native tab : string) (subs : list (string * substitute_by)) (ls : list string) : list string :=
  map (replace_indent native tab) (fold_left substitute subs ls).
Definition add_boilerplate (native tab : string) (subs : list (string * substitute_by)) (ls : list string) : gtext :=
  each (boilerplate_lines native tab subs ls) (fun l => line l).
