(** The local variables of generated readers and writers in TypeScript,
    AssemblyScript, C# and Swift, and the names in a class.

    (Rust allows a name to be declared again.  For Go, Zig and C the compiler's rules are
    part of the models of the generators.)  Left out: GetSizeInBytes, and names outside
    of the function. *)
From Verif Require Export TypeScript AssemblyScript CSharp Swift.
Open Scope string_scope.
Open Scope list_scope.

(** Declarations in a block, and blocks inside it. *)
Inductive decl := Local (x : string) | Inner (l : list decl).
Definition declared_here (l : list decl) : list string :=
  flat_map (fun d => match d with Local x => [x] | Inner _ => [] end) l.

(** Is this allowed?  A name is declared at most once in a block.  Unless [shadow], it
    must not be declared in a block further out either, be it before or after.
    (C#: CS0128 and CS0136.) *)
Fixpoint legal_in (shadow : bool) (outer : list string) (d : decl) : bool :=
  match d with
  | Local _ => true
  | Inner l =>
      let here := declared_here l in
      negb (has_dup_str here) &&
      (shadow || forallb (fun x => negb (in_strs x outer)) here) &&
      (fix all (l : list decl) : bool :=
         match l with [] => true | d :: r => legal_in shadow (here ++ outer) d && all r end) l
  end.
Definition legal (shadow : bool) (l : list decl) : bool := legal_in shadow [] (Inner l).

(** What the statements of IR.v declare.  Storing in a local variable is a declaration
    in these languages, except for what a test does to an enum.  [extra] are variables
    that are used for a statement only.  The variable of a loop belongs to a block
    around its body. *)
Fixpoint read_declares (extra : rstmt -> list string) (st : rstmt) : list decl :=
  match st with
  | RNum (DLocal x) _ | RStr (DLocal x) | RCall (DLocal x) _ | RMove (DLocal x) _ => Local x :: map Local (extra st)
  | RFor i _ body => [Inner [Local i; Inner (flat_map (read_declares extra) body)]]
  | _ => map Local (extra st)
  end.
Fixpoint write_declares (extra : wstmt -> list string) (st : wstmt) : list decl :=
  match st with
  | WLet x _ => [Local x]
  | WForIdx x _ body | WForEach x _ body => [Inner [Local x; Inner (flat_map (write_declares extra) body)]]
  | _ => map Local (extra st)
  end.
Definition no_extra {A} (_ : A) : list string := [].

(** typescript.py:256-309, fromBytes: the parameter, and for messages another variable
    and try. *)
Definition ts_read_scope (ns : bool) (p : protocol) (s : struct) : list decl :=
  let body := Local ("n" +++ s_name s) :: flat_map (read_declares no_extra) (ts_reader ns p s) in
  if s_is_message s then [Local "data"; Local "da"; Inner body] else Local "da" :: body.
(** typescript.py:328-371, writeBytes. *)
Definition ts_write_scope (p : protocol) (s : struct) : list decl :=
  (if s_is_message s then [Local "data"; Local "tag"; Local "da"] else [Local "da"]) ++
  flat_map (write_declares no_extra) (ts_writer p s).

(** typescript.py:114-124: a nested object is put into a variable first. *)
Definition as_target (d : dst) : string :=
  match d with DField f => f | DElem f i => f +++ "[" +++ i +++ "]" | DLocal x => x end.
Definition as_extra (st : rstmt) : list string :=
  match st with RCall d _ => ["_" +++ var_clean (as_target d)] | _ => [] end.
(** typescript.py:277-290, fromBytesDA of a message, fromBytes of a struct. *)
Definition as_read_scope (p : protocol) (s : struct) : list decl :=
  Local "da" :: Local ("n" +++ s_name s) :: flat_map (read_declares as_extra) (as_reader p s).
(** typescript.py:354-371, writeBytesDA of a message, writeBytes of a struct. *)
Definition as_write_scope (p : protocol) (s : struct) : list decl :=
  (if s_is_message s then [Local "da"; Local "tag"] else [Local "da"]) ++
  flat_map (write_declares no_extra) (as_writer p s).

(** csharp.py:67-70: two variables for a string; csharp.py:43: their names.  In lists the
    name is [string _el] (csharp.py:62). *)
Definition cs_extra (st : rstmt) : list string :=
  match st with
  | RStr d =>
      let n := match d with DField f => cs_clean f | DElem f _ => cs_clean f | DLocal x => cs_clean ("string " +++ x) end in
      [n +++ "_Length"; n +++ "_Buffer"]
  | _ => []
  end.
(** csharp.py:95-98 *)
Definition cs_write_extra (st : wstmt) : list string :=
  match st with
  | WStr (SField n) | WStr (SLocal n) => [n +++ "_Buffer"]
  | _ => []
  end.
(** csharp.py:202-221, FromBytes. *)
Definition cs_read_scope (ns : bool) (p : protocol) (s : struct) : list decl :=
  let body := Local ("_n" +++ s_name s) :: flat_map (read_declares cs_extra) (cs_reader ns p s) in
  Local "br" :: (if s_is_message s then [Inner body] else body).
(** csharp.py:223-239, WriteBytes. *)
Definition cs_write_scope (p : protocol) (s : struct) : list decl :=
  Local "bw" :: (if s_is_message s then [Local "tag"] else []) ++ flat_map (write_declares cs_write_extra) (cs_writer p s).

(** swift.py:72: [guard let _n = ...]. *)
Definition sw_extra (st : rstmt) : list string :=
  match st with RMove (DField n) _ => ["_" +++ n] | _ => [] end.
(** swift.py:188-209, FromBytes; the body of a function is a block of its own. *)
Definition sw_read_scope (p : protocol) (s : struct) : list decl :=
  [Local "dataReader"; Inner (Local ("n" +++ s_name s) :: flat_map (read_declares sw_extra) (sw_reader p s))].
(** swift.py:211-226, WriteBytes. *)
Definition sw_write_scope (p : protocol) (s : struct) : list decl :=
  [(if s_is_message s then Local "data" else Local "dataWriter");
   Inner ((if s_is_message s then [Local "dataWriter"] else []) ++ flat_map (write_declares no_extra) (sw_writer p s))].

(** All functions of all structs and messages. *)
Definition scopes_legal (shadow : bool) (rd wr : struct -> list decl) (p : protocol) : bool :=
  forallb (fun d => legal shadow (rd (snd d)) && legal shadow (wr (snd d))) (p_structs p ++ p_messages p).
Definition ts_scopes (ns : bool) (p : protocol) : bool := scopes_legal true (ts_read_scope ns p) (ts_write_scope p) p.
Definition as_scopes (p : protocol) : bool := scopes_legal true (as_read_scope p) (as_write_scope p) p.
Definition cs_scopes (ns : bool) (p : protocol) : bool := scopes_legal false (cs_read_scope ns p) (cs_write_scope p) p.
Definition sw_scopes (p : protocol) : bool := scopes_legal true (sw_read_scope p) (sw_write_scope p) p.

(** csharp.py:163-244: the members of a class; none may have its name (CS0102, CS0542). *)
Definition cs_class_names (s : struct) : list string :=
  map v_name (s_members s) ++ (if s_is_message s then ["GetMessageType"; "GetSizeInBytes"] else []) ++ ["FromBytes"; "WriteBytes"].
Definition cs_classes (p : protocol) : bool :=
  forallb (fun d => negb (has_dup_str (cs_class_names (snd d))) && negb (in_strs (fst d) (map v_name (s_members (snd d)))))
    (p_structs p ++ p_messages p).
(** typescript.py:223-375: the members of an object. *)
Definition ts_class_names (s : struct) : list string :=
  map v_name (s_members s) ++ (if s_is_message s then ["getMessageType"; "getSizeInBytes"] else []) ++ ["writeBytes"].
Definition ts_classes (p : protocol) : bool :=
  forallb (fun d => negb (has_dup_str (ts_class_names (snd d)))) (p_structs p ++ p_messages p).
