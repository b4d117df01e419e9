(** Text without its indentation. *)
From Verif Require Export LinesSpec Cli.
Open Scope string_scope.
Open Scope list_scope.

(** Spaces and tabs. *)
Definition blank_char (c : ascii) : bool := Ascii.eqb c " " || Ascii.eqb c "009".
Fixpoint blanks (s : string) : bool :=
  match s with EmptyString => true | String c r => blank_char c && blanks r end.
(** A line without the blanks at its start. *)
Fixpoint strip (s : string) : string :=
  match s with
  | EmptyString => EmptyString
  | String c r => if blank_char c then strip r else s
  end.
(** The pieces between line feeds. *)
Fixpoint feed_lines (s : string) : list string :=
  match s with
  | EmptyString => [""]
  | String c r =>
      if Ascii.eqb c "010" then "" :: feed_lines r
      else match feed_lines r with
           | l :: ls => String c l :: ls
           | [] => [String c ""]
           end
  end.
Definition unindented (s : string) : list string := map strip (feed_lines s).

(** Two runs of a writer: they raise the same exception, or print the same lines up to
    indentation. *)
Definition same_text (a b : pyres string) : Prop :=
  match a, b with
  | Ret s, Ret s' => unindented s = unindented s'
  | Raise e, Raise e' => e = e'
  | OutOfSteps, OutOfSteps => True
  | _, _ => False
  end.

(** The settings with another indentation, the arguments with another --indent. *)
Definition with_tab (t : string) (g : settings) : settings :=
  {| g_namespace := g_namespace g; g_tab := t; g_embed := g_embed g; g_source := g_source g; g_flag := g_flag g; g_files := g_files g |}.
Definition with_indent (i : option string) (a : arguments) : arguments :=
  {| a_version := a_version a; a_lang := a_lang a; a_output := a_output a; a_protocol := a_protocol a;
     a_namespace := a_namespace a; a_indent := i; a_embed_protocol := a_embed_protocol a;
     a_typescript_use_namespace := a_typescript_use_namespace a; a_go_no_rename := a_go_no_rename a;
     a_rust_no_rename := a_rust_no_rename a |}.
(** No --indent, or one of spaces and tabs. *)
Definition blank_indent (i : option string) : Prop := match i with Some t => blanks t = true | None => True end.
