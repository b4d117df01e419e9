(** Text without its comments. *)
From Verif Require Export LinesSpec Cli.
Open Scope string_scope.
Open Scope list_scope.

(** [//] comments exist in all languages; [/* */] comments do not in Zig, and may be
    nested in Swift and Rust. *)
Definition has_blocks (lang : string) : bool := negb (String.eqb lang "zig").
Definition nests (lang : string) : bool := String.eqb lang "swift" || String.eqb lang "rust".

Inductive mode := Code | Quoted | LineComment | BlockComment (depth : nat).

(** What remains without comments, reading from left to right.  The line feed after a [//]
    comment stays.  There are no comments between double quotes. *)
Fixpoint uncomment (blocks nested : bool) (m : mode) (s : string) : string :=
  match s with
  | EmptyString => EmptyString
  | String c r =>
      match m with
      | Code =>
          match r with
          | String d r' =>
              if Ascii.eqb c "/" && Ascii.eqb d "/" then uncomment blocks nested LineComment r'
              else if blocks && (Ascii.eqb c "/" && Ascii.eqb d "*") then uncomment blocks nested (BlockComment 0) r'
              else String c (uncomment blocks nested (if Ascii.eqb c """" then Quoted else Code) r)
          | EmptyString => s
          end
      | Quoted =>
          if Ascii.eqb c "\" then
            match r with
            | String d r' => String c (String d (uncomment blocks nested Quoted r'))
            | EmptyString => s
            end
          else String c (uncomment blocks nested (if Ascii.eqb c """" then Code else Quoted) r)
      | LineComment =>
          if Ascii.eqb c "010" then String c (uncomment blocks nested Code r) else uncomment blocks nested LineComment r
      | BlockComment depth =>
          match r with
          | String d r' =>
              if Ascii.eqb c "*" && Ascii.eqb d "/" then
                match depth with
                | O => uncomment blocks nested Code r'
                | S depth' => uncomment blocks nested (BlockComment depth') r'
                end
              else if nested && (Ascii.eqb c "/" && Ascii.eqb d "*") then uncomment blocks nested (BlockComment (S depth)) r'
              else uncomment blocks nested (BlockComment depth) r
          | EmptyString => EmptyString
          end
      end
  end.

(** Without empty lines. *)
Fixpoint squeeze (after_feed : bool) (s : string) : string :=
  match s with
  | EmptyString => EmptyString
  | String c r =>
      if Ascii.eqb c "010" then if after_feed then squeeze true r else String c (squeeze true r)
      else String c (squeeze false r)
  end.

(** The code in a text. *)
Definition code_of (lang s : string) : string :=
  squeeze false (uncomment (has_blocks lang) (nests lang) Code s).

(** With or without --embed-protocol. *)
Definition embedding (b : bool) (g : settings) : settings :=
  {| g_namespace := g_namespace g; g_tab := g_tab g; g_embed := b; g_source := g_source g; g_flag := g_flag g; g_files := g_files g |}.

(** Embedding the protocol file leaves the code as it is, and puts the lines of the file
    into the text, behind [//] in Zig. *)
Definition embeds (lang : string) (p : protocol) (g : settings) : Prop :=
  exists plain full,
    generated (g_tab g) (generate lang p (embedding false g)) = Ret plain /\
    generated (g_tab g) (generate lang p (embedding true g)) = Ret full /\
    code_of lang full = code_of lang plain /\
    inside (String.concat line_feed
      (map (fun l => (if has_blocks lang then "" else "// ") +++ l) (splitlines (g_source g)))) full.

(** A text that can be put into a comment. *)
Definition fits_comment (lang source : string) : Prop :=
  (has_blocks lang = true -> ~ inside "*/" source) /\ (nests lang = true -> ~ inside "/*" source).
