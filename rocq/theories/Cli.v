(** Model of main in beschi/cli.py.

    argparse is not modelled: [arguments] is what parse_args returns (when it does; on
    wrong usage it exits with status 2 by itself).  Reading the protocol file, parsing
    TOML and writing the output file are parameters.  Messages on standard error are
    left out; print is taken to succeed. *)
From Verif Require Export TypeScriptText CSharpText SwiftText RustText ZigText GoText CText BoilerplateFiles.
Open Scope string_scope.
Open Scope Z_scope.
Open Scope list_scope.

(** cli.py:15-32, the arguments. *)
Record arguments := {
  a_version : bool;
  a_lang : option string;
  a_output : option string;
  a_protocol : option string;
  a_namespace : option string;
  a_indent : option string;
  a_embed_protocol : bool;
  a_typescript_use_namespace : bool;
  a_go_no_rename : bool;
  a_rust_no_rename : bool }.

(** protocol.py:130-131, reading the protocol file: it is not there, it cannot be read
    as UTF-8 text, its text is not TOML, or its text and the data. *)
Inductive file :=
| Missing
| Unreadable
| NotToml
| Document (text : string) (data : list (string * toml)).

(** cli.py:92-95, writing the output file: it cannot be opened, writing fails after
    some part is in the file, or all is written. *)
Inductive writing := NoOpen | Broken (part : string) | Written.

(** What a run leaves: what was printed on standard output, the files that were changed
    with their new contents, and the exit status. *)
Record ending := { o_printed : string; o_files : list (string * string); o_status : Z }.
Inductive run := Ends (e : ending) | RunsOn | NotModelled.

Definition leave (status : Z) : run := Ends {| o_printed := ""; o_files := []; o_status := status |}.

(** writers/__init__.py:7-20; no writer is experimental. *)
Definition writers : list string :=
  ["assemblyscript"; "c"; "csharp"; "go"; "rust"; "swift"; "typescript"; "zig"].

(** cli.py:78, extra_args (the entries that are not flags are left out; no writer looks
    for them). *)
Definition extra_args (a : arguments) (lang : string) : list (string * bool) :=
  filter (fun d => starts_with lang (fst d) || in_strs (fst d) ["embed_protocol"])
    [("embed_protocol", a_embed_protocol a); ("go_no_rename", a_go_no_rename a);
     ("rust_no_rename", a_rust_no_rename a); ("typescript_use_namespace", a_typescript_use_namespace a);
     ("version", a_version a)].

(** The indentation that a writer chooses, and the flag of its own that it looks up
    (typescript.py:21-25, assemblyscript.py:16-19, c.py:15, csharp.py:13, go.py:20-34,
    rust.py:20-30, swift.py:13, zig.py:15). *)
Definition writer_tab (lang : string) : string :=
  if in_strs lang ["assemblyscript"; "typescript"] then "  "
  else if String.eqb lang "go" then got_tab else "    ".
Definition writer_flag (lang : string) : option string :=
  if String.eqb lang "go" then Some "go_no_rename"
  else if String.eqb lang "rust" then Some "rust_no_rename"
  else if String.eqb lang "typescript" then Some "typescript_use_namespace"
  else None.

(** The boilerplate files of the writers. *)
Definition writer_files (lang : string) : Z -> list string :=
  if String.eqb lang "assemblyscript" then assemblyscript_files
  else if String.eqb lang "c" then c_files
  else if String.eqb lang "csharp" then csharp_files
  else if String.eqb lang "go" then go_files
  else if String.eqb lang "rust" then rust_files
  else if String.eqb lang "swift" then swift_files
  else if String.eqb lang "typescript" then typescript_files
  else zig_files.

(** The generate method of the writer class; the writers of Go and Rust rename the
    members when they are made (go.py:20-32, rust.py:20-28). *)
Definition generate (lang : string) (p : protocol) (g : settings) : gtext :=
  if String.eqb lang "assemblyscript" then tst_generate p g true
  else if String.eqb lang "c" then ct_generate p g
  else if String.eqb lang "csharp" then cst_generate p g
  else if String.eqb lang "go" then got_generate (go_protocol (negb (g_flag g)) p) g
  else if String.eqb lang "rust" then rst_generate (rs_protocol (negb (g_flag g)) p) g
  else if String.eqb lang "swift" then swt_generate p g
  else if String.eqb lang "typescript" then tst_generate p g false
  else zgt_generate p g.

(** [args.x and len(args.x) > 0] *)
Definition given_text (o : option string) : option string :=
  match o with Some "" | None => None | Some s => Some s end.

(** cli.py:61-62, the namespace, if it is text.  (A namespace in the file may be an
    array or a table; then writers behave in ways that are not modelled.) *)
Definition namespace_of (a : arguments) (p : protocol) : option (option string) :=
  match given_text (a_namespace a) with
  | Some n => Some (Some n)
  | None => match p_namespace p with
            | None => Some None
            | Some (TStr n) => Some (Some n)
            | Some _ => None
            end
  end.

(** cli.py:72-90, the writer and its text. *)
Definition write_code (a : arguments) (lang text : string) (p : protocol) (ns : option string) : pyres string :=
  embed <- item (extra_args a lang) "embed_protocol" ;;
  flag <- match writer_flag lang with Some f => item (extra_args a lang) f | None => Ret false end ;;
  let tab := match given_text (a_indent a) with Some t => t | None => writer_tab lang end in
  generated tab (generate lang p
    {| g_namespace := ns; g_tab := tab; g_embed := embed; g_source := text; g_flag := flag; g_files := writer_files lang |}).

(** cli.py:11-95, main.  [read]: the protocol file; [write]: what becomes of writing a
    text to a file; [fuel]: the budget of the loader.  An exception that is not caught
    ends the program with status 1. *)
Definition main (read : string -> file) (write : string -> string -> writing) (fuel : nat) (a : arguments) : run :=
  if a_version a then
    Ends {| o_printed := LIB_NAME +++ " v" +++ LIB_VERSION +++ line_feed; o_files := []; o_status := 0 |}
  else match a_protocol a with
  | None => leave 1
  | Some path =>
      match a_lang a with
      | None => leave 1
      | Some lang =>
          match read path with
          | Missing => leave 1
          | Unreadable => leave 1
          | NotToml => leave 1
          | Document text data =>
              match load fuel data with
              | OutOfSteps => RunsOn
              | Raise _ => leave 1
              | Ret p =>
                  if negb (in_strs lang writers) then leave 1
                  else match namespace_of a p with
                  | None => NotModelled
                  | Some ns =>
                      match write_code a lang text p ns with
                      | OutOfSteps => RunsOn
                      | Raise _ => leave 1
                      | Ret output =>
                          match a_output a with
                          | None => Ends {| o_printed := output +++ line_feed; o_files := []; o_status := 0 |}
                          | Some f =>
                              match write f output with
                              | NoOpen => leave 1
                              | Broken part => Ends {| o_printed := ""; o_files := [(f, part)]; o_status := 1 |}
                              | Written => Ends {| o_printed := ""; o_files := [(f, output)]; o_status := 0 |}
                              end
                          end
                      end
                  end
              end
          end
      end
  end.
