(** What is expected of the command line tool. *)
From Verif Require Export Cli ProtocolSpec.
Open Scope string_scope.
Open Scope Z_scope.
Open Scope list_scope.

(** Nothing printed, no file touched, status 1. *)
Definition nothing_but_status_1 : ending := {| o_printed := ""; o_files := []; o_status := 1 |}.

(** The loader comes to an end on the protocol file. *)
Definition loads_or_not (read : string -> file) (fuel : nat) (a : arguments) : Prop :=
  forall path text data, a_protocol a = Some path -> read path = Document text data -> load fuel data <> OutOfSteps.

(** Something is wrong with the arguments or the protocol file. *)
Inductive goes_wrong (read : string -> file) (fuel : nat) (a : arguments) : Prop :=
| gw_no_protocol : a_protocol a = None -> goes_wrong read fuel a
| gw_no_lang : a_lang a = None -> goes_wrong read fuel a
| gw_missing path : a_protocol a = Some path -> read path = Missing -> goes_wrong read fuel a
| gw_unreadable path : a_protocol a = Some path -> read path = Unreadable -> goes_wrong read fuel a
| gw_not_toml path : a_protocol a = Some path -> read path = NotToml -> goes_wrong read fuel a
| gw_invalid path text data e : a_protocol a = Some path -> read path = Document text data ->
    load fuel data = Raise e -> goes_wrong read fuel a
| gw_language lang : a_lang a = Some lang ->
    ~ In lang ["assemblyscript"; "c"; "csharp"; "go"; "rust"; "swift"; "typescript"; "zig"] -> goes_wrong read fuel a.

(** The flag of the arguments that concerns the language. *)
Definition flag_for (a : arguments) (lang : string) : bool :=
  if String.eqb lang "go" then a_go_no_rename a
  else if String.eqb lang "rust" then a_rust_no_rename a
  else if String.eqb lang "typescript" then a_typescript_use_namespace a
  else false.

(** The namespace: from the arguments if there is one, or else from the file. *)
Definition namespace_for (a : arguments) (p : protocol) (ns : option string) : Prop :=
  (exists n, a_namespace a = Some n /\ n <> "" /\ ns = Some n) \/
  ((a_namespace a = None \/ a_namespace a = Some "") /\
   ((p_namespace p = None /\ ns = None) \/ exists n, p_namespace p = Some (TStr n) /\ ns = Some n)).

(** The indentation: from the arguments if there is one, or else that of the language. *)
Definition tab_for (a : arguments) (lang tab : string) : Prop :=
  (a_indent a = Some tab /\ tab <> "") \/
  ((a_indent a = None \/ a_indent a = Some "") /\
   ((In lang ["assemblyscript"; "typescript"] /\ tab = "  ") \/ (lang = "go" /\ tab = String "009" "") \/
    (In lang ["c"; "csharp"; "rust"; "swift"; "zig"] /\ tab = "    "))).

(** The text that the arguments ask for. *)
Definition asked_for (read : string -> file) (fuel : nat) (a : arguments) (output : string) : Prop :=
  exists path lang text data p ns tab ls,
    a_protocol a = Some path /\ a_lang a = Some lang /\ In lang writers /\
    read path = Document text data /\ load fuel data = Ret p /\
    namespace_for a p ns /\ tab_for a lang tab /\
    generate lang p {| g_namespace := ns; g_tab := tab; g_embed := a_embed_protocol a; g_source := text;
                       g_flag := flag_for a lang; g_files := writer_files lang |} 0 = Ret (ls, 0) /\
    output = layout tab ls.
