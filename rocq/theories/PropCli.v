(** C34: the command line tool (model: Cli.v; specification: CliSpec.v).

    [read] is the file system before the run, [write] what becomes of an attempt to
    write a text to a file, [fuel] the budget of the loader. *)
From Verif Require Import CliSpec LangSpec LangSamples PropCliFacts.
Open Scope string_scope.
Open Scope Z_scope.
Open Scope list_scope.

(** If an argument is missing, the file is missing or is no valid protocol, or the language is unknown, nothing is printed, no file is touched, and the status is 1.  What is missing: documents on which the loader does not stop. *)
Theorem C34_cli_wrong_partial read write fuel a :
  a_version a = false -> loads_or_not read fuel a -> goes_wrong read fuel a ->
  main read write fuel a = Ends nothing_but_status_1.
Proof. exact (cli_wrong read write fuel a). Qed.
Print Assumptions C34_cli_wrong_partial.
Example C34_cli_wrong_partial_met :
  let a := plain_arguments "p.toml" "cobol" None in let read := only_file "p.toml" "" annotated_toml in
  a_version a = false /\ loads_or_not read 100 a /\ goes_wrong read 100 a.
Proof. exact (wrong_met). Qed.

(** If all is in order and there is no output file, the generated text is printed, with a line feed after it.  What is missing: a namespace in the file that is not text. *)
Theorem C34_cli_prints_partial read write fuel a path lang text data p ns :
  a_version a = false ->
  a_protocol a = Some path -> a_lang a = Some lang -> In lang writers ->
  read path = Document text data -> toml_wf (TTab data) -> load fuel data = Ret p -> namespace_for a p ns ->
  a_output a = None ->
  exists output, asked_for read fuel a output /\
    main read write fuel a = Ends {| o_printed := output +++ line_feed; o_files := []; o_status := 0 |}.
Proof. exact (cli_prints read write fuel a path lang text data p ns). Qed.
Print Assumptions C34_cli_prints_partial.
Example C34_cli_prints_partial_met :
  let a := plain_arguments "p.toml" "zig" None in let read := only_file "p.toml" "" annotated_toml in
  a_version a = false /\ a_protocol a = Some "p.toml" /\ a_lang a = Some "zig" /\ In "zig" writers /\
  read "p.toml" = Document "" annotated_toml /\ toml_wf (TTab annotated_toml) /\ load 100 annotated_toml = Ret annotated /\
  (exists ns, namespace_for a annotated ns) /\ a_output a = None.
Proof. exact (prints_met). Qed.

(** If all is in order and the output file can be written, it gets exactly the generated text, and nothing is printed. *)
Theorem C34_cli_writes_partial read write fuel a path lang text data p ns f :
  a_version a = false ->
  a_protocol a = Some path -> a_lang a = Some lang -> In lang writers ->
  read path = Document text data -> toml_wf (TTab data) -> load fuel data = Ret p -> namespace_for a p ns ->
  a_output a = Some f -> (forall s, write f s = Written) ->
  exists output, asked_for read fuel a output /\
    main read write fuel a = Ends {| o_printed := ""; o_files := [(f, output)]; o_status := 0 |}.
Proof. exact (cli_writes read write fuel a path lang text data p ns f). Qed.
Print Assumptions C34_cli_writes_partial.

(** However a run ends, it has emitted the text that was asked for or nothing at all.  What is missing: output files to which only a part can be written. *)
Theorem C34_cli_all_or_nothing_partial read write fuel a e :
  (forall path text data, read path = Document text data -> toml_wf (TTab data)) ->
  (forall f s part, write f s <> Broken part) ->
  a_version a = false -> main read write fuel a = Ends e ->
  e = nothing_but_status_1 \/
  exists output, asked_for read fuel a output /\ o_status e = 0 /\
    ((a_output a = None /\ o_printed e = output +++ line_feed /\ o_files e = []) \/
     exists f, a_output a = Some f /\ o_printed e = "" /\ o_files e = [(f, output)]).
Proof. exact (cli_all_or_nothing read write fuel a e). Qed.
Print Assumptions C34_cli_all_or_nothing_partial.

(** When writing breaks off (no space, a character that the locale cannot encode), the output file has been changed although the status is 1. *)
Theorem C34_cli_broken_refuted :
  exists read write fuel a f part, main read write fuel a = Ends {| o_printed := ""; o_files := [(f, part)]; o_status := 1 |}.
Proof. exact (cli_broken_refuted). Qed.
Print Assumptions C34_cli_broken_refuted.

(** A document with a containment cycle on which the tool never stops. *)
Theorem C34_cli_runs_on_refuted :
  exists data p, describes data p /\ WF_local p /\ ~ acyclic p /\
    forall write fuel lang output, In lang writers ->
      main (only_file "p.toml" "" data) write fuel (plain_arguments "p.toml" lang output) = RunsOn.
Proof. exact (cli_runs_on_refuted). Qed.
Print Assumptions C34_cli_runs_on_refuted.
