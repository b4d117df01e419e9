(** Proofs for PropCli.v. *)
From Verif Require Export CliSpec PropNestingFacts.
Open Scope string_scope.
Open Scope Z_scope.
Open Scope list_scope.

Lemma writers_In lang : in_strs lang writers = true <-> In lang writers.
Proof. apply in_strs_true. Qed.

Lemma cli_wrong read write fuel a :
  a_version a = false -> loads_or_not read fuel a -> goes_wrong read fuel a ->
  main read write fuel a = Ends nothing_but_status_1.
Proof.
  intros V L G. unfold main. rewrite V.
  destruct (a_protocol a) as [path | ] eqn:P; [ | reflexivity].
  destruct (a_lang a) as [lang | ] eqn:A; [ | reflexivity].
  destruct (read path) as [ | | | text data] eqn:R; try reflexivity.
  specialize (L path text data P R).
  destruct (load fuel data) as [p | e | ] eqn:E; [ | reflexivity | congruence].
  destruct (in_strs lang writers) eqn:W; [exfalso | reflexivity]. apply writers_In in W.
  destruct G as [G | G | q G G' | q G G' | q G G' | q t d e G G' G'' | l G G']; try congruence.
  apply G'. rewrite A in G. injection G as <-. exact W.
Qed.

Lemma extra_embed a lang : item (extra_args a lang) "embed_protocol" = Ret (a_embed_protocol a).
Proof.
  unfold extra_args, item. cbn [filter fst in_strs String.eqb Ascii.eqb].
  rewrite !orb_true_r || idtac.
  replace (starts_with lang "embed_protocol" || in_strs "embed_protocol" ["embed_protocol"]) with true
    by (symmetry; apply orb_true_r). reflexivity.
Qed.

Lemma extra_flag a lang : In lang writers ->
  match writer_flag lang with Some f => item (extra_args a lang) f | None => Ret false end = Ret (flag_for a lang).
Proof.
  intros I. cbn in I. repeat (destruct I as [<- | I]; [reflexivity | ]). destruct I.
Qed.

Lemma generate_nested lang p g : accepted p -> In lang writers -> well_nested (generate lang p g).
Proof.
  intros A I. unfold writers in I. cbn [In] in I.
  destruct I as [<- | [<- | [<- | [<- | [<- | [<- | [<- | [<- | []]]]]]]]].
  - change (well_nested (tst_generate p g true)). apply assemblyscript_nested, A.
  - change (well_nested (ct_generate p g)). apply c_nested, A.
  - change (well_nested (cst_generate p g)). apply csharp_nested, A.
  - change (well_nested (got_generate (go_protocol (negb (g_flag g)) p) g)). apply go_nested, A.
  - change (well_nested (rst_generate (rs_protocol (negb (g_flag g)) p) g)). apply rust_nested, A.
  - change (well_nested (swt_generate p g)). apply swift_nested, A.
  - change (well_nested (tst_generate p g false)). apply typescript_nested, A.
  - change (well_nested (zgt_generate p g)). apply zig_nested, A.
Qed.

Lemma namespace_found a p ns : namespace_for a p ns <-> namespace_of a p = Some ns.
Proof.
  unfold namespace_for, namespace_of, given_text. split.
  - intros [(n & -> & N & ->) | [H H']].
    + destruct n; [congruence | reflexivity].
    + assert (E : match a_namespace a with Some "" | None => None | Some s => Some s end = @None string)
        by (destruct H as [-> | ->]; reflexivity).
      rewrite E. destruct H' as [[-> ->] | (n & -> & ->)]; reflexivity.
  - destruct (a_namespace a) as [[ | c n] | ]; intros H.
    + right. split; [right; reflexivity | ].
      destruct (p_namespace p) as [[ ] | ]; try discriminate H; injection H as <-; [right; eexists; eauto | left; auto].
    + left. injection H as <-. eexists. repeat split; discriminate.
    + right. split; [left; reflexivity | ].
      destruct (p_namespace p) as [[ ] | ]; try discriminate H; injection H as <-; [right; eexists; eauto | left; auto].
Qed.

Lemma tab_found a lang : In lang writers ->
  tab_for a lang (match given_text (a_indent a) with Some t => t | None => writer_tab lang end).
Proof.
  intros I. unfold tab_for, given_text.
  assert (D : (In lang ["assemblyscript"; "typescript"] /\ writer_tab lang = "  ") \/ (lang = "go" /\ writer_tab lang = String "009" "") \/
    (In lang ["c"; "csharp"; "rust"; "swift"; "zig"] /\ writer_tab lang = "    ")).
  { cbn in I. repeat (destruct I as [<- | I]; [vm_compute; intuition (auto; fail) | ]). destruct I. }
  destruct (a_indent a) as [[ | c t] | ].
  - right. split; [right; reflexivity | exact D].
  - left. split; [reflexivity | discriminate].
  - right. split; [left; reflexivity | exact D].
Qed.

Definition settings_for (a : arguments) (lang text : string) (ns : option string) (tab : string) : settings :=
  {| g_namespace := ns; g_tab := tab; g_embed := a_embed_protocol a; g_source := text;
     g_flag := flag_for a lang; g_files := writer_files lang |}.

Lemma write_code_text a lang text p ns : In lang writers ->
  write_code a lang text p ns =
  let tab := match given_text (a_indent a) with Some t => t | None => writer_tab lang end in
  generated tab (generate lang p (settings_for a lang text ns tab)).
Proof.
  intros I. unfold write_code. rewrite extra_embed. cbn [pbind]. rewrite (extra_flag a lang I). reflexivity.
Qed.

Lemma write_code_asked read fuel a path lang text data p ns :
  a_protocol a = Some path -> a_lang a = Some lang -> In lang writers ->
  read path = Document text data -> toml_wf (TTab data) -> load fuel data = Ret p -> namespace_for a p ns ->
  exists output, write_code a lang text p ns = Ret output /\ asked_for read fuel a output.
Proof.
  intros P A I R T E N. rewrite write_code_text by exact I. cbv zeta.
  set (tab := match given_text (a_indent a) with Some t => t | None => writer_tab lang end).
  destruct (generate_nested lang p (settings_for a lang text ns tab)) as (ls & G & _);
    [exists fuel, data; auto | exact I | ].
  exists (layout tab ls). split; [unfold generated; rewrite G; reflexivity | ].
  exists path, lang, text, data, p, ns, tab, ls. repeat (split; [first [assumption | reflexivity] | ]).
  split; [apply tab_found, I | ]. split; [exact G | reflexivity].
Qed.

(** Everything in order. *)
Lemma cli_right read write fuel a path lang text data p ns :
  a_version a = false ->
  a_protocol a = Some path -> a_lang a = Some lang -> In lang writers ->
  read path = Document text data -> toml_wf (TTab data) -> load fuel data = Ret p -> namespace_for a p ns ->
  exists output, asked_for read fuel a output /\
    main read write fuel a =
      match a_output a with
      | None => Ends {| o_printed := output +++ line_feed; o_files := []; o_status := 0 |}
      | Some f =>
          match write f output with
          | NoOpen => Ends nothing_but_status_1
          | Broken part => Ends {| o_printed := ""; o_files := [(f, part)]; o_status := 1 |}
          | Written => Ends {| o_printed := ""; o_files := [(f, output)]; o_status := 0 |}
          end
      end.
Proof.
  intros V P A I R T E N.
  destruct (write_code_asked read fuel a path lang text data p ns P A I R T E N) as (output & W & Q).
  exists output. split; [exact Q | ]. unfold main. rewrite V, P, A, R, E, (proj2 (writers_In lang) I). cbn [negb].
  rewrite (proj1 (namespace_found a p ns) N), W. reflexivity.
Qed.

Lemma cli_prints read write fuel a path lang text data p ns :
  a_version a = false ->
  a_protocol a = Some path -> a_lang a = Some lang -> In lang writers ->
  read path = Document text data -> toml_wf (TTab data) -> load fuel data = Ret p -> namespace_for a p ns ->
  a_output a = None ->
  exists output, asked_for read fuel a output /\
    main read write fuel a = Ends {| o_printed := output +++ line_feed; o_files := []; o_status := 0 |}.
Proof.
  intros V P A I R T E N O. destruct (cli_right read write fuel a path lang text data p ns V P A I R T E N) as (output & Q & M).
  exists output. split; [exact Q | ]. rewrite M, O. reflexivity.
Qed.

Lemma cli_writes read write fuel a path lang text data p ns f :
  a_version a = false ->
  a_protocol a = Some path -> a_lang a = Some lang -> In lang writers ->
  read path = Document text data -> toml_wf (TTab data) -> load fuel data = Ret p -> namespace_for a p ns ->
  a_output a = Some f -> (forall s, write f s = Written) ->
  exists output, asked_for read fuel a output /\
    main read write fuel a = Ends {| o_printed := ""; o_files := [(f, output)]; o_status := 0 |}.
Proof.
  intros V P A I R T E N O F. destruct (cli_right read write fuel a path lang text data p ns V P A I R T E N) as (output & Q & M).
  exists output. split; [exact Q | ]. rewrite M, O, F. reflexivity.
Qed.

(** All or nothing, whatever the reason. *)
Lemma cli_all_or_nothing read write fuel a e :
  (forall path text data, read path = Document text data -> toml_wf (TTab data)) ->
  (forall f s part, write f s <> Broken part) ->
  a_version a = false -> main read write fuel a = Ends e ->
  e = nothing_but_status_1 \/
  exists output, asked_for read fuel a output /\ o_status e = 0 /\
    ((a_output a = None /\ o_printed e = output +++ line_feed /\ o_files e = []) \/
     exists f, a_output a = Some f /\ o_printed e = "" /\ o_files e = [(f, output)]).
Proof.
  intros T B V M. pose proof M as M0. unfold main in M. rewrite V in M.
  destruct (a_protocol a) as [path | ] eqn:P; [ | left; injection M as <-; reflexivity].
  destruct (a_lang a) as [lang | ] eqn:A; [ | left; injection M as <-; reflexivity].
  destruct (read path) as [ | | | text data] eqn:R; try (left; injection M as <-; reflexivity).
  destruct (load fuel data) as [p | x | ] eqn:E; [ | left; injection M as <-; reflexivity | discriminate M].
  destruct (in_strs lang writers) eqn:W; [ | left; injection M as <-; reflexivity]. cbn [negb] in M.
  destruct (namespace_of a p) as [ns | ] eqn:N; [ | discriminate M]. clear M.
  apply namespace_found in N. apply writers_In in W.
  destruct (cli_right read write fuel a path lang text data p ns V P A W R (T path text data R) E N) as (output & Q & M).
  rewrite M0 in M. destruct (a_output a) as [f | ] eqn:O.
  - destruct (write f output) as [ | part | ] eqn:F.
    + left. injection M as ->. reflexivity.
    + destruct (B f output part F).
    + right. exists output. injection M as ->. split; [exact Q | ]. split; [reflexivity | ]. right. exists f. auto.
  - right. exists output. injection M as ->. split; [exact Q | ]. split; [reflexivity | ]. left. auto.
Qed.

(** A document as the only file. *)
Definition only_file (path text : string) (data : list (string * toml)) : string -> file :=
  fun f => if String.eqb f path then Document text data else Missing.
Definition plain_arguments (path lang : string) (output : option string) : arguments :=
  {| a_version := false; a_lang := Some lang; a_output := output; a_protocol := Some path; a_namespace := None;
     a_indent := None; a_embed_protocol := false; a_typescript_use_namespace := false;
     a_go_no_rename := false; a_rust_no_rename := false |}.

Lemma annotated_loads_plain : load 100 annotated_toml = Ret annotated.
Proof. apply annotated_loads. Qed.

(** When writing breaks off, the output file has been changed. *)
Lemma cli_broken_refuted :
  exists read write fuel a f part, main read write fuel a = Ends {| o_printed := ""; o_files := [(f, part)]; o_status := 1 |}.
Proof.
  exists (only_file "p.toml" "" annotated_toml), (fun _ _ => Broken ""), 100%nat,
         (plain_arguments "p.toml" "go" (Some "out.go")), "out.go", "".
  destruct (cli_right (only_file "p.toml" "" annotated_toml) (fun _ _ => Broken "") 100 (plain_arguments "p.toml" "go" (Some "out.go"))
              "p.toml" "go" "" annotated_toml annotated (match p_namespace annotated with Some (TStr n) => Some n | _ => None end))
    as (output & _ & M); try exact M; try exact annotated_loads_plain; try reflexivity.
  - vm_compute. tauto.
  - apply annotated_toml_wf.
  - apply namespace_found. reflexivity.
Qed.

(** On some documents with a containment cycle the tool never stops. *)
Lemma cli_runs_on_refuted :
  exists data p, describes data p /\ WF_local p /\ ~ acyclic p /\
    forall write fuel lang output, In lang writers ->
      main (only_file "p.toml" "" data) write fuel (plain_arguments "p.toml" lang output) = RunsOn.
Proof.
  destruct C03_refuted_proof as (data & p & D & W & C & L). exists data, p. repeat (split; [assumption | ]).
  intros write fuel lang output _. unfold main. cbn. rewrite L. reflexivity.
Qed.

Lemma wrong_met : let a := plain_arguments "p.toml" "cobol" None in let read := only_file "p.toml" "" annotated_toml in
  a_version a = false /\ loads_or_not read 100 a /\ goes_wrong read 100 a.
Proof.
  split; [reflexivity | ]. split.
  - intros path text data P R. injection P as <-. injection R as <- <-. rewrite annotated_loads. discriminate.
  - apply (gw_language _ _ _ "cobol"); [reflexivity | ]. cbn. intuition discriminate.
Qed.
Lemma prints_met : let a := plain_arguments "p.toml" "zig" None in let read := only_file "p.toml" "" annotated_toml in
  a_version a = false /\ a_protocol a = Some "p.toml" /\ a_lang a = Some "zig" /\ In "zig" writers /\
  read "p.toml" = Document "" annotated_toml /\ toml_wf (TTab annotated_toml) /\ load 100 annotated_toml = Ret annotated /\
  (exists ns, namespace_for a annotated ns) /\ a_output a = None.
Proof.
  repeat (split; [reflexivity | ]). split; [vm_compute; tauto | ]. split; [reflexivity | ].
  split; [apply annotated_toml_wf | ]. split; [apply annotated_loads | ]. split; [ | reflexivity].
  eexists. apply namespace_found. reflexivity.
Qed.
