(** C35: boilerplate in the generated text (models: Lines.v, XText.v; files:
    BoilerplateFiles.v; [includes], [rewrites], [reindented]: LinesSpec.v).

    [g] are the settings, with the boilerplate files as they are; namespace,
    indentation and the embedded protocol are any text. *)
From Verif Require Import LinesSpec LangSpec LangSamples LangSampleFacts PropBoilerplateFacts.
Open Scope string_scope.
Open Scope Z_scope.
Open Scope list_scope.

Example sample_protocol : accepted annotated.
Proof. exact annotated_accepted_proof. Qed.
Example sample_settings :
  g_files (my_settings "Ns" "	" rust_files) = rust_files /\ g_namespace (my_settings "Ns" "	" rust_files) = Some "Ns".
Proof. exact (conj eq_refl eq_refl). Qed.

(** What [rewrites] asks for exists and is unique when no mark begins another. *)
Theorem C35_rewriting_unique subs :
  distinct subs -> forall s, exists! s', rewrites subs s s'.
Proof. exact (rewrites_defined subs). Qed.
Print Assumptions C35_rewriting_unique.
Example C35_rewriting_unique_met :
  distinct [("Beschi", "Ns"); ("{# STRING_SIZE_TYPE #}", "u8")] /\ rewrites [("Beschi", "Ns")] "enum BeschiError" "enum NsError".
Proof. exact (distinct_met). Qed.

(** TypeScript: the names of the type of string lengths are replaced, whatever the namespace. *)
Theorem C35_typescript_boilerplate p g :
  accepted p -> g_files g = typescript_files ->
  exists size native, lookup (p_string_size_type p) ts_serializers = Some size /\
    lookup (p_string_size_type p) ts_numbers = Some native /\
    includes [("{# STRING_SIZE_TYPE #}", size); ("{# NATIVE_STRING_SIZE_TYPE #}", native)]
             "  " (g_tab g) typescript_file (tst_generate p g false).
Proof. exact (typescript_boilerplate p g). Qed.
Print Assumptions C35_typescript_boilerplate.

(** AssemblyScript. *)
Theorem C35_assemblyscript_boilerplate p g :
  accepted p -> g_files g = assemblyscript_files ->
  exists size native, lookup (p_string_size_type p) as_serializers = Some size /\
    lookup (p_string_size_type p) as_types = Some native /\
    includes [("{# STRING_SIZE_TYPE #}", size); ("{# NATIVE_STRING_SIZE_TYPE #}", native)]
             "  " (g_tab g) assemblyscript_file (tst_generate p g true).
Proof. exact (assemblyscript_boilerplate p g). Qed.
Print Assumptions C35_assemblyscript_boilerplate.

(** C#: the marked line becomes three lines for each message; nothing else changes. *)
Theorem C35_csharp_boilerplate p g :
  accepted p -> g_files g = csharp_files ->
  includes [] "    " (g_tab g) csharp_file_0 (cst_generate p g) /\
  includes_lines "{# MESSAGE_TYPE_CASES #}"
    (flat_map (fun m => ["                case (byte)MessageType." +++ m +++ "Type:";
                         "                    msgList.Add(" +++ m +++ ".FromBytes(br));";
                         "                    break;"]) (map fst (p_messages p)))
    "    " (g_tab g) csharp_file_1 (cst_generate p g).
Proof. exact (csharp_boilerplate p g). Qed.
Print Assumptions C35_csharp_boilerplate.

(** Swift, with any namespace. *)
Theorem C35_swift_boilerplate p g :
  accepted p -> g_files g = swift_files ->
  exists size, lookup (p_string_size_type p) sw_types = Some size /\
    includes [("{# STRING_SIZE_TYPE #}", size); ("{# STRING_SIZE_TYPE_LOWER #}", lower size)]
             "    " (g_tab g) swift_file_0 (swt_generate p g) /\
    includes [("{# NAMESPACE_PREFIX_DOT #}", match g_namespace g with Some ns => ns +++ "." | None => "" end)]
             "    " (g_tab g) swift_file_1 (swt_generate p g).
Proof. exact (swift_boilerplate p g). Qed.
Print Assumptions C35_swift_boilerplate.

(** Rust, with any namespace. *)
Theorem C35_rust_boilerplate rename p g :
  accepted p -> g_files g = rust_files ->
  exists size, lookup (p_string_size_type p) rs_types = Some size /\
    includes (("{# STRING_SIZE_TYPE #}", size) :: match g_namespace g with Some ns => [("Beschi", ns)] | None => [] end)
             "    " (g_tab g) rust_file (rst_generate (rs_protocol rename p) g).
Proof. exact (rust_boilerplate rename p g). Qed.
Print Assumptions C35_rust_boilerplate.

(** Go, with any namespace ([g_flag]: --go-no-rename). *)
Theorem C35_go_boilerplate p g :
  accepted p -> g_files g = go_files ->
  exists size, lookup (p_string_size_type p) go_types = Some size /\
    includes (("{# STRING_SIZE_TYPE #}", size)
              :: match g_namespace g with
                 | None | Some "" => []
                 | Some ns => ("Beschi", ns) :: (if g_flag g then [] else [("beschi", snake ns)])
                 end)
             got_tab (g_tab g) go_file (got_generate (go_protocol (negb (g_flag g)) p) g).
Proof. exact (go_boilerplate p g). Qed.
Print Assumptions C35_go_boilerplate.

(** Zig, with any names of types. *)
Theorem C35_zig_boilerplate p g :
  accepted p -> g_files g = zig_files ->
  exists string_size list_size, lookup (p_string_size_type p) zig_types = Some string_size /\
    lookup (p_list_size_type p) zig_types = Some list_size /\
    includes [("{# STRING_SIZE_TYPE #}", string_size); ("{# LIST_SIZE_TYPE #}", list_size);
              ("{# SIMPLE_TYPES #}",
               comma_list (filter (is_simple p) (map fst (p_structs p) ++ map fst (p_messages p))));
              ("{# ENUM_TYPES #}", comma_list (map fst (p_enums p)))]
             "    " (g_tab g) zig_file (zgt_generate p g).
Proof. exact (zig_boilerplate p g). Qed.
Print Assumptions C35_zig_boilerplate.

(** C, when the namespace has neither "BESCHI" nor a brace in it.  What is missing: other namespaces. *)
Theorem C35_c_boilerplate_partial p g :
  accepted p -> g_files g = c_files ->
  (forall ns, g_namespace g = Some ns -> ~ inside "BESCHI" ns /\ ~ inside "{" ns) ->
  let marks := match g_namespace g with Some ns => [("beschi", ns); ("BESCHI", upper ns)] | None => [] end in
  exists size native, lookup (p_string_size_type p) c_serializers = Some size /\
    lookup (p_string_size_type p) c_types = Some native /\
    includes (marks ++ [("{# STRING_SIZE_TYPE #}", size); ("{# STRING_SIZE_TYPE_LOWER #}", lower size);
                        ("{# STRING_SIZE_TYPE_NATIVE #}", native)])
             "    " (g_tab g) c_file_0 (ct_generate p g) /\
    includes (marks ++ [("{# STRING_SIZE_TYPE #}", size); ("{# STRING_SIZE_TYPE_LOWER #}", lower size)])
             "    " (g_tab g) c_file_1 (ct_generate p g) /\
    includes marks "    " (g_tab g) c_file_2 (ct_generate p g).
Proof. exact (c_boilerplate p g). Qed.
Print Assumptions C35_c_boilerplate_partial.
Example C35_c_boilerplate_partial_met :
  ~ inside "BESCHI" "WireNs" /\ ~ inside "{" "WireNs".
Proof. exact (namespace_met). Qed.

(** C: with a namespace such as MyBESCHI the prefix that replaces "beschi" is itself replaced, to MyMYBESCHI. *)
Theorem C35_c_boilerplate_refuted :
  exists p g ns, accepted p /\ g_files g = c_files /\ g_namespace g = Some ns /\ ~ inside "{" ns /\
    forall size, lookup (p_string_size_type p) c_serializers = Some size ->
    ~ includes [("beschi", ns); ("BESCHI", upper ns); ("{# STRING_SIZE_TYPE #}", size);
                ("{# STRING_SIZE_TYPE_LOWER #}", lower size)] "    " (g_tab g) c_file_1 (ct_generate p g).
Proof. exact (c_boilerplate_refuted). Qed.
Print Assumptions C35_c_boilerplate_refuted.
