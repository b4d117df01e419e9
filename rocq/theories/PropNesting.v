(** C33: the printed text is nested (models: XText.v; [well_nested]: LinesSpec.v).

    [g] are the settings: namespace, indentation, embedded protocol, boilerplate files
    with any lines. *)
From Verif Require Import LinesSpec LangSpec LangSamples LangSampleFacts PropNestingFacts.
Open Scope string_scope.
Open Scope Z_scope.
Open Scope list_scope.

Example sample_protocol : accepted annotated.
Proof. exact annotated_accepted_proof. Qed.

(** TypeScript: generate() raises nothing, its assertion holds, and no line is written left of the margin. *)
Theorem C33_typescript_nested p g :
  accepted p -> well_nested (tst_generate p g false).
Proof. exact (typescript_nested p g). Qed.
Print Assumptions C33_typescript_nested.

(** AssemblyScript. *)
Theorem C33_assemblyscript_nested p g :
  accepted p -> well_nested (tst_generate p g true).
Proof. exact (assemblyscript_nested p g). Qed.
Print Assumptions C33_assemblyscript_nested.

(** C#. *)
Theorem C33_csharp_nested p g :
  accepted p -> well_nested (cst_generate p g).
Proof. exact (csharp_nested p g). Qed.
Print Assumptions C33_csharp_nested.

(** Swift. *)
Theorem C33_swift_nested p g :
  accepted p -> well_nested (swt_generate p g).
Proof. exact (swift_nested p g). Qed.
Print Assumptions C33_swift_nested.

(** Zig. *)
Theorem C33_zig_nested p g :
  accepted p -> well_nested (zgt_generate p g).
Proof. exact (zig_nested p g). Qed.
Print Assumptions C33_zig_nested.

(** Go, with and without renaming, even if names become equal. *)
Theorem C33_go_nested rename p g :
  accepted p -> well_nested (got_generate (go_protocol rename p) g).
Proof. exact (go_nested rename p g). Qed.
Print Assumptions C33_go_nested.

(** Rust, which has no assertion at the end. *)
Theorem C33_rust_nested rename p g :
  accepted p -> well_nested (rst_generate (rs_protocol rename p) g).
Proof. exact (rust_nested rename p g). Qed.
Print Assumptions C33_rust_nested.

(** C, which has no assertion at the end. *)
Theorem C33_c_nested p g :
  accepted p -> well_nested (ct_generate p g).
Proof. exact (c_nested p g). Qed.
Print Assumptions C33_c_nested.
