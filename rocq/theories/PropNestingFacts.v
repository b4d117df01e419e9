(** Proofs for PropNesting.v. *)
From Verif Require Export LinesSpec LangSpec LangSampleFacts PropProtocolFacts.
From Verif Require Export TypeScriptTextFacts CSharpTextFacts SwiftTextFacts RustTextFacts ZigTextFacts GoTextFacts CTextFacts.
Open Scope string_scope.
Open Scope Z_scope.
Open Scope list_scope.

Lemma runs_nested g : runs 0 g 0 0 -> well_nested g.
Proof.
  intros (ls & E & F); exists ls; split; [exact E|intros lev s I].
  exact (proj1 (Forall_forall _ _) F (lev, s) I).
Qed.
Lemma accepted_text p : accepted p -> text_ok p.
Proof. intro A; apply WF_text_ok, accepted_WF, A. Qed.

Lemma typescript_nested p g : accepted p -> well_nested (tst_generate p g false).
Proof. intro A; apply runs_nested, tst_generate_nested, accepted_text, A. Qed.
Lemma assemblyscript_nested p g : accepted p -> well_nested (tst_generate p g true).
Proof. intro A; apply runs_nested, tst_generate_nested, accepted_text, A. Qed.
Lemma csharp_nested p g : accepted p -> well_nested (cst_generate p g).
Proof. intro A; apply runs_nested, cst_generate_nested, accepted_text, A. Qed.
Lemma swift_nested p g : accepted p -> well_nested (swt_generate p g).
Proof. intro A; apply runs_nested, swt_generate_nested, accepted_text, A. Qed.
Lemma zig_nested p g : accepted p -> well_nested (zgt_generate p g).
Proof. intro A; apply runs_nested, zgt_generate_nested, accepted_text, A. Qed.
Lemma c_nested p g : accepted p -> well_nested (ct_generate p g).
Proof. intro A; apply runs_nested, ct_generate_nested, accepted_text, A. Qed.
Lemma rust_nested rename p g : accepted p -> well_nested (rst_generate (rs_protocol rename p) g).
Proof.
  intro A; apply runs_nested, rst_generate_nested; destruct rename; [apply text_ok_renamed| ]; apply accepted_text, A.
Qed.
Lemma go_nested rename p g : accepted p -> well_nested (got_generate (go_protocol rename p) g).
Proof.
  intro A; apply runs_nested, got_generate_nested; destruct rename; [apply text_ok_renamed| ]; apply accepted_text, A.
Qed.
