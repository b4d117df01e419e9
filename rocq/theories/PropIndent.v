(** C51: --indent changes nothing but the indentation (models: Lines.v, XText.v, Cli.v; specification: IndentSpec.v). *)
From Verif Require Import IndentSpec CliSpec PropIndentFacts IndentFacts LangSampleFacts.
Open Scope string_scope.
Open Scope Z_scope.
Open Scope list_scope.

(** With two indentations of spaces and tabs, a writer raises the same exception or prints the same lines
    up to the blanks at their starts.  For any protocol, settings and boilerplate files. *)
Theorem C51_texts lang t t' p g :
  blanks t = true -> blanks t' = true ->
  same_text (generated t (generate lang p (with_tab t g))) (generated t' (generate lang p (with_tab t' g))).
Proof. exact (all_texts lang t t' p g). Qed.
Print Assumptions C51_texts.
Example C51_texts_met :
  blanks "  " = true /\ blanks (String "009" "") = true /\ unindented ("a" +++ line_feed +++ "  b c") = ["a"; "b c"].
Proof. exact (conj eq_refl (conj eq_refl eq_refl)). Qed.

(** For an accepted protocol there are texts. *)
Theorem C51_accepted_texts lang t t' p g :
  accepted p -> In lang writers -> blanks t = true -> blanks t' = true ->
  exists s s', generated t (generate lang p (with_tab t g)) = Ret s /\
    generated t' (generate lang p (with_tab t' g)) = Ret s' /\ unindented s = unindented s'.
Proof. exact (both_texts lang t t' p g). Qed.
Print Assumptions C51_accepted_texts.
Example C51_accepted_texts_met :
  accepted notes /\ In "c" writers.
Proof. exact (conj notes_accepted (or_intror (or_introl eq_refl))). Qed.

(** Two command lines that differ in --indent ask for the same text up to indentation. *)
Theorem C51_option read fuel a i i' output :
  blank_indent i -> blank_indent i' ->
  asked_for read fuel (with_indent i a) output ->
  exists output', asked_for read fuel (with_indent i' a) output' /\ unindented output = unindented output'.
Proof. exact (asked_same read fuel a i i' output). Qed.
Print Assumptions C51_option.
Example C51_option_met :
  blank_indent None /\ blank_indent (Some "   ").
Proof. exact (conj I eq_refl). Qed.

(** Not with other characters. *)
Theorem C51_other_refuted lang :
  In lang writers -> exists p t t', accepted p /\ blanks t = true /\
  ~ same_text (generated t (generate lang p (with_tab t bare))) (generated t' (generate lang p (with_tab t' bare))).
Proof. exact (other_tabs lang). Qed.
Print Assumptions C51_other_refuted.
Example C51_other_refuted_met :
  In "c" writers.
Proof. exact (or_intror (or_introl eq_refl)). Qed.
