(** The members in Go files. *)
From Verif Require Export FieldFacts.
From Verif Require Import GoTextFacts.
Open Scope string_scope.
Open Scope Z_scope.
Open Scope list_scope.

Section Fields.
Variable p : protocol.
Variable g : settings.
Hypothesis T : text_ok p.
Hypothesis FT : field_types p.
Hint Resolve got_types_ok got_types_base got_gen_measurement_ok and_true_l : text.
Hint Resolve got_deserializer_nested got_serializer_nested : text.
Hint Resolve got_gen_enum_nested got_gen_struct_nested : text.

Lemma got_types_text t : field_type p t -> got_types p t = Ret (type_text "go" t).
Proof.
  apply mapping_text.
  - intros x I; cbn in I; decompose [or] I; subst; try contradiction; reflexivity.
  - intros x I; cbn in I |- *; tauto.
Qed.
Lemma got_field_text m : field_type p (v_type m) -> forall j,
  (if (v_list m) then
     line [| v_name m; " []"; got_types p (v_type m) |]
   else line [| v_name m; " "; got_types p (v_type m) |]) j =
  line (lit (field_text "go" p m)) j.
Proof.
  intros F j; rewrite (got_types_text _ F).
  destruct m as [n t l]; cbn [v_name v_type v_list] in *; unfold field_text; cbn [v_name v_type v_list].
  replace (in_strs "go" _) with false by reflexivity; cbn [String.eqb Ascii.eqb Bool.eqb].
  destruct l; same_text.
Qed.
Lemma got_fields_walk n s t : declares p t s ->
  walks "go" n (each (s_members s) (fun m =>
      (if (v_list m) then
         line [| v_name m; " []"; got_types p (v_type m) |]
       else line [| v_name m; " "; got_types p (v_type m) |]))) 1 1 Within Within
    (map (fun m => Field (without_blanks (field_text "go" p m))) (s_members s)).
Proof.
  intro D; apply walks_fields; intros m I; pose proof (FT t s m D I) as F; split.
  - now apply got_field_text.
  - unfold field_text, a_field; replace (in_strs "go" _) with false by reflexivity; cbn [String.eqb Ascii.eqb Bool.eqb].
    change (last_line "go") with "}"; cbn [String.append]; split; apply no_brace; reflexivity.
Qed.

Hypothesis SP : forall t, In t (types_in_order p) -> spaceless t.
Lemma got_encoding t : In t base_types -> exists x, got_types p t = Ret x /\ String.eqb x "struct {" = false.
Proof.
  intro B; cbn in B; decompose [or] B; subst; try contradiction; (eexists; split; [reflexivity|reflexivity]).
Qed.
Lemma got_type_unopened ename x : spaceless ename -> String.eqb x "struct {" = false ->
  opened (heads_of "go") ("type " +++ (ename +++ (" " +++ x))) = None.
Proof.
  intros W X; change (heads_of "go") with [("type ", "", " struct {")]; cbn [opened head_name fst snd rest_after String.append Ascii.eqb Bool.eqb].
  rewrite to_space_app by exact W; cbn [String.eqb Ascii.eqb Bool.eqb]; now rewrite X.
Qed.
Lemma got_gen_enum_walks ename e n : 0 <= n -> spaceless ename -> In (ename, e) (p_enums p) ->
  walks "go" n (got_gen_enum p ename e) 0 0 Away Away [].
Proof.
  intros N W I; assert (N1 : 0 <= n + 1) by lia.
  pose proof (tk_enums p T ename e I : fine_enum e) as F; unfold got_gen_enum.
  destruct (got_encoding _ (fine_encoding e F)) as (x & -> & X).
  eapply walks_given_one; [now apply longest_fine|intros l L].
  eapply walks_eq; [eapply walks_none; [known_text|rewrite ?append_empty; now apply got_type_unopened|walk]|reflexivity].
Qed.
Ltac walk_more ::= eapply walks_cons; [eapply got_fields_walk; eassumption| ].
Lemma got_gen_struct_walks sname s n : 0 <= n -> spaceless sname -> declares p sname s ->
  walks "go" n (got_gen_struct p g sname s) 0 0 Away Away (type_parts "go" p (sname, s)).
Proof.
  intros N W D; assert (N1 : 0 <= n + 1) by lia; pose proof (tk_name p T sname s D) as E.
  unfold got_gen_struct; cbv zeta; rewrite E.
  destruct (s_is_message s) eqn:M; cbn [when].
  all: eapply walks_eq; [walk|unfold type_parts; cbn [fst snd]; rewrite ?app_nil_r; reflexivity].
Qed.

Hypothesis U : g_tab g <> "" /\ blanks (g_tab g) = true.
Hypothesis E : g_embed g = false.

Lemma got_boilerplate_walks n r k2 c N : g_files g = go_files ->
  walks "go" n (block r) 0 k2 Away c N ->
  walks "go" n (block (given (got_types p (p_string_size_type p)) (fun string_size =>
      add_boilerplate got_tab (g_tab g) (got_substitutions g string_size) (g_files g (-1))) :: r)) 0 k2 Away c N.
Proof.
  intros F H; pose proof (tk_string p T) as S; rewrite F; destruct U as [U1 U2].
  apply walks_given; [eauto with text|intros a Ga].
  apply walks_plain; [reflexivity|discriminate|exact U2|exact U1| |exact H].
  apply unopened_computed; clear - S Ga; unfold got_types, mapping in Ga; unfold got_substitutions.
  generalize (snake (or_none (g_namespace g))) (or_none (g_namespace g)); intros low ns.
  cbn in S; decompose [or] S; clear S; try contradiction;
    match goal with X : _ = p_string_size_type p |- _ => rewrite <- X in * end;
    vm_compute in Ga; injection Ga as <-; destruct (has_namespace g), (negb (g_flag g)); vm_compute; reflexivity.
Qed.
Hint Resolve spaceless_struct spaceless_message spaceless_enum : text.
Ltac walk_more ::=
  lazymatch goal with
  | |- walks _ _ (block (given (got_types _ _) _ :: _)) 0 _ _ _ _ => apply got_boilerplate_walks; [assumption| ]
  | |- walks _ _ (block (each (p_enums _) _ :: _)) 0 _ _ _ _ =>
      eapply walks_cons; [apply walks_no_entries;
        let t := fresh "t" in let x := fresh "x" in let I := fresh "I" in
        intros t x I; apply got_gen_enum_walks; [lia|eauto with text|assumption]| ]
  | |- walks _ _ (block (each _ (fun '(t, x) => got_gen_struct _ _ t x) :: _)) 0 _ _ _ _ =>
      eapply walks_cons; [apply (walks_entries _ _ _ _ (type_parts "go" p));
        let t := fresh "t" in let x := fresh "x" in let I := fresh "I" in
        intros t x I; apply got_gen_struct_walks; [lia|eauto with text|eauto with text]| ]
  end.
Lemma got_generate_walks : g_files g = go_files ->
  walks "go" 0 (got_generate p g) 0 0 Away Away
    (flat_map (type_parts "go" p) (p_structs p) ++ flat_map (type_parts "go" p) (p_messages p)).
Proof.
  intro F; assert (N1 : 0 <= 0 + 1) by lia; unfold got_generate; cbv zeta; rewrite E; cbn [when].
  eapply walks_eq; [walk|rewrite ?app_nil_r; reflexivity].
Qed.
End Fields.

Lemma go_generate_walks p g : text_ok p -> field_types p -> (forall t, In t (types_in_order p) -> spaceless t) ->
  g_tab g <> "" /\ blanks (g_tab g) = true -> g_embed g = false ->
  g_files g = go_files -> file_fields "go" p g (expected_parts "go" g p).
Proof.
  intros T FT SP U E F; unfold file_fields; change (inside_namespace "go" g) with false.
  assert (Q : as_printed "go" g p = go_protocol (negb (g_flag g)) p) by (unfold as_printed, go_protocol; destruct (g_flag g); reflexivity).
  unfold expected_parts; rewrite Q, flat_map_app; apply (got_generate_walks (go_protocol (negb (g_flag g)) p) g); auto.
  - unfold go_protocol; destruct (negb (g_flag g)); [now apply text_ok_renamed|exact T].
  - unfold go_protocol; destruct (negb (g_flag g)); [now apply field_types_renamed|exact FT].
  - intros t I; apply SP; revert I; unfold types_in_order, go_protocol; destruct (negb (g_flag g)); [ |auto].
    cbn [p_enums p_structs p_messages rename_members]; now rewrite !rename_names.
Qed.
