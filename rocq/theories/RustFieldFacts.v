(** The members in Rust files. *)
From Verif Require Export FieldFacts.
From Verif Require Import RustTextFacts.
Open Scope string_scope.
Open Scope Z_scope.
Open Scope list_scope.

Section Fields.
Variable p : protocol.
Variable g : settings.
Hypothesis T : text_ok p.
Hypothesis FT : field_types p.
Hint Resolve rst_types_ok rst_types_base rst_gen_measurement_ok : text.
Hint Resolve rst_deserializer_nested rst_serializer_nested : text.
Hint Resolve rst_gen_enum_nested rst_gen_struct_nested : text.

Lemma rst_types_text t : field_type p t -> rst_types p t = Ret (type_text "rust" t).
Proof.
  apply mapping_text.
  - intros x I; cbn in I; decompose [or] I; subst; try contradiction; reflexivity.
  - intros x I; cbn in I |- *; tauto.
Qed.
Lemma rst_maps_type t : field_type p t -> rst_maps p t = true.
Proof.
  intro F; apply rst_types_text in F; revert F; unfold rst_maps, rst_types, mapped, mapping.
  destruct (lookup t _); [reflexivity| ]; destruct (String.eqb t "string"); [reflexivity| ].
  destruct (in_strs t (declared_names p)); [reflexivity|discriminate].
Qed.
Lemma rst_field_text m : field_type p (v_type m) -> forall j,
  (if (v_list m) then
     (if rst_maps p (v_type m) then
        line [| "pub "; v_name m; ": Vec<"; rst_types p (v_type m); ">," |]
      else line [| "pub "; v_name m; ": Vec<"; v_type m; ">," |])
   else if rst_maps p (v_type m) then
     line [| "pub "; v_name m; ": "; rst_types p (v_type m); "," |]
   else if mem (v_type m) (p_enums p) then
     given (get_enum p (v_type m)) (fun e => line [| "pub "; v_name m; ": "; v_type m |])
   else line [| "pub "; v_name m; ": "; v_type m; "," |]) j =
  line (lit (field_text "rust" p m)) j.
Proof.
  intros F j; rewrite (rst_maps_type _ F), (rst_types_text _ F).
  destruct m as [n t l]; cbn [v_name v_type v_list] in *; unfold field_text; cbn [v_name v_type v_list].
  replace (in_strs "rust" _) with false by reflexivity; cbn [String.eqb Ascii.eqb Bool.eqb].
  destruct l; same_text.
Qed.
Lemma rst_fields_walk n s t : declares p t s ->
  walks "rust" n (each (s_members s) (fun m =>
      (if (v_list m) then
         (if rst_maps p (v_type m) then
            line [| "pub "; v_name m; ": Vec<"; rst_types p (v_type m); ">," |]
          else line [| "pub "; v_name m; ": Vec<"; v_type m; ">," |])
       else if rst_maps p (v_type m) then
         line [| "pub "; v_name m; ": "; rst_types p (v_type m); "," |]
       else if mem (v_type m) (p_enums p) then
         given (get_enum p (v_type m)) (fun e => line [| "pub "; v_name m; ": "; v_type m |])
       else line [| "pub "; v_name m; ": "; v_type m; "," |]))) 1 1 Within Within
    (map (fun m => Field (without_blanks (field_text "rust" p m))) (s_members s)).
Proof.
  intro D; apply walks_fields; intros m I; pose proof (FT t s m D I) as F; split.
  - now apply rst_field_text.
  - split; reflexivity.
Qed.

Hypothesis SP : forall t, In t (types_in_order p) -> spaceless t.
Lemma rst_gen_enum_walks ename e n : 0 <= n -> In (ename, e) (p_enums p) ->
  walks "rust" n (rst_gen_enum p g ename e) 0 0 Away Away [].
Proof.
  intros N I; assert (N1 : 0 <= n + 1) by lia.
  pose proof (tk_enums p T ename e I : fine_enum e) as F; unfold rst_gen_enum.
  destruct (rst_types_base p _ (fine_encoding e F)) as [x ->].
  eapply walks_eq; [walk|reflexivity].
Qed.
Ltac walk_more ::= eapply walks_cons; [eapply rst_fields_walk; eassumption| ].
Lemma rst_gen_struct_walks sname s n : 0 <= n -> spaceless sname -> declares p sname s ->
  walks "rust" n (rst_gen_struct p g sname s) 0 0 Away Away (type_parts "rust" p (sname, s)).
Proof.
  intros N W D; assert (N1 : 0 <= n + 1) by lia; pose proof (tk_name p T sname s D) as E.
  unfold rst_gen_struct; cbv zeta.
  destruct (s_is_message s) eqn:M; cbn [when].
  all: eapply walks_eq; [walk|unfold type_parts; cbn [fst snd]; rewrite ?app_nil_r; reflexivity].
Qed.

Hypothesis U : g_tab g <> "" /\ blanks (g_tab g) = true.
Hypothesis E : g_embed g = false.

Lemma rst_boilerplate_walks n r k2 c N : g_files g = rust_files ->
  walks "rust" n (block r) 0 k2 Away c N ->
  walks "rust" n (block (given (rst_types p (p_string_size_type p)) (fun string_size =>
      add_boilerplate "    " (g_tab g) (rst_substitutions g string_size) (g_files g (-1))) :: r)) 0 k2 Away c
    (own_parts "rust" ++ N).
Proof.
  intros F H; pose proof (tk_string p T) as S; rewrite F; destruct U as [U1 U2].
  apply walks_given; [eauto with text|intros a Ga].
  apply (walks_boilerplate _ _ _ _ _ _ _ _ _ Away); [reflexivity|now right|reflexivity|discriminate|exact U2|exact U1| |exact H].
  all: clear - S Ga; unfold rst_types, mapping in Ga; unfold rst_substitutions.
  all: destruct (g_namespace g) as [ns| ] eqn:G; clear G; cbn in S; decompose [or] S; clear S; try contradiction;
    match goal with X : _ = p_string_size_type p |- _ => rewrite <- X in * end;
    vm_compute in Ga; injection Ga as <-; vm_compute; reflexivity.
Qed.
Hint Resolve spaceless_struct spaceless_message : text.
Ltac walk_more ::=
  lazymatch goal with
  | |- walks _ _ (block (given (rst_types _ _) _ :: _)) 0 _ _ _ _ => apply rst_boilerplate_walks; [assumption| ]
  | |- walks _ _ (block (each (p_enums _) _ :: _)) 0 _ _ _ _ =>
      eapply walks_cons; [apply walks_no_entries;
        let t := fresh "t" in let x := fresh "x" in let I := fresh "I" in
        intros t x I; apply rst_gen_enum_walks; [lia|assumption]| ]
  | |- walks _ _ (block (each _ (fun '(t, x) => rst_gen_struct _ _ t x) :: _)) 0 _ _ _ _ =>
      eapply walks_cons; [apply (walks_entries _ _ _ _ (type_parts "rust" p));
        let t := fresh "t" in let x := fresh "x" in let I := fresh "I" in
        intros t x I; apply rst_gen_struct_walks; [lia|eauto with text|eauto with text]| ]
  end.
Lemma rst_generate_walks : g_files g = rust_files ->
  walks "rust" 0 (rst_generate p g) 0 0 Away Away
    (own_parts "rust" ++ flat_map (type_parts "rust" p) (p_structs p) ++ flat_map (type_parts "rust" p) (p_messages p)).
Proof.
  intro F; assert (N1 : 0 <= 0 + 1) by lia; unfold rst_generate; cbv zeta; rewrite E; cbn [when].
  eapply walks_eq; [walk|rewrite ?app_nil_r; reflexivity].
Qed.
End Fields.

Lemma rs_generate_walks p g : text_ok p -> field_types p -> (forall t, In t (types_in_order p) -> spaceless t) ->
  g_tab g <> "" /\ blanks (g_tab g) = true -> g_embed g = false ->
  g_files g = rust_files -> file_fields "rust" p g (expected_parts "rust" g p).
Proof.
  intros T FT SP U E F; unfold file_fields; change (inside_namespace "rust" g) with false.
  assert (Q : as_printed "rust" g p = rs_protocol (negb (g_flag g)) p) by (unfold as_printed, rs_protocol; destruct (g_flag g); reflexivity).
  unfold expected_parts; rewrite Q, flat_map_app; apply (rst_generate_walks (rs_protocol (negb (g_flag g)) p) g); auto.
  - unfold rs_protocol; destruct (negb (g_flag g)); [now apply text_ok_renamed|exact T].
  - unfold rs_protocol; destruct (negb (g_flag g)); [now apply field_types_renamed|exact FT].
  - intros t I; apply SP; revert I; unfold types_in_order, rs_protocol; destruct (negb (g_flag g)); [ |auto].
    cbn [p_enums p_structs p_messages rename_members]; now rewrite !rename_names.
Qed.
