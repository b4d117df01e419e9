(** The members in C# files. *)
From Verif Require Export FieldFacts.
From Verif Require Import CSharpTextFacts.
Open Scope string_scope.
Open Scope Z_scope.
Open Scope list_scope.

Section Fields.
Variable p : protocol.
Variable g : settings.
Hypothesis T : text_ok p.
Hypothesis FT : field_types p.
Hint Resolve cst_types_ok cst_types_base cst_gen_measurement_ok : text.
Hint Resolve cst_deserializer_nested cst_serializer_nested : text.
Hint Resolve cst_gen_enum_nested cst_gen_struct_nested : text.

Lemma cst_types_text t : field_type p t -> cst_types p t = Ret (type_text "csharp" t).
Proof.
  apply mapping_text.
  - intros x I; cbn in I; decompose [or] I; subst; try contradiction; reflexivity.
  - intros x I; cbn in I |- *; tauto.
Qed.
Lemma cst_field_text m : field_type p (v_type m) -> forall j,
  (if (v_list m) then
     line [| "public List<"; cst_types p (v_type m); "> "; v_name m; " = new List<"; cst_types p (v_type m); ">();" |]
   else given (if String.eqb (v_type m) "string" then Ret (Some """""")
              else if mem (v_type m) (p_enums p) then
                e <- get_enum p (v_type m) ;; d <- [| v_type m; "."; default_name e |] ;; Ret (Some d)
              else if mem (v_type m) (p_structs p) then d <- [| "new "; v_type m; "()" |] ;; Ret (Some d)
              else Ret None) (fun default =>
       line [| "public "; cst_types p (v_type m); " "; v_name m;
               match default with Some d => [| " = "; d |] | None => lit "" end; ";" |])) j =
  line (lit (field_text "csharp" p m)) j.
Proof.
  intros F j; unfold given; rewrite (cst_types_text _ F).
  destruct m as [n t l]; cbn [v_name v_type v_list] in *; unfold field_text; cbn [v_name v_type v_list].
  replace (in_strs "csharp" _) with false by reflexivity; cbn [String.eqb Ascii.eqb Bool.eqb].
  destruct l; [same_text| ].
  destruct F as [B E S|B E S|e v r L V E S N Q|S E N Q]; unfold zero_text.
  - rewrite E, S; cbn in B; decompose [or] B; subst; try contradiction; same_text.
  - rewrite E, S; subst t; same_text.
  - rewrite (mem_lookup_some _ _ _ L), type_text_name by exact N; unfold first_value; rewrite L, V.
    rewrite (not_string _ N), (not_number _ N).
    rewrite (enum_found _ _ _ L); cbn [pbind]; rewrite (default_found _ _ _ V); destruct v as [v z]; same_text.
  - rewrite S, E, type_text_name by exact N.
    rewrite (not_string _ N), (not_number _ N); cbn [String.eqb Ascii.eqb Bool.eqb]; same_text.
Qed.
Lemma cst_fields_walk n s t : declares p t s ->
  walks "csharp" n (each (s_members s) (fun m =>
      (if (v_list m) then
         line [| "public List<"; cst_types p (v_type m); "> "; v_name m; " = new List<"; cst_types p (v_type m); ">();" |]
       else given (if String.eqb (v_type m) "string" then Ret (Some """""")
                  else if mem (v_type m) (p_enums p) then
                    e <- get_enum p (v_type m) ;; d <- [| v_type m; "."; default_name e |] ;; Ret (Some d)
                  else if mem (v_type m) (p_structs p) then d <- [| "new "; v_type m; "()" |] ;; Ret (Some d)
                  else Ret None) (fun default =>
           line [| "public "; cst_types p (v_type m); " "; v_name m;
                   match default with Some d => [| " = "; d |] | None => lit "" end; ";" |])))) 1 1 Within Within
    (map (fun m => Field (without_blanks (field_text "csharp" p m))) (s_members s)).
Proof.
  intro D; apply walks_fields; intros m I; pose proof (FT t s m D I) as F; split.
  - now apply cst_field_text.
  - unfold field_text, a_field; replace (in_strs "csharp" _) with false by reflexivity; cbn [String.eqb Ascii.eqb Bool.eqb].
    destruct (v_list m); [split; reflexivity| ]; destruct (in_strs _ _); split; reflexivity.
Qed.

Hypothesis SP : forall t, In t (types_in_order p) -> spaceless t.
Lemma cst_gen_enum_walks ename e n : 0 <= n -> In (ename, e) (p_enums p) ->
  walks "csharp" n (cst_gen_enum p ename e) 0 0 Away Away [].
Proof.
  intros N I; assert (N1 : 0 <= n + 1) by lia; unfold cst_gen_enum.
  pose proof (tk_enums p T ename e I) as [B _]; destruct (cst_types_base p _ B) as [x ->].
  eapply walks_eq; [walk|reflexivity].
Qed.
Ltac walk_more ::= eapply walks_cons; [eapply cst_fields_walk; eassumption| ].
Lemma cst_gen_struct_walks sname s n : 0 <= n -> spaceless sname -> declares p sname s ->
  walks "csharp" n (cst_gen_struct p g sname s) 0 0 Away Away (type_parts "csharp" p (sname, s)).
Proof.
  intros N W D; assert (N1 : 0 <= n + 1) by lia; unfold cst_gen_struct; cbv zeta.
  destruct (s_is_message s) eqn:M; cbn [when].
  all: eapply walks_eq; [walk|unfold type_parts; cbn [fst snd]; rewrite ?app_nil_r; reflexivity].
Qed.

Hypothesis U : g_tab g <> "" /\ blanks (g_tab g) = true.
Hypothesis E : g_embed g = false.

Lemma cst_boilerplate_unopened : unopened "csharp" (fold_left substitute (cst_substitutions p) (csharp_files 1)).
Proof.
  unfold cst_substitutions; cbn [fold_left]; unfold substitute; cbn [fst snd]; rewrite splice_lines.
  intros l I; apply in_flat_map in I as (x & X & I); destruct (string_dec _ _) as [_|_].
  - unfold cst_message_cases in I; apply in_flat_map in I as (m & _ & I); cbn in I; decompose [or] I; subst; try contradiction; reflexivity.
  - destruct I as [<-|[]]; revert x X; apply unopened_computed; vm_compute; reflexivity.
Qed.
Hint Resolve spaceless_struct spaceless_message : text.
Ltac walk_more ::=
  lazymatch goal with
  | |- walks _ _ (block (add_boilerplate _ _ _ _ :: _)) ?k _ _ _ _ =>
      lazymatch k with
      | 0 => apply walks_plain; [reflexivity|discriminate|apply U|apply U|first [apply cst_boilerplate_unopened|apply unopened_computed; vm_compute; reflexivity]| ]
      | _ => apply walks_boilerplate_out; [reflexivity| ]
      end
  | |- walks _ _ (block (each (p_enums _) _ :: _)) 0 _ _ _ _ =>
      eapply walks_cons; [apply walks_no_entries;
        let t := fresh "t" in let x := fresh "x" in let I := fresh "I" in
        intros t x I; apply cst_gen_enum_walks; [lia|assumption]| ]
  | |- walks _ _ (block (each _ (fun '(t, x) => cst_gen_struct _ _ t x) :: _)) 0 _ _ _ _ =>
      eapply walks_cons; [apply (walks_entries _ _ _ _ (type_parts "csharp" p));
        let t := fresh "t" in let x := fresh "x" in let I := fresh "I" in
        intros t x I; apply cst_gen_struct_walks; [lia|eauto with text|eauto with text]| ]
  end.

Lemma cs_generate_walks : g_files g = csharp_files -> file_fields "csharp" p g (expected_parts "csharp" g p).
Proof.
  intro F; unfold file_fields; change (generate "csharp" p g) with (cst_generate p g).
  change (inside_namespace "csharp" g) with (has_namespace g).
  assert (H : walks "csharp" (if has_namespace g then 1 else 0) (cst_generate p g)
    (if has_namespace g then -1 else 0) (if has_namespace g then -1 else 0) Away Away (expected_parts "csharp" g p)).
  { unfold expected_parts; replace (as_printed "csharp" g p) with p by (unfold as_printed; destruct (g_flag g); reflexivity).
    rewrite flat_map_app; unfold cst_generate; cbv zeta; rewrite E, F; destruct (has_namespace g) eqn:Z; cbn [when].
    - assert (N : 0 <= 1) by lia; assert (N1 : 0 <= 1 + 1) by lia.
      eapply walks_eq; [walk|rewrite ?app_nil_r; reflexivity].
    - assert (N1 : 0 <= 0 + 1) by lia.
      eapply walks_eq; [walk|rewrite ?app_nil_r; reflexivity]. }
  destruct H as (ls & G & H); exists ls; split; [ |exact H].
  destruct (has_namespace g); exact G.
Qed.
End Fields.
