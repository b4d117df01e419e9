(** The members in Zig files. *)
From Verif Require Export FieldFacts.
From Verif Require Import ZigTextFacts.
Open Scope string_scope.
Open Scope Z_scope.
Open Scope list_scope.

Section Fields.
Variable p : protocol.
Variable g : settings.
Hypothesis T : text_ok p.
Hypothesis FT : field_types p.
Hint Resolve zgt_types_ok zgt_types_base zgt_gen_measurement_ok : text.
Hint Resolve zgt_deserializer_nested zgt_serializer_nested : text.
Hint Resolve zgt_destructor_nested zgt_member_size zgt_gen_enum_nested zgt_gen_struct_nested : text.

Lemma zgt_types_text t : field_type p t -> zgt_types p t = Ret (type_text "zig" t).
Proof.
  apply mapping_text.
  - intros x I; cbn in I; decompose [or] I; subst; try contradiction; reflexivity.
  - intros x I; cbn in I |- *; tauto.
Qed.
Lemma zgt_no_default t : ~ In t base_type_names -> lookup t zgt_defaults = None.
Proof. intro N; apply lookup_None; intro I; apply N; cbn in I |- *; tauto. Qed.
Lemma zgt_field_text m : field_type p (v_type m) -> forall j,
  (if (v_list m) then
     line [| v_name m; ": []"; zgt_types p (v_type m); " = &.{}," |]
   else given (match lookup (v_type m) zgt_defaults with
               | Some d => lit d
               | None => if mem (v_type m) (p_enums p) then
                           e <- get_enum p (v_type m) ;; [| e_name e; "."; default_name e |]
                         else [| v_type m; "{}" |]
               end) (fun default_value =>
       line [| v_name m; ": "; zgt_types p (v_type m); " = "; default_value; "," |])) j =
  line (lit (field_text "zig" p m)) j.
Proof.
  intros F j; unfold given; rewrite (zgt_types_text _ F).
  destruct m as [n t l]; cbn [v_name v_type v_list] in *; unfold field_text; cbn [v_name v_type v_list].
  replace (in_strs "zig" _) with false by reflexivity; cbn [String.eqb Ascii.eqb Bool.eqb].
  destruct l; [same_text| ].
  destruct F as [B E S|B E S|e v r L V E S N Q|S E N Q]; unfold zero_text.
  - rewrite E, S; cbn in B; decompose [or] B; subst; try contradiction; same_text.
  - rewrite E, S; subst t; same_text.
  - rewrite (mem_lookup_some _ _ _ L), type_text_name by exact N; unfold first_value; rewrite L, V.
    rewrite (zgt_no_default _ N).
    rewrite (enum_found _ _ _ L); cbn [pbind]; rewrite (default_found _ _ _ V), E; destruct v as [v z]; same_text.
  - rewrite S, E, type_text_name by exact N.
    rewrite (zgt_no_default _ N); cbn [String.eqb Ascii.eqb Bool.eqb]; same_text.
Qed.
Lemma zgt_fields_walk n s t : declares p t s ->
  walks "zig" n (each (s_members s) (fun m =>
      (if (v_list m) then
         line [| v_name m; ": []"; zgt_types p (v_type m); " = &.{}," |]
       else given (match lookup (v_type m) zgt_defaults with
                   | Some d => lit d
                   | None => if mem (v_type m) (p_enums p) then
                               e <- get_enum p (v_type m) ;; [| e_name e; "."; default_name e |]
                             else [| v_type m; "{}" |]
                   end) (fun default_value =>
           line [| v_name m; ": "; zgt_types p (v_type m); " = "; default_value; "," |])))) 1 1 Within Within
    (map (fun m => Field (without_blanks (field_text "zig" p m))) (s_members s)).
Proof.
  intro D; apply walks_fields; intros m I; pose proof (FT t s m D I) as F; split.
  - now apply zgt_field_text.
  - unfold field_text, a_field; replace (in_strs "zig" _) with false by reflexivity; cbn [String.eqb Ascii.eqb Bool.eqb].
    change (last_line "zig") with ""; cbn [String.append]; split; first [apply no_empty|apply no_brace; reflexivity].
Qed.

Hypothesis SP : forall t, In t (types_in_order p) -> spaceless t.
Lemma zgt_gen_enum_walks ename e n : 0 <= n -> spaceless ename -> In (ename, e) (p_enums p) ->
  walks "zig" n (zgt_gen_enum p ename e) 0 0 Away Away [].
Proof.
  intros N W I; assert (N1 : 0 <= n + 1) by lia.
  pose proof (tk_enums p T ename e I : fine_enum e) as F; unfold zgt_gen_enum.
  destruct (zgt_types_base p _ (fine_encoding e F)) as [x ->].
  eapply walks_eq; [walk|reflexivity].
Qed.
Ltac walk_more ::= eapply walks_cons; [eapply zgt_fields_walk; eassumption| ].
Ltac run_more ::=
  match goal with
  | L : forall f rest o k, _ -> _ -> runs _ (zgt_loop _ _ _ _ f rest) k k |- runs _ (zgt_loop _ _ _ _ _ _) _ _ => apply L; intros
  end.
Lemma zgt_gen_struct_walks sname s n : 0 <= n -> spaceless sname -> declares p sname s ->
  walks "zig" n (zgt_gen_struct p g sname s) 0 0 Away Away (type_parts "zig" p (sname, s)).
Proof.
  intros N W D; assert (N1 : 0 <= n + 1) by lia; pose proof (tk_name p T sname s D) as E.
  unfold zgt_gen_struct; cbv zeta.
  assert (Z1 : is_simple p (s_name s) = true -> good (get_size_of p sname)).
  { rewrite E; intro; eapply good_struct_size; eassumption. }
  assert (Z2 : is_simple p (s_name s) = true -> good (get_size_of p (s_name s))).
  { rewrite E; intro; eapply good_struct_size; eassumption. }
  assert (L : forall f rest o k, (forall m o, In m (s_members s) -> runs (n + 1) (f m o) k k) -> (forall o, runs (n + 1) (rest o) k k) ->
    runs (n + 1) (zgt_loop p (is_simple p (s_name s)) o (s_members s) f rest) k k).
  { intros; apply zgt_loop_nested; auto; intros; eapply zgt_member_size; eassumption. }
  destruct (s_is_message s) eqn:M; cbn [when].
  all: eapply walks_eq; [walk|unfold type_parts; cbn [fst snd]; rewrite ?app_nil_r; reflexivity].
Qed.

Hypothesis U : g_tab g <> "" /\ blanks (g_tab g) = true.
Hypothesis E : g_embed g = false.

Lemma zgt_boilerplate_unopened a b : unopened "zig" (fold_left substitute (zgt_substitutions p a b) (zig_files (-1))).
Proof.
  change (zgt_substitutions p a b) with (BoilerplateFacts.texts
    [("{# STRING_SIZE_TYPE #}", a); ("{# LIST_SIZE_TYPE #}", b);
     ("{# SIMPLE_TYPES #}", zgt_names (zgt_simpletons p));
     ("{# ENUM_TYPES #}", zgt_names (map (fun d => e_name (snd d)) (p_enums p)))]).
  rewrite substitute_texts; generalize (zgt_names (zgt_simpletons p)) as c.
  generalize (zgt_names (map (fun d => e_name (snd d)) (p_enums p))) as d; intros d c.
  apply (unopened_replaced "zig" [("{# STRING_SIZE_TYPE #}", a); ("{# LIST_SIZE_TYPE #}", b); ("{# SIMPLE_TYPES #}", c); ("{# ENUM_TYPES #}", d)]).
  1,2,3: vm_compute; reflexivity.
  apply unopened_computed; vm_compute; reflexivity.
Qed.
Lemma zgt_boilerplate_walks n r k2 c N : g_files g = zig_files ->
  walks "zig" n (block r) 0 k2 Away c N ->
  walks "zig" n (block (given (zgt_types p (p_string_size_type p)) (fun string_size =>
      given (zgt_types p (p_list_size_type p)) (fun list_size =>
        add_boilerplate "    " (g_tab g) (zgt_substitutions p string_size list_size) (g_files g (-1)))) :: r)) 0 k2 Away c N.
Proof.
  intros F H; rewrite F; destruct U as [U1 U2].
  apply walks_given; [eauto with text|intros a Ga].
  apply walks_given; [eauto with text|intros b Gb].
  apply walks_plain; [reflexivity|discriminate|exact U2|exact U1|apply zgt_boilerplate_unopened|exact H].
Qed.
Hint Resolve spaceless_struct spaceless_message spaceless_enum : text.
Ltac walk_more ::=
  lazymatch goal with
  | |- walks _ _ (block (given (zgt_types _ _) _ :: _)) 0 _ _ _ _ => apply zgt_boilerplate_walks; [assumption| ]
  | |- walks _ _ (block (each (p_enums _) _ :: _)) 0 _ _ _ _ =>
      eapply walks_cons; [apply walks_no_entries;
        let t := fresh "t" in let x := fresh "x" in let I := fresh "I" in
        intros t x I; apply zgt_gen_enum_walks; [lia|eauto with text|assumption]| ]
  | |- walks _ _ (block (each _ (fun '(t, x) => zgt_gen_struct _ _ t x) :: _)) 0 _ _ _ _ =>
      eapply walks_cons; [apply (walks_entries _ _ _ _ (type_parts "zig" p));
        let t := fresh "t" in let x := fresh "x" in let I := fresh "I" in
        intros t x I; apply zgt_gen_struct_walks; [lia|eauto with text|eauto with text]| ]
  end.

Lemma zg_generate_walks : g_files g = zig_files -> file_fields "zig" p g (expected_parts "zig" g p).
Proof.
  intro F; unfold file_fields; change (generate "zig" p g) with (zgt_generate p g).
  change (inside_namespace "zig" g) with false.
  enough (H : walks "zig" 0 (zgt_generate p g) 0 0 Away Away (expected_parts "zig" g p)) by exact H.
  unfold expected_parts; replace (as_printed "zig" g p) with p by (unfold as_printed; destruct (g_flag g); reflexivity).
  rewrite flat_map_app; assert (N1 : 0 <= 0 + 1) by lia; unfold zgt_generate; cbv zeta; rewrite E; cbn [when].
  eapply walks_eq; [walk|rewrite ?app_nil_r; reflexivity].
Qed.
End Fields.
