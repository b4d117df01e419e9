(** The members in Swift files. *)
From Verif Require Export FieldFacts.
From Verif Require Import SwiftTextFacts.
Open Scope string_scope.
Open Scope Z_scope.
Open Scope list_scope.

Section Fields.
Variable p : protocol.
Variable g : settings.
Hypothesis T : text_ok p.
Hypothesis FT : field_types p.
Hint Resolve swt_types_ok swt_types_base swt_gen_measurement_ok : text.
Hint Resolve swt_deserializer_nested swt_serializer_nested : text.
Hint Resolve swt_gen_enum_nested swt_gen_struct_nested : text.

Lemma swt_types_text t : field_type p t -> swt_types p t = Ret (type_text "swift" t).
Proof.
  apply mapping_text.
  - intros x I; cbn in I; decompose [or] I; subst; try contradiction; reflexivity.
  - intros x I; cbn in I |- *; tauto.
Qed.
Lemma swt_no_default t : ~ In t base_type_names -> lookup t swt_defaults = None.
Proof. intro N; apply lookup_None; intro I; apply N; cbn in I |- *; tauto. Qed.
Lemma swt_field_text m : field_type p (v_type m) -> forall j,
  (if (v_list m) then
     line [| "public var "; v_name m; ": ["; swt_types p (v_type m); "] = []" |]
   else given (match lookup (v_type m) swt_defaults with
               | Some d => lit d
               | None => if mem (v_type m) (p_enums p) then
                           e <- get_enum p (v_type m) ;; [| v_type m; "."; default_name e |]
                         else [| v_type m; "()" |]
               end) (fun default_value =>
       line [| "public var "; v_name m; ": "; swt_types p (v_type m);
               (if String.eqb default_value "" then lit "" else [| " = "; default_value |]) |])) j =
  line (lit (field_text "swift" p m)) j.
Proof.
  intros F j; unfold given; rewrite (swt_types_text _ F).
  destruct m as [n t l]; cbn [v_name v_type v_list] in *; unfold field_text; cbn [v_name v_type v_list].
  replace (in_strs "swift" _) with false by reflexivity; cbn [String.eqb Ascii.eqb Bool.eqb].
  destruct l; [same_text| ].
  destruct F as [B E S|B E S|e v r L V E S N Q|S E N Q]; unfold zero_text.
  - rewrite E, S; cbn in B; decompose [or] B; subst; try contradiction; same_text.
  - rewrite E, S; subst t; same_text.
  - rewrite (mem_lookup_some _ _ _ L), type_text_name by exact N; unfold first_value; rewrite L, V.
    rewrite (swt_no_default _ N).
    rewrite (enum_found _ _ _ L); cbn [pbind]; rewrite (default_found _ _ _ V); destruct v as [v z]; cbn [lit pcat pbind fst].
    rewrite append_empty; change ("." +++ v) with (String "." v); rewrite no_empty; same_text.
  - rewrite S, E, type_text_name by exact N.
    rewrite (swt_no_default _ N); cbn [String.eqb Ascii.eqb Bool.eqb lit pcat pbind].
    rewrite ?append_empty; change (t +++ "()") with (t +++ String "(" ")"); rewrite no_empty; same_text.
Qed.
Lemma swt_fields_walk n s t : declares p t s ->
  walks "swift" n (each (s_members s) (fun m =>
      (if (v_list m) then
         line [| "public var "; v_name m; ": ["; swt_types p (v_type m); "] = []" |]
       else given (match lookup (v_type m) swt_defaults with
                   | Some d => lit d
                   | None => if mem (v_type m) (p_enums p) then
                               e <- get_enum p (v_type m) ;; [| v_type m; "."; default_name e |]
                             else [| v_type m; "()" |]
                   end) (fun default_value =>
           line [| "public var "; v_name m; ": "; swt_types p (v_type m);
                   (if String.eqb default_value "" then lit "" else [| " = "; default_value |]) |])))) 1 1 Within Within
    (map (fun m => Field (without_blanks (field_text "swift" p m))) (s_members s)).
Proof.
  intro D; apply walks_fields; intros m I; pose proof (FT t s m D I) as F; split.
  - now apply swt_field_text.
  - split; reflexivity.
Qed.

Hypothesis SP : forall t, In t (types_in_order p) -> spaceless t.
Lemma swt_gen_enum_walks ename e n : 0 <= n -> In (ename, e) (p_enums p) ->
  walks "swift" n (swt_gen_enum p ename e) 0 0 Away Away [].
Proof.
  intros N I; assert (N1 : 0 <= n + 1) by lia; unfold swt_gen_enum.
  pose proof (tk_enums p T ename e I) as [B _]; destruct (swt_types_base p _ B) as [x ->].
  eapply walks_eq; [walk|reflexivity].
Qed.
Ltac walk_more ::= eapply walks_cons; [eapply swt_fields_walk; eassumption| ].
Lemma swt_gen_struct_walks sname s n : 0 <= n -> spaceless sname -> declares p sname s ->
  walks "swift" n (swt_gen_struct p g sname s) 0 0 Away Away (type_parts "swift" p (sname, s)).
Proof.
  intros N W D; assert (N1 : 0 <= n + 1) by lia; unfold swt_gen_struct; cbv zeta.
  destruct (s_is_message s) eqn:M; cbn [when].
  all: eapply walks_eq; [walk|unfold type_parts; cbn [fst snd]; rewrite ?app_nil_r; reflexivity].
Qed.

Hypothesis U : g_tab g <> "" /\ blanks (g_tab g) = true.
Hypothesis E : g_embed g = false.

Lemma swt_boilerplate_walks n r k2 c N : g_files g = swift_files ->
  walks "swift" n (block r) 0 k2 Away c N ->
  walks "swift" n (block (given (swt_types p (p_string_size_type p)) (fun string_size =>
      add_boilerplate "    " (g_tab g) (swt_substitutions string_size) (g_files g 0)) :: r)) 0 k2 Away c N.
Proof.
  intros F H; pose proof (tk_string p T) as S; rewrite F; destruct U as [U1 U2].
  apply walks_given; [eauto with text|intros a Ga].
  apply walks_plain; [reflexivity|discriminate|exact U2|exact U1| |exact H].
  apply unopened_computed; clear - S Ga; unfold swt_types, mapping in Ga.
  cbn in S; decompose [or] S; clear S; try contradiction;
    match goal with X : _ = p_string_size_type p |- _ => rewrite <- X in * end;
    vm_compute in Ga; injection Ga as <-; vm_compute; reflexivity.
Qed.
Hint Resolve spaceless_struct spaceless_message : text.
Ltac walk_more ::=
  lazymatch goal with
  | |- walks _ _ (block (given (swt_types _ _) _ :: _)) 0 _ _ _ _ => apply swt_boilerplate_walks; [assumption| ]
  | |- walks _ _ (block (add_boilerplate _ _ _ _ :: _)) ?k _ _ _ _ =>
      lazymatch k with
      | 0 => apply walks_plain; [reflexivity|discriminate|apply U|apply U
               |match goal with F : g_files g = _ |- _ => rewrite F; apply unopened_computed; vm_compute; reflexivity end| ]
      | _ => apply walks_boilerplate_out; [reflexivity| ]
      end
  | |- walks _ _ (block (each (p_enums _) _ :: _)) 0 _ _ _ _ =>
      eapply walks_cons; [apply walks_no_entries;
        let t := fresh "t" in let x := fresh "x" in let I := fresh "I" in
        intros t x I; apply swt_gen_enum_walks; [lia|assumption]| ]
  | |- walks _ _ (block (each _ (fun '(t, x) => swt_gen_struct _ _ t x) :: _)) 0 _ _ _ _ =>
      eapply walks_cons; [apply (walks_entries _ _ _ _ (type_parts "swift" p));
        let t := fresh "t" in let x := fresh "x" in let I := fresh "I" in
        intros t x I; apply swt_gen_struct_walks; [lia|eauto with text|eauto with text]| ]
  end.

Lemma sw_generate_walks : g_files g = swift_files -> file_fields "swift" p g (expected_parts "swift" g p).
Proof.
  intro F; unfold file_fields; change (generate "swift" p g) with (swt_generate p g).
  set (some := match g_namespace g with Some _ => true | None => false end); change (inside_namespace "swift" g) with some.
  assert (H : walks "swift" (if some then 1 else 0) (swt_generate p g)
    (if some then -1 else 0) (if some then -1 else 0) Away Away (expected_parts "swift" g p)).
  { unfold expected_parts; replace (as_printed "swift" g p) with p by (unfold as_printed; destruct (g_flag g); reflexivity).
    rewrite flat_map_app; unfold swt_generate, swt_last_substitutions; cbv zeta; rewrite E; subst some; destruct (g_namespace g) eqn:Z; cbn [when].
    - assert (N : 0 <= 1) by lia; assert (N1 : 0 <= 1 + 1) by lia.
      eapply walks_eq; [walk|rewrite ?app_nil_r; reflexivity].
    - assert (N1 : 0 <= 0 + 1) by lia.
      eapply walks_eq; [walk|rewrite ?app_nil_r; reflexivity]. }
  destruct H as (ls & G & H); exists ls; split; [ |exact H].
  destruct some; exact G.
Qed.
End Fields.
