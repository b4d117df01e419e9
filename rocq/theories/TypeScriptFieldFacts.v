(** The members in TypeScript and AssemblyScript files. *)
From Verif Require Export FieldFacts.
From Verif Require Import TypeScriptTextFacts.
Open Scope string_scope.
Open Scope Z_scope.
Open Scope list_scope.

Definition ts_lang (asm : bool) : string := if asm then "assemblyscript" else "typescript".

Section Fields.
Variable p : protocol.
Variable g : settings.
Hypothesis T : text_ok p.
Hypothesis FT : field_types p.
Hint Resolve tst_types_ok tst_types_base tst_types_name tst_serializers_ok : text.
Hint Resolve tst_deserializer_nested tst_serializer_nested tst_gen_measurement_ok : text.
Hint Resolve tst_gen_enum_nested tst_gen_struct_nested declared_names_struct declared_names_message : text.

Lemma tst_types_text asm t : field_type p t -> tst_types p asm t = Ret (type_text (ts_lang asm) t).
Proof.
  apply mapping_text; destruct asm.
  1,2: intros x I; cbn in I; decompose [or] I; subst; try contradiction; reflexivity.
  1,2: intros x I; cbn in I |- *; tauto.
Qed.
Lemma tst_field_text asm m : field_type p (v_type m) -> v_type m <> "bigint" -> v_type m <> "boolean" -> forall j,
  (if v_list m then
     line [| v_name m; ": "; tst_types p asm (v_type m); "[] = [];" |]
   else given (tst_types p asm (v_type m)) (fun ty =>
     given (if String.eqb ty "bigint" then lit "0n"
            else if String.eqb ty "boolean" then lit "false"
            else if String.eqb ty "string" then lit """"""
            else if mem (v_type m) (p_enums p) then
              e <- get_enum p (v_type m) ;; [| v_type m; "."; default_name e |]
            else if mem (v_type m) (p_structs p) then [| "new "; v_type m; "()" |]
            else lit "0") (fun default_value =>
       line [| v_name m; ": "; tst_types p asm (v_type m);
               (if String.eqb default_value "" then lit "" else [| " = "; default_value |]); ";" |]))) j =
  line (lit (field_text (ts_lang asm) p m)) j.
Proof.
  intros F N1 N2 j; unfold given; rewrite (tst_types_text asm _ F).
  destruct m as [n t l]; cbn [v_name v_type v_list] in *; unfold field_text; cbn [v_name v_type v_list].
  replace (in_strs (ts_lang asm) _) with true by (destruct asm; reflexivity).
  destruct l; [reflexivity| ]; cbn [pbind].
  destruct F as [B E S|B E S|e v r L V E S N Q|S E N Q]; unfold zero_text.
  - rewrite E, S; cbn in B; decompose [or] B; subst; try contradiction; destruct asm; reflexivity.
  - rewrite E, S; subst t; destruct asm; reflexivity.
  - rewrite (mem_lookup_some _ _ _ L), type_text_name by exact N; unfold first_value; rewrite L, V.
    destruct (String.eqb_spec t "bigint"); [congruence| ]; destruct (String.eqb_spec t "boolean"); [congruence| ].
    rewrite (not_string _ N).
    rewrite (enum_found _ _ _ L); cbn [pbind]; rewrite (default_found _ _ _ V); destruct v as [v z]; cbn [lit pcat pbind fst].
    rewrite append_empty; change ("." +++ v) with (String "." v); rewrite no_empty; same_text.
  - rewrite S, E, type_text_name by exact N.
    destruct (String.eqb_spec t "bigint"); [congruence| ]; destruct (String.eqb_spec t "boolean"); [congruence| ].
    rewrite (not_string _ N).
    destruct asm; same_text.
Qed.

Hypothesis NB : ~ In "bigint" (types_in_order p) /\ ~ In "boolean" (types_in_order p).
Hypothesis SP : forall t, In t (types_in_order p) -> spaceless t.

Lemma tst_fields_walk asm n s t : declares p t s ->
  walks (ts_lang asm) n (each (s_members s) (fun m =>
      (if v_list m then
         line [| v_name m; ": "; tst_types p asm (v_type m); "[] = [];" |]
       else given (tst_types p asm (v_type m)) (fun ty =>
         given (if String.eqb ty "bigint" then lit "0n"
                else if String.eqb ty "boolean" then lit "false"
                else if String.eqb ty "string" then lit """"""
                else if mem (v_type m) (p_enums p) then
                  e <- get_enum p (v_type m) ;; [| v_type m; "."; default_name e |]
                else if mem (v_type m) (p_structs p) then [| "new "; v_type m; "()" |]
                else lit "0") (fun default_value =>
           line [| v_name m; ": "; tst_types p asm (v_type m);
                   (if String.eqb default_value "" then lit "" else [| " = "; default_value |]); ";" |]))))) 1 1 Within Within
    (map (fun m => Field (without_blanks (field_text (ts_lang asm) p m))) (s_members s)).
Proof.
  intro D; apply walks_fields; intros m I; pose proof (FT t s m D I) as F; destruct NB as [N1 N2]; split.
  - apply tst_field_text; [exact F| | ]; intro X; [apply N1|apply N2]; rewrite <- X; apply (field_type_listed p _ F _ X); cbn; intro J; decompose [or] J; try discriminate; contradiction.
  - unfold field_text, a_field; replace (in_strs (ts_lang asm) _) with true by (destruct asm; reflexivity).
    replace (last_line (ts_lang asm)) with "" by (destruct asm; reflexivity).
    cbn [String.append]; destruct (v_list m); split; first [apply no_empty|apply no_brace; reflexivity].
Qed.

Lemma tst_gen_enum_walks (asm : bool) ename e n : 0 <= n ->
  walks (ts_lang asm) n (tst_gen_enum asm ename e) 0 0 Away Away [].
Proof.
  intros N; assert (N1 : 0 <= n + 1) by lia; unfold tst_gen_enum; destruct asm; cbn [when ts_lang].
  all: eapply walks_eq; [walk|reflexivity].
Qed.
Ltac walk_more ::= eapply walks_cons; [eapply (tst_fields_walk true) || eapply (tst_fields_walk false); eassumption| ].
Lemma tst_gen_struct_walks (asm : bool) sname s n : 0 <= n -> spaceless sname -> declares p sname s ->
  walks (ts_lang asm) n (tst_gen_struct p g asm sname s) 0 0 Away Away (type_parts (ts_lang asm) p (sname, s)).
Proof.
  intros N W D; assert (N1 : 0 <= n + 1) by lia; unfold tst_gen_struct; cbv zeta.
  destruct (s_is_message s) eqn:M; destruct asm; cbn [negb andb when ts_lang].
  all: eapply walks_eq; [walk|unfold type_parts; cbn [fst snd]; rewrite ?app_nil_r; reflexivity].
Qed.

Hypothesis U : g_tab g <> "" /\ blanks (g_tab g) = true.
Hypothesis E : g_embed g = false.

Lemma tst_boilerplate_walks n (asm : bool) r k2 c N :
  g_files g = (if asm then assemblyscript_files else typescript_files) ->
  walks (ts_lang asm) n (block r) 0 k2 Away c N ->
  walks (ts_lang asm) n (block (given (tst_serializers asm (p_string_size_type p)) (fun string_size =>
      given (tst_types p asm (p_string_size_type p)) (fun native_string_size =>
        add_boilerplate "  " (g_tab g)
          (tst_substitutions string_size native_string_size)
          (g_files g (-1)))) :: r)) 0 k2 Away c (own_parts (ts_lang asm) ++ N).
Proof.
  intros F H; pose proof (tk_string p T) as S; rewrite F; destruct U as [U1 U2].
  apply walks_given; [destruct asm; eauto with text|intros a Ga].
  apply walks_given; [destruct asm; eauto with text|intros b Gb].
  apply (walks_boilerplate _ _ _ _ _ _ _ _ _ Away); [destruct asm; reflexivity|left; destruct asm; reflexivity|reflexivity|discriminate|exact U2|exact U1| |exact H].
  all: clear - S Ga Gb; unfold tst_types, mapping in Gb;
    cbn in S; decompose [or] S; clear S; try contradiction;
    match goal with X : _ = p_string_size_type p |- _ => rewrite <- X in * end;
    destruct asm; vm_compute in Ga, Gb; injection Ga as <-; injection Gb as <-; vm_compute; reflexivity.
Qed.

Hint Resolve spaceless_struct spaceless_message spaceless_enum : text.
Ltac walk_more ::=
  lazymatch goal with
  | |- walks _ _ (block (given (tst_serializers ?b _) _ :: _)) 0 _ _ _ _ => eapply (tst_boilerplate_walks _ b); [assumption| ]
  | |- walks _ _ (block (each (p_enums _) (fun '(t, x) => tst_gen_enum ?b t x) :: _)) 0 _ _ _ _ =>
      eapply walks_cons; [apply walks_no_entries;
        let t := fresh "t" in let x := fresh "x" in let I := fresh "I" in
        intros t x I; apply (tst_gen_enum_walks b); lia| ]
  | |- walks _ _ (block (each _ (fun '(t, x) => tst_gen_struct _ _ ?b t x) :: _)) 0 _ _ _ _ =>
      eapply walks_cons; [apply (walks_entries _ _ _ _ (type_parts (ts_lang b) p));
        let t := fresh "t" in let x := fresh "x" in let I := fresh "I" in
        intros t x I; apply (tst_gen_struct_walks b); [lia|eauto with text|eauto with text]| ]
  end.

Lemma ts_generate_walks : g_files g = typescript_files -> file_fields "typescript" p g (expected_parts "typescript" g p).
Proof.
  intro F; unfold file_fields; change (generate "typescript" p g) with (tst_generate p g false).
  change (inside_namespace "typescript" g) with (g_flag g).
  assert (H : walks "typescript" (if g_flag g then 1 else 0) (tst_generate p g false)
    (if g_flag g then -1 else 0) (if g_flag g then -1 else 0) Away Away (expected_parts "typescript" g p)).
  { unfold expected_parts; replace (as_printed "typescript" g p) with p by (unfold as_printed; destruct (g_flag g); reflexivity).
    rewrite flat_map_app; unfold tst_generate; cbv zeta; rewrite E; destruct (g_flag g) eqn:Z; cbn [negb andb when].
    - assert (N : 0 <= 1) by lia; assert (N1 : 0 <= 1 + 1) by lia.
      eapply walks_eq; [walk|rewrite ?app_nil_r; reflexivity].
    - assert (N1 : 0 <= 0 + 1) by lia.
      eapply walks_eq; [walk|rewrite ?app_nil_r; reflexivity]. }
  destruct H as (ls & G & H); exists ls; split; [ |exact H].
  destruct (g_flag g); exact G.
Qed.
Lemma as_generate_walks : g_files g = assemblyscript_files -> file_fields "assemblyscript" p g (expected_parts "assemblyscript" g p).
Proof.
  intro F; unfold file_fields; change (generate "assemblyscript" p g) with (tst_generate p g true).
  change (inside_namespace "assemblyscript" g) with false.
  enough (H : walks "assemblyscript" 0 (tst_generate p g true) 0 0 Away Away (expected_parts "assemblyscript" g p)) by exact H.
  unfold expected_parts; replace (as_printed "assemblyscript" g p) with p by (unfold as_printed; destruct (g_flag g); reflexivity).
  rewrite flat_map_app; assert (N1 : 0 <= 0 + 1) by lia.
  unfold tst_generate; cbv zeta; rewrite E, andb_false_r; cbn [negb when].
  eapply walks_eq; [walk|rewrite ?app_nil_r; reflexivity].
Qed.
End Fields.
