(** The text for TypeScript and AssemblyScript is nested. *)
From Verif Require Export TypeScriptText LinesFacts.
Open Scope string_scope.
Open Scope Z_scope.
Open Scope list_scope.

Section Nested.
Variable p : protocol.
Variable g : settings.
Variable asm : bool.
Hypothesis T : text_ok p.

Lemma tst_types_ok t : declared_type p t -> good (tst_types p asm t).
Proof. intro D; apply good_mapping; [destruct asm; reflexivity|exact D]. Qed.
Lemma tst_types_base t : In t base_types -> good (tst_types p asm t).
Proof. intro B; apply tst_types_ok; now left. Qed.
Lemma tst_types_name t s : declares p t s -> good (tst_types p asm t).
Proof. apply good_mapping_name. Qed.
Lemma tst_serializers_ok t : In t base_types -> good (tst_serializers asm t).
Proof. apply covers_item; destruct asm; reflexivity. Qed.
Hint Resolve tst_types_ok tst_types_base tst_types_name tst_serializers_ok : text.

Lemma tst_deserializer_nested m acc n : 0 <= n -> declared_type p (v_type m) -> runs n (tst_deserializer p asm m acc) 0 0.
Proof.
  intros N D; unfold tst_deserializer, tst_deserializer_with; cbv zeta; cbn [v_list v_type v_name].
  run.
Qed.
Lemma tst_serializer_nested m acc n : 0 <= n -> declared_type p (v_type m) -> runs n (tst_serializer p asm m acc) 0 0.
Proof.
  intros N D; unfold tst_serializer, tst_serializer_with; cbv zeta; cbn [v_list v_type v_name].
  run.
Qed.

Lemma tst_measure_members_ok d acc : forall ms lines accum,
  (forall m, In m ms -> declared_type p (v_type m) /\ fits_any p d (v_type m) = true) ->
  (forall s acc, declares p (s_name s) s -> fits_any p d (s_name s) = true -> measured (tst_measure p g asm d s acc)) ->
  lines <> [] -> measured (tst_measure_members p g asm (tst_measure p g asm d) acc ms lines accum).
Proof.
  induction ms as [ |m ms IH]; intros lines accum M R L; cbn [tst_measure_members]; [now apply measured_ret| ].
  pose proof (M m (or_introl eq_refl)) as [D F].
  assert (S : is_simple p (v_type m) = true -> good (get_size_of p (v_type m))) by (apply (tk_simple p T); now left).
  assert (next : forall ls z, ls <> [] -> measured (tst_measure_members p g asm (tst_measure p g asm d) acc ms ls z)).
  { intros; apply IH; auto; intros; apply M; now right. }
  measure; try (apply next; auto using app_not_nil).
  all: measure_struct T R D F next; measure; apply next; auto using app_not_nil.
Qed.
Lemma tst_measure_ok : forall d s acc, declares p (s_name s) s -> fits_any p d (s_name s) = true ->
  measured (tst_measure p g asm d s acc).
Proof.
  induction d as [ |d IH]; intros s acc D F; destruct (tk_ranked p T _ _ _ D F) as (d' & E & M); [discriminate| ].
  injection E as <-; cbn [tst_measure].
  assert (S : is_simple p (s_name s) = true -> good (get_size_of p (s_name s))).
  { apply (tk_simple p T); destruct D as [D|D]; [left; right; right; left|right]; now exists s. }
  measure; [discriminate| ].
  apply tst_measure_members_ok; [ |exact IH|discriminate].
  intros m I; split; [eapply (tk_types p T); eassumption|exact (M m I)].
Qed.
Lemma tst_gen_measurement_ok n s acc : declares p n s -> good (tst_gen_measurement p g asm s acc).
Proof.
  intro D; pose proof (tk_name p T n s D); subst n.
  apply measured_good, tst_measure_ok; [exact D|apply (tk_fits p T)].
Qed.
End Nested.

Section Whole.
Variable p : protocol.
Variable g : settings.
Hypothesis T : text_ok p.
Hint Resolve tst_types_ok tst_types_base tst_types_name tst_serializers_ok : text.
Hint Resolve tst_deserializer_nested tst_serializer_nested tst_gen_measurement_ok : text.

Lemma tst_gen_enum_nested asm ename e n : 0 <= n -> runs n (tst_gen_enum asm ename e) 0 0.
Proof. intro N; unfold tst_gen_enum; run. Qed.
Lemma tst_gen_struct_nested asm sname s n : 0 <= n -> declares p sname s -> runs n (tst_gen_struct p g asm sname s) 0 0.
Proof.
  intros N D; unfold tst_gen_struct; cbv zeta.
  destruct (s_is_message s) eqn:M; destruct asm; cbn [negb andb]; run.
Qed.
Hint Resolve tst_gen_enum_nested tst_gen_struct_nested declared_names_struct declared_names_message : text.

Lemma tst_generate_nested asm : runs 0 (tst_generate p g asm) 0 0.
Proof.
  unfold tst_generate; cbv zeta.
  destruct (g_flag g) eqn:U; destruct asm; cbn [negb andb]; run.
Qed.
End Whole.
