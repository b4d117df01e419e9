(** The text for C# is nested. *)
From Verif Require Export CSharpText LinesFacts.
Open Scope string_scope.
Open Scope Z_scope.
Open Scope list_scope.

Section Nested.
Variable p : protocol.
Variable g : settings.
Hypothesis T : text_ok p.

Lemma cst_types_ok t : declared_type p t -> good (cst_types p t).
Proof. intro D; apply good_mapping; [reflexivity|exact D]. Qed.
Lemma cst_types_base t : In t base_types -> good (cst_types p t).
Proof. intro B; apply cst_types_ok; now left. Qed.
Lemma cst_types_name t s : declares p t s -> good (cst_types p t).
Proof. apply good_mapping_name. Qed.
Hint Resolve cst_types_ok cst_types_base cst_types_name : text.
Lemma cst_deserializers_ok t : In t base_types -> good (cst_deserializers t).
Proof. apply covers_item; reflexivity. Qed.
Hint Resolve cst_deserializers_ok : text.
Lemma cst_deserializers_mem t : mem t cs_deserializers = true -> good (cst_deserializers t).
Proof. apply good_item. Qed.
Hint Resolve cst_deserializers_mem : text.

Lemma cst_measure_members_ok d lev acc : forall ms lines accum,
  (forall m, In m ms -> declared_type p (v_type m) /\ fits_any p d (v_type m) = true) ->
  (forall lev s acc, declares p (s_name s) s -> fits_any p d (s_name s) = true -> measured (cst_measure p g d lev s acc)) ->
  lines <> [] -> measured (cst_measure_members p g (cst_measure p g d) lev acc ms lines accum).
Proof.
  induction ms as [ |m ms IH]; intros lines accum M R L; cbn [cst_measure_members]; [now apply measured_ret| ].
  pose proof (M m (or_introl eq_refl)) as [D F].
  assert (S : is_simple p (v_type m) = true -> good (get_size_of p (v_type m))) by (apply (tk_simple p T); now left).
  assert (next : forall ls z, ls <> [] -> measured (cst_measure_members p g (cst_measure p g d) lev acc ms ls z)).
  { intros; apply IH; auto; intros; apply M; now right. }
  measure; try (apply next; auto using app_not_nil).
  all: measure_struct T R D F next; measure; apply next; auto using app_not_nil.
Qed.
Lemma cst_measure_ok : forall d lev s acc, declares p (s_name s) s -> fits_any p d (s_name s) = true ->
  measured (cst_measure p g d lev s acc).
Proof.
  induction d as [ |d IH]; intros lev s acc D F; destruct (tk_ranked p T _ _ _ D F) as (d' & E & M); [discriminate| ].
  injection E as <-; cbn [cst_measure].
  assert (S : is_simple p (s_name s) = true -> good (get_size_of p (s_name s))).
  { apply (tk_simple p T); eapply known_declares; eassumption. }
  measure; [discriminate| ].
  apply cst_measure_members_ok; [ |exact IH|discriminate].
  intros m I; split; [eapply (tk_types p T); eassumption|exact (M m I)].
Qed.
Lemma cst_gen_measurement_ok n lev s acc : declares p n s -> good (cst_gen_measurement p g lev s acc).
Proof.
  intro D; pose proof (tk_name p T n s D); subst n.
  apply measured_good, cst_measure_ok; [exact D|apply (tk_fits p T)].
Qed.
Hint Resolve cst_gen_measurement_ok : text.

Lemma cst_deserializer_nested m acc n : 0 <= n -> declared_type p (v_type m) -> runs n (cst_deserializer p m acc) 0 0.
Proof.
  intros N D; unfold cst_deserializer, cst_deserializer_with; cbv zeta; cbn [v_list v_type v_name].
  run.
Qed.
Lemma cst_serializer_nested m acc n : 0 <= n -> declared_type p (v_type m) -> runs n (cst_serializer p m acc) 0 0.
Proof.
  intros N D; unfold cst_serializer, cst_serializer_with; cbv zeta; cbn [v_list v_type v_name].
  run.
Qed.
Hint Resolve cst_deserializer_nested cst_serializer_nested : text.

Lemma cst_gen_enum_nested ename e n : 0 <= n -> In (ename, e) (p_enums p) -> runs n (cst_gen_enum p ename e) 0 0.
Proof.
  intros N I; pose proof (tk_enums p T ename e I : fine_enum e) as F; unfold cst_gen_enum; run.
Qed.
Lemma cst_gen_struct_nested sname s n : 0 <= n -> declares p sname s -> runs n (cst_gen_struct p g sname s) 0 0.
Proof.
  intros N D; pose proof (tk_name p T sname s D) as E; unfold cst_gen_struct; cbv zeta.
  destruct (s_is_message s) eqn:M; run.
Qed.
Hint Resolve cst_gen_enum_nested cst_gen_struct_nested : text.

Lemma cst_generate_nested : runs 0 (cst_generate p g) 0 0.
Proof.
  unfold cst_generate; cbv zeta.
  destruct (has_namespace g) eqn:NS; run.
Qed.

End Nested.
