(** The text for Go is nested. *)
From Verif Require Export GoText LinesFacts.
Open Scope string_scope.
Open Scope Z_scope.
Open Scope list_scope.

Section Nested.
Variable p : protocol.
Variable g : settings.
Hypothesis T : text_ok p.

Lemma got_types_ok t : declared_type p t -> good (got_types p t).
Proof. intro D; apply good_mapping; [reflexivity|exact D]. Qed.
Lemma got_types_base t : In t base_types -> good (got_types p t).
Proof. intro B; apply got_types_ok; now left. Qed.
Lemma got_types_name t s : declares p t s -> good (got_types p t).
Proof. apply good_mapping_name. Qed.
Hint Resolve got_types_ok got_types_base got_types_name : text.
Lemma longest_ok l : l <> [] -> good (longest l).
Proof. destruct l; [congruence|intro; apply good_ret]. Qed.
Lemma longest_fine e : fine_enum e -> good (longest (map fst (e_values e))).
Proof. intros [_ N]; apply longest_ok; destruct (e_values e); [congruence|discriminate]. Qed.
Hint Resolve longest_fine : text.
Lemma and_true_l a b : a && b = true -> a = true.
Proof. intro H; now apply andb_prop in H. Qed.
Hint Resolve and_true_l : text.

Lemma got_measure_members_ok d acc : forall ms lines accum,
  (forall m, In m ms -> declared_type p (v_type m) /\ fits_any p d (v_type m) = true) ->
  (forall s acc, declares p (s_name s) s -> fits_any p d (s_name s) = true -> measured (got_measure p g d s acc)) ->
  lines <> [] -> measured (got_measure_members p g (got_measure p g d) acc ms lines accum).
Proof.
  induction ms as [ |m ms IH]; intros lines accum M R L; cbn [got_measure_members]; [now apply measured_ret| ].
  pose proof (M m (or_introl eq_refl)) as [D F].
  assert (S : is_simple p (v_type m) = true -> good (get_size_of p (v_type m))) by (apply (tk_simple p T); now left).
  assert (next : forall ls z, ls <> [] -> measured (got_measure_members p g (got_measure p g d) acc ms ls z)).
  { intros; apply IH; auto; intros; apply M; now right. }
  measure; try (apply next; auto using app_not_nil).
  all: measure_struct T R D F next; measure; apply next; auto using app_not_nil.
Qed.
Lemma got_measure_ok : forall d s acc, declares p (s_name s) s -> fits_any p d (s_name s) = true ->
  measured (got_measure p g d s acc).
Proof.
  induction d as [ |d IH]; intros s acc D F; destruct (tk_ranked p T _ _ _ D F) as (d' & E & M); [discriminate| ].
  injection E as <-; cbn [got_measure].
  assert (S : is_simple p (s_name s) = true -> good (get_size_of p (s_name s))).
  { apply (tk_simple p T); eapply known_declares; eassumption. }
  measure; [discriminate| ].
  apply got_measure_members_ok; [ |exact IH|discriminate].
  intros m I; split; [eapply (tk_types p T); eassumption|exact (M m I)].
Qed.
Lemma got_gen_measurement_ok n s acc : declares p n s -> good (got_gen_measurement p g s acc).
Proof.
  intro D; pose proof (tk_name p T n s D); subst n.
  apply measured_good, got_measure_ok; [exact D|apply (tk_fits p T)].
Qed.
Hint Resolve got_gen_measurement_ok : text.

Lemma got_deserializer_nested m acc r de n : 0 <= n -> declared_type p (v_type m) -> runs n (got_deserializer p m acc r de) 0 0.
Proof.
  intros N D; unfold got_deserializer, got_deserializer_with; cbv zeta; cbn [v_list v_type v_name].
  run.
Qed.
Lemma got_serializer_nested m acc n : 0 <= n -> declared_type p (v_type m) -> runs n (got_serializer p m acc) 0 0.
Proof.
  intros N D; unfold got_serializer, got_serializer_with; cbv zeta; cbn [v_list v_type v_name].
  run.
Qed.
Hint Resolve got_deserializer_nested got_serializer_nested : text.

Lemma got_gen_enum_nested ename e n : 0 <= n -> In (ename, e) (p_enums p) -> runs n (got_gen_enum p ename e) 0 0.
Proof.
  intros N I; pose proof (tk_enums p T ename e I : fine_enum e) as F; unfold got_gen_enum; run.
Qed.
Lemma got_gen_struct_nested sname s n : 0 <= n -> declares p sname s -> runs n (got_gen_struct p g sname s) 0 0.
Proof.
  intros N D; pose proof (tk_name p T sname s D) as E; unfold got_gen_struct; cbv zeta.
  destruct (s_is_message s) eqn:M; run.
Qed.
Hint Resolve got_gen_enum_nested got_gen_struct_nested : text.

Lemma got_generate_nested : runs 0 (got_generate p g) 0 0.
Proof.
  unfold got_generate; cbv zeta.
  run.
Qed.

End Nested.
