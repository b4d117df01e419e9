(** The text for Rust is nested. *)
From Verif Require Export RustText LinesFacts.
Open Scope string_scope.
Open Scope Z_scope.
Open Scope list_scope.

Section Nested.
Variable p : protocol.
Variable g : settings.
Hypothesis T : text_ok p.

Lemma rst_types_ok t : declared_type p t -> good (rst_types p t).
Proof. intro D; apply good_mapping; [reflexivity|exact D]. Qed.
Lemma rst_types_base t : In t base_types -> good (rst_types p t).
Proof. intro B; apply rst_types_ok; now left. Qed.
Lemma rst_types_name t s : declares p t s -> good (rst_types p t).
Proof. apply good_mapping_name. Qed.
Hint Resolve rst_types_ok rst_types_base rst_types_name : text.

Lemma rst_measure_members_ok d acc : forall ms lines accum,
  (forall m, In m ms -> declared_type p (v_type m) /\ fits_any p d (v_type m) = true) ->
  (forall s acc, declares p (s_name s) s -> fits_any p d (s_name s) = true -> measured (rst_measure p g d s acc)) ->
  lines <> [] -> measured (rst_measure_members p g (rst_measure p g d) acc ms lines accum).
Proof.
  induction ms as [ |m ms IH]; intros lines accum M R L; cbn [rst_measure_members]; [now apply measured_ret| ].
  pose proof (M m (or_introl eq_refl)) as [D F].
  assert (S : is_simple p (v_type m) = true -> good (get_size_of p (v_type m))) by (apply (tk_simple p T); now left).
  assert (next : forall ls z, ls <> [] -> measured (rst_measure_members p g (rst_measure p g d) acc ms ls z)).
  { intros; apply IH; auto; intros; apply M; now right. }
  measure; try (apply next; auto using app_not_nil).
  all: measure_struct T R D F next; measure; apply next; auto using app_not_nil.
Qed.
Lemma rst_measure_ok : forall d s acc, declares p (s_name s) s -> fits_any p d (s_name s) = true ->
  measured (rst_measure p g d s acc).
Proof.
  induction d as [ |d IH]; intros s acc D F; destruct (tk_ranked p T _ _ _ D F) as (d' & E & M); [discriminate| ].
  injection E as <-; cbn [rst_measure].
  assert (S : is_simple p (s_name s) = true -> good (get_size_of p (s_name s))).
  { apply (tk_simple p T); eapply known_declares; eassumption. }
  measure; [discriminate| ].
  apply rst_measure_members_ok; [ |exact IH|discriminate].
  intros m I; split; [eapply (tk_types p T); eassumption|exact (M m I)].
Qed.
Lemma rst_gen_measurement_ok n s acc : declares p n s -> good (rst_gen_measurement p g s acc).
Proof.
  intro D; pose proof (tk_name p T n s D); subst n.
  apply measured_good, rst_measure_ok; [exact D|apply (tk_fits p T)].
Qed.
Hint Resolve rst_gen_measurement_ok : text.

Lemma rst_deserializer_nested m acc n : 0 <= n -> declared_type p (v_type m) -> runs n (rst_deserializer p m acc) 0 0.
Proof.
  intros N D; unfold rst_deserializer, rst_deserializer_with; cbv zeta; cbn [v_list v_type v_name].
  run.
Qed.
Lemma rst_serializer_nested m acc n : 0 <= n -> declared_type p (v_type m) -> runs n (rst_serializer p m acc) 0 0.
Proof.
  intros N D; unfold rst_serializer, rst_serializer_with; cbv zeta; cbn [v_list v_type v_name].
  run.
Qed.
Hint Resolve rst_deserializer_nested rst_serializer_nested : text.

Lemma rst_gen_enum_nested ename e n : 0 <= n -> In (ename, e) (p_enums p) -> runs n (rst_gen_enum p g ename e) 0 0.
Proof.
  intros N I; pose proof (tk_enums p T ename e I : fine_enum e) as F; unfold rst_gen_enum; run.
Qed.
Lemma rst_gen_struct_nested sname s n : 0 <= n -> declares p sname s -> runs n (rst_gen_struct p g sname s) 0 0.
Proof.
  intros N D; pose proof (tk_name p T sname s D) as E; unfold rst_gen_struct; cbv zeta.
  destruct (s_is_message s) eqn:M; run.
Qed.
Hint Resolve rst_gen_enum_nested rst_gen_struct_nested : text.

Lemma rst_generate_nested : runs 0 (rst_generate p g) 0 0.
Proof.
  unfold rst_generate; cbv zeta.
  run.
Qed.

End Nested.
