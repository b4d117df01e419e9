(** The text for Zig is nested. *)
From Verif Require Export ZigText LinesFacts.
Open Scope string_scope.
Open Scope Z_scope.
Open Scope list_scope.

Section Nested.
Variable p : protocol.
Variable g : settings.
Hypothesis T : text_ok p.

Lemma zgt_types_ok t : declared_type p t -> good (zgt_types p t).
Proof. intro D; apply good_mapping; [reflexivity|exact D]. Qed.
Lemma zgt_types_base t : In t base_types -> good (zgt_types p t).
Proof. intro B; apply zgt_types_ok; now left. Qed.
Lemma zgt_types_name t s : declares p t s -> good (zgt_types p t).
Proof. apply good_mapping_name. Qed.
Hint Resolve zgt_types_ok zgt_types_base zgt_types_name : text.

Lemma zgt_measure_members_ok d acc dp : forall ms lines accum,
  (forall m, In m ms -> declared_type p (v_type m) /\ fits_any p d (v_type m) = true) ->
  (forall s acc dp, declares p (s_name s) s -> fits_any p d (s_name s) = true -> measured (zgt_measure p g d s acc dp)) ->
  lines <> [] -> measured (zgt_measure_members p g (zgt_measure p g d) acc dp ms lines accum).
Proof.
  induction ms as [ |m ms IH]; intros lines accum M R L; cbn [zgt_measure_members]; [now apply measured_ret| ].
  pose proof (M m (or_introl eq_refl)) as [D F].
  assert (S : is_simple p (v_type m) = true -> good (get_size_of p (v_type m))) by (apply (tk_simple p T); now left).
  assert (next : forall ls z, ls <> [] -> measured (zgt_measure_members p g (zgt_measure p g d) acc dp ms ls z)).
  { intros; apply IH; auto; intros; apply M; now right. }
  measure; try (apply next; auto using app_not_nil).
  all: measure_struct T R D F next; measure; apply next; auto using app_not_nil.
Qed.
Lemma zgt_measure_ok : forall d s acc dp, declares p (s_name s) s -> fits_any p d (s_name s) = true ->
  measured (zgt_measure p g d s acc dp).
Proof.
  induction d as [ |d IH]; intros s acc dp D F; destruct (tk_ranked p T _ _ _ D F) as (d' & E & M); [discriminate| ].
  injection E as <-; cbn [zgt_measure].
  assert (S : is_simple p (s_name s) = true -> good (get_size_of p (s_name s))).
  { apply (tk_simple p T); eapply known_declares; eassumption. }
  measure; [discriminate| ].
  apply zgt_measure_members_ok; [ |exact IH|discriminate].
  intros m I; split; [eapply (tk_types p T); eassumption|exact (M m I)].
Qed.
Lemma zgt_gen_measurement_ok n s acc dp : declares p n s -> good (zgt_gen_measurement p g s acc dp).
Proof.
  intro D; pose proof (tk_name p T n s D); subst n.
  apply measured_good, zgt_measure_ok; [exact D|apply (tk_fits p T)].
Qed.
Hint Resolve zgt_gen_measurement_ok : text.

Lemma zgt_deserializer_nested m acc b o n : 0 <= n -> declared_type p (v_type m) -> runs n (zgt_deserializer p m acc b o) 0 0.
Proof.
  intros N D; unfold zgt_deserializer; cbv zeta; cbn [v_list v_type v_name].
  run.
Qed.
Lemma zgt_serializer_nested m acc b o n : 0 <= n -> declared_type p (v_type m) -> runs n (zgt_serializer p m acc b o) 0 0.
Proof.
  intros N D; unfold zgt_serializer; cbv zeta; cbn [v_list v_type v_name].
  run.
Qed.
Hint Resolve zgt_deserializer_nested zgt_serializer_nested : text.
Lemma zgt_destructor_nested m acc n : 0 <= n -> declared_type p (v_type m) -> runs n (zgt_destructor p m acc) 0 0.
Proof.
  intros N D; unfold zgt_destructor, zgt_destructor_with; cbv zeta; cbn [v_list v_type v_name].
  run.
Qed.
Lemma zgt_loop_nested simple f rest n k : forall ms o,
  (forall m o, In m ms -> runs n (f m o) k k) -> (forall o, runs n (rest o) k k) ->
  (simple = true -> forall m, In m ms -> good (get_size_of p (v_type m))) ->
  runs n (zgt_loop p simple o ms f rest) k k.
Proof.
  induction ms as [ |m ms IH]; intros o F R S; cbn [zgt_loop]; [apply R| ].
  assert (N : forall o, runs n (zgt_loop p simple o ms f rest) k k).
  { intro o'; apply IH; [intros; apply F; now right|exact R|intros; apply S; [assumption|now right]]. }
  pose proof (F m o (or_introl eq_refl)) as (l1 & E1 & F1).
  assert (X : runs n (if simple then given (get_size_of p (v_type m)) (fun z => zgt_loop p simple (o + z) ms f rest)
                      else zgt_loop p simple o ms f rest) k k).
  { destruct simple; [ |apply N].
    apply runs_given; [apply S; [reflexivity|now left]|intros; apply N]. }
  destruct X as (l2 & E2 & F2); exists (l1 ++ l2); unfold andthen; rewrite E1; cbn [pbind fst snd].
  rewrite E2; cbn [pbind fst snd]; split; [reflexivity|now apply Forall_app].
Qed.
Lemma zgt_member_size n s m : declares p n s -> is_simple p (s_name s) = true -> In m (s_members s) -> good (get_size_of p (v_type m)).
Proof.
  intros D S I; rewrite (tk_name p T n s D) in S.
  apply good_member_size; [exact T|eapply (tk_types p T); eassumption|eapply (tk_fixed p T); eassumption].
Qed.
Hint Resolve zgt_destructor_nested zgt_member_size : text.

Lemma zgt_gen_enum_nested ename e n : 0 <= n -> In (ename, e) (p_enums p) -> runs n (zgt_gen_enum p ename e) 0 0.
Proof.
  intros N I; pose proof (tk_enums p T ename e I : fine_enum e) as F; unfold zgt_gen_enum; run.
Qed.
Ltac run_more ::=
  match goal with
  | L : forall f rest o k, _ -> _ -> runs _ (zgt_loop _ _ _ _ f rest) k k |- runs _ (zgt_loop _ _ _ _ _ _) _ _ => apply L; intros
  end.
Lemma zgt_gen_struct_nested sname s n : 0 <= n -> declares p sname s -> runs n (zgt_gen_struct p g sname s) 0 0.
Proof.
  intros N D; pose proof (tk_name p T sname s D) as E; unfold zgt_gen_struct; cbv zeta.
  assert (Z1 : is_simple p (s_name s) = true -> good (get_size_of p sname)).
  { rewrite E; intro; eapply good_struct_size; eassumption. }
  assert (Z2 : is_simple p (s_name s) = true -> good (get_size_of p (s_name s))).
  { rewrite E; intro; eapply good_struct_size; eassumption. }
  assert (L : forall f rest o k, (forall m o, In m (s_members s) -> runs n (f m o) k k) -> (forall o, runs n (rest o) k k) ->
    runs n (zgt_loop p (is_simple p (s_name s)) o (s_members s) f rest) k k).
  { intros; apply zgt_loop_nested; auto; intros; eapply zgt_member_size; eassumption. }
  destruct (s_is_message s) eqn:M; run.
Qed.
Hint Resolve zgt_gen_enum_nested zgt_gen_struct_nested : text.

Lemma zgt_generate_nested : runs 0 (zgt_generate p g) 0 0.
Proof.
  unfold zgt_generate; cbv zeta.
  run.
Qed.

End Nested.
