(** The text for C is nested. *)
From Verif Require Export CText LinesFacts.
Open Scope string_scope.
Open Scope Z_scope.
Open Scope list_scope.

Section Nested.
Variable p : protocol.
Variable g : settings.
Hypothesis T : text_ok p.

Lemma ct_types_ok t : declared_type p t -> good (ct_types p t).
Proof. intro D; apply good_mapping; [reflexivity|exact D]. Qed.
Lemma ct_types_base t : In t base_types -> good (ct_types p t).
Proof. intro B; apply ct_types_ok; now left. Qed.
Lemma ct_types_name t s : declares p t s -> good (ct_types p t).
Proof. apply good_mapping_name. Qed.
Hint Resolve ct_types_ok ct_types_base ct_types_name : text.
Lemma ct_serializers_ok t : In t base_types -> good (ct_serializers t).
Proof. apply covers_item; reflexivity. Qed.
Hint Resolve ct_serializers_ok : text.

Lemma ct_measure_members_ok d lev acc : forall ms lines accum,
  (forall m, In m ms -> declared_type p (v_type m) /\ fits_any p d (v_type m) = true) ->
  (forall lev s acc, declares p (s_name s) s -> fits_any p d (s_name s) = true -> measured (ct_measure p g d lev s acc)) ->
  lines <> [] -> measured (ct_measure_members p g (ct_measure p g d) lev acc ms lines accum).
Proof.
  induction ms as [ |m ms IH]; intros lines accum M R L; cbn [ct_measure_members]; [now apply measured_ret| ].
  pose proof (M m (or_introl eq_refl)) as [D F].
  assert (S : is_simple p (v_type m) = true -> good (get_size_of p (v_type m))) by (apply (tk_simple p T); now left).
  assert (next : forall ls z, ls <> [] -> measured (ct_measure_members p g (ct_measure p g d) lev acc ms ls z)).
  { intros; apply IH; auto; intros; apply M; now right. }
  measure; try (apply next; auto using app_not_nil).
  all: measure_struct T R D F next; measure; apply next; auto using app_not_nil.
Qed.
Lemma ct_measure_ok : forall d lev s acc, declares p (s_name s) s -> fits_any p d (s_name s) = true ->
  measured (ct_measure p g d lev s acc).
Proof.
  induction d as [ |d IH]; intros lev s acc D F; destruct (tk_ranked p T _ _ _ D F) as (d' & E & M); [discriminate| ].
  injection E as <-; cbn [ct_measure].
  assert (S : is_simple p (s_name s) = true -> good (get_size_of p (s_name s))).
  { apply (tk_simple p T); eapply known_declares; eassumption. }
  measure; [discriminate| ].
  apply ct_measure_members_ok; [ |exact IH|discriminate].
  intros m I; split; [eapply (tk_types p T); eassumption|exact (M m I)].
Qed.
Lemma ct_gen_measurement_ok n lev s acc : declares p n s -> good (ct_gen_measurement p g lev s acc).
Proof.
  intro D; pose proof (tk_name p T n s D); subst n.
  apply measured_good, ct_measure_ok; [exact D|apply (tk_fits p T)].
Qed.
Hint Resolve ct_gen_measurement_ok : text.

Lemma ct_err_nested n : 0 <= n -> runs n (ct_err_check_return g) 0 0.
Proof. intro N; unfold ct_err_check_return; run. Qed.
Hint Resolve ct_err_nested : text.

Lemma ct_deserializer_nested m acc n : 0 <= n -> declared_type p (v_type m) -> runs n (ct_deserializer p g m acc) 0 0.
Proof.
  intros N D; unfold ct_deserializer, ct_deserializer_with; cbv zeta; cbn [v_list v_type v_name].
  run.
Qed.
Lemma ct_serializer_nested m acc n : 0 <= n -> declared_type p (v_type m) -> runs n (ct_serializer p g m acc) 0 0.
Proof.
  intros N D; unfold ct_serializer, ct_serializer_with; cbv zeta; cbn [v_list v_type v_name].
  run.
Qed.
Hint Resolve ct_deserializer_nested ct_serializer_nested : text.

Lemma ct_gen_default_nested : forall d ms n, 0 <= n ->
  (forall m, In m ms -> declared_type p (v_type m) /\ fits_any p d (v_type m) = true) -> runs n (ct_gen_default p g d ms) 0 0.
Proof.
  assert (S : forall d m, declared_type p (v_type m) -> fits_any p d (v_type m) = true -> mem (v_type m) ct_defaults = false ->
    String.eqb (v_type m) "string" = false -> mem (v_type m) (p_enums p) = false ->
    exists d' s, d = Datatypes.S d' /\ get_struct p (v_type m) = Ret s /\
      forall m', In m' (s_members s) -> declared_type p (v_type m') /\ fits_any p d' (v_type m') = true).
  { intros d m D F M1 M2 M3; destruct (remaining_struct p (v_type m) D) as (s & E & I); [ |exact M2|exact M3| ].
    - destruct (mem (v_type m) NUMERIC_TYPE_SIZES) eqn:B; [ |reflexivity].
      apply mem_base in B; rewrite (covers_mem ct_defaults _ eq_refl B) in M1; discriminate.
    - destruct (tk_ranked p T d (v_type m) s (or_introl I) F) as (d' & -> & FM); exists d', s; repeat split; auto.
      eapply (tk_types p T); [left; exact I|assumption]. }
  induction d as [ |d IH]; intros ms n N H; cbn [ct_gen_default]; cbv zeta; apply runs_each; intros m I;
    pose proof (H m I) as [D F].
  - apply runs_if; intro B1; [run| ]; apply runs_if; intro B2; [run| ].
    apply runs_if; intro B3; [run| ]; apply runs_if; intro B4; [run| ].
    destruct (S O m D F B2 B3 B4) as (d' & s & E & _); discriminate.
  - apply runs_if; intro B1; [run| ]; apply runs_if; intro B2; [run| ].
    apply runs_if; intro B3; [run| ]; apply runs_if; intro B4; [run| ].
    destruct (S (Datatypes.S d) m D F B2 B3 B4) as (d' & s & E & G & M); injection E as <-; rewrite G.
    assert (X : runs n (given (Ret s) (fun s => ct_gen_default p g d (s_members s))) 1 1).
    { apply runs_given_ret, runs_deeper; [exact N|lia|intros n' N'; now apply IH]. }
    remember (given (Ret s) (fun s => ct_gen_default p g d (s_members s))) as G0.
    eapply runs_cons; [run| ]; eapply runs_cons; [run| ]; eapply runs_cons; [exact X|run].
Qed.
Lemma ct_destructor_nested : forall d m acc n, 0 <= n -> declared_type p (v_type m) -> fits_any p d (v_type m) = true ->
  runs n (ct_destructor p g (S d) m acc) 0 0.
Proof.
  induction d as [d IH] using (well_founded_induction Wf_nat.lt_wf); intros m acc n N D F.
  assert (M : forall acc m' k, 0 <= k -> v_type m' = v_type m -> is_simple p (v_type m) = false ->
     String.eqb (v_type m) "string" = false ->
     runs n (given (get_struct p (v_type m')) (fun s =>
         each (s_members s) (fun mem => ct_destructor p g d mem (acc +++ v_name m' +++ ".")))) k k).
  { intros acc' m' k K E Q B; rewrite E; destruct (tk_variable p T (v_type m) D Q) as (s & G & I).
    { intro X; rewrite X in B; discriminate. }
    rewrite G; apply runs_given_ret, runs_each; intros m0 I0.
    destruct (tk_ranked p T _ _ _ (or_introl I) F) as (d' & -> & FM).
    apply runs_deeper; [exact N|exact K|intros n' N'].
    apply IH; [lia|exact N'|eapply (tk_types p T); [left; exact I|exact I0]|exact (FM m0 I0)]. }
  change (ct_destructor p g (S d)) with (ct_destructor_with p g (ct_destructor p g d) (ct_destructor_with p g (ct_destructor p g d) no_more)).
  unfold ct_destructor_with at 1; cbv zeta; unfold var_is_simple at 1; destruct (v_list m) eqn:VL; cbv iota.
  - apply runs_if; intro B; [run| ].
    apply runs_at; intro z; eapply runs_cons; [run| ]; eapply runs_cons; [run| ].
    eapply runs_cons; [ |run]; eapply runs_cons.
    + unfold ct_destructor_with, var_is_simple; cbn [v_list v_type]; rewrite B; cbv iota.
      apply runs_if; intro B'; [run| ].
      exact (M acc (MkVar (v_name m +++ "[i" +++ str_of_Z z +++ "]") (v_type m) false) 1 ltac:(lia) eq_refl B B').
    + run.
  - apply runs_if; intro B; [run| ].
    apply runs_if; intro B'; [run| ]; apply M; [lia|reflexivity|exact B|exact B'].
Qed.
Lemma ct_message_default n s k : 0 <= k -> declares p n s -> runs k (ct_gen_default p g (depth_of p) (s_members s)) 0 0.
Proof.
  intros K D; apply ct_gen_default_nested; [exact K|intros m I; split; [eapply (tk_types p T); eassumption| ]].
  apply (tk_fits p T).
Qed.
Lemma ct_message_destructor n s m acc k : 0 <= k -> declares p n s -> In m (s_members s) ->
  runs k (ct_destructor p g (depth_of p) m acc) 0 0.
Proof.
  intros K D I; destruct (tk_ranked p T _ _ _ D (tk_fits p T n)) as (d & E & F); rewrite E.
  apply ct_destructor_nested; [exact K|eapply (tk_types p T); eassumption|exact (F m I)].
Qed.
Hint Resolve ct_message_default ct_message_destructor : text.

Lemma ct_gen_enum_nested ename e n : 0 <= n -> In (ename, e) (p_enums p) -> runs n (ct_gen_enum p g ename e) 0 0.
Proof.
  intros N I; pose proof (tk_enums p T ename e I : fine_enum e) as F; unfold ct_gen_enum; run.
Qed.
Lemma ct_gen_struct_nested sname s n : 0 <= n -> declares p sname s -> runs n (ct_gen_struct p g sname s) 0 0.
Proof.
  intros N D; pose proof (tk_name p T sname s D) as E; unfold ct_gen_struct; cbv zeta.
  destruct (s_is_message s) eqn:M; run.
Qed.
Hint Resolve ct_gen_enum_nested ct_gen_struct_nested : text.

Lemma ct_gen_enum_implementation_nested ename e n : 0 <= n -> In (ename, e) (p_enums p) ->
  runs n (ct_gen_enum_implementation p g ename e) 0 0.
Proof.
  intros N I; pose proof (tk_enums p T ename e I : fine_enum e) as F; unfold ct_gen_enum_implementation; run.
Qed.
Lemma ct_gen_implementation_nested sname s n : 0 <= n -> declares p sname s -> runs n (ct_gen_implementation p g sname s) 0 0.
Proof.
  intros N D; unfold ct_gen_implementation; cbv zeta; run.
Qed.
Hint Resolve ct_gen_enum_implementation_nested ct_gen_implementation_nested : text.

Lemma ct_generate_nested : runs 0 (ct_generate p g) 0 0.
Proof.
  unfold ct_generate; cbv zeta.
  run.
Qed.

End Nested.
