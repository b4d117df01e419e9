(** The size queries of the loader against [fixed_size] and [variable_size]. *)
From Verif Require Export ProtocolFacts2.

Scheme fixed_size_ind2 := Induction for fixed_size Sort Prop
  with fixed_members_ind2 := Induction for fixed_members Sort Prop.
Combined Scheme fixed_mutind from fixed_size_ind2, fixed_members_ind2.

(** The member loops as separate functions. *)
Fixpoint simple_members (p : protocol) (d : nat) (ms : list var) : pyres bool :=
  match ms with
  | [] => Ret true
  | m :: r =>
      a <- (if v_list m then Ret false else simple_type p d (v_type m)) ;;
      b <- simple_members p d r ;;
      Ret (a && b)
  end.
Fixpoint size_members (p : protocol) (d : nat) (ms : list var) : pyres Z :=
  match ms with
  | [] => Ret 0
  | m :: r =>
      if v_list m then Raise NotImplementedError
      else a <- size_of_type p d (v_type m) ;;
           b <- size_members p d r ;;
           Ret (a + b)
  end.

(** As [fits], for messages too. *)
Definition fits_any (p : protocol) (d : nat) (t : string) : bool :=
  match lookup t (p_structs p) with
  | Some _ => fits p d t
  | None =>
      match lookup t (p_messages p) with
      | None => true
      | Some s => match d with
                  | O => false
                  | S d' => forallb (fun m => fits p d' (v_type m)) (s_members s)
                  end
      end
  end.

Lemma WF_fits_any p t : WF p -> fits_any p (depth_of p) t = true.
Proof.
  intro W; unfold fits_any, depth_of.
  destruct (lookup t (p_structs p)) eqn:L.
  - apply fits_mono with (d := List.length (p_structs p)); [lia|now apply WF_fits].
  - destruct (lookup t (p_messages p)); [|reflexivity].
    apply forallb_forall; intros m _; now apply WF_fits.
Qed.

(** The kind of a type that a generator may ask about. *)
Definition known_type (p : protocol) (t : string) : Prop := declared_type p t \/ is_message_name p t.

Lemma known_cases p t : WF p -> known_type p t ->
  (exists n, lookup t NUMERIC_TYPE_SIZES = Some n /\ base_size t n) \/
  t = "string"%string \/
  (exists e, lookup t (p_enums p) = Some e /\ lookup t NUMERIC_TYPE_SIZES = None /\
             String.eqb t "string" = false /\ lookup t (p_structs p) = None /\
             lookup t (p_messages p) = None) \/
  (exists s, declares p t s /\
     (lookup t (p_structs p) = Some s \/ (lookup t (p_structs p) = None /\ lookup t (p_messages p) = Some s)) /\
     lookup t NUMERIC_TYPE_SIZES = None /\ String.eqb t "string" = false /\ lookup t (p_enums p) = None).
Proof.
  intros W K.
  assert (NB : ~ In t base_types -> lookup t NUMERIC_TYPE_SIZES = None).
  { intro H; apply lookup_None; now rewrite numeric_keys. }
  assert (NS : t <> "string"%string -> String.eqb t "string" = false) by (intro; now apply String.eqb_neq).
  destruct K as [[B|[->|[[s S]|[e E]]]]|[s M]].
  - left; rewrite <- numeric_keys in B; apply lookup_some_iff in B as [n L].
    exists n; split; [assumption|apply lookup_In in L; exact L].
  - right; left; reflexivity.
  - right; right; right; exists s.
    destruct (declared_struct_or p t W) as (N1 & N2 & N3); [now exists s|].
    repeat split; auto; [now left|left; apply In_lookup; [apply W|assumption]|].
    apply lookup_None; intro Hin; apply N3; apply in_map_iff in Hin as [[? e] [? ?]]; cbn in *; subst; now exists e.
  - right; right; left; exists e.
    destruct (declared_enum_or p t W) as (N1 & N2 & N3); [now exists e|].
    repeat split; auto; [apply In_lookup; [apply W|assumption]| |].
    + apply lookup_None; intro Hin; apply N3; apply in_map_iff in Hin as [[? x] [? ?]]; cbn in *; subst; now exists x.
    + apply lookup_None; intro Hin; apply in_map_iff in Hin as [[? x] [? ?]]; cbn in *; subst.
      destruct (wf_disjoint p W t) as (_ & _ & D); apply D; split; [now exists x|now exists e].
  - right; right; right; exists s.
    destruct (declared_message_or p t W) as (N1 & N2 & N3 & N4); [now exists s|].
    repeat split; auto; [now right| |].
    + right; split; [|apply In_lookup; [apply W|assumption]].
      apply lookup_None; intro Hin; apply N3; apply in_map_iff in Hin as [[? x] [? ?]]; cbn in *; subst; now exists x.
    + apply lookup_None; intro Hin; apply N4; apply in_map_iff in Hin as [[? e] [? ?]]; cbn in *; subst; now exists e.
Qed.

Lemma mem_lookup_none {A} k (d : list (string * A)) : lookup k d = None -> mem k d = false.
Proof. unfold mem; now intros ->. Qed.
Lemma mem_lookup_some {A} k (d : list (string * A)) a : lookup k d = Some a -> mem k d = true.
Proof. unfold mem; now intros ->. Qed.

Lemma simple_type_declares p d t s :
  lookup t NUMERIC_TYPE_SIZES = None -> String.eqb t "string" = false -> lookup t (p_enums p) = None ->
  (lookup t (p_structs p) = Some s \/ (lookup t (p_structs p) = None /\ lookup t (p_messages p) = Some s)) ->
  simple_type p (S d) t = simple_members p d (s_members s).
Proof.
  intros H1 H2 H3 H4; cbn [simple_type].
  rewrite (mem_lookup_none _ _ H1), H2, (mem_lookup_none _ _ H3).
  destruct H4 as [->|[-> ->]]; generalize (s_members s) as ms;
    induction ms as [|m ms IH]; cbn [simple_members]; try reflexivity; now rewrite IH.
Qed.

Lemma size_of_type_declares p d t s :
  lookup t NUMERIC_TYPE_SIZES = None -> String.eqb t "string" = false -> lookup t (p_enums p) = None ->
  (lookup t (p_structs p) = Some s \/ (lookup t (p_structs p) = None /\ lookup t (p_messages p) = Some s)) ->
  size_of_type p (S d) t = size_members p d (s_members s).
Proof.
  intros H1 H2 H3 H4; cbn [size_of_type].
  rewrite H1, H2, H3.
  destruct H4 as [->|[-> ->]]; generalize (s_members s) as ms;
    induction ms as [|m ms IH]; cbn [size_members]; try reflexivity; now rewrite IH.
Qed.

(** Facts about base types, needed to invert [fixed_size]. *)
Lemma base_size_lookup t n : base_size t n -> lookup t NUMERIC_TYPE_SIZES = Some n.
Proof. intro H; apply In_lookup; [|exact H]. apply has_dup_str_false; reflexivity. Qed.

Lemma base_size_In t n : base_size t n -> In t base_types.
Proof.
  intro H; rewrite <- numeric_keys; apply in_map_iff; now exists (t, n).
Qed.

Lemma fits_any_members p d t s :
  WF p -> declares p t s -> fits_any p d t = true ->
  exists d', d = S d' /\ forall m, In m (s_members s) -> fits_any p d' (v_type m) = true.
Proof.
  intros W D F; unfold fits_any in F.
  assert (DM : forall m d', In m (s_members s) -> fits p d' (v_type m) = true -> fits_any p d' (v_type m) = true).
  { intros m d' Hm Fm; unfold fits_any.
    destruct (lookup (v_type m) (p_structs p)) eqn:L; [assumption|].
    destruct (lookup (v_type m) (p_messages p)) as [x|] eqn:LM; [|reflexivity].
    exfalso; eapply (declared_not_message p (v_type m) W); [eapply (wf_member_types p W); eassumption|].
    exists x; now apply lookup_In. }
  destruct D as [D|D].
  - rewrite (In_lookup _ _ _ (wf_structs_nodup p W) D) in F.
    destruct d as [|d]; cbn in F; rewrite (In_lookup _ _ _ (wf_structs_nodup p W) D) in F; [discriminate|].
    exists d; split; [reflexivity|]; intros m Hm; apply DM; [assumption|].
    now apply (proj1 (forallb_forall _ _) F).
  - assert (L : lookup t (p_structs p) = None).
    { apply lookup_None; intro Hin; apply in_map_iff in Hin as [[? x] [? ?]]; cbn in *; subst.
      destruct (wf_disjoint p W t) as [Dj _]; apply Dj; split; [now exists x|now exists s]. }
    rewrite L, (In_lookup _ _ _ (wf_messages_nodup p W) D) in F.
    destruct d as [|d]; [discriminate|]; exists d; split; [reflexivity|].
    intros m Hm; apply DM; [assumption|]; now apply (proj1 (forallb_forall _ _) F).
Qed.

Lemma variable_not_known_fixed p : WF p ->
  (forall t n, fixed_size p t n -> ~ variable_size p t) /\
  (forall ms n, fixed_members p ms n ->
     forall m, In m ms -> v_list m = false /\ ~ variable_size p (v_type m)).
Proof.
  intro W.
  assert (Uniq : forall t s s', declares p t s -> declares p t s' -> s = s').
  { intros t s s' [H|H] [H'|H'].
    - apply (In_lookup _ _ _ (wf_structs_nodup p W)) in H, H'; congruence.
    - exfalso; destruct (wf_disjoint p W t) as [D _]; apply D; split; eexists; eassumption.
    - exfalso; destruct (wf_disjoint p W t) as [D _]; apply D; split; eexists; eassumption.
    - apply (In_lookup _ _ _ (wf_messages_nodup p W)) in H, H'; congruence. }
  assert (DName : forall t s, declares p t s -> ~ In t base_types /\ t <> "string"%string /\ ~ is_enum p t).
  { intros t s [H|H].
    - apply declared_struct_or; [apply W|now exists s].
    - destruct (declared_message_or p t W) as (? & ? & ? & ?); [now exists s|tauto]. }
  apply (fixed_mutind p
    (fun t n _ => ~ variable_size p t)
    (fun ms n _ => forall m, In m ms -> v_list m = false /\ ~ variable_size p (v_type m))).
  - intros t n B V; apply base_size_In in B; inversion V as [|t' s m D _ _|t' s m D _ _]; subst.
    + cbn in B; intuition discriminate.
    + now apply DName in D.
    + now apply DName in D.
  - intros t e n E B V; inversion V as [|t' s m D _ _|t' s m D _ _]; subst.
    + destruct (declared_enum_or p "string" W) as (_ & N & _); [now exists e|congruence].
    + apply DName in D; apply D; now exists e.
    + apply DName in D; apply D; now exists e.
  - intros t s n D F IH V; inversion V as [|t' s' m D' Hm Hl|t' s' m D' Hm Hv]; subst.
    + apply DName in D; tauto.
    + rewrite <- (Uniq _ _ _ D D') in *; destruct (IH m Hm); congruence.
    + rewrite <- (Uniq _ _ _ D D') in *; destruct (IH m Hm); contradiction.
  - intros m [].
  - intros m ms a b Hl Hf IH1 Hms IH2 m' [<-|Hm']; auto.
Qed.

Lemma enum_size p t e : WF p -> In (t, e) (p_enums p) ->
  exists n, lookup (e_encoding e) NUMERIC_TYPE_SIZES = Some n /\ base_size (e_encoding e) n.
Proof.
  intros W H; destruct (wf_enum_encoding p W t e H) as [[-> _]|[[-> _]|[-> _]]];
    eexists; (split; [reflexivity|unfold base_size; cbn; tauto]).
Qed.

(** [simple_type] answers, and the answer is right. *)
Lemma simple_type_ok p d t : WF p -> known_type p t -> fits_any p d t = true ->
  (simple_type p d t = Ret true /\ exists n, size_of_type p d t = Ret n /\ fixed_size p t n) \/
  (simple_type p d t = Ret false /\ variable_size p t).
Proof.
  intro W; revert t; induction d as [|d IH]; intros t K F;
    destruct (known_cases p t W K) as [[n [L B]]|[->|[[e [L [L1 [L2 [L3 L4]]]]]|[s [D [L [L1 [L2 L3]]]]]]]].
  1,5: left; split; [cbn; now rewrite (mem_lookup_some _ _ _ L)|];
    exists n; cbn [size_of_type]; rewrite L; split; [reflexivity|now constructor].
  1,4: right; split; [reflexivity|constructor].
  1,3: left; cbn [simple_type size_of_type];
    rewrite (mem_lookup_none _ _ L1), L2, (mem_lookup_some _ _ _ L), L1, L;
    split; [reflexivity|]; apply lookup_In in L;
    destruct (enum_size p t e W L) as [n [E B]]; rewrite E;
    exists n; split; [reflexivity|eapply fs_enum; eassumption].
  - exfalso; destruct (fits_any_members p 0 t s W D F) as [d' [? _]]; discriminate.
  - destruct (fits_any_members p (S d) t s W D F) as [d' [E Fm]]; injection E as <-.
    rewrite (simple_type_declares p d t s L1 L2 L3 L), (size_of_type_declares p d t s L1 L2 L3 L).
    assert (Km : forall m, In m (s_members s) -> known_type p (v_type m)).
    { intros m Hm; left; eapply (wf_member_types p W); eassumption. }
    assert (G : forall ms, incl ms (s_members s) ->
      (simple_members p d ms = Ret true /\ exists n, size_members p d ms = Ret n /\ fixed_members p ms n) \/
      (simple_members p d ms = Ret false /\ exists m, In m ms /\ (v_list m = true \/ variable_size p (v_type m)))).
    { induction ms as [|m ms IHms]; intro Inc; cbn [simple_members size_members].
      - left; split; [reflexivity|exists 0; split; [reflexivity|constructor]].
      - assert (Hm : In m (s_members s)) by (apply Inc; now left).
        assert (Inc' : incl ms (s_members s)) by (intros x Hx; apply Inc; now right).
        destruct (v_list m) eqn:VL.
        + right; cbn [pbind]; destruct (IHms Inc') as [[-> _]|[-> _]]; cbn [pbind andb];
            (split; [reflexivity|exists m; split; [now left|now left]]).
        + destruct (IH (v_type m) (Km m Hm) (Fm m Hm)) as [[E1 [a [E2 Fa]]]|[E1 Va]]; rewrite E1; cbn [pbind].
          * rewrite E2; cbn [pbind].
            destruct (IHms Inc') as [[-> [b [-> Fb]]]|[-> [m' [Hm' Vm']]]]; cbn [pbind andb].
            -- left; split; [reflexivity|exists (a + b); split; [reflexivity|now constructor]].
            -- right; split; [reflexivity|exists m'; split; [now right|assumption]].
          * right; destruct (IHms Inc') as [[-> _]|[-> _]]; cbn [pbind andb];
            (split; [reflexivity|exists m; split; [now left|now right]]). }
    destruct (G (s_members s) (incl_refl _)) as [[E1 [n [E2 Fn]]]|[E1 [m [Hm V]]]].
    + left; split; [assumption|exists n; split; [assumption|eapply fs_struct; eassumption]].
    + right; split; [assumption|destruct V as [V|V]; [eapply vs_list|eapply vs_struct]; eassumption].
Qed.

Lemma is_simple_spec p t : WF p -> known_type p t ->
  (is_simple p t = true /\ fixed_size p t (size_of p t)) \/
  (is_simple p t = false /\ variable_size p t).
Proof.
  intros W K; unfold is_simple, size_of.
  destruct (simple_type_ok p (depth_of p) t W K (WF_fits_any p t W)) as [[-> [n [-> F]]]|[-> V]];
    [left|right]; auto.
Qed.

Lemma is_simple_fixed p t : WF p -> known_type p t -> is_simple p t = true -> fixed_size p t (size_of p t).
Proof. intros W K H; destruct (is_simple_spec p t W K) as [[_ F]|[E _]]; [assumption|congruence]. Qed.

Lemma is_simple_variable p t : WF p -> known_type p t -> is_simple p t = false -> variable_size p t.
Proof. intros W K H; destruct (is_simple_spec p t W K) as [[E _]|[_ V]]; [congruence|assumption]. Qed.

Lemma fixed_is_simple p t n : WF p -> known_type p t -> fixed_size p t n -> is_simple p t = true.
Proof.
  intros W K H; destruct (is_simple_spec p t W K) as [[E _]|[_ V]]; [assumption|].
  now apply (proj1 (variable_not_known_fixed p W)) in H.
Qed.

(** Sizes are unique. *)
Lemma declares_unique p t s s' : WF p -> declares p t s -> declares p t s' -> s = s'.
Proof.
  intros W [H|H] [H'|H'].
  - apply (In_lookup _ _ _ (wf_structs_nodup p W)) in H, H'; congruence.
  - exfalso; destruct (wf_disjoint p W t) as [D _]; apply D; split; eexists; eassumption.
  - exfalso; destruct (wf_disjoint p W t) as [D _]; apply D; split; eexists; eassumption.
  - apply (In_lookup _ _ _ (wf_messages_nodup p W)) in H, H'; congruence.
Qed.

Lemma declares_names p t s : WF p -> declares p t s ->
  ~ In t base_types /\ t <> "string"%string /\ ~ is_enum p t.
Proof.
  intros W [H|H].
  - apply declared_struct_or; [apply W|now exists s].
  - destruct (declared_message_or p t W) as (? & ? & ? & ?); [now exists s|tauto].
Qed.

Lemma fixed_size_fun p : WF p ->
  (forall t n, fixed_size p t n -> forall n', fixed_size p t n' -> n = n') /\
  (forall ms n, fixed_members p ms n -> forall n', fixed_members p ms n' -> n = n').
Proof.
  intro W; apply (fixed_mutind p
    (fun t n _ => forall n', fixed_size p t n' -> n = n')
    (fun ms n _ => forall n', fixed_members p ms n' -> n = n')).
  - intros t n B n' F; inversion F as [? ? B'|? e ? E _|? s ? D _]; subst.
    + apply base_size_lookup in B, B'; congruence.
    + apply base_size_In in B; destruct (declared_enum_or p t W) as (N & _); [now exists e|contradiction].
    + apply base_size_In in B; apply (declares_names p t s W) in D; tauto.
  - intros t e n E B n' F; inversion F as [? ? B'|? e' ? E' B'|? s ? D _]; subst.
    + apply base_size_In in B'; destruct (declared_enum_or p t W) as (N & _); [now exists e|contradiction].
    + apply (In_lookup _ _ _ (wf_enums_nodup p W)) in E, E'; rewrite E in E'; injection E' as <-.
      apply base_size_lookup in B, B'; congruence.
    + apply (declares_names p t s W) in D; exfalso; apply D; now exists e.
  - intros t s n D M IH n' F; inversion F as [? ? B'|? e' ? E' B'|? s' ? D' M']; subst.
    + apply base_size_In in B'; apply (declares_names p t s W) in D; tauto.
    + apply (declares_names p t s W) in D; exfalso; apply D; now exists e'.
    + rewrite <- (declares_unique p t s s' W D D') in M'; auto.
  - intros n' F; now inversion F.
  - intros m ms a b VL Fa IHa Fb IHb n' F; inversion F as [|? ? a' b' VL' Fa' Fb']; subst.
    now rewrite (IHa _ Fa'), (IHb _ Fb').
Qed.

Lemma size_of_fixed p t n : WF p -> known_type p t -> fixed_size p t n -> size_of p t = n.
Proof.
  intros W K F; pose proof (is_simple_fixed p t W K (fixed_is_simple p t n W K F)) as F'.
  eapply (proj1 (fixed_size_fun p W)); eassumption.
Qed.
