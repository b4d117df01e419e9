(** When the cycle check reports a cycle, and when it does not. *)
From Verif Require Export ProtocolFacts3.

Lemma path_nodup_local p t l : reaches_no_cycle p t -> path p (t :: l) -> NoDup (t :: l).
Proof.
  revert t; induction l as [|b l IH]; intros t NC Hp; [repeat constructor; now intros []|constructor].
  - intro Hin; apply (NC t); [apply rt_refl|]; eapply path_reach; eassumption.
  - apply (IH b); [|apply Hp].
    intros x Hx; apply NC; eapply rt_trans; [apply rt_step, Hp|exact Hx].
Qed.

Lemma fits_local p t :
  NoDup (map fst (p_structs p)) -> reaches_no_cycle p t ->
  fits p (List.length (p_structs p)) t = true.
Proof.
  intros ND Ac; destruct (fits p _ t) eqn:E; [reflexivity|exfalso].
  apply fits_false_path in E as [l [Hl [Hp Hi]]]; [|assumption].
  pose proof (path_nodup_local _ _ _ Ac Hp) as NDl.
  assert (Inc : incl (t :: l) (map fst (p_structs p))).
  { intros x Hx; destruct (Hi x Hx) as [s Hs]; apply in_map_iff; now exists (x, s). }
  pose proof (NoDup_incl_length NDl Inc) as Len; rewrite map_length in Len; cbn in Len; lia.
Qed.

(** The protocol with the members of struct [a] removed. *)
Definition cut_entry (a : string) (ns : string * struct) : string * struct :=
  if String.eqb (fst ns) a then (fst ns, MkStruct (s_name (snd ns)) [] (s_is_message (snd ns))) else ns.
Definition cut (p : protocol) (a : string) : protocol :=
  MkProtocol (p_namespace p) (p_list_size_type p) (p_string_size_type p)
    (map (cut_entry a) (p_structs p)) (p_messages p) (p_enums p).

Lemma cut_keys p a : map fst (p_structs (cut p a)) = map fst (p_structs p).
Proof.
  cbn; rewrite map_map; apply map_ext; intros [n s]; unfold cut_entry; cbn.
  now destruct (String.eqb n a).
Qed.

Lemma cut_lookup p a t : t <> a -> lookup t (p_structs (cut p a)) = lookup t (p_structs p).
Proof.
  intro Ne; cbn; induction (p_structs p) as [|[n s] l IH]; [reflexivity|]; cbn [map].
  unfold cut_entry at 1; cbn [fst snd]; destruct (String.eqb_spec n a) as [->|Na]; cbn [lookup].
  - apply String.eqb_neq in Ne; rewrite Ne; exact IH.
  - destruct (String.eqb t n); [reflexivity|exact IH].
Qed.

Lemma cut_struct p a t : is_struct (cut p a) t <-> is_struct p t.
Proof.
  assert (E : forall q, is_struct q t <-> In t (map fst (p_structs q))).
  { intro q; unfold is_struct; split.
    - intros [s H]; apply in_map_iff; now exists (t, s).
    - intro H; apply in_map_iff in H as [[n s] [<- H]]; now exists s. }
  now rewrite !E, cut_keys.
Qed.

Lemma cut_contains p a x y :
  NoDup (map fst (p_structs p)) -> contains (cut p a) x y -> contains p x y /\ x <> a.
Proof.
  intros ND (s & m & Hs & Hm & E & St).
  assert (Nx : x <> a).
  { intros ->; cbn in Hs; apply in_map_iff in Hs as [[n s'] [Es Hs]].
    unfold cut_entry in Es; cbn in Es; destruct (String.eqb_spec n a) as [->|Na].
    - injection Es as <-; now cbn in Hm.
    - injection Es as -> ->; congruence. }
  split; [|assumption].
  apply In_lookup in Hs; [|now rewrite cut_keys].
  rewrite cut_lookup in Hs by assumption; apply lookup_In in Hs.
  exists s, m; split; [assumption|split; [assumption|split; [assumption|]]]; now apply (cut_struct p a).
Qed.

(** Taking one struct off the work list either ends in its removal, or in the
    report, after a number of iterations that does not depend on the rest. *)
Lemma cycle_loop_pop_or_report p start d t :
  NoDup (map fst (p_structs p)) ->
  fits (cut p start) d t = true -> is_struct p t ->
  exists n, (forall fuel rest, cycle_loop p start (n + fuel) (t :: rest) = cycle_loop p start fuel rest) \/
            (forall fuel rest, cycle_loop p start (n + fuel) (t :: rest) = Raise RecursionError).
Proof.
  intro ND; revert t; induction d as [|d IH]; intros t F St.
  all: destruct (String.eqb_spec t start) as [->|Ne];
    [exists 1%nat; right; intros; cbn; now rewrite String.eqb_refl|].
  all: apply is_struct_mem in St; unfold mem in St;
    destruct (lookup t (p_structs p)) as [s|] eqn:L; try discriminate;
    cbn in F; pose proof (cut_lookup p start t Ne) as CL; cbn in CL; rewrite CL, L in F; try discriminate.
  destruct (existsb (String.eqb start) (map v_type (s_members s))) eqn:X.
  { exists 1%nat; right; intros; cbn [plus cycle_loop].
    apply String.eqb_neq in Ne; rewrite Ne, L, push_members_spec, X; reflexivity. }
  assert (Members : forall l, incl l (struct_types p s) ->
            exists n, (forall fuel rest, cycle_loop p start (n + fuel) (l ++ rest) = cycle_loop p start fuel rest) \/
                      (forall fuel rest, cycle_loop p start (n + fuel) (l ++ rest) = Raise RecursionError)).
  { induction l as [|t' l IHl]; intro Inc; [exists 0%nat; left; reflexivity|].
    destruct IHl as [n2 H2]; [intros x Hx; apply Inc; now right|].
    assert (Ht' : In t' (struct_types p s)) by (apply Inc; now left).
    unfold struct_types in Ht'; apply filter_In in Ht' as [Ht' M'].
    apply in_map_iff in Ht' as [m [Em Hm]].
    destruct (IH t') as [n1 H1].
    - subst t'; now apply (proj1 (forallb_forall _ _) F).
    - now apply is_struct_mem.
    - destruct H1 as [H1|H1].
      + exists (n1 + n2)%nat; destruct H2 as [H2|H2]; [left|right]; intros fuel rest;
          rewrite <- Nat.add_assoc; cbn [app]; rewrite H1; apply H2.
      + exists n1; right; intros; apply H1. }
  destruct (Members (rev (struct_types p s))) as [n Hn].
  { intros x Hx; now apply in_rev. }
  apply String.eqb_neq in Ne.
  exists (S n); destruct Hn as [Hn|Hn]; [left|right]; intros fuel rest; cbn [plus cycle_loop];
    rewrite Ne, L, push_members_spec, X; cbn [pbind]; apply Hn.
Qed.

Lemma cycle_loop_settles p start l :
  NoDup (map fst (p_structs p)) ->
  (forall t, In t l -> is_struct p t /\ exists d, fits (cut p start) d t = true) ->
  exists n, (forall fuel, (n <= fuel)%nat -> cycle_loop p start fuel l = Ret tt) \/
            (forall fuel, (n <= fuel)%nat -> cycle_loop p start fuel l = Raise RecursionError).
Proof.
  intros ND; induction l as [|t l IH]; intro H.
  - exists 0%nat; left; intros [|fuel] _; reflexivity.
  - destruct IH as [n2 H2]; [intros; apply H; now right|].
    destruct (H t (or_introl eq_refl)) as [St [d F]].
    destruct (cycle_loop_pop_or_report p start d t ND F St) as [n1 [H1|H1]].
    + exists (n1 + n2)%nat; destruct H2 as [H2|H2]; [left|right]; intros fuel Hf;
        replace fuel with (n1 + (fuel - n1))%nat by lia; rewrite H1; apply H2; lia.
    + exists n1; right; intros fuel Hf; replace fuel with (n1 + (fuel - n1))%nat by lia; apply H1.
Qed.

Lemma clos_trans_mono {A} (R S : relation A) x y :
  (forall a b, R a b -> S a b) -> clos_trans _ R x y -> clos_trans _ S x y.
Proof. intros I H; induction H; [apply t_step; auto|eapply t_trans; eauto]. Qed.
Lemma clos_rt_mono {A} (R S : relation A) x y :
  (forall a b, R a b -> S a b) -> clos_refl_trans _ R x y -> clos_refl_trans _ S x y.
Proof. intros I H; induction H; [apply rt_step; auto|apply rt_refl|eapply rt_trans; eauto]. Qed.

(** A cycle of the cut protocol avoids the cut struct. *)
Lemma cut_cycle p a b :
  NoDup (map fst (p_structs p)) ->
  clos_trans _ (contains (cut p a)) b b -> clos_trans _ (contains_avoiding p a) b b.
Proof.
  intros ND H.
  assert (G : forall x y, clos_trans_1n _ (contains (cut p a)) x y -> y <> a ->
              clos_trans _ (contains_avoiding p a) x y).
  { intros x y Hxy; induction Hxy as [x y Hs|x y z Hs Hr IH]; intro Na.
    - apply t_step; destruct (cut_contains p a x y ND Hs); repeat split; auto; congruence.
    - eapply t_trans; [|apply IH; assumption].
      destruct (cut_contains p a x y ND Hs) as [C Nx].
      assert (Ny : y <> a).
      { destruct Hr as [z Hr|y' z Hr _]; now destruct (cut_contains p a _ _ ND Hr). }
      apply t_step; repeat split; auto. }
  apply clos_trans_t1n in H; apply G; [assumption|].
  inversion H as [z H'|y z H' _]; subst; now destruct (cut_contains p a _ _ ND H').
Qed.

Lemma check_reports p a s :
  WF_local p -> In (a, s) (p_structs p) -> only_own_cycles p a ->
  exists n, forall fuel, (n <= fuel)%nat -> check_for_cycles p fuel s = Raise RecursionError.
Proof.
  intros W Hin [Cy Own]; pose proof (wf_structs_nodup p W) as ND.
  destruct (wf_struct_entry p W a s Hin) as [Nm _].
  destruct (cycle_loop_settles p a (rev (struct_types p s)) ND) as [n [H|H]].
  - intros t Ht; rewrite <- in_rev in Ht; unfold struct_types in Ht.
    apply filter_In in Ht as [Ht M]; apply in_map_iff in Ht as [m [Em Hm]].
    apply is_struct_mem in M; split; [assumption|].
    exists (List.length (p_structs (cut p a))); apply fits_local; [now rewrite cut_keys|].
    intros b Hb Hc; apply (Own b); [|now apply cut_cycle].
    eapply rt_trans; [apply rt_step; exists s, m; eauto|].
    eapply clos_rt_mono; [|exact Hb]; intros x y Hxy; now apply (cut_contains p a).
  - exfalso; apply clos_trans_head in Cy as [b [Hab Hba]].
    pose proof Hab as Hab'; apply contains_types in Hab' as [s' [L Hb]]; [|assumption].
    apply (In_lookup _ _ _ ND) in Hin; rewrite Hin in L; injection L as <-.
    eapply (cycle_loop_Ret p a n _ ND (H n (Nat.le_refl n)) b); [|exact Hba|reflexivity].
    now apply -> in_rev.
  - exists n; intros fuel Hf; unfold check_for_cycles; rewrite Nm; now apply H.
Qed.

(** A struct that reaches no cycle passes the check. *)
Lemma check_passes p a s :
  WF_local p -> In (a, s) (p_structs p) -> reaches_no_cycle p a ->
  exists n, forall fuel, (n <= fuel)%nat -> check_for_cycles p fuel s = Ret tt.
Proof.
  intros W Hin NC; pose proof (wf_structs_nodup p W) as ND.
  destruct (wf_struct_entry p W a s Hin) as [Nm _].
  destruct (cycle_loop_settles p a (rev (struct_types p s)) ND) as [n [H|H]].
  - intros t Ht; rewrite <- in_rev in Ht; unfold struct_types in Ht.
    apply filter_In in Ht as [Ht M]; apply in_map_iff in Ht as [m [Em Hm]].
    apply is_struct_mem in M; split; [assumption|].
    exists (List.length (p_structs (cut p a))); apply fits_local; [now rewrite cut_keys|].
    intros b Hb Hc; apply (NC b).
    + eapply rt_trans; [apply rt_step; exists s, m; eauto|].
      eapply clos_rt_mono; [|exact Hb]; intros x y Hxy; now apply (cut_contains p a).
    + eapply clos_trans_mono; [|exact Hc]; intros x y Hxy; now apply (cut_contains p a).
  - exists n; intros fuel Hf; unfold check_for_cycles; rewrite Nm; now apply H.
  - exfalso.
    (* a report means that the start can be reached from the work list *)
    assert (G : forall fuel l, (forall t, In t l -> is_struct p t /\ clos_trans _ (contains p) a t) ->
                cycle_loop p a fuel l <> Raise RecursionError).
    { induction fuel as [|fuel IH]; intros [|t l] Hl; cbn; try discriminate.
      destruct (Hl t (or_introl eq_refl)) as [St Rt].
      destruct (String.eqb_spec t a) as [->|Ne]; [now destruct (NC a (rt_refl _ _ _))|].
      destruct (lookup t (p_structs p)) as [s'|] eqn:L; [|discriminate].
      rewrite push_members_spec.
      destruct (existsb _ _) eqn:X; cbn [pbind].
      - exfalso; apply existsb_exists in X as [x [Hx Ex]]; apply String.eqb_eq in Ex; subst x.
        apply in_map_iff in Hx as [m [Em Hm]].
        apply (NC a (rt_refl _ _ _)); eapply t_trans; [exact Rt|apply t_step].
        exists s', m; repeat split; auto; [now apply lookup_In|now exists s].
      - apply IH; intros u Hu; apply in_app_or in Hu as [Hu|Hu]; [|apply Hl; now right].
        rewrite <- in_rev in Hu.
        assert (C : contains p t u) by (apply contains_types; [assumption|now exists s']).
        split; [now destruct C as (? & ? & _ & _ & _ & ?)|eapply t_trans; [exact Rt|now apply t_step]]. }
    apply (G n (rev (struct_types p s))); [|now apply H].
    intros u Hu; rewrite <- in_rev in Hu.
    assert (C : contains p a u) by (apply contains_types; [assumption|exists s; split; [now apply In_lookup|assumption]]).
    split; [now destruct C as (? & ? & _ & _ & _ & ?)|now apply t_step].
Qed.

(** The whole loader. *)
Lemma load_reports data p l1 a s l2 :
  WF_local p -> describes data p ->
  p_structs p = l1 ++ (a, s) :: l2 ->
  (forall b, In b (map fst l1) -> reaches_no_cycle p b) ->
  only_own_cycles p a ->
  exists n, forall fuel, (n <= fuel)%nat -> load fuel data = Raise RecursionError.
Proof.
  intros W D E H1 Ha.
  assert (G : exists n, forall fuel, (n <= fuel)%nat ->
            for_each (check_for_cycles p fuel) (map snd (l1 ++ (a, s) :: l2)) = Raise RecursionError).
  { assert (Inc : incl l1 (p_structs p)) by (rewrite E; intros x Hx; apply in_or_app; now left).
    clear D; revert Inc H1; generalize l1 at 1 2 3 as l; induction l as [|[b t] l IH]; intros Inc Hl; cbn [app map snd for_each].
    - destruct (check_reports p a s W) as [n Hn]; [rewrite E; apply in_or_app; right; now left|assumption|].
      exists n; intros fuel Hf; cbn [app map snd for_each]; now rewrite Hn.
    - destruct IH as [n2 H2]; [intros x Hx; apply Inc; now right|intros; apply Hl; now right|].
      destruct (check_passes p b t W) as [n1 Hn1]; [apply Inc; now left|apply Hl; now left|].
      exists (Nat.max n1 n2); intros fuel Hf; cbn [app map snd for_each].
      rewrite Hn1 by lia; cbn [pbind]; apply H2; lia. }
  destruct G as [n Hn]; exists n; intros fuel Hf.
  unfold load; rewrite (build_doc data p W D); cbn [pbind]; unfold validate.
  replace (for_each (validate_struct p) (map snd (p_structs p))) with (@Ret unit tt).
  2:{ symmetry; apply for_each_Ret; intros s' Hs; apply in_map_iff in Hs as [[n' s''] [<- Hs]].
      eapply validate_struct_ok; [assumption|left; eassumption]. }
  replace (for_each (validate_struct p) (map snd (p_messages p))) with (@Ret unit tt).
  2:{ symmetry; apply for_each_Ret; intros s' Hs; apply in_map_iff in Hs as [[n' s''] [<- Hs]].
      eapply validate_struct_ok; [assumption|right; eassumption]. }
  replace (for_each (validate_enum p) (map snd (p_enums p))) with (@Ret unit tt).
  2:{ symmetry; apply for_each_Ret; intros s' Hs; apply in_map_iff in Hs as [[n' s''] [<- Hs]].
      eapply validate_enum_ok; eassumption. }
  pose proof (wf_message_count p W) as C; apply Nat.ltb_ge in C; rewrite C.
  cbn [raise_if pbind]; rewrite E, Hn by assumption; reflexivity.
Qed.
