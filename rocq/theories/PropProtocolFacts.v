(** Proofs for PropProtocol.v. *)
From Verif Require Export ProtocolFacts4 Samples.
Open Scope string_scope.

Ltac nodup_strings := repeat (constructor; [cbn; intuition discriminate|]); constructor.
Ltac toml_wf_tac :=
  repeat match goal with
  | |- _ /\ _ => split
  | |- NoDup _ => nodup_strings
  | |- True => exact I
  | |- toml_wf _ => progress cbn
  end.

Lemma annotated_loads : load 100 annotated_toml = Ret annotated.
Proof. vm_compute; reflexivity. Qed.
Lemma annotated_toml_wf : toml_wf (TTab annotated_toml).
Proof. toml_wf_tac. Qed.
Lemma annotated_accepted_proof : accepted annotated.
Proof. exists 100%nat, annotated_toml; split; [apply annotated_toml_wf|apply annotated_loads]. Qed.

Lemma C01_proof p n s m :
  accepted p -> declares p n s -> In m (s_members s) ->
  declared_type p (v_type m) /\ ~ is_message_name p (v_type m).
Proof.
  intros A D Hm; apply accepted_WF in A.
  pose proof (wf_member_types p A n s m D Hm) as T; split; [assumption|].
  exact (declared_not_message p _ A T).
Qed.

Lemma C02_proof p : accepted p -> acyclic p.
Proof. intro A; apply accepted_WF in A; apply A. Qed.

Lemma C03_never_proof fuel data p q :
  WF_local p -> describes data p -> ~ acyclic p -> load fuel data <> Ret q.
Proof.
  intros W D C H; apply load_inv in H as [B V].
  rewrite (build_doc data p W D) in B; injection B as <-.
  apply validate_inv in V as (_ & _ & _ & _ & V & _).
  apply C, (check_all_acyclic p fuel); [apply W| |exact V].
  intros n s Hin; now destruct (wf_struct_entry p W n s Hin).
Qed.

(** ** Small protocols given literally *)

Ltac in_cases :=
  repeat match goal with
  | H : In _ (_ :: _) |- _ => destruct H as [H|H]
  | H : In _ [] |- _ => destruct H
  | H : (_, _) = (_, _) |- _ => injection H as <- <-
  | H : _ \/ _ |- _ => destruct H as [H|H]
  | H : False |- _ => destruct H
  end.

Ltac no_space_tac :=
  let c := fresh "c" in let H := fresh "H" in
  intros c H; cbn in H; in_cases; subst; vm_compute; intuition (try discriminate; try lia).

Lemma name_ok_b n : negb (String.eqb n "") && negb (contains_whitespace n)
  && negb (in_strs (lower n) RESERVED_WORDS) = true -> name_ok n.
Proof.
  rewrite !andb_true_iff, !negb_true_iff; intros [[A B] C]; split; [now apply String.eqb_neq|split].
  - now apply contains_whitespace_false.
  - intro H; rewrite <- reserved_words_eq in H; apply in_strs_true in H; congruence.
Qed.

Ltac local_wf_tac :=
  constructor;
  [ nodup_strings | nodup_strings | nodup_strings
  | intros ? ? H; cbn in H; in_cases; split; reflexivity
  | intros ? ? H; cbn in H; in_cases; split; reflexivity
  | intros ? ? H; cbn in H; in_cases; reflexivity
  | intros ? [[? H]|[[? H]|[? H]]]; cbn in H; in_cases; apply name_ok_b; reflexivity
  | intros ?; repeat split; intros [[? H1] [? H2]]; cbn in H1, H2; in_cases; congruence
  | intros ? ? [H|H]; cbn in H; in_cases; cbn; nodup_strings
  | intros ? ? ? [H|H] Hm; cbn in H; in_cases; cbn in Hm; in_cases; subst;
    (split; [apply contains_whitespace_false; reflexivity|reflexivity])
  | intros ? ? ? [H|H] Hm; cbn in H; in_cases; cbn in Hm; in_cases; subst;
    apply in_valid_types; reflexivity
  | intros ? ? H; cbn in H; in_cases
  | intros ? ? ? H; cbn in H; in_cases
  | intros ? ? H; cbn in H; in_cases
  | cbn; tauto | cbn; tauto | cbn; lia ].

Lemma two_cycle_local : WF_local two_cycle.
Proof. local_wf_tac. Qed.
Lemma side_cycle_local : WF_local side_cycle.
Proof. local_wf_tac. Qed.

Lemma not_bracketed t : bracketed t = Some false -> ~ is_bracketed t.
Proof. intros H [u ->]; change ("[" +++ u +++ "]") with (String "[" (u +++ "]")) in H.
  unfold bracketed in H; cbn [first_char] in H.
  change (String "[" (u +++ "]")) with ((String "[" u) +++ "]") in H.
  rewrite last_char_app in H; cbn in H; discriminate.
Qed.

Ltac doc_struct_tac :=
  eexists; repeat split; cbn;
  repeat (constructor; [repeat split; [discriminate|apply not_bracketed; reflexivity]|]);
  constructor.

Lemma two_cycle_describes : describes two_cycle_toml two_cycle.
Proof.
  split.
  - exists []; cbn; repeat split; right; auto.
  - eexists _, [], []; split; [left; reflexivity|split; [right; auto|split; [right; auto|]]].
    split; [|split; constructor].
    repeat (constructor; [doc_struct_tac|]); constructor.
Qed.
Lemma side_cycle_describes : describes side_cycle_toml side_cycle.
Proof.
  split.
  - exists []; cbn; repeat split; right; auto.
  - eexists _, [], []; split; [left; reflexivity|split; [right; auto|split; [right; auto|]]].
    split; [|split; constructor].
    repeat (constructor; [doc_struct_tac|]); constructor.
Qed.

Lemma side_cycle_loops fuel : check_for_cycles side_cycle fuel (MkStruct "A" [MkVar "b" "B" false] false) = OutOfSteps.
Proof.
  change (check_for_cycles _ _ _) with (cycle_loop side_cycle "A" fuel ["B"]).
  assert (G : forall f, cycle_loop side_cycle "A" f ["B"] = OutOfSteps /\
                        cycle_loop side_cycle "A" f ["C"] = OutOfSteps).
  { induction f as [|f [IH1 IH2]]; [split; reflexivity|]; split; cbn; assumption. }
  apply G.
Qed.

Lemma C03_refuted_proof :
  exists data p, describes data p /\ WF_local p /\ ~ acyclic p /\
    forall fuel, load fuel data = OutOfSteps.
Proof.
  exists side_cycle_toml, side_cycle.
  split; [apply side_cycle_describes|split; [apply side_cycle_local|split]].
  - intro Ac; apply (Ac "B"); apply t_trans with "C"; apply t_step.
    + do 2 eexists; split; [right; left; reflexivity|]; split; [left; reflexivity|].
      split; [reflexivity|eexists; right; right; left; reflexivity].
    + do 2 eexists; split; [right; right; left; reflexivity|]; split; [left; reflexivity|].
      split; [reflexivity|eexists; right; left; reflexivity].
  - intro fuel; unfold load.
    rewrite (build_doc _ _ side_cycle_local side_cycle_describes); cbn [pbind].
    unfold validate.
    change (for_each (validate_struct side_cycle) (map snd (p_structs side_cycle))) with (@Ret unit tt).
    change (for_each (validate_struct side_cycle) (map snd (p_messages side_cycle))) with (@Ret unit tt).
    change (for_each (validate_enum side_cycle) (map snd (p_enums side_cycle))) with (@Ret unit tt).
    cbn [pbind].
    change (raise_if _ ValueError) with (@Ret unit tt); cbn [pbind].
    cbn [map snd p_structs side_cycle for_each].
    fold side_cycle; rewrite side_cycle_loops; reflexivity.
Qed.

Lemma two_cycle_contains x y : contains two_cycle x y ->
  (x = "C" /\ y = "Leaf") \/ (x = "B" /\ y = "C") \/ (x = "C" /\ y = "B").
Proof.
  intros (s & m & Hs & Hm & <- & [t Ht]); cbn in Hs; in_cases; cbn in Hm; in_cases; subst; cbn in *; auto.
  all: intuition discriminate.
Qed.

Lemma C03_partial_met_proof :
  WF_local two_cycle /\ describes two_cycle_toml two_cycle /\
  (exists l1 a s l2, p_structs two_cycle = (l1 ++ (a, s) :: l2)%list /\ l1 <> [] /\
     (forall b, In b (map fst l1) -> reaches_no_cycle two_cycle b) /\
     only_own_cycles two_cycle a) /\
  load 10 two_cycle_toml = Raise RecursionError.
Proof.
  split; [apply two_cycle_local|split; [apply two_cycle_describes|split; [|vm_compute; reflexivity]]].
  exists [("Leaf", MkStruct "Leaf" [MkVar "n" "byte" false] false)], "B",
    (MkStruct "B" [MkVar "c" "C" false] false),
    [("C", MkStruct "C" [MkVar "leaf" "Leaf" false; MkVar "b" "B" true] false)].
  split; [reflexivity|split; [discriminate|split]].
  - intros b [<-|[]] x Hx Cy.
    assert (E : x = "Leaf").
    { apply clos_rt_rt1n in Hx; destruct Hx as [|y z Hy _]; [reflexivity|].
      apply two_cycle_contains in Hy; intuition discriminate. }
    subst x; apply clos_trans_head in Cy as [z [Hz _]].
    apply two_cycle_contains in Hz; intuition discriminate.
  - split.
    + apply t_trans with "C"; apply t_step.
      * do 2 eexists; split; [right; left; reflexivity|]; split; [left; reflexivity|].
        split; [reflexivity|eexists; right; right; left; reflexivity].
      * do 2 eexists; split; [right; right; left; reflexivity|]; split; [right; left; reflexivity|].
        split; [reflexivity|eexists; right; left; reflexivity].
    + intros b _ Cy.
      assert (G : forall x y, clos_trans _ (contains_avoiding two_cycle "B") x y -> x = "C" /\ y = "Leaf").
      { intros x y H; induction H as [x y (H & Nx & Ny)|x y z _ IH1 _ IH2].
        - apply two_cycle_contains in H; intuition congruence.
        - destruct IH1, IH2; congruence. }
      apply G in Cy as [-> Cy]; discriminate.
Qed.

Lemma C04_proof p : accepted p ->
  (forall n, is_struct p n \/ is_message_name p n \/ is_enum p n -> name_ok n) /\
  (forall n, ~ (is_struct p n /\ is_message_name p n) /\ ~ (is_struct p n /\ is_enum p n) /\
             ~ (is_message_name p n /\ is_enum p n)) /\
  NoDup (map fst (p_structs p)) /\ NoDup (map fst (p_messages p)) /\ NoDup (map fst (p_enums p)) /\
  (forall n s, declares p n s ->
     NoDup (map v_name (s_members s)) /\ forall m, In m (s_members s) -> no_space (v_name m)) /\
  (forall n e v, In (n, e) (p_enums p) -> In v (map fst (e_values e)) -> no_space v).
Proof.
  intro A; apply accepted_WF in A.
  split; [apply A|split; [apply A|split; [apply A|split; [apply A|split; [apply A|split]]]]].
  - intros n s D; split; [eapply (wf_member_nodup p A); eassumption|].
    intros m Hm; eapply (wf_member_names p A); eassumption.
  - intros n e v H1 H2; eapply (wf_enum_value_names p A); eassumption.
Qed.

Lemma Forall2_nth {A B} (P : A -> B -> Prop) l1 l2 i x :
  Forall2 P l1 l2 -> nth_error l1 i = Some x -> exists y, nth_error l2 i = Some y /\ P x y.
Proof.
  intro F; revert i; induction F as [|a b l1 l2 H F IH]; intros [|i] E; cbn in *; try discriminate.
  - injection E as <-; eauto.
  - auto.
Qed.

Lemma C04_dup_proof fuel data p l key :
  key = "structs" \/ key = "messages" ->
  load fuel data = Ret p -> lookup key data = Some (TArr l) ->
  forall i j a b n, i <> j -> nth_error l i = Some (TTab a) -> nth_error l j = Some (TTab b) ->
  lookup "_name" a = Some (TStr n) -> lookup "_name" b = Some (TStr n) -> False.
Proof.
  intros Hk H L.
  assert (G : exists im r, load_structs im l [] = Ret r).
  { apply load_inv in H as [Hb _]; unfold build in Hb; pinv.
    destruct Hk as [-> | ->]; unfold section in *; rewrite L in *; cbn in *;
      repeat match goal with E : Ret _ = Ret _ |- _ => injection E as <- end; eauto. }
  destruct G as (im & r & G); apply load_structs_inv in G as (new & E & F & N).
  cbn in E; subst r; specialize (N (NoDup_nil _)).
  intros i j a b n Ne Ha Hb La Lb.
  destruct (Forall2_nth _ _ _ _ _ F Ha) as [[na sa] [Ea [Ba Na]]].
  destruct (Forall2_nth _ _ _ _ _ F Hb) as [[nb sb] [Eb [Bb Nb]]].
  cbn [fst snd] in *; apply build_struct_inv in Ba as (ia & Ea' & _ & La' & _).
  apply build_struct_inv in Bb as (ib & Eb' & _ & Lb' & _).
  injection Ea' as <-; injection Eb' as <-.
  assert (na = n) by congruence; assert (nb = n) by congruence; subst na nb.
  apply Ne; eapply (proj1 (NoDup_nth_error _) N).
  - rewrite map_length; apply nth_error_Some; congruence.
  - rewrite (map_nth_error fst _ _ Ea), (map_nth_error fst _ _ Eb); cbn; congruence.
Qed.

Lemma C04_enum_refuted_proof :
  exists data p l a b n, load 10 data = Ret p /\ lookup "enums" data = Some (TArr l) /\
    nth_error l 0 = Some (TTab a) /\ nth_error l 1 = Some (TTab b) /\
    lookup "_name" a = Some (TStr n) /\ lookup "_name" b = Some (TStr n) /\
    lookup "_values" a <> lookup "_values" b.
Proof.
  exists twin_enums_toml; do 5 eexists; split; [vm_compute; reflexivity|].
  repeat split; try reflexivity; cbn; discriminate.
Qed.

Lemma C04_member_refuted_proof :
  exists p n s m, accepted p /\ declares p n s /\ In m (s_members s) /\
    In (v_name m) (base_types ++ ["string"; "list"]).
Proof.
  do 4 eexists; split; [exists 10%nat, member_byte_toml; split; [toml_wf_tac|vm_compute; reflexivity]|].
  split; [right; left; reflexivity|split; [left; reflexivity|cbn; tauto]].
Qed.

Lemma C05_faithful_proof data p q fuel :
  WF p -> describes data p -> load fuel data = Ret q -> q = p.
Proof.
  intros W D H; apply load_inv in H as [B _]; rewrite (build_doc data p W D) in B; now injection B.
Qed.

Lemma annotated_describes : describes annotated_toml annotated.
Proof.
  split.
  - eexists; split; [left; reflexivity|]; split; [left; reflexivity|]; split; [left; reflexivity|].
    split; [reflexivity|]; eexists; split; [reflexivity|apply contains_whitespace_false; reflexivity].
  - do 3 eexists; split; [left; reflexivity|split; [left; reflexivity|split; [left; reflexivity|]]].
    split; [|split].
    + repeat (constructor; [doc_struct_tac|]); constructor.
    + repeat (constructor; [doc_struct_tac|]); constructor.
    + constructor; [|constructor; [|constructor]].
      * do 2 eexists; repeat split; left; split; reflexivity.
      * do 2 eexists; repeat split; right.
        repeat (constructor; [eexists; repeat split|]); constructor.
Qed.

Lemma C05_met_proof : WF annotated /\ describes annotated_toml annotated /\
  load 100 annotated_toml = Ret annotated.
Proof.
  split; [apply accepted_WF, annotated_accepted_proof|split; [apply annotated_describes|apply annotated_loads]].
Qed.

Lemma C06_proof p n e :
  accepted p -> In (n, e) (p_enums p) -> smallest_encoding (map snd (e_values e)) (e_encoding e).
Proof. intros A; apply accepted_WF in A; apply (wf_enum_encoding p A). Qed.

Lemma C06_large_proof p n e z :
  accepted p -> In (n, e) (p_enums p) -> In z (map snd (e_values e)) ->
  -2147483648 <= z <= 2147483647.
Proof.
  intros A H Hz; destruct (C06_proof p n e A H) as [[_ F]|[[_ [F _]]|[_ [F _]]]];
    specialize (F z Hz); lia.
Qed.

Lemma number_from_nth k l i v :
  nth_error l i = Some v -> nth_error (number_from k l) i = Some (v, k + Z.of_nat i).
Proof.
  revert k i; induction l as [|x l IH]; intros k [|i] H; cbn in H; try discriminate.
  - injection H as ->; cbn; now rewrite Z.add_0_r.
  - cbn [number_from nth_error]; rewrite (IH (k + 1) i H).
    now replace (k + 1 + Z.of_nat i) with (k + Z.of_nat (S i)) by lia.
Qed.

Lemma tstrs_map l : tstrs (map TStr l) = l.
Proof. induction l; cbn; congruence. Qed.

Lemma C06_numbered_proof n names e :
  enum_init n (map TStr names) = Ret e ->
  forall i v, nth_error names i = Some v -> nth_error (e_values e) i = Some (v, Z.of_nat i).
Proof.
  unfold enum_init; intros H i v Hn.
  assert (A : forallb is_tstr (map TStr names) = true) by (clear; induction names; auto).
  rewrite A, tstrs_map in H; destruct (has_dup_str names); cbn [raise_if pbind] in H; [discriminate|].
  destruct (zmin _); [|discriminate]; destruct (zmax _); [|discriminate]; pinv.
  cbn [e_values]; rewrite (number_from_nth 0 names i v Hn); f_equal.
Qed.

Lemma C06_met_proof :
  In ("TeamRole", MkEnum "TeamRole"
        [("Minion", 256); ("Ally", 512); ("Leader", 1024); ("Traitor", -1)] "int16")
     (p_enums annotated) /\
  enum_init "E" (map TStr ["a"; "b"; "c"]) = Ret (MkEnum "E" [("a", 0); ("b", 1); ("c", 2)] "byte").
Proof. split; [cbn; auto|reflexivity]. Qed.

Lemma C07_proof p : accepted p -> (List.length (p_messages p) <= 255)%nat.
Proof. intro A; apply accepted_WF in A; apply A. Qed.

Lemma C08_proof p t :
  accepted p -> (declared_type p t \/ is_message_name p t) ->
  (is_simple p t = true /\ fixed_size p t (size_of p t) /\ ~ variable_size p t) \/
  (is_simple p t = false /\ variable_size p t /\ forall n, ~ fixed_size p t n).
Proof.
  intros A K; apply accepted_WF in A.
  destruct (is_simple_spec p t A K) as [[E F]|[E V]]; [left|right]; repeat split; auto.
  - eapply (proj1 (variable_not_known_fixed p A)); eassumption.
  - intros n F; now apply (proj1 (variable_not_known_fixed p A)) in F.
Qed.

Lemma C08_met_proof :
  is_simple annotated "Color" = true /\ size_of annotated "Color" = 16 /\
  is_simple annotated "Spectrum" = false /\ is_simple annotated "Vector3Message" = true.
Proof. repeat split; vm_compute; reflexivity. Qed.
