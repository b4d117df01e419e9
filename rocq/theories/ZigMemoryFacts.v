(** What Zig code allocates and releases. *)
From Coq Require Import Permutation.
From Verif Require Export ZigMemorySpec BlocksFacts ZigFacts.
Open Scope string_scope.
Open Scope Z_scope.
Open Scope list_scope.

Section Memory.
Variable room : string -> Z.
Variable hollow : string -> bool.
Variable p : protocol.
Hypothesis W : WF p.
Variable inp : list byte.

Lemma zm_simple_num t k : num_of t = Some k -> is_simple p t = true.
Proof.
  intro K; apply fixed_is_simple with (n := Z.of_nat (num_size k)); auto.
  - left; left; apply num_of_base; eauto.
  - constructor; now apply num_of_base_size.
Qed.
Lemma zm_simple_enum t e : In (t, e) (p_enums p) -> is_simple p t = true.
Proof.
  intro B; destruct (enum_encoding_num p W t e B) as (k & K & _).
  apply fixed_is_simple with (n := Z.of_nat (num_size k)); auto.
  - left; right; right; right; exists e; exact B.
  - eapply fs_enum; [exact B|]; now apply num_of_base_size.
Qed.
Lemma zm_string : is_simple p "string" = false.
Proof.
  destruct (is_simple p "string") eqn:E; [|reflexivity]; exfalso.
  assert (K : known_type p "string") by (left; right; now left).
  pose proof (is_simple_fixed p _ W K E) as F.
  apply (proj1 (variable_not_known_fixed p W)) in F; apply F; constructor.
Qed.

(** Memory after success, and after failure. *)
Definition grows (s s' : zstate) (ids : option (list nat)) : Prop :=
  z_freed s' = z_freed s /\ (z_next s <= z_next s')%nat /\
  exists l, ids = Some l /\ Permutation l (blocks (z_next s) (z_next s')).
Definition broke (s s' : zstate) : Prop :=
  (z_next s <= z_next s')%nat /\
  exists l, z_freed s' = z_freed s ++ l /\ part (z_next s) (z_next s') l /\
            (tidy p -> Permutation l (blocks (z_next s) (z_next s'))).

Lemma grows_none s s' : z_freed s' = z_freed s -> z_next s' = z_next s -> grows s s' (Some []).
Proof. intros F N; repeat split; auto; [lia|]; exists []; rewrite N, blocks_none; auto. Qed.
Lemma broke_same s s' : z_freed s' = z_freed s -> z_next s' = z_next s -> broke s s'.
Proof.
  intros F N; split; [lia|]; exists []; rewrite app_nil_r, N; repeat split; auto; [apply part_none|].
  now rewrite blocks_none.
Qed.

Definition call_fits (f : nat) (call : string -> zstate -> zout) : Prop :=
  forall t d s, declares p t d ->
  match call t s with
  | ZDone c => grows s c (zig_drop p f t (ZObj (z_obj c)))
  | ZFail c => broke s c
  | _ => True
  end.

Lemma zm_string_ok s :
  match z_string p inp s with
  | (ZDone s', v) => grows s s' (zig_free v) /\ z_env s' = z_env s
  | (ZFail s', _) => s' = s
  | _ => True
  end.
Proof.
  unfold z_string; destruct (zig_str p inp (z_pos s)) as [b q| |]; auto.
  destruct b; cbn [z_alloc]; (split; [|reflexivity]); cbn [zig_free].
  - now apply grows_none.
  - split; [reflexivity|]; cbn [z_next z_at]; split; [lia|]; exists [z_next s]; split; [reflexivity|]; now rewrite blocks_next.
Qed.

Section Level.
Variable f : nat.
Variable call : string -> zstate -> zout.
Hypothesis CALL : call_fits f call.

Lemma zm_loop_ok t : declared_type p t -> forall n acc s a l0,
  (a <= z_next s)%nat -> oconcat (map (zig_drop p f t) acc) = Some l0 -> Permutation l0 (blocks a (z_next s)) ->
  match z_loop p inp call t n acc s with
  | (ZDone s', l) => z_freed s' = z_freed s /\ (a <= z_next s')%nat /\ z_env s' = z_env s /\
      exists ids, oconcat (map (zig_drop p f t) l) = Some ids /\ Permutation ids (blocks a (z_next s'))
  | (ZFail s', made) => exists b ids l, (a <= b <= z_next s')%nat /\
      oconcat (map (zig_drop p f t) made) = Some ids /\ Permutation ids (blocks a b) /\
      z_freed s' = z_freed s ++ l /\ part b (z_next s') l /\ (tidy p -> Permutation l (blocks b (z_next s')))
  | _ => True
  end.
Proof.
  intros T; induction n as [|n IH]; intros acc s a l0 L E P; cbn [z_loop].
  { repeat split; auto; eauto. }
  assert (STOP : forall s', z_freed s' = z_freed s -> z_next s' = z_next s ->
    exists b ids l, (a <= b <= z_next s')%nat /\
      oconcat (map (zig_drop p f t) acc) = Some ids /\ Permutation ids (blocks a b) /\
      z_freed s' = z_freed s ++ l /\ part b (z_next s') l /\ (tidy p -> Permutation l (blocks b (z_next s')))).
  { intros s' F N; exists (z_next s), l0, []; rewrite F, N, app_nil_r; repeat split; auto; [apply part_none|].
    now rewrite blocks_none. }
  assert (STEP : forall v s1 ids, grows s s1 (zig_drop p f t v) -> zig_drop p f t v = Some ids ->
    exists l1, (a <= z_next s1)%nat /\ oconcat (map (zig_drop p f t) (acc ++ [v])) = Some l1 /\
               Permutation l1 (blocks a (z_next s1))).
  { intros v s1 ids (F & N & l & D & Q) D'; rewrite D in D'; injection D' as <-.
    exists (l0 ++ l); split; [lia|]; split.
    - rewrite map_app, oconcat_app, E; cbn [map oconcat]; rewrite D; cbn [oapp]; now rewrite app_nil_r.
    - now apply (all_add a (z_next s)). }
  assert (NUM : forall v q, is_simple p t = true ->
    match z_loop p inp call t n (acc ++ [ZVal v]) (z_at q s) with
    | (ZDone s', l) => z_freed s' = z_freed s /\ (a <= z_next s')%nat /\ z_env s' = z_env s /\
        exists ids, oconcat (map (zig_drop p f t) l) = Some ids /\ Permutation ids (blocks a (z_next s'))
    | (ZFail s', made) => exists b ids l, (a <= b <= z_next s')%nat /\
        oconcat (map (zig_drop p f t) made) = Some ids /\ Permutation ids (blocks a b) /\
        z_freed s' = z_freed s ++ l /\ part b (z_next s') l /\ (tidy p -> Permutation l (blocks b (z_next s')))
    | _ => True
    end).
  { intros v q S.
    assert (D : zig_drop p f t (ZVal v) = Some []) by (unfold zig_drop; now rewrite S).
    destruct (STEP (ZVal v) (z_at q s) []) as (l1 & L1 & E1 & P1); [rewrite D; now apply grows_none|exact D|].
    apply (IH _ (z_at q s) a l1); auto. }
  destruct (num_of t) as [k|] eqn:K.
  { pose proof (zm_simple_num t k K) as S.
    destruct (read_num k inp (z_pos s)) as [v q| |]; [now apply NUM|now apply STOP|exact I]. }
  destruct (type_cases p t W T) as [k K' _ _ _ _| E1 E2 _|e k K' _ _ IE EE KE _|st K' _ S EE L0].
  - congruence.
  - subst t; unfold enum_num; rewrite E2; cbn [String.eqb Ascii.eqb Bool.eqb].
    pose proof (zm_string_ok s) as Z; destruct (z_string p inp s) as [[s1|s1| | |] v]; try exact I.
    + destruct Z as (G & EN).
      assert (D : zig_drop p f "string" v = zig_free v) by (unfold zig_drop; now rewrite zm_string).
      rewrite <- D in G; pose proof G as (F & N & l & DL & Q).
      destruct (STEP v s1 l G DL) as (l1 & L1 & E1' & P1).
      specialize (IH _ s1 a l1 L1 E1' P1).
      destruct (z_loop p inp call "string" n (acc ++ [v]) s1) as [[s2|s2| | |] m]; auto.
      * destruct IH as (A1 & A2 & A3 & A4); repeat split; auto; congruence.
      * destruct IH as (b & ids & l2 & A1 & A2 & A3 & A4 & A5); exists b, ids, l2; rewrite A4, F; auto.
    + subst s1; now apply STOP.
  - unfold enum_num; rewrite EE.
    pose proof (zm_simple_enum t e IE) as S.
    destruct (num_of (e_encoding e)) as [k'|]; [|discriminate].
    destruct (read_num k' inp (z_pos s)) as [v q| |]; [|now apply STOP|exact I].
    destruct v; try now apply NUM.
    destruct (only_declared e z); [now apply NUM|now apply STOP].
  - unfold enum_num; rewrite EE.
    assert (NS : String.eqb t "string" = false) by (apply String.eqb_neq; intros ->; discriminate).
    rewrite NS.
    assert (D : declares p t st) by (left; now apply lookup_In).
    pose proof (CALL t st s D) as C; destruct (call t s) as [c|c| | |]; try exact I.
    + pose proof C as (F & N & l & DL & Q).
      assert (C' : grows s (z_after c (z_at (z_pos c) s)) (zig_drop p f t (ZObj (z_obj c)))).
      { exact C. }
      destruct (STEP _ _ l C' DL) as (l1 & L1 & E1' & P1).
      specialize (IH _ _ a l1 L1 E1' P1).
      destruct (z_loop p inp call t n (acc ++ [ZObj (z_obj c)]) (z_after c (z_at (z_pos c) s))) as [[s2|s2| | |] m]; auto; cbn [z_after z_at z_freed z_env] in IH.
      * destruct IH as (A1 & A2 & A3 & A4); repeat split; auto; congruence.
      * destruct IH as (b & ids & l2 & A1 & A2 & A3 & A4 & A5); exists b, ids, l2; rewrite A4, F; auto.
    + destruct C as (N & l & F & Q & TQ); exists (z_next s), l0, l; cbn [z_after z_next z_freed]; repeat split; auto.
Qed.

(** A member's value: what releases it. *)
Definition zig_own (m : var) (v : zval) : option (list nat) :=
  if v_list m then
    match v with
    | ZList b l => oapp (oconcat (map (zig_drop p f (v_type m)) l)) (zig_free (ZList b []))
    | _ => None
    end
  else zig_drop p f (v_type m) v.

Lemma zm_list_ok x m s : declared_type p (v_type m) -> v_list m = true ->
  match z_list room hollow p inp call (zig_drop p f) x (v_type m) s with
  | ZDone s' => exists v, z_env s' = dict_set x v (dict_set "" v (z_env s)) /\ grows s s' (zig_own m v)
  | ZFail s' => broke s s'
  | _ => True
  end.
Proof.
  intros T V; unfold z_list.
  destruct (num_of (p_list_size_type p)) as [k|]; [|exact I].
  destruct (read_num k inp (z_pos s)) as [[] q| |]; try exact I; [|now apply broke_same].
  destruct (zig_make room (v_type m) z); [|now apply broke_same|exact I].
  remember (z_alloc ((z =? 0) || hollow (v_type m)) (z_at q s)) as bs eqn:A; destruct bs as [b s1].
  assert (G : grows s s1 (zig_free (ZList b [])) /\ z_env s1 = z_env s).
  { unfold z_alloc in A; destruct ((z =? 0) || hollow (v_type m)); injection A as -> ->; (split; [|reflexivity]); cbn [zig_free].
    - now apply grows_none.
    - split; [reflexivity|]; cbn [z_next z_at]; split; [lia|]; exists [z_next s]; split; [reflexivity|]; now rewrite blocks_next. }
  destruct G as ((F & N & lb & D & Q) & EN).
  assert (P0 : Permutation (@nil nat) (blocks (z_next s1) (z_next s1))) by now rewrite blocks_none.
  pose proof (zm_loop_ok (v_type m) T (Z.to_nat z) [] s1 (z_next s1) [] (le_n _) eq_refl P0) as H.
  destruct (z_loop p inp call (v_type m) (Z.to_nat z) [] s1) as [[s2|s2| | |] l]; try exact I.
  - destruct H as (F2 & N2 & EN2 & ids & E & P).
    exists (ZList b l); split; [cbn [z_let z_env]; congruence|].
    split; [cbn [z_let z_freed]; congruence|]; split; [cbn [z_let z_next]; lia|].
    exists (ids ++ lb); unfold zig_own; rewrite V, E, D; split; [reflexivity|].
    cbn [z_let z_next]; now apply (all_join (z_next s) (z_next s1)).
  - destruct H as (c & ids & l2 & L & E & P & F2 & Q2 & TQ2).
    rewrite E, D; cbn [oapp]; split; [cbn [z_free z_next]; lia|].
    exists (l2 ++ ids ++ lb); cbn [z_free z_freed z_next]; split; [now rewrite F2, F, <- app_assoc|].
    rewrite app_assoc; split.
    + apply (part_join (z_next s) (z_next s1)); auto; [lia|]; now apply (part_join (z_next s1) c).
    + intro TI; apply (all_join (z_next s) (z_next s1)); auto; [lia|]; apply (all_join (z_next s1) c); auto.
Qed.

(** One member. *)
Lemma zm_one d m s : declared_type p (v_type m) ->
  match zexec room hollow p inp call (zig_drop p f) (zig_read p d m) s with
  | ZDone s' => exists v, lookup (zig_local d m) (z_env s') = Some v /\ grows s s' (zig_own m v) /\
      forall y, y <> zig_local d m -> y <> "" -> lookup y (z_env s') = lookup y (z_env s)
  | ZFail s' => broke s s'
  | _ => True
  end.
Proof.
  intro T; destruct (v_list m) eqn:V.
  { unfold zig_read; rewrite V; cbn [zexec zexec_stmt].
    pose proof (zm_list_ok (zig_local d m) m s T V) as H.
    destruct (z_list _ _ _ _ _ _ _ _ _) as [s'|s'| | |]; cbn [zbind]; auto.
    destruct H as (v & E & G); exists v; rewrite E, lookup_dict_set_eq; repeat split; try apply G.
    intros y N1 N2; now rewrite !lookup_dict_set_neq. }
  assert (OWN : forall v, zig_own m v = zig_drop p f (v_type m) v) by (intro v; unfold zig_own; now rewrite V).
  assert (NUM : forall v s', is_simple p (v_type m) = true -> z_freed s' = z_freed s -> z_next s' = z_next s ->
            grows s s' (zig_own m v)).
  { intros v s' S F N; rewrite OWN; unfold zig_drop; rewrite S; now apply grows_none. }
  rewrite (zig_read_code p d m W V T); unfold local_code.
  destruct (type_cases p (v_type m) W T) as [k K _ _ _ _| E1 E2 _|e k K M NS IE EE KE _|st K M S EE L].
  - rewrite K; cbn [zexec zexec_stmt]; unfold z_number.
    destruct (read_num k inp (z_pos s)) as [v q| |]; cbn [zbind]; [|now apply broke_same|exact I].
    exists (ZVal v); cbn [z_let z_env z_at]; rewrite lookup_dict_set_eq; split; [reflexivity|split].
    + apply NUM; auto; now apply (zm_simple_num _ k).
    + intros y N1 _; now rewrite lookup_dict_set_neq.
  - rewrite E1 in *; cbn [num_of lookup String.eqb Ascii.eqb Bool.eqb]; cbn [zexec zexec_stmt].
    pose proof (zm_string_ok s) as Z; destruct (z_string p inp s) as [[s1|s1| | |] v]; cbn [zbind]; try exact I.
    + destruct Z as (G & EN); exists v; cbn [z_let z_env]; rewrite lookup_dict_set_eq; split; [reflexivity|split].
      * rewrite OWN; unfold zig_drop; rewrite zm_string; exact G.
      * intros y N1 _; rewrite lookup_dict_set_neq by auto; now rewrite EN.
    + subst s1; now apply broke_same.
  - rewrite K, NS, EE, KE; cbn [zexec zexec_stmt]; unfold z_number.
    destruct (read_num k inp (z_pos s)) as [v q| |]; cbn [zbind]; [|now apply broke_same|exact I].
    cbn [z_let z_env z_at]; rewrite lookup_dict_set_eq, EE.
    destruct v; try exact I; destruct (only_declared e z); cbn [zbind]; [|now apply broke_same].
    eexists; cbn [z_let z_env]; rewrite lookup_dict_set_eq; split; [reflexivity|split].
    + apply NUM; auto; now apply (zm_simple_enum _ e).
    + intros y N1 _; now rewrite !lookup_dict_set_neq.
  - rewrite K, S, EE; cbn [zexec zexec_stmt].
    assert (D : declares p (v_type m) st) by (left; now apply lookup_In).
    pose proof (CALL (v_type m) st s D) as C; destruct (call (v_type m) s) as [c|c| | |]; cbn [zbind]; try exact I.
    + eexists; cbn [z_let z_env z_after z_at]; rewrite lookup_dict_set_eq; split; [reflexivity|split].
      * rewrite OWN; exact C.
      * intros y N1 _; now rewrite lookup_dict_set_neq.
    + exact C.
Qed.

Notation zexec' := (zexec room hollow p inp call (zig_drop p f)).
Lemma zexec_app : forall a b s, zexec' (a ++ b) s = zbind (zexec' a s) (zexec' b).
Proof.
  induction a as [|x a IH]; intros b s; cbn [List.app zexec zbind]; [reflexivity|].
  destruct (zexec_stmt _ _ _ _ _ _ x s); cbn [zbind]; auto.
Qed.

Definition tidy_list (ms : list var) : Prop :=
  forall pre m post, ms = pre ++ m :: post -> post <> [] -> v_list m = false /\ is_simple p (v_type m) = true.
Definition broke_if (tidy : Prop) (s s' : zstate) : Prop :=
  (z_next s <= z_next s')%nat /\
  exists l, z_freed s' = z_freed s ++ l /\ part (z_next s) (z_next s') l /\
            (tidy -> Permutation l (blocks (z_next s) (z_next s'))).

Lemma blocks_nil a b : (a <= b)%nat -> Permutation (@nil nat) (blocks a b) -> a = b.
Proof. intros L P; apply Permutation_length in P; unfold blocks in P; rewrite seq_length in P; cbn in P; lia. Qed.

Definition owned (ms : list var) (vs : list zval) : option (list nat) :=
  oconcat (map (fun mv => zig_own (fst mv) (snd mv)) (combine ms vs)).
Lemma zm_members d : forall ms s, (forall m, In m ms -> declared_type p (v_type m)) -> NoDup (map v_name ms) ->
  match zexec' (flat_map (zig_read p d) ms) s with
  | ZDone s' => (forall y, ~ In y (map (zig_local d) ms) -> y <> "" -> lookup y (z_env s') = lookup y (z_env s)) /\
      exists vs, Forall2 (fun m v => lookup (zig_local d m) (z_env s') = Some v) ms vs /\ grows s s' (owned ms vs)
  | ZFail s' => broke_if (tidy p /\ tidy_list ms) s s'
  | _ => True
  end.
Proof.
  induction ms as [|m ms IH]; intros s T N; cbn [flat_map zexec].
  { split; [auto|]; exists []; split; [constructor|]; now apply grows_none. }
  inversion N as [|? ? NI N']; subst.
  rewrite zexec_app.
  pose proof (zm_one d m s (T m (or_introl eq_refl))) as H.
  destruct (zexec' (zig_read p d m) s) as [s1|s1| | |]; cbn [zbind]; try exact I.
  - destruct H as (v & LV & G & KEEP).
    specialize (IH s1 (fun x I => T x (or_intror I)) N').
    destruct (zexec' (flat_map (zig_read p d) ms) s1) as [s2|s2| | |] eqn:EX; try exact I.
    + destruct IH as (KEEP2 & vs & LVS & G2); split.
      * intros y NY NE; rewrite KEEP2, KEEP; auto; intro; apply NY; [left; congruence|now right].
      * exists (v :: vs); split.
        -- constructor; [|exact LVS]; rewrite KEEP2; [exact LV| |apply zig_local_some].
           intro I; apply in_map_iff in I as (m' & E & I); apply NI; apply in_map_iff; exists m'; split; [|exact I].
           now apply (zig_local_inj d).
        -- destruct G as (F1 & L1 & i1 & O1 & P1), G2 as (F2 & L2 & i2 & O2 & P2).
           split; [congruence|]; split; [lia|]; exists (i1 ++ i2); unfold owned in *; cbn [combine map oconcat fst snd].
           rewrite O1, O2; split; [reflexivity|]; now apply (all_add _ (z_next s1)).
    + destruct IH as (L2 & l & F2 & P2 & TP2), G as (F1 & L1 & i1 & O1 & P1).
      split; [lia|]; exists l; rewrite F2, F1; split; [reflexivity|]; split; [now apply (part_more _ (z_next s1))|].
      intros (TI & TL).
      assert (NE : ms <> []) by (intros ->; discriminate EX).
      destruct (TL [] m ms eq_refl NE) as [VL SM].
      assert (E : zig_own m v = Some []) by (unfold zig_own, zig_drop; now rewrite VL, SM).
      rewrite E in O1; injection O1 as <-; apply blocks_nil in P1; [|exact L1].
      rewrite P1; apply TP2; split; [exact TI|]; intros pre x post -> NP; now apply (TL (m :: pre) x post).
  - destruct H as (L1 & l & F1 & P1 & TP1); split; [exact L1|]; exists l; repeat split; auto; intros (TI & _); auto.
Qed.

Lemma zm_build env : forall d ms vs acc, Forall2 (fun m v => lookup (zig_local d m) env = Some v) ms vs ->
  z_build env (map (fun m => (v_name m, zig_local d m)) ms) acc = Some (acc ++ combine (map v_name ms) vs).
Proof.
  intros d ms vs; revert ms; induction vs as [|v vs IH]; intros ms acc F; inversion F; subst; cbn [map z_build combine].
  - now rewrite app_nil_r.
  - rewrite H2, IH by assumption; now rewrite <- app_assoc.
Qed.
Lemma zm_built : forall ms (vs : list zval), NoDup (map v_name ms) -> List.length ms = List.length vs ->
  Forall2 (fun m v => lookup (v_name m) (combine (map v_name ms) vs) = Some v) ms vs.
Proof.
  induction ms as [|m ms IH]; intros [|v vs] N L; try discriminate; constructor; inversion N; subst; cbn [map combine lookup].
  - now rewrite String.eqb_refl.
  - injection L as L; specialize (IH vs H2 L); clear - IH H1.
    assert (G : forall m', In m' ms -> v_name m' <> v_name m) by (intros m' I E; apply H1; rewrite <- E; now apply in_map).
    revert IH G; generalize (combine (map v_name ms) vs) as fs; clear H1; intros fs F; induction F; intro G; constructor.
    + destruct (String.eqb_spec (v_name x) (v_name m)) as [E|_]; [now apply G in E; [|left]|exact H].
    + apply IHF; intros m' I; apply G; now right.
Qed.

Lemma zm_release fs m v ids : declared_type p (v_type m) -> lookup (v_name m) fs = Some v -> zig_own m v = Some ids ->
  zrelease (zig_deinit p f (v_type m)) fs (zig_release p m) = Some ids.
Proof.
  intros T L; unfold zig_own, zig_release, zrelease, zig_drop, zig_release_one.
  destruct (v_list m).
  - destruct v as [| |b l|]; try discriminate.
    destruct (is_simple p (v_type m)) eqn:S; cbn [map List.app oconcat zrelease_stmt zget]; rewrite L; cbn [zon].
    + assert (E : oconcat (map (fun _ : zval => Some (@nil nat)) l) = Some []).
      { clear; induction l as [|x l IH]; cbn [map oconcat]; [reflexivity|now rewrite IH]. }
      rewrite E; cbn [zig_free oapp List.app]; now rewrite app_nil_r.
    + destruct (String.eqb (v_type m) "string"); cbn [zrelease_stmt zget zon zig_free oconcat].
      * intros <-; rewrite (oconcat_ext _ zig_free) by (intros; apply oapp_nil_r); now rewrite oapp_nil_r.
      * intros <-; rewrite (oconcat_ext _ (zig_deinit p f (v_type m))) by (intros; apply oapp_nil_r); now rewrite oapp_nil_r.
  - destruct (is_simple p (v_type m)); [auto|].
    destruct (String.eqb (v_type m) "string"); cbn [map oconcat zrelease_stmt zget]; rewrite L; cbn [zon]; now rewrite oapp_nil_r.
Qed.
Lemma zm_release_all fs : forall ms vs ids, (forall m, In m ms -> declared_type p (v_type m)) ->
  Forall2 (fun m v => lookup (v_name m) fs = Some v) ms vs -> owned ms vs = Some ids ->
  oconcat (map (fun m => zrelease (zig_deinit p f (v_type m)) fs (zig_release p m)) ms) = Some ids.
Proof.
  intros ms vs ids T F; revert ids T; induction F as [|m v ms vs L F IH]; intros ids T; unfold owned; cbn [combine map oconcat fst snd]; [auto|].
  destruct (zig_own m v) as [i1|] eqn:E1; [|discriminate].
  fold (owned ms vs); destruct (owned ms vs) as [i2|] eqn:E2; [|discriminate]; intros [= <-].
  rewrite (zm_release fs m v i1), (IH i2); auto; [intros x I; apply T; now right|apply T; now left].
Qed.

(** Structs of fixed size. *)
Definition still (s s' : zstate) : Prop := z_freed s' = z_freed s /\ z_next s' = z_next s.
Lemma zm_still d : forall ms off s,
  match zexec' (zig_read_simple p d off ms) s with
  | ZDone s' | ZFail s' => still s s'
  | _ => True
  end.
Proof.
  induction ms as [|m ms IH]; intros off s; cbn [zig_read_simple zexec]; [now split|].
  rewrite zexec_app.
  assert (H : match zexec' (zig_read_at p d off m) s with ZDone s' | ZFail s' => still s s' | _ => True end).
  { unfold zig_read_at, with_prim; destruct (mem (v_type m) NUMERIC_TYPE_SIZES).
    - destruct (zig_prim (v_type m)) as [k|]; cbn [zexec zexec_stmt zbind]; [|exact I]; unfold z_number.
      destruct (read_num k inp (z_pos s + Z.to_nat off)); cbn [zbind]; try exact I; now split.
    - destruct (mem (v_type m) (p_enums p)); cbn [zexec zexec_stmt zbind]; [|exact I].
      destruct (enum_num p (v_type m)) as [k|]; [|exact I]; destruct (lookup (v_type m) (p_enums p)) as [e|]; [|exact I].
      destruct (read_num k inp (z_pos s + Z.to_nat off)) as [[]| |]; cbn [zbind]; try exact I; try now split.
      destruct (only_declared e z); cbn [zbind]; now split. }
  destruct (zexec' (zig_read_at p d off m) s) as [s1|s1| | |]; cbn [zbind]; auto.
  specialize (IH (off + size_of p (v_type m)) s1).
  destruct (zexec' (zig_read_simple p d (off + size_of p (v_type m)) ms) s1); auto; destruct H, IH; split; congruence.
Qed.
End Level.

Lemma tidy_members t d : tidy p -> declares p t d -> tidy_list (s_members d).
Proof.
  intros TI D pre m post E NE; destruct (TI t d D pre m post E NE) as (V & n & F); split; [exact V|].
  apply (fixed_is_simple p _ n W); [|exact F].
  left.
  apply (wf_member_types p W t d); auto; rewrite E; apply in_or_app; right; now left.
Qed.

Lemma zrun_fits : forall f, call_fits f (zrun room hollow p inp f).
Proof.
  induction f as [|f IH]; intros t d s D; cbn [zrun]; [exact I|].
  assert (FS : find_struct p t = Some d).
  { now apply (find_declares p W). }
  rewrite FS.
  set (s0 := {| z_pos := z_pos s; z_obj := []; z_env := []; z_next := z_next s; z_freed := z_freed s |}).
  assert (NM : s_name d = t) by now apply (declares_name p).
  unfold zig_reader; rewrite NM; destruct (is_simple p t) eqn:S.
  - rewrite zexec_app; pose proof (zm_still f (zrun room hollow p inp f) d (s_members d) 0 s0) as H.
    destruct (zexec room hollow p inp (zrun room hollow p inp f) (zig_drop p f) (zig_read_simple p d 0 (s_members d)) s0) as [s1|s1| | |]; cbn [zbind]; try exact I.
    + cbn [zexec zexec_stmt]; destruct (z_build _ _ _) as [o|]; cbn [zbind]; [|exact I].
      destruct H as [H1 H2]; unfold zig_drop; rewrite S; apply grows_none; [exact H1|exact H2].
    + destruct H as [H1 H2]; now apply broke_same.
  - rewrite zexec_app.
    assert (T : forall m, In m (s_members d) -> declared_type p (v_type m)) by (intros m I; now apply (wf_member_types p W t d)).
    assert (N : NoDup (map v_name (s_members d))) by now apply (wf_member_nodup p W t).
    pose proof (zm_members f (zrun room hollow p inp f) IH d (s_members d) s0 T N) as H.
    destruct (zexec room hollow p inp (zrun room hollow p inp f) (zig_drop p f) (flat_map (zig_read p d) (s_members d)) s0) as [s1|s1| | |]; cbn [zbind]; try exact I.
    + destruct H as (_ & vs & LV & F1 & L1 & ids & O & P).
      cbn [zexec zexec_stmt]; rewrite (zm_build _ _ _ _ [] LV); cbn [zbind List.app].
      split; [exact F1|]; split; [exact L1|]; exists ids; split; [|exact P]; cbn [z_built z_obj].
      unfold zig_drop; rewrite S.
      assert (NS : String.eqb t "string" = false).
      { apply String.eqb_neq; destruct (declares_not_num p W t d D) as (_ & X & _); exact X. }
      rewrite NS; cbn [zig_deinit]; rewrite FS.
      apply (zm_release_all f _ _ vs); auto; apply zm_built; auto.
      clear - LV; induction LV; cbn; auto.
    + destruct H as (L1 & l & F1 & P1 & TP1); split; [exact L1|]; exists l; repeat split; auto.
      intro TI; apply TP1; split; [exact TI|]; now apply (tidy_members t d).
Qed.

(** *** Agreement with IR.v *)

Definition plain_all (fs : zfields) : list (string * val) := map (fun f => (fst f, zig_value_of (snd f))) fs.
Definition plain_state (s : zstate) : rstate :=
  {| r_pos := z_pos s; r_obj := plain_all (z_obj s); r_env := plain_all (z_env s) |}.
Definition agree (o : zout) (o' : outcome) : Prop :=
  match o, o' with
  | ZDone s, Done s' => s' = plain_state s
  | ZFail _, Fail _ | ZTrap, Trap | ZStuck, Stuck | ZFuel, NoFuel => True
  | _, _ => False
  end.
Lemma lookup_plain x : forall fs, lookup x (plain_all fs) = option_map zig_value_of (lookup x fs).
Proof. induction fs as [|[k v] fs IH]; cbn [plain_all map lookup fst snd]; [reflexivity|]; destruct (String.eqb x k); auto. Qed.
Lemma dict_plain x v : forall fs, plain_all (dict_set x v fs) = dict_set x (zig_value_of v) (plain_all fs).
Proof.
  induction fs as [|[k w] fs IH]; cbn [plain_all map dict_set fst snd]; [reflexivity|].
  destruct (String.eqb x k); cbn [map fst snd]; [reflexivity|]; f_equal; exact IH.
Qed.
Lemma plain_let x v s : plain_state (z_let x v s) = set_local x (zig_value_of v) (plain_state s).
Proof. unfold plain_state, set_local; cbn [z_let z_pos z_obj z_env r_pos r_obj r_env]; now rewrite dict_plain. Qed.

Definition zig_shaped (st : rstmt) : Prop :=
  match st with
  | RNum (DLocal _) _ | RNumAt (DLocal _) _ _ | REnumAt (DLocal _) _ _ | RStr (DLocal _) => True
  | REnumCheck _ _ | RBuild _ | RAdvance _ | RIllTyped => True
  | RList (DLocal _) t => declared_type p t
  | RCall (DLocal _) t => exists d, declares p t d
  | _ => False
  end.

Definition call_agrees (call : string -> zstate -> zout) (call' : string -> list (string * val) -> nat -> outcome) : Prop :=
  forall t d s, declares p t d -> agree (call t s) (call' t [] (z_pos s)).

Section Same.
Variable f : nat.
Variable call : string -> zstate -> zout.
Variable call' : string -> list (string * val) -> nat -> outcome.
Hypothesis CALL : call_fits f call.
Hypothesis SAME : call_agrees call call'.
Notation R := (zig_rt room).

Lemma z_loop_same t : declared_type p t -> forall n acc s,
  match z_loop p inp call t n acc s with
  | (ZDone s', l) => list_loop R p inp call' t n (map zig_value_of acc) (plain_state s) =
                     Done (set_local "" (VList (map zig_value_of l)) (plain_state s'))
  | (o, _) => agree o (list_loop R p inp call' t n (map zig_value_of acc) (plain_state s))
  end.
Proof.
  intros T; induction n as [|n IH]; intros acc s; cbn [z_loop list_loop].
  { reflexivity. }
  assert (STEP : forall v q s1, plain_state s1 = set_pos q (plain_state s) ->
    match z_loop p inp call t n (acc ++ [v]) s1 with
    | (ZDone s', l) => list_loop R p inp call' t n (map zig_value_of acc ++ [zig_value_of v]) (set_pos q (plain_state s)) =
                       Done (set_local "" (VList (map zig_value_of l)) (plain_state s'))
    | (o, _) => agree o (list_loop R p inp call' t n (map zig_value_of acc ++ [zig_value_of v]) (set_pos q (plain_state s)))
    end).
  { intros v q s1 E; rewrite <- E; specialize (IH (acc ++ [v]) s1); rewrite map_app in IH; exact IH. }
  destruct (num_of t) as [k|] eqn:K.
  { unfold list_elem; rewrite K; cbn [rt_num zig_rt r_pos plain_state].
    destruct (read_num k inp (z_pos s)) as [v q| |]; [|exact I|exact I].
    exact (STEP (ZVal v) q (z_at q s) eq_refl). }
  destruct (type_cases p t W T) as [k K' _ _ _ _| E1 E2 _|e k K' _ _ IE EE KE _|st K' _ S EE L0].
  - congruence.
  - subst t; unfold enum_num; rewrite E2; cbn [String.eqb Ascii.eqb Bool.eqb negb].
    unfold list_elem, enum_num; rewrite K, E2; cbn [rt_str zig_rt r_pos plain_state]; unfold z_string.
    destruct (zig_str p inp (z_pos s)) as [b q| |]; cbn [got_str]; [|exact I|exact I].
    destruct b as [|c b]; cbn [z_alloc].
    + exact (STEP (ZStr None []) q (z_at q s) eq_refl).
    + refine (STEP (ZStr (Some (z_next s)) (c :: b)) q _ _); reflexivity.
  - unfold enum_num; rewrite EE.
    destruct (num_of (e_encoding e)) as [k'|] eqn:NK; [|discriminate].
    unfold list_elem, enum_num; rewrite K, EE, NK; cbn [rt_num rt_enum zig_rt r_pos plain_state].
    destruct (read_num k' inp (z_pos s)) as [v q| |]; [|exact I|exact I].
    destruct v; try exact (STEP (ZVal _) q (z_at q s) eq_refl).
    destruct (only_declared e z) as [z'|]; [|exact I].
    exact (STEP (ZVal (VInt z')) q (z_at q s) eq_refl).
  - unfold enum_num; rewrite EE.
    assert (NS : String.eqb t "string" = false) by (apply String.eqb_neq; intros ->; discriminate).
    rewrite NS; cbn [negb rt_init zig_rt r_pos plain_state].
    assert (D : declares p t st) by (left; now apply lookup_In).
    pose proof (SAME t st s D) as C; unfold agree in C.
    destruct (call t s) as [c|c| | |], (call' t [] (z_pos s)) as [c'|c'| | |]; try exact I; try contradiction.
    subst c'; cbn [plain_state r_obj r_pos].
    exact (STEP (ZObj (z_obj c)) (z_pos c) (z_after c (z_at (z_pos c) s)) eq_refl).
Qed.

Lemma zexec_stmt_same st s : zig_shaped st ->
  agree (zexec_stmt room hollow p inp call (zig_drop p f) st s) (exec_stmt R p inp call' st (plain_state s)).
Proof.
  intro SH; destruct st as [[]|[]| | |[]| | | | | | | |[]|[]|[]| |]; try contradiction; cbn [zexec_stmt exec_stmt].
  - unfold z_number, store_got; cbn [rt_num zig_rt r_pos plain_state].
    destruct (read_num k inp (z_pos s)) as [v q| |]; try exact I.
    cbn [store done_or_stuck agree]; now rewrite plain_let.
  - cbn [rt_str zig_rt r_pos plain_state]; unfold z_string.
    destruct (zig_str p inp (z_pos s)) as [b q| |]; try exact I.
    cbn [got_str store_got store done_or_stuck]; destruct b; cbn [z_alloc agree]; now rewrite plain_let.
  - cbn [r_env plain_state rt_enum zig_rt]; rewrite lookup_plain.
    destruct (lookup x (z_env s)) as [v|]; cbn [option_map]; [|exact I].
    destruct v as [[]| | |]; cbn [zig_value_of]; try exact I;
      (destruct (lookup t (p_enums p)) as [e|]; [|exact I]).
    destruct (only_declared e z); [|exact I]; cbn [agree]; now rewrite plain_let.
  - destruct SH as [d D]; cbn [rt_init zig_rt r_pos plain_state]; pose proof (SAME t d s D) as C; unfold agree in C.
    destruct (call t s) as [c|c| | |], (call' t [] (z_pos s)) as [c'|c'| | |]; try exact I; try contradiction.
    subst c'; cbn [returned store done_or_stuck agree plain_state r_obj r_pos]; now rewrite plain_let.
  - assert (B : forall gs acc,
      match z_build (z_env s) gs acc with
      | Some o => (fix build (fs : list (string * string)) (acc : list (string * val)) : outcome :=
         match fs with
         | [] => Done (set_obj acc (plain_state s))
         | (f, x) :: r =>
             match lookup x (r_env (plain_state s)) with
             | Some v => build r (acc ++ [(f, v)])
             | None => Stuck
             end
         end) gs (plain_all acc) = Done (plain_state (z_built o s))
      | None => (fix build (fs : list (string * string)) (acc : list (string * val)) : outcome :=
         match fs with
         | [] => Done (set_obj acc (plain_state s))
         | (f, x) :: r =>
             match lookup x (r_env (plain_state s)) with
             | Some v => build r (acc ++ [(f, v)])
             | None => Stuck
             end
         end) gs (plain_all acc) = Stuck
      end).
    { induction gs as [|[a x] gs IH]; intro acc; cbn [z_build]; [reflexivity|].
      cbn [r_env plain_state] in *; pose proof (lookup_plain x (z_env s)) as LP.
      destruct (lookup x (z_env s)) as [v|]; cbn [option_map] in LP; rewrite LP; [|reflexivity].
      specialize (IH (acc ++ [(a, v)])).
      assert (E : plain_all (acc ++ [(a, v)]) = plain_all acc ++ [(a, zig_value_of v)]) by (unfold plain_all; now rewrite map_app).
      rewrite E in IH; exact IH. }
    specialize (B fs []); destruct (z_build (z_env s) fs []); cbn [plain_all map] in B; rewrite B; [reflexivity|exact I].
  - unfold z_list; destruct (num_of (p_list_size_type p)) as [k|]; [|exact I].
    cbn [rt_num zig_rt r_pos plain_state].
    destruct (read_num k inp (z_pos s)) as [[] q| |]; try exact I.
    cbn [rt_make zig_rt]; destruct (zig_make room t z) as [u q'| |]; cbn [guard]; try exact I.
    remember (z_alloc ((z =? 0) || hollow t) (z_at q s)) as bs eqn:A; destruct bs as [b s1].
    assert (E1 : plain_state s1 = set_pos q (plain_state s)).
    { unfold z_alloc in A; destruct ((z =? 0) || hollow t); injection A as -> ->; reflexivity. }
    pose proof (z_loop_same t SH (Z.to_nat z) [] s1) as LP; cbn [map] in LP; rewrite E1 in LP.
    assert (P0 : Permutation (@nil nat) (blocks (z_next s1) (z_next s1))) by now rewrite blocks_none.
    pose proof (zm_loop_ok f call CALL t SH (Z.to_nat z) [] s1 (z_next s1) [] (le_n _) eq_refl P0) as H.
    change {| r_pos := z_pos s; r_obj := plain_all (z_obj s); r_env := plain_all (z_env s) |} with (plain_state s).
    destruct (z_loop p inp call t (Z.to_nat z) [] s1) as [[s2|s2| | |] l].
    + rewrite LP; cbn [obind set_local r_env]; rewrite lookup_dict_set_eq; cbn [store done_or_stuck agree].
      now rewrite !plain_let.
    + destruct H as (c & ids & l2 & _ & E & _); rewrite E; cbn [zig_free oapp].
      destruct (list_loop R p inp call' t (Z.to_nat z) [] (set_pos q (plain_state s))); try contradiction; exact I.
    + destruct (list_loop R p inp call' t (Z.to_nat z) [] (set_pos q (plain_state s))); try contradiction; exact I.
    + destruct (list_loop R p inp call' t (Z.to_nat z) [] (set_pos q (plain_state s))); try contradiction; exact I.
    + destruct (list_loop R p inp call' t (Z.to_nat z) [] (set_pos q (plain_state s))); try contradiction; exact I.
  - unfold z_number; cbn [rt_num zig_rt r_pos plain_state].
    destruct (read_num k inp (z_pos s + Z.to_nat off)) as [v q| |]; try exact I.
    cbn [store done_or_stuck agree]; now rewrite plain_let.
  - cbn [rt_num rt_enum zig_rt r_pos plain_state].
    destruct (enum_num p t) as [k|]; [|exact I]; destruct (lookup t (p_enums p)) as [e|]; [|exact I].
    destruct (read_num k inp (z_pos s + Z.to_nat off)) as [[] q| |]; try exact I.
    destruct (only_declared e z); [|exact I]; cbn [store done_or_stuck agree]; now rewrite plain_let.
  - reflexivity.
  - exact I.
Qed.

Lemma zexec_same : forall l s, Forall zig_shaped l ->
  agree (zexec room hollow p inp call (zig_drop p f) l s) (exec R p inp call' l (plain_state s)).
Proof.
  induction l as [|a l IH]; intros s F; cbn [zexec exec]; [reflexivity|]; inversion F; subst.
  pose proof (zexec_stmt_same a s H1) as A; unfold agree in A.
  destruct (zexec_stmt _ _ _ _ _ _ a s) as [c|c| | |], (exec_stmt R p inp call' a (plain_state s)) as [c'|c'| | |]; try contradiction; try exact I.
  subst c'; cbn [zbind obind]; now apply IH.
Qed.
End Same.

Lemma zig_reader_shaped t d : declares p t d -> Forall zig_shaped (zig_reader p d).
Proof.
  intro D; unfold zig_reader; destruct (is_simple p (s_name d)).
  - apply Forall_app; split; [|repeat constructor].
    generalize 0 as off; induction (s_members d) as [|m ms IH]; intro off; cbn [zig_read_simple]; [constructor|].
    apply Forall_app; split; [|apply IH]; unfold zig_read_at, with_prim.
    destruct (mem (v_type m) NUMERIC_TYPE_SIZES); [destruct (zig_prim (v_type m))|destruct (mem (v_type m) (p_enums p))]; repeat constructor.
  - apply Forall_app; split; [|repeat constructor]; apply Forall_flat_map, Forall_forall; intros m I.
    pose proof (wf_member_types p W t d m D I) as T; destruct (v_list m) eqn:V.
    + unfold zig_read; rewrite V; constructor; [exact T|constructor].
    + rewrite (zig_read_code p d m W V T); unfold local_code.
      destruct (type_cases p (v_type m) W T) as [k K _ _ _ _| E1 E2 _|e k K M NS IE EE KE _|st K M S EE L].
      * rewrite K; repeat constructor.
      * rewrite E1; repeat constructor.
      * rewrite K, NS, EE, KE; repeat constructor.
      * rewrite K, S, EE; constructor; [exists st; left; now apply lookup_In|constructor].
Qed.

Lemma zrun_same : forall f, call_agrees (zrun room hollow p inp f) (run (zig_rt room) p zig_reader inp f).
Proof.
  induction f as [|f IH]; intros t d s D; cbn [zrun run]; [exact I|].
  rewrite (find_declares p W t d D).
  exact (zexec_same f _ _ (zrun_fits f) IH (zig_reader p d) _ (zig_reader_shaped t d D)).
Qed.
End Memory.

(** ** Whole calls *)

Section Calls.
Variable room : string -> Z.
Variable hollow : string -> bool.
Variable p : protocol.
Hypothesis W : WF p.

Lemma zm_same t d inp pos next : declares p t d ->
  same_read zig_value_of (zig_from_bytes_memory room hollow p t inp pos next) (zig_from_bytes room p t inp pos).
Proof.
  intro D; unfold zig_from_bytes_memory, zig_from_bytes, read_with; destruct (_ && _); [|exact I].
  cbn [rt_init zig_rt].
  pose proof (zrun_same room hollow p W inp (depth_of p) t d
    {| z_pos := pos; z_obj := []; z_env := []; z_next := next; z_freed := [] |} D) as A; cbn [z_pos] in A; unfold agree in A.
  destruct (zrun _ _ _ _ _ _ _) as [c|c| | |], (run _ _ _ _ _ _ _ _) as [c'|c'| | |]; try contradiction; try exact I.
  subst c'; split; reflexivity.
Qed.

Lemma zm_read t d inp pos next : declares p t d ->
  match zig_from_bytes_memory room hollow p t inp pos next with
  | ZOk v _ next' freed => freed = [] /\ (next <= next')%nat /\
      exists ids, zig_release_message p t v = Some ids /\ Permutation ids (blocks next next')
  | ZErr next' freed => (next <= next')%nat /\ part next next' freed /\ (tidy p -> Permutation freed (blocks next next'))
  | ZOther => True
  end.
Proof.
  intro D; unfold zig_from_bytes_memory; destruct (_ && _); [|exact I].
  pose proof (zrun_fits room hollow p W inp (depth_of p) t d
    {| z_pos := pos; z_obj := []; z_env := []; z_next := next; z_freed := [] |} D) as A.
  destruct (zrun _ _ _ _ _ _ _) as [c|c| | |]; try exact I.
  - destruct A as (F & N & l & E & P); cbn [z_freed z_next] in *; eauto.
  - destruct A as (N & l & F & P & T); cbn [z_freed z_next List.app] in *; subst l; auto.
Qed.

Lemma zm_deinit t d inp pos next v q next' freed : declares p t d ->
  zig_from_bytes_memory room hollow p t inp pos next = ZOk v q next' freed ->
  freed = [] /\ released_once next next' (zig_release_message p t v).
Proof.
  intros D E; pose proof (zm_read t d inp pos next D) as A; rewrite E in A; destruct A as (F & L & ids & R & P).
  split; [exact F|]; exists ids; split; [exact R|now apply once].
Qed.
Lemma zm_failed t d inp pos next next' freed : declares p t d ->
  zig_from_bytes_memory room hollow p t inp pos next = ZErr next' freed -> none_twice next next' freed.
Proof.
  intros D E; pose proof (zm_read t d inp pos next D) as A; rewrite E in A; now apply part_twice.
Qed.
Lemma zm_failed_tidy t d inp pos next next' freed : tidy p -> declares p t d ->
  zig_from_bytes_memory room hollow p t inp pos next = ZErr next' freed -> each_once next next' freed.
Proof.
  intros T D E; pose proof (zm_read t d inp pos next D) as A; rewrite E in A; destruct A as (L & _ & P).
  apply once; auto.
Qed.

Lemma zm_case b t : tag_case (b - 1) (zig_message_type p) = Some t -> exists d, declares p t d.
Proof.
  intro C; apply case0_numbered, numbered_iff in C; destruct C as (i & s & H & _).
  exists s; right; apply nth_error_In in H; exact H.
Qed.

(** Memory of the messages so far. *)
Definition held (a b : nat) (ms : list (string * zval)) : Prop :=
  (a <= b)%nat /\ exists ids, oconcat (map (fun m => zig_drop p (depth_of p) (fst m) (snd m)) ms) = Some ids /\
    Permutation ids (blocks a b).
Lemma held_none a : held a a [].
Proof. split; [lia|]; exists []; rewrite blocks_none; auto. Qed.

Lemma zm_process_from : forall f max inp pos next acc a, held a next acc ->
  match zig_process_memory_from f room hollow p max inp pos next [] acc with
  | ZOk (b, ms) _ next' freed => freed = [] /\ (a <= next')%nat /\
      exists ids, zig_release_messages p b ms = Some ids /\ Permutation ids (blocks a next')
  | ZErr next' freed => (a <= next')%nat /\ part a next' freed
  | ZOther => True
  end.
Proof.
  induction f as [|f IH]; intros max inp pos next acc a H; cbn [zig_process_memory_from]; [exact I|].
  assert (DONE : forall q,
    match (match acc with [] => ZOk (None, acc) q next [] | _ :: _ => ZOk (Some next, acc) q (S next) [] end) with
    | ZOk (b, ms) _ next' freed => freed = [] /\ (a <= next')%nat /\
        exists ids, zig_release_messages p b ms = Some ids /\ Permutation ids (blocks a next')
    | ZErr next' freed => (a <= next')%nat /\ part a next' freed
    | ZOther => True
    end).
  { intro q; destruct H as (L & ids & E & P); unfold zig_release_messages; destruct acc as [|x acc].
    - split; [reflexivity|]; split; [exact L|]; exists ids; rewrite E; cbn [zig_free oapp]; now rewrite app_nil_r.
    - split; [reflexivity|]; split; [lia|]; exists (ids ++ [next]); rewrite E; split; [reflexivity|].
      apply (all_add a next); [lia|exact P|now rewrite blocks_next]. }
  destruct (_ || _); [apply DONE|].
  destruct (read_num NByte inp pos) as [[] q| |]; try exact I.
  destruct (z =? 0); [apply DONE|].
  destruct (tag_case (z - 1) (zig_message_type p)) as [t|] eqn:C.
  2:{ split; [apply H|apply part_none]. }
  destruct (zm_case z t C) as (d & D); pose proof (zm_read t d inp q next D) as A.
  destruct (zig_from_bytes_memory room hollow p t inp q next) as [v q' next' fr|next' fr|]; [| |exact I].
  - destruct A as (-> & L & ids & R & P); cbn [List.app]; apply IH.
    destruct H as (L0 & ids0 & E0 & P0); split; [lia|]; exists (ids0 ++ ids); split.
    + rewrite map_app, oconcat_app, E0; cbn [map oconcat fst snd]; unfold zig_release_message in R.
      now rewrite R, oapp_nil_r.
    + now apply (all_add a next).
  - destruct A as (L & P & _); cbn [List.app]; destruct H as (L0 & _); split; [lia|].
    apply part_more with next; [lia|exact P].
Qed.

Lemma zm_process max inp pos next :
  match zig_process_memory room hollow p max inp pos next with
  | ZOk (b, ms) _ next' freed => freed = [] /\ (next <= next')%nat /\
      exists ids, zig_release_messages p b ms = Some ids /\ Permutation ids (blocks next next')
  | ZErr next' freed => (next <= next')%nat /\ part next next' freed
  | ZOther => True
  end.
Proof.
  unfold zig_process_memory; destruct (_ && _); [|exact I]; destruct (max =? 0).
  - split; [reflexivity|]; split; [lia|]; exists []; now rewrite blocks_none.
  - apply zm_process_from, held_none.
Qed.
Lemma zm_stream max inp pos next b ms q next' freed :
  zig_process_memory room hollow p max inp pos next = ZOk (b, ms) q next' freed ->
  freed = [] /\ released_once next next' (zig_release_messages p b ms).
Proof.
  intro E; pose proof (zm_process max inp pos next) as A; rewrite E in A; destruct A as (F & L & ids & R & P).
  split; [exact F|]; exists ids; split; [exact R|now apply once].
Qed.
Lemma zm_stream_failed max inp pos next next' freed :
  zig_process_memory room hollow p max inp pos next = ZErr next' freed -> none_twice next next' freed.
Proof. intro E; pose proof (zm_process max inp pos next) as A; rewrite E in A; now apply part_twice. Qed.

Lemma zm_unpack data next :
  match zig_unpack_memory room hollow p data next with
  | ZOk (b, ms) _ next' freed => freed = [] /\ (next <= next')%nat /\
      exists ids, zig_release_messages p b ms = Some ids /\ Permutation ids (blocks next next')
  | ZErr next' freed => (next <= next')%nat /\ part next next' freed
  | ZOther => True
  end.
Proof.
  unfold zig_unpack_memory; destruct (_ && _); [|exact I]; destruct (_ <? _)%nat; [exact I|].
  destruct (list_eq_dec _ _ _); [|split; [lia|apply part_none]].
  destruct (read_num NU32 data 4) as [[] q| |]; try exact I; [|split; [lia|apply part_none]].
  destruct (_ <=? _); [exact I|]; destruct (_ =? 0).
  { split; [reflexivity|]; split; [lia|]; exists []; now rewrite blocks_none. }
  pose proof (zm_process z (skipn q data) 0 next) as A.
  destruct (zig_process_memory _ _ _ _ _ _ _) as [[b ms] q' next' fr|next' fr|]; [|exact A|exact I].
  destruct (_ || _); [|exact A].
  destruct A as (-> & L & ids & R & P); unfold zig_release_messages in R.
  cbn [zig_free] in *; split; [exact L|]; cbn [List.app].
  destruct (oconcat _) as [l|]; [|discriminate R]; cbn [oapp] in R; injection R as <-.
  exists l; rewrite Permutation_app_comm; exact P.
Qed.
Lemma zm_packed data next b ms q next' freed :
  zig_unpack_memory room hollow p data next = ZOk (b, ms) q next' freed ->
  freed = [] /\ released_once next next' (zig_release_messages p b ms).
Proof.
  intro E; pose proof (zm_unpack data next) as A; rewrite E in A; destruct A as (F & L & ids & R & P).
  split; [exact F|]; exists ids; split; [exact R|now apply once].
Qed.
Lemma zm_packed_failed data next next' freed :
  zig_unpack_memory room hollow p data next = ZErr next' freed -> none_twice next next' freed.
Proof. intro E; pose proof (zm_unpack data next) as A; rewrite E in A; now apply part_twice. Qed.

(** *** The same results *)

Lemma zm_tag (inp : list byte) pos : (pos < List.length inp)%nat -> exists b rest, skipn pos inp = b :: rest.
Proof.
  intro L; destruct (skipn pos inp) as [|b r] eqn:E; [|eauto].
  apply (f_equal (@List.length byte)) in E; rewrite skipn_length in E; cbn [List.length] in E; lia.
Qed.

Definition plain_pairs : list (string * zval) -> list (string * val) := map (fun m => (fst m, zig_value_of (snd m))).
Lemma zm_process_from_same : forall f max inp pos next freed acc,
  same_read plain_messages (zig_process_memory_from f room hollow p max inp pos next freed acc)
    (process_from f (zig_stream room) p max inp pos (plain_pairs acc)).
Proof.
  induction f as [|f IH]; intros max inp pos next freed acc; cbn [zig_process_memory_from process_from]; [exact I|].
  cbn [sm_finished sm_tag sm_case sm_read sm_lenient zig_stream].
  assert (LEN : List.length (plain_pairs acc) = List.length acc) by apply map_length.
  assert (DONE : forall q, same_read plain_messages
    (match acc with [] => ZOk (None, acc) q next freed | _ :: _ => ZOk (Some next, acc) q (S next) freed end)
    (ROk (plain_pairs acc) q)) by (intro q; destruct acc; split; reflexivity).
  rewrite LEN; destruct (List.length inp <=? pos)%nat eqn:G; cbn [orb]; [apply DONE|].
  destruct (negb _); [apply DONE|].
  apply Nat.leb_gt, zm_tag in G; destruct G as (b & rest & G).
  pose proof (byte_tag_ok inp pos b rest G) as BT; rewrite BT; unfold byte_tag in BT.
  destruct (read_num NByte inp pos) as [[] q| |]; try discriminate; injection BT as -> ->.
  destruct (_ =? 0); [apply DONE|].
  destruct (tag_case _ _) as [t|] eqn:C; [|exact I].
  destruct (zm_case _ t C) as (d & D); pose proof (zm_same t d inp (pos + 1) next D) as A; unfold same_read in A.
  destruct (zig_from_bytes_memory _ _ _ _ _ _ _) as [v q' next' fr|next' fr|], (zig_from_bytes _ _ _ _ _) as [v' q''| | | |];
    try contradiction; try exact I.
  destruct A as (-> & ->); specialize (IH max inp q' next' (freed ++ fr) (acc ++ [(t, v)])).
  unfold plain_pairs in IH; rewrite map_app in IH; exact IH.
Qed.
Lemma zm_process_same max inp pos next :
  same_read plain_messages (zig_process_memory room hollow p max inp pos next) (zig_process room p max inp pos).
Proof.
  unfold zig_process_memory, zig_process, process; destruct (_ && _); [|exact I]; destruct (_ =? 0); [now split|].
  apply (zm_process_from_same _ _ _ _ _ _ []).
Qed.
Lemma zm_unpack_same data next :
  same_read plain_messages (zig_unpack_memory room hollow p data next) (zig_unpack_data room p data).
Proof.
  unfold zig_unpack_memory, zig_unpack_data; destruct (_ && _) eqn:C; [|exact I]; destruct (_ <? _)%nat; [exact I|].
  destruct (list_eq_dec _ _ _); [|exact I].
  destruct (read_num NU32 data 4) as [[] q| |]; try exact I.
  destruct (_ <=? _); [exact I|]; unfold unpack_counted; destruct (_ =? 0) eqn:Z0; [split; [reflexivity|cbn; lia]|].
  pose proof (zm_process_same z (skipn q data) 0 next) as A; unfold zig_process in A; rewrite C in A; unfold same_read in A.
  destruct (zig_process_memory _ _ _ _ _ _ _) as [[b ms] q' next' fr|next' fr|], (process _ _ _ _ _) as [ms' q''| | | |];
    try contradiction; try exact I.
  destruct A as (-> & ->); unfold plain_messages; cbn [snd]; rewrite map_length.
  destruct (_ =? 0)%nat; cbn [orb]; [destruct b; exact I|].
  destruct (Z.of_nat (List.length ms) =? z); cbn [negb]; [split; reflexivity|destruct b; exact I].
Qed.

(** *** Fresh objects *)

Lemma fresh_fields : forall ms (fs : list (string * val)) (Q : var -> val -> Prop),
  Forall2 (fun m f => fst f = v_name m /\ Q m (snd f)) ms fs ->
  map (fun f => (fst f, zig_plain (snd f))) fs = combine (map v_name ms) (map (fun f => zig_plain (snd f)) fs) /\
  List.length ms = List.length fs.
Proof.
  intros ms fs Q F; induction F as [|m [n v] ms fs (E & _) _ (IH & L)]; cbn [map combine fst snd List.length]; [auto|].
  cbn [fst] in E; subst n; rewrite IH, L; auto.
Qed.

Lemma fresh_drop : forall f t v, fresh p t v -> fits_any p f t = true -> zig_drop p f t (zig_plain v) = Some [].
Proof.
  assert (FLAT : forall f t v, fresh p t v -> (forall s fs, declares p t s -> v = VStruct fs -> False) ->
    zig_drop p f t (zig_plain v) = Some []).
  { intros f t v FR NS; unfold zig_drop; destruct (is_simple p t) eqn:S; [reflexivity|].
    inversion FR; subst.
    - pose proof (zm_simple_num p W t k H) as S'; congruence.
    - reflexivity.
    - pose proof (zm_simple_enum p W t e H) as S'; congruence.
    - exfalso; eauto. }
  induction f as [|f IH]; intros t v FR FT.
  { apply FLAT; [exact FR|]; intros s fs D _.
    destruct (fits_any_members p 0 t s W D FT) as (d' & E & _); discriminate. }
  inversion FR; subst; try (apply FLAT; [exact FR|]; intros ? ? ? E; destruct k; discriminate E);
    try (apply FLAT; [exact FR|]; intros ? ? ? E; discriminate E).
  unfold zig_drop; destruct (is_simple p t); [reflexivity|].
  rewrite (proj2 (String.eqb_neq _ _) (proj1 (proj2 (declares_not_num p W t s H)))).
  cbn [zig_deinit zig_plain]; rewrite (find_declares p W t s H).
  destruct (fits_any_members p (Datatypes.S f) t s W H FT) as (d' & E & M); injection E as <-.
  destruct (fresh_fields _ _ (fun m v => (v_list m = true /\ v = VList []) \/ (v_list m = false /\ fresh p (v_type m) v)) H0) as (-> & L).
  pose (vs := map (fun f : string * val => zig_plain (snd f)) fs).
  apply zm_release_all with (vs := vs).
  - intros m I; now apply (wf_member_types p W t s).
  - apply zm_built; [apply (wf_member_nodup p W t s H)|]; unfold vs; now rewrite map_length.
  - unfold vs, owned; clear - H0 M IH; revert M; induction H0 as [|m [n v] ms fs (_ & Q) _ IHF]; intro M; cbn [map combine oconcat fst snd]; [reflexivity|].
    rewrite IHF by (intros x I; apply M; now right).
    assert (O : zig_own p f m (zig_plain v) = Some []).
    { unfold zig_own; cbn [snd] in Q; destruct Q as [(V & ->)|(V & FR)]; rewrite V; [reflexivity|].
      apply IH; [exact FR|]; apply M; now left. }
    now rewrite O.
Qed.

Lemma zm_fresh t s : declares p t s -> zig_release_message p t (zig_fresh_object p t) = Some [].
Proof.
  intro D; unfold zig_release_message, zig_fresh_object; apply fresh_drop; [now apply (zig_fresh p t s)|].
  now apply WF_fits_any.
Qed.
End Calls.
