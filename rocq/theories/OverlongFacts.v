(** Lists and strings that are too long for their size types, in languages that crash
    rather than write a wrong length. *)
From Verif Require Import Bytes BytesFacts ProtocolFacts3 WireFacts IR IRFacts DecFacts LangFacts WriterFacts.
From Verif Require Export CodecSpec.
Open Scope Z_scope.
Open Scope list_scope.

Lemma wbind_done_inv o f w' : wbind o f = WDone w' -> exists w, o = WDone w /\ f w = WDone w'.
Proof. destruct o; cbn [wbind]; intro H; try discriminate; eauto. Qed.

Lemma can_hold_names p ms fs : can_hold_members p ms fs -> map fst fs = map v_name ms.
Proof. revert fs; induction ms as [|m ms IH]; intros fs H; inversion H; subst; cbn; f_equal; auto. Qed.

Section Overlong.
Variable T : wt.
Variable p : protocol.
Hypothesis W : WF p.
Hypothesis TRAPS : wt_traps T = true.

Lemma put_len_fits k n w w' : k <> NBool -> put_len T k n w = WDone w' -> num_ok k (VInt (Z.of_nat n)).
Proof.
  unfold put_len; rewrite TRAPS; cbn [andb]; intros NB H.
  destruct (len_fits k n) eqn:L; cbn [negb] in H; [|discriminate].
  unfold len_fits in L; apply andb_true_iff in L; rewrite !Z.leb_le in L; now constructor.
Qed.

Lemma put_str_fits v w w' : wt_strlen T p = p_string_size_type p ->
  put_str T p v w = WDone w' -> in_range p "string" v.
Proof.
  intros STR D; unfold put_str in D; destruct v; try discriminate.
  destruct (string_size_num p W) as (k & K & NB); rewrite STR, K in D.
  apply wbind_done_inv in D as (w1 & D & _); constructor; exists k; split; [exact K|].
  eapply put_len_fits; eassumption.
Qed.

Lemma hold_num t k v : num_of t = Some k -> can_hold p t v -> in_range p t v.
Proof.
  intros K H; inversion H; subst; try (econstructor; eassumption); [discriminate|].
  destruct (declares_not_num p W t s) as (N & _); [assumption|congruence].
Qed.

Lemma hold_enum t e v : In (t, e) (p_enums p) -> can_hold p t v -> in_range p t v.
Proof.
  intros I H; destruct (enum_not_num p W t e I) as (N & NS & ND).
  inversion H; subst; try (eapply ir_enum; eassumption); [econstructor; eassumption|now destruct NS|].
  exfalso; eapply ND; eassumption.
Qed.

(** Without lists and strings there is nothing too long. *)
Lemma hold_fixed :
  (forall t n, fixed_size p t n -> forall v, can_hold p t v -> in_range p t v) /\
  (forall ms n, fixed_members p ms n -> forall fs, can_hold_members p ms fs -> in_range_members p ms fs).
Proof.
  apply fixed_mutind.
  - intros t n B v H; destruct (num_of t) as [k|] eqn:K; [eapply hold_num; eassumption|].
    exfalso; clear - B K; unfold base_size in B; cbn [In] in B.
    repeat destruct B as [B|B]; try (injection B as <- _; discriminate); contradiction.
  - intros t e n I B v H; eapply hold_enum; eassumption.
  - intros t s n D F IH v H; destruct (declares_not_num p W t s D) as (N & NS & NE).
    inversion H as [? ? ? K _| |? ? ? IE _|? s' ? D' HM]; subst; [congruence|now destruct NS|now destruct (NE e)|].
    pose proof (declares_unique p t s s' W D D') as <-; eapply ir_struct; eauto.
  - intros fs H; inversion H; constructor.
  - intros m ms a b VL F IH FM IHM fs H; inversion H; subst; [|congruence].
    constructor; auto.
Qed.

Section Call.
Variable call : string -> val -> wstate -> wout.
Definition call_fits : Prop :=
  forall t s v w w', declares p t s -> can_hold p t v -> call t v w = WDone w' -> in_range p t v.
Hypothesis CALL : call_fits.

Lemma one_fits s t v obj env w w' : len_as T p t -> wfetch s obj env = Some v ->
  can_hold p t v -> wexec T p call (wone p s t) obj env w = WDone w' -> in_range p t v.
Proof.
  intros STR F H D; unfold wone, enum_num in D.
  destruct (num_of t) as [k|] eqn:K; [eapply hold_num; eassumption|].
  destruct (String.eqb_spec t "string") as [->|NS].
  { rewrite wexec_one in D; cbn [wexec_stmt fst] in D; rewrite F in D.
    eapply put_str_fits; eauto. }
  destruct (lookup t (p_enums p)) as [e|] eqn:L.
  { apply lookup_In in L; eapply hold_enum; eassumption. }
  rewrite wexec_one in D; cbn [wexec_stmt fst] in D; rewrite F in D.
  inversion H; subst; try congruence.
  - apply lookup_None in L; exfalso; apply L, in_map_iff; now exists (t, e).
  - eapply CALL; eassumption.
Qed.

Lemma each_fits x t obj env : len_as T p t -> forall l w w', can_hold_all p t l ->
  each T p call x (wone p (SLocal x) t) obj env l w = WDone w' -> in_range_all p t l.
Proof.
  intro STR; induction l as [|v l IH]; intros w w' H D; inversion H; subst; [constructor|].
  cbn [each] in D; apply wbind_done_inv in D as (w1 & D1 & D2); constructor; [|eapply IH; eassumption].
  eapply one_fits; try eassumption; cbn [wfetch]; apply lookup_dict_set_eq.
Qed.

Definition member_fits (m : var) (code : list wstmt) : Prop :=
  forall obj env w w' v, lookup (v_name m) obj = Some v -> wexec T p call code obj env w = WDone w' ->
    if v_list m then forall l, v = VList l -> can_hold_all p (v_type m) l ->
      size_ok (p_list_size_type p) (List.length l) /\ in_range_all p (v_type m) l
    else can_hold p (v_type m) v -> in_range p (v_type m) v.

Lemma member_fits_one m : len_as T p (v_type m) -> v_list m = false ->
  member_fits m (wone p (SField (v_name m)) (v_type m)).
Proof.
  intros STR VL obj env w w' v L D; rewrite VL; intro H.
  exact (one_fits (SField (v_name m)) _ v obj env w w' STR L H D).
Qed.

Lemma member_fits_each m x k : len_as T p (v_type m) -> v_list m = true -> num_of (p_list_size_type p) = Some k ->
  member_fits m [WCount k (SField (v_name m)); WForEach x (SField (v_name m)) (wone p (SLocal x) (v_type m))].
Proof.
  intros STR VL K obj env w w' v L D; rewrite VL; intros l -> H.
  rewrite wexec_cons in D; apply wbind_done_inv in D as (w1 & D1 & D2); cbn [wexec_stmt fst snd wfetch] in D1.
  rewrite L in D1; split.
  - exists k; split; [exact K|]; eapply put_len_fits; [|eassumption].
    destruct (list_size_num p W) as (k' & K' & NB); congruence.
  - cbn [wexec_stmt snd] in D2; rewrite wexec_one, (wexec_foreach _ _ _ _ (SField (v_name m)) _ obj env _ _ L) in D2.
    eapply each_fits; eassumption.
Qed.

Lemma members_fit (code : var -> list wstmt) obj : forall ms,
  (forall m, In m ms -> member_fits m (code m)) ->
  forall fs env w w', (forall n v, In (n, v) fs -> lookup n obj = Some v) -> can_hold_members p ms fs ->
    wexec T p call (flat_map code ms) obj env w = WDone w' -> in_range_members p ms fs.
Proof.
  induction ms as [|m ms IH]; intros OK fs env w w' L H D; inversion H; subst; [constructor| |];
    cbn [flat_map] in D; destruct (wexec_app T p call (code m) obj env) as [env' E]; rewrite E in D;
    apply wbind_done_inv in D as (w1 & D1 & D2);
    pose proof (OK m (or_introl eq_refl) obj env w w1 _ (L _ _ (or_introl eq_refl)) D1) as X;
    match goal with V : v_list m = _ |- _ => rewrite V in X end.
  - constructor; auto; eapply IH; eauto; [intros; apply OK; now right|intros; apply L; now right].
  - destruct (X _ eq_refl) as [S A]; [assumption|].
    apply irm_list; auto; eapply IH; eauto; [intros; apply OK; now right|intros; apply L; now right].
Qed.
End Call.

Variable code : protocol -> struct -> list wstmt.

Section Body.
Hypothesis BODY : forall call t s fs w w', call_fits call -> declares p t s ->
  (forall n v, In (n, v) fs -> lookup n fs = Some v) -> can_hold_members p (s_members s) fs ->
  wexec T p call (code p s) fs [] w = WDone w' -> in_range_members p (s_members s) fs.

Lemma run_fits fuel : call_fits (wrun T p code fuel).
Proof.
  induction fuel as [|f IH]; intros t s v w w' D H E; [discriminate|].
  cbn [wrun] in E; rewrite (find_declares p W t s D) in E; destruct v; try discriminate.
  destruct (declares_not_num p W t s D) as (N & _).
  inversion H as [| | |? s' ? D' HM]; subst; [congruence|].
  pose proof (declares_unique p t s s' W D D') as <-.
  eapply ir_struct; [eassumption|]; eapply BODY; try eassumption.
  intros n v I; apply In_lookup; [|exact I].
  rewrite (can_hold_names _ _ _ HM); exact (wf_member_nodup p W t s D).
Qed.

Lemma write_fits : refuses_overlong p (write_with T code p).
Proof. exact (run_fits (depth_of p)). Qed.
End Body.

Variable mcode : struct -> var -> list wstmt.
Hypothesis CODE : forall t s, declares p t s -> code p s = flat_map (mcode s) (s_members s).
Hypothesis MEMBER : forall call t s m, call_fits call -> declares p t s -> In m (s_members s) ->
  member_fits call m (mcode s m).

Lemma write_members_fit : refuses_overlong p (write_with T code p).
Proof.
  apply write_fits; intros call t s fs w w' C D L H E; rewrite (CODE t s D) in E.
  eapply members_fit; [|exact L|exact H|exact E].
  intros m I; exact (MEMBER call t s m C D I).
Qed.
End Overlong.
