(** Generated Go: agreement with GoDec.v, and what that means for the format. *)
From Verif Require Export GoDec GoSpec RenameFacts TextFacts LangFacts StreamFacts CutFacts.
Open Scope Z_scope.
Open Scope list_scope.

Lemma go_prim_num t : go_prim t = num_of t.
Proof. revert t; unfold go_prim, prim, go_types; prim_tac. Qed.

Lemma go_kind_num p t k : num_of t = Some k -> go_kind p t = Some k.
Proof. intro K; unfold go_kind; now rewrite go_prim_num, K. Qed.

(** ** Zero values *)

Section Zero.
Variable p : protocol.
Hypothesis W : WF p.

Lemma go_kind_enum t e k : In (t, e) (p_enums p) -> num_of (e_encoding e) = Some k -> go_kind p t = Some k.
Proof.
  intros E K; unfold go_kind; destruct (enum_not_num p W t e E) as (A & _).
  now rewrite go_prim_num, A, (In_lookup _ _ _ (wf_enums_nodup p W) E), go_prim_num.
Qed.
Lemma go_kind_struct t s : declares p t s -> go_kind p t = None.
Proof.
  intro D; unfold go_kind; destruct (declares_not_num p W t s D) as (A & _ & C).
  rewrite go_prim_num, A; destruct (lookup t (p_enums p)) eqn:L; [|reflexivity].
  apply lookup_In in L; now apply C in L.
Qed.
Lemma go_kind_string : go_kind p "string" = None.
Proof.
  unfold go_kind; rewrite go_prim_num; cbn.
  destruct (lookup "string" (p_enums p)) as [e|] eqn:L; [|reflexivity].
  apply lookup_In, (enum_not_num p W) in L as (_ & X & _); congruence.
Qed.

Lemma go_fields_depth t : forall d d', fits_any p d t = true -> fits_any p d' t = true ->
  go_fields p d t = go_fields p d' t.
Proof.
  intros d; revert t; induction d as [|d IH]; intros t d' F F'.
  - cbn [go_fields]; destruct d' as [|d']; [reflexivity|]; cbn [go_fields].
    destruct (find_struct p t) as [s|] eqn:FS; [|reflexivity].
    apply declares_find in FS; destruct (fits_any_members p 0 t s W FS F) as (x & X & _); discriminate.
  - destruct (find_struct p t) as [s|] eqn:FS; [|destruct d'; cbn [go_fields]; rewrite ?FS; reflexivity].
    apply declares_find in FS as D.
    destruct (fits_any_members p (S d) t s W D F) as (x & X & FM); injection X as <-.
    destruct (fits_any_members p d' t s W D F') as (x & -> & FM').
    cbn [go_fields]; rewrite FS; apply map_ext_in; intros m M; f_equal.
    destruct (v_list m); [reflexivity|]; destruct (go_kind p (v_type m)); [reflexivity|].
    destruct (String.eqb _ _); [reflexivity|]; f_equal; apply IH; auto.
Qed.

(** A fresh object holds the zero values of its members. *)
Lemma go_fields_zero t s : declares p t s ->
  go_fields p (depth_of p) t = map (g_zero p) (s_members s).
Proof.
  intro D; pose proof (WF_fits_any p t W) as F.
  destruct (fits_any_members p (depth_of p) t s W D F) as (d & E & FM).
  rewrite E; cbn [go_fields]; rewrite (find_declares p W t s D); apply map_ext_in; intros m M.
  unfold g_zero, go_zero; f_equal; destruct (v_list m); [reflexivity|].
  destruct (go_kind p (v_type m)); [reflexivity|]; destruct (String.eqb _ _); [reflexivity|]; f_equal.
  apply go_fields_depth; [auto|]; apply WF_fits_any, W.
Qed.
End Zero.

(** ** The code for one value *)

Definition gives {A} (r : gres A) (o : outcome) (ok : A -> nat -> rstate -> Prop) : Prop :=
  match r with
  | GOk v pos => exists s, o = Done s /\ ok v pos s
  | GBad v pos => exists s, o = Fail s /\ ok v pos s
  | GTrap => o = Trap
  | GStuck => True
  end.

Lemma gives_weaken {A} (r : gres A) o (ok ok' : A -> nat -> rstate -> Prop) :
  gives r o ok -> (forall v pos s, ok v pos s -> ok' v pos s) -> gives r o ok'.
Proof. destruct r; cbn; auto; intros (s & -> & H) K; eauto. Qed.

Lemma set_nth_same {A} n (a : A) l : nth_error l n = Some a -> set_nth n a l = l.
Proof. revert n; induction l as [|x l IH]; intros [|n] E; cbn in *; try discriminate; [congruence|now rewrite IH]. Qed.

Lemma dict_set_same {A} k (a : A) d : lookup k d = Some a -> dict_set k a d = d.
Proof.
  induction d as [|[k' b] d IH]; cbn; [discriminate|].
  destruct (String.eqb_spec k k') as [->|N]; [now intros [= ->]|]; intro L; now rewrite IH.
Qed.

Lemma set_obj_same s : set_obj (r_obj s) s = s. Proof. destruct s; reflexivity. Qed.

(** A destination in the object. *)
Definition in_object (d : dst) (x : string) : Prop :=
  match d with DField _ => True | DElem _ i => i <> x | DLocal _ => False end.

Lemma fetch_same d x s s0 : in_object d x -> same_but x s s0 -> fetch d s0 = fetch d s.
Proof.
  destruct d as [f|f i|]; cbn; [| |easy]; intros N (A & B); rewrite A; [reflexivity|].
  destruct (lookup f (r_obj s)) as [[]|]; try reflexivity; unfold IR.index; now rewrite (B i N).
Qed.

Lemma fetch_store d x s v w : in_object d x -> fetch d s = Some v -> exists s', store d w s = Some s'.
Proof.
  destruct d as [f|f i|]; cbn; [| |easy]; intros N L.
  - unfold mem; rewrite L; eauto.
  - destruct (lookup f (r_obj s)) as [[]|]; try discriminate.
    destruct (IR.index _ _ _); [eauto|discriminate].
Qed.

Lemma fetch_store_same d x s v : in_object d x -> fetch d s = Some v -> store d v s = Some s.
Proof.
  destruct d as [f|f i|]; cbn; [| |easy]; intros N L.
  - unfold mem; rewrite L; now rewrite (dict_set_same _ _ _ L), set_obj_same.
  - destruct (lookup f (r_obj s)) as [[]|] eqn:LF; try discriminate.
    destruct (IR.index _ _ _) eqn:I; [|discriminate].
    now rewrite (set_nth_same _ _ _ L), (dict_set_same _ _ _ LF), set_obj_same.
Qed.

Section One.
Variable room : string -> Z.
Variable p : protocol.
Variable inp : list byte.
Variable call : string -> list (string * val) -> nat -> outcome.
Variable fuel : nat.
Hypothesis W : WF p.

Notation R := (go_rt room).
Notation exec := (exec R p inp call).
Notation g_dec := (g_dec room p inp).
Notation zero t := (go_zero p (depth_of p) t).

Definition filled (fs : list (string * val)) (pos : nat) (s : rstate) : Prop := r_obj s = fs /\ r_pos s = pos.

(** What is known about calls of the readers of other structs. *)
Hypothesis CALL : forall t s pos, declares p t s ->
  gives (g_top room p inp fuel t pos) (call t (go_fields p (depth_of p) t) pos) filled.

Lemma go_got {A} d x s s0 (f : A -> val) (z : val) (g : got A) h : in_object d x -> same_but x s s0 -> fetch d s = Some z ->
  h = match g with Got a pos => Got (f a) pos | Miss pos => Miss pos | Crash => Crash end ->
  gives (got_g f z g) (store_got d h s0) (put_to d x s).
Proof.
  intros IO SB Z ->; destruct g as [a q|q|]; cbn [got_g gives store_got].
  - assert (SB' : same_but x s (set_pos q s0)) by (eapply same_but_trans; [exact SB|apply same_but_pos]).
    destruct (fetch_store d x (set_pos q s0) z (f a) IO) as [s' E]; [now rewrite (fetch_same d x s _ IO SB')|].
    rewrite E; exists s'; split; [reflexivity|]; exists (set_pos q s0); auto.
  - assert (SB' : same_but x s (set_pos q s0)) by (eapply same_but_trans; [exact SB|apply same_but_pos]).
    exists (set_pos q s0); split; [reflexivity|]; exists (set_pos q s0); repeat split; try apply SB'.
    apply (fetch_store_same d x _ z IO); now rewrite (fetch_same d x s _ IO SB').
  - reflexivity.
Qed.

Lemma got_id {A} (g : got A) : g = match g with Got a pos => Got a pos | Miss pos => Miss pos | Crash => Crash end.
Proof. destruct g; reflexivity. Qed.

Lemma go_one_ok d n t s : declared_type p t -> in_object d ("_" +++ n) -> fetch d s = Some (zero t) ->
  gives (g_dec fuel t (r_pos s)) (exec (go_read_one p d n t) s) (put_to d ("_" +++ n) s).
Proof.
  intros T IO Z; unfold go_read_one.
  assert (SR := same_but_refl ("_" +++ n) s).
  destruct (type_cases p t W T) as [k K M S E L| -> E L|e k K M S IE E KE NB|st K M S E L].
  - rewrite S, E, go_prim_num, K.
    rewrite (fixed_is_simple p t (Z.of_nat (num_size k)) W (or_introl T)).
    2:{ constructor; apply num_of_base_size in K; tauto. }
    replace (g_dec fuel t (r_pos s)) with (g_num inp k (r_pos s)) by (destruct fuel; cbn [GoDec.g_dec]; now rewrite K).
    rewrite exec_one; cbn [exec_stmt]; unfold g_num.
    apply (go_got d _ s s (fun v => v)); auto using got_id.
    rewrite Z; unfold go_zero; now rewrite (go_kind_num p t k K).
  - replace (String.eqb "string" "string") with true by reflexivity.
    replace (g_dec fuel "string" (r_pos s)) with (got_g VStr (VStr []) (go_str p inp (r_pos s)))
      by (destruct fuel; cbn [GoDec.g_dec]; reflexivity).
    rewrite exec_one; cbn [exec_stmt rt_str go_rt].
    apply (go_got d _ s s VStr); auto.
    rewrite Z; unfold go_zero; rewrite (go_kind_string p W); reflexivity.
  - rewrite S, E, go_prim_num, KE; cbn [with_prim].
    replace (g_dec fuel t (r_pos s)) with (g_enum inp e (r_pos s)) by (destruct fuel; cbn [GoDec.g_dec]; now rewrite K, S, E).
    assert (Z0 : zero t = VInt 0).
    { unfold go_zero; rewrite (go_kind_enum p W t e k IE KE); destruct k; try reflexivity; congruence. }
    rewrite Z0 in Z.
    cbn [IR.exec exec_stmt]; unfold g_enum, g_num; rewrite KE; cbn [rt_num go_rt].
    destruct (go_read_num k inp (r_pos s)) as [v q|q|] eqn:RN; cbn [got_g gbind store_got obind].
    + cbn [store done_or_stuck obind]; change (r_env (set_local ?a ?b ?c)) with (dict_set a b (r_env c)); rewrite lookup_dict_set_eq, E.
      destruct v as [z| | | | |]; cbn [gives]; auto.
      cbn [rt_enum go_rt].
      set (s1 := set_local ("_" +++ n) (VInt z) (set_pos q s)).
      assert (SB1 : same_but ("_" +++ n) s s1).
      { split; [reflexivity|]; intros y Ny; cbn; now rewrite lookup_dict_set_neq. }
      destruct (only_declared e z) as [z'|]; cbn [gives obind].
      * cbn [set_local r_env]; rewrite lookup_dict_set_eq.
        assert (SB2 : same_but ("_" +++ n) s (set_local ("_" +++ n) (VInt z') s1)).
        { eapply same_but_trans; [exact SB1|apply same_but_local]. }
        destruct (fetch_store d _ (set_local ("_" +++ n) (VInt z') s1) (VInt 0) (VInt z') IO) as [s' SE];
          [now rewrite (fetch_same d _ s _ IO SB2)|].
        unfold set_local in SE |- *; rewrite SE; cbn [done_or_stuck obind]; exists s'; split; [reflexivity|].
        eexists; split; [exact SB2|]; split; [reflexivity|exact SE].
      * exists s1; split; [reflexivity|]; exists s1; split; [exact SB1|]; split; [reflexivity|].
        apply (fetch_store_same d _ _ _ IO); now rewrite (fetch_same d _ s _ IO SB1).
    + exists (set_pos q s); split; [reflexivity|]; exists (set_pos q s).
      split; [apply same_but_pos|]; split; [reflexivity|].
      apply (fetch_store_same d _ _ _ IO); now rewrite (fetch_same d _ s _ IO (same_but_pos _ _ _)).
    + reflexivity.
  - assert (D : declares p t st) by (left; now apply lookup_In).
    rewrite S, E, go_prim_num, K.
    destruct (is_simple p t) eqn:SM.
    + replace (g_dec fuel t (r_pos s)) with (got_g (fun v => v) (zero t) (go_raw p t inp (r_pos s)))
        by (destruct fuel; cbn [GoDec.g_dec]; now rewrite K, S, E, SM).
      rewrite exec_one; cbn [exec_stmt rt_raw go_rt].
      apply (go_got d _ s s (fun v => v)); auto using got_id.
    + rewrite exec_one; cbn [exec_stmt]; rewrite Z; unfold go_zero; rewrite (go_kind_struct p W t st D), S.
      pose proof (CALL t st (r_pos s) D) as C; unfold g_top in C.
      rewrite (find_declares p W t st D) in C.
      assert (ST : forall q w, exists s', store d w (set_pos q s) = Some s').
      { intros q w; eapply fetch_store; [exact IO|]; rewrite (fetch_same d _ s _ IO (same_but_pos _ _ _)); exact Z. }
      destruct fuel as [|f]; cbn [GoDec.g_dec]; rewrite K, S, E, SM, (find_declares p W t st D); [exact Logic.I|].
      destruct (g_members room p inp (g_dec f) (s_members st) (r_pos s)) as [fs q|fs q| |]; cbn [gives] in C |- *.
      * destruct C as (c & -> & <- & <-); cbn [returned]; destruct (ST (r_pos c) (VStruct (r_obj c))) as [s' SE]; rewrite SE.
        exists s'; split; [reflexivity|]; exists (set_pos (r_pos c) s); repeat split; auto.
      * destruct C as (c & -> & <- & <-); cbn [returned]; destruct (ST (r_pos c) (VStruct (r_obj c))) as [s' SE]; rewrite SE.
        exists s'; split; [reflexivity|]; exists (set_pos (r_pos c) s); repeat split; auto.
      * now rewrite C.
      * exact Logic.I.
Qed.

(** ** Lists *)

Lemma index_at_end s i (a b : list val) j : lookup i (r_env s) = Some (VInt (Z.of_nat j)) ->
  List.length a = j -> (0 < List.length b)%nat -> IR.index (r_env s) i (List.length (a ++ b)) = Some j.
Proof.
  intros L A B; unfold IR.index; rewrite L.
  destruct (Z.leb_spec 0 (Z.of_nat j)); [|lia]; cbn [andb].
  destruct (Z.ltb_spec (Z.of_nat j) (Z.of_nat (List.length (a ++ b)))) as [_|X]; [now rewrite Nat2Z.id|].
  rewrite app_length in X; lia.
Qed.

Lemma go_loop_ok n t : declared_type p t -> forall k a obj s,
  r_obj s = dict_set n (VList (a ++ repeat (zero t) k)) obj ->
  gives (g_elems p (g_dec fuel) t k (r_pos s))
    (exec_loop R p inp call "i1" (go_read_one p (DElem n "i1") n t) k (Z.of_nat (List.length a)) s)
    (fun vs pos s' => r_obj s' = dict_set n (VList (a ++ vs)) obj /\ r_pos s' = pos).
Proof.
  intros T; induction k as [|k IH]; intros a obj s O.
  { cbn; exists s; auto. }
  cbn [exec_loop g_elems].
  set (s0 := set_local "i1" _ s).
  assert (LI : lookup "i1" (r_env s0) = Some (VInt (Z.of_nat (List.length a)))) by (cbn; now rewrite lookup_dict_set_eq).
  assert (IX : forall s1, lookup "i1" (r_env s1) = Some (VInt (Z.of_nat (List.length a))) ->
     IR.index (r_env s1) "i1" (List.length (a ++ repeat (zero t) (S k))) = Some (List.length a)).
  { intros s1 L1; apply index_at_end; [exact L1|reflexivity|cbn; lia]. }
  assert (Z : fetch (DElem n "i1") s0 = Some (zero t)).
  { cbn [fetch]; change (r_obj s0) with (r_obj s); rewrite O, lookup_dict_set_eq, (IX s0 LI).
    rewrite nth_error_app2 by lia; rewrite Nat.sub_diag; reflexivity. }
  assert (NE : "i1"%string <> ("_" +++ n)%string) by discriminate.
  assert (X := go_one_ok (DElem n "i1") n t s0 T NE Z).
  change (r_pos s0) with (r_pos s) in X.
  assert (ST : forall v q s1, put_to (DElem n "i1") ("_" +++ n) s0 v q s1 ->
     r_obj s1 = dict_set n (VList (a ++ v :: repeat (zero t) k)) obj /\ r_pos s1 = q).
  { intros v q s1 (s2 & (A & B) & P & STO); cbn [store] in STO.
    rewrite A in STO; change (r_obj s0) with (r_obj s) in STO; rewrite O, lookup_dict_set_eq in STO.
    rewrite (IX s2) in STO by (rewrite B; [exact LI|exact NE]).
    injection STO as <-; cbn [r_obj set_obj r_pos]; split; [|exact P].
    rewrite dict_set_twice; cbn [repeat]; now rewrite set_nth_app. }
  destruct (g_dec fuel t (r_pos s)) as [v q|v q| |]; cbn [gives gbind] in X |- *.
  - destruct X as (s1 & -> & PT); cbn [obind]; apply ST in PT as (O1 & P1).
    specialize (IH (a ++ [v]) obj s1); rewrite <- app_assoc in IH; specialize (IH O1).
    replace (Z.of_nat (List.length a) + 1) with (Z.of_nat (List.length (a ++ [v]))) by (rewrite app_length; cbn; lia).
    rewrite P1 in IH.
    destruct (g_elems p (g_dec fuel) t k q) as [vs q'|vs q'| |]; cbn [gives gbind] in IH |- *; auto;
      destruct IH as (s2 & E2 & O2 & P2); exists s2; (split; [exact E2|]); rewrite <- app_assoc in O2; auto.
  - destruct X as (s1 & -> & PT); cbn [obind]; apply ST in PT; eauto.
  - now rewrite X.
  - exact Logic.I.
Qed.

(** ** Members *)

Lemma go_member_ok m s : declared_type p (v_type m) -> lookup (v_name m) (r_obj s) = Some (snd (g_zero p m)) ->
  gives (g_member room p inp (g_dec fuel) m (r_pos s)) (exec (go_read p m) s)
    (fun v pos s' => r_obj s' = dict_set (v_name m) v (r_obj s) /\ r_pos s' = pos).
Proof.
  intros T L; unfold go_read, g_member, g_zero in *; cbn [snd] in L; destruct (v_list m) eqn:VL.
  - unfold g_list; destruct (list_size_num p W) as (k & K & NB).
    rewrite go_prim_num, K; cbn [with_prim]; unfold g_num.
    set (l := (v_name m +++ "_Len")%string).
    remember (RFor "i1" (DLocal l) (go_read_one p (DElem (v_name m) "i1") (v_name m) (v_type m))) as F eqn:EF.
    cbn [IR.exec exec_stmt rt_num go_rt].
    destruct (go_read_num k inp (r_pos s)) as [v q|q|]; cbn [got_g gbind store_got obind].
    + cbn [store done_or_stuck obind fetch set_local set_pos r_env r_obj]; rewrite lookup_dict_set_eq.
      destruct v as [z| | | | |]; cbn [gives]; auto.
      cbn [rt_make go_rt]; unfold go_make.
      destruct ((z <? 0) || (room (v_type m) <? z)) eqn:G; cbn [guard gives]; [reflexivity|].
      cbn [done_or_stuck obind fetch rt_zero go_rt store set_local set_pos r_obj]; unfold mem; rewrite L.
      cbn [done_or_stuck obind].
      set (s1 := set_obj _ _).
      rewrite EF, (exec_for R p inp call); cbn [fetch].
      replace (lookup l (r_env s1)) with (Some (VInt z)) by (cbn; now rewrite lookup_dict_set_eq).
      cbn [rt_for go_rt guard].
      pose proof (go_loop_ok (v_name m) (v_type m) T (Z.to_nat z) [] (r_obj s) s1 eq_refl) as LO.
      cbn [List.length] in LO; change (Z.of_nat 0) with 0 in LO; change (r_pos s1) with q in LO.
      destruct (g_elems p (g_dec fuel) (v_type m) (Z.to_nat z) q) as [vs q'|vs q'| |]; cbn [gives gbind] in LO |- *.
      * destruct LO as (s2 & -> & O2 & P2); cbn [obind]; eauto.
      * destruct LO as (s2 & -> & O2 & P2); cbn [obind]; eauto.
      * now rewrite LO.
      * exact Logic.I.
    + exists (set_pos q s); split; [reflexivity|]; cbn; split; [|reflexivity].
      now rewrite (dict_set_same _ _ _ L).
    + reflexivity.
  - pose proof (go_one_ok (DField (v_name m)) (v_name m) (v_type m) s T Logic.I L) as X.
    eapply gives_weaken; [exact X|]; intros v q s' (s0 & (A & B) & P & ST); cbn [store] in ST.
    rewrite A in ST; unfold mem in ST; rewrite L in ST; injection ST as <-; cbn; auto.
Qed.

Lemma go_members_ok ms : (forall m, In m ms -> declared_type p (v_type m)) ->
  NoDup (map v_name ms) -> forall pre s, r_obj s = pre ++ map (g_zero p) ms ->
  (forall m, In m ms -> ~ In (v_name m) (map fst pre)) ->
  gives (g_members room p inp (g_dec fuel) ms (r_pos s)) (exec (flat_map (go_read p) ms) s)
    (fun fs pos s' => r_obj s' = pre ++ fs /\ r_pos s' = pos).
Proof.
  intros T; induction ms as [|m ms IH]; intros ND pre s O DJ.
  { cbn in *; exists s; auto. }
  cbn [flat_map g_members]; rewrite exec_app; cbn [map] in ND; inversion ND as [|? ? NI ND']; subst.
  assert (NP : ~ In (v_name m) (map fst pre)) by (apply DJ; now left).
  assert (L : lookup (v_name m) (r_obj s) = Some (snd (g_zero p m))).
  { rewrite O; clear -NP; induction pre as [|[k a] pre IH]; cbn in *.
    - now rewrite String.eqb_refl.
    - destruct (String.eqb_spec (v_name m) k); [subst; tauto|apply IH; tauto]. }
  pose proof (go_member_ok m s (T m (or_introl eq_refl)) L) as X.
  assert (H : forall v s1, r_obj s1 = dict_set (v_name m) v (r_obj s) ->
    r_obj s1 = pre ++ (v_name m, v) :: map (g_zero p) ms).
  { intros v s1 ->; rewrite O; cbn [map]; unfold g_zero at 1; now rewrite dict_set_here. }
  destruct (g_member room p inp (g_dec fuel) m (r_pos s)) as [v q|v q| |]; cbn [gives gbind] in X |- *.
  - destruct X as (s1 & -> & O1 & <-); cbn [obind]; apply H in O1.
    specialize (IH (fun m' I => T m' (or_intror I)) ND' (pre ++ [(v_name m, v)]) s1).
    rewrite <- app_assoc in IH; specialize (IH O1).
    assert (DJ1 : forall m', In m' ms -> ~ In (v_name m') (map fst (pre ++ [(v_name m, v)]))).
    { intros m' I; rewrite map_app, in_app_iff; cbn; intros [A|[A|[]]].
      - exact (DJ m' (or_intror I) A).
      - apply NI; rewrite A; now apply in_map. }
    specialize (IH DJ1).
    destruct (g_members room p inp (g_dec fuel) ms (r_pos s1)) as [fs q'|fs q'| |]; cbn [gives gbind] in IH |- *; auto;
      destruct IH as (s2 & E2 & O2 & P2); exists s2; (split; [exact E2|]); rewrite <- app_assoc in O2; auto.
  - destruct X as (s1 & -> & O1 & <-); cbn [obind]; apply H in O1; eauto.
  - now rewrite X.
  - exact Logic.I.
Qed.
End One.

Section Run.
Variable room : string -> Z.
Variable p : protocol.
Variable inp : list byte.
Hypothesis W : WF p.

Lemma go_run_gives fuel : forall t s pos, declares p t s ->
  gives (g_top room p inp fuel t pos) (run (go_rt room) p go_reader inp fuel t (go_fields p (depth_of p) t) pos) filled.
Proof.
  induction fuel as [|f IH]; intros t s pos D; unfold g_top; rewrite (find_declares p W t s D); [exact Logic.I|].
  cbn [run]; rewrite (find_declares p W t s D).
  pose proof (go_members_ok room p inp (run (go_rt room) p go_reader inp f) f W IH (s_members s)) as X.
  specialize (X (fun m I => wf_member_types p W t s m D I) (wf_member_nodup p W t s D) []
    {| r_pos := pos; r_obj := go_fields p (depth_of p) t; r_env := [] |}).
  cbn [r_obj r_pos] in X; apply X; [apply (go_fields_zero p W t s D)|easy].
Qed.

Definition g_seen (r : gres (list (string * val))) : res val :=
  match r with GOk fs q => ROk (VStruct fs) q | GBad _ _ => RErr | GTrap => RTrap | GStuck => RStuck end.

Lemma go_read_gives t s pos : declares p t s -> go_compiles p = true ->
  g_top room p inp (depth_of p) t pos <> GStuck ->
  go_from_bytes room p t inp pos = g_seen (g_top room p inp (depth_of p) t pos).
Proof.
  intros D C N; unfold go_from_bytes, read_with; rewrite C; cbn [rt_init go_rt].
  pose proof (go_run_gives (depth_of p) t s pos D) as X.
  destruct (g_top room p inp (depth_of p) t pos) as [fs q|fs q| |]; cbn [gives g_seen] in *.
  - destruct X as (s' & -> & <- & <-); reflexivity.
  - destruct X as (s' & -> & <- & <-); reflexivity.
  - now rewrite X.
  - congruence.
Qed.
End Run.

(** ** Primitive reads *)

Lemma go_take_got n inp pos bs q : go_take n inp pos = Got bs q <->
  (exists rest, skipn pos inp = bs ++ rest) /\ List.length bs = n /\ q = (pos + n)%nat.
Proof.
  unfold go_take; destruct (Nat.leb_spec n (List.length inp - pos)) as [L|L].
  - split.
    + intros [= <- <-]; split; [exists (skipn n (skipn pos inp)); now rewrite firstn_skipn|].
      rewrite firstn_length, skipn_length; lia.
    + intros ((rest & E) & <- & ->); now rewrite E, firstn_app_exact.
  - split; [discriminate|]; intros ((rest & E) & <- & _).
    apply (f_equal (@List.length _)) in E; rewrite skipn_length, app_length in E; lia.
Qed.

Lemma go_take_miss n inp pos q : go_take n inp pos = Miss q -> (pos <= q /\ List.length inp <= q)%nat.
Proof. unfold go_take; destruct (_ <=? _)%nat; [discriminate|]; intros [= <-]; lia. Qed.

Lemma go_take_crash n inp pos : go_take n inp pos <> Crash.
Proof. unfold go_take; destruct (_ <=? _)%nat; discriminate. Qed.

Lemma go_take_dry n inp pos : (0 < n)%nat -> (List.length inp <= pos)%nat -> exists q, go_take n inp pos = Miss q.
Proof. intros N L; unfold go_take; destruct (Nat.leb_spec n (List.length inp - pos)); [lia|eauto]. Qed.

Lemma go_num_got k inp pos v q : go_read_num k inp pos = Got v q <->
  exists bs rest, skipn pos inp = bs ++ rest /\ wire_num reading k v bs /\ q = (pos + List.length bs)%nat.
Proof.
  unfold go_read_num; split.
  - destruct (go_take (num_size k) inp pos) as [bs q'|q'|] eqn:T; try discriminate; intros [= <- <-].
    apply go_take_got in T as ((rest & E) & L & ->).
    exists bs, rest; split; [exact E|]; split; [now apply num_val_spec|lia].
  - intros (bs & rest & E & N & ->); apply num_val_spec in N as [L ->].
    rewrite (proj2 (go_take_got (num_size k) inp pos bs (pos + List.length bs))); [reflexivity|].
    split; [eauto|]; split; lia.
Qed.

Lemma go_num_miss k inp pos q : go_read_num k inp pos = Miss q -> (pos <= q /\ List.length inp <= q)%nat.
Proof.
  unfold go_read_num; destruct (go_take _ _ _) eqn:T; try discriminate; intros [= <-]; now apply go_take_miss in T.
Qed.
Lemma go_num_crash k inp pos : go_read_num k inp pos <> Crash.
Proof.
  unfold go_read_num; destruct (go_take _ _ _) eqn:T; try discriminate; now apply go_take_crash in T.
Qed.
Lemma go_num_dry k inp pos : (List.length inp <= pos)%nat -> exists q, go_read_num k inp pos = Miss q.
Proof.
  intro L; unfold go_read_num; destruct (go_take_dry (num_size k) inp pos (num_size_pos k) L) as [q ->]; eauto.
Qed.

Lemma g_num_ok inp k pos v q : g_num inp k pos = GOk v q <->
  exists bs rest, skipn pos inp = bs ++ rest /\ wire_num reading k v bs /\ q = (pos + List.length bs)%nat.
Proof.
  rewrite <- go_num_got; unfold g_num; destruct (go_read_num k inp pos); cbn [got_g]; split; intro H; congruence.
Qed.
Lemma g_num_bad inp k pos v q : g_num inp k pos = GBad v q -> (pos <= q /\ List.length inp <= q)%nat.
Proof.
  unfold g_num; destruct (go_read_num k inp pos) eqn:R; cbn [got_g]; try discriminate; intros [= _ <-].
  now apply go_num_miss in R.
Qed.

(** ** Strings *)

Section Str.
Variable p : protocol.
Hypothesis W : WF p.

Lemma go_str_cases inp pos s q : go_str p inp pos = Got s q ->
  (exists lb rest, skipn pos inp = lb ++ s ++ rest /\
    wire_size reading (p_string_size_type p) (List.length s) lb /\ q = (pos + List.length lb + List.length s)%nat)
  \/ (s = [] /\ pos <= q /\ List.length inp <= q)%nat.
Proof.
  unfold go_str; destruct (string_size_num p W) as (k & K & NB); rewrite go_prim_num, K.
  destruct (go_read_num k inp pos) as [v q'|q'|] eqn:R.
  - apply go_num_got in R as (lb & rest & E & N & ->); destruct (integral_vint _ _ _ _ NB N) as [z ->].
    destruct (Z.ltb_spec z 0); [discriminate|].
    destruct (Z.leb_spec z (Z.of_nat (List.length inp - (pos + List.length lb)))) as [L|L]; [|discriminate].
    intros [= <- <-]; left.
    pose proof (at_next _ _ _ _ E) as X.
    assert (LF : List.length (firstn (Z.to_nat z) (skipn (pos + List.length lb) inp)) = Z.to_nat z).
    { rewrite firstn_length, skipn_length; lia. }
    exists lb, (skipn (Z.to_nat z) rest).
    rewrite LF, X, firstn_skipn; split; [exact E|]; split; [|reflexivity].
    exists k; split; [exact K|]; now rewrite Z2Nat.id.
  - apply go_num_miss in R as [A B]; cbn [Z.ltb].
    destruct (Z.leb_spec 0 (Z.of_nat (List.length inp - q'))) as [L|L]; [|lia].
    intros [= <- <-]; right; cbn [Z.to_nat]; split; [reflexivity|lia].
  - now apply go_num_crash in R.
Qed.

Lemma go_str_miss inp pos q : go_str p inp pos <> Miss q.
Proof.
  unfold go_str; destruct (go_prim _); [|discriminate].
  destruct (go_read_num n inp pos) as [[z| | | | |] ?|?|]; repeat (destruct (_ <? _); [discriminate|]);
    destruct (_ <=? _); discriminate.
Qed.

Lemma go_str_forward inp pos s lb rest : skipn pos inp = lb ++ s ++ rest ->
  wire_size reading (p_string_size_type p) (List.length s) lb ->
  go_str p inp pos = Got s (pos + List.length lb + List.length s).
Proof.
  intros E (k & K & N); unfold go_str; rewrite go_prim_num, K.
  rewrite (proj2 (go_num_got k inp pos (VInt (Z.of_nat (List.length s))) (pos + List.length lb))) by eauto.
  destruct (Z.ltb_spec (Z.of_nat (List.length s)) 0); [lia|].
  pose proof (at_next _ _ _ _ E) as X.
  assert (LX := f_equal (@List.length _) X); rewrite skipn_length, app_length in LX.
  destruct (Z.leb_spec (Z.of_nat (List.length s)) (Z.of_nat (List.length inp - (pos + List.length lb)))); [|lia].
  rewrite Nat2Z.id, X, firstn_app_exact; reflexivity.
Qed.
End Str.

(** ** Structs read as a whole *)

Section Members.
Variable rd : bool -> string -> list byte -> option (val * list byte).
Variable ro : bool.
Fixpoint bin_members (ms : list var) (bs : list byte) : option (list (string * val) * list byte) :=
  match ms with
  | [] => Some ([], bs)
  | m :: r =>
      match rd (ro || negb (go_exported (v_name m))) (v_type m) bs with
      | Some (v, b1) =>
          match bin_members r b1 with
          | Some (fs, b2) => Some ((v_name m, v) :: fs, b2)
          | None => None
          end
      | None => None
      end
  end.
End Members.

Lemma bin_decode_struct p d ro t s bs : go_kind p t = None -> find_struct p t = Some s ->
  bin_decode p (S d) ro t bs =
  match bin_members (bin_decode p d) ro (s_members s) bs with Some (fs, r) => Some (VStruct fs, r) | None => None end.
Proof. intros K F; cbn [bin_decode]; rewrite K, F; reflexivity. Qed.

Lemma bin_decode_num p d ro t k bs : go_kind p t = Some k ->
  bin_decode p d ro t bs = if ro then None else Some (num_val k (firstn (num_size k) bs), skipn (num_size k) bs).
Proof. intro K; destruct d; cbn [bin_decode]; rewrite K; reflexivity. Qed.

Lemma capital_exported n : capital_first n -> go_exported n = true.
Proof.
  destruct n as [|c n]; cbn; [easy|]; intro H; unfold capital in H.
  destruct c as [[] [] [] [] [] [] [] []]; cbn in H; try lia; reflexivity.
Qed.

Section Bin.
Variable p : protocol.
Hypothesis W : WF p.

Lemma fixed_struct t s n : declares p t s -> fixed_size p t n -> fixed_members p (s_members s) n.
Proof.
  intros D F; destruct (declares_not_num p W t s D) as (A & _ & C).
  inversion F as [? ? B|? e ? E|? st ? D' M]; subst.
  - apply base_size_In, num_of_base in B as [k B]; congruence.
  - now apply C in E.
  - now rewrite <- (declares_unique p t s st W D D') in M.
Qed.

Lemma fixed_num t k n : num_of t = Some k -> fixed_size p t n -> n = Z.of_nat (num_size k).
Proof.
  intros K F; eapply (proj1 (fixed_size_fun p W)); [exact F|].
  constructor; apply num_of_base_size in K; tauto.
Qed.

Lemma fixed_enum t e k n : In (t, e) (p_enums p) -> num_of (e_encoding e) = Some k -> fixed_size p t n ->
  n = Z.of_nat (num_size k).
Proof.
  intros E K F; eapply (proj1 (fixed_size_fun p W)); [exact F|].
  eapply fs_enum; [exact E|]; apply num_of_base_size in K; tauto.
Qed.

Lemma fixed_string n : ~ fixed_size p "string" n.
Proof.
  intro F; inversion F as [? ? B|? e ? E|? st ? D]; subst.
  - apply base_size_In in B; cbn in B; intuition discriminate.
  - apply (enum_not_num p W) in E; tauto.
  - apply (declares_not_num p W) in D; tauto.
Qed.

Lemma fixed_simple t n : declared_type p t -> fixed_size p t n -> is_simple p t = true.
Proof. intros T F; eapply fixed_is_simple; [exact W|now left|exact F]. Qed.

Variable md : mode.
Hypothesis TRUE : any_true md = true.

Lemma reading_le : mode_le reading md.
Proof. split; cbn; [intros _; exact TRUE|discriminate]. Qed.

Lemma bin_num k bs : (num_size k <= List.length bs)%nat ->
  wire_num md k (num_val k (firstn (num_size k) bs)) (firstn (num_size k) bs).
Proof.
  intro L; apply (wire_num_mode reading md); [exact reading_le|].
  apply num_val_spec; split; [rewrite firstn_length; lia|reflexivity].
Qed.

Hypothesis ENUMS : any_enum md = true \/ enumless p.

Lemma bin_back d : forall ro t bs n v r, declared_type p t -> (any_enum md = true \/ ~ is_enum p t) ->
  bin_decode p d ro t bs = Some (v, r) -> fixed_size p t n -> n <= Z.of_nat (List.length bs) ->
  exists a, bs = a ++ r /\ Z.of_nat (List.length a) = n /\ wire_in md p t v a.
Proof.
  assert (NUM : forall d ro t k bs v r, go_kind p t = Some k -> bin_decode p d ro t bs = Some (v, r) ->
    (num_size k <= List.length bs)%nat ->
    bs = firstn (num_size k) bs ++ r /\ List.length (firstn (num_size k) bs) = num_size k /\
    wire_num md k v (firstn (num_size k) bs)).
  { intros d0 ro t k bs v r K; rewrite (bin_decode_num _ _ _ _ _ _ K); destruct ro; [discriminate|].
    intros [= <- <-] L; rewrite firstn_skipn; split; [reflexivity|]; split; [rewrite firstn_length; lia|now apply bin_num]. }
  induction d as [|d IH]; intros ro t bs n v r T EN B F L;
    destruct (type_cases p t W T) as [k K M S E X| -> E X|e k K M S IE E KE NB|st K M S E X].
  1,5: pose proof (fixed_num t k n K F); subst n;
    destruct (NUM _ _ _ _ _ _ _ (go_kind_num p t k K) B) as (A & LA & N); [lia|];
    exists (firstn (num_size k) bs); rewrite LA; repeat split; auto; econstructor; eassumption.
  1,4: now apply fixed_string in F.
  1,3: pose proof (fixed_enum t e k n IE KE F); subst n;
    destruct (NUM _ _ _ _ _ _ _ (go_kind_enum p W t e k IE KE) B) as (A & LA & N); [lia|];
    exists (firstn (num_size k) bs); rewrite LA; repeat split; auto;
    destruct (integral_vint _ _ _ _ NB N) as [z ->]; eapply w_enum; try eassumption;
    left; destruct EN as [EN|EN]; [exact EN|exfalso; apply EN; now exists e].
  all: assert (IS : In (t, st) (p_structs p)) by now apply lookup_In.
  all: assert (D : declares p t st) by now left.
  - cbn [bin_decode] in B; rewrite (go_kind_struct p W t st D), (find_declares p W t st D) in B; discriminate.
  - rewrite (bin_decode_struct p d ro t st bs (go_kind_struct p W t st D) (find_declares p W t st D)) in B.
    destruct (bin_members (bin_decode p d) ro (s_members st) bs) as [[fs r']|] eqn:BM; [|discriminate].
    injection B as <- <-.
    assert (G : forall ms bs fs r n, incl ms (s_members st) -> bin_members (bin_decode p d) ro ms bs = Some (fs, r) ->
      fixed_members p ms n -> n <= Z.of_nat (List.length bs) ->
      exists a, bs = a ++ r /\ Z.of_nat (List.length a) = n /\ wire_members md p ms fs a).
    { clear bs fs r' n BM F L; induction ms as [|m ms IHm]; intros bs fs r n IN BM F L; cbn [bin_members] in BM.
      - injection BM as <- <-; inversion F; subst; exists []; repeat split; constructor.
      - inversion F as [|? ? x y VL Fa Fb]; subst.
        destruct (bin_decode p d _ (v_type m) bs) as [[v b1]|] eqn:B1; [|discriminate].
        destruct (bin_members (bin_decode p d) ro ms b1) as [[fs' b2]|] eqn:B2; [|discriminate].
        injection BM as <- <-.
        assert (IM : In m (s_members st)) by (apply IN; now left).
        pose proof (proj2 (fixed_nonneg p) _ _ Fb) as Y.
        destruct (IH _ _ _ _ _ _ (wf_member_types p W t st m D IM)
          ltac:(destruct ENUMS as [N|N]; [now left|right; exact (N t st m IS IM)]) B1 Fa ltac:(lia)) as (a & -> & LA & WA).
        rewrite app_length in L.
        destruct (IHm b1 fs' b2 y (fun z I => IN z (or_intror I)) B2 Fb ltac:(lia)) as (b & -> & LB & WB).
        exists (a ++ b); rewrite app_assoc; split; [reflexivity|]; split; [rewrite app_length; lia|].
        constructor; [constructor|]; assumption. }
    destruct (G _ _ _ _ _ (incl_refl _) BM (fixed_struct t st n D F) L) as (a & A & LA & WA).
    exists a; repeat split; auto; econstructor; eassumption.
Qed.
End Bin.

Section BinTotal.
Variable p : protocol.
Hypothesis W : WF p.
Hypothesis CAPS : capitals p.

Lemma bin_total d : forall t bs n, declared_type p t -> fits_any p d t = true -> fixed_size p t n ->
  exists v r, bin_decode p d false t bs = Some (v, r).
Proof.
  induction d as [|d IH]; intros t bs n T FT F;
    destruct (type_cases p t W T) as [k K M S E X| -> E X|e k K M S IE E KE NB|st K M S E X].
  1,5: rewrite (bin_decode_num _ _ _ _ _ _ (go_kind_num p t k K)); eauto.
  1,4: exfalso; revert F; now apply fixed_string.
  1,3: rewrite (bin_decode_num _ _ _ _ _ _ (go_kind_enum p W t e k IE KE)); eauto.
  all: assert (IS : In (t, st) (p_structs p)) by now apply lookup_In.
  all: assert (D : declares p t st) by now left.
  all: destruct (fits_any_members p _ t st W D FT) as (d' & ED & FM); try discriminate ED; injection ED as <-.
  rewrite (bin_decode_struct p d false t st bs (go_kind_struct p W t st D) (find_declares p W t st D)).
  assert (G : forall ms bs n, incl ms (s_members st) -> fixed_members p ms n ->
    exists fs r, bin_members (bin_decode p d) false ms bs = Some (fs, r)).
  { clear bs n F; induction ms as [|m ms IHm]; intros bs n IN F; cbn [bin_members]; [eauto|].
    inversion F as [|? ? x y VL Fa Fb]; subst.
    assert (IM : In m (s_members st)) by (apply IN; now left).
    rewrite (capital_exported _ (CAPS t st m IS IM)); cbn [negb orb].
    destruct (IH (v_type m) bs x (wf_member_types p W t st m D IM) (FM m IM) Fa) as (v & b1 & ->).
    destruct (IHm b1 y (fun z I => IN z (or_intror I)) Fb) as (fs & b2 & ->); eauto. }
  destruct (G _ bs n (incl_refl _) (fixed_struct p W t st n D F)) as (fs & r & ->); eauto.
Qed.
End BinTotal.

(** ** The reference reader of Go *)

Section GoRef.
Variable room : string -> Z.
Variable p : protocol.
Hypothesis W : WF p.
Notation g_dec := (g_dec room p).
Notation g_members := (g_members room p).
Notation g_member := (g_member room p).
Notation zero t := (go_zero p (depth_of p) t).

Lemma g_dec_num inp f t k pos : num_of t = Some k -> g_dec inp f t pos = g_num inp k pos.
Proof. intro K; destruct f; cbn [GoDec.g_dec]; now rewrite K. Qed.
Lemma g_dec_str inp f pos : g_dec inp f "string" pos = got_g VStr (VStr []) (go_str p inp pos).
Proof. destruct f; reflexivity. Qed.
Lemma g_dec_enum inp f t e pos : In (t, e) (p_enums p) -> g_dec inp f t pos = g_enum inp e pos.
Proof.
  intro E; destruct (enum_not_num p W t e E) as (A & B & _); apply String.eqb_neq in B.
  pose proof (In_lookup _ _ _ (wf_enums_nodup p W) E) as L.
  destruct f; cbn [GoDec.g_dec]; now rewrite A, B, L.
Qed.
Lemma no_enum t s : declares p t s -> lookup t (p_enums p) = None.
Proof.
  intro D; destruct (declares_not_num p W t s D) as (_ & _ & C).
  destruct (lookup t (p_enums p)) eqn:L; [apply lookup_In in L; now apply C in L|reflexivity].
Qed.
Lemma g_dec_raw inp f t s pos : declares p t s -> is_simple p t = true ->
  g_dec inp f t pos = got_g (fun v => v) (zero t) (go_raw p t inp pos).
Proof.
  intros D S; destruct (declares_not_num p W t s D) as (A & B & _); apply String.eqb_neq in B.
  destruct f; cbn [GoDec.g_dec]; now rewrite A, B, (no_enum t s D), S.
Qed.
Lemma g_dec_call inp f t s pos : declares p t s -> is_simple p t = false ->
  g_dec inp f t pos =
  match f with
  | O => GStuck
  | S f' => match g_members inp (g_dec inp f') (s_members s) pos with
            | GOk fs q | GBad fs q => GOk (VStruct fs) q
            | GTrap => GTrap
            | GStuck => GStuck
            end
  end.
Proof.
  intros D S; destruct (declares_not_num p W t s D) as (A & B & _); apply String.eqb_neq in B.
  destruct f; cbn [GoDec.g_dec]; now rewrite A, B, (no_enum t s D), S, (find_declares p W t s D).
Qed.

Lemma struct_of t : declared_type p t -> (forall k, num_of t <> Some k) -> t <> "string"%string -> ~ is_enum p t ->
  exists s, In (t, s) (p_structs p).
Proof.
  intros [B|[B|[[s B]|[e B]]]] NK NS NE; [|contradiction|eauto|].
  - apply num_of_base in B as [k B]; now apply NK in B.
  - exfalso; apply NE; now exists e.
Qed.

(** *** It always gives an answer, and does not move back *)

Section Total.
Variable inp : list byte.
Variable trap : bool.

Definition fine {A} (pos : nat) (r : gres A) : Prop :=
  match r with GOk _ q | GBad _ q => (pos <= q)%nat | GTrap => trap = true | GStuck => False end.

Lemma fine_bind {A B} pos (r : gres A) (k : A -> nat -> gres B) e : fine pos r ->
  (forall a q, r = GOk a q -> fine q (k a q)) -> fine pos (gbind r k e).
Proof.
  destruct r as [a q|a q| |]; cbn [fine gbind]; auto; intros L K; specialize (K a q eq_refl).
  destruct (k a q); cbn in *; auto; lia.
Qed.

Lemma fine_num k pos : fine pos (g_num inp k pos).
Proof.
  unfold g_num; destruct (go_read_num k inp pos) as [v q|q|] eqn:R; cbn.
  - apply go_num_got in R as (bs & rest & _ & _ & ->); lia.
  - apply go_num_miss in R; lia.
  - now apply go_num_crash in R.
Qed.

Hypothesis STR : trap = true \/ stringless p.
Hypothesis CAPS : trap = true \/ capitals p.
Hypothesis LEN : trap = true \/ forall t z, len_read p z -> go_make room t z <> Crash.

Lemma fine_members rd ms : (forall m, In m ms -> forall pos, fine pos (rd (v_type m) pos)) ->
  forall pos, fine pos (g_members inp rd ms pos).
Proof.
  induction ms as [|m ms IH]; intros H pos; cbn [GoDec.g_members]; [cbn; lia|].
  apply fine_bind.
  - unfold GoDec.g_member; destruct (v_list m); [|apply H; now left].
    unfold g_list; destruct (list_size_num p W) as (k & K & NB); rewrite K.
    apply fine_bind; [apply fine_num|]; intros n q R.
    apply g_num_ok in R as (lb & ra & Ea & N & ->).
    destruct (integral_vint _ _ _ _ NB N) as [z ->].
    destruct (go_make room (v_type m) z) eqn:L; cbn.
    + apply fine_bind; [|intros; cbn; lia].
      generalize (pos + List.length lb)%nat; induction (Z.to_nat z) as [|j IHj]; intro q; cbn [g_elems]; [cbn; lia|].
      apply fine_bind; [apply H; now left|]; intros; apply fine_bind; [apply IHj|intros; cbn; lia].
    + unfold go_make in L; destruct ((z <? 0) || _); discriminate.
    + destruct LEN as [->|LZ]; [reflexivity|]; exfalso; apply (LZ (v_type m) z); [|exact L].
      exists k; split; [assumption|eapply wire_num_vint; eassumption].
  - intros; apply fine_bind; [apply IH; intros; apply H; now right|intros; cbn; lia].
Qed.

Lemma fine_dec fuel : forall t pos, declared_type p t -> (trap = true \/ t <> "string"%string) ->
  fits_any p fuel t = true -> fine pos (g_dec inp fuel t pos).
Proof.
  induction fuel as [|f IH]; intros t pos T NS F;
    (destruct (type_cases p t W T) as [k K M S E X| -> E X|e k K M S IE E KE NB|st K M S E X];
     [rewrite (g_dec_num _ _ _ _ _ K); apply fine_num
     |rewrite g_dec_str; destruct (go_str p inp pos) as [s q|q|] eqn:GS; cbn;
       [apply go_str_cases in GS as [(lb & rest & _ & _ & ->)|(_ & L & _)]; [lia|lia|exact W]
       |now apply go_str_miss in GS|tauto]
     |rewrite (g_dec_enum _ _ _ _ _ IE); unfold g_enum; rewrite KE; apply fine_bind; [apply fine_num|];
      intros v q R; apply g_num_ok in R as (bs & rest & _ & N & ->);
      destruct (integral_vint _ _ _ _ NB N) as [z ->]; destruct (only_declared e z); cbn; lia
     |]).
  all: assert (D : declares p t st) by (left; now apply lookup_In).
  all: destruct (fits_any_members p _ t st W D F) as (f' & EF & FM); try discriminate EF; injection EF as <-.
  destruct (is_simple p t) eqn:SM.
  - rewrite (g_dec_raw _ _ _ _ _ D SM); unfold go_raw.
    destruct (go_take _ inp pos) as [bs q|q|] eqn:TK; cbn [got_g fine].
    + apply go_take_got in TK as ((rest & _) & LB & ->).
      pose proof (is_simple_fixed p t W (or_introl T) SM) as FX.
      destruct (bin_decode p (depth_of p) false t bs) as [[v r]|] eqn:BD; cbn [got_g fine]; [lia|].
      destruct CAPS as [->|CP]; [reflexivity|].
      destruct (bin_total p W CP (depth_of p) t bs _ T (WF_fits_any p t W) FX) as (v & r & BT); congruence.
    + apply go_take_miss in TK; lia.
    + now apply go_take_crash in TK.
  - rewrite (g_dec_call _ _ _ _ _ D SM).
    assert (X1 : fine pos (g_members inp (g_dec inp f) (s_members st) pos)).
    { apply fine_members; intros m IM q; apply IH; [eapply (wf_member_types p W); eassumption| |now apply FM].
      destruct STR as [ST|ST]; [now left|right; exact (ST t st m D IM)]. }
    destruct (g_members inp (g_dec inp f) (s_members st) pos); exact X1.
Qed.

Lemma fine_top t s pos : declares p t s -> fine pos (g_top room p inp (depth_of p) t pos).
Proof.
  intro D; unfold g_top; rewrite (find_declares p W t s D).
  destruct (fits_any_members p _ t s W D (WF_fits_any p t W)) as (f & EF & FM); rewrite EF.
  apply fine_members; intros m IM q; apply fine_dec; [eapply (wf_member_types p W); eassumption| |now apply FM].
  destruct STR as [ST|ST]; [now left|right; exact (ST t s m D IM)].
Qed.
End Total.


(** *** Encodings are read *)

Section Forward.
Hypothesis CAPS : capitals p.
Variable sized : nat -> Prop.
Hypothesis ROOM : forall t n, sized n -> Z.of_nat n <= room t.

Lemma go_raw_forward inp t s v bs pos rest : In (t, s) (p_structs p) -> is_simple p t = true ->
  wire_in reading p t v bs -> skipn pos inp = bs ++ rest -> go_raw p t inp pos = Got v (pos + List.length bs).
Proof.
  intros I SM WI E.
  assert (D : declares p t s) by now left.
  assert (T : declared_type p t) by (right; right; left; now exists s).
  pose proof (is_simple_fixed p t W (or_introl T) SM) as FX.
  pose proof (proj1 (wire_fixed_size reading p W) t v bs WI _ FX) as LB.
  unfold go_raw; rewrite (proj2 (go_take_got (Z.to_nat (size_of p t)) inp pos bs (pos + List.length bs))).
  2:{ split; [eauto|]; split; lia. }
  destruct (bin_total p W CAPS (depth_of p) t bs _ T (WF_fits_any p t W) FX) as (v' & r & BD); rewrite BD.
  destruct (bin_back p W unchecked eq_refl (or_introl eq_refl) _ _ _ _ _ _ _ T (or_introl eq_refl) BD FX ltac:(lia))
    as (a & EA & LA & WA).
  apply (proj1 (wire_mode _ _ p reading_unchecked)) in WI.
  destruct (proj1 (wire_prefix unchecked p W) t v bs WI v' a [] r WA) as (-> & _); [now rewrite app_nil_r|reflexivity].
Qed.

Lemma g_num_forward inp k v bs rest pos : wire_num reading k v bs -> skipn pos inp = bs ++ rest ->
  g_num inp k pos = GOk v (pos + List.length bs).
Proof. intros N E; apply g_num_ok; eauto. Qed.

Lemma g_forward :
  (forall t v bs, wire_in reading p t v bs -> forall inp pos rest fuel, declared_type p t -> lists sized v ->
     skipn pos inp = bs ++ rest -> fits_any p fuel t = true ->
     g_dec inp fuel t pos = GOk v (pos + List.length bs)) /\
  (forall ms fs bs, wire_members reading p ms fs bs -> forall inp pos rest fuel,
     (forall m, In m ms -> declared_type p (v_type m)) -> (forall n v, In (n, v) fs -> lists sized v) ->
     skipn pos inp = bs ++ rest -> (forall m, In m ms -> fits_any p fuel (v_type m) = true) ->
     g_members inp (g_dec inp fuel) ms pos = GOk fs (pos + List.length bs)) /\
  (forall m v bs, wire_member reading p m v bs -> forall inp pos rest fuel, declared_type p (v_type m) -> lists sized v ->
     skipn pos inp = bs ++ rest -> fits_any p fuel (v_type m) = true ->
     g_member inp (g_dec inp fuel) m pos = GOk v (pos + List.length bs)) /\
  (forall t vs bs, wire_elems reading p t vs bs -> forall inp pos rest fuel, declared_type p t ->
     (forall v, In v vs -> lists sized v) -> skipn pos inp = bs ++ rest -> fits_any p fuel t = true ->
     g_elems p (g_dec inp fuel) t (List.length vs) pos = GOk vs (pos + List.length bs)).
Proof.
  apply wire_mutind.
  - intros t k v bs K N inp pos rest fuel T LS E F; rewrite (g_dec_num _ _ _ _ _ K); eapply g_num_forward; eassumption.
  - intros s lb L inp pos rest fuel T LS E F; rewrite g_dec_str; rewrite <- app_assoc in E.
    rewrite (go_str_forward p inp pos s lb rest E L); cbn; f_equal; rewrite app_length; lia.
  - intros t e k z bs EN K M N inp pos rest fuel T LS E F; rewrite (g_dec_enum _ _ _ _ _ EN); unfold g_enum.
    rewrite K, (g_num_forward _ _ _ _ _ _ N E); cbn [gbind].
    destruct M as [M|M]; [discriminate|]; unfold only_declared.
    rewrite (proj2 (existsb_exists _ _)); [reflexivity|]; exists z; split; [exact M|apply Z.eqb_refl].
  - intros t s fs bs D WM IH inp pos rest fuel T LS E F; inversion LS as [| | | | |? LF]; subst.
    destruct (fits_any_members p fuel t s W D F) as (f & -> & FM).
    destruct (is_simple p t) eqn:SM.
    + destruct (declares_not_num p W t s D) as (A & B & C).
      destruct (struct_of t T) as [s' IS]; [congruence|assumption|intros [e X]; now apply C in X|].
      rewrite (g_dec_raw _ _ _ _ _ D SM), (go_raw_forward inp t s' (VStruct fs) bs pos rest IS SM); [reflexivity| |exact E].
      econstructor; eassumption.
    + rewrite (g_dec_call _ _ _ _ _ D SM), (IH inp pos rest f); auto.
      intros m IM; eapply (wf_member_types p W); eassumption.
  - intros inp pos rest fuel T LS E F; cbn; f_equal; lia.
  - intros m ms v fs a b _ IHa _ IHb inp pos rest fuel T LS E F; rewrite <- app_assoc in E.
    cbn [GoDec.g_members]; rewrite (IHa inp pos _ fuel (T m (or_introl eq_refl)) (LS _ _ (or_introl eq_refl)) E) by (apply F; now left); cbn [gbind].
    rewrite (IHb inp _ rest fuel (fun m' I => T m' (or_intror I)) (fun n w I => LS n w (or_intror I)) (at_next _ _ _ _ E)) by (intros; apply F; now right).
    cbn [gbind]; rewrite app_length; f_equal; lia.
  - intros m v bs L _ IH inp pos rest fuel T LS E F; unfold GoDec.g_member; rewrite L; eapply IH; eassumption.
  - intros m vs lb bs L S _ IH inp pos rest fuel T LS E F; inversion LS as [| | | |? LN LF|]; subst.
    rewrite <- app_assoc in E.
    unfold GoDec.g_member, g_list; rewrite L; destruct S as (k & K & N); rewrite K, (g_num_forward _ _ _ _ _ _ N E); cbn [gbind].
    unfold go_make; destruct (Z.ltb_spec (Z.of_nat (List.length vs)) 0); [lia|]; cbn [orb].
    destruct (Z.ltb_spec (room (v_type m)) (Z.of_nat (List.length vs))); [specialize (ROOM (v_type m) _ LN); lia|].
    rewrite Nat2Z.id, (IH inp _ rest fuel T LF (at_next _ _ _ _ E) F); cbn [gbind].
    rewrite app_length; f_equal; lia.
  - intros t inp pos rest fuel T LS E F; cbn; f_equal; lia.
  - intros t v vs a b _ IHa _ IHb inp pos rest fuel T LS E F; rewrite <- app_assoc in E.
    cbn [g_elems List.length]; rewrite (IHa inp pos _ fuel T (LS _ (or_introl eq_refl)) E F); cbn [gbind].
    rewrite (IHb inp _ rest fuel T (fun w I => LS w (or_intror I)) (at_next _ _ _ _ E) F); cbn [gbind].
    rewrite app_length; f_equal; lia.
Qed.
End Forward.

(** *** What is read is an encoding, or the input has run dry *)

Section Back.
Variable inp : list byte.
Variable md : mode.
Hypothesis TRUE : any_true md = true.
Hypothesis ENUMS : any_enum md = true \/ enumless p.
Hypothesis LOOSE : loose_enumless p.

Definition came (t : string) (pos : nat) (v : val) (q : nat) : Prop :=
  exists bs rest, skipn pos inp = bs ++ rest /\ q = (pos + List.length bs)%nat /\ wire_in md p t v bs.
Definition dry (q : nat) : Prop := (List.length inp <= q)%nat.

Lemma md_num k v bs : wire_num reading k v bs -> wire_num md k v bs.
Proof. apply wire_num_mode, reading_le, TRUE. Qed.
Lemma md_size t n bs : wire_size reading t n bs -> wire_size md t n bs.
Proof. apply wire_size_mode. Qed.

(** Values of fixed size. *)
Lemma g_firm fuel t n pos v q : declared_type p t -> fixed_size p t n ->
  g_dec inp fuel t pos = GOk v q -> came t pos v q.
Proof.
  intros T F; destruct (type_cases p t W T) as [k K M S E X| -> E X|e k K M S IE E KE NB|st K M S E X].
  - rewrite (g_dec_num _ _ _ _ _ K); intro R; apply g_num_ok in R as (bs & rest & Eb & N & ->).
    exists bs, rest; repeat split; auto; econstructor; [exact K|now apply md_num].
  - exfalso; revert F; now apply fixed_string.
  - rewrite (g_dec_enum _ _ _ _ _ IE); unfold g_enum; rewrite KE.
    destruct (g_num inp k pos) as [w q'|w q'| |] eqn:R; cbn [gbind]; try discriminate.
    apply g_num_ok in R as (bs & rest & Eb & N & ->); destruct (integral_vint _ _ _ _ NB N) as [z ->].
    unfold only_declared; destruct (existsb _ _) eqn:X; [|discriminate]; intros [= <- <-].
    apply existsb_exists in X as (z' & Iz & Z'); apply Z.eqb_eq in Z' as <-.
    exists bs, rest; repeat split; auto; eapply w_enum; [exact IE|exact KE|now right|now apply md_num].
  - assert (D : declares p t st) by (left; now apply lookup_In).
    pose proof (fixed_simple p W t n T F) as SM.
    rewrite (g_dec_raw _ _ _ _ _ D SM); unfold go_raw.
    rewrite (size_of_fixed p t n W (or_introl T) F).
    destruct (go_take (Z.to_nat n) inp pos) as [bs q'|q'|] eqn:TK; cbn [got_g]; try discriminate.
    apply go_take_got in TK as ((rest & Eb) & LB & ->).
    destruct (bin_decode p (depth_of p) false t bs) as [[w r]|] eqn:BD; cbn [got_g]; [|discriminate].
    intros [= <- <-]; pose proof (proj1 (fixed_nonneg p) _ _ F) as NN.
    assert (NE : any_enum md = true \/ ~ is_enum p t).
    { right; intros [e IE]; destruct (declares_not_num p W t st D) as (_ & _ & C); now apply C in IE. }
    destruct (bin_back p W md TRUE ENUMS _ _ _ _ _ _ _ T NE BD F ltac:(lia)) as (a & -> & LA & WA).
    rewrite app_length in LB.
    assert (r = []) by (destruct r; [reflexivity|cbn in LB; lia]); subst r; rewrite app_nil_r in *.
    exists a, rest; repeat split; auto; lia.
Qed.

Lemma g_firm_dry fuel t n pos v q : declared_type p t -> fixed_size p t n -> 0 < n -> dry pos ->
  g_dec inp fuel t pos <> GOk v q.
Proof.
  intros T F N DR H; destruct (g_firm fuel t n pos v q T F H) as (bs & rest & E & -> & WI).
  pose proof (proj1 (wire_fixed_size md p W) t v bs WI _ F) as LB.
  unfold dry in DR; apply (f_equal (@List.length _)) in E; rewrite skipn_length, app_length in E; lia.
Qed.

(** All values. *)
Definition ends (t : string) (pos : nat) (r : gres val) : Prop :=
  match r with
  | GOk v q => (pos <= q)%nat /\ (came t pos v q \/ dry q)
  | GBad v q => (pos <= q)%nat /\ (~ is_enum p t -> dry q)
  | _ => True
  end.

Lemma ends_elems rd t : (forall pos, ends t pos (rd t pos)) ->
  forall n pos, match g_elems p rd t n pos with
    | GOk vs q => (pos <= q)%nat /\ ((exists bs rest, skipn pos inp = bs ++ rest /\ q = (pos + List.length bs)%nat /\
                     wire_elems md p t vs bs /\ List.length vs = n) \/ dry q)
    | GBad vs q => (pos <= q)%nat /\ (~ is_enum p t -> dry q)
    | _ => True
    end.
Proof.
  intro H; induction n as [|n IH]; intro pos; cbn [g_elems].
  - split; [lia|]; left; exists [], (skipn pos inp); repeat split; [cbn; lia|constructor].
  - pose proof (H pos) as X; destruct (rd t pos) as [v q|v q| |]; cbn [gbind ends] in X |- *; auto.
    destruct X as [L X]; specialize (IH q).
    destruct (g_elems p rd t n q) as [vs q'|vs q'| |]; cbn [gbind]; auto.
    + destruct IH as [L' Y]; split; [lia|].
      destruct X as [(a & ra & Ea & -> & Wa)|X]; [|right; unfold dry in *; lia].
      destruct Y as [(b & rb & Eb & -> & Wb & LB)|Y]; [|now right]; left.
      pose proof (at_next _ _ _ _ Ea) as Z; rewrite Z in Eb; subst ra.
      exists (a ++ b), rb; repeat split; [now rewrite <- app_assoc|rewrite app_length; lia|now constructor|cbn; lia].
    + destruct IH as [L' Y]; split; [lia|exact Y].
Qed.

Lemma make_nonneg t z a b : go_make room t z = Got a b -> 0 <= z.
Proof. unfold go_make; destruct (Z.ltb_spec z 0); [discriminate|auto]. Qed.

Definition ends_member (m : var) (pos : nat) (r : gres val) : Prop :=
  match r with
  | GOk v q => (pos <= q)%nat /\ ((exists bs rest, skipn pos inp = bs ++ rest /\ q = (pos + List.length bs)%nat /\
                 wire_member md p m v bs) \/ dry q)
  | GBad v q => (pos <= q)%nat /\ (~ is_enum p (v_type m) -> dry q)
  | _ => True
  end.

Lemma ends_member_ok rd m : (forall pos, ends (v_type m) pos (rd (v_type m) pos)) ->
  forall pos, ends_member m pos (g_member inp rd m pos).
Proof.
  intros H pos; unfold GoDec.g_member; destruct (v_list m) eqn:L.
  - unfold g_list; destruct (list_size_num p W) as (k & K & NB); rewrite K.
    destruct (g_num inp k pos) as [n q|n q| |] eqn:R; cbn [gbind ends_member]; auto.
    2:{ apply g_num_bad in R; split; [lia|intros _; unfold dry; lia]. }
    apply g_num_ok in R as (lb & ra & Ea & N & ->); destruct (integral_vint _ _ _ _ NB N) as [z ->].
    destruct (go_make room (v_type m) z) eqn:MK; cbn [ends_member]; auto.
    apply make_nonneg in MK.
    pose proof (ends_elems rd (v_type m) H (Z.to_nat z) (pos + List.length lb)%nat) as X.
    destruct (g_elems p rd (v_type m) (Z.to_nat z) (pos + List.length lb)) as [vs q'|vs q'| |]; cbn [gbind ends_member]; auto.
    + destruct X as [L' [(b & rb & Eb & -> & Wb & LB)|Y]]; (split; [lia|]); [left|now right].
      pose proof (at_next _ _ _ _ Ea) as Z; rewrite Z in Eb; subst ra.
      exists (lb ++ b), rb; repeat split; [now rewrite <- app_assoc|rewrite app_length; lia|].
      constructor; [assumption| |assumption]; apply md_size.
      exists k; split; [assumption|]; now rewrite LB, Z2Nat.id.
    + destruct X as [L' Y]; split; [lia|exact Y].
  - pose proof (H pos) as X; destruct (rd (v_type m) pos) as [v q|v q| |]; cbn [ends ends_member] in *; auto.
    destruct X as [L' [(bs & rest & E & -> & WI)|Y]]; (split; [exact L'|]); [left|now right].
    exists bs, rest; repeat split; auto; now constructor.
Qed.

Definition ends_members (ms : list var) (pos : nat) (r : gres (list (string * val))) : Prop :=
  match r with
  | GOk fs q => (pos <= q)%nat /\ ((exists bs rest, skipn pos inp = bs ++ rest /\ q = (pos + List.length bs)%nat /\
                  wire_members md p ms fs bs) \/ dry q)
  | GBad fs q => (pos <= q)%nat /\ ((forall m, In m ms -> ~ is_enum p (v_type m)) -> dry q)
  | _ => True
  end.

Lemma ends_members_ok rd ms : (forall m, In m ms -> forall pos, ends (v_type m) pos (rd (v_type m) pos)) ->
  forall pos, ends_members ms pos (g_members inp rd ms pos).
Proof.
  induction ms as [|m ms IH]; intros H pos; cbn [GoDec.g_members].
  - split; [lia|]; left; exists [], (skipn pos inp); repeat split; [cbn; lia|constructor].
  - pose proof (ends_member_ok rd m (H m (or_introl eq_refl)) pos) as X.
    destruct (g_member inp rd m pos) as [v q|v q| |]; cbn [gbind ends_member ends_members] in X |- *; auto.
    2:{ destruct X as [L X]; split; [exact L|]; intro N; apply X, N; now left. }
    destruct X as [L X]; specialize (IH (fun m' I => H m' (or_intror I)) q).
    destruct (g_members inp rd ms q) as [fs q'|fs q'| |]; cbn [gbind ends_members] in *; auto.
    + destruct IH as [L' Y]; split; [lia|].
      destruct X as [(a & ra & Ea & -> & Wa)|X]; [|right; unfold dry in *; lia].
      destruct Y as [(b & rb & Eb & -> & Wb)|Y]; [|now right]; left.
      pose proof (at_next _ _ _ _ Ea) as Z; rewrite Z in Eb; subst ra.
      exists (a ++ b), rb; repeat split; [now rewrite <- app_assoc|rewrite app_length; lia|now constructor].
    + destruct IH as [L' Y]; split; [lia|]; intro N; apply Y; intros m' I; apply N; now right.
Qed.

Lemma ends_dec fuel : forall t pos, declared_type p t -> ends t pos (g_dec inp fuel t pos).
Proof.
  induction fuel as [|f IH]; intros t pos T;
    (destruct (type_cases p t W T) as [k K M S E X| -> E X|e k K M S IE E KE NB|st K M S E X];
     [|rewrite g_dec_str; destruct (go_str p inp pos) as [s q|q|] eqn:GS; cbn [got_g ends]; auto;
       [apply go_str_cases in GS as [(lb & rest & E1 & SZ & ->)|(-> & L & DR)]; [| |exact W];
        [split; [lia|]; left; exists (lb ++ s), rest; rewrite <- app_assoc; split; [exact E1|];
         split; [rewrite app_length; lia|]; constructor; now apply md_size
        |split; [lia|now right]]
       |now apply go_str_miss in GS]
     | |]).
  1,2,4,5: 
    match goal with |- ends ?t ?pos (g_dec inp ?f ?t ?pos) =>
      assert (FX : exists n, fixed_size p t n) by
        (first [exists (Z.of_nat (num_size k)); constructor; apply num_of_base_size in K; tauto
               |exists (Z.of_nat (num_size k)); eapply fs_enum; [exact IE|]; apply num_of_base_size in KE; tauto]);
      destruct FX as [n FX]; pose proof (fine_dec inp true (or_introl eq_refl) (or_introl eq_refl) (or_introl eq_refl)) as FD;
      destruct (g_dec inp f t pos) as [v q|v q| |] eqn:GD; cbn [ends]; auto;
      [pose proof (g_firm f t n pos v q T FX GD) as C; split; [destruct C as (bs & rest & _ & -> & _); lia|now left]|]
    end.
  1,3: rewrite (g_dec_num _ _ _ _ _ K) in GD; apply g_num_bad in GD; split; [lia|intros _; unfold dry; lia].
  1,2: rewrite (g_dec_enum _ _ _ _ _ IE) in GD; unfold g_enum in GD; rewrite KE in GD;
    destruct (g_num inp k pos) as [w q'|w q'| |] eqn:R; cbn [gbind] in GD; try discriminate;
    [destruct w; try discriminate; destruct (only_declared e z); [discriminate|]; injection GD as <- <-;
     apply g_num_ok in R as (bs & rest & _ & _ & ->); split; [lia|intro N; exfalso; apply N; now exists e]
    |injection GD as <- <-; apply g_num_bad in R; split; [lia|intros _; unfold dry; lia]].
  all: assert (IS : In (t, st) (p_structs p)) by now apply lookup_In.
  all: assert (D : declares p t st) by now left.
  all: destruct (is_simple p t) eqn:SM.
  1,3: pose proof (is_simple_fixed p t W (or_introl T) SM) as FX;
    match goal with |- ends ?t ?pos (g_dec inp ?f ?t ?pos) =>
      destruct (g_dec inp f t pos) as [v q|v q| |] eqn:GD; cbn [ends]; auto;
      [pose proof (g_firm f t _ pos v q T FX GD) as C; split; [destruct C as (bs & rest & _ & -> & _); lia|now left]|]
    end;
    rewrite (g_dec_raw _ _ _ _ _ D SM) in GD; unfold go_raw in GD;
    destruct (go_take _ inp pos) as [bs q'|q'|] eqn:TK; cbn [got_g] in GD; try discriminate;
    [destruct (bin_decode _ _ _ _ _) as [[? ?]|]; discriminate|];
    injection GD as <- <-; apply go_take_miss in TK; split; [lia|intros _; unfold dry; lia].
  - rewrite (g_dec_call _ _ _ _ _ D SM); exact Logic.I.
  - rewrite (g_dec_call _ _ _ _ _ D SM).
    pose proof (ends_members_ok (g_dec inp f) (s_members st)
      (fun m I q => IH (v_type m) q (wf_member_types p W t st m D I)) pos) as X1.
    destruct (g_members inp (g_dec inp f) (s_members st) pos) as [fs q|fs q| |]; cbn [ends ends_members] in *; auto.
    + destruct X1 as [L [(bs & rest & E1 & -> & WM)|DR]]; (split; [exact L|]); [left|now right].
      exists bs, rest; repeat split; auto; econstructor; eassumption.
    + destruct X1 as [L X1]; split; [exact L|right]; apply X1; intros m IM.
      apply (LOOSE t st m IS); [|exact IM]; apply is_simple_variable; [exact W|now left|exact SM].
Qed.

(** *** Messages that end well *)

Lemma firm_members f ms : (forall m, In m ms -> declared_type p (v_type m)) -> Forall (firm p) ms ->
  forall pos fs q, g_members inp (g_dec inp f) ms pos = GOk fs q ->
  exists bs rest, skipn pos inp = bs ++ rest /\ q = (pos + List.length bs)%nat /\ wire_members md p ms fs bs.
Proof.
  intros T FM; induction FM as [|m ms [n F] FM IH]; intros pos fs q; cbn [GoDec.g_members].
  - intros [= <- <-]; exists [], (skipn pos inp); repeat split; [cbn; lia|constructor].
  - assert (Tm : declared_type p (v_type m)) by (apply T; now left).
    assert (MB : forall v q, g_member inp (g_dec inp f) m pos = GOk v q ->
      exists bs rest, skipn pos inp = bs ++ rest /\ q = (pos + List.length bs)%nat /\ wire_member md p m v bs).
    { intros v q'; unfold GoDec.g_member; destruct (v_list m) eqn:L.
      - unfold g_list; destruct (list_size_num p W) as (k & K & NB); rewrite K.
        destruct (g_num inp k pos) as [w qn|w qn| |] eqn:R; cbn [gbind]; try discriminate.
        apply g_num_ok in R as (lb & ra & Ea & N & ->); destruct (integral_vint _ _ _ _ NB N) as [z ->].
        destruct (go_make room (v_type m) z) eqn:MK; try discriminate; apply make_nonneg in MK.
        assert (EL : forall k pos vs q, g_elems p (g_dec inp f) (v_type m) k pos = GOk vs q ->
          exists bs rest, skipn pos inp = bs ++ rest /\ q = (pos + List.length bs)%nat /\
            wire_elems md p (v_type m) vs bs /\ List.length vs = k).
        { clear -F Tm TRUE ENUMS W; induction k as [|k IHk]; intros pos vs q; cbn [g_elems].
          - intros [= <- <-]; exists [], (skipn pos inp); repeat split; [cbn; lia|constructor].
          - destruct (g_dec inp f (v_type m) pos) as [v q'|v q'| |] eqn:GD; cbn [gbind]; try discriminate.
            destruct (g_elems p (g_dec inp f) (v_type m) k q') as [vs' q''|vs' q''| |] eqn:GE; cbn [gbind]; try discriminate.
            intros [= <- <-].
            destruct (g_firm f _ n pos v q' Tm F GD) as (a & ra & Ea & -> & Wa).
            destruct (IHk _ _ _ GE) as (b & rb & Eb & -> & Wb & LB).
            pose proof (at_next _ _ _ _ Ea) as Z; rewrite Z in Eb; subst ra.
            exists (a ++ b), rb; repeat split; [now rewrite <- app_assoc|rewrite app_length; lia|now constructor|cbn; lia]. }
        destruct (g_elems p (g_dec inp f) (v_type m) (Z.to_nat z) (pos + List.length lb)) as [vs qe|vs qe| |] eqn:GE; cbn [gbind]; try discriminate.
        intros [= <- <-]; destruct (EL _ _ _ _ GE) as (b & rb & Eb & -> & Wb & LB).
        pose proof (at_next _ _ _ _ Ea) as Z; rewrite Z in Eb; subst ra.
        exists (lb ++ b), rb; repeat split; [now rewrite <- app_assoc|rewrite app_length; lia|].
        constructor; [assumption| |assumption]; apply md_size.
        exists k; split; [assumption|]; now rewrite LB, Z2Nat.id.
      - intro GD; destruct (g_firm f _ n pos v q' Tm F GD) as (a & ra & Ea & -> & Wa).
        exists a, ra; repeat split; auto; now constructor. }
    destruct (g_member inp (g_dec inp f) m pos) as [v qm|v qm| |] eqn:GM; cbn [gbind]; try discriminate.
    destruct (MB v qm eq_refl) as (a & ra & Ea & -> & Wa).
    destruct (g_members inp (g_dec inp f) ms (pos + List.length a)) as [fs' q'|fs' q'| |] eqn:GS; cbn [gbind]; try discriminate.
    intros [= <- <-].
    destruct (IH (fun m' I => T m' (or_intror I)) _ _ _ GS) as (b & rb & Eb & -> & Wb).
    pose proof (at_next _ _ _ _ Ea) as Z; rewrite Z in Eb; subst ra.
    exists (a ++ b), rb; repeat split; [now rewrite <- app_assoc|rewrite app_length; lia|now constructor].
Qed.

Lemma solid_dry f m pos v q : declared_type p (v_type m) -> solid p m -> dry pos ->
  g_member inp (g_dec inp f) m pos <> GOk v q.
Proof.
  intros T (n & F & S) DR; unfold GoDec.g_member; destruct (v_list m).
  - unfold g_list; destruct (list_size_num p W) as (k & K & NB); rewrite K; unfold g_num.
    destruct (go_num_dry k inp pos DR) as [q' ->]; discriminate.
  - destruct S as [S|S]; [discriminate|]; now apply g_firm_dry with (n := n).
Qed.

Lemma tight_members f ms : (forall m, In m ms -> declared_type p (v_type m)) -> tight p ms ->
  forall pos fs q, g_members inp (g_dec inp f) ms pos = GOk fs q ->
  exists bs rest, skipn pos inp = bs ++ rest /\ q = (pos + List.length bs)%nat /\ wire_members md p ms fs bs.
Proof.
  intros T [FM|(a & m & b & -> & S & FB)]; [now apply firm_members|].
  induction a as [|x a IH]; intros pos fs q.
  - cbn [List.app] in *; apply firm_members; [exact T|].
    constructor; [|exact FB]; destruct S as (n & F & _); now exists n.
  - cbn [List.app GoDec.g_members].
    assert (Tx : declared_type p (v_type x)) by (apply T; now left).
    pose proof (ends_member_ok (g_dec inp f) x (fun pos => ends_dec f (v_type x) pos Tx) pos) as X.
    destruct (g_member inp (g_dec inp f) x pos) as [v qm|v qm| |] eqn:GM; cbn [gbind ends_member] in X |- *; try discriminate.
    destruct (g_members inp (g_dec inp f) (a ++ m :: b) qm) as [fs' q'|fs' q'| |] eqn:GS; cbn [gbind]; try discriminate.
    intros [= <- <-].
    destruct X as [L [(c & rc & Ec & -> & Wc)|DR]].
    + destruct (IH (fun m' I => T m' (or_intror I)) _ _ _ GS) as (d & rd & Ed & -> & Wd).
      pose proof (at_next _ _ _ _ Ec) as Z; rewrite Z in Ed; subst rc.
      exists (c ++ d), rd; repeat split; [now rewrite <- app_assoc|rewrite app_length; lia|now constructor].
    + exfalso; clear -GS DR S T W TRUE ENUMS LOOSE.
      assert (T' : forall m', In m' (a ++ m :: b) -> declared_type p (v_type m')) by (intros; apply T; now right).
      clear T; revert qm fs' q' GS DR; induction a as [|y a IHa]; intros qm fs' q' GS DR; cbn [List.app GoDec.g_members] in *.
      * destruct (g_member inp (g_dec inp f) m qm) as [v q|v q| |] eqn:GM; cbn [gbind] in GS; try discriminate.
        now apply solid_dry in GM; [|apply T'; now left|..].
      * assert (Ty : declared_type p (v_type y)) by (apply T'; now left).
        pose proof (ends_member_ok (g_dec inp f) y (fun pos => ends_dec f (v_type y) pos Ty) qm) as X.
        destruct (g_member inp (g_dec inp f) y qm) as [v q|v q| |] eqn:GM; cbn [gbind ends_member] in X, GS; try discriminate.
        destruct X as [L _].
        destruct (g_members inp (g_dec inp f) (a ++ m :: b) q) as [fs2 q2|fs2 q2| |] eqn:G2; cbn [gbind] in GS; try discriminate.
        eapply IHa; [|exact G2|unfold dry in *; lia]; intros; apply T'; now right.
Qed.
End Back.
End GoRef.

(** ** Encodings that are cut short *)

Lemma app_eq_app_len {A} (a b c d : list A) : a ++ b = c ++ d -> List.length a = List.length c -> a = c /\ b = d.
Proof.
  revert c; induction a as [|x a IH]; intros [|y c] E L; try discriminate; [auto|].
  cbn in E, L; injection E as -> E; injection L as L; destruct (IH c E L) as [-> ->]; auto.
Qed.

Section Along.
Variable room : string -> Z.
Variable p : protocol.
Hypothesis W : WF p.
Variable inp : list byte.
Notation g_dec := (g_dec room p inp).
Notation g_members := (g_members room p inp).
Notation g_member := (g_member room p inp).

(** Reading along an encoding: all of it, or to the end of the input. *)
Definition follows {A} (pos : nat) (a : A) (bs : list byte) (r : gres A) : Prop :=
  match r with
  | GOk b q => (b = a /\ q = (pos + List.length bs)%nat /\ exists rest, skipn pos inp = bs ++ rest) \/ dry inp q
  | GBad _ q => dry inp q
  | _ => True
  end.

Lemma g_any fuel t pos : declared_type p t -> fits_any p fuel t = true -> fine true pos (g_dec fuel t pos).
Proof. intros T F; now apply fine_dec; auto. Qed.
Lemma g_any_members fuel ms pos : (forall m, In m ms -> declared_type p (v_type m) /\ fits_any p fuel (v_type m) = true) ->
  fine true pos (g_members (g_dec fuel) ms pos).
Proof. intro H; apply fine_members; auto; intros m I q; destruct (H m I); now apply g_any. Qed.
Lemma g_any_elems fuel t : declared_type p t -> fits_any p fuel t = true ->
  forall n pos, fine true pos (g_elems p (g_dec fuel) t n pos).
Proof.
  intros T F; induction n as [|n IH]; intro pos; cbn [g_elems]; [cbn; lia|].
  apply fine_bind; [now apply g_any|]; intros; apply fine_bind; [apply IH|intros; cbn; lia].
Qed.

Lemma dry_after {A} pos (r : gres A) : dry inp pos -> fine true pos r ->
  match r with GOk _ q | GBad _ q => dry inp q | _ => True end.
Proof. unfold dry; destruct r; cbn; auto; lia. Qed.

Lemma along_num k v bs pos w q : wire_num reading k v bs -> along inp pos bs -> g_num inp k pos = GOk w q ->
  w = v /\ q = (pos + List.length bs)%nat /\ exists rest, skipn pos inp = bs ++ rest.
Proof.
  intros N (x & y & A) R; apply g_num_ok in R as (bs' & rest & E & N' & ->).
  rewrite E, <- app_assoc in A.
  assert (bs' = bs).
  { apply num_val_spec in N as [L _]; apply num_val_spec in N' as [L' _].
    apply (f_equal (firstn (num_size k))) in A.
    rewrite !firstn_app, L, L', Nat.sub_diag, <- L', firstn_all, L', <- L, firstn_all, !firstn_O, !app_nil_r in A; exact A. }
  subst bs'; split; [eapply wire_num_val; eassumption|split; eauto].
Qed.

Lemma g_along :
  (forall t v bs, wire_in reading p t v bs -> forall pos fuel, declared_type p t -> fits_any p fuel t = true ->
     along inp pos bs -> follows pos v bs (g_dec fuel t pos)) /\
  (forall ms fs bs, wire_members reading p ms fs bs -> forall pos fuel,
     (forall m, In m ms -> declared_type p (v_type m) /\ fits_any p fuel (v_type m) = true) ->
     along inp pos bs -> follows pos fs bs (g_members (g_dec fuel) ms pos)) /\
  (forall m v bs, wire_member reading p m v bs -> forall pos fuel, declared_type p (v_type m) ->
     fits_any p fuel (v_type m) = true -> along inp pos bs -> follows pos v bs (g_member (g_dec fuel) m pos)) /\
  (forall t vs bs, wire_elems reading p t vs bs -> forall pos fuel, declared_type p t -> fits_any p fuel t = true ->
     along inp pos bs -> follows pos vs bs (g_elems p (g_dec fuel) t (List.length vs) pos)).
Proof.
  apply wire_mutind.
  - intros t k v bs K N pos fuel T F A; rewrite (g_dec_num _ _ _ _ _ _ _ K).
    destruct (g_num inp k pos) as [w q|w q| |] eqn:R; cbn [follows]; auto.
    + left; eapply along_num; eassumption.
    + apply g_num_bad in R; unfold dry; lia.
  - intros s lb (k & K & N) pos fuel T F A; rewrite g_dec_str.
    destruct (go_str p inp pos) as [s' q|q|] eqn:GS; cbn [got_g follows]; auto.
    + apply go_str_cases in GS as [(lb' & rest & E & (k' & K' & N') & ->)|(_ & _ & L)]; [|now right|exact W].
      rewrite K in K'; injection K' as <-; left.
      destruct (along_num k _ lb pos (VInt (Z.of_nat (List.length s'))) (pos + List.length lb')%nat N) as (EV & EQ & _).
      { eapply along_left; exact A. }
      { apply g_num_ok; eauto. }
      injection EV as LS; destruct A as (x & y & A); rewrite E, <- !app_assoc in A.
      assert (lb' = lb /\ s' = s) as [-> ->].
      { assert (LL : List.length lb' = List.length lb) by lia.
        apply app_eq_app_len in A as [-> A]; [|exact LL].
        apply app_eq_app_len in A as [-> _]; [auto|lia]. }
      split; [reflexivity|]; rewrite app_length; split; [lia|]; exists rest; now rewrite <- app_assoc.
    + now apply go_str_miss in GS.
  - intros t e k z bs EN K M N pos fuel T F A; rewrite (g_dec_enum _ _ W _ _ _ _ _ EN); unfold g_enum; rewrite K.
    destruct (g_num inp k pos) as [w q|w q| |] eqn:R; cbn [gbind follows]; auto.
    2:{ apply g_num_bad in R; unfold dry; lia. }
    destruct (along_num k _ bs pos w q N A R) as (-> & -> & X).
    destruct M as [M|M]; [discriminate|]; unfold only_declared.
    rewrite (proj2 (existsb_exists _ _)); [left; auto|]; exists z; split; [exact M|apply Z.eqb_refl].
  - intros t s fs bs D WM IH pos fuel T F A.
    destruct (fits_any_members p fuel t s W D F) as (f & -> & FM).
    destruct (is_simple p t) eqn:SM.
    + pose proof (is_simple_fixed p t W (or_introl T) SM) as FX.
      destruct (g_dec (S f) t pos) as [w q|w q| |] eqn:GD; cbn [follows]; auto.
      * destruct (g_firm room p W inp unchecked eq_refl (or_introl eq_refl) _ _ _ _ _ _ T FX GD) as (bs' & rest & E & -> & WI).
        assert (WI0 : wire_in unchecked p t (VStruct fs) bs).
        { apply (proj1 (wire_mode _ _ p reading_unchecked)); econstructor; eassumption. }
        destruct A as (x & y & A); rewrite E, <- app_assoc in A.
        destruct (proj1 (wire_prefix unchecked p W) t _ _ WI0 _ bs' y (rest ++ x) WI) as (-> & -> & _); [now symmetry|].
        left; eauto.
      * rewrite (g_dec_raw _ _ W _ _ _ _ _ D SM) in GD; unfold go_raw in GD.
        destruct (go_take _ inp pos) as [b q'|q'|] eqn:TK; cbn [got_g] in GD; try discriminate.
        { destruct (bin_decode _ _ _ _ _) as [[? ?]|]; discriminate. }
        injection GD as <- <-; apply go_take_miss in TK; unfold dry; lia.
    + rewrite (g_dec_call _ _ W _ _ _ _ _ D SM).
      specialize (IH pos f (fun m I => conj (wf_member_types p W t s m D I) (FM m I)) A).
      destruct (g_members (g_dec f) (s_members s) pos) as [fs' q|fs' q| |]; cbn [follows] in *; auto.
      destruct IH as [(-> & -> & X)|X]; auto.
  - intros pos fuel T A; cbn; left; split; [reflexivity|]; split; [lia|eauto].
  - intros m ms v fs a b _ IHa _ IHb pos fuel T A; cbn [GoDec.g_members].
    destruct (T m (or_introl eq_refl)) as [Tm Fm].
    specialize (IHa pos fuel Tm Fm (along_left _ _ _ _ A)).
    assert (T' : forall m', In m' ms -> declared_type p (v_type m') /\ fits_any p fuel (v_type m') = true) by (intros; apply T; now right).
    destruct (g_member (g_dec fuel) m pos) as [w q|w q| |]; cbn [gbind follows] in *; auto.
    pose proof (dry_after q (g_members (g_dec fuel) ms q)) as DA; specialize (fun X => DA X (g_any_members fuel ms q T')).
    destruct IHa as [(-> & -> & X)|X].
    + specialize (IHb (pos + List.length a)%nat fuel T' (along_next _ _ _ _ A)).
      destruct (g_members (g_dec fuel) ms (pos + List.length a)) as [fs' q'|fs' q'| |]; cbn [gbind follows] in *; auto.
      destruct IHb as [(-> & -> & (rest & Y))|Y]; auto; left.
      destruct X as (ra & X); pose proof (at_next _ _ _ _ X) as Z; rewrite Z in Y; subst ra.
      split; [reflexivity|]; rewrite app_length; split; [lia|]; exists rest; now rewrite <- app_assoc.
    + specialize (DA X); destruct (g_members (g_dec fuel) ms q) as [fs' q'|fs' q'| |]; cbn [gbind follows] in *; auto.
  - intros m v bs L _ IH pos fuel T F A; unfold GoDec.g_member; rewrite L; now apply IH.
  - intros m vs lb bs L (k & K & N) _ IH pos fuel T F A; unfold GoDec.g_member, g_list; rewrite L, K.
    destruct (g_num inp k pos) as [w q|w q| |] eqn:R; cbn [gbind follows]; auto.
    2:{ apply g_num_bad in R; unfold dry; lia. }
    destruct (along_num k _ lb pos w q N (along_left _ _ _ _ A) R) as (-> & -> & (ra & X)).
    destruct (go_make room (v_type m) _) eqn:MK; cbn [follows]; auto.
    rewrite Nat2Z.id; specialize (IH (pos + List.length lb)%nat fuel T F (along_next _ _ _ _ A)).
    destruct (g_elems p (g_dec fuel) (v_type m) (List.length vs) (pos + List.length lb)) as [vs' q'|vs' q'| |]; cbn [gbind follows] in *; auto.
    destruct IH as [(-> & -> & (rest & Y))|Y]; auto; left.
    pose proof (at_next _ _ _ _ X) as Z; rewrite Z in Y; subst ra.
    split; [reflexivity|]; rewrite app_length; split; [lia|]; exists rest; now rewrite <- app_assoc.
  - intros t pos fuel T F A; cbn; left; split; [reflexivity|]; split; [lia|eauto].
  - intros t v vs a b _ IHa _ IHb pos fuel T F A; cbn [g_elems List.length].
    specialize (IHa pos fuel T F (along_left _ _ _ _ A)).
    destruct (g_dec fuel t pos) as [w q|w q| |]; cbn [gbind follows] in *; auto.
    pose proof (dry_after q (g_elems p (g_dec fuel) t (List.length vs) q)) as DA.
    specialize (fun X => DA X (g_any_elems fuel t T F (List.length vs) q)).
    destruct IHa as [(-> & -> & X)|X].
    + specialize (IHb (pos + List.length a)%nat fuel T F (along_next _ _ _ _ A)).
      destruct (g_elems p (g_dec fuel) t (List.length vs) (pos + List.length a)) as [fs' q'|fs' q'| |]; cbn [gbind follows] in *; auto.
      destruct IHb as [(-> & -> & (rest & Y))|Y]; auto; left.
      destruct X as (ra & X); pose proof (at_next _ _ _ _ X) as Z; rewrite Z in Y; subst ra.
      split; [reflexivity|]; rewrite app_length; split; [lia|]; exists rest; now rewrite <- app_assoc.
    + specialize (DA X); destruct (g_elems p (g_dec fuel) t (List.length vs) q) as [fs' q'|fs' q'| |]; cbn [gbind follows] in *; auto.
Qed.

(** When the members end well, all of the encoding is there. *)
Lemma tight_along fuel ms : tight p ms ->
  (forall m, In m ms -> declared_type p (v_type m) /\ fits_any p fuel (v_type m) = true) ->
  forall fs bs pos fs' q, wire_members reading p ms fs bs -> along inp pos bs ->
    g_members (g_dec fuel) ms pos = GOk fs' q -> exists rest, skipn pos inp = bs ++ rest.
Proof.
  assert (FIRM : forall ms, Forall (firm p) ms ->
    (forall m, In m ms -> declared_type p (v_type m)) ->
    forall fs bs pos fs' q, wire_members reading p ms fs bs -> along inp pos bs ->
    g_members (g_dec fuel) ms pos = GOk fs' q -> exists rest, skipn pos inp = bs ++ rest).
  { clear ms; intros ms FM T fs bs pos fs' q WM (x & y & A) GM.
    destruct (firm_members room p W inp unchecked eq_refl (or_introl eq_refl) fuel ms T FM pos fs' q GM) as (bs' & rest & E & _ & WM').
    apply (proj1 (proj2 (wire_mode _ _ p reading_unchecked))) in WM.
    rewrite E, <- app_assoc in A.
    destruct (proj1 (proj2 (wire_prefix unchecked p W)) ms fs bs WM fs' bs' y (rest ++ x) WM') as (_ & -> & _); [now symmetry|].
    eauto. }
  intros [FM|(a & m & b & -> & S & FB)] T; [apply FIRM; [exact FM|intros; now apply T]|].
  induction a as [|z a IH]; intros fs bs pos fs' q WM A.
  - apply (FIRM (m :: b)) with (fs := fs); auto; [|intros; now apply T].
    constructor; [|exact FB]; destruct S as (n & F & _); now exists n.
  - inversion WM as [|? ? v fs0 c d WZ WR]; subst; cbn [List.app GoDec.g_members].
    destruct (T z (or_introl eq_refl)) as [Tz Fz].
    assert (T' : forall m', In m' (a ++ m :: b) -> declared_type p (v_type m') /\ fits_any p fuel (v_type m') = true) by (intros; apply T; now right).
    pose proof (proj1 (proj2 (proj2 g_along)) z v c WZ pos fuel Tz Fz (along_left _ _ _ _ A)) as X.
    destruct (g_member (g_dec fuel) z pos) as [w qm|w qm| |] eqn:GM; cbn [gbind follows] in *; try discriminate.
    destruct (g_members (g_dec fuel) (a ++ m :: b) qm) as [fs2 q'|fs2 q'| |] eqn:GS; cbn [gbind]; try discriminate.
    intros _; destruct X as [(-> & -> & (ra & X))|DR].
    + destruct (IH T' fs0 d _ _ _ WR (along_next _ _ _ _ A) GS) as (rest & Y).
      pose proof (at_next _ _ _ _ X) as Z; rewrite Z in Y; subst ra.
      exists rest; now rewrite <- app_assoc.
    + exfalso; clear -GS DR S T' W; revert qm fs2 q' GS DR; induction a as [|y a IHa]; intros qm fs' q' GS DR; cbn [List.app GoDec.g_members] in *.
      * destruct (T' m (or_introl eq_refl)) as [Tm _].
        destruct (g_member (g_dec fuel) m qm) as [v q|v q| |] eqn:GM; cbn [gbind] in GS; try discriminate.
        revert GM; now apply (solid_dry room p W inp unchecked eq_refl (or_introl eq_refl)).
      * assert (FN : fine true qm (g_member (g_dec fuel) y qm)).
        { pose proof (g_any_members fuel [y] qm) as FN; cbn [GoDec.g_members] in FN.
          destruct (g_member (g_dec fuel) y qm); apply FN; intros m' [<-|[]]; apply T'; now left. }
        destruct (g_member (g_dec fuel) y qm) as [v q|v q| |] eqn:GM; cbn [gbind fine] in FN, GS; try discriminate.
        destruct (g_members (g_dec fuel) (a ++ m :: b) q) as [fs3 q2|fs3 q2| |] eqn:G2; cbn [gbind] in GS; try discriminate.
        eapply IHa; [|exact G2|unfold dry in *; lia]; intros; apply T'; now right.
Qed.
End Along.

(** ** Enums *)

Section Clean.
Variable room : string -> Z.
Variable p : protocol.
Hypothesis W : WF p.
Hypothesis NE : enumless p.
Variable inp : list byte.
Notation g_dec := (g_dec room p inp).
Notation g_members := (g_members room p inp).
Notation g_member := (g_member room p inp).
Notation clean := (enums_declared p).

Definition clean_member (m : var) (v : val) : Prop :=
  if v_list m then exists vs, v = VList vs /\ Forall (clean (v_type m)) vs else clean (v_type m) v.
Definition clean_members (ms : list var) (fs : list (string * val)) : Prop :=
  Forall2 (fun m f => fst f = v_name m /\ clean_member m (snd f)) ms fs.

Lemma clean_lookup ms fs m v : NoDup (map v_name ms) -> clean_members ms fs -> In m ms -> In (v_name m, v) fs -> clean_member m v.
Proof.
  intros ND C; induction C as [|m0 [n w] ms fs [E C] CS IH]; [easy|]; cbn in E, C, ND; subst n.
  inversion ND as [|? ? NI ND']; subst; intros [->|I] [J|J].
  - congruence.
  - exfalso; apply NI; clear -CS J; induction CS as [|m1 [n w1] ms fs [E _] CS IH]; [easy|]; cbn in *.
    destruct J as [[= <- _]|J]; [now left|right; auto].
  - injection J as E _; exfalso; apply NI; rewrite E; now apply in_map.
  - now apply IH.
Qed.

Lemma clean_struct t s fs : declares p t s -> clean_members (s_members s) fs -> clean t (VStruct fs).
Proof.
  intros D C; pose proof (wf_member_nodup p W t s D) as ND; eapply ed_struct; [exact D| |].
  - intros m v I L J; pose proof (clean_lookup _ _ m v ND C I J) as X; unfold clean_member in X; now rewrite L in X.
  - intros m vs v I L J IV; pose proof (clean_lookup _ _ m _ ND C I J) as X; unfold clean_member in X; rewrite L in X.
    destruct X as (vs' & [= <-] & F); rewrite Forall_forall in F; now apply F.
Qed.

Lemma clean_zero d : forall t, declared_type p t -> ~ is_enum p t -> fits_any p d t = true -> clean t (go_zero p d t).
Proof.
  induction d as [|d IH]; intros t T N F;
    destruct (type_cases p t W T) as [k K M S E X| -> E X|e k K M S IE E KE NB|st K M S E X];
    try (exfalso; apply N; now exists e);
    try (apply ed_base; left; apply num_of_base; eauto; fail); try (apply ed_base; now right).
  all: assert (IS : In (t, st) (p_structs p)) by now apply lookup_In.
  all: assert (D : declares p t st) by now left.
  all: destruct (fits_any_members p _ t st W D F) as (d' & ED & FM); try discriminate ED; injection ED as <-.
  unfold go_zero; rewrite (go_kind_struct p W t st D), S; cbn [go_fields]; rewrite (find_declares p W t st D).
  eapply clean_struct; [exact D|].
  assert (G : forall ms, incl ms (s_members st) -> clean_members ms (map (fun m =>
            (v_name m,
             if v_list m then VList []
             else match go_kind p (v_type m) with
             | Some k => go_zero_num k
             | None => if String.eqb (v_type m) "string" then VStr [] else VStruct (go_fields p d (v_type m))
             end)) ms)).
  { induction ms as [|m ms IHm]; intro IN; [constructor|]; cbn [map]; constructor; [|apply IHm; intros z I; apply IN; now right].
    cbn [fst snd]; split; [reflexivity|]; assert (IM : In m (s_members st)) by (apply IN; now left).
    unfold clean_member; destruct (v_list m); [exists []; split; [reflexivity|constructor]|].
    exact (IH (v_type m) (wf_member_types p W t st m D IM) (NE t st m IS IM) (FM m IM)). }
  apply G, incl_refl.
Qed.

Definition cleanly {A} (ok bad : A -> Prop) (r : gres A) : Prop :=
  match r with GOk a _ => ok a | GBad a _ => bad a | _ => True end.

Lemma cleanly_bind {A B} ok bad ok' bad' (r : gres A) (k : A -> nat -> gres B) e : cleanly ok bad r ->
  (forall a q, ok a -> cleanly ok' bad' (k a q)) -> (forall a, bad a -> bad' (e a)) -> cleanly ok' bad' (gbind r k e).
Proof. destruct r; cbn; auto. Qed.

Lemma clean_members_ok rd ms :
  (forall m, In m ms -> declared_type p (v_type m) /\ forall pos,
     cleanly (clean (v_type m)) (fun v => ~ is_enum p (v_type m) -> clean (v_type m) v) (rd (v_type m) pos)) ->
  forall pos, cleanly (clean_members ms) (fun fs => (forall m, In m ms -> ~ is_enum p (v_type m)) -> clean_members ms fs)
    (g_members rd ms pos).
Proof.
  induction ms as [|m ms IH]; intros H pos; cbn [GoDec.g_members]; [constructor|].
  destruct (H m (or_introl eq_refl)) as [T R].
  apply (cleanly_bind (clean_member m) (fun v => ~ is_enum p (v_type m) -> clean_member m v)).
  - unfold clean_member, GoDec.g_member; destruct (v_list m); [|apply R].
    unfold g_list; destruct (list_size_num p W) as (k & K & NB); rewrite K.
    destruct (g_num inp k pos) as [n q|n q| |]; cbn [gbind cleanly]; auto.
    2:{ intros _; exists []; split; [reflexivity|constructor]. }
    destruct n as [z| | | | |]; try exact Logic.I.
    destruct (go_make room (v_type m) z); try exact Logic.I.
    apply (cleanly_bind (Forall (clean (v_type m))) (fun vs => ~ is_enum p (v_type m) -> Forall (clean (v_type m)) vs)).
    + generalize q; induction (Z.to_nat z) as [|j IHj]; intro q1; cbn [g_elems]; [constructor|].
      apply (cleanly_bind (clean (v_type m)) (fun v => ~ is_enum p (v_type m) -> clean (v_type m) v)); [apply R| |].
      * intros v q2 C; apply (cleanly_bind (Forall (clean (v_type m))) (fun vs => ~ is_enum p (v_type m) -> Forall (clean (v_type m)) vs)); [apply IHj| |].
        -- intros vs q3 CS; cbn; now constructor.
        -- intros vs CS N; constructor; auto.
      * intros v C N; constructor; [now apply C|]; apply Forall_forall; intros x I; apply repeat_spec in I as ->.
        apply clean_zero; auto; now apply WF_fits_any.
    + intros vs q2 C; exists vs; auto.
    + intros vs C N; exists vs; auto.
  - intros v q C; apply (cleanly_bind (clean_members ms) (fun fs => (forall m, In m ms -> ~ is_enum p (v_type m)) -> clean_members ms fs)).
    + apply IH; intros; apply H; now right.
    + intros fs q2 CS; constructor; [split; [reflexivity|exact C]|exact CS].
    + intros fs CS N; constructor; [split; [reflexivity|exact C]|apply CS; intros; apply N; now right].
  - intros v C N; constructor; [split; [reflexivity|apply C, N; now left]|].
    assert (T' : forall m', In m' ms -> declared_type p (v_type m')) by (intros m' I; apply (H m'); now right).
    assert (N' : forall m', In m' ms -> ~ is_enum p (v_type m')) by (intros m' I; apply N; now right).
    clear -T' N' W NE; induction ms as [|m ms IH]; [constructor|]; cbn [map]; constructor.
    + unfold g_zero; cbn [fst snd]; split; [reflexivity|]; unfold clean_member; destruct (v_list m); [exists []; split; [reflexivity|constructor]|].
      apply clean_zero; [apply T'; now left|apply N'; now left|now apply WF_fits_any].
    + apply IH; intros; [apply T'|apply N']; now right.
Qed.

Lemma clean_dec fuel : forall t pos, declared_type p t ->
  cleanly (clean t) (fun v => ~ is_enum p t -> clean t v) (g_dec fuel t pos).
Proof.
  induction fuel as [|f IH]; intros t pos T;
    (destruct (type_cases p t W T) as [k K M S E X| -> E X|e k K M S IE E KE NB|st K M S E X];
     [assert (C : forall v, clean t v) by (intro; apply ed_base; left; apply num_of_base; eauto);
      match goal with |- cleanly _ _ ?r => destruct r; cbn; auto end
     |assert (C : forall v, clean "string" v) by (intro; apply ed_base; now right);
      match goal with |- cleanly _ _ ?r => destruct r; cbn; auto end
     |rewrite (g_dec_enum _ _ W _ _ _ _ _ IE); unfold g_enum; rewrite KE;
      destruct (g_num inp k pos) as [[z| | | | |] q|v q| |]; cbn [gbind cleanly]; auto;
      [unfold only_declared; destruct (existsb _ _) eqn:OD; cbn [cleanly];
       [apply existsb_exists in OD as (z' & Iz & Z'); apply Z.eqb_eq in Z' as <-; eapply ed_enum; eassumption
       |intro N; exfalso; apply N; now exists e]
      |intro N; exfalso; apply N; now exists e]
     |]).
  all: assert (IS : In (t, st) (p_structs p)) by now apply lookup_In.
  all: assert (D : declares p t st) by now left.
  all: destruct (is_simple p t) eqn:SM.
  1,3: rewrite (g_dec_raw _ _ W _ _ _ _ _ D SM);
    match goal with |- cleanly _ _ ?r => destruct r as [v q|v q| |] eqn:GD; cbn [cleanly]; auto end;
    [ | intros _; destruct (go_raw p t inp pos); try discriminate GD; injection GD as <- _;
        apply clean_zero; [exact T| |now apply WF_fits_any];
        intros [e IE]; destruct (declares_not_num p W t st D) as (_ & _ & C); now apply C in IE].
  1,2: pose proof (is_simple_fixed p t W (or_introl T) SM) as FX;
    assert (GF : g_dec 0 t pos = GOk v q) by (rewrite (g_dec_raw _ _ W _ _ _ _ _ D SM); exact GD);
    destruct (g_firm room p W inp reading eq_refl (or_intror NE) _ _ _ _ _ _ T FX GF) as (bs & rest & _ & _ & WI);
    exact (proj1 (wire_enums_declared p W reading eq_refl) _ _ _ WI).
  - rewrite (g_dec_call _ _ W _ _ _ _ _ D SM); exact Logic.I.
  - rewrite (g_dec_call _ _ W _ _ _ _ _ D SM).
    pose proof (clean_members_ok (g_dec f) (s_members st)
      (fun m I => conj (wf_member_types p W t st m D I) (fun q => IH _ q (wf_member_types p W t st m D I))) pos) as C.
    destruct (g_members (g_dec f) (s_members st) pos) as [fs q|fs q| |]; cbn [cleanly] in *; auto.
    + eapply clean_struct; eassumption.
    + eapply clean_struct; [exact D|]; apply C; intros m I; exact (NE t st m IS I).
Qed.
End Clean.

(** ** Writing *)

Section Write.
Variable p : protocol.
Hypothesis W : WF p.

Lemma bin_encode_num d t k v : go_kind p t = Some k -> bin_encode p d t v = num_bytes k v.
Proof. intro K; destruct d; cbn [bin_encode]; now rewrite K. Qed.

Section Encode.
Variable enc : string -> val -> option (list byte).
Variable fs : list (string * val).
Fixpoint enc_members (ms : list var) : option (list byte) :=
  match ms with
  | [] => Some []
  | m :: r =>
      match lookup (v_name m) fs with
      | Some w => match enc (v_type m) w, enc_members r with Some a, Some b => Some (a ++ b) | _, _ => None end
      | None => None
      end
  end.
End Encode.

Lemma bin_encode_struct d t s fs : go_kind p t = None -> find_struct p t = Some s ->
  bin_encode p (S d) t (VStruct fs) = enc_members (bin_encode p d) fs (s_members s).
Proof. intros K F; cbn [bin_encode]; rewrite K, F; reflexivity. Qed.

Lemma bin_encode_ok d : forall t v bs n, declared_type p t -> fits_any p d t = true -> fixed_size p t n ->
  wire p t v bs -> bin_encode p d t v = Some bs.
Proof.
  induction d as [|d IH]; intros t v bs n T F FX WI;
    destruct (type_cases p t W T) as [k K M S E X| -> E X|e k K M S IE E KE NB|st K M S E X].
  1,5: rewrite (bin_encode_num _ _ _ _ (go_kind_num p t k K)); apply wire_num_bytes; eapply wire_num_inv; eassumption.
  1,4: exfalso; revert FX; now apply fixed_string.
  1,3: rewrite (bin_encode_num _ _ _ _ (go_kind_enum p W t e k IE KE));
    destruct (wire_enum_inv _ p W t e v bs IE WI) as (k' & z & EV & KE' & N & _); subst v; rewrite KE in KE'; injection KE' as KE'; subst k';
    now apply wire_num_bytes.
  all: assert (IS : In (t, st) (p_structs p)) by now apply lookup_In.
  all: assert (D : declares p t st) by now left.
  all: destruct (fits_any_members p _ t st W D F) as (d' & ED & FM); try discriminate ED; injection ED as <-.
  destruct (wire_struct_inv _ p W t st v bs D WI) as (fs & EV & WM); subst v; clear WI.
  rewrite (bin_encode_struct d t st fs (go_kind_struct p W t st D) (find_declares p W t st D)).
  assert (NM := wire_members_names _ _ _ _ _ WM); assert (ND := wf_member_nodup p W t st D); rewrite <- NM in ND.
  assert (G : forall ms fs' bs n, incl ms (s_members st) -> (forall x, In x fs' -> In x fs) ->
    fixed_members p ms n -> wire_members strict p ms fs' bs -> enc_members (bin_encode p d) fs ms = Some bs).
  { clear bs n WM FX; induction ms as [|m ms IHm]; intros fs' bs n IN SUB FX WM; cbn [enc_members];
      inversion WM as [|? ? v fs'' a b WA WB]; subst; [reflexivity|].
    inversion FX as [|? ? x y VL Fa Fb]; subst.
    rewrite (In_lookup _ _ _ ND (SUB _ (or_introl eq_refl))).
    assert (IM : In m (s_members st)) by (apply IN; now left).
    inversion WA as [? ? ? _ WV|? ? ? ? L1]; [subst|congruence].
    rewrite (IH (v_type m) v a x (wf_member_types p W t st m D IM) (FM m IM) Fa) by assumption.
    now rewrite (IHm fs'' b y (fun z I => IN z (or_intror I)) (fun z I => SUB z (or_intror I)) Fb WB). }
  eapply (G _ fs); [apply incl_refl|auto|eapply fixed_struct; eassumption|exact WM].
Qed.

Section Calls.
Variable call : string -> val -> wstate -> wout.
Variable fuel : nat.
Hypothesis CALL : wcall_ok go_wt p call fuel.

Lemma go_writes_one s t v bs obj env : wfetch s obj env = Some v -> declared_type p t ->
  fits_any p fuel t = true -> wire p t v bs -> writes go_wt (wexec go_wt p call (go_write_one p s t) obj env) bs.
Proof.
  intros FE T F WI; unfold go_write_one.
  destruct (type_cases p t W T) as [k K M S E X| -> E X|e k K M S IE E KE NB|st K M S E X].
  - rewrite S.
    assert (SM : is_simple p t = true).
    { eapply fixed_is_simple; [exact W|now left|]; constructor; apply num_of_base_size in K; apply K. }
    replace (lookup t (p_enums p)) with (@None enum) by (symmetry; exact E).
    rewrite SM, go_prim_num, K.
    eapply writes_ext; [intro w; rewrite wexec_one; cbn [IR.wexec_stmt fst]; rewrite FE; reflexivity|].
    apply writes_num; eapply wire_num_inv; eassumption.
  - rewrite String.eqb_refl; eapply writes_ext; [intro w; rewrite wexec_one; cbn [IR.wexec_stmt fst]; rewrite FE; reflexivity|].
    apply writes_str; [exact W|reflexivity|exact WI].
  - rewrite S, E, go_prim_num, KE; cbn [with_prim].
    destruct (wire_enum_inv _ p W t e v bs IE WI) as (k' & z & EV & KE' & N & _); subst v; rewrite KE in KE'; injection KE' as KE'; subst k'.
    eapply writes_ext; [intro w; rewrite wexec_one; cbn [IR.wexec_stmt fst]; rewrite FE; reflexivity|].
    now apply writes_num.
  - assert (D : declares p t st) by (left; now apply lookup_In).
    rewrite S, (no_enum p W t st D); destruct (is_simple p t) eqn:SM.
    + rewrite go_prim_num, K.
      pose proof (is_simple_fixed p t W (or_introl T) SM) as FX.
      eapply writes_ext; [intro w; rewrite wexec_one; cbn [IR.wexec_stmt fst]; rewrite FE; cbn [wt_raw go_wt];
        rewrite (bin_encode_ok _ t v bs _ T (WF_fits_any p t W) FX WI); reflexivity|].
      apply (writes_put go_wt).
    + eapply writes_ext; [intro w; rewrite wexec_one; cbn [IR.wexec_stmt fst]; rewrite FE; reflexivity|].
      eapply CALL; eassumption.
Qed.

Lemma go_member_writes m : declared_type p (v_type m) -> fits_any p fuel (v_type m) = true ->
  member_writes go_wt p call m (go_write p m).
Proof.
  intros T F obj env v bs L H; unfold go_write; destruct (v_list m) eqn:VL.
  - inversion H as [|? vs lb bs' VL' S E]; subst; [congruence|].
    destruct S as (k & K & N); rewrite go_prim_num, K; cbn [with_prim].
    set (l := (v_name m +++ "_Len")%string).
    set (env' := dict_set l (VInt (Z.of_nat (List.length vs))) env).
    eapply writes_ext with (g := fun w => wbind (wt_put go_wt lb w)
      (wexec go_wt p call [WForIdx "i1" (BVar l) (go_write_one p (SElem (v_name m) "i1") (v_type m))] obj env')).
    + intro w; rewrite wexec_cons; cbn [IR.wexec_stmt wfetch]; rewrite L; cbn [fst snd wbind].
      rewrite (wire_int_wrap _ _ _ _ N); fold env'.
      rewrite wexec_cons; cbn [IR.wexec_stmt wfetch fst snd]; unfold env'; rewrite lookup_dict_set_eq.
      unfold put_num; rewrite (wire_num_bytes _ _ _ N); reflexivity.
    + apply writes_bind; [apply writes_put|].
      assert (BO : bound_of (BVar l) obj env' = Some (Z.of_nat (List.length vs))).
      { cbn [bound_of]; unfold env'; now rewrite lookup_dict_set_eq. }
      eapply writes_ext; [intro w; rewrite wexec_one, (wexec_foridx _ _ _ _ _ _ _ _ _ _ BO); cbn [fst]; rewrite Nat2Z.id; reflexivity|].
      change 0 with (Z.of_nat 0); eapply (writes_upto go_wt p call "i1" _ obj env' (v_type m) vs); [|lia|exact E].
      intros j v bs NT WI; eapply go_writes_one; try eassumption.
      cbn [wfetch]; rewrite L, (index_at _ _ j); [exact NT|apply lookup_dict_set_eq|].
      apply nth_error_Some; congruence.
  - inversion H; subst; [|congruence]; eapply go_writes_one; eassumption.
Qed.
End Calls.
End Write.

(** ** The statements *)

Section GO.
Variable room : string -> Z.
Variable p : protocol.
Hypothesis W : WF p.
Hypothesis COMPILES : go_compiles p = true.
Notation rd := (go_from_bytes room p).

Lemma go_from t s inp pos : declares p t s -> rd t inp pos = g_seen (g_top room p inp (depth_of p) t pos).
Proof.
  intro D; apply (go_read_gives room p inp W t s pos D COMPILES).
  pose proof (fine_top room p W inp true (or_introl eq_refl) (or_introl eq_refl) (or_introl eq_refl) t s pos D) as F.
  intro E; rewrite E in F; exact F.
Qed.

Lemma go_top t s inp pos : declares p t s -> exists f,
  (forall m, In m (s_members s) -> declared_type p (v_type m) /\ fits_any p f (v_type m) = true) /\
  g_top room p inp (depth_of p) t pos = g_members room p inp (g_dec room p inp f) (s_members s) pos.
Proof.
  intro D; destruct (fits_any_members p _ t s W D (WF_fits_any p t W)) as (f & EF & FM).
  exists f; split; [intros m I; split; [eapply (wf_member_types p W); eassumption|now apply FM]|].
  unfold g_top; now rewrite (find_declares p W t s D), EF.
Qed.

Lemma go_answers_if trap : (trap = true \/ stringless p) -> (trap = true \/ capitals p) ->
  (trap = true \/ forall t z, len_read p z -> go_make room t z <> Crash) -> always_answers p trap rd.
Proof.
  intros STR CAPS LEN t s inp pos D; rewrite (go_from t s inp pos D).
  pose proof (fine_top room p W inp trap STR CAPS LEN t s pos D) as F.
  destruct (g_top room p inp (depth_of p) t pos); cbn in *; auto.
Qed.
Lemma go_answers_trap : always_answers p true rd.
Proof. apply go_answers_if; now left. Qed.

Lemma go_make_tiny : tiny_unsigned (p_list_size_type p) -> has_room room ->
  forall t z, len_read p z -> go_make room t z <> Crash.
Proof.
  intros TU ROOM t z (k & K & R); unfold go_make; specialize (ROOM t).
  assert (Z : 0 <= z < 2 ^ 16).
  { destruct TU as [E|[E|[]]]; rewrite <- E in K; injection K as <-; cbn in R; lia. }
  destruct (Z.ltb_spec z 0); [lia|]; destruct (Z.ltb_spec (room t) z); [lia|discriminate].
Qed.
Lemma go_answers : stringless p -> capitals p -> tiny_unsigned (p_list_size_type p) -> has_room room ->
  always_answers p false rd.
Proof. intros S C T R; apply go_answers_if; right; auto; now apply go_make_tiny. Qed.

Lemma go_moves : moves p rd.
Proof.
  intros t s inp pos v q D; rewrite (go_from t s inp pos D).
  pose proof (fine_top room p W inp true (or_introl eq_refl) (or_introl eq_refl) (or_introl eq_refl) t s pos D) as F.
  destruct (g_top room p inp (depth_of p) t pos); cbn in *; try discriminate; congruence.
Qed.

Definition go_taken (v0 v : val) : Prop := v = v0 /\ lists modest v0.
Lemma go_kept t v bs : wire_in reading p t v bs -> lists modest v -> go_taken v v.
Proof. now split. Qed.
Lemma go_some t v bs : wire_in reading p t v bs -> lists modest v -> exists v', go_taken v v'.
Proof. exists v; now split. Qed.

Lemma go_reads : capitals p -> has_room room -> reads_wire p go_taken rd.
Proof.
  intros CAPS ROOM t s v0 v bs inp pos rest D WI [-> LS] E; rewrite (go_from t s inp pos D).
  destruct (go_top t s inp pos D) as (f & F & ->).
  apply (wire_struct_inv _ p W t s v0 bs D) in WI as (fs & -> & WM); inversion LS; subst.
  assert (RM : forall t n, modest n -> Z.of_nat n <= room t) by (intros u n M; unfold modest in M; specialize (ROOM u); lia).
  rewrite (proj1 (proj2 (g_forward room p W CAPS modest RM)) _ _ _ WM inp pos rest f); try assumption.
  - reflexivity.
  - intros; now apply F.
  - intros; now apply F.
Qed.

Lemma go_reads_back : capitals p -> has_room room -> reads_back p (lists modest) rd.
Proof. intros C R; exact (reads_back_of p rd go_taken (lists modest) go_kept (go_reads C R)). Qed.

Lemma go_only : tight_messages p -> enumless p -> only_wire_messages p Some rd.
Proof.
  intros TM NE t s inp pos v q I; assert (D : declares p t s) by now right.
  rewrite (go_from t s inp pos D); destruct (go_top t s inp pos D) as (f & F & ->).
  destruct (g_members room p inp (g_dec room p inp f) (s_members s) pos) as [fs q'|fs q'| |] eqn:G; try discriminate.
  intros [= <- <-].
  assert (LO : loose_enumless p) by (intros u st m IS _ IM; exact (NE u st m IS IM)).
  destruct (tight_members room p W inp reading eq_refl (or_intror NE) LO f (s_members s)
    (fun m I => proj1 (F m I)) (TM t s I) pos fs q' G) as (bs & rest & E & -> & WM).
  assert (WI : wire_in reading p t (VStruct fs) bs) by (econstructor; eassumption).
  exists (VStruct fs), bs, rest; repeat split; auto; eapply (text_kept p Some any_text); [reflexivity|exact WI|apply strings_any].
Qed.

Lemma go_truncated trap : always_answers p trap rd -> tight_messages p -> rejects_truncated_messages p trap rd.
Proof.
  intros A TM t s v bs before cut x rest I WI E; assert (D : declares p t s) by now right.
  pose proof (A t s (before ++ cut) (List.length before) D) as AN.
  destruct (rd t (before ++ cut) (List.length before)) as [v' q| | | |] eqn:R; cbn in AN; try contradiction; [|now left|now right].
  exfalso; rewrite (go_from t s _ _ D) in R.
  destruct (go_top t s (before ++ cut) (List.length before) D) as (f & F & G); rewrite G in R; clear G.
  destruct (g_members _ _ _ _ _ _) as [fs' q'|fs' q'| |] eqn:G; try discriminate R.
  apply (wire_struct_inv _ p W t s v bs D) in WI as (fs & -> & WM).
  destruct (tight_along room p W (before ++ cut) f (s_members s) (TM t s I) F fs bs (List.length before) fs' q' WM) as (r & X); [|exact G|].
  - rewrite E; apply along_cut.
  - rewrite skipn_app, skipn_all, Nat.sub_diag in X; cbn [skipn List.app] in X; subst bs.
    apply (f_equal (@List.length _)) in X; rewrite !app_length in X; cbn in X; lia.
Qed.

Lemma go_enums : enumless p -> only_declared_enums p rd.
Proof.
  intros NE t s inp pos v q D; rewrite (go_from t s inp pos D); destruct (go_top t s inp pos D) as (f & F & ->).
  pose proof (clean_members_ok room p W NE inp (g_dec room p inp f) (s_members s)
    (fun m I => conj (proj1 (F m I)) (fun q => clean_dec room p W NE inp f (v_type m) q (proj1 (F m I)))) pos) as C.
  destruct (g_members room p inp (g_dec room p inp f) (s_members s) pos) as [fs q'|fs q'| |]; try discriminate; cbn [cleanly] in C.
  intros [= <- <-]; eapply clean_struct; eassumption.
Qed.

(** *** Writing *)

Lemma go_writes t s v bs : declares p t s -> wire p t v bs -> writes go_wt (go_write_bytes p t v) bs.
Proof.
  intros D WI; apply (writes_ext go_wt _ (write_with go_wt go_writer p t v)).
  { intro w; unfold go_write_bytes; now rewrite COMPILES. }
  eapply write_ok with (mcode := fun _ => go_write p); eauto.
  intros call fuel t' s' m C D' I F; apply (go_member_writes p W call fuel C); [|exact F].
  exact (wf_member_types p W t' s' m D' I).
Qed.

Lemma go_writer_appends : writer_does appends p (go_write_bytes p).
Proof. intros t s v bs D WI; apply (writes_appends go_wt); [reflexivity|eapply go_writes; eassumption]. Qed.

Lemma go_tagged_appends : tagged_writer_does appends p (go_write_tagged p).
Proof.
  intros [t v] bs WT; apply (writes_appends go_wt); [reflexivity|].
  apply (write_tagged_ok go_wt p (go_write_bytes p) W go_writes (t, v) bs WT).
Qed.

(** *** Streams *)

Lemma go_streams : streams (go_stream room) p (go_process room p).
Proof.
  constructor; [exact W|reflexivity| | | |].
  - intros inp pos b rest E; cbn [sm_tag go_stream]; unfold go_tag.
    rewrite (proj2 (go_num_got NByte inp pos (VInt (Z_of_byte b)) (pos + 1)%nat)); [reflexivity|].
    exists [b], rest; split; [exact E|split; [|reflexivity]].
    pose proof (Z_of_byte_range b).
    constructor; [discriminate|reflexivity|cbn; lia|].
    cbn [le_val num_size]; rewrite Z.mod_small; cbn; lia.
  - intros inp pos L; right; cbn [sm_tag go_stream]; unfold go_tag.
    now destruct (go_num_dry NByte inp pos L) as [q ->].
  - intros b t _; apply case_numbered.
  - intros max inp pos; unfold go_process; now rewrite COMPILES.
Qed.

Section Reads.
Hypothesis CAPS : capitals p.
Hypothesis ROOM : has_room room.
Lemma go_reads_streams : reads_streams p (lists modest) (go_process room p).
Proof. exact (streams_read _ _ _ go_streams _ (lists modest) go_kept (go_reads CAPS ROOM)). Qed.
Lemma go_stops_at_max : stops_at_max p (lists modest) (go_process room p).
Proof. exact (streams_max _ _ _ go_streams _ (lists modest) go_kept (go_reads CAPS ROOM)). Qed.
Lemma go_rejects_unknown : rejects_unknown p (lists modest) (go_process room p).
Proof. exact (streams_unknown _ _ _ go_streams _ (lists modest) go_some (go_reads CAPS ROOM) eq_refl). Qed.
Lemma go_rejects_cut trap : always_answers p trap rd -> tight_messages p ->
  rejects_cut_streams p (lists modest) trap (go_process room p).
Proof.
  intros A TM; exact (streams_cut_messages _ _ _ go_streams trap _ (lists modest) go_some (go_reads CAPS ROOM) eq_refl
    (go_truncated trap A TM)).
Qed.
End Reads.
Lemma go_only_streams : tight_messages p -> enumless p -> only_streams p Some (go_process room p).
Proof. intros TM NE; exact (streams_only_messages _ _ _ _ go_streams (go_only TM NE) eq_refl). Qed.
Lemma go_stream_answers trap : always_answers p trap rd -> stream_answers trap (go_process room p).
Proof. exact (streams_answer_moves _ _ _ go_streams trap go_moves). Qed.

(** *** Packed buffers *)

Lemma go_packs : packer_does appends p (go_pack p).
Proof.
  intros ms bs H; apply (writes_appends go_wt); [reflexivity|].
  exact (pack_ok go_wt p (go_write_bytes p) W go_writes ms bs H).
Qed.

Lemma go_header inp pos c : skipn pos inp = header ++ c -> go_take 4 inp pos = Got header (pos + 4).
Proof. intro E; apply go_take_got; split; [eauto|split; reflexivity]. Qed.

Lemma go_count inp pos nb rest n : skipn pos inp = header ++ nb ++ rest -> wire_num strict NU32 (VInt n) nb ->
  go_read_num NI32 inp (pos + 4) = Got (VInt (to_signed 4 n)) (pos + 8).
Proof.
  intros E N; apply at_next in E; cbn [List.length header] in E.
  assert (LN : List.length nb = 4%nat) by (inversion N; subst; assumption).
  assert (LV : le_val nb = n).
  { inversion N as [? ? ? ? _ R M| |]; subst; cbn in R; rewrite Z.mod_small in M; cbn; lia. }
  unfold go_read_num; rewrite (proj2 (go_take_got (num_size NI32) inp (pos + 4) nb (pos + 8))).
  - cbn [num_val num_size]; now rewrite LV.
  - split; [eauto|]; split; [exact LN|cbn; lia].
Qed.

Lemma go_up trap : always_answers p trap rd -> counts (go_stream room) p (2 ^ 31 - 1) trap (go_unpack room p).
Proof.
  intro A; apply counts_in_place; intros inp pos nb rest n E N.
  assert (R : 0 <= n < 2 ^ 32) by (apply wire_num_vint in N; cbn in N; lia).
  assert (U : go_unpack room p inp pos = unpack_counted (go_stream room) p (to_signed 4 n) (to_signed 4 n) inp (pos + 8)).
  { unfold go_unpack; rewrite COMPILES, (go_header _ _ _ E).
    destruct (list_eq_dec Byte.byte_eq_dec header header) as [_|NE]; [|contradiction NE; reflexivity].
    now rewrite (go_count inp pos nb rest n E N). }
  unfold to_signed in U; change (2 ^ (8 * Z.of_nat 4 - 1)) with (2 ^ 31) in U; destruct (Z.ltb_spec n (2 ^ 31)).
  - left; exists n; split; [exact U|lia].
  - right; split; [lia|]; rewrite U; change (2 ^ (8 * Z.of_nat 4)) with (2 ^ 32).
    unfold unpack_counted; destruct (Z.eqb_spec (n - 2 ^ 32) 0); [lia|].
    destruct go_streams as [_ FIN TAG END CASE EQ].
    pose proof (process_answers (go_stream room) p FIN TAG END CASE go_moves trap (n - 2 ^ 32) inp (pos + 8) (fun t s q => A t s inp q)) as PA.
    destruct (process _ _ _ _ _) as [ms q| | | |]; cbn in PA; try contradiction; [|now left|now right].
    left; destruct (_ =? 0)%nat; [reflexivity|]; destruct (Z.eqb_spec (Z.of_nat (List.length ms)) (n - 2 ^ 32)); [lia|reflexivity].
Qed.

Lemma go_bad_header : rejects_bad_header true (go_unpack room p).
Proof.
  intros inp pos NH; unfold go_unpack; rewrite COMPILES.
  destruct (go_take 4 inp pos) as [bs q|q|] eqn:T; [|now right|now right].
  apply go_take_got in T as ((rest & E) & _ & _).
  destruct (list_eq_dec Byte.byte_eq_dec bs header) as [->|]; [|now left].
  now apply NH in E.
Qed.

(** Four bytes that are not the header are reported. *)
Lemma go_wrong_header inp pos : (pos + 4 <= List.length inp)%nat -> (forall rest, skipn pos inp <> header ++ rest) ->
  go_unpack room p inp pos = RErr.
Proof.
  intros L NH; unfold go_unpack; rewrite COMPILES.
  destruct (go_take 4 inp pos) as [bs q|q|] eqn:T.
  - apply go_take_got in T as ((rest & E) & _ & _).
    destruct (list_eq_dec Byte.byte_eq_dec bs header) as [->|]; [|reflexivity].
    now apply NH in E.
  - unfold go_take in T; destruct (Nat.leb_spec 4 (List.length inp - pos)); [discriminate|lia].
  - now apply go_take_crash in T.
Qed.

Lemma go_bad_count trap : rejects_bad_count trap (go_unpack room p).
Proof.
  intros inp pos c E L; left; unfold go_unpack; rewrite COMPILES, (go_header _ _ _ E).
  destruct (list_eq_dec Byte.byte_eq_dec header header) as [_|NE]; [|contradiction NE; reflexivity].
  destruct (go_read_num NI32 inp (pos + 4)) as [v q|q|] eqn:R; [|reflexivity|now apply go_num_crash in R].
  exfalso; apply go_num_got in R as (bs & rest & E' & N & _); apply num_val_spec in N as [LB _].
  apply at_next in E; cbn [List.length header] in E; rewrite E in E'; rewrite E', app_length in L; cbn in LB; lia.
Qed.

Lemma go_unpacking : unpacking (go_stream room) p (2 ^ 31 - 1) true (go_unpack room p).
Proof. constructor; [apply go_up, go_answers_trap|apply go_bad_header|apply go_bad_count]. Qed.

Lemma go_unpacks : capitals p -> has_room room -> unpacks p (lists modest) (2 ^ 31 - 1) (go_unpack room p).
Proof.
  intros C R; exact (unpacking_reads _ _ _ go_streams _ true _ _ (lists modest) (go_up true go_answers_trap) go_kept (go_reads C R)).
Qed.
Lemma go_missing trap : always_answers p trap rd -> capitals p -> has_room room ->
  rejects_missing_for p (lists modest) trap (go_unpack room p).
Proof.
  intros A C R; exact (unpacking_missing_reads _ _ _ go_streams _ trap _ _ (lists modest) (go_up trap A) go_some (go_reads C R)).
Qed.
Lemma go_only_packed : tight_messages p -> enumless p -> only_packed p Some (go_unpack room p).
Proof. intros TM NE; exact (unpacking_only_messages _ _ _ go_streams _ _ _ go_unpacking _ (go_only TM NE) eq_refl). Qed.
Lemma go_unpack_answers : unpack_answers true (go_unpack room p).
Proof. exact (unpacking_answers_moves _ _ _ go_streams _ _ _ go_unpacking go_answers_trap go_moves). Qed.

(** *** Size *)

Lemma go_no_loops lvl t i : ~ loop_at go_style p lvl t i.
Proof. intro H; induction H; try contradiction; discriminate. Qed.

Lemma go_exact_size : exact_size p (go_size p).
Proof.
  intros t s v bs D WI; unfold go_size; rewrite COMPILES.
  eapply size_ok_gen; eauto.
  - intros lvl t' s' m i _ _ _ _; apply go_no_loops.
  - discriminate.
Qed.

Lemma go_exact_packed_size : exact_packed_size p (go_packed_size p).
Proof.
  intros ms bs H; unfold go_packed_size.
  rewrite (packed_size_ok p (go_size p) ms bs W); [reflexivity| |exact H].
  intros t s v b D WI I; eapply go_exact_size; eassumption.
Qed.
End GO.

(** ** Names *)

Lemma go_declared_names p : go_declared p = go_file_names p.
Proof.
  unfold go_declared, go_file_names, go_boilerplate, go_fixed_names; f_equal.
  rewrite map_map; f_equal; f_equal.
  - apply flat_map_ext; intros [n e]; now rewrite map_map.
  - rewrite flat_map_concat_map, flat_map_concat_map, map_map; reflexivity.
Qed.

Lemma go_locals_fine p all ms : incl ms all ->
  (forall m m' n, In m all -> In m' all -> go_local p m n -> n <> v_type m' /\ n <> "isValid" +++ v_type m')%string ->
  go_locals_ok p ms = true.
Proof.
  intros Inc H; induction ms as [|m ms IH]; [reflexivity|]; cbn [go_locals_ok].
  assert (IM : In m all) by (apply Inc; now left).
  assert (NO : forall n r, go_local p m n -> incl r all -> in_strs n (flat_map (go_mentions p) r) = false).
  { intros n r GL IR; apply in_strs_false; intro I; apply in_flat_map in I as (m' & I' & I).
    destruct (H m m' n IM (IR _ I') GL) as [A B]; unfold go_mentions in I; apply in_app_or in I as [I|I].
    - destruct (_ || _); [destruct I as [I|[]]; now apply A|destruct I].
    - destruct (mem _ _); [destruct I as [I|[]]; now apply B|destruct I]. }
  apply andb_true_iff; split; [|apply IH; intros x X; apply Inc; now right].
  destruct (v_list m) eqn:L.
  - rewrite NO; [reflexivity|left; auto|exact Inc].
  - destruct (mem (v_type m) (p_enums p)) eqn:M; [|reflexivity].
    rewrite NO; [reflexivity| |intros x X; apply Inc; now right].
    right; repeat split; [exact L|]; unfold mem in M; destruct (lookup _ _) as [e|] eqn:E; [|discriminate].
    exists e; now apply lookup_In.
Qed.

Lemma go_compiles_ok p : WF p -> go_names p -> go_compiles p = true.
Proof.
  intros W (ND & NA & NW & NM & NL); unfold go_compiles; apply andb_true_iff; split.
  { apply negb_true_iff, has_dup_str_false; now rewrite go_declared_names. }
  apply forallb_forall; intros [t s] I; cbn [snd].
  assert (D : declares p t s) by (apply in_app_iff in I; exact I).
  apply andb_true_iff; split; [apply andb_true_iff; split|].
  - apply negb_true_iff, has_dup_str_false, (NA t s D).
  - apply forallb_forall; intros f F; apply negb_true_iff, in_strs_false; intro IN.
    apply in_map_iff in IN as (m & EN & IM); unfold go_methods in F; destruct F as [<-|F].
    + apply (NW t s D), in_map_iff; eauto.
    + destruct (s_is_message s) eqn:SM; [|destruct F].
      destruct D as [D|D]; [destruct (wf_struct_entry p W t s D); congruence|].
      destruct (NM t s m D IM) as [A B]; destruct F as [<-|[<-|[]]]; congruence.
  - apply (go_locals_fine p (s_members s)); [apply incl_refl|]; intros m m' n IM IM'; exact (NL t s m m' n D IM IM').
Qed.

Lemma go_protocol_WF rename p : WF p -> names_apart (fun n => n) (go_protocol rename p) -> WF (go_protocol rename p).
Proof.
  intros W ND; destruct rename; [|exact W]; cbn in *; apply rename_WF; auto using capitalize_no_space, capitalize_underscore.
  intros n s D; specialize (ND n (rename_struct capitalize s)).
  cbn in ND; rewrite map_map in ND; apply ND, rename_declares; eauto.
Qed.

Lemma upper_capital c : (97 <= nat_of_ascii c <= 122)%nat -> is_upper (upper_ascii c) = true.
Proof.
  intros [A B]; apply Nat.leb_le in A, B.
  enough (H : (negb (Nat.leb 97 (nat_of_ascii c) && Nat.leb (nat_of_ascii c) 122) || is_upper (upper_ascii c)) = true)
    by (rewrite A, B in H; exact H).
  clear; revert c; ascii_tac (fun c => negb (Nat.leb 97 (nat_of_ascii c) && Nat.leb (nat_of_ascii c) 122) || is_upper (upper_ascii c)).
Qed.
Lemma capital_capital c : is_upper c = true -> is_upper (upper_ascii c) = true.
Proof.
  intro A; enough (H : (negb (is_upper c) || is_upper (upper_ascii c)) = true) by (rewrite A in H; exact H).
  clear; revert c; ascii_tac (fun c => negb (is_upper c) || is_upper (upper_ascii c)).
Qed.

Lemma letters_capitals p : letters p -> capitals (go_protocol true p).
Proof.
  intros H t s m I M; cbn in I; apply In_rename in I as (s0 & I & ->); cbn in M.
  apply in_map_iff in M as (m0 & <- & M); cbn.
  specialize (H t s0 m0 I M); unfold letter_first in H; destruct (v_name m0) as [|c r]; [exact H|]; cbn.
  apply is_upper_spec; destruct H as [H|H]; [now apply capital_capital, is_upper_spec|now apply upper_capital].
Qed.

(** ** Fresh objects *)

Section Fresh.
Variable p : protocol.
Hypothesis W : WF p.

Lemma fresh_struct t s (f : var -> val) : declares p t s ->
  (forall m, In m (s_members s) -> (v_list m = true /\ f m = VList []) \/ (v_list m = false /\ fresh p (v_type m) (f m))) ->
  fresh p t (VStruct (map (fun m => (v_name m, f m)) (s_members s))).
Proof.
  intros D H; apply fr_struct with (s := s); [exact D|].
  revert H; generalize (s_members s); induction l as [|m l IH]; intro H; [constructor|]; cbn [map].
  constructor; [split; [reflexivity|cbn [snd]; apply H; now left]|apply IH; intros m' I; apply H; now right].
Qed.

Lemma no_enums_below n t s m : declares p t s -> fits_any p n t = true -> go_has_enums p n s = false -> In m (s_members s) ->
  lookup (v_type m) (p_enums p) = None /\
  forall st, lookup (v_type m) (p_structs p) = Some st -> exists n', fits_any p n' (v_type m) = true /\ go_has_enums p n' st = false.
Proof.
  intros D F H I; destruct (fits_any_members p n t s W D F) as (n' & -> & FM).
  assert (B : (if mem (v_type m) (p_enums p) then true
    else match lookup (v_type m) (p_structs p) with
    | Some st => go_has_enums p n' st
    | None => false
    end) = false).
  { destruct (if mem _ _ then _ else _) eqn:B; [|reflexivity].
    rewrite <- H; symmetry; cbn [go_has_enums]; apply existsb_exists; exists m; split; [exact I|].
    destruct (mem _ _); [reflexivity|]; destruct (lookup _ (p_structs p)); exact B. }
  unfold mem in B; destruct (lookup (v_type m) (p_enums p)); [discriminate|].
  split; [reflexivity|]; intros st L; rewrite L in B; eauto.
Qed.

Lemma go_zero_value d t k : num_of t = Some k -> fresh p t (go_zero p d t).
Proof. intro K; unfold go_zero; rewrite (go_kind_num p t k K); now constructor. Qed.
Lemma go_zero_string d : fresh p "string" (go_zero p d "string").
Proof. unfold go_zero; rewrite (go_kind_string p W); constructor. Qed.
Lemma go_zero_struct d t s : declares p t s -> go_zero p d t = VStruct (go_fields p d t).
Proof.
  intro D; unfold go_zero; rewrite (go_kind_struct p W t s D).
  destruct (String.eqb_spec t "string") as [->|]; [|reflexivity].
  now destruct (declares_not_num p W _ s D) as (_ & A & _).
Qed.

Lemma go_fields_fresh : forall d n t s, declares p t s -> fits_any p d t = true ->
  fits_any p n t = true -> go_has_enums p n s = false -> fresh p t (VStruct (go_fields p d t)).
Proof.
  induction d as [|d IH]; intros n t s D F FN H; destruct (fits_any_members p _ t s W D F) as (d' & E & FM);
    [discriminate|injection E as <-].
  cbn [go_fields]; rewrite (find_declares p W t s D); apply fresh_struct; [exact D|]; intros m I.
  destruct (v_list m); [left; auto|right; split; [reflexivity|]].
  destruct (no_enums_below n t s m D FN H I) as [NE NS].
  change (fresh p (v_type m) (go_zero p d (v_type m))).
  destruct (type_cases p (v_type m) W (wf_member_types p W t s m D I)) as [k K M S E _| E1 E _|e k K M S IE E KE _|s' K M S E L].
  - now apply go_zero_value with (k := k).
  - rewrite E1; apply go_zero_string.
  - congruence.
  - assert (D' : declares p (v_type m) s') by (left; now apply lookup_In).
    rewrite (go_zero_struct d _ s' D'); destruct (NS s' L) as (n' & FN' & H'); apply (IH n' _ s'); auto.
Qed.

Lemma go_default_fresh : forall d t s, declares p t s -> fits_any p d t = true ->
  fresh p t (VStruct (go_default p d t)).
Proof.
  induction d as [|d IH]; intros t s D F; destruct (fits_any_members p _ t s W D F) as (d' & E & FM);
    [discriminate|injection E as <-].
  cbn [go_default]; rewrite (find_declares p W t s D).
  destruct (go_has_enums p (depth_of p) s) eqn:HE;
    [|apply (go_fields_fresh (S d) (depth_of p) t s); auto using WF_fits_any].
  apply fresh_struct; [exact D|]; intros m I.
  destruct (v_list m); [left; auto|right; split; [reflexivity|]].
  destruct (type_cases p (v_type m) W (wf_member_types p W t s m D I)) as [k K M S E L| E1 E L|e k K M S IE E KE _|s' K M S E L].
  - rewrite E, L; now apply go_zero_value with (k := k).
  - rewrite E, L, E1; apply go_zero_string.
  - rewrite E; unfold get_default_pair; destruct (wf_enum_values p W _ e IE) as [NE _].
    destruct (e_values e) as [|[n z] r] eqn:EV; [now contradiction NE|]; cbn [hd_error].
    econstructor; eassumption.
  - rewrite E, L; assert (D' : declares p (v_type m) s') by (left; now apply lookup_In).
    destruct (go_has_enums p (depth_of p) s') eqn:HE'; [now apply (IH _ s'); [|apply FM]|].
    rewrite (go_zero_struct d _ s' D'); apply (go_fields_fresh d (depth_of p) _ s'); auto using WF_fits_any.
Qed.

Lemma go_fresh t s : declares p t s -> fresh p t (VStruct (go_default p (depth_of p) t)).
Proof. intro D; apply (go_default_fresh _ t s D); now apply WF_fits_any. Qed.
End Fresh.
