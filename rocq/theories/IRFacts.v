(** Executing the statements of generated readers, compared with the reference
    reader. *)
From Verif Require Export DecFacts.
Open Scope list_scope.

(** ** Dictionaries *)

Lemma lookup_dict_set_eq {A} k (a : A) d : lookup k (dict_set k a d) = Some a.
Proof.
  induction d as [|[k' a'] d IH]; cbn; [now rewrite String.eqb_refl|].
  destruct (String.eqb_spec k k') as [->|N]; cbn; [now rewrite String.eqb_refl|].
  apply String.eqb_neq in N; rewrite N; exact IH.
Qed.

Lemma lookup_dict_set_neq {A} k k' (a : A) d : k <> k' -> lookup k (dict_set k' a d) = lookup k d.
Proof.
  intro N; apply String.eqb_neq in N as E; induction d as [|[k'' a''] d IH]; cbn; [now rewrite E|].
  destruct (String.eqb_spec k' k'') as [<-|N']; cbn; [now rewrite E|].
  now rewrite IH.
Qed.

Lemma dict_set_mem {A} k (a : A) d : mem k (dict_set k a d) = true.
Proof. unfold mem; now rewrite lookup_dict_set_eq. Qed.

Lemma dict_set_twice {A} k (a b : A) d : dict_set k b (dict_set k a d) = dict_set k b d.
Proof.
  induction d as [|[k' a'] d IH]; cbn; [now rewrite String.eqb_refl|].
  destruct (String.eqb_spec k k') as [->|N]; cbn; [now rewrite String.eqb_refl|].
  apply String.eqb_neq in N; rewrite N; now rewrite IH.
Qed.

Lemma dict_set_here {A} k (a b : A) pre post : ~ In k (map fst pre) ->
  dict_set k b (pre ++ (k, a) :: post) = pre ++ (k, b) :: post.
Proof.
  induction pre as [|[k' a'] pre IH]; cbn; intro N.
  - now rewrite String.eqb_refl.
  - destruct (String.eqb_spec k k') as [->|N']; [tauto|]. rewrite IH; tauto.
Qed.

Lemma mem_here {A} k (a : A) pre post : mem k (pre ++ (k, a) :: post) = true.
Proof. apply mem_true; rewrite map_app; apply in_or_app; right; now left. Qed.

(** ** Sequences *)

Lemma obind_assoc o f g : obind (obind o f) g = obind o (fun s => obind (f s) g).
Proof. destruct o; reflexivity. Qed.

Section Exec.
Variable R : rt.
Variable p : protocol.
Variable inp : list byte.
Variable call : string -> list (string * val) -> nat -> outcome.

Notation exec := (exec R p inp call).
Notation exec_stmt := (exec_stmt R p inp call).

Lemma exec_app a b s : exec (a ++ b) s = obind (exec a s) (exec b).
Proof.
  revert s; induction a as [|x a IH]; intro s; [reflexivity|].
  cbn [List.app IR.exec]; destruct (exec_stmt x s); cbn [obind]; auto.
Qed.

Lemma exec_one a s : exec [a] s = exec_stmt a s.
Proof. cbn [IR.exec]; destruct (exec_stmt a s); reflexivity. Qed.

(** The loop of [RFor]. *)
Fixpoint exec_loop (i : string) (body : list rstmt) (k : nat) (j : Z) (s : rstate) : outcome :=
  match k with
  | O => Done s
  | S k' => obind (exec body (set_local i (VInt j) s)) (exec_loop i body k' (j + 1))
  end.

Lemma exec_for i n body s :
  exec_stmt (RFor i n body) s =
  match fetch n s with
  | Some (VInt z) => guard (rt_for R z) s (exec_loop i body (Z.to_nat z) 0 s)
  | _ => Stuck
  end.
Proof.
  cbn [IR.exec_stmt]; destruct (fetch n s) as [[z| | | | |]|]; try reflexivity.
  assert (B : forall l s,
    (fix go (l : list rstmt) (s0 : rstate) {struct l} : outcome :=
       match l with [] => Done s0 | a :: r => obind (exec_stmt a s0) (go r) end) l s = exec l s).
  { induction l as [|a l IH]; intro s0; [reflexivity|].
    cbn [IR.exec]; destruct (exec_stmt a s0); cbn; auto. }
  f_equal; generalize (Z.to_nat z), 0, s; clear s; intros k; induction k as [|k IH]; intros j s; [reflexivity|].
  change (exec_loop i body (S k) j s) with (obind (exec body (set_local i (VInt j) s)) (exec_loop i body k (j + 1))).
  rewrite <- (B body (set_local i (VInt j) s)).
  match goal with |- obind ?x _ = obind ?x _ => destruct x; cbn [obind]; auto end.
Qed.
End Exec.

(** ** Agreement of a run with the reference reader *)

Definition agrees {A} (r : res A) (o : outcome) (ok : A -> nat -> rstate -> Prop) : Prop :=
  match r with
  | ROk v pos => exists s, o = Done s /\ ok v pos s
  | RErr => exists s, o = Fail s
  | RTrap => o = Trap
  | RStuck | RFuel => True
  end.

Lemma agrees_bind {A B} (r : res A) (o : outcome) ok (k : A -> nat -> res B) f ok' :
  agrees r o ok ->
  (forall v pos s, ok v pos s -> agrees (k v pos) (f s) ok') ->
  agrees (rbind r k) (obind o f) ok'.
Proof.
  destruct r as [v pos| | | |]; cbn [agrees rbind]; auto.
  - intros (s & -> & H) K; apply K; exact H.
  - intros [s ->] _; now exists s.
  - intros -> _; reflexivity.
Qed.

Lemma agrees_weaken {A} (r : res A) o (ok ok' : A -> nat -> rstate -> Prop) :
  agrees r o ok -> (forall v pos s, ok v pos s -> ok' v pos s) -> agrees r o ok'.
Proof. destruct r; cbn; auto. intros (s & -> & H) K; eauto. Qed.

(** Same object, same locals except [x]. *)
Definition same_but (x : string) (s s' : rstate) : Prop :=
  r_obj s' = r_obj s /\
  forall y, y <> x -> lookup y (r_env s') = lookup y (r_env s).

Lemma same_but_refl x s : same_but x s s. Proof. repeat split; auto. Qed.
Lemma same_but_pos x s n : same_but x s (set_pos n s). Proof. repeat split; auto. Qed.
Lemma same_but_trans x a b c : same_but x a b -> same_but x b c -> same_but x a c.
Proof. intros (A & C) (A' & C'); repeat split; try congruence; intros y N; rewrite C', C; auto. Qed.
Lemma same_but_local x v s : same_but x s (set_local x v s).
Proof. repeat split; auto; intros y N; cbn; now rewrite lookup_dict_set_neq. Qed.

(** ** Code for one value *)

Section One.
Variable R : rt.
Variable p : protocol.
Variable inp : list byte.
Variable call : string -> list (string * val) -> nat -> outcome.
Variable len : string -> Z -> got unit.
Variable fuel : nat.
Hypothesis W : WF p.
Hypothesis NUMS : rt_num R = read_num.
Notation dec := (dec (rt_str R) len (rt_enum R) p inp).

(** What is known about calls of the readers of other structs. *)
Definition call_ok : Prop := forall t s pos, declares p t s ->
  agrees (dec fuel t pos) (call t (rt_init R p t) pos)
    (fun v pos' c => v = VStruct (r_obj c) /\ pos' = r_pos c).
Hypothesis CALL : call_ok.

Notation exec := (exec R p inp call).

(** The value goes to [d] in a state that is like [s] except for local [x]. *)
Definition put_to (d : dst) (x : string) (s : rstate) (v : val) (pos : nat) (s' : rstate) : Prop :=
  exists s0, same_but x s s0 /\ r_pos s0 = pos /\ store d v s0 = Some s'.

Definition storable (d : dst) (x : string) (s : rstate) : Prop :=
  forall s0 v, same_but x s s0 -> exists s', store d v s0 = Some s'.

Lemma exec_num d x k s : storable d x s ->
  agrees (dec_num inp k (r_pos s)) (exec [RNum d k] s) (put_to d x s).
Proof.
  intro ST; rewrite exec_one; cbn [exec_stmt]; rewrite NUMS; unfold dec_num, store_got.
  destruct (read_num_cases k inp (r_pos s)) as [[v ->]| ->]; cbn [got_res agrees].
  - destruct (ST (set_pos (r_pos s + num_size k) s) v (same_but_pos _ _ _)) as [s' E]; rewrite E.
    exists s'; split; [reflexivity|]; exists (set_pos (r_pos s + num_size k) s); repeat split; auto.
  - eauto.
Qed.

Lemma exec_str d x s : storable d x s ->
  agrees (got_res VStr (rt_str R p inp (r_pos s))) (exec [RStr d] s) (put_to d x s).
Proof.
  intro ST; rewrite exec_one; cbn [exec_stmt]; unfold store_got.
  destruct (rt_str R p inp (r_pos s)) as [v q|q|]; cbn [got_res got_str agrees].
  - destruct (ST (set_pos q s) (VStr v) (same_but_pos _ _ _)) as [s' E]; rewrite E.
    exists s'; split; [reflexivity|]; exists (set_pos q s); repeat split; auto.
  - eauto.
  - reflexivity.
Qed.

Lemma exec_call d x t st s : declares p t st -> storable d x s ->
  agrees (dec fuel t (r_pos s)) (exec [RCall d t] s) (put_to d x s).
Proof.
  intros D ST; rewrite exec_one; cbn [exec_stmt].
  pose proof (CALL t st (r_pos s) D) as C; unfold returned.
  destruct (dec fuel t (r_pos s)) as [v q| | | |]; cbn [agrees] in *; auto.
  - destruct C as (c & -> & -> & ->).
    destruct (ST (set_pos (r_pos c) s) (VStruct (r_obj c)) (same_but_pos _ _ _)) as [s' E]; rewrite E.
    exists s'; split; [reflexivity|]; exists (set_pos (r_pos c) s); repeat split; auto.
  - destruct C as [c ->]; cbn; eauto.
  - now rewrite C.
Qed.

(** Reading an enum into local [x] and checking it. *)
Lemma exec_enum x t e k s : In (t, e) (p_enums p) -> num_of (e_encoding e) = Some k ->
  agrees (dec_enum (rt_enum R) inp e (r_pos s)) (exec [RNum (DLocal x) k; REnumCheck x t] s)
    (fun v pos s' => same_but x s s' /\ r_pos s' = pos /\ lookup x (r_env s') = Some v).
Proof.
  intros E K; change [RNum (DLocal x) k; REnumCheck x t] with ([RNum (DLocal x) k] ++ [REnumCheck x t]).
  rewrite exec_app; unfold dec_enum; rewrite K.
  eapply agrees_bind.
  { apply (exec_num (DLocal x) x); intros s0 v H; cbn; eauto. }
  intros v pos s1 (s0 & SB & P & ST); cbn in ST; injection ST as <-.
  rewrite exec_one; cbn [exec_stmt set_local r_env]; rewrite lookup_dict_set_eq.
  destruct (enum_encoding_num p W t e E) as (k' & K' & NB & _); rewrite K in K'; injection K' as <-.
  rewrite (In_lookup _ _ _ (wf_enums_nodup p W) E).
  destruct v as [z| | | | |]; cbn [agrees]; auto.
  destruct (rt_enum R e z) as [z'|]; cbn [agrees]; [|eauto].
  eexists; split; [reflexivity|]; split; [|split].
  - eapply same_but_trans; [eassumption|]; eapply same_but_trans; apply same_but_local.
  - cbn; assumption.
  - cbn; now rewrite lookup_dict_set_eq.
Qed.

(** The statements for a value of type [t] stored in [d]; [x] is the local for
    enum values. *)
Definition one_code (d : dst) (x t : string) : list rstmt :=
  match num_of t with
  | Some k => [RNum d k]
  | None =>
      if String.eqb t "string" then [RStr d]
      else match lookup t (p_enums p) with
           | Some e =>
               match num_of (e_encoding e) with
               | Some k => [RNum (DLocal x) k; REnumCheck x t; RMove d x]
               | None => []
               end
           | None => [RCall d t]
           end
  end.

Lemma dec_unfold_enum t e pos : In (t, e) (p_enums p) -> dec fuel t pos = dec_enum (rt_enum R) inp e pos.
Proof.
  intro E; destruct (enum_not_num p W t e E) as (A & B & _); apply String.eqb_neq in B.
  pose proof (In_lookup _ _ _ (wf_enums_nodup p W) E) as L.
  destruct fuel; cbn [Dec.dec]; rewrite A, B, L; reflexivity.
Qed.

Lemma one_code_ok d x t s : declared_type p t -> storable d x s ->
  agrees (dec fuel t (r_pos s)) (exec (one_code d x t) s) (put_to d x s).
Proof.
  intros T ST; unfold one_code.
  destruct (num_of t) as [k|] eqn:K.
  { replace (dec fuel t (r_pos s)) with (dec_num inp k (r_pos s)) by (destruct fuel; cbn [Dec.dec]; now rewrite K).
    now apply exec_num. }
  destruct (String.eqb t "string") eqn:S.
  { replace (dec fuel t (r_pos s)) with (got_res VStr (rt_str R p inp (r_pos s)))
      by (destruct fuel; cbn [Dec.dec]; now rewrite K, S).
    now apply exec_str. }
  destruct (lookup t (p_enums p)) as [e|] eqn:L.
  { apply lookup_In in L; destruct (enum_encoding_num p W t e L) as (k & KE & _); rewrite KE.
    rewrite (dec_unfold_enum t e _ L).
    change [RNum (DLocal x) k; REnumCheck x t; RMove d x] with ([RNum (DLocal x) k; REnumCheck x t] ++ [RMove d x]).
    rewrite exec_app.
    pose proof (exec_enum x t e k s L KE) as X.
    destruct (dec_enum (rt_enum R) inp e (r_pos s)) as [v q| | | |]; cbn [agrees] in X |- *; auto.
    - destruct X as (s1 & -> & SB & P & LV); cbn [obind]; rewrite exec_one; cbn [exec_stmt]; rewrite LV.
      destruct (ST s1 v SB) as [s' E]; rewrite E; exists s'; split; [reflexivity|]; exists s1; auto.
    - destruct X as [s1 ->]; cbn; eauto.
    - now rewrite X. }
  assert (D : exists st, declares p t st).
  { destruct T as [B|[B|[[st B]|[e B]]]].
    - apply num_of_base in B as [k B]; congruence.
    - apply String.eqb_neq in S; congruence.
    - exists st; now left.
    - apply lookup_None in L; exfalso; apply L, in_map_iff; now exists (t, e). }
  destruct D as [st D]; eapply exec_call; eassumption.
Qed.

(** ** Lists *)

(** State in the loop: the list [l] is under [n], the rest of the object is [obj]. *)
Definition in_loop (n : string) (obj : list (string * val)) (l : list val) (pos : nat) (s : rstate) : Prop :=
  r_obj s = dict_set n (VList l) obj /\ r_pos s = pos.

(** Storing the elements [vs] one after the other, the first as number [j];
    [step l j v] is the list after storing element number [j]. *)
Fixpoint steps (step : list val -> nat -> val -> list val) (l : list val) (j : nat) (vs : list val) : list val :=
  match vs with [] => l | v :: r => steps step (step l j v) (S j) r end.

Definition body_ok (step : list val -> nat -> val -> list val) (n i t : string) (body : list rstmt) : Prop :=
  forall obj N l j s pos, (j < N)%nat -> in_loop n obj l pos s ->
    (List.length l = N \/ step = fun l _ v => l ++ [v]) ->
    lookup i (r_env s) = Some (VInt (Z.of_nat j)) ->
    agrees (dec fuel t pos) (exec body s) (fun v pos' s' => in_loop n obj (step l j v) pos' s').

Lemma exec_loop_ok step n i body t :
  body_ok step n i t body ->
  (forall l j v, List.length (step l j v) = List.length l) \/ step = (fun l _ v => l ++ [v]) ->
  forall N obj k j l s pos, (j + k = N)%nat -> in_loop n obj l pos s ->
    List.length l = N \/ step = (fun l _ v => l ++ [v]) ->
    agrees (dec_elems (dec fuel) t k pos) (exec_loop R p inp call i body k (Z.of_nat j) s)
      (fun vs pos' s' => in_loop n obj (steps step l j vs) pos' s' /\ List.length vs = k).
Proof.
  intros BODY SL N obj; induction k as [|k IH]; intros j l s pos JK IL LN.
  - cbn; exists s; auto.
  - cbn [exec_loop dec_elems].
    eapply agrees_bind.
    + apply (BODY obj N l j); [lia| |assumption|cbn; now rewrite lookup_dict_set_eq].
      destruct IL as (A & B); repeat split; auto.
    + intros v q s1 IL1; cbn beta in IL1.
      replace (Z.of_nat j + 1) with (Z.of_nat (S j)) by lia.
      assert (LN1 : List.length (step l j v) = N \/ step = (fun l _ v => l ++ [v])).
      { destruct SL as [SL|SL], LN as [LN|LN]; auto. left; rewrite SL; exact LN. }
      specialize (IH (S j) _ s1 q ltac:(lia) IL1 LN1).
      destruct (dec_elems (dec fuel) t k q) as [vs q'| | | |]; cbn [agrees rbind] in *; auto.
      destruct IH as (s2 & -> & IL2 & LV); exists s2; split; [reflexivity|]; split; [exact IL2|cbn; lia].
Qed.

Lemma steps_push l j vs : steps (fun l _ v => l ++ [v]) l j vs = l ++ vs.
Proof.
  revert l j; induction vs as [|v vs IH]; intros l j; cbn [steps]; [now rewrite app_nil_r|].
  now rewrite IH, <- app_assoc.
Qed.

Lemma set_nth_length {A} j (v : A) l : List.length (set_nth j v l) = List.length l.
Proof. revert j; induction l as [|x l IH]; intros [|j]; cbn; auto. Qed.

Lemma set_nth_app {A} (a : list A) x v r : set_nth (List.length a) v (a ++ x :: r) = a ++ v :: r.
Proof. induction a as [|y a IH]; cbn; [reflexivity|now rewrite IH]. Qed.

Lemma steps_index vs : forall a r, List.length r = List.length vs ->
  steps (fun l j v => set_nth j v l) (a ++ r) (List.length a) vs = a ++ vs.
Proof.
  induction vs as [|v vs IH]; intros a [|x r] L; try discriminate; [reflexivity|].
  cbn [steps]; rewrite set_nth_app.
  specialize (IH (a ++ [v]) r); rewrite <- !app_assoc, app_length in IH; cbn in IH.
  rewrite Nat.add_1_r in IH; apply IH; now injection L.
Qed.

Lemma body_index n i x t : i <> x -> declared_type p t ->
  body_ok (fun l j v => set_nth j v l) n i t (one_code (DElem n i) x t).
Proof.
  intros NE T obj N l j s pos J (O & P) LN LI; rewrite <- P.
  assert (LN' : List.length l = N).
  { destruct LN as [LN|LN]; [exact LN|].
    apply (f_equal (fun f => f [] 0%nat (VInt 0))) in LN; discriminate LN. }
  assert (ST : forall s0 v, same_but x s s0 ->
            store (DElem n i) v s0 = Some (set_obj (dict_set n (VList (set_nth j v l)) obj) s0)).
  { intros s0 v (SO & SE); cbn [store]; rewrite SO, O, lookup_dict_set_eq.
    unfold IR.index; rewrite (SE i NE), LI.
    replace ((0 <=? Z.of_nat j) && (Z.of_nat j <? Z.of_nat (List.length l))) with true.
    - rewrite Nat2Z.id, dict_set_twice; reflexivity.
    - symmetry; apply andb_true_intro; split; [apply Z.leb_le|apply Z.ltb_lt]; lia. }
  eapply agrees_weaken.
  { apply one_code_ok; [exact T|]; intros s0 v SB; rewrite (ST s0 v SB); eauto. }
  intros v q s' (s0 & SB & PQ & S'); rewrite (ST s0 v SB) in S'; injection S' as <-.
  destruct SB as (SO & _); repeat split; cbn; congruence.
Qed.

Lemma body_push n i e x t : declared_type p t ->
  body_ok (fun l _ v => l ++ [v]) n i t (one_code (DLocal e) x t ++ [RPush (DField n) e]).
Proof.
  intros T obj N l j s pos J (O & P) _ LI; rewrite <- P, exec_app.
  assert (ONE := one_code_ok (DLocal e) x t s T).
  assert (ST : storable (DLocal e) x s) by (intros s0 v SB; cbn; eauto).
  specialize (ONE ST).
  destruct (dec fuel t (r_pos s)) as [v q| | | |]; cbn [agrees] in ONE |- *; auto.
  - destruct ONE as (s1 & -> & s0 & SB & PQ & S1); cbn in S1; injection S1 as <-.
    cbn [obind]; rewrite exec_one; cbn [exec_stmt fetch set_local r_obj r_env].
    destruct SB as (SO & _).
    rewrite SO, O, !lookup_dict_set_eq; cbn [store set_local r_obj].
    rewrite SO, O, dict_set_mem; eexists; split; [reflexivity|].
    repeat split; cbn; try congruence. now rewrite dict_set_twice.
  - destruct ONE as [s1 ->]; cbn; eauto.
  - now rewrite ONE.
Qed.

Lemma body_push_enum n i x t e k : In (t, e) (p_enums p) -> num_of (e_encoding e) = Some k ->
  body_ok (fun l _ v => l ++ [v]) n i t ([RNum (DLocal x) k; REnumCheck x t] ++ [RPush (DField n) x]).
Proof.
  intros E K obj N l j s pos J (O & P) _ LI; rewrite <- P, exec_app, (dec_unfold_enum t e _ E).
  pose proof (exec_enum x t e k s E K) as X.
  destruct (dec_enum (rt_enum R) inp e (r_pos s)) as [v q| | | |]; cbn [agrees] in X |- *; auto.
  - destruct X as (s1 & -> & (SO & _) & PQ & LV).
    cbn [obind]; rewrite exec_one; cbn [exec_stmt fetch].
    rewrite SO, O, !lookup_dict_set_eq, LV; cbn [store].
    rewrite SO, O, dict_set_mem; eexists; split; [reflexivity|].
    repeat split; cbn; try congruence. now rewrite dict_set_twice.
  - destruct X as [s1 ->]; cbn; eauto.
  - now rewrite X.
Qed.

(** ** Members *)

Definition member_ok (m : var) (code : list rstmt) : Prop :=
  forall s, mem (v_name m) (r_obj s) = true ->
    agrees (dec_member len p inp (dec fuel) m (r_pos s)) (exec code s)
      (fun v pos s' => r_obj s' = dict_set (v_name m) v (r_obj s) /\ r_pos s' = pos).

Lemma member_one m x : v_list m = false -> declared_type p (v_type m) ->
  member_ok m (one_code (DField (v_name m)) x (v_type m)).
Proof.
  intros NL T s M; unfold dec_member; rewrite NL.
  assert (ST : forall s0 v, same_but x s s0 ->
            store (DField (v_name m)) v s0 = Some (set_obj (dict_set (v_name m) v (r_obj s)) s0)).
  { intros s0 v (SO & _); cbn [store]; now rewrite SO, M. }
  eapply agrees_weaken.
  { apply one_code_ok; [exact T|]; intros s0 v SB; rewrite (ST s0 v SB); eauto. }
  intros v q s' (s0 & SB & PQ & S'); rewrite (ST s0 v SB) in S'; injection S' as <-.
  destruct SB as (SO & _); repeat split; cbn; congruence.
Qed.

(** What matters of a treatment of a length. *)
Definition same_got {A} (a b : got A) : Prop :=
  match a, b with Got _ _, Got _ _ | Miss _, Miss _ | Crash, Crash => True | _, _ => False end.

Definition both (a b : got unit) : got unit := match a with Got _ _ => b | g => g end.

Lemma member_index m x l i k : v_list m = true -> declared_type p (v_type m) ->
  num_of (p_list_size_type p) = Some k -> i <> x ->
  (forall z, same_got (len (v_type m) z) (both (rt_make R (v_type m) z) (rt_for R z))) ->
  member_ok m [RNum (DLocal l) k;
               RNew (DField (v_name m)) (v_type m) (Some (DLocal l));
               RFor i (DLocal l) (one_code (DElem (v_name m) i) x (v_type m))].
Proof.
  intros VL T K NE LEN s M; unfold dec_member, dec_list; rewrite VL, K.
  change (RNum (DLocal l) k :: ?r) with ([RNum (DLocal l) k] ++ r); rewrite exec_app.
  eapply agrees_bind.
  { apply (exec_num (DLocal l) l); intros s0 v H; cbn; eauto. }
  intros v pos s1 (s0 & (SO & _) & P & ST); cbn in ST; injection ST as <-.
  destruct v as [z| | | | |]; cbn [agrees]; auto.
  change (RNew ?a ?b ?c :: ?r) with ([RNew a b c] ++ r); rewrite exec_app, exec_one; cbn [exec_stmt fetch set_local r_env].
  rewrite lookup_dict_set_eq; cbn [store set_local r_obj]; rewrite SO, M.
  specialize (LEN z); unfold guard.
  destruct (rt_make R (v_type m) z) as [u q|q|] eqn:MK; cbn [both] in LEN.
  2:{ destruct (len (v_type m) z); try contradiction; cbn; eauto. }
  2:{ destruct (len (v_type m) z); try contradiction; cbn; eauto. }
  cbn [done_or_stuck obind]; rewrite exec_one, exec_for; cbn [set_obj set_local r_env fetch]; rewrite lookup_dict_set_eq; unfold guard.
  destruct (rt_for R z) as [u' q'|q'|] eqn:FR; destruct (len (v_type m) z); try contradiction; cbn [agrees rbind obind]; eauto.
  match goal with |- context [exec_loop _ _ _ _ _ _ _ _ ?s2] => set (s2' := s2) end.
  assert (IL : in_loop (v_name m) (r_obj s) (repeat (rt_zero R p (v_type m)) (Z.to_nat z)) pos s2').
  { repeat split; cbn; congruence. }
  pose proof (exec_loop_ok _ _ _ _ _ (body_index (v_name m) i x (v_type m) NE T)
                (or_introl (fun l j v => set_nth_length j v l)) (Z.to_nat z) (r_obj s) (Z.to_nat z) 0
                (repeat (rt_zero R p (v_type m)) (Z.to_nat z)) s2' pos ltac:(lia) IL
                (or_introl (repeat_length _ _))) as LOOP.
  cbn [Z.of_nat] in LOOP.
  destruct (dec_elems (dec fuel) (v_type m) (Z.to_nat z) pos) as [vs q2| | | |]; cbn [agrees rbind] in LOOP |- *; auto.
  destruct LOOP as (s3 & -> & (O3 & P3) & LV); exists s3; split; [reflexivity|].
    repeat split; auto. rewrite O3.
    pose proof (steps_index vs [] (repeat (rt_zero R p (v_type m)) (Z.to_nat z))) as SI; cbn in SI.
    rewrite SI; [reflexivity|now rewrite repeat_length].
Qed.

Lemma member_push m l i k body : v_list m = true ->
  num_of (p_list_size_type p) = Some k ->
  (forall z, same_got (len (v_type m) z) (rt_for R z)) ->
  body_ok (fun l _ v => l ++ [v]) (v_name m) i (v_type m) body ->
  member_ok m [RNum (DLocal l) k; RNew (DField (v_name m)) (v_type m) None; RFor i (DLocal l) body].
Proof.
  intros VL K LEN BODY s M; unfold dec_member, dec_list; rewrite VL, K.
  change (RNum (DLocal l) k :: ?r) with ([RNum (DLocal l) k] ++ r); rewrite exec_app.
  eapply agrees_bind.
  { apply (exec_num (DLocal l) l); intros s0 v H; cbn; eauto. }
  intros v pos s1 (s0 & (SO & _) & P & ST); cbn in ST; injection ST as <-.
  destruct v as [z| | | | |]; cbn [agrees]; auto.
  change (RNew ?a ?b ?c :: ?r) with ([RNew a b c] ++ r); rewrite exec_app, exec_one; cbn [exec_stmt store set_local r_obj].
  rewrite SO, M; cbn [done_or_stuck obind]; rewrite exec_one, exec_for; cbn [set_obj r_env fetch set_local]; rewrite lookup_dict_set_eq.
  specialize (LEN z); unfold guard.
  destruct (rt_for R z) as [u' q'|q'|] eqn:FR; destruct (len (v_type m) z); try contradiction; cbn [agrees rbind obind]; eauto.
  match goal with |- context [exec_loop _ _ _ _ _ _ _ _ ?s2] => set (s2' := s2) end.
  assert (IL : in_loop (v_name m) (r_obj s) [] pos s2') by (repeat split; cbn; congruence).
  pose proof (exec_loop_ok _ _ _ _ _ BODY (or_intror eq_refl) (Z.to_nat z) (r_obj s) (Z.to_nat z) 0
                [] s2' pos ltac:(lia) IL (or_intror eq_refl)) as LOOP.
  cbn [Z.of_nat] in LOOP.
  destruct (dec_elems (dec fuel) (v_type m) (Z.to_nat z) pos) as [vs q2| | | |]; cbn [agrees rbind] in LOOP |- *; auto.
  destruct LOOP as (s3 & -> & (O3 & P3) & LV); exists s3; split; [reflexivity|].
    repeat split; auto. now rewrite O3, steps_push.
Qed.

(** All members, in order.  [pre] are the members read already. *)
Lemma members_ok (code : var -> list rstmt) : forall ms,
  NoDup (map v_name ms) ->
  (forall m, In m ms -> member_ok m (code m)) ->
  forall pre rest s, map fst rest = map v_name ms -> r_obj s = pre ++ rest ->
    (forall m, In m ms -> ~ In (v_name m) (map fst pre)) ->
    agrees (dec_members len p inp (dec fuel) ms (r_pos s)) (exec (flat_map code ms) s)
      (fun fs pos s' => r_obj s' = pre ++ fs /\ r_pos s' = pos).
Proof.
  induction ms as [|m ms IH]; intros ND OK pre rest s NAMES O FRESH.
  - destruct rest; [|discriminate]; cbn; exists s; auto.
  - destruct rest as [|[n v0] rest]; [discriminate|]; cbn in NAMES; injection NAMES as -> NAMES.
    cbn [flat_map dec_members]; rewrite exec_app.
    inversion ND as [|? ? NI ND']; subst.
    assert (FM : ~ In (v_name m) (map fst pre)) by (apply FRESH; now left).
    eapply agrees_bind.
    { apply (OK m (or_introl eq_refl)); rewrite O; apply mem_here. }
    intros v pos s1 (O1 & P1); rewrite <- P1.
    rewrite O, dict_set_here in O1 by exact FM.
    assert (O1' : r_obj s1 = (pre ++ [(v_name m, v)]) ++ rest) by now rewrite <- app_assoc.
    assert (FRESH' : forall m', In m' ms -> ~ In (v_name m') (map fst (pre ++ [(v_name m, v)]))).
    { intros m' IM; rewrite map_app, in_app_iff; cbn; intros [H|[H|[]]].
      - exact (FRESH m' (or_intror IM) H).
      - apply NI; rewrite H; now apply in_map. }
    specialize (IH ND' (fun m' H => OK m' (or_intror H)) _ rest s1 NAMES O1' FRESH').
    destruct (dec_members len p inp (dec fuel) ms (r_pos s1)) as [fs q| | | |]; cbn [agrees rbind] in IH |- *; auto.
    destruct IH as (s2 & -> & O2 & P2); exists s2; split; [reflexivity|].
    repeat split; auto. rewrite O2, <- app_assoc; reflexivity.
Qed.
End One.
