(** More proofs about the loader: nesting depth, termination of the cycle check,
    completeness, and the size queries. *)
From Verif Require Export ProtocolFacts.

(** ** Nesting depth *)

(** The structs inside [t] nest at most [d] deep. *)
Fixpoint fits (p : protocol) (d : nat) (t : string) : bool :=
  match lookup t (p_structs p) with
  | None => true
  | Some s => match d with
              | O => false
              | S d' => forallb (fun m => fits p d' (v_type m)) (s_members s)
              end
  end.

Fixpoint path (p : protocol) (l : list string) : Prop :=
  match l with
  | a :: ((b :: _) as r) => contains p a b /\ path p r
  | _ => True
  end.

Lemma forallb_false {A} (f : A -> bool) l :
  forallb f l = false -> exists x, In x l /\ f x = false.
Proof.
  induction l as [|x l IH]; cbn; [discriminate|].
  destruct (f x) eqn:E; cbn; [intro H; destruct (IH H) as [y [? ?]]; exists y; auto|].
  intros _; exists x; auto.
Qed.

Lemma fits_false_path p d t :
  NoDup (map fst (p_structs p)) -> fits p d t = false ->
  exists l, List.length l = d /\ path p (t :: l) /\ forall x, In x (t :: l) -> is_struct p x.
Proof.
  intro ND; revert t; induction d as [|d IH]; intros t H; cbn in H.
  - destruct (lookup t (p_structs p)) as [s|] eqn:L; [|discriminate].
    exists []; cbn; repeat split.
    intros x [<-|[]]; exists s; now apply lookup_In.
  - destruct (lookup t (p_structs p)) as [s|] eqn:L; [|discriminate].
    apply forallb_false in H as [m [Hm Hf]].
    destruct (IH _ Hf) as [l [Hl [Hp Hi]]].
    exists (v_type m :: l); cbn [List.length]; split; [congruence|split].
    + cbn [path]; split; [|exact Hp].
      exists s, m; repeat split; auto; [now apply lookup_In|apply Hi; now left].
    + intros x [<-|Hx]; [exists s; now apply lookup_In|now apply Hi].
Qed.

Lemma path_reach p a l x : path p (a :: l) -> In x l -> clos_trans _ (contains p) a x.
Proof.
  revert a; induction l as [|b l IH]; intros a Hp Hx; [destruct Hx|].
  destruct Hp as [Hab Hp]; destruct Hx as [<-|Hx]; [now apply t_step|].
  eapply t_trans; [apply t_step, Hab|now apply IH].
Qed.

Lemma path_nodup p l : acyclic p -> path p l -> NoDup l.
Proof.
  intro Ac; induction l as [|a l IH]; intro Hp; [constructor|].
  constructor.
  - intro Hin; apply (Ac a); eapply path_reach; eassumption.
  - apply IH; destruct l as [|b l]; [exact I|apply Hp].
Qed.

Lemma fits_acyclic p t :
  NoDup (map fst (p_structs p)) -> acyclic p ->
  fits p (List.length (p_structs p)) t = true.
Proof.
  intros ND Ac; destruct (fits p _ t) eqn:E; [reflexivity|exfalso].
  apply fits_false_path in E as [l [Hl [Hp Hi]]]; [|assumption].
  pose proof (path_nodup _ _ Ac Hp) as NDl.
  assert (Inc : incl (t :: l) (map fst (p_structs p))).
  { intros x Hx; destruct (Hi x Hx) as [s Hs]; apply in_map_iff; now exists (x, s). }
  pose proof (NoDup_incl_length NDl Inc) as Len; rewrite map_length in Len; cbn in Len; lia.
Qed.

Lemma WF_fits p t : WF p -> fits p (List.length (p_structs p)) t = true.
Proof. intro W; apply fits_acyclic; apply W. Qed.

Lemma fits_mono p d d' t : (d <= d')%nat -> fits p d t = true -> fits p d' t = true.
Proof.
  revert d' t; induction d as [|d IH]; intros d' t Hd H; cbn in H.
  - destruct (lookup t (p_structs p)) eqn:L; [discriminate|].
    destruct d'; cbn; now rewrite L.
  - destruct d' as [|d']; [lia|]; cbn.
    destruct (lookup t (p_structs p)) as [s|] eqn:L; [|reflexivity].
    apply forallb_forall; intros m Hm; apply IH; [lia|].
    now apply (proj1 (forallb_forall _ _) H).
Qed.

Lemma fits_member p d t s m :
  fits p d t = true -> lookup t (p_structs p) = Some s -> In m (s_members s) ->
  exists d', d = S d' /\ fits p d' (v_type m) = true.
Proof.
  destruct d as [|d]; cbn; intros H L Hm; rewrite L in H; [discriminate|].
  exists d; split; [reflexivity|]; now apply (proj1 (forallb_forall _ _) H).
Qed.

(** ** The cycle check terminates on acyclic protocols *)

Definition never_refers (p : protocol) (start t : string) : Prop :=
  t <> start /\
  forall u s m, clos_refl_trans_1n _ (contains p) t u -> lookup u (p_structs p) = Some s ->
    In m (s_members s) -> v_type m <> start.

Lemma cycle_loop_pop p start d t :
  NoDup (map fst (p_structs p)) ->
  fits p d t = true -> is_struct p t -> never_refers p start t ->
  exists n, forall fuel rest,
    cycle_loop p start (n + fuel) (t :: rest) = cycle_loop p start fuel rest.
Proof.
  intro ND; revert t; induction d as [|d IH]; intros t F St NR;
    apply is_struct_mem in St; unfold mem in St;
    destruct (lookup t (p_structs p)) as [s|] eqn:L; try discriminate;
    cbn in F; rewrite L in F; [discriminate|].
  assert (NoStart : existsb (String.eqb start) (map v_type (s_members s)) = false).
  { destruct (existsb _ _) eqn:X; [|reflexivity].
    apply existsb_exists in X as [x [Hx Ex]]; apply String.eqb_eq in Ex; subst x.
    apply in_map_iff in Hx as [m [Em Hm]].
    exfalso; eapply (proj2 NR t s m); eauto; constructor. }
  assert (Members : forall l, incl l (struct_types p s) ->
            exists n, forall fuel rest, cycle_loop p start (n + fuel) (l ++ rest) =
                                        cycle_loop p start fuel rest).
  { induction l as [|t' l IHl]; intro Inc; [exists 0%nat; reflexivity|].
    destruct IHl as [n2 H2]; [intros x Hx; apply Inc; now right|].
    assert (Ht' : In t' (struct_types p s)) by (apply Inc; now left).
    unfold struct_types in Ht'; apply filter_In in Ht' as [Ht' M'].
    apply in_map_iff in Ht' as [m [Em Hm]].
    destruct (IH t') as [n1 H1].
    - subst t'; now apply (proj1 (forallb_forall _ _) F).
    - now apply is_struct_mem.
    - assert (C : contains p t t').
      { exists s, m; repeat split; auto; [now apply lookup_In|now apply is_struct_mem]. }
      split.
      + intro; subst; eapply (proj2 NR t s m); eauto; constructor.
      + intros u s' m' Ru; apply (proj2 NR); econstructor; eassumption.
    - exists (n1 + n2)%nat; intros fuel rest.
      rewrite <- Nat.add_assoc; cbn [app]; rewrite H1; apply H2. }
  destruct (Members (rev (struct_types p s))) as [n Hn].
  { intros x Hx; now apply in_rev. }
  exists (S n); intros fuel rest; cbn [plus cycle_loop].
  destruct (String.eqb_spec t start) as [E|_]; [destruct NR; contradiction|].
  rewrite L, push_members_spec, NoStart; cbn [pbind]; apply Hn.
Qed.

Lemma cycle_loop_done p start l :
  WF p -> (forall t, In t l -> is_struct p t /\ never_refers p start t) ->
  exists n, forall fuel, (n <= fuel)%nat -> cycle_loop p start fuel l = Ret tt.
Proof.
  intros W; induction l as [|t l IH]; intro H.
  - exists 0%nat; intros [|fuel] _; reflexivity.
  - destruct IH as [n2 H2]; [intros; apply H; now right|].
    destruct (H t (or_introl eq_refl)) as [St NR].
    destruct (cycle_loop_pop p start _ t (wf_structs_nodup p W) (WF_fits p t W) St NR) as [n1 H1].
    exists (n1 + n2)%nat; intros fuel Hf.
    replace fuel with (n1 + (fuel - n1))%nat by lia; rewrite H1; apply H2; lia.
Qed.

Lemma declared_not_message p t : WF_local p -> declared_type p t -> ~ is_message_name p t.
Proof.
  intros W [B|[->|[S|E]]] M.
  - pose proof (wf_names p W t (or_intror (or_introl M))) as (_ & _ & N).
    apply N; apply in_or_app; left; cbn in *.
    repeat (destruct B as [<-|B]; [vm_compute; tauto|]); destruct B.
  - pose proof (wf_names p W _ (or_intror (or_introl M))) as (_ & _ & N).
    apply N; vm_compute; tauto.
  - now destruct (wf_disjoint p W t) as [D _]; apply D.
  - now destruct (wf_disjoint p W t) as (_ & _ & D); apply D.
Qed.

Lemma declared_struct_or p t : WF_local p -> is_struct p t -> ~ In t base_types /\ t <> "string"%string /\ ~ is_enum p t.
Proof.
  intros W S; pose proof (wf_names p W t (or_introl S)) as (_ & _ & N); repeat split.
  - intro B; apply N; apply in_or_app; left; cbn in *.
    repeat (destruct B as [<-|B]; [vm_compute; tauto|]); destruct B.
  - intros ->; apply N; vm_compute; tauto.
  - intro E; now destruct (wf_disjoint p W t) as (_ & D & _); apply D.
Qed.

Lemma declared_enum_or p t : WF_local p -> is_enum p t -> ~ In t base_types /\ t <> "string"%string /\ ~ is_struct p t.
Proof.
  intros W S; pose proof (wf_names p W t (or_intror (or_intror S))) as (_ & _ & N); repeat split.
  - intro B; apply N; apply in_or_app; left; cbn in *.
    repeat (destruct B as [<-|B]; [vm_compute; tauto|]); destruct B.
  - intros ->; apply N; vm_compute; tauto.
  - intro E; now destruct (wf_disjoint p W t) as (_ & D & _); apply D.
Qed.

Lemma declared_message_or p t : WF_local p -> is_message_name p t ->
  ~ In t base_types /\ t <> "string"%string /\ ~ is_struct p t /\ ~ is_enum p t.
Proof.
  intros W S; pose proof (wf_names p W t (or_intror (or_introl S))) as (_ & _ & N); repeat split.
  - intro B; apply N; apply in_or_app; left; cbn in *.
    repeat (destruct B as [<-|B]; [vm_compute; tauto|]); destruct B.
  - intros ->; apply N; vm_compute; tauto.
  - intro E; now destruct (wf_disjoint p W t) as (D & _ & _); apply D.
  - intro E; now destruct (wf_disjoint p W t) as (_ & _ & D); apply D.
Qed.

Lemma check_terminates p n s :
  WF p -> declares p n s ->
  exists k, forall fuel, (k <= fuel)%nat -> check_for_cycles p fuel s = Ret tt.
Proof.
  intros W D; unfold check_for_cycles; apply cycle_loop_done; [assumption|].
  assert (Nm : s_name s = n).
  { destruct D as [D|D]; [apply (wf_struct_entry p W) in D|apply (wf_message_entry p W) in D]; tauto. }
  rewrite Nm.
  intros t Ht; rewrite <- in_rev in Ht; apply filter_In in Ht as [Ht M].
  apply in_map_iff in Ht as [m [Em Hm]]; apply is_struct_mem in M.
  split; [exact M|].
  assert (Reach : forall u, clos_refl_trans_1n _ (contains p) t u -> is_struct p u).
  { intros u R; apply clos_rt1n_rt in R; apply clos_rt_rtn1 in R.
    destruct R as [|u' u Hc _]; [exact M|now destruct Hc as (? & ? & _ & _ & _ & ?)]. }
  destruct D as [D|D].
  - (* a struct: reaching its own name would be a cycle *)
    assert (C : contains p n t) by (exists s, m; auto).
    assert (NC : forall u, clos_refl_trans_1n _ (contains p) t u -> u <> n).
    { intros u R ->; apply (wf_acyclic p W n); apply clos_trans_head; eauto. }
    split; [apply NC; constructor|].
    intros u s' m' R L Hm' E.
    apply (NC n); [|reflexivity].
    apply clos_rt_rt1n; apply clos_rt_rt1n in R; eapply rt_trans; [exact R|apply rt_step].
    exists s', m'; repeat split; auto; [now apply lookup_In|now exists s].
  - (* a message: no member has a message type *)
    assert (MN : is_message_name p n) by now exists s.
    split.
    + intros ->; now destruct (wf_disjoint p W n) as [Dj _]; apply Dj.
    + intros u s' m' R L Hm' E.
      apply (declared_not_message p (v_type m') W); [|now rewrite E].
      eapply (wf_member_types p W u s'); [left; now apply lookup_In|assumption].
Qed.

(** ** Completeness *)

Lemma for_each_eventually {A} (f : nat -> A -> pyres unit) l :
  (forall x, In x l -> exists n, forall fuel, (n <= fuel)%nat -> f fuel x = Ret tt) ->
  exists n, forall fuel, (n <= fuel)%nat -> for_each (f fuel) l = Ret tt.
Proof.
  induction l as [|x l IH]; intro H; [exists 0%nat; reflexivity|].
  destruct IH as [n2 H2]; [intros; apply H; now right|].
  destruct (H x (or_introl eq_refl)) as [n1 H1].
  exists (Nat.max n1 n2); intros fuel Hf; cbn; rewrite H1 by lia; cbn; apply H2; lia.
Qed.

Lemma validate_struct_ok p n s : WF_local p -> declares p n s -> validate_struct p s = Ret tt.
Proof.
  intros W D.
  assert (Nm : s_name s = n /\ (s_is_message s = true -> ~ is_struct p n)).
  { destruct D as [D|D].
    - apply (wf_struct_entry p W) in D as [-> ->]; split; [reflexivity|discriminate].
    - pose proof D as D'; apply (wf_message_entry p W) in D as [-> _]; split; [reflexivity|].
      intros _ S; destruct (wf_disjoint p W n) as [Dj _]; apply Dj; split; [assumption|now exists s]. }
  destruct Nm as [Nm Sh].
  assert (Ok : name_ok n).
  { apply (wf_names p W); destruct D; [left|right; left]; now exists s. }
  apply name_ok_checks in Ok as (C1 & C2 & C3).
  unfold validate_struct; rewrite Nm, C1, C2, C3; cbn [raise_if pbind].
  assert (C4 : s_is_message s && mem n (p_structs p) = false).
  { destruct (s_is_message s); [|reflexivity]; cbn.
    destruct (mem n (p_structs p)) eqn:M; [|reflexivity].
    apply is_struct_mem in M; now destruct (Sh eq_refl). }
  rewrite C4; cbn [raise_if pbind].
  apply for_each_Ret; intros m Hm; unfold validate_member.
  destruct (wf_member_names p W n s m D Hm) as [Ns _].
  apply contains_whitespace_false in Ns; rewrite Ns; cbn [raise_if pbind].
  pose proof (wf_member_types p W n s m D Hm) as T; apply in_valid_types in T; now rewrite T.
Qed.

Lemma validate_enum_ok p n e : WF_local p -> In (n, e) (p_enums p) -> validate_enum p e = Ret tt.
Proof.
  intros W D.
  assert (IE : is_enum p n) by now exists e.
  pose proof (wf_enum_entry p W n e D) as Nm.
  assert (Ok : name_ok n) by (apply (wf_names p W); auto).
  apply name_ok_checks in Ok as (C1 & C2 & C3).
  destruct (wf_enum_values p W n e D) as (V1 & V2 & V3).
  destruct (wf_disjoint p W n) as (_ & D1 & D2).
  unfold validate_enum; rewrite Nm, C1, C2, C3; cbn [raise_if pbind].
  destruct (e_values e) as [|x xs] eqn:EV; [congruence|]; rewrite <- EV in *; clear EV.
  cbn [raise_if pbind].
  apply has_dup_Z_false in V3; rewrite V3; cbn [raise_if pbind].
  destruct (mem n (p_structs p)) eqn:M1; [exfalso; apply D1; split; [now apply is_struct_mem|assumption]|].
  destruct (mem n (p_messages p)) eqn:M2; [exfalso; apply D2; split; [now apply is_message_mem|assumption]|].
  cbn [raise_if pbind].
  apply for_each_Ret; intros v Hv.
  destruct (wf_enum_value_names p W n e v D Hv) as (Ns & S1 & S2).
  rewrite is_struct_mem in S1; rewrite is_message_mem in S2.
  apply contains_whitespace_false in Ns.
  destruct (mem v (p_structs p)); [congruence|]; destruct (mem v (p_messages p)); [congruence|].
  now rewrite Ns.
Qed.

Lemma validate_ok p : WF p -> exists n, forall fuel, (n <= fuel)%nat -> validate fuel p = Ret tt.
Proof.
  intro W.
  destruct (for_each_eventually (check_for_cycles p) (map snd (p_structs p))) as [n1 H1].
  { intros s Hs; apply in_map_iff in Hs as [[n s'] [<- Hs]]; eapply check_terminates; [assumption|left; eassumption]. }
  destruct (for_each_eventually (check_for_cycles p) (map snd (p_messages p))) as [n2 H2].
  { intros s Hs; apply in_map_iff in Hs as [[n s'] [<- Hs]]; eapply check_terminates; [assumption|right; eassumption]. }
  exists (Nat.max n1 n2); intros fuel Hf; unfold validate.
  replace (for_each (validate_struct p) (map snd (p_structs p))) with (@Ret unit tt).
  2:{ symmetry; apply for_each_Ret; intros s Hs; apply in_map_iff in Hs as [[n s'] [<- Hs]].
      eapply validate_struct_ok; [apply W|left; eassumption]. }
  replace (for_each (validate_struct p) (map snd (p_messages p))) with (@Ret unit tt).
  2:{ symmetry; apply for_each_Ret; intros s Hs; apply in_map_iff in Hs as [[n s'] [<- Hs]].
      eapply validate_struct_ok; [apply W|right; eassumption]. }
  replace (for_each (validate_enum p) (map snd (p_enums p))) with (@Ret unit tt).
  2:{ symmetry; apply for_each_Ret; intros s Hs; apply in_map_iff in Hs as [[n s'] [<- Hs]].
      eapply validate_enum_ok; [apply W|eassumption]. }
  pose proof (wf_message_count p W) as C; apply Nat.ltb_ge in C; rewrite C.
  cbn [raise_if pbind]; rewrite H1 by lia; cbn [pbind]; apply H2; lia.
Qed.

(** ** Building from a description *)

Lemma first_char_app a s : first_char (String a s) = Some a. Proof. reflexivity. Qed.

Lemma last_char_app s c : last_char (s +++ String c "")%string = Some c.
Proof.
  induction s as [|d s IH]; [reflexivity|].
  cbn; destruct s; cbn in *; [reflexivity|exact IH].
Qed.

Lemma drop_last_app s c : drop_last (s +++ String c "")%string = s.
Proof.
  induction s as [|d s IH]; [reflexivity|].
  cbn [String.append drop_last]; rewrite IH.
  destruct s; cbn; reflexivity.
Qed.

Lemma last_char_split s c : last_char s = Some c -> s = (drop_last s +++ String c "")%string.
Proof.
  induction s as [|d s IH]; [discriminate|].
  destruct s as [|e s]; cbn [last_char drop_last].
  - now intros [= ->].
  - intro H; cbn [String.append]; f_equal; now apply IH.
Qed.

Lemma bracketed_true s : bracketed s = Some true <-> is_bracketed s.
Proof.
  unfold bracketed, is_bracketed; split.
  - destruct s as [|a s]; cbn [first_char]; [discriminate|].
    destruct (last_char (String a s)) as [z|] eqn:L; [|discriminate].
    intros [= H]; apply andb_true_iff in H as [H1 H2].
    apply Ascii.eqb_eq in H1; apply Ascii.eqb_eq in H2; subst.
    destruct s as [|b s]; [cbn in L; discriminate|].
    change (last_char (String b s) = Some "]"%char) in L; apply last_char_split in L.
    exists (drop_last (String b s)); rewrite L at 1; reflexivity.
  - intros [u ->]; cbn [String.append first_char].
    change (String "[" (u +++ "]"))%string with (("[" +++ u) +++ String "]" "")%string.
    rewrite last_char_app; reflexivity.
Qed.

Lemma bracketed_none s : bracketed s = None <-> s = ""%string.
Proof.
  unfold bracketed; destruct s as [|a s]; cbn [first_char]; [cbn; tauto|].
  split; [|discriminate].
  destruct (last_char (String a s)) eqn:L; [discriminate|].
  exfalso; clear -L; revert a L; induction s as [|b s IH]; intros a L; cbn in L; [discriminate|].
  now apply (IH b).
Qed.

Lemma build_var_doc k t m : doc_member (k, t) m -> build_var k t = Ret m.
Proof.
  intros (N & NE & NB & T); cbn in N, T; destruct m as [n ty li]; cbn in *; subst n t.
  assert (B : bracketed ty = Some false).
  { destruct (bracketed ty) as [[]|] eqn:B; [|reflexivity|].
    - apply bracketed_true in B; contradiction.
    - apply bracketed_none in B; contradiction. }
  destruct li; cbn [build_var].
  - assert (B1 : bracketed (String "[" (ty +++ "]")) = Some true) by (apply bracketed_true; now exists ty).
    rewrite B1; cbn [drop_first].
    change "]"%string with (String "]" ""); rewrite drop_last_app, B; reflexivity.
  - now rewrite B.
Qed.

Lemma build_members_doc items ms :
  Forall2 doc_member (filter (fun kv => negb (starts_underscore (fst kv))) items) ms ->
  build_members items = Ret ms.
Proof.
  revert ms; induction items as [|[k t] items IH]; cbn [filter build_members]; intros ms H.
  - now inversion H.
  - destruct (starts_underscore k) eqn:U; cbn [negb fst] in H; rewrite U in H; cbn [negb] in H.
    + now apply IH.
    + inversion H as [|? m ? ms' H1 H2]; subst.
      rewrite (build_var_doc _ _ _ H1); cbn [pbind]; now rewrite (IH _ H2).
Qed.

Lemma build_struct_doc im d ns : doc_struct im d ns -> build_struct im d = Ret (snd ns).
Proof.
  intros (items & -> & L & N & Im & F); destruct ns as [n s]; cbn in *.
  unfold build_struct; cbn [py_in pbind]; unfold mem; rewrite L; cbn [negb raise_if pbind py_get].
  rewrite ?L; cbn [pbind]; rewrite (build_members_doc _ _ F); cbn [pbind].
  destruct s as [sn sm si]; cbn in *; subst; reflexivity.
Qed.

Lemma load_structs_doc im l new acc :
  Forall2 (doc_struct im) l new ->
  NoDup (map fst (acc ++ new)) ->
  load_structs im l acc = Ret (acc ++ new).
Proof.
  intro F; revert acc; induction F as [|d ns l new H F IH]; intros acc ND.
  - cbn; now rewrite app_nil_r.
  - cbn [load_structs]; rewrite (build_struct_doc _ _ _ H); cbn [pbind].
    assert (N : s_name (snd ns) = fst ns) by (destruct H as (? & ? & ? & ? & _); assumption).
    rewrite N.
    assert (M : mem (fst ns) acc = false).
    { apply mem_false; rewrite map_app in ND; cbn in ND; apply NoDup_remove_2 in ND.
      intro Hin; apply ND; apply in_or_app; now left. }
    rewrite M; cbn [raise_if pbind]; rewrite dict_set_fresh by assumption.
    rewrite IH.
    + rewrite <- app_assoc; destruct ns; reflexivity.
    + rewrite <- app_assoc; destruct ns; exact ND.
Qed.

Lemma enum_tables_doc vs values od :
  Forall2 (fun d nz => exists items, d = TTab items /\
             lookup "_name" items = Some (TStr (fst nz)) /\
             lookup "_value" items = Some (TInt (snd nz))) vs values ->
  NoDup (map fst (od ++ values)) ->
  enum_tables vs od = Ret (od ++ values).
Proof.
  intro F; revert od; induction F as [|d nz vs values H F IH]; intros od ND.
  - cbn; now rewrite app_nil_r.
  - destruct H as (items & -> & L1 & L2); cbn [enum_tables].
    assert (E : enum_entry (TTab items) = Ret nz).
    { unfold enum_entry; cbn [py_in py_get pbind]; unfold mem; rewrite L1; cbn [negb raise_if pbind].
      rewrite L2; cbn [negb raise_if pbind]; destruct nz; reflexivity. }
    rewrite E; cbn [pbind].
    assert (M : mem (fst nz) od = false).
    { apply mem_false; rewrite map_app in ND; cbn in ND; apply NoDup_remove_2 in ND.
      intro Hin; apply ND; apply in_or_app; now left. }
    rewrite dict_set_fresh by assumption; rewrite IH.
    + rewrite <- app_assoc; destruct nz; reflexivity.
    + rewrite <- app_assoc; destruct nz; exact ND.
Qed.

Lemma enum_init_doc n vs values enc :
  doc_enum_values vs values -> values <> [] -> NoDup (map fst values) ->
  smallest_encoding (map snd values) enc ->
  enum_init n vs = Ret (MkEnum n values enc).
Proof.
  intros D NE ND Enc; unfold enum_init.
  assert (V : (if forallb is_tstr vs
               then raise_if (has_dup_str (tstrs vs)) ValueError ;;; Ret (number_from 0 (tstrs vs))
               else if negb (forallb is_ttab vs) then Raise TypeError else enum_tables vs []) = Ret values).
  { destruct D as [[-> Num]|F].
    - assert (E1 : forallb is_tstr (map (fun nz : string * Z => TStr (fst nz)) values) = true).
      { apply forallb_forall; intros x Hx; apply in_map_iff in Hx as [? [<- _]]; reflexivity. }
      assert (E2 : tstrs (map (fun nz : string * Z => TStr (fst nz)) values) = map fst values).
      { clear; induction values as [|x l IH]; cbn; congruence. }
      rewrite E1, E2; apply has_dup_str_false in ND; rewrite ND; cbn [raise_if pbind].
      now rewrite number_from_unique.
    - pose proof (enum_tables_doc vs values [] F ND) as T.
      assert (E0 : forallb is_tstr vs = false).
      { inversion F as [|d nz vs' values' H F']; [subst; congruence|].
        destruct H as (items & -> & _); reflexivity. }
      assert (E1 : forallb is_ttab vs = true).
      { apply forallb_forall; intros x Hx.
        clear -F Hx; induction F as [|a b l1 l2 Hab F IH]; [destruct Hx|].
        destruct Hx as [<-|Hx]; [now destruct Hab as (? & -> & _)|auto]. }
      rewrite E0, E1; cbn [negb]; exact T. }
  rewrite V; cbn [pbind].
  destruct (zmin (map snd values)) as [mn|] eqn:Emn.
  2:{ apply zmin_none in Emn; destruct values; [congruence|discriminate]. }
  destruct (zmax (map snd values)) as [mx|] eqn:Emx.
  2:{ apply zmax_none in Emx; destruct values; [congruence|discriminate]. }
  apply (pick_encoding_spec _ _ _ _ Emn Emx) in Enc; now rewrite Enc.
Qed.

Lemma load_enums_doc l new acc :
  Forall2 doc_enum l new ->
  (forall n e, In (n, e) new -> e_values e <> [] /\ NoDup (map fst (e_values e)) /\
     smallest_encoding (map snd (e_values e)) (e_encoding e)) ->
  NoDup (map fst (acc ++ new)) ->
  load_enums l acc = Ret (acc ++ new).
Proof.
  intro F; revert acc; induction F as [|d ne l new H F IH]; intros acc Ok ND.
  - cbn; now rewrite app_nil_r.
  - destruct H as (items & vs & -> & L1 & N & L2 & V).
    destruct (Ok (fst ne) (snd ne)) as (K1 & K2 & K3); [left; now destruct ne|].
    cbn [load_enums py_in py_get pbind]; unfold mem.
    rewrite L1, L2; cbn [negb raise_if pbind].
    rewrite (enum_init_doc _ _ _ _ V K1 K2 K3); cbn [pbind e_name].
    assert (M : mem (fst ne) acc = false).
    { apply mem_false; rewrite map_app in ND; cbn in ND; apply NoDup_remove_2 in ND.
      intro Hin; apply ND; apply in_or_app; now left. }
    rewrite dict_set_fresh by assumption.
    assert (Ee : MkEnum (fst ne) (e_values (snd ne)) (e_encoding (snd ne)) = snd ne).
    { destruct ne as [n [en ev ee]]; cbn in *; now subst. }
    rewrite Ee, IH.
    + rewrite <- app_assoc; destruct ne; reflexivity.
    + intros; apply (Ok n); now right.
    + rewrite <- app_assoc; destruct ne; exact ND.
Qed.

Lemma has_char_index c s :
  match String.index 0 (String c "") s with Some _ => true | None => false end = has_char c s.
Proof.
  induction s as [|d s IH]; [reflexivity|].
  cbn [String.index String.prefix has_char].
  destruct (ascii_dec c d) as [->|N].
  - rewrite Ascii.eqb_refl; destruct s; reflexivity.
  - destruct (Ascii.eqb_spec c d) as [E|_]; [contradiction|].
    rewrite <- IH; destruct (String.index 0 (String c "") s); reflexivity.
Qed.

Lemma contains_ws_any_str cs s :
  contains_ws_any cs (TStr s) = Ret (existsb (fun c => has_char c s) cs).
Proof.
  induction cs as [|c cs IH]; [reflexivity|].
  cbn [contains_ws_any py_in pbind]; rewrite IH; cbn [pbind existsb].
  now rewrite has_char_index.
Qed.

Lemma load_size_doc key meta t :
  doc_size key meta t -> In t integral_types -> load_size key (TTab meta) = Ret t.
Proof.
  intros [L|[L ->]] Hin; unfold load_size; cbn [py_in py_get pbind]; unfold mem; rewrite L; [|reflexivity].
  cbn [pbind]; assert (E : in_strs t valid_sizes = true) by now apply in_strs_true.
  now rewrite E.
Qed.

Lemma build_doc data p : WF_local p -> describes data p -> build data = Ret p.
Proof.
  intros W ((meta & Hm & Hl & Hs & Hn) & sl & ml & el & S1 & S2 & S3 & F1 & F2 & F3).
  unfold build.
  assert (M : load_meta data = Ret (p_namespace p, p_list_size_type p, p_string_size_type p)).
  { unfold load_meta; destruct Hm as [L|[L ->]]; rewrite L.
    - pose proof (load_size_doc _ _ _ Hl (wf_list_size p W)) as E1.
      pose proof (load_size_doc _ _ _ Hs (wf_string_size p W)) as E2.
      rewrite E1, E2; cbn [py_in py_get pbind]; unfold mem.
      destruct (p_namespace p) as [v|].
      + destruct Hn as [Ln [s [-> Ns]]]; rewrite Ln; cbn [pbind].
        rewrite contains_ws_any_str.
        apply contains_whitespace_false in Ns; unfold contains_whitespace in Ns; rewrite Ns; reflexivity.
      + rewrite Hn; reflexivity.
    - destruct Hl as [Hl|[_ ->]]; [discriminate|]; destruct Hs as [Hs|[_ ->]]; [discriminate|].
      destruct (p_namespace p); [destruct Hn; discriminate|reflexivity]. }
  rewrite M; cbn [pbind].
  assert (Sec : forall key l, doc_section key data l -> py_iter (section key data) = Ret l).
  { intros key l [L|[L ->]]; unfold section; rewrite L; reflexivity. }
  rewrite (Sec _ _ S1), (Sec _ _ S2), (Sec _ _ S3); cbn [pbind].
  rewrite (load_structs_doc false sl (p_structs p) [] F1 (wf_structs_nodup p W)); cbn [pbind app].
  rewrite (load_structs_doc true ml (p_messages p) [] F2 (wf_messages_nodup p W)); cbn [pbind app].
  rewrite (load_enums_doc el (p_enums p) [] F3); cbn [pbind app].
  - now destruct p.
  - intros n e Hin; destruct (wf_enum_values p W n e Hin) as (? & ? & _).
    pose proof (wf_enum_encoding p W n e Hin); auto.
  - apply (wf_enums_nodup p W).
Qed.

Lemma load_complete data p :
  WF p -> describes data p ->
  exists n, forall fuel, (n <= fuel)%nat -> load fuel data = Ret p.
Proof.
  intros W D; destruct (validate_ok p W) as [n H]; exists n; intros fuel Hf.
  unfold load; rewrite (build_doc data p W D); cbn [pbind]; rewrite H by assumption; reflexivity.
Qed.

(** More iterations never change a verdict. *)
Lemma cycle_loop_mono p start f f' stack r :
  (f <= f')%nat -> cycle_loop p start f stack = r -> r <> OutOfSteps ->
  cycle_loop p start f' stack = r.
Proof.
  revert f' stack; induction f as [|f IH]; intros f' [|t rest] Hf H NO; cbn in H.
  - destruct f'; exact H.
  - congruence.
  - destruct f'; exact H.
  - destruct f' as [|f']; [lia|]; cbn.
    destruct (String.eqb t start); [exact H|].
    destruct (lookup t (p_structs p)) as [s|]; [|exact H].
    destruct (push_members p start (s_members s) rest) as [st| |]; cbn in *; auto.
    apply IH; auto; lia.
Qed.

(** A described protocol that is loaded is loaded as described. *)
Lemma build_functional data p q : WF q -> describes data q -> build data = Ret p -> p = q.
Proof. intros W D H; rewrite (build_doc data q W D) in H; now injection H. Qed.
