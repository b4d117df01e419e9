(** Readers that collect the members in local variables and build the result at
    the end (Rust, Zig). *)
From Verif Require Export ReaderFacts.
Open Scope list_scope.

Section Locals.
Variable R : rt.
Variable p : protocol.
Variable inp : list byte.
Variable call : string -> list (string * val) -> nat -> outcome.
Variable len : string -> Z -> got unit.
Variable fuel : nat.
Hypothesis W : WF p.
Hypothesis NUMS : rt_num R = read_num.
Hypothesis CALL : call_ok R p inp call len fuel.
Notation dec := (dec (rt_str R) len (rt_enum R) p inp).
Notation exec := (exec R p inp call).

(** The value is in local [x]; only the locals [T] have changed. *)
Definition kept (T : list string) (s s' : rstate) : Prop :=
  forall y, ~ In y T -> lookup y (r_env s') = lookup y (r_env s).
Definition in_local (x : string) (T : list string) (s : rstate) (v : val) (pos : nat) (s' : rstate) : Prop :=
  lookup x (r_env s') = Some v /\ r_pos s' = pos /\ kept T s s'.

Lemma kept_refl T s : kept T s s. Proof. intro; auto. Qed.
Lemma kept_trans T a b c : kept T a b -> kept T b c -> kept T a c.
Proof. intros B B' y N; now rewrite B', B. Qed.
Lemma kept_incl T T' a b : incl T T' -> kept T a b -> kept T' a b.
Proof. intros I B y N; apply B; intro H; apply N, I, H. Qed.
Lemma kept_pos T s n : kept T s (set_pos n s). Proof. intro; auto. Qed.
Lemma kept_local T x v s : In x T -> kept T s (set_local x v s).
Proof.
  intros I y N; cbn; apply lookup_dict_set_neq; intros ->; contradiction.
Qed.

(** One value, read into local [x]. *)
Definition local_code (x t : string) : list rstmt :=
  match num_of t with
  | Some k => [RNum (DLocal x) k]
  | None =>
      if String.eqb t "string" then [RStr (DLocal x)]
      else match lookup t (p_enums p) with
           | Some e =>
               match num_of (e_encoding e) with
               | Some k => [RNum (DLocal x) k; REnumCheck x t]
               | None => []
               end
           | None => [RCall (DLocal x) t]
           end
  end.

Lemma put_to_local x s v pos s' : put_to (DLocal x) x s v pos s' -> in_local x [x] s v pos s'.
Proof.
  intros (s0 & (SO & SE) & P & ST); cbn in ST; injection ST as <-.
  split; [cbn; now rewrite lookup_dict_set_eq|]; split; [exact P|].
  intros y N; cbn; rewrite lookup_dict_set_neq by (intros ->; apply N; now left).
  apply SE; intros ->; apply N; now left.
Qed.

Lemma local_one x t s : declared_type p t ->
  agrees (dec fuel t (r_pos s)) (exec (local_code x t) s) (in_local x [x] s).
Proof.
  intro T.
  assert (ST : storable (DLocal x) x s) by (intros s0 v H; cbn; eauto).
  unfold local_code.
  destruct (num_of t) as [k|] eqn:K.
  { replace (dec fuel t (r_pos s)) with (dec_num inp k (r_pos s)) by (destruct fuel; cbn [Dec.dec]; now rewrite K).
    eapply agrees_weaken; [exact (exec_num R p inp call NUMS (DLocal x) x k s ST)|]; intros v pos s'; apply put_to_local. }
  destruct (String.eqb t "string") eqn:S.
  { replace (dec fuel t (r_pos s)) with (got_res VStr (rt_str R p inp (r_pos s)))
      by (destruct fuel; cbn [Dec.dec]; now rewrite K, S).
    eapply agrees_weaken; [exact (exec_str R p inp call (DLocal x) x s ST)|]; intros v pos s'; apply put_to_local. }
  destruct (lookup t (p_enums p)) as [e|] eqn:L.
  { apply lookup_In in L; destruct (enum_encoding_num p W t e L) as (k & KE & _); rewrite KE.
    rewrite (dec_unfold_enum R p inp len fuel W t e _ L).
    eapply agrees_weaken; [now apply (exec_enum R p inp call W NUMS x t e k s L KE)|].
    intros v pos s' ((_ & SE) & P & LV); split; [exact LV|]; split; [exact P|].
    intros y N; apply SE; intros ->; apply N; now left. }
  assert (D : exists st, declares p t st).
  { destruct T as [B|[B|[[st B]|[e B]]]].
    - apply num_of_base in B as [k B]; congruence.
    - apply String.eqb_neq in S; congruence.
    - exists st; now left.
    - apply lookup_None in L; exfalso; apply L, in_map_iff; now exists (t, e). }
  destruct D as [st D].
  eapply agrees_weaken; [exact (exec_call R p inp call len fuel CALL (DLocal x) x t st s D ST)|]; intros v pos s'; apply put_to_local.
Qed.

(** A list that grows in local [n]. *)
Lemma local_loop n i e t : declared_type p t -> e <> n -> i <> n ->
  forall k j l s, lookup n (r_env s) = Some (VList l) ->
  agrees (dec_elems (dec fuel) t k (r_pos s))
    (exec_loop R p inp call i (local_code e t ++ [RPush (DLocal n) e]) k j s)
    (fun vs => in_local n [n; i; e] s (VList (l ++ vs))).
Proof.
  intros T NE NI; induction k as [|k IH]; intros j l s L.
  - cbn; exists s; split; [reflexivity|]; split; [now rewrite app_nil_r|split; [reflexivity|apply kept_refl]].
  - cbn [exec_loop dec_elems]; rewrite exec_app, obind_assoc.
    eapply agrees_bind; [apply (local_one e t (set_local i (VInt j) s) T)|].
    intros v pos s1 (LV & P1 & K1).
    assert (L1 : lookup n (r_env s1) = Some (VList l)).
    { rewrite K1 by (intros [H|[]]; congruence); cbn; rewrite lookup_dict_set_neq by congruence; exact L. }
    rewrite exec_one; cbn [exec_stmt fetch]; rewrite L1, LV; cbn [store done_or_stuck obind].
    specialize (IH (j + 1) (l ++ [v]) (set_local n (VList (l ++ [v])) s1) (lookup_dict_set_eq _ _ _)).
    cbn [set_local r_pos] in IH; rewrite P1 in IH.
    destruct (dec_elems (dec fuel) t k pos) as [vs q| | | |]; cbn [agrees rbind] in IH |- *; auto.
    destruct IH as (s2 & -> & LV2 & P2 & K2); exists s2; split; [reflexivity|].
    split; [now rewrite LV2, <- app_assoc|]; split; [exact P2|].
    eapply kept_trans; [|exact K2].
    eapply kept_trans; [|apply kept_local; now left].
    eapply kept_trans; [apply (kept_local _ i (VInt j)); right; now left|].
    eapply kept_incl; [|exact K1]; intros y [<-|[]]; right; right; now left.
Qed.

Definition member_local (m : var) (x : string) (T : list string) (code : list rstmt) : Prop :=
  forall s, agrees (dec_member len p inp (dec fuel) m (r_pos s)) (exec code s) (in_local x T s).

Lemma member_local_one m : v_list m = false -> declared_type p (v_type m) ->
  member_local m (v_name m) [v_name m] (local_code (v_name m) (v_type m)).
Proof. intros NL T s; unfold dec_member; rewrite NL; now apply local_one. Qed.

Lemma member_local_push m l i e k : v_list m = true -> declared_type p (v_type m) ->
  num_of (p_list_size_type p) = Some k ->
  (forall z, same_got (len (v_type m) z) (rt_for R z)) ->
  l <> v_name m -> i <> v_name m -> e <> v_name m ->
  member_local m (v_name m) [v_name m; l; i; e]
    [RNum (DLocal l) k; RNew (DLocal (v_name m)) (v_type m) None;
     RFor i (DLocal l) (local_code e (v_type m) ++ [RPush (DLocal (v_name m)) e])].
Proof.
  intros VL T K LEN NL NI NE s; unfold dec_member, dec_list; rewrite VL, K.
  change (RNum (DLocal l) k :: ?r) with ([RNum (DLocal l) k] ++ r); rewrite exec_app.
  eapply agrees_bind.
  { apply (exec_num R p inp call NUMS (DLocal l) l k s); intros s0 v H; cbn; eauto. }
  intros v pos s1 PT; apply put_to_local in PT as (LV & P1 & K1).
  destruct v as [z| | | | |]; cbn [agrees]; auto.
  change (RNew ?a ?b ?c :: ?r) with ([RNew a b c] ++ r); rewrite exec_app, exec_one; cbn [exec_stmt store done_or_stuck obind].
  rewrite exec_one, exec_for; cbn [fetch set_local r_env].
  rewrite lookup_dict_set_neq by exact NL; rewrite LV.
  specialize (LEN z); unfold guard.
  destruct (rt_for R z) as [u' q'|q'|] eqn:FR; destruct (len (v_type m) z); try contradiction; cbn [agrees rbind obind]; eauto.
  pose proof (local_loop (v_name m) i e (v_type m) T NE NI (Z.to_nat z) 0 []
    (set_local (v_name m) (VList []) s1) (lookup_dict_set_eq _ _ _)) as LOOP.
  cbn [set_local r_pos] in LOOP; rewrite P1 in LOOP; cbn [List.app] in LOOP.
  fold (set_local (v_name m) (VList []) s1).
  destruct (dec_elems (dec fuel) (v_type m) (Z.to_nat z) pos) as [vs q2| | | |]; cbn [agrees rbind] in LOOP |- *; auto.
  destruct LOOP as (s2 & -> & LV2 & P2 & K2); exists s2; split; [reflexivity|].
  split; [exact LV2|]; split; [exact P2|].
  eapply kept_trans; [eapply kept_incl; [|exact K1]; intros y [<-|[]]; right; now left|].
  eapply kept_trans; [apply (kept_local _ (v_name m) (VList [])); now left|].
  eapply kept_incl; [|exact K2].
  intros y [<-|[<-|[<-|[]]]]; [now left|right; right; now left|right; right; right; now left].
Qed.

(** All members: no later member touches the local of an earlier one. *)
Variable target : var -> string.
Variable touched : var -> list string.
Variable code : var -> list rstmt.

Fixpoint apart (ms : list var) : Prop :=
  match ms with
  | [] => True
  | m :: r => (forall m', In m' r -> ~ In (target m) (touched m')) /\ apart r
  end.

Definition collected (env : list (string * val)) (m : var) (f : string * val) : Prop :=
  fst f = v_name m /\ lookup (target m) env = Some (snd f).

Lemma members_local : forall ms, apart ms ->
  (forall m, In m ms -> member_local m (target m) (touched m) (code m)) ->
  forall s, agrees (dec_members len p inp (dec fuel) ms (r_pos s)) (exec (flat_map code ms) s)
    (fun fs pos s' => Forall2 (collected (r_env s')) ms fs /\ r_pos s' = pos /\
       kept (flat_map touched ms) s s').
Proof.
  induction ms as [|m ms IH]; intros AP OK s.
  - cbn; exists s; split; [reflexivity|]; split; [constructor|split; [reflexivity|apply kept_refl]].
  - destruct AP as [AM AP]; cbn [flat_map dec_members]; rewrite exec_app.
    eapply agrees_bind; [exact (OK m (or_introl eq_refl) s)|].
    intros v pos s1 (LV & P1 & K1); rewrite <- P1.
    specialize (IH AP (fun m' H => OK m' (or_intror H)) s1).
    destruct (dec_members len p inp (dec fuel) ms (r_pos s1)) as [fs q| | | |]; cbn [agrees rbind] in IH |- *; auto.
    destruct IH as (s2 & -> & C & P2 & K2); exists s2; split; [reflexivity|].
    split; [|split; [exact P2|]].
    + constructor; [|exact C]; split; [reflexivity|]; cbn [snd].
      rewrite K2; [exact LV|]; intro H; apply in_flat_map in H as (m' & I & H); exact (AM m' I H).
    + eapply kept_trans; [eapply kept_incl; [|exact K1]|eapply kept_incl; [|exact K2]];
        intros y Y; apply in_or_app; auto.
Qed.

Lemma build_ok ms : forall fs s, Forall2 (collected (r_env s)) ms fs ->
  exec [RBuild (map (fun m => (v_name m, target m)) ms)] s = Done (set_obj fs s).
Proof.
  intros fs s C; rewrite exec_one; cbn [exec_stmt].
  enough (H : forall acc,
    (fix build (l : list (string * string)) (a : list (string * val)) {struct l} : outcome :=
       match l with
       | [] => Done (set_obj a s)
       | (f, x) :: r => match lookup x (r_env s) with Some v => build r (a ++ [(f, v)]) | None => Stuck end
       end) (map (fun m => (v_name m, target m)) ms) acc = Done (set_obj (acc ++ fs) s)) by exact (H []).
  induction C as [|m [f v] ms fs [N L] C IH]; intro acc; [now rewrite app_nil_r|].
  cbn [map fst snd] in *; subst f; rewrite L, IH, <- app_assoc; reflexivity.
Qed.
End Locals.

(** The whole reader function. *)
Section Run.
Variable R : rt.
Variable p : protocol.
Variable inp : list byte.
Variable code : protocol -> struct -> list rstmt.
Variable len : string -> Z -> got unit.
Hypothesis W : WF p.

Section Body.
Hypothesis BODY : forall call fuel t s st, call_ok R p inp call len fuel -> declares p t s ->
  agrees (dec_members len p inp (dec (rt_str R) len (rt_enum R) p inp fuel) (s_members s) (r_pos st))
    (exec R p inp call (code p s) st) (fun fs pos st' => r_obj st' = fs /\ r_pos st' = pos).

Lemma run_body fuel : call_ok R p inp (run R p code inp fuel) len fuel.
Proof.
  induction fuel as [|f IH]; intros t s pos D.
  - destruct (declares_not_num p W t s D) as (A & B & C); apply String.eqb_neq in B.
    cbn [Dec.dec]; rewrite A, B, (find_declares p W t s D).
    destruct (lookup t (p_enums p)) as [e|] eqn:L; [apply lookup_In in L; now apply C in L|exact I].
  - destruct (declares_not_num p W t s D) as (A & B & C); apply String.eqb_neq in B.
    cbn [Dec.dec run]; rewrite A, B, (find_declares p W t s D).
    destruct (lookup t (p_enums p)) as [e|] eqn:L; [apply lookup_In in L; now apply C in L|].
    pose proof (BODY (run R p code inp f) f t s {| r_pos := pos; r_obj := rt_init R p t; r_env := [] |} IH D) as M.
    cbn [r_pos] in M.
    destruct (dec_members len p inp (dec (rt_str R) len (rt_enum R) p inp f) (s_members s) pos) as [fs q| | | |];
      cbn [agrees rbind] in M |- *; auto.
    destruct M as (s1 & -> & E1 & E2); exists s1; split; [reflexivity|]; now rewrite E1.
Qed.
End Body.

Variable mcode : struct -> var -> list rstmt.
Variable target : struct -> var -> string.
Variable touched : struct -> var -> list string.
Hypothesis APART : forall t s, declares p t s -> apart (target s) (touched s) (s_members s).
Hypothesis CODE : forall t s, declares p t s ->
  code p s = flat_map (mcode s) (s_members s) ++ [RBuild (map (fun m => (v_name m, target s m)) (s_members s))].
Hypothesis MEMBER : forall call fuel t s m, call_ok R p inp call len fuel -> declares p t s -> In m (s_members s) ->
  member_local R p inp call len fuel m (target s m) (touched s m) (mcode s m).

Lemma body_locals call fuel t s st : call_ok R p inp call len fuel -> declares p t s ->
  code p s = flat_map (mcode s) (s_members s) ++ [RBuild (map (fun m => (v_name m, target s m)) (s_members s))] ->
  agrees (dec_members len p inp (dec (rt_str R) len (rt_enum R) p inp fuel) (s_members s) (r_pos st))
    (exec R p inp call (code p s) st) (fun fs pos st' => r_obj st' = fs /\ r_pos st' = pos).
Proof.
  intros C D E; rewrite E, exec_app.
  pose proof (members_local R p inp call len fuel (target s) (touched s) (mcode s)) as M.
  specialize (M (s_members s) (APART t s D) (fun m I => MEMBER _ _ t s m C D I) st).
  destruct (dec_members len p inp (dec (rt_str R) len (rt_enum R) p inp fuel) (s_members s) (r_pos st)) as [fs q| | | |];
    cbn [agrees rbind] in M |- *; auto.
  - destruct M as (s1 & -> & CO & P1 & _); cbn [obind].
    rewrite (build_ok R p inp _ (target s) (s_members s) fs s1 CO).
    eexists; split; [reflexivity|]; split; [reflexivity|exact P1].
  - destruct M as [s1 ->]; cbn; eauto.
  - now rewrite M.
Qed.

Lemma run_locals fuel : call_ok R p inp (run R p code inp fuel) len fuel.
Proof. apply run_body; intros; eapply body_locals; eauto. Qed.
End Run.
