(** The generated size computation returns the length of the encoding. *)
From Verif Require Export Measure DecFacts.
From Verif Require Import WireExec IRFacts.
Open Scope list_scope.
Open Scope Z_scope.

Fixpoint mvars (q : mpath) : list string :=
  match q with
  | MRoot => []
  | MVar x => [x]
  | MField q _ => mvars q
  | MElem q i => i :: mvars q
  end.

Lemma meval_fresh root env i v q : ~ In i (mvars q) ->
  meval root (dict_set i v env) q = meval root env q.
Proof.
  induction q as [|x|q IH f|q IH j]; cbn; intro N; auto.
  - rewrite lookup_dict_set_neq; auto.
  - now rewrite IH.
  - rewrite IH by tauto.
    unfold IR.index; rewrite lookup_dict_set_neq by (intros ->; tauto); reflexivity.
Qed.

Lemma mbind_mbind o f g : mbind (mbind o f) g = mbind o (fun z => mbind (f z) g).
Proof. destruct o; reflexivity. Qed.

Lemma mexec_app root fuel a b env sz :
  mexec root fuel (a ++ b) env sz = mbind (mexec root fuel a env sz) (mexec root fuel b env).
Proof.
  revert sz; induction a as [|x a IH]; intro sz; cbn [app mexec mbind]; [reflexivity|].
  rewrite mbind_mbind; destruct (mexec_stmt _ _ _ _ _); cbn [mbind]; auto.
Qed.

Lemma mexec_one root fuel a env sz : mexec root fuel [a] env sz = mexec_stmt root fuel a env sz.
Proof. cbn [mexec]; destruct (mexec_stmt _ _ _ _ _); reflexivity. Qed.

Definition zsum (l : list Z) : Z := fold_right Z.add 0 l.

Section Loops.
Variable root : val.
Variable fuel : nat.

Lemma mexec_go body env : (fix go (b : list mstmt) (sz : option Z) : mout :=
                           match b with
                           | [] => MOk sz
                           | a :: r => mbind (mexec_stmt root fuel a env sz) (go r)
                           end) body = fun sz => mexec root fuel body env sz.
Proof. induction body as [|a r IH]; cbn [mexec]; [reflexivity|now rewrite IH]. Qed.

Lemma mexec_each x q body env sz :
  mexec_stmt root fuel (MForEach x q body) env sz =
  match meval root env q with
  | Some (VList l) =>
      (fix loop (l : list val) (sz : option Z) : mout :=
         match l with
         | [] => MOk sz
         | v :: r => mbind (mexec root fuel body (dict_set x v env) sz) (loop r)
         end) l sz
  | _ => MStuck
  end.
Proof.
  cbn [mexec_stmt]; destruct (meval root env q) as [[| | |l| |]|]; try reflexivity.
  revert sz; induction l as [|v r IH]; intro sz; [reflexivity|].
  rewrite mexec_go; destruct (mexec _ _ _ _ _); cbn [mbind]; auto.
Qed.

Lemma mexec_idx i q body env sz :
  mexec_stmt root fuel (MForIdx i q body) env sz =
  (fix loop (k : nat) (j : Z) (sz : option Z) : mout :=
     match k with
     | O => MNoFuel
     | S k' =>
         match meval root (dict_set i (VInt j) env) q with
         | Some (VList l) =>
             if j <? Z.of_nat (List.length l) then
               mbind (mexec root fuel body (dict_set i (VInt j) env) sz) (loop k' (j + 1))
             else MOk sz
         | _ => MStuck
         end
     end) fuel 0 sz.
Proof.
  cbn [mexec_stmt].
  generalize 0 at 1 2; generalize fuel at 2 4; intro k; revert sz.
  induction k as [|k IH]; intros sz j; [reflexivity|].
  destruct (meval root (dict_set i (VInt j) env) q) as [[| | |l| |]|]; try reflexivity.
  destruct (j <? Z.of_nat (List.length l)); [|reflexivity].
  rewrite mexec_go; destruct (mexec _ _ _ _ _); cbn [mbind]; auto.
Qed.

Lemma mfor_ok L q b env l cost z :
  meval root env q = Some (VList l) ->
  (forall i, L = LIdx i -> ~ In i (mvars q)) ->
  (List.length l < fuel)%nat ->
  Forall2 (fun v c => forall env' z, meval root env' (elem_of L q) = Some v ->
             mexec root fuel b env' (Some z) = MOk (Some (z + c))) l cost ->
  mexec_stmt root fuel (mfor L q (fun _ => b)) env (Some z) = MOk (Some (z + zsum cost)).
Proof.
  intros E FR LF F; destruct L as [i|x]; cbn [mfor elem_of] in *.
  - rewrite mexec_idx.
    specialize (FR i eq_refl).
    assert (G : forall pre post costs z k, l = pre ++ post -> (List.length post < k)%nat ->
      Forall2 (fun v c => forall env' z, meval root env' (MElem q i) = Some v ->
             mexec root fuel b env' (Some z) = MOk (Some (z + c))) post costs ->
      (fix loop (k : nat) (j : Z) (sz : option Z) : mout :=
       match k with
       | O => MNoFuel
       | S k' =>
           match meval root (dict_set i (VInt j) env) q with
           | Some (VList l) =>
               if j <? Z.of_nat (List.length l) then
                 mbind (mexec root fuel b (dict_set i (VInt j) env) sz) (loop k' (j + 1))
               else MOk sz
           | _ => MStuck
           end
       end) k (Z.of_nat (List.length pre)) (Some z) = MOk (Some (z + zsum costs))).
    { intros pre post; revert pre; induction post as [|v post IH]; intros pre costs z0 k EL LK FF;
        inversion FF as [|? c ? cs FV FT]; subst; clear FF; (destruct k as [|k]; [cbn in LK; lia|]);
        rewrite (meval_fresh root env i _ q FR), E, app_length.
      - cbn [List.length zsum fold_right].
        replace (Z.of_nat (List.length pre) <? _) with false by lia.
        now rewrite Z.add_0_r.
      - cbn [List.length].
        replace (Z.of_nat (List.length pre) <? _) with true by lia.
        rewrite (FV (dict_set i (VInt (Z.of_nat (List.length pre))) env) z0).
        2:{ cbn [meval]; rewrite (meval_fresh root env i _ q FR), E.
            unfold IR.index; rewrite lookup_dict_set_eq, app_length; cbn [List.length].
            replace ((0 <=? Z.of_nat (List.length pre)) && (Z.of_nat (List.length pre) <? Z.of_nat (List.length pre + S (List.length post)))) with true
              by (symmetry; apply andb_true_iff; split; lia).
            rewrite Nat2Z.id, nth_error_app2, Nat.sub_diag by lia; reflexivity. }
        cbn [mbind].
        specialize (IH (pre ++ [v]) cs (z0 + c) k).
        rewrite <- app_assoc in IH; cbn [app] in IH.
        rewrite app_length in IH; cbn [List.length] in IH, LK.
        replace (Z.of_nat (List.length pre) + 1) with (Z.of_nat (List.length pre + 1)) by lia.
        rewrite IH; [|reflexivity|lia|exact FT].
        cbn [zsum fold_right]; fold (zsum cs); do 2 f_equal; lia. }
    apply (G [] l cost z fuel eq_refl LF F).
  - rewrite mexec_each, E; clear E LF FR.
    revert z; induction F as [|v c l cs FV FT IH]; intro z.
    + cbn; now rewrite Z.add_0_r.
    + rewrite FV by (cbn [meval]; apply lookup_dict_set_eq).
      cbn [mbind]; rewrite IH; cbn [zsum fold_right]; fold (zsum cs); do 2 f_equal; lia.
Qed.
End Loops.

Lemma nodes_pos v : (0 < val_nodes v)%nat.
Proof. destruct v; cbn; lia. Qed.

Lemma nodes_list l : (List.length l < val_nodes (VList l))%nat.
Proof.
  cbn; apply Nat.lt_succ_r; induction l as [|v l IH]; cbn; [lia|].
  pose proof (nodes_pos v); lia.
Qed.

Lemma nodes_elem v l : In v l -> (val_nodes v < val_nodes (VList l))%nat.
Proof.
  cbn; induction l as [|a l IH]; cbn; [easy|].
  intros [->|I]; [lia|]; specialize (IH I); lia.
Qed.

Lemma nodes_field n v fs : In (n, v) fs -> (val_nodes v < val_nodes (VStruct fs))%nat.
Proof.
  cbn; induction fs as [|[m a] fs IH]; cbn; [easy|].
  intros [E|I]; [injection E as -> ->; lia|]; specialize (IH I); lia.
Qed.

Lemma wire_elems_each md p t vs bs : wire_elems md p t vs bs ->
  exists bss, Forall2 (wire_in md p t) vs bss /\ bs = List.concat bss.
Proof.
  induction 1 as [t|t v vs a b WV _ (bss & F & ->)]; [now exists []|].
  exists (a :: bss); split; [now constructor|reflexivity].
Qed.

Lemma zsum_lengths (bss : list (list byte)) :
  zsum (map (fun b => Z.of_nat (List.length b)) bss) = Z.of_nat (List.length (List.concat bss)).
Proof. induction bss; cbn; [reflexivity|]; rewrite app_length; fold (zsum (map (fun b => Z.of_nat (List.length b)) bss)); lia. Qed.

Section Measure.
Variable S : style.
Variable p : protocol.
Hypothesis W : WF p.
Variable md : mode.

(** [loop_at lvl t i]: the size computation of [t] at level [lvl] contains an
    index loop over variable [i]. *)
Inductive loop_at : nat -> string -> string -> Prop :=
| la_strs lvl t s m i : declares p t s -> In m (s_members s) -> v_list m = true ->
    v_type m = "string"%string -> st_strs S lvl (v_name m) = LIdx i -> loop_at lvl t i
| la_loop lvl t s m i : declares p t s -> In m (s_members s) -> v_list m = true ->
    is_simple p (v_type m) = false ->
    st_loop S lvl (v_name m) = LIdx i -> loop_at lvl t i
| la_list lvl t s m i : declares p t s -> In m (s_members s) -> v_list m = true ->
    loop_at (1 + lvl) (v_type m) i -> loop_at lvl t i
| la_one lvl t s m i : declares p t s -> In m (s_members s) -> v_list m = false ->
    loop_at (st_deeper S + lvl) (v_type m) i -> loop_at lvl t i.

Definition loop_var (l : mloop) : string := match l with LIdx i => i | LEach x => x end.

(** No index loop sits inside a loop over the same variable. *)
Definition no_shadow : Prop :=
  forall lvl t s m i, declares p t s -> In m (s_members s) -> v_list m = true ->
    loop_var (st_loop S lvl (v_name m)) = i -> ~ loop_at (1 + lvl) (v_type m) i.
Hypothesis SHADOW : no_shadow.

(** What the style measures for a plain string is its number of bytes. *)
Definition plain (v : val) : Prop :=
  st_utf16 S = true -> strings (fun s => utf16_length s = List.length s) v.

Lemma plain_field n v fs : plain (VStruct fs) -> In (n, v) fs -> plain v.
Proof. intros P I U; specialize (P U); inversion P; eauto. Qed.
Lemma plain_elem v l : plain (VList l) -> In v l -> plain v.
Proof. intros P I U; specialize (P U); inversion P; eauto. Qed.

Definition measured (lvl : nat) (t : string) (acc : mpath) (lines : list mstmt) (accum : Z) : Prop :=
  0 <= accum /\ lines <> [] /\
  forall root env fuel fs bs sz,
    wire_in md p t (VStruct fs) bs -> plain (VStruct fs) ->
    meval root env acc = Some (VStruct fs) ->
    (val_nodes (VStruct fs) < fuel)%nat ->
    (forall i, loop_at lvl t i -> ~ In i (mvars acc)) ->
    mexec root fuel lines env (Some sz) = MOk (Some (sz + Z.of_nat (List.length bs) - accum)).

Lemma num_size_of_size t k : num_of t = Some k -> num_size_of t = Z.of_nat (num_size k).
Proof. intro H; unfold num_size_of; now rewrite (num_of_size t k H). Qed.

Lemma wire_size_length t n bs : wire_size md t n bs -> Z.of_nat (List.length bs) = num_size_of t.
Proof.
  intros (k & K & N); rewrite (num_size_of_size t k K); inversion N; subst; congruence.
Qed.

Lemma num_size_of_nonneg t : 0 <= num_size_of t.
Proof.
  unfold num_size_of; destruct (lookup t NUMERIC_TYPE_SIZES) eqn:E; [|lia].
  apply lookup_In in E; cbn in E.
  repeat (destruct E as [E|E]; [injection E as <- <-; lia|]); easy.
Qed.

Lemma fixed_nonneg :
  (forall t n, fixed_size p t n -> 0 <= n) /\ (forall ms n, fixed_members p ms n -> 0 <= n).
Proof.
  apply (fixed_mutind p (fun t n _ => 0 <= n) (fun ms n _ => 0 <= n)); intros; try lia.
  all: match goal with H : base_size _ _ |- _ => unfold base_size in H; cbn [In] in H end.
  all: repeat match goal with H : _ \/ _ |- _ => destruct H as [H|H]; [injection H; intros; lia|] end; easy.
Qed.

Lemma size_of_nonneg t : known_type p t -> is_simple p t = true -> 0 <= size_of p t.
Proof. intros K I; eapply (proj1 fixed_nonneg), (is_simple_fixed p t W K I). Qed.

Lemma member_known t s m : declares p t s -> In m (s_members s) -> known_type p (v_type m).
Proof. intros D I; left; exact (wf_member_types p W t s m D I). Qed.

Section Members.
Variable lvl : nat.
Variable t : string.
Variable s : struct.
Variable acc : mpath.
Variable rec : nat -> struct -> mpath -> option (list mstmt * Z).
Hypothesis D : declares p t s.
Hypothesis REC : forall m, In m (s_members s) -> is_simple p (v_type m) = false -> v_type m <> "string"%string ->
  exists s', lookup (v_type m) (p_structs p) = Some s' /\
    forall lvl' acc', exists lines accum, rec lvl' s' acc' = Some (MInit :: lines, accum) /\
      measured lvl' (v_type m) acc' lines accum.

Lemma member_measured m : In m (s_members s) ->
  exists ml ma,
    (forall r l0 a0, measure_members S p rec lvl acc (m :: r) l0 a0 =
                     measure_members S p rec lvl acc r (l0 ++ ml) (a0 + ma)) /\
    0 <= ma /\ (v_list m = true \/ is_simple p (v_type m) = false -> ml <> []) /\
    forall root env fuel all v bs sz,
      wire_member md p m v bs -> plain (VStruct all) -> In (v_name m, v) all ->
      lookup (v_name m) all = Some v ->
      meval root env acc = Some (VStruct all) ->
      (val_nodes (VStruct all) < fuel)%nat ->
      (forall i, loop_at lvl t i -> ~ In i (mvars acc)) ->
      mexec root fuel ml env (Some sz) = MOk (Some (sz + Z.of_nat (List.length bs) - ma)).
Proof.
  intro I; pose proof (member_known t s m D I) as K.
  cbn [measure_members]; destruct (v_list m) eqn:L.
  - pose proof (num_size_of_nonneg (p_list_size_type p)) as N0.
    destruct (is_simple p (v_type m)) eqn:SI.
    + exists [MAddLen (MField acc (v_name m)) (size_of p (v_type m))], (num_size_of (p_list_size_type p)).
      split; [reflexivity|]; split; [exact N0|]; split; [discriminate|].
      intros root env fuel all v bs sz Wm P IA LU E F SH.
      inversion Wm as [|? vs lb bs' _ WS WE]; subst; [congruence|].
      rewrite mexec_one; cbn [mexec_stmt meval]; rewrite E, LU; cbn [grow].
      pose proof (proj2 (proj2 (proj2 (wire_fixed_size md p W))) _ _ _ WE _ (is_simple_fixed p _ W K SI)) as EL.
      rewrite app_length; pose proof (wire_size_length _ _ _ WS) as EB.
      do 2 f_equal; lia.
    + destruct (String.eqb_spec (v_type m) "string") as [ST|NS].
      * eexists [_], (num_size_of (p_list_size_type p)).
        split; [reflexivity|]; split; [exact N0|]; split; [discriminate|].
        intros root env fuel all v bs sz Wm P IA LU E F SH.
        inversion Wm as [|? vs lb bs' _ WS WE]; subst; [congruence|].
        rewrite mexec_one.
        destruct (wire_elems_each _ _ _ _ _ WE) as (bss & F2 & ->).
        pose proof (nodes_field _ _ _ IA) as NF; pose proof (nodes_list vs) as NL.
        rewrite app_length; pose proof (wire_size_length _ _ _ WS) as EB.
        set (L' := st_strs S lvl (v_name m)).
        change (mfor L' (MField acc (v_name m)) (fun e => [MAddStr e (num_size_of (p_string_size_type p))]))
          with (mfor L' (MField acc (v_name m)) (fun _ => [MAddStr (elem_of L' (MField acc (v_name m))) (num_size_of (p_string_size_type p))])).
        replace (mfor L' (MField acc (v_name m)) (fun e => [MAddStr e (num_size_of (p_string_size_type p))]))
          with (mfor L' (MField acc (v_name m)) (fun _ => [MAddStr (elem_of L' (MField acc (v_name m))) (num_size_of (p_string_size_type p))]))
          by (destruct L'; reflexivity).
        rewrite (mfor_ok root fuel L' _ _ _ vs (map (fun b => Z.of_nat (List.length b)) bss)).
        -- rewrite zsum_lengths; do 2 f_equal; lia.
        -- cbn [meval]; now rewrite E, LU.
        -- intros i EL; cbn [mvars]; apply SH; eapply la_strs; eauto.
        -- lia.
        -- rewrite ST in F2; clear - F2 W; induction F2 as [|v b vs bss WV _ IH]; cbn [map]; constructor; [|exact IH].
           intros env' z EV.
           destruct (wire_str_inv md p W v b WV) as (sv & lb & -> & -> & WS).
           rewrite mexec_one; cbn [mexec_stmt]; rewrite EV; cbn [grow].
           rewrite app_length; pose proof (wire_size_length _ _ _ WS); do 2 f_equal; lia.
      * destruct (REC m I SI NS) as (s' & LS & RC).
        destruct (RC (1 + lvl)%nat (elem_of (st_loop S lvl (v_name m)) (MField acc (v_name m)))) as (cl & ca & ER & CA & CN & CM).
        rewrite LS, ER; cbn [drop_init].
        eexists [_], (num_size_of (p_list_size_type p)).
        split; [reflexivity|]; split; [exact N0|]; split; [discriminate|].
        intros root env fuel all v bs sz Wm P IA LU E F SH.
        inversion Wm as [|? vs lb bs' _ WS WE]; subst; [congruence|].
        rewrite mexec_one.
        destruct (wire_elems_each _ _ _ _ _ WE) as (bss & F2 & ->).
        pose proof (nodes_field _ _ _ IA) as NF; pose proof (nodes_list vs) as NL.
        rewrite app_length; pose proof (wire_size_length _ _ _ WS) as EB.
        set (L' := st_loop S lvl (v_name m)) in *.
        rewrite (mfor_ok root fuel L' _ _ _ vs (map (fun b => Z.of_nat (List.length b)) bss)).
        -- rewrite zsum_lengths; do 2 f_equal; lia.
        -- cbn [meval]; now rewrite E, LU.
        -- intros i EL; cbn [mvars]; apply SH; eapply la_loop; eauto.
        -- lia.
        -- assert (PV : forall v, In v vs -> plain v /\ (val_nodes v < fuel)%nat).
           { intros v Iv; split; [eapply plain_elem; [eapply plain_field|]; eauto|].
             pose proof (nodes_elem v vs Iv); lia. }
           clear WE WS EB NL NF LU IA Wm.
           induction F2 as [|v b vs bss WV F2 IH]; cbn [map]; constructor;
             [|apply IH; intros; apply PV; now right].
           destruct (PV v (or_introl eq_refl)) as [Pv Nv].
           intros env' z EV.
           apply lookup_In in LS.
           destruct (wire_struct_inv md p W (v_type m) s' v b (or_introl LS) WV) as (fs & -> & WM).
           rewrite mexec_app, (CM root env' fuel fs b z WV Pv EV Nv); cbn [mbind].
           ++ rewrite mexec_one; cbn [mexec_stmt grow]; do 2 f_equal; lia.
           ++ intros i LA II.
              assert (NI : ~ In i (mvars acc)) by (apply SH; eapply la_list; eauto).
              assert (NL : loop_var L' <> i)
                by (intro EL; exact (SHADOW _ _ _ _ _ D I L EL LA)).
              destruct L' as [j|x] eqn:EL; cbn [elem_of mvars In loop_var] in II, NL; tauto.
  - destruct (is_simple p (v_type m)) eqn:SI.
    + exists [], (size_of p (v_type m)).
      split; [intros; now rewrite app_nil_r|]; split; [now apply size_of_nonneg|]; split; [intros [?|?]; discriminate|].
      intros root env fuel all v bs sz Wm P IA LU E F SH.
      inversion Wm as [? ? ? _ WI|]; subst; [|congruence].
      pose proof (proj1 (wire_fixed_size md p W) _ _ _ WI _ (is_simple_fixed p _ W K SI)) as EL.
      cbn [mexec]; do 2 f_equal; lia.
    + destruct (String.eqb_spec (v_type m) "string") as [ST|NS].
      * eexists [_], (num_size_of (p_string_size_type p)).
        split; [reflexivity|]; split; [apply num_size_of_nonneg|]; split; [discriminate|].
        intros root env fuel all v bs sz Wm P IA LU E F SH.
        inversion Wm as [? ? ? _ WI|]; subst; [|congruence].
        rewrite ST in WI; destruct (wire_str_inv md p W v bs WI) as (sv & lb & -> & -> & WS).
        rewrite mexec_one, app_length; pose proof (wire_size_length _ _ _ WS).
        pose proof (plain_field _ _ _ P IA) as PS; unfold plain in PS.
        destruct (st_utf16 S); cbn [mexec_stmt meval]; rewrite E, LU; cbn [grow].
        -- specialize (PS eq_refl); inversion PS; subst; do 2 f_equal; lia.
        -- do 2 f_equal; lia.
      * destruct (REC m I SI NS) as (s' & LS & RC).
        destruct (RC (st_deeper S + lvl)%nat (MField acc (v_name m))) as (cl & ca & ER & CA & CN & CM).
        rewrite LS, ER; cbn [drop_init].
        exists cl, ca.
        split; [reflexivity|]; split; [exact CA|]; split; [intros _; exact CN|].
        intros root env fuel all v bs sz Wm P IA LU E F SH.
        inversion Wm as [? ? ? _ WI|]; subst; [|congruence].
        apply lookup_In in LS.
        destruct (wire_struct_inv md p W (v_type m) s' v bs (or_introl LS) WI) as (fs & -> & WM).
        apply CM with (fs := fs); auto.
        -- eapply plain_field; eauto.
        -- cbn [meval]; now rewrite E, LU.
        -- pose proof (nodes_field _ _ _ IA); lia.
        -- intros i LA; cbn [mvars]; apply SH; eapply la_one; eauto.
Qed.

Lemma members_measured ms : incl ms (s_members s) ->
  forall l0 a0, exists lines accum,
    measure_members S p rec lvl acc ms l0 a0 = Some (l0 ++ lines, a0 + accum) /\
    0 <= accum /\
    ((exists m, In m ms /\ (v_list m = true \/ is_simple p (v_type m) = false)) -> lines <> []) /\
    forall root env fuel all fs bs sz,
      wire_members md p ms fs bs -> plain (VStruct all) -> incl fs all -> NoDup (map fst all) ->
      meval root env acc = Some (VStruct all) ->
      (val_nodes (VStruct all) < fuel)%nat ->
      (forall i, loop_at lvl t i -> ~ In i (mvars acc)) ->
      mexec root fuel lines env (Some sz) = MOk (Some (sz + Z.of_nat (List.length bs) - accum)).
Proof.
  induction ms as [|m ms IH]; intros INC l0 a0.
  - exists [], 0; rewrite app_nil_r, Z.add_0_r; split; [reflexivity|]; split; [lia|]; split.
    + intros (m & [] & _).
    + intros root env fuel all fs bs sz WM; inversion WM; subst; intros; cbn; do 2 f_equal; lia.
  - destruct (member_measured m (INC m (or_introl eq_refl))) as (ml & ma & EM & MA & MN & MM).
    destruct (IH (fun x Ix => INC x (or_intror Ix)) (l0 ++ ml) (a0 + ma)) as (lines & accum & ER & AA & AN & AM).
    exists (ml ++ lines), (ma + accum).
    split; [rewrite EM, ER, app_assoc, Z.add_assoc; reflexivity|].
    split; [lia|].
    split.
    + intros (m' & [<-|I] & V) EN; apply app_eq_nil in EN as [E1 E2]; [now apply MN in V|].
      apply AN in E2; eauto.
    + intros root env fuel all fs bs sz WM P IN ND E F SH.
      inversion WM as [|? ? v fs' a b Wm WMs]; subst.
      rewrite mexec_app, (MM root env fuel all v a sz Wm P); auto.
      * cbn [mbind]; rewrite (AM root env fuel all fs' b _ WMs P); auto.
        -- rewrite app_length; do 2 f_equal; lia.
        -- intros x Ix; apply IN; now right.
      * apply IN; now left.
      * apply In_lookup; [exact ND|apply IN; now left].
Qed.
End Members.

Lemma measure_ok d : forall lvl t s acc, declares p t s -> fits_any p d t = true -> is_simple p t = false ->
  exists lines accum, measure S p d lvl s acc = Some (MInit :: lines, accum) /\
    measured lvl t acc lines accum.
Proof.
  induction d as [d IH] using lt_wf_ind; intros lvl t s acc D F SI.
  destruct (fits_any_members p d t s W D F) as (d' & -> & FM).
  assert (EN : s_name s = t) by (destruct D as [D|D]; [apply (wf_struct_entry p W) in D|apply (wf_message_entry p W) in D]; tauto).
  destruct (members_measured lvl t s acc (measure S p d') D) with (ms := s_members s) (l0 := @nil mstmt) (a0 := 0)
    as (lines & accum & E & A & N & M).
  - intros m I SM NS.
    destruct (wf_member_types p W t s m D I) as [B|[B|[[s' B]|[e B]]]].
    + assert (is_simple p (v_type m) = true); [|congruence].
      apply num_of_base in B as [k K].
      apply fixed_is_simple with (n := Z.of_nat (num_size k)); auto.
      * left; left; apply num_of_base; eauto.
      * constructor; now apply num_of_base_size.
    + contradiction.
    + exists s'; split; [now apply In_lookup; [exact (wf_structs_nodup p W)|]|].
      intros lvl' acc'; eapply IH; [lia|now left|auto|exact SM].
    + assert (is_simple p (v_type m) = true); [|congruence].
      destruct (enum_encoding_num p W (v_type m) e B) as (k & K & _).
      apply fixed_is_simple with (n := Z.of_nat (num_size k)); auto.
      * left; right; right; right; exists e; exact B.
      * eapply fs_enum; [exact B|]; now apply num_of_base_size.
  - apply incl_refl.
  - cbn [measure]; rewrite EN, SI, E; exists lines, accum; split; [reflexivity|].
    split; [exact A|]; split.
    + apply N.
      assert (K : known_type p t) by (destruct D as [D|D]; [left; right; right; left|right]; eexists; eassumption).
      pose proof (is_simple_variable p t W K SI) as V.
      inversion V as [|? s0 m D0 I L|? s0 m D0 I V']; subst.
      * exfalso; destruct (declares_names p _ s W D) as (_ & Q & _); now apply Q.
      * rewrite (declares_unique p _ _ _ W D D0); eauto.
      * rewrite (declares_unique p _ _ _ W D D0); exists m; split; [exact I|right].
        destruct (is_simple_spec p (v_type m) W (member_known _ _ _ D0 I)) as [[E1 E2]|[E1 E2]]; [|exact E1].
        exfalso; revert V'; eapply (proj1 (variable_not_known_fixed p W)); eauto.
    + intros root env fuel fs bs sz Wi P EV FU SH.
      destruct (wire_struct_inv md p W t s _ bs D Wi) as (fs' & EF & WM); injection EF as <-.
      apply M with (all := fs) (fs := fs); auto.
      * apply incl_refl.
      * rewrite (wire_members_names _ _ _ _ _ WM); exact (wf_member_nodup p W t s D).
Qed.

(** The size method returns the length of the encoding. *)
Lemma size_ok_gen lvl t s v bs : declares p t s -> wire_in md p t v bs -> plain v ->
  size_with S p lvl t v = MRet (Z.of_nat (List.length bs)).
Proof.
  intros D Wi P; unfold size_with; rewrite (find_declares p W t s D); unfold gen_size.
  assert (EN : s_name s = t) by (destruct D as [D|D]; [apply (wf_struct_entry p W) in D|apply (wf_message_entry p W) in D]; tauto).
  destruct (is_simple p t) eqn:SI.
  - unfold depth_of at 1; cbn [measure]; rewrite EN, SI; cbn.
    do 2 f_equal; symmetry.
    assert (K : known_type p t) by (destruct D as [D|D]; [left; right; right; left|right]; eexists; eassumption).
    eapply (proj1 (wire_fixed_size md p W)); [exact Wi|now apply is_simple_fixed].
  - destruct (measure_ok (depth_of p) lvl t s MRoot D (WF_fits_any p t W) SI) as (lines & accum & E & A & N & M).
    rewrite E.
    destruct (wire_struct_inv md p W t s _ bs D Wi) as (fs & -> & WM).
    change (MInit :: lines) with ([MInit] ++ lines); rewrite <- app_assoc, mexec_app.
    change (mexec (VStruct fs) (Datatypes.S (val_nodes (VStruct fs))) [MInit] [] None) with (MOk (Some 0)).
    cbn [mbind]; rewrite mexec_app, (M (VStruct fs) [] (Datatypes.S (val_nodes (VStruct fs))) fs bs 0 Wi P eq_refl).
    + cbn [mbind].
      replace (1 <? List.length ([MInit] ++ lines))%nat with true
        by (destruct lines; [congruence|reflexivity]).
      destruct (accum >? 0) eqn:G; cbn [app mexec mexec_stmt mbind grow]; do 2 f_equal; lia.
    + lia.
    + intros i _ [].
Qed.
End Measure.
