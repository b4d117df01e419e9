(** Executing the statements of generated writers. *)
From Verif Require Export ReaderFacts.
Open Scope list_scope.

Lemma wbind_assoc o f g : wbind (wbind o f) g = wbind o (fun w => wbind (f w) g).
Proof. destruct o; reflexivity. Qed.
Lemma wbind_done o : wbind o WDone = o.
Proof. destruct o; reflexivity. Qed.
Lemma wbind_ext o f g : (forall w, f w = g w) -> wbind o f = wbind o g.
Proof. intro H; destruct o; cbn; auto. Qed.

Section Puts.
Variable T : wt.

(** Writing pieces one after the other. *)
Fixpoint puts (cs : list (list byte)) (w : wstate) : wout :=
  match cs with [] => WDone w | c :: r => wbind (wt_put T c w) (puts r) end.

Lemma puts_app a b w : puts (a ++ b) w = wbind (puts a w) (puts b).
Proof.
  revert w; induction a as [|c a IH]; intro w; cbn [puts List.app]; [reflexivity|].
  rewrite wbind_assoc; apply wbind_ext, IH.
Qed.

(** [f] writes the bytes [bs], in some pieces. *)
Definition writes (f : wstate -> wout) (bs : list byte) : Prop :=
  exists cs, List.concat cs = bs /\ forall w, f w = puts cs w.

Lemma writes_nil : writes WDone [].
Proof. exists []; auto. Qed.

Lemma writes_put c : writes (wt_put T c) c.
Proof. exists [c]; split; [cbn; apply app_nil_r|intro w; cbn; now rewrite wbind_done]. Qed.

Lemma writes_bind f g a b : writes f a -> writes g b -> writes (fun w => wbind (f w) g) (a ++ b).
Proof.
  intros (ca & Ea & Fa) (cb & Eb & Fb); exists (ca ++ cb); split.
  - now rewrite concat_app, Ea, Eb.
  - intro w; rewrite puts_app, Fa; apply wbind_ext, Fb.
Qed.

Lemma writes_ext f g bs : (forall w, f w = g w) -> writes g bs -> writes f bs.
Proof. intros E (cs & C & G); exists cs; split; [assumption|intro w; rewrite E; apply G]. Qed.
End Puts.

(** ** Numbers and lengths *)

Lemma wire_num_bytes k v bs : wire_num strict k v bs -> num_bytes k v = Some bs.
Proof.
  intro H; inversion H; subst.
  - assert (E : le_bytes (num_size k) z = bs).
    { apply le_val_inj; [rewrite le_bytes_length; congruence|rewrite le_val_le_bytes; congruence]. }
    destruct k; cbn [num_bytes]; congruence.
  - reflexivity.
  - cbn in H0; now subst.
Qed.

Lemma wire_int_bytes k z bs : wire_num strict k (VInt z) bs -> le_bytes (num_size k) z = bs.
Proof. intro H; apply wire_num_bytes in H; destruct k; cbn [num_bytes] in H; congruence. Qed.

Lemma wire_int_wrap md k z bs : wire_num md k (VInt z) bs -> wrap_num k z = z.
Proof.
  intro H; unfold wrap_num.
  assert (N : wire_num reading k (VInt z) (le_bytes (num_size k) z)).
  { inversion H; subst; constructor; auto; [apply le_bytes_length|apply le_val_le_bytes]. }
  apply num_val_spec in N as [_ E]; now rewrite <- E.
Qed.

(** ** Sequences of statements *)

Section WExec.
Variable T : wt.
Variable p : protocol.
Variable call : string -> val -> wstate -> wout.

Notation wexec := (wexec T p call).
Notation wexec_stmt := (wexec_stmt T p call).
Notation writes := (writes T).

(** The environment after a statement does not depend on the buffer. *)
Lemma wexec_stmt_env a obj env : exists env', forall w, snd (wexec_stmt a obj env w) = env'.
Proof.
  destruct a; cbn [IR.wexec_stmt];
    try (exists env; intro w; reflexivity);
    try (destruct (wfetch s obj env) as [[]|]; eexists; intro w; cbn [snd]; reflexivity).
  destruct (bound_of b obj env); exists env; intro w; reflexivity.
Qed.

Lemma wexec_app a obj env : exists env', forall b w,
  wexec (a ++ b) obj env w = wbind (wexec a obj env w) (wexec b obj env').
Proof.
  revert env; induction a as [|x a IH]; intro env; [exists env; intros; reflexivity|].
  destruct (wexec_stmt_env x obj env) as [env1 E1]; destruct (IH env1) as [env2 E2].
  exists env2; intros b w; cbn [List.app IR.wexec].
  specialize (E1 w); destruct (wexec_stmt x obj env w) as [o e]; cbn in E1; subst e.
  rewrite wbind_assoc; apply wbind_ext; intro w'; apply E2.
Qed.

Lemma wexec_one a obj env w : wexec [a] obj env w = fst (wexec_stmt a obj env w).
Proof. cbn [IR.wexec]; destruct (wexec_stmt a obj env w); apply wbind_done. Qed.

Lemma wexec_cons a b obj env w :
  wexec (a :: b) obj env w = wbind (fst (wexec_stmt a obj env w)) (wexec b obj (snd (wexec_stmt a obj env w))).
Proof. cbn [IR.wexec]; now destruct (wexec_stmt a obj env w). Qed.

(** The body of a loop is a sequence. *)
Lemma body_wexec body obj env w :
  (fix go (l : list wstmt) (env : wenv) (w : wstate) : wout :=
     match l with
     | [] => WDone w
     | a :: r => let '(o, env') := wexec_stmt a obj env w in wbind o (go r env')
     end) body env w = wexec body obj env w.
Proof.
  revert env w; induction body as [|a l IH]; intros env w; [reflexivity|].
  cbn [IR.wexec]; destruct (wexec_stmt a obj env w) as [o e]; destruct o; cbn [wbind]; auto.
Qed.

Fixpoint each (x : string) (body : list wstmt) (obj : list (string * val)) (env : wenv) (l : list val) (w : wstate) : wout :=
  match l with
  | [] => WDone w
  | v :: r => wbind (wexec body obj (dict_set x v env) w) (each x body obj env r)
  end.

Lemma wexec_foreach x s body obj env w l : wfetch s obj env = Some (VList l) ->
  wexec_stmt (WForEach x s body) obj env w = (each x body obj env l w, env).
Proof.
  intro F; cbn [IR.wexec_stmt]; rewrite F; f_equal; clear F; revert w; induction l as [|v l IH]; intro w; [reflexivity|].
  cbn [each]; rewrite body_wexec; apply wbind_ext, IH.
Qed.

Fixpoint upto (i : string) (body : list wstmt) (obj : list (string * val)) (env : wenv) (k : nat) (j : Z) (w : wstate) : wout :=
  match k with
  | O => WDone w
  | S k' => wbind (wexec body obj (dict_set i (VInt j) env) w) (upto i body obj env k' (j + 1))
  end.

Lemma wexec_foridx i b body obj env w z : bound_of b obj env = Some z ->
  wexec_stmt (WForIdx i b body) obj env w = (upto i body obj env (Z.to_nat z) 0 w, env).
Proof.
  intro F; cbn [IR.wexec_stmt]; rewrite F; f_equal; generalize (Z.to_nat z), 0, w; clear.
  induction n as [|k IH]; intros j w; [reflexivity|].
  cbn [upto]; rewrite body_wexec; apply wbind_ext, IH.
Qed.

(** ** Values *)

Variable fuel : nat.
Hypothesis W : WF p.
(** The string writer uses the right size type (it matters only for strings). *)
Definition len_as (t : string) : Prop := t = "string"%string -> wt_strlen T p = p_string_size_type p.
Definition wcall_ok : Prop := forall t s v bs, declares p t s -> fits_any p fuel t = true ->
  wire p t v bs -> writes (call t v) bs.
Hypothesis CALL : wcall_ok.

Lemma put_len_ok k n lb w : wire_num strict k (VInt (Z.of_nat n)) lb -> put_len T k n w = wt_put T lb w.
Proof.
  intro N; unfold put_len; rewrite (wire_int_bytes _ _ _ N).
  replace (len_fits k n) with true; [now rewrite andb_false_r|].
  symmetry; unfold len_fits; apply andb_true_iff.
  apply wire_num_vint in N; rewrite !Z.leb_le; lia.
Qed.

Lemma writes_str v bs : wt_strlen T p = p_string_size_type p -> wire p "string" v bs -> writes (put_str T p v) bs.
Proof.
  intros STR H; apply (wire_str_inv _ p W) in H as (s & lb & -> & -> & (k & K & N)).
  eapply writes_ext with (g := fun w => wbind (wt_put T lb w) (wt_put T s)).
  - intro w; unfold put_str; rewrite STR, K, (put_len_ok _ _ _ _ N); reflexivity.
  - apply writes_bind; apply writes_put.
Qed.

Lemma writes_num k v bs : wire_num strict k v bs -> writes (put_num T k v) bs.
Proof.
  intro H; apply wire_num_bytes in H.
  eapply writes_ext; [intro w; unfold put_num; rewrite H; reflexivity|apply writes_put].
Qed.

(** The statement for a value of type [t] found at [s]. *)
Definition wone (s : src) (t : string) : list wstmt :=
  match num_of t with
  | Some k => [WNum k s]
  | None =>
      if String.eqb t "string" then [WStr s]
      else match enum_num p t with Some k => [WNum k s] | None => [WCall t s] end
  end.

Lemma writes_one s t v bs obj env : len_as t -> wfetch s obj env = Some v -> declared_type p t ->
  fits_any p fuel t = true -> wire p t v bs -> writes (wexec (wone s t) obj env) bs.
Proof.
  intros STR F DT FT WI; unfold wone, enum_num.
  destruct (num_of t) as [k|] eqn:K.
  { eapply writes_ext; [intro w; rewrite wexec_one; cbn [IR.wexec_stmt fst]; rewrite F; reflexivity|].
    apply writes_num; eapply wire_num_inv; eassumption. }
  destruct (String.eqb_spec t "string") as [->|NS].
  { eapply writes_ext; [intro w; rewrite wexec_one; cbn [IR.wexec_stmt fst]; rewrite F; reflexivity|].
    apply writes_str; [now apply STR|exact WI]. }
  destruct (lookup t (p_enums p)) as [e|] eqn:L.
  { apply lookup_In in L; apply (wire_enum_inv _ p W t e _ bs L) in WI as (k & z & -> & KE & N & _); rewrite KE.
    eapply writes_ext; [intro w; rewrite wexec_one; cbn [IR.wexec_stmt fst]; rewrite F; reflexivity|].
    now apply writes_num. }
  assert (D : exists st, declares p t st).
  { destruct DT as [B|[B|[[st B]|[e B]]]].
    - apply num_of_base in B as [k B]; congruence.
    - congruence.
    - exists st; now left.
    - apply lookup_None in L; exfalso; apply L, in_map_iff; now exists (t, e). }
  destruct D as [st D].
  eapply writes_ext; [intro w; rewrite wexec_one; cbn [IR.wexec_stmt fst]; rewrite F; reflexivity|].
  eapply CALL; eassumption.
Qed.

(** ** Lists *)

Lemma writes_each x body obj env t :
  (forall v bs, wire p t v bs -> writes (wexec body obj (dict_set x v env)) bs) ->
  forall l bs, wire_elems strict p t l bs -> writes (each x body obj env l) bs.
Proof.
  intros B l; induction l as [|v l IH]; intros bs H; inversion H; subst.
  - apply writes_nil.
  - eapply writes_ext; [intro w; reflexivity|apply writes_bind; auto].
Qed.

(** [l] from element [j] on. *)
Lemma writes_upto i body obj env t (l : list val) :
  (forall j v bs, nth_error l j = Some v -> wire p t v bs ->
     writes (wexec body obj (dict_set i (VInt (Z.of_nat j)) env)) bs) ->
  forall k j bs, (j + k = List.length l)%nat -> wire_elems strict p t (skipn j l) bs ->
    writes (upto i body obj env k (Z.of_nat j)) bs.
Proof.
  intro B; induction k as [|k IH]; intros j bs L H.
  - rewrite skipn_all2 in H by lia; inversion H; subst; apply writes_nil.
  - assert (J : (j < List.length l)%nat) by lia.
    destruct (nth_error l j) as [v|] eqn:E; [|apply nth_error_None in E; lia].
    assert (SK : skipn j l = v :: skipn (S j) l).
    { clear - E; revert l E; induction j as [|j IH]; intros [|x l] E; try discriminate; cbn in *; [congruence|now apply IH]. }
    rewrite SK in H; inversion H; subst.
    eapply writes_ext; [intro w; cbn [upto]; reflexivity|].
    apply writes_bind; [eapply B; eassumption|].
    replace (Z.of_nat j + 1) with (Z.of_nat (S j)) by lia; apply IH; [lia|assumption].
Qed.

(** ** Members *)

Definition member_writes (m : var) (code : list wstmt) : Prop :=
  forall obj env v bs, lookup (v_name m) obj = Some v -> wire_member strict p m v bs ->
    writes (wexec code obj env) bs.

Lemma member_writes_one m : len_as (v_type m) -> v_list m = false -> declared_type p (v_type m) ->
  fits_any p fuel (v_type m) = true -> member_writes m (wone (SField (v_name m)) (v_type m)).
Proof.
  intros STR VL DT FT obj env v bs L H; inversion H; subst; [|congruence].
  eapply writes_one; eassumption.
Qed.

Lemma writes_count k s obj env l lb bs body :
  wfetch s obj env = Some (VList l) -> num_of (p_list_size_type p) = Some k ->
  wire_size strict (p_list_size_type p) (List.length l) lb ->
  writes (wexec body obj env) bs ->
  writes (wexec (WCount k s :: body) obj env) (lb ++ bs).
Proof.
  intros F K (k' & K' & N) B; rewrite K in K'; injection K' as <-.
  eapply writes_ext.
  - intro w; rewrite wexec_cons; cbn [IR.wexec_stmt fst snd]; rewrite F, (put_len_ok _ _ _ _ N); reflexivity.
  - apply writes_bind; [apply writes_put|assumption].
Qed.

(** Count, then a foreach loop. *)
Lemma member_writes_each m x k : len_as (v_type m) -> v_list m = true -> declared_type p (v_type m) ->
  fits_any p fuel (v_type m) = true -> num_of (p_list_size_type p) = Some k ->
  member_writes m [WCount k (SField (v_name m)); WForEach x (SField (v_name m)) (wone (SLocal x) (v_type m))].
Proof.
  intros STR VL DT FT K obj env v bs L H; inversion H as [|? vs lb bs' VL' S E]; subst; [congruence|].
  eapply writes_count; try eassumption.
  eapply writes_ext; [intro w; rewrite wexec_one, (wexec_foreach _ (SField (v_name m)) _ obj env _ _ L); reflexivity|].
  eapply writes_each; [|eassumption].
  intros v bs WI; eapply writes_one; try eassumption; cbn; apply lookup_dict_set_eq.
Qed.

Lemma index_at env i j (l : list val) : lookup i env = Some (VInt (Z.of_nat j)) -> (j < List.length l)%nat ->
  IR.index env i (List.length l) = Some j.
Proof.
  intros L J; unfold IR.index; rewrite L.
  replace ((0 <=? Z.of_nat j) && (Z.of_nat j <? Z.of_nat (List.length l))) with true.
  - now rewrite Nat2Z.id.
  - symmetry; apply andb_true_intro; split; [apply Z.leb_le|apply Z.ltb_lt]; lia.
Qed.

(** Count, then an index loop with a local for the element. *)
Lemma member_writes_idx m i x k : len_as (v_type m) -> v_list m = true -> declared_type p (v_type m) ->
  fits_any p fuel (v_type m) = true -> num_of (p_list_size_type p) = Some k ->
  member_writes m [WCount k (SField (v_name m));
                   WForIdx i (BLen (SField (v_name m)))
                     (WLet x (SElem (v_name m) i) :: wone (SLocal x) (v_type m))].
Proof.
  intros STR VL DT FT K obj env v bs L H; inversion H as [|? vs lb bs' VL' S E]; subst; [congruence|].
  eapply writes_count; try eassumption.
  assert (BO : bound_of (BLen (SField (v_name m))) obj env = Some (Z.of_nat (List.length vs))).
  { cbn [bound_of wfetch]; now rewrite L. }
  eapply writes_ext; [intro w; rewrite wexec_one, (wexec_foridx _ _ _ _ _ _ _ BO); cbn [fst]; rewrite Nat2Z.id; reflexivity|].
  change 0 with (Z.of_nat 0); eapply (writes_upto i _ obj env (v_type m) vs); [|lia|exact E].
  intros j v bs NT WI.
  assert (FE : wfetch (SElem (v_name m) i) obj (dict_set i (VInt (Z.of_nat j)) env) = Some v).
  { cbn [wfetch]; rewrite L, (index_at _ _ j); [exact NT|apply lookup_dict_set_eq|].
    apply nth_error_Some; congruence. }
  eapply writes_ext; [intro w; rewrite wexec_cons; cbn [IR.wexec_stmt]; rewrite FE; cbn [fst snd wbind]; reflexivity|].
  eapply writes_one; try eassumption; cbn; apply lookup_dict_set_eq.
Qed.

(** Count, then an index loop that uses the element directly. *)
Lemma member_writes_elem m i k : len_as (v_type m) -> v_list m = true -> declared_type p (v_type m) ->
  fits_any p fuel (v_type m) = true -> num_of (p_list_size_type p) = Some k ->
  member_writes m [WCount k (SField (v_name m));
                   WForIdx i (BLen (SField (v_name m))) (wone (SElem (v_name m) i) (v_type m))].
Proof.
  intros STR VL DT FT K obj env v bs L H; inversion H as [|? vs lb bs' VL' S E]; subst; [congruence|].
  eapply writes_count; try eassumption.
  assert (BO : bound_of (BLen (SField (v_name m))) obj env = Some (Z.of_nat (List.length vs))).
  { cbn [bound_of wfetch]; now rewrite L. }
  eapply writes_ext; [intro w; rewrite wexec_one, (wexec_foridx _ _ _ _ _ _ _ BO); cbn [fst]; rewrite Nat2Z.id; reflexivity|].
  change 0 with (Z.of_nat 0); eapply (writes_upto i _ obj env (v_type m) vs); [|lia|exact E].
  intros j v bs NT WI; eapply writes_one; try eassumption.
  cbn [wfetch]; rewrite L, (index_at _ _ j); [exact NT|apply lookup_dict_set_eq|].
  apply nth_error_Some; congruence.
Qed.

Lemma members_write (code : var -> list wstmt) obj : forall ms,
  (forall m, In m ms -> member_writes m (code m)) ->
  forall fs bs env, (forall n v, In (n, v) fs -> lookup n obj = Some v) ->
    wire_members strict p ms fs bs -> writes (wexec (flat_map code ms) obj env) bs.
Proof.
  induction ms as [|m ms IH]; intros OK fs bs env L H; inversion H; subst; [apply writes_nil|].
  cbn [flat_map]; destruct (wexec_app (code m) obj env) as [env' E].
  eapply writes_ext; [intro w; apply E|].
  apply writes_bind.
  - eapply OK; [now left|apply L; now left|assumption].
  - eapply IH; [intros; apply OK; now right|intros; apply L; right; eassumption|assumption].
Qed.
End WExec.
#[export] Hint Extern 1 (len_as _ _ _) => intros _; reflexivity : core.

(** ** A run of generated code *)

Section WRun.
Variable T : wt.
Variable p : protocol.
Variable code : protocol -> struct -> list wstmt.
Hypothesis W : WF p.

Section Body.
Hypothesis BODY : forall call fuel t s fs bs, wcall_ok T p call fuel -> declares p t s ->
  (forall m, In m (s_members s) -> fits_any p fuel (v_type m) = true) ->
  (forall n v, In (n, v) fs -> lookup n fs = Some v) ->
  wire_members strict p (s_members s) fs bs -> writes T (wexec T p call (code p s) fs []) bs.

Lemma wrun_body fuel : wcall_ok T p (wrun T p code fuel) fuel.
Proof.
  induction fuel as [|f IH]; intros t s v bs D F WI;
    destruct (fits_any_members p _ t s W D F) as (f' & EF & FM); [discriminate|]; injection EF as <-.
  apply (wire_struct_inv _ p W t s v bs D) in WI as (fs & -> & WM).
  eapply writes_ext.
  - intro w; cbn [wrun]; rewrite (find_declares p W t s D); reflexivity.
  - eapply BODY; try eassumption.
    intros n v I; apply In_lookup; [|exact I].
    rewrite (wire_members_names _ _ _ _ _ WM); exact (wf_member_nodup p W t s D).
Qed.

Lemma write_body t s v bs : declares p t s -> wire p t v bs ->
  exists cs, List.concat cs = bs /\ forall w, write_with T code p t v w = puts T cs w.
Proof. intros D WI; apply (wrun_body (depth_of p) t s v bs D (WF_fits_any p t W) WI). Qed.
End Body.

Variable mcode : struct -> var -> list wstmt.
Hypothesis CODE : forall t s, declares p t s -> code p s = flat_map (mcode s) (s_members s).
Hypothesis MEMBER : forall call fuel t s m, wcall_ok T p call fuel -> declares p t s -> In m (s_members s) ->
  fits_any p fuel (v_type m) = true -> member_writes T p call m (mcode s m).

Lemma write_ok t s v bs : declares p t s -> wire p t v bs ->
  exists cs, List.concat cs = bs /\ forall w, write_with T code p t v w = puts T cs w.
Proof.
  apply write_body; intros call fuel t' s' fs bs' C D FM L WM; rewrite (CODE t' s' D).
  eapply members_write; [|exact L|exact WM].
  intros m IM; apply (MEMBER _ fuel t' s' m C D IM); now apply FM.
Qed.
End WRun.

(** ** Kinds of buffers *)

Lemma puts_append T cs w : wt_put T = put_append ->
  puts T cs w = WDone {| w_buf := w_buf w ++ List.concat cs; w_pos := (w_pos w + List.length (List.concat cs))%nat |}.
Proof.
  intro E; revert w; induction cs as [|c cs IH]; intro w; cbn [puts List.concat].
  - rewrite app_nil_r, Nat.add_0_r; now destruct w.
  - rewrite E; cbn [put_append wbind]; rewrite IH; cbn [w_buf w_pos].
    rewrite app_assoc, !app_length; f_equal; f_equal; lia.
Qed.

Lemma overwrite_length buf pos bs : (pos + List.length bs <= List.length buf)%nat ->
  List.length (overwrite buf pos bs) = List.length buf.
Proof. intro L; unfold overwrite; rewrite !app_length, firstn_length, skipn_length; lia. Qed.

Lemma overwrite_nil buf pos : overwrite buf pos [] = buf.
Proof. unfold overwrite; cbn; rewrite Nat.add_0_r; apply firstn_skipn. Qed.

Lemma overwrite_app buf pos a b : (pos + List.length a + List.length b <= List.length buf)%nat ->
  overwrite (overwrite buf pos a) (pos + List.length a) b = overwrite buf pos (a ++ b).
Proof.
  intro L; unfold overwrite; rewrite app_length.
  assert (LF : List.length (firstn pos buf) = pos) by (rewrite firstn_length; lia).
  rewrite !firstn_app, LF, firstn_firstn, Nat.min_r by lia.
  replace (pos + List.length a - pos)%nat with (List.length a) by lia.
  rewrite firstn_all, Nat.sub_diag; cbn [firstn]; rewrite app_nil_r.
  rewrite !skipn_app, LF.
  rewrite (skipn_all2 (firstn pos buf)) by (rewrite LF; lia).
  rewrite (skipn_all2 a) by lia; cbn [List.app].
  rewrite <- skipn_plus, <- !app_assoc; do 4 f_equal; lia.
Qed.

Lemma puts_fixed T cs w : wt_put T = put_fixed ->
  (w_pos w + List.length (List.concat cs) <= List.length (w_buf w))%nat ->
  puts T cs w = WDone {| w_buf := overwrite (w_buf w) (w_pos w) (List.concat cs);
                         w_pos := (w_pos w + List.length (List.concat cs))%nat |}.
Proof.
  intro E; revert w; induction cs as [|c cs IH]; intros w; cbn [puts List.concat]; intro L.
  - cbn; rewrite overwrite_nil, Nat.add_0_r; now destruct w.
  - rewrite app_length in L; rewrite E; unfold put_fixed.
    destruct (Nat.leb_spec (w_pos w + List.length c) (List.length (w_buf w))); [|lia]; cbn [wbind].
    rewrite IH; cbn [w_buf w_pos].
    + rewrite overwrite_app by lia; f_equal; f_equal; rewrite app_length; lia.
    + rewrite overwrite_length by lia; lia.
Qed.

(** A buffer that is too small: failure, and nothing before the starting position
    has changed. *)
Lemma puts_short T cs w : wt_put T = put_fixed ->
  (w_pos w <= List.length (w_buf w) < w_pos w + List.length (List.concat cs))%nat ->
  exists w', puts T cs w = WFail w' /\ List.length (w_buf w') = List.length (w_buf w) /\
    firstn (w_pos w) (w_buf w') = firstn (w_pos w) (w_buf w) /\
    (w_pos w <= w_pos w' <= List.length (w_buf w))%nat.
Proof.
  intro E; revert w; induction cs as [|c cs IH]; intros w; cbn [puts List.concat]; intro L.
  - cbn in L; lia.
  - rewrite app_length in L; rewrite E; unfold put_fixed.
    destruct (Nat.leb_spec (w_pos w + List.length c) (List.length (w_buf w))); cbn [wbind].
    + destruct (IH {| w_buf := overwrite (w_buf w) (w_pos w) c; w_pos := (w_pos w + List.length c)%nat |})
        as (w' & P & LB & F & PO); cbn [w_buf w_pos] in *.
      { rewrite overwrite_length by lia; lia. }
      exists w'; rewrite overwrite_length in * by lia; repeat split; try assumption; try lia.
      assert (F2 := f_equal (firstn (w_pos w)) F); rewrite !firstn_firstn, !Nat.min_l in F2 by lia.
      rewrite F2; unfold overwrite; rewrite firstn_app, firstn_firstn, Nat.min_id, firstn_length.
      replace (w_pos w - Nat.min (w_pos w) (List.length (w_buf w)))%nat with 0%nat by lia.
      cbn [firstn]; apply app_nil_r.
    + exists w; repeat split; lia.
Qed.

(** The same when crossing the end is a crash. *)
Lemma puts_checked T cs w : wt_put T = put_checked ->
  (w_pos w <= List.length (w_buf w))%nat ->
  puts T cs w =
  if (w_pos w + List.length (List.concat cs) <=? List.length (w_buf w))%nat
  then WDone {| w_buf := overwrite (w_buf w) (w_pos w) (List.concat cs);
                w_pos := (w_pos w + List.length (List.concat cs))%nat |}
  else WTrap.
Proof.
  intro E; revert w; induction cs as [|c cs IH]; intros w; cbn [puts List.concat]; intro L.
  - cbn [List.length]; rewrite overwrite_nil, Nat.add_0_r.
    destruct (Nat.leb_spec (w_pos w) (List.length (w_buf w))); [now destruct w|lia].
  - rewrite app_length, E; unfold put_checked, put_fixed.
    destruct (Nat.leb_spec (w_pos w + List.length c) (List.length (w_buf w))); cbn [wbind].
    + rewrite IH; cbn [w_buf w_pos]; rewrite overwrite_length by lia; [|lia].
      rewrite <- Nat.add_assoc.
      destruct (Nat.leb_spec (w_pos w + (List.length c + List.length (List.concat cs))) (List.length (w_buf w))); [|reflexivity].
      rewrite overwrite_app by lia; reflexivity.
    + destruct (Nat.leb_spec (w_pos w + (List.length c + List.length (List.concat cs))) (List.length (w_buf w))); [lia|reflexivity].
Qed.

(** A buffer of fixed size, from where the writer starts. *)
Lemma overwrite_exact pre old post bs : List.length old = List.length bs ->
  overwrite (pre ++ old ++ post) (List.length pre) bs = pre ++ bs ++ post.
Proof.
  intro L; unfold overwrite.
  rewrite firstn_app, firstn_all, Nat.sub_diag, app_nil_r.
  rewrite skipn_app, skipn_all2 by lia; cbn [app].
  rewrite skipn_app, skipn_all2 by lia; cbn [app].
  replace (List.length pre + List.length bs - List.length pre - List.length old)%nat with 0%nat by lia.
  reflexivity.
Qed.

(** The three kinds of destination. *)
Lemma writes_appends T f bs : wt_put T = put_append -> writes T f bs -> appends f bs.
Proof. intros E (cs & <- & F) w; rewrite F; now apply puts_append. Qed.

Lemma writes_fills T f bs : wt_put T = put_fixed -> writes T f bs -> fills f bs.
Proof.
  intros E (cs & C & F) before old after L; rewrite F, puts_fixed; cbn [w_buf w_pos]; rewrite ?C.
  - now rewrite overwrite_exact.
  - assumption.
  - rewrite !app_length; lia.
Qed.

Lemma writes_refuses T f bs : wt_put T = put_fixed -> writes T f bs -> refuses_short f bs.
Proof.
  intros E (cs & C & F) w L; rewrite F; rewrite <- C in L.
  destruct (puts_short T cs w E L) as (w' & H1 & H2 & H3 & _); eauto.
Qed.

Lemma writes_fills_checked T f bs : wt_put T = put_checked -> writes T f bs -> fills f bs.
Proof.
  intros E (cs & C & F) before old after L; rewrite F, (puts_checked T _ _ E); cbn [w_buf w_pos]; rewrite ?C.
  2:{ rewrite !app_length; lia. }
  destruct (Nat.leb_spec (List.length before + List.length bs) (List.length (before ++ old ++ after))) as [H|H].
  - now rewrite overwrite_exact.
  - rewrite !app_length in H; lia.
Qed.

Lemma writes_traps T f bs : wt_put T = put_checked -> writes T f bs -> traps_short f bs.
Proof.
  intros E (cs & C & F) w L; rewrite F, (puts_checked T _ _ E) by lia; rewrite C.
  destruct (Nat.leb_spec (w_pos w + List.length bs) (List.length (w_buf w))); [lia|reflexivity].
Qed.
