(** The text for C# is the text of the programs in CSharp.v. *)
From Coq Require Import Lia.
From Verif Require Export CSharpSyntax SyntaxFacts CSharpTextFacts.
Open Scope string_scope.
Open Scope Z_scope.
Open Scope list_scope.

Section Link.
Variable p : protocol.
Variable g : settings.
Hypothesis T : text_ok p.

Lemma csx_types t : declared_type p t \/ (exists s, declares p t s) -> cst_types p t = Ret (cs_type_name t).
Proof.
  intro H; assert (G : good (cst_types p t)).
  { destruct H as [H|[s H]]; [now apply cst_types_ok|eapply cst_types_name; eassumption]. }
  destruct G as [n G]; rewrite G; f_equal; revert G; clear H.
  unfold cst_types, cs_type_name, mapping; destruct (in_dec string_dec t base_types) as [B|B].
  - destruct (table_entry cs_types cs_number t eq_refl B) as (k & K & E); unfold item in E.
    destruct (lookup t cs_types); [ |discriminate]; injection E as ->; rewrite K; congruence.
  - destruct (lookup t cs_types) eqn:L; [exfalso; apply B; apply lookup_In, (in_map fst) in L; exact L| ].
    destruct (num_of t) eqn:K; [exfalso; apply B, num_of_base; eauto| ].
    destruct (String.eqb t "string") eqn:E; [apply String.eqb_eq in E; subst; congruence| ].
    destruct (in_strs t _); congruence.
Qed.
Lemma csx_types_base t : In t base_types -> cst_types p t = Ret (cs_type_name t).
Proof. intro B; apply csx_types; left; now left. Qed.
Lemma csx_number t : In t base_types ->
  exists k, num_of t = Some k /\ cst_deserializers t = Ret ("Read" +++ cs_read_name k) /\ cst_types p t = Ret (cs_number k) /\
            cs_type_name t = cs_number k /\ cs_prim t = Some k /\ cs_typed t = Some k.
Proof.
  intro B; destruct (table_entry cs_deserializers (fun k => "Read" +++ cs_read_name k) t) as (k & K & E); [reflexivity|exact B| ].
  exists k; split; [exact K|split; [exact E| ]]; rewrite (csx_types_base t B); unfold cs_type_name; rewrite K.
  repeat split; rewrite <- K; apply prim_num; try reflexivity; exact B.
Qed.

Ltac same :=
  cbv [with_prim]; cbv [given at_level];
  cbn [flat_map app cs_stmts cs_stmt cs_wstmt cs_place cs_base cs_name cs_to_enum cs_source cs_source_name cs_sized];
  repeat match goal with L : lookup ?t (p_enums p) = Some _ |- _ => progress rewrite L end;
  repeat match goal with C : cs_type_name ?t = _ |- _ => progress rewrite C end;
  same_text.
Lemma csx_deserializer obj m lvl : declared_type p (v_type m) ->
  exactly (Z.of_nat lvl) (cst_deserializer p m (obj +++ "."))
    (cs_stmts p obj None (Z.of_nat lvl) (cs_read p lvl m)) (Z.of_nat lvl).
Proof.
  intro D; destruct (csx_number _ (tk_list p T)) as (kl & NL & SL & TL & _ & PL & _).
  destruct (csx_number _ (tk_string p T)) as (ks & NS & SS & TS & CS & _).
  pose proof (csx_types (v_type m) (or_introl D)) as TT.
  unfold exactly, cst_deserializer, cst_deserializer_with, cs_read, cs_read_one, mem, get_enum, item.
  destruct m as [n t l]; cbn [v_name v_type v_list] in *.
  destruct (lookup t (p_enums p)) as [e| ] eqn:L.
  - destruct (enum_text p t e T L) as [B _].
    destruct (csx_number _ B) as (k & NK & SK & TK & CK & PK & _).
    cbv [given pbind]; rewrite SL, TL, TT, PL, PK, SK, ?TK, ?SS, ?TS.
    destruct l; [same| ].
    destruct (String.eqb t "string") eqn:E; [ |same].
    cbv [given at_level with_prim]; cbn [flat_map app cs_stmts cs_stmt cs_place cs_base cs_name cs_to_enum].
    unfold cs_sized, cs_type_name; rewrite NS.
    same.
  - rewrite SL, TL, TT, PL, SS, TS. destruct (lookup t cs_deserializers) eqn:LN.
    + assert (B : In t base_types) by (apply lookup_In, (in_map fst) in LN; exact LN).
      destruct (csx_number t B) as (k & NK & SK & TK & CK & PK & _).
      destruct (String.eqb t "string") eqn:E; [apply String.eqb_eq in E; subst t; discriminate LN| ].
      rewrite SK, PK, CK. destruct l; same.
    + assert (N : cs_type_name t = t).
      { unfold cs_type_name; destruct (num_of t) eqn:K; [exfalso|reflexivity].
        assert (B : In t base_types) by (apply num_of_base; eauto).
        destruct (table_entry cs_deserializers (fun k => "Read" +++ cs_read_name k) t eq_refl B) as (? & _ & X); unfold item in X.
        rewrite LN in X; discriminate. }
      rewrite N; destruct (String.eqb t "string") eqn:E.
      * apply String.eqb_eq in E; subst t.
        destruct l; cbv [given at_level with_prim]; cbn [flat_map app cs_stmts cs_stmt cs_place cs_base cs_name cs_to_enum];
          unfold cs_sized; rewrite CS, NS; same.
      * destruct l; same.
Qed.

Lemma csx_serializer m lvl : declared_type p (v_type m) ->
  exactly lvl (cst_serializer p m "this.") (flat_map (cs_wstmt p (v_type m) lvl) (cs_write p m)) lvl.
Proof.
  intro D; destruct (csx_number _ (tk_list p T)) as (kl & NL & SL & TL & _ & _ & PL).
  destruct (csx_number _ (tk_string p T)) as (ks & NS & SS & TS & CS & _).
  pose proof (csx_types (v_type m) (or_introl D)) as TT.
  unfold exactly, cst_serializer, cst_serializer_with, cs_write, cs_write_one, get_enum, item.
  destruct m as [n t l]; cbn [v_name v_type v_list] in *.
  rewrite TL, TS, PL, TT; unfold mem; destruct (lookup t (p_enums p)) as [e| ] eqn:L.
  - destruct (enum_text p t e T L) as [B _].
    destruct (csx_number _ B) as (k & NK & SK & TK & CK & _ & PK).
    cbv [given pbind]; rewrite PK, ?TK.
    destruct l, (String.eqb t "string"); cbv [with_prim]; cbn [flat_map app cs_wstmt cs_source cs_source_name]; unfold mem; rewrite ?CS, ?L; same.
  - destruct (lookup t NUMERIC_TYPE_SIZES) eqn:LN.
    + assert (B : In t base_types) by (apply mem_base; unfold mem; now rewrite LN).
      destruct (csx_number t B) as (k & _ & _ & _ & _ & _ & PK).
      rewrite PK; destruct l, (String.eqb t "string"); cbv [with_prim]; cbn [flat_map app cs_wstmt cs_source cs_source_name]; unfold mem; rewrite ?CS, ?L; same.
    + destruct l, (String.eqb t "string"); cbv [with_prim]; cbn [flat_map app cs_wstmt cs_source cs_source_name]; unfold mem; rewrite ?CS, ?L; same.
Qed.

(** Measuring. *)
Hypothesis ND : forall n s, declares p n s -> NoDup (map v_name (s_members s)).
Hypothesis FS : forall n s, declares p n s -> find_struct p n = Some s.

Section Measuring.
Variable root : string.
Notation M env := (cs_mstmt p root (g_tab g) env).

Lemma csx_field_type s m env q : declares p (s_name s) s -> In m (s_members s) -> cs_path_type p root env q = Some (s_name s) ->
  cs_path_type p root env (MField q (v_name m)) = Some (v_type m).
Proof.
  intros D I E; cbn [cs_path_type]; rewrite E, (FS _ _ D).
  pose proof (ND _ _ D) as N; induction (s_members s) as [ |a l IH]; [destruct I|cbn [map lookup] in *].
  inversion N as [ |? ? N1 N2]; subst; destruct I as [->|I]; [now rewrite String.eqb_refl| ].
  destruct (String.eqb (v_name m) (v_name a)) eqn:X; [exfalso|exact (IH I N2)].
  apply String.eqb_eq in X; apply N1; rewrite <- X; now apply in_map.
Qed.
Lemma csx_measure_members rec rec' lvl acc s0 env : declares p (s_name s0) s0 -> cs_path_type p root env acc = Some (s_name s0) ->
  forall ms lines accum ls z,
  (forall m, In m ms -> In m (s_members s0)) ->
  (forall s lvl' acc' env' cl ca, declares p (s_name s) s -> is_simple p (s_name s) = false ->
     rec lvl' s acc' = Some (cl, ca) -> cs_path_type p root env' acc' = Some (s_name s) ->
     exists cl', cl = MInit :: cl' /\
       rec' (Z.of_nat lvl') s (cs_path acc' +++ ".") = Ret (cst_size_init :: flat_map (M env') cl', ca)) ->
  measure_members cs_style p rec lvl acc ms lines accum = Some (ls, z) ->
  cst_measure_members p g rec' (Z.of_nat lvl) (cs_path acc +++ ".") ms (cst_size_init :: flat_map (M env) lines) accum =
    Ret (cst_size_init :: flat_map (M env) ls, z).
Proof.
  intros D0 E0; induction ms as [ |m ms IH]; intros lines accum ls z D R E; cbn [measure_members] in E; cbn [cst_measure_members].
  - injection E as <- <-; reflexivity.
  - assert (next : forall lines' accum', measure_members cs_style p rec lvl acc ms lines' accum' = Some (ls, z) ->
      cst_measure_members p g rec' (Z.of_nat lvl) (cs_path acc +++ ".") ms (cst_size_init :: flat_map (M env) lines') accum' =
        Ret (cst_size_init :: flat_map (M env) ls, z)).
    { intros; apply IH; [intros; apply D; now right|exact R|assumption]. }
    assert (add : forall new L accum', measure_members cs_style p rec lvl acc ms (lines ++ new) accum' = Some (ls, z) ->
      L = flat_map (M env) new ->
      cst_measure_members p g rec' (Z.of_nat lvl) (cs_path acc +++ ".") ms
        ((cst_size_init :: flat_map (M env) lines) ++ L) accum' =
        Ret (cst_size_init :: flat_map (M env) ls, z)).
    { intros new L a E' ->; cbn [app]; rewrite <- flat_map_app; now apply next. }
    pose proof (D m (or_introl eq_refl)) as IM.
    assert (DM : declared_type p (v_type m)) by (eapply (tk_types p T); eassumption).
    pose proof (csx_types (v_type m) (or_introl DM)) as TM.
    pose proof (csx_field_type s0 m env acc D0 IM E0) as FT.
    clear IH D.
    rewrite (list_size p T), (string_size p T), TM; cbv zeta in *.
    destruct (is_simple p (v_type m)) eqn:SI.
    + rewrite (simple_size p T _ (or_introl DM) SI); destruct (v_list m); [ |exact (next _ _ E)].
      eapply add; [exact E| ]. cbn [flat_map cs_mstmt cs_path]. same_text.
    + destruct (String.eqb (v_type m) "string") eqn:ST.
      * apply String.eqb_eq in ST; rewrite ST in *.
        destruct (v_list m); (eapply add; [exact E| ]);
          cbn [flat_map cs_style st_utf16 st_strs mfor elem_of app]; [ |cbn [cs_mstmt cs_path]; same_text].
        cbn [cs_mstmt]; rewrite FT; cbn [or_empty flat_map cs_mstmt cs_path]; same_text.
      * destruct (variable_struct p T _ DM SI ST) as (s & LS & GS & NS); rewrite GS, LS in *; cbn [pbind].
        rewrite <- NS in SI. assert (DS : declares p (s_name s) s) by (rewrite NS; left; now apply lookup_In).
        rewrite <- NS in FT. destruct (v_list m).
        -- destruct (rec (1 + lvl)%nat s (elem_of (st_loop cs_style lvl (v_name m)) (MField acc (v_name m)))) as [[cl ca]| ] eqn:RC; [ |discriminate].
           destruct (R _ _ _ (("el" +++ dec_str lvl, s_name s) :: env) _ _ DS SI RC) as (cl' & -> & RT).
           { cbn [st_loop cs_style elem_of cs_path_type lookup]; now rewrite String.eqb_refl. }
           cbn [st_loop cs_style elem_of cs_path cat fold_right] in RT; rewrite ?app_assoc_s, ?app_nil_s in *.
           rewrite Nat2Z.inj_add, Z.add_comm, <- str_of_nat in RT.
           recall3 rec' RT; cbn [pbind fst snd]; rewrite drop_first_line.
           eapply add; [exact E| ]; cbn [flat_map cs_style st_loop mfor drop_init cs_mstmt]; rewrite FT; cbn [or_empty cs_path].
           rewrite flat_map_app, app_nil_r; cbn [flat_map cs_mstmt]; rewrite <- NS, <- str_of_nat. same_text.
        -- destruct (rec (st_deeper cs_style + lvl)%nat s (MField acc (v_name m))) as [[cl ca]| ] eqn:RC; [ |discriminate].
           destruct (R _ _ _ env _ _ DS SI RC FT) as (cl' & -> & RT).
           cbn [cs_path cat fold_right] in RT; rewrite ?app_assoc_s, ?app_nil_s in *.
           recall3 rec' RT; cbn [pbind fst snd]; rewrite drop_first_line.
           eapply add; [exact E|reflexivity].
Qed.
Lemma csx_measure d : forall lvl s acc env ls z, declares p (s_name s) s -> is_simple p (s_name s) = false ->
  measure cs_style p d lvl s acc = Some (ls, z) -> cs_path_type p root env acc = Some (s_name s) ->
  exists ls', ls = MInit :: ls' /\
    cst_measure p g d (Z.of_nat lvl) s (cs_path acc +++ ".") = Ret (cst_size_init :: flat_map (M env) ls', z).
Proof.
  induction d as [ |d IH]; intros lvl s acc env ls z D SI E PT; cbn [measure] in E; rewrite SI in E; [discriminate| ].
  destruct (measure_members cs_style p (measure cs_style p d) lvl acc (s_members s) [] 0) as [[l a]| ] eqn:EM; [ |discriminate].
  injection E as <- <-; exists l; split; [reflexivity| ].
  cbn [cst_measure]; rewrite SI.
  eapply csx_measure_members in EM; [exact EM|exact D|exact PT|auto| ].
  intros s' lvl' acc' env' cl ca D' SI' E' PT'; exact (IH _ _ _ _ _ _ D' SI' E' PT').
Qed.
End Measuring.
Lemma csx_size n s lvl size : declares p n s -> gen_size cs_style p lvl s = Some size ->
  exists ls z, cst_gen_measurement p g (Z.of_nat lvl) s "this." = Ret (ls, z) /\
    flat_map (cs_mstmt p n (g_tab g) []) size =
      ls ++ (if z >? 0 then [cat ["size += "; str_of_Z z; ";"]] else []) ++
      (if Z.of_nat (List.length ls) >? 1 then ["return size;"] else []).
Proof.
  intros D E; pose proof (tk_name p T n s D); subst n; unfold gen_size in E.
  destruct (measure cs_style p (depth_of p) lvl s MRoot) as [[l z]| ] eqn:EM; [ |discriminate].
  injection E as <-; unfold cst_gen_measurement.
  destruct (is_simple p (s_name s)) eqn:SI.
  - assert (K : known_type p (s_name s)) by (destruct D as [D|D]; [left; right; right; left|right]; now exists s).
    revert EM; unfold depth_of; cbn [measure cst_measure]; rewrite SI, (simple_size p T _ K SI); intro E; injection E as <- <-.
    eexists _, _; split; reflexivity.
  - destruct (csx_measure (s_name s) _ _ _ _ [] _ _ D SI EM eq_refl) as (l' & -> & E).
    eexists _, _; split; [exact E| ].
    rewrite (many_lines _ l' MInit) by (intro x; destruct x; discriminate).
    rewrite !flat_map_app; destruct (z >? 0), (1 <? List.length (MInit :: l'))%nat; reflexivity.
Qed.

(** ** Whole classes *)

Definition no_cast (l : list rstmt) : Prop := match l with RMove _ _ :: _ | RPush _ _ :: _ => False | _ => True end.
Lemma cs_stmts_enum obj e lvl l : no_cast l -> cs_stmts p obj e lvl l = cs_stmts p obj None lvl l.
Proof. intro N; destruct l as [ |a l]; [reflexivity|cbn [cs_stmts]; f_equal]; destruct a; try reflexivity; destruct N. Qed.
Lemma cs_stmts_app obj e lvl l1 l2 : no_cast l2 -> cs_stmts p obj e lvl (l1 ++ l2) = cs_stmts p obj e lvl l1 ++ cs_stmts p obj None lvl l2.
Proof.
  intro N; revert e; induction l1 as [ |a l1 IH]; intro e; cbn [app cs_stmts]; [now apply cs_stmts_enum| ].
  now rewrite IH, app_assoc.
Qed.
Lemma cs_read_no_cast lvl m : no_cast (cs_read p lvl m).
Proof.
  unfold cs_read, cs_read_one, with_prim; destruct (v_list m); [destruct (cs_prim _); exact I| ].
  destruct (String.eqb _ _); [exact I| ]; destruct (lookup _ _); [destruct (cs_prim _); exact I| ].
  destruct (mem _ _); [destruct (cs_prim _); exact I|exact I].
Qed.
Lemma cs_stmts_members obj lvl idx ms :
  cs_stmts p obj None lvl (flat_map (cs_read p idx) ms) = flat_map (fun m => cs_stmts p obj None lvl (cs_read p idx m)) ms.
Proof.
  induction ms as [ |m ms IH]; cbn [flat_map]; [reflexivity| ].
  rewrite cs_stmts_app, IH; [reflexivity| ]; clear IH.
  induction ms as [ |m' ms IH]; [exact I|cbn [flat_map]].
  pose proof (cs_read_no_cast idx m') as N.
  destruct (cs_read p idx m'); [exact IH|exact N].
Qed.
Lemma csx_reads n s idx lvl : declares p n s -> lvl = Z.of_nat idx ->
  exactly lvl (each (s_members s) (fun m => given [| "_n"; n; "." |] (fun x => cst_deserializer p m x)))
    (cs_stmts p (cat ["_n"; n]) None lvl (flat_map (cs_read p idx) (s_members s))) lvl.
Proof.
  intros D ->; rewrite cs_stmts_members; apply exactly_each; intros m I.
  eapply exactly_given; [reflexivity| ].
  assert (DM : declared_type p (v_type m)) by (eapply (tk_types p T); eassumption).
  pose proof (csx_deserializer (cat ["_n"; n]) m idx DM) as E; cbv [cat fold_right] in E |- *; rewrite ?app_assoc_s, ?app_nil_s in *; exact E.
Qed.
Lemma csx_writes n s lvl : declares p n s ->
  exactly lvl (each (s_members s) (fun m => cst_serializer p m "this."))
    (flat_map (fun m => flat_map (cs_wstmt p (v_type m) lvl) (cs_write p m)) (s_members s)) lvl.
Proof.
  intro D; apply exactly_each; intros m I; apply csx_serializer; eapply (tk_types p T); eassumption.
Qed.
End Link.
