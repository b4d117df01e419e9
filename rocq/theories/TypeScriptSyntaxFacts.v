(** The text for TypeScript and AssemblyScript is the text of the programs in
    TypeScript.v and AssemblyScript.v. *)
From Coq Require Import Lia.
From Verif Require Export TypeScriptSyntax SyntaxFacts TypeScriptTextFacts.
Open Scope string_scope.
Open Scope Z_scope.
Open Scope list_scope.

(** The programs of either language. *)
Definition tsx_read (asm : bool) := if asm then as_read else ts_read.
Definition tsx_write (asm : bool) := if asm then as_write else ts_write.

Section Link.
Variable p : protocol.
Variable g : settings.
Variable asm : bool.
Hypothesis T : text_ok p.

Lemma tsx_types t : declared_type p t \/ (exists s, declares p t s) -> tst_types p asm t = Ret (ts_type_name p asm t).
Proof.
  intro H; assert (G : good (tst_types p asm t)).
  { destruct H as [H|[s H]]; [now apply tst_types_ok|eapply tst_types_name; eassumption]. }
  destruct G as [n G]; rewrite G; f_equal; revert G; clear H.
  unfold tst_types, ts_type_name, mapping, ts_type, as_type; rewrite in_strs_existsb.
  assert (N : lookup t ts_numbers = match lookup t NUMERIC_TYPE_SIZES with
                                    | Some _ => Some (if String.eqb t "bool" then "boolean" else if in_strs t ["int64"; "uint64"] then "bigint" else "number")
                                    | None => None end).
  { unfold ts_numbers, mem; generalize NUMERIC_TYPE_SIZES; intro l; induction l as [ |[a b] l IH]; cbn [map lookup fst]; [reflexivity| ].
    destruct (String.eqb t a) eqn:E; [ |exact IH]. apply String.eqb_eq in E; subst; reflexivity. }
  destruct asm; cbv iota; [ |rewrite N; unfold mem].
  - destruct (lookup t as_types) eqn:L; [intro E; injection E as <-; reflexivity| ].
    destruct (String.eqb t "string") eqn:ES; [apply String.eqb_eq in ES; subst; discriminate L| ].
    destruct (existsb (String.eqb t) (declared_names p)); [intro E; injection E as <-; reflexivity|discriminate].
  - destruct (lookup t NUMERIC_TYPE_SIZES).
    + cbn [in_strs]; destruct (String.eqb t "bool"), (String.eqb t "int64"), (String.eqb t "uint64"); intro E; injection E; auto.
    + destruct (String.eqb t "string") eqn:ES; [intro E; injection E as <-; reflexivity| ].
      destruct (existsb (String.eqb t) (declared_names p)); [intro E; injection E as <-; reflexivity|discriminate].
Qed.
Lemma tsx_types_base t : In t base_types -> tst_types p asm t = Ret (ts_type_name p asm t).
Proof. intro B; apply tsx_types; left; now left. Qed.
Lemma tsx_serializers t : In t base_types ->
  exists k, num_of t = Some k /\ tst_serializers asm t = Ret (ts_accessor k) /\ ts_prim t = Some k /\ as_prim t = Some k.
Proof.
  intro B; destruct (table_entry (if asm then as_serializers else ts_serializers) ts_accessor t) as (k & K & E);
    [destruct asm; reflexivity|exact B| ]. exists k; split; [exact K|split; [exact E|split]].
  - rewrite <- K; apply prim_num; [reflexivity|exact B].
  - rewrite <- K; apply prim_num; [reflexivity|exact B].
Qed.

Lemma tsx_read_same lvl m : tsx_read asm p lvl m = ts_read p lvl m.
Proof. destruct asm; reflexivity. Qed.
Lemma tsx_write_same m : tsx_write asm p m = ts_write p m.
Proof. destruct asm; reflexivity. Qed.
Ltac same :=
  cbv [with_prim]; cbv [given at_level];
  try destruct asm; cbn [flat_map app ts_stmts ts_stmt ts_wstmt ts_declare ts_place ts_member ts_check ts_source ts_bound ts_cast];
  repeat match goal with L : lookup ?t (p_enums p) = Some _ |- _ => progress rewrite L end;
  same_text.
Lemma tsx_deserializer obj m lvl : declared_type p (v_type m) ->
  exactly (Z.of_nat lvl) (tst_deserializer p asm m (obj +++ "."))
    (ts_stmts p asm obj (Z.of_nat lvl) (tsx_read asm p lvl m)) (Z.of_nat lvl).
Proof.
  intro D; destruct (tsx_serializers _ (tk_list p T)) as (kl & _ & SL & PL & _).
  pose proof (tsx_types_base _ (tk_list p T)) as TL.
  pose proof (tsx_types (v_type m) (or_introl D)) as TT.
  rewrite tsx_read_same.
  unfold exactly, tst_deserializer, tst_deserializer_with, ts_read, ts_read_one, mem, get_enum, item.
  destruct m as [n t l]; cbn [v_name v_type v_list] in *.
  destruct (lookup t (p_enums p)) as [e| ] eqn:L.
  - destruct (enum_text p t e T L) as [B EL].
    destruct (tsx_serializers _ B) as (k & _ & SK & PK & _).
    pose proof (tsx_types_base _ B) as TK.
    cbv [given pbind]; rewrite SL, TL, TT, PL, PK, SK, ?TK, ?EL.
    destruct l; [same| ].
    destruct (String.eqb t "string"); same.
  - rewrite SL, TL, TT, PL. destruct (lookup t NUMERIC_TYPE_SIZES) eqn:LN.
    + destruct (tsx_serializers t) as (k & _ & SK & PK & _); [apply mem_base; unfold mem; now rewrite LN| ].
      rewrite SK, PK. destruct l, (String.eqb t "string"); same.
    + destruct l, (String.eqb t "string"); same.
Qed.
Lemma tsx_cast t k : In t base_types -> num_of t = Some k -> asm = true -> ts_type_name p asm t = as_number k.
Proof.
  intros B K ->; cbn in B; repeat destruct B as [<-|B]; try (injection K as <-; reflexivity); destruct B.
Qed.
Lemma tsx_serializer m lvl : declared_type p (v_type m) ->
  exactly lvl (tst_serializer p asm m "this.")
    (flat_map (ts_wstmt asm (mem (v_type m) (p_enums p)) lvl) (tsx_write asm p m)) lvl.
Proof.
  intro D; destruct (tsx_serializers _ (tk_list p T)) as (kl & NL & SL & PL & _).
  pose proof (tsx_types_base _ (tk_list p T)) as TL.
  pose proof (tsx_types (v_type m) (or_introl D)) as TT.
  pose proof (tsx_cast _ _ (tk_list p T) NL) as CL.
  rewrite tsx_write_same.
  unfold exactly, tst_serializer, tst_serializer_with, ts_write, ts_write_one, mem, get_enum, item.
  destruct m as [n t l]; cbn [v_name v_type v_list] in *.
  destruct (lookup t (p_enums p)) as [e| ] eqn:L.
  - destruct (enum_text p t e T L) as [B EL].
    destruct (tsx_serializers _ B) as (k & NK & SK & PK & _).
    pose proof (tsx_types_base _ B) as TK.
    pose proof (tsx_cast _ _ B NK) as CK.
    destruct asm; [rewrite (CL eq_refl) in *; rewrite (CK eq_refl) in *| ]; clear CK CL;
      cbv [given pbind]; rewrite SL, ?TL, ?TT, PL, PK, SK, ?TK, ?EL; destruct l, (String.eqb t "string"); same.
  - destruct (lookup t NUMERIC_TYPE_SIZES) eqn:LN.
    + destruct (tsx_serializers t) as (k & _ & SK & PK & _); [apply mem_base; unfold mem; now rewrite LN| ].
      destruct asm; [rewrite (CL eq_refl) in *| ]; clear CL; rewrite SL, ?TL, ?TT, PL, SK, PK;
        destruct l, (String.eqb t "string"); same.
    + destruct asm; [rewrite (CL eq_refl) in *| ]; clear CL; rewrite SL, ?TL, ?TT, PL;
        destruct l, (String.eqb t "string"); same.
Qed.

(** Measuring. *)
Lemma tsx_measure_members rec rec' lvl acc : forall ms lines accum ls z,
  (forall m, In m ms -> declared_type p (v_type m)) ->
  (forall s lvl' acc' cl ca, declares p (s_name s) s -> is_simple p (s_name s) = false -> rec lvl' s acc' = Some (cl, ca) ->
     exists cl', cl = MInit :: cl' /\
       rec' s (ts_path acc' +++ ".") = Ret (tst_size_init asm :: flat_map (ts_mstmt asm (g_tab g)) cl', ca)) ->
  measure_members ts_style p rec lvl acc ms lines accum = Some (ls, z) ->
  tst_measure_members p g asm rec' (ts_path acc +++ ".") ms (tst_size_init asm :: flat_map (ts_mstmt asm (g_tab g)) lines) accum =
    Ret (tst_size_init asm :: flat_map (ts_mstmt asm (g_tab g)) ls, z).
Proof.
  induction ms as [ |m ms IH]; intros lines accum ls z D R E; cbn [measure_members] in E; cbn [tst_measure_members].
  - injection E as <- <-; reflexivity.
  - assert (next : forall lines' accum', measure_members ts_style p rec lvl acc ms lines' accum' = Some (ls, z) ->
      tst_measure_members p g asm rec' (ts_path acc +++ ".") ms (tst_size_init asm :: flat_map (ts_mstmt asm (g_tab g)) lines') accum' =
        Ret (tst_size_init asm :: flat_map (ts_mstmt asm (g_tab g)) ls, z)).
    { intros; apply IH; [intros; apply D; now right|exact R|assumption]. }
    assert (add : forall new L accum', measure_members ts_style p rec lvl acc ms (lines ++ new) accum' = Some (ls, z) ->
      L = flat_map (ts_mstmt asm (g_tab g)) new ->
      tst_measure_members p g asm rec' (ts_path acc +++ ".") ms
        ((tst_size_init asm :: flat_map (ts_mstmt asm (g_tab g)) lines) ++ L) accum' =
        Ret (tst_size_init asm :: flat_map (ts_mstmt asm (g_tab g)) ls, z)).
    { intros new L a E' ->; cbn [app]; rewrite <- flat_map_app; now apply next. }
    clear IH; pose proof (D m (or_introl eq_refl)) as DM; clear D.
    rewrite (list_size p T), (string_size p T); cbv zeta in *.
    destruct (is_simple p (v_type m)) eqn:SI.
    + rewrite (simple_size p T _ (or_introl DM) SI); destruct (v_list m); [ |exact (next _ _ E)].
      eapply add; [exact E| ]. cbn [flat_map ts_mstmt ts_path]. same_text.
    + destruct (String.eqb (v_type m) "string") eqn:ST.
      * destruct (v_list m), asm; (eapply add; [exact E| ]);
          cbn [flat_map ts_style st_utf16 st_strs ts_mstmt mfor elem_of ts_path Z.eqb]; unfold ts_utf8; cbn [ts_path];
          rewrite ?(string_size_positive p T); same_text.
      * destruct (variable_struct p T _ DM SI ST) as (s & LS & GS & NS); rewrite GS, LS in *; cbn [pbind].
        rewrite <- NS in SI. assert (DS : declares p (s_name s) s) by (rewrite NS; left; now apply lookup_In). destruct (v_list m).
        -- destruct (rec (1 + lvl)%nat s (elem_of (st_loop ts_style lvl (v_name m)) (MField acc (v_name m)))) as [[cl ca]| ] eqn:RC; [ |discriminate].
           destruct (R _ _ _ _ _ DS SI RC) as (cl' & -> & RT).
           cbn [st_loop ts_style elem_of ts_path cat fold_right] in RT; rewrite ?app_assoc_s, ?app_nil_s in *.
           recall rec' RT; cbn [pbind fst snd]; rewrite drop_first_line.
           eapply add; [exact E| ]; cbn [flat_map ts_style st_loop mfor drop_init ts_mstmt ts_path].
           rewrite flat_map_app, app_nil_r; cbn [flat_map ts_mstmt]. same_text.
        -- destruct (rec (st_deeper ts_style + lvl)%nat s (MField acc (v_name m))) as [[cl ca]| ] eqn:RC; [ |discriminate].
           destruct (R _ _ _ _ _ DS SI RC) as (cl' & -> & RT).
           cbn [ts_path cat fold_right] in RT; rewrite ?app_assoc_s, ?app_nil_s in *.
           recall rec' RT; cbn [pbind fst snd]; rewrite drop_first_line.
           eapply add; [exact E|reflexivity].
Qed.
Lemma tsx_measure d : forall lvl s acc ls z, declares p (s_name s) s -> is_simple p (s_name s) = false ->
  measure ts_style p d lvl s acc = Some (ls, z) ->
  exists ls', ls = MInit :: ls' /\
    tst_measure p g asm d s (ts_path acc +++ ".") = Ret (tst_size_init asm :: flat_map (ts_mstmt asm (g_tab g)) ls', z).
Proof.
  induction d as [ |d IH]; intros lvl s acc ls z D SI E; cbn [measure] in E; rewrite SI in E; [discriminate| ].
  destruct (measure_members ts_style p (measure ts_style p d) lvl acc (s_members s) [] 0) as [[l a]| ] eqn:EM; [ |discriminate].
  injection E as <- <-; exists l; split; [reflexivity| ].
  cbn [tst_measure]; rewrite SI.
  eapply tsx_measure_members in EM; [exact EM| | ].
  - intros m I; eapply (tk_types p T); eassumption.
  - intros s' lvl' acc' cl ca D' SI' E'; exact (IH _ _ _ _ _ D' SI' E').
Qed.
Lemma tsx_size n s size : declares p n s -> gen_size ts_style p 0 s = Some size ->
  exists ls z, tst_gen_measurement p g asm s "this." = Ret (ls, z) /\
    flat_map (ts_mstmt asm (g_tab g)) size =
      ls ++ (if z >? 0 then [cat ["size += "; str_of_Z z; ";"]] else []) ++
      (if Z.of_nat (List.length ls) >? 1 then ["return size;"] else []).
Proof.
  intros D E; pose proof (tk_name p T n s D); subst n; unfold gen_size in E.
  destruct (measure ts_style p (depth_of p) 0 s MRoot) as [[l z]| ] eqn:EM; [ |discriminate].
  injection E as <-; unfold tst_gen_measurement.
  destruct (is_simple p (s_name s)) eqn:SI.
  - assert (K : known_type p (s_name s)) by (destruct D as [D|D]; [left; right; right; left|right]; now exists s).
    revert EM; unfold depth_of; cbn [measure tst_measure]; rewrite SI, (simple_size p T _ K SI); intro E; injection E as <- <-.
    eexists _, _; split; reflexivity.
  - destruct (tsx_measure _ _ _ _ _ _ D SI EM) as (l' & -> & E).
    eexists _, _; split; [exact E| ].
    rewrite (many_lines _ l' MInit) by (intro x; destruct x; discriminate).
    rewrite !flat_map_app; destruct asm, (z >? 0), (1 <? List.length (MInit :: l'))%nat; reflexivity.
Qed.

(** ** Whole classes *)

Definition no_check (l : list rstmt) : Prop := match l with REnumCheck _ _ :: _ => False | _ => True end.
Lemma ts_stmt_next obj lvl a next next' : no_check next -> no_check next' -> ts_stmt p asm obj lvl a next = ts_stmt p asm obj lvl a next'.
Proof.
  intros N N'; destruct a; cbn [ts_stmt]; try reflexivity.
  destruct d; cbn [ts_declare]; try reflexivity.
  destruct next as [ |[] ?], next' as [ |[] ?]; try reflexivity; solve [destruct N|destruct N'].
Qed.
Lemma ts_stmts_app obj lvl l1 l2 : no_check l2 -> ts_stmts p asm obj lvl (l1 ++ l2) = ts_stmts p asm obj lvl l1 ++ ts_stmts p asm obj lvl l2.
Proof.
  intro N; induction l1 as [ |a l1 IH]; cbn [app ts_stmts]; [reflexivity| ].
  rewrite IH, app_assoc; f_equal; f_equal; destruct l1 as [ |b l1]; [apply ts_stmt_next; [exact N|exact I]| ].
  destruct a; cbn [ts_stmt app]; try reflexivity; destruct d; reflexivity.
Qed.
Lemma ts_read_no_check lvl m : no_check (ts_read p lvl m).
Proof.
  unfold ts_read, ts_read_one, with_prim; destruct (v_list m); [destruct (ts_prim _); exact I| ].
  destruct (String.eqb _ _); [exact I| ]; destruct (lookup _ _); [destruct (ts_prim _); exact I| ].
  destruct (mem _ _); [destruct (ts_prim _); exact I|exact I].
Qed.
Lemma ts_stmts_members obj lvl idx ms :
  ts_stmts p asm obj lvl (flat_map (tsx_read asm p idx) ms) = flat_map (fun m => ts_stmts p asm obj lvl (tsx_read asm p idx m)) ms.
Proof.
  induction ms as [ |m ms IH]; cbn [flat_map]; [reflexivity| ].
  rewrite ts_stmts_app, IH; [reflexivity| ]; clear IH.
  induction ms as [ |m' ms IH]; [exact I|cbn [flat_map]]; rewrite tsx_read_same.
  pose proof (ts_read_no_check idx m') as N.
  destruct (ts_read p idx m'); [exact IH|exact N].
Qed.
Lemma tsx_reads n s idx lvl : declares p n s -> lvl = Z.of_nat idx ->
  exactly lvl (each (s_members s) (fun m => given [| "n"; n; "." |] (fun x => tst_deserializer p asm m x)))
    (ts_stmts p asm (cat ["n"; n]) lvl (flat_map (tsx_read asm p idx) (s_members s))) lvl.
Proof.
  intros D ->; rewrite ts_stmts_members; apply exactly_each; intros m I.
  eapply exactly_given; [reflexivity| ].
  assert (DM : declared_type p (v_type m)) by (eapply (tk_types p T); eassumption).
  pose proof (tsx_deserializer (cat ["n"; n]) m idx DM) as E; cbv [cat fold_right] in E |- *; rewrite ?app_assoc_s, ?app_nil_s in *; exact E.
Qed.
Lemma tsx_writes n s lvl : declares p n s ->
  exactly lvl (each (s_members s) (fun m => tst_serializer p asm m "this."))
    (flat_map (fun m => flat_map (ts_wstmt asm (mem (v_type m) (p_enums p)) lvl) (tsx_write asm p m)) (s_members s)) lvl.
Proof.
  intro D; apply exactly_each; intros m I; apply tsx_serializer; eapply (tk_types p T); eassumption.
Qed.
End Link.

