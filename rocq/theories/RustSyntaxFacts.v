(** The text for Rust is the text of the programs in Rust.v. *)
From Coq Require Import Lia.
From Verif Require Export RustSyntax SyntaxFacts RustTextFacts.
Open Scope string_scope.
Open Scope Z_scope.
Open Scope list_scope.

Section Link.
Variable p : protocol.
Variable g : settings.
Hypothesis T : text_ok p.
Hypothesis EN : forall t e, lookup t (p_enums p) = Some e -> ~ In t (base_types ++ ["string"]) /\ e_encoding e <> "bool".
Hypothesis LB : p_list_size_type p <> "bool".

Lemma rsx_types t : declared_type p t -> rst_types p t = Ret (rs_type_name t).
Proof.
  intro H; destruct (rst_types_ok p t H) as [n G]; rewrite G; f_equal; revert G; clear H.
  unfold rst_types, rs_type_name, mapping; cbn [lookup]; destruct (in_dec string_dec t base_types) as [B|B].
  - destruct (table_entry rs_types rs_number t eq_refl B) as (k & K & E); unfold item in E.
    destruct (String.eqb t "string") eqn:ST; [apply String.eqb_eq in ST; subst t; discriminate K| ].
    destruct (lookup t rs_types); [ |discriminate]; injection E as ->; rewrite K; congruence.
  - destruct (num_of t) eqn:K; [exfalso; apply B, num_of_base; eauto| ].
    destruct (String.eqb t "string"); [congruence| ].
    destruct (lookup t rs_types) eqn:L; [exfalso; apply B; apply lookup_In, (in_map fst) in L; exact L| ].
    destruct (in_strs t _); congruence.
Qed.
Lemma rsx_maps t : declared_type p t -> rst_maps p t = true.
Proof. intro D; unfold rst_maps, mapped; destruct (rst_types_ok p t D) as [n E]; unfold rst_types in E; now rewrite E. Qed.
Lemma rsx_number t : In t base_types ->
  exists k, num_of t = Some k /\ rst_types p t = Ret (rs_number k) /\ rs_type_name t = rs_number k.
Proof.
  intro B; destruct (table_entry rs_types rs_number t) as (k & K & E); [reflexivity|exact B| ].
  exists k; split; [exact K| ]; rewrite rsx_types by now left. unfold rs_type_name; now rewrite K.
Qed.
(** The types that have methods. *)
Lemma rsx_method t : In t base_types -> t <> "bool" -> exists k, num_of t = Some k /\ rs_prim t = Some k /\ k <> NBool.
Proof.
  intros B N; cbn in B; repeat (destruct B as [<-|B]; [first [now destruct N|eexists; repeat split; discriminate]| ]); destruct B.
Qed.

Ltac known :=
  repeat match goal with
         | |- context [String.eqb ?a ?b] =>
             let v := eval vm_compute in (String.eqb a b) in first [constr_eq v true|constr_eq v false]; change (String.eqb a b) with v; cbv iota
         | |- context [rs_prim ?t] =>
             let v := eval vm_compute in (rs_prim t) in lazymatch v with Some _ => change (rs_prim t) with v end
         end.
Ltac same :=
  cbv [with_prim]; cbv [given at_level]; unfold rs_member_text;
  cbn [flat_map app negb v_list v_type rs_stmt rs_get rs_name rs_wstmt rs_source];
  same_text.
Lemma rsx_deserializer m lvl : declared_type p (v_type m) ->
  exactly lvl (rst_deserializer p m "") (rs_member_text lvl m (rs_read p m)) lvl.
Proof.
  intro D; destruct (rsx_method _ (tk_list p T) LB) as (kl & NL & PL & NB).
  destruct (rsx_number _ (tk_list p T)) as (kl' & NL' & TL & _); replace kl' with kl in * by congruence; clear NL'.
  pose proof (rsx_types (v_type m) D) as TT; pose proof (rsx_maps (v_type m) D) as MT.
  unfold exactly, rst_deserializer, rst_deserializer_with, rs_read, rs_read_one, get_enum, item.
  destruct m as [n t l]; cbn [v_name v_type v_list] in *.
  rewrite PL, TL, TT, MT; unfold mem.
  destruct (lookup t (p_enums p)) as [e| ] eqn:L.
  - destruct (EN t e L) as [N NE]; rewrite in_app_iff in N.
    destruct (lookup t NUMERIC_TYPE_SIZES) eqn:LN; [exfalso; apply N; left; apply mem_base; unfold mem; now rewrite LN| ].
    destruct (String.eqb t "string") eqn:E; [exfalso; apply N; apply String.eqb_eq in E; subst t; right; now left| ].
    destruct (enum_text p t e T L) as [B _].
    destruct (rsx_method _ B NE) as (k & NK & PK & NB').
    destruct (rsx_number _ B) as (k' & NK' & TK & _); replace k' with k in * by congruence; clear NK'.
    assert (NN : rs_is_number t = false).
    { unfold rs_is_number; destruct (num_of t) eqn:K; [exfalso; apply N; left; apply num_of_base; eauto|reflexivity]. }
    cbv [given pbind]; rewrite PK, TK; destruct l; cbv [with_prim]; unfold rs_member_text;
      cbn [flat_map app negb v_list v_type rs_stmt rs_get rs_name]; rewrite NN; destruct k; try congruence; same.
  - clear TT MT; destruct (lookup t NUMERIC_TYPE_SIZES) eqn:LN.
    + assert (B : In t base_types) by (apply mem_base; unfold mem; now rewrite LN); clear LN L D.
      cbn in B; repeat (destruct B as [<-|B]; [unfold rs_read_num; known; destruct l; same| ]); destruct B.
    + assert (K : num_of t = None).
      { destruct (num_of t) as [k| ] eqn:K; [exfalso|reflexivity].
        assert (B : In t base_types) by (apply num_of_base; eauto); clear -LN B; cbn in B.
        repeat (destruct B as [<-|B]; [discriminate LN| ]); destruct B. }
      unfold rs_type_name; rewrite K; destruct (String.eqb t "string") eqn:E;
        destruct l; cbv [with_prim given at_level]; unfold rs_member_text;
        cbn [flat_map app negb v_list v_type rs_stmt rs_get rs_name]; unfold rs_type_name; rewrite ?K, ?E;
        destruct kl; try congruence; same_text.
Qed.

Lemma rsx_serializer m lvl : declared_type p (v_type m) ->
  exactly lvl (rst_serializer p m "self.") (flat_map (rs_wstmt p (mem (v_type m) (p_enums p)) lvl) (rs_write p m)) lvl.
Proof.
  intro D; destruct (rsx_method _ (tk_list p T) LB) as (kl & NL & PL & NB).
  destruct (rsx_number _ (tk_list p T)) as (kl' & NL' & TL & _); replace kl' with kl in * by congruence; clear NL'.
  destruct (rsx_number _ (tk_string p T)) as (ks & NS & TS & CS).
  unfold exactly, rst_serializer, rst_serializer_with, rs_write, rs_write_one, get_enum, item.
  destruct m as [n t l]; cbn [v_name v_type v_list] in *.
  rewrite PL, TL, TS; unfold mem.
  destruct (lookup t (p_enums p)) as [e| ] eqn:L.
  - destruct (EN t e L) as [N NE]; rewrite in_app_iff in N.
    destruct (lookup t NUMERIC_TYPE_SIZES) eqn:LN; [exfalso; apply N; left; apply mem_base; unfold mem; now rewrite LN| ].
    destruct (String.eqb t "string") eqn:E; [exfalso; apply N; apply String.eqb_eq in E; subst t; right; now left| ].
    destruct (enum_text p t e T L) as [B _].
    cbv [given pbind].
    destruct (String.eqb (e_encoding e) "byte") eqn:EB.
    + apply String.eqb_eq in EB; rewrite EB, (rsx_types "byte") by (left; now left). destruct l; same.
    + destruct (rsx_method _ B NE) as (k & NK & PK & NB').
      destruct (rsx_number _ B) as (k' & NK' & TK & _); replace k' with k in * by congruence; clear NK'.
      rewrite PK, TK.
      assert (NY : k <> NByte).
      { revert NK EB; clear -B; generalize dependent (e_encoding e); intros t B NK EB ->; cbn in B.
        repeat (destruct B as [<-|B]; [discriminate| ]); destruct B. }
      destruct l; cbv [with_prim]; cbn [flat_map app rs_wstmt]; destruct k; try congruence; same.
  - destruct (lookup t NUMERIC_TYPE_SIZES) eqn:LN.
    + assert (B : In t base_types) by (apply mem_base; unfold mem; now rewrite LN); clear LN L D.
      cbn in B; repeat (destruct B as [<-|B]; [unfold rs_write_num; known; destruct l; same| ]); destruct B.
    + destruct (String.eqb t "string") eqn:E; destruct l; cbv [with_prim]; cbn [flat_map app rs_wstmt]; rewrite ?CS; same.
Qed.

(** Measuring. *)
Notation M := (rs_mstmt (g_tab g)).
Lemma rsx_measure_members rec rec' lvl acc : forall ms lines accum ls z,
  (forall m, In m ms -> declared_type p (v_type m)) ->
  (forall s lvl' acc' cl ca, declares p (s_name s) s -> is_simple p (s_name s) = false -> rec lvl' s acc' = Some (cl, ca) ->
     exists cl', cl = MInit :: cl' /\
       rec' s (rs_path acc' +++ ".") = Ret (rst_size_init :: flat_map M cl', ca)) ->
  measure_members rs_style p rec lvl acc ms lines accum = Some (ls, z) ->
  rst_measure_members p g rec' (rs_path acc +++ ".") ms (rst_size_init :: flat_map M lines) accum =
    Ret (rst_size_init :: flat_map M ls, z).
Proof.
  induction ms as [ |m ms IH]; intros lines accum ls z D R E; cbn [measure_members] in E; cbn [rst_measure_members].
  - injection E as <- <-; reflexivity.
  - assert (next : forall lines' accum', measure_members rs_style p rec lvl acc ms lines' accum' = Some (ls, z) ->
      rst_measure_members p g rec' (rs_path acc +++ ".") ms (rst_size_init :: flat_map M lines') accum' =
        Ret (rst_size_init :: flat_map M ls, z)).
    { intros; apply IH; [intros; apply D; now right|exact R|assumption]. }
    assert (add : forall new L accum', measure_members rs_style p rec lvl acc ms (lines ++ new) accum' = Some (ls, z) ->
      L = flat_map M new ->
      rst_measure_members p g rec' (rs_path acc +++ ".") ms
        ((rst_size_init :: flat_map M lines) ++ L) accum' =
        Ret (rst_size_init :: flat_map M ls, z)).
    { intros new L a E' ->; cbn [app]; rewrite <- flat_map_app; now apply next. }
    clear IH; pose proof (D m (or_introl eq_refl)) as DM; clear D.
    rewrite (list_size p T), (string_size p T); cbv zeta in *.
    destruct (is_simple p (v_type m)) eqn:SI.
    + rewrite (simple_size p T _ (or_introl DM) SI); destruct (v_list m); [ |exact (next _ _ E)].
      eapply add; [exact E| ]. cbn [flat_map rs_mstmt rs_path]. same_text.
    + destruct (String.eqb (v_type m) "string") eqn:ST.
      * destruct (v_list m); (eapply add; [exact E| ]);
          cbn [flat_map rs_style st_utf16 st_strs rs_mstmt mfor elem_of rs_path Z.eqb];
          rewrite ?(string_size_positive p T); same_text.
      * destruct (variable_struct p T _ DM SI ST) as (s & LS & GS & NS); rewrite GS, LS in *; cbn [pbind].
        rewrite <- NS in SI. assert (DS : declares p (s_name s) s) by (rewrite NS; left; now apply lookup_In). destruct (v_list m).
        -- destruct (rec (1 + lvl)%nat s (elem_of (st_loop rs_style lvl (v_name m)) (MField acc (v_name m)))) as [[cl ca]| ] eqn:RC; [ |discriminate].
           destruct (R _ _ _ _ _ DS SI RC) as (cl' & -> & RT).
           cbn [st_loop rs_style elem_of rs_path cat fold_right] in RT; rewrite ?app_assoc_s, ?app_nil_s in *.
           recall rec' RT; cbn [pbind fst snd]; rewrite drop_first_line.
           eapply add; [exact E| ]; cbn [flat_map rs_style st_loop mfor drop_init rs_mstmt rs_path].
           rewrite flat_map_app, app_nil_r; cbn [flat_map rs_mstmt]. same_text.
        -- destruct (rec (st_deeper rs_style + lvl)%nat s (MField acc (v_name m))) as [[cl ca]| ] eqn:RC; [ |discriminate].
           destruct (R _ _ _ _ _ DS SI RC) as (cl' & -> & RT).
           cbn [rs_path cat fold_right] in RT; rewrite ?app_assoc_s, ?app_nil_s in *.
           recall rec' RT; cbn [pbind fst snd]; rewrite drop_first_line.
           eapply add; [exact E|reflexivity].
Qed.
Lemma rsx_measure d : forall lvl s acc ls z, declares p (s_name s) s -> is_simple p (s_name s) = false ->
  measure rs_style p d lvl s acc = Some (ls, z) ->
  exists ls', ls = MInit :: ls' /\
    rst_measure p g d s (rs_path acc +++ ".") = Ret (rst_size_init :: flat_map M ls', z).
Proof.
  induction d as [ |d IH]; intros lvl s acc ls z D SI E; cbn [measure] in E; rewrite SI in E; [discriminate| ].
  destruct (measure_members rs_style p (measure rs_style p d) lvl acc (s_members s) [] 0) as [[l a]| ] eqn:EM; [ |discriminate].
  injection E as <- <-; exists l; split; [reflexivity| ].
  cbn [rst_measure]; rewrite SI.
  eapply (rsx_measure_members (measure rs_style p d)) in EM; [exact EM| |intros; eapply IH; eassumption].
  intros m I; eapply (tk_types p T); eassumption.
Qed.
Lemma rsx_size n s size : declares p n s -> gen_size rs_style p 0 s = Some size ->
  exists ls z, rst_gen_measurement p g s "self." = Ret (ls, z) /\
    flat_map M size =
      ls ++ (if z >? 0 then [cat ["size += "; str_of_Z z; ";"]] else []) ++
      (if Z.of_nat (List.length ls) >? 1 then ["size"] else []).
Proof.
  intros D E; pose proof (tk_name p T n s D); subst n; unfold gen_size in E.
  destruct (measure rs_style p (depth_of p) 0 s MRoot) as [[l z]| ] eqn:EM; [ |discriminate].
  injection E as <-; unfold rst_gen_measurement.
  destruct (is_simple p (s_name s)) eqn:SI.
  - assert (K : known_type p (s_name s)) by (destruct D as [D|D]; [left; right; right; left|right]; now exists s).
    revert EM; unfold depth_of; cbn [measure rst_measure]; rewrite SI, (simple_size p T _ K SI); intro E; injection E as <- <-.
    eexists _, _; split; [reflexivity|now rewrite app_nil_s].
  - destruct (rsx_measure _ _ _ _ _ _ D SI EM) as (l' & -> & E).
    eexists _, _; split; [exact E| ].
    rewrite (many_lines _ l' MInit) by (intro x; destruct x; discriminate).
    rewrite !flat_map_app; destruct (z >? 0), (1 <? List.length (MInit :: l'))%nat; reflexivity.
Qed.


(** ** Whole structs *)

Lemma rsx_reads n s lvl : declares p n s ->
  exactly lvl (each (s_members s) (fun m => rst_deserializer p m ""))
    (flat_map (fun m => rs_member_text lvl m (rs_read p m)) (s_members s)) lvl.
Proof.
  intro D; apply exactly_each; intros m I; apply rsx_deserializer; eapply (tk_types p T); eassumption.
Qed.
Lemma rsx_writes n s lvl : declares p n s ->
  exactly lvl (each (s_members s) (fun m => rst_serializer p m "self."))
    (flat_map (fun m => flat_map (rs_wstmt p (mem (v_type m) (p_enums p)) lvl) (rs_write p m)) (s_members s)) lvl.
Proof.
  intro D; apply exactly_each; intros m I; apply rsx_serializer; eapply (tk_types p T); eassumption.
Qed.
End Link.
