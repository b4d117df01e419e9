(** The text for Go is the text of the programs in Go.v. *)
From Coq Require Import Lia.
From Verif Require Export GoSyntax SyntaxFacts GoTextFacts.
Open Scope string_scope.
Open Scope Z_scope.
Open Scope list_scope.

Section Link.
Variable p : protocol.
Variable g : settings.
Hypothesis T : text_ok p.
Hypothesis EN : forall t e, lookup t (p_enums p) = Some e -> ~ In t (base_types ++ ["string"]).

Lemma gox_types t : declared_type p t -> got_types p t = Ret (go_type_name t).
Proof.
  intro H; destruct (got_types_ok p t H) as [n G]; rewrite G; f_equal; revert G; clear H.
  unfold got_types, go_type_name, mapping; cbn [lookup]; destruct (in_dec string_dec t base_types) as [B|B].
  - destruct (table_entry go_types go_number t eq_refl B) as (k & K & E); unfold item in E.
    destruct (String.eqb t "string") eqn:ST; [apply String.eqb_eq in ST; subst t; discriminate K| ].
    destruct (lookup t go_types); [ |discriminate]; injection E as ->; rewrite K; congruence.
  - destruct (num_of t) eqn:K; [exfalso; apply B, num_of_base; eauto| ].
    destruct (lookup t go_types) eqn:L; [exfalso; apply B; apply lookup_In, (in_map fst) in L; exact L| ].
    destruct (String.eqb t "string") eqn:ST; [apply String.eqb_eq in ST; subst t; intro G; now injection G|destruct (in_strs t _); congruence].
Qed.
Lemma gox_number t : In t base_types ->
  exists k, num_of t = Some k /\ go_prim t = Some k /\ got_types p t = Ret (go_number k) /\ go_type_name t = go_number k.
Proof.
  intro B; destruct (table_entry go_types go_number t) as (k & K & E); [reflexivity|exact B| ].
  exists k; split; [exact K| ]; rewrite gox_types by now left. unfold go_type_name, go_prim; rewrite K.
  rewrite (prim_num go_types go_binary t eq_refl B), K; auto.
Qed.

Ltac same :=
  cbv [with_prim]; cbv [given at_level]; unfold go_member_text;
  cbn [flat_map app negb v_list v_type v_name go_stmt go_target go_try go_give_up go_wstmt go_source];
  unfold go_binary_read, go_binary_write; cbn [go_source];
  same_text.
Lemma gox_deserializer m obj message : declared_type p (v_type m) ->
  exactly 1 (got_deserializer p m obj (negb message) true) (go_member_text p obj message 1 m (go_read p m)) 1.
Proof.
  intro D; destruct (gox_number _ (tk_list p T)) as (kl & NL & PL & TL & CL).
  pose proof (gox_types (v_type m) D) as TT.
  unfold exactly, got_deserializer, got_deserializer_with, go_read, go_read_one, var_is_simple, mem.
  destruct m as [n t l]; cbn [v_name v_type v_list] in *.
  rewrite PL, TL, TT.
  destruct (lookup t (p_enums p)) as [e| ] eqn:L.
  - pose proof (EN t e L) as N; rewrite in_app_iff in N.
    destruct (String.eqb t "string") eqn:E; [exfalso; apply N; apply String.eqb_eq in E; subst t; right; now left| ].
    assert (K : num_of t = None) by (destruct (num_of t) eqn:K; [exfalso; apply N; left; apply num_of_base; eauto|reflexivity]).
    destruct (enum_text p t e T L) as [B _].
    destruct (gox_number _ B) as (k & NK & PK & TK & CK); rewrite PK.
    unfold go_type_name; rewrite K; destruct l, message; cbv [with_prim]; unfold go_member_text;
      cbn [flat_map app negb v_list v_type v_name go_stmt]; unfold go_type_name; rewrite ?K, ?NL; same.
  - destruct (String.eqb t "string") eqn:E; [destruct l, message; cbv [with_prim]; unfold go_member_text;
      cbn [flat_map app negb v_list v_type v_name go_stmt]; rewrite ?CL; same| ].
    destruct (is_simple p t); [destruct (go_prim t)| ]; destruct l, message; cbv [with_prim]; unfold go_member_text;
      cbn [flat_map app negb v_list v_type v_name go_stmt]; rewrite ?CL; same.
Qed.

Lemma gox_serializer m : declared_type p (v_type m) ->
  exactly 1 (got_serializer p m "output") (flat_map (go_wstmt p 1) (go_write p m)) 1.
Proof.
  intro D; destruct (gox_number _ (tk_list p T)) as (kl & NL & PL & TL & CL).
  unfold exactly, got_serializer, got_serializer_with, go_write, go_write_one, var_is_simple, mem, get_enum, item.
  destruct m as [n t l]; cbn [v_name v_type v_list] in *.
  rewrite PL, TL.
  destruct (lookup t (p_enums p)) as [e| ] eqn:L.
  - pose proof (EN t e L) as N; rewrite in_app_iff in N.
    destruct (String.eqb t "string") eqn:E; [exfalso; apply N; apply String.eqb_eq in E; subst t; right; now left| ].
    destruct (enum_text p t e T L) as [B _].
    destruct (gox_number _ B) as (k & NK & PK & TK & CK); rewrite PK.
    destruct l; cbv [with_prim]; cbn [flat_map app go_wstmt]; rewrite ?CL; same.
  - destruct (String.eqb t "string") eqn:E; [destruct l; cbv [with_prim]; cbn [flat_map app go_wstmt]; rewrite ?CL; same| ].
    destruct (is_simple p t); [destruct (go_prim t)| ]; destruct l; cbv [with_prim]; cbn [flat_map app go_wstmt]; rewrite ?CL; same.
Qed.

(** Measuring. *)
Notation M := (go_mstmt (g_tab g)).
Lemma gox_measure_members rec rec' lvl acc : forall ms lines accum ls z,
  (forall m, In m ms -> declared_type p (v_type m)) ->
  (forall s lvl' acc' cl ca, declares p (s_name s) s -> is_simple p (s_name s) = false -> rec lvl' s acc' = Some (cl, ca) ->
     exists cl', cl = MInit :: cl' /\
       rec' s (go_path acc' +++ ".") = Ret (got_size_init :: flat_map M cl', ca)) ->
  measure_members go_style p rec lvl acc ms lines accum = Some (ls, z) ->
  got_measure_members p g rec' (go_path acc +++ ".") ms (got_size_init :: flat_map M lines) accum =
    Ret (got_size_init :: flat_map M ls, z).
Proof.
  induction ms as [ |m ms IH]; intros lines accum ls z D R E; cbn [measure_members] in E; cbn [got_measure_members].
  - injection E as <- <-; reflexivity.
  - assert (next : forall lines' accum', measure_members go_style p rec lvl acc ms lines' accum' = Some (ls, z) ->
      got_measure_members p g rec' (go_path acc +++ ".") ms (got_size_init :: flat_map M lines') accum' =
        Ret (got_size_init :: flat_map M ls, z)).
    { intros; apply IH; [intros; apply D; now right|exact R|assumption]. }
    assert (add : forall new L accum', measure_members go_style p rec lvl acc ms (lines ++ new) accum' = Some (ls, z) ->
      L = flat_map M new ->
      got_measure_members p g rec' (go_path acc +++ ".") ms
        ((got_size_init :: flat_map M lines) ++ L) accum' =
        Ret (got_size_init :: flat_map M ls, z)).
    { intros new L a E' ->; cbn [app]; rewrite <- flat_map_app; now apply next. }
    clear IH; pose proof (D m (or_introl eq_refl)) as DM; clear D.
    rewrite (list_size p T), (string_size p T); cbv zeta in *.
    destruct (is_simple p (v_type m)) eqn:SI.
    + rewrite (simple_size p T _ (or_introl DM) SI); destruct (v_list m); [ |exact (next _ _ E)].
      eapply add; [exact E| ]. cbn [flat_map go_mstmt go_path]. same_text.
    + destruct (String.eqb (v_type m) "string") eqn:ST.
      * destruct (v_list m); (eapply add; [exact E| ]);
          cbn [flat_map go_style st_utf16 st_strs go_mstmt mfor elem_of go_path Z.eqb];
          rewrite ?(string_size_positive p T); same_text.
      * destruct (variable_struct p T _ DM SI ST) as (s & LS & GS & NS); rewrite GS, LS in *; cbn [pbind].
        rewrite <- NS in SI. assert (DS : declares p (s_name s) s) by (rewrite NS; left; now apply lookup_In). destruct (v_list m).
        -- destruct (rec (1 + lvl)%nat s (elem_of (st_loop go_style lvl (v_name m)) (MField acc (v_name m)))) as [[cl ca]| ] eqn:RC; [ |discriminate].
           destruct (R _ _ _ _ _ DS SI RC) as (cl' & -> & RT).
           cbn [st_loop go_style elem_of go_path cat fold_right] in RT; rewrite ?app_assoc_s, ?app_nil_s in *.
           recall rec' RT; cbn [pbind fst snd]; rewrite drop_first_line.
           eapply add; [exact E| ]; cbn [flat_map go_style st_loop mfor drop_init go_mstmt go_path].
           rewrite flat_map_app, app_nil_r; cbn [flat_map go_mstmt]. same_text.
        -- destruct (rec (st_deeper go_style + lvl)%nat s (MField acc (v_name m))) as [[cl ca]| ] eqn:RC; [ |discriminate].
           destruct (R _ _ _ _ _ DS SI RC) as (cl' & -> & RT).
           cbn [go_path cat fold_right] in RT; rewrite ?app_assoc_s, ?app_nil_s in *.
           recall rec' RT; cbn [pbind fst snd]; rewrite drop_first_line.
           eapply add; [exact E|reflexivity].
Qed.
Lemma gox_measure d : forall lvl s acc ls z, declares p (s_name s) s -> is_simple p (s_name s) = false ->
  measure go_style p d lvl s acc = Some (ls, z) ->
  exists ls', ls = MInit :: ls' /\
    got_measure p g d s (go_path acc +++ ".") = Ret (got_size_init :: flat_map M ls', z).
Proof.
  induction d as [ |d IH]; intros lvl s acc ls z D SI E; cbn [measure] in E; rewrite SI in E; [discriminate| ].
  destruct (measure_members go_style p (measure go_style p d) lvl acc (s_members s) [] 0) as [[l a]| ] eqn:EM; [ |discriminate].
  injection E as <- <-; exists l; split; [reflexivity| ].
  cbn [got_measure]; rewrite SI.
  eapply (gox_measure_members (measure go_style p d)) in EM; [exact EM| |intros; eapply IH; eassumption].
  intros m I; eapply (tk_types p T); eassumption.
Qed.
Lemma gox_size n s size : declares p n s -> gen_size go_style p 0 s = Some size ->
  exists ls z, got_gen_measurement p g s "output." = Ret (ls, z) /\
    flat_map M size =
      ls ++ (if z >? 0 then [cat ["size += "; str_of_Z z]] else []) ++
      (if Z.of_nat (List.length ls) >? 1 then ["return size"] else []).
Proof.
  intros D E; pose proof (tk_name p T n s D); subst n; unfold gen_size in E.
  destruct (measure go_style p (depth_of p) 0 s MRoot) as [[l z]| ] eqn:EM; [ |discriminate].
  injection E as <-; unfold got_gen_measurement.
  destruct (is_simple p (s_name s)) eqn:SI.
  - assert (K : known_type p (s_name s)) by (destruct D as [D|D]; [left; right; right; left|right]; now exists s).
    revert EM; unfold depth_of; cbn [measure got_measure]; rewrite SI, (simple_size p T _ K SI); intro E; injection E as <- <-.
    eexists _, _; split; [reflexivity|cbn [flat_map go_mstmt app]; same_text].
  - destruct (gox_measure _ _ _ _ _ _ D SI EM) as (l' & -> & E).
    eexists _, _; split; [exact E| ].
    rewrite (many_lines _ l' MInit) by (intro x; destruct x; discriminate).
    rewrite !flat_map_app; destruct (z >? 0), (1 <? List.length (MInit :: l'))%nat; reflexivity.
Qed.

(** ** Whole structs *)

Lemma gox_reads n s obj message : declares p n s ->
  exactly 1 (each (s_members s) (fun m => got_deserializer p m obj (negb message) true))
    (flat_map (fun m => go_member_text p obj message 1 m (go_read p m)) (s_members s)) 1.
Proof.
  intro D; apply exactly_each; intros m I; apply gox_deserializer; eapply (tk_types p T); eassumption.
Qed.
Lemma gox_writes n s : declares p n s ->
  exactly 1 (each (s_members s) (fun m => got_serializer p m "output"))
    (flat_map (fun m => flat_map (go_wstmt p 1) (go_write p m)) (s_members s)) 1.
Proof.
  intro D; apply exactly_each; intros m I; apply gox_serializer; eapply (tk_types p T); eassumption.
Qed.
End Link.
