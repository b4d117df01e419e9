(** The text for Swift is the text of the programs in Swift.v. *)
From Coq Require Import Lia.
From Verif Require Export SwiftSyntax SyntaxFacts SwiftTextFacts.
Open Scope string_scope.
Open Scope Z_scope.
Open Scope list_scope.

Section Link.
Variable p : protocol.
Variable g : settings.
Hypothesis T : text_ok p.
Hypothesis EN : forall t e, lookup t (p_enums p) = Some e -> ~ In t (base_types ++ ["string"]).

Lemma swx_types t : declared_type p t -> swt_types p t = Ret (sw_type_name t).
Proof.
  intro H; destruct (swt_types_ok p t H) as [n G]; rewrite G; f_equal; revert G; clear H.
  unfold swt_types, sw_type_name, mapping; cbn [lookup]; destruct (in_dec string_dec t base_types) as [B|B].
  - destruct (table_entry sw_types sw_number t eq_refl B) as (k & K & E); unfold item in E.
    destruct (String.eqb t "string") eqn:ST; [apply String.eqb_eq in ST; subst t; discriminate K| ].
    destruct (lookup t sw_types); [ |discriminate]; injection E as ->; rewrite K; congruence.
  - destruct (num_of t) eqn:K; [exfalso; apply B, num_of_base; eauto| ].
    destruct (String.eqb t "string"); [congruence| ].
    destruct (lookup t sw_types) eqn:L; [exfalso; apply B; apply lookup_In, (in_map fst) in L; exact L| ].
    destruct (in_strs t _); congruence.
Qed.
Lemma swx_number t : In t base_types ->
  exists k, num_of t = Some k /\ swt_types p t = Ret (sw_number k) /\ swt_lowered p t = Ret (sw_label_name k) /\
            sw_type_name t = sw_number k /\ sw_prim t = Some k /\ sw_label t = Some k.
Proof.
  intro B; destruct (table_entry sw_types sw_number t) as (k & K & E); [reflexivity|exact B| ].
  assert (TT : swt_types p t = Ret (sw_number k)).
  { rewrite swx_types by now left. unfold sw_type_name; now rewrite K. }
  exists k; split; [exact K|split; [exact TT| ]]; unfold swt_lowered, sw_type_name; rewrite TT, K.
  repeat split; try (rewrite <- K; apply prim_num; [reflexivity|exact B]); destruct k; reflexivity.
Qed.

Ltac same :=
  cbv [with_prim]; cbv [given at_level];
  cbn [flat_map app sw_stmts sw_stmt sw_tested sw_move sw_enum sw_guard sw_place sw_name sw_wstmt sw_source];
  rewrite ?String.eqb_refl;
  cbn [flat_map app sw_stmts sw_stmt sw_tested sw_move sw_enum sw_guard sw_place sw_name sw_wstmt sw_source];
  same_text.
Lemma string_no_number : mem "string" NUMERIC_TYPE_SIZES = false. Proof. reflexivity. Qed.
Lemma swx_deserializer obj m lvl : declared_type p (v_type m) ->
  exactly lvl (swt_deserializer p m (obj +++ ".")) (sw_stmts obj None lvl (sw_read p m)) lvl.
Proof.
  intro D; destruct (swx_number _ (tk_list p T)) as (kl & NL & TL & LL & _ & PL & _).
  pose proof (swx_types (v_type m) D) as TT.
  unfold exactly, swt_deserializer, swt_deserializer_with, sw_read, sw_read_one, get_enum, item.
  destruct m as [n t l]; cbn [v_name v_type v_list] in *.
  unfold mem; rewrite PL, TL.
  destruct (lookup t (p_enums p)) as [e| ] eqn:L.
  - destruct (enum_text p t e T L) as [B _].
    destruct (swx_number _ B) as (k & NK & TK & LK & CK & PK & _).
    cbv [given pbind]; rewrite PK, TK.
    destruct l; [same| ].
    destruct (lookup t NUMERIC_TYPE_SIZES) eqn:LN; cbn [orb].
    + assert (BT : In t base_types) by (apply mem_base; unfold mem; now rewrite LN).
      destruct (swx_number t BT) as (k' & _ & TK' & _ & _ & PK' & _).
      destruct (String.eqb t "string") eqn:E; [apply String.eqb_eq in E; subst t; discriminate LN| ].
      rewrite TK', PK'; same.
    + destruct (String.eqb t "string") eqn:E; [apply String.eqb_eq in E; subst t; rewrite TT| ]; same.
  - destruct (lookup t NUMERIC_TYPE_SIZES) eqn:LN; cbn [orb].
    + assert (BT : In t base_types) by (apply mem_base; unfold mem; now rewrite LN).
      destruct (swx_number t BT) as (k' & _ & TK' & _ & _ & PK' & _).
      destruct (String.eqb t "string") eqn:E; [apply String.eqb_eq in E; subst t; discriminate LN| ].
      rewrite TK', PK'; destruct l; same.
    + destruct (String.eqb t "string") eqn:E; [apply String.eqb_eq in E; subst t; rewrite TT| ]; destruct l; same.
Qed.

Lemma swx_serializer m lvl : declared_type p (v_type m) ->
  exactly lvl (swt_serializer p m "self.") (flat_map (sw_wstmt (mem (v_type m) (p_enums p)) lvl) (sw_write p m)) lvl.
Proof.
  intro D; destruct (swx_number _ (tk_list p T)) as (kl & NL & TL & LL & _ & _ & PL).
  unfold exactly, swt_serializer, swt_serializer_with, sw_write, sw_write_one, get_enum, item.
  destruct m as [n t l]; cbn [v_name v_type v_list] in *.
  rewrite TL, LL, PL; unfold mem.
  assert (ST : swt_lowered p "string" = Ret "string").
  { unfold swt_lowered; rewrite swx_types by (right; now left); reflexivity. }
  destruct (lookup t (p_enums p)) as [e| ] eqn:L.
  - pose proof (EN t e L) as N; rewrite in_app_iff in N.
    destruct (lookup t NUMERIC_TYPE_SIZES) eqn:LN; [exfalso; apply N; left; apply mem_base; unfold mem; now rewrite LN| ].
    destruct (String.eqb t "string") eqn:E; [exfalso; apply N; apply String.eqb_eq in E; subst t; right; now left| ].
    destruct (enum_text p t e T L) as [B _].
    destruct (swx_number _ B) as (k & NK & TK & LK & CK & _ & PK).
    cbv [given pbind orb]; rewrite PK, ?LK; destruct l; same.
  - destruct (lookup t NUMERIC_TYPE_SIZES) eqn:LN; cbn [orb].
    + assert (BT : In t base_types) by (apply mem_base; unfold mem; now rewrite LN).
      destruct (swx_number t BT) as (k & _ & _ & LK & _ & _ & PK).
      destruct (String.eqb t "string") eqn:E; [apply String.eqb_eq in E; subst t; discriminate LN| ].
      rewrite LK, PK; destruct l; same.
    + destruct (String.eqb t "string") eqn:E; [apply String.eqb_eq in E; subst t; rewrite ST| ]; destruct l; same.
Qed.

(** Measuring. *)
Notation M semi := (sw_mstmt (g_tab g) semi).
Lemma swx_measure_members rec rec' lvl acc semi : forall ms lines accum ls z,
  (forall m, In m ms -> declared_type p (v_type m)) ->
  (forall s lvl' acc' cl ca, declares p (s_name s) s -> is_simple p (s_name s) = false -> rec lvl' s acc' = Some (cl, ca) ->
     exists cl', cl = MInit :: cl' /\
       forall semi', rec' s (sw_path acc' +++ ".") = Ret (swt_size_init :: flat_map (M semi') cl', ca)) ->
  measure_members sw_style p rec lvl acc ms lines accum = Some (ls, z) ->
  swt_measure_members p g rec' (sw_path acc +++ ".") ms (swt_size_init :: flat_map (M semi) lines) accum =
    Ret (swt_size_init :: flat_map (M semi) ls, z).
Proof.
  induction ms as [ |m ms IH]; intros lines accum ls z D R E; cbn [measure_members] in E; cbn [swt_measure_members].
  - injection E as <- <-; reflexivity.
  - assert (next : forall lines' accum', measure_members sw_style p rec lvl acc ms lines' accum' = Some (ls, z) ->
      swt_measure_members p g rec' (sw_path acc +++ ".") ms (swt_size_init :: flat_map (M semi) lines') accum' =
        Ret (swt_size_init :: flat_map (M semi) ls, z)).
    { intros; apply IH; [intros; apply D; now right|exact R|assumption]. }
    assert (add : forall new L accum', measure_members sw_style p rec lvl acc ms (lines ++ new) accum' = Some (ls, z) ->
      L = flat_map (M semi) new ->
      swt_measure_members p g rec' (sw_path acc +++ ".") ms
        ((swt_size_init :: flat_map (M semi) lines) ++ L) accum' =
        Ret (swt_size_init :: flat_map (M semi) ls, z)).
    { intros new L a E' ->; cbn [app]; rewrite <- flat_map_app; now apply next. }
    clear IH; pose proof (D m (or_introl eq_refl)) as DM; clear D.
    rewrite (list_size p T), (string_size p T); cbv zeta in *.
    destruct (is_simple p (v_type m)) eqn:SI.
    + rewrite (simple_size p T _ (or_introl DM) SI); destruct (v_list m); [ |exact (next _ _ E)].
      eapply add; [exact E| ]. cbn [flat_map sw_mstmt sw_path]. same_text.
    + destruct (String.eqb (v_type m) "string") eqn:ST.
      * destruct (v_list m); (eapply add; [exact E| ]);
          cbn [flat_map sw_style st_utf16 st_strs sw_mstmt mfor elem_of sw_path Z.eqb];
          rewrite ?(string_size_positive p T); same_text.
      * destruct (variable_struct p T _ DM SI ST) as (s & LS & GS & NS); rewrite GS, LS in *; cbn [pbind].
        rewrite <- NS in SI. assert (DS : declares p (s_name s) s) by (rewrite NS; left; now apply lookup_In). destruct (v_list m).
        -- destruct (rec (1 + lvl)%nat s (elem_of (st_loop sw_style lvl (v_name m)) (MField acc (v_name m)))) as [[cl ca]| ] eqn:RC; [ |discriminate].
           destruct (R _ _ _ _ _ DS SI RC) as (cl' & -> & RT); specialize (RT "").
           cbn [st_loop sw_style elem_of sw_path cat fold_right] in RT; rewrite ?app_assoc_s, ?app_nil_s in *.
           recall rec' RT; cbn [pbind fst snd]; rewrite drop_first_line.
           eapply add; [exact E| ]; cbn [flat_map sw_style st_loop mfor drop_init sw_mstmt sw_path].
           rewrite flat_map_app, app_nil_r; cbn [flat_map sw_mstmt]. same_text.
        -- destruct (rec (st_deeper sw_style + lvl)%nat s (MField acc (v_name m))) as [[cl ca]| ] eqn:RC; [ |discriminate].
           destruct (R _ _ _ _ _ DS SI RC) as (cl' & -> & RT); specialize (RT semi).
           cbn [sw_path cat fold_right] in RT; rewrite ?app_assoc_s, ?app_nil_s in *.
           recall rec' RT; cbn [pbind fst snd]; rewrite drop_first_line.
           eapply add; [exact E|reflexivity].
Qed.
Lemma swx_measure d : forall lvl s acc ls z, declares p (s_name s) s -> is_simple p (s_name s) = false ->
  measure sw_style p d lvl s acc = Some (ls, z) ->
  exists ls', ls = MInit :: ls' /\
    forall semi, swt_measure p g d s (sw_path acc +++ ".") = Ret (swt_size_init :: flat_map (M semi) ls', z).
Proof.
  induction d as [ |d IH]; intros lvl s acc ls z D SI E; cbn [measure] in E; rewrite SI in E; [discriminate| ].
  destruct (measure_members sw_style p (measure sw_style p d) lvl acc (s_members s) [] 0) as [[l a]| ] eqn:EM; [ |discriminate].
  injection E as <- <-; exists l; split; [reflexivity|intro semi].
  cbn [swt_measure]; rewrite SI.
  eapply (swx_measure_members (measure sw_style p d)) in EM; [exact EM| |intros; eapply IH; eassumption].
  intros m I; eapply (tk_types p T); eassumption.
Qed.
Lemma swx_size n s size : declares p n s -> gen_size sw_style p 0 s = Some size ->
  exists ls z, swt_gen_measurement p g s "self." = Ret (ls, z) /\
    flat_map (M ";") size =
      ls ++ (if z >? 0 then [cat ["size += "; str_of_Z z; ";"]] else []) ++
      (if Z.of_nat (List.length ls) >? 1 then ["return UInt32(size)"] else []).
Proof.
  intros D E; pose proof (tk_name p T n s D); subst n; unfold gen_size in E.
  destruct (measure sw_style p (depth_of p) 0 s MRoot) as [[l z]| ] eqn:EM; [ |discriminate].
  injection E as <-; unfold swt_gen_measurement.
  destruct (is_simple p (s_name s)) eqn:SI.
  - assert (K : known_type p (s_name s)) by (destruct D as [D|D]; [left; right; right; left|right]; now exists s).
    revert EM; unfold depth_of; cbn [measure swt_measure]; rewrite SI, (simple_size p T _ K SI); intro E; injection E as <- <-.
    eexists _, _; split; reflexivity.
  - destruct (swx_measure _ _ _ _ _ _ D SI EM) as (l' & -> & E); specialize (E ";").
    eexists _, _; split; [exact E| ].
    rewrite (many_lines _ l' MInit) by (intro x; destruct x; discriminate).
    rewrite !flat_map_app; destruct (z >? 0), (1 <? List.length (MInit :: l'))%nat; reflexivity.
Qed.

(** ** Whole classes *)

Definition no_move (l : list rstmt) : Prop := match l with RMove _ _ :: _ => False | _ => True end.
Lemma sw_stmts_enum obj e lvl l : no_move l -> sw_stmts obj e lvl l = sw_stmts obj None lvl l.
Proof. intro N; destruct l as [ |a l]; [reflexivity|cbn [sw_stmts]; f_equal]; destruct a; try reflexivity; destruct N. Qed.
Lemma sw_stmts_app obj e lvl l1 l2 : no_move l2 -> sw_stmts obj e lvl (l1 ++ l2) = sw_stmts obj e lvl l1 ++ sw_stmts obj None lvl l2.
Proof.
  intro N; revert e; induction l1 as [ |a l1 IH]; intro e; cbn [app sw_stmts]; [now apply sw_stmts_enum| ].
  now rewrite IH, app_assoc.
Qed.
Lemma sw_read_no_move m : no_move (sw_read p m).
Proof.
  unfold sw_read, sw_read_one, with_prim; destruct (v_list m); [destruct (sw_prim _); exact I| ].
  destruct (_ || _); [destruct (String.eqb _ _); [exact I|destruct (sw_prim _); exact I]| ].
  destruct (lookup _ _); [destruct (sw_prim _); exact I|exact I].
Qed.
Lemma sw_stmts_members obj lvl ms :
  sw_stmts obj None lvl (flat_map (sw_read p) ms) = flat_map (fun m => sw_stmts obj None lvl (sw_read p m)) ms.
Proof.
  induction ms as [ |m ms IH]; cbn [flat_map]; [reflexivity| ].
  rewrite sw_stmts_app, IH; [reflexivity| ]; clear IH.
  induction ms as [ |m' ms IH]; [exact I|cbn [flat_map]].
  pose proof (sw_read_no_move m') as N.
  destruct (sw_read p m'); [exact IH|exact N].
Qed.
Lemma swx_reads n s lvl : declares p n s ->
  exactly lvl (each (s_members s) (fun m => given [| "n"; n; "." |] (fun x => swt_deserializer p m x)))
    (sw_stmts (cat ["n"; n]) None lvl (sw_reader p s)) lvl.
Proof.
  intro D; unfold sw_reader; rewrite sw_stmts_members; apply exactly_each; intros m I.
  eapply exactly_given; [reflexivity| ].
  assert (DM : declared_type p (v_type m)) by (eapply (tk_types p T); eassumption).
  pose proof (swx_deserializer (cat ["n"; n]) m lvl DM) as E; cbv [cat fold_right] in E |- *; rewrite ?app_assoc_s, ?app_nil_s in *; exact E.
Qed.
Lemma swx_writes n s lvl : declares p n s ->
  exactly lvl (each (s_members s) (fun m => swt_serializer p m "self."))
    (flat_map (fun m => flat_map (sw_wstmt (mem (v_type m) (p_enums p)) lvl) (sw_write p m)) (s_members s)) lvl.
Proof.
  intro D; apply exactly_each; intros m I; apply swx_serializer; eapply (tk_types p T); eassumption.
Qed.
End Link.
