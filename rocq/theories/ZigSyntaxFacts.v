(** The text for Zig is the text of the programs in Zig.v. *)
From Coq Require Import Lia.
From Verif Require Export ZigSyntax SyntaxFacts ZigTextFacts.
Open Scope string_scope.
Open Scope Z_scope.
Open Scope list_scope.

Section Link.
Variable p : protocol.
Variable g : settings.
Hypothesis T : text_ok p.
Hypothesis EN : forall t e, lookup t (p_enums p) = Some e -> ~ In t (base_types ++ ["string"]) /\ e_name e = t.
(** A type without a fixed size has something to measure. *)
Hypothesis ML : forall s lvl ls z, declares p (s_name s) s -> is_simple p (s_name s) = false ->
  measure zig_style p (depth_of p) lvl s MRoot = Some (ls, z) -> (1 <? List.length ls)%nat = true.

Lemma zgx_types t : declared_type p t -> zgt_types p t = Ret (zig_type_name t).
Proof.
  intro H; destruct (zgt_types_ok p t H) as [n G]; rewrite G; f_equal; revert G; clear H.
  unfold zgt_types, zig_type_name, mapping; cbn [lookup]; destruct (in_dec string_dec t base_types) as [B|B].
  - destruct (table_entry zig_types zig_number t eq_refl B) as (k & K & E); unfold item in E.
    destruct (String.eqb t "string") eqn:ST; [apply String.eqb_eq in ST; subst t; discriminate K| ].
    destruct (lookup t zig_types); [ |discriminate]; injection E as ->; rewrite K; congruence.
  - destruct (num_of t) eqn:K; [exfalso; apply B, num_of_base; eauto| ].
    destruct (String.eqb t "string"); [congruence| ].
    destruct (lookup t zig_types) eqn:L; [exfalso; apply B; apply lookup_In, (in_map fst) in L; exact L| ].
    destruct (in_strs t _); congruence.
Qed.
Lemma zgx_number t : In t base_types -> exists k, num_of t = Some k /\ zig_prim t = Some k /\ zig_type_name t = zig_number k.
Proof.
  intro B; destruct (table_entry zig_types zig_number t) as (k & K & E); [reflexivity|exact B| ].
  exists k; split; [exact K|split]; [unfold zig_prim; now rewrite prim_num|unfold zig_type_name; now rewrite K].
Qed.
Lemma zgx_enum_type t e : lookup t (p_enums p) = Some e ->
  String.eqb t "string" = false /\ mem t NUMERIC_TYPE_SIZES = false /\ zig_type_name t = t /\ exists k, zig_prim (e_encoding e) = Some k.
Proof.
  intro L; destruct (EN t e L) as [N _]; rewrite in_app_iff in N.
  destruct (enum_text p t e T L) as [B _]; destruct (zgx_number _ B) as (k & _ & PK & _).
  assert (E : String.eqb t "string" = false) by (apply String.eqb_neq; intros ->; apply N; right; now left).
  destruct (number_or_not t) as [[B' _]|[K M]]; [exfalso; auto| ].
  unfold zig_type_name; rewrite K, E, M; repeat split; eauto.
Qed.

Ltac same := cbv [with_prim given]; cbn [flat_map app zig_read_text zig_wstmt]; unfold zig_take, zig_local; cbn [zig_source]; same_text.
Lemma zgx_deserializer s m off lvl : declared_type p (v_type m) ->
  exactly lvl (zgt_deserializer p m (s_name s) false off) (zig_read_text p lvl (zig_read p s m)) lvl.
Proof.
  intro D; unfold exactly, zgt_deserializer, zig_read, var_is_simple.
  destruct m as [n t l]; cbn [v_name v_type v_list] in *; rewrite (zgx_types t D); unfold mem at 2.
  destruct l; [same| ].
  destruct (lookup t (p_enums p)) as [e| ] eqn:L.
  - destruct (zgx_enum_type t e L) as (E & M & TN & k & PK); rewrite M, PK, TN; same.
  - destruct (number_or_not t) as [[B M]|[K M]]; rewrite M.
    + destruct (zgx_number t B) as (k & _ & PK & TN); rewrite PK, TN; same.
    + destruct (String.eqb t "string"); [same| ]. cbn [orb].
      destruct (is_simple p t) eqn:S; cbv [with_prim]; cbn [zig_read_text]; rewrite S; same.
Qed.
Lemma zgx_serializer m off lvl : declared_type p (v_type m) ->
  exactly lvl (zgt_serializer p m "self." false off) (flat_map (zig_wstmt p lvl (v_type m)) (zig_write p m)) lvl.
Proof.
  intro D; unfold exactly, zgt_serializer, zig_write.
  destruct m as [n t l]; cbn [v_name v_type v_list] in *; rewrite (zgx_types t D).
  destruct l; [same| ].
  destruct (lookup t (p_enums p)) as [e| ] eqn:L.
  - destruct (zgx_enum_type t e L) as (E & M & TN & k & PK); rewrite M, PK, TN.
    cbv [with_prim]; cbn [flat_map app zig_wstmt]; unfold mem; rewrite L; same.
  - assert (ME : mem t (p_enums p) = false) by (unfold mem; now rewrite L).
    destruct (number_or_not t) as [[B M]|[K M]]; rewrite M.
    + destruct (zgx_number t B) as (k & _ & PK & TN); rewrite PK, TN.
      cbv [with_prim]; cbn [flat_map app zig_wstmt orb]; rewrite ME; same.
    + rewrite ME; destruct (String.eqb t "string"); same.
Qed.

(** The loops over the members. *)
Fixpoint loop_text (simple : bool) (F : var -> Z -> list out_line) (R : Z -> list out_line) (ms : list var) (off : Z) : list out_line :=
  match ms with
  | [] => R off
  | m :: r => F m off ++ loop_text simple F R r (if simple then off + size_of p (v_type m) else off)
  end.
Lemma zgx_loop simple f rest F R lvl : forall ms off,
  (forall m, In m ms -> simple = true -> get_size_of p (v_type m) = Ret (size_of p (v_type m))) ->
  (forall m off, In m ms -> exactly lvl (f m off) (F m off) lvl) ->
  (forall off, exactly lvl (rest off) (R off) lvl) ->
  exactly lvl (zgt_loop p simple off ms f rest) (loop_text simple F R ms off) lvl.
Proof.
  induction ms as [ |m ms IH]; intros off S Hf Hr; cbn [zgt_loop loop_text]; [apply Hr| ].
  assert (N : forall o, exactly lvl (zgt_loop p simple o ms f rest) (loop_text simple F R ms o) lvl).
  { intro o; apply IH; [intros; apply S; auto; now right|intros; apply Hf; now right|exact Hr]. }
  unfold exactly, andthen; rewrite (Hf m off (or_introl eq_refl)); cbn [pbind fst snd].
  destruct simple.
  - unfold given; rewrite (S m (or_introl eq_refl) eq_refl); cbn [pbind]; rewrite N; reflexivity.
  - rewrite N; reflexivity.
Qed.
Lemma loop_text_flat F R : forall ms off, loop_text false F R ms off = flat_map (fun m => F m off) ms ++ R off.
Proof. induction ms as [ |m ms IH]; intro off; cbn [loop_text flat_map app]; [reflexivity|now rewrite IH, app_assoc]. Qed.
Lemma loop_text_const simple F R ms : forall off, (forall m o, F m o = F m 0) -> (forall o, R o = R 0) ->
  loop_text simple F R ms off = flat_map (fun m => F m 0) ms ++ R 0.
Proof.
  induction ms as [ |m ms IH]; intros off HF HR; cbn [loop_text flat_map app]; [apply HR| ].
  now rewrite IH, HF, app_assoc by assumption.
Qed.
Lemma zgx_member_size n s : declares p n s -> forall m, In m (s_members s) -> is_simple p (s_name s) = true ->
  get_size_of p (v_type m) = Ret (size_of p (v_type m)).
Proof.
  intros D m I S; rewrite (tk_name p T n s D) in S; apply (simple_size p T).
  - left; eapply (tk_types p T); eassumption.
  - eapply (tk_fixed p T); eassumption.
Qed.

(** Structs of fixed size. *)
Definition at_read (lvl : Z) (s : struct) (m : var) (off : Z) : list out_line :=
  match zig_read_at p s off m with
  | [st] =>
      match st with
       | RNumAt (DLocal x) k o => [(lvl, cat ["const "; x; " = (try readNumber("; zig_number k; ", offset + "; str_of_Z o; ", buffer)).value;"])]
       | REnumAt (DLocal x) e o => [(lvl, cat ["const "; x; " = (try readNumber("; e; ", offset + "; str_of_Z o; ", buffer)).value;"])]
       | _ =>
           let x := zig_local s m in
           [(lvl, cat ["const "; x; "_read = "; v_type m; ".fromBytes(offset + "; str_of_Z off; ", buffer);"]);
            (lvl, cat ["const "; x; " = "; x; "_read.value;"])]
       end
  | _ => []
  end.
Lemma zgx_deserializer_at s m off lvl : declared_type p (v_type m) ->
  exactly lvl (zgt_deserializer p m (s_name s) true off) (at_read lvl s m off) lvl.
Proof.
  intro D; unfold exactly, zgt_deserializer, at_read, zig_read_at, get_enum, item.
  destruct m as [n t l]; cbn [v_name v_type v_list] in *; rewrite (zgx_types t D).
  destruct (number_or_not t) as [[B M]|[K M]]; rewrite M.
  - destruct (zgx_number t B) as (k & _ & PK & TN); rewrite PK, TN; cbv [with_prim]; unfold zig_local; same_text.
  - unfold mem; destruct (lookup t (p_enums p)); unfold zig_local; cbv [given]; same_text.
Qed.
Lemma zgx_at_text lvl s rest : forall ms off,
  loop_text true (at_read lvl s) (fun off => zig_at_text p lvl s off [] rest) ms off = zig_at_text p lvl s off ms (zig_read_simple p s off ms ++ rest).
Proof.
  induction ms as [ |m ms IH]; intro off; cbn [loop_text zig_read_simple app]; [reflexivity| ].
  rewrite IH, <- app_assoc; unfold at_read, zig_read_at.
  destruct (number_or_not (v_type m)) as [[B M]|[K M]]; rewrite M.
  - destruct (zgx_number _ B) as (k & _ & PK & TN); rewrite PK; reflexivity.
  - destruct (mem (v_type m) (p_enums p)); reflexivity.
Qed.
Lemma zgx_serializer_at m off lvl : declared_type p (v_type m) ->
  exactly lvl (zgt_serializer p m "self." true off) (flat_map (zig_at_wstmt lvl) (zig_write_at off m)) lvl.
Proof.
  intro D; unfold exactly, zgt_serializer, zig_write_at.
  destruct m as [n t l]; cbn [v_name v_type v_list] in *; rewrite (zgx_types t D).
  destruct (number_or_not t) as [[B M]|[K M]]; rewrite M; [ |reflexivity].
  destruct (zgx_number t B) as (k & _ & PK & TN); rewrite PK, TN; cbv [with_prim]; cbn [flat_map app zig_at_wstmt zig_source]; same_text.
Qed.
Lemma zgx_at_wtext lvl : forall ms off,
  loop_text true (fun m off => flat_map (zig_at_wstmt lvl) (zig_write_at off m)) (fun off => zig_at_wstmt lvl (WAdvance off)) ms off =
  flat_map (zig_at_wstmt lvl) (zig_write_simple p off ms).
Proof.
  induction ms as [ |m ms IH]; intro off; cbn [loop_text zig_write_simple]; [now cbn [flat_map]; rewrite app_nil_r| ].
  now rewrite IH, flat_map_app.
Qed.

(** Measuring. *)
Notation M := (zig_mstmt (g_tab g)).
Lemma zgx_measure_members rec rec' lvl acc : forall ms lines accum ls z,
  (forall m, In m ms -> declared_type p (v_type m)) ->
  (forall s lvl' acc' cl ca, declares p (s_name s) s -> is_simple p (s_name s) = false -> rec lvl' s acc' = Some (cl, ca) ->
     exists cl', cl = MInit :: cl' /\
       rec' s (zig_path acc' +++ ".") (Z.of_nat lvl') = Ret (zgt_size_init :: flat_map M cl', ca)) ->
  measure_members zig_style p rec lvl acc ms lines accum = Some (ls, z) ->
  zgt_measure_members p g rec' (zig_path acc +++ ".") (Z.of_nat lvl) ms (zgt_size_init :: flat_map M lines) accum =
    Ret (zgt_size_init :: flat_map M ls, z).
Proof.
  induction ms as [ |m ms IH]; intros lines accum ls z D R E; cbn [measure_members] in E; cbn [zgt_measure_members].
  - injection E as <- <-; reflexivity.
  - assert (next : forall lines' accum', measure_members zig_style p rec lvl acc ms lines' accum' = Some (ls, z) ->
      zgt_measure_members p g rec' (zig_path acc +++ ".") (Z.of_nat lvl) ms (zgt_size_init :: flat_map M lines') accum' =
        Ret (zgt_size_init :: flat_map M ls, z)).
    { intros; apply IH; [intros; apply D; now right|exact R|assumption]. }
    assert (add : forall new L accum', measure_members zig_style p rec lvl acc ms (lines ++ new) accum' = Some (ls, z) ->
      L = flat_map M new ->
      zgt_measure_members p g rec' (zig_path acc +++ ".") (Z.of_nat lvl) ms
        ((zgt_size_init :: flat_map M lines) ++ L) accum' =
        Ret (zgt_size_init :: flat_map M ls, z)).
    { intros new L a E' ->; cbn [app]; rewrite <- flat_map_app; now apply next. }
    clear IH; pose proof (D m (or_introl eq_refl)) as DM; clear D.
    rewrite (list_size p T), (string_size p T); cbv zeta in *.
    destruct (is_simple p (v_type m)) eqn:SI.
    + rewrite (simple_size p T _ (or_introl DM) SI); destruct (v_list m); [ |exact (next _ _ E)].
      eapply add; [exact E| ]. cbn [flat_map zig_mstmt zig_path]. same_text.
    + destruct (String.eqb (v_type m) "string") eqn:ST.
      * destruct (v_list m); (eapply add; [exact E| ]);
          cbn [flat_map zig_style st_utf16 st_strs zig_mstmt mfor elem_of zig_path Z.eqb];
          rewrite ?(string_size_positive p T); same_text.
      * destruct (variable_struct p T _ DM SI ST) as (s & LS & GS & NS); rewrite GS, LS in *; cbn [pbind].
        rewrite <- NS in SI. assert (DS : declares p (s_name s) s) by (rewrite NS; left; now apply lookup_In). destruct (v_list m).
        -- destruct (rec (1 + lvl)%nat s (elem_of (st_loop zig_style lvl (v_name m)) (MField acc (v_name m)))) as [[cl ca]| ] eqn:RC; [ |discriminate].
           destruct (R _ _ _ _ _ DS SI RC) as (cl' & -> & RT).
           cbn [st_loop zig_style elem_of zig_path cat fold_right] in RT; rewrite ?app_assoc_s, ?app_nil_s in *.
           replace (Z.of_nat (1 + lvl)) with (Z.of_nat lvl + 1) in RT by lia; rewrite <- str_of_nat in RT.
           recall3 rec' RT; cbn [pbind fst snd]; rewrite drop_first_line.
           eapply add; [exact E| ]; cbn [flat_map zig_style st_loop mfor drop_init zig_mstmt zig_path].
           rewrite flat_map_app, app_nil_r; cbn [flat_map zig_mstmt]. same_text.
        -- destruct (rec (st_deeper zig_style + lvl)%nat s (MField acc (v_name m))) as [[cl ca]| ] eqn:RC; [ |discriminate].
           destruct (R _ _ _ _ _ DS SI RC) as (cl' & -> & RT).
           cbn [zig_path cat fold_right st_deeper zig_style] in RT; rewrite ?app_assoc_s, ?app_nil_s in *.
           replace (Z.of_nat (1 + lvl)) with (Z.of_nat lvl + 1) in RT by lia.
           recall3 rec' RT; cbn [pbind fst snd]; rewrite drop_first_line.
           eapply add; [exact E|reflexivity].
Qed.
Lemma zgx_measure d : forall lvl s acc ls z, declares p (s_name s) s -> is_simple p (s_name s) = false ->
  measure zig_style p d lvl s acc = Some (ls, z) ->
  exists ls', ls = MInit :: ls' /\
    zgt_measure p g d s (zig_path acc +++ ".") (Z.of_nat lvl) = Ret (zgt_size_init :: flat_map M ls', z).
Proof.
  induction d as [ |d IH]; intros lvl s acc ls z D SI E; cbn [measure] in E; rewrite SI in E; [discriminate| ].
  destruct (measure_members zig_style p (measure zig_style p d) lvl acc (s_members s) [] 0) as [[l a]| ] eqn:EM; [ |discriminate].
  injection E as <- <-; exists l; split; [reflexivity| ].
  cbn [zgt_measure]; rewrite SI.
  eapply (zgx_measure_members (measure zig_style p d)) in EM; [exact EM| |intros; eapply IH; eassumption].
  intros m I; eapply (tk_types p T); eassumption.
Qed.
Lemma zgx_size_simple n s size : declares p n s -> is_simple p (s_name s) = true -> gen_size zig_style p 0 s = Some size ->
  flat_map M size = [cat ["return "; str_of_Z (size_of p (s_name s)); ";"]].
Proof.
  intros D SI; unfold gen_size, depth_of; cbn [measure]; rewrite SI; intro E; injection E as <-; reflexivity.
Qed.
Lemma zgx_size n s size : declares p n s -> is_simple p (s_name s) = false -> gen_size zig_style p 0 s = Some size ->
  exists ls z, zgt_gen_measurement p g s "self." 0 = Ret (ls, z) /\
    flat_map M size = ls ++ (if z >? 0 then [cat ["size += "; str_of_Z z; ";"]] else []) ++ ["return size;"].
Proof.
  intros D SI E; pose proof (tk_name p T n s D); subst n; unfold gen_size in E.
  destruct (measure zig_style p (depth_of p) 0 s MRoot) as [[l z]| ] eqn:EM; [ |discriminate].
  injection E as <-; unfold zgt_gen_measurement.
  rewrite (ML s 0%nat l z D SI EM).
  destruct (zgx_measure _ _ _ _ _ _ D SI EM) as (l' & -> & E).
  eexists _, _; split; [exact E| ].
  rewrite !flat_map_app; destruct (z >? 0); reflexivity.
Qed.

(** ** Whole structs *)

Lemma zgx_reads n s lvl : declares p n s -> is_simple p (s_name s) = false ->
  exactly lvl (zgt_loop p false (-1) (s_members s) (fun m off => zgt_deserializer p m (s_name s) false off) (fun _ => skip))
    (flat_map (fun m => zig_read_text p lvl (zig_read p s m)) (s_members s)) lvl.
Proof.
  intros D SI; eapply exactly_eq;
    [apply (zgx_loop false _ _ (fun m _ => zig_read_text p lvl (zig_read p s m)) (fun _ => [])) | |reflexivity].
  - discriminate.
  - intros m o I; apply zgx_deserializer; eapply (tk_types p T); eassumption.
  - reflexivity.
  - now rewrite loop_text_flat, app_nil_r.
Qed.
Lemma zgx_writes simple off n s lvl : declares p n s -> simple = is_simple p (s_name s) ->
  exactly lvl (zgt_loop p simple off (s_members s) (fun m off => zgt_serializer p m "self." false off)
                 (fun _ => block [blank; line [| "return local_offset - offset;" |]]))
    (flat_map (fun m => flat_map (zig_wstmt p lvl (v_type m)) (zig_write p m)) (s_members s) ++
     [(lvl, ""); (lvl, "return local_offset - offset;")]) lvl.
Proof.
  intros D SI; eapply exactly_eq;
    [apply (zgx_loop simple _ _ (fun m _ => flat_map (zig_wstmt p lvl (v_type m)) (zig_write p m))
              (fun _ => [(lvl, ""); (lvl, "return local_offset - offset;")])) | |reflexivity].
  - intros m I S; eapply zgx_member_size; [exact D|exact I|congruence].
  - intros m o I; apply zgx_serializer; eapply (tk_types p T); eassumption.
  - reflexivity.
  - now rewrite loop_text_const.
Qed.
Lemma zgx_writes_at n s lvl : declares p n s -> is_simple p (s_name s) = true -> s_is_message s = false ->
  exactly lvl (zgt_loop p true 0 (s_members s) (fun m off => zgt_serializer p m "self." true off)
                 (fun off => line [| "return "; str_of_Z off; ";" |]))
    (flat_map (zig_at_wstmt lvl) (zig_writer p s)) lvl.
Proof.
  intros D SI NM; unfold zig_writer; rewrite SI, NM; cbn [andb negb]; rewrite <- zgx_at_wtext.
  apply zgx_loop.
  - intros m I S; eapply zgx_member_size; eassumption.
  - intros m o I; apply zgx_serializer_at; eapply (tk_types p T); eassumption.
  - intro o; unfold exactly; cbn [zig_at_wstmt]; same_text.
Qed.
(** The reading of a struct of fixed size, up to its end. *)
Lemma zgx_reads_at n s lvl : declares p n s -> is_simple p (s_name s) = true ->
  exists ls, exactly lvl (zgt_loop p true 0 (s_members s) (fun m off => zgt_deserializer p m (s_name s) true off) (fun _ => skip)) ls lvl /\
    zig_at_text p lvl s 0 (s_members s) (zig_reader p s) =
    ls ++ zig_build_text lvl s (map (fun m => (v_name m, zig_local s m)) (s_members s)) (str_of_Z (size_of p (s_name s))).
Proof.
  intros D SI; exists (loop_text true (at_read lvl s) (fun _ => []) (s_members s) 0); split.
  - apply zgx_loop.
    + intros m I S; eapply zgx_member_size; eassumption.
    + intros m o I; apply zgx_deserializer_at; eapply (tk_types p T); eassumption.
    + reflexivity.
  - unfold zig_reader; rewrite SI, <- zgx_at_text; generalize 0.
    cbn [zig_at_text]; generalize (zig_build_text lvl s (map (fun m => (v_name m, zig_local s m)) (s_members s)) (str_of_Z (size_of p (s_name s)))).
    intro rest; induction (s_members s) as [ |m ms IH]; intro off; cbn [loop_text].
    + cbn [app]. reflexivity.
    + rewrite <- app_assoc; f_equal; apply IH.
Qed.
End Link.
