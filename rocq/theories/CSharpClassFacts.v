(** The file for C# has the programs of CSharp.v. *)
From Coq Require Import Lia.
From Verif Require Export CSharpSyntaxFacts.
Open Scope string_scope.
Open Scope Z_scope.
Open Scope list_scope.

Section Classes.
Variable p : protocol.
Variable g : settings.
Hypothesis T : text_ok p.
Hypothesis ND : forall n s, declares p n s -> NoDup (map v_name (s_members s)).
Hypothesis FS : forall n s, declares p n s -> find_struct p n = Some s.
Hint Resolve cst_types_ok cst_types_base cst_types_name cst_deserializers_ok cst_deserializers_mem cst_gen_measurement_ok : text.

Lemma csx_field n m : declared_type p (v_type m) ->
  exactly n
    (if v_list m then
       line [| "public List<"; cst_types p (v_type m); "> "; v_name m; " = new List<"; cst_types p (v_type m); ">();" |]
     else given (if String.eqb (v_type m) "string" then Ret (Some """""")
                 else if mem (v_type m) (p_enums p) then
                   e <- get_enum p (v_type m) ;; d <- [| v_type m; "."; default_name e |] ;; Ret (Some d)
                 else if mem (v_type m) (p_structs p) then d <- [| "new "; v_type m; "()" |] ;; Ret (Some d)
                 else Ret None) (fun default =>
       line [| "public "; cst_types p (v_type m); " "; v_name m;
               match default with Some d => [| " = "; d |] | None => lit "" end; ";" |]))
    [(n, cat ["public "; (if v_list m then cat ["List<"; cs_type_name (v_type m); ">"] else cs_type_name (v_type m));
              " "; v_name m; cs_initialiser p m; ";"])] n.
Proof.
  intro D; rewrite (csx_types p) by now left.
  unfold cs_initialiser, exactly; destruct (v_list m); [same_text| ].
  destruct (String.eqb _ "string"); [same_text| ].
  unfold mem, get_enum, item, default_name; destruct (lookup (v_type m) (p_enums p)) as [e| ] eqn:L.
  - destruct (tk_enums p T _ _ (lookup_In _ _ _ L)) as [_ V].
    cbv [given pbind]; unfold get_default_pair; destruct (e_values e) as [ |[a b] r]; [congruence| ].
    cbn [hd_error of_option pbind pcat lit str_of fst]; same_text.
  - destruct (lookup (v_type m) (p_structs p)); same_text.
Qed.

Ltac field_piece :=
  eapply exactly_eq;
    [exact_piece; apply exactly_map; intros m I; apply csx_field; eapply (tk_types p T); eassumption
    |cbn [app]; rewrite <- ?app_assoc, ?app_nil_r; reflexivity
    |reflexivity].
Ltac size_piece EM :=
  eapply exactly_eq;
    [exact_piece; eapply exactly_given; [exact EM| ]; cbv beta iota; exact_piece; apply exactly_when; compute_text; reflexivity
    |rewrite !at_lvl_app, <- !app_assoc, ?level_back; reflexivity
    |reflexivity].
Lemma csx_struct lvl n s size : declares p n s -> gen_size cs_style p (lvl + 2) s = Some size ->
  steps (Z.of_nat lvl) (cst_gen_struct p g n s)
    ([cs_fields_text p (Z.of_nat lvl) s] ++
     (if s_is_message s then [cs_size_text p (Z.of_nat lvl + 1) s (g_tab g) size] else []) ++
     [cs_from_bytes_text p (Z.of_nat lvl + 1) s
        (flat_map (cs_read p (lvl + (if s_is_message s then 3 else 2))) (s_members s));
      cs_write_bytes_text p (Z.of_nat lvl + 1) s (cs_write p)]) (Z.of_nat lvl).
Proof.
  intros D GS; destruct (csx_size p g T ND FS n s (lvl + 2) size D GS) as (ml & mz & EM & ES).
  replace (Z.of_nat (lvl + 2)) with (Z.of_nat lvl + 1 + 1) in EM by lia.
  pose proof (tk_name p T n s D) as N.
  unfold cst_gen_struct, cs_fields_text, cs_from_bytes_text, cs_write_bytes_text, cs_size_text; rewrite N, ES; destruct (s_is_message s) eqn:M;
    cbn [app]; piece 4%nat; [field_piece| |field_piece| ].
  - walk_to "public override int GetSizeInBytes()"; piece 4%nat.
    { size_piece EM. }
    walk_to "public static "; piece 10%nat.
    { eapply exactly_eq; [exact_piece; apply (csx_reads p T _ _ (lvl + 3)%nat); [exact D|lia]
       |rewrite ?level_back; replace (Z.of_nat lvl + 1 + 2) with (Z.of_nat lvl + 1 + 1 + 1) by lia;
        cbn [app]; rewrite <- ?app_assoc; reflexivity|reflexivity]. }
    walk_to "public override void WriteBytes(BinaryWriter bw, bool tag)"; rewrite ?level_back; piece 12%nat.
    { eapply exactly_eq; [exact_piece; eapply csx_writes; [exact T|exact D]
       |rewrite ?level_back; cbn [app cat fold_right]; rewrite <- ?app_assoc, ?app_nil_s; reflexivity|reflexivity]. }
    rewrite ?level_back; walk.
  - walk_to "public static "; piece 10%nat.
    { eapply exactly_eq; [exact_piece; apply (csx_reads p T _ _ (lvl + 2)%nat); [exact D|lia]
       |rewrite ?level_back; cbn [app]; rewrite <- ?app_assoc; reflexivity|reflexivity]. }
    walk_to "public void WriteBytes(BinaryWriter bw)"; rewrite ?level_back; piece 6%nat.
    { eapply exactly_eq; [exact_piece; eapply csx_writes; [exact T|exact D]
       |rewrite ?level_back; cbn [app cat fold_right]; rewrite <- ?app_assoc, ?app_nil_s; reflexivity|reflexivity]. }
    rewrite ?level_back; walk.
Qed.

Lemma csx_enum n e lvl : In (n, e) (p_enums p) -> steps lvl (cst_gen_enum p n e) [cs_enum_text lvl n e] lvl.
Proof.
  intro I; destruct (tk_enums p T _ _ I) as [B _].
  unfold cst_gen_enum, cs_enum_text; rewrite (csx_types_base p _ B); piece 6%nat.
  { eapply exactly_eq;
    [exact_piece; apply (exactly_map _ _ _ (fun v => (lvl + 1, cat [fst v; " = "; str_of_Z (snd v); ","]))); intros [v z] _; compute_text; reflexivity
    |rewrite ?level_back; compute_text; rewrite ?app_nil_s; reflexivity|reflexivity]. }
  rewrite ?level_back; walk.
Qed.
Lemma csx_tags (l : list (string * struct)) lvl :
  exactly lvl (block [line "public enum MessageType"; line "{"; indent;
                      each (enumerate l) (fun '(i, k) => line [| k; "Type = "; str_of_Z (i + 1); "," |]);
                      dedent; line "}"])
    (cs_tags_text lvl (count_from 1 l)) lvl.
Proof.
  unfold cs_tags_text; rewrite <- (each_number (fun t => (lvl + 1, cat [snd t; "Type = "; str_of_Z (fst t); ","]))).
  eapply exactly_eq;
    [exact_piece; apply (exactly_map _ _ _ (fun x => (lvl + 1, cat [snd x; "Type = "; str_of_Z (fst x + 1); ","])));
     intros [i k] _; compute_text; reflexivity
    |rewrite ?level_back; reflexivity|apply level_back].
Qed.
Lemma csx_class lvl n s : declares p n s -> lvl = (if has_namespace g then 1 else 0) ->
  steps lvl (cst_gen_struct p g n s) (cs_class p g lvl s) lvl.
Proof.
  intros D L; destruct (gen_size_defined cs_style p T (if has_namespace g then 3 else 2) n s D) as [size GS].
  pose proof (csx_struct (if has_namespace g then 1 else 0)%nat n s size D) as H.
  unfold cs_class; cbv zeta; rewrite GS.
  replace (Z.of_nat (if has_namespace g then 1 else 0)) with lvl in H by (subst lvl; now destruct (has_namespace g)).
  revert GS H; unfold cs_reader, cs_level.
  destruct (has_namespace g), (s_is_message s); intros GS H; exact (H GS).
Qed.

Lemma csx_generate : steps 0 (cst_generate p g) (cs_file p g) 0.
Proof.
  unfold cst_generate, cs_file; cbv zeta; cbn [app]; rewrite flat_map_app.
  assert (LE : forall lvl, steps lvl (each (p_enums p) (fun '(ename, e) => cst_gen_enum p ename e))
                 (map (fun e => cs_enum_text lvl (fst e) (snd e)) (p_enums p)) lvl).
  { intro lvl; rewrite <- flat_map_map_one; apply steps_all; intros [n e] I; now apply csx_enum. }
  assert (LC : forall l lvl, (forall n s, In (n, s) l -> declares p n s) -> lvl = (if has_namespace g then 1 else 0) ->
                 steps lvl (each l (fun '(n, s) => cst_gen_struct p g n s))
                 (flat_map (fun s => cs_class p g lvl (snd s)) l) lvl).
  { intros l lvl D L; apply steps_all; intros [n s] I; apply csx_class; auto. }
  pose proof (LC (p_structs p) _ (fun n s I => or_introl I) eq_refl) as LS.
  pose proof (LC (p_messages p) _ (fun n s I => or_intror I) eq_refl) as LM; clear LC.
  destruct (has_namespace g) eqn:U; cbn [when] in *;
    walk_to "public enum MessageType"; over; over; walk_to "public enum MessageType"; over; walk_to "public enum MessageType";
    (piece 6%nat; [exact (csx_tags _ _)| ]); walk;
    (eapply steps_cons; [apply LE| ]); (eapply steps_cons; [apply LS| ]);
    rewrite <- (app_nil_r (flat_map _ (p_messages p))); (eapply steps_cons; [apply LM| ]); walk.
Qed.
End Classes.
