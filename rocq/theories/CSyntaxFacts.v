(** The text for C is the text of the programs in C.v. *)
From Coq Require Import Lia.
From Verif Require Export CSyntax SyntaxFacts CTextFacts.
Open Scope string_scope.
Open Scope Z_scope.
Open Scope list_scope.

Lemma string_rev_app : forall a b acc, string_rev (a +++ b) acc = string_rev b (string_rev a acc).
Proof. induction a as [ |x a IH]; intros b acc; cbn [append string_rev]; [reflexivity|apply IH]. Qed.
Lemma string_rev_acc : forall a acc, string_rev a acc = string_rev a "" +++ acc.
Proof.
  induction a as [ |x a IH]; intro acc; cbn [string_rev append]; [reflexivity| ].
  rewrite (IH (String x acc)), (IH (String x "")), app_assoc_s; reflexivity.
Qed.
Lemma string_rev_rev : forall a, string_rev (string_rev a "") "" = a.
Proof.
  induction a as [ |x a IH]; [reflexivity|cbn [string_rev]].
  rewrite (string_rev_acc a), string_rev_app, IH; reflexivity.
Qed.
Lemma line_feed_app : forall a b, has_line_feed (a +++ b) = has_line_feed a || has_line_feed b.
Proof. induction a as [ |x a IH]; intro b; cbn [append has_line_feed]; [reflexivity|now rewrite IH, orb_assoc]. Qed.
Lemma line_feed_rev : forall a, has_line_feed (string_rev a "") = has_line_feed a.
Proof.
  induction a as [ |x a IH]; [reflexivity|cbn [string_rev]].
  rewrite (string_rev_acc a), line_feed_app, IH; cbn [has_line_feed]; rewrite orb_false_r, orb_comm; reflexivity.
Qed.
(** The name of an element. *)
Lemma search_element n : has_line_feed n = false -> ct_idx_search (n +++ "[i1]") = Some (n, "i1").
Proof.
  intro H; unfold ct_idx_search; rewrite string_rev_app; cbn [string_rev].
  change (is_byte 10 "]") with false; cbv iota. cbn [digits_back].
  change (is_digit "1") with true; change (is_digit "i") with false; cbv iota.
  rewrite line_feed_rev, H, string_rev_rev; reflexivity.
Qed.

Section Link.
Variable p : protocol.
Variable g : settings.
Hypothesis T : text_ok p.
Hypothesis EN : forall t e, lookup t (p_enums p) = Some e -> ~ In t (base_types ++ ["string"]) /\ e_name e = t.
Notation pre := (ct_prefix g).
Notation mac := (upper (ct_prefix g)).

Lemma cx_types t : declared_type p t ->
  (if mem t NUMERIC_TYPE_SIZES || String.eqb t "string" then "" else pre) +++ match ct_types p t with Ret s => s | _ => "?" end
    = c_type_name pre t /\ exists s, ct_types p t = Ret s.
Proof.
  intro H; destruct (ct_types_ok p t H) as [n G]; split; [ |now exists n]; rewrite G; revert G; clear H.
  unfold ct_types, c_type_name, mapping; cbn [lookup]; destruct (number_or_not t) as [[B M]|[K M]]; rewrite M; cbn [orb].
  - destruct (table_entry c_types c_number t eq_refl B) as (k & K & E); unfold item in E.
    destruct (String.eqb t "string") eqn:ST; [apply String.eqb_eq in ST; subst t; discriminate K| ].
    destruct (lookup t c_types); [ |discriminate]; injection E as ->; rewrite K. intro Q; injection Q as <-; reflexivity.
  - rewrite K. destruct (String.eqb t "string") eqn:ST; [intro Q; injection Q as <-; reflexivity| ].
    destruct (lookup t c_types) eqn:L.
    + exfalso; apply lookup_In, (in_map fst) in L; assert (B : In t base_types) by exact L.
      destruct (num_of_base t) as [X _]; destruct (X B) as [k Y]; congruence.
    + destruct (in_strs t _); intro Q; [injection Q as <-|discriminate]. cbn [cat fold_right]; now rewrite app_nil_s.
Qed.
Lemma cx_number t : In t base_types ->
  exists k, num_of t = Some k /\ c_prim t = Some k /\ ct_types p t = Ret (c_number k) /\ c_type_name pre t = c_number k /\
            ct_serializers t = Ret (c_word k).
Proof.
  intro B; destruct (table_entry c_serializers c_word t eq_refl B) as (k & K & E).
  exists k; split; [exact K| ]; split; [ |split; [ |split]].
  - rewrite <- K; clear - B; cbn in B. repeat (destruct B as [<-|B]; [reflexivity| ]); destruct B.
  - destruct (cx_types t (or_introl B)) as [E1 [s E2]]; rewrite E2 in *.
    unfold c_type_name in E1; rewrite K in E1. destruct (number_or_not t) as [[_ M]|[Q _]]; [ |congruence].
    rewrite M in E1; cbn [orb append] in E1; now rewrite E1.
  - unfold c_type_name; now rewrite K.
  - exact E.
Qed.

Lemma cx_check lvl : exactly lvl (ct_err_check_return g) (c_check mac lvl) lvl.
Proof. unfold exactly, ct_err_check_return, c_check; same_text. Qed.

Ltac same :=
  cbv [with_prim]; cbn [flat_map app v_list v_type v_name c_stmt c_pstmt]; unfold c_call, c_code, c_check, c_loop, c_local, c_len_of, ct_err_check_return;
  cbn [c_place c_local]; rewrite ?app_nil_r; cbv [with_prim given at_level]; unfold c_len, c_els_len;
  change (str_of_Z 1) with "1";
  same_text.
Lemma cx_deserializer m : declared_type p (v_type m) -> has_line_feed (v_name m) = false -> ct_idx_search (v_name m) = None ->
  exactly 1 (ct_deserializer p g m "dst->") (flat_map (c_stmt p pre mac 1) (c_read p m)) 1.
Proof.
  intros D LF NI; destruct (cx_number _ (tk_list p T)) as (kl & NL & PL & TL & CL & SL).
  destruct (cx_number _ (tk_string p T)) as (ks & NS & PS & TS & CS & SS).
  destruct (cx_types (v_type m) D) as [CT [ty TT]]; rewrite TT in CT.
  pose proof (search_element (v_name m) LF) as SE.
  unfold exactly, ct_deserializer, ct_deserializer_with, c_read, c_read_one, mem, get_enum, item.
  destruct m as [n t l]; cbn [v_name v_type v_list] in *.
  rewrite PL, TL, TT, SL, TS.
  destruct (lookup t (p_enums p)) as [e| ] eqn:L.
  - destruct (EN t e L) as [N _]; rewrite in_app_iff in N.
    destruct (String.eqb t "string") eqn:E; [exfalso; apply N; apply String.eqb_eq in E; subst t; right; now left| ].
    destruct (enum_text p t e T L) as [B _].
    destruct (cx_number _ B) as (k & NK & PK & TK & CK & SK); rewrite PK; cbv [given pbind]; rewrite ?TK, ?SK.
    destruct l.
    + cbn [flat_map c_stmt app with_prim c_len_of]; unfold c_loop; rewrite CL, <- CT; unfold mem; destruct (lookup t NUMERIC_TYPE_SIZES); cbn [orb append]; same.
    + same.
  - destruct (String.eqb t "string") eqn:E.
    + destruct l; [ |rewrite NI; same].
      cbn [flat_map c_stmt app with_prim c_len_of]; unfold c_loop; rewrite CL, CS, <- CT; unfold mem; rewrite orb_true_r; cbn [append].
      unfold ct_err_check_return; compute_text.
      match goal with |- context [ct_idx_search ?x] => replace (ct_idx_search x) with (Some (n, "i1")) by (rewrite <- SE; reflexivity) end.
      rewrite ?level_back; same.
    + destruct (number_or_not t) as [[B M]|[K M]]; unfold mem in *.
      * destruct (cx_number _ B) as (k & NK & PK & TK & CK & SK); rewrite PK, SK.
        destruct (lookup t NUMERIC_TYPE_SIZES); [ |discriminate].
        destruct l; [ |same].
        cbn [flat_map c_stmt app with_prim c_len_of]; unfold c_loop; rewrite CL, <- CT; cbn [orb append]; same.
      * destruct (lookup t NUMERIC_TYPE_SIZES); [discriminate| ].
        destruct l; [ |same].
        cbn [flat_map c_stmt app with_prim c_len_of]; unfold c_loop; rewrite CL, <- CT; cbn [orb append]; same.
Qed.

Lemma cx_serializer m : declared_type p (v_type m) -> has_line_feed (v_name m) = false -> ct_idx_search (v_name m) = None ->
  exactly 1 (ct_serializer p g m "src->") (flat_map (c_pstmt p pre mac 1) (c_write p m)) 1.
Proof.
  intros D LF NI; destruct (cx_number _ (tk_list p T)) as (kl & NL & PL & TL & CL & SL).
  pose proof (search_element (v_name m) LF) as SE.
  unfold exactly, ct_serializer, ct_serializer_with, c_write, c_write_one, mem, get_enum, item.
  destruct m as [n t l]; cbn [v_name v_type v_list] in *.
  rewrite PL, TL, SL.
  destruct (lookup t (p_enums p)) as [e| ] eqn:L.
  - destruct (EN t e L) as [N _]; rewrite in_app_iff in N.
    destruct (String.eqb t "string") eqn:E; [exfalso; apply N; apply String.eqb_eq in E; subst t; right; now left| ].
    destruct (enum_text p t e T L) as [B _].
    destruct (cx_number _ B) as (k & NK & PK & TK & CK & SK); rewrite PK; cbv [given pbind]; rewrite ?TK, ?SK.
    destruct l; cbn [flat_map c_pstmt app with_prim c_len_of]; unfold c_loop; rewrite ?CL; same.
  - destruct (String.eqb t "string") eqn:E.
    + destruct l; [ |rewrite NI; same].
      cbn [flat_map c_pstmt app with_prim c_len_of]; unfold c_loop; rewrite CL.
      unfold ct_err_check_return; compute_text.
      match goal with |- context [ct_idx_search ?x] => replace (ct_idx_search x) with (Some (n, "i1")) by (rewrite <- SE; reflexivity) end.
      rewrite ?level_back; same.
    + destruct (number_or_not t) as [[B M]|[K M]]; unfold mem in *.
      * destruct (cx_number _ B) as (k & NK & PK & TK & CK & SK); rewrite PK, SK.
        destruct (lookup t NUMERIC_TYPE_SIZES); [ |discriminate].
        destruct l; cbn [flat_map c_pstmt app with_prim c_len_of]; unfold c_loop; rewrite ?CL; same.
      * destruct (lookup t NUMERIC_TYPE_SIZES); [discriminate| ].
        destruct l; cbn [flat_map c_pstmt app with_prim c_len_of]; unfold c_loop; rewrite ?CL; same.
Qed.

(** Measuring. *)
Notation L := (c_lstmt p pre (g_tab g)).
Notation inner d := (fun t => match lookup t (p_structs p) with Some st => c_measure p d st | None => None end).
Lemma base_size t : In t base_types -> size_of p t = num_size_of t.
Proof. intro B; unfold size_of; cbn in B; repeat (destruct B as [<-|B]; [reflexivity| ]); destruct B. Qed.
Lemma cx_measure_members d n acc : forall ms lines accum,
  (forall m, In m ms -> declared_type p (v_type m) /\ fits_any p d (v_type m) = true) ->
  (forall n' s acc', declares p (s_name s) s -> is_simple p (s_name s) = false -> fits_any p d (s_name s) = true ->
     exists l a, c_measure p d s = Some (LSet 0 :: l, a) /\
       ct_measure p g d (Z.of_nat n') s acc' = Ret (ct_size_init :: flat_map (L n' acc') l, a)) ->
  exists l a, c_measure_members p (inner d) ms = Some (l, a) /\
    ct_measure_members p g (ct_measure p g d) (Z.of_nat n) acc ms lines accum = Ret (lines ++ flat_map (L n acc) l, accum + a).
Proof.
  destruct (cx_number _ (tk_list p T)) as (kl & NL & PL & TL & CL & SL).
  induction ms as [ |m ms IH]; intros lines accum M R; cbn [c_measure_members ct_measure_members].
  { exists [], 0; split; [reflexivity|cbn [flat_map]; rewrite app_nil_r; do 2 f_equal; lia]. }
  pose proof (M m (or_introl eq_refl)) as [D F].
  assert (add : forall new a, exists l b, c_measure_members p (inner d) ms = Some (l, b) /\
    ct_measure_members p g (ct_measure p g d) (Z.of_nat n) acc ms (lines ++ flat_map (L n acc) new) (accum + a) =
      Ret (lines ++ flat_map (L n acc) (new ++ l), accum + (a + b))).
  { intros new a; destruct (IH (lines ++ flat_map (L n acc) new) (accum + a)) as (l & b & E1 & E2);
      [intros; apply M; now right|exact R| ].
    exists l, b; split; [exact E1|rewrite E2, flat_map_app, <- app_assoc; do 2 f_equal; lia]. }
  assert (use : forall new a, c_measure_member p (inner d) m = Some (new, a) -> forall L' a',
    L' = lines ++ flat_map (L n acc) new -> a' = accum + a ->
    exists l b,
    (match c_measure_member p (inner d) m, c_measure_members p (inner d) ms with
     | Some (l, a), Some (l', a') => Some (l ++ l', a + a')
     | _, _ => None
     end) = Some (l, b) /\
    ct_measure_members p g (ct_measure p g d) (Z.of_nat n) acc ms L' a' = Ret (lines ++ flat_map (L n acc) l, accum + b)).
  { intros new a E L' a' -> ->; rewrite E; destruct (add new a) as (l & b & E1 & E2); rewrite E1; eauto. }
  clear IH add; revert use; unfold c_measure_member; cbv zeta.
  rewrite (list_size p T), (string_size p T), (base_size _ (tk_list p T)), (base_size _ (tk_string p T)), TL.
  destruct (is_simple p (v_type m)) eqn:SI.
  - rewrite (simple_size p T _ (or_introl D) SI); destruct (v_list m); intro use; cbn [pbind].
    + eapply use; [reflexivity| |reflexivity]. cbn [flat_map c_lstmt app]; unfold c_len; same_text.
    + eapply use; [reflexivity| |reflexivity]; cbn [flat_map]; now rewrite app_nil_r.
  - destruct (String.eqb (v_type m) "string") eqn:ST.
    + destruct (v_list m); intro use; cbn [pbind].
      * eapply use; [reflexivity| |reflexivity]. cbn [flat_map c_lstmt app]; unfold c_len, c_els_len, c_loop, c_index; rewrite CL, <- str_of_nat; same_text.
      * eapply use; [reflexivity| |reflexivity]. cbn [flat_map c_lstmt app]; unfold c_len; same_text.
    + destruct (variable_struct p T _ D SI ST) as (s & LS & GS & NS); rewrite GS, LS in *; cbn [pbind].
      rewrite <- NS in SI, F. assert (DS : declares p (s_name s) s) by (rewrite NS; left; now apply lookup_In). destruct (v_list m).
      * destruct (R (S n) s (acc +++ v_name m +++ "[i" +++ str_of_Z (Z.of_nat n) +++ "].") DS SI F) as (l & a & E1 & E2).
        rewrite E1; intro use; cbv [pcat lit str_of pbind]. replace (Z.of_nat n + 1) with (Z.of_nat (S n)) by lia.
        rewrite E2; cbn [fst snd]; rewrite drop_first_line.
        eapply use; [reflexivity| |reflexivity].
        cbn [flat_map c_lstmt app drop_init]; unfold c_len, c_loop, c_index; rewrite CL, app_nil_r, flat_map_app; cbn [flat_map c_lstmt]; rewrite app_nil_r, <- str_of_nat.
        cbn [cat fold_right]; rewrite ?app_assoc_s, ?app_nil_s; reflexivity.
      * destruct (R n s (acc +++ v_name m +++ ".") DS SI F) as (l & a & E1 & E2).
        rewrite E1; intro use; rewrite E2; cbv [pbind]; cbn [fst snd]; rewrite drop_first_line.
        eapply use; [reflexivity| |reflexivity].
        cbn [flat_map c_lstmt app drop_init cat fold_right]; rewrite app_nil_r, ?app_assoc_s, ?app_nil_s; reflexivity.
Qed.
Lemma cx_measure : forall d n s acc, declares p (s_name s) s -> is_simple p (s_name s) = false -> fits_any p d (s_name s) = true ->
  exists l a, c_measure p d s = Some (LSet 0 :: l, a) /\
    ct_measure p g d (Z.of_nat n) s acc = Ret (ct_size_init :: flat_map (L n acc) l, a).
Proof.
  induction d as [ |d IH]; intros n s acc D SI F; destruct (tk_ranked p T _ _ _ D F) as (d' & E & M); [discriminate| ].
  injection E as <-; cbn [c_measure ct_measure]; rewrite SI.
  destruct (cx_measure_members d n acc (s_members s) [ct_size_init] 0) as (l & a & E1 & E2); [ |exact IH| ].
  - intros m I; split; [eapply (tk_types p T); eassumption|exact (M m I)].
  - exists l, a; rewrite E1, E2; split; reflexivity.
Qed.
Lemma cx_size n s : declares p n s ->
  exists l a ls, c_measure p (depth_of p) s = Some (l, a) /\ ct_gen_measurement p g 1 s "m->" = Ret (ls, a) /\
    flat_map (L 1%nat "m->") (l ++ (if 0 <? a then [LAdd a] else [])) =
      ls ++ (if a >? 0 then [cat ["*size += "; str_of_Z a; ";"]] else []).
Proof.
  intro D; pose proof (tk_name p T n s D); subst n; unfold ct_gen_measurement.
  destruct (is_simple p (s_name s)) eqn:SI.
  - assert (K : known_type p (s_name s)) by (destruct D as [D|D]; [left; right; right; left|right]; now exists s).
    unfold depth_of; cbn [c_measure ct_measure]; rewrite SI, (simple_size p T _ K SI).
    eexists _, _, _; split; [reflexivity|split; [reflexivity| ]]; cbn [flat_map c_lstmt app Z.ltb Z.gtb Z.compare]; same_text.
  - destruct (cx_measure _ 1 s "m->" D SI (tk_fits p T (s_name s))) as (l & a & E1 & E2).
    eexists _, _, _; split; [exact E1|split; [exact E2| ]].
    rewrite flat_map_app, Z.gtb_ltb; destruct (0 <? a); reflexivity.
Qed.

(** Fresh objects. *)
Lemma suffix_name : forall n s, s <> "" -> String.eqb (n +++ s) n = false.
Proof.
  intros n s H; apply String.eqb_neq; induction n as [ |c n IH]; cbn [append]; [exact H|intro E; injection E; exact IH].
Qed.
Lemma exactly_if n (b : bool) x y ls m : (b = true -> exactly n x ls m) -> (b = false -> exactly n y ls m) ->
  exactly n (if b then x else y) ls m.
Proof. destruct b; auto. Qed.
Lemma cx_default : forall d ms lvl,
  (forall m, In m ms -> declared_type p (v_type m) /\ fits_any p d (v_type m) = true) ->
  exactly lvl (ct_gen_default p g d ms) (flat_map (c_init_text p pre d lvl) ms) lvl.
Proof.
  assert (simple : forall d lvl m X, declared_type p (v_type m) ->
    (v_list m = false -> mem (v_type m) ct_defaults = false -> String.eqb (v_type m) "string" = false ->
     mem (v_type m) (p_enums p) = false -> exactly lvl X (c_init_text p pre d lvl m) lvl) ->
    exactly lvl
    (if v_list m then
       block [
         line [| "."; v_name m; "_len = 0," |];
         when (String.eqb (v_type m) "string") (line [| "."; v_name m; "_els_len = NULL," |]);
         line [| "."; v_name m; " = NULL," |]]
     else if mem (v_type m) ct_defaults then
       line [| "."; v_name m; " = "; item ct_defaults (v_type m); "," |]
     else if String.eqb (v_type m) "string" then
       block [line [| "."; v_name m; "_len = 0," |]; line [| "."; v_name m; " = (char*)""""," |]]
     else if mem (v_type m) (p_enums p) then
       given (get_enum p (v_type m)) (fun e =>
         line [| "."; v_name m; " = "; pre; e_name e; "_"; default_name e; "," |])
     else X) (c_init_text p pre d lvl m) lvl).
  { intros d lvl m X D H.
    assert (U : c_init_text p pre d lvl m =
      if v_list m then
        [(lvl, cat ["."; v_name m; "_len = 0,"])] ++
        (if String.eqb (v_type m) "string" then [(lvl, cat ["."; v_name m; "_els_len = NULL,"])] else []) ++
        [(lvl, cat ["."; v_name m; " = NULL,"])]
      else if mem (v_type m) ct_defaults then
        [(lvl, cat ["."; v_name m; " = "; match lookup (v_type m) ct_defaults with Some x => x | None => "?" end; ","])]
      else if String.eqb (v_type m) "string" then
        [(lvl, cat ["."; v_name m; "_len = 0,"]); (lvl, cat ["."; v_name m; " = (char*)"""","])]
      else match lookup (v_type m) (p_enums p) with
      | Some e =>
          [(lvl, cat ["."; v_name m; " = "; pre; e_name e; "_"; match e_values e with (n, _) :: _ => n | [] => "" end; ","])]
      | None => c_init_text p pre d lvl m
      end).
    { unfold mem; destruct (v_list m) eqn:VL.
      { destruct d; cbn [c_init_text c_default_members flat_map app]; rewrite VL; cbn [flat_map app];
          unfold c_len, c_els_len; rewrite (suffix_name (v_name m) "_len") by discriminate;
          destruct (String.eqb (v_type m) "string"); cbn [flat_map app]; change (str_of_Z 0) with "0"; same_text. }
      destruct (lookup (v_type m) ct_defaults) as [x| ] eqn:LD.
      { assert (B : In (v_type m) base_types) by (apply lookup_In, (in_map fst) in LD; exact LD).
        assert (NE : lookup (v_type m) (p_enums p) = None).
        { destruct (lookup (v_type m) (p_enums p)) as [e| ] eqn:LE; [exfalso|reflexivity].
          destruct (EN _ _ LE) as [N _]; apply N, in_app_iff; now left. }
        assert (Q : exists v, lookup (v_type m) c_defaults = Some v /\ c_literal p pre (v_type m) v = x).
        { unfold c_literal; rewrite NE; clear - B LD; cbn in B.
          repeat (destruct B as [E|B]; [rewrite <- E in *; cbn in LD; injection LD as <-; eexists; split; reflexivity| ]); destruct B. }
        destruct Q as (v & LV & CV).
        destruct d; cbn [c_init_text c_default_members flat_map app]; rewrite VL, LV; cbn [flat_map app];
          rewrite String.eqb_refl, CV; same_text. }
      destruct (lookup (v_type m) c_defaults) as [v| ] eqn:LV.
      { exfalso; apply lookup_In, (in_map fst) in LV; assert (B : In (v_type m) base_types) by exact LV.
        pose proof (covers_mem ct_defaults _ eq_refl B) as Q; unfold mem in Q; rewrite LD in Q; discriminate. }
      destruct (String.eqb (v_type m) "string") eqn:ST.
      { destruct d; cbn [c_init_text c_default_members flat_map app]; rewrite VL, LV, ST; cbn [flat_map app];
          unfold c_len; rewrite (suffix_name (v_name m) "_len") by discriminate; change (str_of_Z 0) with "0"; same_text. }
      destruct (lookup (v_type m) (p_enums p)) as [e| ] eqn:LE; [ |reflexivity].
      destruct (tk_enums p T _ _ (lookup_In _ _ _ LE)) as [_ NV]; destruct (EN _ _ LE) as [_ EE].
      destruct d; cbn [c_init_text c_default_members flat_map app]; rewrite VL, LV, ST, LE; cbn [flat_map app]; unfold get_default_pair;
        destruct (e_values e) as [ |[a z] r] eqn:EV; try congruence; cbn [hd_error]; rewrite String.eqb_refl;
        unfold c_literal; rewrite LE, EV; cbn [find snd]; rewrite Z.eqb_refl, EE; same_text. }
    rewrite U; unfold mem in *; destruct (v_list m); [unfold exactly; destruct (String.eqb (v_type m) "string"); same_text| ].
    destruct (lookup (v_type m) ct_defaults) as [x| ] eqn:LD; [unfold exactly, item; rewrite LD; same_text| ].
    destruct (String.eqb (v_type m) "string"); [unfold exactly; same_text| ].
    destruct (lookup (v_type m) (p_enums p)) as [e| ] eqn:LE; [ |now apply H].
    destruct (tk_enums p T _ _ (lookup_In _ _ _ LE)) as [_ NV].
    unfold exactly, get_enum, item, default_name, get_default_pair; rewrite LE.
    cbv [given pbind]; destruct (e_values e) as [ |[a z] r]; [congruence| ]; cbn [hd_error of_option pbind pcat lit str_of fst]; same_text. }
  induction d as [ |d IH]; intros ms lvl H; cbn [ct_gen_default]; apply exactly_each; intros m I; pose proof (H m I) as [D F];
    (apply simple; [exact D| ]); clear simple; intros VL LD ST LE.
  all: destruct (remaining_struct p (v_type m) D) as (s & G & J);
    [destruct (mem (v_type m) NUMERIC_TYPE_SIZES) eqn:B; [ |reflexivity];
     apply mem_base in B; rewrite (covers_mem ct_defaults _ eq_refl B) in LD; discriminate|exact ST|exact LE| ].
  all: destruct (tk_ranked p T _ (v_type m) s (or_introl J) F) as (d' & E & FM).
  { discriminate. }
  injection E as <-.
  pose proof (IH (s_members s) (lvl + 1)) as X; unfold mem in LE, LD.
  assert (LS : lookup (v_type m) (p_structs p) = Some s).
  { revert G; unfold get_struct, item; destruct (lookup (v_type m) (p_structs p)); intro Q; [injection Q as ->; reflexivity|discriminate]. }
  assert (LV : lookup (v_type m) c_defaults = None).
  { destruct (lookup (v_type m) c_defaults) as [v| ] eqn:LV; [exfalso|reflexivity].
    apply lookup_In, (in_map fst) in LV; assert (B : In (v_type m) base_types) by exact LV.
    pose proof (covers_mem ct_defaults _ eq_refl B) as Q; unfold mem in Q; destruct (lookup (v_type m) ct_defaults); discriminate. }
  destruct (lookup (v_type m) (p_enums p)) as [e| ] eqn:LE'; [discriminate| ].
  cbn [c_init_text c_default_members flat_map app]; rewrite VL, LV, ST, LE', LS; cbn [flat_map app]; rewrite app_nil_r.
  rewrite G; eapply exactly_eq; [exact_piece; apply (exactly_given _ _ s); [reflexivity|apply X]| | ].
  - intros m' I'; split; [eapply (tk_types p T); [left; exact J|exact I']|exact (FM m' I')].
  - rewrite level_back; cbn [app]; rewrite ?app_nil_r; cbn [cat fold_right]; rewrite ?app_nil_s; reflexivity.
  - apply level_back.
Qed.

(** Releasing. *)
Lemma cx_destructor : forall d e m acc k, (d <= e)%nat -> declared_type p (v_type m) -> fits_any p d (v_type m) = true ->
  exactly (Z.of_nat k) (ct_destructor p g (S d) m acc) (flat_map (c_dstmt p pre mac k acc "") (c_release p e m)) (Z.of_nat k).
Proof.
  destruct (cx_number _ (tk_list p T)) as (kl & NL & PL & TL & CL & SL).
  induction d as [d IH] using (well_founded_induction Wf_nat.lt_wf); intros e m acc k LE D F.
  (* what is not a list *)
  assert (one : forall k n x i rec, cat [acc; n] = c_place acc i x ->
    exactly (Z.of_nat k) (ct_destructor_with p g (ct_destructor p g d) rec (MkVar n (v_type m) false) acc)
      (flat_map (c_dstmt p pre mac k acc i)
         (c_release_one p (match e with S d' => Some (c_release p d') | O => None end) x (v_type m))) (Z.of_nat k)).
  { intros k' n x i rec P; unfold ct_destructor_with, c_release_one, var_is_simple; cbn [v_list v_type v_name].
    destruct (is_simple p (v_type m)) eqn:SI; [apply exactly_skip| ].
    destruct (String.eqb (v_type m) "string") eqn:ST.
    - unfold exactly; cbn [flat_map c_dstmt app]; rewrite <- P; same_text.
    - destruct (variable_struct p T _ D SI ST) as (s & LS & GS & NS); rewrite LS.
      assert (J : In (v_type m, s) (p_structs p)) by now apply lookup_In.
      destruct (tk_ranked p T _ _ _ (or_introl J) F) as (d' & -> & FM).
      destruct e as [ |e]; [lia| ]; eapply exactly_given; [exact GS|cbv beta].
      eapply exactly_eq; [apply (exactly_each _ _ _ (fun m' => flat_map (c_dstmt p pre mac k' (acc +++ n +++ ".") "") (c_release p e m')))| |reflexivity].
      + intros m' I'; apply IH; [lia|lia|eapply (tk_types p T); [left; exact J|exact I']|exact (FM m' I')].
      + cbn [flat_map c_dstmt]; rewrite app_nil_r, <- P; cbn [cat fold_right]; rewrite ?app_nil_s, ?app_assoc_s.
        clear; induction (s_members s) as [ |x0 l IH]; [reflexivity|cbn [flat_map]; now rewrite IH, flat_map_app]. }
  change (ct_destructor p g (S d)) with (ct_destructor_with p g (ct_destructor p g d) (ct_destructor_with p g (ct_destructor p g d) no_more)).
  assert (U : c_release p e m =
    if v_list m then
      if is_simple p (v_type m) then [DFree (LField (v_name m))]
      else [DFor (v_name m) (c_release_one p (match e with S d' => Some (c_release p d') | O => None end) (LElem (v_name m)) (v_type m))] ++
           (if String.eqb (v_type m) "string" then [DFree (LField (c_els_len (v_name m)))] else []) ++
           [DFree (LField (v_name m))]
    else c_release_one p (match e with S d' => Some (c_release p d') | O => None end) (LField (v_name m)) (v_type m)) by now destruct e.
  rewrite U; destruct m as [n t l]; cbn [v_name v_type v_list] in *; destruct l; [ |apply one; cbn [cat fold_right c_place]; reflexivity].
  unfold ct_destructor_with at 1; unfold var_is_simple at 1; cbn [v_name v_type v_list].
  destruct (is_simple p t) eqn:SI; [unfold exactly; cbn [flat_map c_dstmt app c_place]; same_text| ].
  rewrite TL; apply exactly_at; cbv beta.
  eapply exactly_eq.
  - exact_piece.
    + replace (Z.of_nat k + 1) with (Z.of_nat (S k)) by lia.
      apply (one (S k) _ (LElem n) (c_index k)); cbn [cat fold_right c_place]; unfold c_index; rewrite <- str_of_nat; cbn [cat fold_right].
      rewrite ?app_nil_s, ?app_assoc_s; reflexivity.
    + apply exactly_when; compute_text; reflexivity.
  - cbn [flat_map c_dstmt app]; unfold c_loop, c_index; rewrite CL, <- str_of_nat.
    replace (Z.of_nat (S k) - 1) with (Z.of_nat k) by lia.
    destruct (String.eqb t "string"); cbn [flat_map c_dstmt app at_lvl map cat fold_right c_place]; unfold c_len, c_els_len;
      rewrite <- ?app_assoc, ?app_nil_r, ?app_nil_s, ?app_assoc_s; reflexivity.
  - lia.
Qed.
End Link.
