(** The file for C has the programs of C.v. *)
From Coq Require Import Lia.
From Verif Require Export CSyntaxFacts.
Open Scope string_scope.
Open Scope Z_scope.
Open Scope list_scope.

Section Classes.
Variable p : protocol.
Variable g : settings.
Hypothesis T : text_ok p.
Hypothesis EN : forall t e, lookup t (p_enums p) = Some e -> ~ In t (base_types ++ ["string"]) /\ e_name e = t.
Hypothesis PN : forall n s m, declares p n s -> In m (s_members s) ->
  has_line_feed (v_name m) = false /\ ct_idx_search (v_name m) = None.
Notation pre := (ct_prefix g).
Notation mac := (upper (ct_prefix g)).
Hint Resolve ct_types_ok ct_types_base ct_types_name ct_serializers_ok ct_gen_measurement_ok ct_err_nested : text.

Ltac fit := rewrite ?level_back; cbn [app cat fold_right]; rewrite <- ?app_assoc, ?app_nil_r, ?app_nil_s, ?app_assoc_s; reflexivity.
Ltac finish := [> fit | rewrite ?level_back; reflexivity].

Lemma cx_field m : declared_type p (v_type m) ->
  exactly 1
      (if (v_list m) then
         block [
           line [| ct_types p (p_list_size_type p); " "; v_name m; "_len;" |];
           when (String.eqb (v_type m) "string") (
             line [| ct_types p (p_list_size_type p); "* "; v_name m; "_els_len;" |]);
           (if (mem (v_type m) NUMERIC_TYPE_SIZES) || (String.eqb (v_type m) "string") then
              line [| ct_types p (v_type m); "* "; v_name m; ";" |]
            else when ((mem (v_type m) (p_structs p)) || (mem (v_type m) (p_enums p))) (
                line [| pre; v_type m; "* "; v_name m; ";" |]))]
       else if String.eqb (v_type m) "string" then
         block [
           line [| ct_types p (p_string_size_type p); " "; v_name m; "_len;" |];
           line [| ct_types p (v_type m); " "; v_name m; ";" |]]
       else if mem (v_type m) NUMERIC_TYPE_SIZES then
         line [| ct_types p (v_type m); " "; v_name m; ";" |]
       else if mem (v_type m) (p_enums p) then
         line [| pre; v_type m; " "; v_name m; ";" |]
       else when (mem (v_type m) (p_structs p)) (line [| pre; v_type m; " "; v_name m; ";" |]))
    (c_field_text p pre m) 1.
Proof.
  intro D; destruct (cx_number p g _ (tk_list p T)) as (kl & NL & PL & TL & CL & SL).
  destruct (cx_number p g _ (tk_string p T)) as (ks & NS & PS & TS & CS & SS).
  destruct (cx_types p g (v_type m) D) as [CT [ty TT]]; rewrite TT in CT.
  unfold exactly, c_field_text; rewrite CL, CS, TL, TS, TT; unfold c_len, c_els_len.
  destruct (String.eqb (v_type m) "string") eqn:ST.
  - rewrite <- CT, ?orb_true_r; destruct (v_list m); cbn [append]; same_text.
  - destruct (mem (v_type m) NUMERIC_TYPE_SIZES) eqn:M; cbn [orb append].
    + rewrite <- CT; cbn [orb append]; destruct (v_list m); same_text.
    + destruct (number_or_not (v_type m)) as [[_ Q]|[K _]]; [congruence| ].
      unfold c_type_name; rewrite K, ST.
      assert (Q : mem (v_type m) (p_structs p) || mem (v_type m) (p_enums p) = true).
      { destruct D as [B|[E|[[s I]|[e I]]]].
        - rewrite (base_mem _ B) in M; discriminate.
        - rewrite E in ST; discriminate.
        - apply orb_true_iff; left; apply mem_exists; eauto.
        - apply orb_true_iff; right; apply mem_exists; eauto. }
      rewrite Q; destruct (v_list m); [same_text| ].
      destruct (mem (v_type m) (p_enums p)); [same_text|rewrite orb_false_r in Q; rewrite Q; same_text].
Qed.

(** Commas between the entries of an enum. *)
Lemma cx_enumerators {A} (F : Z * A -> gtext) (f : Z * A -> string * Z) N :
  (forall x, exactly 1 (F x) [(1, cat [pre; fst (f x); " = "; str_of_Z (snd (f x)); (if fst x <? N - 1 then "," else "")])] 1) ->
  forall (l : list A) i, i + Z.of_nat (List.length l) = N ->
  exactly 1 (each (index_from i l) F) (c_enumerators pre (map f (index_from i l))) 1.
Proof.
  intro H; induction l as [ |x l IH]; intros i E; cbn [index_from map c_enumerators]; [reflexivity| ].
  cbn [List.length] in E; specialize (IH (i + 1) ltac:(lia)).
  eapply exactly_eq; [unfold each; cbn [map]; eapply exactly_cons; [apply H|exact IH]| |reflexivity].
  cbn [fst]; destruct (f (i, x)) as [n z]; cbn [fst snd app]; destruct l as [ |y l].
  - replace (i <? N - 1) with false by (cbn [List.length] in E; symmetry; apply Z.ltb_ge; lia); reflexivity.
  - replace (i <? N - 1) with true by (cbn [List.length] in E; symmetry; apply Z.ltb_lt; lia); reflexivity.
Qed.
Lemma index_values {A B} (f : A -> B) : forall l i, map (fun x => f (snd x)) (index_from i l) = map f l.
Proof. induction l as [ |x l IH]; intro i; cbn [index_from map snd]; [reflexivity|now rewrite IH]. Qed.
Lemma index_keys {A} : forall (d : list (string * A)) i, index_from i (map fst d) = enumerate_from i d.
Proof. induction d as [ |[k a] d IH]; intro i; cbn [index_from map enumerate_from fst]; [reflexivity|now rewrite IH]. Qed.

Lemma cx_enum n e : In (n, e) (p_enums p) -> steps 0 (ct_gen_enum p g n e) [c_enum_text pre n e] 0.
Proof.
  intro I; destruct (tk_enums p T _ _ I) as [B V].
  unfold ct_gen_enum, c_enum_text; cbn [app]; piece 5%nat.
  { rewrite <- (index_values _ (e_values e) 0). eapply exactly_eq.
    - exact_piece.
      apply (cx_enumerators _ (fun x => (cat [n; "_"; fst (snd x)], snd (snd x))) (Z.of_nat (List.length (e_values e)))); [ |reflexivity].
      intros [i [v z]]; cbn [fst snd]; unfold exactly; destruct (i <? _); same_text.
    - fit.
    - rewrite ?level_back; reflexivity. }
  walk.
Qed.
Lemma cx_valid n e : In (n, e) (p_enums p) -> steps 0 (ct_gen_enum_implementation p g n e) [c_valid_text pre n e] 0.
Proof.
  intro I; destruct (tk_enums p T _ _ I) as [B V]; destruct (cx_number p g _ B) as (k & NK & PK & TK & CK & SK).
  unfold ct_gen_enum_implementation, c_valid_text, c_function; rewrite CK, TK; cbn [app]; piece 16%nat.
  { eapply exactly_eq; [exact_piece; apply exactly_map; intros v _; compute_text; reflexivity| | ]; finish. }
  walk.
Qed.

Lemma cx_struct n s : declares p n s -> steps 0 (ct_gen_struct p g n s) [c_fields_text p pre s] 0.
Proof.
  intro D; pose proof (tk_name p T n s D) as N; unfold ct_gen_struct, c_fields_text; rewrite N.
  destruct (s_is_message s) eqn:M; cbn [when].
  - cbn [app]; piece 6%nat.
    { eapply exactly_eq; [exact_piece; apply exactly_each; intros m I; apply cx_field; eapply (tk_types p T); eassumption| | ]; finish. }
    walk.
  - cbn [app]; piece 6%nat.
    { eapply exactly_eq; [exact_piece; apply exactly_each; intros m I; apply cx_field; eapply (tk_types p T); eassumption| | ]; finish. }
    walk.
Qed.

Lemma steps_at2 n t F r q m : steps n (block (line t :: indent :: F (n + 1) :: r)) q m ->
  steps n (block (line t :: indent :: at_level F :: r)) q m.
Proof.
  intros (ls & E & H); exists ls; split; [rewrite <- E|exact H].
  unfold block; cbn [fold_right]; unfold andthen, line, indent, at_level; destruct t; reflexivity.
Qed.
Lemma cx_reads n s : declares p n s ->
  exactly 1 (each (s_members s) (fun m => ct_deserializer p g m "dst->"))
    (flat_map (fun m => flat_map (c_stmt p pre mac 1) (c_read p m)) (s_members s)) 1.
Proof.
  intro D; apply exactly_each; intros m I; destruct (PN n s m D I).
  apply cx_deserializer; try assumption; eapply (tk_types p T); eassumption.
Qed.
Lemma cx_writes n s : declares p n s ->
  exactly 1 (each (s_members s) (fun m => ct_serializer p g m "src->"))
    (flat_map (fun m => flat_map (c_pstmt p pre mac 1) (c_write p m)) (s_members s)) 1.
Proof.
  intro D; apply exactly_each; intros m I; destruct (PN n s m D I).
  apply cx_serializer; try assumption; eapply (tk_types p T); eassumption.
Qed.
Lemma cx_releases n s : declares p n s ->
  exactly 1 (each (s_members s) (fun m => ct_destructor p g (depth_of p) m "m->"))
    (flat_map (fun m => flat_map (c_dstmt p pre mac 1 "m->" "") (c_release p (depth_of p) m)) (s_members s)) 1.
Proof.
  intro D; apply exactly_each; intros m I.
  destruct (tk_ranked p T _ _ _ D (tk_fits p T n)) as (d & E & F); rewrite E.
  apply (cx_destructor p g T EN d (S d) m "m->" 1); [lia|eapply (tk_types p T); eassumption|exact (F m I)].
Qed.
Lemma cx_fresh n s : declares p n s ->
  exactly 1 (ct_gen_default p g (depth_of p) (s_members s)) (flat_map (c_init_text p pre (depth_of p) 1) (s_members s)) 1.
Proof.
  intro D; apply cx_default; try assumption.
  intros m I; split; [eapply (tk_types p T); eassumption|apply (tk_fits p T)].
Qed.

Lemma cx_implementation n s : declares p n s -> steps 0 (ct_gen_implementation p g n s) (c_class p pre mac (g_tab g) s) 0.
Proof.
  intro D; destruct (cx_size p g T EN n s D) as (ml & mz & ls & EM & EL & ES).
  pose proof (tk_name p T n s D) as N.
  assert (LM : exactly 1 (when (Z.of_nat (List.length (s_members s)) >? 0) (line [| pre; "err_t err;" |]))
    (match s_members s with [] => [] | _ => [(1, cat [pre; "err_t err;"])] end) 1) by (destruct (s_members s); reflexivity).
  unfold c_class; rewrite EM.
  unfold ct_gen_implementation, c_default_text, c_size_text, c_create_text, c_cleanup_text, c_destroy_text, c_from_bytes_text,
    c_write_bytes_text, c_head, c_code, c_function; cbv zeta; rewrite N, ES.
  destruct (s_is_message s) eqn:M; cbn [app].
  - walk_to "const "; piece 6%nat.
    { eapply exactly_eq; [exact_piece; apply (cx_fresh n s D)| | ]; finish. }
    change (1 - 1) with 0; walk_to (ct_prefix g); apply steps_at2. change (0 + 1) with 1; cbv beta. inside 2%nat EL; piece 7%nat.
    { eapply exactly_eq;
        [exact_piece; apply exactly_when; compute_text; reflexivity
        |rewrite !at_lvl_app, <- !app_assoc, ?level_back; cbn [app cat fold_right]; rewrite ?app_nil_s, ?app_assoc_s; reflexivity
        |rewrite ?level_back; reflexivity]. }
    try change (1 - 1) with 0; walk_to (ct_prefix g); piece 9%nat.
    { eapply exactly_eq; [exact_piece; apply exactly_map; intros m _; compute_text; reflexivity| | ]; finish. }
    try change (1 - 1) with 0; walk_to "void "; piece 5%nat.
    { eapply exactly_eq; [exact_piece; apply (cx_releases n s D)| | ]; finish. }
    try change (1 - 1) with 0; walk_to "void "; piece 6%nat.
    { eapply exactly_eq; [exact_piece| | ]; finish. }
    try change (1 - 1) with 0; walk_to (ct_prefix g); piece 8%nat.
    { eapply exactly_eq; [exact_piece; [exact LM|apply (cx_reads n s D)]| | ]; finish. }
    try change (1 - 1) with 0; walk_to (ct_prefix g); piece 8%nat.
    { unfold c_call, c_check. eapply exactly_eq; [exact_piece; [apply cx_check|apply (cx_writes n s D)]| | ]; finish. }
    walk.
  - walk_to (ct_prefix g); piece 8%nat.
    { eapply exactly_eq; [exact_piece; [exact LM|apply (cx_reads n s D)]| | ]; finish. }
    try change (1 - 1) with 0; walk_to (ct_prefix g); piece 8%nat.
    { eapply exactly_eq; [exact_piece; apply (cx_writes n s D)| | ]; finish. }
    walk.
Qed.

Lemma cx_cases lvl (f : string -> list out_line) (F : string -> gtext) :
  (forall x, exactly lvl (F x) ((lvl, cat ["case "; pre; "MessageType_"; x; ":"]) :: f x) lvl) ->
  exactly lvl (each (map fst (p_messages p)) F)
    (flat_map (fun t => (lvl, cat ["case "; pre; "MessageType_"; snd t; ":"]) :: f (snd t)) (c_message_types p)) lvl.
Proof.
  intro H; eapply exactly_eq; [apply exactly_each; intros x _; apply H| |reflexivity].
  exact (each_name (fun x => (lvl, cat ["case "; pre; "MessageType_"; x; ":"]) :: f x) (p_messages p) 1).
Qed.
Ltac cases f :=
  match goal with |- exactly ?lvl (each _ _) _ _ => apply (cx_cases lvl (f lvl)) end;
  intro x; cbv beta; eapply exactly_eq; [exact_piece; apply cx_check| | ]; unfold c_call, c_code, c_check; finish.
Ltac function f :=
  eapply exactly_eq; [exact_piece; first [apply cx_check|cases f]| | ]; [> | rewrite ?level_back; reflexivity];
  unfold c_message_text, c_function, c_switch, c_invalid, c_get_type, c_call, c_code, c_check; cbn [app];
  rewrite ?level_back; rewrite <- ?app_assoc, ?app_nil_r; cbn [app];
  repeat first [reflexivity|apply (f_equal2 cons); [> cbn [cat fold_right]; rewrite ?app_nil_s, ?app_assoc_s; reflexivity | ]].

Lemma cx_generate : steps 0 (ct_generate p g) (c_file p g) 0.
Proof.
  unfold ct_generate, c_file; cbv zeta.
  change (match g_namespace g with Some n => cat [n; "_"] | None => "beschi_" end) with (ct_prefix g).
  rewrite map_app, flat_map_app, <- !app_assoc.
  assert (LE : steps 0 (each (p_enums p) (fun '(ename, e) => ct_gen_enum p g ename e))
                 (map (fun e => c_enum_text pre (fst e) (snd e)) (p_enums p)) 0).
  { rewrite <- flat_map_map_one; apply steps_all; intros [n e] I; now apply cx_enum. }
  assert (LV : steps 0 (each (p_enums p) (fun '(ename, e) => ct_gen_enum_implementation p g ename e))
                 (map (fun e => c_valid_text pre (fst e) (snd e)) (p_enums p)) 0).
  { rewrite <- flat_map_map_one; apply steps_all; intros [n e] I; now apply cx_valid. }
  assert (LS : forall l, (forall n s, In (n, s) l -> declares p n s) ->
    steps 0 (each l (fun '(n, s) => ct_gen_struct p g n s)) (map (fun s => c_fields_text p pre (snd s)) l) 0).
  { intros l D; rewrite <- flat_map_map_one; apply steps_all; intros [n s] I; now apply cx_struct, D. }
  assert (LC : forall l, (forall n s, In (n, s) l -> declares p n s) ->
    steps 0 (each l (fun '(n, s) => ct_gen_implementation p g n s)) (flat_map (fun s => c_class p pre mac (g_tab g) (snd s)) l) 0).
  { intros l D; apply steps_all; intros [n s] I; now apply cx_implementation, D. }
  pose proof (LS (p_structs p) (fun n s I => or_introl I)) as LS1.
  pose proof (LS (p_messages p) (fun n s I => or_intror I)) as LS2; clear LS.
  pose proof (LC (p_structs p) (fun n s I => or_introl I)) as LC1.
  pose proof (LC (p_messages p) (fun n s I => or_intror I)) as LC2; clear LC.
  cbn [app]; walk_to "typedef enum {"; over; over; piece 6%nat.
  { unfold c_tags_text, c_message_types.
    rewrite <- (each_number (fun t => (cat ["MessageType_"; snd t], fst t))); unfold enumerate; rewrite <- index_keys.
    eapply exactly_eq;
      [exact_piece; apply (cx_enumerators _ (fun x => (cat ["MessageType_"; snd x], fst x + 1)) (Z.of_nat (List.length (p_messages p))));
        [intros [i k]; cbn [fst snd]; unfold exactly; destruct (i <? _); same_text|now rewrite map_length]
      | | ]; finish. }
  walk.
  (eapply steps_cons; [apply LE| ]); (eapply steps_cons; [apply LS1| ]); (eapply steps_cons; [apply LS2| ]).
  over; unfold c_messages_text; cbn [app].
  piece 12%nat.
  { assert (LN : List.length (c_message_types p) = List.length (p_messages p)).
    { unfold c_message_types; now rewrite <- (map_length snd), names_tags, map_length. }
    rewrite LN; function (fun (lvl : Z) (t : string) => @nil out_line). }
  try change (1 - 1) with 0; walk_to (ct_prefix g); piece 16%nat.
  { function (fun lvl t => [(lvl + 1, cat ["return "; pre; t; "_GetSizeInBytes((const "; pre; t; "*)m, len);"])]). }
  try change (1 - 1) with 0; walk_to (ct_prefix g); piece 16%nat.
  { function (fun lvl t => [(lvl + 1, cat ["return "; pre; t; "_WriteBytes(w, (const "; pre; t; "*)m, tag);"])]). }
  try change (1 - 1) with 0; walk_to (ct_prefix g); piece 16%nat.
  { function (fun lvl t => [(lvl + 1, cat [pre; t; "_Destroy(("; pre; t; "*)m);"]); c_code mac (lvl + 1) "ERR_OK"]). }
  try change (1 - 1) with 0; walk_to (ct_prefix g); piece 43%nat.
  { function (fun lvl t =>
        [(lvl + 1, cat ["out = "; mac; "MALLOC(sizeof("; pre; t; "));"]);
         (lvl + 1, cat ["if (out == NULL) { return "; mac; "ERR_ALLOCATION_FAILURE; }"]);
         (lvl + 1, cat ["err = "; pre; t; "_FromBytes(r, ("; pre; t; "*)out);"]);
         (lvl + 1, "(*msgListDst)[*len] = out;");
         (lvl + 1, "*len += 1;")] ++ c_check mac (lvl + 1) ++ [(lvl + 1, "break;")]). }
  try change (1 - 1) with 0; walk_to (ct_prefix g); piece 22%nat.
  { function (fun lvl t => [(lvl + 1, cat [pre; t; "_Destroy(("; pre; t; "*)msgList[i]);"]); (lvl + 1, "break;")]). }
  try change (1 - 1) with 0; walk_to (ct_prefix g); piece 25%nat.
  { function (fun lvl t =>
        [(lvl + 1, cat [pre; t; "_GetSizeInBytes(("; pre; t; "*)msgList[i], &individualSize);"]);
         (lvl + 1, "*packedSize += individualSize;"); (lvl + 1, "break;")]). }
  try change (1 - 1) with 0; walk_to (ct_prefix g); piece 34%nat.
  { function (fun lvl t => c_call pre mac (lvl + 1) (cat [t; "_WriteBytes"]) (cat ["w, ("; pre; t; "*)msgList[i], true"]) ++ [(lvl + 1, "break;")]). }
  try change (1 - 1) with 0; walk_to (ct_prefix g); piece 33%nat.
  { function (fun (lvl : Z) (t : string) => @nil out_line). }
  try change (1 - 1) with 0; walk.
  (eapply steps_cons; [apply LV| ]); (eapply steps_cons; [apply LC1| ]).
  rewrite <- (app_nil_r (flat_map _ (p_messages p))); (eapply steps_cons; [apply LC2| ]); over; walk.
Qed.
End Classes.
