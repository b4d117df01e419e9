(** The file for Go has the programs of Go.v. *)
From Coq Require Import Lia.
From Verif Require Export GoSyntaxFacts.
Open Scope string_scope.
Open Scope Z_scope.
Open Scope list_scope.

Section Classes.
Variable p : protocol.
Variable g : settings.
Hypothesis T : text_ok p.
Hypothesis EN : forall t e, lookup t (p_enums p) = Some e -> ~ In t (base_types ++ ["string"]).
Hint Resolve got_types_ok got_types_base got_types_name got_gen_measurement_ok : text.

Lemma gox_field m : declared_type p (v_type m) ->
  exactly 1
    (if (v_list m) then line [| v_name m; " []"; got_types p (v_type m) |]
     else line [| v_name m; " "; got_types p (v_type m) |])
    [(1, cat [v_name m; " "; (if v_list m then "[]" else ""); go_type_name (v_type m)])] 1.
Proof. intro D; rewrite (gox_types p) by exact D; unfold exactly; destruct (v_list m); same_text. Qed.
Lemma gox_fresh m :
  exactly 2
    (if (mem (v_type m) (p_enums p)) && (negb (v_list m)) then
       given (get_enum p (v_type m)) (fun e => line [| v_name m; ": "; v_type m; default_name e; "," |])
     else when ((mem (v_type m) (p_structs p)) && (negb (v_list m))) (
       given (get_struct p (v_type m)) (fun s =>
         when (go_has_enums p (depth_of p) s) (line [| v_name m; ": New"; v_type m; "Default()," |]))))
    (go_fresh_member p m) 2.
Proof.
  unfold go_fresh_member, mem, get_enum, get_struct, item.
  destruct (v_list m); cbn [negb]; rewrite ?andb_false_r, ?andb_true_r; [reflexivity| ].
  destruct (lookup (v_type m) (p_enums p)) as [e| ] eqn:L.
  - destruct (tk_enums p T _ _ (lookup_In _ _ _ L)) as [_ V]; unfold default_name, exactly.
    cbv [given pbind]; unfold get_default_pair; destruct (e_values e) as [ |[a b] r]; [congruence| ].
    cbn [hd_error of_option pbind pcat lit str_of fst]; same_text.
  - destruct (lookup (v_type m) (p_structs p)) as [s| ]; [ |reflexivity].
    unfold exactly; compute_text; destruct (go_has_enums p (depth_of p) s); same_text.
Qed.

Ltac fit := rewrite ?level_back; cbn [app cat fold_right]; rewrite <- ?app_assoc, ?app_nil_r, ?app_nil_s; reflexivity.
Ltac finish := [> fit | rewrite ?level_back; reflexivity].
Lemma gox_struct n s size : declares p n s -> gen_size go_style p 0 s = Some size ->
  steps 0 (got_gen_struct p g n s) (go_class p g s) 0.
Proof.
  intros D GS; destruct (gox_size p g T n s size D GS) as (ml & mz & EM & ES).
  pose proof (tk_name p T n s D) as N.
  unfold go_class; rewrite GS.
  unfold got_gen_struct, go_fields_text, go_fresh_text, go_tag_text, go_size_text, go_from_bytes_text, go_write_bytes_text, go_function;
    cbv zeta; rewrite N, ES.
  cbn [app]; piece 5%nat.
  { eapply exactly_eq; [exact_piece; apply exactly_map; intros m I; apply gox_field; eapply (tk_types p T); eassumption| | ]; finish. }
  walk_to "func New"; piece 5%nat.
  { destruct (go_has_enums p (depth_of p) s); cbn [negb].
    - eapply exactly_eq; [exact_piece; apply exactly_each; intros m I; apply gox_fresh| | ]; finish.
    - eapply exactly_eq; [exact_piece| | ]; finish. }
  destruct (s_is_message s) eqn:M.
  - cbn [app]; walk_to "func (output "; piece 5%nat.
    { eapply exactly_eq; [exact_piece| | ]; finish. }
    walk_to "func (output "; inside 2%nat EM; piece 7%nat.
    { eapply exactly_eq;
        [exact_piece; apply exactly_when; compute_text; reflexivity
        |rewrite !at_lvl_app, <- !app_assoc, ?level_back; reflexivity
        |rewrite ?level_back; reflexivity]. }
    walk_to "func "; piece 9%nat.
    { eapply exactly_eq; [exact_piece; apply (gox_reads p T EN _ _ "msg" true D)| | ]; finish. }
    walk_to "func (output "; piece 10%nat.
    { eapply exactly_eq; [exact_piece; apply (gox_writes p T EN _ _ D)| | ]; finish. }
    walk.
  - cbn [app]; walk_to "func "; piece 6%nat.
    { eapply exactly_eq; [exact_piece; apply (gox_reads p T EN _ _ "input" false D)| | ]; finish. }
    walk_to "func (output "; piece 5%nat.
    { eapply exactly_eq; [exact_piece; apply (gox_writes p T EN _ _ D)| | ]; finish. }
    walk.
Qed.

Lemma gox_pad n v : pad n v = v +++ go_spaces (n - String.length v).
Proof.
  unfold pad, go_spaces; f_equal; generalize (n - String.length v)%nat as k.
  induction k as [ |k IH]; [reflexivity|cbn [repeat cat fold_right]].
  change (repeat_str (S k) " ") with (" " +++ repeat_str k " "); now rewrite IH.
Qed.
Lemma gox_longest l : l <> [] -> longest l = Ret (go_widest l).
Proof.
  destruct l as [ |x l]; [congruence|intros _]; cbn [longest go_widest fold_right]; f_equal; fold (go_widest l).
  generalize (String.length x) as n; induction l as [ |y l IH]; intro n; cbn [fold_left go_widest fold_right]; [lia| ].
  rewrite IH; fold (go_widest l); lia.
Qed.
Lemma gox_enum n e : In (n, e) (p_enums p) -> steps 0 (got_gen_enum p n e) [go_enum_text n e] 0.
Proof.
  intro I; destruct (tk_enums p T _ _ I) as [B V].
  assert (W : longest (map fst (e_values e)) = Ret (go_widest (map fst (e_values e)))).
  { apply gox_longest; destruct (e_values e); [congruence|discriminate]. }
  unfold got_gen_enum, go_enum_text; rewrite (gox_types p _ (or_introl B)).
  eapply steps_given; [exact W| ]; cbv beta zeta; piece 22%nat.
  { eapply exactly_eq;
    [exact_piece;
      apply (exactly_map _ _ _ (fun v => (1, cat [n; fst v; go_spaces (go_widest (map fst (e_values e)) - String.length (fst v)); " "; n; " = "; str_of_Z (snd v)])));
      intros [v z] _; compute_text; rewrite gox_pad, ?app_nil_s, ?app_assoc_s; reflexivity
    |rewrite ?level_back, map_map; compute_text; rewrite ?app_nil_s; reflexivity|reflexivity]. }
  walk.
Qed.
Lemma gox_generate : steps 0 (got_generate p g) (go_file p g) 0.
Proof.
  unfold got_generate, go_file, go_tags; cbv zeta; cbn [app]; rewrite flat_map_app.
  assert (LE : steps 0 (each (p_enums p) (fun '(ename, e) => got_gen_enum p ename e))
                 (map (fun e => go_enum_text (fst e) (snd e)) (p_enums p)) 0).
  { rewrite <- flat_map_map_one; apply steps_all; intros [n e] I; now apply gox_enum. }
  assert (LC : forall l, (forall n s, In (n, s) l -> declares p n s) ->
                 steps 0 (each l (fun '(n, s) => got_gen_struct p g n s))
                 (flat_map (fun s => go_class p g (snd s)) l) 0).
  { intros l D; apply steps_all; intros [n s] I.
    destruct (gen_size_defined go_style p T 0 n s (D _ _ I)) as [size GS]; eapply gox_struct; eauto. }
  pose proof (LC (p_structs p) (fun n s I => or_introl I)) as LS.
  pose proof (LC (p_messages p) (fun n s I => or_intror I)) as LM; clear LC.
  walk_to "type MessageType byte"; over; over; walk_to "type MessageType byte"; piece 6%nat.
  { unfold go_tags_text; rewrite <- (each_number (fun t => (1, cat [snd t; "Type MessageType = "; str_of_Z (fst t)]))).
    eapply exactly_eq;
      [exact_piece; apply (exactly_map _ _ _ (fun x => (1, cat [snd x; "Type MessageType = "; str_of_Z (fst x + 1)])));
       intros [i k] _; compute_text; rewrite ?app_nil_s; reflexivity
      |rewrite ?level_back; reflexivity|reflexivity]. }
  walk_to "func ProcessRawBytes(data io.Reader, max int) ([]Message, error) {"; piece 35%nat.
  { unfold go_process_text, go_function.
    rewrite <- (each_name (fun x =>
       [(2, cat ["case "; x; "Type:"]);
        (3, cat ["msg, err := "; x; "FromBytes(data)"]);
        (3, "if err != nil {"); (4, cat ["return nil, fmt.Errorf(""err in "; x; " read (%w)"", err)"]); (3, "}");
        (3, "msgList = append(msgList, msg)")])).
    eapply exactly_eq;
      [exact_piece; apply exactly_each; intros x _; cbv beta; eapply exactly_eq; [exact_piece|reflexivity|rewrite ?level_back; reflexivity]
      |fit|reflexivity]. }
  walk.
  (eapply steps_cons; [apply LE| ]); (eapply steps_cons; [apply LS| ]).
  rewrite <- (app_nil_r (flat_map _ (p_messages p))); (eapply steps_cons; [apply LM| ]); walk.
Qed.
End Classes.
