(** The file for Swift has the programs of Swift.v. *)
From Coq Require Import Lia.
From Verif Require Export SwiftSyntaxFacts.
Open Scope string_scope.
Open Scope Z_scope.
Open Scope list_scope.

Section Classes.
Variable p : protocol.
Variable g : settings.
Hypothesis T : text_ok p.
Hypothesis EN : forall t e, lookup t (p_enums p) = Some e -> ~ In t (base_types ++ ["string"]).
Hint Resolve swt_types_ok swt_types_base swt_types_name swt_lowered_ok swt_gen_measurement_ok : text.

Lemma swx_field n m : declared_type p (v_type m) ->
  exactly n
    (if (v_list m) then
         line [| "public var "; v_name m; ": ["; swt_types p (v_type m); "] = []" |]
       else given (match lookup (v_type m) swt_defaults with
                   | Some d => lit d
                   | None => if mem (v_type m) (p_enums p) then
                               e <- get_enum p (v_type m) ;; [| v_type m; "."; default_name e |]
                             else [| v_type m; "()" |]
                   end) (fun default_value =>
           line [| "public var "; v_name m; ": "; swt_types p (v_type m);
                   (if String.eqb default_value "" then lit "" else [| " = "; default_value |]) |]))
    [(n, cat ["public var "; v_name m; ": ";
              (if v_list m then cat ["["; sw_type_name (v_type m); "]"] else sw_type_name (v_type m));
              " = "; sw_initial p m])] n.
Proof.
  intro D; rewrite (swx_types p) by exact D.
  unfold sw_initial, exactly; destruct (v_list m); [same_text| ].
  destruct (num_of (v_type m)) as [k| ] eqn:K.
  - assert (B : In (v_type m) base_types) by (apply num_of_base; eauto).
    assert (X : lookup (v_type m) swt_defaults = Some (match k with NBool => "false" | NF32 | NF64 => "0.0" | _ => "0" end)).
    { revert K; clear -B; revert B; generalize (v_type m) as t; intros t B K; cbn in B.
      repeat (destruct B as [<-|B]; [injection K as <-; reflexivity| ]); destruct B. }
    rewrite X; destruct k; same_text.
  - destruct (String.eqb (v_type m) "string") eqn:E; [apply String.eqb_eq in E; rewrite E; same_text| ].
    assert (X : lookup (v_type m) swt_defaults = None).
    { revert E K; clear; generalize (v_type m) as t; intros t E K.
      destruct (lookup t swt_defaults) eqn:L; [exfalso|reflexivity].
      apply lookup_In, (in_map fst) in L; cbn in L.
      repeat (destruct L as [<-|L]; [try discriminate; cbn in K; discriminate| ]); destruct L. }
    rewrite X; unfold mem, get_enum, item, default_name; destruct (lookup (v_type m) (p_enums p)) as [e| ] eqn:L.
    + destruct (tk_enums p T _ _ (lookup_In _ _ _ L)) as [_ V].
      cbv [given pbind]; unfold get_default_pair; destruct (e_values e) as [ |[a b] r]; [congruence| ].
      assert (F : forall x y, String.eqb (x +++ "." +++ y) "" = false) by (intros [ |? x] y; reflexivity).
      cbn [hd_error of_option pbind pcat lit str_of fst]; rewrite F; same_text.
    + assert (F : forall x, String.eqb (x +++ "()") "" = false) by (intros [ |? x]; reflexivity).
      cbv [given]; cbn [pbind pcat lit str_of]; rewrite F; same_text.
Qed.

Ltac field_piece :=
  eapply exactly_eq;
    [exact_piece; apply exactly_map; intros m I; apply swx_field; eapply (tk_types p T); eassumption
    |cbn [app]; rewrite <- ?app_assoc, ?app_nil_r; reflexivity
    |reflexivity].
Lemma swx_struct lvl n s size : declares p n s -> gen_size sw_style p 0 s = Some size ->
  steps lvl (swt_gen_struct p g n s)
    ([sw_fields_text p lvl s] ++
     (if s_is_message s then [sw_size_text (lvl + 1) (g_tab g) size] else []) ++
     [sw_from_bytes_text (lvl + 1) s (sw_reader p s); sw_write_bytes_text p (lvl + 1) s (sw_write p)]) lvl.
Proof.
  intros D GS; destruct (swx_size p g T n s size D GS) as (ml & mz & EM & ES).
  pose proof (tk_name p T n s D) as N.
  assert (CO : (Z.of_nat (List.length (s_members s)) =? 0) || s_is_message s =
               s_is_message s || match s_members s with [] => true | _ => false end).
  { destruct (s_members s); cbn; [now destruct (s_is_message s)|now destruct (s_is_message s)]. }
  unfold swt_gen_struct, sw_fields_text, sw_from_bytes_text, sw_write_bytes_text, sw_size_text; cbv zeta; rewrite CO, N, ES;
    destruct (s_is_message s) eqn:M;
    cbn [app orb]; piece 4%nat; [field_piece| |field_piece| ].
  - walk_to "public override func GetSizeInBytes() -> UInt32 {"; inside 2%nat EM; piece 7%nat.
    { eapply exactly_eq;
        [exact_piece; apply exactly_when; compute_text; reflexivity
        |rewrite !at_lvl_app, <- !app_assoc, ?level_back; reflexivity
        |reflexivity]. }
    rewrite ?level_back; walk_to "override class func FromBytes(dataReader: DataReader) throws -> Self {".
    flatten 2%nat; piece 7%nat.
    { eapply exactly_eq; [exact_piece; apply (swx_reads p T); exact D
       |rewrite ?level_back; cbn [app]; rewrite <- ?app_assoc; reflexivity|reflexivity]. }
    rewrite ?level_back; walk_to "public override func WriteBytes(data: NSMutableData, tag: Bool) -> Void {"; rewrite ?level_back; piece 13%nat.
    { eapply exactly_eq; [exact_piece; eapply swx_writes; [exact T|exact EN|exact D]
       |rewrite ?level_back; cbn [app cat fold_right]; rewrite <- ?app_assoc, ?app_nil_s; reflexivity|reflexivity]. }
    rewrite ?level_back; walk.
  - walk_to "static func FromBytes(dataReader: DataReader) throws -> Self {".
    flatten 2%nat; piece 7%nat.
    { eapply exactly_eq; [exact_piece; apply (swx_reads p T); exact D
       |rewrite ?level_back; destruct (s_members s) eqn:MS; cbn [app]; rewrite <- ?app_assoc; reflexivity|reflexivity]. }
    rewrite ?level_back; walk_to "func WriteBytes(_ dataWriter: DataWriter) -> Void {"; rewrite ?level_back; piece 7%nat.
    { eapply exactly_eq; [exact_piece; eapply swx_writes; [exact T|exact EN|exact D]
       |rewrite ?level_back; cbn [app cat fold_right]; rewrite <- ?app_assoc, ?app_nil_s; reflexivity|reflexivity]. }
    rewrite ?level_back; walk.
Qed.

Lemma swx_enum n e lvl : In (n, e) (p_enums p) -> steps lvl (swt_gen_enum p n e) [sw_enum_text lvl n e] lvl.
Proof.
  intro I; destruct (tk_enums p T _ _ I) as [B _].
  unfold swt_gen_enum, sw_enum_text; rewrite (swx_types p _ (or_introl B)); piece 5%nat.
  { eapply exactly_eq;
    [exact_piece; apply (exactly_map _ _ _ (fun v => (lvl + 1, cat ["case "; fst v; " = "; str_of_Z (snd v)]))); intros [v z] _; compute_text; rewrite ?app_nil_s; reflexivity
    |rewrite ?level_back; compute_text; rewrite ?app_nil_s; reflexivity|reflexivity]. }
  rewrite ?level_back; walk.
Qed.
Lemma no_messages (l : list (string * struct)) : (Z.of_nat (List.length l) =? 0) = match l with [] => true | _ => false end.
Proof. destruct l; reflexivity. Qed.
Lemma swx_tags (l : list (string * struct)) lvl :
  exactly lvl (block [line "public enum MessageType: UInt8 {"; indent;
                      when (Z.of_nat (List.length l) =? 0) (line "case __NullMessage = 0 /* to keep the compiler happy */");
                      each (enumerate l) (fun '(i, k) => line [| "case "; k; "Type = "; str_of_Z (i + 1) |]);
                      dedent; line "}"])
    (sw_tags_text lvl (count_from 1 l)) lvl.
Proof.
  unfold sw_tags_text; rewrite <- (each_number (fun t => (lvl + 1, cat ["case "; snd t; "Type = "; str_of_Z (fst t)]))), no_messages.
  eapply exactly_eq;
    [exact_piece; [apply exactly_when; reflexivity|
     apply (exactly_map _ _ _ (fun x => (lvl + 1, cat ["case "; snd x; "Type = "; str_of_Z (fst x + 1)])));
     intros [i k] _; compute_text; rewrite ?app_nil_s; reflexivity]
    |rewrite ?level_back; destruct l as [ |[? ?] ?]; reflexivity|apply level_back].
Qed.
Lemma swx_switch (l : list (string * struct)) (accessor : string) lvl :
  exactly lvl (block [line "switch msgType {";
        indent;
        each (map fst l) (fun mt =>
          block [
            line [| "case "; accessor; "MessageType."; mt; "Type:" |];
            indent;
            line [| "msgList.append(try "; mt; ".FromBytes(dataReader: dr))" |];
            dedent]);
        when (Z.of_nat (List.length l) =? 0) (
          block [
            line [| "case "; accessor; "MessageType.__NullMessage:" |];
            indent;
            line [| "break" |];
            dedent]);
        dedent;
        line "}"])
    (sw_switch_text lvl accessor (count_from 1 l)) lvl.
Proof.
  unfold sw_switch_text.
  rewrite <- (each_name (fun n => [(lvl + 1, cat ["case "; accessor; "MessageType."; n; "Type:"]);
                      (lvl + 2, cat ["msgList.append(try "; n; ".FromBytes(dataReader: dr))"])])), no_messages.
  replace (lvl + 2) with (lvl + 1 + 1) by lia.
  destruct l as [ |x l]; cbn [when]; (eapply exactly_eq;
    [exact_piece; try (apply exactly_each; intros n _; eapply exactly_eq;
      [exact_piece|rewrite ?level_back; compute_text; rewrite ?app_nil_s; reflexivity|rewrite ?level_back; reflexivity])
    |rewrite ?level_back; try destruct x; cbn [count_from app]; rewrite ?app_assoc_s, ?app_nil_s; reflexivity
    |rewrite ?level_back; reflexivity]).
Qed.
Lemma swx_class lvl n s : declares p n s -> steps lvl (swt_gen_struct p g n s) (sw_class p g lvl s) lvl.
Proof.
  intro D; destruct (gen_size_defined sw_style p T 0 n s D) as [size GS].
  pose proof (swx_struct lvl n s size D GS) as H; unfold sw_class; rewrite GS; exact H.
Qed.
Lemma swx_generate : steps 0 (swt_generate p g) (sw_file p g) 0.
Proof.
  unfold swt_generate, sw_file; cbv zeta; cbn [app]; rewrite flat_map_app.
  assert (LE : forall lvl, steps lvl (each (p_enums p) (fun '(ename, e) => swt_gen_enum p ename e))
                 (map (fun e => sw_enum_text lvl (fst e) (snd e)) (p_enums p)) lvl).
  { intro lvl; rewrite <- flat_map_map_one; apply steps_all; intros [n e] I; now apply swx_enum. }
  assert (LC : forall l lvl, (forall n s, In (n, s) l -> declares p n s) ->
                 steps lvl (each l (fun '(n, s) => swt_gen_struct p g n s))
                 (flat_map (fun s => sw_class p g lvl (snd s)) l) lvl).
  { intros l lvl D; apply steps_all; intros [n s] I; apply swx_class; auto. }
  pose proof (fun lvl => LC (p_structs p) lvl (fun n s I => or_introl I)) as LS.
  pose proof (fun lvl => LC (p_messages p) lvl (fun n s I => or_intror I)) as LM; clear LC.
  destruct (g_namespace g) as [ns| ] eqn:U; cbn [when or_none] in *;
    walk_to "public enum MessageType: UInt8 {"; over; walk_to "public enum MessageType: UInt8 {".
  - over; (piece 6%nat; [exact (swx_tags _ _)| ]); walk_to "switch msgType {";
      (piece 6%nat; [exact (swx_switch _ (ns +++ ".") (0 + 1 + 1 + 1))| ]); walk.
    (eapply steps_cons; [apply LE| ]); (eapply steps_cons; [apply LS| ]).
    rewrite <- (app_nil_r (flat_map _ (p_messages p))); (eapply steps_cons; [apply LM| ]); walk; over; walk.
  - over; (piece 6%nat; [exact (swx_tags _ _)| ]); walk_to "switch msgType {";
      (piece 6%nat; [exact (swx_switch _ "" (0 + 1 + 1))| ]); walk.
    (eapply steps_cons; [apply LE| ]); (eapply steps_cons; [apply LS| ]).
    rewrite <- (app_nil_r (flat_map _ (p_messages p))); (eapply steps_cons; [apply LM| ]); walk; over; walk.
Qed.
End Classes.
