(** The methods of the generated classes are the programs in TypeScript.v and
    AssemblyScript.v. *)
From Coq Require Import Lia.
From Verif Require Export TypeScriptSyntaxFacts.
Open Scope string_scope.
Open Scope Z_scope.
Open Scope list_scope.

Ltac size_piece EM :=
  eapply exactly_eq;
    [exact_piece; eapply exactly_given; [exact EM| ]; cbv beta iota; exact_piece; apply exactly_when; compute_text; reflexivity
    |rewrite !at_lvl_app, <- !app_assoc, ?level_back; reflexivity
    |reflexivity].
Ltac read_piece T D idx :=
  eapply exactly_eq;
    [exact_piece; eapply (tsx_reads _ _ T _ _ idx); [exact D|lia]
    |cbn [andb negb]; rewrite <- ?Z.add_assoc; reflexivity
    |reflexivity].
Ltac write_piece T D :=
  eapply exactly_eq;
    [exact_piece; eapply tsx_writes; [exact T|exact D]
    |rewrite ?level_back; cbv [ts_cast ts_check as_number]; cbn [app cat fold_right]; rewrite <- ?app_assoc; cbn [app]; rewrite ?app_nil_s; reflexivity
    |reflexivity].
Section Classes.
Variable p : protocol.
Variable g : settings.
Hypothesis T : text_ok p.
Hint Resolve tst_types_ok tst_types_base tst_types_name tst_serializers_ok tst_gen_measurement_ok : text.

Lemma tsx_field asm n m : declared_type p (v_type m) ->
  exactly n
    (if v_list m then line [| v_name m; ": "; tst_types p asm (v_type m); "[] = [];" |]
     else given (tst_types p asm (v_type m)) (fun ty =>
       given (if String.eqb ty "bigint" then lit "0n"
              else if String.eqb ty "boolean" then lit "false"
              else if String.eqb ty "string" then lit """"""
              else if mem (v_type m) (p_enums p) then
                e <- get_enum p (v_type m) ;; [| v_type m; "."; default_name e |]
              else if mem (v_type m) (p_structs p) then [| "new "; v_type m; "()" |]
              else lit "0") (fun default_value =>
         line [| v_name m; ": "; tst_types p asm (v_type m);
                 (if String.eqb default_value "" then lit "" else [| " = "; default_value |]); ";" |])))
    [(n, cat [v_name m; ": "; ts_type_name p asm (v_type m); (if v_list m then "[]" else ""); " = "; ts_value p asm m; ";"])] n.
Proof.
  intro D; rewrite (tsx_types p asm) by now left.
  unfold ts_value, exactly; destruct (v_list m).
  - same_text.
  - cbv [given pbind].
    assert (F : forall (x : string) (A : Type) (a b c d : A), match x with "bigint" => a | "boolean" => b | "string" => c | _ => d end =
              if String.eqb x "bigint" then a else if String.eqb x "boolean" then b else if String.eqb x "string" then c else d).
    { intros x A a b c d.
      destruct (String.eqb x "bigint") eqn:E1; [apply String.eqb_eq in E1; now subst x| ].
      destruct (String.eqb x "boolean") eqn:E2; [apply String.eqb_eq in E2; now subst x| ].
      destruct (String.eqb x "string") eqn:E3; [apply String.eqb_eq in E3; now subst x| ].
      repeat (destruct x as [ |[[] [] [] [] [] [] [] []] x]; try reflexivity; try discriminate). }
    rewrite F; clear F.
    destruct (String.eqb _ "bigint"); [same_text| ].
    destruct (String.eqb _ "boolean"); [same_text| ].
    destruct (String.eqb _ "string"); [same_text| ].
    unfold mem, get_enum, item, default_name.
    destruct (lookup (v_type m) (p_enums p)) as [e| ] eqn:L.
    + destruct (tk_enums p T _ _ (lookup_In _ _ _ L)) as [_ V].
      unfold get_default_pair; destruct (e_values e) as [ |[a b] r]; [congruence| ].
      assert (F : forall x y, String.eqb (x +++ "." +++ y) "" = false) by (intros [ |? x] y; reflexivity).
      cbn [hd_error of_option pbind pcat lit str_of fst]; rewrite F; same_text.
    + assert (F : forall x, String.eqb ("new " +++ x) "" = false) by reflexivity.
      destruct (lookup (v_type m) (p_structs p)); [ |same_text].
      cbn [pbind pcat lit str_of]; rewrite F; same_text.
Qed.

Ltac field_piece :=
  eapply exactly_eq;
    [exact_piece; apply exactly_map; intros m I; apply tsx_field; eapply (tk_types p T); eassumption
    |cbn [app]; rewrite <- ?app_assoc; reflexivity
    |reflexivity].
Lemma tsx_struct asm lvl n s size : declares p n s -> gen_size ts_style p 0 s = Some size ->
  tst_types p asm n = Ret n ->
  steps (Z.of_nat lvl) (tst_gen_struct p g asm n s)
    ([ts_fields_text p asm (Z.of_nat lvl) s] ++
     (if s_is_message s then [ts_size_text asm (Z.of_nat lvl + 1) (g_tab g) size] else []) ++
     [ts_from_bytes_text p asm (Z.of_nat lvl + 1) s
        (flat_map (tsx_read asm p (lvl + (if s_is_message s && negb asm then 3 else 2))) (s_members s));
      ts_write_bytes_text p asm (Z.of_nat lvl + 1) s (tsx_write asm p)]) (Z.of_nat lvl).
Proof.
  intros D GS TN; destruct (tsx_size p g asm T n s size D GS) as (ml & mz & EM & ES).
  pose proof (tk_name p T n s D) as N.
  unfold tst_gen_struct, ts_fields_text, ts_from_bytes_text, ts_write_bytes_text, ts_size_text; rewrite N, ES; destruct (s_is_message s) eqn:M;
    cbn [app]; piece 4%nat; [field_piece| |field_piece| ].
  - destruct asm.
    + walk_to "getSizeInBytes(): usize {". piece 3%nat.
      { size_piece EM. }
      walk_to "const n"; rewrite TN; piece 3%nat.
      { read_piece T D (lvl + 2)%nat. }
      walk_to "if (tag) {"; piece 10%nat.
      { write_piece T D. }
      walk.
    + walk_to "getSizeInBytes(): number {". piece 3%nat.
      { size_piece EM. }
      walk_to "const n"; rewrite TN; piece 3%nat.
      { read_piece T D (lvl + 3)%nat. }
      walk_to "if (tag) {"; piece 9%nat.
      { write_piece T D. }
      walk.
  - destruct asm.
    + walk_to "const n"; rewrite TN; piece 3%nat.
      { read_piece T D (lvl + 2)%nat. }
      walk_to "writeBytes(da: DataAccess): bool {"; piece 6%nat.
      { write_piece T D. }
      walk.
    + walk_to "const n"; rewrite TN; piece 3%nat.
      { read_piece T D (lvl + 2)%nat. }
      walk_to "writeBytes(da: DataAccess): void {"; piece 6%nat.
      { write_piece T D. }
      walk.
Qed.

Lemma tsx_enum asm n e lvl : steps lvl (tst_gen_enum asm n e) [ts_enum_text asm lvl n (e_values e)] lvl.
Proof.
  unfold tst_gen_enum, ts_enum_text; destruct asm; cbn [when]; piece 6%nat.
  1, 3: eapply exactly_eq;
    [exact_piece; apply (exactly_map _ _ _ (fun v => (lvl + 1, cat [fst v; " = "; str_of_Z (snd v); ","]))); intros [v z] _; compute_text; reflexivity
    |rewrite ?level_back; reflexivity|reflexivity].
  all: rewrite ?level_back; walk.
Qed.

Lemma tsx_tags asm (l : list (string * struct)) lvl :
  exactly lvl (block [line "export enum MessageType {"; indent;
                      each (enumerate l) (fun '(i, k) => line [| k; "Type = "; str_of_Z (i + 1); "," |]);
                      when asm (line "_Unknown,"); dedent; line "}"])
    (ts_tags_text asm lvl (count_from 1 l)) lvl.
Proof.
  unfold ts_tags_text; rewrite <- (each_number (fun t => (lvl + 1, cat [snd t; "Type = "; str_of_Z (fst t); ","]))).
  eapply exactly_eq;
    [exact_piece; [apply (exactly_map _ _ _ (fun x => (lvl + 1, cat [snd x; "Type = "; str_of_Z (fst x + 1); ","])));
                   intros [i k] _; compute_text; reflexivity
                  |apply exactly_when; reflexivity]
    |rewrite ?level_back; destruct asm; reflexivity|apply level_back].
Qed.
Lemma tsx_switch (asm : bool) (l : list (string * struct)) lvl :
  exactly lvl
    (block [line [| "switch (msgType"; (if asm then " as i32" else ""); ") {" |];
    indent;
    line "case 0:";
    indent;
    line "return msgList;";
    dedent;
    each (map fst l) (fun mt =>
      block [
        line [| "case MessageType."; mt; "Type:" |];
        indent;
        (if asm then
           block [
             line [| "newMsg = "; mt; ".fromBytesDA(da);" |];
             line "if (newMsg == null) {";
             indent;
             line "return msgList;";
             dedent;
             line "}"]
         else line [| "newMsg = "; mt; ".fromBytes(da);" |]);
        line "msgList.push(newMsg);";
        line "break;";
        dedent]);
    line "default:";
    indent;
    (if negb asm then
       line "throw new Error(`Unknown message type: ${msgType}`);"
     else line "return msgList;");
    dedent;
    dedent;
    line "}"]) (ts_switch_text asm lvl (count_from 1 l)) lvl.
Proof.
  unfold ts_switch_text.
  rewrite <- (each_name (fun n => [(lvl + 1, cat ["case MessageType."; n; "Type:"])] ++
    (if asm then
       [(lvl + 2, cat ["newMsg = "; n; ".fromBytesDA(da);"]);
        (lvl + 2, "if (newMsg == null) {"); (lvl + 3, "return msgList;"); (lvl + 2, "}")]
     else [(lvl + 2, cat ["newMsg = "; n; ".fromBytes(da);"])]) ++
    [(lvl + 2, "msgList.push(newMsg);"); (lvl + 2, "break;")])).
  replace (lvl + 2) with (lvl + 1 + 1) by lia; replace (lvl + 3) with (lvl + 1 + 1 + 1) by lia.
  destruct asm; cbn [negb]; (eapply exactly_eq;
    [exact_piece; rewrite ?level_back; apply exactly_each; intros n _; eapply exactly_eq;
      [exact_piece|rewrite ?level_back; compute_text; rewrite ?app_nil_s; reflexivity|rewrite ?level_back; reflexivity]
    |rewrite ?level_back; cbn [app]; rewrite ?app_assoc_s, ?app_nil_s; reflexivity
    |rewrite ?level_back; reflexivity]).
Qed.

Lemma tsx_map (l : list (string * struct)) lvl :
  exactly lvl (block [line "export const MessageTypeMap = new Map<MessageType, { new(): Message }>(["; indent;
                      each (map fst l) (fun mname => line [| "[MessageType."; mname; "Type, "; mname; "]," |]);
                      dedent; line "]);"])
    (ts_map_text lvl (count_from 1 l)) lvl.
Proof.
  unfold ts_map_text; rewrite <- (each_name_one (fun n => (lvl + 1, cat ["[MessageType."; n; "Type, "; n; "],"]))).
  eapply exactly_eq;
    [exact_piece; apply (exactly_map _ _ _ (fun n => (lvl + 1, cat ["[MessageType."; n; "Type, "; n; "],"]))); intros n _; compute_text; reflexivity
    |rewrite ?level_back; reflexivity|apply level_back].
Qed.
Lemma tsx_class asm lvl n s : (forall n s, declares p n s -> tst_types p asm n = Ret n) -> declares p n s ->
  lvl = (if g_flag g && negb asm then 1 else 0) ->
  steps lvl (tst_gen_struct p g asm n s) (ts_class p g asm lvl s) lvl.
Proof.
  intros TN D L; destruct (gen_size_defined ts_style p T 0 n s D) as [size GS].
  pose proof (tsx_struct asm (if g_flag g && negb asm then 1 else 0)%nat n s size D GS (TN n s D)) as H.
  unfold ts_class; rewrite GS; replace (Z.of_nat (if g_flag g && negb asm then 1 else 0)) with lvl in H by (subst lvl; now destruct (g_flag g && negb asm)).
  revert H; unfold as_reader, ts_reader, tsx_read, tsx_write, ts_level.
  destruct asm, (g_flag g), (s_is_message s); intro H; exact H.
Qed.

Ltac to_switch b :=
  walk_to "export enum MessageType {"; over; walk_to "export enum MessageType {"; over; walk_to "export enum MessageType {";
  (piece 6%nat; [exact (tsx_tags b _ _)| ]);
  walk_to "switch (msgType"; (piece 13%nat; [exact (tsx_switch b _ _)| ]); walk; rewrite <- ?app_assoc.
Lemma tsx_generate asm : (forall n s, declares p n s -> tst_types p asm n = Ret n) ->
  steps 0 (tst_generate p g asm) (ts_file p g asm) 0.
Proof.
  intro TN; unfold tst_generate, ts_file; cbv zeta; cbn [app]; rewrite flat_map_app.
  pose proof (tsx_class asm (if g_flag g && negb asm then 1 else 0)) as C.
  assert (LE : forall lvl, steps lvl (each (p_enums p) (fun '(ename, e) => tst_gen_enum asm ename e))
                 (map (fun e => ts_enum_text asm lvl (fst e) (e_values (snd e))) (p_enums p)) lvl).
  { intro lvl; rewrite <- flat_map_map_one; apply steps_all; intros [n e] _; apply tsx_enum. }
  assert (LC : forall l lvl, (forall n s, In (n, s) l -> declares p n s) -> lvl = (if g_flag g && negb asm then 1 else 0) ->
                 steps lvl (each l (fun '(n, s) => tst_gen_struct p g asm n s))
                 (flat_map (fun s => ts_class p g asm lvl (snd s)) l) lvl).
  { intros l lvl D L; apply steps_all; intros [n s] I; apply tsx_class; auto. }
  pose proof (LC (p_structs p) _ (fun n s I => or_introl I) eq_refl) as LS.
  pose proof (LC (p_messages p) _ (fun n s I => or_intror I) eq_refl) as LM; clear LC.
  destruct (g_flag g) eqn:U; destruct asm; cbn [negb andb] in *; [to_switch true|to_switch false|to_switch true|to_switch false];
    (eapply steps_cons; [apply LE| ]); (eapply steps_cons; [apply LS| ]); (eapply steps_cons; [apply LM| ]); cbn [when].
  1, 3: walk.
  all: (eapply steps_flat; cbn [app]; piece 5%nat; [exact (tsx_map _ _)| ]); walk.
Qed.
End Classes.
