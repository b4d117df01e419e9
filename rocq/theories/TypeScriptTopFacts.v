(** The names at the top of TypeScript and AssemblyScript files. *)
From Verif Require Export TopFacts.
From Verif Require Import TypeScriptTextFacts.
Open Scope string_scope.
Open Scope Z_scope.
Open Scope list_scope.

Definition ts_intros : list string :=
  ["export class "; "export abstract class "; "export enum "; "export function "; "export const "; "const "].

Section Top.
Variable p : protocol.
Variable g : settings.
Hypothesis T : text_ok p.
Hint Resolve tst_types_ok tst_types_base tst_types_name tst_serializers_ok : text.
Hint Resolve tst_deserializer_nested tst_serializer_nested tst_gen_measurement_ok : text.
Hint Resolve tst_gen_enum_nested tst_gen_struct_nested declared_names_struct declared_names_message : text.

Lemma tst_gen_enum_shows asm ename e n : 0 <= n -> word ename = true ->
  shows ts_intros n (tst_gen_enum asm ename e) 0 0 [ename].
Proof.
  intros N W; assert (N1 : 0 <= n + 1) by lia; unfold tst_gen_enum, ts_intros; destruct asm; cbn [when].
  all: eapply shows_eq; [show|cbn [app]; now rewrite first_word_app].
Qed.
Lemma tst_gen_struct_shows asm sname s n : 0 <= n -> word sname = true -> declares p sname s ->
  shows ts_intros n (tst_gen_struct p g asm sname s) 0 0 [sname].
Proof.
  intros N W D; assert (N1 : 0 <= n + 1) by lia; unfold tst_gen_struct, ts_intros; cbv zeta.
  destruct (s_is_message s) eqn:M; destruct asm; cbn [negb andb when].
  all: eapply shows_eq; [show|cbn [app]; now rewrite first_word_app].
Qed.

Hypothesis U : g_tab g <> "" /\ blanks (g_tab g) = true.
Hypothesis E : g_embed g = false.
Hypothesis W : word_types p.

Lemma tst_boilerplate_shows n (asm : bool) r k2 N :
  g_files g = (if asm then assemblyscript_files else typescript_files) ->
  shows ts_intros n (block r) 0 k2 N ->
  shows ts_intros n (block (given (tst_serializers asm (p_string_size_type p)) (fun string_size =>
      given (tst_types p asm (p_string_size_type p)) (fun native_string_size =>
        add_boilerplate "  " (g_tab g)
          (tst_substitutions string_size native_string_size)
          (g_files g (-1)))) :: r)) 0 k2
    ((if asm then ["DataAccess"; "Message"; "GetPackedSize"; "PackMessages"; "UnpackMessages"]
      else ["_textDec"; "_textEnc"; "DataAccess"; "Message"; "GetPackedSize"; "PackMessages"; "UnpackMessages"]) ++ N).
Proof.
  intros F H; pose proof (tk_string p T) as S; rewrite F; destruct U as [U1 U2].
  apply shows_given; [destruct asm; eauto with text|intros a Ga].
  apply shows_given; [destruct asm; eauto with text|intros b Gb].
  apply shows_boilerplate; [reflexivity|reflexivity|discriminate|exact U2|exact U1| |exact H].
  clear - S Ga Gb; unfold tst_types, mapping in Gb.
  cbn in S; decompose [or] S; clear S; try contradiction;
    match goal with X : _ = p_string_size_type p |- _ => rewrite <- X in * end;
    destruct asm; vm_compute in Ga, Gb; injection Ga as <-; injection Gb as <-; vm_compute; reflexivity.
Qed.

Ltac show_more ::=
  first [apply tst_boilerplate_shows; [assumption| ]
        |match goal with |- shows _ _ (block (each ?l _ :: _)) 0 _ _ =>
           eapply shows_cons; [apply shows_entries;
             let t := fresh "t" in let x := fresh "x" in let I := fresh "I" in
             intros t x I; first [apply tst_gen_enum_shows|apply tst_gen_struct_shows]; eauto with text| ] end].

Lemma ts_generate_shows : g_files g = typescript_files ->
  file_declares "typescript" p g (names_before "typescript" g ++ types_in_order p ++ names_after "typescript").
Proof.
  intro F; unfold file_declares; change (generate "typescript" p g) with (tst_generate p g false).
  change (inside_namespace "typescript" g) with (g_flag g); change (intros_of "typescript") with ts_intros.
  assert (H : shows ts_intros (if g_flag g then 1 else 0) (tst_generate p g false)
    (if g_flag g then -1 else 0) (if g_flag g then -1 else 0)
    (names_before "typescript" g ++ types_in_order p ++ names_after "typescript")).
  { unfold tst_generate; cbv zeta; rewrite E; destruct (g_flag g) eqn:Z; cbn [negb andb when].
    - assert (N : 0 <= 1) by lia; assert (N1 : 0 <= 1 + 1) by lia.
      eapply shows_eq; [show|unfold types_in_order; rewrite <- !app_assoc; reflexivity].
    - assert (N1 : 0 <= 0 + 1) by lia.
      eapply shows_eq; [show|unfold types_in_order; rewrite <- !app_assoc; reflexivity]. }
  destruct H as (ls & G & H); exists ls; split; [ |exact H].
  destruct (g_flag g); exact G.
Qed.
Lemma as_generate_shows : g_files g = assemblyscript_files ->
  file_declares "assemblyscript" p g (names_before "assemblyscript" g ++ types_in_order p ++ names_after "assemblyscript").
Proof.
  intro F; unfold file_declares; change (generate "assemblyscript" p g) with (tst_generate p g true).
  change (inside_namespace "assemblyscript" g) with false; change (intros_of "assemblyscript") with ts_intros.
  enough (H : shows ts_intros 0 (tst_generate p g true) 0 0
    (names_before "assemblyscript" g ++ types_in_order p ++ names_after "assemblyscript")) by exact H.
  assert (N1 : 0 <= 0 + 1) by lia.
  unfold tst_generate; cbv zeta; rewrite E, andb_false_r; cbn [negb when].
  eapply shows_eq; [show|unfold types_in_order; rewrite <- !app_assoc; reflexivity].
Qed.
End Top.
