(** The names at the top of C# files. *)
From Verif Require Export TopFacts.
From Verif Require Import CSharpTextFacts.
Open Scope string_scope.
Open Scope Z_scope.
Open Scope list_scope.

Definition cs_intros : list string := ["public class "; "public abstract class "; "public enum "].

Section Top.
Variable p : protocol.
Variable g : settings.
Hypothesis T : text_ok p.
Hint Resolve cst_types_ok cst_types_base cst_gen_measurement_ok : text.
Hint Resolve cst_deserializer_nested cst_serializer_nested : text.
Hint Resolve cst_gen_enum_nested cst_gen_struct_nested : text.

Lemma cst_gen_enum_shows ename e n : 0 <= n -> word ename = true -> In (ename, e) (p_enums p) ->
  shows cs_intros n (cst_gen_enum p ename e) 0 0 [ename].
Proof.
  intros N W I; assert (N1 : 0 <= n + 1) by lia; unfold cst_gen_enum, cs_intros.
  pose proof (tk_enums p T ename e I) as [B _]; destruct (cst_types_base p _ B) as [x ->].
  eapply shows_eq; [show|named].
Qed.
Lemma cst_gen_struct_shows sname s n : 0 <= n -> word sname = true -> declares p sname s ->
  shows cs_intros n (cst_gen_struct p g sname s) 0 0 [sname].
Proof.
  intros N W D; assert (N1 : 0 <= n + 1) by lia; pose proof (tk_name p T sname s D) as E.
  unfold cst_gen_struct, cs_intros; cbv zeta.
  destruct (s_is_message s) eqn:M; cbn [when].
  all: eapply shows_eq; [show|named].
Qed.

Hypothesis U : g_tab g <> "" /\ blanks (g_tab g) = true.
Hypothesis E : g_embed g = false.
Hypothesis W : word_types p.

(** The lines for the messages are further in. *)
Lemma cst_cases_undeclared : flat_map (declared cs_intros) (cst_message_cases p) = [].
Proof. unfold cst_message_cases; induction (map fst (p_messages p)) as [ |m l IH]; [reflexivity|exact IH]. Qed.
Lemma cst_boilerplate_names :
  flat_map (declared cs_intros) (fold_left substitute (cst_substitutions p) (csharp_files 1)) =
  ["DataReadErrorException"; "UnknownMessageTypeException"; "Message"].
Proof.
  unfold cst_substitutions; cbn [fold_left]; unfold substitute; cbn [fst snd]; rewrite splice_lines.
  generalize cst_cases_undeclared; generalize (cst_message_cases p) as new; intros new H.
  transitivity (flat_map (fun l => if string_dec l "{# MESSAGE_TYPE_CASES #}" then [] else declared cs_intros l) (csharp_files 1)).
  - induction (csharp_files 1) as [ |l ls IH]; [reflexivity| ]; cbn [flat_map]; rewrite flat_map_app, IH; f_equal.
    destruct (string_dec _ _); [exact H|cbn [flat_map]; apply app_nil_r].
  - vm_compute; reflexivity.
Qed.

Ltac show_more ::=
  first [match goal with |- shows _ _ (block (add_boilerplate _ _ _ _ :: _)) ?k _ _ =>
           lazymatch k with
           | 0 => eapply shows_boilerplate; [reflexivity|reflexivity|discriminate|apply U|apply U|reflexivity| ]
           | _ => apply shows_boilerplate_out; [reflexivity| ]
           end end
        |match goal with |- shows _ _ (block (each ?l _ :: _)) 0 _ _ =>
           eapply shows_cons; [apply shows_entries;
             let t := fresh "t" in let x := fresh "x" in let I := fresh "I" in
             intros t x I; first [apply cst_gen_enum_shows|apply cst_gen_struct_shows]; eauto with text| ] end].

Lemma cs_generate_shows : g_files g = csharp_files ->
  file_declares "csharp" p g (names_before "csharp" g ++ types_in_order p ++ names_after "csharp").
Proof.
  intro F; unfold file_declares; change (generate "csharp" p g) with (cst_generate p g).
  change (inside_namespace "csharp" g) with (has_namespace g); change (intros_of "csharp") with cs_intros.
  assert (H : shows cs_intros (if has_namespace g then 1 else 0) (cst_generate p g)
    (if has_namespace g then -1 else 0) (if has_namespace g then -1 else 0)
    (names_before "csharp" g ++ types_in_order p ++ names_after "csharp")).
  { unfold cst_generate; cbv zeta; rewrite E, F; destruct (has_namespace g) eqn:Z; cbn [when].
    - assert (N : 0 <= 1) by lia; assert (N1 : 0 <= 1 + 1) by lia.
      eapply shows_eq; [show|rewrite cst_boilerplate_names; unfold types_in_order; rewrite <- !app_assoc; reflexivity].
    - assert (N1 : 0 <= 0 + 1) by lia.
      eapply shows_eq; [show|rewrite cst_boilerplate_names; unfold types_in_order; rewrite <- !app_assoc; reflexivity]. }
  destruct H as (ls & G & H); exists ls; split; [ |exact H].
  destruct (has_namespace g); exact G.
Qed.
End Top.
