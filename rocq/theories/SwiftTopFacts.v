(** The names at the top of Swift files. *)
From Verif Require Export TopFacts.
From Verif Require Import SwiftTextFacts.
Open Scope string_scope.
Open Scope Z_scope.
Open Scope list_scope.

Definition sw_intros : list string := 
  ["public class "; "class "; "public struct "; "public enum "; "public func "; "public static func "].

Section Top.
Variable p : protocol.
Variable g : settings.
Hypothesis T : text_ok p.
Hint Resolve swt_types_ok swt_types_base swt_gen_measurement_ok : text.
Hint Resolve swt_deserializer_nested swt_serializer_nested : text.
Hint Resolve swt_gen_enum_nested swt_gen_struct_nested : text.

Lemma swt_gen_enum_shows ename e n : 0 <= n -> word ename = true -> In (ename, e) (p_enums p) ->
  shows sw_intros n (swt_gen_enum p ename e) 0 0 [ename].
Proof.
  intros N W I; assert (N1 : 0 <= n + 1) by lia; unfold swt_gen_enum, sw_intros.
  pose proof (tk_enums p T ename e I) as [B _]; destruct (swt_types_base p _ B) as [x ->].
  eapply shows_eq; [show|named].
Qed.
Lemma swt_gen_struct_shows sname s n : 0 <= n -> word sname = true -> declares p sname s ->
  shows sw_intros n (swt_gen_struct p g sname s) 0 0 [sname].
Proof.
  intros N W D; assert (N1 : 0 <= n + 1) by lia; pose proof (tk_name p T sname s D) as E.
  unfold swt_gen_struct, sw_intros; cbv zeta.
  destruct (s_is_message s) eqn:M; cbn [when].
  all: eapply shows_eq; [show|named].
Qed.

Hypothesis U : g_tab g <> "" /\ blanks (g_tab g) = true.
Hypothesis E : g_embed g = false.
Hypothesis W : word_types p.

Lemma swt_boilerplate_shows n r k2 N : g_files g = swift_files ->
  shows sw_intros n (block r) 0 k2 N ->
  shows sw_intros n (block (given (swt_types p (p_string_size_type p)) (fun string_size =>
      add_boilerplate "    " (g_tab g) (swt_substitutions string_size) (g_files g 0)) :: r)) 0 k2
    (["DataReaderError"; "DataReader"; "DataWriter"; "Message"] ++ N).
Proof.
  intros F H; pose proof (tk_string p T) as S; rewrite F; destruct U as [U1 U2].
  apply shows_given; [eauto with text|intros a Ga].
  apply shows_boilerplate; [reflexivity|reflexivity|discriminate|exact U2|exact U1| |exact H].
  clear - S Ga; unfold swt_types, mapping in Ga.
  cbn in S; decompose [or] S; clear S; try contradiction;
    match goal with X : _ = p_string_size_type p |- _ => rewrite <- X in * end;
    vm_compute in Ga; injection Ga as <-; vm_compute; reflexivity.
Qed.

Ltac show_more ::=
  first [apply swt_boilerplate_shows; [assumption| ]
        |match goal with |- shows _ _ (block (add_boilerplate _ _ _ _ :: _)) ?k _ _ =>
           lazymatch k with
           | 0 => eapply shows_boilerplate; [reflexivity|reflexivity|discriminate|apply U|apply U|match goal with F : g_files g = _ |- _ => rewrite F; vm_compute; reflexivity end| ]
           | _ => apply shows_boilerplate_out; [reflexivity| ]
           end end
        |match goal with |- shows _ _ (block (each ?l _ :: _)) 0 _ _ =>
           eapply shows_cons; [apply shows_entries;
             let t := fresh "t" in let x := fresh "x" in let I := fresh "I" in
             intros t x I; first [apply swt_gen_enum_shows|apply swt_gen_struct_shows]; eauto with text| ] end].

Lemma sw_generate_shows : g_files g = swift_files ->
  file_declares "swift" p g (names_before "swift" g ++ types_in_order p ++ names_after "swift").
Proof.
  intro F; unfold file_declares; change (generate "swift" p g) with (swt_generate p g).
  set (some := match g_namespace g with Some _ => true | None => false end); change (inside_namespace "swift" g) with some; change (intros_of "swift") with sw_intros.
  assert (H : shows sw_intros (if some then 1 else 0) (swt_generate p g)
    (if some then -1 else 0) (if some then -1 else 0)
    (names_before "swift" g ++ types_in_order p ++ names_after "swift")).
  { unfold swt_generate, swt_last_substitutions; cbv zeta; rewrite E; subst some; destruct (g_namespace g) eqn:Z; cbn [when].
    - assert (N : 0 <= 1) by lia; assert (N1 : 0 <= 1 + 1) by lia.
      eapply shows_eq; [show|unfold types_in_order; rewrite <- !app_assoc; reflexivity].
    - assert (N1 : 0 <= 0 + 1) by lia.
      eapply shows_eq; [show|unfold types_in_order; rewrite <- !app_assoc; reflexivity]. }
  destruct H as (ls & G & H); exists ls; split; [ |exact H].
  destruct some; exact G.
Qed.
End Top.
