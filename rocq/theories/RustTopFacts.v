(** The names at the top of Rust files. *)
From Verif Require Export TopFacts.
From Verif Require Import RustTextFacts.
Open Scope string_scope.
Open Scope Z_scope.
Open Scope list_scope.

Definition rs_intros : list string := 
  ["use std::error::"; "use std::"; "pub enum "; "pub struct "; "pub trait "; "pub fn "].

Section Top.
Variable p : protocol.
Variable g : settings.
Hypothesis T : text_ok p.
Hint Resolve rst_types_ok rst_types_base rst_gen_measurement_ok : text.
Hint Resolve rst_deserializer_nested rst_serializer_nested : text.
Hint Resolve rst_gen_enum_nested rst_gen_struct_nested : text.

Lemma rst_gen_enum_shows ename e n : 0 <= n -> word ename = true -> In (ename, e) (p_enums p) ->
  shows rs_intros n (rst_gen_enum p g ename e) 0 0 [ename].
Proof.
  intros N W I; assert (N1 : 0 <= n + 1) by lia.
  pose proof (tk_enums p T ename e I : fine_enum e) as F; unfold rst_gen_enum, rs_intros.
  destruct (rst_types_base p _ (fine_encoding e F)) as [x ->].
  eapply shows_eq; [show|named].
Qed.
Lemma rst_gen_struct_shows sname s n : 0 <= n -> word sname = true -> declares p sname s ->
  shows rs_intros n (rst_gen_struct p g sname s) 0 0 [sname].
Proof.
  intros N W D; assert (N1 : 0 <= n + 1) by lia; pose proof (tk_name p T sname s D) as E.
  unfold rst_gen_struct, rs_intros; cbv zeta.
  destruct (s_is_message s) eqn:M; cbn [when].
  all: eapply shows_eq; [show|named].
Qed.

Hypothesis U : g_tab g <> "" /\ blanks (g_tab g) = true.
Hypothesis E : g_embed g = false.
Hypothesis W : word_types p.
Hypothesis WN : word_namespace g.

Lemma rst_boilerplate_shows n r k2 N : g_files g = rust_files ->
  shows rs_intros n (block r) 0 k2 N ->
  shows rs_intros n (block (given (rst_types p (p_string_size_type p)) (fun string_size =>
      add_boilerplate "    " (g_tab g) (rst_substitutions g string_size) (g_files g (-1))) :: r)) 0 k2
    (["fmt"; "Error"; match g_namespace g with Some ns => ns +++ "Error" | None => "BeschiError" end;
      "BufferReader"; "MessageCodec"; "get_packed_size"; "pack_messages"; "unpack_messages"] ++ N).
Proof.
  intros F H; pose proof (tk_string p T) as S; rewrite F; destruct U as [U1 U2].
  apply shows_given; [eauto with text|intros a Ga].
  apply shows_boilerplate; [reflexivity|reflexivity|discriminate|exact U2|exact U1| |exact H].
  clear - S Ga WN; unfold rst_types, mapping in Ga; unfold rst_substitutions.
  destruct (g_namespace g) as [ns| ] eqn:G.
  - transitivity ["fmt"; "Error"; first_word (ns +++ "Error {");
      "BufferReader"; "MessageCodec"; "get_packed_size"; "pack_messages"; "unpack_messages"].
    { specialize (WN ns G); change "Error {" with ("Error" +++ " {").
      rewrite <- app_str_assoc, first_word_app; [reflexivity|now apply word_app|reflexivity]. }
    clear WN G; cbn in S; decompose [or] S; clear S; try contradiction;
    match goal with X : _ = p_string_size_type p |- _ => rewrite <- X in * end;
    vm_compute in Ga; injection Ga as <-; vm_compute; reflexivity.
  - clear WN G; cbn in S; decompose [or] S; clear S; try contradiction;
    match goal with X : _ = p_string_size_type p |- _ => rewrite <- X in * end;
    vm_compute in Ga; injection Ga as <-; vm_compute; reflexivity.
Qed.

Ltac show_more ::=
  first [apply rst_boilerplate_shows; [assumption| ]
        |match goal with |- shows _ _ (block (each ?l _ :: _)) 0 _ _ =>
           eapply shows_cons; [apply shows_entries;
             let t := fresh "t" in let x := fresh "x" in let I := fresh "I" in
             intros t x I; first [apply rst_gen_enum_shows|apply rst_gen_struct_shows]; eauto with text| ] end].

Lemma rst_generate_shows : g_files g = rust_files ->
  shows rs_intros 0 (rst_generate p g) 0 0 (names_before "rust" g ++ types_in_order p ++ names_after "rust").
Proof.
  intro F; assert (N1 : 0 <= 0 + 1) by lia; unfold rst_generate; cbv zeta; rewrite E; cbn [when].
  eapply shows_eq; [show|unfold types_in_order; rewrite <- !app_assoc; reflexivity].
Qed.
End Top.

Lemma rs_generate_shows p g : text_ok p -> g_tab g <> "" /\ blanks (g_tab g) = true -> g_embed g = false ->
  word_types p -> word_namespace g -> g_files g = rust_files ->
  file_declares "rust" p g (names_before "rust" g ++ types_in_order p ++ names_after "rust").
Proof.
  intros T U E W WN F; assert (O : types_in_order (rs_protocol (negb (g_flag g)) p) = types_in_order p).
  { unfold types_in_order, rs_protocol; destruct (negb (g_flag g)); [ |reflexivity].
    cbn [p_enums p_structs p_messages rename_members]; now rewrite !rename_names. }
  rewrite <- O; apply (rst_generate_shows (rs_protocol (negb (g_flag g)) p) g); auto.
  - unfold rs_protocol; destruct (negb (g_flag g)); [now apply text_ok_renamed|exact T].
  - intros t I; rewrite O in I; now apply W.
Qed.
