(** The names at the top of Zig files. *)
From Verif Require Export TopFacts.
From Verif Require Import ZigTextFacts.
Open Scope string_scope.
Open Scope Z_scope.
Open Scope list_scope.

Definition zg_intros : list string := 
  ["pub const "; "const "; "pub fn "; "fn "].

Section Top.
Variable p : protocol.
Variable g : settings.
Hypothesis T : text_ok p.
Hint Resolve zgt_types_ok zgt_types_base zgt_gen_measurement_ok : text.
Hint Resolve zgt_deserializer_nested zgt_serializer_nested : text.
Hint Resolve zgt_destructor_nested zgt_member_size zgt_gen_enum_nested zgt_gen_struct_nested : text.

Lemma zgt_gen_enum_shows ename e n : 0 <= n -> word ename = true -> In (ename, e) (p_enums p) ->
  shows zg_intros n (zgt_gen_enum p ename e) 0 0 [ename].
Proof.
  intros N W I; assert (N1 : 0 <= n + 1) by lia.
  pose proof (tk_enums p T ename e I : fine_enum e) as F; unfold zgt_gen_enum, zg_intros.
  destruct (zgt_types_base p _ (fine_encoding e F)) as [x ->].
  eapply shows_eq; [show|named].
Qed.
Ltac run_more ::=
  match goal with
  | L : forall f rest o k, _ -> _ -> runs _ (zgt_loop _ _ _ _ f rest) k k |- runs _ (zgt_loop _ _ _ _ _ _) _ _ => apply L; intros
  end.
Lemma zgt_gen_struct_shows sname s n : 0 <= n -> word sname = true -> declares p sname s ->
  shows zg_intros n (zgt_gen_struct p g sname s) 0 0 [sname].
Proof.
  intros N W D; assert (N1 : 0 <= n + 1) by lia; pose proof (tk_name p T sname s D) as E.
  unfold zgt_gen_struct, zg_intros; cbv zeta.
  assert (Z1 : is_simple p (s_name s) = true -> good (get_size_of p sname)).
  { rewrite E; intro; eapply good_struct_size; eassumption. }
  assert (Z2 : is_simple p (s_name s) = true -> good (get_size_of p (s_name s))).
  { rewrite E; intro; eapply good_struct_size; eassumption. }
  assert (L : forall f rest o k, (forall m o, In m (s_members s) -> runs (n + 1) (f m o) k k) -> (forall o, runs (n + 1) (rest o) k k) ->
    runs (n + 1) (zgt_loop p (is_simple p (s_name s)) o (s_members s) f rest) k k).
  { intros; apply zgt_loop_nested; auto; intros; eapply zgt_member_size; eassumption. }
  destruct (s_is_message s) eqn:M; cbn [when].
  all: eapply shows_eq; [show|named].
Qed.

Hypothesis U : g_tab g <> "" /\ blanks (g_tab g) = true.
Hypothesis E : g_embed g = false.
Hypothesis W : word_types p.

(** The marks of the boilerplate stand in lines that are further in. *)
Lemma zgt_boilerplate_names a b :
  flat_map (declared zg_intros) (fold_left substitute (zgt_substitutions p a b) (zig_files (-1))) =
  flat_map (declared zg_intros) (zig_files (-1)).
Proof.
  change (zgt_substitutions p a b) with (BoilerplateFacts.texts
    [("{# STRING_SIZE_TYPE #}", a); ("{# LIST_SIZE_TYPE #}", b);
     ("{# SIMPLE_TYPES #}", zgt_names (zgt_simpletons p));
     ("{# ENUM_TYPES #}", zgt_names (map (fun d => e_name (snd d)) (p_enums p)))]).
  rewrite substitute_texts; generalize (zgt_names (zgt_simpletons p)) as c.
  generalize (zgt_names (map (fun d => e_name (snd d)) (p_enums p))) as d; intros d c.
  apply (declared_replaced zg_intros [("{# STRING_SIZE_TYPE #}", a); ("{# LIST_SIZE_TYPE #}", b); ("{# SIMPLE_TYPES #}", c); ("{# ENUM_TYPES #}", d)]);
    vm_compute; reflexivity.
Qed.
Lemma zgt_boilerplate_shows n r k2 N : g_files g = zig_files ->
  shows zg_intros n (block r) 0 k2 N ->
  shows zg_intros n (block (given (zgt_types p (p_string_size_type p)) (fun string_size =>
      given (zgt_types p (p_list_size_type p)) (fun list_size =>
        add_boilerplate "    " (g_tab g) (zgt_substitutions p string_size list_size) (g_files g (-1)))) :: r)) 0 k2
    (["DataReaderError"; "numberTypeIsValid"; "simpleTypes"; "enumTypes"; "typeIsSimple"; "typeIsEnum"; "isValidEnum";
      "readNumber"; "readString"; "readList"; "writeNumber"; "writeString"; "writeList"; "writeBytes";
      "getPackedSize"; "packMessages"; "unpackMessages"] ++ N).
Proof.
  intros F H; rewrite F; destruct U as [U1 U2].
  apply shows_given; [eauto with text|intros a Ga].
  apply shows_given; [eauto with text|intros b Gb].
  apply shows_boilerplate; [reflexivity|reflexivity|discriminate|exact U2|exact U1| |exact H].
  rewrite zgt_boilerplate_names; vm_compute; reflexivity.
Qed.

Ltac show_more ::=
  first [apply zgt_boilerplate_shows; [assumption| ]
        |match goal with |- shows _ _ (block (each ?l _ :: _)) 0 _ _ =>
           eapply shows_cons; [apply shows_entries;
             let t := fresh "t" in let x := fresh "x" in let I := fresh "I" in
             intros t x I; first [apply zgt_gen_enum_shows|apply zgt_gen_struct_shows]; eauto with text| ] end].

Lemma zg_generate_shows : g_files g = zig_files ->
  file_declares "zig" p g (names_before "zig" g ++ types_in_order p ++ names_after "zig").
Proof.
  intro F; unfold file_declares; change (generate "zig" p g) with (zgt_generate p g).
  change (inside_namespace "zig" g) with false; change (intros_of "zig") with zg_intros.
  enough (H : shows zg_intros 0 (zgt_generate p g) 0 0
    (names_before "zig" g ++ types_in_order p ++ names_after "zig")) by exact H.
  assert (N1 : 0 <= 0 + 1) by lia; unfold zgt_generate; cbv zeta; rewrite E; cbn [when].
  eapply shows_eq; [show|unfold types_in_order; rewrite <- !app_assoc; reflexivity].
Qed.
End Top.
