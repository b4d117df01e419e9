(** Proofs for PropCSharp.v. *)
From Verif Require Export CSharpFacts LangSampleFacts.
Open Scope string_scope.
Open Scope Z_scope.
Open Scope list_scope.

Lemma cs_compiles_not_64 p : p_list_size_type p <> "uint64" -> cs_compiles p = true.
Proof. intro H; unfold cs_compiles; destruct (String.eqb_spec (p_list_size_type p) "uint64"); [contradiction|reflexivity]. Qed.

Lemma annotated_not_64 : p_list_size_type annotated <> "uint64".
Proof. discriminate. Qed.
Lemma tracks_not_64 : p_list_size_type tracks <> "uint64" /\ ~ In (p_string_size_type tracks) ["uint64"; "int64"].
Proof. split; [discriminate|apply tracks_32]. Qed.
Lemma short_utf8 s : short_text s -> short_bytes s.
Proof. now intros [_ H]. Qed.

(** ** Counterexamples *)

Lemma C14_64_bit : exists p t v bs,
  accepted p /\ is_message_name p t /\ wire p t v bs /\ strings short_text v /\
  (forall w, cs_write_bytes p t v w = WStuck) /\
  forall ns inp pos, cs_from_bytes ns p t inp pos = RStuck.
Proof.
  exists (numbers "uint64"), "Numbers", (some_numbers [7]), [x01; x00; x00; x00; x00; x00; x00; x00; x07].
  split; [exact numbers_64_accepted|]; split; [eexists; left; reflexivity|]; split; [wire_tac|].
  split; [unfold some_numbers; cbn; strings_tac|]; split; reflexivity.
Qed.

Lemma C19_cs_refuted : exists p t v bs n,
  accepted p /\ size_types_32 p /\ is_message_name p t /\ wire p t v bs /\ texts v /\
  (forall ns, cs_size ns p t v = MRet n) /\ n < Z.of_nat (List.length bs).
Proof.
  exists notes, "Note", (note [xc3; xa9]), [x02; xc3; xa9], 2.
  split; [exact notes_accepted|]; split; [split; intros [H|[H|[]]]; discriminate|].
  split; [eexists; left; reflexivity|]; split; [wire_tac|].
  split; [unfold texts, note; strings_tac; apply utf8_valid_spec; reflexivity|].
  split; [intros [|]; vm_compute; reflexivity|cbn; lia].
Qed.

Lemma C20_cs_refuted : exists p t v cut x,
  accepted p /\ size_types_32 p /\ is_message_name p t /\ wire p t v (cut ++ x) /\ x <> [] /\
  forall ns, exists v' q, cs_from_bytes ns p t cut 0 = ROk v' q.
Proof.
  exists notes, "Note", (note (text "abc")), (x03 :: text "ab"), (text "c").
  split; [exact notes_accepted|]; split; [split; intros [H|[H|[]]]; discriminate|].
  split; [eexists; left; reflexivity|]; split; [wire_tac|]; split; [discriminate|].
  intros [|]; do 2 eexists; vm_compute; reflexivity.
Qed.

Lemma C22_cs_signed : exists p t inp,
  accepted p /\ size_types_32 p /\ is_message_name p t /\
  (forall ns, exists v q, cs_from_bytes ns p t inp 0 = ROk v q) /\
  forall v bs rest, wire_in reading p t v bs -> bs ++ rest <> inp.
Proof.
  exists (numbers "int16"), "Numbers", [xff; xff].
  split; [exact numbers_i16_accepted|]; split; [split; intros [H|[H|[]]]; discriminate|].
  split; [eexists; left; reflexivity|].
  split; [intros [|]; do 2 eexists; vm_compute; reflexivity|intros v bs rest; apply numbers_i16_negative].
Qed.

Lemma C20_cs_stream : exists p ms bs cut x,
  accepted p /\ size_types_32 p /\ wire_stream strict p ms bs /\ bs = cut ++ x /\ x <> [] /\ (List.length cut > 1)%nat /\
  forall ns, exists ms' q, cs_process ns p (-1) cut 0 = ROk ms' q.
Proof.
  exists notes, [("Note", note (text "abc"))], (x01 :: x03 :: text "abc"), (x01 :: x03 :: text "ab"), (text "c").
  split; [exact notes_accepted|]; split; [split; intros [H|[H|[]]]; discriminate|].
  split.
  { change (x01 :: x03 :: text "abc") with ((x01 :: x03 :: text "abc") ++ [] : list byte).
    constructor; [|constructor].
    econstructor; [apply (numbered_at notes "Note" 0%nat) with (1 := eq_refl)|reflexivity|wire_tac]. }
  split; [reflexivity|]; split; [discriminate|]; split; [cbn; lia|].
  intros [|]; do 2 eexists; vm_compute; reflexivity.
Qed.

(** A length of 2^32 + 1 is cut to 1. *)
Lemma long_note_length md v bs rest : wire_in md long_notes "Note" v bs ->
  bs ++ rest <> [x01; x00; x00; x00; x01; x00; x00; x00; x61].
Proof.
  intros H E.
  assert (D : exists s, declares long_notes "Note" s /\ s_members s = [MkVar "body" "string" false])
    by (eexists; split; [right; left; reflexivity|reflexivity]).
  destruct D as (s & D & MS).
  pose proof (accepted_WF _ long_notes_accepted) as W.
  destruct (wire_struct_inv md _ W _ _ _ _ D H) as (fs & -> & M); rewrite MS in M.
  inversion M as [|? ? ? ? a b WM WR]; subst; inversion WR; subst.
  inversion WM as [? ? ? VL WV|? vs lb eb VL]; subst; [|discriminate].
  destruct (wire_str_inv md long_notes W _ _ WV) as (sv & nb & -> & -> & (k & K & N)).
  cbn in K; injection K as <-.
  inversion N as [? ? ? _ L R X| |]; subst.
  do 9 (destruct nb as [|? nb]; try discriminate L).
  rewrite !app_nil_r, <- !app_assoc in E; cbn [app] in E.
  injection E as -> -> -> -> -> -> -> -> E.
  pose proof (f_equal (@List.length byte) E) as LE; rewrite app_length in LE; cbn [List.length] in LE.
  rewrite Z.mod_small in X by (cbn [num_size] in *; lia); cbn in X; lia.
Qed.

Lemma C22_cs_long : exists p t inp,
  accepted p /\ p_list_size_type p <> "uint64" /\ is_message_name p t /\
  (forall ns, exists v q, cs_from_bytes ns p t inp 0 = ROk v q) /\
  forall v bs rest, wire_in reading p t v bs -> bs ++ rest <> inp.
Proof.
  exists long_notes, "Note", [x01; x00; x00; x00; x01; x00; x00; x00; x61].
  split; [exact long_notes_accepted|]; split; [discriminate|].
  split; [eexists; left; reflexivity|].
  split; [intros [|]; do 2 eexists; vm_compute; reflexivity|intros v bs rest; apply long_note_length].
Qed.

(** A list that is too long for its length. *)
Lemma C41_cs : exists p, accepted p /\ p_list_size_type p <> "uint64" /\ forall ns,
  corrupts_overlong p (cs_write_bytes p) (cs_from_bytes ns p).
Proof.
  exists (shorts "byte"); split; [exact shorts_byte_accepted|]; split; [discriminate|].
  intros []; corrupt_tac no_room too_many_held.
Qed.
