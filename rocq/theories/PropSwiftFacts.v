(** Proofs for PropSwift.v. *)
From Verif Require Export SwiftFacts LangSampleFacts.
Open Scope string_scope.
Open Scope Z_scope.
Open Scope list_scope.

Lemma plain_bom strip s : plain_text s -> bom_text strip s.
Proof. intros [U B]; split; auto. Qed.
Lemma strings_impl (P Q : list byte -> Prop) v : (forall s, P s -> Q s) -> strings P v -> strings Q v.
Proof. intros I S; induction S; constructor; auto. Qed.

Lemma joined_team_bom strip : strings (bom_text strip) joined_team.
Proof. eapply strings_impl; [apply plain_bom|apply joined_team_plain]. Qed.
Lemma two_messages_bom strip : all_strings (bom_text strip) two_messages.
Proof. constructor; [apply joined_team_bom|constructor; [apply vector3_strings|constructor]]. Qed.

Lemma annotated_small : small_unsigned (p_string_size_type annotated) /\ unsigned_type (p_list_size_type annotated).
Proof. unfold small_unsigned, unsigned_type; cbn; tauto. Qed.
Lemma annotated_not_long : ~ In (p_string_size_type annotated) ["uint64"; "int64"].
Proof. apply annotated_32. Qed.

(** ** Counterexamples *)

Lemma C15_slice : exists p t v bs start,
  accepted p /\ is_message_name p t /\ wire p t v bs /\ strings plain_text v /\
  forall strip, exists v' q, sw_from_bytes start strip p t bs 0 = ROk v' q /\ v' <> v.
Proof.
  exists notes, "Note", (note (text "ab")), (x02 :: text "ab"), 1%nat.
  split; [exact notes_accepted|]; split; [eexists; left; reflexivity|]; split; [wire_tac|].
  split; [unfold note; strings_tac; apply plain_b; reflexivity|].
  intros [|]; do 2 eexists; (split; [vm_compute; reflexivity|discriminate]).
Qed.

Lemma C15_slice_crash : exists p t v bs start,
  accepted p /\ is_message_name p t /\ wire p t v bs /\ strings plain_text v /\
  forall strip, sw_from_bytes start strip p t bs 0 = RTrap.
Proof.
  exists notes, "Note", (note (text "ab")), (x02 :: text "ab"), 2%nat.
  split; [exact notes_accepted|]; split; [eexists; left; reflexivity|]; split; [wire_tac|].
  split; [unfold note; strings_tac; apply plain_b; reflexivity|].
  intros [|]; vm_compute; reflexivity.
Qed.

Lemma C15_mark : exists p t v bs,
  accepted p /\ is_message_name p t /\ wire p t v bs /\ texts v /\
  sw_from_bytes 0 true p t bs 0 <> ROk v (List.length bs).
Proof.
  exists notes, "Note", (note [xef; xbb; xbf; x61]), [x04; xef; xbb; xbf; x61].
  split; [exact notes_accepted|]; split; [eexists; left; reflexivity|]; split; [wire_tac|].
  split; [unfold texts, note; strings_tac; apply utf8_valid_spec; reflexivity|].
  vm_compute; discriminate.
Qed.

Lemma C40_sw_list : exists p t inp,
  accepted p /\ is_message_name p t /\ forall strip, sw_from_bytes 0 strip p t inp 0 = RTrap.
Proof.
  exists (numbers "int16"), "Numbers", [xff; xff].
  split; [exact numbers_i16_accepted|]; split; [eexists; left; reflexivity|]; intros [|]; vm_compute; reflexivity.
Qed.

Lemma C40_sw_string : exists p t inp,
  accepted p /\ unsigned_type (p_string_size_type p) /\ unsigned_type (p_list_size_type p) /\
  is_message_name p t /\ forall strip, sw_from_bytes 0 strip p t inp 0 = RTrap.
Proof.
  exists long_notes, "Note", [xff; xff; xff; xff; xff; xff; xff; xff].
  split; [exact long_notes_accepted|]; split; [unfold unsigned_type; cbn; tauto|]; split; [now left|].
  split; [eexists; left; reflexivity|]; intros [|]; vm_compute; reflexivity.
Qed.

Lemma C29_sw_short : exists p inp, accepted p /\ (forall rest, inp <> header ++ rest) /\
  forall strip, sw_unpack strip p inp 0 = RTrap.
Proof.
  exists annotated, (text "BSC"); split; [exact annotated_accepted_proof|]; split; [discriminate|].
  intros [|]; vm_compute; reflexivity.
Qed.

Lemma C27_sw_slice : exists p ms bs, accepted p /\ wire_packed strict p ms bs /\ all_strings plain_text ms /\
  forall strip start, (start > 0)%nat -> sw_unpack_data start strip p bs = RTrap.
Proof.
  exists annotated, two_messages, two_packed_bytes.
  split; [exact annotated_accepted_proof|]; split; [exact two_packed|]; split; [exact two_messages_plain|].
  intros strip start S; unfold sw_unpack_data; destruct start; [lia|]; reflexivity.
Qed.

Lemma bscj : (forall rest, skipn 0 (text "BSCJ") <> header ++ rest) /\ (0 + 4 <= List.length (text "BSCJ"))%nat.
Proof. split; [discriminate|cbn; lia]. Qed.
