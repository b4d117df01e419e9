(** Proofs for PropTypeScript.v. *)
From Verif Require Export TypeScriptFacts LangSampleFacts.
Open Scope string_scope.
Open Scope Z_scope.
Open Scope list_scope.

Lemma ts_compiles_32 p : size_types_32 p -> ts_compiles p = true.
Proof.
  intros [L S]; unfold ts_compiles, is_64.
  destruct (String.eqb_spec (p_string_size_type p) "uint64"); [contradiction S; left; auto|].
  destruct (String.eqb_spec (p_string_size_type p) "int64"); [contradiction S; right; left; auto|].
  destruct (String.eqb_spec (p_list_size_type p) "uint64"); [contradiction L; left; auto|].
  destruct (String.eqb_spec (p_list_size_type p) "int64"); [contradiction L; right; left; auto|reflexivity].
Qed.

(** ** Counterexamples *)

(** The byte order mark in front of "a". *)
Definition marked : list byte := [xef; xbb; xbf; x61].
Lemma C11_mark : exists p t v bs,
  accepted p /\ size_types_32 p /\ is_message_name p t /\ wire p t v bs /\ texts v /\
  forall ns, ts_from_bytes ns [] [] p t bs 0 <> ROk v (List.length bs).
Proof.
  exists notes, "Note"%string, (note marked), (x04 :: marked).
  split; [exact notes_accepted|]; split; [split; intros [H|[H|[]]]; discriminate|].
  split; [eexists; left; reflexivity|]; split; [wire_tac|].
  split; [unfold texts, note; strings_tac; apply utf8_valid_spec; reflexivity|].
  intros [|]; vm_compute; discriminate.
Qed.

Lemma C11_view : exists p t v bs pre,
  accepted p /\ size_types_32 p /\ is_message_name p t /\ wire p t v bs /\ strings plain_text v /\
  forall ns, ts_from_bytes ns pre [] p t bs 0 <> ROk v (List.length bs).
Proof.
  exists notes, "Note"%string, (note (text "abc")), (x03 :: text "abc"), [x7a].
  split; [exact notes_accepted|]; split; [split; intros [H|[H|[]]]; discriminate|].
  split; [eexists; left; reflexivity|]; split; [wire_tac|].
  split; [unfold note; strings_tac; apply plain_b; reflexivity|].
  intros [|]; vm_compute; discriminate.
Qed.

Lemma C11_64_bit : exists p t v bs,
  accepted p /\ is_message_name p t /\ wire p t v bs /\ strings plain_text v /\
  (forall w, ts_write_bytes p t v w = WStuck) /\
  forall ns pre post inp pos, ts_from_bytes ns pre post p t inp pos = RStuck.
Proof.
  exists long_notes, "Note"%string, (note (text "a")), [x01; x00; x00; x00; x00; x00; x00; x00; x61].
  split; [exact long_notes_accepted|]; split; [eexists; left; reflexivity|]; split; [wire_tac|].
  split; [unfold note; strings_tac; apply plain_b; reflexivity|].
  split; reflexivity.
Qed.

Lemma C19_ts_refuted : exists p t v bs n,
  accepted p /\ size_types_32 p /\ is_message_name p t /\ wire p t v bs /\
  ts_size p t v = MRet n /\ n < Z.of_nat (List.length bs).
Proof.
  exists nested, "Book"%string, book, [x02; x01; x01; x61; x01; x03; x62; x63; x64], 7.
  split; [exact nested_accepted|]; split; [split; intros [H|[H|[]]]; discriminate|].
  split; [eexists; left; reflexivity|]; split; [wire_tac|].
  split; [vm_compute; reflexivity|cbn; lia].
Qed.

Lemma C20_ts_refuted : exists p t v cut x post,
  accepted p /\ size_types_32 p /\ is_message_name p t /\ wire p t v (cut ++ x) /\ x <> [] /\
  forall ns, exists v' q, ts_from_bytes ns [] post p t cut 0 = ROk v' q.
Proof.
  exists notes, "Note"%string, (note (text "abc")), (x03 :: text "ab"), (text "c"), (text "XYZ").
  split; [exact notes_accepted|]; split; [split; intros [H|[H|[]]]; discriminate|].
  split; [eexists; left; reflexivity|]; split; [wire_tac|]; split; [discriminate|].
  intros [|]; do 2 eexists; vm_compute; reflexivity.
Qed.

Lemma C23_ts_pack : exists p ms bs pre w pre' o post',
  accepted p /\ size_types_32 p /\ wire_packed strict p ms bs /\ w_pos w = 0%nat /\
  List.length (w_buf w) = List.length bs /\
  ts_pack pre [] p ms w = (pre', o, post') /\ pre' <> pre /\
  (forall w', o = WDone w' -> w_buf w' <> bs).
Proof.
  exists annotated, two_messages, two_packed_bytes, [x7a],
    {| w_buf := repeat x00 (List.length two_packed_bytes); w_pos := 0 |}.
  do 3 eexists; split; [exact annotated_accepted_proof|]; split; [exact annotated_32|].
  split; [exact two_packed|]; split; [reflexivity|]; split; [reflexivity|].
  split; [vm_compute; reflexivity|]; split; [discriminate|].
  intros w' E; injection E as <-; discriminate.
Qed.

Lemma C27_ts_view : exists p ms bs pre,
  accepted p /\ size_types_32 p /\ wire_packed strict p ms bs /\ all_strings plain_text ms /\
  forall ns, ts_unpack ns pre [] p bs 0 = RErr.
Proof.
  exists annotated, two_messages, two_packed_bytes, [x7a].
  split; [exact annotated_accepted_proof|]; split; [exact annotated_32|].
  split; [exact two_packed|]; split; [exact two_messages_plain|].
  intros [|]; vm_compute; reflexivity.
Qed.

Lemma annotated_names : ~ In "boolean"%string (declared_names annotated) /\ ~ In "bigint"%string (declared_names annotated).
Proof. split; cbn; intuition discriminate. Qed.

(** A list that is too long for its length. *)
Lemma C41_ts : exists p, accepted p /\ size_types_32 p /\ forall ns,
  corrupts_overlong p (ts_write_bytes p) (ts_from_bytes ns [] [] p).
Proof.
  exists (shorts "byte"); split; [exact shorts_byte_accepted|]; split; [split; discriminate || (cbn; intuition discriminate)|].
  intros []; corrupt_tac room_513 too_many_held.
Qed.
