(** Properties of the Swift code that the generator emits (model: Swift.v; what the
    statements mean: CodecSpec.v).

    [start] is the index of the first byte of the Data that is read: 0, unless the
    Data is a slice of another one.  [strip] tells whether String(data:encoding:)
    drops a byte order mark. *)
From Verif Require Import Swift LangSpec CodecSpec LangSamples LangSampleFacts PropSwiftFacts.
Open Scope string_scope.
Open Scope Z_scope.
Open Scope list_scope.

(** ** Hypotheses can be met *)
Example sample_protocol : accepted annotated /\ ~ In (p_string_size_type annotated) ["uint64"; "int64"] /\
  small_unsigned (p_string_size_type annotated) /\ unsigned_type (p_list_size_type annotated).
Proof. exact (conj annotated_accepted_proof (conj annotated_not_long annotated_small)). Qed.
Example sample_message strip :
  is_message_name annotated "CharacterJoinedTeam" /\
  wire annotated "CharacterJoinedTeam" joined_team joined_team_bytes /\ strings (bom_text strip) joined_team.
Proof. exact (conj (ex_intro _ _ (or_intror (or_intror (or_introl eq_refl)))) (conj joined_team_wire (joined_team_bom strip))). Qed.
Example sample_stream strip :
  wire_stream strict annotated two_messages two_messages_bytes /\ all_strings (bom_text strip) two_messages /\
  wire_packed strict annotated two_messages two_packed_bytes.
Proof. exact (conj two_messages_wire (conj (two_messages_bom strip) two_packed)). Qed.

(** ** One message *)

(** C15, writing.  WriteBytes appends exactly the encoding. *)
Theorem C15_swift_writes p :
  accepted p ->
  writer_does appends p (sw_write_bytes p).
Proof. exact (fun A => sw_writer_appends p (accepted_WF p A)). Qed.
Print Assumptions C15_swift_writes.

(** C15, reading, for a Data that is no slice.  (Missing: slices, where it is false,
    see below.) *)
Theorem C15_swift_reads_partial strip p :
  accepted p ->
  reads_back p (strings (bom_text strip)) (sw_from_bytes 0 strip p).
Proof. exact (fun A => sw_reads_back strip p (accepted_WF p A)). Qed.
Print Assumptions C15_swift_reads_partial.

(** From a slice, strings are taken from the wrong place, or the reader crashes. *)
Theorem C15_swift_slice_refuted :
  exists p t v bs start,
  accepted p /\ is_message_name p t /\ wire p t v bs /\ strings plain_text v /\
  forall strip, exists v' q, sw_from_bytes start strip p t bs 0 = ROk v' q /\ v' <> v.
Proof. exact (C15_slice). Qed.
Print Assumptions C15_swift_slice_refuted.

Theorem C15_swift_slice_crash_refuted :
  exists p t v bs start,
  accepted p /\ is_message_name p t /\ wire p t v bs /\ strings plain_text v /\
  forall strip, sw_from_bytes start strip p t bs 0 = RTrap.
Proof. exact (C15_slice_crash). Qed.
Print Assumptions C15_swift_slice_crash_refuted.

(** If the byte order mark is dropped in decoding, it is lost. *)
Theorem C15_swift_mark_refuted :
  exists p t v bs,
  accepted p /\ is_message_name p t /\ wire p t v bs /\ texts v /\
  sw_from_bytes 0 true p t bs 0 <> ROk v (List.length bs).
Proof. exact (C15_mark). Qed.
Print Assumptions C15_swift_mark_refuted.

(** C07.  WriteBytes with a tag puts the message's number in front. *)
Theorem C07_swift_tags p :
  accepted p ->
  tagged_writer_does appends p (sw_write_tagged p).
Proof. exact (fun A => sw_tagged_appends p (accepted_WF p A)). Qed.
Print Assumptions C07_swift_tags.
Example C07_swift_tags_met :
  wire_tagged strict annotated ("CharacterJoinedTeam", joined_team) (x03 :: joined_team_bytes).
Proof. exact (joined_team_tagged). Qed.

(** C19.  (The size is a UInt32.) *)
Theorem C19_swift_size p :
  accepted p ->
  exact_size_for p (strings any_text) (2 ^ 32) (sw_size p).
Proof. exact (fun A => sw_exact_size p (accepted_WF p A)). Qed.
Print Assumptions C19_swift_size.

(** C20, unless string lengths have 64 bits. *)
Theorem C20_swift_truncated_partial strip p :
  accepted p ->
  ~ In (p_string_size_type p) ["uint64"; "int64"] ->
  rejects_truncated p false (sw_from_bytes 0 strip p).
Proof. exact (fun A => sw_truncated strip p (accepted_WF p A)). Qed.
Print Assumptions C20_swift_truncated_partial.
Example C20_swift_truncated_partial_met :
  exists cut x rest, joined_team_bytes = cut ++ x :: rest /\ cut <> [].
Proof. exact (joined_team_cut). Qed.

(** C21.  (That declared values are accepted is part of C15.) *)
Theorem C21_swift_enums strip p :
  accepted p ->
  only_declared_enums p (sw_from_bytes 0 strip p).
Proof. exact (fun A => sw_enums strip p (accepted_WF p A)). Qed.
Print Assumptions C21_swift_enums.

(** C22.  Strings are decoded from their bytes by String(data:encoding:) ([sw_decode]). *)
Theorem C22_swift_accepts strip p :
  accepted p ->
  only_wire p (sw_decode strip) (sw_from_bytes 0 strip p).
Proof. exact (fun A => sw_only strip p (accepted_WF p A)). Qed.
Print Assumptions C22_swift_accepts.
Example C22_swift_accepts_met :
  sw_decode true (text "Team") = Some (text "Team").
Proof. exact (eq_refl). Qed.

(** C30. *)
Theorem C30_swift_fresh p t s :
  accepted p -> declares p t s -> fresh p t (VStruct (sw_init p (depth_of p) t)).
Proof. exact (fun A => sw_fresh p t s (accepted_WF p A)). Qed.
Print Assumptions C30_swift_fresh.
Example C30_swift_fresh_met :
  exists s, declares annotated "CharacterJoinedTeam" s.
Proof. exact (joined_team_declared). Qed.

(** C41.  A list or string that is too long for its length is never written: the program
    stops. *)
Theorem C41_swift_overlong p :
  accepted p ->
  refuses_overlong p (sw_write_bytes p).
Proof. exact (fun A => sw_refuses p (accepted_WF p A)). Qed.
Print Assumptions C41_swift_overlong.
Example C41_swift_overlong_met :
  accepted (shorts "byte") /\ can_hold (shorts "byte") "Numbers" too_many /\
  ~ in_range (shorts "byte") "Numbers" too_many.
Proof. exact (conj shorts_byte_accepted (conj too_many_held too_many_long)). Qed.

(** C44.  What the reader returns is well-formed text, whatever the bytes. *)
Theorem C44_swift_text strip p :
  accepted p ->
  returns_text p (sw_from_bytes 0 strip p).
Proof. exact (fun A => sw_text strip p (accepted_WF p A)). Qed.
Print Assumptions C44_swift_text.

(** C40, for one message, with string lengths of up to 32 bits, and no negative
    lengths.  (Missing: the other size types, where it is false.) *)
Theorem C40_swift_total_partial strip p :
  accepted p ->
  small_unsigned (p_string_size_type p) -> unsigned_type (p_list_size_type p) ->
  always_answers p false (sw_from_bytes 0 strip p).
Proof. exact (fun A => sw_answers strip p (accepted_WF p A)). Qed.
Print Assumptions C40_swift_total_partial.

(** A negative list length crashes the reader. *)
Theorem C40_swift_list_refuted :
  exists p t inp,
  accepted p /\ is_message_name p t /\ forall strip, sw_from_bytes 0 strip p t inp 0 = RTrap.
Proof. exact (C40_sw_list). Qed.
Print Assumptions C40_swift_list_refuted.

(** A 64 bit string length that is large enough crashes the reader. *)
Theorem C40_swift_string_refuted :
  exists p t inp,
  accepted p /\ unsigned_type (p_string_size_type p) /\ unsigned_type (p_list_size_type p) /\
  is_message_name p t /\ forall strip, sw_from_bytes 0 strip p t inp 0 = RTrap.
Proof. exact (C40_sw_string). Qed.
Print Assumptions C40_swift_string_refuted.

(** ** Streams of messages *)

(** C24, for a Data that is no slice. *)
Theorem C24_swift_streams_partial strip p :
  accepted p ->
  reads_streams p (strings (bom_text strip)) (sw_process 0 strip p).
Proof. exact (fun A => sw_reads_streams strip p (accepted_WF p A)). Qed.
Print Assumptions C24_swift_streams_partial.

(** C25, for a Data that is no slice. *)
Theorem C25_swift_max_partial strip p :
  accepted p ->
  stops_at_max p (strings (bom_text strip)) (sw_process 0 strip p).
Proof. exact (fun A => sw_stops_at_max strip p (accepted_WF p A)). Qed.
Print Assumptions C25_swift_max_partial.

(** C26. *)
Theorem C26_swift_unknown strip p :
  accepted p ->
  rejects_unknown p (strings utf8) (sw_process 0 strip p).
Proof. exact (fun A => sw_rejects_unknown strip p (accepted_WF p A)). Qed.
Print Assumptions C26_swift_unknown.
Example C26_swift_unknown_met :
  forall t, ~ numbered annotated t (Z_of_byte x04).
Proof. exact (four_unknown). Qed.

(** C20 for streams, under the same condition. *)
Theorem C20_swift_cut_stream_partial strip p :
  accepted p ->
  ~ In (p_string_size_type p) ["uint64"; "int64"] ->
  rejects_cut_streams p (strings utf8) false (sw_process 0 strip p).
Proof. exact (fun A => sw_rejects_cut strip p (accepted_WF p A)). Qed.
Print Assumptions C20_swift_cut_stream_partial.

(** C22 for streams. *)
Theorem C22_swift_stream_accepts strip p :
  accepted p ->
  only_streams p (sw_decode strip) (sw_process 0 strip p).
Proof. exact (fun A => sw_only_streams strip p (accepted_WF p A)). Qed.
Print Assumptions C22_swift_stream_accepts.

(** C40 for streams, under the same conditions. *)
Theorem C40_swift_stream_total_partial strip p :
  accepted p ->
  small_unsigned (p_string_size_type p) -> unsigned_type (p_list_size_type p) ->
  stream_answers false (sw_process 0 strip p).
Proof. exact (fun A => sw_stream_answers strip p (accepted_WF p A)). Qed.
Print Assumptions C40_swift_stream_total_partial.

(** ** Packed buffers *)

(** C27, writing. *)
Theorem C27_swift_packs p :
  accepted p ->
  packer_does appends p (sw_pack p).
Proof. exact (fun A => sw_packs p (accepted_WF p A)). Qed.
Print Assumptions C27_swift_packs.

(** C27, reading, for every number of messages and a Data that is no slice. *)
Theorem C27_swift_unpacks_partial strip p :
  accepted p ->
  unpacks p (strings (bom_text strip)) (2 ^ 32 - 1) (sw_unpack strip p).
Proof. exact (fun A => sw_unpacks strip p (accepted_WF p A)). Qed.
Print Assumptions C27_swift_unpacks_partial.

(** A slice always crashes UnpackMessages. *)
Theorem C27_swift_slice_refuted :
  exists p ms bs, accepted p /\ wire_packed strict p ms bs /\ all_strings plain_text ms /\
  forall strip start, (start > 0)%nat -> sw_unpack_data start strip p bs = RTrap.
Proof. exact (C27_sw_slice). Qed.
Print Assumptions C27_swift_slice_refuted.

(** C28, for messages whose sizes a UInt32 can hold. *)
Theorem C28_swift_packed_size p :
  accepted p ->
  exact_packed_size_for p (strings any_text) (2 ^ 32) (sw_packed_size p).
Proof. exact (fun A => sw_exact_packed_size p (accepted_WF p A)). Qed.
Print Assumptions C28_swift_packed_size.

(** C29, for inputs of at least four bytes.  (Missing: shorter ones, where it is
    false.) *)
Theorem C29_swift_header_partial strip p inp pos :
  (forall rest, skipn pos inp <> header ++ rest) -> (pos + 4 <= List.length inp)%nat ->
  sw_unpack strip p inp pos = RErr.
Proof. exact (sw_header strip p inp pos). Qed.
Print Assumptions C29_swift_header_partial.
Example C29_swift_header_partial_met :
  (forall rest, skipn 0 (text "BSCJ") <> header ++ rest) /\ (0 + 4 <= List.length (text "BSCJ"))%nat.
Proof. exact (bscj). Qed.

(** A shorter input crashes UnpackMessages. *)
Theorem C29_swift_short_refuted :
  exists p inp, accepted p /\ (forall rest, inp <> header ++ rest) /\
  forall strip, sw_unpack strip p inp 0 = RTrap.
Proof. exact (C29_sw_short). Qed.
Print Assumptions C29_swift_short_refuted.

Theorem C29_swift_count strip p :
  rejects_bad_count false (sw_unpack strip p).
Proof. exact (sw_bad_count strip p false). Qed.
Print Assumptions C29_swift_count.

(** (What is not UTF-8 is rejected as well, see C22.) *)
Theorem C29_swift_missing strip p :
  accepted p ->
  rejects_missing_for p (strings utf8) false (sw_unpack strip p).
Proof. exact (fun A => sw_missing strip p (accepted_WF p A)). Qed.
Print Assumptions C29_swift_missing.

(** C22 for packed buffers. *)
Theorem C22_swift_packed_accepts strip p :
  accepted p ->
  only_packed p (sw_decode strip) (sw_unpack strip p).
Proof. exact (fun A => sw_only_packed strip p (accepted_WF p A)). Qed.
Print Assumptions C22_swift_packed_accepts.

(** C40 for packed buffers, under the conditions above and for at least four bytes. *)
Theorem C40_swift_unpack_total_partial strip p inp pos :
  accepted p ->
  small_unsigned (p_string_size_type p) -> unsigned_type (p_list_size_type p) ->
  (pos + 4 <= List.length inp)%nat -> answers false (sw_unpack strip p inp pos).
Proof. exact (fun A => sw_unpack_answers strip p (accepted_WF p A) inp pos). Qed.
Print Assumptions C40_swift_unpack_total_partial.
