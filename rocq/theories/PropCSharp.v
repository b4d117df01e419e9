(** Properties of the C# code that the generator emits (model: CSharp.v; what the
    statements mean: CodecSpec.v).

    [ns] tells whether the protocol has a namespace.  With a uint64 list length the
    generated code is not valid C#. *)
From Verif Require Import CSharp LangSpec CodecSpec LangSamples LangSampleFacts PropCSharpFacts.
Open Scope string_scope.
Open Scope Z_scope.
Open Scope list_scope.

(** ** Hypotheses can be met *)
Example sample_protocol : accepted annotated /\ p_list_size_type annotated <> "uint64".
Proof. exact (conj annotated_accepted_proof annotated_not_64). Qed.
Example sample_message :
  is_message_name annotated "CharacterJoinedTeam" /\
  wire annotated "CharacterJoinedTeam" joined_team joined_team_bytes /\ strings short_text joined_team.
Proof. exact (conj (ex_intro _ _ (or_intror (or_intror (or_introl eq_refl)))) (conj joined_team_wire joined_team_short)). Qed.
Example sample_stream :
  wire_stream strict annotated two_messages two_messages_bytes /\ all_strings short_text two_messages /\
  wire_packed strict annotated two_messages two_packed_bytes.
Proof. exact (conj two_messages_wire (conj two_messages_short two_packed)). Qed.
Example sample_strict :
  accepted tracks /\ p_list_size_type tracks <> "uint64" /\ no_string_last tracks /\
  ~ In (p_string_size_type tracks) ["uint64"; "int64"] /\ unsigned_type (p_list_size_type tracks) /\
  wire tracks "Track" track track_bytes.
Proof. exact (conj tracks_accepted (conj (proj1 tracks_not_64) (conj tracks_last (conj (proj2 tracks_not_64) (conj tracks_unsigned track_wire))))). Qed.

(** ** One message *)

(** C14, writing.  WriteBytes appends exactly the encoding. *)
Theorem C14_csharp_writes p :
  accepted p -> p_list_size_type p <> "uint64" ->
  writer_does appends p (cs_write_bytes p).
Proof. exact (fun A B => cs_writer_appends p (accepted_WF p A) (cs_compiles_not_64 p B)). Qed.
Print Assumptions C14_csharp_writes.

(** C14, reading.  (C# has no strings of 2 GiB or more.) *)
Theorem C14_csharp_reads ns p :
  accepted p -> p_list_size_type p <> "uint64" ->
  reads_back p (strings short_text) (cs_from_bytes ns p).
Proof. exact (fun A B => cs_reads_back ns p (accepted_WF p A) (cs_compiles_not_64 p B)). Qed.
Print Assumptions C14_csharp_reads.

(** With uint64 list lengths the generated code is not valid C#. *)
Theorem C14_csharp_64_bit_refuted :
  exists p t v bs,
  accepted p /\ is_message_name p t /\ wire p t v bs /\ strings short_text v /\
  (forall w, cs_write_bytes p t v w = WStuck) /\
  forall ns inp pos, cs_from_bytes ns p t inp pos = RStuck.
Proof. exact (C14_64_bit). Qed.
Print Assumptions C14_csharp_64_bit_refuted.

(** C07.  WriteBytes with a tag puts the message's number in front. *)
Theorem C07_csharp_tags p :
  accepted p -> p_list_size_type p <> "uint64" ->
  tagged_writer_does appends p (cs_write_tagged p).
Proof. exact (fun A B => cs_tagged_appends p (accepted_WF p A) (cs_compiles_not_64 p B)). Qed.
Print Assumptions C07_csharp_tags.
Example C07_csharp_tags_met :
  wire_tagged strict annotated ("CharacterJoinedTeam", joined_team) (x03 :: joined_team_bytes).
Proof. exact (joined_team_tagged). Qed.

(** C19, for strings of one byte characters and sizes below 2 GiB.  (Missing: other
    strings, where it is false; larger sizes, which an int cannot hold.) *)
Theorem C19_csharp_size_partial ns p :
  accepted p -> p_list_size_type p <> "uint64" ->
  exact_size_for p (strings ascii_text) (2 ^ 31) (cs_size ns p).
Proof. exact (fun A B => cs_exact_size ns p (accepted_WF p A) (cs_compiles_not_64 p B)). Qed.
Print Assumptions C19_csharp_size_partial.
Example C19_csharp_size_partial_met :
  strings ascii_text joined_team.
Proof. exact (joined_team_ascii). Qed.

(** Without that it is false: the reported size is too small. *)
Theorem C19_csharp_size_refuted :
  exists p t v bs n,
  accepted p /\ size_types_32 p /\ is_message_name p t /\ wire p t v bs /\ texts v /\
  (forall ns, cs_size ns p t v = MRet n) /\ n < Z.of_nat (List.length bs).
Proof. exact (C19_cs_refuted). Qed.
Print Assumptions C19_csharp_size_refuted.

(** C20, for protocols in which something is read behind each string.  (Missing: the
    other protocols, where it is false.) *)
Theorem C20_csharp_truncated_partial ns p :
  accepted p -> p_list_size_type p <> "uint64" ->
  no_string_last p -> ~ In (p_string_size_type p) ["uint64"; "int64"] -> unsigned_type (p_list_size_type p) ->
  rejects_truncated p false (cs_from_bytes ns p).
Proof. exact (fun A B => cs_truncated ns p (accepted_WF p A) (cs_compiles_not_64 p B)). Qed.
Print Assumptions C20_csharp_truncated_partial.

(** A message that ends with a string is accepted when the string is cut short. *)
Theorem C20_csharp_truncated_refuted :
  exists p t v cut x,
  accepted p /\ size_types_32 p /\ is_message_name p t /\ wire p t v (cut ++ x) /\ x <> [] /\
  forall ns, exists v' q, cs_from_bytes ns p t cut 0 = ROk v' q.
Proof. exact (C20_cs_refuted). Qed.
Print Assumptions C20_csharp_truncated_refuted.

(** C21.  (That declared values are accepted is part of C14.) *)
Theorem C21_csharp_enums ns p :
  accepted p -> p_list_size_type p <> "uint64" ->
  only_declared_enums p (cs_from_bytes ns p).
Proof. exact (fun A B => cs_enums ns p (accepted_WF p A) (cs_compiles_not_64 p B)). Qed.
Print Assumptions C21_csharp_enums.

(** C22, under the conditions of C20 and for unsigned list lengths.  Strings are
    decoded from their bytes by UTF8Encoding ([cs_decode]). *)
Theorem C22_csharp_accepts_partial ns p :
  accepted p -> p_list_size_type p <> "uint64" ->
  no_string_last p -> ~ In (p_string_size_type p) ["uint64"; "int64"] -> unsigned_type (p_list_size_type p) ->
  only_wire p cs_decode (cs_from_bytes ns p).
Proof. exact (fun A B => cs_only ns p (accepted_WF p A) (cs_compiles_not_64 p B)). Qed.
Print Assumptions C22_csharp_accepts_partial.
Example C22_csharp_accepts_partial_met :
  cs_decode (text "Team") = Some (text "Team").
Proof. exact (eq_refl). Qed.

(** A negative list length is accepted. *)
Theorem C22_csharp_signed_refuted :
  exists p t inp,
  accepted p /\ size_types_32 p /\ is_message_name p t /\
  (forall ns, exists v q, cs_from_bytes ns p t inp 0 = ROk v q) /\
  forall v bs rest, wire_in reading p t v bs -> bs ++ rest <> inp.
Proof. exact (C22_cs_signed). Qed.
Print Assumptions C22_csharp_signed_refuted.

(** A string length of 2^32 + 1 is accepted and taken for 1. *)
Theorem C22_csharp_long_refuted :
  exists p t inp,
  accepted p /\ p_list_size_type p <> "uint64" /\ is_message_name p t /\
  (forall ns, exists v q, cs_from_bytes ns p t inp 0 = ROk v q) /\
  forall v bs rest, wire_in reading p t v bs -> bs ++ rest <> inp.
Proof. exact (C22_cs_long). Qed.
Print Assumptions C22_csharp_long_refuted.

(** C30. *)
Theorem C30_csharp_fresh p t s :
  accepted p -> declares p t s -> fresh p t (VStruct (cs_init p (depth_of p) t)).
Proof. exact (fun A => cs_fresh p t s (accepted_WF p A)). Qed.
Print Assumptions C30_csharp_fresh.
Example C30_csharp_fresh_met :
  exists s, declares annotated "CharacterJoinedTeam" s.
Proof. exact (joined_team_declared). Qed.

(** C41.  A list that is too long for its length is written as another one. *)
Theorem C41_csharp_overlong_refuted :
  exists p, accepted p /\ p_list_size_type p <> "uint64" /\ forall ns,
  corrupts_overlong p (cs_write_bytes p) (cs_from_bytes ns p).
Proof. exact (C41_cs). Qed.
Print Assumptions C41_csharp_overlong_refuted.

(** C44.  What the reader returns is well-formed text, whatever the bytes. *)
Theorem C44_csharp_text ns p :
  accepted p -> p_list_size_type p <> "uint64" ->
  returns_text p (cs_from_bytes ns p).
Proof. exact (fun A B => cs_text ns p (accepted_WF p A) (cs_compiles_not_64 p B)). Qed.
Print Assumptions C44_csharp_text.

(** C40, for one message.  No input makes the reader do anything but return a value
    or throw an exception. *)
Theorem C40_csharp_total ns p :
  accepted p -> p_list_size_type p <> "uint64" ->
  always_answers p false (cs_from_bytes ns p).
Proof. exact (fun A B => cs_answers ns p (accepted_WF p A) (cs_compiles_not_64 p B)). Qed.
Print Assumptions C40_csharp_total.

(** ** Streams of messages *)

(** C24. *)
Theorem C24_csharp_streams ns p :
  accepted p -> p_list_size_type p <> "uint64" ->
  reads_streams p (strings short_text) (cs_process ns p).
Proof. exact (fun A B => cs_reads_streams ns p (accepted_WF p A) (cs_compiles_not_64 p B)). Qed.
Print Assumptions C24_csharp_streams.

(** C25. *)
Theorem C25_csharp_max ns p :
  accepted p -> p_list_size_type p <> "uint64" ->
  stops_at_max p (strings short_text) (cs_process ns p).
Proof. exact (fun A B => cs_stops_at_max ns p (accepted_WF p A) (cs_compiles_not_64 p B)). Qed.
Print Assumptions C25_csharp_max.

(** C26. *)
Theorem C26_csharp_unknown ns p :
  accepted p -> p_list_size_type p <> "uint64" ->
  rejects_unknown p (strings short_bytes) (cs_process ns p).
Proof. exact (fun A B => cs_rejects_unknown ns p (accepted_WF p A) (cs_compiles_not_64 p B)). Qed.
Print Assumptions C26_csharp_unknown.
Example C26_csharp_unknown_met :
  forall t, ~ numbered annotated t (Z_of_byte x04).
Proof. exact (four_unknown). Qed.

(** C20 for streams, under the same conditions. *)
Theorem C20_csharp_cut_stream_partial ns p :
  accepted p -> p_list_size_type p <> "uint64" ->
  no_string_last p -> ~ In (p_string_size_type p) ["uint64"; "int64"] -> unsigned_type (p_list_size_type p) ->
  rejects_cut_streams p (strings short_bytes) false (cs_process ns p).
Proof. exact (fun A B => cs_rejects_cut ns p (accepted_WF p A) (cs_compiles_not_64 p B)). Qed.
Print Assumptions C20_csharp_cut_stream_partial.

Theorem C20_csharp_cut_stream_refuted :
  exists p ms bs cut x,
  accepted p /\ size_types_32 p /\ wire_stream strict p ms bs /\ bs = cut ++ x /\ x <> [] /\ (List.length cut > 1)%nat /\
  forall ns, exists ms' q, cs_process ns p (-1) cut 0 = ROk ms' q.
Proof. exact (C20_cs_stream). Qed.
Print Assumptions C20_csharp_cut_stream_refuted.

(** C22 for streams, under the same conditions. *)
Theorem C22_csharp_stream_accepts_partial ns p :
  accepted p -> p_list_size_type p <> "uint64" ->
  no_string_last p -> ~ In (p_string_size_type p) ["uint64"; "int64"] -> unsigned_type (p_list_size_type p) ->
  only_streams p cs_decode (cs_process ns p).
Proof. exact (fun A B => cs_only_streams ns p (accepted_WF p A) (cs_compiles_not_64 p B)). Qed.
Print Assumptions C22_csharp_stream_accepts_partial.

(** C40 for streams. *)
Theorem C40_csharp_stream_total ns p :
  accepted p -> p_list_size_type p <> "uint64" ->
  stream_answers false (cs_process ns p).
Proof. exact (fun A B => cs_stream_answers ns p (accepted_WF p A) (cs_compiles_not_64 p B)). Qed.
Print Assumptions C40_csharp_stream_total.

(** ** Packed buffers *)

(** C27, writing. *)
Theorem C27_csharp_packs p :
  accepted p -> p_list_size_type p <> "uint64" ->
  packer_does appends p (cs_pack p).
Proof. exact (fun A B => cs_packs p (accepted_WF p A) (cs_compiles_not_64 p B)). Qed.
Print Assumptions C27_csharp_packs.

(** C27, reading.  (C# has no lists of 2^31 or more elements.) *)
Theorem C27_csharp_unpacks ns p :
  accepted p -> p_list_size_type p <> "uint64" ->
  unpacks p (strings short_text) (2 ^ 31 - 1) (cs_unpack ns p).
Proof. exact (fun A B => cs_unpacks ns p (accepted_WF p A) (cs_compiles_not_64 p B)). Qed.
Print Assumptions C27_csharp_unpacks.

(** C28, under the conditions of C19. *)
Theorem C28_csharp_packed_size_partial ns p :
  accepted p -> p_list_size_type p <> "uint64" ->
  exact_packed_size_for p (strings ascii_text) (2 ^ 31) (cs_packed_size ns p).
Proof. exact (fun A B => cs_exact_packed_size ns p (accepted_WF p A) (cs_compiles_not_64 p B)). Qed.
Print Assumptions C28_csharp_packed_size_partial.

(** C29. *)
Theorem C29_csharp_header ns p :
  p_list_size_type p <> "uint64" -> rejects_bad_header false (cs_unpack ns p).
Proof. exact (fun B => cs_bad_header ns p (cs_compiles_not_64 p B)). Qed.
Print Assumptions C29_csharp_header.

Theorem C29_csharp_count ns p :
  p_list_size_type p <> "uint64" -> rejects_bad_count false (cs_unpack ns p).
Proof. exact (fun B => cs_bad_count ns p (cs_compiles_not_64 p B)). Qed.
Print Assumptions C29_csharp_count.

(** (For strings of less than 2 GiB.) *)
Theorem C29_csharp_missing ns p :
  accepted p -> p_list_size_type p <> "uint64" ->
  rejects_missing_for p (strings short_bytes) false (cs_unpack ns p).
Proof. exact (fun A B => cs_missing ns p (accepted_WF p A) (cs_compiles_not_64 p B)). Qed.
Print Assumptions C29_csharp_missing.

(** C22 for packed buffers, under the same conditions. *)
Theorem C22_csharp_packed_accepts_partial ns p :
  accepted p -> p_list_size_type p <> "uint64" ->
  no_string_last p -> ~ In (p_string_size_type p) ["uint64"; "int64"] -> unsigned_type (p_list_size_type p) ->
  only_packed p cs_decode (cs_unpack ns p).
Proof. exact (fun A B => cs_only_packed ns p (accepted_WF p A) (cs_compiles_not_64 p B)). Qed.
Print Assumptions C22_csharp_packed_accepts_partial.

(** C40 for packed buffers. *)
Theorem C40_csharp_unpack_total ns p :
  accepted p -> p_list_size_type p <> "uint64" ->
  unpack_answers false (cs_unpack ns p).
Proof. exact (fun A B => cs_unpack_answers ns p (accepted_WF p A) (cs_compiles_not_64 p B)). Qed.
Print Assumptions C40_csharp_unpack_total.
