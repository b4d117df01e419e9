(** Properties of the AssemblyScript code that the generator emits (model:
    AssemblyScript.v; what the statements mean: CodecSpec.v).

    [lossy] is what the runtime makes of strings that are not UTF-8, [room t] is
    how many elements of type [t] it can hold in a list.  [has_room]: lists of up
    to 2^26 elements fit.  [size_types_32]: code for 64 bit lengths does not
    compile.  A [throw] is a failure; a trap of the WebAssembly runtime (an array
    length out of range, an access behind the end of memory) is a crash. *)
From Verif Require Import AssemblyScript LangSpec CodecSpec LangSamples LangSampleFacts PropAssemblyScriptFacts.
Open Scope string_scope.
Open Scope Z_scope.
Open Scope list_scope.

(** ** Hypotheses can be met *)
Example sample_protocol : accepted moods /\ size_types_32 moods /\ enums_count_up moods /\ enums_gapless moods /\
  tiny_unsigned (p_string_size_type moods) /\ tiny_unsigned (p_list_size_type moods).
Proof. exact (conj moods_accepted (conj moods_32 (conj moods_up (conj moods_gapless moods_tiny)))). Qed.
Example sample_message :
  is_message_name moods "Diary" /\ wire moods "Diary" diary diary_bytes /\ utf8_modest diary.
Proof. exact (conj (ex_intro _ _ (or_introl eq_refl)) (conj diary_wire diary_modest)). Qed.
Example sample_stream :
  wire_stream strict moods diaries diaries_bytes /\ all_values utf8_modest diaries /\
  wire_packed strict moods diaries diaries_packed /\ (12 <= List.length (diaries_packed ++ []))%nat.
Proof. exact (conj diaries_wire (conj diaries_modest (conj diaries_pack (proj1 (Nat.leb_le 12 (List.length (diaries_packed ++ []))) eq_refl)))). Qed.
Example sample_runtime : has_room (fun _ => 2 ^ 28) /\ keeps_header (fun raw => raw).
Proof. exact (conj some_room some_lossy). Qed.

(** ** One message *)

(** C17, writing. *)
Theorem C17_assemblyscript_writes p :
  accepted p -> size_types_32 p ->
  writer_does fills p (as_write_bytes p).
Proof. exact (fun A B => as_writer_fills p (accepted_WF p A) (as_compiles_32 p B)). Qed.
Print Assumptions C17_assemblyscript_writes.

(** C17, reading, for enums whose last value is the largest and not the largest of its
    encoding, and for lists of up to 2^26 elements.  (Missing: other enums, for which it
    is false, see below; longer lists, which depend on the runtime.) *)
Theorem C17_assemblyscript_reads_partial lossy room p :
  accepted p -> size_types_32 p ->
  enums_count_up p -> has_room room ->
  reads_back p utf8_modest (as_from_bytes lossy room p).
Proof. exact (fun A B => as_reads_back lossy room p (accepted_WF p A) (as_compiles_32 p B)). Qed.
Print Assumptions C17_assemblyscript_reads_partial.

(** With the protocol of the documentation, whose enum TeamRole ends with Traitor = -1,
    every other role is read as 0, which is no role. *)
Theorem C17_assemblyscript_order_refuted :
  exists p t v bs v',
  accepted p /\ size_types_32 p /\ is_message_name p t /\ wire p t v bs /\ utf8_modest v /\ v' <> v /\
  forall lossy, as_from_bytes lossy (fun _ => 2 ^ 28) p t bs 0 = ROk v' (List.length bs).
Proof. exact (C17_order). Qed.
Print Assumptions C17_assemblyscript_order_refuted.

(** When the last value is the largest of its encoding, the value of _Unknown wraps
    round, and all values are read as it. *)
Theorem C17_assemblyscript_edge_refuted :
  exists p t v bs v',
  accepted p /\ size_types_32 p /\ is_message_name p t /\ wire p t v bs /\ utf8_modest v /\ v' <> v /\
  (forall t e z, In (t, e) (p_enums p) -> In z (map snd (e_values e)) -> z <= List.last (map snd (e_values e)) 0) /\
  forall lossy room, as_from_bytes lossy room p t bs 0 = ROk v' (List.length bs).
Proof. exact (C17_edge). Qed.
Print Assumptions C17_assemblyscript_edge_refuted.

(** With 64 bit string lengths the generated code does not compile. *)
Theorem C17_assemblyscript_64_bit_refuted :
  exists p t v bs,
  accepted p /\ is_message_name p t /\ wire p t v bs /\ utf8_modest v /\
  (forall w, as_write_bytes p t v w = WStuck) /\
  forall lossy room inp pos, as_from_bytes lossy room p t inp pos = RStuck.
Proof. exact (C17_64_bit). Qed.
Print Assumptions C17_assemblyscript_64_bit_refuted.

(** C07. *)
Theorem C07_assemblyscript_tags p :
  accepted p -> size_types_32 p ->
  tagged_writer_does fills p (as_write_tagged p).
Proof. exact (fun A B => as_tagged_fills p (accepted_WF p A) (as_compiles_32 p B)). Qed.
Print Assumptions C07_assemblyscript_tags.
Example C07_assemblyscript_tags_met :
  wire_tagged strict annotated ("CharacterJoinedTeam", joined_team) (x03 :: joined_team_bytes).
Proof. exact (joined_team_tagged). Qed.

(** C19, for protocols in which no list inside a list has the name of the outer list,
    and whose member names have no brackets, and for messages of less than 2^32 bytes. *)
Theorem C19_assemblyscript_size_partial p :
  accepted p -> size_types_32 p ->
  inner_lists_renamed p -> no_brackets p ->
  exact_size_for p (strings any_text) (2 ^ 32) (as_size p).
Proof. exact (fun A B => as_exact_size (fun raw => raw) (fun _ => 0) p (accepted_WF p A) (as_compiles_32 p B)). Qed.
Print Assumptions C19_assemblyscript_size_partial.
Example C19_assemblyscript_size_partial_met :
  accepted annotated /\ size_types_32 annotated /\ inner_lists_renamed annotated /\ no_brackets annotated.
Proof. exact (conj annotated_accepted_proof (conj annotated_32 (conj annotated_lists_renamed annotated_no_brackets))). Qed.

(** Without the first condition it is false: the reported size is too small. *)
Theorem C19_assemblyscript_size_refuted :
  exists p t v bs n,
  accepted p /\ size_types_32 p /\ is_message_name p t /\ wire p t v bs /\
  as_size p t v = MRet n /\ n < Z.of_nat (List.length bs).
Proof. exact (C19_as_refuted). Qed.
Print Assumptions C19_assemblyscript_size_refuted.

(** C20, where a trap counts as failing. *)
Theorem C20_assemblyscript_truncated_partial lossy room p :
  accepted p -> size_types_32 p ->
  rejects_truncated p true (as_from_bytes lossy room p).
Proof. exact (fun A B => as_truncated lossy room p (accepted_WF p A) (as_compiles_32 p B)). Qed.
Print Assumptions C20_assemblyscript_truncated_partial.
Example C20_assemblyscript_truncated_partial_met :
  exists cut x rest, joined_team_bytes = cut ++ x :: rest /\ cut <> [].
Proof. exact (joined_team_cut). Qed.

(** Nothing traps when lengths have one or two bytes and no sign. *)
Theorem C20_assemblyscript_truncated_throws_partial lossy room p :
  accepted p -> size_types_32 p ->
  tiny_unsigned (p_string_size_type p) -> tiny_unsigned (p_list_size_type p) ->
  has_room room -> rejects_truncated p false (as_from_bytes lossy room p).
Proof. exact (fun A B => as_truncated_fails lossy room p (accepted_WF p A) (as_compiles_32 p B)). Qed.
Print Assumptions C20_assemblyscript_truncated_throws_partial.

(** C21, for enums without gaps: what is read is a declared value or the value of
    _Unknown. *)
Theorem C21_assemblyscript_enums_partial lossy room p :
  accepted p -> size_types_32 p ->
  enums_count_up p -> enums_gapless p ->
  only_enums_in (fun e z => In z (map snd (e_values e)) \/ z = List.last (map snd (e_values e)) 0 + 1) p
    (as_from_bytes lossy room p).
Proof. exact (fun A B => as_enums lossy room p (accepted_WF p A) (as_compiles_32 p B)). Qed.
Print Assumptions C21_assemblyscript_enums_partial.

(** No message is rejected for an undeclared value. *)
Theorem C21_assemblyscript_unknown_refuted :
  exists p t inp v q,
  accepted p /\ size_types_32 p /\ enums_count_up p /\ enums_gapless p /\ is_message_name p t /\
  ~ enums_declared p t v /\ forall lossy room, has_room room -> as_from_bytes lossy room p t inp 0 = ROk v q.
Proof. exact (C21_unknown). Qed.
Print Assumptions C21_assemblyscript_unknown_refuted.

(** Numbers between the declared values are kept as they are. *)
Theorem C21_assemblyscript_gap_refuted :
  exists p t inp v q,
  accepted p /\ size_types_32 p /\ enums_count_up p /\ is_message_name p t /\
  ~ enums_in (fun e z => In z (map snd (e_values e)) \/ z = List.last (map snd (e_values e)) 0 + 1) p t v /\
  forall lossy room, as_from_bytes lossy room p t inp 0 = ROk v q.
Proof. exact (C21_gap). Qed.
Print Assumptions C21_assemblyscript_gap_refuted.

(** C22, for protocols without enums. *)
Theorem C22_assemblyscript_accepts_partial lossy room p :
  accepted p -> size_types_32 p ->
  no_enums p -> only_wire p (as_decode lossy) (as_from_bytes lossy room p).
Proof. exact (fun A B => as_only lossy room p (accepted_WF p A) (as_compiles_32 p B)). Qed.
Print Assumptions C22_assemblyscript_accepts_partial.
Example C22_assemblyscript_accepts_partial_met :
  accepted tracks /\ size_types_32 tracks /\ no_enums tracks.
Proof. exact (conj tracks_accepted (conj tracks_32 eq_refl)). Qed.

(** With enums, bytes are accepted that encode nothing. *)
Theorem C22_assemblyscript_accepts_refuted :
  exists p t inp v q,
  accepted p /\ size_types_32 p /\ enums_count_up p /\ enums_gapless p /\ is_message_name p t /\
  (forall lossy room, as_from_bytes lossy room p t inp 0 = ROk v q) /\
  forall v0 bs rest, inp = bs ++ rest -> q = List.length bs -> ~ wire_in reading p t v0 bs.
Proof. exact (C22_as). Qed.
Print Assumptions C22_assemblyscript_accepts_refuted.

(** C23, when there is no room.  (When there is room: C17_assemblyscript_writes.) *)
Theorem C23_assemblyscript_short_buffer p :
  accepted p -> size_types_32 p ->
  writer_does refuses_short p (as_write_bytes p).
Proof. exact (fun A B => as_writer_refuses p (accepted_WF p A) (as_compiles_32 p B)). Qed.
Print Assumptions C23_assemblyscript_short_buffer.

(** C23 for a message with its tag. *)
Theorem C23_assemblyscript_tagged_short p :
  accepted p -> size_types_32 p ->
  tagged_writer_does refuses_short p (as_write_tagged p).
Proof. exact (fun A B => as_tagged_refuses p (accepted_WF p A) (as_compiles_32 p B)). Qed.
Print Assumptions C23_assemblyscript_tagged_short.

(** C30.  (The two names cannot be declared in AssemblyScript.) *)
Theorem C30_assemblyscript_fresh p t s :
  accepted p -> ~ In "boolean" (declared_names p) -> ~ In "bigint" (declared_names p) ->
  declares p t s -> fresh p t (VStruct (as_init p (depth_of p) t)).
Proof. exact (fun A => as_fresh p t s (accepted_WF p A)). Qed.
Print Assumptions C30_assemblyscript_fresh.
Example C30_assemblyscript_fresh_met :
  ~ In "boolean" (declared_names annotated) /\ ~ In "bigint" (declared_names annotated) /\
  exists s, declares annotated "CharacterJoinedTeam" s.
Proof. exact (conj (proj1 annotated_as_names) (conj (proj2 annotated_as_names) joined_team_declared)). Qed.

(** C41.  A list that is too long for its length is written as another one. *)
Theorem C41_assemblyscript_overlong_refuted :
  exists p, accepted p /\ size_types_32 p /\ forall lossy,
  corrupts_overlong p (as_write_bytes p) (as_from_bytes lossy (fun _ => 2 ^ 28) p).
Proof. exact (C41_as). Qed.
Print Assumptions C41_assemblyscript_overlong_refuted.

(** C40, for one message, when lengths have one or two bytes and no sign. *)
Theorem C40_assemblyscript_total_partial lossy room p :
  accepted p -> size_types_32 p ->
  tiny_unsigned (p_string_size_type p) -> tiny_unsigned (p_list_size_type p) ->
  has_room room -> always_answers p false (as_from_bytes lossy room p).
Proof. exact (fun A B => as_answers lossy room p (accepted_WF p A) (as_compiles_32 p B)). Qed.
Print Assumptions C40_assemblyscript_total_partial.

(** With other lengths the reader returns a value, throws or traps. *)
Theorem C40_assemblyscript_answers_partial lossy room p :
  accepted p -> size_types_32 p ->
  always_answers p true (as_from_bytes lossy room p).
Proof. exact (fun A B => as_answers_trap lossy room p (accepted_WF p A) (as_compiles_32 p B)). Qed.
Print Assumptions C40_assemblyscript_answers_partial.

(** A string length close to 2^32 traps: the end of the string wraps round. *)
Theorem C40_assemblyscript_string_refuted :
  exists p t inp,
  accepted p /\ size_types_32 p /\ unsigned_type (p_string_size_type p) /\
  unsigned_type (p_list_size_type p) /\
  is_message_name p t /\ forall lossy room, as_from_bytes lossy room p t inp 0 = RTrap.
Proof. exact (C40_as_string). Qed.
Print Assumptions C40_assemblyscript_string_refuted.

(** A negative list length traps. *)
Theorem C40_assemblyscript_list_refuted :
  exists p t inp,
  accepted p /\ size_types_32 p /\
  is_message_name p t /\ forall lossy room, as_from_bytes lossy room p t inp 0 = RTrap.
Proof. exact (C40_as_list). Qed.
Print Assumptions C40_assemblyscript_list_refuted.

(** ** Streams of messages *)

(** C24, under the conditions of C17. *)
Theorem C24_assemblyscript_streams_partial lossy room p :
  accepted p -> size_types_32 p ->
  enums_count_up p -> has_room room ->
  reads_streams p utf8_modest (as_process lossy room p).
Proof. exact (fun A B => as_reads_streams lossy room p (accepted_WF p A) (as_compiles_32 p B)). Qed.
Print Assumptions C24_assemblyscript_streams_partial.

(** C25, under the same conditions. *)
Theorem C25_assemblyscript_max_partial lossy room p :
  accepted p -> size_types_32 p ->
  enums_count_up p -> has_room room ->
  stops_at_max p utf8_modest (as_process lossy room p).
Proof. exact (fun A B => as_stops_at_max lossy room p (accepted_WF p A) (as_compiles_32 p B)). Qed.
Print Assumptions C25_assemblyscript_max_partial.

(** C26.  At an unknown tag the messages so far are returned as if they were all. *)
Theorem C26_assemblyscript_unknown_refuted :
  exists p b, accepted p /\ size_types_32 p /\ b <> x00 /\ (forall t, ~ numbered p t (Z_of_byte b)) /\
  forall lossy room after, as_process lossy room p (-1) (b :: after) 0 = ROk [] 1.
Proof. exact (C26_as). Qed.
Print Assumptions C26_assemblyscript_unknown_refuted.

(** C20 for streams.  A stream cut inside a message is accepted. *)
Theorem C20_assemblyscript_cut_stream_refuted :
  exists p ms bs m last cut x rest,
  accepted p /\ size_types_32 p /\ wire_stream strict p ms bs /\ all_values utf8_modest ms /\
  wire_tagged strict p m last /\ last = cut ++ x :: rest /\ cut <> [] /\
  forall lossy room, exists ms' q, as_process lossy room p (-1) (bs ++ cut) 0 = ROk ms' q.
Proof. exact (C20_as_stream). Qed.
Print Assumptions C20_assemblyscript_cut_stream_refuted.

(** C40 for streams, when lengths have one or two bytes and no sign. *)
Theorem C40_assemblyscript_stream_total_partial lossy room p :
  accepted p -> size_types_32 p ->
  tiny_unsigned (p_string_size_type p) -> tiny_unsigned (p_list_size_type p) ->
  has_room room -> stream_answers false (as_process lossy room p).
Proof. exact (fun A B => as_stream_answers lossy room p (accepted_WF p A) (as_compiles_32 p B)). Qed.
Print Assumptions C40_assemblyscript_stream_total_partial.

(** With other lengths reading a stream ends, too, though it can trap. *)
Theorem C40_assemblyscript_stream_answers_partial lossy room p :
  accepted p -> size_types_32 p ->
  stream_answers true (as_process lossy room p).
Proof. exact (fun A B => as_stream_answers_trap lossy room p (accepted_WF p A) (as_compiles_32 p B)). Qed.
Print Assumptions C40_assemblyscript_stream_answers_partial.

(** ** Packed buffers *)

(** C27, writing. *)
Theorem C27_assemblyscript_packs p :
  accepted p -> size_types_32 p ->
  packer_does fills p (as_pack p).
Proof. exact (fun A B => as_packs p (accepted_WF p A) (as_compiles_32 p B)). Qed.
Print Assumptions C27_assemblyscript_packs.

(** C27, reading, under the conditions of C17, when there are at least 12 bytes. *)
Theorem C27_assemblyscript_unpacks_partial lossy room p :
  accepted p -> size_types_32 p ->
  enums_count_up p -> has_room room ->
  unpacks_from 12 p utf8_modest (2 ^ 32 - 1) (as_unpack lossy room p).
Proof. exact (fun A B => as_unpacks lossy room p (accepted_WF p A) (as_compiles_32 p B)). Qed.
Print Assumptions C27_assemblyscript_unpacks_partial.

(** Shorter packed buffers are rejected. *)
Theorem C27_assemblyscript_short_refuted :
  exists p ms bs,
  accepted p /\ size_types_32 p /\ wire_packed strict p ms bs /\ all_values utf8_modest ms /\
  forall lossy room, as_unpack lossy room p bs 0 = RErr.
Proof. exact (C27_as_short). Qed.
Print Assumptions C27_assemblyscript_short_refuted.

(** In a DataView that starts later in its buffer ([pre] is in front of it) the header
    is looked for in the wrong place. *)
Theorem C27_assemblyscript_view_refuted :
  exists p ms bs pre,
  accepted p /\ size_types_32 p /\ wire_packed strict p ms bs /\ all_values utf8_modest ms /\
  forall lossy room, as_unpack_data lossy room pre [] p bs = RErr.
Proof. exact (C27_as_view). Qed.
Print Assumptions C27_assemblyscript_view_refuted.

(** C23 for PackMessages: that there was no room is not reported. *)
Theorem C23_assemblyscript_pack_refuted :
  exists p ms bs,
  accepted p /\ size_types_32 p /\ wire_packed strict p ms bs /\
  exists w w', w_pos w = 0%nat /\ (List.length (w_buf w) < List.length bs)%nat /\ as_pack p ms w = WDone w'.
Proof. exact (C23_as_pack). Qed.
Print Assumptions C23_assemblyscript_pack_refuted.

(** C28, under the conditions of C19. *)
Theorem C28_assemblyscript_packed_size_partial p :
  accepted p -> size_types_32 p ->
  inner_lists_renamed p -> no_brackets p ->
  exact_packed_size_for p (strings any_text) (2 ^ 32) (as_packed_size p).
Proof. exact (fun A B => as_exact_packed_size (fun raw => raw) (fun _ => 0) p (accepted_WF p A) (as_compiles_32 p B)). Qed.
Print Assumptions C28_assemblyscript_packed_size_partial.

(** C29. *)
Theorem C29_assemblyscript_header lossy room p :
  size_types_32 p -> keeps_header lossy -> rejects_bad_header false (as_unpack lossy room p).
Proof. exact (fun B K => as_bad_header lossy room p (as_compiles_32 p B) K false). Qed.
Print Assumptions C29_assemblyscript_header.

Theorem C29_assemblyscript_count lossy room p :
  size_types_32 p -> rejects_bad_count false (as_unpack lossy room p).
Proof. exact (fun B => as_bad_count lossy room p (as_compiles_32 p B) false). Qed.
Print Assumptions C29_assemblyscript_count.

(** Under the conditions of C17. *)
Theorem C29_assemblyscript_missing_partial lossy room p :
  accepted p -> size_types_32 p ->
  enums_count_up p -> has_room room ->
  rejects_missing_for p (lists modest) false (as_unpack lossy room p).
Proof. exact (fun A B => as_missing lossy room p (accepted_WF p A) (as_compiles_32 p B)). Qed.
Print Assumptions C29_assemblyscript_missing_partial.

(** C40 for packed buffers, when lengths have one or two bytes and no sign. *)
Theorem C40_assemblyscript_unpack_total_partial lossy room p :
  accepted p -> size_types_32 p ->
  keeps_header lossy -> tiny_unsigned (p_string_size_type p) -> tiny_unsigned (p_list_size_type p) ->
  has_room room -> unpack_answers false (as_unpack lossy room p).
Proof. exact (fun A B => as_unpack_answers lossy room p (accepted_WF p A) (as_compiles_32 p B)). Qed.
Print Assumptions C40_assemblyscript_unpack_total_partial.
