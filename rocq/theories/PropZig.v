(** Properties of the Zig code that the generator emits (model: Zig.v and
    ZigMemory.v; what the statements mean: CodecSpec.v, LangSpec.v, ZigSpec.v,
    ZigMemorySpec.v).

    [zig_names] is about names only.  Reading needs lengths without a sign, and that
    nothing of fixed size contains a struct; other code does not compile.  Writing is
    right when structs of fixed size have numbers only, and strings and lists have the
    same type of lengths.  [room t] is how many elements of type [t] can be allocated.
    A panic is a crash.  Blocks of memory are numbered in the order in which they are
    allocated; [hollow t] is whether values of [t] have no bytes. *)
From Verif Require Import Zig ZigMemory ZigSpec ZigMemorySpec CodecSpec LangSamples LangSampleFacts PropZigFacts.
Open Scope string_scope.
Open Scope Z_scope.
Open Scope list_scope.

(** ** Hypotheses can be met *)
Example sample_protocol : accepted photos /\ zig_names photos /\ unsigned_sizes photos /\ flat photos /\
  numbers_only photos /\ same_sizes photos /\ p_string_size_type photos = "uint32" /\ has_room (fun _ => 2 ^ 28).
Proof.
  exact (let '(conj N (conj U (conj F (conj NO (conj Q T))))) := photos_zig in
         conj photos_accepted (conj N (conj U (conj F (conj NO (conj Q (conj T some_room))))))).
Qed.
Example sample_message : wire photos "Photo" photo photo_bytes /\ zig_value photos photo.
Proof. exact (conj photo_wire photo_value). Qed.
Example sample_stream : wire_stream strict photos two_photos two_photos_bytes /\
  wire_packed strict photos two_photos packed_photos_bytes /\ all_values (zig_value photos) two_photos.
Proof. exact (conj two_photos_wire (conj two_photos_packed two_photos_values)). Qed.

(** ** One message *)

(** C16, writing into a buffer with enough room.  (Missing: names outside of [zig_names];
    enums and structs inside structs of fixed size, and strings whose lengths have another
    type than those of lists, for which it is false.) *)
Theorem C16_zig_writes_partial p :
  accepted p -> zig_names p -> numbers_only p -> same_sizes p ->
  writer_does fills p (zig_write_bytes p).
Proof. exact (zig_use p _ (fun W C => zig_writer_fills (fun _ => 0) p W C)). Qed.
Print Assumptions C16_zig_writes_partial.

(** Without enough room it panics. *)
Theorem C16_zig_writes_short_partial p :
  accepted p -> zig_names p -> numbers_only p -> same_sizes p ->
  writer_does traps_short p (zig_write_bytes p).
Proof. exact (zig_use p _ (fun W C => zig_writer_traps (fun _ => 0) p W C)). Qed.
Print Assumptions C16_zig_writes_short_partial.

(** C16 and C31.  Lengths of strings are written with the type of list lengths; the
    protocol is the documentation's example. *)
Theorem C31_zig_string_size_refuted :
  exists p t v bs buf w',
  accepted p /\ zig_names p /\ unsigned_sizes p /\ flat p /\ numbers_only p /\ is_message_name p t /\ wire p t v bs /\
  zig_value p v /\
  zig_write_bytes p t v {| w_buf := buf; w_pos := 0 |} = WDone w' /\ firstn (w_pos w') (w_buf w') <> bs.
Proof. exact (C31_zig). Qed.
Print Assumptions C31_zig_string_size_refuted.

(** Enums inside structs of fixed size are not written. *)
Theorem C16_zig_enum_refuted :
  exists p t v bs buf w',
  accepted p /\ zig_names p /\ unsigned_sizes p /\ flat p /\ same_sizes p /\ is_message_name p t /\ wire p t v bs /\
  zig_value p v /\
  zig_write_bytes p t v {| w_buf := buf; w_pos := 0 |} = WDone w' /\ firstn (w_pos w') (w_buf w') <> bs.
Proof. exact (C16_zig_enum). Qed.
Print Assumptions C16_zig_enum_refuted.

(** C16, reading, for lists of up to 2^26 elements, and strings that are not within a few
    bytes of the limit.  (Missing: longer lists, which depend on the runtime; longer
    strings, signed lengths, and structs inside what has a fixed size, for which it is
    false.) *)
Theorem C16_zig_reads_partial room p :
  accepted p -> zig_names p -> unsigned_sizes p -> flat p ->
  has_room room ->
  reads_back p (zig_value p) (zig_from_bytes room p).
Proof. exact (zig_use_reads p _ (fun W C R => zig_reads_back room p W C R)). Qed.
Print Assumptions C16_zig_reads_partial.

(** A string of 255 bytes panics if its length is a byte. *)
Theorem C16_zig_long_refuted :
  exists p t v bs,
  accepted p /\ zig_names p /\ unsigned_sizes p /\ flat p /\ numbers_only p /\ same_sizes p /\
  is_message_name p t /\ wire p t v bs /\ lists modest v /\
  forall room, zig_from_bytes room p t bs 0 = RTrap.
Proof. exact (C16_zig_long). Qed.
Print Assumptions C16_zig_long_refuted.

(** A message of fixed size that contains a struct cannot be read: the reader does not
    compile. *)
Theorem C16_zig_nested_refuted :
  exists p t v bs,
  accepted p /\ zig_names p /\ unsigned_sizes p /\ same_sizes p /\ is_message_name p t /\ wire p t v bs /\ zig_value p v /\
  forall room, zig_from_bytes room p t bs 0 = RStuck.
Proof. exact (C16_zig_nested). Qed.
Print Assumptions C16_zig_nested_refuted.

(** Nor does it with signed lengths. *)
Theorem C16_zig_signed_refuted :
  exists p t v bs,
  accepted p /\ zig_names p /\ flat p /\ same_sizes p /\ is_message_name p t /\ wire p t v bs /\ zig_value p v /\
  forall room, zig_from_bytes room p t bs 0 = RStuck.
Proof. exact (C16_zig_signed). Qed.
Print Assumptions C16_zig_signed_refuted.

(** C32.  The names are all right when those at the top of the file are different, none of
    them is used inside, and the constants of readers are different.  (Missing: names that
    the language itself does not allow.) *)
Theorem C32_zig_names_partial p :
  accepted p -> zig_names p ->
  zig_compiles p = true.
Proof. exact (zig_use p _ (fun W C => C)). Qed.
Print Assumptions C32_zig_names_partial.
Example C32_zig_names_partial_met :
  zig_names annotated.
Proof. exact (proj1 annotated_zig). Qed.

(** Two strings body and body_read do not compile. *)
Theorem C32_zig_read_refuted :
  exists p, accepted p /\ zig_compiles p = false.
Proof. exact (C32_zig_read). Qed.
Print Assumptions C32_zig_read_refuted.

(** Nor does a string offset in a message local. *)
Theorem C32_zig_local_refuted :
  exists p, accepted p /\ zig_compiles p = false.
Proof. exact (C32_zig_local). Qed.
Print Assumptions C32_zig_local_refuted.

(** Nor does a struct T. *)
Theorem C32_zig_type_refuted :
  exists p, accepted p /\ zig_compiles p = false.
Proof. exact (C32_zig_type). Qed.
Print Assumptions C32_zig_type_refuted.

(** Nor does a struct that has enums only. *)
Theorem C32_zig_enums_refuted :
  exists p, accepted p /\ zig_compiles p = false.
Proof. exact (C32_zig_enums). Qed.
Print Assumptions C32_zig_enums_refuted.

(** C07. *)
Theorem C07_zig_tags_partial p :
  accepted p -> zig_names p -> numbers_only p -> same_sizes p ->
  tagged_writer_does fills p (zig_write_tagged p).
Proof. exact (zig_use p _ (fun W C => zig_tagged_fills (fun _ => 0) p W C)). Qed.
Print Assumptions C07_zig_tags_partial.
Example C07_zig_tags_partial_met :
  wire_tagged strict photos ("Photo", photo) (x01 :: photo_bytes).
Proof. exact (photo_tagged). Qed.

Theorem C07_zig_tags_short_partial p :
  accepted p -> zig_names p -> numbers_only p -> same_sizes p ->
  tagged_writer_does traps_short p (zig_write_tagged p).
Proof. exact (zig_use p _ (fun W C => zig_tagged_traps (fun _ => 0) p W C)). Qed.
Print Assumptions C07_zig_tags_short_partial.

(** C19: the size of the wire format. *)
Theorem C19_zig_size_partial p :
  accepted p -> zig_names p ->
  exact_size p (zig_size p).
Proof. exact (zig_use p _ (fun W C => zig_exact_size p W C)). Qed.
Print Assumptions C19_zig_size_partial.

(** It may not be what the writer needs: see C31. *)
Theorem C19_zig_written_refuted :
  exists p t v n,
  accepted p /\ zig_names p /\ unsigned_sizes p /\ flat p /\ numbers_only p /\ is_message_name p t /\ zig_value p v /\
  zig_size p t v = MRet (Z.of_nat n) /\ zig_write_bytes p t v {| w_buf := repeat x00 n; w_pos := 0 |} = WTrap.
Proof. exact (C19_zig). Qed.
Print Assumptions C19_zig_written_refuted.

(** C20, where a panic counts as failing. *)
Theorem C20_zig_truncated_partial room p :
  accepted p -> zig_names p -> unsigned_sizes p -> flat p ->
  rejects_truncated p true (zig_from_bytes room p).
Proof. exact (zig_use_reads p _ (fun W C R => zig_truncated_trap room p W C R)). Qed.
Print Assumptions C20_zig_truncated_partial.
Example C20_zig_truncated_partial_met :
  exists cut x rest, photo_bytes = cut ++ x :: rest /\ cut <> [].
Proof. exact (photo_cut). Qed.

(** C21. *)
Theorem C21_zig_enums_partial room p :
  accepted p -> zig_names p -> unsigned_sizes p -> flat p ->
  only_declared_enums p (zig_from_bytes room p).
Proof. exact (zig_use_reads p _ (fun W C R => zig_enums room p W C R)). Qed.
Print Assumptions C21_zig_enums_partial.

(** C22. *)
Theorem C22_zig_accepts_partial room p :
  accepted p -> zig_names p -> unsigned_sizes p -> flat p ->
  only_wire p Some (zig_from_bytes room p).
Proof. exact (zig_use_reads p _ (fun W C R => zig_only room p W C R)). Qed.
Print Assumptions C22_zig_accepts_partial.

(** C30. *)
Theorem C30_zig_fresh p t s :
  accepted p -> declares p t s ->
  fresh p t (VStruct (zig_default p (depth_of p) t)).
Proof. exact (fun A => zig_fresh p t s (accepted_WF p A)). Qed.
Print Assumptions C30_zig_fresh.
Example C30_zig_fresh_met :
  exists s, declares photos "Photo" s.
Proof. exact (photo_declared). Qed.

(** C41.  A list or string that is too long for its length is never written: the program
    panics.  (Missing: names outside of [zig_names], and strings whose lengths have another
    type than those of lists, see C31.) *)
Theorem C41_zig_overlong_partial p :
  accepted p -> zig_names p -> same_sizes p ->
  refuses_overlong p (zig_write_bytes p).
Proof. exact (zig_use p _ (fun W C => zig_refuses p W C)). Qed.
Print Assumptions C41_zig_overlong_partial.
Example C41_zig_overlong_partial_met :
  zig_names (shorts "byte") /\ same_sizes (shorts "byte") /\ can_hold (shorts "byte") "Numbers" too_many /\
  ~ in_range (shorts "byte") "Numbers" too_many.
Proof. exact (conj shorts_byte_zig (conj (or_introl eq_refl) (conj too_many_held too_many_long))). Qed.

(** C40, for one message, when string lengths have four bytes, and for less than 2^32 bytes.
    (Missing: other string lengths, for which it is false.) *)
Theorem C40_zig_total_partial room p :
  accepted p -> zig_names p -> unsigned_sizes p -> flat p ->
  forall t s inp pos, p_string_size_type p = "uint32" -> Z.of_nat (List.length inp) < 2 ^ 32 -> declares p t s ->
    answers false (zig_from_bytes room p t inp pos).
Proof. exact (zig_use_reads p _ (fun W C R => zig_answers room p W C R)). Qed.
Print Assumptions C40_zig_total_partial.

(** The reader always returns a value, fails or panics. *)
Theorem C40_zig_answers_partial room p :
  accepted p -> zig_names p -> unsigned_sizes p -> flat p ->
  always_answers p true (zig_from_bytes room p).
Proof. exact (zig_use_reads p _ (fun W C R => zig_answers_trap room p W C R)). Qed.
Print Assumptions C40_zig_answers_partial.

(** String lengths of eight bytes can panic. *)
Theorem C40_zig_string_refuted :
  exists p t inp,
  accepted p /\ zig_names p /\ unsigned_sizes p /\ flat p /\ is_message_name p t /\
  Z.of_nat (List.length inp) < 2 ^ 32 /\ forall room, zig_from_bytes room p t inp 0 = RTrap.
Proof. exact (C40_zig_string). Qed.
Print Assumptions C40_zig_string_refuted.

(** ** Streams of messages *)

(** C24. *)
Theorem C24_zig_streams_partial room p :
  accepted p -> zig_names p -> unsigned_sizes p -> flat p ->
  has_room room ->
  reads_streams p (zig_value p) (zig_process room p).
Proof. exact (zig_use_reads p _ (fun W C R => zig_reads_streams room p W C R)). Qed.
Print Assumptions C24_zig_streams_partial.

(** C25. *)
Theorem C25_zig_max_partial room p :
  accepted p -> zig_names p -> unsigned_sizes p -> flat p ->
  has_room room ->
  stops_at_max p (zig_value p) (zig_process room p).
Proof. exact (zig_use_reads p _ (fun W C R => zig_stops_at_max room p W C R)). Qed.
Print Assumptions C25_zig_max_partial.

(** C26. *)
Theorem C26_zig_unknown_partial room p :
  accepted p -> zig_names p -> unsigned_sizes p -> flat p ->
  has_room room ->
  rejects_unknown p (zig_value p) (zig_process room p).
Proof. exact (zig_use_reads p _ (fun W C R => zig_rejects_unknown room p W C R)). Qed.
Print Assumptions C26_zig_unknown_partial.
Example C26_zig_unknown_partial_met :
  forall t, ~ numbered photos t (Z_of_byte x02).
Proof. exact (two_unknown_photo). Qed.

(** C20 for streams. *)
Theorem C20_zig_cut_stream_partial room p :
  accepted p -> zig_names p -> unsigned_sizes p -> flat p ->
  has_room room ->
  rejects_cut_streams p (zig_value p) true (zig_process room p).
Proof. exact (zig_use_reads p _ (fun W C R => zig_rejects_cut room p W C R)). Qed.
Print Assumptions C20_zig_cut_stream_partial.

(** C22 for streams. *)
Theorem C22_zig_stream_accepts_partial room p :
  accepted p -> zig_names p -> unsigned_sizes p -> flat p ->
  only_streams p Some (zig_process room p).
Proof. exact (zig_use_reads p _ (fun W C R => zig_only_streams room p W C R)). Qed.
Print Assumptions C22_zig_stream_accepts_partial.

(** C40 for streams. *)
Theorem C40_zig_stream_total_partial room p :
  accepted p -> zig_names p -> unsigned_sizes p -> flat p ->
  forall max inp pos, p_string_size_type p = "uint32" -> Z.of_nat (List.length inp) < 2 ^ 32 ->
    answers false (zig_process room p max inp pos).
Proof. exact (zig_use_reads p _ (fun W C R => zig_stream_answers room p W C R)). Qed.
Print Assumptions C40_zig_stream_total_partial.

Theorem C40_zig_stream_answers_partial room p :
  accepted p -> zig_names p -> unsigned_sizes p -> flat p ->
  stream_answers true (zig_process room p).
Proof. exact (zig_use_reads p _ (fun W C R => zig_stream_answers_trap room p W C R)). Qed.
Print Assumptions C40_zig_stream_answers_partial.

(** ** Packed buffers *)

(** C27, writing. *)
Theorem C27_zig_packs_partial p :
  accepted p -> zig_names p -> numbers_only p -> same_sizes p ->
  packer_does fills p (zig_pack p).
Proof. exact (zig_use p _ (fun W C => zig_packs (fun _ => 0) p W C)). Qed.
Print Assumptions C27_zig_packs_partial.

Theorem C27_zig_packs_short_partial p :
  accepted p -> zig_names p -> numbers_only p -> same_sizes p ->
  packer_does traps_short p (zig_pack p).
Proof. exact (zig_use p _ (fun W C => zig_packs_traps (fun _ => 0) p W C)). Qed.
Print Assumptions C27_zig_packs_short_partial.

(** C27, reading, for less than 2^31 messages. *)
Theorem C27_zig_unpacks_partial room p :
  accepted p -> zig_names p -> unsigned_sizes p -> flat p ->
  has_room room ->
  unpacks p (zig_value p) (2 ^ 31 - 1) (zig_unpack room p).
Proof. exact (zig_use_reads p _ (fun W C R => zig_unpacks room p W C R)). Qed.
Print Assumptions C27_zig_unpacks_partial.

(** C28, as C19. *)
Theorem C28_zig_packed_size_partial p :
  accepted p -> zig_names p ->
  exact_packed_size p (zig_packed_size p).
Proof. exact (zig_use p _ (fun W C => zig_exact_packed_size p W C)). Qed.
Print Assumptions C28_zig_packed_size_partial.

(** C29.  Less than four bytes panic, four others are rejected. *)
Theorem C29_zig_header_partial room p :
  accepted p -> zig_names p -> unsigned_sizes p -> flat p ->
  rejects_bad_header true (zig_unpack room p).
Proof. exact (zig_use_reads p _ (fun W C R => zig_bad_header room p C R)). Qed.
Print Assumptions C29_zig_header_partial.
Example C29_zig_header_partial_met :
  forall rest, skipn 0 (text "BSCJ") <> header ++ rest.
Proof. exact (fun rest => ltac:(discriminate)). Qed.

Theorem C29_zig_header_four_partial room p :
  accepted p -> zig_names p -> unsigned_sizes p -> flat p ->
  forall inp pos, (forall rest, skipn pos inp <> header ++ rest) -> (pos + 4 <= List.length inp)%nat ->
    zig_unpack room p inp pos = RErr.
Proof. exact (zig_use_reads p _ (fun W C R => zig_header room p C R)). Qed.
Print Assumptions C29_zig_header_four_partial.

Theorem C29_zig_short_refuted :
  exists p inp, accepted p /\ zig_names p /\ unsigned_sizes p /\ flat p /\
  forall room, zig_unpack room p inp 0 = RTrap.
Proof. exact (C29_zig_short). Qed.
Print Assumptions C29_zig_short_refuted.

Theorem C29_zig_count_partial room p :
  accepted p -> zig_names p -> unsigned_sizes p -> flat p ->
  rejects_bad_count false (zig_unpack room p).
Proof. exact (zig_use_reads p _ (fun W C R => zig_bad_count room p C R false)). Qed.
Print Assumptions C29_zig_count_partial.

Theorem C29_zig_missing_partial room p :
  accepted p -> zig_names p -> unsigned_sizes p -> flat p ->
  rejects_missing p true (zig_unpack room p).
Proof. exact (zig_use_reads p _ (fun W C R => zig_missing room p W C R)). Qed.
Print Assumptions C29_zig_missing_partial.

(** C22 for packed buffers. *)
Theorem C22_zig_packed_accepts_partial room p :
  accepted p -> zig_names p -> unsigned_sizes p -> flat p ->
  only_packed p Some (zig_unpack room p).
Proof. exact (zig_use_reads p _ (fun W C R => zig_only_packed room p W C R)). Qed.
Print Assumptions C22_zig_packed_accepts_partial.

(** C40 for packed buffers with a count of less than 2^31. *)
Theorem C40_zig_unpack_total_partial room p :
  accepted p -> zig_names p -> unsigned_sizes p -> flat p ->
  forall inp pos nb rest n, p_string_size_type p = "uint32" -> Z.of_nat (List.length inp) < 2 ^ 32 ->
    skipn pos inp = header ++ nb ++ rest -> wire_num strict NU32 (VInt n) nb -> n < 2 ^ 31 ->
    answers false (zig_unpack room p inp pos).
Proof. exact (zig_use_reads p _ (fun W C R => zig_unpack_answers room p W C R)). Qed.
Print Assumptions C40_zig_unpack_total_partial.

Theorem C40_zig_unpack_answers_partial room p :
  accepted p -> zig_names p -> unsigned_sizes p -> flat p ->
  unpack_answers true (zig_unpack room p).
Proof. exact (zig_use_reads p _ (fun W C R => zig_unpack_answers_trap room p W C R)). Qed.
Print Assumptions C40_zig_unpack_answers_partial.

(** A larger count panics. *)
Theorem C40_zig_count_refuted :
  exists p inp, accepted p /\ zig_names p /\ unsigned_sizes p /\ flat p /\
  (exists rest, inp = header ++ rest) /\ forall room, zig_unpack room p inp 0 = RTrap.
Proof. exact (C40_zig_count). Qed.
Print Assumptions C40_zig_count_refuted.

(** ** Memory *)

(** C39, C46: the account of the memory in ZigMemory.v is about the programs of Zig.v: the
    results are the same. *)
Theorem C39_zig_same room hollow p t s inp pos next :
  accepted p -> declares p t s ->
  same_read zig_value_of (zig_from_bytes_memory room hollow p t inp pos next) (zig_from_bytes room p t inp pos).
Proof. exact (fun A => zm_same room hollow p (accepted_WF p A) t s inp pos next). Qed.
Print Assumptions C39_zig_same.

Theorem C39_zig_stream_same room hollow p max inp pos next :
  accepted p ->
  same_read plain_messages (zig_process_memory room hollow p max inp pos next) (zig_process room p max inp pos).
Proof. exact (fun A => zm_process_same room hollow p (accepted_WF p A) max inp pos next). Qed.
Print Assumptions C39_zig_stream_same.

Theorem C39_zig_packed_same room hollow p data next :
  accepted p ->
  same_read plain_messages (zig_unpack_memory room hollow p data next) (zig_unpack_data room p data).
Proof. exact (fun A => zm_unpack_same room hollow p (accepted_WF p A) data next). Qed.
Print Assumptions C39_zig_packed_same.

(** C39.  A read that succeeds has released nothing, and deinit releases what it allocated. *)
Theorem C39_zig_deinit room hollow p t s inp pos next v q next' freed :
  accepted p -> declares p t s ->
  zig_from_bytes_memory room hollow p t inp pos next = ZOk v q next' freed ->
  freed = [] /\ released_once next next' (zig_release_message p t v).
Proof. exact (fun A => zm_deinit room hollow p (accepted_WF p A) t s inp pos next v q next' freed). Qed.
Print Assumptions C39_zig_deinit.
Example C39_zig_deinit_met :
  exists v q, zig_from_bytes_memory (fun _ => 2 ^ 28) (fun _ => false) photos "Photo" photo_bytes 0 3 = ZOk v q 7 [].
Proof. exact (photo_memory). Qed.

(** The messages of a stream, and the list of them. *)
Theorem C39_zig_stream room hollow p max inp pos next b ms q next' freed :
  accepted p ->
  zig_process_memory room hollow p max inp pos next = ZOk (b, ms) q next' freed ->
  freed = [] /\ released_once next next' (zig_release_messages p b ms).
Proof. exact (fun A => zm_stream room hollow p (accepted_WF p A) max inp pos next b ms q next' freed). Qed.
Print Assumptions C39_zig_stream.
Example C39_zig_stream_met :
  exists b ms q,
  zig_process_memory (fun _ => 2 ^ 28) (fun _ => false) photos (-1) two_photos_bytes 0 3 = ZOk (b, ms) q 12 [].
Proof. exact (two_photos_memory). Qed.

Theorem C39_zig_packed room hollow p data next b ms q next' freed :
  accepted p ->
  zig_unpack_memory room hollow p data next = ZOk (b, ms) q next' freed ->
  freed = [] /\ released_once next next' (zig_release_messages p b ms).
Proof. exact (fun A => zm_packed room hollow p (accepted_WF p A) data next b ms q next' freed). Qed.
Print Assumptions C39_zig_packed.
Example C39_zig_packed_met :
  exists b ms q,
  zig_unpack_memory (fun _ => 2 ^ 28) (fun _ => false) photos packed_photos_bytes 3 = ZOk (b, ms) q 12 [].
Proof. exact (packed_photos_memory). Qed.

(** C46.  A read that fails releases nothing twice, and nothing that it has not allocated. *)
Theorem C46_zig_at_most_once room hollow p t s inp pos next next' freed :
  accepted p -> declares p t s ->
  zig_from_bytes_memory room hollow p t inp pos next = ZErr next' freed -> none_twice next next' freed.
Proof. exact (fun A => zm_failed room hollow p (accepted_WF p A) t s inp pos next next' freed). Qed.
Print Assumptions C46_zig_at_most_once.
Example C46_zig_at_most_once_met :
  zig_from_bytes_memory (fun _ => 2 ^ 28) (fun _ => false) photos "Photo"
  (firstn 11 photo_bytes ++ [x02; x00; x00; x00] ++ skipn 15 photo_bytes) 0 3 = ZErr 7 [6; 5]%nat.
Proof. exact (photo_memory_failed). Qed.

Theorem C46_zig_stream_at_most_once room hollow p max inp pos next next' freed :
  accepted p ->
  zig_process_memory room hollow p max inp pos next = ZErr next' freed -> none_twice next next' freed.
Proof. exact (fun A => zm_stream_failed room hollow p (accepted_WF p A) max inp pos next next' freed). Qed.
Print Assumptions C46_zig_stream_at_most_once.

Theorem C46_zig_packed_at_most_once room hollow p data next next' freed :
  accepted p ->
  zig_unpack_memory room hollow p data next = ZErr next' freed -> none_twice next next' freed.
Proof. exact (fun A => zm_packed_failed room hollow p (accepted_WF p A) data next next' freed). Qed.
Print Assumptions C46_zig_packed_at_most_once.

(** It releases everything when only last members can need memory of their own.  (Missing:
    other protocols, for which it is false.) *)
Theorem C46_zig_failed_partial room hollow p t s inp pos next next' freed :
  accepted p -> tidy p -> declares p t s ->
  zig_from_bytes_memory room hollow p t inp pos next = ZErr next' freed -> each_once next next' freed.
Proof. exact (fun A T => zm_failed_tidy room hollow p (accepted_WF p A) t s inp pos next next' freed T). Qed.
Print Assumptions C46_zig_failed_partial.
Example C46_zig_failed_partial_met :
  tidy (shorts "byte") /\
  zig_from_bytes_memory (fun _ => 2 ^ 28) (fun _ => false) (shorts "byte") "Numbers" [x02; x01; x00] 0 3 = ZErr 4 [3%nat].
Proof. exact (shorts_memory_failed). Qed.

(** Otherwise the members before the one that is broken are lost. *)
Theorem C46_zig_read_refuted :
  exists p t inp next' freed,
  accepted p /\ zig_names p /\ unsigned_sizes p /\ flat p /\ is_message_name p t /\
  (forall room hollow, zig_from_bytes_memory room hollow p t inp 0 0 = ZErr next' freed) /\ ~ each_once 0 next' freed.
Proof. exact (C46_zig_read). Qed.
Print Assumptions C46_zig_read_refuted.

(** processRawBytes loses the messages before the one that is broken. *)
Theorem C46_zig_stream_refuted :
  exists p inp next' freed,
  accepted p /\ zig_names p /\ unsigned_sizes p /\ flat p /\ tidy p /\
  (forall room hollow, zig_process_memory room hollow p (-1) inp 0 0 = ZErr next' freed) /\ ~ each_once 0 next' freed.
Proof. exact (C46_zig_stream). Qed.
Print Assumptions C46_zig_stream_refuted.

(** unpackMessages loses all of them when the count is wrong. *)
Theorem C46_zig_packed_refuted :
  exists p data next' freed,
  accepted p /\ zig_names p /\ unsigned_sizes p /\ flat p /\ tidy p /\
  (forall room hollow, zig_unpack_memory room hollow p data 0 = ZErr next' freed) /\ ~ each_once 0 next' freed.
Proof. exact (C46_zig_packed). Qed.
Print Assumptions C46_zig_packed_refuted.

(** C47.  deinit of a fresh object releases nothing, and is defined. *)
Theorem C47_zig_fresh p t s :
  accepted p -> declares p t s ->
  zig_release_message p t (zig_fresh_object p t) = Some [].
Proof. exact (fun A => zm_fresh p (accepted_WF p A) t s). Qed.
Print Assumptions C47_zig_fresh.
Example C47_zig_fresh_met :
  exists s, declares photos "Photo" s.
Proof. exact (photo_declared). Qed.
