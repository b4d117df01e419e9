(** Properties of the C code that the generator emits (model: C.v; what the
    statements mean: CodecSpec.v, LangSpec.v, CSpec.v).

    [c_builds] is about names, the order of structs, and lists of strings; other
    protocols give code that does not compile.  An object [stands_for] a value when its
    length members say how much there is behind its pointers.  [M] is what malloc does,
    and how large things are; [next] is the number of the next block that malloc hands
    out.  Undefined behaviour is a crash ([CUB], [RTrap], [MCrash]). *)
From Verif Require Import C CSpec CodecSpec LangSpec LangSamples LangSampleFacts PropCFacts.
Open Scope string_scope.
Open Scope Z_scope.
Open Scope list_scope.

(** ** Hypotheses can be met *)
Example sample_protocol : accepted photos /\ c_builds photos /\ c_counts photos /\
  small_unsigned (p_string_size_type photos) /\ sane big.
Proof. exact (conj photos_accepted (conj photos_builds (conj (proj1 photos_c) (conj (proj2 photos_c) big_sane)))). Qed.
Example sample_message : wire photos "Photo" photo photo_bytes /\ c_fits big photo.
Proof. exact (conj photo_wire photo_fits). Qed.
Example sample_object : stands_for photos "Photo" photo_object photo /\ message_for photos photo_object ("Photo", photo).
Proof. exact photo_stands. Qed.
Example sample_stream : wire_stream strict photos two_photos two_photos_bytes /\
  wire_packed strict photos two_photos packed_photos_bytes /\ all_values (c_fits big) two_photos /\
  Forall2 (message_for photos) [photo_object; photo_object] two_photos.
Proof. exact (conj two_photos_wire (conj two_photos_packed (conj two_photos_fit two_photos_stand))). Qed.

(** ** One message *)

(** C12 and C23, writing.  (Missing: protocols that do not compile, see C31 and C32.) *)
Theorem C12_c_writes_partial p :
  accepted p -> c_builds p ->
  c_writer_does fills p (c_write_bytes p).
Proof. exact (c_use p _ (fun W C => c_fills p W C)). Qed.
Print Assumptions C12_c_writes_partial.

(** C23, without enough room. *)
Theorem C23_c_short_partial p :
  accepted p -> c_builds p ->
  c_writer_does refuses_short p (c_write_bytes p).
Proof. exact (c_use p _ (fun W C => c_refuses p W C)). Qed.
Print Assumptions C23_c_short_partial.

(** C12, reading, when there is memory for the value.  (Missing: empty lists where malloc does
    not return a block of no bytes, for which it is false.) *)
Theorem C12_c_reads_partial M p next :
  accepted p -> c_builds p ->
  reads_back p (c_fits M) (c_reader M p next).
Proof. exact (c_use p _ (fun W C => c_reads_back M p W C next)). Qed.
Print Assumptions C12_c_reads_partial.

(** C allows a malloc that returns NULL when asked for nothing; then empty lists cannot be read. *)
Theorem C12_c_empty_refuted :
  exists M p t v bs, sane M /\ accepted p /\ c_builds p /\ is_message_name p t /\ wire p t v bs /\
  forall next, c_reader M p next t bs 0%nat = RErr.
Proof. exact (C12_c_empty). Qed.
Print Assumptions C12_c_empty_refuted.

(** C12 and C31.  With a list of strings, and lengths of strings that have another type than
    those of lists, the code does not compile; the protocol is the documentation's example. *)
Theorem C31_c_string_list_refuted :
  exists p t v bs,
  accepted p /\ c_names p /\ in_order p /\ is_message_name p t /\ wire p t v bs /\
  forall M next, c_reader M p next t bs 0%nat = RStuck.
Proof. exact (C31_c). Qed.
Print Assumptions C31_c_string_list_refuted.

(** C32.  (Missing: keywords and names of macros.) *)
Theorem C32_c_names_partial p :
  accepted p ->
  (c_compiles p = true <-> c_builds p).
Proof. exact (fun A => c_compiles_iff p (accepted_WF p A)). Qed.
Print Assumptions C32_c_names_partial.

(** A struct that comes before the one it contains does not compile. *)
Theorem C32_c_order_refuted :
  exists p, accepted p /\ c_names p /\ c_compiles p = false.
Proof. exact (C32_c_order). Qed.
Print Assumptions C32_c_order_refuted.

(** Nor do two members items and items_len, if items is a list. *)
Theorem C32_c_field_refuted :
  exists p, accepted p /\ c_compiles p = false.
Proof. exact (C32_c_field). Qed.
Print Assumptions C32_c_field_refuted.

(** Nor does a struct DataAccess. *)
Theorem C32_c_type_refuted :
  exists p, accepted p /\ c_compiles p = false.
Proof. exact (C32_c_type). Qed.
Print Assumptions C32_c_type_refuted.

(** Nor do an enum A with a value B_C and an enum A_B with a value C. *)
Theorem C32_c_enums_refuted :
  exists p, accepted p /\ c_compiles p = false.
Proof. exact (C32_c_enums). Qed.
Print Assumptions C32_c_enums_refuted.

(** C07. *)
Theorem C07_c_tags_partial p :
  accepted p -> c_builds p ->
  c_tagged_does fills p (c_write_tagged p).
Proof. exact (c_use p _ (fun W C => c_tag_fills p W C)). Qed.
Print Assumptions C07_c_tags_partial.
Example C07_c_tags_partial_met :
  wire_tagged strict photos ("Photo", photo) (x01 :: photo_bytes).
Proof. exact (photo_tagged). Qed.

Theorem C07_c_tags_short_partial p :
  accepted p -> c_builds p ->
  c_tagged_does refuses_short p (c_write_tagged p).
Proof. exact (c_use p _ (fun W C => c_tag_refuses p W C)). Qed.
Print Assumptions C07_c_tags_short_partial.

(** C19, for less than 2^31 bytes.  (Missing: larger messages, for which it is false.) *)
Theorem C19_c_size_partial p :
  accepted p -> c_builds p ->
  c_exact_size p (c_size p).
Proof. exact (c_use p _ (fun W C => c_sized p W C)). Qed.
Print Assumptions C19_c_size_partial.

(** 2^28 numbers of eight bytes, with list lengths of type int32: the product overflows. *)
Theorem C19_c_large_refuted :
  exists p t fs v,
  accepted p /\ c_builds p /\ is_message_name p t /\ stands_for p t fs v /\
  (exists n, Z.of_nat n = 2 ^ 28 /\ v = VStruct [("items", VList (repeat (VInt 0) n))]) /\ c_size p t fs = MCrash.
Proof. exact (C19_c). Qed.
Print Assumptions C19_c_large_refuted.

(** C20, for inputs of less than 2^31 bytes, string lengths of at most four bytes without a sign,
    and list lengths of at most four bytes.  (Missing: other lengths, see C40.) *)
Theorem C20_c_truncated_partial M p next :
  accepted p -> c_builds p -> sane M -> c_counts p -> small_unsigned (p_string_size_type p) ->
  rejects_truncated p false (small_reader (c_reader M p next)).
Proof. exact (c_use_lens M p _ (fun W C L U => c_truncated M p W C L U next)). Qed.
Print Assumptions C20_c_truncated_partial.
Example C20_c_truncated_partial_met :
  exists cut x rest, photo_bytes = cut ++ x :: rest /\ cut <> [].
Proof. exact (photo_cut). Qed.

(** For any string lengths, where undefined behaviour counts as failing. *)
Theorem C20_c_truncated_trap_partial M p next :
  accepted p -> c_builds p -> sane M -> c_counts p ->
  rejects_truncated p true (c_reader M p next).
Proof. exact (c_use_lens M p _ (fun W C L => c_truncated_trap M p W C L next)). Qed.
Print Assumptions C20_c_truncated_trap_partial.

(** C21. *)
Theorem C21_c_enums_partial M p next :
  accepted p -> c_builds p -> sane M -> c_counts p ->
  only_declared_enums p (c_reader M p next).
Proof. exact (c_use_lens M p _ (fun W C L => c_enums M p W C L next)). Qed.
Print Assumptions C21_c_enums_partial.

(** C22. *)
Theorem C22_c_accepts_partial M p next :
  accepted p -> c_builds p -> sane M -> c_counts p ->
  only_wire p Some (c_reader M p next).
Proof. exact (c_use_lens M p _ (fun W C L => c_only M p W C L next)). Qed.
Print Assumptions C22_c_accepts_partial.

(** C30: the constant T_default.  (Missing: T_Create, see below.) *)
Theorem C30_c_default_partial p t s :
  accepted p -> c_builds p ->
  declares p t s -> exists v, stands_for p t (c_default p s) v /\ fresh p t v.
Proof. exact (c_use p _ (fun W C => c_default_fresh p W C t s)). Qed.
Print Assumptions C30_c_default_partial.
Example C30_c_default_partial_met :
  exists s, declares photos "Photo" s.
Proof. exact (photo_declared). Qed.

(** T_Create, for messages without strings and lists of their own. *)
Theorem C30_c_create_partial p t s :
  accepted p -> c_builds p ->
  In (t, s) (p_messages p) ->
  (forall m, In m (s_members s) -> v_list m = false /\ v_type m <> "string") ->
  exists v, message_for p (c_create p s) (t, v) /\ fresh p t v.
Proof. exact (c_use p _ (fun W C => c_create_fresh p W C t s)). Qed.
Print Assumptions C30_c_create_partial.
Example C30_c_create_partial_met :
  exists s, In ("Pose", s) (p_messages (pose "x" "y")) /\
  forall m, In m (s_members s) -> v_list m = false /\ v_type m <> "string".
Proof. exact (pose_created). Qed.

(** C30 and C38.  Otherwise the length members are not initialised. *)
Theorem C30_c_create_refuted :
  exists p t s,
  accepted p /\ c_builds p /\ In (t, s) (p_messages p) /\
  (forall v, ~ stands_for p t (c_create p s) v) /\ c_size p t (c_create p s) = MCrash.
Proof. exact (C30_c). Qed.
Print Assumptions C30_c_create_refuted.

(** C38.  What was read has the right lengths.  (Missing: list lengths of eight bytes.) *)
Theorem C38_c_lengths_partial M p next :
  accepted p -> c_builds p -> sane M -> c_counts p ->
  forall t s inp pos c, declares p t s -> c_from_bytes M p t inp pos next = COk c ->
  exists v, exactly p t (c_fs c) v.
Proof. exact (c_use_lens M p _ (fun W C L => c_lengths M p W C L next)). Qed.
Print Assumptions C38_c_lengths_partial.
Example C38_c_lengths_partial_met :
  exists c, c_from_bytes big photos "Photo" photo_bytes 0 3 = COk c.
Proof. exact (photo_read). Qed.

(** And is written as it was. *)
Theorem C38_c_back_partial M p next :
  accepted p -> c_builds p ->
  forall t s v bs before after, declares p t s -> wire p t v bs -> c_fits M v ->
  exists c, c_from_bytes M p t (before ++ bs ++ after) (List.length before) next = COk c /\
    exactly p t (c_fs c) v /\ fills (c_write_bytes p t (c_fs c)) bs.
Proof. exact (c_use p _ (fun W C => c_written_back M p W C next)). Qed.
Print Assumptions C38_c_back_partial.

(** C39, T_Cleanup. *)
Theorem C39_c_cleanup_partial M p next :
  accepted p -> c_builds p -> sane M -> c_counts p ->
  forall t s inp pos c, declares p t s -> c_from_bytes M p t inp pos next = COk c ->
  exists ids, c_cleanup p s (c_fs c) = Some ids /\ each_once next (c_next c) ids.
Proof. exact (c_use_lens M p _ (fun W C L => c_released M p W C L next)). Qed.
Print Assumptions C39_c_cleanup_partial.
Example C39_c_cleanup_partial_met :
  exists c, c_from_bytes big photos "Photo" photo_bytes 0 3 = COk c.
Proof. exact (photo_read). Qed.

(** C42.  To clean up what T_Create made is undefined: it releases a literal. *)
Theorem C42_c_destroy_refuted :
  exists p t s,
  accepted p /\ c_builds p /\ In (t, s) (p_messages p) /\ c_cleanup p s (c_create p s) = None.
Proof. exact (C42_c). Qed.
Print Assumptions C42_c_destroy_refuted.

(** C40, as C20. *)
Theorem C40_c_total_partial M p next :
  accepted p -> c_builds p -> sane M -> c_counts p -> small_unsigned (p_string_size_type p) ->
  always_answers p false (small_reader (c_reader M p next)).
Proof. exact (c_use_lens M p _ (fun W C L U => c_answers M p W C L U next)). Qed.
Print Assumptions C40_c_total_partial.

(** The reader always returns a value, fails or has undefined behaviour. *)
Theorem C40_c_answers_partial M p next :
  accepted p -> c_builds p -> sane M -> c_counts p ->
  always_answers p true (c_reader M p next).
Proof. exact (c_use_lens M p _ (fun W C L => c_answers_trap M p W C L next)). Qed.
Print Assumptions C40_c_answers_partial.

(** List lengths of eight bytes: the size of the block overflows. *)
Theorem C40_c_list_refuted :
  exists M p t inp, sane M /\ accepted p /\ c_builds p /\ is_message_name p t /\
  forall next, c_from_bytes M p t inp 0 next = CUB.
Proof. exact (C40_c_list). Qed.
Print Assumptions C40_c_list_refuted.

(** A string of length -1 is undefined behaviour. *)
Theorem C40_c_string_refuted :
  exists M p t inp, sane M /\ accepted p /\ c_builds p /\ c_counts p /\ is_message_name p t /\
  forall next, c_from_bytes M p t inp 0 next = CUB.
Proof. exact (C40_c_string). Qed.
Print Assumptions C40_c_string_refuted.

(** ** Streams of messages *)

(** C24. *)
Theorem C24_c_streams_partial M p next :
  accepted p -> c_builds p ->
  reads_streams p (c_fits M) (c_processor M p next).
Proof. exact (c_use p _ (fun W C => c_reads_streams M p W C next)). Qed.
Print Assumptions C24_c_streams_partial.

(** C25. *)
Theorem C25_c_max_partial M p next :
  accepted p -> c_builds p ->
  stops_at_max p (c_fits M) (c_processor M p next).
Proof. exact (c_use p _ (fun W C => c_stops_at_max M p W C next)). Qed.
Print Assumptions C25_c_max_partial.

(** C26. *)
Theorem C26_c_unknown_partial M p next :
  accepted p -> c_builds p ->
  rejects_unknown p (c_fits M) (c_processor M p next).
Proof. exact (c_use p _ (fun W C => c_rejects_unknown M p W C next)). Qed.
Print Assumptions C26_c_unknown_partial.
Example C26_c_unknown_partial_met :
  forall t, ~ numbered photos t (Z_of_byte x02).
Proof. exact (two_unknown_photo). Qed.

(** C20 for streams. *)
Theorem C20_c_cut_stream_partial M p next :
  accepted p -> c_builds p -> sane M -> c_counts p -> small_unsigned (p_string_size_type p) ->
  rejects_cut_streams p (c_fits M) false (small_stream (c_processor M p next)).
Proof. exact (c_use_lens M p _ (fun W C L U => c_cut M p W C L U next)). Qed.
Print Assumptions C20_c_cut_stream_partial.

Theorem C20_c_cut_stream_trap_partial M p next :
  accepted p -> c_builds p -> sane M -> c_counts p ->
  rejects_cut_streams p (c_fits M) true (c_processor M p next).
Proof. exact (c_use_lens M p _ (fun W C L => c_cut_trap M p W C L next)). Qed.
Print Assumptions C20_c_cut_stream_trap_partial.

(** C22 for streams. *)
Theorem C22_c_stream_accepts_partial M p next :
  accepted p -> c_builds p -> sane M -> c_counts p ->
  only_streams p Some (c_processor M p next).
Proof. exact (c_use_lens M p _ (fun W C L => c_only_streams M p W C L next)). Qed.
Print Assumptions C22_c_stream_accepts_partial.

(** C39, DestroyMessageList. *)
Theorem C39_c_stream_partial M p next :
  accepted p -> c_builds p -> sane M -> c_counts p ->
  forall max inp pos s, c_process M p max inp pos next = COk s ->
  exists ids, c_destroy_list p next (cs_msgs s) = Some ids /\ each_once next (cs_next s) ids.
Proof. exact (c_use_lens M p _ (fun W C L max inp pos s => c_stream_released M p W C L max inp pos next s)). Qed.
Print Assumptions C39_c_stream_partial.
Example C39_c_stream_partial_met :
  exists s, c_process big photos (-1) two_photos_bytes 0 3 = COk s.
Proof. exact (two_photos_read). Qed.

(** C43.  After a failure it is undefined. *)
Theorem C43_c_failed_refuted :
  exists M p max inp s, accepted p /\ c_builds p /\ sane M /\
  c_process M p max inp 0 0 = CErr s /\ c_destroy_list p 0 (cs_msgs s) = None.
Proof. exact (C43_c). Qed.
Print Assumptions C43_c_failed_refuted.

(** C40 for streams. *)
Theorem C40_c_stream_total_partial M p next :
  accepted p -> c_builds p -> sane M -> c_counts p -> small_unsigned (p_string_size_type p) ->
  stream_answers false (small_stream (c_processor M p next)).
Proof. exact (c_use_lens M p _ (fun W C L U => c_stream_answers M p W C L U next)). Qed.
Print Assumptions C40_c_stream_total_partial.

Theorem C40_c_stream_answers_partial M p next :
  accepted p -> c_builds p -> sane M -> c_counts p ->
  stream_answers true (c_processor M p next).
Proof. exact (c_use_lens M p _ (fun W C L => c_stream_answers_trap M p W C L next)). Qed.
Print Assumptions C40_c_stream_answers_partial.

(** ** Packed buffers *)

(** C27, writing, from the start of a buffer.  (Missing: other positions, for which it is false.) *)
Theorem C27_c_packs_partial p :
  accepted p -> c_builds p ->
  forall fss ms bs old after, wire_packed strict p ms bs -> Forall2 (message_for p) fss ms -> List.length old = List.length bs ->
  c_pack p fss {| w_buf := old ++ after; w_pos := 0 |} = WDone {| w_buf := bs ++ after; w_pos := List.length bs |}.
Proof. exact (c_use p _ (fun W C => c_packs p W C)). Qed.
Print Assumptions C27_c_packs_partial.

(** C23: at least two bytes short.  (Missing: one byte short, and less than four bytes, for
    which it is false.) *)
Theorem C27_c_packs_short_partial p :
  accepted p -> c_builds p ->
  forall fss ms bs old, wire_packed strict p ms bs -> Forall2 (message_for p) fss ms ->
  (4 <= List.length old)%nat -> (List.length old + 1 < List.length bs)%nat ->
  exists w', c_pack p fss {| w_buf := old; w_pos := 0 |} = WFail w' /\ List.length (w_buf w') = List.length old.
Proof. exact (c_use p _ (fun W C => c_pack_short p W C)). Qed.
Print Assumptions C27_c_packs_short_partial.

(** One byte short, PackMessages does not notice. *)
Theorem C23_c_pack_refuted :
  exists p fss ms bs buf w',
  accepted p /\ c_builds p /\ Forall2 (message_for p) fss ms /\ wire_packed strict p ms bs /\
  (List.length buf < List.length bs)%nat /\ c_pack p fss {| w_buf := buf; w_pos := 0 |} = WDone w'.
Proof. exact (C23_c_pack). Qed.
Print Assumptions C23_c_pack_refuted.

(** In the middle of a buffer the header goes to the start. *)
Theorem C27_c_pack_middle_refuted :
  exists p fss ms bs buf w',
  accepted p /\ c_builds p /\ Forall2 (message_for p) fss ms /\ wire_packed strict p ms bs /\
  c_pack p fss {| w_buf := [x07] ++ buf; w_pos := 1 |} = WDone w' /\ firstn (w_pos w') (w_buf w') <> [x07] ++ bs.
Proof. exact (C27_c_pack_middle). Qed.
Print Assumptions C27_c_pack_middle_refuted.

(** C27, reading, of a buffer that starts with the header, for less than 2^31 messages. *)
Theorem C27_c_unpacks_partial M p next :
  accepted p -> c_builds p ->
  unpacks p (c_fits M) (2 ^ 31 - 1) (c_unpacker M p next).
Proof. exact (c_use p _ (fun W C => c_unpacks M p W C next)). Qed.
Print Assumptions C27_c_unpacks_partial.

(** In the middle of a buffer the header is not found. *)
Theorem C27_c_middle_refuted :
  exists p inp pos,
  accepted p /\ c_builds p /\ (exists ms bs, skipn pos inp = bs /\ wire_packed strict p ms bs) /\
  forall M next, exists s, c_unpack M p inp pos next = CErr s.
Proof. exact (C27_c_middle). Qed.
Print Assumptions C27_c_middle_refuted.

(** C28, as C19. *)
Theorem C28_c_packed_size_partial p :
  accepted p -> c_builds p ->
  c_exact_packed_size p (c_packed_size p).
Proof. exact (c_use p _ (fun W C => c_packed_sized p W C)). Qed.
Print Assumptions C28_c_packed_size_partial.

(** C29, for at least four bytes. *)
Theorem C29_c_header_partial M p next :
  accepted p -> c_builds p -> sane M -> c_counts p -> small_unsigned (p_string_size_type p) ->
  rejects_bad_header false (small_unpacker (c_unpacker M p next)).
Proof. exact (c_use_lens M p _ (fun W C L U => c_bad_header M p W C L U next)). Qed.
Print Assumptions C29_c_header_partial.
Example C29_c_header_partial_met :
  forall rest, skipn 0 (text "BSCJ") <> header ++ rest.
Proof. exact (fun rest => ltac:(discriminate)). Qed.

Theorem C29_c_header_trap_partial M p next :
  accepted p -> c_builds p -> sane M -> c_counts p ->
  rejects_bad_header true (c_unpacker M p next).
Proof. exact (c_use_lens M p _ (fun W C L => c_bad_header_trap M p W C L next)). Qed.
Print Assumptions C29_c_header_trap_partial.

(** Less are undefined behaviour. *)
Theorem C29_c_short_refuted :
  exists p inp, accepted p /\ c_builds p /\ forall M next, c_unpack M p inp 0 next = CUB.
Proof. exact (C29_c_short). Qed.
Print Assumptions C29_c_short_refuted.

Theorem C29_c_count_partial M p next :
  accepted p -> c_builds p -> sane M -> c_counts p ->
  rejects_bad_count false (c_unpacker M p next).
Proof. exact (c_use_lens M p _ (fun W C L => c_bad_count M p W C L next)). Qed.
Print Assumptions C29_c_count_partial.

Theorem C29_c_missing_partial M p next :
  accepted p -> c_builds p -> sane M -> c_counts p -> small_unsigned (p_string_size_type p) ->
  rejects_missing p false (small_unpacker (c_unpacker M p next)).
Proof. exact (c_use_lens M p _ (fun W C L U => c_missing M p W C L U next)). Qed.
Print Assumptions C29_c_missing_partial.

Theorem C29_c_missing_trap_partial M p next :
  accepted p -> c_builds p -> sane M -> c_counts p ->
  rejects_missing p true (c_unpacker M p next).
Proof. exact (c_use_lens M p _ (fun W C L => c_missing_trap M p W C L next)). Qed.
Print Assumptions C29_c_missing_trap_partial.

(** C22 for packed buffers. *)
Theorem C22_c_packed_accepts_partial M p next :
  accepted p -> c_builds p -> sane M -> c_counts p ->
  only_packed p Some (c_unpacker M p next).
Proof. exact (c_use_lens M p _ (fun W C L => c_only_packed M p W C L next)). Qed.
Print Assumptions C22_c_packed_accepts_partial.

(** C39. *)
Theorem C39_c_packed_partial M p next :
  accepted p -> c_builds p -> sane M -> c_counts p ->
  forall inp s, c_unpack M p inp 0 next = COk s ->
  exists ids, c_destroy_list p next (cs_msgs s) = Some ids /\ each_once next (cs_next s) ids.
Proof. exact (c_use_lens M p _ (fun W C L inp s => c_packed_released M p W C L inp next s)). Qed.
Print Assumptions C39_c_packed_partial.
Example C39_c_packed_partial_met :
  exists s, c_unpack big photos packed_photos_bytes 0 3 = COk s.
Proof. exact (two_photos_unpacked). Qed.

(** C40 for packed buffers of at least four bytes. *)
Theorem C40_c_unpack_total_partial M p next :
  accepted p -> c_builds p -> sane M -> c_counts p -> small_unsigned (p_string_size_type p) ->
  unpack_answers false (small_unpacker (c_unpacker M p next)).
Proof. exact (c_use_lens M p _ (fun W C L U => c_unpack_answers M p W C L U next)). Qed.
Print Assumptions C40_c_unpack_total_partial.

Theorem C40_c_unpack_answers_partial M p next :
  accepted p -> c_builds p -> sane M -> c_counts p ->
  unpack_answers true (c_unpacker M p next).
Proof. exact (c_use_lens M p _ (fun W C L => c_unpack_answers_trap M p W C L next)). Qed.
Print Assumptions C40_c_unpack_answers_partial.
