(** Properties of the Rust code that the generator emits (model: Rust.v; what the
    statements mean: CodecSpec.v, LangSpec.v).

    [rename] tells whether members are renamed, as they are by default.  The printed
    code is that for [rs_protocol rename p]; its values are those of [p] with other
    names, and have the same encodings (C13_rust_renamed). *)
From Verif Require Import Rust LangSpec TextSpec CodecSpec LangSamples LangSampleFacts PropRustFacts.
Open Scope string_scope.
Open Scope Z_scope.
Open Scope list_scope.

(** ** Hypotheses can be met *)
Example sample_protocol rename : accepted annotated /\ rust_names (rs_protocol rename annotated) /\
  small_unsigned (p_string_size_type (rs_protocol rename annotated)) /\
  unsigned_type (p_list_size_type (rs_protocol rename annotated)) /\
  ~ In (p_string_size_type (rs_protocol rename annotated)) ["uint64"; "int64"].
Proof. exact (conj annotated_accepted_proof (conj (annotated_rust rename) (annotated_rust_sizes rename))). Qed.
Example sample_message rename :
  wire (rs_protocol rename annotated) "CharacterJoinedTeam" (rs_val rename joined_team) joined_team_bytes /\
  strings utf8 (rs_val rename joined_team).
Proof. exact (joined_team_rust rename). Qed.
Example sample_stream rename :
  wire_stream strict (rs_protocol rename annotated) (rs_messages rename two_messages) two_messages_bytes /\
  all_strings utf8 (rs_messages rename two_messages) /\
  wire_packed strict (rs_protocol rename annotated) (rs_messages rename two_messages) two_packed_bytes.
Proof. exact (two_messages_rust rename). Qed.

(** ** One message *)

(** C13.  Renaming members does not change the format. *)
Theorem C13_rust_renamed rename p md t v bs :
  wire_in md p t v bs -> wire_in md (rs_protocol rename p) t (rs_val rename v) bs.
Proof. exact (rs_same_wire rename p t v bs md). Qed.
Print Assumptions C13_rust_renamed.

Theorem C13_rust_renamed_back rename p md t v' bs :
  wire_in md (rs_protocol rename p) t v' bs ->
  exists v, v' = rs_val rename v /\ wire_in md p t v bs.
Proof. exact (rs_same_wire_back rename p t v' bs md). Qed.
Print Assumptions C13_rust_renamed_back.

(** Names without capitals are kept. *)
Theorem C13_rust_kept p :
  (forall t s m, declares p t s -> In m (s_members s) ->
    forall c, In c (str_chars (v_name m)) -> ~ capital c) ->
  rs_protocol true p = p.
Proof. exact (rs_no_rename p). Qed.
Print Assumptions C13_rust_kept.

(** C13, writing.  write_bytes appends exactly the encoding.  (Missing: protocols
    outside of [rust_names], where it is false, see below.) *)
Theorem C13_rust_writes_partial rename p :
  accepted p -> rust_names (rs_protocol rename p) ->
  writer_does appends (rs_protocol rename p) (rs_write_bytes (rs_protocol rename p)).
Proof. exact (rs_use rename p _ (fun W L C => rs_writer_appends (rs_protocol rename p) W C)). Qed.
Print Assumptions C13_rust_writes_partial.

(** C13, reading. *)
Theorem C13_rust_reads_partial rename p :
  accepted p -> rust_names (rs_protocol rename p) ->
  reads_back (rs_protocol rename p) (strings utf8) (rs_from_bytes (rs_protocol rename p)).
Proof. exact (rs_use rename p _ (fun W L C => rs_reads_back (rs_protocol rename p) W L C)). Qed.
Print Assumptions C13_rust_reads_partial.

(** The code for a list of bytes does not compile. *)
Theorem C13_rust_byte_lists_refuted :
  exists p t v bs, accepted p /\ is_message_name p t /\ wire p t v bs /\
  forall rename w, rs_write_bytes (rs_protocol rename p) t v w = WStuck.
Proof. exact (C13_byte_list). Qed.
Print Assumptions C13_rust_byte_lists_refuted.

(** A member called items_len is replaced by the length of a list called items. *)
Theorem C13_rust_overwritten_refuted :
  exists p t v bs, accepted p /\ is_message_name p t /\ wire p t v bs /\ texts v /\
  rs_protocol true p = p /\
  exists v', rs_from_bytes p t bs 0 = ROk v' (List.length bs) /\ v' <> v.
Proof. exact (C13_overwritten). Qed.
Print Assumptions C13_rust_overwritten_refuted.

(** C32.  If such a member has another type than the length, the code does not
    compile. *)
Theorem C32_rust_length_refuted :
  exists p, accepted p /\ forall rename, rs_compiles (rs_protocol rename p) = false.
Proof. exact (C32_rs_len). Qed.
Print Assumptions C32_rust_length_refuted.

(** Nor does it with a member called reader that is followed by others. *)
Theorem C32_rust_reader_refuted :
  exists p, accepted p /\ forall rename, rs_compiles (rs_protocol rename p) = false.
Proof. exact (C32_rs_reader). Qed.
Print Assumptions C32_rust_reader_refuted.

(** Nor does it when two names become the same. *)
Theorem C32_rust_renamed_refuted :
  exists p, accepted p /\ rs_compiles (rs_protocol false p) = true /\ rs_compiles (rs_protocol true p) = false.
Proof. exact (C32_rs_renamed). Qed.
Print Assumptions C32_rust_renamed_refuted.

(** In all other cases none of these errors occurs. *)
Theorem C32_rust_names p :
  rust_names p -> rs_compiles p = true.
Proof. exact (rs_compiles_ok p). Qed.
Print Assumptions C32_rust_names.
Example C32_rust_names_met :
  rust_names (rs_protocol true annotated).
Proof. exact (annotated_rust true). Qed.

(** C07.  write_bytes with a tag puts the message's number in front. *)
Theorem C07_rust_tags_partial rename p :
  accepted p -> rust_names (rs_protocol rename p) ->
  tagged_writer_does appends (rs_protocol rename p) (rs_write_tagged (rs_protocol rename p)).
Proof. exact (rs_use rename p _ (fun W L C => rs_tagged_appends (rs_protocol rename p) W C)). Qed.
Print Assumptions C07_rust_tags_partial.
Example C07_rust_tags_partial_met :
  forall rename, wire_tagged strict (rs_protocol rename annotated)
    ("CharacterJoinedTeam", rs_val rename joined_team) (x03 :: joined_team_bytes).
Proof. exact (joined_team_tagged_rust). Qed.

(** C19. *)
Theorem C19_rust_size_partial rename p :
  accepted p -> rust_names (rs_protocol rename p) ->
  exact_size (rs_protocol rename p) (rs_size (rs_protocol rename p)).
Proof. exact (rs_use rename p _ (fun W L C => rs_exact_size (rs_protocol rename p) W C)). Qed.
Print Assumptions C19_rust_size_partial.

(** C20, unless string lengths have 64 bits. *)
Theorem C20_rust_truncated_partial rename p :
  accepted p -> rust_names (rs_protocol rename p) ->
  ~ In (p_string_size_type (rs_protocol rename p)) ["uint64"; "int64"] ->
  rejects_truncated (rs_protocol rename p) false (rs_from_bytes (rs_protocol rename p)).
Proof. exact (rs_use rename p _ (fun W L C => rs_truncated (rs_protocol rename p) W L C)). Qed.
Print Assumptions C20_rust_truncated_partial.
Example C20_rust_truncated_partial_met :
  exists cut x rest, joined_team_bytes = cut ++ x :: rest /\ cut <> [].
Proof. exact (joined_team_cut). Qed.

(** C21.  (That declared values are accepted is part of C13.) *)
Theorem C21_rust_enums_partial rename p :
  accepted p -> rust_names (rs_protocol rename p) ->
  only_declared_enums (rs_protocol rename p) (rs_from_bytes (rs_protocol rename p)).
Proof. exact (rs_use rename p _ (fun W L C => rs_enums (rs_protocol rename p) W L C)). Qed.
Print Assumptions C21_rust_enums_partial.

(** C22, unless list lengths are signed. *)
Theorem C22_rust_accepts_partial rename p :
  accepted p -> rust_names (rs_protocol rename p) ->
  unsigned_type (p_list_size_type (rs_protocol rename p)) ->
  only_wire (rs_protocol rename p) rs_decode (rs_from_bytes (rs_protocol rename p)).
Proof. exact (rs_use rename p _ (fun W L C => rs_only (rs_protocol rename p) W L C)). Qed.
Print Assumptions C22_rust_accepts_partial.
Example C22_rust_accepts_partial_met :
  rs_decode (text "Team") = Some (text "Team").
Proof. exact (eq_refl). Qed.

(** A negative list length is taken for an empty list. *)
Theorem C22_rust_negative_refuted :
  exists p t inp, accepted p /\ is_message_name p t /\ rust_names p /\ rs_protocol true p = p /\
  (exists v q, rs_from_bytes p t inp 0 = ROk v q) /\
  forall md v bs rest, wire_in md p t v bs -> bs ++ rest <> inp.
Proof. exact (C22_rs_negative). Qed.
Print Assumptions C22_rust_negative_refuted.

(** C30. *)
Theorem C30_rust_fresh rename p t s :
  accepted p -> names_apart (fun n => n) (rs_protocol rename p) -> declares (rs_protocol rename p) t s ->
  fresh (rs_protocol rename p) t (VStruct (rs_default (rs_protocol rename p) (depth_of (rs_protocol rename p)) t)).
Proof. exact (fun A N => rs_fresh _ t s (rs_protocol_WF rename p (accepted_WF p A) N)). Qed.
Print Assumptions C30_rust_fresh.
Example C30_rust_fresh_met :
  forall rename, exists s, declares (rs_protocol rename annotated) "CharacterJoinedTeam" s.
Proof. exact (joined_team_declared_rust). Qed.

(** C41.  A list that is too long for its length is written as another one. *)
Theorem C41_rust_overlong_refuted :
  exists p, accepted p /\ rust_names p /\ rs_protocol true p = p /\
  corrupts_overlong p (rs_write_bytes p) (rs_from_bytes p).
Proof. exact (C41_rs). Qed.
Print Assumptions C41_rust_overlong_refuted.

(** C44.  What the reader returns is well-formed text, whatever the bytes.  (Missing:
    protocols outside of [rust_names].) *)
Theorem C44_rust_text_partial rename p :
  accepted p -> rust_names (rs_protocol rename p) ->
  returns_text (rs_protocol rename p) (rs_from_bytes (rs_protocol rename p)).
Proof. exact (rs_use rename p _ (fun W L C => rs_text (rs_protocol rename p) W L C)). Qed.
Print Assumptions C44_rust_text_partial.

(** C40, for string lengths without sign and of up to 32 bits.  (Missing: others,
    where it is false.) *)
Theorem C40_rust_total_partial rename p :
  accepted p -> rust_names (rs_protocol rename p) ->
  small_unsigned (p_string_size_type (rs_protocol rename p)) ->
  always_answers (rs_protocol rename p) false (rs_from_bytes (rs_protocol rename p)).
Proof. exact (rs_use rename p _ (fun W L C => rs_answers (rs_protocol rename p) W L C)). Qed.
Print Assumptions C40_rust_total_partial.

(** A negative string length crashes the reader. *)
Theorem C40_rust_signed_refuted :
  exists p t inp, accepted p /\ is_message_name p t /\ rust_names p /\ rs_protocol true p = p /\
  rs_from_bytes p t inp 0 = RTrap.
Proof. exact (C40_rs_signed). Qed.
Print Assumptions C40_rust_signed_refuted.

(** So does a 64 bit string length that is large enough. *)
Theorem C40_rust_long_refuted :
  exists p t inp, accepted p /\ unsigned_type (p_string_size_type p) /\ is_message_name p t /\
  rust_names p /\ rs_protocol true p = p /\ rs_from_bytes p t inp 0 = RTrap.
Proof. exact (C40_rs_long). Qed.
Print Assumptions C40_rust_long_refuted.

(** ** Streams of messages *)

(** C24. *)
Theorem C24_rust_streams_partial rename p :
  accepted p -> rust_names (rs_protocol rename p) ->
  reads_streams (rs_protocol rename p) (strings utf8) (rs_process (rs_protocol rename p)).
Proof. exact (rs_use rename p _ (fun W L C => rs_reads_streams (rs_protocol rename p) W L C)). Qed.
Print Assumptions C24_rust_streams_partial.

(** C25. *)
Theorem C25_rust_max_partial rename p :
  accepted p -> rust_names (rs_protocol rename p) ->
  stops_at_max (rs_protocol rename p) (strings utf8) (rs_process (rs_protocol rename p)).
Proof. exact (rs_use rename p _ (fun W L C => rs_stops_at_max (rs_protocol rename p) W L C)). Qed.
Print Assumptions C25_rust_max_partial.

(** C26. *)
Theorem C26_rust_unknown_partial rename p :
  accepted p -> rust_names (rs_protocol rename p) ->
  rejects_unknown (rs_protocol rename p) (strings utf8) (rs_process (rs_protocol rename p)).
Proof. exact (rs_use rename p _ (fun W L C => rs_rejects_unknown (rs_protocol rename p) W L C)). Qed.
Print Assumptions C26_rust_unknown_partial.
Example C26_rust_unknown_partial_met :
  forall rename t, ~ numbered (rs_protocol rename annotated) t (Z_of_byte x04).
Proof. exact (four_unknown_rust). Qed.

(** C20 for streams, under the same condition. *)
Theorem C20_rust_cut_stream_partial rename p :
  accepted p -> rust_names (rs_protocol rename p) ->
  ~ In (p_string_size_type (rs_protocol rename p)) ["uint64"; "int64"] ->
  rejects_cut_streams (rs_protocol rename p) (strings utf8) false (rs_process (rs_protocol rename p)).
Proof. exact (rs_use rename p _ (fun W L C => rs_rejects_cut (rs_protocol rename p) W L C)). Qed.
Print Assumptions C20_rust_cut_stream_partial.

(** C22 for streams. *)
Theorem C22_rust_stream_accepts_partial rename p :
  accepted p -> rust_names (rs_protocol rename p) ->
  unsigned_type (p_list_size_type (rs_protocol rename p)) ->
  only_streams (rs_protocol rename p) rs_decode (rs_process (rs_protocol rename p)).
Proof. exact (rs_use rename p _ (fun W L C => rs_only_streams (rs_protocol rename p) W L C)). Qed.
Print Assumptions C22_rust_stream_accepts_partial.

(** C40 for streams, under the same condition. *)
Theorem C40_rust_stream_total_partial rename p :
  accepted p -> rust_names (rs_protocol rename p) ->
  small_unsigned (p_string_size_type (rs_protocol rename p)) ->
  stream_answers false (rs_process (rs_protocol rename p)).
Proof. exact (rs_use rename p _ (fun W L C => rs_stream_answers (rs_protocol rename p) W L C)). Qed.
Print Assumptions C40_rust_stream_total_partial.

(** ** Packed buffers *)

(** C27, writing. *)
Theorem C27_rust_packs_partial rename p :
  accepted p -> rust_names (rs_protocol rename p) ->
  packer_does appends (rs_protocol rename p) (rs_pack (rs_protocol rename p)).
Proof. exact (rs_use rename p _ (fun W L C => rs_packs (rs_protocol rename p) W C)). Qed.
Print Assumptions C27_rust_packs_partial.

(** C27, reading, for less than 2^31 messages. *)
Theorem C27_rust_unpacks_partial rename p :
  accepted p -> rust_names (rs_protocol rename p) ->
  unpacks (rs_protocol rename p) (strings utf8) (2 ^ 31 - 1) (rs_unpack (rs_protocol rename p)).
Proof. exact (rs_use rename p _ (fun W L C => rs_unpacks (rs_protocol rename p) W L C)). Qed.
Print Assumptions C27_rust_unpacks_partial.

(** C28. *)
Theorem C28_rust_packed_size_partial rename p :
  accepted p -> rust_names (rs_protocol rename p) ->
  exact_packed_size (rs_protocol rename p) (rs_packed_size (rs_protocol rename p)).
Proof. exact (rs_use rename p _ (fun W L C => rs_exact_packed_size (rs_protocol rename p) W C)). Qed.
Print Assumptions C28_rust_packed_size_partial.

(** C29. *)
Theorem C29_rust_header_partial rename p :
  accepted p -> rust_names (rs_protocol rename p) ->
  rejects_bad_header false (rs_unpack (rs_protocol rename p)).
Proof. exact (rs_use rename p _ (fun W L C => rs_bad_header (rs_protocol rename p) C false)). Qed.
Print Assumptions C29_rust_header_partial.
Example C29_rust_header_partial_met :
  forall rest, skipn 0 (text "BSCJ") <> header ++ rest.
Proof. exact (fun rest => ltac:(discriminate)). Qed.

Theorem C29_rust_count_partial rename p :
  accepted p -> rust_names (rs_protocol rename p) ->
  rejects_bad_count false (rs_unpack (rs_protocol rename p)).
Proof. exact (rs_use rename p _ (fun W L C => rs_bad_count (rs_protocol rename p) C false)). Qed.
Print Assumptions C29_rust_count_partial.

(** (What is not UTF-8 is rejected as well, see C22.) *)
Theorem C29_rust_missing_partial rename p :
  accepted p -> rust_names (rs_protocol rename p) ->
  rejects_missing_for (rs_protocol rename p) (strings utf8) false (rs_unpack (rs_protocol rename p)).
Proof. exact (rs_use rename p _ (fun W L C => rs_missing (rs_protocol rename p) W L C)). Qed.
Print Assumptions C29_rust_missing_partial.

(** C22 for packed buffers. *)
Theorem C22_rust_packed_accepts_partial rename p :
  accepted p -> rust_names (rs_protocol rename p) ->
  unsigned_type (p_list_size_type (rs_protocol rename p)) ->
  only_packed (rs_protocol rename p) rs_decode (rs_unpack (rs_protocol rename p)).
Proof. exact (rs_use rename p _ (fun W L C => rs_only_packed (rs_protocol rename p) W L C)). Qed.
Print Assumptions C22_rust_packed_accepts_partial.

(** C40 for packed buffers, under the same condition. *)
Theorem C40_rust_unpack_total_partial rename p :
  accepted p -> rust_names (rs_protocol rename p) ->
  small_unsigned (p_string_size_type (rs_protocol rename p)) ->
  unpack_answers false (rs_unpack (rs_protocol rename p)).
Proof. exact (rs_use rename p _ (fun W L C => rs_unpack_answers (rs_protocol rename p) W L C)). Qed.
Print Assumptions C40_rust_unpack_total_partial.
