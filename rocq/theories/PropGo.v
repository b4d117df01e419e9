(** Properties of the Go code that the generator emits (model: Go.v; what the
    statements mean: CodecSpec.v, LangSpec.v, GoSpec.v).

    [rename] tells whether members are renamed, as they are without --go-no-rename.
    The printed code is that for [go_protocol rename p]; its values are those of [p]
    with other names, and have the same encodings (C10_go_renamed).  [room t] is how
    many elements of type [t] fit into a slice.  A panic is a crash. *)
From Verif Require Import Go GoSpec CodecSpec LangSamples LangSampleFacts PropGoFacts.
Open Scope string_scope.
Open Scope Z_scope.
Open Scope list_scope.

(** ** Hypotheses can be met *)
Example sample_protocol : accepted annotated /\ (forall rename, go_names (go_protocol rename annotated)) /\
  letters annotated /\ has_room (fun _ => 2 ^ 28).
Proof. exact (conj annotated_accepted_proof (conj annotated_go (conj annotated_letters some_room))). Qed.
Example sample_message rename :
  wire (go_protocol rename annotated) "CharacterJoinedTeam" (go_val rename joined_team) joined_team_bytes /\
  lists modest (go_val rename joined_team).
Proof. exact (joined_team_go rename). Qed.
Example sample_stream rename :
  wire_stream strict (go_protocol rename annotated) (go_messages rename two_messages) two_messages_bytes /\
  all_values (lists modest) (go_messages rename two_messages) /\
  wire_packed strict (go_protocol rename annotated) (go_messages rename two_messages) two_packed_bytes.
Proof. exact (two_messages_go rename). Qed.
Example sample_tight rename : accepted moods /\ go_names (go_protocol rename moods) /\
  capitals (go_protocol rename moods) /\ tight_messages (go_protocol rename moods) /\ enumless (go_protocol rename moods).
Proof.
  exact (conj moods_accepted (conj (moods_go rename)
    (conj (moods_capitals rename) (conj (moods_tight rename) (moods_enumless rename))))).
Qed.
Example sample_stringless rename : accepted (shorts "uint16") /\ go_names (go_protocol rename (shorts "uint16")) /\
  stringless (go_protocol rename (shorts "uint16")) /\ capitals (go_protocol rename (shorts "uint16")) /\
  tiny_unsigned (p_list_size_type (go_protocol rename (shorts "uint16"))).
Proof. exact (shorts_go rename). Qed.

(** ** One message *)

(** C10.  Renaming members does not change the format. *)
Theorem C10_go_renamed rename p md t v bs :
  wire_in md p t v bs -> wire_in md (go_protocol rename p) t (go_val rename v) bs.
Proof. exact (go_same_wire rename p t v bs md). Qed.
Print Assumptions C10_go_renamed.

Theorem C10_go_renamed_back rename p md t v' bs :
  wire_in md (go_protocol rename p) t v' bs ->
  exists v, v' = go_val rename v /\ wire_in md p t v bs.
Proof. exact (go_same_wire_back rename p t v' bs md). Qed.
Print Assumptions C10_go_renamed_back.

(** Renamed members of structs start with a capital, if they start with a letter. *)
Theorem C10_go_capitals p :
  letters p -> capitals (go_protocol true p).
Proof. exact (letters_capitals p). Qed.
Print Assumptions C10_go_capitals.
Example C10_go_capitals_met :
  letters annotated.
Proof. exact (annotated_letters). Qed.

(** C10, writing.  (Missing: protocols outside of [go_names], of which some do not
    compile, see C32.) *)
Theorem C10_go_writes_partial rename p :
  accepted p -> go_names (go_protocol rename p) ->
  writer_does appends (go_protocol rename p) (go_write_bytes (go_protocol rename p)).
Proof. exact (go_use rename p _ (fun W C => go_writer_appends (go_protocol rename p) W C)). Qed.
Print Assumptions C10_go_writes_partial.

(** C10, reading, for lists of up to 2^26 elements.  (Missing: longer lists, which
    depend on the runtime; structs with members that start with no capital, for which
    it is false.) *)
Theorem C10_go_reads_partial room rename p :
  accepted p -> go_names (go_protocol rename p) ->
  capitals (go_protocol rename p) -> has_room room ->
  reads_back (go_protocol rename p) (lists modest) (go_from_bytes room (go_protocol rename p)).
Proof. exact (go_use rename p _ (fun W C => go_reads_back room (go_protocol rename p) W C)). Qed.
Print Assumptions C10_go_reads_partial.

(** With --go-no-rename reading panics at a struct of fixed size whose members are not
    exported. *)
Theorem C10_go_no_rename_refuted :
  exists p t v bs, accepted p /\ is_message_name p t /\ wire p t v bs /\
  go_names (go_protocol false p) /\ forall room, go_from_bytes room (go_protocol false p) t bs 0 = RTrap.
Proof. exact (C10_no_rename). Qed.
Print Assumptions C10_go_no_rename_refuted.

(** C32.  The code does not compile when two members get the same name. *)
Theorem C32_go_fields_refuted :
  exists p, accepted p /\ go_compiles (go_protocol false p) = true /\ go_compiles (go_protocol true p) = false.
Proof. exact (C32_go_fields). Qed.
Print Assumptions C32_go_fields_refuted.

(** Nor does it when a member gets the name of a method. *)
Theorem C32_go_method_refuted :
  exists p, accepted p /\ go_compiles (go_protocol true p) = false.
Proof. exact (C32_go_method). Qed.
Print Assumptions C32_go_method_refuted.

(** Nor does it for a message Note and a struct NoteType. *)
Theorem C32_go_tag_refuted :
  exists p, accepted p /\ forall rename, go_compiles (go_protocol rename p) = false.
Proof. exact (C32_go_tag). Qed.
Print Assumptions C32_go_tag_refuted.

(** Nor does it for enums A and AB with values BC and C. *)
Theorem C32_go_enums_refuted :
  exists p, accepted p /\ forall rename, go_compiles (go_protocol rename p) = false.
Proof. exact (C32_go_enums). Qed.
Print Assumptions C32_go_enums_refuted.

(** Nor does it when a struct Items_Len is the type of a list Items. *)
Theorem C32_go_local_refuted :
  exists p, accepted p /\ go_compiles (go_protocol true p) = false.
Proof. exact (C32_go_local). Qed.
Print Assumptions C32_go_local_refuted.

(** None of these errors occurs when the names at the top of the file are different,
    and no member has the name of a method or hides a type.  (Missing: names that the
    language itself does not allow.) *)
Theorem C32_go_names_partial rename p :
  accepted p -> go_names (go_protocol rename p) ->
  go_compiles (go_protocol rename p) = true.
Proof. exact (go_use rename p _ (fun W C => C)). Qed.
Print Assumptions C32_go_names_partial.
Example C32_go_names_partial_met :
  go_names (go_protocol true annotated).
Proof. exact (annotated_go true). Qed.

(** C07. *)
Theorem C07_go_tags_partial rename p :
  accepted p -> go_names (go_protocol rename p) ->
  tagged_writer_does appends (go_protocol rename p) (go_write_tagged (go_protocol rename p)).
Proof. exact (go_use rename p _ (fun W C => go_tagged_appends (go_protocol rename p) W C)). Qed.
Print Assumptions C07_go_tags_partial.
Example C07_go_tags_partial_met :
  forall rename, wire_tagged strict (go_protocol rename annotated)
    ("CharacterJoinedTeam", go_val rename joined_team) (x03 :: joined_team_bytes).
Proof. exact (joined_team_tagged_go). Qed.

(** C19. *)
Theorem C19_go_size_partial rename p :
  accepted p -> go_names (go_protocol rename p) ->
  exact_size (go_protocol rename p) (go_size (go_protocol rename p)).
Proof. exact (go_use rename p _ (fun W C => go_exact_size (go_protocol rename p) W C)). Qed.
Print Assumptions C19_go_size_partial.

(** C20, where a panic counts as failing, and for messages whose last member that is not
    empty has a fixed size, or is a list of such elements.  (Missing: others, for which
    it is false, see below.) *)
Theorem C20_go_truncated_partial room rename p :
  accepted p -> go_names (go_protocol rename p) ->
  tight_messages (go_protocol rename p) -> rejects_truncated_messages (go_protocol rename p) true (go_from_bytes room (go_protocol rename p)).
Proof. exact (go_use rename p _ (fun W C => go_truncated room (go_protocol rename p) W C true (go_answers_trap room (go_protocol rename p) W C))). Qed.
Print Assumptions C20_go_truncated_partial.
Example C20_go_truncated_partial_met :
  exists cut x rest, diary_bytes = cut ++ x :: rest /\ cut <> [].
Proof. exact (diary_cut). Qed.

(** Nothing panics when there are no strings and list lengths have one or two bytes
    and no sign. *)
Theorem C20_go_truncated_fails_partial room rename p :
  accepted p -> go_names (go_protocol rename p) ->
  stringless (go_protocol rename p) -> capitals (go_protocol rename p) ->
  tiny_unsigned (p_list_size_type (go_protocol rename p)) -> has_room room ->
  tight_messages (go_protocol rename p) -> rejects_truncated_messages (go_protocol rename p) false (go_from_bytes room (go_protocol rename p)).
Proof. exact (go_use rename p _ (fun W C => fun S K T M G => go_truncated room (go_protocol rename p) W C false (go_answers room (go_protocol rename p) W C S K T M) G)). Qed.
Print Assumptions C20_go_truncated_fails_partial.

(** A string whose length is cut short is read as empty. *)
Theorem C20_go_string_refuted :
  exists p t v bs cut x rest v' e, accepted p /\ go_names (go_protocol true p) /\ letters p /\ 
  is_message_name p t /\ wire (go_protocol true p) t v bs /\ bs = cut ++ x :: rest /\ v' <> v /\
  forall room, go_from_bytes room (go_protocol true p) t cut 0 = ROk v' e.
Proof. exact (C20_go_str). Qed.
Print Assumptions C20_go_string_refuted.

(** A struct with a string that is cut short is accepted as it is. *)
Theorem C20_go_nested_refuted :
  exists p t v bs cut x v' e, accepted p /\ go_names (go_protocol true p) /\ letters p /\ 
  is_message_name p t /\ wire (go_protocol true p) t v bs /\ bs = cut ++ [x] /\ v' <> v /\
  go_from_bytes (fun _ => 2 ^ 28) (go_protocol true p) t cut 0 = ROk v' e.
Proof. exact (C20_go_nested). Qed.
Print Assumptions C20_go_nested_refuted.

(** C21, when only messages have enums. *)
Theorem C21_go_enums_partial room rename p :
  accepted p -> go_names (go_protocol rename p) ->
  enumless (go_protocol rename p) -> only_declared_enums (go_protocol rename p) (go_from_bytes room (go_protocol rename p)).
Proof. exact (go_use rename p _ (fun W C => go_enums room (go_protocol rename p) W C)). Qed.
Print Assumptions C21_go_enums_partial.

(** The value of an enum in a struct of fixed size is not tested. *)
Theorem C21_go_fixed_refuted :
  exists p t inp v e, accepted p /\ go_names (go_protocol true p) /\ letters p /\ is_message_name p t /\
  ~ enums_declared (go_protocol true p) t v /\ forall room, go_from_bytes room (go_protocol true p) t inp 0 = ROk v e.
Proof. exact (C21_go_simple). Qed.
Print Assumptions C21_go_fixed_refuted.

(** In other structs it is, but then reading goes on behind it, and the enum is left at
    zero, which may be no value of it. *)
Theorem C21_go_dropped_refuted :
  exists p t inp v e, accepted p /\ go_names (go_protocol true p) /\ letters p /\ is_message_name p t /\
  ~ enums_declared (go_protocol true p) t v /\ forall room, go_from_bytes room (go_protocol true p) t inp 0 = ROk v e.
Proof. exact (C21_go_dropped). Qed.
Print Assumptions C21_go_dropped_refuted.

(** C22, under the conditions of C20 and C21. *)
Theorem C22_go_accepts_partial room rename p :
  accepted p -> go_names (go_protocol rename p) ->
  tight_messages (go_protocol rename p) -> enumless (go_protocol rename p) -> only_wire_messages (go_protocol rename p) Some (go_from_bytes room (go_protocol rename p)).
Proof. exact (go_use rename p _ (fun W C => go_only room (go_protocol rename p) W C)). Qed.
Print Assumptions C22_go_accepts_partial.

(** Nothing at all is accepted as a message with a string. *)
Theorem C22_go_empty_refuted :
  exists p t v e, accepted p /\ go_names (go_protocol true p) /\ letters p /\ is_message_name p t /\
  (forall room, go_from_bytes room (go_protocol true p) t [] 0 = ROk v e) /\
  forall md v bs rest, wire_in md (go_protocol true p) t v bs -> bs ++ rest <> [].
Proof. exact (C22_go_empty). Qed.
Print Assumptions C22_go_empty_refuted.

(** C30. *)
Theorem C30_go_fresh rename p t s :
  accepted p -> names_apart (fun n => n) (go_protocol rename p) -> declares (go_protocol rename p) t s ->
  fresh (go_protocol rename p) t (VStruct (go_default (go_protocol rename p) (depth_of (go_protocol rename p)) t)).
Proof. exact (fun A N => go_fresh _ (go_protocol_WF rename p (accepted_WF p A) N) t s). Qed.
Print Assumptions C30_go_fresh.
Example C30_go_fresh_met :
  forall rename, exists s, declares (go_protocol rename annotated) "CharacterJoinedTeam" s.
Proof. exact (joined_team_declared_go). Qed.

(** C41.  A list that is too long for its length is written as another one. *)
Theorem C41_go_overlong_refuted :
  exists p, accepted p /\ go_names (go_protocol true p) /\
  corrupts_overlong (go_protocol true p) (go_write_bytes (go_protocol true p))
    (go_from_bytes (fun _ => 2 ^ 28) (go_protocol true p)).
Proof. exact (C41_go). Qed.
Print Assumptions C41_go_overlong_refuted.

(** C40, for one message without strings, when list lengths have one or two bytes and no
    sign.  (Missing: strings and negative lengths, for which it is false, and long
    lists, which depend on the runtime.) *)
Theorem C40_go_total_partial room rename p :
  accepted p -> go_names (go_protocol rename p) ->
  stringless (go_protocol rename p) -> capitals (go_protocol rename p) ->
  tiny_unsigned (p_list_size_type (go_protocol rename p)) -> has_room room ->
  always_answers (go_protocol rename p) false (go_from_bytes room (go_protocol rename p)).
Proof. exact (go_use rename p _ (fun W C => go_answers room (go_protocol rename p) W C)). Qed.
Print Assumptions C40_go_total_partial.

(** The reader always returns a value, fails or panics. *)
Theorem C40_go_answers_partial room rename p :
  accepted p -> go_names (go_protocol rename p) ->
  always_answers (go_protocol rename p) true (go_from_bytes room (go_protocol rename p)).
Proof. exact (go_use rename p _ (fun W C => go_answers_trap room (go_protocol rename p) W C)). Qed.
Print Assumptions C40_go_answers_partial.

(** A string that is cut short panics. *)
Theorem C40_go_string_refuted :
  exists p t inp, accepted p /\ go_names (go_protocol true p) /\ letters p /\ is_message_name p t /\
  forall room, go_from_bytes room (go_protocol true p) t inp 0 = RTrap.
Proof. exact (C40_go_string). Qed.
Print Assumptions C40_go_string_refuted.

(** A negative list length panics. *)
Theorem C40_go_list_refuted :
  exists p t inp, accepted p /\ go_names (go_protocol true p) /\ letters p /\ stringless p /\ is_message_name p t /\
  forall room, go_from_bytes room (go_protocol true p) t inp 0 = RTrap.
Proof. exact (C40_go_list). Qed.
Print Assumptions C40_go_list_refuted.

(** ** Streams of messages *)

(** C24. *)
Theorem C24_go_streams_partial room rename p :
  accepted p -> go_names (go_protocol rename p) ->
  capitals (go_protocol rename p) -> has_room room ->
  reads_streams (go_protocol rename p) (lists modest) (go_process room (go_protocol rename p)).
Proof. exact (go_use rename p _ (fun W C => go_reads_streams room (go_protocol rename p) W C)). Qed.
Print Assumptions C24_go_streams_partial.

(** C25. *)
Theorem C25_go_max_partial room rename p :
  accepted p -> go_names (go_protocol rename p) ->
  capitals (go_protocol rename p) -> has_room room ->
  stops_at_max (go_protocol rename p) (lists modest) (go_process room (go_protocol rename p)).
Proof. exact (go_use rename p _ (fun W C => go_stops_at_max room (go_protocol rename p) W C)). Qed.
Print Assumptions C25_go_max_partial.

(** C26. *)
Theorem C26_go_unknown_partial room rename p :
  accepted p -> go_names (go_protocol rename p) ->
  capitals (go_protocol rename p) -> has_room room ->
  rejects_unknown (go_protocol rename p) (lists modest) (go_process room (go_protocol rename p)).
Proof. exact (go_use rename p _ (fun W C => go_rejects_unknown room (go_protocol rename p) W C)). Qed.
Print Assumptions C26_go_unknown_partial.
Example C26_go_unknown_partial_met :
  forall rename t, ~ numbered (go_protocol rename annotated) t (Z_of_byte x04).
Proof. exact (four_unknown_go). Qed.

(** C20 for streams, under the same condition. *)
Theorem C20_go_cut_stream_partial room rename p :
  accepted p -> go_names (go_protocol rename p) ->
  capitals (go_protocol rename p) -> has_room room ->
  tight_messages (go_protocol rename p) -> rejects_cut_streams (go_protocol rename p) (lists modest) true (go_process room (go_protocol rename p)).
Proof. exact (go_use rename p _ (fun W C => fun K M => go_rejects_cut room (go_protocol rename p) W C K M true (go_answers_trap room (go_protocol rename p) W C))). Qed.
Print Assumptions C20_go_cut_stream_partial.

(** C22 for streams. *)
Theorem C22_go_stream_accepts_partial room rename p :
  accepted p -> go_names (go_protocol rename p) ->
  tight_messages (go_protocol rename p) -> enumless (go_protocol rename p) -> only_streams (go_protocol rename p) Some (go_process room (go_protocol rename p)).
Proof. exact (go_use rename p _ (fun W C => go_only_streams room (go_protocol rename p) W C)). Qed.
Print Assumptions C22_go_stream_accepts_partial.

(** C40 for streams, under the same conditions. *)
Theorem C40_go_stream_total_partial room rename p :
  accepted p -> go_names (go_protocol rename p) ->
  stringless (go_protocol rename p) -> capitals (go_protocol rename p) ->
  tiny_unsigned (p_list_size_type (go_protocol rename p)) -> has_room room ->
  stream_answers false (go_process room (go_protocol rename p)).
Proof. exact (go_use rename p _ (fun W C => fun S K T M => go_stream_answers room (go_protocol rename p) W C false (go_answers room (go_protocol rename p) W C S K T M))). Qed.
Print Assumptions C40_go_stream_total_partial.

Theorem C40_go_stream_answers_partial room rename p :
  accepted p -> go_names (go_protocol rename p) ->
  stream_answers true (go_process room (go_protocol rename p)).
Proof. exact (go_use rename p _ (fun W C => go_stream_answers room (go_protocol rename p) W C true (go_answers_trap room (go_protocol rename p) W C))). Qed.
Print Assumptions C40_go_stream_answers_partial.

(** ** Packed buffers *)

(** C27, writing. *)
Theorem C27_go_packs_partial rename p :
  accepted p -> go_names (go_protocol rename p) ->
  packer_does appends (go_protocol rename p) (go_pack (go_protocol rename p)).
Proof. exact (go_use rename p _ (fun W C => go_packs (go_protocol rename p) W C)). Qed.
Print Assumptions C27_go_packs_partial.

(** C27, reading, for less than 2^31 messages. *)
Theorem C27_go_unpacks_partial room rename p :
  accepted p -> go_names (go_protocol rename p) ->
  capitals (go_protocol rename p) -> has_room room ->
  unpacks (go_protocol rename p) (lists modest) (2 ^ 31 - 1) (go_unpack room (go_protocol rename p)).
Proof. exact (go_use rename p _ (fun W C => go_unpacks room (go_protocol rename p) W C)). Qed.
Print Assumptions C27_go_unpacks_partial.

(** C28. *)
Theorem C28_go_packed_size_partial rename p :
  accepted p -> go_names (go_protocol rename p) ->
  exact_packed_size (go_protocol rename p) (go_packed_size (go_protocol rename p)).
Proof. exact (go_use rename p _ (fun W C => go_exact_packed_size (go_protocol rename p) W C)). Qed.
Print Assumptions C28_go_packed_size_partial.

(** C29.  Less than four bytes panic, four others are rejected. *)
Theorem C29_go_header_partial room rename p :
  accepted p -> go_names (go_protocol rename p) ->
  rejects_bad_header true (go_unpack room (go_protocol rename p)).
Proof. exact (go_use rename p _ (fun W C => go_bad_header room (go_protocol rename p) C)). Qed.
Print Assumptions C29_go_header_partial.
Example C29_go_header_partial_met :
  forall rest, skipn 0 (text "BSCJ") <> header ++ rest.
Proof. exact (fun rest => ltac:(discriminate)). Qed.

Theorem C29_go_header_four_partial room rename p :
  accepted p -> go_names (go_protocol rename p) ->
  forall inp pos, (pos + 4 <= List.length inp)%nat -> (forall rest, skipn pos inp <> header ++ rest) ->
    go_unpack room (go_protocol rename p) inp pos = RErr.
Proof. exact (go_use rename p _ (fun W C => go_wrong_header room (go_protocol rename p) C)). Qed.
Print Assumptions C29_go_header_four_partial.

Theorem C29_go_short_refuted :
  exists p inp, accepted p /\ go_names (go_protocol true p) /\ letters p /\
  forall room, go_unpack room (go_protocol true p) inp 0 = RTrap.
Proof. exact (C29_go_short). Qed.
Print Assumptions C29_go_short_refuted.

Theorem C29_go_count_partial room rename p :
  accepted p -> go_names (go_protocol rename p) ->
  rejects_bad_count false (go_unpack room (go_protocol rename p)).
Proof. exact (go_use rename p _ (fun W C => go_bad_count room (go_protocol rename p) C false)). Qed.
Print Assumptions C29_go_count_partial.

Theorem C29_go_missing_partial room rename p :
  accepted p -> go_names (go_protocol rename p) ->
  capitals (go_protocol rename p) -> has_room room ->
  rejects_missing_for (go_protocol rename p) (lists modest) true (go_unpack room (go_protocol rename p)).
Proof. exact (go_use rename p _ (fun W C => go_missing room (go_protocol rename p) W C true (go_answers_trap room (go_protocol rename p) W C))). Qed.
Print Assumptions C29_go_missing_partial.

(** C22 for packed buffers. *)
Theorem C22_go_packed_accepts_partial room rename p :
  accepted p -> go_names (go_protocol rename p) ->
  tight_messages (go_protocol rename p) -> enumless (go_protocol rename p) -> only_packed (go_protocol rename p) Some (go_unpack room (go_protocol rename p)).
Proof. exact (go_use rename p _ (fun W C => go_only_packed room (go_protocol rename p) W C)). Qed.
Print Assumptions C22_go_packed_accepts_partial.

(** C40 for packed buffers; a panic is possible, see C29. *)
Theorem C40_go_unpack_answers_partial room rename p :
  accepted p -> go_names (go_protocol rename p) ->
  unpack_answers true (go_unpack room (go_protocol rename p)).
Proof. exact (go_use rename p _ (fun W C => go_unpack_answers room (go_protocol rename p) W C)). Qed.
Print Assumptions C40_go_unpack_answers_partial.
