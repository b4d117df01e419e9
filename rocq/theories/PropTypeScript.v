(** Properties of the TypeScript code that the generator emits (model: TypeScript.v;
    what the statements mean: CodecSpec.v).

    [pre] and [post] are the bytes of the ArrayBuffer in front of and behind the
    DataView that the caller passes; [ns] tells whether the protocol has a
    namespace.  [size_types_32]: code for 64 bit lengths is not valid TypeScript. *)
From Verif Require Import TypeScript LangSpec CodecSpec LangSamples LangSampleFacts PropTypeScriptFacts.
Open Scope string_scope.
Open Scope Z_scope.
Open Scope list_scope.

(** ** Hypotheses can be met *)
Example sample_protocol : accepted annotated /\ size_types_32 annotated.
Proof. exact (conj annotated_accepted_proof annotated_32). Qed.
Example sample_message :
  is_message_name annotated "CharacterJoinedTeam" /\
  wire annotated "CharacterJoinedTeam" joined_team joined_team_bytes /\ strings plain_text joined_team.
Proof. exact (conj (ex_intro _ _ (or_intror (or_intror (or_introl eq_refl)))) (conj joined_team_wire joined_team_plain)). Qed.
Example sample_stream :
  wire_stream strict annotated two_messages two_messages_bytes /\ all_strings plain_text two_messages /\
  wire_packed strict annotated two_messages two_packed_bytes.
Proof. exact (conj two_messages_wire (conj two_messages_plain two_packed)). Qed.

(** ** One message *)

(** C11, writing.  writeBytes puts exactly the encoding at the current offset, and
    moves the offset behind it. *)
Theorem C11_typescript_writes p :
  accepted p -> size_types_32 p ->
  writer_does fills p (ts_write_bytes p).
Proof. exact (fun A B => ts_writer_fills p (accepted_WF p A) (ts_compiles_32 p B)). Qed.
Print Assumptions C11_typescript_writes.

(** C11, reading, for DataViews that start at the start of their buffer and strings
    that do not start with a byte order mark.  (Missing: the other cases, where it is
    false, see below.) *)
Theorem C11_typescript_reads_partial ns post p :
  accepted p -> size_types_32 p ->
  reads_back p (strings plain_text) (ts_from_bytes ns [] post p).
Proof. exact (fun A B => ts_reads_back ns p (accepted_WF p A) (ts_compiles_32 p B) post). Qed.
Print Assumptions C11_typescript_reads_partial.

(** A leading byte order mark is lost in reading. *)
Theorem C11_typescript_mark_refuted :
  exists p t v bs,
  accepted p /\ size_types_32 p /\ is_message_name p t /\ wire p t v bs /\ texts v /\
  forall ns, ts_from_bytes ns [] [] p t bs 0 <> ROk v (List.length bs).
Proof. exact (C11_mark). Qed.
Print Assumptions C11_typescript_mark_refuted.

(** In a DataView that starts later in its buffer, strings are read from the wrong
    place. *)
Theorem C11_typescript_view_refuted :
  exists p t v bs pre,
  accepted p /\ size_types_32 p /\ is_message_name p t /\ wire p t v bs /\ strings plain_text v /\
  forall ns, ts_from_bytes ns pre [] p t bs 0 <> ROk v (List.length bs).
Proof. exact (C11_view). Qed.
Print Assumptions C11_typescript_view_refuted.

(** With 64 bit string lengths the generated code is not valid TypeScript. *)
Theorem C11_typescript_64_bit_refuted :
  exists p t v bs,
  accepted p /\ is_message_name p t /\ wire p t v bs /\ strings plain_text v /\
  (forall w, ts_write_bytes p t v w = WStuck) /\
  forall ns pre post inp pos, ts_from_bytes ns pre post p t inp pos = RStuck.
Proof. exact (C11_64_bit). Qed.
Print Assumptions C11_typescript_64_bit_refuted.

(** C07.  writeBytes with a tag puts the message's number in front. *)
Theorem C07_typescript_tags p :
  accepted p -> size_types_32 p ->
  tagged_writer_does fills p (ts_write_tagged p).
Proof. exact (fun A B => ts_tagged_fills p (accepted_WF p A) (ts_compiles_32 p B)). Qed.
Print Assumptions C07_typescript_tags.
Example C07_typescript_tags_met :
  wire_tagged strict annotated ("CharacterJoinedTeam", joined_team) (x03 :: joined_team_bytes).
Proof. exact (joined_team_tagged). Qed.

(** C19, for protocols in which no list inside a list has the name of the outer list,
    and whose member names have no brackets (which TypeScript does not allow in names). *)
Theorem C19_typescript_size_partial p :
  accepted p -> size_types_32 p ->
  inner_lists_renamed p -> no_brackets p ->
  exact_size p (ts_size p).
Proof. exact (fun A B => ts_exact_size p (accepted_WF p A) (ts_compiles_32 p B)). Qed.
Print Assumptions C19_typescript_size_partial.
Example C19_typescript_size_partial_met :
  accepted annotated /\ size_types_32 annotated /\ inner_lists_renamed annotated /\ no_brackets annotated.
Proof. exact (conj annotated_accepted_proof (conj annotated_32 (conj annotated_lists_renamed annotated_no_brackets))). Qed.

(** Without that it is false: the reported size is too small. *)
Theorem C19_typescript_size_refuted :
  exists p t v bs n,
  accepted p /\ size_types_32 p /\ is_message_name p t /\ wire p t v bs /\
  ts_size p t v = MRet n /\ n < Z.of_nat (List.length bs).
Proof. exact (C19_ts_refuted). Qed.
Print Assumptions C19_typescript_size_refuted.

(** C20, for DataViews on whole buffers. *)
Theorem C20_typescript_truncated_partial ns p :
  accepted p -> size_types_32 p ->
  rejects_truncated p false (ts_from_bytes ns [] [] p).
Proof. exact (fun A B => ts_truncated ns p (accepted_WF p A) (ts_compiles_32 p B)). Qed.
Print Assumptions C20_typescript_truncated_partial.
Example C20_typescript_truncated_partial_met :
  exists cut x rest, joined_team_bytes = cut ++ x :: rest /\ cut <> [].
Proof. exact (joined_team_cut). Qed.

(** With a DataView on a part of a buffer a truncated message can be accepted. *)
Theorem C20_typescript_truncated_refuted :
  exists p t v cut x post,
  accepted p /\ size_types_32 p /\ is_message_name p t /\ wire p t v (cut ++ x) /\ x <> [] /\
  forall ns, exists v' q, ts_from_bytes ns [] post p t cut 0 = ROk v' q.
Proof. exact (C20_ts_refuted). Qed.
Print Assumptions C20_typescript_truncated_refuted.

(** C21.  (That declared values are accepted is part of C11.) *)
Theorem C21_typescript_enums ns p :
  accepted p -> size_types_32 p ->
  only_declared_enums p (ts_from_bytes ns [] [] p).
Proof. exact (fun A B => ts_enums ns p (accepted_WF p A) (ts_compiles_32 p B)). Qed.
Print Assumptions C21_typescript_enums.

(** C22.  Strings are decoded from their bytes by TextDecoder ([ts_decode]). *)
Theorem C22_typescript_accepts ns p :
  accepted p -> size_types_32 p ->
  only_wire p ts_decode (ts_from_bytes ns [] [] p).
Proof. exact (fun A B => ts_only ns p (accepted_WF p A) (ts_compiles_32 p B)). Qed.
Print Assumptions C22_typescript_accepts.
Example C22_typescript_accepts_met :
  ts_decode (text "Team") = Some (text "Team").
Proof. exact (eq_refl). Qed.

(** C23, when there is no room.  (When there is room: C11_typescript_writes.) *)
Theorem C23_typescript_short_buffer p :
  accepted p -> size_types_32 p ->
  writer_does refuses_short p (ts_write_bytes p).
Proof. exact (fun A B => ts_writer_refuses p (accepted_WF p A) (ts_compiles_32 p B)). Qed.
Print Assumptions C23_typescript_short_buffer.

(** C30.  (The two names are types of TypeScript and cannot be declared there.) *)
Theorem C30_typescript_fresh p t s :
  accepted p -> ~ In "boolean" (declared_names p) -> ~ In "bigint" (declared_names p) ->
  declares p t s -> fresh p t (VStruct (ts_init p (depth_of p) t)).
Proof. exact (fun A => ts_fresh p t s (accepted_WF p A)). Qed.
Print Assumptions C30_typescript_fresh.
Example C30_typescript_fresh_met :
  ~ In "boolean" (declared_names annotated) /\ ~ In "bigint" (declared_names annotated) /\
  exists s, declares annotated "CharacterJoinedTeam" s.
Proof. exact (conj (proj1 annotated_names) (conj (proj2 annotated_names) joined_team_declared)). Qed.

(** C41.  A list that is too long for its length is written as another one. *)
Theorem C41_typescript_overlong_refuted :
  exists p, accepted p /\ size_types_32 p /\ forall ns,
  corrupts_overlong p (ts_write_bytes p) (ts_from_bytes ns [] [] p).
Proof. exact (C41_ts). Qed.
Print Assumptions C41_typescript_overlong_refuted.

(** C44.  What the reader returns is well-formed text, whatever the bytes. *)
Theorem C44_typescript_text ns pre post p :
  accepted p -> size_types_32 p ->
  returns_text p (ts_from_bytes ns pre post p).
Proof. exact (fun A B => ts_text ns p (accepted_WF p A) (ts_compiles_32 p B) pre post). Qed.
Print Assumptions C44_typescript_text.

(** C40, for one message.  No input makes the reader do anything but return a value
    or throw. *)
Theorem C40_typescript_total ns p :
  accepted p -> size_types_32 p ->
  always_answers p false (ts_from_bytes ns [] [] p).
Proof. exact (fun A B => ts_answers ns p (accepted_WF p A) (ts_compiles_32 p B) [] []). Qed.
Print Assumptions C40_typescript_total.

(** ** Streams of messages *)

(** C24, under the conditions of C11. *)
Theorem C24_typescript_streams_partial ns post p :
  accepted p -> size_types_32 p ->
  reads_streams p (strings plain_text) (ts_process ns [] post p).
Proof. exact (fun A B => ts_reads_streams ns p (accepted_WF p A) (ts_compiles_32 p B) post). Qed.
Print Assumptions C24_typescript_streams_partial.

(** C25, under the same conditions. *)
Theorem C25_typescript_max_partial ns post p :
  accepted p -> size_types_32 p ->
  stops_at_max p (strings plain_text) (ts_process ns [] post p).
Proof. exact (fun A B => ts_stops_at_max ns p (accepted_WF p A) (ts_compiles_32 p B) post). Qed.
Print Assumptions C25_typescript_max_partial.

(** C26. *)
Theorem C26_typescript_unknown ns post p :
  accepted p -> size_types_32 p ->
  rejects_unknown p (strings any_text) (ts_process ns [] post p).
Proof. exact (fun A B => ts_rejects_unknown ns p (accepted_WF p A) (ts_compiles_32 p B) post). Qed.
Print Assumptions C26_typescript_unknown.
Example C26_typescript_unknown_met :
  forall t, ~ numbered annotated t (Z_of_byte x04).
Proof. exact (four_unknown). Qed.

(** C20 for streams. *)
Theorem C20_typescript_cut_stream ns p :
  accepted p -> size_types_32 p ->
  rejects_cut_streams p (strings any_text) false (ts_process ns [] [] p).
Proof. exact (fun A B => ts_rejects_cut ns p (accepted_WF p A) (ts_compiles_32 p B)). Qed.
Print Assumptions C20_typescript_cut_stream.

(** C22 for streams. *)
Theorem C22_typescript_stream_accepts ns p :
  accepted p -> size_types_32 p ->
  only_streams p ts_decode (ts_process ns [] [] p).
Proof. exact (fun A B => ts_only_streams ns p (accepted_WF p A) (ts_compiles_32 p B)). Qed.
Print Assumptions C22_typescript_stream_accepts.

(** C40 for streams. *)
Theorem C40_typescript_stream_total ns p :
  accepted p -> size_types_32 p ->
  stream_answers false (ts_process ns [] [] p).
Proof. exact (fun A B => ts_stream_answers ns p (accepted_WF p A) (ts_compiles_32 p B)). Qed.
Print Assumptions C40_typescript_stream_total.

(** ** Packed buffers *)

(** C27, writing, into a DataView on a whole buffer. *)
Theorem C27_typescript_packs_partial p :
  accepted p -> size_types_32 p ->
  packer_does fills p (fun ms w => snd (fst (ts_pack [] [] p ms w))).
Proof. exact (fun A B => ts_packs p (accepted_WF p A) (ts_compiles_32 p B)). Qed.
Print Assumptions C27_typescript_packs_partial.

(** C27, reading, for every number of messages, under the conditions of C11. *)
Theorem C27_typescript_unpacks_partial ns post p :
  accepted p -> size_types_32 p ->
  unpacks p (strings plain_text) (2 ^ 32 - 1) (ts_unpack ns [] post p).
Proof. exact (fun A B => ts_unpacks ns p (accepted_WF p A) (ts_compiles_32 p B) post). Qed.
Print Assumptions C27_typescript_unpacks_partial.

(** In a DataView that starts later in its buffer the header is looked for in the
    wrong place. *)
Theorem C27_typescript_view_refuted :
  exists p ms bs pre,
  accepted p /\ size_types_32 p /\ wire_packed strict p ms bs /\ all_strings plain_text ms /\
  forall ns, ts_unpack ns pre [] p bs 0 = RErr.
Proof. exact (C27_ts_view). Qed.
Print Assumptions C27_typescript_view_refuted.

(** C23 for PackMessages, when there is no room. *)
Theorem C23_typescript_pack_short p :
  accepted p -> size_types_32 p ->
  packer_does refuses_short p (fun ms w => snd (fst (ts_pack [] [] p ms w))).
Proof. exact (fun A B => ts_packs_short p (accepted_WF p A) (ts_compiles_32 p B)). Qed.
Print Assumptions C23_typescript_pack_short.

(** PackMessages into such a DataView overwrites bytes in front of it. *)
Theorem C23_typescript_pack_refuted :
  exists p ms bs pre w pre' o post',
  accepted p /\ size_types_32 p /\ wire_packed strict p ms bs /\ w_pos w = 0%nat /\
  List.length (w_buf w) = List.length bs /\
  ts_pack pre [] p ms w = (pre', o, post') /\ pre' <> pre /\
  (forall w', o = WDone w' -> w_buf w' <> bs).
Proof. exact (C23_ts_pack). Qed.
Print Assumptions C23_typescript_pack_refuted.

(** C28, under the conditions of C19. *)
Theorem C28_typescript_packed_size_partial p :
  accepted p -> size_types_32 p ->
  inner_lists_renamed p -> no_brackets p ->
  exact_packed_size p (ts_packed_size p).
Proof. exact (fun A B => ts_exact_packed_size p (accepted_WF p A) (ts_compiles_32 p B)). Qed.
Print Assumptions C28_typescript_packed_size_partial.

(** C29. *)
Theorem C29_typescript_header ns p :
  size_types_32 p -> rejects_bad_header false (ts_unpack ns [] [] p).
Proof. exact (fun B => ts_bad_header ns p (ts_compiles_32 p B)). Qed.
Print Assumptions C29_typescript_header.

Theorem C29_typescript_count ns p :
  size_types_32 p -> rejects_bad_count false (ts_unpack ns [] [] p).
Proof. exact (fun B => ts_bad_count ns p (ts_compiles_32 p B)). Qed.
Print Assumptions C29_typescript_count.

Theorem C29_typescript_missing ns p :
  accepted p -> size_types_32 p ->
  rejects_missing p false (ts_unpack ns [] [] p).
Proof. exact (fun A B => ts_missing ns p (accepted_WF p A) (ts_compiles_32 p B)). Qed.
Print Assumptions C29_typescript_missing.

(** C22 for packed buffers. *)
Theorem C22_typescript_packed_accepts ns p :
  accepted p -> size_types_32 p ->
  only_packed p ts_decode (ts_unpack ns [] [] p).
Proof. exact (fun A B => ts_only_packed ns p (accepted_WF p A) (ts_compiles_32 p B)). Qed.
Print Assumptions C22_typescript_packed_accepts.

(** C40 for packed buffers. *)
Theorem C40_typescript_unpack_total ns p :
  accepted p -> size_types_32 p ->
  unpack_answers false (ts_unpack ns [] [] p).
Proof. exact (fun A B => ts_unpack_answers ns p (accepted_WF p A) (ts_compiles_32 p B)). Qed.
Print Assumptions C40_typescript_unpack_total.
