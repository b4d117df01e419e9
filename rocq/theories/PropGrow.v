(** C49, C50: later versions of a protocol, and other names for the same data (models: Wire.v, Cross.v;
    specification: GrowSpec.v). *)
From Verif Require Import GrowSpec Cross PropCrossFacts LangSampleFacts GrowFileFacts PropGrowFacts.
Open Scope string_scope.
Open Scope Z_scope.
Open Scope list_scope.

(** Every value of the old protocol is a value of the new one, with the same encodings. *)
Theorem C49_format p q t v :
  accepted p -> accepted q -> newer p q -> in_range p t v ->
  in_range q t v /\ forall bs, wire p t v bs <-> wire q t v bs.
Proof. exact (C49_format p q t v). Qed.
Print Assumptions C49_format.
Example C49_format_met :
  accepted photos /\ accepted albums /\ newer photos albums /\ exists s, declares photos "Photo" s /\ in_range photos "Photo" photo.
Proof. exact (conj photos_accepted (conj albums_accepted (conj photos_grow photo_declared_in))). Qed.

(** Also the encodings that only lenient readers take. *)
Theorem C49_loose_format md p q t v bs :
  newer p q -> wire_in md p t v bs -> wire_in md q t v bs.
Proof. exact (C49_loose md p q t v bs). Qed.
Print Assumptions C49_loose_format.
Example C49_loose_format_met :
  newer photos albums /\ wire photos "Photo" photo photo_bytes.
Proof. exact (conj photos_grow photo_wire). Qed.

(** Streams and packed buffers: the numbers of the messages stay. *)
Theorem C49_stream_format md p q ms bs :
  newer p q ->
  (wire_stream md p ms bs -> wire_stream md q ms bs) /\ (wire_packed md p ms bs -> wire_packed md q ms bs).
Proof. exact (C49_stream md p q ms bs). Qed.
Print Assumptions C49_stream_format.
Example C49_stream_format_met :
  newer photos albums /\ p_messages albums <> p_messages photos.
Proof. exact (conj photos_grow (fun E => eq_ind (List.length (p_messages albums)) (fun n => match n with 2%nat => True | _ => False end) Logic.I _ (f_equal (@List.length _) E))). Qed.

(** Code for either version, in any language, writes the same bytes and reads the value back.  What is
    missing: protocols and values that some language cannot handle ([can_write], [can_read], [keeps]). *)
Theorem C49_exchange_partial e p q t s v :
  accepted p -> accepted q -> newer p q -> declares p t s -> in_range p t v ->
  exists bs,
    (forall c, can_write c p -> sends c p t v bs) /\ (forall c, can_write c q -> sends c q t v bs) /\
    (forall c, can_read c e p -> keeps c e p v -> receives c e p t v bs) /\
    (forall c, can_read c e q -> keeps c e q v -> receives c e q t v bs).
Proof. exact (C49_exchange e p q t s v). Qed.
Print Assumptions C49_exchange_partial.
Example C49_exchange_partial_met :
  (forall c, can_write c photos /\ (c <> GoCode false -> can_read c somewhere photos) /\ keeps c somewhere photos photo) /\
  can_write SwiftCode albums /\ can_read SwiftCode somewhere albums /\
  can_write (RustCode true) albums /\ can_read (RustCode true) somewhere albums /\
  can_write TypeScriptCode albums /\ can_read TypeScriptCode somewhere albums.
Proof. exact (conj (fun c => conj (photos_written c) (conj (photos_readable c) (photo_kept c))) albums_read). Qed.

(** Streams: each message may be written by either version. *)
Theorem C49_streams_partial e p q ms :
  accepted p -> accepted q -> newer p q -> Forall (encodable_message p) ms ->
  exists bss,
    Forall2 (fun m bs => (forall c, can_write c p -> sends_tagged c p m bs) /\
                         (forall c, can_write c q -> sends_tagged c q m bs)) ms bss /\
    (forall c, can_read c e p -> all_values (keeps c e p) ms -> receives_stream c e p ms (List.concat bss)) /\
    (forall c, can_read c e q -> all_values (keeps c e q) ms -> receives_stream c e q ms (List.concat bss)).
Proof. exact (C49_streams e p q ms). Qed.
Print Assumptions C49_streams_partial.
Example C49_streams_partial_met :
  accepted photos /\ accepted albums /\ newer photos albums /\ Forall (encodable_message photos) two_photos.
Proof. exact (conj photos_accepted (conj albums_accepted (conj photos_grow two_photos_encodable))). Qed.

(** Packed buffers. *)
Theorem C49_packed_partial e p q ms :
  accepted p -> accepted q -> newer p q -> Forall (encodable_message p) ms -> Z.of_nat (List.length ms) < 2 ^ 31 ->
  exists bs,
    (forall c, can_write c p -> sends_packed c p ms bs) /\ (forall c, can_write c q -> sends_packed c q ms bs) /\
    (forall c, can_read c e p -> all_values (keeps c e p) ms -> receives_packed c e p ms bs) /\
    (forall c, can_read c e q -> all_values (keeps c e q) ms -> receives_packed c e q ms bs).
Proof. exact (C49_packed e p q ms). Qed.
Print Assumptions C49_packed_partial.
Example C49_packed_partial_met :
  accepted photos /\ accepted albums /\ newer photos albums /\ Forall (encodable_message photos) two_photos /\ Z.of_nat (List.length two_photos) < 2 ^ 31.
Proof. exact (conj photos_accepted (conj albums_accepted (conj photos_grow (conj two_photos_encodable eq_refl)))). Qed.

(** A file with more entries after the old ones, and more values after the old ones in enums, describes an
    extended protocol. *)
Theorem C49_files data data' p q :
  describes data p -> describes data' q -> extends data data' ->
  (forall t e e', In (t, e) (p_enums p) -> In (t, e') (p_enums q) -> e_encoding e' = e_encoding e) -> newer p q.
Proof. exact (extends_newer data data' p q). Qed.
Print Assumptions C49_files.
Example C49_files_met :
  describes photos_toml photos /\ describes albums_toml albums /\ extends photos_toml albums_toml /\
  forall t e e', In (t, e) (p_enums photos) -> In (t, e') (p_enums albums) -> e_encoding e' = e_encoding e.
Proof. exact (conj photos_described (conj albums_described (conj albums_extend albums_encodings))). Qed.

(** Not for a message that is put in front of the others: old data is read as another message. *)
Theorem C49_front_refuted :
  exists p q d m m' bs, accepted p /\ accepted q /\
  p_structs q = p_structs p /\ p_enums q = p_enums p /\ p_messages q = d :: p_messages p /\
  p_list_size_type q = p_list_size_type p /\ p_string_size_type q = p_string_size_type p /\
  sends_tagged SwiftCode p m bs /\ fst m <> fst m' /\
  forall e, receives_stream SwiftCode e q [m'] bs.
Proof. exact (C49_front). Qed.
Print Assumptions C49_front_refuted.

(** Nor for a value of an enum that needs a larger encoding: it changes the bytes of the others. *)
Theorem C49_encoding_refuted :
  exists p q x t v bs bs', accepted p /\ accepted q /\
  p_structs q = p_structs p /\ p_messages q = p_messages p /\
  (exists n e e', p_enums p = [(n, e)] /\ p_enums q = [(n, e')] /\ e_values e' = e_values e ++ [x]) /\
  p_list_size_type q = p_list_size_type p /\ p_string_size_type q = p_string_size_type p /\
  wire p t v bs /\ wire q t v bs' /\ bs <> bs'.
Proof. exact (C49_encoding). Qed.
Print Assumptions C49_encoding_refuted.

(** Nor for a member at the end of a message: old data is no data of the new protocol. *)
Theorem C49_member_refuted :
  exists p q t s m v bs, accepted p /\ accepted q /\
  p_structs q = p_structs p /\ p_enums q = p_enums p /\
  p_messages p = [(t, s)] /\ p_messages q = [(t, MkStruct (s_name s) (s_members s ++ [m]) (s_is_message s))] /\
  p_list_size_type q = p_list_size_type p /\ p_string_size_type q = p_string_size_type p /\
  wire p t v bs /\ forall v', ~ wire q t v' bs.
Proof. exact (C49_member). Qed.
Print Assumptions C49_member_refuted.

(** Names of types, members, values of enums and of the namespace are not part of the data. *)
Theorem C50_format ns f g h p t v :
  accepted p -> accepted (named ns f g h p) -> keeps_base_types g -> in_range p t v ->
  in_range (named ns f g h p) (g t) (named_val f v) /\ 
  forall bs, wire p t v bs <-> wire (named ns f g h p) (g t) (named_val f v) bs.
Proof. exact (C50_format ns f g h p t v). Qed.
Print Assumptions C50_format.
Example C50_format_met :
  accepted photos /\ accepted bilder /\ keeps_base_types in_german /\ bilder <> photos.
Proof. exact (conj photos_accepted (conj bilder_accepted (conj in_german_base (fun E => eq_ind (map fst (p_structs bilder)) (fun l => match l with "Punkt" :: _ => True | _ => False end) Logic.I _ (f_equal (fun q => map fst (p_structs q)) E))))). Qed.

(** Streams and packed buffers. *)
Theorem C50_stream_format ns f g h md p ms bs :
  keeps_base_types g ->
  (wire_stream md p ms bs -> wire_stream md (named ns f g h p) (map (named_message f g) ms) bs) /\
  (wire_packed md p ms bs -> wire_packed md (named ns f g h p) (map (named_message f g) ms) bs).
Proof. exact (C50_stream ns f g h md p ms bs). Qed.
Print Assumptions C50_stream_format.
Example C50_stream_format_met :
  keeps_base_types in_german.
Proof. exact (in_german_base). Qed.

(** Code with either names, in any language, writes the same bytes and reads the value back.  What is
    missing: protocols and values that some language cannot handle ([can_write], [can_read], [keeps]). *)
Theorem C50_exchange_partial e ns f g h p t s v :
  accepted p -> accepted (named ns f g h p) -> keeps_base_types g -> 
  declares p t s -> in_range p t v ->
  exists bs,
    (forall c, can_write c p -> sends c p t v bs) /\
    (forall c, can_write c (named ns f g h p) -> sends c (named ns f g h p) (g t) (named_val f v) bs) /\
    (forall c, can_read c e p -> keeps c e p v -> receives c e p t v bs) /\
    (forall c, can_read c e (named ns f g h p) -> keeps c e (named ns f g h p) (named_val f v) ->
       receives c e (named ns f g h p) (g t) (named_val f v) bs).
Proof. exact (C50_exchange e ns f g h p t s v). Qed.
Print Assumptions C50_exchange_partial.
Example C50_exchange_partial_met :
  can_write SwiftCode bilder /\ can_read SwiftCode somewhere bilder /\ keeps SwiftCode somewhere bilder (named_val in_german photo) /\
  can_write (RustCode true) bilder /\ can_read (RustCode true) somewhere bilder.
Proof. exact (bilder_read). Qed.

(** Streams: each message may be written with either names. *)
Theorem C50_streams_partial e ns f g h p ms :
  accepted p -> accepted (named ns f g h p) -> keeps_base_types g -> 
  Forall (encodable_message p) ms ->
  exists bss,
    Forall2 (fun m bs => (forall c, can_write c p -> sends_tagged c p m bs) /\
                         (forall c, can_write c (named ns f g h p) ->
                            sends_tagged c (named ns f g h p) (named_message f g m) bs)) ms bss /\
    (forall c, can_read c e p -> all_values (keeps c e p) ms -> receives_stream c e p ms (List.concat bss)) /\
    (forall c, can_read c e (named ns f g h p) ->
       all_values (keeps c e (named ns f g h p)) (map (named_message f g) ms) ->
       receives_stream c e (named ns f g h p) (map (named_message f g) ms) (List.concat bss)).
Proof. exact (C50_streams e ns f g h p ms). Qed.
Print Assumptions C50_streams_partial.
Example C50_streams_partial_met :
  accepted photos /\ accepted bilder /\ keeps_base_types in_german /\ Forall (encodable_message photos) two_photos.
Proof. exact (conj photos_accepted (conj bilder_accepted (conj in_german_base two_photos_encodable))). Qed.

(** Packed buffers. *)
Theorem C50_packed_partial e ns f g h p ms :
  accepted p -> accepted (named ns f g h p) -> keeps_base_types g -> 
  Forall (encodable_message p) ms -> Z.of_nat (List.length ms) < 2 ^ 31 ->
  exists bs,
    (forall c, can_write c p -> sends_packed c p ms bs) /\
    (forall c, can_write c (named ns f g h p) -> sends_packed c (named ns f g h p) (map (named_message f g) ms) bs) /\
    (forall c, can_read c e p -> all_values (keeps c e p) ms -> receives_packed c e p ms bs) /\
    (forall c, can_read c e (named ns f g h p) ->
       all_values (keeps c e (named ns f g h p)) (map (named_message f g) ms) ->
       receives_packed c e (named ns f g h p) (map (named_message f g) ms) bs).
Proof. exact (C50_packed e ns f g h p ms). Qed.
Print Assumptions C50_packed_partial.
Example C50_packed_partial_met :
  accepted photos /\ accepted bilder /\ keeps_base_types in_german /\ Z.of_nat (List.length two_photos) < 2 ^ 31.
Proof. exact (conj photos_accepted (conj bilder_accepted (conj in_german_base eq_refl))). Qed.
