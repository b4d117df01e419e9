(** C18: one format for all languages (model: Cross.v). *)
From Verif Require Import Cross PropCrossFacts.
Open Scope string_scope.
Open Scope Z_scope.
Open Scope list_scope.

(** There is one encoding that all languages write and all languages read.  What is missing: protocols
    and values that some language cannot handle ([can_write], [can_read], [keeps]). *)
Theorem C18_exchange_partial e p t s v :
  accepted p -> declares p t s -> in_range p t v ->
  exists bs, (forall c, can_write c p -> sends c p t v bs) /\
    (forall c, can_read c e p -> keeps c e p v -> receives c e p t v bs).
Proof. exact (C18_exchange e p t s v). Qed.
Print Assumptions C18_exchange_partial.
Example C18_exchange_partial_met :
  accepted photos /\ (exists s, declares photos "Photo" s /\ in_range photos "Photo" photo) /\
  forall c, can_write c photos /\ (c <> GoCode false -> can_read c somewhere photos) /\ keeps c somewhere photos photo.
Proof. exact (conj photos_accepted (conj photo_declared_in (fun c => conj (photos_written c) (conj (photos_readable c) (photo_kept c))))). Qed.

(** In C every value that fits into memory can be sent: there is an object that stands for it. *)
Theorem C18_objects_partial e p t s v :
  accepted p -> declares p t s -> in_range p t v -> c_builds p -> c_fits (w_machine e) v ->
  exists fs, stands_for p t fs v.
Proof. exact (C18_object e p t s v). Qed.
Print Assumptions C18_objects_partial.
Example C18_objects_partial_met :
  c_builds photos /\ c_fits (w_machine somewhere) photo.
Proof. exact (conj photos_builds photo_fits). Qed.

(** Each message of a stream may be written by another language. *)
Theorem C18_streams_partial e p ms :
  accepted p -> Forall (encodable_message p) ms ->
  exists bss, Forall2 (fun m bs => forall c, can_write c p -> sends_tagged c p m bs) ms bss /\
    forall c, can_read c e p -> all_values (keeps c e p) ms -> receives_stream c e p ms (List.concat bss).
Proof. exact (C18_streams e p ms). Qed.
Print Assumptions C18_streams_partial.
Example C18_streams_partial_met :
  Forall (encodable_message photos) two_photos /\ forall c, all_values (keeps c somewhere photos) two_photos.
Proof. exact (conj two_photos_encodable two_photos_kept). Qed.

(** Packed buffers. *)
Theorem C18_packed_partial e p ms :
  accepted p -> Forall (encodable_message p) ms -> Z.of_nat (List.length ms) < 2 ^ 31 ->
  exists bs, (forall c, can_write c p -> sends_packed c p ms bs) /\
    forall c, can_read c e p -> all_values (keeps c e p) ms -> receives_packed c e p ms bs.
Proof. exact (C18_packed e p ms). Qed.
Print Assumptions C18_packed_partial.
Example C18_packed_partial_met :
  Forall (encodable_message photos) two_photos /\ Z.of_nat (List.length two_photos) < 2 ^ 31.
Proof. exact (conj two_photos_encodable eq_refl). Qed.

(** Swift and Zig write different bytes for the documentation's example, and Zig does not fail. *)
Theorem C18_bytes_refuted :
  exists p t s v bs buf w',
  accepted p /\ declares p t s /\ in_range p t v /\ sends SwiftCode p t v bs /\
  zig_names p /\ numbers_only p /\
  zig_write_bytes p t v {| w_buf := buf; w_pos := 0 |} = WDone w' /\ firstn (w_pos w') (w_buf w') <> bs.
Proof. exact (C18_bytes_differ). Qed.
Print Assumptions C18_bytes_refuted.

(** AssemblyScript reads another value from what Swift writes, and does not fail. *)
Theorem C18_values_refuted :
  exists p t s v bs v',
  accepted p /\ declares p t s /\ in_range p t v /\ sends SwiftCode p t v bs /\
  size_types_32 p /\ utf8_modest v /\ v' <> v /\
  forall lossy, as_from_bytes lossy (fun _ => 2 ^ 28) p t bs 0 = ROk v' (List.length bs).
Proof. exact (C18_values_differ). Qed.
Print Assumptions C18_values_refuted.
