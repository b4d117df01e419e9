(** Properties of the binary format itself: C08 (sizes of encodings), C09, and the
    part of C07 about message numbers. *)
From Verif Require Import Wire WireSamples PropWireFacts.
Open Scope string_scope.

(** ** Hypotheses can be met: real messages of a real protocol. *)
Example joined_team_encoding :
  accepted annotated /\ wire annotated "CharacterJoinedTeam" joined_team joined_team_bytes.
Proof. exact (conj annotated_accepted_proof joined_team_wire). Qed.
Example vector3_encoding :
  is_simple annotated "Vector3Message" = true /\ size_of annotated "Vector3Message" = 12 /\
  is_message_name annotated "Vector3Message" /\
  wire annotated "Vector3Message" vector3 vector3_bytes.
Proof. exact (conj eq_refl (conj eq_refl (conj (ex_intro _ _ (or_introl eq_refl)) vector3_wire))). Qed.

(** C08.  Every encoding of a type that the generators treat as fixed-size has
    the size they compute. *)
Theorem C08_encoded_size p t v bs :
  accepted p -> declared_type p t \/ is_message_name p t ->
  is_simple p t = true -> wire p t v bs -> Z.of_nat (List.length bs) = size_of p t.
Proof. exact (C08_size_proof p t v bs). Qed.
Print Assumptions C08_encoded_size.

(** C09.  Exactly the in-range values have an encoding ... *)
Theorem C09_encodable p t v :
  accepted p -> in_range p t v <-> exists bs, wire p t v bs.
Proof. exact (C09_encodable_proof p t v). Qed.
Print Assumptions C09_encodable.

(** ... they have one only ... *)
Theorem C09_one_encoding p t v bs bs' :
  accepted p -> wire p t v bs -> wire p t v bs' -> bs = bs'.
Proof. exact (C09_one_encoding_proof p t v bs bs'). Qed.
Print Assumptions C09_one_encoding.

(** ... and an encoding followed by anything determines the value and where it
    ends. *)
Theorem C09_unambiguous p t v v' bs bs' r r' :
  accepted p -> wire p t v bs -> wire p t v' bs' -> (bs ++ r = bs' ++ r')%list ->
  v = v' /\ bs = bs' /\ r = r'.
Proof. exact (C09_unambiguous_proof p t v v' bs bs' r r'). Qed.
Print Assumptions C09_unambiguous.

(** The same for streams of tagged messages, whether ended by the end of the
    data or by a zero byte. *)
Theorem C09_streams p ms ms' bs bs' r r' :
  accepted p -> wire_stream strict p ms bs -> wire_stream strict p ms' bs' ->
  (bs = bs' -> ms = ms') /\ (ms = ms' -> bs = bs') /\
  ((bs ++ x00 :: r = bs' ++ x00 :: r')%list -> ms = ms' /\ bs = bs' /\ r = r').
Proof. exact (C09_streams_proof p ms ms' bs bs' r r'). Qed.
Print Assumptions C09_streams.
Example C09_streams_met :
  wire_stream strict annotated [("CharacterJoinedTeam", joined_team); ("Vector3Message", vector3)]
    (x03 :: joined_team_bytes ++ x01 :: vector3_bytes)%list.
Proof. exact two_messages_wire. Qed.

(** C07.  Message numbers are between 1 and 255, and one message has one number. *)
Theorem C07_numbers p t t' i i' :
  accepted p -> numbered p t i -> numbered p t' i' ->
  1 <= i <= 255 /\ (t = t' <-> i = i').
Proof. exact (C07_tags_proof p t t' i i'). Qed.
Print Assumptions C07_numbers.
Example C07_numbers_met :
  numbered annotated "Vector3Message" 1 /\ numbered annotated "NewCharacterMessage" 2 /\
  numbered annotated "CharacterJoinedTeam" 3.
Proof. exact annotated_numbers. Qed.
