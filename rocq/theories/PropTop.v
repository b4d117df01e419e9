(** C53: the names at the top of a generated file are distinct (models: Lines.v, XText.v, Cli.v; specifications: TopSpec.v, GoTopSpec.v). *)
From Coq Require Import Permutation.
From Verif Require Import TopSpec GoSpec GoTopSpec PropTopFacts LangSampleFacts.
Open Scope string_scope.
Open Scope Z_scope.
Open Scope list_scope.

(** The text for six of the languages declares, at its top, its own names and one name for every enum, struct
    and message, in this order, and no other.  For names that are words; without the comment that --embed-protocol
    asks for. *)
Theorem C53_declared_partial lang p g :
  In lang top_writers -> readable lang p g ->
  file_declares lang p g (top_names lang p g).
Proof. exact (tops_declared lang p g). Qed.
Print Assumptions C53_declared_partial.
Example C53_declared_partial_met :
  In "csharp" top_writers /\ readable "csharp" annotated (plain_settings "csharp" None) /\
  top_names "csharp" annotated (plain_settings "csharp" None) =
  ["DataReadErrorException"; "UnknownMessageTypeException"; "Message"; "MessageType"; "CharacterClass"; "TeamRole";
   "Color"; "Spectrum"; "Vector3Message"; "NewCharacterMessage"; "CharacterJoinedTeam"].
Proof. exact (csharp_annotated). Qed.

(** These are distinct exactly if no type has a name that the language needs, and Rust's prefix is not empty. *)
Theorem C53_distinct_partial lang p g :
  In lang top_writers -> readable lang p g ->
  (tops_distinct lang p g <->
   (forall t, In t (types_in_order p) -> ~ In t (own_names lang g)) /\ (lang = "rust" -> g_namespace g <> Some "")).
Proof. exact (tops_distinct_iff lang p g). Qed.
Print Assumptions C53_distinct_partial.
Example C53_distinct_partial_met :
  In "csharp" top_writers /\ readable "csharp" annotated (plain_settings "csharp" None) /\
  top_names "csharp" annotated (plain_settings "csharp" None) =
  ["DataReadErrorException"; "UnknownMessageTypeException"; "Message"; "MessageType"; "CharacterClass"; "TeamRole";
   "Color"; "Spectrum"; "Vector3Message"; "NewCharacterMessage"; "CharacterJoinedTeam"].
Proof. exact (csharp_annotated). Qed.

(** A struct Message is accepted and declared besides the class or type Message. *)
Theorem C53_message_refuted lang :
  In lang top_writers -> exists p g, readable lang p g /\ ~ tops_distinct lang p g.
Proof. exact (message_twice lang). Qed.
Print Assumptions C53_message_refuted.
Example C53_message_refuted_met :
  In "zig" top_writers.
Proof. exact (or_intror (or_intror (or_intror (or_intror (or_intror (or_introl eq_refl)))))). Qed.

(** With an empty namespace, Rust's own names clash. *)
Theorem C53_prefix_refuted :
  exists p g, readable "rust" p g /\ ~ tops_distinct "rust" p g /\
  (forall t, In t (types_in_order p) -> ~ In t (own_names "rust" g)).
Proof. exact (no_prefix). Qed.
Print Assumptions C53_prefix_refuted.

(** A struct is declared with the reserved word for as its name. *)
Theorem C53_reserved_refuted lang :
  In lang top_writers ->
  exists p g names, readable lang p g /\ file_declares lang p g names /\ In "for" names.
Proof. exact (reserved_word lang). Qed.
Print Assumptions C53_reserved_refuted.
Example C53_reserved_refuted_met :
  In "zig" top_writers.
Proof. exact (or_intror (or_intror (or_intror (or_intror (or_intror (or_introl eq_refl)))))). Qed.

(** Names that are not words are accepted; a-b and a-c are both read as a. *)
Theorem C53_words_refuted lang :
  In lang top_writers ->
  exists p g, accepted p /\ usual lang g /\ NoDup (types_in_order p) /\
    (forall t, In t (types_in_order p) -> ~ In t (own_names lang g)) /\
    exists names, file_declares lang p g names /\ ~ NoDup names.
Proof. exact (no_words lang). Qed.
Print Assumptions C53_words_refuted.
Example C53_words_refuted_met :
  In "zig" top_writers.
Proof. exact (or_intror (or_intror (or_intror (or_intror (or_intror (or_introl eq_refl)))))). Qed.

(** The text for Go declares, outside of its functions, exactly the names that C32 speaks of: its imports and
    functions, a number for every message, every enum with its values and test, every type and its two functions. *)
Theorem C53_go_declared_partial p g :
  accepted p -> usual "go" g -> word_types p -> word_values p ->
  exists names, go_file_declares p g names /\ Permutation names (go_file_names p).
Proof. exact (go_tops_declared p g). Qed.
Print Assumptions C53_go_declared_partial.
Example C53_go_declared_partial_met :
  accepted annotated /\ usual "go" (plain_settings "go" None) /\ word_types annotated /\ word_values annotated /\
  exists names, go_file_declares annotated (plain_settings "go" None) names /\
    firstn 17 names = ["binary"; "fmt"; "io"; "readString"; "writeString"; "getDataOffset"; "GetPackedSize"; "PackMessages";
      "UnpackMessages"; "MessageType"; "Vector3MessageType"; "NewCharacterMessageType"; "CharacterJoinedTeamType"; "Message";
      "ProcessRawBytes"; "CharacterClass"; "CharacterClassFighter"].
Proof. exact (go_annotated). Qed.

(** No name is declared twice in it exactly if these are distinct. *)
Theorem C53_go_distinct_partial p g :
  accepted p -> usual "go" g -> word_types p -> word_values p ->
  (forall names, go_file_declares p g names -> NoDup names) <-> NoDup (go_file_names p).
Proof. exact (go_tops_distinct p g). Qed.
Print Assumptions C53_go_distinct_partial.
Example C53_go_distinct_partial_met :
  accepted annotated /\ usual "go" (plain_settings "go" None) /\ word_types annotated /\ word_values annotated /\
  exists names, go_file_declares annotated (plain_settings "go" None) names /\
    firstn 17 names = ["binary"; "fmt"; "io"; "readString"; "writeString"; "getDataOffset"; "GetPackedSize"; "PackMessages";
      "UnpackMessages"; "MessageType"; "Vector3MessageType"; "NewCharacterMessageType"; "CharacterJoinedTeamType"; "Message";
      "ProcessRawBytes"; "CharacterClass"; "CharacterClassFighter"].
Proof. exact (go_annotated). Qed.

(** A struct NoteType is accepted besides a message Note, and declared besides the number of the message. *)
Theorem C53_go_type_refuted :
  exists p g names, accepted p /\ usual "go" g /\ word_types p /\ word_values p /\ p_enums p = [] /\
  (forall t, In t (types_in_order p) -> ~ In t go_fixed_names) /\ go_file_declares p g names /\ ~ NoDup names.
Proof. exact (go_type_twice). Qed.
Print Assumptions C53_go_type_refuted.

(** Value BC of an enum A and value C of an enum AB have the same name. *)
Theorem C53_go_value_refuted :
  exists p g names n, accepted p /\ usual "go" g /\ word_types p /\ word_values p /\
  ~ In n (go_fixed_names ++ types_in_order p) /\ go_file_declares p g names /\ count_occ string_dec names n = 2%nat.
Proof. exact (go_value_twice). Qed.
Print Assumptions C53_go_value_refuted.
