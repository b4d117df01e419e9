(** C32: names of local variables and of the members of classes (model: Scopes.v). *)
From Verif Require Import PropScopesFacts LangSampleFacts.
Open Scope string_scope.
Open Scope list_scope.

(** In TypeScript, no variable of fromBytes or writeBytes is declared twice, exactly if no list has a
    length with the name of the result.  (Missing in this file: keywords, and names declared outside of
    the function.) *)
Theorem C32_typescript_locals_partial p ns :
  accepted p -> plain_names p -> (ts_scopes ns p = true <-> lengths_free p).
Proof. exact (C32_ts_exact p ns). Qed.
Print Assumptions C32_typescript_locals_partial.
Example C32_typescript_locals_partial_met :
  accepted photos /\ plain_names photos /\ lengths_free photos.
Proof. exact (conj photos_accepted (conj photos_plain photos_lengths)). Qed.

(** In AssemblyScript, the same. *)
Theorem C32_assemblyscript_locals_partial p :
  accepted p -> plain_names p -> (as_scopes p = true <-> lengths_free p).
Proof. exact (C32_as_exact p). Qed.
Print Assumptions C32_assemblyscript_locals_partial.
Example C32_assemblyscript_locals_partial_met :
  accepted photos /\ plain_names photos /\ lengths_free photos.
Proof. exact (conj photos_accepted (conj photos_plain photos_lengths)). Qed.

(** In Swift, moreover, no two enums x and xRead. *)
Theorem C32_swift_locals_partial p :
  accepted p -> plain_names p -> (sw_scopes p = true <-> sw_locals_free p).
Proof. exact (C32_sw_exact p). Qed.
Print Assumptions C32_swift_locals_partial.
Example C32_swift_locals_partial_met :
  accepted photos /\ plain_names photos /\ sw_locals_free photos.
Proof. exact (conj photos_accepted (conj photos_plain photos_sw)). Qed.

(** In C#, where an inner block may not declare a variable of an outer one. *)
Theorem C32_csharp_locals_partial p ns :
  accepted p -> plain_names p -> (cs_scopes ns p = true <-> cs_locals_free p).
Proof. exact (C32_cs_exact p ns). Qed.
Print Assumptions C32_csharp_locals_partial.
Example C32_csharp_locals_partial_met :
  accepted photos /\ plain_names photos /\ cs_locals_free photos.
Proof. exact (conj photos_accepted (conj photos_plain photos_cs)). Qed.

(** Such protocols exist: a list note in a message ote_Length, in three languages. *)
Theorem C32_length_refuted :
  exists p, accepted p /\ plain_names p /\ (forall ns, ts_scopes ns p = false) /\ as_scopes p = false /\ sw_scopes p = false.
Proof. exact (C32_ts_length). Qed.
Print Assumptions C32_length_refuted.

(** Two enums mood and moodRead. *)
Theorem C32_swift_read_refuted :
  exists p, accepted p /\ plain_names p /\ sw_scopes p = false.
Proof. exact (C32_sw_read). Qed.
Print Assumptions C32_swift_read_refuted.

(** In C#: an enum nDay in Day, *)
Theorem C32_csharp_result_refuted :
  exists p, accepted p /\ plain_names p /\ forall ns, cs_scopes ns p = false.
Proof. exact (C32_cs_result). Qed.
Print Assumptions C32_csharp_result_refuted.

(** an enum el and a list, *)
Theorem C32_csharp_element_refuted :
  exists p, accepted p /\ plain_names p /\ forall ns, cs_scopes ns p = false.
Proof. exact (C32_cs_element). Qed.
Print Assumptions C32_csharp_element_refuted.

(** a string string__el and a list of strings, *)
Theorem C32_csharp_string_refuted :
  exists p, accepted p /\ plain_names p /\ forall ns, cs_scopes ns p = false.
Proof. exact (C32_cs_string). Qed.
Print Assumptions C32_csharp_string_refuted.

(** a string el and a list of strings. *)
Theorem C32_csharp_buffer_refuted :
  exists p, accepted p /\ plain_names p /\ forall ns, cs_scopes ns p = false.
Proof. exact (C32_cs_buffer). Qed.
Print Assumptions C32_csharp_buffer_refuted.

(** The members of a class in C#. *)
Theorem C32_csharp_class_partial p :
  accepted p ->
  (cs_classes p = true <->
   members_avoid ["FromBytes"; "WriteBytes"] ["GetMessageType"; "GetSizeInBytes"] p /\ members_not_type p).
Proof. exact (C32_cs_classes_exact p). Qed.
Print Assumptions C32_csharp_class_partial.
Example C32_csharp_class_partial_met :
  accepted photos /\ members_avoid ["FromBytes"; "WriteBytes"] ["GetMessageType"; "GetSizeInBytes"] photos /\ members_not_type photos.
Proof. exact (conj photos_accepted photos_cs_class). Qed.

(** In TypeScript. *)
Theorem C32_typescript_class_partial p :
  accepted p ->
  (ts_classes p = true <-> members_avoid ["writeBytes"] ["getMessageType"; "getSizeInBytes"] p).
Proof. exact (C32_ts_classes_exact p). Qed.
Print Assumptions C32_typescript_class_partial.
Example C32_typescript_class_partial_met :
  accepted photos /\ members_avoid ["writeBytes"] ["getMessageType"; "getSizeInBytes"] photos.
Proof. exact (conj photos_accepted photos_ts_class). Qed.

(** A member with the name of its class, *)
Theorem C32_csharp_class_refuted :
  exists p, accepted p /\ plain_names p /\ cs_classes p = false.
Proof. exact (C32_cs_class). Qed.
Print Assumptions C32_csharp_class_refuted.

(** or of a method. *)
Theorem C32_csharp_method_refuted :
  exists p, accepted p /\ plain_names p /\ cs_classes p = false.
Proof. exact (C32_cs_method). Qed.
Print Assumptions C32_csharp_method_refuted.

Theorem C32_typescript_method_refuted :
  exists p, accepted p /\ plain_names p /\ ts_classes p = false.
Proof. exact (C32_ts_method). Qed.
Print Assumptions C32_typescript_method_refuted.
