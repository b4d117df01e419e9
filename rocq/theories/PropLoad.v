(** C52: the loader drops nothing (model: Protocol.v; specifications: ProtocolSpec.v, LoadSpec.v). *)
From Verif Require Import LoadSpec PropProtocolFacts PropLoadFacts.
Open Scope string_scope.

(** What the loader returns is what the file says: every struct, message, enum, member and value, in order.
    Missing: files that are not [plain]. *)
Theorem C52_says_partial fuel data p :
  plain data -> load fuel data = Ret p -> describes data p.
Proof. exact (load_sound fuel data p). Qed.
Print Assumptions C52_says_partial.
Example C52_says_partial_met :
  plain annotated_toml /\ load 100 annotated_toml = Ret annotated.
Proof. exact (conj annotated_plain annotated_loads). Qed.

(** The loader accepts exactly the files that describe a valid protocol, and returns that protocol.
    Missing: files that are not [plain]. *)
Theorem C52_exactly_partial data p :
  toml_wf (TTab data) -> plain data ->
  ((exists fuel, load fuel data = Ret p) <-> WF p /\ describes data p).
Proof. exact (load_iff data p). Qed.
Print Assumptions C52_exactly_partial.
Example C52_exactly_partial_met :
  toml_wf (TTab annotated_toml) /\ plain annotated_toml.
Proof. exact (conj annotated_toml_wf annotated_plain). Qed.

(** So a file that fits no valid protocol is never accepted.  Missing: files that are not [plain]. *)
Theorem C52_rejects_partial fuel data q :
  toml_wf (TTab data) -> plain data -> (forall p, WF p -> ~ describes data p) ->
  load fuel data <> Ret q.
Proof. exact (no_fit fuel data q). Qed.
Print Assumptions C52_rejects_partial.
Example C52_rejects_partial_met :
  plain bad_type_toml /\ (forall p, WF p -> ~ describes bad_type_toml p).
Proof. exact (conj bad_type_plain bad_type_fit). Qed.

(** Nothing but the four sections is looked at, wherever they stand in the file. *)
Theorem C52_sections fuel d1 d2 :
  (forall k, In k ["meta"; "structs"; "messages"; "enums"] -> lookup k d1 = lookup k d2) ->
  load fuel d1 = load fuel d2.
Proof. exact (load_sections fuel d1 d2). Qed.
Print Assumptions C52_sections.

(** A section that is neither absent nor an array is refused, unless it is empty. *)
Theorem C52_odd_sections fuel data p key :
  load fuel data = Ret p -> In key ["structs"; "messages"; "enums"] ->
  plain_section key data \/ lookup key data = Some (TStr "") \/ lookup key data = Some (TTab []).
Proof. exact (odd_sections fuel data p key). Qed.
Print Assumptions C52_odd_sections.

(** An enum is lost to a later one of the same name. *)
Theorem C52_enum_refuted :
  exists data l p, toml_wf (TTab data) /\ load 10 data = Ret p /\ ~ describes data p /\
    lookup "enums" data = Some (TArr l) /\
    (forall d, In d l -> plain_enum d) /\ (List.length (p_enums p) < List.length l)%nat.
Proof. exact (enum_lost). Qed.
Print Assumptions C52_enum_refuted.

(** A value is lost to a later one of the same name, if values are given as tables. *)
Theorem C52_value_refuted :
  exists data items vs p n e, toml_wf (TTab data) /\ load 10 data = Ret p /\ ~ describes data p /\
    lookup "enums" data = Some (TArr [TTab items]) /\ lookup "_values" items = Some (TArr vs) /\
    In (n, e) (p_enums p) /\ (List.length (e_values e) < List.length vs)%nat.
Proof. exact (value_lost). Qed.
Print Assumptions C52_value_refuted.

(** Written as an array of tables, [[meta]], the settings are lost. *)
Theorem C52_meta_refuted :
  exists data meta p, toml_wf (TTab data) /\ load 10 data = Ret p /\ ~ describes data p /\
    lookup "meta" data = Some (TArr [TTab meta]) /\
    lookup "list_size_type" meta = Some (TStr "byte") /\ p_list_size_type p = "uint32" /\
    lookup "namespace" meta = Some (TStr "Game") /\ p_namespace p = None.
Proof. exact (meta_lost). Qed.
Print Assumptions C52_meta_refuted.

(** A namespace that is not text is accepted. *)
Theorem C52_namespace_refuted :
  exists data p l, toml_wf (TTab data) /\ load 10 data = Ret p /\ ~ describes data p /\
    p_namespace p = Some (TArr l) /\ l <> [].
Proof. exact (namespace_odd). Qed.
Print Assumptions C52_namespace_refuted.

(** A misspelt section is lost, even from a plain file. *)
Theorem C52_unknown_refuted :
  exists data l p, toml_wf (TTab data) /\ plain data /\ load 10 data = Ret p /\
    lookup "message" data = Some (TArr l) /\ names_of l = ["Bye"] /\ ~ is_message_name p "Bye".
Proof. exact (section_lost). Qed.
Print Assumptions C52_unknown_refuted.
