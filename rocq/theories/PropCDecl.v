(** C53, C54 and C55 for C: the types that the text declares, their members, and their order (models: Lines.v, CText.v, Cli.v; specification: CDeclSpec.v). *)
From Verif Require Import CSpec TopSpec FieldSpec CDeclSpec PropTopFacts LangSampleFacts PropFieldFacts PropCDeclFacts.
Open Scope string_scope.
Open Scope Z_scope.
Open Scope list_scope.

(** The text for C declares the types of the boilerplate and one for every enum, struct and message, in the order
    of declaration, and in each exactly what its members need: the length and the pointer of a string or list,
    the lengths of the strings in a list, the member itself; in a message its number first. The names of the
    types and the namespace are words; no --embed-protocol; no BESCHI in the namespace. *)
Theorem C54_c_fields_partial p g parts :
  c_usual p g -> (c_declares p g parts <-> parts = c_expected_parts p g).
Proof. exact (c_parts_exactly p g parts). Qed.
Print Assumptions C54_c_fields_partial.
Example C54_c_fields_partial_met :
  c_usual (two_types "Item" "Note") (plain_settings "c" None) /\ c_expected_parts (two_types "Item" "Note") (plain_settings "c" None) =
  c_own_parts (plain_settings "c" None) ++ [CMember "uint8_t n;"; CType "beschi_Item"; CMember "beschi_MessageType _mt;";
    CMember "uint32_t items_len;"; CMember "beschi_Item* items;"; CType "beschi_Note"].
Proof. exact (two_types_c). Qed.

(** The types that the text for C declares have different names, as long as none is called like one of the
    boilerplate. *)
Theorem C53_c_types_partial p g parts :
  c_usual p g -> c_declares p g parts ->
  (NoDup (c_type_list parts) <-> forall t, In t (types_in_order p) -> ~ In t c_own_types).
Proof. exact (c_types_distinct p g parts). Qed.
Print Assumptions C53_c_types_partial.
Example C53_c_types_partial_met :
  c_usual annotated (plain_settings "c" None) /\ c_declares annotated (plain_settings "c" None) (c_expected_parts annotated (plain_settings "c" None)) /\
  forall t, In t (types_in_order annotated) -> ~ In t c_own_types.
Proof. exact (annotated_c_types). Qed.

(** A struct may be called DataAccess, like the one of the boilerplate. *)
Theorem C53_c_types_refuted :
  exists p g parts, c_usual p g /\ c_declares p g parts /\ ~ NoDup (c_type_list parts).
Proof. exact (c_types_twice). Qed.
Print Assumptions C53_c_types_refuted.

(** In the text for C, every type is declared before a member has it, if every struct stands in the protocol file
    behind the structs of its members. *)
Theorem C55_c_order_partial p g parts :
  c_usual p g -> in_order p -> c_declares p g parts -> declared_first parts.
Proof. exact (c_order_sound p g parts). Qed.
Print Assumptions C55_c_order_partial.
Example C55_c_order_partial_met :
  c_usual annotated (plain_settings "c" None) /\ in_order annotated /\ c_declares annotated (plain_settings "c" None) (c_expected_parts annotated (plain_settings "c" None)).
Proof. exact (annotated_c_order). Qed.

(** The order of the file decides, if no type has the name of another type of the text by accident. *)
Theorem C55_c_order_exact_partial p g parts :
  c_usual p g -> c_declares p g parts ->
  (forall t, In t (types_in_order p) -> ~ In t c_own_types /\ ~ In (c_prefix g +++ t) c_builtin) ->
  (declared_first parts <-> in_order p).
Proof. exact (c_order p g parts). Qed.
Print Assumptions C55_c_order_exact_partial.
Example C55_c_order_exact_partial_met :
  c_usual annotated (plain_settings "c" None) /\ in_order annotated /\
  (forall t, In t (types_in_order annotated) -> ~ In t c_own_types /\ ~ In (c_prefix (plain_settings "c" None) +++ t) c_builtin).
Proof. exact (annotated_c). Qed.

(** A struct may stand before the struct of one of its members; the text for C then uses a type that it declares
    later. *)
Theorem C55_c_order_refuted :
  exists p g parts, c_usual p g /\ c_declares p g parts /\ ~ declared_first parts.
Proof. exact (c_order_wrong_only). Qed.
Print Assumptions C55_c_order_refuted.
