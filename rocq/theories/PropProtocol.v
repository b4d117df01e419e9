(** Properties C01 to C08 (the parts about the loader). *)
From Verif Require Import ProtocolSpec ProtocolFacts4 Samples PropProtocolFacts.
Open Scope string_scope.

(** ** A real protocol file is accepted, so the hypotheses below can be met. *)
Example annotated_accepted : accepted annotated.
Proof. exact annotated_accepted_proof. Qed.

(** C01 *)
Theorem C01_declared_types p n s m :
  accepted p -> declares p n s -> In m (s_members s) ->
  declared_type p (v_type m) /\ ~ is_message_name p (v_type m).
Proof. exact (C01_proof p n s m). Qed.
Print Assumptions C01_declared_types.

(** C02.  No struct contains itself through any chain of members. *)
Theorem C02_acyclic p : accepted p -> acyclic p.
Proof. exact (C02_proof p). Qed.
Print Assumptions C02_acyclic.

(** C03.  A document with a containment cycle is never accepted, with any number
    of steps ... *)
Theorem C03_cyclic_never_accepted fuel data p q :
  WF_local p -> describes data p -> ~ acyclic p -> load fuel data <> Ret q.
Proof. exact (C03_never_proof fuel data p q). Qed.
Print Assumptions C03_cyclic_never_accepted.

(** ... but it is not always reported: here is a document that follows every
    rule except that it has a cycle, and on which the loader never stops. *)
Theorem C03_cyclic_reported_refuted :
  exists data p, describes data p /\ WF_local p /\ ~ acyclic p /\
    forall fuel, load fuel data = OutOfSteps.
Proof. exact C03_refuted_proof. Qed.
Print Assumptions C03_cyclic_reported_refuted.

(** Part of C03 that holds: the error is raised if the first declared struct from
    which a cycle can be reached lies on every cycle it reaches. *)
Theorem C03_cyclic_reported_partial data p l1 a s l2 :
  WF_local p -> describes data p ->
  p_structs p = (l1 ++ (a, s) :: l2)%list ->
  (forall b, In b (map fst l1) -> reaches_no_cycle p b) ->
  only_own_cycles p a ->
  exists n, forall fuel, (n <= fuel)%nat -> load fuel data = Raise RecursionError.
Proof. exact (load_reports data p l1 a s l2). Qed.
Print Assumptions C03_cyclic_reported_partial.
Example C03_partial_met :
  WF_local two_cycle /\ describes two_cycle_toml two_cycle /\
  (exists l1 a s l2, p_structs two_cycle = (l1 ++ (a, s) :: l2)%list /\ l1 <> [] /\
     (forall b, In b (map fst l1) -> reaches_no_cycle two_cycle b) /\
     only_own_cycles two_cycle a) /\
  load 10 two_cycle_toml = Raise RecursionError.
Proof. exact C03_partial_met_proof. Qed.

(** C04.  Names of an accepted protocol. *)
Theorem C04_names p : accepted p ->
  (forall n, is_struct p n \/ is_message_name p n \/ is_enum p n -> name_ok n) /\
  (forall n, ~ (is_struct p n /\ is_message_name p n) /\ ~ (is_struct p n /\ is_enum p n) /\
             ~ (is_message_name p n /\ is_enum p n)) /\
  NoDup (map fst (p_structs p)) /\ NoDup (map fst (p_messages p)) /\ NoDup (map fst (p_enums p)) /\
  (forall n s, declares p n s ->
     NoDup (map v_name (s_members s)) /\ forall m, In m (s_members s) -> no_space (v_name m)) /\
  (forall n e v, In (n, e) (p_enums p) -> In v (map fst (e_values e)) -> no_space v).
Proof. exact (C04_proof p). Qed.
Print Assumptions C04_names.

(** C04 at the level of the file: no struct or message is declared twice ... *)
Theorem C04_no_duplicate_structs fuel data p l key :
  key = "structs" \/ key = "messages" ->
  load fuel data = Ret p -> lookup key data = Some (TArr l) ->
  forall i j a b n, i <> j -> nth_error l i = Some (TTab a) -> nth_error l j = Some (TTab b) ->
  lookup "_name" a = Some (TStr n) -> lookup "_name" b = Some (TStr n) -> False.
Proof. exact (C04_dup_proof fuel data p l key). Qed.
Print Assumptions C04_no_duplicate_structs.
(** ... but an enum can be: the second declaration silently replaces the first. *)
Theorem C04_unique_enums_refuted :
  exists data p l a b n, load 10 data = Ret p /\ lookup "enums" data = Some (TArr l) /\
    nth_error l 0 = Some (TTab a) /\ nth_error l 1 = Some (TTab b) /\
    lookup "_name" a = Some (TStr n) /\ lookup "_name" b = Some (TStr n) /\
    lookup "_values" a <> lookup "_values" b.
Proof. exact C04_enum_refuted_proof. Qed.
Print Assumptions C04_unique_enums_refuted.
(** docs/protocols.md also promises that data members are not named like base
    types; they can be. *)
Theorem C04_member_names_refuted :
  exists p n s m, accepted p /\ declares p n s /\ In m (s_members s) /\
    In (v_name m) (base_types ++ ["string"; "list"]).
Proof. exact C04_member_refuted_proof. Qed.
Print Assumptions C04_member_names_refuted.

(** C05.  A document that describes a protocol by the documented rules is
    accepted, and the result is exactly that protocol. *)
Theorem C05_valid_accepted data p :
  WF p -> describes data p -> exists n, forall fuel, (n <= fuel)%nat -> load fuel data = Ret p.
Proof. exact (load_complete data p). Qed.
Print Assumptions C05_valid_accepted.
(** A document describes at most one protocol. *)
Theorem C05_faithful data p q fuel :
  WF p -> describes data p -> load fuel data = Ret q -> q = p.
Proof. exact (C05_faithful_proof data p q fuel). Qed.
Print Assumptions C05_faithful.
Example C05_met : WF annotated /\ describes annotated_toml annotated /\
  load 100 annotated_toml = Ret annotated.
Proof. exact C05_met_proof. Qed.

(** C06 *)
Theorem C06_smallest_encoding p n e :
  accepted p -> In (n, e) (p_enums p) -> smallest_encoding (map snd (e_values e)) (e_encoding e).
Proof. exact (C06_proof p n e). Qed.
Print Assumptions C06_smallest_encoding.
(** Enums with a value that no int32 holds are rejected. *)
Theorem C06_too_large_rejected p n e z :
  accepted p -> In (n, e) (p_enums p) -> In z (map snd (e_values e)) ->
  -2147483648 <= z <= 2147483647.
Proof. exact (C06_large_proof p n e z). Qed.
Print Assumptions C06_too_large_rejected.
(** Names only: numbered 0, 1, 2, ... in order. *)
Theorem C06_names_numbered n names e :
  enum_init n (map TStr names) = Ret e ->
  forall i v, nth_error names i = Some v -> nth_error (e_values e) i = Some (v, Z.of_nat i).
Proof. exact (C06_numbered_proof n names e). Qed.
Print Assumptions C06_names_numbered.
Example C06_met :
  In ("TeamRole", MkEnum "TeamRole"
        [("Minion", 256); ("Ally", 512); ("Leader", 1024); ("Traitor", -1)] "int16")
     (p_enums annotated) /\
  enum_init "E" (map TStr ["a"; "b"; "c"]) = Ret (MkEnum "E" [("a", 0); ("b", 1); ("c", 2)] "byte").
Proof. exact C06_met_proof. Qed.

(** C07 (loader part).  At most 255 messages, so that positions counted from one
    fit a byte. *)
Theorem C07_message_count p : accepted p -> (List.length (p_messages p) <= 255)%nat.
Proof. exact (C07_proof p). Qed.
Print Assumptions C07_message_count.

(** C08 (generator part).  A type is classified as simple if and only if no
    string and no list occurs in it, and then the computed size is the sum of the
    sizes of its components.  The sizes of encodings are in PropWire.v. *)
Theorem C08_simple_is_fixed p t :
  accepted p -> (declared_type p t \/ is_message_name p t) ->
  (is_simple p t = true /\ fixed_size p t (size_of p t) /\ ~ variable_size p t) \/
  (is_simple p t = false /\ variable_size p t /\ forall n, ~ fixed_size p t n).
Proof. exact (C08_proof p t). Qed.
Print Assumptions C08_simple_is_fixed.
Example C08_met :
  is_simple annotated "Color" = true /\ size_of annotated "Color" = 16 /\
  is_simple annotated "Spectrum" = false /\ is_simple annotated "Vector3Message" = true.
Proof. exact C08_met_proof. Qed.
