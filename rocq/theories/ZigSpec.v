(** Conditions for the statements about Zig. *)
From Verif Require Export GoSpec.

(** No struct or message has a list. *)
Definition listless (p : protocol) : Prop :=
  forall t s m, declares p t s -> In m (s_members s) -> v_list m = false.

(** Lengths that occur have no sign. *)
Definition unsigned_sizes (p : protocol) : Prop :=
  (unsigned_type (p_list_size_type p) \/ listless p) /\ (unsigned_type (p_string_size_type p) \/ stringless p).
(** If there are strings, their lengths are stored like those of lists. *)
Definition same_sizes (p : protocol) : Prop := p_list_size_type p = p_string_size_type p \/ stringless p.

(** Nothing of fixed size contains a struct. *)
Definition flat (p : protocol) : Prop :=
  forall t s n m, declares p t s -> fixed_size p t n -> In m (s_members s) -> ~ is_struct p (v_type m).
(** The length and the size of the length together fit into the size type. *)
Definition zig_string (p : protocol) (s : list byte) : Prop :=
  forall k, num_of (p_string_size_type p) = Some k -> Z.of_nat (List.length s) + Z.of_nat (num_size k) <= num_max k.
(** What can be read: such strings, and lists of at most 2^26 elements. *)
Definition zig_value (p : protocol) (v : val) : Prop := strings (zig_string p) v /\ lists modest v.

(** Structs of fixed size have numbers only. *)
Definition numbers_only (p : protocol) : Prop :=
  forall t s n m, In (t, s) (p_structs p) -> fixed_size p t n -> In m (s_members s) -> In (v_type m) base_types.
(** They have at least one. *)
Definition some_number (p : protocol) : Prop :=
  forall t s n, In (t, s) (p_structs p) -> fixed_size p t n ->
    exists m, In m (s_members s) /\ In (v_type m) base_types.

(** The names of enums, structs and messages. *)
Definition type_names (p : protocol) : list string :=
  map fst (p_enums p) ++ map fst (p_structs p) ++ map fst (p_messages p).

(** The names that a Zig file declares; the names of what is declared inside. *)
Definition zig_fixed_names : list string :=
  ["DataReaderError"; "Message"; "MessageType"; "enumTypes"; "getPackedSize"; "isValidEnum"; "numberTypeIsValid";
   "packMessages"; "processRawBytes"; "readList"; "readNumber"; "readString"; "simpleTypes"; "std"; "typeIsEnum";
   "typeIsSimple"; "unpackMessages"; "writeBytes"; "writeList"; "writeNumber"; "writeString"]%string.
Definition zig_names_inside : list string :=
  ["T"; "Te"; "Ti"; "actual_type"; "allocator"; "b"; "buffer"; "deinit"; "ei"; "enum_info"; "f"; "fromBytes";
   "getSizeInBytes"; "header_bytes"; "i"; "inner"; "item"; "item2"; "len"; "len_read"; "list"; "list_read";
   "local_offset"; "m"; "made_count"; "max"; "msg"; "msg_count"; "msg_count_read"; "msg_list"; "msg_read";
   "msg_type"; "msg_type_byte"; "offset"; "raw"; "s"; "self"; "size"; "slice"; "str"; "tag"; "val";
   "validNumericTypes"; "value"; "vt"]%string.
(** el0, el1, ... *)
Definition numbered_el (n : string) : Prop :=
  exists c r, n = String "e" (String "l" (String c r)) /\ (48 <= nat_of_ascii c <= 57)%nat.

(** The constants of fromBytes. *)
Definition zig_constants (t : string) (m : var) : list string :=
  [t +++ "_" +++ v_name m +++ "_read"; t +++ "_" +++ v_name m]%string.

(** What generated Zig needs of the names. *)
Definition zig_names (p : protocol) : Prop :=
  NoDup (zig_fixed_names ++ type_names p) /\
  (forall t, In t (type_names p) -> ~ In t zig_names_inside /\ ~ numbered_el t) /\
  (forall t s, declares p t s ->
     NoDup (["allocator"; "buffer"; "local_offset"; "offset"] ++ flat_map (zig_constants t) (s_members s)))%string /\
  (forall t s m n, declares p t s -> In m (s_members s) -> In n (zig_constants t m) ->
     ~ In n (zig_fixed_names ++ type_names p)) /\
  (no_member "getSizeInBytes" p /\ no_member "fromBytes" p /\ no_member "writeBytes" p /\ no_member "deinit" p)%string /\
  some_number p.
