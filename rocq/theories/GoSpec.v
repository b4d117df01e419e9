(** Conditions for the statements about Go. *)
From Verif Require Export LangSpec TextSpec.

(** The name starts with a capital of ASCII, so the field is exported. *)
Definition capital_first (n : string) : Prop :=
  match n with String c _ => capital c | EmptyString => False end.
(** The members of structs have such names. *)
Definition capitals (p : protocol) : Prop :=
  forall t s m, In (t, s) (p_structs p) -> In m (s_members s) -> capital_first (v_name m).

(** Structs have no enums; only messages have. *)
Definition enumless (p : protocol) : Prop :=
  forall t s m, In (t, s) (p_structs p) -> In m (s_members s) -> ~ is_enum p (v_type m).
(** The same for structs whose size depends on their contents. *)
Definition loose_enumless (p : protocol) : Prop :=
  forall t s m, In (t, s) (p_structs p) -> variable_size p t -> In m (s_members s) -> ~ is_enum p (v_type m).

(** No strings at all. *)
Definition stringless (p : protocol) : Prop :=
  forall t s m, declares p t s -> In m (s_members s) -> v_type m <> "string"%string.

(** A member, or the elements of a list, of a type of fixed size. *)
Definition firm (p : protocol) (m : var) : Prop := exists n, fixed_size p (v_type m) n.
(** Such a member that takes at least one byte. *)
Definition solid (p : protocol) (m : var) : Prop :=
  exists n, fixed_size p (v_type m) n /\ (v_list m = true \/ 0 < n).
(** The members of a message end in such a way that missing bytes are noticed. *)
Definition tight (p : protocol) (ms : list var) : Prop :=
  Forall (firm p) ms \/ exists a m b, ms = a ++ m :: b /\ solid p m /\ Forall (firm p) b.
Definition tight_messages (p : protocol) : Prop :=
  forall t s, In (t, s) (p_messages p) -> tight p (s_members s).

(** The names that a Go file declares: what is always there; the number of each
    message; each enum, its values and their test; each type and its two
    functions. *)
Definition go_fixed_names : list string :=
  ["binary"; "fmt"; "io"; "readString"; "writeString"; "getDataOffset"; "GetPackedSize"; "PackMessages";
   "UnpackMessages"; "MessageType"; "Message"; "ProcessRawBytes"]%string.
Definition go_file_names (p : protocol) : list string :=
  go_fixed_names ++
  map (fun t => t +++ "Type")%string (map fst (p_messages p)) ++
  flat_map (fun e => fst e :: map (fun v => fst e +++ v)%string (map fst (e_values (snd e))) ++
                     ["isValid" +++ fst e])%string (p_enums p) ++
  flat_map (fun t => [t; "New" +++ t +++ "Default"; t +++ "FromBytes"])%string
    (map fst (p_structs p ++ p_messages p)).

(** What FromBytes calls its local variables for a list or an enum. *)
Definition go_local (p : protocol) (m : var) (n : string) : Prop :=
  (v_list m = true /\ n = v_name m +++ "_Len")%string \/
  (v_list m = false /\ is_enum p (v_type m) /\ n = "_" +++ v_name m)%string.

(** What generated Go needs of the names it is printed with. *)
Definition go_names (p : protocol) : Prop :=
  NoDup (go_file_names p) /\
  names_apart (fun n => n) p /\
  no_member "WriteBytes" p /\
  (forall t s m, In (t, s) (p_messages p) -> In m (s_members s) ->
     v_name m <> "GetMessageType" /\ v_name m <> "GetSizeInBytes")%string /\
  (forall t s m m' n, declares p t s -> In m (s_members s) -> In m' (s_members s) -> go_local p m n ->
     n <> v_type m' /\ n <> "isValid" +++ v_type m')%string.

(** Member names start with a letter of ASCII. *)
Definition letter_first (n : string) : Prop :=
  match n with
  | String c _ => capital c \/ (97 <= nat_of_ascii c <= 122)%nat
  | EmptyString => False
  end.
Definition letters (p : protocol) : Prop :=
  forall t s m, In (t, s) (p_structs p) -> In m (s_members s) -> letter_first (v_name m).
