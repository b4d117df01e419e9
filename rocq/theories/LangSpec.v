(** Vocabulary for statements about generated code. *)
From Verif Require Export Wire ProtocolSpec.

(** The size types are not 64 bits wide. *)
Definition size_types_32 (p : protocol) : Prop :=
  ~ In (p_list_size_type p) ["uint64"; "int64"]%string /\
  ~ In (p_string_size_type p) ["uint64"; "int64"]%string.

(** An unsigned size type. *)
Definition unsigned_type (t : string) : Prop := In t ["byte"; "uint16"; "uint32"; "uint64"]%string.

(** An unsigned size type of at most 32 bits. *)
Definition small_unsigned (t : string) : Prop := In t ["byte"; "uint16"; "uint32"]%string.

(** No condition on strings. *)
Definition any_text (s : list byte) : Prop := True.

(** Text that does not start with U+FEFF (the byte order mark). *)
Definition plain_text (s : list byte) : Prop :=
  utf8 s /\ forall r, s <> [xef; xbb; xbf] ++ r.

(** The same only if [strip]. *)
Definition bom_text (strip : bool) (s : list byte) : Prop :=
  utf8 s /\ (strip = true -> forall r, s <> [xef; xbb; xbf] ++ r).

(** Characters of one byte. *)
Definition ascii_text (s : list byte) : Prop := Forall (fun b => Z_of_byte b < 128) s.

(** Less than 2 GiB. *)
Definition short_bytes (s : list byte) : Prop := Z.of_nat (List.length s) < 2 ^ 31.
Definition short_text (s : list byte) : Prop := utf8 s /\ short_bytes s.

(** No struct or message is empty or ends with a string or a list of strings. *)
Definition no_string_last (p : protocol) : Prop :=
  forall t s, declares p t s -> exists ms m, s_members s = ms ++ [m] /\ v_type m <> "string"%string.

(** Struct [b] is [a] or occurs inside [a]. *)
Definition reaches (p : protocol) (a b : string) : Prop := clos_refl_trans _ (contains p) a b.

(** No list inside the elements of a list has the name of that list. *)
Definition inner_lists_renamed (p : protocol) : Prop :=
  forall t s m u su mu, declares p t s -> In m (s_members s) -> v_list m = true ->
    reaches p (v_type m) u -> declares p u su -> In mu (s_members su) -> v_list mu = true ->
    v_name mu <> v_name m.

(** No member name contains a square bracket. *)
Definition no_brackets (p : protocol) : Prop :=
  forall t s m, declares p t s -> In m (s_members s) ->
    ~ In "["%char (str_chars (v_name m)) /\ ~ In "]"%char (str_chars (v_name m)).

(** No member has the name of a later list with [suffix] behind it. *)
Definition no_length_first (suffix : string) (p : protocol) : Prop :=
  forall t s before m after, declares p t s -> s_members s = before ++ m :: after -> v_list m = true ->
    ~ In (v_name m +++ suffix)%string (map v_name before).

(** No list of bytes or of bools. *)
Definition no_byte_lists (p : protocol) : Prop :=
  forall t s m, declares p t s -> In m (s_members s) -> v_list m = true ->
    v_type m <> "byte"%string /\ v_type m <> "bool"%string.

(** No member has this name. *)
Definition no_member (n : string) (p : protocol) : Prop :=
  forall t s, declares p t s -> ~ In n (map v_name (s_members s)).

(** Members of one struct still have different names when [f] has changed them. *)
Definition names_apart (f : string -> string) (p : protocol) : Prop :=
  forall t s, declares p t s -> NoDup (map (fun m => f (v_name m)) (s_members s)).

(** What generated Rust needs of the names and types that it is printed with. *)
Definition rust_names (p : protocol) : Prop :=
  names_apart (fun n => n) p /\ no_length_first "_len" p /\ no_byte_lists p /\ no_member "reader" p.

(** Every enum lists its largest value last, and the encoding has room for one
    more. *)
Definition enums_count_up (p : protocol) : Prop :=
  forall t e k, In (t, e) (p_enums p) -> num_of (e_encoding e) = Some k ->
    (forall z, In z (map snd (e_values e)) -> z <= List.last (map snd (e_values e)) 0) /\
    List.last (map snd (e_values e)) 0 < num_max k.
(** No enum leaves a number out between its values. *)
Definition enums_gapless (p : protocol) : Prop :=
  forall t e a b z, In (t, e) (p_enums p) -> In a (map snd (e_values e)) -> In b (map snd (e_values e)) ->
    a <= z <= b -> In z (map snd (e_values e)).
Definition no_enums (p : protocol) : Prop := p_enums p = [].

(** A number of one or two bytes without sign. *)
Definition tiny_unsigned (t : string) : Prop := In t ["byte"; "uint16"]%string.

(** Lists of up to 2^26 elements. *)
Definition modest (n : nat) : Prop := Z.of_nat n <= 2 ^ 26.
Definition has_room (room : string -> Z) : Prop := forall t, 2 ^ 26 <= room t.
Definition utf8_modest (v : val) : Prop := strings utf8 v /\ lists modest v.

(** Whatever else is made of bytes that are no UTF-8, four of them do not become
    the header of a packed buffer. *)
Definition keeps_header (lossy : list byte -> list byte) : Prop :=
  forall raw, (List.length raw <= 4)%nat -> ~ utf8 raw -> lossy raw <> header.
