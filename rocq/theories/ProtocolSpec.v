(** Specification of valid protocols, written from docs/protocols.md.

    Nothing here refers to the functions of Protocol.v that check or build; only
    the data types are shared. *)
From Coq Require Export Relations.
From Verif Require Export Protocol.

(** ** Names *)

(** docs/protocols.md, "Base Types". *)
Definition base_types : list string :=
  ["byte"; "bool"; "uint16"; "int16"; "uint32"; "int32"; "uint64"; "int64";
   "float"; "double"]%string.

(** The integral types that may be used for lengths. *)
Definition integral_types : list string :=
  ["byte"; "uint16"; "int16"; "uint32"; "int32"; "uint64"; "int64"]%string.

Fixpoint str_chars (s : string) : list ascii :=
  match s with EmptyString => [] | String c r => c :: str_chars r end.

(** ASCII white space: codes 9 to 13 and 32. *)
Definition is_space (c : ascii) : Prop :=
  (9 <= nat_of_ascii c <= 13 \/ nat_of_ascii c = 32)%nat.

Definition no_space (s : string) : Prop := forall c, In c (str_chars s) -> ~ is_space c.

(** A declaration name: not empty, no white space, and not a base type, "string"
    or "list" in any capitalisation. *)
Definition name_ok (s : string) : Prop :=
  s <> ""%string /\ no_space s /\
  ~ In (lower s) (base_types ++ ["string"; "list"]%string).

(** ** Types *)

Definition is_struct (p : protocol) (t : string) : Prop := exists s, In (t, s) (p_structs p).
Definition is_message_name (p : protocol) (t : string) : Prop := exists s, In (t, s) (p_messages p).
Definition is_enum (p : protocol) (t : string) : Prop := exists e, In (t, e) (p_enums p).

(** What a member (or a list element) may be. *)
Definition declared_type (p : protocol) (t : string) : Prop :=
  In t base_types \/ t = "string"%string \/ is_struct p t \/ is_enum p t.

(** A struct or message of the protocol, under its name. *)
Definition declares (p : protocol) (n : string) (s : struct) : Prop :=
  In (n, s) (p_structs p) \/ In (n, s) (p_messages p).

(** ** Containment *)

(** Struct [a] has a member of struct type [b], or a list of [b]. *)
Definition contains (p : protocol) (a b : string) : Prop :=
  exists s m, In (a, s) (p_structs p) /\ In m (s_members s) /\ v_type m = b /\ is_struct p b.

(** No struct contains itself, directly or indirectly. *)
Definition acyclic (p : protocol) : Prop := forall a, ~ clos_trans _ (contains p) a a.

(** ** Enums *)

Definition fits_in (lo hi : Z) (vs : list Z) : Prop := forall z, In z vs -> lo <= z <= hi.

(** The smallest of byte, int16, int32 that holds all the values. *)
Definition smallest_encoding (vs : list Z) (enc : string) : Prop :=
  (enc = "byte"%string /\ fits_in 0 255 vs) \/
  (enc = "int16"%string /\ fits_in (-32768) 32767 vs /\ ~ fits_in 0 255 vs) \/
  (enc = "int32"%string /\ fits_in (-2147483648) 2147483647 vs /\
   ~ fits_in (-32768) 32767 vs /\ ~ fits_in 0 255 vs).

(** ** What an accepted protocol looks like *)

(** Everything except the absence of containment cycles. *)
Record WF_local (p : protocol) : Prop := {
  wf_structs_nodup : NoDup (map fst (p_structs p));
  wf_messages_nodup : NoDup (map fst (p_messages p));
  wf_enums_nodup : NoDup (map fst (p_enums p));
  wf_struct_entry : forall n s, In (n, s) (p_structs p) -> s_name s = n /\ s_is_message s = false;
  wf_message_entry : forall n s, In (n, s) (p_messages p) -> s_name s = n /\ s_is_message s = true;
  wf_enum_entry : forall n e, In (n, e) (p_enums p) -> e_name e = n;
  wf_names : forall n, is_struct p n \/ is_message_name p n \/ is_enum p n -> name_ok n;
  wf_disjoint : forall n, ~ (is_struct p n /\ is_message_name p n) /\
                          ~ (is_struct p n /\ is_enum p n) /\
                          ~ (is_message_name p n /\ is_enum p n);
  wf_member_nodup : forall n s, declares p n s -> NoDup (map v_name (s_members s));
  wf_member_names : forall n s m, declares p n s -> In m (s_members s) ->
                    no_space (v_name m) /\ starts_underscore (v_name m) = false;
  wf_member_types : forall n s m, declares p n s -> In m (s_members s) ->
                    declared_type p (v_type m);
  wf_enum_values : forall n e, In (n, e) (p_enums p) ->
                   e_values e <> [] /\ NoDup (map fst (e_values e)) /\ NoDup (map snd (e_values e));
  wf_enum_value_names : forall n e v, In (n, e) (p_enums p) -> In v (map fst (e_values e)) ->
                        no_space v /\ ~ is_struct p v /\ ~ is_message_name p v;
  wf_enum_encoding : forall n e, In (n, e) (p_enums p) ->
                     smallest_encoding (map snd (e_values e)) (e_encoding e);
  wf_list_size : In (p_list_size_type p) integral_types;
  wf_string_size : In (p_string_size_type p) integral_types;
  wf_message_count : (List.length (p_messages p) <= 255)%nat }.

Record WF (p : protocol) : Prop := { wf_local :> WF_local p; wf_acyclic : acyclic p }.

(** ** What the document says *)

(** Every table of the document has distinct keys (TOML guarantees this). *)
Fixpoint toml_wf (v : toml) : Prop :=
  match v with
  | TTab kvs =>
      NoDup (map fst kvs) /\
      (fix all (l : list (string * toml)) : Prop :=
         match l with [] => True | kv :: r => toml_wf (snd kv) /\ all r end) kvs
  | TArr l =>
      (fix all (l : list toml) : Prop :=
         match l with [] => True | v :: r => toml_wf v /\ all r end) l
  | _ => True
  end.

(** A list type is written with brackets around the element type. *)
Definition is_bracketed (t : string) : Prop := exists u, t = ("[" +++ u +++ "]")%string.

(** How a member is written: [name = "T"] or [name = "[T]"]. *)
Definition doc_member (kv : string * toml) (m : var) : Prop :=
  v_name m = fst kv /\ v_type m <> ""%string /\ ~ is_bracketed (v_type m) /\
  snd kv = TStr (if v_list m then ("[" +++ v_type m +++ "]")%string else v_type m).

(** How a struct or message is written: its [_name], and one entry per member;
    keys that start with an underscore are not members. *)
Definition doc_struct (is_message : bool) (d : toml) (ns : string * struct) : Prop :=
  exists items, d = TTab items /\
    lookup "_name" items = Some (TStr (fst ns)) /\
    s_name (snd ns) = fst ns /\ s_is_message (snd ns) = is_message /\
    Forall2 doc_member (filter (fun kv => negb (starts_underscore (fst kv))) items)
            (s_members (snd ns)).

(** How enum values are written: either names only, numbered from zero, or
    tables with [_name] and [_value]. *)
Definition doc_enum_values (vs : list toml) (values : list (string * Z)) : Prop :=
  (vs = map (fun nz => TStr (fst nz)) values /\
   map snd values = map Z.of_nat (seq 0 (List.length values))) \/
  Forall2 (fun d nz => exists items, d = TTab items /\
             lookup "_name" items = Some (TStr (fst nz)) /\
             lookup "_value" items = Some (TInt (snd nz))) vs values.

Definition doc_enum (d : toml) (ne : string * enum) : Prop :=
  exists items vs, d = TTab items /\
    lookup "_name" items = Some (TStr (fst ne)) /\ e_name (snd ne) = fst ne /\
    lookup "_values" items = Some (TArr vs) /\
    doc_enum_values vs (e_values (snd ne)).

(** A section of the document is an array of tables, or absent. *)
Definition doc_section (key : string) (data : list (string * toml)) (l : list toml) : Prop :=
  lookup key data = Some (TArr l) \/ (lookup key data = None /\ l = []).

Definition doc_size (key : string) (meta : list (string * toml)) (t : string) : Prop :=
  lookup key meta = Some (TStr t) \/ (lookup key meta = None /\ t = "uint32"%string).

Definition doc_meta (data : list (string * toml)) (p : protocol) : Prop :=
  exists meta,
    (lookup "meta" data = Some (TTab meta) \/ (lookup "meta" data = None /\ meta = [])) /\
    doc_size "list_size_type" meta (p_list_size_type p) /\
    doc_size "string_size_type" meta (p_string_size_type p) /\
    match p_namespace p with
    | Some v => lookup "namespace" meta = Some v /\ exists s, v = TStr s /\ no_space s
    | None => lookup "namespace" meta = None
    end.

(** [data] describes exactly the protocol [p], in declaration order. *)
Definition describes (data : list (string * toml)) (p : protocol) : Prop :=
  doc_meta data p /\
  exists sl ml el,
    doc_section "structs" data sl /\ doc_section "messages" data ml /\
    doc_section "enums" data el /\
    Forall2 (doc_struct false) sl (p_structs p) /\
    Forall2 (doc_struct true) ml (p_messages p) /\
    Forall2 doc_enum el (p_enums p).

(** A protocol that the loader accepts. *)
Definition accepted (p : protocol) : Prop :=
  exists fuel data, toml_wf (TTab data) /\ load fuel data = Ret p.

(** ** Types of fixed size *)

(** Sizes of the base types, docs/protocols.md. *)
Definition base_size (t : string) (n : Z) : Prop :=
  In (t, n) [("byte", 1); ("bool", 1); ("uint16", 2); ("int16", 2); ("uint32", 4);
             ("int32", 4); ("uint64", 8); ("int64", 8); ("float", 4); ("double", 8)]%string.

(** [fixed_size p t n]: no string and no list occurs in [t] at any depth, and the
    sizes of its base components add up to [n]. *)
Inductive fixed_size (p : protocol) : string -> Z -> Prop :=
| fs_base t n : base_size t n -> fixed_size p t n
| fs_enum t e n : In (t, e) (p_enums p) -> base_size (e_encoding e) n -> fixed_size p t n
| fs_struct t s n : declares p t s -> fixed_members p (s_members s) n -> fixed_size p t n
with fixed_members (p : protocol) : list var -> Z -> Prop :=
| fm_nil : fixed_members p [] 0
| fm_cons m ms a b : v_list m = false -> fixed_size p (v_type m) a ->
    fixed_members p ms b -> fixed_members p (m :: ms) (a + b).

(** [variable_size p t]: a string or a list occurs in [t] at some depth. *)
Inductive variable_size (p : protocol) : string -> Prop :=
| vs_string : variable_size p "string"
| vs_list t s m : declares p t s -> In m (s_members s) -> v_list m = true -> variable_size p t
| vs_struct t s m : declares p t s -> In m (s_members s) -> variable_size p (v_type m) ->
    variable_size p t.

(** ** Cycles that the cycle check can report *)

(** One containment step that neither starts nor ends at [a]. *)
Definition contains_avoiding (p : protocol) (a x y : string) : Prop :=
  contains p x y /\ x <> a /\ y <> a.

(** Struct [a] lies on a cycle, and every cycle that can be reached from [a]
    passes through [a]. *)
Definition only_own_cycles (p : protocol) (a : string) : Prop :=
  clos_trans _ (contains p) a a /\
  forall b, clos_refl_trans _ (contains p) a b -> ~ clos_trans _ (contains_avoiding p a) b b.

(** No cycle can be reached from [a]. *)
Definition reaches_no_cycle (p : protocol) (a : string) : Prop :=
  forall b, clos_refl_trans _ (contains p) a b -> ~ clos_trans _ (contains p) b b.
