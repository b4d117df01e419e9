(** Later versions of a protocol, and other names for the same data. *)
From Verif Require Export Wire.
Open Scope list_scope.

(** [newer p q]: [q] is [p] with more structs, more enums, more values in enums whose
    encoding stays, and more messages after the old ones. *)
Definition newer (p q : protocol) : Prop :=
  p_list_size_type q = p_list_size_type p /\
  p_string_size_type q = p_string_size_type p /\
  (forall t e, In (t, e) (p_enums p) ->
     exists e', In (t, e') (p_enums q) /\ e_encoding e' = e_encoding e /\ incl (e_values e) (e_values e')) /\
  incl (p_structs p) (p_structs q) /\
  exists more, p_messages q = p_messages p ++ more.

(** The same protocol with member [x] called [f x], type [t] called [g t], value [y] of an enum
    called [h y], and namespace [ns]. *)
Definition named_var (f g : string -> string) (m : var) : var := MkVar (f (v_name m)) (g (v_type m)) (v_list m).
Definition named_struct (f g : string -> string) (s : struct) : struct :=
  MkStruct (g (s_name s)) (map (named_var f g) (s_members s)) (s_is_message s).
Definition named_enum (h g : string -> string) (e : enum) : enum :=
  MkEnum (g (e_name e)) (map (fun nv => (h (fst nv), snd nv)) (e_values e)) (e_encoding e).
Definition named (ns : option toml) (f g h : string -> string) (p : protocol) : protocol :=
  MkProtocol ns (p_list_size_type p) (p_string_size_type p)
    (map (fun d => (g (fst d), named_struct f g (snd d))) (p_structs p))
    (map (fun d => (g (fst d), named_struct f g (snd d))) (p_messages p))
    (map (fun d => (g (fst d), named_enum h g (snd d))) (p_enums p)).

(** The value with the new names of its members. *)
Fixpoint named_val (f : string -> string) (v : val) : val :=
  match v with
  | VList l => VList (map (named_val f) l)
  | VStruct fs => VStruct (map (fun nv => (f (fst nv), named_val f (snd nv))) fs)
  | _ => v
  end.
Definition named_message (f g : string -> string) (m : string * val) : string * val := (g (fst m), named_val f (snd m)).

(** Base types keep their names. *)
Definition keeps_base_types (g : string -> string) : Prop :=
  forall t, In t base_types \/ t = "string"%string -> g t = t.

(** ** In the protocol file *)

(** The section of [data'] is that of [data] with more entries after the old ones, which are
    related by [R]. *)
Definition more_entries (R : toml -> toml -> Prop) (key : string) (data data' : list (string * toml)) : Prop :=
  forall l l', doc_section key data l -> doc_section key data' l' -> exists m r, l' = m ++ r /\ Forall2 R l m.
(** An enum with more values after the old ones. *)
Definition more_values (d d' : toml) : Prop :=
  d = d' \/
  exists items items' vs more, d = TTab items /\ d' = TTab items' /\
    lookup "_name" items' = lookup "_name" items /\
    lookup "_values" items = Some (TArr vs) /\ lookup "_values" items' = Some (TArr (vs ++ more)).
Definition extends (data data' : list (string * toml)) : Prop :=
  lookup "meta" data' = lookup "meta" data /\
  more_entries eq "structs" data data' /\ more_entries eq "messages" data data' /\
  more_entries more_values "enums" data data'.
