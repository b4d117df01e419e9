(** Specification of what a file must look like for nothing in it to be lost.

    [describes] of ProtocolSpec.v says what a file says.  The loader is looser
    than that in a few places; [plain] names them. *)
From Verif Require Export ProtocolSpec.

(** The names that the tables of a list give themselves. *)
Definition name_of (d : toml) : list string :=
  match d with
  | TTab items => match lookup "_name" items with Some (TStr n) => [n] | _ => [] end
  | _ => []
  end.
Definition names_of (l : list toml) : list string := flat_map name_of l.

(** An enum does not give one of its values twice. *)
Definition plain_enum (d : toml) : Prop :=
  forall items vs, d = TTab items -> lookup "_values" items = Some (TArr vs) ->
  NoDup (names_of vs).

(** A section is an array, or absent. *)
Definition plain_section (key : string) (data : list (string * toml)) : Prop :=
  lookup key data = None \/ exists l, lookup key data = Some (TArr l).

(** [meta] is a table, or absent, and a namespace in it is text. *)
Definition plain_meta (data : list (string * toml)) : Prop :=
  lookup "meta" data = None \/
  exists meta, lookup "meta" data = Some (TTab meta) /\
    forall v, lookup "namespace" meta = Some v -> exists s, v = TStr s.

Record plain (data : list (string * toml)) : Prop := {
  pl_meta : plain_meta data;
  pl_structs : plain_section "structs" data;
  pl_messages : plain_section "messages" data;
  pl_enums : plain_section "enums" data;
  pl_enum_names : forall l, lookup "enums" data = Some (TArr l) -> NoDup (names_of l);
  pl_value_names : forall l, lookup "enums" data = Some (TArr l) ->
                   forall d, In d l -> plain_enum d }.

(** The loader's verdict on a file, for every number of steps that is enough. *)
Definition settles (data : list (string * toml)) (r : pyres protocol) : Prop :=
  exists n, forall fuel, (n <= fuel)%nat -> load fuel data = r.
