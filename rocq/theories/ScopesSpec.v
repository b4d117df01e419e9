(** When the local variables of generated functions have different names, and when the
    members of a generated class do. *)
From Verif Require Export Scopes LangSpec.
Open Scope string_scope.

(** A member name is not empty and has no square brackets. *)
Definition plain_names (p : protocol) : Prop :=
  no_brackets p /\ forall t s m, declares p t s -> In m (s_members s) -> v_name m <> "".

(** A member of a type that is an enum, and no list. *)
Definition enum_member (p : protocol) (m : var) : Prop := v_list m = false /\ is_enum p (v_type m).

(** The length of no list has the name of the object that is read: [<list>_Length] is
    never [n<type>]. *)
Definition lengths_free (p : protocol) : Prop :=
  forall t s m, declares p t s -> In m (s_members s) -> v_list m = true -> v_name m +++ "_Length" <> "n" +++ t.

(** Swift: nor is there an enum [x] next to an enum [xRead]. *)
Definition sw_locals_free (p : protocol) : Prop :=
  lengths_free p /\
  forall t s m m', declares p t s -> In m (s_members s) -> In m' (s_members s) ->
    enum_member p m -> enum_member p m' -> v_name m' <> v_name m +++ "Read".

(** C#: no enum [nT] in [T], not even a list; next to a list of anything but an enum, no enum [el]; next to
    a list of strings, no list or string [string__el], and no string [el]. *)
Definition cs_locals_free (p : protocol) : Prop :=
  (forall t s m, declares p t s -> In m (s_members s) -> is_enum p (v_type m) -> v_name m <> "n" +++ t) /\
  (forall t s m m', declares p t s -> In m (s_members s) -> In m' (s_members s) ->
     v_list m' = true -> ~ is_enum p (v_type m') -> enum_member p m -> v_name m <> "el") /\
  (forall t s m m', declares p t s -> In m (s_members s) -> In m' (s_members s) ->
     v_list m' = true -> v_type m' = "string" -> (v_list m = true \/ v_type m = "string") -> v_name m <> "string__el") /\
  (forall t s m m', declares p t s -> In m (s_members s) -> In m' (s_members s) ->
     v_list m' = true -> v_type m' = "string" -> v_list m = false -> v_type m = "string" -> v_name m <> "el").

(** No member has a name in [always], no member of a message one in [messages]. *)
Definition members_avoid (always messages : list string) (p : protocol) : Prop :=
  forall t s m, declares p t s -> In m (s_members s) ->
    ~ In (v_name m) always /\ (In (t, s) (p_messages p) -> ~ In (v_name m) messages).
(** No member has the name of its type. *)
Definition members_not_type (p : protocol) : Prop :=
  forall t s m, declares p t s -> In m (s_members s) -> v_name m <> t.
