(** What is expected of the memory that Zig code allocates. *)
From Verif Require Export ZigMemory ZigSpec.
Open Scope Z_scope.
Open Scope list_scope.

(** Reading with an account of the memory gives what reading without it gives. *)
Definition same_read {A B} (plain : A -> B) (m : zmem A) (r : res B) : Prop :=
  match m, r with
  | ZOk a q _ _, ROk b q' => b = plain a /\ q' = q
  | ZErr _ _, RErr => True
  | ZOther, (RTrap | RStuck | RFuel) => True
  | _, _ => False
  end.
Definition plain_messages (m : option nat * list (string * zval)) : list (string * val) :=
  map (fun m => (fst m, zig_value_of (snd m))) (snd m).

(** [next] is the number of the next block before, [next'] after reading. *)
Definition released_once (next next' : nat) (ids : option (list nat)) : Prop :=
  exists l, ids = Some l /\ each_once next next' l.

(** Only the last member of a struct or message can need memory of its own. *)
Definition tidy (p : protocol) : Prop :=
  forall t s, declares p t s -> forall pre m post, s_members s = pre ++ m :: post -> post <> [] ->
  v_list m = false /\ exists n, fixed_size p (v_type m) n.
