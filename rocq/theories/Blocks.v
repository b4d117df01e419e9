(** Blocks of memory, numbered in the order in which they are allocated. *)
From Verif Require Export Bytes.

(** Traces of released blocks; [None]: undefined behaviour. *)
Definition oapp {A} (a b : option (list A)) : option (list A) :=
  match a, b with Some x, Some y => Some (x ++ y) | _, _ => None end.
Fixpoint oconcat {A} (l : list (option (list A))) : option (list A) :=
  match l with [] => Some [] | a :: r => oapp a (oconcat r) end.

(** [ids] are the blocks from [a] up to [b], each of them once. *)
Definition each_once (a b : nat) (ids : list nat) : Prop :=
  NoDup ids /\ forall i, In i ids <-> (a <= i < b)%nat.
(** Some of them, each at most once. *)
Definition none_twice (a b : nat) (ids : list nat) : Prop :=
  NoDup ids /\ forall i, In i ids -> (a <= i < b)%nat.
