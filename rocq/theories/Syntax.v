(** How programs look in print: parts shared by the languages. *)
From Verif Require Export Lines.
Open Scope string_scope.
Open Scope Z_scope.
Open Scope list_scope.

(** Pieces of text in a row. *)
Definition cat (l : list string) : string := fold_right String.append "" l.
Definition or_empty (o : option string) : string := match o with Some s => s | None => "" end.

(** The smallest value of an enum, in decimal digits. *)
Definition lowest (e : enum) : string :=
  match get_minimum_pair e with Some (_, z) => str_of_Z z | None => "" end.

(** Lines at one level. *)
Definition at_lvl (lvl : Z) (l : list string) : list out_line := map (fun s => (lvl, s)) l.

(** The pieces stand in [ls], one after the other, with anything between them. *)
Fixpoint in_order (pieces : list (list out_line)) (ls : list out_line) : Prop :=
  match pieces with
  | [] => True
  | q :: r => exists before rest, ls = before ++ q ++ rest /\ in_order r rest
  end.

(** [g], started at level 0, prints text in which the pieces stand in this order. *)
Definition prints (g : gtext) (pieces : list (list out_line)) : Prop :=
  exists ls, g 0 = Ret (ls, 0) /\ in_order pieces ls.
