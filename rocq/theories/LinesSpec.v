(** What is expected of printed text. *)
From Verif Require Export Lines.
Open Scope Z_scope.
Open Scope list_scope.

(** Printing raises nothing, ends at the level where it started, and puts no line
    further left than that. *)
Definition nested_from (n : Z) (g : gtext) : Prop :=
  exists ls, g n = Ret (ls, n) /\ forall lev s, In (lev, s) ls -> n <= lev.

(** A whole file. *)
Definition well_nested (g : gtext) : Prop := nested_from 0 g.

(** [s'] is [s] with the marks replaced: from left to right, a mark becomes its text,
    any other character stays, and the new text is not looked at again. *)
Inductive rewrites (subs : list (string * string)) : string -> string -> Prop :=
| rw_end : rewrites subs EmptyString EmptyString
| rw_mark old new r r' : In (old, new) subs -> rewrites subs r r' -> rewrites subs (old +++ r) (new +++ r')
| rw_keep c r r' :
    (forall old new t, In (old, new) subs -> String c r <> old +++ t) ->
    rewrites subs r r' -> rewrites subs (String c r) (String c r').

(** Marks that cannot be confused: none is empty, and none begins another. *)
Definition distinct (subs : list (string * string)) : Prop :=
  (forall a b t, In a subs -> In b subs -> fst b = fst a +++ t -> a = b) /\ ~ In ""%string (map fst subs).

(** [s'] is [s] with every indentation at its start changed from [old] to [new]. *)
Definition reindented (old new s s' : string) : Prop :=
  exists k r, s = repeat_str k old +++ r /\ (forall t, r <> old +++ t) /\ s' = repeat_str k new +++ r.

(** The text that [g] prints has in one piece, at some level [n], the lines of [file]
    with the marks replaced and the indentation changed from [native] to [tab]. *)
Definition includes (subs : list (string * string)) (native tab : string) (file : list string) (g : gtext) : Prop :=
  exists n before ls after,
    g 0 = Ret (before ++ map (fun l => (n, l)) ls ++ after, 0) /\
    Forall2 (fun l l' => exists m, rewrites subs l m /\ reindented native tab m l') file ls.

(** The same when the mark is a whole line and is replaced by lines. *)
Definition includes_lines (mark : string) (new : list string) (native tab : string) (file : list string) (g : gtext) : Prop :=
  exists n before ls after,
    g 0 = Ret (before ++ map (fun l => (n, l)) ls ++ after, 0) /\
    Forall2 (reindented native tab) (flat_map (fun l => if string_dec l mark then new else [l]) file) ls.

(** [m] is somewhere in [s]. *)
Definition inside (m s : string) : Prop := exists a b, s = a +++ m +++ b.

(** Names in a row, each followed by a comma. *)
Fixpoint comma_list (l : list string) : string :=
  match l with
  | [] => ""
  | [a] => a +++ ","
  | a :: r => a +++ ", " +++ comma_list r
  end.
