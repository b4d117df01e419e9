(** The lines of a text, as [str.splitlines] gives them (writer.py:60 and the writers'
    --embed-protocol). *)
From Verif Require Export CommentSpec.
Open Scope string_scope.
Open Scope list_scope.

Definition byte_str (l : list nat) : string := fold_right (fun n s => String (ascii_of_nat n) s) "" l.
(** The line ends that Python knows, in UTF-8: line feed, carriage return, both, vertical
    tabulation, form feed, the three separators of ASCII, next line, and the separators of
    lines and of paragraphs. *)
Definition line_ends : list string :=
  map byte_str [[10]; [13]; [13; 10]; [11]; [12]; [28]; [29]; [30]; [194; 133]; [226; 128; 168]; [226; 128; 169]]%nat.
(** The lines and line ends together are the text; the last line may have no line end. *)
Inductive lines_of : string -> list string -> Prop :=
| no_lines : lines_of "" []
| last_of_lines l : l <> "" -> lines_of l [l]
| one_of_lines l e r ls : In e line_ends -> lines_of r ls -> lines_of (l +++ (e +++ r)) (l :: ls).
