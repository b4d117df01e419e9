(** The names that a generated Go file declares at package level, as a reader of the text
    finds them. *)
From Verif Require Export TopSpec Go.
Open Scope string_scope.
Open Scope Z_scope.
Open Scope list_scope.

(** The word at the end of a text, but for one character: of [""encoding/binary""] it is binary. *)
Fixpoint last_word (s now : string) : string :=
  match s with
  | EmptyString => now
  | String c r => match r with EmptyString => now | _ => last_word r (if word_char c then now +++ String c "" else "") end
  end.
(** Where a reader is: outside of everything, or in a group that import or const opens. *)
Inductive go_place := Outside | Imports | Constants.
Definition go_look (at_ : go_place) (l : out_line) : go_place * list string :=
  let first := fst l =? 0 in
  match at_ with
  | Outside =>
      if negb first then (Outside, [])
      else if String.eqb (snd l) "import (" then (Imports, [])
      else if String.eqb (snd l) "const (" then (Constants, [])
      else (Outside, match rest_after "func (" (snd l) with
                     | Some _ => []
                     | None => declared ["type "; "func "] (snd l)
                     end)
  | Imports => if first && String.eqb (snd l) ")" then (Outside, []) else (Imports, [last_word (snd l) ""])
  | Constants => if first && String.eqb (snd l) ")" then (Outside, []) else (Constants, [first_word (snd l)])
  end.
Fixpoint go_looks (at_ : go_place) (ls : list out_line) : go_place * list string :=
  match ls with
  | [] => (at_, [])
  | l :: r => let (a, n) := go_look at_ l in let (a', n') := go_looks a r in (a', n ++ n')
  end.
(** The text declares these names, in this order. *)
Definition go_file_declares (p : protocol) (g : settings) (names : list string) : Prop :=
  exists ls, generate "go" p g 0 = Ret (ls, 0) /\ go_looks Outside ls = (Outside, names).

(** The names of enum values are words, too. *)
Definition word_values (p : protocol) : Prop :=
  forall n e v, In (n, e) (p_enums p) -> In v (e_values e) -> word (fst v) = true.
