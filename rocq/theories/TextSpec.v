(** Vocabulary for statements about name conversions. *)
From Verif Require Export ProtocolSpec.

(** ASCII capital letters. *)
Definition capital (c : ascii) : Prop := (65 <= nat_of_ascii c <= 90)%nat.

(** [spaced a b]: [b] is [a] with underscores inserted. *)
Inductive spaced : string -> string -> Prop :=
| sp_nil : spaced "" ""
| sp_same c a b : spaced a b -> spaced (String c a) (String c b)
| sp_more a b : spaced a b -> spaced a (String "_" b).

(** The same string in lower case, letter by letter. *)
Inductive lowered : string -> string -> Prop :=
| lo_nil : lowered "" ""
| lo_capital c d a b : capital c -> nat_of_ascii d = (nat_of_ascii c + 32)%nat -> lowered a b ->
    lowered (String c a) (String d b)
| lo_other c a b : ~ capital c -> lowered a b -> lowered (String c a) (String c b).

(** ASCII small letters and digits, line feed. *)
Definition small (c : ascii) : Prop := (97 <= nat_of_ascii c <= 122)%nat.
Definition digit (c : ascii) : Prop := (48 <= nat_of_ascii c <= 57)%nat.
Definition line_feed (c : ascii) : Prop := nat_of_ascii c = 10%nat.
(** A new word starts with the capital [u], which follows [c] and is followed by
    [r]: after a small letter or digit, or in front of a small letter. *)
Definition new_word (c u : ascii) (r : string) : Prop :=
  capital u /\ (small c \/ digit c \/ ~ line_feed c /\ exists l r', r = String l r' /\ small l).
(** [words a b]: [b] is [a] with an underscore in front of every new word. *)
Inductive words : string -> string -> Prop :=
| wo_nil : words "" ""
| wo_one c : words (String c "") (String c "")
| wo_new c u r b : new_word c u r -> words (String u r) b -> words (String c (String u r)) (String c (String "_" b))
| wo_same c u r b : ~ new_word c u r -> words (String u r) b -> words (String c (String u r)) (String c b).
