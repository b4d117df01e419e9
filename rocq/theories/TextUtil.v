(** Model of TextUtil in beschi/writer.py: conversions of names.

    Strings are sequences of bytes (UTF-8); as everywhere in this model,
    [str.lower] and [str.upper] act on ASCII letters only.  The patterns only name
    ASCII letters, so bytes of other characters are copied. *)
From Verif Require Export Bytes.

Definition in_chars (lo hi : nat) (c : ascii) : bool := Nat.leb lo (nat_of_ascii c) && Nat.leb (nat_of_ascii c) hi.
(** [A-Z], [a-z], [0-9]; [.] is everything but a line feed. *)
Definition is_upper : ascii -> bool := in_chars 65 90.
Definition is_lower : ascii -> bool := in_chars 97 122.
Definition is_digit : ascii -> bool := in_chars 48 57.
Definition is_any (c : ascii) : bool := negb (Nat.eqb (nat_of_ascii c) 10).

(** writer.py:11, [re.sub('(.)([A-Z][a-z]+)', r'\1_\2', s)], from left to right and
    without overlaps.  [run]: inside the [[a-z]+] of a match, which takes as many
    letters as it can. *)
Fixpoint split_words (run : bool) (s : string) : string :=
  match s with
  | EmptyString => EmptyString
  | String c r =>
      if run && is_lower c then String c (split_words true r)
      else match r with
      | String u r' =>
          if is_any c && is_upper u &&
             match r' with String l _ => is_lower l | EmptyString => false end
          then String c (String "_" (String u (split_words true r')))
          else String c (split_words false r)
      | EmptyString => String c EmptyString
      end
  end.

(** writer.py:12, [re.sub('([a-z0-9])([A-Z])', r'\1_\2', s)]. *)
Fixpoint split_caps (s : string) : string :=
  match s with
  | EmptyString => EmptyString
  | String c r =>
      match r with
      | String u r' =>
          if (is_lower c || is_digit c) && is_upper u
          then String c (String "_" (String u (split_caps r')))
          else String c (split_caps r)
      | EmptyString => String c EmptyString
      end
  end.

(** writer.py:10-12, convert_to_lower_snake_case. *)
Definition snake (s : string) : string := lower (split_caps (split_words false s)).

(** writer.py:14-15, capitalize. *)
Definition capitalize (s : string) : string :=
  match s with EmptyString => EmptyString | String c r => String (upper_ascii c) r end.
