(** Concrete messages used in the examples beside the theorems. *)
From Verif Require Export Wire Samples.
Open Scope string_scope.

Definition text (s : string) : list byte := map byte_of_ascii (list_ascii_of_string s).

(** A message of annotated.toml with numbers, strings, an enum, a list of strings. *)
Definition new_character : val := VStruct
  [("id", VInt 1152921504606846977); ("characterName", VStr (text "Alia"));
   ("job", VInt 2); ("strength", VInt 65535); ("intelligence", VInt 9);
   ("dexterity", VInt 0); ("wisdom", VInt 258); ("goldInWallet", VInt 4294967295);
   ("nicknames", VList [VStr (text "Ali"); VStr []; VStr (text "A")])].

(** The colours are IEEE bit patterns: 0.0, 1.0, -1.0. *)
Definition color (r g b a : Z) : val := VStruct
  [("red", VInt r); ("green", VInt g); ("blue", VInt b); ("alpha", VInt a)].

(** One with a list of structs and a negative enum value in two bytes. *)
Definition joined_team : val := VStruct
  [("characterID", VInt 7); ("teamName", VStr (text "Team"));
   ("teamColors", VList [color 0 1065353216 3212836864 1; color 0 0 0 0]);
   ("role", VInt (-1))].

Definition joined_team_bytes : list byte :=
  ([x07; x00; x00; x00; x00; x00; x00; x00;
    x04; x54; x65; x61; x6d;
    x02; x00;
    x00; x00; x00; x00;  x00; x00; x80; x3f;  x00; x00; x80; xbf;  x01; x00; x00; x00;
    x00; x00; x00; x00;  x00; x00; x00; x00;  x00; x00; x00; x00;  x00; x00; x00; x00;
    xff; xff])%list.

(** A message of fixed size. *)
Definition vector3 : val := VStruct [("x", VInt 1065353216); ("y", VInt 0); ("z", VInt 255)].
Definition vector3_bytes : list byte :=
  ([x00; x00; x80; x3f;  x00; x00; x00; x00;  xff; x00; x00; x00])%list.
