(** Concrete protocol files used in the examples beside the theorems. *)
From Verif Require Export Protocol.
Open Scope string_scope.

Definition tab (l : list (string * string)) : toml :=
  TTab (map (fun kv => (fst kv, TStr (snd kv))) l).

(** test/_protocols/annotated.toml, as parsed. *)
Definition annotated_toml : list (string * toml) :=
  [("meta", tab [("namespace", "AppMessages"); ("list_size_type", "uint16");
                 ("string_size_type", "byte")]);
   ("messages", TArr
     [tab [("_name", "Vector3Message"); ("x", "float"); ("y", "float"); ("z", "float")];
      tab [("_name", "NewCharacterMessage"); ("id", "uint64"); ("characterName", "string");
           ("job", "CharacterClass"); ("strength", "uint16"); ("intelligence", "uint16");
           ("dexterity", "uint16"); ("wisdom", "uint16"); ("goldInWallet", "uint32");
           ("nicknames", "[string]")];
      tab [("_name", "CharacterJoinedTeam"); ("characterID", "uint64"); ("teamName", "string");
           ("teamColors", "[Color]"); ("role", "TeamRole")]]);
   ("enums", TArr
     [TTab [("_name", TStr "CharacterClass");
            ("_values", TArr [TStr "Fighter"; TStr "Wizard"; TStr "Rogue"; TStr "Cleric"])];
      TTab [("_name", TStr "TeamRole");
            ("_values", TArr
              [TTab [("_name", TStr "Minion"); ("_value", TInt 256)];
               TTab [("_name", TStr "Ally"); ("_value", TInt 512)];
               TTab [("_name", TStr "Leader"); ("_value", TInt 1024)];
               TTab [("_name", TStr "Traitor"); ("_value", TInt (-1))]])]]);
   ("structs", TArr
     [tab [("_name", "Color"); ("red", "float"); ("green", "float"); ("blue", "float");
           ("alpha", "float")];
      tab [("_name", "Spectrum"); ("defaultColor", "Color"); ("colors", "[Color]")]])].

(** The protocol it describes. *)
Definition annotated : protocol :=
  MkProtocol (Some (TStr "AppMessages")) "uint16" "byte"
    [("Color", MkStruct "Color"
        [MkVar "red" "float" false; MkVar "green" "float" false;
         MkVar "blue" "float" false; MkVar "alpha" "float" false] false);
     ("Spectrum", MkStruct "Spectrum"
        [MkVar "defaultColor" "Color" false; MkVar "colors" "Color" true] false)]
    [("Vector3Message", MkStruct "Vector3Message"
        [MkVar "x" "float" false; MkVar "y" "float" false; MkVar "z" "float" false] true);
     ("NewCharacterMessage", MkStruct "NewCharacterMessage"
        [MkVar "id" "uint64" false; MkVar "characterName" "string" false;
         MkVar "job" "CharacterClass" false; MkVar "strength" "uint16" false;
         MkVar "intelligence" "uint16" false; MkVar "dexterity" "uint16" false;
         MkVar "wisdom" "uint16" false; MkVar "goldInWallet" "uint32" false;
         MkVar "nicknames" "string" true] true);
     ("CharacterJoinedTeam", MkStruct "CharacterJoinedTeam"
        [MkVar "characterID" "uint64" false; MkVar "teamName" "string" false;
         MkVar "teamColors" "Color" true; MkVar "role" "TeamRole" false] true)]
    [("CharacterClass", MkEnum "CharacterClass"
        [("Fighter", 0); ("Wizard", 1); ("Rogue", 2); ("Cleric", 3)] "byte");
     ("TeamRole", MkEnum "TeamRole"
        [("Minion", 256); ("Ally", 512); ("Leader", 1024); ("Traitor", -1)] "int16")].

(** Two structs that contain each other, listed after a harmless one. *)
Definition two_cycle_toml : list (string * toml) :=
  [("structs", TArr
     [tab [("_name", "Leaf"); ("n", "byte")];
      tab [("_name", "B"); ("c", "C")];
      tab [("_name", "C"); ("leaf", "Leaf"); ("b", "[B]")]])].
Definition two_cycle : protocol :=
  MkProtocol None "uint32" "uint32"
    [("Leaf", MkStruct "Leaf" [MkVar "n" "byte" false] false);
     ("B", MkStruct "B" [MkVar "c" "C" false] false);
     ("C", MkStruct "C" [MkVar "leaf" "Leaf" false; MkVar "b" "B" true] false)] [] [].

(** The same cycle, but a struct that only leads to it is listed first. *)
Definition side_cycle_toml : list (string * toml) :=
  [("structs", TArr
     [tab [("_name", "A"); ("b", "B")];
      tab [("_name", "B"); ("c", "C")];
      tab [("_name", "C"); ("b", "[B]")]])].
Definition side_cycle : protocol :=
  MkProtocol None "uint32" "uint32"
    [("A", MkStruct "A" [MkVar "b" "B" false] false);
     ("B", MkStruct "B" [MkVar "c" "C" false] false);
     ("C", MkStruct "C" [MkVar "b" "B" true] false)] [] [].

(** Two enums with one name. *)
Definition twin_enums_toml : list (string * toml) :=
  [("enums", TArr
     [TTab [("_name", TStr "E"); ("_values", TArr [TStr "x"; TStr "y"])];
      TTab [("_name", TStr "E"); ("_values", TArr [TStr "z"])]])].

(** A member that is named like a base type. *)
Definition member_byte_toml : list (string * toml) :=
  [("messages", TArr [tab [("_name", "M"); ("byte", "uint16"); ("list", "string")]])].
