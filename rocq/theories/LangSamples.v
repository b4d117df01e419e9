(** Small protocols and values for the examples and counterexamples about
    generated code. *)
From Verif Require Export WireSamples.
Open Scope string_scope.

(** One message with a string. *)
Definition notes_toml : list (string * toml) :=
  [("meta", tab [("list_size_type", "byte"); ("string_size_type", "byte")]);
   ("messages", TArr [tab [("_name", "Note"); ("body", "string")]])].
Definition notes : protocol :=
  MkProtocol None "byte" "byte" []
    [("Note", MkStruct "Note" [MkVar "body" "string" false] true)] [].
Definition note (s : list byte) : val := VStruct [("body", VStr s)].

(** The same with lengths of eight bytes. *)
Definition long_notes_toml : list (string * toml) :=
  [("meta", tab [("list_size_type", "byte"); ("string_size_type", "uint64")]);
   ("messages", TArr [tab [("_name", "Note"); ("body", "string")]])].
Definition long_notes : protocol :=
  MkProtocol None "byte" "uint64" []
    [("Note", MkStruct "Note" [MkVar "body" "string" false] true)] [].

(** A list of structs in which a list has the same name. *)
Definition nested_toml : list (string * toml) :=
  [("meta", tab [("list_size_type", "byte"); ("string_size_type", "byte")]);
   ("structs", TArr [tab [("_name", "Page"); ("items", "[string]")]]);
   ("messages", TArr [tab [("_name", "Book"); ("items", "[Page]")]])].
Definition nested : protocol :=
  MkProtocol None "byte" "byte"
    [("Page", MkStruct "Page" [MkVar "items" "string" true] false)]
    [("Book", MkStruct "Book" [MkVar "items" "Page" true] true)] [].
Definition book : val := VStruct
  [("items", VList [VStruct [("items", VList [VStr (text "a")])];
                    VStruct [("items", VList [VStr (text "bcd")])]])].

(** A message with a list, for any type of list lengths. *)
Definition numbers_toml (size : string) : list (string * toml) :=
  [("meta", tab [("list_size_type", size); ("string_size_type", "byte")]);
   ("messages", TArr [tab [("_name", "Numbers"); ("items", "[byte]")]])].
Definition numbers (size : string) : protocol :=
  MkProtocol None size "byte" []
    [("Numbers", MkStruct "Numbers" [MkVar "items" "byte" true] true)] [].
Definition some_numbers (l : list Z) : val := VStruct [("items", VList (map VInt l))].

(** A string that is followed by something. *)
Definition tracks_toml : list (string * toml) :=
  [("meta", tab [("list_size_type", "byte"); ("string_size_type", "uint16")]);
   ("structs", TArr [tab [("_name", "Point"); ("label", "string"); ("x", "int16")]]);
   ("messages", TArr [tab [("_name", "Track"); ("name", "string"); ("points", "[Point]")]])].
Definition tracks : protocol :=
  MkProtocol None "byte" "uint16"
    [("Point", MkStruct "Point" [MkVar "label" "string" false; MkVar "x" "int16" false] false)]
    [("Track", MkStruct "Track" [MkVar "name" "string" false; MkVar "points" "Point" true] true)] [].
Definition track : val := VStruct
  [("name", VStr (text "ab")); ("points", VList [VStruct [("label", VStr (text "c")); ("x", VInt (-2))]])].
Definition track_bytes : list byte := [x02; x00; x61; x62; x01; x01; x00; x63; xfe; xff].

(** A list of numbers of two bytes, for any type of list lengths. *)
Definition shorts_toml (size : string) : list (string * toml) :=
  [("meta", tab [("list_size_type", size); ("string_size_type", "byte")]);
   ("messages", TArr [tab [("_name", "Numbers"); ("items", "[int16]")]])].
Definition shorts (size : string) : protocol :=
  MkProtocol None size "byte" []
    [("Numbers", MkStruct "Numbers" [MkVar "items" "int16" true] true)] [].

(** A string, for any type of string lengths. *)
Definition sized_notes_toml (size : string) : list (string * toml) :=
  [("meta", tab [("list_size_type", "byte"); ("string_size_type", size)]);
   ("messages", TArr [tab [("_name", "Note"); ("body", "string")]])].
Definition sized_notes (size : string) : protocol :=
  MkProtocol None "byte" size []
    [("Note", MkStruct "Note" [MkVar "body" "string" false] true)] [].

(** A member with the name of a list's length; its type may vary. *)
Definition counted_toml (t : string) : list (string * toml) :=
  [("meta", tab [("list_size_type", "uint16"); ("string_size_type", "byte")]);
   ("messages", TArr [tab [("_name", "Counted"); ("items_len", t); ("items", "[int16]")]])].
Definition counted (t : string) : protocol :=
  MkProtocol None "uint16" "byte" []
    [("Counted", MkStruct "Counted" [MkVar "items_len" t false; MkVar "items" "int16" true] true)] [].
Definition some_counted : val := VStruct [("items_len", VInt 7); ("items", VList [VInt 1])].

(** Member names that differ only in style. *)
Definition twins_toml (a b : string) : list (string * toml) :=
  [("messages", TArr [tab [("_name", "Twins"); (a, "int16"); (b, "int16")]])].
Definition twins (a b : string) : protocol :=
  MkProtocol None "uint32" "uint32" []
    [("Twins", MkStruct "Twins" [MkVar a "int16" false; MkVar b "int16" false] true)] [].

(** Enums whose values count up, and a message with them. *)
Definition moods_toml : list (string * toml) :=
  [("meta", tab [("list_size_type", "uint16"); ("string_size_type", "byte")]);
   ("enums", TArr [TTab [("_name", TStr "Mood"); ("_values", TArr [TStr "Calm"; TStr "Happy"; TStr "Angry"])]]);
   ("messages", TArr [tab [("_name", "Diary"); ("title", "string"); ("mood", "Mood"); ("moods", "[Mood]")]])].
Definition moods : protocol :=
  MkProtocol None "uint16" "byte" []
    [("Diary", MkStruct "Diary" [MkVar "title" "string" false; MkVar "mood" "Mood" false; MkVar "moods" "Mood" true] true)]
    [("Mood", MkEnum "Mood" [("Calm", 0); ("Happy", 1); ("Angry", 2)] "byte")]%Z.
Definition diary : val := VStruct
  [("title", VStr (text "May")); ("mood", VInt 2); ("moods", VList [VInt 0; VInt 1])].
Definition diary_bytes : list byte := [x03; x4d; x61; x79; x02; x02; x00; x00; x01].
Definition diaries : list (string * val) := [("Diary", diary); ("Diary", diary)].
Definition diaries_bytes : list byte := x01 :: diary_bytes ++ x01 :: diary_bytes.
Definition diaries_packed : list byte := header ++ [x02; x00; x00; x00] ++ diaries_bytes ++ [x00].

(** A message with one enum, given its values. *)
Definition signal_toml (values : list (string * Z)) : list (string * toml) :=
  [("enums", TArr [TTab [("_name", TStr "Sign");
      ("_values", TArr (map (fun v => TTab [("_name", TStr (fst v)); ("_value", TInt (snd v))]) values))]]);
   ("messages", TArr [tab [("_name", "Signal"); ("sign", "Sign")]])].
Definition signal (values : list (string * Z)) (encoding : string) : protocol :=
  MkProtocol None "uint32" "uint32" []
    [("Signal", MkStruct "Signal" [MkVar "sign" "Sign" false] true)] [("Sign", MkEnum "Sign" values encoding)].

(** A struct of fixed size inside a message; the names of its members may vary. *)
Definition pose_toml (a b : string) : list (string * toml) :=
  [("structs", TArr [tab [("_name", "Point"); (a, "int16"); (b, "int16")]]);
   ("messages", TArr [tab [("_name", "Pose"); ("at", "Point")]])].
Definition pose (a b : string) : protocol :=
  MkProtocol None "uint32" "uint32"
    [("Point", MkStruct "Point" [MkVar a "int16" false; MkVar b "int16" false] false)]
    [("Pose", MkStruct "Pose" [MkVar "at" "Point" false] true)] [].
Definition some_pose (a b : string) : val := VStruct [("at", VStruct [(a, VInt 1); (b, VInt (-2))])].
Definition some_pose_bytes : list byte := [x01; x00; xfe; xff].

(** An enum inside a struct of fixed size. *)
Definition hands_toml : list (string * toml) :=
  [("enums", TArr [TTab [("_name", TStr "Sign"); ("_values", TArr [TStr "Rock"; TStr "Paper"])]]);
   ("structs", TArr [tab [("_name", "Hand"); ("sign", "Sign"); ("age", "byte")]]);
   ("messages", TArr [tab [("_name", "Show"); ("hand", "Hand")]])].
Definition hands : protocol :=
  MkProtocol None "uint32" "uint32"
    [("Hand", MkStruct "Hand" [MkVar "sign" "Sign" false; MkVar "age" "byte" false] false)]
    [("Show", MkStruct "Show" [MkVar "hand" "Hand" false] true)]
    [("Sign", MkEnum "Sign" [("Rock", 0); ("Paper", 1)] "byte")]%Z.

(** An enum without zero inside a struct with a string. *)
Definition pages_toml : list (string * toml) :=
  [("meta", tab [("list_size_type", "byte"); ("string_size_type", "byte")]);
   ("enums", TArr [TTab [("_name", TStr "Side");
      ("_values", TArr [TTab [("_name", TStr "Left"); ("_value", TInt 1)]; TTab [("_name", TStr "Right"); ("_value", TInt 2)]])]]);
   ("structs", TArr [tab [("_name", "Page"); ("side", "Side"); ("body", "string")]]);
   ("messages", TArr [tab [("_name", "Turn"); ("page", "Page")]])].
Definition pages : protocol :=
  MkProtocol None "byte" "byte"
    [("Page", MkStruct "Page" [MkVar "side" "Side" false; MkVar "body" "string" false] false)]
    [("Turn", MkStruct "Turn" [MkVar "page" "Page" false] true)]
    [("Side", MkEnum "Side" [("Left", 1); ("Right", 2)] "byte")]%Z.

(** A message and a struct, with names to choose. *)
Definition two_types_toml (s m : string) : list (string * toml) :=
  [("structs", TArr [tab [("_name", s); ("n", "byte")]]);
   ("messages", TArr [tab [("_name", m); ("items", ("[" +++ s +++ "]")%string)]])].
Definition two_types (s m : string) : protocol :=
  MkProtocol None "uint32" "uint32"
    [(s, MkStruct s [MkVar "n" "byte" false] false)]
    [(m, MkStruct m [MkVar "items" s true] true)] [].

(** Two enums, with names to choose for them and for a value of each. *)
Definition two_enums_toml (a x b y : string) : list (string * toml) :=
  [("enums", TArr [TTab [("_name", TStr a); ("_values", TArr [TStr x])]; TTab [("_name", TStr b); ("_values", TArr [TStr y])]]);
   ("messages", TArr [tab [("_name", "Pair"); ("first", a); ("second", b)]])].
Definition two_enums (a x b y : string) : protocol :=
  MkProtocol None "uint32" "uint32" []
    [("Pair", MkStruct "Pair" [MkVar "first" a false; MkVar "second" b false] true)]
    [(a, MkEnum a [(x, 0)] "byte"); (b, MkEnum b [(y, 0)] "byte")]%Z.

(** A message with two strings, with names to choose. *)
Definition labels_toml (t a b : string) : list (string * toml) :=
  [("messages", TArr [tab [("_name", t); (a, "string"); (b, "string")]])].
Definition labels (t a b : string) : protocol :=
  MkProtocol None "uint32" "uint32" []
    [(t, MkStruct t [MkVar a "string" false; MkVar b "string" false] true)] [].

(** An enum inside a struct of fixed size, beside a string. *)
Definition rounds_toml : list (string * toml) :=
  [("enums", TArr [TTab [("_name", TStr "Sign"); ("_values", TArr [TStr "Rock"; TStr "Paper"])]]);
   ("structs", TArr [tab [("_name", "Hand"); ("sign", "Sign"); ("age", "byte")]]);
   ("messages", TArr [tab [("_name", "Round"); ("who", "string"); ("hand", "Hand")]])].
Definition rounds : protocol :=
  MkProtocol None "uint32" "uint32"
    [("Hand", MkStruct "Hand" [MkVar "sign" "Sign" false; MkVar "age" "byte" false] false)]
    [("Round", MkStruct "Round" [MkVar "who" "string" false; MkVar "hand" "Hand" false] true)]
    [("Sign", MkEnum "Sign" [("Rock", 0); ("Paper", 1)] "byte")]%Z.

(** A struct with nothing but an enum. *)
Definition dice_toml : list (string * toml) :=
  [("enums", TArr [TTab [("_name", TStr "Face"); ("_values", TArr [TStr "One"; TStr "Two"])]]);
   ("structs", TArr [tab [("_name", "Die"); ("face", "Face")]]);
   ("messages", TArr [tab [("_name", "Throw"); ("die", "Die")]])].
Definition dice : protocol :=
  MkProtocol None "uint32" "uint32"
    [("Die", MkStruct "Die" [MkVar "face" "Face" false] false)]
    [("Throw", MkStruct "Throw" [MkVar "die" "Die" false] true)]
    [("Face", MkEnum "Face" [("One", 0); ("Two", 1)] "byte")]%Z.

(** Something of every kind, with the same type for all lengths. *)
Definition photos_toml : list (string * toml) :=
  [("meta", tab [("list_size_type", "uint32"); ("string_size_type", "uint32")]);
   ("enums", TArr [TTab [("_name", TStr "Mood"); ("_values", TArr [TStr "Calm"; TStr "Happy"])]]);
   ("structs", TArr [tab [("_name", "Point"); ("x", "int16"); ("y", "int16")];
                     tab [("_name", "Face"); ("label", "string"); ("at", "Point")]]);
   ("messages", TArr [tab [("_name", "Photo"); ("title", "string"); ("moods", "[Mood]"); ("faces", "[Face]")]])].
Definition photos : protocol :=
  MkProtocol None "uint32" "uint32"
    [("Point", MkStruct "Point" [MkVar "x" "int16" false; MkVar "y" "int16" false] false);
     ("Face", MkStruct "Face" [MkVar "label" "string" false; MkVar "at" "Point" false] false)]
    [("Photo", MkStruct "Photo" [MkVar "title" "string" false; MkVar "moods" "Mood" true; MkVar "faces" "Face" true] true)]
    [("Mood", MkEnum "Mood" [("Calm", 0); ("Happy", 1)] "byte")]%Z.
Definition photo : val := VStruct
  [("title", VStr (text "us")); ("moods", VList [VInt 1]);
   ("faces", VList [VStruct [("label", VStr (text "A")); ("at", VStruct [("x", VInt 1); ("y", VInt (-2))])]])].
Definition photo_bytes : list byte :=
  ([x02; x00; x00; x00; x75; x73;  x01; x00; x00; x00; x01;
    x01; x00; x00; x00;  x01; x00; x00; x00; x41;  x01; x00; xfe; xff])%list.

(** A struct that comes before the one it contains. *)
Definition backwards_toml : list (string * toml) :=
  [("structs", TArr [tab [("_name", "Line"); ("start", "Point"); ("end", "Point")];
                     tab [("_name", "Point"); ("x", "int16"); ("y", "int16")]]);
   ("messages", TArr [tab [("_name", "Draw"); ("line", "Line")]])].
Definition backwards : protocol :=
  MkProtocol None "uint32" "uint32"
    [("Line", MkStruct "Line" [MkVar "start" "Point" false; MkVar "end" "Point" false] false);
     ("Point", MkStruct "Point" [MkVar "x" "int16" false; MkVar "y" "int16" false] false)]
    [("Draw", MkStruct "Draw" [MkVar "line" "Line" false] true)] [].

(** A list of numbers of eight bytes, for any type of list lengths. *)
Definition doubles_toml (size : string) : list (string * toml) :=
  [("meta", tab [("list_size_type", size); ("string_size_type", "byte")]);
   ("messages", TArr [tab [("_name", "Numbers"); ("items", "[double]")]])].
Definition doubles (size : string) : protocol :=
  MkProtocol None size "byte" []
    [("Numbers", MkStruct "Numbers" [MkVar "items" "double" true] true)] [].
