(** C54: the printed types declare exactly their members (models: Lines.v, XText.v, Cli.v; specification: FieldSpec.v). *)
From Verif Require Import FieldSpec TopSpec PropTopFacts PropFieldFacts LangSampleFacts.
Open Scope string_scope.
Open Scope Z_scope.
Open Scope list_scope.

(** In the text for seven of the languages, the types that are opened are those of the boilerplate and one for
    every struct and message, in the order of declaration; and the lines up to the end of the members are exactly
    one declaration for every member, in order, with its name, the type of the language, and its initial value.
    Without --embed-protocol; in TypeScript and AssemblyScript, if no type is called bigint or boolean. *)
Theorem C54_fields_partial lang p g parts :
  In lang field_writers -> accepted p -> usual lang g -> no_builtin lang p ->
  (file_fields lang p g parts <-> parts = expected_parts lang g p).
Proof. exact (fields_exactly lang p g parts). Qed.
Print Assumptions C54_fields_partial.
Example C54_fields_partial_met :
  In "zig" field_writers /\ accepted annotated /\ usual "zig" (plain_settings "zig" None) /\ no_builtin "zig" annotated /\
  expected_parts "zig" (plain_settings "zig" None) annotated =
  [Opens "Color"; Field "red: f32 = 0.0,"; Field "green: f32 = 0.0,";
   Field "blue: f32 = 0.0,"; Field "alpha: f32 = 0.0,";
   Opens "Spectrum"; Field "defaultColor: Color = Color{},";
   Field "colors: []Color = &.{},"; Opens "Vector3Message";
   Field "x: f32 = 0.0,"; Field "y: f32 = 0.0,"; Field "z: f32 = 0.0,";
   Opens "NewCharacterMessage"; Field "id: u64 = 0,";
   Field "characterName: []const u8 = """",";
   Field "job: CharacterClass = CharacterClass.Fighter,";
   Field "strength: u16 = 0,"; Field "intelligence: u16 = 0,";
   Field "dexterity: u16 = 0,"; Field "wisdom: u16 = 0,";
   Field "goldInWallet: u32 = 0,"; Field "nicknames: [][]const u8 = &.{},";
   Opens "CharacterJoinedTeam"; Field "characterID: u64 = 0,";
   Field "teamName: []const u8 = """","; Field "teamColors: []Color = &.{},";
   Field "role: TeamRole = TeamRole.Minion,"].
Proof. exact (zig_fields_annotated). Qed.

(** An enum may be called bigint; its members then start out as 0n in TypeScript, not as the first value. *)
Theorem C54_builtin_refuted lang :
  In lang ["typescript"; "assemblyscript"] ->
  exists p g parts, accepted p /\ usual lang g /\ file_fields lang p g parts /\
    In (Field "first: bigint = 0n;") parts /\ ~ In (Field "first: bigint = bigint.a;") parts.
Proof. exact (builtin_zero lang). Qed.
Print Assumptions C54_builtin_refuted.
Example C54_builtin_refuted_met :
  In "typescript" ["typescript"; "assemblyscript"].
Proof. exact (or_introl eq_refl). Qed.
