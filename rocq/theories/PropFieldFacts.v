(** Lemmas for PropField.v. *)
From Verif Require Import FieldFacts TypeScriptFieldFacts CSharpFieldFacts SwiftFieldFacts RustFieldFacts GoFieldFacts ZigFieldFacts PropTopFacts LangSampleFacts.
Open Scope string_scope.
Open Scope Z_scope.
Open Scope list_scope.

Lemma no_space_spaceless t : no_space t -> spaceless t.
Proof.
  unfold no_space, spaceless; induction t as [ |c t IH]; intro H; [reflexivity| ]; cbn [to_space].
  destruct (Ascii.eqb_spec c " ") as [->|_]; [exfalso; apply (H " "%char); [now left|vm_compute; tauto]| ].
  rewrite IH; [reflexivity|intros x I; apply H; now right].
Qed.
Lemma types_spaceless p : WF p -> forall t, In t (types_in_order p) -> spaceless t.
Proof.
  intros W t I; destruct (wf_names p W t) as (_ & N & _); [ |now apply no_space_spaceless].
  unfold types_in_order in I; rewrite !in_app_iff in I; destruct I as [I|[I|I]];
    apply in_map_iff in I as ([x y] & <- & I); cbn [fst].
  - right; right; now exists y.
  - left; now exists y.
  - right; left; now exists y.
Qed.
Lemma fields_declared lang p g : In lang field_writers -> accepted p -> usual lang g -> no_builtin lang p ->
  file_fields lang p g (expected_parts lang g p).
Proof.
  intros I A (E & N & B & F) NB; pose proof (accepted_WF p A) as W; pose proof (WF_text_ok p W) as T.
  pose proof (WF_field_types p W) as FT; pose proof (types_spaceless p W) as SP; unfold no_builtin in NB.
  cbn [In field_writers] in I; destruct I as [<-|[<-|[<-|[<-|[<-|[<-|[<-|[]]]]]]]].
  - now apply ts_generate_walks; [ | |apply NB|..].
  - now apply as_generate_walks; [ | |apply NB|..].
  - now apply cs_generate_walks.
  - now apply sw_generate_walks.
  - now apply rs_generate_walks.
  - now apply go_generate_walks.
  - now apply zg_generate_walks.
Qed.
Lemma file_fields_unique lang p g a b : file_fields lang p g a -> file_fields lang p g b -> a = b.
Proof. intros (x & X & E) (y & Y & F); rewrite X in Y; injection Y as <-; rewrite E in F; now injection F. Qed.
Lemma fields_exactly lang p g parts : In lang field_writers -> accepted p -> usual lang g -> no_builtin lang p ->
  (file_fields lang p g parts <-> parts = expected_parts lang g p).
Proof.
  intros I A U NB; pose proof (fields_declared lang p g I A U NB) as H; split; [intro K; exact (file_fields_unique _ _ _ _ _ K H)|now intros ->].
Qed.

Lemma builtins_accepted : accepted (two_enums "bigint" "a" "boolean" "b").
Proof. accepted_tac (two_enums_toml "bigint" "a" "boolean" "b"). Qed.
Lemma builtin_zero lang : In lang ["typescript"; "assemblyscript"] ->
  exists p g parts, accepted p /\ usual lang g /\ file_fields lang p g parts /\
    In (Field "first: bigint = 0n;") parts /\ ~ In (Field "first: bigint = bigint.a;") parts.
Proof.
  intro I; exists (two_enums "bigint" "a" "boolean" "b"), (plain_settings lang None), (own_parts lang ++
    [Opens "Pair"; Field "first: bigint = 0n;"; Field "second: boolean = false;"]).
  split; [exact builtins_accepted|split; [apply plain_usual| ]]; split.
  - destruct I as [<-|[<-|[]]]; vm_compute; eexists; split; reflexivity.
  - destruct I as [<-|[<-|[]]]; vm_compute; (split; [tauto|intro H; decompose [or] H; try discriminate; contradiction]).
Qed.

Lemma zig_fields_annotated :
  In "zig" field_writers /\ accepted annotated /\ usual "zig" (plain_settings "zig" None) /\ no_builtin "zig" annotated /\
  expected_parts "zig" (plain_settings "zig" None) annotated =
  [Opens "Color"; Field "red: f32 = 0.0,"; Field "green: f32 = 0.0,";
   Field "blue: f32 = 0.0,"; Field "alpha: f32 = 0.0,";
   Opens "Spectrum"; Field "defaultColor: Color = Color{},";
   Field "colors: []Color = &.{},"; Opens "Vector3Message";
   Field "x: f32 = 0.0,"; Field "y: f32 = 0.0,"; Field "z: f32 = 0.0,";
   Opens "NewCharacterMessage"; Field "id: u64 = 0,";
   Field "characterName: []const u8 = """",";
   Field "job: CharacterClass = CharacterClass.Fighter,";
   Field "strength: u16 = 0,"; Field "intelligence: u16 = 0,";
   Field "dexterity: u16 = 0,"; Field "wisdom: u16 = 0,";
   Field "goldInWallet: u32 = 0,"; Field "nicknames: [][]const u8 = &.{},";
   Opens "CharacterJoinedTeam"; Field "characterID: u64 = 0,";
   Field "teamName: []const u8 = """","; Field "teamColors: []Color = &.{},";
   Field "role: TeamRole = TeamRole.Minion,"].
Proof.
  split; [cbn; tauto|split; [exact annotated_accepted_proof|split; [apply plain_usual|split; [discriminate| ]]]].
  vm_compute. reflexivity.
Qed.
