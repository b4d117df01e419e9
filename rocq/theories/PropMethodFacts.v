(** Lemmas for PropMethod.v. *)
From Verif Require Import GoMethodFacts RustMethodFacts CSharpMethodFacts SwiftMethodFacts TypeScriptMethodFacts TypeScriptFieldFacts PropFieldFacts PropTopFacts LangSampleFacts.
Open Scope string_scope.
Open Scope Z_scope.
Open Scope list_scope.

Lemma go_methods_found p g : accepted p -> usual "go" g -> word_types p -> go_file_methods p g (go_method_parts p).
Proof.
  intros A U W; pose proof (accepted_WF p A) as F; apply go_generate_meets; auto.
  - now apply WF_text_ok.
  - intros n s I; now apply (wf_struct_entry p F n s).
  - intros n s I; now apply (wf_message_entry p F n s).
Qed.
Lemma go_file_methods_unique p g a b : go_file_methods p g a -> go_file_methods p g b -> a = b.
Proof. intros (x & X & E) (y & Y & F); rewrite X in Y; injection Y as <-; rewrite E in F; now injection F. Qed.
Lemma go_methods_exactly p g parts : accepted p -> usual "go" g -> word_types p ->
  (go_file_methods p g parts <-> parts = go_method_parts p).
Proof.
  intros A U W; pose proof (go_methods_found p g A U W) as H; split; [intro K; exact (go_file_methods_unique _ _ _ _ K H)|now intros ->].
Qed.

Lemma in_go_parts x p : In x (go_method_parts p) <->
  In x [Demands "Message" "GetMessageType() MessageType"; Demands "Message" "WriteBytes(data io.Writer, tag bool)";
        Demands "Message" "GetSizeInBytes() int"] \/
  (exists t, In t (map fst (p_structs p)) /\ x = Offers t "WriteBytes(data io.Writer)") \/
  (exists t m, In t (map fst (p_messages p)) /\ In m message_methods /\ x = Offers t m).
Proof.
  unfold go_method_parts; rewrite !in_app_iff, in_map_iff, in_flat_map; split; (intros [H|[H|H]]; [now left|right; left|right; right]).
  - destruct H as ([n s] & <- & I); exists n; split; [apply in_map_iff; now exists (n, s)|reflexivity].
  - destruct H as ([n s] & I & J); apply in_map_iff in J as (m & <- & J); exists n, m; split; [apply in_map_iff; now exists (n, s)|auto].
  - destruct H as (t & I & ->); apply in_map_iff in I as ([n s] & <- & I); now exists (n, s).
  - destruct H as (t & m & I & J & ->); apply in_map_iff in I as ([n s] & <- & I); exists (n, s); split; [exact I|apply in_map_iff; now exists m].
Qed.
Lemma go_implements p g parts t i : accepted p -> usual "go" g -> word_types p -> go_file_methods p g parts ->
  is_demanded parts i -> (implements parts t i <-> In t (map fst (p_messages p))).
Proof.
  intros A U W H D; apply (go_methods_exactly p g parts A U W) in H as ->; pose proof (accepted_WF p A) as F.
  assert (i = "Message") as ->.
  { destruct D as [m D]; apply in_go_parts in D as [D|[(x & _ & D)|(x & y & _ & _ & D)]]; [ |discriminate..].
    cbn in D; decompose [or] D; try contradiction; congruence. }
  split; intro H.
  - assert (K : In (Offers t "GetMessageType() MessageType") (go_method_parts p)) by (apply H, in_go_parts; left; now left).
    apply in_go_parts in K as [K|[(x & I & K)|(x & y & I & J & K)]]; [ |discriminate|injection K as -> _; exact I].
    cbn in K; decompose [or] K; try contradiction; discriminate.
  - intros m D'; apply in_go_parts; right; right; exists t, m; split; [exact H|split; [ |reflexivity]].
    apply in_go_parts in D' as [K|[(x & _ & K)|(x & y & _ & _ & K)]]; [ |discriminate..].
    cbn in K |- *; decompose [or] K; try contradiction; match goal with X : Demands _ _ = _ |- _ => injection X as <- end; tauto.
Qed.
Lemma nodup_blocks {A B} (f : A -> list (A * B)) (l : list A) : NoDup l -> (forall x, NoDup (f x)) ->
  (forall x y, In y (f x) -> fst y = x) -> NoDup (flat_map f l).
Proof.
  intros N F K; induction N as [ |x l H N IH]; cbn [flat_map]; [exact (NoDup_nil _)| ]; apply (proj2 (PropTopFacts.nodup_app _ _)); split; [apply F|split; [exact IH| ]].
  intros y I J; apply in_flat_map in J as (z & Z & J); apply K in I, J; congruence.
Qed.
Lemma go_offered_once p g parts : accepted p -> usual "go" g -> word_types p -> go_file_methods p g parts ->
  NoDup (flat_map offered parts).
Proof.
  intros A U W H; apply (go_methods_exactly p g parts A U W) in H as ->; pose proof (accepted_WF p A) as F.
  set (a := fun t : string => [(t, "WriteBytes")]); set (b := fun t : string => [(t, "GetMessageType"); (t, "GetSizeInBytes"); (t, "WriteBytes")]).
  replace (flat_map offered (go_method_parts p)) with (flat_map a (map fst (p_structs p)) ++ flat_map b (map fst (p_messages p))).
  - apply (proj2 (PropTopFacts.nodup_app _ _)); split; [ |split].
    + apply nodup_blocks; [apply (wf_structs_nodup p F)|intro x; repeat constructor; intros []|intros x y [<-|[]]; reflexivity].
    + apply nodup_blocks; [apply (wf_messages_nodup p F)| |intros x y [<-|[<-|[<-|[]]]]; reflexivity].
      intro x; subst b; cbn; repeat constructor; cbn; intuition congruence.
    + intros y I J; apply in_flat_map in I as (x & X & I), J as (z & Z & J).
      destruct I as [<-|[]]; destruct J as [J|[J|[J|[]]]]; injection J as <-; try discriminate.
      apply in_map_iff in X as ([n s] & <- & X), Z as ([n' s'] & Y & Z); cbn [fst] in *; subst n'.
      apply (proj1 (wf_disjoint p F n)); split; [now exists s|now exists s'].
  - unfold go_method_parts; rewrite !flat_map_app; cbn [flat_map offered app]; f_equal.
    + clear; induction (p_structs p) as [ |[n s] l IH]; [reflexivity|cbn [map flat_map]; rewrite IH; reflexivity].
    + clear; induction (p_messages p) as [ |[n s] l IH]; [reflexivity|cbn [map flat_map]; rewrite flat_map_app, IH; reflexivity].
Qed.

(** ** Rust *)

Lemma rust_methods_found p g : accepted p -> usual "rust" g -> rust_file_methods p g (rust_method_parts p).
Proof.
  intros A U; pose proof (accepted_WF p A) as F; apply rust_generate_views; auto.
  - now apply WF_text_ok.
  - now apply types_spaceless.
  - intros n s I; now apply (wf_struct_entry p F n s).
  - intros n s I; now apply (wf_message_entry p F n s).
Qed.
Lemma rust_file_methods_unique p g a b : rust_file_methods p g a -> rust_file_methods p g b -> a = b.
Proof. intros (x & X & E) (y & Y & F); rewrite X in Y; injection Y as <-; rewrite E in F; now injection F. Qed.
Lemma rust_methods_exactly p g parts : accepted p -> usual "rust" g ->
  (rust_file_methods p g parts <-> parts = rust_method_parts p).
Proof.
  intros A U; pose proof (rust_methods_found p g A U) as H; split; [intro K; exact (rust_file_methods_unique _ _ _ _ K H)|now intros ->].
Qed.
Lemma in_rust_parts x p : In x (rust_method_parts p) <->
  (exists m, In m codec_functions /\ x = Demands "MessageCodec" m) \/
  (exists t m, In t ("Message" :: map fst (p_messages p)) /\ In m codec_functions /\ x = Offers t m).
Proof.
  unfold rust_method_parts; rewrite in_app_iff, in_map_iff, in_flat_map; split; (intros [H|H]; [left|right]).
  - destruct H as (m & <- & I); now exists m.
  - destruct H as (t & I & J); apply in_map_iff in J as (m & <- & J); now exists t, m.
  - destruct H as (m & I & ->); now exists m.
  - destruct H as (t & m & I & J & ->); exists t; split; [exact I|apply in_map_iff; now exists m].
Qed.
Lemma rust_implements p g parts t i : accepted p -> usual "rust" g -> rust_file_methods p g parts ->
  is_demanded parts i -> (implements parts t i <-> In t ("Message" :: map fst (p_messages p))).
Proof.
  intros A U H D; apply (rust_methods_exactly p g parts A U) in H as ->.
  assert (i = "MessageCodec") as ->.
  { destruct D as [m D]; apply in_rust_parts in D as [(x & _ & D)|(x & y & _ & _ & D)]; [congruence|discriminate]. }
  split; intro H.
  - assert (K : In (Offers t "from_bytes") (rust_method_parts p)).
    { apply H, in_rust_parts; left; exists "from_bytes"; split; [cbn; tauto|reflexivity]. }
    apply in_rust_parts in K as [(x & _ & K)|(x & y & I & J & K)]; [discriminate|injection K as -> _; exact I].
  - intros m D'; apply in_rust_parts; right; exists t, m; split; [exact H|split; [ |reflexivity]].
    apply in_rust_parts in D' as [(x & I & K)|(x & y & _ & _ & K)]; [congruence|discriminate].
Qed.

Lemma annotated_methods : accepted annotated /\ usual "go" (plain_settings "go" None) /\ word_types annotated /\
  go_method_parts annotated =
  [Demands "Message" "GetMessageType() MessageType"; Demands "Message" "WriteBytes(data io.Writer, tag bool)";
   Demands "Message" "GetSizeInBytes() int";
   Offers "Color" "WriteBytes(data io.Writer)"; Offers "Spectrum" "WriteBytes(data io.Writer)";
   Offers "Vector3Message" "GetMessageType() MessageType"; Offers "Vector3Message" "GetSizeInBytes() int";
   Offers "Vector3Message" "WriteBytes(data io.Writer, tag bool)";
   Offers "NewCharacterMessage" "GetMessageType() MessageType"; Offers "NewCharacterMessage" "GetSizeInBytes() int";
   Offers "NewCharacterMessage" "WriteBytes(data io.Writer, tag bool)";
   Offers "CharacterJoinedTeam" "GetMessageType() MessageType"; Offers "CharacterJoinedTeam" "GetSizeInBytes() int";
   Offers "CharacterJoinedTeam" "WriteBytes(data io.Writer, tag bool)"].
Proof.
  split; [exact annotated_accepted_proof|split; [apply plain_usual|split]].
  - intros t I; vm_compute in I; decompose [or] I; subst; try contradiction; reflexivity.
  - vm_compute; reflexivity.
Qed.
Lemma annotated_codec : accepted annotated /\ usual "rust" (plain_settings "rust" None) /\
  flat_map offered (rust_method_parts annotated) =
  [("Message", "get_message_type"); ("Message", "get_size_in_bytes"); ("Message", "from_bytes"); ("Message", "write_bytes");
   ("Vector3Message", "get_message_type"); ("Vector3Message", "get_size_in_bytes"); ("Vector3Message", "from_bytes");
   ("Vector3Message", "write_bytes");
   ("NewCharacterMessage", "get_message_type"); ("NewCharacterMessage", "get_size_in_bytes"); ("NewCharacterMessage", "from_bytes");
   ("NewCharacterMessage", "write_bytes");
   ("CharacterJoinedTeam", "get_message_type"); ("CharacterJoinedTeam", "get_size_in_bytes"); ("CharacterJoinedTeam", "from_bytes");
   ("CharacterJoinedTeam", "write_bytes")].
Proof.
  split; [exact annotated_accepted_proof|split; [apply plain_usual|vm_compute; reflexivity]].
Qed.

(** ** C# *)

Lemma csharp_methods_found p g : accepted p -> usual "csharp" g -> ~ In "override" (types_in_order p) ->
  csharp_file_methods p g (csharp_method_parts p).
Proof.
  intros A U O; pose proof (accepted_WF p A) as F; apply csharp_generate_notes; auto.
  - now apply WF_text_ok.
  - now apply WF_field_types.
  - now apply types_spaceless.
  - intros n s I; now apply (wf_struct_entry p F n s).
  - intros n s I; now apply (wf_message_entry p F n s).
Qed.
Lemma csharp_file_methods_unique p g a b : csharp_file_methods p g a -> csharp_file_methods p g b -> a = b.
Proof. intros (x & X & E) (y & Y & F); rewrite X in Y; injection Y as <-; rewrite E in F; now injection F. Qed.
Lemma csharp_methods_exactly p g parts : accepted p -> usual "csharp" g -> ~ In "override" (types_in_order p) ->
  (csharp_file_methods p g parts <-> parts = csharp_method_parts p).
Proof.
  intros A U O; pose proof (csharp_methods_found p g A U O) as H; split; [intro K; exact (csharp_file_methods_unique _ _ _ _ K H)|now intros ->].
Qed.
Definition csharp_signatures : list string :=
  ["MessageType GetMessageType()"; "int GetSizeInBytes()"; "void WriteBytes(BinaryWriter bw, bool tag)"].
Lemma in_csharp_parts x p : In x (csharp_method_parts p) <->
  (exists m, In m csharp_signatures /\ x = Demands "Message" m) \/
  (exists t m, In t (map fst (p_messages p)) /\ In m csharp_signatures /\ x = Offers t m).
Proof.
  unfold csharp_method_parts; rewrite in_app_iff, in_map_iff, in_flat_map; split; (intros [H|H]; [left|right]).
  - destruct H as (m & <- & I); exists m; split; [ |reflexivity]; destruct I as [I|[I|[I|[]]]]; subst m; cbn; tauto.
  - destruct H as (t & I & J); apply in_map_iff in J as (m & <- & J); now exists t, m.
  - destruct H as (m & I & ->); exists m; split; [reflexivity| ]; destruct I as [I|[I|[I|[]]]]; subst m; cbn; tauto.
  - destruct H as (t & m & I & J & ->); exists t; split; [exact I|apply in_map_iff; now exists m].
Qed.
Lemma csharp_implements p g parts t i : accepted p -> usual "csharp" g -> ~ In "override" (types_in_order p) ->
  csharp_file_methods p g parts -> is_demanded parts i -> (implements parts t i <-> In t (map fst (p_messages p))).
Proof.
  intros A U O H D; apply (csharp_methods_exactly p g parts A U O) in H as ->.
  assert (i = "Message") as ->.
  { destruct D as [m D]; apply in_csharp_parts in D as [(x & _ & D)|(x & y & _ & _ & D)]; [congruence|discriminate]. }
  split; intro H.
  - assert (K : In (Offers t "int GetSizeInBytes()") (csharp_method_parts p)).
    { apply H, in_csharp_parts; left; exists "int GetSizeInBytes()"; split; [cbn; tauto|reflexivity]. }
    apply in_csharp_parts in K as [(x & _ & K)|(x & y & I & J & K)]; [discriminate|injection K as -> _; exact I].
  - intros m D'; apply in_csharp_parts; right; exists t, m; split; [exact H|split; [ |reflexivity]].
    apply in_csharp_parts in D' as [(x & I & K)|(x & y & _ & _ & K)]; [congruence|discriminate].
Qed.
Lemma annotated_overrides : accepted annotated /\ usual "csharp" (plain_settings "csharp" None) /\
  ~ In "override" (types_in_order annotated) /\
  csharp_method_parts annotated =
  [Demands "Message" "MessageType GetMessageType()"; Demands "Message" "void WriteBytes(BinaryWriter bw, bool tag)"; Demands "Message" "int GetSizeInBytes()";
   Offers "Vector3Message" "MessageType GetMessageType()"; Offers "Vector3Message" "int GetSizeInBytes()"; Offers "Vector3Message" "void WriteBytes(BinaryWriter bw, bool tag)";
   Offers "NewCharacterMessage" "MessageType GetMessageType()"; Offers "NewCharacterMessage" "int GetSizeInBytes()"; Offers "NewCharacterMessage" "void WriteBytes(BinaryWriter bw, bool tag)";
   Offers "CharacterJoinedTeam" "MessageType GetMessageType()"; Offers "CharacterJoinedTeam" "int GetSizeInBytes()"; Offers "CharacterJoinedTeam" "void WriteBytes(BinaryWriter bw, bool tag)"].
Proof.
  split; [exact annotated_accepted_proof|split; [apply plain_usual|split; [ |vm_compute; reflexivity]]].
  intro I; vm_compute in I; decompose [or] I; try contradiction; discriminate.
Qed.

(** ** No method twice *)

Lemma nodup_offers {A} (f : A -> list mpart) (name : A -> string) (l : list A) : NoDup (map name l) -> (forall x, NoDup (f x)) ->
  (forall x y, In y (f x) -> exists m, y = Offers (name x) m) -> NoDup (flat_map f l).
Proof.
  intros N F K; induction l as [ |x l IH]; cbn [flat_map]; [exact (NoDup_nil _)| ].
  cbn [map] in N; apply NoDup_cons_iff in N as [H N]; apply (proj2 (PropTopFacts.nodup_app _ _)); split; [apply F|split; [exact (IH N)| ]].
  intros y I J; apply in_flat_map in J as (z & Z & J); apply K in I as [a I], J as [b J]; apply H, in_map_iff; exists z; split; [congruence|exact Z].
Qed.
Lemma nodup_map_offers t l : NoDup l -> NoDup (map (Offers t) l).
Proof.
  intro N; induction N as [ |x l H N IH]; cbn [map]; constructor; [ |exact IH].
  intro I; apply in_map_iff in I as (y & E & I); injection E as ->; contradiction.
Qed.
Lemma rust_once_iff p g parts : accepted p -> usual "rust" g -> rust_file_methods p g parts ->
  (NoDup parts <-> ~ In "Message" (map fst (p_messages p))).
Proof.
  intros A U H; apply (rust_methods_exactly p g parts A U) in H as ->; pose proof (accepted_WF p A) as F.
  assert (C : NoDup codec_functions) by (unfold codec_functions; repeat constructor; cbn; intuition congruence).
  unfold rust_method_parts; split; intro H.
  - apply (proj1 (PropTopFacts.nodup_app _ _)) in H as (_ & H & _); cbn [flat_map] in H.
    apply (proj1 (PropTopFacts.nodup_app _ _)) in H as (_ & _ & H); intro I.
    apply (H (Offers "Message" "from_bytes")); [cbn; tauto|apply in_flat_map; exists "Message"; split; [exact I|cbn; tauto]].
  - apply (proj2 (PropTopFacts.nodup_app _ _)); split; [ |split].
    + unfold codec_functions; cbn [map]; repeat constructor; cbn; intuition congruence.
    + apply (nodup_offers _ (fun t => t)); [rewrite map_id; constructor; [exact H|apply (wf_messages_nodup p F)]|intro t; now apply nodup_map_offers| ].
      intros t y I; apply in_map_iff in I as (m & <- & I); now exists m.
    + intros y I J; apply in_map_iff in I as (m & <- & I); apply in_flat_map in J as (t & T & J); apply in_map_iff in J as (m' & E & J); discriminate.
Qed.
Lemma csharp_once p g parts : accepted p -> usual "csharp" g -> ~ In "override" (types_in_order p) ->
  csharp_file_methods p g parts -> NoDup parts.
Proof.
  intros A U O H; apply (csharp_methods_exactly p g parts A U O) in H as ->; pose proof (accepted_WF p A) as F.
  unfold csharp_method_parts; apply (proj2 (PropTopFacts.nodup_app _ _)); split; [ |split].
  - cbn [map]; repeat constructor; cbn; intuition congruence.
  - apply (nodup_offers _ (fun t => t)); [rewrite map_id; apply (wf_messages_nodup p F)| | ].
    + intro t; apply nodup_map_offers; repeat constructor; cbn; intuition congruence.
    + intros t y I; apply in_map_iff in I as (m & <- & I); now exists m.
  - intros y I J; apply in_map_iff in I as (m & <- & I); apply in_flat_map in J as (t & T & J); apply in_map_iff in J as (m' & E & J); discriminate.
Qed.

Lemma message_message_accepted : accepted (two_types "Note" "Message").
Proof. accepted_tac (two_types_toml "Note" "Message"). Qed.
Lemma rust_message_twice : exists p g parts, accepted p /\ usual "rust" g /\ word_types p /\ rust_file_methods p g parts /\
  ~ NoDup (flat_map offered parts).
Proof.
  exists (two_types "Note" "Message"), (plain_settings "rust" None), (rust_method_parts (two_types "Note" "Message")).
  pose proof message_message_accepted as A; pose proof (plain_usual "rust" None) as U.
  split; [exact A|split; [exact U|split; [now apply two_types_words|split; [now apply rust_methods_found| ]]]].
  intro N; vm_compute in N; apply NoDup_cons_iff in N as [N _]; apply N; cbn; tauto.
Qed.

Lemma override_accepted : accepted (two_enums "override" "x" "B" "y").
Proof. accepted_tac (two_enums_toml "override" "x" "B" "y"). Qed.
Lemma csharp_override_type : exists p g parts, accepted p /\ usual "csharp" g /\ word_types p /\ csharp_file_methods p g parts /\
  In (Offers "Pair" "first = override.x;") parts.
Proof.
  exists (two_enums "override" "x" "B" "y"), (plain_settings "csharp" None),
    [Demands "Message" "MessageType GetMessageType()"; Demands "Message" "void WriteBytes(BinaryWriter bw, bool tag)";
     Demands "Message" "int GetSizeInBytes()"; Offers "Pair" "first = override.x;"; Offers "Pair" "MessageType GetMessageType()";
     Offers "Pair" "int GetSizeInBytes()"; Offers "Pair" "void WriteBytes(BinaryWriter bw, bool tag)"].
  split; [exact override_accepted|split; [apply plain_usual|split; [ |split]]].
  - intros t J; vm_compute in J; decompose [or] J; subst; try contradiction; reflexivity.
  - eexists; split; [vm_compute; reflexivity|vm_compute; reflexivity].
  - cbn; tauto.
Qed.

(** ** TypeScript and AssemblyScript *)

Lemma ts_methods_found lang p g : In lang ts_writers -> accepted p -> usual lang g -> no_parentheses p ->
  ts_file_methods lang p g (ts_method_parts lang p).
Proof.
  intros I A U P; pose proof (accepted_WF p A) as F; pose proof (WF_text_ok p F) as T; pose proof (types_spaceless p F) as SP.
  assert (NP : forall t s m, declares p t s -> In m (s_members s) -> parenthesis (v_name m) = false).
  { intros t s m D J; apply (P t s m); [now apply in_app_iff|exact J]. }
  assert (X : forall asm, tst_parts p asm = ts_method_parts (ts_lang asm) p).
  { intro asm; apply tst_parts_expected; intros n s J; [now apply (wf_struct_entry p F n s)|now apply (wf_message_entry p F n s)]. }
  destruct U as (E & N & B & G); destruct I as [<-|[<-|[]]].
  - change (ts_method_parts "typescript" p) with (ts_method_parts (ts_lang false) p); rewrite <- (X false); now apply ts_generate_tells.
  - change (ts_method_parts "assemblyscript" p) with (ts_method_parts (ts_lang true) p); rewrite <- (X true); now apply as_generate_tells.
Qed.
Lemma ts_file_methods_unique lang p g a b : ts_file_methods lang p g a -> ts_file_methods lang p g b -> a = b.
Proof. intros (x & X & E) (y & Y & F); rewrite X in Y; injection Y as <-; rewrite E in F; now injection F. Qed.
Lemma ts_methods_exactly lang p g parts : In lang ts_writers -> accepted p -> usual lang g -> no_parentheses p ->
  (ts_file_methods lang p g parts <-> parts = ts_method_parts lang p).
Proof.
  intros I A U O; pose proof (ts_methods_found lang p g I A U O) as H; split; [intro K; exact (ts_file_methods_unique _ _ _ _ _ K H)|now intros ->].
Qed.
Lemma in_ts_parts lang x p : In lang ts_writers -> (In x (ts_method_parts lang p) <->
  (exists m, In m (ts_offered lang) /\ x = Demands "Message" m) \/
  (exists t m, In t (map fst (p_messages p)) /\ In m (ts_offered lang) /\ x = Offers t m)).
Proof.
  intro L; assert (Q : forall m, In m (ts_demanded lang) <-> In m (ts_offered lang)).
  { intro m; destruct L as [<-|[<-|[]]]; cbn; tauto. }
  unfold ts_method_parts; rewrite in_app_iff, in_map_iff, in_flat_map; split; (intros [H|H]; [left|right]).
  - destruct H as (m & <- & I); exists m; split; [now apply Q|reflexivity].
  - destruct H as (t & I & J); apply in_map_iff in J as (m & <- & J); now exists t, m.
  - destruct H as (m & I & ->); exists m; split; [reflexivity|now apply Q].
  - destruct H as (t & m & I & J & ->); exists t; split; [exact I|apply in_map_iff; now exists m].
Qed.
Lemma ts_implements lang p g parts t i : In lang ts_writers -> accepted p -> usual lang g -> no_parentheses p ->
  ts_file_methods lang p g parts -> is_demanded parts i -> (implements parts t i <-> In t (map fst (p_messages p))).
Proof.
  intros L A U O H D; apply (ts_methods_exactly lang p g parts L A U O) in H as ->.
  assert (i = "Message") as ->.
  { destruct D as [m D]; apply in_ts_parts in D as [(x & _ & D)|(x & y & _ & _ & D)]; [congruence|discriminate|exact L]. }
  split; intro H.
  - assert (K : In (Offers t "writeBytes") (ts_method_parts lang p)).
    { apply H, in_ts_parts; [exact L|left; exists "writeBytes"; split; [destruct L as [<-|[<-|[]]]; cbn; tauto|reflexivity]]. }
    apply in_ts_parts in K as [(x & _ & K)|(x & y & I & J & K)]; [discriminate|injection K as -> _; exact I|exact L].
  - intros m D'; apply in_ts_parts; [exact L| ]; right; exists t, m; split; [exact H|split; [ |reflexivity]].
    apply in_ts_parts in D' as [(x & I & K)|(x & y & _ & _ & K)]; [congruence|discriminate|exact L].
Qed.
Lemma ts_once lang p g parts : In lang ts_writers -> accepted p -> usual lang g -> no_parentheses p ->
  ts_file_methods lang p g parts -> NoDup parts.
Proof.
  intros L A U O H; apply (ts_methods_exactly lang p g parts L A U O) in H as ->; pose proof (accepted_WF p A) as F.
  unfold ts_method_parts; apply (proj2 (PropTopFacts.nodup_app _ _)); split; [ |split].
  - destruct L as [<-|[<-|[]]]; cbn; repeat constructor; cbn; intuition congruence.
  - apply (nodup_offers _ (fun t => t)); [rewrite map_id; apply (wf_messages_nodup p F)| | ].
    + intro t; apply nodup_map_offers; destruct L as [<-|[<-|[]]]; cbn; repeat constructor; cbn; intuition congruence.
    + intros t y I; apply in_map_iff in I as (m & <- & I); now exists m.
  - intros y I J; apply in_map_iff in I as (m & <- & I); apply in_flat_map in J as (t & T & J); apply in_map_iff in J as (m' & E & J); discriminate.
Qed.
Lemma annotated_calls : accepted annotated /\ usual "assemblyscript" (plain_settings "assemblyscript" None) /\ no_parentheses annotated /\
  ts_method_parts "assemblyscript" annotated =
  [Demands "Message" "getMessageType"; Demands "Message" "writeBytes"; Demands "Message" "writeBytesDA"; Demands "Message" "getSizeInBytes";
   Offers "Vector3Message" "getMessageType"; Offers "Vector3Message" "getSizeInBytes"; Offers "Vector3Message" "writeBytes";
   Offers "Vector3Message" "writeBytesDA";
   Offers "NewCharacterMessage" "getMessageType"; Offers "NewCharacterMessage" "getSizeInBytes"; Offers "NewCharacterMessage" "writeBytes";
   Offers "NewCharacterMessage" "writeBytesDA";
   Offers "CharacterJoinedTeam" "getMessageType"; Offers "CharacterJoinedTeam" "getSizeInBytes"; Offers "CharacterJoinedTeam" "writeBytes";
   Offers "CharacterJoinedTeam" "writeBytesDA"].
Proof.
  split; [exact annotated_accepted_proof|split; [apply plain_usual|split; [ |vm_compute; reflexivity]]].
  intros n s m I J; assert (K : forallb (fun e => forallb (fun m => negb (parenthesis (v_name m))) (s_members (snd e)))
    (p_structs annotated ++ p_messages annotated) = true) by (vm_compute; reflexivity).
  rewrite forallb_forall in K; specialize (K _ I); rewrite forallb_forall in K; specialize (K _ J); now apply negb_true_iff in K.
Qed.

Lemma opening_accepted : accepted (labels "Note" "f(x" "b").
Proof. accepted_tac (labels_toml "Note" "f(x" "b"). Qed.
Lemma ts_opening lang : In lang ts_writers -> exists p g parts, accepted p /\ usual lang g /\ ts_file_methods lang p g parts /\
  In (Offers "Note" "f") parts.
Proof.
  intro L; exists (labels "Note" "f(x" "b"), (plain_settings lang None),
    (map (Demands "Message") (ts_demanded lang) ++ Offers "Note" "f" :: map (Offers "Note") (ts_offered lang)).
  split; [exact opening_accepted|split; [apply plain_usual|split]].
  - destruct L as [<-|[<-|[]]]; (eexists; split; [vm_compute; reflexivity|vm_compute; reflexivity]).
  - apply in_app_iff; right; now left.
Qed.

(** ** Swift *)

Lemma swift_methods_found p g : accepted p -> usual "swift" g -> swift_file_methods p g (swift_method_parts p).
Proof.
  intros A (E & N & B & G); pose proof (accepted_WF p A) as F; rewrite <- swt_parts_expected.
  - apply sw_generate_tells; [now apply WF_text_ok|now apply WF_field_types|now apply types_spaceless|now split|exact E|exact G].
  - intros n s I; now apply (wf_struct_entry p F n s).
  - intros n s I; now apply (wf_message_entry p F n s).
Qed.
Lemma swift_file_methods_unique p g a b : swift_file_methods p g a -> swift_file_methods p g b -> a = b.
Proof. intros (x & X & E) (y & Y & F); rewrite X in Y; injection Y as <-; rewrite E in F; now injection F. Qed.
Lemma swift_methods_exactly p g parts : accepted p -> usual "swift" g ->
  (swift_file_methods p g parts <-> parts = swift_method_parts p).
Proof.
  intros A U; pose proof (swift_methods_found p g A U) as H; split; [intro K; exact (swift_file_methods_unique _ _ _ _ K H)|now intros ->].
Qed.
Lemma in_swift_parts x p : In x (swift_method_parts p) <->
  (exists m, In m swift_offered /\ x = Demands "Message" m) \/
  (exists t m, In t (map fst (p_messages p)) /\ In m swift_offered /\ x = Offers t m).
Proof.
  assert (Q : forall m, In m swift_demanded <-> In m swift_offered) by (intro m; cbn; tauto).
  unfold swift_method_parts; rewrite in_app_iff, in_map_iff, in_flat_map; split; (intros [H|H]; [left|right]).
  - destruct H as (m & <- & I); exists m; split; [now apply Q|reflexivity].
  - destruct H as (t & I & J); apply in_map_iff in J as (m & <- & J); now exists t, m.
  - destruct H as (m & I & ->); exists m; split; [reflexivity|now apply Q].
  - destruct H as (t & m & I & J & ->); exists t; split; [exact I|apply in_map_iff; now exists m].
Qed.
Lemma swift_implements p g parts t i : accepted p -> usual "swift" g ->
  swift_file_methods p g parts -> is_demanded parts i -> (implements parts t i <-> In t (map fst (p_messages p))).
Proof.
  intros A U H D; apply (swift_methods_exactly p g parts A U) in H as ->.
  assert (i = "Message") as ->.
  { destruct D as [m D]; apply in_swift_parts in D as [(x & _ & D)|(x & y & _ & _ & D)]; [congruence|discriminate]. }
  split; intro H.
  - assert (K : In (Offers t "func GetSizeInBytes() -> UInt32") (swift_method_parts p)).
    { apply H, in_swift_parts; left; exists "func GetSizeInBytes() -> UInt32"; split; [cbn; tauto|reflexivity]. }
    apply in_swift_parts in K as [(x & _ & K)|(x & y & I & J & K)]; [discriminate|injection K as -> _; exact I].
  - intros m D'; apply in_swift_parts; right; exists t, m; split; [exact H|split; [ |reflexivity]].
    apply in_swift_parts in D' as [(x & I & K)|(x & y & _ & _ & K)]; [congruence|discriminate].
Qed.
Lemma swift_once p g parts : accepted p -> usual "swift" g -> swift_file_methods p g parts -> NoDup parts.
Proof.
  intros A U H; apply (swift_methods_exactly p g parts A U) in H as ->; pose proof (accepted_WF p A) as F.
  unfold swift_method_parts; apply (proj2 (PropTopFacts.nodup_app _ _)); split; [ |split].
  - cbn; repeat constructor; cbn; intuition congruence.
  - apply (nodup_offers _ (fun t => t)); [rewrite map_id; apply (wf_messages_nodup p F)| | ].
    + intro t; apply nodup_map_offers; cbn; repeat constructor; cbn; intuition congruence.
    + intros t y I; apply in_map_iff in I as (m & <- & I); now exists m.
  - intros y I J; apply in_map_iff in I as (m & <- & I); apply in_flat_map in J as (t & T & J); apply in_map_iff in J as (m' & E & J); discriminate.
Qed.
Lemma item_note_accepted : accepted (two_types "Item" "Note").
Proof. accepted_tac (two_types_toml "Item" "Note"). Qed.
Lemma note_functions : accepted (two_types "Item" "Note") /\ usual "swift" (plain_settings "swift" None) /\
  swift_method_parts (two_types "Item" "Note") =
  [Demands "Message" "func GetMessageType() -> MessageType";
   Demands "Message" "func WriteBytes(data: NSMutableData, tag: Bool) -> Void";
   Demands "Message" "func GetSizeInBytes() -> UInt32";
   Demands "Message" "class func FromBytes(_ fromData: Data) throws -> Self";
   Demands "Message" "class func FromBytes(dataReader: DataReader) throws -> Self";
   Offers "Note" "func GetMessageType() -> MessageType";
   Offers "Note" "func GetSizeInBytes() -> UInt32";
   Offers "Note" "class func FromBytes(_ fromData: Data) throws -> Self";
   Offers "Note" "class func FromBytes(dataReader: DataReader) throws -> Self";
   Offers "Note" "func WriteBytes(data: NSMutableData, tag: Bool) -> Void"].
Proof. split; [exact item_note_accepted|split; [apply plain_usual|vm_compute; reflexivity]]. Qed.
