(** Lemmas for PropTop.v. *)
From Coq Require Import Permutation.
From Verif Require Import TopFacts TypeScriptTopFacts CSharpTopFacts SwiftTopFacts RustTopFacts ZigTopFacts GoTopFacts GoFacts LangSampleFacts.
Open Scope string_scope.
Open Scope Z_scope.
Open Scope list_scope.

Lemma tops_declared lang p g : In lang top_writers -> readable lang p g -> file_declares lang p g (top_names lang p g).
Proof.
  intros I (A & (E & N & B & F) & W & WN); pose proof (WF_text_ok p (accepted_WF p A)) as T.
  unfold top_names; cbn [In top_writers] in I; destruct I as [<-|[<-|[<-|[<-|[<-|[<-|[]]]]]]].
  - now apply ts_generate_shows.
  - now apply as_generate_shows.
  - now apply cs_generate_shows.
  - now apply sw_generate_shows.
  - now apply rs_generate_shows.
  - now apply zg_generate_shows.
Qed.
Lemma file_declares_unique lang p g a b : file_declares lang p g a -> file_declares lang p g b -> a = b.
Proof. intros (x & X & <-) (y & Y & <-); rewrite X in Y; injection Y as <-; reflexivity. Qed.

(** ** When they are distinct *)

Lemma nodup_app {X} (a b : list X) : NoDup (a ++ b) <-> NoDup a /\ NoDup b /\ forall x, In x a -> ~ In x b.
Proof.
  induction a as [ |x a IH]; cbn [app].
  - split; [intro H; repeat split; [constructor|exact H|intros ? []]|tauto].
  - rewrite !NoDup_cons_iff, IH, in_app_iff; cbn [In]; split.
    + intros (N & A & B & D); split; [split; [tauto|exact A]|split; [exact B|intros y [<-|Y]; [tauto|now apply D]]].
    + intros ((N & A) & B & D); split; [intros [Y|Y]; [tauto|apply (D x (or_introl eq_refl) Y)]| ].
      split; [exact A|split; [exact B|intros y Y; apply D; now right]].
Qed.
Lemma word_no_clash ns : ns <> "" -> ~ In (ns +++ "Error")
  ["fmt"; "Error"; "BufferReader"; "MessageCodec"; "get_packed_size"; "pack_messages"; "unpack_messages";
   "MessageType"; "Message"; "process_raw_bytes"].
Proof.
  intros N I.
  assert (R : forall a b, rev (list_ascii_of_string (a +++ b)) = rev (list_ascii_of_string b) ++ rev (list_ascii_of_string a)).
  { intros a b; rewrite <- rev_app_distr; f_equal; induction a as [ |c a IH]; cbn; congruence. }
  cbn [In] in I; repeat (destruct I as [I|I]); [..|destruct I];
    apply (f_equal (fun s => rev (list_ascii_of_string s))) in I; rewrite R in I; cbn in I; try discriminate.
  assert (L : rev (list_ascii_of_string ns) = []) by congruence.
  apply (f_equal (@rev ascii)) in L; rewrite rev_involutive in L; cbn in L; destruct ns; [congruence|discriminate].
Qed.
Lemma own_nodup lang g : In lang top_writers -> (NoDup (own_names lang g) <-> (lang = "rust" -> g_namespace g <> Some "")).
Proof.
  assert (F : forall l : list string, (if list_eq_dec string_dec (nodup string_dec l) l then true else false) = true -> NoDup l).
  { intros l; destruct (list_eq_dec string_dec (nodup string_dec l) l) as [E|_]; [intros _; rewrite <- E; apply NoDup_nodup|discriminate]. }
  intro I; cbn [In top_writers] in I; destruct I as [<-|[<-|[<-|[<-|[<-|[<-|[]]]]]]].
  5: { split.
    - intros N _ E; unfold own_names, names_before in N; cbn [String.eqb Ascii.eqb Bool.eqb] in N.
      rewrite E in N; inversion N as [ |? ? _ N1]; inversion N1 as [ |? ? X _]; apply X; now left.
    - intro H; specialize (H eq_refl); unfold own_names, names_before.
      cbn [String.eqb Ascii.eqb Bool.eqb]; destruct (g_namespace g) as [ns| ]; [ |apply F; vm_compute; reflexivity].
      apply (@Permutation_NoDup string ((ns +++ "Error") ::
         ["fmt"; "Error"; "BufferReader"; "MessageCodec"; "get_packed_size"; "pack_messages"; "unpack_messages";
          "MessageType"; "Message"; "process_raw_bytes"])); [apply (Permutation_middle ["fmt"; "Error"])| ].
      apply NoDup_cons_iff; split; [apply word_no_clash; congruence|apply F; vm_compute; reflexivity]. }
  all: split; [discriminate|intros _; apply F; vm_compute; reflexivity].
Qed.
Lemma types_nodup p : WF p -> NoDup (types_in_order p).
Proof.
  intro W; unfold types_in_order; rewrite !nodup_app; split; [apply (wf_enums_nodup p W)| ].
  split; [split; [apply (wf_structs_nodup p W)|split; [apply (wf_messages_nodup p W)| ]]| ].
  - intros t S M; apply in_map_iff in S as ([t' s] & <- & S); apply in_map_iff in M as ([t'' m] & E & M); cbn [fst] in *; subst t''.
    destruct (declared_message_or p t' W) as (_ & _ & X & _); [now exists m|apply X; now exists s].
  - intros t N I; apply in_map_iff in N as ([t' e] & <- & N); cbn [fst] in *; rewrite in_app_iff in I.
    destruct I as [I|I]; apply in_map_iff in I as ([t'' s] & E & I); cbn [fst] in *; subst t''.
    + destruct (declared_struct_or p t' W) as (_ & _ & X); [now exists s|apply X; now exists e].
    + destruct (declared_message_or p t' W) as (_ & _ & _ & X); [now exists s|apply X; now exists e].
Qed.

Lemma top_nodup lang p g : In lang top_writers -> WF p ->
  (NoDup (top_names lang p g) <->
   (forall t, In t (types_in_order p) -> ~ In t (own_names lang g)) /\ (lang = "rust" -> g_namespace g <> Some "")).
Proof.
  intros I W; rewrite <- own_nodup by exact I; unfold top_names, own_names.
  pose proof (types_nodup p W) as T; rewrite !nodup_app; split.
  - intros (A & (_ & B & C) & D); split; [ |repeat split; auto].
    + intros t J K; rewrite in_app_iff in K; destruct K as [K|K]; [apply (D t K); rewrite in_app_iff; now left|apply (C t J K)].
    + intros x X Y; apply (D x X); rewrite in_app_iff; now right.
  - intros (N & A & B & D); split; [exact A|split; [split; [exact T|split; [exact B| ]]| ]].
    + intros x X Y; apply (N x X); rewrite in_app_iff; now right.
    + intros x X Y; rewrite in_app_iff in Y; destruct Y as [Y|Y]; [apply (N x Y); rewrite in_app_iff; now left|apply (D x X Y)].
Qed.
Lemma tops_distinct_iff lang p g : In lang top_writers -> readable lang p g ->
  (tops_distinct lang p g <->
   (forall t, In t (types_in_order p) -> ~ In t (own_names lang g)) /\ (lang = "rust" -> g_namespace g <> Some "")).
Proof.
  intros I R; rewrite <- top_nodup; [ |exact I|apply accepted_WF, R]; split.
  - intros (names & D & N); now rewrite (file_declares_unique _ _ _ _ _ (tops_declared lang p g I R) D).
  - intro N; exists (top_names lang p g); split; [now apply tops_declared|exact N].
Qed.

(** ** Counterexamples *)

Definition plain_settings (lang : string) (ns : option string) : settings :=
  {| g_namespace := ns; g_tab := "    "; g_embed := false; g_source := ""; g_flag := false; g_files := writer_files lang |}.
Lemma plain_usual lang ns : usual lang (plain_settings lang ns).
Proof. repeat split; discriminate. Qed.
Lemma two_types_words a b : word a = true -> word b = true -> word_types (two_types a b).
Proof. intros A B t I; cbn in I; destruct I as [<-|[<-|[]]]; assumption. Qed.

Lemma message_accepted : accepted (two_types "Message" "Note").
Proof. accepted_tac (two_types_toml "Message" "Note"). Qed.
Lemma for_accepted : accepted (two_types "for" "Note").
Proof. accepted_tac (two_types_toml "for" "Note"). Qed.
Lemma dashes_accepted : accepted (two_types "a-b" "a-c").
Proof. accepted_tac (two_types_toml "a-b" "a-c"). Qed.

Lemma message_twice lang : In lang top_writers ->
  exists p g, readable lang p g /\ ~ tops_distinct lang p g.
Proof.
  intro I; exists (two_types "Message" "Note"), (plain_settings lang None).
  assert (R : readable lang (two_types "Message" "Note") (plain_settings lang None)).
  { split; [exact message_accepted|split; [apply plain_usual|split; [now apply two_types_words|discriminate]]]. }
  split; [exact R| ]; rewrite (tops_distinct_iff _ _ _ I R); intros [N _]; apply (N "Message"); [now left| ].
  unfold own_names; cbn [In top_writers] in I; destruct I as [<-|[<-|[<-|[<-|[<-|[<-|[]]]]]]]; cbn; tauto.
Qed.
Lemma no_prefix : exists p g, readable "rust" p g /\ ~ tops_distinct "rust" p g /\
  (forall t, In t (types_in_order p) -> ~ In t (own_names "rust" g)).
Proof.
  assert (I : In "rust" top_writers) by (cbn; tauto).
  assert (R : readable "rust" notes (plain_settings "rust" (Some ""))).
  { split; [exact notes_accepted|split; [apply plain_usual|split]].
    - intros t J; vm_compute in J; decompose [or] J; subst; try contradiction; reflexivity.
    - intros ns E; injection E as <-; reflexivity. }
  exists notes, (plain_settings "rust" (Some "")); split; [exact R|split].
  - rewrite (tops_distinct_iff _ _ _ I R); intros [_ N]; now apply N.
  - intros t J; vm_compute in J; decompose [or] J; subst; try contradiction;
      cbn; intro K; decompose [or] K; try discriminate; contradiction.
Qed.
Lemma reserved_word lang : In lang top_writers ->
  exists p g names, readable lang p g /\ file_declares lang p g names /\ In "for" names.
Proof.
  intro I; exists (two_types "for" "Note"), (plain_settings lang None), (top_names lang (two_types "for" "Note") (plain_settings lang None)).
  assert (R : readable lang (two_types "for" "Note") (plain_settings lang None)).
  { split; [exact for_accepted|split; [apply plain_usual|split; [now apply two_types_words|discriminate]]]. }
  split; [exact R|split; [now apply tops_declared| ]].
  unfold top_names; rewrite !in_app_iff; right; left; now left.
Qed.
Lemma no_words lang : In lang top_writers ->
  exists p g, accepted p /\ usual lang g /\ NoDup (types_in_order p) /\
    (forall t, In t (types_in_order p) -> ~ In t (own_names lang g)) /\
    exists names, file_declares lang p g names /\ ~ NoDup names.
Proof.
  intro I; exists (two_types "a-b" "a-c"), (plain_settings lang None).
  split; [exact dashes_accepted|split; [apply plain_usual|split; [ |split]]].
  - constructor; [intros [H|[]]; discriminate|constructor; [intros []|constructor]].
  - intros t J; cbn in J; unfold own_names; cbn [In top_writers] in I.
    destruct I as [<-|[<-|[<-|[<-|[<-|[<-|[]]]]]]]; destruct J as [<-|[<-|[]]]; cbn; intro K; decompose [or] K; try discriminate; contradiction.
  - exists (names_before lang (plain_settings lang None) ++ ["a"; "a"] ++ names_after lang); split.
    + cbn [In top_writers] in I.
      destruct I as [<-|[<-|[<-|[<-|[<-|[<-|[]]]]]]];
        eexists; (split; [vm_compute; reflexivity|vm_compute; reflexivity]).
    + rewrite !nodup_app; intros (_ & (H & _) & _); inversion H as [ |? ? X _]; apply X; now left.
Qed.

Lemma csharp_annotated : In "csharp" top_writers /\ readable "csharp" annotated (plain_settings "csharp" None) /\
  top_names "csharp" annotated (plain_settings "csharp" None) =
  ["DataReadErrorException"; "UnknownMessageTypeException"; "Message"; "MessageType"; "CharacterClass"; "TeamRole";
   "Color"; "Spectrum"; "Vector3Message"; "NewCharacterMessage"; "CharacterJoinedTeam"].
Proof.
  split; [cbn; tauto|split; [ |reflexivity]].
  split; [exact annotated_accepted_proof|split; [apply plain_usual|split; [ |discriminate]]].
  intros t J; vm_compute in J; decompose [or] J; subst; try contradiction; reflexivity.
Qed.

(** ** Go *)

Lemma go_tops_declared p g : accepted p -> usual "go" g -> word_types p -> word_values p ->
  exists names, go_file_declares p g names /\ Permutation names (go_file_names p).
Proof.
  intros A U W WV; destruct (go_generate_declares p g (WF_text_ok p (accepted_WF p A)) U W WV) as (names & D & P).
  exists names; split; [exact D| ]; rewrite P, go_declared_names; unfold go_protocol; destruct (negb (g_flag g)); [ |reflexivity].
  unfold go_file_names; rewrite !map_app; cbn [p_enums p_structs p_messages rename_members]; now rewrite !rename_names.
Qed.
Lemma go_file_declares_unique p g a b : go_file_declares p g a -> go_file_declares p g b -> a = b.
Proof. intros (x & X & A) (y & Y & B); rewrite X in Y; injection Y as <-; rewrite A in B; now injection B. Qed.
Lemma go_tops_distinct p g : accepted p -> usual "go" g -> word_types p -> word_values p ->
  (forall names, go_file_declares p g names -> NoDup names) <-> NoDup (go_file_names p).
Proof.
  intros A U W WV; destruct (go_tops_declared p g A U W WV) as (names & D & P); split.
  - intro H; exact (Permutation_NoDup P (H names D)).
  - intros H n E; rewrite (go_file_declares_unique p g n names E D); exact (Permutation_NoDup (Permutation_sym P) H).
Qed.
Lemma go_annotated : accepted annotated /\ usual "go" (plain_settings "go" None) /\ word_types annotated /\ word_values annotated /\
  exists names, go_file_declares annotated (plain_settings "go" None) names /\
    firstn 17 names = ["binary"; "fmt"; "io"; "readString"; "writeString"; "getDataOffset"; "GetPackedSize"; "PackMessages";
      "UnpackMessages"; "MessageType"; "Vector3MessageType"; "NewCharacterMessageType"; "CharacterJoinedTeamType"; "Message";
      "ProcessRawBytes"; "CharacterClass"; "CharacterClassFighter"].
Proof.
  split; [exact annotated_accepted_proof|split; [apply plain_usual|split; [ |split]]].
  - intros t J; vm_compute in J; decompose [or] J; subst; try contradiction; reflexivity.
  - intros n e v J K; cbn in J; destruct J as [J|[J|[]]]; injection J as <- <-; cbn in K; decompose [or] K; subst;
      try contradiction; reflexivity.
  - eexists; split; [eexists; split; [vm_compute; reflexivity|vm_compute; reflexivity]|reflexivity].
Qed.
Lemma clash_accepted : accepted (two_types "NoteType" "Note").
Proof. accepted_tac (two_types_toml "NoteType" "Note"). Qed.
Lemma abc_accepted : accepted (two_enums "A" "BC" "AB" "C").
Proof. accepted_tac (two_enums_toml "A" "BC" "AB" "C"). Qed.
Lemma go_type_twice : exists p g names, accepted p /\ usual "go" g /\ word_types p /\ word_values p /\ p_enums p = [] /\
  (forall t, In t (types_in_order p) -> ~ In t go_fixed_names) /\ go_file_declares p g names /\ ~ NoDup names.
Proof.
  exists (two_types "NoteType" "Note"), (plain_settings "go" None); eexists.
  split; [exact clash_accepted|split; [apply plain_usual|split; [now apply two_types_words|split; [intros ? ? ? []|split; [reflexivity|split]]]]].
  - intros t J; cbn in J; destruct J as [<-|[<-|[]]]; cbn; intro K; decompose [or] K; try discriminate; contradiction.
  - split; [eexists; split; [vm_compute; reflexivity|vm_compute; reflexivity]| ].
    intro N; apply has_dup_str_false in N; discriminate.
Qed.
Lemma go_value_twice : exists p g names n, accepted p /\ usual "go" g /\ word_types p /\ word_values p /\
  ~ In n (go_fixed_names ++ types_in_order p) /\ go_file_declares p g names /\ count_occ string_dec names n = 2%nat.
Proof.
  exists (two_enums "A" "BC" "AB" "C"), (plain_settings "go" None); eexists; exists "ABC".
  split; [exact abc_accepted|split; [apply plain_usual|split; [ |split; [ |split; [ |split]]]]].
  - intros t J; vm_compute in J; decompose [or] J; subst; try contradiction; reflexivity.
  - intros n e v J K; cbn in J; destruct J as [J|[J|[]]]; injection J as <- <-; cbn in K; destruct K as [<-|[]]; reflexivity.
  - intro K; cbn in K; decompose [or] K; try discriminate; contradiction.
  - eexists; split; [vm_compute; reflexivity|vm_compute; reflexivity].
  - reflexivity.
Qed.
