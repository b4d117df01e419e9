(** Facts about the samples, used in the examples of the language files. *)
From Verif Require Export LangSpec LangFacts StreamFacts LangSamples.
Open Scope string_scope.
Open Scope Z_scope.
Open Scope list_scope.

Ltac accepted_tac data := exists 100%nat, data; split; [toml_wf_tac|vm_compute; reflexivity].
Ltac wire_tac := apply enc_sound; vm_compute; reflexivity.

Lemma notes_accepted : accepted notes.
Proof. accepted_tac notes_toml. Qed.
Lemma long_notes_accepted : accepted long_notes.
Proof. accepted_tac long_notes_toml. Qed.
Lemma nested_accepted : accepted nested.
Proof. accepted_tac nested_toml. Qed.

Lemma annotated_32 : size_types_32 annotated.
Proof. split; intros [H|[H|[]]]; discriminate. Qed.

Lemma plain_b s : utf8_valid s = true ->
  (match s with xef :: xbb :: xbf :: _ => false | _ => true end) = true -> plain_text s.
Proof. intros U B; split; [now apply utf8_valid_spec|]; intros r ->; discriminate. Qed.

Ltac strings_tac :=
  repeat match goal with
  | |- strings _ (VInt _) => apply st_int
  | |- strings _ (VBool _) => apply st_bool
  | |- strings _ (VStr _) => apply st_str
  | |- strings _ (VList _) => let v := fresh in let H := fresh in
      apply st_list; intros v H; cbn in H; repeat (destruct H as [<-|H]); [..|destruct H]
  | |- strings _ (VStruct _) => let n := fresh in let v := fresh in let H := fresh in
      apply st_struct; intros n v H; cbn in H; repeat (destruct H as [H|H]; [injection H as <- <-|]); [..|destruct H]
  | |- strings _ _ => progress hnf
  end.

Lemma joined_team_plain : strings plain_text joined_team.
Proof. unfold joined_team, color; strings_tac; apply plain_b; reflexivity. Qed.
Lemma vector3_strings P : strings P vector3.
Proof. unfold vector3; strings_tac. Qed.

Definition two_messages : message_list := [("CharacterJoinedTeam", joined_team); ("Vector3Message", vector3)].
Definition two_messages_bytes : list byte := x03 :: joined_team_bytes ++ x01 :: vector3_bytes.

Lemma two_messages_plain : all_strings plain_text two_messages.
Proof. constructor; [apply joined_team_plain|constructor; [apply vector3_strings|constructor]]. Qed.

Definition two_packed_bytes : list byte := header ++ [x02; x00; x00; x00] ++ two_messages_bytes ++ [x00].
Lemma two_packed : wire_packed strict annotated two_messages two_packed_bytes.
Proof.
  constructor; [|exact two_messages_wire].
  constructor; [discriminate|reflexivity|cbn; lia|reflexivity].
Qed.

Lemma joined_team_tagged : wire_tagged strict annotated ("CharacterJoinedTeam", joined_team) (x03 :: joined_team_bytes).
Proof.
  destruct annotated_numbers as (_ & _ & C); econstructor; [exact C|reflexivity|apply joined_team_wire].
Qed.
Lemma joined_team_declared : exists s, declares annotated "CharacterJoinedTeam" s.
Proof. eexists; right; right; right; left; reflexivity. Qed.

(** A tag that belongs to no message. *)
Lemma four_unknown t : ~ numbered annotated t (Z_of_byte x04).
Proof.
  rewrite numbered_iff; intros (i & s & N & E); change (Z_of_byte x04) with 4 in E.
  assert (i = 3%nat) by lia; subst i; discriminate.
Qed.

Lemma contains_annotated a b : contains annotated a b -> a = "Spectrum"%string.
Proof.
  intros (s & m & D & I & C & (s' & S)); cbn in D, S; in_cases; subst; try reflexivity.
  all: cbn in I; in_cases; subst; cbn in *; try discriminate; congruence.
Qed.
Lemma reaches_annotated a b : reaches annotated a b -> a <> "Spectrum"%string -> b = a.
Proof.
  intros R N; apply clos_rt_rt1n in R; inversion R as [|y z C R']; [reflexivity|].
  apply contains_annotated in C; contradiction.
Qed.

Lemma annotated_lists_renamed : inner_lists_renamed annotated.
Proof.
  intros t s m u su mu D I L R D' I' L'.
  apply reaches_annotated in R.
  2:{ destruct D as [D|D]; cbn in D; in_cases; cbn in I; in_cases; subst; cbn in L; discriminate. }
  subst u; destruct D as [D|D]; cbn in D; in_cases; cbn in I; in_cases; subst; try discriminate.
  all: destruct D' as [D'|D']; cbn in D';
    repeat match goal with H : _ \/ _ |- _ => destruct H as [H|H] end; try contradiction; try discriminate.
  all: injection D' as <-; cbn in I'; in_cases; subst; discriminate.
Qed.

Lemma annotated_no_brackets : no_brackets annotated.
Proof.
  intros t s m D I; destruct D as [D|D]; cbn in D; in_cases; cbn in I; in_cases; subst; cbn; intuition discriminate.
Qed.

Lemma joined_team_cut : exists cut x rest, joined_team_bytes = cut ++ x :: rest /\ cut <> [].
Proof. exists [x07], x00, (skipn 2 joined_team_bytes); split; [reflexivity|discriminate]. Qed.

Lemma numbers_64_accepted : accepted (numbers "uint64").
Proof. accepted_tac (numbers_toml "uint64"). Qed.
Lemma numbers_i16_accepted : accepted (numbers "int16").
Proof. accepted_tac (numbers_toml "int16"). Qed.
Lemma tracks_accepted : accepted tracks.
Proof. accepted_tac tracks_toml. Qed.
Lemma tracks_last : no_string_last tracks.
Proof.
  intros t s [H|H]; cbn in H; destruct H as [H|[]]; injection H as <- <-.
  - exists [MkVar "label" "string" false], (MkVar "x" "int16" false); split; [reflexivity|discriminate].
  - exists [MkVar "name" "string" false], (MkVar "points" "Point" true); split; [reflexivity|discriminate].
Qed.
Lemma track_wire : wire tracks "Track" track track_bytes.
Proof. wire_tac. Qed.
Lemma tracks_unsigned : unsigned_type (p_list_size_type tracks).
Proof. now left. Qed.
Lemma tracks_32 : size_types_32 tracks.
Proof. split; intros [H|[H|[]]]; discriminate. Qed.

Lemma short_b s : utf8_valid s = true -> Z.of_nat (List.length s) <? 2 ^ 31 = true -> short_text s.
Proof. intros U L; split; [now apply utf8_valid_spec|unfold short_bytes; lia]. Qed.
Lemma joined_team_short : strings short_text joined_team.
Proof. unfold joined_team, color; strings_tac; apply short_b; reflexivity. Qed.
Lemma two_messages_short : all_strings short_text two_messages.
Proof. constructor; [apply joined_team_short|constructor; [apply vector3_strings|constructor]]. Qed.
Lemma joined_team_ascii : strings ascii_text joined_team.
Proof. unfold joined_team, color; strings_tac; repeat constructor. Qed.

(** Nothing of this protocol is encoded with a negative count. *)
Lemma numbers_i16_negative md v bs rest : wire_in md (numbers "int16") "Numbers" v bs -> bs ++ rest <> [xff; xff].
Proof.
  intros H E.
  assert (D : declares (numbers "int16") "Numbers" (MkStruct "Numbers" [MkVar "items" "byte" true] true)) by (right; now left).
  pose proof (accepted_WF _ numbers_i16_accepted) as W.
  destruct (wire_struct_inv md _ W _ _ _ _ D H) as (fs & -> & M); cbn in M.
  inversion M as [|? ? ? ? a b WM WR]; subst; inversion WR; subst.
  inversion WM as [? ? ? VL|? vs lb eb VL (k & K & N) EL]; subst; [discriminate|].
  cbn in K; injection K as <-.
  inversion N as [? ? ? _ L R X| |]; subst.
  destruct lb as [|x [|y [|]]]; try discriminate.
  rewrite <- !app_assoc in E; cbn [app] in E; injection E as -> -> E.
  cbn in X, R; change (255 + 256 * (255 + 256 * 0)) with 65535 in X; rewrite Z.mod_small in X by lia; lia.
Qed.

(** ** The protocol with moods *)

Lemma moods_accepted : accepted moods.
Proof. accepted_tac moods_toml. Qed.
Lemma moods_32 : size_types_32 moods.
Proof. split; intros [H|[H|[]]]; discriminate. Qed.
Lemma moods_up : enums_count_up moods.
Proof.
  intros t e k [E|[]] K; injection E as <- <-; injection K as <-; cbn; split; [|lia].
  intros z [<-|[<-|[<-|[]]]]; lia.
Qed.
Lemma moods_gapless : enums_gapless moods.
Proof.
  intros t e a b z [E|[]]; injection E as <- <-; cbn; lia.
Qed.
Lemma diary_wire : wire moods "Diary" diary diary_bytes.
Proof. wire_tac. Qed.

Ltac lists_tac :=
  repeat match goal with
  | |- lists _ (VInt _) => apply ls_int
  | |- lists _ (VBool _) => apply ls_bool
  | |- lists _ (VStr _) => apply ls_str
  | |- lists _ (VList _) => let v := fresh in let H := fresh in
      apply ls_list; [unfold modest; cbn; lia|intros v H; cbn in H; repeat (destruct H as [<-|H]); [..|destruct H]]
  | |- lists _ (VStruct _) => let n := fresh in let v := fresh in let H := fresh in
      apply ls_struct; intros n v H; cbn in H; repeat (destruct H as [H|H]; [injection H as <- <-|]); [..|destruct H]
  | |- lists _ _ => progress hnf
  end.
Lemma diary_modest : utf8_modest diary.
Proof. split; unfold diary; [strings_tac; apply utf8_valid_spec; reflexivity|lists_tac]. Qed.
Lemma diaries_modest : all_values utf8_modest diaries.
Proof. repeat (constructor; [exact diary_modest|]); constructor. Qed.
Lemma diaries_wire : wire_stream strict moods diaries diaries_bytes.
Proof.
  assert (T : wire_tagged strict moods ("Diary", diary) (x01 :: diary_bytes)).
  { econstructor; [apply (numbered_at moods "Diary" 0%nat) with (1 := eq_refl)|reflexivity|exact diary_wire]. }
  exact (wst_cons strict moods _ _ _ _ T (wst_cons strict moods _ _ _ _ T (wst_nil strict moods))).
Qed.
Lemma diaries_pack : wire_packed strict moods diaries diaries_packed.
Proof.
  constructor; [|exact diaries_wire].
  constructor; [discriminate|reflexivity|cbn; lia|reflexivity].
Qed.
Lemma some_room : has_room (fun _ => 2 ^ 28).
Proof. intro t; lia. Qed.
Lemma moods_tiny : tiny_unsigned (p_string_size_type moods) /\ tiny_unsigned (p_list_size_type moods).
Proof. unfold tiny_unsigned; cbn; tauto. Qed.

Lemma photos_accepted : accepted photos.
Proof. accepted_tac photos_toml. Qed.
Lemma photo_wire : wire photos "Photo" photo photo_bytes.
Proof. wire_tac. Qed.
Definition two_photos : message_list := [("Photo", photo); ("Photo", photo)].
Definition two_photos_bytes : list byte := x01 :: photo_bytes ++ x01 :: photo_bytes.
Definition packed_photos_bytes : list byte := header ++ [x02; x00; x00; x00] ++ two_photos_bytes ++ [x00].
Lemma photo_tagged : wire_tagged strict photos ("Photo", photo) (x01 :: photo_bytes).
Proof. econstructor; [apply (numbered_at photos "Photo" 0%nat) with (1 := eq_refl)|reflexivity|exact photo_wire]. Qed.
Lemma two_photos_wire : wire_stream strict photos two_photos two_photos_bytes.
Proof.
  exact (wst_cons strict photos _ _ _ _ photo_tagged (wst_cons strict photos _ _ _ _ photo_tagged (wst_nil strict photos))).
Qed.
Lemma two_photos_packed : wire_packed strict photos two_photos packed_photos_bytes.
Proof. constructor; [constructor; [discriminate|reflexivity|cbn; lia|reflexivity]|exact two_photos_wire]. Qed.
Lemma photo_cut : exists cut x rest, photo_bytes = cut ++ x :: rest /\ cut <> [].
Proof. exists [x02], x00, (skipn 2 photo_bytes); split; [reflexivity|discriminate]. Qed.
Lemma photo_declared : exists s, declares photos "Photo" s.
Proof. eexists; right; left; reflexivity. Qed.
Lemma two_unknown_photo t : ~ numbered photos t (Z_of_byte x02).
Proof. intro N; inversion N as [n i H E]; destruct i as [|i]; cbn in *; [lia|destruct i; discriminate]. Qed.
Lemma rounds_accepted : accepted rounds.
Proof. accepted_tac rounds_toml. Qed.
Lemma pose_accepted : accepted (pose "x" "y").
Proof. accepted_tac (pose_toml "x" "y"). Qed.

(** ** A list that is too long *)

Lemma shorts_byte_accepted : accepted (shorts "byte").
Proof. accepted_tac (shorts_toml "byte"). Qed.
Definition too_many : val := some_numbers (repeat 0 256).
Lemma too_many_held : can_hold (shorts "byte") "Numbers" too_many.
Proof.
  unfold too_many, some_numbers.
  eapply ch_struct; [right; left; reflexivity|]; apply (chm_list _ (MkVar "items" "int16" true)); [reflexivity| |constructor].
  generalize 256%nat; induction n as [|n IH]; cbn [repeat map]; constructor; auto.
  eapply ch_num; [reflexivity|]; constructor; [discriminate|now cbn].
Qed.
Lemma too_many_long : ~ in_range (shorts "byte") "Numbers" too_many.
Proof.
  intro H; inversion H as [? k ? K _| | |? s ? D M]; subst; [discriminate|].
  destruct D as [[]|[[= <-]|[]]]; inversion M as [|? ? ? ? V|? ? ? ? ? S]; subst; [discriminate|].
  destruct S as (k & [= <-] & N); inversion N as [? ? _ B|]; subst; vm_compute in B; destruct B as [_ B]; now apply B.
Qed.

(** Room for that list, and a buffer that grows. *)
Definition room_513 : wstate := {| w_buf := repeat x00 513; w_pos := 0 |}.
Definition no_room : wstate := {| w_buf := []; w_pos := 0 |}.
Ltac corrupt_tac w held :=
  exists "Numbers"%string; eexists; eexists; exists w; eexists _, _, _;
  split; [left; reflexivity|]; split; [exact held|]; split; [vm_compute; reflexivity|]; split; [vm_compute; reflexivity|discriminate].
