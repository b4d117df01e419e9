(** Proofs for PropGo.v. *)
From Verif Require Export GoFacts LangSampleFacts PropTextFacts.
Open Scope string_scope.
Open Scope Z_scope.
Open Scope list_scope.

(** From the hypotheses of the theorems to those of GoFacts.v. *)
Section Ready.
Variable rename : bool.
Variable p : protocol.
Notation q := (go_protocol rename p).

Lemma go_use (X : Prop) : (WF q -> go_compiles q = true -> X) -> accepted p -> go_names q -> X.
Proof.
  intros H A N.
  assert (W : WF q) by (apply go_protocol_WF; [now apply accepted_WF|apply N]).
  apply H; [exact W|now apply go_compiles_ok].
Qed.

Lemma go_same_wire t v bs md : wire_in md p t v bs -> wire_in md q t (go_val rename v) bs.
Proof. destruct rename; [apply rename_wire|auto]. Qed.
Lemma go_same_wire_back t v' bs md : wire_in md q t v' bs -> exists v, v' = go_val rename v /\ wire_in md p t v bs.
Proof. destruct rename; [apply rename_wire_back|intro H; now exists v']. Qed.
Lemma rename_lists f P v : lists P v -> lists P (rename_val f v).
Proof.
  intro H; induction H as [z|b| |s|l L H IH|fs H IH]; cbn [rename_val]; constructor.
  - now rewrite map_length.
  - intros w I; apply in_map_iff in I as (w0 & <- & I); auto.
  - intros n w I; apply in_map_iff in I as ([n0 w0] & E & I); injection E as <- <-; eauto.
Qed.
Lemma go_same_lists P v : lists P v -> lists P (go_val rename v).
Proof. destruct rename; [apply rename_lists|auto]. Qed.

Definition go_messages (ms : message_list) : message_list := map (fun m => (fst m, go_val rename (snd m))) ms.
Lemma go_messages_id (ms : message_list) : map (fun m => (fst m, snd m)) ms = ms.
Proof. induction ms as [|[t v] ms IH]; [reflexivity|cbn [map fst snd]; now f_equal]. Qed.
Lemma go_same_stream ms bs md : wire_stream md p ms bs -> wire_stream md q (go_messages ms) bs.
Proof.
  unfold go_messages, go_val; destruct rename; [apply rename_stream|]; cbn; now rewrite go_messages_id.
Qed.
Lemma go_same_packed ms bs md : wire_packed md p ms bs -> wire_packed md q (go_messages ms) bs.
Proof.
  unfold go_messages, go_val; destruct rename; [apply rename_packed|]; cbn; now rewrite go_messages_id.
Qed.
Lemma go_same_all_lists P ms : all_values (lists P) ms -> all_values (lists P) (go_messages ms).
Proof. intro H; unfold all_values, go_messages; apply Forall_map; revert H; apply Forall_impl; intros m; apply go_same_lists. Qed.
End Ready.

(** ** Deciding [go_names] *)

Definition go_locals (p : protocol) (m : var) : list string :=
  if v_list m then [v_name m +++ "_Len"] else if mem (v_type m) (p_enums p) then ["_" +++ v_name m] else [].
Definition go_names_b (p : protocol) : bool :=
  negb (has_dup_str (go_file_names p)) &&
  forallb (fun ns => let ms := s_members (snd ns) in
    negb (has_dup_str (map v_name ms)) && negb (in_strs "WriteBytes" (map v_name ms)) &&
    negb (in_strs "GetMessageType" (map v_name ms)) && negb (in_strs "GetSizeInBytes" (map v_name ms)) &&
    forallb (fun n => negb (in_strs n (flat_map (fun m => [v_type m; "isValid" +++ v_type m]) ms)))
      (flat_map (go_locals p) ms))
  (p_structs p ++ p_messages p).

Lemma go_names_ok p : go_names_b p = true -> go_names p.
Proof.
  intro H; unfold go_names_b in H; apply andb_true_iff in H as [T H]; rewrite forallb_forall in H.
  assert (D : forall t s, declares p t s -> NoDup (map v_name (s_members s)) /\ ~ In "WriteBytes" (map v_name (s_members s)) /\
     ~ In "GetMessageType" (map v_name (s_members s)) /\ ~ In "GetSizeInBytes" (map v_name (s_members s)) /\
     forall n, In n (flat_map (go_locals p) (s_members s)) ->
       ~ In n (flat_map (fun m => [v_type m; "isValid" +++ v_type m]) (s_members s))).
  { intros t s D; specialize (H (t, s) (proj2 (in_app_iff _ _ _) D)); cbn [snd] in H.
    apply andb_true_iff in H as [H H5]; apply andb_true_iff in H as [H H4]; apply andb_true_iff in H as [H H3].
    apply andb_true_iff in H as [H1 H2]; rewrite negb_true_iff in H1, H2, H3, H4.
    apply has_dup_str_false in H1; apply in_strs_false in H2, H3, H4; repeat split; auto.
    intros n I; rewrite forallb_forall in H5; now apply in_strs_false, negb_true_iff, H5. }
  split; [apply has_dup_str_false; now apply negb_true_iff in T|].
  split; [intros t s DS; apply (D t s DS)|]; split; [intros t s DS; apply (D t s DS)|]; split.
  - intros t s m I M; destruct (D t s (or_intror I)) as (_ & _ & A & B & _).
    split; intro E; [apply A|apply B]; rewrite <- E; now apply in_map.
  - intros t s m m' n DS M M' L; destruct (D t s DS) as (_ & _ & _ & _ & X); specialize (X n).
    assert (I : In n (flat_map (go_locals p) (s_members s))).
    { apply in_flat_map; exists m; split; [exact M|]; unfold go_locals; destruct L as [[-> ->]|(-> & [e E] & ->)]; [now left|].
      unfold mem; destruct (lookup (v_type m) (p_enums p)) eqn:LK; [now left|].
      apply lookup_None in LK; contradiction LK; apply in_map_iff; now exists (v_type m, e). }
    specialize (X I); split; intros ->; apply X, in_flat_map; exists m'; cbn; auto.
Qed.

(** ** Samples *)

Lemma annotated_go rename : go_names (go_protocol rename annotated).
Proof. apply go_names_ok; destruct rename; vm_compute; reflexivity. Qed.
Lemma annotated_letters : letters annotated.
Proof.
  intros t s m I M; cbn in I; destruct I as [E|[E|[]]]; injection E as <- <-; cbn in M;
    repeat (destruct M as [<-|M]; [right; cbn; lia|]); destruct M.
Qed.
Lemma joined_team_modest : lists modest joined_team.
Proof. unfold joined_team, color; lists_tac. Qed.
Lemma joined_team_go rename :
  wire (go_protocol rename annotated) "CharacterJoinedTeam" (go_val rename joined_team) joined_team_bytes /\
  lists modest (go_val rename joined_team).
Proof. split; [apply go_same_wire, joined_team_wire|apply go_same_lists, joined_team_modest]. Qed.
Lemma two_messages_modest : all_values (lists modest) two_messages.
Proof.
  constructor; [exact joined_team_modest|constructor; [|constructor]].
  cbn [snd]; unfold vector3; lists_tac.
Qed.
Lemma two_messages_go rename :
  wire_stream strict (go_protocol rename annotated) (go_messages rename two_messages) two_messages_bytes /\
  all_values (lists modest) (go_messages rename two_messages) /\
  wire_packed strict (go_protocol rename annotated) (go_messages rename two_messages) two_packed_bytes.
Proof.
  split; [apply go_same_stream, two_messages_wire|split; [apply go_same_all_lists, two_messages_modest|apply go_same_packed, two_packed]].
Qed.
Lemma four_unknown_go rename t : ~ numbered (go_protocol rename annotated) t (Z_of_byte x04).
Proof. destruct rename; cbn; [rewrite rename_numbered|]; apply four_unknown. Qed.
Lemma joined_team_tagged_go rename :
  wire_tagged strict (go_protocol rename annotated) ("CharacterJoinedTeam", go_val rename joined_team) (x03 :: joined_team_bytes).
Proof. destruct rename; [exact (rename_tagged capitalize _ _ _ _ joined_team_tagged)|exact joined_team_tagged]. Qed.
Lemma joined_team_declared_go rename : exists s, declares (go_protocol rename annotated) "CharacterJoinedTeam" s.
Proof.
  destruct joined_team_declared as [s D]; destruct rename; [|now exists s].
  exists (rename_struct capitalize s); apply rename_declares; eauto.
Qed.

(** A protocol for the conditions on what comes last. *)
Lemma moods_go rename : go_names (go_protocol rename moods).
Proof. apply go_names_ok; destruct rename; vm_compute; reflexivity. Qed.
Lemma moods_capitals rename : capitals (go_protocol rename moods).
Proof. intros t s m I; destruct rename; destruct I. Qed.
Lemma moods_enumless rename : enumless (go_protocol rename moods).
Proof. intros t s m I; destruct rename; destruct I. Qed.
Lemma moods_tight rename : tight_messages (go_protocol rename moods).
Proof.
  intros t s I.
  assert (F : fixed_size (go_protocol rename moods) "Mood" 1).
  { eapply fs_enum; [destruct rename; left; reflexivity|unfold base_size; cbn; auto]. }
  destruct rename; destruct I as [E|[]]; injection E as <- <-; right; cbn.
  - exists [MkVar "Title" "string" false], (MkVar "Mood" "Mood" false), [MkVar "Moods" "Mood" true].
    split; [reflexivity|]; split; [exists 1; split; [exact F|right; lia]|constructor; [exists 1; exact F|constructor]].
  - exists [MkVar "title" "string" false], (MkVar "mood" "Mood" false), [MkVar "moods" "Mood" true].
    split; [reflexivity|]; split; [exists 1; split; [exact F|right; lia]|constructor; [exists 1; exact F|constructor]].
Qed.

Lemma diary_cut : exists cut x rest, diary_bytes = cut ++ x :: rest /\ cut <> [].
Proof. exists [x03], x4d, [x61; x79; x02; x02; x00; x00; x01]; split; [reflexivity|discriminate]. Qed.

(** One for totality. *)
Lemma shorts_u16_accepted : accepted (shorts "uint16").
Proof. accepted_tac (shorts_toml "uint16"). Qed.
Lemma shorts_go rename : accepted (shorts "uint16") /\ go_names (go_protocol rename (shorts "uint16")) /\
  stringless (go_protocol rename (shorts "uint16")) /\ capitals (go_protocol rename (shorts "uint16")) /\
  tiny_unsigned (p_list_size_type (go_protocol rename (shorts "uint16"))).
Proof.
  split; [exact shorts_u16_accepted|]; split; [apply go_names_ok; destruct rename; vm_compute; reflexivity|].
  split; [|split; [intros t s m I; destruct rename; destruct I|destruct rename; cbn; unfold tiny_unsigned; cbn; auto]].
  intros t s m D M; destruct rename; destruct D as [[]|[E|[]]]; injection E as <- <-; destruct M as [<-|[]]; discriminate.
Qed.

(** ** Counterexamples *)

Lemma pose_accepted : accepted (pose "x" "y").
Proof. accepted_tac (pose_toml "x" "y"). Qed.
Lemma C10_no_rename : exists p t v bs, accepted p /\ is_message_name p t /\ wire p t v bs /\
  go_names (go_protocol false p) /\ forall room, go_from_bytes room (go_protocol false p) t bs 0 = RTrap.
Proof.
  exists (pose "x" "y"), "Pose", (some_pose "x" "y"), some_pose_bytes.
  split; [exact pose_accepted|]; split; [eexists; left; reflexivity|]; split; [wire_tac|].
  split; [apply go_names_ok; vm_compute; reflexivity|intro room; vm_compute; reflexivity].
Qed.

Lemma sized_notes_u16_accepted : accepted (sized_notes "uint16").
Proof. accepted_tac (sized_notes_toml "uint16"). Qed.
Lemma C20_go_str : exists p t v bs cut x rest v' e, accepted p /\ go_names (go_protocol true p) /\ letters p /\ is_message_name p t /\
  wire (go_protocol true p) t v bs /\ bs = cut ++ x :: rest /\ v' <> v /\
  forall room, go_from_bytes room (go_protocol true p) t cut 0 = ROk v' e.
Proof.
  exists (sized_notes "uint16"), "Note", (VStruct [("Body", VStr (text "a"))]), [x01; x00; x61], [x01], x00, [x61],
    (VStruct [("Body", VStr [])]), 1%nat.
  split; [exact sized_notes_u16_accepted|]; split; [apply go_names_ok; vm_compute; reflexivity|].
  split; [intros t s m []|]; split; [eexists; left; reflexivity|]; split; [wire_tac|].
  split; [reflexivity|]; split; [discriminate|intro room; vm_compute; reflexivity].
Qed.
Definition track_go : val := go_val true track.
Definition track_cut : val := VStruct
  [("Name", VStr (text "ab")); ("Points", VList [VStruct [("Label", VStr (text "c")); ("X", VInt 0)]])].
Lemma tracks_letters : letters tracks.
Proof.
  intros t s m I M; cbn in I; destruct I as [E|[]]; injection E as <- <-; cbn in M;
    repeat (destruct M as [<-|M]; [right; cbn; lia|]); destruct M.
Qed.
Lemma C20_go_nested : exists p t v bs cut x v' e, accepted p /\ go_names (go_protocol true p) /\ letters p /\ is_message_name p t /\
  wire (go_protocol true p) t v bs /\ bs = cut ++ [x] /\ v' <> v /\
  go_from_bytes (fun _ => 2 ^ 28) (go_protocol true p) t cut 0 = ROk v' e.
Proof.
  exists tracks, "Track", track_go, track_bytes, [x02; x00; x61; x62; x01; x01; x00; x63; xfe], xff, track_cut, 9%nat.
  split; [exact tracks_accepted|]; split; [apply go_names_ok; vm_compute; reflexivity|].
  split; [exact tracks_letters|]; split; [eexists; left; reflexivity|]; split; [wire_tac|].
  split; [reflexivity|]; split; [discriminate|vm_compute; reflexivity].
Qed.

Lemma hands_accepted : accepted hands.
Proof. accepted_tac hands_toml. Qed.
Lemma hands_letters : letters hands.
Proof.
  intros t s m I M; cbn in I; destruct I as [E|[]]; injection E as <- <-; cbn in M;
    repeat (destruct M as [<-|M]; [right; cbn; lia|]); destruct M.
Qed.
Lemma pages_accepted : accepted pages.
Proof. accepted_tac pages_toml. Qed.
Lemma pages_letters : letters pages.
Proof.
  intros t s m I M; cbn in I; destruct I as [E|[]]; injection E as <- <-; cbn in M;
    repeat (destruct M as [<-|M]; [right; cbn; lia|]); destruct M.
Qed.
Lemma C21_go_simple : exists p t inp v e, accepted p /\ go_names (go_protocol true p) /\ letters p /\ is_message_name p t /\
  ~ enums_declared (go_protocol true p) t v /\
  forall room, go_from_bytes room (go_protocol true p) t inp 0 = ROk v e.
Proof.
  exists hands, "Show", [x09; x07], (VStruct [("Hand", VStruct [("Sign", VInt 9); ("Age", VInt 7)])]), 2%nat.
  split; [exact hands_accepted|]; split; [apply go_names_ok; vm_compute; reflexivity|].
  split; [exact hands_letters|]; split; [eexists; left; reflexivity|].
  split; [|intro room; vm_compute; reflexivity].
  intro H; inversion H as [|? s fs D M _|? ? B]; subst; [|destruct B as [B|B]; [cbn in B; intuition discriminate|discriminate]].
  destruct D as [[E|[]]|[E|[]]]; [discriminate E|]; injection E as <-.
  specialize (M _ _ (or_introl eq_refl) eq_refl (or_introl eq_refl)); cbn in M.
  inversion M as [|? s' fs' D' M' _|? ? B]; subst; [|destruct B as [B|B]; [cbn in B; intuition discriminate|discriminate]].
  destruct D' as [[E|[]]|[E|[]]]; [|discriminate E]; injection E as <-.
  specialize (M' _ _ (or_introl eq_refl) eq_refl (or_introl eq_refl)); cbn in M'.
  inversion M' as [? e z IE OK| |? ? B]; subst.
  - destruct IE as [E|[]]; injection E as <-; cbn in OK; lia.
  - destruct B as [B|B]; [cbn in B; intuition discriminate|discriminate].
Qed.
Lemma C21_go_dropped : exists p t inp v e, accepted p /\ go_names (go_protocol true p) /\ letters p /\ is_message_name p t /\
  ~ enums_declared (go_protocol true p) t v /\
  forall room, go_from_bytes room (go_protocol true p) t inp 0 = ROk v e.
Proof.
  exists pages, "Turn", [x09; x00], (VStruct [("Page", VStruct [("Side", VInt 0); ("Body", VStr [])])]), 1%nat.
  split; [exact pages_accepted|]; split; [apply go_names_ok; vm_compute; reflexivity|].
  split; [exact pages_letters|]; split; [eexists; left; reflexivity|].
  split; [|intro room; vm_compute; reflexivity].
  intro H; inversion H as [|? s fs D M _|? ? B]; subst; [|destruct B as [B|B]; [cbn in B; intuition discriminate|discriminate]].
  destruct D as [[E|[]]|[E|[]]]; [discriminate E|]; injection E as <-.
  specialize (M _ _ (or_introl eq_refl) eq_refl (or_introl eq_refl)); cbn in M.
  inversion M as [|? s' fs' D' M' _|? ? B]; subst; [|destruct B as [B|B]; [cbn in B; intuition discriminate|discriminate]].
  destruct D' as [[E|[]]|[E|[]]]; [|discriminate E]; injection E as <-.
  specialize (M' _ _ (or_introl eq_refl) eq_refl (or_introl eq_refl)); cbn in M'.
  inversion M' as [? e z IE OK| |? ? B]; subst.
  - destruct IE as [E|[]]; injection E as <-; cbn in OK; lia.
  - destruct B as [B|B]; [cbn in B; intuition discriminate|discriminate].
Qed.

Lemma notes_not_empty md v bs rest : wire_in md (go_protocol true notes) "Note" v bs -> bs ++ rest <> [].
Proof.
  intros H E; apply app_eq_nil in E as [-> _].
  assert (W : WF (go_protocol true notes)).
  { apply go_protocol_WF; [exact (accepted_WF _ notes_accepted)|].
    apply (go_names_ok (go_protocol true notes)); vm_compute; reflexivity. }
  assert (D : declares (go_protocol true notes) "Note" (MkStruct "Note" [MkVar "Body" "string" false] true)) by (right; now left).
  destruct (wire_struct_inv md _ W _ _ _ _ D H) as (fs & -> & M); cbn in M.
  inversion M as [|? ? ? ? a b WM WR]; subst.
  match goal with X : _ ++ _ = [] |- _ => apply app_eq_nil in X as [-> ->] end.
  inversion WM as [? ? ? VL WI|]; subst; [|discriminate].
  destruct (wire_str_inv md (go_protocol true notes) W _ _ WI) as (s & lb & -> & E & (k & K & N)); cbn in K; injection K as <-.
  symmetry in E; apply app_eq_nil in E as [-> _]; inversion N; discriminate.
Qed.
Lemma C22_go_empty : exists p t v e, accepted p /\ go_names (go_protocol true p) /\ letters p /\ is_message_name p t /\
  (forall room, go_from_bytes room (go_protocol true p) t [] 0 = ROk v e) /\
  forall md v bs rest, wire_in md (go_protocol true p) t v bs -> bs ++ rest <> [].
Proof.
  exists notes, "Note", (VStruct [("Body", VStr [])]), 0%nat.
  split; [exact notes_accepted|]; split; [apply go_names_ok; vm_compute; reflexivity|].
  split; [intros t s m []|]; split; [eexists; left; reflexivity|].
  split; [intro room; vm_compute; reflexivity|exact notes_not_empty].
Qed.

Lemma C40_go_string : exists p t inp, accepted p /\ go_names (go_protocol true p) /\ letters p /\ is_message_name p t /\
  forall room, go_from_bytes room (go_protocol true p) t inp 0 = RTrap.
Proof.
  exists notes, "Note", [x01].
  split; [exact notes_accepted|]; split; [apply go_names_ok; vm_compute; reflexivity|].
  split; [intros t s m []|]; split; [eexists; left; reflexivity|intro room; vm_compute; reflexivity].
Qed.
Lemma shorts_i16_ok : accepted (shorts "int16").
Proof. accepted_tac (shorts_toml "int16"). Qed.
Lemma C40_go_list : exists p t inp, accepted p /\ go_names (go_protocol true p) /\ letters p /\ stringless p /\ is_message_name p t /\
  forall room, go_from_bytes room (go_protocol true p) t inp 0 = RTrap.
Proof.
  exists (shorts "int16"), "Numbers", [xff; xff].
  split; [exact shorts_i16_ok|]; split; [apply go_names_ok; vm_compute; reflexivity|].
  split; [intros t s m []|].
  split; [intros t s m [[]|[E|[]]] M; injection E as <- <-; destruct M as [<-|[]]; discriminate|].
  split; [eexists; left; reflexivity|intro room; vm_compute; reflexivity].
Qed.
Lemma C29_go_short : exists p inp, accepted p /\ go_names (go_protocol true p) /\ letters p /\
  forall room, go_unpack room (go_protocol true p) inp 0 = RTrap.
Proof.
  exists moods, [x42; x53; x43].
  split; [exact moods_accepted|]; split; [exact (moods_go true)|]; split; [intros t s m []|intro room; vm_compute; reflexivity].
Qed.

Lemma twins_fields_accepted : accepted (twins "foo" "Foo").
Proof. accepted_tac (twins_toml "foo" "Foo"). Qed.
Lemma twins_method_accepted : accepted (twins "writeBytes" "id").
Proof. accepted_tac (twins_toml "writeBytes" "id"). Qed.
Lemma two_types_tag_accepted : accepted (two_types "NoteType" "Note").
Proof. accepted_tac (two_types_toml "NoteType" "Note"). Qed.
Lemma two_types_local_accepted : accepted (two_types "Items_Len" "Note").
Proof. accepted_tac (two_types_toml "Items_Len" "Note"). Qed.
Lemma two_enums_accepted : accepted (two_enums "A" "BC" "AB" "C").
Proof. accepted_tac (two_enums_toml "A" "BC" "AB" "C"). Qed.

Lemma C32_go_fields : exists p, accepted p /\ go_compiles (go_protocol false p) = true /\ go_compiles (go_protocol true p) = false.
Proof. exists (twins "foo" "Foo"); split; [exact twins_fields_accepted|]; vm_compute; auto. Qed.
Lemma C32_go_method : exists p, accepted p /\ go_compiles (go_protocol true p) = false.
Proof. exists (twins "writeBytes" "id"); split; [exact twins_method_accepted|]; vm_compute; auto. Qed.
Lemma C32_go_tag : exists p, accepted p /\ forall rename, go_compiles (go_protocol rename p) = false.
Proof. exists (two_types "NoteType" "Note"); split; [exact two_types_tag_accepted|]; intros [|]; vm_compute; auto. Qed.
Lemma C32_go_local : exists p, accepted p /\ go_compiles (go_protocol true p) = false.
Proof. exists (two_types "Items_Len" "Note"); split; [exact two_types_local_accepted|]; vm_compute; auto. Qed.
Lemma C32_go_enums : exists p, accepted p /\ forall rename, go_compiles (go_protocol rename p) = false.
Proof. exists (two_enums "A" "BC" "AB" "C"); split; [exact two_enums_accepted|]; intros [|]; vm_compute; auto. Qed.

(** A list that is too long for its length. *)
Lemma too_many_held_go : can_hold (go_protocol true (shorts "byte")) "Numbers" (go_val true too_many).
Proof.
  change (can_hold (go_protocol true (shorts "byte")) "Numbers" (VStruct [("Items", VList (map VInt (repeat 0 256)))])).
  eapply ch_struct; [right; left; reflexivity|]; apply (chm_list _ (MkVar "Items" "int16" true)); [reflexivity| |constructor].
  generalize 256%nat; induction n as [|n IH]; cbn [repeat map]; constructor; auto.
  eapply ch_num; [reflexivity|]; constructor; [discriminate|now cbn].
Qed.
Lemma C41_go : exists p, accepted p /\ go_names (go_protocol true p) /\ 
  corrupts_overlong (go_protocol true p) (go_write_bytes (go_protocol true p)) (go_from_bytes (fun _ => 2 ^ 28) (go_protocol true p)).
Proof.
  exists (shorts "byte"); split; [exact shorts_byte_accepted|]; split.
  apply go_names_ok; vm_compute; reflexivity. corrupt_tac no_room too_many_held_go.
Qed.
