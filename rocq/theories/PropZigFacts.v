(** Proofs for PropZig.v. *)
From Verif Require Export ZigMemoryFacts LangSampleFacts.
Open Scope string_scope.
Open Scope Z_scope.
Open Scope list_scope.

(** From the hypotheses of the theorems to those of ZigFacts.v. *)
Lemma zig_use p (X : Prop) : (WF p -> zig_compiles p = true -> X) -> accepted p -> zig_names p -> X.
Proof. intros H A N; pose proof (accepted_WF p A) as W; apply H; [exact W|now apply zig_compiles_ok]. Qed.
Lemma zig_use_reads p (X : Prop) : (WF p -> zig_compiles p = true -> zig_reads p = true -> X) ->
  accepted p -> zig_names p -> unsigned_sizes p -> flat p -> X.
Proof.
  intros H A N U F; pose proof (accepted_WF p A) as W.
  apply H; [exact W|now apply zig_compiles_ok|now apply zig_reads_ok].
Qed.

(** ** Deciding the conditions *)

Definition el_digit (n : string) : bool :=
  match n with String "e" (String "l" (String c _)) => zig_digit c | _ => false end.
(** No fixed size. *)
Definition loose_b (p : protocol) (s : struct) : bool :=
  existsb (fun m => v_list m || negb (is_simple p (v_type m))) (s_members s).
Definition zig_struct_b (p : protocol) (ns : string * struct) : bool :=
  let ms := s_members (snd ns) in
  negb (has_dup_str (["allocator"; "buffer"; "local_offset"; "offset"] ++ flat_map (zig_constants (fst ns)) ms)) &&
  (forallb (fun n => negb (in_strs n (zig_fixed_names ++ type_names p))) (flat_map (zig_constants (fst ns)) ms) &&
  (forallb (fun n => negb (in_strs n (map v_name ms))) ["getSizeInBytes"; "fromBytes"; "writeBytes"; "deinit"] &&
  (loose_b p (snd ns) || existsb (fun m => in_strs (v_type m) base_types) ms || in_strs (fst ns) (map fst (p_messages p))))).
Definition zig_names_b (p : protocol) : bool :=
  negb (has_dup_str (zig_fixed_names ++ type_names p)) &&
  (forallb (fun t => negb (in_strs t zig_names_inside) && negb (el_digit t)) (type_names p) &&
   forallb (zig_struct_b p) (p_structs p ++ p_messages p)).

Lemma el_digit_el n : numbered_el n -> el_digit n = true.
Proof. intros (c & r & -> & A & B); cbn; unfold zig_digit; apply andb_true_iff; split; now apply Nat.leb_le. Qed.
Lemma loose_b_ok p t s n : WF p -> declares p t s -> loose_b p s = true -> fixed_size p t n -> False.
Proof.
  intros W D L F; inversion F as [? ? B|? e ? I|? s' ? D' FM]; subst.
  - destruct (declares_not_num p W t s D) as [N _]; apply base_size_In, num_of_base in B as [k B]; congruence.
  - now destruct (declares_not_num p W t s D) as (_ & _ & N); apply (N e).
  - rewrite (declares_unique p t s' s W D' D) in FM; apply existsb_exists in L as (m & I & L).
    assert (X : v_list m = false /\ exists n, fixed_size p (v_type m) n).
    { revert I; clear - FM; induction FM; intros []; subst; eauto. }
    destruct X as [V [n' X]]; rewrite V in L; cbn in L.
    rewrite (fixed_is_simple p _ n' W (or_introl (wf_member_types p W t s m D I)) X) in L; discriminate.
Qed.

Lemma zig_names_ok p : WF p -> zig_names_b p = true -> zig_names p.
Proof.
  intros W H; unfold zig_names_b in H; apply andb_true_iff in H as [H1 H]; apply andb_true_iff in H as [H2 H].
  rewrite forallb_forall in H, H2.
  assert (S : forall t s, declares p t s -> zig_struct_b p (t, s) = true)
    by (intros t s D; apply H; now apply in_app_iff).
  unfold zig_struct_b in S; cbn [fst snd] in S.
  assert (M : forall n, In n ["getSizeInBytes"; "fromBytes"; "writeBytes"; "deinit"] -> no_member n p).
  { intros n I t s D; specialize (S t s D); apply andb_true_iff in S as [_ S]; apply andb_true_iff in S as [_ S].
    apply andb_true_iff in S as [S _]; rewrite forallb_forall in S; now apply in_strs_false, negb_true_iff, S. }
  split; [apply has_dup_str_false; now apply negb_true_iff|].
  split. { intros t T; specialize (H2 t T); apply andb_true_iff in H2 as [A B]; rewrite negb_true_iff in A, B.
           split; [now apply in_strs_false|intro E; apply el_digit_el in E; congruence]. }
  split. { intros t s D; specialize (S t s D); apply andb_true_iff in S as [S _]; now apply has_dup_str_false, negb_true_iff. }
  split. { intros t s m n D I N; specialize (S t s D); apply andb_true_iff in S as [_ S]; apply andb_true_iff in S as [S _].
           rewrite forallb_forall in S; apply in_strs_false, negb_true_iff, S, in_flat_map; eauto. }
  split; [repeat split; apply M; cbn; tauto|].
  intros t s n I F; assert (D : declares p t s) by now left.
  specialize (S t s D); do 3 apply andb_true_iff in S as [_ S].
  apply orb_true_iff in S as [S|S]; [apply orb_true_iff in S as [S|S]|].
  - now destruct (loose_b_ok p t s n W D S F).
  - apply existsb_exists in S as (m & IM & S); exists m; split; [exact IM|now apply in_strs_true].
  - apply in_strs_true in S; exfalso; apply in_map_iff in S as ([t' s'] & E & S); cbn in E; subst t'.
    destruct (wf_disjoint p W t) as [X _]; apply X; split; [now exists s|now exists s'].
Qed.

Definition flat_b (p : protocol) : bool :=
  forallb (fun ns => loose_b p (snd ns) || forallb (fun m => negb (mem (v_type m) (p_structs p))) (s_members (snd ns)))
    (p_structs p ++ p_messages p).
Lemma flat_ok p : WF p -> flat_b p = true -> flat p.
Proof.
  intros W H t s n m D F I [s' S]; unfold flat_b in H; rewrite forallb_forall in H.
  specialize (H (t, s) (proj2 (in_app_iff _ _ _) D)); cbn [snd] in H.
  apply orb_true_iff in H as [H|H]; [exact (loose_b_ok p t s n W D H F)|].
  rewrite forallb_forall in H; specialize (H m I); apply negb_true_iff in H; revert H; unfold mem.
  destruct (lookup (v_type m) (p_structs p)) eqn:E; [discriminate|intros _].
  apply lookup_None in E; apply E, in_map_iff; now exists (v_type m, s').
Qed.
Definition numbers_only_b (p : protocol) : bool :=
  forallb (fun ns => loose_b p (snd ns) || forallb (fun m => in_strs (v_type m) base_types) (s_members (snd ns))) (p_structs p).
Lemma numbers_only_ok p : WF p -> numbers_only_b p = true -> numbers_only p.
Proof.
  intros W H t s n m IS F I; unfold numbers_only_b in H; rewrite forallb_forall in H.
  specialize (H (t, s) IS); cbn [snd] in H.
  apply orb_true_iff in H as [H|H]; [destruct (loose_b_ok p t s n W (or_introl IS) H F)|].
  rewrite forallb_forall in H; now apply in_strs_true, H.
Qed.
Ltac zig_names_tac := apply zig_names_ok; [apply accepted_WF|vm_compute; reflexivity].
Ltac flat_tac := apply flat_ok; [apply accepted_WF|vm_compute; reflexivity].

(** ** The samples *)

Lemma sized_ok p n s : num_of (p_string_size_type p) = Some n ->
  Z.of_nat (List.length s) + Z.of_nat (num_size n) <=? num_max n = true -> zig_string p s.
Proof. intros K H k K'; rewrite K in K'; injection K' as <-; now apply Z.leb_le. Qed.

Lemma photos_zig : zig_names photos /\ unsigned_sizes photos /\ flat photos /\ numbers_only photos /\ same_sizes photos /\
  p_string_size_type photos = "uint32".
Proof.
  split; [zig_names_tac; exact photos_accepted|].
  split; [split; left; unfold unsigned_type; cbn; tauto|].
  split; [flat_tac; exact photos_accepted|].
  split; [apply numbers_only_ok; [apply accepted_WF, photos_accepted|vm_compute; reflexivity]|].
  split; [now left|reflexivity].
Qed.
Lemma photo_value : zig_value photos photo.
Proof.
  split; unfold photo; [strings_tac; (eapply sized_ok; [reflexivity|vm_compute; reflexivity])|lists_tac].
Qed.
Lemma two_photos_values : all_values (zig_value photos) two_photos.
Proof. repeat (constructor; [exact photo_value|]); constructor. Qed.

(** ** Counterexamples *)

(** The documentation's own example. *)
Lemma annotated_zig : zig_names annotated /\ unsigned_sizes annotated /\ flat annotated /\ numbers_only annotated.
Proof.
  split; [zig_names_tac; exact annotated_accepted_proof|].
  split; [split; left; unfold unsigned_type; cbn; tauto|].
  split; [flat_tac; exact annotated_accepted_proof|].
  apply numbers_only_ok; [apply accepted_WF, annotated_accepted_proof|vm_compute; reflexivity].
Qed.
Lemma joined_team_value : zig_value annotated joined_team.
Proof.
  split; unfold joined_team, color; [strings_tac; (eapply sized_ok; [reflexivity|vm_compute; reflexivity])|lists_tac].
Qed.
Lemma C31_zig : exists p t v bs buf w',
  accepted p /\ zig_names p /\ unsigned_sizes p /\ flat p /\ numbers_only p /\ is_message_name p t /\ wire p t v bs /\
  zig_value p v /\
  zig_write_bytes p t v {| w_buf := buf; w_pos := 0 |} = WDone w' /\ firstn (w_pos w') (w_buf w') <> bs.
Proof.
  exists annotated, "CharacterJoinedTeam", joined_team, joined_team_bytes, (repeat x00 50).
  destruct annotated_zig as (N & U & F & O).
  eexists; split; [exact annotated_accepted_proof|]; split; [exact N|]; split; [exact U|]; split; [exact F|]; split; [exact O|].
  split; [eexists; right; right; left; reflexivity|]; split; [exact joined_team_wire|]; split; [exact joined_team_value|].
  split; [vm_compute; reflexivity|vm_compute; discriminate].
Qed.
Lemma C19_zig : exists p t v n,
  accepted p /\ zig_names p /\ unsigned_sizes p /\ flat p /\ numbers_only p /\ is_message_name p t /\ zig_value p v /\
  zig_size p t v = MRet (Z.of_nat n) /\ zig_write_bytes p t v {| w_buf := repeat x00 n; w_pos := 0 |} = WTrap.
Proof.
  exists moods, "Diary", diary, 9%nat.
  split; [exact moods_accepted|]; split; [zig_names_tac; exact moods_accepted|].
  split; [split; left; unfold unsigned_type; cbn; tauto|]; split; [flat_tac; exact moods_accepted|].
  split; [intros t s n m []|]; split; [eexists; left; reflexivity|].
  split; [split; unfold diary; [strings_tac; (eapply sized_ok; [reflexivity|vm_compute; reflexivity])|lists_tac]|].
  split; vm_compute; reflexivity.
Qed.

Lemma C16_zig_enum : exists p t v bs buf w',
  accepted p /\ zig_names p /\ unsigned_sizes p /\ flat p /\ same_sizes p /\ is_message_name p t /\ wire p t v bs /\
  zig_value p v /\
  zig_write_bytes p t v {| w_buf := buf; w_pos := 0 |} = WDone w' /\ firstn (w_pos w') (w_buf w') <> bs.
Proof.
  exists rounds, "Round", (VStruct [("who", VStr []); ("hand", VStruct [("sign", VInt 1); ("age", VInt 9)])]), 
    [x00; x00; x00; x00; x01; x09], [xff; xff; xff; xff; xff; xff].
  eexists; split; [exact rounds_accepted|]; split; [zig_names_tac; exact rounds_accepted|].
  split; [split; left; unfold unsigned_type; cbn; tauto|].
  split; [flat_tac; exact rounds_accepted|]; split; [now left|].
  split; [eexists; left; reflexivity|]; split; [wire_tac|].
  split; [split; [strings_tac; eapply sized_ok; [reflexivity|vm_compute; reflexivity]|lists_tac]|].
  split; [vm_compute; reflexivity|vm_compute; discriminate].
Qed.

Lemma C16_zig_nested : exists p t v bs,
  accepted p /\ zig_names p /\ unsigned_sizes p /\ same_sizes p /\ is_message_name p t /\ wire p t v bs /\ zig_value p v /\
  forall room, zig_from_bytes room p t bs 0 = RStuck.
Proof.
  exists (pose "x" "y"), "Pose", (some_pose "x" "y"), some_pose_bytes.
  split; [exact pose_accepted|]; split; [zig_names_tac; exact pose_accepted|].
  split; [split; left; unfold unsigned_type; cbn; tauto|]; split; [now left|].
  split; [eexists; left; reflexivity|]; split; [wire_tac|]; split; [split; unfold some_pose; [strings_tac|lists_tac]|].
  intro room; vm_compute; reflexivity.
Qed.

Lemma C16_zig_signed : exists p t v bs,
  accepted p /\ zig_names p /\ flat p /\ same_sizes p /\ is_message_name p t /\ wire p t v bs /\ zig_value p v /\
  forall room, zig_from_bytes room p t bs 0 = RStuck.
Proof.
  exists (numbers "int16"), "Numbers", (some_numbers [5]), [x01; x00; x05].
  split; [exact numbers_i16_accepted|]; split; [zig_names_tac; exact numbers_i16_accepted|].
  split; [flat_tac; exact numbers_i16_accepted|].
  split; [right; intros t s m [[]|[E|[]]] M; injection E as <- <-; destruct M as [<-|[]]; discriminate|].
  split; [eexists; left; reflexivity|]; split; [wire_tac|].
  split; [split; unfold some_numbers; cbn [map]; [strings_tac|lists_tac]|].
  intro room; vm_compute; reflexivity.
Qed.

(** A string of 255 bytes. *)
Lemma notes_zig : zig_names notes /\ unsigned_sizes notes /\ flat notes /\ numbers_only notes /\ same_sizes notes.
Proof.
  split; [zig_names_tac; exact notes_accepted|].
  split; [split; left; unfold unsigned_type; cbn; tauto|]; split; [flat_tac; exact notes_accepted|].
  split; [intros t s n m []|now left].
Qed.
Lemma C16_zig_long : exists p t v bs,
  accepted p /\ zig_names p /\ unsigned_sizes p /\ flat p /\ numbers_only p /\ same_sizes p /\
  is_message_name p t /\ wire p t v bs /\ lists modest v /\
  forall room, zig_from_bytes room p t bs 0 = RTrap.
Proof.
  exists notes, "Note", (note (repeat x61 255)), (xff :: repeat x61 255).
  destruct notes_zig as (N & U & F & O & S).
  split; [exact notes_accepted|]; split; [exact N|]; split; [exact U|]; split; [exact F|]; split; [exact O|]; split; [exact S|].
  split; [eexists; left; reflexivity|]; split; [wire_tac|]; split; [unfold note; lists_tac|].
  intro room; vm_compute; reflexivity.
Qed.

(** Lengths of eight bytes. *)
Lemma C40_zig_string : exists p t inp,
  accepted p /\ zig_names p /\ unsigned_sizes p /\ flat p /\ is_message_name p t /\
  Z.of_nat (List.length inp) < 2 ^ 32 /\ forall room, zig_from_bytes room p t inp 0 = RTrap.
Proof.
  exists long_notes, "Note", (repeat xff 8).
  split; [exact long_notes_accepted|]; split; [zig_names_tac; exact long_notes_accepted|].
  split; [split; left; unfold unsigned_type; cbn; tauto|]; split; [flat_tac; exact long_notes_accepted|].
  split; [eexists; left; reflexivity|]; split; [cbn; lia|].
  intro room; vm_compute; reflexivity.
Qed.

(** Packed buffers. *)
Lemma C29_zig_short : exists p inp, accepted p /\ zig_names p /\ unsigned_sizes p /\ flat p /\
  forall room, zig_unpack room p inp 0 = RTrap.
Proof.
  exists photos, (text "BSC"); destruct photos_zig as (N & U & F & _).
  split; [exact photos_accepted|]; split; [exact N|]; split; [exact U|]; split; [exact F|].
  intro room; vm_compute; reflexivity.
Qed.
Lemma C40_zig_count : exists p inp, accepted p /\ zig_names p /\ unsigned_sizes p /\ flat p /\
  (exists rest, inp = header ++ rest) /\ forall room, zig_unpack room p inp 0 = RTrap.
Proof.
  exists photos, (header ++ [xff; xff; xff; xff]); destruct photos_zig as (N & U & F & _).
  split; [exact photos_accepted|]; split; [exact N|]; split; [exact U|]; split; [exact F|].
  split; [now eexists|intro room; vm_compute; reflexivity].
Qed.

(** Names. *)
Lemma C32_zig_read : exists p, accepted p /\ zig_compiles p = false.
Proof. exists (labels "Note" "body" "body_read"); split; [accepted_tac (labels_toml "Note" "body" "body_read")|vm_compute; reflexivity]. Qed.
Lemma C32_zig_local : exists p, accepted p /\ zig_compiles p = false.
Proof. exists (labels "local" "offset" "body"); split; [accepted_tac (labels_toml "local" "offset" "body")|vm_compute; reflexivity]. Qed.
Lemma C32_zig_type : exists p, accepted p /\ zig_compiles p = false.
Proof. exists (two_types "T" "Note"); split; [accepted_tac (two_types_toml "T" "Note")|vm_compute; reflexivity]. Qed.
Lemma C32_zig_enums : exists p, accepted p /\ zig_compiles p = false.
Proof. exists dice; split; [accepted_tac dice_toml|vm_compute; reflexivity]. Qed.

(** One for lists that are too long. *)
Lemma shorts_byte_zig : zig_names (shorts "byte").
Proof. zig_names_tac; exact shorts_byte_accepted. Qed.

(** ** Memory *)

Lemma tidy_notes : zig_names notes /\ unsigned_sizes notes /\ flat notes /\ tidy notes.
Proof.
  split; [zig_names_tac; exact notes_accepted|].
  split; [split; left; unfold unsigned_type; cbn; tauto|].
  split; [flat_tac; exact notes_accepted|].
  intros t s D pre m post E NE; destruct D as [[]|[[= <- <-]|[]]]; cbn [s_members] in E.
  destruct pre as [|x [|y pre]]; [|discriminate E|discriminate E]; injection E as _ <-; now contradiction NE.
Qed.

(** A photo of which all but the title is missing. *)
Lemma C46_zig_read : exists p t inp next' freed,
  accepted p /\ zig_names p /\ unsigned_sizes p /\ flat p /\ is_message_name p t /\
  (forall room hollow, zig_from_bytes_memory room hollow p t inp 0 0 = ZErr next' freed) /\ ~ each_once 0 next' freed.
Proof.
  exists photos, "Photo", (firstn 6 photo_bytes), 1%nat, []; destruct photos_zig as (N & U & F & _).
  split; [exact photos_accepted|]; split; [exact N|]; split; [exact U|]; split; [exact F|].
  split; [eexists; left; reflexivity|].
  split; [intros room hollow; vm_compute; reflexivity|].
  intros (_ & A); apply (A 0%nat); lia.
Qed.
(** A note, and a message that does not exist. *)
Lemma C46_zig_stream : exists p inp next' freed,
  accepted p /\ zig_names p /\ unsigned_sizes p /\ flat p /\ tidy p /\
  (forall room hollow, zig_process_memory room hollow p (-1) inp 0 0 = ZErr next' freed) /\ ~ each_once 0 next' freed.
Proof.
  exists notes, [x01; x01; x61; x02], 1%nat, []; destruct tidy_notes as (N & U & F & T).
  split; [exact notes_accepted|]; split; [exact N|]; split; [exact U|]; split; [exact F|]; split; [exact T|].
  split; [intros room hollow; vm_compute; reflexivity|].
  intros (_ & A); apply (A 0%nat); lia.
Qed.
(** A count of two, and one note. *)
Lemma C46_zig_packed : exists p data next' freed,
  accepted p /\ zig_names p /\ unsigned_sizes p /\ flat p /\ tidy p /\
  (forall room hollow, zig_unpack_memory room hollow p data 0 = ZErr next' freed) /\ ~ each_once 0 next' freed.
Proof.
  exists notes, (header ++ [x02; x00; x00; x00; x01; x01; x61; x00]), 2%nat, [1%nat]; destruct tidy_notes as (N & U & F & T).
  split; [exact notes_accepted|]; split; [exact N|]; split; [exact U|]; split; [exact F|]; split; [exact T|].
  split; [intros room hollow; vm_compute; reflexivity|].
  intros (_ & A); destruct (proj2 (A 0%nat)) as [E|[]]; [lia|discriminate E].
Qed.

Lemma photo_memory : exists v q, zig_from_bytes_memory (fun _ => 2 ^ 28) (fun _ => false) photos "Photo" photo_bytes 0 3 =
  ZOk v q 7 [].
Proof. do 2 eexists; vm_compute; reflexivity. Qed.
Lemma two_photos_memory : exists b ms q,
  zig_process_memory (fun _ => 2 ^ 28) (fun _ => false) photos (-1) two_photos_bytes 0 3 = ZOk (b, ms) q 12 [].
Proof. do 3 eexists; vm_compute; reflexivity. Qed.
Lemma packed_photos_memory : exists b ms q,
  zig_unpack_memory (fun _ => 2 ^ 28) (fun _ => false) photos packed_photos_bytes 3 = ZOk (b, ms) q 12 [].
Proof. do 3 eexists; vm_compute; reflexivity. Qed.
(** The second face of a photo is missing. *)
Lemma photo_memory_failed : zig_from_bytes_memory (fun _ => 2 ^ 28) (fun _ => false) photos "Photo"
  (firstn 11 photo_bytes ++ [x02; x00; x00; x00] ++ skipn 15 photo_bytes) 0 3 = ZErr 7 [6; 5]%nat.
Proof. vm_compute; reflexivity. Qed.
(** The second of two numbers is missing. *)
Lemma shorts_memory_failed : tidy (shorts "byte") /\
  zig_from_bytes_memory (fun _ => 2 ^ 28) (fun _ => false) (shorts "byte") "Numbers" [x02; x01; x00] 0 3 = ZErr 4 [3%nat].
Proof.
  split; [|vm_compute; reflexivity].
  intros t s D pre m post E NE; destruct D as [[]|[[= <- <-]|[]]]; cbn [s_members] in E.
  destruct pre as [|x [|y pre]]; [|discriminate E|discriminate E]; injection E as _ <-; now contradiction NE.
Qed.
