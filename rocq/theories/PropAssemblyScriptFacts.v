(** Proofs for PropAssemblyScript.v. *)
From Verif Require Export AssemblyScriptFacts LangSampleFacts.
Open Scope string_scope.
Open Scope Z_scope.
Open Scope list_scope.

Lemma as_compiles_32 p : size_types_32 p -> as_compiles p = true.
Proof.
  intros [L S]; unfold as_compiles, is_64.
  destruct (String.eqb_spec (p_string_size_type p) "uint64"); [contradiction S; left; auto|].
  destruct (String.eqb_spec (p_string_size_type p) "int64"); [contradiction S; right; left; auto|].
  destruct (String.eqb_spec (p_list_size_type p) "uint64"); [contradiction L; left; auto|].
  destruct (String.eqb_spec (p_list_size_type p) "int64"); [contradiction L; right; left; auto|reflexivity].
Qed.

(** ** The samples *)

Lemma some_lossy : keeps_header (fun raw => raw).
Proof. intros raw _ U ->; apply U, utf8_valid_spec; reflexivity. Qed.

(** ** Counterexamples *)

(** The protocol of the documentation. *)
Definition minion : val := VStruct
  [("characterID", VInt 7); ("teamName", VStr (text "T")); ("teamColors", VList []); ("role", VInt 256)].
Definition minion_bytes : list byte := [x07; x00; x00; x00; x00; x00; x00; x00; x01; x54; x00; x00; x00; x01].
Lemma minion_modest : utf8_modest minion.
Proof. split; unfold minion; [strings_tac; apply utf8_valid_spec; reflexivity|lists_tac]. Qed.

Lemma C17_order : exists p t v bs v',
  accepted p /\ size_types_32 p /\ is_message_name p t /\ wire p t v bs /\ utf8_modest v /\ v' <> v /\
  forall lossy, as_from_bytes lossy (fun _ => 2 ^ 28) p t bs 0 = ROk v' (List.length bs).
Proof.
  exists annotated, "CharacterJoinedTeam", minion, minion_bytes, (VStruct
    [("characterID", VInt 7); ("teamName", VStr (text "T")); ("teamColors", VList []); ("role", VInt 0)]).
  split; [exact annotated_accepted_proof|]; split; [exact annotated_32|].
  split; [eexists; right; right; left; reflexivity|]; split; [wire_tac|].
  split; [exact minion_modest|]; split; [discriminate|].
  intro lossy; vm_compute; reflexivity.
Qed.

(** Nothing fits behind the largest value. *)
Lemma edge_accepted : accepted (signal [("Low", 0); ("High", 255)] "byte").
Proof. accepted_tac (signal_toml [("Low", 0); ("High", 255)]). Qed.
Lemma C17_edge : exists p t v bs v',
  accepted p /\ size_types_32 p /\ is_message_name p t /\ wire p t v bs /\ utf8_modest v /\ v' <> v /\
  (forall t e z, In (t, e) (p_enums p) -> In z (map snd (e_values e)) -> z <= List.last (map snd (e_values e)) 0) /\
  forall lossy room, as_from_bytes lossy room p t bs 0 = ROk v' (List.length bs).
Proof.
  exists (signal [("Low", 0); ("High", 255)] "byte"), "Signal", (VStruct [("sign", VInt 255)]), [xff], (VStruct [("sign", VInt 0)]).
  split; [exact edge_accepted|]; split; [split; intros [H|[H|[]]]; discriminate|].
  split; [eexists; left; reflexivity|]; split; [wire_tac|].
  split; [split; [strings_tac|lists_tac]|]; split; [discriminate|].
  split; [intros t e z [E|[]]; injection E as <- <-; cbn; intuition lia|].
  intros lossy room; vm_compute; reflexivity.
Qed.

Lemma C17_64_bit : exists p t v bs,
  accepted p /\ is_message_name p t /\ wire p t v bs /\ utf8_modest v /\
  (forall w, as_write_bytes p t v w = WStuck) /\
  forall lossy room inp pos, as_from_bytes lossy room p t inp pos = RStuck.
Proof.
  exists long_notes, "Note", (note (text "a")), [x01; x00; x00; x00; x00; x00; x00; x00; x61].
  split; [exact long_notes_accepted|]; split; [eexists; left; reflexivity|]; split; [wire_tac|].
  split; [split; unfold note; [strings_tac; apply utf8_valid_spec; reflexivity|lists_tac]|].
  split; reflexivity.
Qed.

Lemma C19_as_refuted : exists p t v bs n,
  accepted p /\ size_types_32 p /\ is_message_name p t /\ wire p t v bs /\
  as_size p t v = MRet n /\ n < Z.of_nat (List.length bs).
Proof.
  exists nested, "Book"%string, book, [x02; x01; x01; x61; x01; x03; x62; x63; x64], 7.
  split; [exact nested_accepted|]; split; [split; intros [H|[H|[]]]; discriminate|].
  split; [eexists; left; reflexivity|]; split; [wire_tac|].
  split; [vm_compute; reflexivity|cbn; lia].
Qed.

(** A number between two values, and one that is none of them. *)
Lemma gap_accepted : accepted (signal [("Low", 1); ("High", 9)] "byte").
Proof. accepted_tac (signal_toml [("Low", 1); ("High", 9)]). Qed.
Lemma gap_up : enums_count_up (signal [("Low", 1); ("High", 9)] "byte").
Proof. intros t e k [E|[]] K; injection E as <- <-; injection K as <-; cbn; split; [intuition lia|lia]. Qed.
Lemma C21_gap : exists p t inp v q,
  accepted p /\ size_types_32 p /\ enums_count_up p /\ is_message_name p t /\
  ~ enums_in (fun e z => In z (map snd (e_values e)) \/ z = List.last (map snd (e_values e)) 0 + 1) p t v /\
  forall lossy room, as_from_bytes lossy room p t inp 0 = ROk v q.
Proof.
  exists (signal [("Low", 1); ("High", 9)] "byte"), "Signal", [x05], (VStruct [("sign", VInt 5)]), 1%nat.
  split; [exact gap_accepted|]; split; [split; intros [H|[H|[]]]; discriminate|]; split; [exact gap_up|].
  split; [eexists; left; reflexivity|].
  split; [|intros lossy room; vm_compute; reflexivity].
  intro H; inversion H as [|? s fs D M _|? ? B]; subst.
  - destruct D as [[]|[E|[]]]; injection E as <-.
    specialize (M _ (VInt 5) (or_introl eq_refl) eq_refl (or_introl eq_refl)); cbn in M.
    inversion M as [? e z IE OK| |? ? B]; subst.
    + destruct IE as [E|[]]; injection E as <-; cbn in OK; lia.
    + destruct B as [B|B]; [cbn in B; intuition discriminate|discriminate].
  - destruct B as [B|B]; [cbn in B; intuition discriminate|discriminate].
Qed.
Lemma C21_unknown : exists p t inp v q,
  accepted p /\ size_types_32 p /\ enums_count_up p /\ enums_gapless p /\ is_message_name p t /\
  ~ enums_declared p t v /\ forall lossy room, has_room room -> as_from_bytes lossy room p t inp 0 = ROk v q.
Proof.
  exists (signal [("Low", 1); ("High", 2)] "byte"), "Signal", [x05], (VStruct [("sign", VInt 3)]), 1%nat.
  split; [accepted_tac (signal_toml [("Low", 1); ("High", 2)])|]; split; [split; intros [H|[H|[]]]; discriminate|].
  split; [intros t e k [E|[]] K; injection E as <- <-; injection K as <-; cbn; split; [intuition lia|lia]|].
  split; [intros t e a b z [E|[]]; injection E as <- <-; cbn; lia|].
  split; [eexists; left; reflexivity|].
  split; [|intros lossy room _; vm_compute; reflexivity].
  intro H; inversion H as [|? s fs D M _|? ? B]; subst.
  - destruct D as [[]|[E|[]]]; injection E as <-.
    specialize (M _ (VInt 3) (or_introl eq_refl) eq_refl (or_introl eq_refl)); cbn in M.
    inversion M as [? e z IE OK| |? ? B]; subst.
    + destruct IE as [E|[]]; injection E as <-; cbn in OK; lia.
    + destruct B as [B|B]; [cbn in B; intuition discriminate|discriminate].
  - destruct B as [B|B]; [cbn in B; intuition discriminate|discriminate].
Qed.

(** Short or broken streams. *)
Lemma C20_as_stream : exists p ms bs m last cut x rest,
  accepted p /\ size_types_32 p /\ wire_stream strict p ms bs /\ all_values utf8_modest ms /\
  wire_tagged strict p m last /\ last = cut ++ x :: rest /\ cut <> [] /\
  forall lossy room, exists ms' q, as_process lossy room p (-1) (bs ++ cut) 0 = ROk ms' q.
Proof.
  exists notes, [], [], ("Note", note (text "ab")), (x01 :: x02 :: text "ab"), (x01 :: x02 :: text "a"), x62, [].
  split; [exact notes_accepted|]; split; [split; intros [H|[H|[]]]; discriminate|].
  split; [constructor|]; split; [constructor|].
  split; [econstructor; [apply (numbered_at notes "Note" 0%nat) with (1 := eq_refl)|reflexivity|wire_tac]|].
  split; [reflexivity|]; split; [discriminate|].
  intros lossy room; do 2 eexists; vm_compute; reflexivity.
Qed.
Lemma C26_as : exists p b, accepted p /\ size_types_32 p /\ b <> x00 /\ (forall t, ~ numbered p t (Z_of_byte b)) /\
  forall lossy room after, as_process lossy room p (-1) (b :: after) 0 = ROk [] 1.
Proof.
  exists annotated, x04; split; [exact annotated_accepted_proof|]; split; [exact annotated_32|].
  split; [discriminate|]; split; [exact four_unknown|]; reflexivity.
Qed.

Lemma C23_as_pack : exists p ms bs,
  accepted p /\ size_types_32 p /\ wire_packed strict p ms bs /\
  exists w w', w_pos w = 0%nat /\ (List.length (w_buf w) < List.length bs)%nat /\ as_pack p ms w = WDone w'.
Proof.
  exists moods, diaries, diaries_packed.
  split; [exact moods_accepted|]; split; [exact moods_32|]; split; [exact diaries_pack|].
  exists {| w_buf := [x00; x00]; w_pos := 0 |}; eexists; split; [reflexivity|]; split; [cbn; lia|].
  vm_compute; reflexivity.
Qed.

Lemma C27_as_short : exists p ms bs, accepted p /\ size_types_32 p /\ wire_packed strict p ms bs /\
  all_values utf8_modest ms /\ forall lossy room, as_unpack lossy room p bs 0 = RErr.
Proof.
  exists moods, [], (header ++ [x00; x00; x00; x00] ++ [] ++ [x00]).
  split; [exact moods_accepted|]; split; [exact moods_32|].
  split; [constructor; [constructor; [discriminate|reflexivity|cbn; lia|reflexivity]|constructor]|].
  split; [constructor|]; reflexivity.
Qed.
Lemma C27_as_view : exists p ms bs pre, accepted p /\ size_types_32 p /\ wire_packed strict p ms bs /\
  all_values utf8_modest ms /\ forall lossy room, as_unpack_data lossy room pre [] p bs = RErr.
Proof.
  exists moods, diaries, diaries_packed, (repeat x00 8).
  split; [exact moods_accepted|]; split; [exact moods_32|]; split; [exact diaries_pack|].
  split; [exact diaries_modest|].
  intros lossy room; vm_compute; reflexivity.
Qed.

Lemma sized_notes_u32_accepted : accepted (sized_notes "uint32").
Proof. accepted_tac (sized_notes_toml "uint32"). Qed.
Lemma C40_as_string : exists p t inp, accepted p /\ size_types_32 p /\ unsigned_type (p_string_size_type p) /\
  unsigned_type (p_list_size_type p) /\
  is_message_name p t /\ forall lossy room, as_from_bytes lossy room p t inp 0 = RTrap.
Proof.
  exists (sized_notes "uint32"), "Note", [xff; xff; xff; xff].
  split; [exact sized_notes_u32_accepted|]; split; [split; intros [H|[H|[]]]; discriminate|].
  split; [unfold unsigned_type; cbn; tauto|]; split; [now left|].
  split; [eexists; left; reflexivity|]; intros lossy room; vm_compute; reflexivity.
Qed.
Lemma C40_as_list : exists p t inp, accepted p /\ size_types_32 p /\
  is_message_name p t /\ forall lossy room, as_from_bytes lossy room p t inp 0 = RTrap.
Proof.
  exists (numbers "int16"), "Numbers", [xff; xff].
  split; [exact numbers_i16_accepted|]; split; [split; intros [H|[H|[]]]; discriminate|].
  split; [eexists; left; reflexivity|]; intros lossy room; vm_compute; reflexivity.
Qed.
Lemma annotated_as_names : ~ In "boolean" (declared_names annotated) /\ ~ In "bigint" (declared_names annotated).
Proof. split; cbn; intuition discriminate. Qed.
Lemma C22_as : exists p t inp v q,
  accepted p /\ size_types_32 p /\ enums_count_up p /\ enums_gapless p /\ is_message_name p t /\
  (forall lossy room, as_from_bytes lossy room p t inp 0 = ROk v q) /\
  forall v0 bs rest, inp = bs ++ rest -> q = List.length bs -> ~ wire_in reading p t v0 bs.
Proof.
  exists (signal [("Low", 1); ("High", 2)] "byte"), "Signal", [x05], (VStruct [("sign", VInt 3)]), 1%nat.
  split; [accepted_tac (signal_toml [("Low", 1); ("High", 2)])|]; split; [split; intros [H|[H|[]]]; discriminate|].
  split; [intros t e k [E|[]] K; injection E as <- <-; injection K as <-; cbn; split; [intuition lia|lia]|].
  split; [intros t e a b z [E|[]]; injection E as <- <-; cbn; lia|].
  split; [eexists; left; reflexivity|].
  split; [intros lossy room; vm_compute; reflexivity|].
  intros v0 bs rest E L H.
  destruct bs as [|b [|]]; try discriminate; injection E as <- _.
  inversion H as [? ? ? ? K| |? ? ? ? ? IE|? s fs ? D M]; subst;
    [discriminate|destruct IE as [IE|[]]; discriminate|].
  destruct D as [[]|[E|[]]]; injection E as <-.
  inversion M as [|m ms v fs' a b O R E1 E2 E3]; subst.
  inversion R; subst; rewrite app_nil_r in E3; subst.
  inversion O as [? ? ? _ O1|? ? ? ? O1]; subst; [|discriminate].
  inversion O1 as [? ? ? ? K| |? e k z ? IE K V N|? s ? ? D]; subst;
    [discriminate| |destruct D as [[]|[D|[]]]; discriminate].
  destruct IE as [E|[]]; injection E as <-; injection K as <-.
  inversion N as [? ? ? _ _ _ LE| |]; subst.
  destruct V as [V|V]; [discriminate|]; cbn in V, LE.
  destruct V as [<-|[<-|[]]]; discriminate LE.
Qed.

(** A list that is too long for its length. *)
Lemma C41_as : exists p, accepted p /\ size_types_32 p /\ forall lossy,
  corrupts_overlong p (as_write_bytes p) (as_from_bytes lossy (fun _ => 2 ^ 28) p).
Proof.
  exists (shorts "byte"); split; [exact shorts_byte_accepted|]; split; [split; discriminate || (cbn; intuition discriminate)|].
  intros lossy; corrupt_tac room_513 too_many_held.
Qed.
