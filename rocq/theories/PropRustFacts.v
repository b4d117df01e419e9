(** Proofs for PropRust.v. *)
From Verif Require Export RustFacts LangSampleFacts PropTextFacts.
Open Scope string_scope.
Open Scope Z_scope.
Open Scope list_scope.

(** From the hypotheses of the theorems to those of RustFacts.v. *)
Section Ready.
Variable rename : bool.
Variable p : protocol.
Notation q := (rs_protocol rename p).

Lemma rs_use (X : Prop) : (WF q -> no_length_first "_len" q -> rs_compiles q = true -> X) ->
  accepted p -> rust_names q -> X.
Proof.
  intros H A N; apply H; [|apply N|now apply rs_compiles_ok].
  apply rs_protocol_WF; [now apply accepted_WF|apply N].
Qed.

Lemma rs_same_wire t v bs md : wire_in md p t v bs -> wire_in md q t (rs_val rename v) bs.
Proof. destruct rename; [apply rename_wire|auto]. Qed.
Lemma rs_same_wire_back t v' bs md : wire_in md q t v' bs -> exists v, v' = rs_val rename v /\ wire_in md p t v bs.
Proof. destruct rename; [apply rename_wire_back|intro H; now exists v']. Qed.
Lemma rs_same_strings P v : strings P v -> strings P (rs_val rename v).
Proof. destruct rename; [apply rename_strings|auto]. Qed.

Definition rs_messages (ms : message_list) : message_list := map (fun m => (fst m, rs_val rename (snd m))) ms.
Lemma rs_messages_id (ms : message_list) : map (fun m => (fst m, snd m)) ms = ms.
Proof. induction ms as [|[t v] ms IH]; [reflexivity|cbn [map fst snd]; now f_equal]. Qed.
Lemma rs_same_stream ms bs md : wire_stream md p ms bs -> wire_stream md q (rs_messages ms) bs.
Proof.
  unfold rs_messages, rs_val; destruct rename; [apply rename_stream|]; cbn; now rewrite rs_messages_id.
Qed.
Lemma rs_same_packed ms bs md : wire_packed md p ms bs -> wire_packed md q (rs_messages ms) bs.
Proof.
  unfold rs_messages, rs_val; destruct rename; [apply rename_packed|]; cbn; now rewrite rs_messages_id.
Qed.
Lemma rs_same_all_strings P ms : all_strings P ms -> all_strings P (rs_messages ms).
Proof. intro H; unfold all_strings, rs_messages; apply Forall_map; revert H; apply Forall_impl; intros m; apply rs_same_strings. Qed.
End Ready.

(** Every member name stays as it is when it has no capitals. *)
Lemma rs_no_rename p : (forall t s m, declares p t s -> In m (s_members s) ->
    forall c, In c (str_chars (v_name m)) -> ~ capital c) ->
  rs_protocol true p = p.
Proof.
  intro H; cbn; destruct p as [ns l st ss ms es]; unfold rename_members; cbn in *.
  assert (E : forall r : list (string * struct), (forall n s, In (n, s) r -> In (n, s) ss \/ In (n, s) ms) ->
            map (fun ns0 => (fst ns0, rename_struct snake (snd ns0))) r = r).
  { intros r IN; induction r as [|[n s] r IH]; [reflexivity|]; cbn [map fst snd]; f_equal.
    - f_equal; destruct s as [sn mem im]; unfold rename_struct; cbn; f_equal.
      assert (HM : forall m, In m mem -> no_upper (v_name m)).
      { intros m I; apply no_upper_spec, (H n (MkStruct sn mem im) m); [|exact I]; apply IN; now left. }
      clear - HM; induction mem as [|m mem IH]; [reflexivity|]; cbn [map]; f_equal.
      + destruct m as [vn vt vl]; unfold rename_var; cbn; f_equal; apply snake_same.
        apply (HM (MkVar vn vt vl)); now left.
      + apply IH; intros m' I; apply HM; now right.
    - apply IH; intros n' s' I; apply IN; now right. }
  f_equal; apply E; auto.
Qed.

(** ** Deciding [rust_names] *)

Fixpoint length_first_b (suffix : string) (before ms : list var) : bool :=
  match ms with
  | [] => false
  | m :: r => (v_list m && in_strs (v_name m +++ suffix) (map v_name before)) || length_first_b suffix (before ++ [m]) r
  end.
Definition rust_names_b (p : protocol) : bool :=
  forallb (fun ns => let ms := s_members (snd ns) in
    negb (has_dup_str (map v_name ms)) && negb (length_first_b "_len" [] ms) &&
    forallb (fun m => negb (rs_bad_list m)) ms && negb (in_strs "reader" (map v_name ms)))
  (p_structs p ++ p_messages p).

Lemma length_first_false suffix ms : forall before, length_first_b suffix before ms = false ->
  forall a m b, ms = a ++ m :: b -> v_list m = true -> ~ In (v_name m +++ suffix) (map v_name (before ++ a)).
Proof.
  induction ms as [|m0 ms IH]; intros before H a m b E L I; [destruct a; discriminate|].
  cbn [length_first_b] in H; apply orb_false_iff in H as [H1 H2]; destruct a as [|a0 a]; cbn in E; injection E as -> ->.
  - rewrite L, app_nil_r in *; cbn in H1; apply in_strs_false in H1; contradiction.
  - apply (IH _ H2 a m b eq_refl L); now rewrite <- app_assoc.
Qed.

Lemma rust_names_ok p : rust_names_b p = true -> rust_names p.
Proof.
  intro H; unfold rust_names_b in H; rewrite forallb_forall in H.
  assert (D : forall t s, declares p t s -> has_dup_str (map v_name (s_members s)) = false /\
     length_first_b "_len" [] (s_members s) = false /\
     (forall m, In m (s_members s) -> rs_bad_list m = false) /\ in_strs "reader" (map v_name (s_members s)) = false).
  { intros t s D; specialize (H (t, s) (proj2 (in_app_iff _ _ _) D)); cbn [snd] in H.
    apply andb_true_iff in H as [H H4]; apply andb_true_iff in H as [H H3]; apply andb_true_iff in H as [H1 H2].
    repeat split; try (apply negb_true_iff; assumption).
    intros m I; rewrite forallb_forall in H3; apply negb_true_iff, H3, I. }
  split; [|split; [|split]].
  - intros t s DS; destruct (D t s DS) as (A & _); apply has_dup_str_false in A; exact A.
  - intros t s before m after DS E L I; destruct (D t s DS) as (_ & A & _).
    exact (length_first_false "_len" _ [] A before m after E L I).
  - intros t s m DS I L; destruct (D t s DS) as (_ & _ & A & _); specialize (A m I).
    unfold rs_bad_list in A; rewrite L in A; split; intro E; rewrite E in A; discriminate.
  - intros t s DS I; destruct (D t s DS) as (_ & _ & _ & A); apply in_strs_false in A; contradiction.
Qed.

(** ** Samples *)

Lemma annotated_rust rename : rust_names (rs_protocol rename annotated).
Proof. apply rust_names_ok; destruct rename; vm_compute; reflexivity. Qed.

Lemma plain_utf8 v : strings plain_text v -> strings utf8 v.
Proof. intro S; induction S as [| | |s [U _]|l _ IH|fs _ IH]; constructor; auto. Qed.

Lemma joined_team_rust rename :
  wire (rs_protocol rename annotated) "CharacterJoinedTeam" (rs_val rename joined_team) joined_team_bytes /\
  strings utf8 (rs_val rename joined_team).
Proof. split; [apply rs_same_wire, joined_team_wire|apply rs_same_strings, plain_utf8, joined_team_plain]. Qed.

Lemma two_messages_utf8 : all_strings utf8 two_messages.
Proof. eapply Forall_impl; [|exact two_messages_plain]; intros m; apply plain_utf8. Qed.

Lemma two_messages_rust rename :
  wire_stream strict (rs_protocol rename annotated) (rs_messages rename two_messages) two_messages_bytes /\
  all_strings utf8 (rs_messages rename two_messages) /\
  wire_packed strict (rs_protocol rename annotated) (rs_messages rename two_messages) two_packed_bytes.
Proof.
  split; [apply rs_same_stream, two_messages_wire|split; [apply rs_same_all_strings, two_messages_utf8|apply rs_same_packed, two_packed]].
Qed.

Lemma four_unknown_rust rename t : ~ numbered (rs_protocol rename annotated) t (Z_of_byte x04).
Proof. destruct rename; cbn; [rewrite rename_numbered|]; apply four_unknown. Qed.

Lemma joined_team_tagged_rust rename :
  wire_tagged strict (rs_protocol rename annotated) ("CharacterJoinedTeam", rs_val rename joined_team) (x03 :: joined_team_bytes).
Proof. destruct rename; [exact (rename_tagged snake _ _ _ _ joined_team_tagged)|exact joined_team_tagged]. Qed.

Lemma joined_team_declared_rust rename : exists s, declares (rs_protocol rename annotated) "CharacterJoinedTeam" s.
Proof.
  destruct joined_team_declared as [s D]; destruct rename; [|now exists s].
  exists (rename_struct snake s); apply rename_declares; eauto.
Qed.

Lemma annotated_rust_sizes rename : small_unsigned (p_string_size_type (rs_protocol rename annotated)) /\
  unsigned_type (p_list_size_type (rs_protocol rename annotated)) /\
  ~ In (p_string_size_type (rs_protocol rename annotated)) ["uint64"; "int64"].
Proof.
  replace (p_string_size_type (rs_protocol rename annotated)) with "byte" by (destruct rename; reflexivity).
  replace (p_list_size_type (rs_protocol rename annotated)) with "uint16" by (destruct rename; reflexivity).
  unfold small_unsigned, unsigned_type; cbn; intuition discriminate.
Qed.

Lemma shorts_i16_accepted : accepted (shorts "int16").
Proof. accepted_tac (shorts_toml "int16"). Qed.
Lemma sized_notes_i16_accepted : accepted (sized_notes "int16").
Proof. accepted_tac (sized_notes_toml "int16"). Qed.
Lemma counted_u16_accepted : accepted (counted "uint16").
Proof. accepted_tac (counted_toml "uint16"). Qed.
Lemma counted_string_accepted : accepted (counted "string").
Proof. accepted_tac (counted_toml "string"). Qed.
Lemma twins_foo_accepted : accepted (twins "fooBar" "foo_bar").
Proof. accepted_tac (twins_toml "fooBar" "foo_bar"). Qed.
Lemma twins_reader_accepted : accepted (twins "reader" "id").
Proof. accepted_tac (twins_toml "reader" "id"). Qed.

(** ** Counterexamples *)

Lemma C13_byte_list : exists p t v bs, accepted p /\ is_message_name p t /\ wire p t v bs /\
  forall rename w, rs_write_bytes (rs_protocol rename p) t v w = WStuck.
Proof.
  exists (numbers "uint64"), "Numbers", (some_numbers [7]), [x01; x00; x00; x00; x00; x00; x00; x00; x07].
  split; [exact numbers_64_accepted|]; split; [eexists; left; reflexivity|]; split; [wire_tac|].
  intros [|] w; unfold rs_write_bytes; reflexivity.
Qed.

Lemma C13_overwritten : exists p t v bs, accepted p /\ is_message_name p t /\ wire p t v bs /\ texts v /\
  rs_protocol true p = p /\
  exists v', rs_from_bytes p t bs 0 = ROk v' (List.length bs) /\ v' <> v.
Proof.
  exists (counted "uint16"), "Counted", some_counted, [x07; x00; x01; x00; x01; x00].
  split; [exact counted_u16_accepted|]; split; [eexists; left; reflexivity|]; split; [wire_tac|].
  split; [unfold texts, some_counted; strings_tac|]; split; [vm_compute; reflexivity|].
  eexists; split; [vm_compute; reflexivity|discriminate].
Qed.

Lemma C32_rs_len : exists p, accepted p /\ forall rename, rs_compiles (rs_protocol rename p) = false.
Proof. exists (counted "string"); split; [exact counted_string_accepted|]; intros [|]; vm_compute; reflexivity. Qed.
Lemma C32_rs_reader : exists p, accepted p /\ forall rename, rs_compiles (rs_protocol rename p) = false.
Proof. exists (twins "reader" "id"); split; [exact twins_reader_accepted|]; intros [|]; vm_compute; reflexivity. Qed.
Lemma C32_rs_renamed : exists p, accepted p /\ rs_compiles (rs_protocol false p) = true /\
  rs_compiles (rs_protocol true p) = false.
Proof. exists (twins "fooBar" "foo_bar"); split; [exact twins_foo_accepted|]; vm_compute; auto. Qed.

Lemma shorts_i16_negative md v bs rest : wire_in md (shorts "int16") "Numbers" v bs -> bs ++ rest <> [xff; xff].
Proof.
  intros H E.
  assert (D : declares (shorts "int16") "Numbers" (MkStruct "Numbers" [MkVar "items" "int16" true] true)) by (right; now left).
  pose proof (accepted_WF _ shorts_i16_accepted) as W.
  destruct (wire_struct_inv md _ W _ _ _ _ D H) as (fs & -> & M); cbn in M.
  inversion M as [|? ? ? ? a b WM WR]; subst; inversion WR; subst.
  inversion WM as [? ? ? VL|? vs lb eb VL (k & K & N) EL]; subst; [discriminate|].
  cbn in K; injection K as <-.
  inversion N as [? ? ? _ L R X| |]; subst.
  destruct lb as [|x [|y [|]]]; try discriminate.
  rewrite <- !app_assoc in E; cbn [app] in E; injection E as -> -> E.
  cbn in X, R; change (255 + 256 * (255 + 256 * 0)) with 65535 in X; rewrite Z.mod_small in X by lia; lia.
Qed.

Lemma C22_rs_negative : exists p t inp, accepted p /\ is_message_name p t /\ rust_names p /\ rs_protocol true p = p /\
  (exists v q, rs_from_bytes p t inp 0 = ROk v q) /\
  forall md v bs rest, wire_in md p t v bs -> bs ++ rest <> inp.
Proof.
  exists (shorts "int16"), "Numbers", [xff; xff].
  split; [exact shorts_i16_accepted|]; split; [eexists; left; reflexivity|].
  split; [apply rust_names_ok; reflexivity|]; split; [vm_compute; reflexivity|].
  split; [do 2 eexists; vm_compute; reflexivity|exact shorts_i16_negative].
Qed.

Lemma C40_rs_signed : exists p t inp, accepted p /\ is_message_name p t /\ rust_names p /\ rs_protocol true p = p /\
  rs_from_bytes p t inp 0 = RTrap.
Proof.
  exists (sized_notes "int16"), "Note", [xff; xff].
  split; [exact sized_notes_i16_accepted|]; split; [eexists; left; reflexivity|].
  split; [apply rust_names_ok; reflexivity|]; split; [vm_compute; reflexivity|]; vm_compute; reflexivity.
Qed.
Lemma C40_rs_long : exists p t inp, accepted p /\ unsigned_type (p_string_size_type p) /\ is_message_name p t /\
  rust_names p /\ rs_protocol true p = p /\ rs_from_bytes p t inp 0 = RTrap.
Proof.
  exists long_notes, "Note", [xff; xff; xff; xff; xff; xff; xff; xff].
  split; [exact long_notes_accepted|]; split; [unfold unsigned_type; cbn; tauto|]; split; [eexists; left; reflexivity|].
  split; [apply rust_names_ok; reflexivity|]; split; vm_compute; reflexivity.
Qed.

(** A list that is too long for its length. *)
Lemma C41_rs : exists p, accepted p /\ rust_names p /\ rs_protocol true p = p /\
  corrupts_overlong p (rs_write_bytes p) (rs_from_bytes p).
Proof.
  exists (shorts "byte"); split; [exact shorts_byte_accepted|]; split; [|split; [reflexivity|]].
  apply rust_names_ok; reflexivity. corrupt_tac no_room too_many_held.
Qed.
