(** Proofs behind PropWire.v. *)
From Verif Require Export WireExec WireSamples PropProtocolFacts.
Open Scope list_scope.

(** ** Existence of encodings *)

Scheme in_range_ind2 := Minimality for in_range Sort Prop
  with in_range_members_ind2 := Minimality for in_range_members Sort Prop
  with in_range_all_ind2 := Minimality for in_range_all Sort Prop.
Combined Scheme in_range_mutind from in_range_ind2, in_range_members_ind2, in_range_all_ind2.

Lemma num_ok_wire k v : num_ok k v <-> exists bs, wire_num strict k v bs.
Proof.
  split.
  - intros [k' z NB R|[|]].
    + exists (le_bytes (num_size k') z); constructor; [assumption|apply le_bytes_length|assumption|apply le_val_le_bytes].
    + exists [x01]; now constructor.
    + exists [x00]; constructor.
  - intros [bs H]; inversion H; subst; constructor; assumption.
Qed.

Lemma size_ok_wire t n : size_ok t n <-> exists bs, wire_size strict t n bs.
Proof.
  split.
  - intros (k & K & H); apply num_ok_wire in H as [bs H]; exists bs, k; auto.
  - intros (bs & k & K & H); exists k; split; [assumption|apply num_ok_wire; eauto].
Qed.

Lemma in_range_wire p : WF p ->
  (forall t v, in_range p t v -> exists bs, wire p t v bs) /\
  (forall ms fs, in_range_members p ms fs -> exists bs, wire_members strict p ms fs bs) /\
  (forall t vs, in_range_all p t vs -> exists bs, wire_elems strict p t vs bs).
Proof.
  intro W; apply in_range_mutind.
  - intros t k v K N; apply num_ok_wire in N as [bs N]; exists bs; econstructor; eassumption.
  - intros s S; apply size_ok_wire in S as [lb S]; exists (lb ++ s); now constructor.
  - intros t e z E M; destruct (enum_encoding_num p W t e E) as (k & K & NB & _ & _ & F).
    destruct (proj1 (num_ok_wire k (VInt z))) as [bs H]; [constructor; [assumption|now apply F]|].
    exists bs; eapply w_enum; eauto.
  - intros t s fs D _ [bs IH]; exists bs; econstructor; eassumption.
  - exists []; constructor.
  - intros m ms v fs L _ [a IHa] _ [b IHb]; exists (a ++ b); constructor; [now constructor|assumption].
  - intros m ms vs fs L S _ [a IHa] _ [b IHb]; apply size_ok_wire in S as [lb S].
    exists ((lb ++ a) ++ b); constructor; [now constructor|assumption].
  - exists []; constructor.
  - intros t v vs _ [a IHa] _ [b IHb]; exists (a ++ b); now constructor.
Qed.

Lemma wire_in_range p : WF p ->
  (forall t v bs, wire p t v bs -> in_range p t v) /\
  (forall ms fs bs, wire_members strict p ms fs bs -> in_range_members p ms fs) /\
  (forall m v bs, wire_member strict p m v bs -> forall ms fs, in_range_members p ms fs ->
     in_range_members p (m :: ms) ((v_name m, v) :: fs)) /\
  (forall t vs bs, wire_elems strict p t vs bs -> in_range_all p t vs).
Proof.
  intro W; apply wire_mutind.
  - intros t k v bs K N; eapply ir_num; [eassumption|apply num_ok_wire; eauto].
  - intros s lb S; constructor; apply size_ok_wire; eauto.
  - intros t e k z bs E K [M|M] N; [discriminate|eapply ir_enum; eassumption].
  - intros t s fs bs D _ IH; eapply ir_struct; eassumption.
  - constructor.
  - intros m ms v fs a b _ IHa _ IHb; now apply IHa.
  - intros m v bs L _ IH ms fs H; now constructor.
  - intros m vs lb bs L S _ IH ms fs H; constructor; auto; apply size_ok_wire; eauto.
  - constructor.
  - intros t v vs a b _ IHa _ IHb; now constructor.
Qed.

Lemma C09_encodable_proof p t v : accepted p -> in_range p t v <-> exists bs, wire p t v bs.
Proof.
  intro A; apply accepted_WF in A as W; split; [apply (in_range_wire p W)|].
  intros [bs H]; eapply (wire_in_range p W); eassumption.
Qed.

(** ** Sizes *)

Lemma C08_size_proof p t v bs :
  accepted p -> declared_type p t \/ is_message_name p t ->
  is_simple p t = true -> wire p t v bs -> Z.of_nat (List.length bs) = size_of p t.
Proof.
  intros A K S H; apply accepted_WF in A as W.
  eapply (proj1 (wire_fixed_size strict p W)); [eassumption|now apply is_simple_fixed].
Qed.

(** ** Streams *)

Lemma numbered_range p t i : WF p -> numbered p t i -> 1 <= i <= 255 /\ is_message_name p t.
Proof.
  intros W [t' j s H]; pose proof (wf_message_count p W).
  assert (j < List.length (p_messages p))%nat by (apply nth_error_Some; congruence).
  split; [lia|exists s; eapply nth_error_In; eassumption].
Qed.

Lemma numbered_inj p t t' i : numbered p t i -> numbered p t' i -> t = t'.
Proof.
  intros [u j s H]; intro H'; inversion H' as [? j' s' X]; subst.
  assert (j' = j) by lia; subst; congruence.
Qed.

Lemma numbered_fun p t i i' : WF p -> numbered p t i -> numbered p t i' -> i = i'.
Proof.
  intros W [u j s H]; intro H'; inversion H' as [? j' s' X]; subst; do 2 f_equal.
  pose proof (wf_messages_nodup p W) as ND; rewrite NoDup_nth_error in ND; apply ND.
  - rewrite map_length; apply nth_error_Some; congruence.
  - rewrite !nth_error_map, H, X; reflexivity.
Qed.

Lemma wire_tagged_prefix md p m m' bs bs' r r' : WF p ->
  wire_tagged md p m bs -> wire_tagged md p m' bs' -> bs ++ r = bs' ++ r' ->
  m = m' /\ bs = bs' /\ r = r'.
Proof.
  intros W [t i v b c N B H] [t' i' v' b' c' N' B' H'] [= <- E].
  assert (t = t') by (eapply numbered_inj; [eassumption|]; congruence); subst t'.
  destruct (proj1 (wire_prefix md p W) _ _ _ H _ _ _ _ H' E) as (-> & -> & ->); auto.
Qed.

Lemma wire_tagged_nonempty md p m bs : WF p -> wire_tagged md p m bs -> exists b c, bs = b :: c /\ b <> x00.
Proof.
  intros W [t i v b c N B H]; exists b, c; split; [reflexivity|intros ->].
  apply numbered_range in N as [N _]; [|assumption]; cbn in B; subst; cbn in N; lia.
Qed.

Lemma wire_stream_inj md p ms bs ms' : WF p ->
  wire_stream md p ms bs -> wire_stream md p ms' bs -> ms = ms'.
Proof.
  intro W; intro H; revert ms'; induction H as [|m ms a b Ha Hb IH]; intros ms' H'; inversion H' as [E1 E2|m' ms'' a' b' Ha' Hb' E1 E2]; subst.
  - reflexivity.
  - apply wire_tagged_nonempty in Ha' as (x & c & -> & _); [discriminate|assumption].
  - apply wire_tagged_nonempty in Ha as (x & c & -> & _); [discriminate|assumption].
  - destruct (wire_tagged_prefix md p m m' a a' b b' W Ha Ha') as (-> & -> & ->); [now symmetry|].
    f_equal; now apply IH.
Qed.

(** A stream and what follows its end mark. *)
Lemma wire_stream_end md p ms bs ms' bs' r r' : WF p ->
  wire_stream md p ms bs -> wire_stream md p ms' bs' -> bs ++ x00 :: r = bs' ++ x00 :: r' ->
  ms = ms' /\ bs = bs' /\ r = r'.
Proof.
  intro W; intro H; revert ms' bs'; induction H as [|m ms a b Ha Hb IH]; intros ms' bs' H' E; inversion H' as [|m' ms'' a' b' Ha' Hb']; subst.
  - cbn in E; now injection E as ->.
  - apply wire_tagged_nonempty in Ha' as (x & c & -> & N); [|assumption]; cbn in E; congruence.
  - apply wire_tagged_nonempty in Ha as (x & c & -> & N); [|assumption]; cbn in E; congruence.
  - rewrite <- !app_assoc in E.
    destruct (wire_tagged_prefix md p m m' _ _ _ _ W Ha Ha' E) as (-> & -> & E').
    destruct (IH _ _ Hb' E') as (-> & -> & ->); auto.
Qed.

Lemma wire_tagged_det p m bs bs' : WF p -> wire_tagged strict p m bs -> wire_tagged strict p m bs' -> bs = bs'.
Proof.
  intros W [t i v b c N B H] H'; inversion H' as [? i' ? b' c' N' B' H'']; subst.
  f_equal; [apply Z_of_byte_inj; eapply numbered_fun; eassumption|].
  eapply (proj1 (wire_det p W)); eassumption.
Qed.

Lemma wire_stream_det p ms bs bs' : WF p -> wire_stream strict p ms bs -> wire_stream strict p ms bs' -> bs = bs'.
Proof.
  intros W H; revert bs'; induction H as [|m ms a b Ha Hb IH]; intros bs' H'; inversion H'; subst; [reflexivity|].
  f_equal; [eapply wire_tagged_det; eassumption|now apply IH].
Qed.

Lemma C09_unambiguous_proof p t v v' bs bs' r r' :
  accepted p -> wire p t v bs -> wire p t v' bs' -> bs ++ r = bs' ++ r' -> v = v' /\ bs = bs' /\ r = r'.
Proof. intros A H H' E; apply accepted_WF in A as W; eapply (proj1 (wire_prefix strict p W)); eassumption. Qed.

Lemma C09_one_encoding_proof p t v bs bs' : accepted p -> wire p t v bs -> wire p t v bs' -> bs = bs'.
Proof. intros A H H'; apply accepted_WF in A as W; eapply (proj1 (wire_det p W)); eassumption. Qed.

Lemma C09_streams_proof p ms ms' bs bs' r r' :
  accepted p -> wire_stream strict p ms bs -> wire_stream strict p ms' bs' ->
  (bs = bs' -> ms = ms') /\ (ms = ms' -> bs = bs') /\
  (bs ++ x00 :: r = bs' ++ x00 :: r' -> ms = ms' /\ bs = bs' /\ r = r').
Proof.
  intros A H H'; apply accepted_WF in A as W; split; [|split].
  - intros ->; eapply wire_stream_inj; eassumption.
  - intros ->; eapply wire_stream_det; eassumption.
  - eapply wire_stream_end; eassumption.
Qed.

Lemma C07_tags_proof p t t' i i' :
  accepted p -> numbered p t i -> numbered p t' i' ->
  1 <= i <= 255 /\ (t = t' <-> i = i').
Proof.
  intros A N N'; apply accepted_WF in A as W; split; [apply (numbered_range p t i W N)|].
  split; [intros ->; eapply numbered_fun; eassumption|intros ->; eapply numbered_inj; eassumption].
Qed.

(** ** Examples *)
Open Scope string_scope.

Lemma joined_team_wire : wire annotated "CharacterJoinedTeam" joined_team joined_team_bytes.
Proof. apply enc_sound; vm_compute; reflexivity. Qed.

Lemma vector3_wire : wire annotated "Vector3Message" vector3 vector3_bytes.
Proof. apply enc_sound; vm_compute; reflexivity. Qed.

Lemma new_character_wire : exists bs, wire annotated "NewCharacterMessage" new_character bs /\ List.length bs = 35%nat.
Proof. eexists; split; [apply enc_sound; vm_compute; reflexivity|reflexivity]. Qed.

Lemma annotated_numbers :
  numbered annotated "Vector3Message" 1 /\ numbered annotated "NewCharacterMessage" 2 /\
  numbered annotated "CharacterJoinedTeam" 3.
Proof.
  split; [|split].
  - apply (numbered_at annotated _ 0%nat) with (1 := eq_refl).
  - apply (numbered_at annotated _ 1%nat) with (1 := eq_refl).
  - apply (numbered_at annotated _ 2%nat) with (1 := eq_refl).
Qed.

Lemma two_messages_wire :
  wire_stream strict annotated [("CharacterJoinedTeam", joined_team); ("Vector3Message", vector3)]
    (x03 :: joined_team_bytes ++ x01 :: vector3_bytes)%list.
Proof.
  destruct annotated_numbers as (A & B & C).
  apply (wst_cons _ _ _ _ (x03 :: joined_team_bytes) (x01 :: vector3_bytes)).
  - econstructor; [exact C|reflexivity|apply joined_team_wire].
  - apply (wst_cons _ _ _ _ (x01 :: vector3_bytes) []); [|constructor].
    econstructor; [exact A|reflexivity|apply vector3_wire].
Qed.
