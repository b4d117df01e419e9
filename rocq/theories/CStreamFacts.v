(** Consequences for the readers of C code, for streams, and for packed buffers. *)
From Coq Require Import Permutation.
From Verif Require Export CReadFacts.
Open Scope Z_scope.
Open Scope list_scope.

(** What compiles. *)
Lemma c_compiles_inv p : c_compiles p = true ->
  NoDup (c_names_of p) /\ (forall t s, declares p t s -> NoDup (c_field_names s)).
Proof.
  unfold c_compiles; intro H; apply andb_true_iff in H as [H _]; apply andb_true_iff in H as [H _]; apply andb_true_iff in H as [H1 H2].
  split; [apply negb_true_iff, has_dup_str_false in H1; exact H1|].
  intros t s D; rewrite forallb_forall in H2.
  specialize (H2 (t, s)); cbn in H2; apply has_dup_str_false, negb_true_iff, H2, in_or_app.
  destruct D; auto.
Qed.

(** ** Strings and lengths *)

Section Strings.
Variable M : machine.
Variable p : protocol.
Hypothesis W : WF p.

Definition c_txt (s : list byte) : option (list byte) :=
  if (Z.of_nat (List.length s) + 1 <? 2 ^ 31) && mc_alloc M (Z.of_nat (List.length s) + 1) then Some s else None.

Lemma c_txt_fits s : c_text_fits M s -> c_txt s = Some s.
Proof. intros [A B]; unfold c_txt; rewrite B; now replace (_ <? _) with true by lia. Qed.

Lemma c_str_forward inp pos s lb raw rest : skipn pos inp = lb ++ raw ++ rest ->
  wire_size reading (p_string_size_type p) (List.length raw) lb -> c_txt raw = Some s ->
  c_str M p inp pos = Got s (pos + List.length lb + List.length raw).
Proof.
  intros E (k & K & N) T; unfold c_txt in T.
  destruct ((_ <? _) && _) eqn:C in T; [|discriminate]; injection T as <-; apply andb_true_iff in C as [C1 C2].
  unfold c_str; rewrite K, (proj2 (read_num_got k inp pos (VInt (Z.of_nat (List.length raw))) (pos + List.length lb))) by eauto.
  pose proof (at_next _ _ _ _ E) as E2.
  assert (L : (pos + List.length lb + List.length raw <= List.length inp)%nat).
  { assert (LB : (0 < List.length lb)%nat) by (rewrite (wire_num_length _ _ _ _ N); apply num_size_pos).
    apply (f_equal (@List.length byte)) in E; rewrite skipn_length, !app_length in E; lia. }
  unfold c_take.
  assert (A : (Z.of_nat (pos + List.length lb) + Z.of_nat (List.length raw)) mod 2 ^ 64 <= Z.of_nat (List.length inp)).
  { etransitivity; [apply Z.mod_le; lia|lia]. }
  replace (Z.of_nat (List.length inp) <? _) with false by lia.
  assert (SU : c_succ k (Z.of_nat (List.length raw)) = Some (Z.of_nat (List.length raw) + 1)).
  { unfold c_succ; destruct k; try (match goal with |- context[?a =? num_max ?x] => replace (a =? num_max x) with false by (cbn [num_max]; lia) end);
      rewrite Z.mod_small by lia; reflexivity. }
  rewrite SU, C2.
  replace ((0 <=? _) && _ && _) with true by lia.
  rewrite Nat2Z.id, E2, firstn_app_exact.
  rewrite firstn_app_exact; reflexivity.
Qed.

Lemma c_str_back inp pos s q : c_str M p inp pos = Got s q ->
  exists lb raw rest, skipn pos inp = lb ++ raw ++ rest /\
    wire_size reading (p_string_size_type p) (List.length raw) lb /\
    q = (pos + List.length lb + List.length raw)%nat /\ Some raw = Some s.
Proof.
  unfold c_str; destruct (num_of (p_string_size_type p)) as [k|] eqn:K; [|discriminate].
  destruct (read_num k inp pos) as [v q1| |] eqn:R; try discriminate; destruct v as [z| | | | |]; try discriminate.
  apply read_num_got in R as (lb & rest & E & N & ->).
  unfold c_take; destruct (_ <? _); [discriminate|]; destruct (c_succ k z) as [size|]; [|discriminate].
  destruct (mc_alloc M size); [|discriminate].
  destruct ((0 <=? z) && _ && _) eqn:C; [|discriminate]; intros [= <- <-].
  apply andb_true_iff in C as [C C3]; apply andb_true_iff in C as [C1 C2].
  pose proof (at_next _ _ _ _ E) as E2; rewrite E2.
  assert (LR : (Z.to_nat z <= List.length rest)%nat).
  { apply (f_equal (@List.length byte)) in E2; rewrite skipn_length in E2; lia. }
  assert (LF : List.length (firstn (Z.to_nat z) rest) = Z.to_nat z) by (rewrite firstn_length; lia).
  exists lb, (firstn (Z.to_nat z) rest), (skipn (Z.to_nat z) rest).
  split; [now rewrite firstn_skipn|]; split; [exists k; split; [exact K|]; rewrite LF, Z2Nat.id by lia; exact N|].
  split; [now rewrite LF|]; f_equal; rewrite <- LF at 2; now rewrite firstn_app_exact.
Qed.

(** Lengths below 2^31 do no harm. *)
Lemma c_str_crash inp pos : small_input inp = true -> small_unsigned (p_string_size_type p) -> c_str M p inp pos <> Crash.
Proof.
  unfold small_input; intros SM U; unfold c_str.
  destruct (string_size_num p W) as (k & K & NB); rewrite K.
  destruct (read_num k inp pos) as [v q1| |] eqn:R; try discriminate; destruct v as [z| | | | |]; try discriminate.
  assert (KS : k = NByte \/ k = NU16 \/ k = NU32).
  { destruct U as [X|[X|[X|[]]]]; rewrite <- X in K; injection K as <-; auto. }
  apply read_num_got in R as (lb & rest & E & N & ->); apply wire_num_vint in N as N2.
  assert (LB : (pos + List.length lb <= List.length inp)%nat).
  { eapply at_length; [exact E|]; intros ->; apply wire_num_length in N; destruct k; discriminate. }
  assert (B : 0 <= z < 2 ^ 32) by (destruct KS as [->|[->| ->]]; cbn in N2; lia).
  unfold c_take.
  rewrite (Z.mod_small (Z.of_nat (pos + List.length lb) + z)) by lia.
  destruct (Z.ltb_spec (Z.of_nat (List.length inp)) (Z.of_nat (pos + List.length lb) + z)) as [L|L]; [discriminate|].
  assert (SU : c_succ k z = Some (z + 1)).
  { unfold c_succ; destruct KS as [->|[->| ->]]; rewrite Z.mod_small by lia; reflexivity. }
  rewrite SU; destruct (mc_alloc M (z + 1)); [|discriminate].
  replace ((0 <=? z) && _ && _) with true by lia; discriminate.
Qed.

Lemma c_sizeof_range : sane M -> forall t, 1 <= c_sizeof M t <= 2 ^ 31.
Proof.
  intros SA t; unfold c_sizeof; destruct (c_type t) as [k|]; [destruct k; cbn; lia|].
  destruct (String.eqb t "string"); [lia|apply (sane_sizeof M SA)].
Qed.

Lemma sane_lens : sane M -> c_counts p -> lens_ok M p.
Proof.
  intros SA [C1 C2] t z k K R.
  assert (B : - 2 ^ 31 <= z < 2 ^ 32).
  { pose proof (wf_list_size p W) as I; unfold integral_types in I; cbn [In] in I.
    repeat (destruct I as [X|I];
      [rewrite <- X in *; injection K as <-; cbn in R; try lia; exfalso;
       first [now apply C1|now apply C2]|]); contradiction. }
  pose proof (c_sizeof_range SA t) as SZ.
  unfold c_make; destruct (mc_alloc M (c_bytes M t z)) eqn:AL; [|discriminate].
  assert (Z0 : 0 <= z).
  { destruct (Z_lt_le_dec z 0) as [NG|]; [|assumption]; exfalso.
    rewrite (sane_limit M SA) in AL; [discriminate|].
    unfold c_bytes; rewrite <- (Z.mod_add _ 1), Z.mod_small by nia; nia. }
  assert (F : c_len_fits M p t z = true).
  { unfold c_len_fits; replace (0 <=? z) with true by lia; replace (_ <? _) with true by nia; cbn [andb].
    destruct (String.eqb_spec t "string") as [->|]; [|reflexivity]; cbn [negb orb].
    destruct (string_size_num p W) as (ks & KS & _).
    assert (S8 : 1 <= c_sizeof M (p_string_size_type p) <= 8) by (unfold c_sizeof; rewrite c_type_num, KS; destruct ks; cbn; lia).
    replace (_ <? _) with true by nia; rewrite andb_true_r.
    destruct (Z.eq_dec z 0) as [->|NZ].
    - unfold c_bytes in *; rewrite Z.mul_0_r in *; exact AL.
    - revert AL; apply (sane_smaller M SA); unfold c_bytes; rewrite !Z.mod_small by (cbn [c_sizeof]; nia).
      change (c_sizeof M "string") with 8; nia. }
  now rewrite F.
Qed.

Lemma fits_make t n : c_list_fits M n -> exists a b, c_make M p t (Z.of_nat n) = Got a b.
Proof.
  intro F; unfold c_make, c_bytes; destruct (F t) as [F1 F2].
  rewrite Z.mod_small, F2 by exact F1; unfold c_len_fits.
  replace (0 <=? Z.of_nat n) with true by lia; replace (_ <? _) with true by lia; cbn [andb].
  destruct (F (p_string_size_type p)) as [G1 G2]; unfold c_bytes; rewrite Z.mod_small, G2 by exact G1.
  replace (_ <? _) with true by lia; rewrite orb_true_r; eauto.
Qed.
End Strings.

(** ** The reader *)

Section Reader.
Variable M : machine.
Variable p : protocol.
Hypothesis W : WF p.
Hypothesis COMPILES : c_compiles p = true.

Let rd0 : reader := fun t inp pos => c_dec M p inp (depth_of p) t pos.

Lemma declares_depth t s : declares p t s -> exists f, depth_of p = S f.
Proof. intro D; destruct (fits_any_members p (depth_of p) t s W D (WF_fits_any p t W)) as (f & E & _); eauto. Qed.

(** FromBytes, with everything that is known about the result. *)
Lemma c_from_bytes_fills t s inp pos next : declares p t s ->
  exists f, depth_of p = S f /\
  follows (lens_ok M p) (rd0 t inp pos) (filled p f t s next) (c_from_bytes M p t inp pos next).
Proof.
  intro D; destruct (declares_depth t s D) as [f F]; exists f; split; [exact F|].
  unfold c_from_bytes, rd0; rewrite COMPILES, F.
  exact (run_fills M p W (proj2 (c_compiles_inv p COMPILES)) inp (S f) t s pos next D).
Qed.

(** [r] is what the reference says, if that is known. *)
Definition mimics {A} (r0 r : res A) : Prop :=
  match r0 with
  | ROk _ _ | RErr => r = r0
  | RTrap => lens_ok M p -> r = RTrap
  | _ => True
  end.

Lemma c_reader_mimics t s inp pos next : declares p t s -> mimics (rd0 t inp pos) (c_reader M p next t inp pos).
Proof.
  intro D; destruct (c_from_bytes_fills t s inp pos next D) as (f & F & X); unfold c_reader.
  destruct (rd0 t inp pos) as [v q| | | |]; cbn [follows mimics] in X |- *; auto.
  - destruct X as (c & -> & P & V & _); cbn [erased]; rewrite F, V; cbn [option_map]; now rewrite P.
  - destruct X as (c & ->); reflexivity.
  - intro L; rewrite (X L); reflexivity.
Qed.

(** What is in relation to the value that is read. *)
Definition c_keeps (v0 v : val) : Prop := texted (c_txt M) v0 v /\ lists (c_list_fits M) v0.

Lemma c_kept t v bs : wire_in reading p t v bs -> c_fits M v -> c_keeps v v.
Proof. intros WI [S L]; split; [|exact L]; eapply text_kept; [apply c_txt_fits|exact WI|exact S]. Qed.
Lemma c_kept_some t v bs : wire_in reading p t v bs -> c_fits M v -> exists v', c_keeps v v'.
Proof. intros WI F; exists v; eapply c_kept; eassumption. Qed.

Lemma rd0_reads : reads_wire p c_keeps rd0.
Proof.
  intros t s v0 v bs inp pos rest D WI [T L] E; unfold rd0, c_dec.
  destruct (dec_forward (c_str M) (c_make M p) only_declared (c_txt M) p W (c_str_forward M p)
              (declared_kept p) (c_list_fits M) (fits_make M p)) as (X & _).
  eapply X; eauto; apply WF_fits_any, W.
Qed.

Lemma c_make_len : len_ok (c_make M p) p.
Proof.
  intros t z N _ a b; unfold c_make, c_len_fits; destruct (mc_alloc M (c_bytes M t z)); [|discriminate].
  replace (0 <=? z) with false by lia; discriminate.
Qed.

Lemma rd0_only : only_wire p Some rd0.
Proof.
  intros t s inp pos v q D H.
  exact (dec_back (c_str M) (c_make M p) only_declared Some p W (c_str_back M p) c_make_len (declared_only p) inp _ t pos v q H).
Qed.

Lemma rd0_answers trap : (forall inp pos, c_str M p inp pos = Crash -> trap = true) -> (lens_ok M p \/ trap = true) ->
  always_answers p trap rd0.
Proof.
  intros SC LE t s inp pos D; unfold rd0, c_dec.
  apply (dec_answers (c_str M) (c_make M p) only_declared p W trap inp (SC inp)); [| |apply WF_fits_any, W].
  - intros u z (k & K & R) X; destruct LE as [LE| ->]; [|reflexivity]; exfalso; exact (LE u z k K R X).
  - destruct D as [D|D]; [left; do 2 right; left; eexists; eassumption|right; eexists; eassumption].
Qed.
Lemma rd0_answers_trap : always_answers p true rd0.
Proof. apply rd0_answers; auto. Qed.

Lemma c_reader_dec t s inp pos next : lens_ok M p -> declares p t s -> c_reader M p next t inp pos = rd0 t inp pos.
Proof.
  intros LE D; pose proof (c_reader_mimics t s inp pos next D) as X; pose proof (rd0_answers_trap t s inp pos D) as A.
  destruct (rd0 t inp pos); cbn [mimics answers] in X, A; auto; contradiction.
Qed.

Lemma c_reads next : reads_wire p c_keeps (c_reader M p next).
Proof.
  intros t s v0 v bs inp pos rest D WI T E; pose proof (c_reader_mimics t s inp pos next D) as X.
  rewrite (rd0_reads t s v0 v bs inp pos rest D WI T E) in X; exact X.
Qed.

Lemma c_reads_back next : reads_back p (c_fits M) (c_reader M p next).
Proof. exact (reads_back_of p _ c_keeps (c_fits M) c_kept (c_reads next)). Qed.

Section Lens.
Hypothesis LENS : lens_ok M p.

Lemma c_only next : only_wire p Some (c_reader M p next).
Proof. intros t s inp pos v q D; rewrite (c_reader_dec t s inp pos next LENS D); now apply (rd0_only t s). Qed.
Lemma c_answers_trap next : always_answers p true (c_reader M p next).
Proof. intros t s inp pos D; rewrite (c_reader_dec t s inp pos next LENS D); now apply (rd0_answers_trap t s). Qed.
Lemma c_truncated_trap next : rejects_truncated p true (c_reader M p next).
Proof. exact (only_wire_truncated p W Some _ true (c_only next) (c_answers_trap next)). Qed.
Lemma c_enums next : only_declared_enums p (c_reader M p next).
Proof. exact (only_wire_enums p W Some _ (c_only next)). Qed.

Section Small.
Hypothesis UNSIGNED : small_unsigned (p_string_size_type p).

Let rd1 : reader := small_reader rd0.
Lemma rd1_answers : always_answers p false rd1.
Proof.
  intros t s inp pos D; unfold rd1, small_reader, if_ok; destruct (small_input inp) eqn:SM; [|exact I].
  unfold rd0, c_dec; apply (dec_answers (c_str M) (c_make M p) only_declared p W false inp).
  - intros q X; exfalso; exact (c_str_crash M p W inp q SM UNSIGNED X).
  - intros u z (k & K & R) X; exfalso; exact (LENS u z k K R X).
  - destruct D as [D|D]; [left; do 2 right; left; eexists; eassumption|right; eexists; eassumption].
  - apply WF_fits_any, W.
Qed.
Lemma rd1_only : only_wire p Some rd1.
Proof.
  intros t s inp pos v q D; unfold rd1, small_reader, if_ok; destruct (small_input inp); [|discriminate].
  now apply (rd0_only t s).
Qed.
Lemma c_small t s inp pos next : declares p t s -> small_reader (c_reader M p next) t inp pos = rd1 t inp pos.
Proof. intro D; unfold small_reader, rd1, small_reader, if_ok; now rewrite (c_reader_dec t s inp pos next LENS D). Qed.

Lemma c_answers next : always_answers p false (small_reader (c_reader M p next)).
Proof. intros t s inp pos D; rewrite (c_small t s inp pos next D); now apply (rd1_answers t s). Qed.
Lemma c_truncated next : rejects_truncated p false (small_reader (c_reader M p next)).
Proof.
  intros t s v bs before cut x rest D WI E; rewrite (c_small t s _ _ next D).
  exact (only_wire_truncated p W Some _ false rd1_only rd1_answers t s v bs before cut x rest D WI E).
Qed.
End Small.
End Lens.
End Reader.

(** ** Streams *)

Section Streams.
Variable M : machine.
Variable p : protocol.
Hypothesis W : WF p.
Hypothesis COMPILES : c_compiles p = true.

(** The loop, in the terms of Stream.v. *)
Definition c_ref : stream :=
  {| sm_finished := fun inp pos => (List.length inp <=? pos)%nat;
     sm_tag := byte_tag (read_num NByte);
     sm_case := fun p b => tag_case b (c_message_types p);
     sm_read := fun p t inp pos => c_dec M p inp (depth_of p) t pos;
     sm_lenient := false |}.

Lemma c_ref_streams pr : (forall max inp pos, pr max inp pos = process c_ref p max inp pos) -> streams c_ref p pr.
Proof.
  intro EQ; constructor; [exact W|intros inp pos L; now apply Nat.leb_gt|apply byte_tag_ok| | |exact EQ].
  - intros inp pos L; left; now apply Nat.leb_le.
  - intros b t _; apply case_numbered.
Qed.
Lemma c_ref_moves : moves p (sm_read c_ref p).
Proof. exact (only_moves p Some _ (rd0_only M p W)). Qed.

(** The number of a message that has been made or read. *)
Lemma message_member t s : In (t, s) (p_messages p) -> ~ In "_mt"%string (flat_map c_member_names (s_members s)).
Proof.
  intro I; pose proof (proj2 (c_compiles_inv p COMPILES) t s (or_intror I)) as X; unfold c_field_names in X.
  rewrite (proj2 (wf_message_entry p W t s I)) in X; inversion X; assumption.
Qed.
Lemma start_number t s i : In (t, s) (p_messages p) -> numbered p t i -> c_start p s = [("_mt"%string, CNum (VInt i))].
Proof.
  intros I N; destruct (wf_message_entry p W t s I) as [E1 E2]; unfold c_start, c_message_types; rewrite E1, E2.
  now rewrite (proj2 (of_numbered p i t W) N).
Qed.
Lemma name_of_number t i fs : numbered p t i -> c_int "_mt" fs = Some i -> c_message_name p fs = Some (Some t).
Proof.
  intros N E; destruct (numbered_range p t i W N) as [R _]; unfold c_message_name, c_message_type; rewrite E.
  rewrite Z.mod_small by lia.
  assert (L : i <= Z.of_nat (List.length (p_messages p))).
  { destruct N as [u j s H]; assert (j < List.length (p_messages p))%nat by (apply nth_error_Some; congruence); lia. }
  replace (_ <? i) with false by lia; replace (i =? 0) with false by lia.
  do 2 f_equal; now apply case_numbered.
Qed.
Lemma number_name t fs : c_message_name p fs = Some (Some t) -> exists s, In (t, s) (p_messages p).
Proof.
  unfold c_message_name; destruct (c_message_type p fs) as [b|]; [|discriminate].
  destruct (b =? 0); [discriminate|]; intros [= E]; apply case_numbered in E; eapply numbered_message; eassumption.
Qed.

(** The messages so far: the values; the blocks. *)
Definition listed (next : nat) (ms : message_list) (q : nat) (s : cstream) : Prop :=
  cs_pos s = q /\ collect (c_message p) (cs_msgs s) = Some ms /\ (next <= cs_next s)%nat /\
  exists ids, oconcat (map (c_destroy_message p) (cs_msgs s)) = Some ids /\ Permutation ids (blocks next (cs_next s)).

Lemma oconcat_app {A} (a b : list (option (list A))) x y :
  oconcat a = Some x -> oconcat b = Some y -> oconcat (a ++ b) = Some (x ++ y).
Proof.
  revert x; induction a as [|c a IH]; intros x E F; cbn [oconcat List.app] in *; [now injection E as <-|].
  destruct c as [u|]; [|discriminate]; destruct (oconcat a) as [v|]; [|discriminate]; injection E as <-.
  rewrite (IH v eq_refl F); cbn [oapp]; now rewrite app_assoc.
Qed.

Lemma listed_more next ms s t st q v q' c : listed next ms (cs_pos s) s -> In (t, st) (p_messages p) ->
  (exists i, numbered p t i) -> (exists f, depth_of p = S f /\ filled p f t st (S (cs_next s)) v q' c) -> q = q' ->
  listed next (ms ++ [(t, v)]) q {| cs_msgs := cs_msgs s ++ [(cs_next s, c_fs c)]; cs_pos := c_pos c; cs_next := c_next c |}.
Proof.
  intros (_ & CM & NX & ids & OC & PM) I (i & N) (f & DF & P & V & NX' & _ & DE & FR) ->.
  assert (MT : c_message_name p (c_fs c) = Some (Some t)).
  { apply (name_of_number t i); [exact N|]; unfold c_int; rewrite FR by (now apply message_member with t).
    now rewrite (start_number t st i I N). }
  split; [exact P|]; split.
  { apply collect_app; [exact CM|]; cbn [collect]; unfold c_message; cbn [snd]; rewrite MT, DF, V; reflexivity. }
  cbn [cs_next]; split; [lia|].
  destruct (DE (depth_of p) ltac:(lia)) as (i2 & O2 & P2).
  exists (ids ++ (i2 ++ [cs_next s])); split.
  { cbn [cs_msgs]; rewrite map_app; apply oconcat_app; [exact OC|]; cbn [map oconcat]; unfold c_destroy_message; cbn [snd fst].
    rewrite MT, (In_lookup _ _ _ (wf_messages_nodup p W) I); rewrite c_cleanup_does, O2; cbn [oapp]; now rewrite app_nil_r. }
  rewrite (blocks_split next (cs_next s) (c_next c)) by lia; apply Permutation_app; [exact PM|].
  rewrite (blocks_split (cs_next s) (S (cs_next s)) (c_next c)) by lia; rewrite blocks_next.
  transitivity (blocks (S (cs_next s)) (c_next c) ++ [cs_next s]); [now apply Permutation_app_tail|apply Permutation_app_comm].
Qed.

Lemma c_process_from_listed max inp next fuel : forall ms s, listed next ms (cs_pos s) s ->
  follows (lens_ok M p) (process_from fuel c_ref p max inp (cs_pos s) ms) (listed next) (c_process_from fuel M p max inp s).
Proof.
  induction fuel as [|f IH]; intros ms s L; [exact I|]; cbn [process_from c_process_from].
  replace (List.length (cs_msgs s)) with (List.length ms) by (destruct L as (_ & CM & _); exact (collect_length _ _ _ CM)).
  cbn [sm_finished c_ref sm_tag sm_case sm_read sm_lenient].
  destruct (Nat.leb_spec (List.length inp) (cs_pos s)) as [LL|LL]; cbn [orb]; [cbn [follows]; eauto|].
  destruct (negb _); [cbn [follows]; eauto|].
  destruct (skipn (cs_pos s) inp) as [|x rest] eqn:SK.
  { apply (f_equal (@List.length byte)) in SK; rewrite skipn_length in SK; cbn in SK; lia. }
  pose proof (byte_tag_ok inp (cs_pos s) x rest SK) as BT; unfold byte_tag in *.
  destruct (read_num NByte inp (cs_pos s)) as [[b| | | | |] q| |]; try discriminate; clear BT.
  destruct (b =? 0).
  { exists {| cs_msgs := cs_msgs s; cs_pos := q; cs_next := cs_next s |}; split; [reflexivity|].
    destruct L as (_ & L); split; [reflexivity|exact L]. }
  destruct (tag_case b (c_message_types p)) as [t|] eqn:TC; [|cbn [follows]; eauto].
  assert (N : numbered p t b) by (now apply case_numbered).
  destruct (numbered_message p t b N) as [st IN].
  destruct (c_from_bytes_fills M p W COMPILES t st inp q (S (cs_next s)) (or_intror IN)) as (g & DG & F).
  destruct (c_dec M p inp (depth_of p) t q) as [v q'| | | |]; cbn [follows] in F |- *; auto.
  - destruct F as (c & -> & F).
    assert (LM : listed next (ms ++ [(t, v)]) q' {| cs_msgs := cs_msgs s ++ [(cs_next s, c_fs c)]; cs_pos := c_pos c; cs_next := c_next c |})
      by (eapply listed_more; eauto).
    assert (PE : c_pos c = q') by apply LM.
    rewrite <- PE in LM |- *; exact (IH _ {| cs_msgs := cs_msgs s ++ [(cs_next s, c_fs c)]; cs_pos := c_pos c; cs_next := c_next c |} LM).
  - destruct F as (c & ->); cbn [follows]; eauto.
  - intro LE; now rewrite (F LE).
Qed.

Lemma c_process_listed max inp pos next :
  follows (lens_ok M p) (process c_ref p max inp pos) (listed (S next)) (c_process M p max inp pos next).
Proof.
  unfold c_process, process; rewrite COMPILES.
  set (s := {| cs_msgs := []; cs_pos := pos; cs_next := S next |}).
  assert (L : listed (S next) [] (cs_pos s) s).
  { split; [reflexivity|]; split; [reflexivity|]; split; [apply le_n|].
    exists []; split; [reflexivity|]; cbn [cs_next s]; rewrite blocks_none; constructor. }
  destruct (max =? 0); [exists s; split; [reflexivity|exact L]|].
  exact (c_process_from_listed max inp (S next) _ [] s L).
Qed.

Lemma follows_mimics r next c : follows (lens_ok M p) r (listed next) c -> mimics M p r (erased (c_messages p) c).
Proof.
  destruct r as [ms q| | | |]; cbn [follows mimics]; auto.
  - intros (s & -> & P & CM & _); cbn [erased]; unfold c_messages; rewrite CM; cbn [option_map]; now rewrite P.
  - intros (s & ->); reflexivity.
  - intros H L; now rewrite (H L).
Qed.
Lemma c_processor_mimics next max inp pos : mimics M p (process c_ref p max inp pos) (c_processor M p next max inp pos).
Proof. eapply follows_mimics, c_process_listed. Qed.

Definition c_ref_unpack (data : list byte) : res message_list :=
  if (List.length data <? 4)%nat then RTrap
  else if list_eq_dec Byte.byte_eq_dec (firstn 4 data) header then
    match read_num NU32 data 4 with
    | Got (VInt n) q => unpack_counted c_ref p n (to_signed 4 n) data q
    | Got _ _ => RStuck
    | _ => RErr
    end
  else RErr.
Definition c_ref_up : unpacker := fun inp pos => shifted pos (c_ref_unpack (skipn pos inp)).

Lemma c_unpack_listed data next :
  follows (lens_ok M p) (c_ref_unpack data) (listed (S next)) (c_unpack M p data 0 next).
Proof.
  unfold c_ref_unpack, c_unpack; rewrite COMPILES.
  destruct (_ <? _)%nat; [intros _; reflexivity|].
  destruct (list_eq_dec _ _ _); [|cbn [follows]; eauto].
  change (0 + 4)%nat with 4%nat.
  destruct (read_num NU32 data 4) as [[n| | | | |] q| |]; cbn [follows]; eauto.
  pose proof (c_process_listed (to_signed 4 n) data q next) as X.
  assert (E : unpack_counted c_ref p n (to_signed 4 n) data q =
              match process c_ref p (to_signed 4 n) data q with
              | ROk ms q' => if Z.of_nat (List.length ms) =? n then ROk ms q' else RErr
              | r => r end).
  { unfold unpack_counted; destruct (Z.eqb_spec n 0) as [->|N0]; [reflexivity|].
    destruct (process _ _ _ _ _) as [ms q'| | | |]; try reflexivity.
    destruct (Nat.eqb_spec (List.length ms) 0) as [L0|]; [|reflexivity].
    rewrite L0; now replace (Z.of_nat 0 =? n) with false by lia. }
  rewrite E; destruct (process _ _ _ _ _) as [ms q'| | | |]; cbn [follows] in X |- *; auto.
  - destruct X as (s & -> & L); pose proof L as (P & CM & NX & ids & OC & PM).
    rewrite <- (collect_length _ _ _ CM); destruct (_ =? n); [eexists; split; [reflexivity|exact L]|].
    unfold c_destroy_list; rewrite OC; cbn [oapp follows]; eauto.
  - destruct X as (s & ->); cbn [follows]; eauto.
  - intro LE; now rewrite (X LE).
Qed.
Lemma c_unpacker_mimics next inp pos : mimics M p (c_ref_up inp pos) (c_unpacker M p next inp pos).
Proof.
  pose proof (follows_mimics _ _ _ (c_unpack_listed (skipn pos inp) next)) as X; unfold c_ref_up, c_unpacker.
  destruct (c_ref_unpack (skipn pos inp)); cbn [mimics shifted] in X |- *; auto; [now rewrite X|now rewrite X|].
  intro L; now rewrite (X L).
Qed.

Lemma c_ref_counts : counts c_ref p (2 ^ 31 - 1) true c_ref_up.
Proof.
  intros inp pos nb rest n E N; left; exists (to_signed 4 n), (header ++ nb), pos.
  assert (LN : List.length nb = 4%nat) by (inversion N; subst; assumption).
  split; [|split].
  - unfold c_ref_up; f_equal; rewrite E; unfold c_ref_unpack.
    rewrite (proj2 (Nat.ltb_ge _ _)) by (rewrite !app_length; cbn; lia).
    destruct (list_eq_dec Byte.byte_eq_dec _ _) as [_|X]; [|now contradiction X].
    pose proof (read_count (header ++ nb ++ rest) 0 nb rest n eq_refl N) as RC; change (0 + 4)%nat with 4%nat in RC; rewrite RC.
    rewrite <- app_assoc, app_length, LN; reflexivity.
  - intro L; inversion N as [? ? ? _ _ R _| |]; subst; cbn in R; unfold to_signed; cbn in L |- *.
    replace (n <? _) with true by lia; reflexivity.
  - rewrite app_length, LN; cbn; lia.
Qed.
Lemma c_ref_header inp pos : (forall rest, skipn pos inp <> header ++ rest) ->
  c_ref_up inp pos = if (List.length (skipn pos inp) <? 4)%nat then RTrap else RErr.
Proof.
  intro NH; unfold c_ref_up, c_ref_unpack; destruct (_ <? _)%nat; [reflexivity|].
  destruct (list_eq_dec Byte.byte_eq_dec _ _) as [E|]; [|reflexivity].
  exfalso; apply (NH (skipn 4 (skipn pos inp))); rewrite <- E; symmetry; apply firstn_skipn.
Qed.
Lemma c_ref_bad_header : rejects_bad_header true c_ref_up.
Proof. intros inp pos NH; rewrite c_ref_header by exact NH; destruct (_ <? _)%nat; [now right|now left]. Qed.
Lemma c_ref_bad_count trap : rejects_bad_count trap c_ref_up.
Proof.
  intros inp pos c E L; left; unfold c_ref_up, c_ref_unpack; rewrite E.
  rewrite (proj2 (Nat.ltb_ge _ _)) by (rewrite !app_length; cbn; lia).
  destruct (list_eq_dec Byte.byte_eq_dec _ _); [|reflexivity].
  destruct (read_count_short (header ++ c) 0 c eq_refl L) as [q RC]; change (0 + 4)%nat with 4%nat in RC; rewrite RC; reflexivity.
Qed.
Lemma c_ref_unpacking : unpacking c_ref p (2 ^ 31 - 1) true c_ref_up.
Proof. constructor; [exact c_ref_counts|exact c_ref_bad_header|apply c_ref_bad_count]. Qed.

Notation PR0 := (c_ref_streams (process c_ref p) (fun _ _ _ => eq_refl)).
Notation RD0 := (rd0_reads M p W).

Lemma mimics_ok {A} (r r0 : res A) a q : mimics M p r0 r -> r0 = ROk a q -> r = ROk a q.
Proof. now intros H ->. Qed.
Lemma mimics_err {A} (r r0 : res A) : mimics M p r0 r -> r0 = RErr -> r = RErr.
Proof. now intros H ->. Qed.

Lemma c_reads_streams next : reads_streams p (c_fits M) (c_processor M p next).
Proof.
  intros ms bs before max H A.
  destruct (streams_read _ _ _ PR0 _ _ (c_kept M p) RD0 ms bs before max H A) as [H1 H2].
  split; [intro L|intros L after]; (eapply mimics_ok; [apply c_processor_mimics|]); auto.
Qed.
Lemma c_stops_at_max next : stops_at_max p (c_fits M) (c_processor M p next).
Proof.
  intros ms bs before after H A; eapply mimics_ok; [apply c_processor_mimics|].
  exact (streams_max _ _ _ PR0 _ _ (c_kept M p) RD0 ms bs before after H A).
Qed.
Lemma c_rejects_unknown next : rejects_unknown p (c_fits M) (c_processor M p next).
Proof.
  intros ms bs before b after max H A L NB NN; eapply mimics_err; [apply c_processor_mimics|].
  exact (streams_unknown _ _ _ PR0 _ _ (c_kept_some M p) RD0 eq_refl ms bs before b after max H A L NB NN).
Qed.
Lemma c_unpacks next : unpacks p (c_fits M) (2 ^ 31 - 1) (c_unpacker M p next).
Proof.
  intros ms bs before after H A L; eapply mimics_ok; [apply c_unpacker_mimics|].
  exact (unpacking_reads _ _ _ PR0 _ _ _ _ _ c_ref_counts (c_kept M p) RD0 ms bs before after H A L).
Qed.

Lemma fails_answers {A} (r : res A) : fails true r -> answers false r -> fails false r.
Proof. intros [->|[_ ->]]; [now left|discriminate]. Qed.

Section Lens.
Hypothesis LENS : lens_ok M p.

Lemma c_processor_eq next max inp pos : c_processor M p next max inp pos = process c_ref p max inp pos.
Proof.
  pose proof (c_processor_mimics next max inp pos) as X.
  assert (A : answers true (process c_ref p max inp pos)).
  { apply (streams_answer_moves _ _ _ PR0 true c_ref_moves); exact (rd0_answers_trap M p W). }
  destruct (process c_ref p max inp pos); cbn [mimics answers] in X, A; auto; contradiction.
Qed.
Lemma c_streams next : streams c_ref p (c_processor M p next).
Proof. apply c_ref_streams; intros; apply c_processor_eq. Qed.
Lemma c_ref_answers : unpack_answers true c_ref_up.
Proof. exact (unpacking_answers_moves _ _ _ PR0 _ _ _ c_ref_unpacking (rd0_answers_trap M p W) c_ref_moves). Qed.
Lemma c_unpacker_eq next inp pos : c_unpacker M p next inp pos = c_ref_up inp pos.
Proof.
  pose proof (c_unpacker_mimics next inp pos) as X; pose proof (c_ref_answers inp pos) as A.
  destruct (c_ref_up inp pos); cbn [mimics answers] in X, A; auto; contradiction.
Qed.

Lemma c_cut_trap next : rejects_cut_streams p (c_fits M) true (c_processor M p next).
Proof.
  refine (streams_cut _ _ _ (c_streams next) true _ _ (c_kept_some M p) RD0 eq_refl _).
  exact (only_wire_truncated p W Some _ true (rd0_only M p W) (rd0_answers_trap M p W)).
Qed.
Lemma c_only_streams next : only_streams p Some (c_processor M p next).
Proof. exact (streams_only _ _ _ _ (c_streams next) (rd0_only M p W) eq_refl). Qed.
Lemma c_stream_answers_trap next : stream_answers true (c_processor M p next).
Proof. exact (streams_answer_moves _ _ _ (c_streams next) true c_ref_moves (rd0_answers_trap M p W)). Qed.
Lemma c_bad_header_trap next : rejects_bad_header true (c_unpacker M p next).
Proof. intros inp pos NH; rewrite c_unpacker_eq; now apply c_ref_bad_header. Qed.
Lemma c_bad_count next : rejects_bad_count false (c_unpacker M p next).
Proof. intros inp pos c E L; rewrite c_unpacker_eq; now apply (c_ref_bad_count false inp pos c). Qed.
Lemma c_missing_trap next : rejects_missing p true (c_unpacker M p next).
Proof.
  intros ms bs n nb before after H N L Z0; rewrite c_unpacker_eq.
  exact (unpacking_missing _ _ _ PR0 _ _ _ c_ref_unpacking _ (rd0_only M p W) (rd0_answers_trap M p W) eq_refl ms bs n nb before after H N L Z0).
Qed.
Lemma c_only_packed next : only_packed p Some (c_unpacker M p next).
Proof.
  intros inp pos ms q; rewrite c_unpacker_eq.
  exact (unpacking_only _ _ _ PR0 _ _ _ c_ref_unpacking _ (rd0_only M p W) eq_refl inp pos ms q).
Qed.
Lemma c_unpack_answers_trap next : unpack_answers true (c_unpacker M p next).
Proof. intros inp pos; rewrite c_unpacker_eq; apply c_ref_answers. Qed.

(** *** Everything is released once *)

Lemma c_clean t s inp pos next c : declares p t s -> c_from_bytes M p t inp pos next = COk c ->
  (next <= c_next c)%nat /\ exists ids, c_cleanup p s (c_fs c) = Some ids /\ Permutation ids (blocks next (c_next c)).
Proof.
  intros D E; destruct (c_from_bytes_fills M p W COMPILES t s inp pos next D) as (f & DF & X).
  pose proof (rd0_answers_trap M p W t s inp pos D) as A.
  destruct (c_dec M p inp (depth_of p) t pos) as [v q| | | |]; cbn [follows answers] in X, A; try contradiction.
  - destruct X as (c' & E' & P & V & NX & SI & DE & FR); rewrite E in E'; injection E' as <-.
    rewrite c_cleanup_does; split; [exact NX|]; apply (DE (depth_of p)); lia.
  - destruct X as (c' & E'); rewrite E in E'; discriminate.
  - rewrite (X LENS) in E; discriminate.
Qed.
Lemma listed_clean next ms q s : listed (S next) ms q s ->
  (next < cs_next s)%nat /\ exists ids, c_destroy_list p next (cs_msgs s) = Some ids /\ Permutation ids (blocks next (cs_next s)).
Proof.
  intros (P & CM & NX & ids & OC & PM); split; [lia|].
  exists (ids ++ [next]); unfold c_destroy_list; rewrite OC; split; [reflexivity|].
  rewrite (blocks_split next (S next) (cs_next s)) by lia; rewrite blocks_next.
  transitivity (blocks (S next) (cs_next s) ++ [next]); [now apply Permutation_app_tail|apply Permutation_app_comm].
Qed.
Lemma c_process_clean max inp pos next s : c_process M p max inp pos next = COk s ->
  (next < cs_next s)%nat /\ exists ids, c_destroy_list p next (cs_msgs s) = Some ids /\ Permutation ids (blocks next (cs_next s)).
Proof.
  intro E; pose proof (c_process_listed max inp pos next) as X.
  pose proof (streams_answer_moves _ _ _ PR0 true c_ref_moves (rd0_answers_trap M p W) max inp pos) as A; cbn beta in A.
  destruct (process c_ref p max inp pos) as [ms q| | | |]; cbn [follows answers] in X, A; try contradiction.
  - destruct X as (s' & E' & L); rewrite E in E'; injection E' as <-; eapply listed_clean; exact L.
  - destruct X as (c' & E'); rewrite E in E'; discriminate.
  - rewrite (X LENS) in E; discriminate.
Qed.
Lemma c_unpack_clean data next s : c_unpack M p data 0 next = COk s ->
  (next < cs_next s)%nat /\ exists ids, c_destroy_list p next (cs_msgs s) = Some ids /\ Permutation ids (blocks next (cs_next s)).
Proof.
  intro E; pose proof (c_unpack_listed data next) as X.
  pose proof (c_ref_answers data 0%nat) as A; unfold c_ref_up in A; cbn [skipn] in A.
  destruct (c_ref_unpack data) as [ms q| | | |]; cbn [follows answers shifted] in X, A; try contradiction.
  - destruct X as (s' & E' & L); rewrite E in E'; injection E' as <-; eapply listed_clean; exact L.
  - destruct X as (c' & E'); rewrite E in E'; discriminate.
  - rewrite (X LENS) in E; discriminate.
Qed.

Section Small.
Hypothesis UNSIGNED : small_unsigned (p_string_size_type p).

Lemma small_dec inp : small_input inp = true ->
  forall t s pos, declares p t s -> answers false (sm_read c_ref p t inp pos).
Proof.
  intros SM t s pos D; pose proof (rd1_answers M p W LENS UNSIGNED t s inp pos D) as A.
  unfold small_reader, if_ok in A; rewrite SM in A; exact A.
Qed.
Lemma c_stream_answers next : stream_answers false (small_stream (c_processor M p next)).
Proof.
  intros max inp pos; unfold small_stream, if_ok; destruct (small_input inp) eqn:SM; [|exact I].
  rewrite c_processor_eq; destruct PR0 as [_ FIN TAG END CASE EQ].
  apply (process_answers c_ref p FIN TAG END CASE c_ref_moves); now apply small_dec.
Qed.
Lemma c_cut next : rejects_cut_streams p (c_fits M) false (small_stream (c_processor M p next)).
Proof.
  intros ms bs before m lst cut x rest max H A L T E NE.
  apply fails_answers; [|apply c_stream_answers].
  unfold small_stream, if_ok; destruct (small_input _); [|now left].
  exact (c_cut_trap next ms bs before m lst cut x rest max H A L T E NE).
Qed.
Lemma c_unpack_answers next : unpack_answers false (small_unpacker (c_unpacker M p next)).
Proof.
  intros inp pos; unfold small_unpacker, if_ok.
  destruct (small_input inp) eqn:SM; [|exact I]; destruct (Nat.leb_spec 4 (List.length (skipn pos inp))) as [L4|]; [|exact I].
  cbn [andb]; rewrite c_unpacker_eq; unfold c_ref_up, c_ref_unpack.
  rewrite (proj2 (Nat.ltb_ge _ _)) by exact L4.
  destruct (list_eq_dec _ _ _); [|exact I].
  destruct (read_num NU32 (skipn pos inp) 4) as [v q| |] eqn:R; [|exact I|].
  - unfold read_num in R; destruct (bytes_at _ _ _); [|discriminate]; injection R as <- <-; cbn [num_val].
    destruct PR0 as [_ FIN TAG END CASE EQ].
    assert (A : answers false (unpack_counted c_ref p (le_val l) (to_signed 4 (le_val l)) (skipn pos inp) (4 + num_size NU32))).
    { apply (counted_answers c_ref p FIN TAG END CASE); [exact c_ref_moves|].
      apply small_dec; unfold small_input in *; rewrite skipn_length; lia. }
    destruct (unpack_counted _ _ _ _ _ _); exact A.
  - unfold read_num in R; destruct (bytes_at _ _ _); discriminate.
Qed.
Lemma c_bad_header next : rejects_bad_header false (small_unpacker (c_unpacker M p next)).
Proof.
  intros inp pos NH; apply fails_answers; [|apply c_unpack_answers].
  unfold small_unpacker, if_ok; destruct (_ && _); [|now left]; now apply c_bad_header_trap.
Qed.
Lemma c_missing next : rejects_missing p false (small_unpacker (c_unpacker M p next)).
Proof.
  intros ms bs n nb before after H N L Z0; apply fails_answers; [|apply c_unpack_answers].
  unfold small_unpacker, if_ok; destruct (_ && _); [|now left].
  exact (c_missing_trap next ms bs n nb before after H N L Z0).
Qed.
End Small.
End Lens.
End Streams.
