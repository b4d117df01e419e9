(** Generated Swift: agreement with the reference reader and the format. *)
From Verif Require Export Swift LangFacts StreamFacts CutFacts OverlongFacts.
Open Scope Z_scope.
Open Scope list_scope.

Lemma sw_prim_num : forall t, sw_prim t = num_of t.
Proof. unfold sw_prim, prim, sw_types; prim_tac. Qed.
Lemma sw_label_num : forall t, sw_label t = num_of t.
Proof. unfold sw_label, prim, sw_labels; prim_tac. Qed.

Lemma sw_read_one_code p d x t : WF p -> declared_type p t -> sw_read_one p d x t = one_code p d x t.
Proof.
  intros W T; unfold sw_read_one, one_code; destruct (type_cases p t W T) as [k K M S E _| -> E _|e k K M S _ E KE _|s K M S E _].
  - now rewrite M, S, K, sw_prim_num, K.
  - reflexivity.
  - now rewrite M, S, E, K, !sw_prim_num, KE.
  - now rewrite M, S, E, K.
Qed.

Lemma sw_el_code p d x t : WF p -> declared_type p t ->
  match lookup t (p_enums p) with
  | Some e => with_prim (sw_prim (e_encoding e)) RIllTyped (fun k => [RNum (DLocal x) k; REnumCheck x t; RMove d x])
  | None => sw_read_one p d x t
  end = one_code p d x t.
Proof.
  intros W T; rewrite sw_read_one_code by assumption; unfold one_code.
  destruct (type_cases p t W T) as [k K M S E _| -> E _|e k K M S _ E KE _|s K M S E _].
  - now rewrite E.
  - now rewrite E.
  - now rewrite E, K, S, sw_prim_num, KE.
  - now rewrite E.
Qed.

Lemma sw_write_one_code p s t : WF p -> declared_type p t -> sw_write_one p s t = wone p s t.
Proof.
  intros W T; unfold sw_write_one, wone, enum_num; destruct (type_cases p t W T) as [k K M S E _| -> E _|e k K M S _ E KE _|s' K M S E _].
  - now rewrite M, S, K, sw_label_num, K.
  - reflexivity.
  - now rewrite M, S, E, K, !sw_label_num, KE.
  - now rewrite M, S, E, K.
Qed.

Lemma sw_init_names p d t s : WF p -> declares p t s -> map fst (sw_init p d t) = map v_name (s_members s).
Proof.
  intros W D; destruct d; cbn [sw_init]; rewrite (find_declares p W t s D), map_map; apply map_ext; reflexivity.
Qed.

(** ** Strings *)

Lemma sw_txt strip s : bom_text strip s -> sw_decode strip s = Some s.
Proof.
  intros [U B]; unfold sw_decode; rewrite (proj2 (utf8_valid_spec s) U).
  destruct strip; [|reflexivity]; f_equal; specialize (B eq_refl).
  unfold strip_bom; destruct s as [|a [|b [|c r]]]; try reflexivity;
    destruct a; try reflexivity; destruct b; try reflexivity; destruct c; try reflexivity.
  exfalso; eapply B; reflexivity.
Qed.
Lemma sw_any strip s : utf8 s -> exists s', sw_decode strip s = Some s'.
Proof. intro U; unfold sw_decode; rewrite (proj2 (utf8_valid_spec s) U); eauto. Qed.

Section SW.
Variable strip : bool.
Variable p : protocol.
Hypothesis W : WF p.

Lemma sw_str_sized inp pos s q :
  sw_str 0 strip p inp pos = Got s q <-> sized_str Crash (sw_decode strip) p inp inp pos = Got s q.
Proof.
  unfold sw_str, sized_str; rewrite sw_prim_num.
  destruct (num_of (p_string_size_type p)) as [k|]; [|reflexivity].
  destruct (read_num k inp pos) as [v q'| |]; try reflexivity.
  destruct v as [z| | | | |]; try reflexivity.
  destruct (z <? 0); [reflexivity|].
  rewrite Nat.sub_0_r; cbn [Nat.leb].
  destruct (_ <=? _); [reflexivity|].
  destruct ((_ <=? _) && (_ <=? _)); [split; discriminate|reflexivity].
Qed.

Lemma sw_str_forward inp pos s lb raw rest : skipn pos inp = lb ++ raw ++ rest ->
  wire_size reading (p_string_size_type p) (List.length raw) lb -> sw_decode strip raw = Some s ->
  sw_str 0 strip p inp pos = Got s (pos + List.length lb + List.length raw).
Proof.
  intros E L C; apply sw_str_sized.
  rewrite <- (app_nil_r inp) at 1; eapply sized_str_forward; eassumption.
Qed.

Lemma sw_str_back inp pos s q : sw_str 0 strip p inp pos = Got s q ->
  exists lb raw rest, skipn pos inp = lb ++ raw ++ rest /\
    wire_size reading (p_string_size_type p) (List.length raw) lb /\
    q = (pos + List.length lb + List.length raw)%nat /\ sw_decode strip raw = Some s.
Proof. intro H; apply sw_str_sized, sized_str_back in H; [exact H|discriminate]. Qed.

Lemma sw_str_within inp pos s q : sw_str 0 strip p inp pos = Got s q -> (q <= List.length inp)%nat.
Proof. intro H; apply sw_str_sized in H; eapply sized_str_within; [|exact H]; discriminate. Qed.

(** Nothing to crash about: lengths are not negative and fit 32 bits. *)
Lemma sw_str_small inp pos : small_unsigned (p_string_size_type p) -> sw_str 0 strip p inp pos <> Crash.
Proof.
  intro U; unfold sw_str; rewrite sw_prim_num; destruct (string_size_num p W) as (k & K & NB); rewrite K.
  destruct (read_num_cases k inp pos) as [[v E]|E]; rewrite E; [|discriminate].
  apply read_num_got in E as (lb & rest & _ & N & _); destruct (integral_vint _ _ _ _ NB N) as [z ->].
  apply wire_num_vint in N.
  assert (R : 0 <= z < 2 ^ 32).
  { revert U K N; clear; generalize (p_string_size_type p); intros t U K N.
    repeat (destruct U as [<-|U]; [injection K as <-; cbn in N; lia|]); destruct U. }
  destruct (Z.ltb_spec z 0); [lia|].
  destruct (_ <=? _); [cbn [Nat.leb]; destruct (sw_decode _ _); discriminate|].
  destruct (Z.leb_spec (2 ^ 32) z); [lia|discriminate].
Qed.

(** Part of a string: the length is not negative. *)
Lemma sw_str_cut inp pos lb raw : ~ In (p_string_size_type p) ["uint64"; "int64"]%string ->
  wire_size reading (p_string_size_type p) (List.length raw) lb -> along inp pos (lb ++ raw) ->
  sw_str 0 strip p inp pos <> Crash /\
  forall s q, sw_str 0 strip p inp pos = Got s q -> q = (pos + List.length (lb ++ raw))%nat.
Proof.
  intros S64 (k & K & N) A; unfold sw_str; rewrite sw_prim_num, K.
  destruct (read_num_cases k inp pos) as [[v E]|E]; rewrite E; [|split; discriminate].
  apply (along_read _ _ _ _ _ _ _ (along_left _ _ _ _ A) N) in E as (-> & -> & _).
  assert (R : Z.of_nat (List.length raw) < 2 ^ 32).
  { apply wire_num_vint in N; pose proof (wf_string_size p W) as I.
    revert S64 K N I; clear; generalize (p_string_size_type p); intros t S K N I; cbn in I.
    repeat (destruct I as [<-|I]; [injection K as <-; cbn in N, S; try lia; exfalso; apply S; tauto|]); destruct I. }
  destruct (Z.ltb_spec (Z.of_nat (List.length raw)) 0); [lia|].
  destruct (_ <=? _).
  - cbn [Nat.leb]; destruct (sw_decode _ _); split; try discriminate.
    intros s' q [= _ <-]; rewrite Nat2Z.id, app_length; lia.
  - destruct (Z.leb_spec (2 ^ 32) (Z.of_nat (List.length raw))); [lia|]; split; discriminate.
Qed.

(** ** Reading *)

Lemma sw_member inp call fuel t s m :
  call_ok (sw_rt 0 strip) p inp call (fun _ => sw_for) fuel -> declares p t s -> In m (s_members s) ->
  member_ok (sw_rt 0 strip) p inp call (fun _ => sw_for) fuel m (sw_read p m).
Proof.
  intros C D I; pose proof (wf_member_types p W t s m D I) as T.
  unfold sw_read; destruct (v_list m) eqn:L.
  - destruct (list_size_num p W) as (k & K & NB); rewrite sw_prim_num, K; cbn [with_prim].
    apply member_push; auto; [intro z; cbn [rt_for sw_rt]; destruct (sw_for z); cbn; auto|].
    rewrite (sw_el_code _ _ _ _ W T); now apply body_push.
  - rewrite sw_read_one_code by assumption; now apply member_one.
Qed.

Lemma sw_agrees inp fuel : call_ok (sw_rt 0 strip) p inp (run (sw_rt 0 strip) p sw_reader inp fuel) (fun _ => sw_for) fuel.
Proof.
  apply (run_agrees _ p inp sw_reader (fun _ => sw_read p) (fun _ => sw_for) W).
  - reflexivity.
  - intros t s D; now apply sw_init_names.
  - apply sw_member.
Qed.
Lemma sw_len (t : string) z : 0 <= z -> exists a b, sw_for z = Got a b.
Proof. intro R; unfold sw_for; destruct (Z.ltb_spec z 0); [lia|eauto]. Qed.
Lemma sw_len_ok : len_ok (fun _ => sw_for) p.
Proof.
  intros t z Z0 _ a b; unfold sw_for.
  destruct (Z.ltb_spec z 0); [discriminate|lia].
Qed.

Lemma sw_reads : reads_wire p (texted (sw_decode strip)) (sw_from_bytes 0 strip p).
Proof.
  exact (good_reads (sw_rt 0 strip) p sw_reader (fun _ => sw_for) (sw_decode strip) true W sw_agrees (fun _ _ _ => eq_refl) (fun _ _ _ _ => eq_refl) (declared_kept p) sw_len sw_str_forward).
Qed.

Lemma sw_answers_trap : always_answers p true (sw_from_bytes 0 strip p).
Proof.
  exact (good_answers (sw_rt 0 strip) p sw_reader (fun _ => sw_for) true W sw_agrees (fun _ _ _ => eq_refl) (fun _ _ _ _ => eq_refl)).
Qed.

Lemma sw_only : only_wire p (sw_decode strip) (sw_from_bytes 0 strip p).
Proof.
  exact (good_only (sw_rt 0 strip) p sw_reader (fun _ => sw_for) (sw_decode strip) true W sw_agrees (fun _ _ _ => eq_refl) (fun _ _ _ _ => eq_refl) (declared_only p) sw_len_ok sw_str_back).
Qed.

Lemma sw_text : returns_text p (sw_from_bytes 0 strip p).
Proof.
  refine (good_text (sw_rt 0 strip) p sw_reader (fun _ => sw_for) true W sw_agrees (fun _ _ _ => eq_refl) (fun _ _ _ _ => eq_refl) _).
  intros inp pos s q H; apply sw_str_back in H as (lb & raw & rest & _ & _ & _ & H).
  unfold sw_decode in H; destruct (utf8_valid raw) eqn:V; [|discriminate]; injection H as <-.
  apply utf8_valid_spec in V; destruct strip; [now apply strip_bom_utf8|exact V].
Qed.

Lemma sw_enums : only_declared_enums p (sw_from_bytes 0 strip p).
Proof. eapply only_wire_enums; [exact W|exact sw_only]. Qed.

Lemma sw_reads_back : reads_back p (strings (bom_text strip)) (sw_from_bytes 0 strip p).
Proof. eapply reads_back_text; [exact (sw_txt strip)|exact sw_reads]. Qed.

Section Small.
Hypothesis US : small_unsigned (p_string_size_type p).
Hypothesis UL : unsigned_type (p_list_size_type p).

Lemma sw_answers : always_answers p false (sw_from_bytes 0 strip p).
Proof.
  refine (good_answers (sw_rt 0 strip) p sw_reader (fun _ => sw_for) false W sw_agrees _ _).
  - intros inp pos H; now apply sw_str_small in H.
  - intros t z (k & K & R) H; rewrite (unsigned_min _ _ UL K) in R.
    destruct (sw_len EmptyString z) as (a & b & E); [lia|congruence].
Qed.
End Small.

Lemma sw_truncated : ~ In (p_string_size_type p) ["uint64"; "int64"]%string ->
  rejects_truncated p false (sw_from_bytes 0 strip p).
Proof.
  intro S64.
  exact (good_cut (sw_rt 0 strip) p sw_reader (fun _ => sw_for) true false W sw_agrees (fun _ _ _ => eq_refl) (fun _ _ _ _ => eq_refl) (fun t z R => or_introl (sw_len t z R))
    (fun inp pos lb raw L A => no_crash _ _ (sw_str_cut inp pos lb raw S64 L A)) sw_str_within).
Qed.

(** ** Writing *)

Lemma sw_writes t s v bs : declares p t s -> wire p t v bs -> writes sw_wt (sw_write_bytes p t v) bs.
Proof.
  intros D WI; unfold sw_write_bytes.
  eapply write_ok with (mcode := fun _ => sw_write p); eauto.
  intros call fuel t' s' m C D' I F; pose proof (wf_member_types p W t' s' m D' I) as T.
  unfold sw_write; destruct (v_list m) eqn:L.
  - destruct (list_size_num p W) as (k & K & NB); rewrite sw_label_num, K; cbn [with_prim].
    rewrite sw_write_one_code by assumption.
    eapply member_writes_each; eauto.
  - rewrite sw_write_one_code by assumption; eapply member_writes_one; eauto.
Qed.

Lemma sw_writer_appends : writer_does appends p (sw_write_bytes p).
Proof. intros t s v bs D WI; apply (writes_appends sw_wt); [reflexivity|eapply sw_writes; eassumption]. Qed.

Lemma sw_tagged_appends : tagged_writer_does appends p (sw_write_tagged p).
Proof.
  intros [t v] bs WT; apply (writes_appends sw_wt); [reflexivity|].
  apply (write_tagged_ok sw_wt p (sw_write_bytes p) W sw_writes (t, v) bs WT).
Qed.

Lemma sw_refuses : refuses_overlong p (sw_write_bytes p).
Proof.
  apply (write_members_fit sw_wt p W sw_writer (fun _ => sw_write p)); [reflexivity|].
  intros call t s m C D I; pose proof (wf_member_types p W t s m D I) as T.
  unfold sw_write; destruct (v_list m) eqn:L.
  - destruct (list_size_num p W) as (k & K & NB); rewrite sw_label_num, K; cbn [with_prim].
    rewrite sw_write_one_code by assumption.
    apply member_fits_each; auto.
  - rewrite sw_write_one_code by assumption; apply member_fits_one; auto.
Qed.

(** ** Streams *)

Lemma sw_streams : streams (sw_stream 0 strip) p (sw_process 0 strip p).
Proof.
  constructor; [exact W|intros inp pos L; now apply Nat.leb_gt|apply byte_tag_ok| | |reflexivity].
  - intros inp pos L; left; now apply Nat.leb_le.
  - intros b t _; apply case_numbered.
Qed.

Lemma sw_reads_streams : reads_streams p (strings (bom_text strip)) (sw_process 0 strip p).
Proof. exact (streams_read _ _ _ sw_streams _ (strings (bom_text strip)) (text_kept p _ _ (sw_txt strip)) sw_reads). Qed.
Lemma sw_stops_at_max : stops_at_max p (strings (bom_text strip)) (sw_process 0 strip p).
Proof. exact (streams_max _ _ _ sw_streams _ (strings (bom_text strip)) (text_kept p _ _ (sw_txt strip)) sw_reads). Qed.
Lemma sw_rejects_unknown : rejects_unknown p (strings utf8) (sw_process 0 strip p).
Proof. exact (streams_unknown _ _ _ sw_streams _ (strings utf8) (text_some p _ _ (sw_any strip)) sw_reads eq_refl). Qed.
Lemma sw_rejects_cut : ~ In (p_string_size_type p) ["uint64"; "int64"]%string ->
  rejects_cut_streams p (strings utf8) false (sw_process 0 strip p).
Proof.
  intro S64; exact (streams_cut _ _ _ sw_streams false _ (strings utf8) (text_some p _ _ (sw_any strip)) sw_reads eq_refl (sw_truncated S64)).
Qed.
Lemma sw_only_streams : only_streams p (sw_decode strip) (sw_process 0 strip p).
Proof. exact (streams_only _ _ _ _ sw_streams sw_only eq_refl). Qed.
Lemma sw_stream_answers : small_unsigned (p_string_size_type p) -> unsigned_type (p_list_size_type p) ->
  stream_answers false (sw_process 0 strip p).
Proof. intros US UL; exact (streams_answer _ _ _ _ sw_streams false sw_only (sw_answers US UL)). Qed.

(** ** Packed buffers *)

Lemma sw_packs : packer_does appends p (sw_pack p).
Proof.
  intros ms bs H; apply (writes_appends sw_wt); [reflexivity|].
  exact (pack_ok sw_wt p (sw_write_bytes p) W sw_writes ms bs H).
Qed.

Lemma sw_up trap : counts (sw_stream 0 strip) p (2 ^ 32 - 1) trap (sw_unpack strip p).
Proof.
  intros inp pos nb rest n E N; left; exists n, [], (pos + 8)%nat.
  split; [|split; [auto|cbn; lia]].
  assert (LN : List.length nb = 4%nat) by (inversion N; subst; assumption).
  unfold sw_unpack, sw_unpack_data; rewrite E.
  replace (_ || _) with false.
  2:{ symmetry; apply orb_false_iff; split; [reflexivity|]; apply Nat.ltb_ge; rewrite !app_length; cbn; lia. }
  cbn [firstn header List.app].
  destruct (list_eq_dec Byte.byte_eq_dec _ _) as [_|NE]; [|contradiction NE; reflexivity].
  assert (E0 : skipn 0 (header ++ nb ++ rest) = header ++ nb ++ rest) by reflexivity.
  pose proof (read_count _ 0 nb rest n E0 N) as RC; cbn [Nat.add header List.app] in RC |- *; rewrite RC.
  replace (skipn 8 _) with rest.
  2:{ cbn [skipn]; do 5 (destruct nb as [|? nb]; try discriminate LN); reflexivity. }
  cbn [List.length]; destruct (unpack_counted _ _ _ _ _ _); cbn [shifted]; f_equal; lia.
Qed.

Lemma sw_header inp pos : (forall rest, skipn pos inp <> header ++ rest) -> (pos + 4 <= List.length inp)%nat ->
  sw_unpack strip p inp pos = RErr.
Proof.
  intros NH L; unfold sw_unpack, sw_unpack_data.
  replace (_ || _) with false.
  2:{ symmetry; apply orb_false_iff; split; [reflexivity|]; apply Nat.ltb_ge; rewrite skipn_length; lia. }
  destruct (list_eq_dec Byte.byte_eq_dec _ _) as [E|]; [|reflexivity].
  exfalso; apply (NH (skipn 4 (skipn pos inp))); rewrite <- E; symmetry; apply firstn_skipn.
Qed.

Lemma sw_short inp pos : (List.length (skipn pos inp) < 4)%nat -> sw_unpack strip p inp pos = RTrap.
Proof.
  intro L; unfold sw_unpack, sw_unpack_data.
  replace (_ || _) with true; [reflexivity|].
  symmetry; apply orb_true_iff; right; now apply Nat.ltb_lt.
Qed.

Lemma sw_bad_header : rejects_bad_header true (sw_unpack strip p).
Proof.
  intros inp pos NH; destruct (le_lt_dec 4 (List.length (skipn pos inp))) as [L|L].
  - left; apply sw_header; [exact NH|]; rewrite skipn_length in L; lia.
  - right; split; [reflexivity|now apply sw_short].
Qed.

Lemma sw_bad_count trap : rejects_bad_count trap (sw_unpack strip p).
Proof.
  intros inp pos c E L; left; unfold sw_unpack, sw_unpack_data; rewrite E.
  replace (_ || _) with false.
  2:{ symmetry; apply orb_false_iff; split; [reflexivity|]; apply Nat.ltb_ge; rewrite !app_length; cbn; lia. }
  destruct (list_eq_dec Byte.byte_eq_dec _ _); [|reflexivity].
  assert (E0 : skipn 0 (header ++ c) = header ++ c) by reflexivity.
  destruct (read_count_short _ 0 c E0 L) as [q RC]; cbn [Nat.add] in RC; rewrite RC; reflexivity.
Qed.

Lemma sw_unpacking : unpacking (sw_stream 0 strip) p (2 ^ 32 - 1) true (sw_unpack strip p).
Proof. constructor; [apply sw_up|apply sw_bad_header|apply sw_bad_count]. Qed.

Lemma sw_unpacks : unpacks p (strings (bom_text strip)) (2 ^ 32 - 1) (sw_unpack strip p).
Proof. exact (unpacking_reads _ _ _ sw_streams _ false _ _ (strings (bom_text strip)) (sw_up false) (text_kept p _ _ (sw_txt strip)) sw_reads). Qed.
Lemma sw_missing : rejects_missing_for p (strings utf8) false (sw_unpack strip p).
Proof. exact (unpacking_missing_reads _ _ _ sw_streams _ false _ _ (strings utf8) (sw_up false) (text_some p _ _ (sw_any strip)) sw_reads). Qed.
Lemma sw_only_packed : only_packed p (sw_decode strip) (sw_unpack strip p).
Proof. exact (unpacking_only _ _ _ sw_streams _ _ _ sw_unpacking _ sw_only eq_refl). Qed.

Lemma sw_unpack_answers inp pos : small_unsigned (p_string_size_type p) -> unsigned_type (p_list_size_type p) ->
  (pos + 4 <= List.length inp)%nat -> answers false (sw_unpack strip p inp pos).
Proof.
  intros US UL L.
  (* a variant that fails on short input instead of trapping *)
  pose (up := fun i o => if (List.length (skipn o i) <? 4)%nat then RErr else sw_unpack strip p i o).
  assert (UE : up inp pos = sw_unpack strip p inp pos).
  { unfold up; rewrite (proj2 (Nat.ltb_ge _ _)); [reflexivity|rewrite skipn_length; lia]. }
  rewrite <- UE.
  assert (U : unpacking (sw_stream 0 strip) p (2 ^ 32 - 1) false up).
  { constructor.
    - intros i o nb rest n E N; unfold up; rewrite (proj2 (Nat.ltb_ge _ _)) by (rewrite E, app_length; cbn; lia).
      now apply sw_up with (nb := nb).
    - intros i o NH; unfold up; destruct (Nat.ltb_spec (List.length (skipn o i)) 4) as [S|S]; [now left|].
      left; apply sw_header; [exact NH|]; rewrite skipn_length in S; lia.
    - intros i o c E S; unfold up; destruct (Nat.ltb_spec (List.length (skipn o i)) 4); [now left|].
      now apply sw_bad_count with (c := c). }
  exact (unpacking_answers _ _ _ sw_streams _ _ _ U _ sw_only (sw_answers US UL) inp pos).
Qed.

(** ** Size *)

Lemma sw_no_loops lvl t i : ~ loop_at sw_style p lvl t i.
Proof. intro H; induction H; try contradiction; discriminate. Qed.

Lemma sw_size_ok t s v bs : declares p t s -> wire p t v bs ->
  Z.of_nat (List.length bs) < 2 ^ 32 -> sw_size p t v = MRet (Z.of_nat (List.length bs)).
Proof.
  intros D WI L; unfold sw_size.
  assert (E : size_with sw_style p 0 t v = MRet (Z.of_nat (List.length bs))).
  { eapply size_ok_gen; eauto.
    - intros lvl t' s' m i _ _ _ _; apply sw_no_loops.
    - discriminate. }
  rewrite E; cbn [returning]; unfold fits_u32.
  destruct (Z.ltb_spec (Z.of_nat (List.length bs)) (2 ^ 32)); [reflexivity|lia].
Qed.

Lemma sw_exact_size : exact_size_for p (strings any_text) (2 ^ 32) (sw_size p).
Proof. intros t s v bs D WI _; eapply sw_size_ok; eassumption. Qed.

Lemma sw_exact_packed_size : exact_packed_size_for p (strings any_text) (2 ^ 32) (sw_packed_size p).
Proof.
  intros ms bs H _ L; unfold sw_packed_size.
  rewrite (packed_size_ok p (sw_size p) ms bs W); [reflexivity| |exact H].
  intros t s v b D WI I; eapply sw_size_ok; [eassumption..|].
  pose proof (wire_packed_length p ms bs t v b W H WI I); lia.
Qed.
End SW.

(** ** Fresh objects *)

Lemma sw_defaults_num t k : num_of t = Some k -> lookup t sw_defaults = Some (zero_of k).
Proof.
  intro K; apply num_of_in in K as I; cbn in I.
  repeat (destruct I as [<-|I]; [injection K as <-; reflexivity|]); destruct I.
Qed.
Lemma sw_defaults_none t : num_of t = None -> String.eqb t "string" = false -> lookup t sw_defaults = None.
Proof.
  intros K S; unfold num_of in K; unfold sw_defaults; cbn [lookup] in *.
  repeat match type of K with context [String.eqb t ?x] => destruct (String.eqb t x); [discriminate|] end.
  now rewrite S.
Qed.

Lemma sw_fresh p t s : WF p -> declares p t s -> fresh p t (VStruct (sw_init p (depth_of p) t)).
Proof.
  intros W D.
  pose (def := fun d m =>
         if v_list m then VList []
         else match lookup (v_type m) sw_defaults with
         | Some v => v
         | None =>
             match lookup (v_type m) (p_enums p) with
             | Some e => match get_default_pair e with Some (_, z) => VInt z | None => VUndef end
             | None => VStruct (sw_init p d (v_type m))
             end
         end).
  apply (init_fresh p W (sw_init p) def) with (s := s); [| |exact D|now apply WF_fits_any].
  - intros d t' s' D'; cbn [sw_init]; rewrite (find_declares p W t' s' D'); reflexivity.
  - intros d t' s' m D' I; unfold def; destruct (v_list m); [reflexivity|].
    destruct (type_cases p (v_type m) W (wf_member_types p W t' s' m D' I)) as [k K M S E L| E1 E L|e k K M S IE E KE _|s'' K M S E L].
    + rewrite (sw_defaults_num _ _ K); now apply default_num.
    + rewrite E1 in *; cbn; now apply default_str.
    + rewrite (sw_defaults_none _ K S), E; unfold get_default_pair.
      destruct (wf_enum_values p W _ e IE) as [NE _].
      destruct (e_values e) as [|[n z] r] eqn:EV; [now contradiction NE|]; cbn [hd_error].
      eapply default_enum; eassumption.
    + rewrite (sw_defaults_none _ K S), E; eapply default_struct; eassumption.
Qed.
