(** Generated C#: agreement with the reference reader and the format. *)
From Verif Require Export CSharp LangFacts StreamFacts.
Open Scope Z_scope.
Open Scope list_scope.

Lemma cs_prim_num : forall t, cs_prim t = num_of t.
Proof. unfold cs_prim, prim, cs_deserializers; prim_tac. Qed.
Lemma cs_typed_num : forall t, cs_typed t = num_of t.
Proof. unfold cs_typed, prim, cs_types; prim_tac. Qed.

Lemma cs_mem t : mem t cs_deserializers = mem t NUMERIC_TYPE_SIZES.
Proof.
  unfold mem, NUMERIC_TYPE_SIZES, cs_deserializers; cbn [lookup].
  repeat (match goal with |- context [String.eqb t ?x] => destruct (String.eqb t x) end; [reflexivity|]); reflexivity.
Qed.

Lemma cs_read_one_code p d x t : WF p -> declared_type p t -> cs_read_one p d x t = one_code p d x t.
Proof.
  intros W T; unfold cs_read_one, one_code; rewrite cs_mem; destruct (type_cases p t W T) as [k K M S E _| -> E _|e k K M S _ E KE _|s K M S E _].
  - now rewrite S, E, M, K, cs_prim_num, K.
  - reflexivity.
  - now rewrite S, E, K, cs_prim_num, KE.
  - now rewrite S, E, M, K.
Qed.

Lemma cs_write_one_code p s t : WF p -> declared_type p t -> cs_write_one p s t = wone p s t.
Proof.
  intros W T; unfold cs_write_one, wone, enum_num; destruct (type_cases p t W T) as [k K M S E _| -> E _|e k K M S _ E KE _|s' K M S E _].
  - now rewrite S, E, M, K, cs_typed_num, K.
  - reflexivity.
  - now rewrite S, E, K, cs_typed_num, KE.
  - now rewrite S, E, M, K.
Qed.

Lemma cs_init_names p d t s : WF p -> declares p t s -> map fst (cs_init p d t) = map v_name (s_members s).
Proof.
  intros W D; destruct d; cbn [cs_init]; rewrite (find_declares p W t s D), map_map; apply map_ext; reflexivity.
Qed.

(** ** Strings *)

Definition cs_decode (raw : list byte) : option (list byte) :=
  if Z.of_nat (List.length raw) <? 2 ^ 31 then Some (utf8_lossy raw) else None.

Lemma to_signed_small z : 0 <= z < 2 ^ 31 -> to_signed 4 (z mod 2 ^ 32) = z.
Proof.
  intro R; rewrite Z.mod_small by lia; unfold to_signed.
  change (2 ^ (8 * Z.of_nat 4 - 1)) with (2 ^ 31); destruct (Z.ltb_spec z (2 ^ 31)); lia.
Qed.

Lemma ascii_utf16 s : ascii_text s -> utf16_length s = List.length s.
Proof.
  unfold utf16_length; intro A; induction A as [|a s H A IH]; [reflexivity|].
  cbn [List.length utf16_from].
  assert (SC : scan a s = (true, 1%nat)).
  { unfold scan; destruct (second a); replace (byte_span 0 127 a) with true; [reflexivity|].
    symmetry; unfold byte_span; pose proof (Z_of_byte_range a); apply andb_true_iff; split; apply Z.leb_le; lia. }
  rewrite SC; cbn [snd skipn Nat.eqb]; now rewrite IH.
Qed.

Definition cs_len (t : string) (z : Z) : got unit := Got tt 0.

Section CS.
Variable ns : bool.
Variable p : protocol.
Hypothesis W : WF p.

Lemma cs_str_forward inp pos s lb raw rest : skipn pos inp = lb ++ raw ++ rest ->
  wire_size reading (p_string_size_type p) (List.length raw) lb -> cs_decode raw = Some s ->
  cs_str p inp pos = Got s (pos + List.length lb + List.length raw).
Proof.
  intros E (k & K & N) C; unfold cs_str; rewrite cs_prim_num, K.
  rewrite (proj2 (read_num_got k inp pos (VInt (Z.of_nat (List.length raw))) (pos + List.length lb))) by eauto.
  unfold cs_decode in C; destruct (Z.ltb_spec (Z.of_nat (List.length raw)) (2 ^ 31)) as [L|L]; [|discriminate].
  injection C as <-.
  rewrite to_signed_small by lia.
  destruct (Z.ltb_spec (Z.of_nat (List.length raw)) 0); [lia|].
  rewrite (at_next _ _ _ _ E).
  destruct (Z.leb_spec (Z.of_nat (List.length raw)) (Z.of_nat (List.length (raw ++ rest)))) as [L2|L2].
  - rewrite Nat2Z.id, firstn_app_exact; reflexivity.
  - rewrite app_length in L2; lia.
Qed.

Lemma cs_str_crash inp pos : cs_str p inp pos <> Crash.
Proof.
  unfold cs_str; rewrite cs_prim_num; destruct (string_size_num p W) as (k & K & NB); rewrite K.
  destruct (read_num_cases k inp pos) as [[v E]|E]; rewrite E; [|discriminate].
  apply read_num_got in E as (lb & rest & _ & N & _); destruct (integral_vint _ _ _ _ NB N) as [z ->].
  destruct (_ <? 0); discriminate.
Qed.

Lemma cs_str_moves inp pos s q : cs_str p inp pos = Got s q -> (pos <= q)%nat.
Proof.
  unfold cs_str; rewrite cs_prim_num; destruct (string_size_num p W) as (k & K & NB); rewrite K.
  destruct (read_num_cases k inp pos) as [[v E]|E]; rewrite E; [|discriminate].
  destruct v; try discriminate; destruct (_ <? 0); [discriminate|]; intros [= _ <-]; lia.
Qed.

Lemma cs_str_at_end inp pos s q : (List.length inp <= pos)%nat -> cs_str p inp pos <> Got s q.
Proof.
  intro L; unfold cs_str; rewrite cs_prim_num; destruct (string_size_num p W) as (k & K & NB); rewrite K.
  unfold read_num, bytes_at; pose proof (num_size_pos k).
  destruct (Nat.leb_spec (pos + num_size k) (List.length inp)); [lia|discriminate].
Qed.

(** The same without the tolerance. *)
Definition cs_strict_str : protocol -> list byte -> nat -> got (list byte) :=
  fun p inp pos => sized_str (Miss pos) cs_decode p inp inp pos.

Lemma cs_str_short inp pos s q : ~ In (p_string_size_type p) ["uint64"; "int64"]%string ->
  cs_str p inp pos = Got s q -> cs_strict_str p inp pos = Got s q \/ (List.length inp <= q)%nat.
Proof.
  intro S64; unfold cs_str, cs_strict_str, sized_str; rewrite cs_prim_num.
  destruct (string_size_num p W) as (k & K & NB); rewrite K.
  destruct (read_num k inp pos) as [v q'| |] eqn:E; try discriminate.
  apply read_num_got in E as (lb & rest & E & N & ->); destruct (integral_vint _ _ _ _ NB N) as [z ->].
  assert (R : - 2 ^ 31 <= z < 2 ^ 32).
  { apply wire_num_vint in N; pose proof (wf_string_size p W) as I.
    revert S64 K N I; clear; generalize (p_string_size_type p); intros t S K N I; cbn in I.
    repeat (destruct I as [<-|I]; [injection K as <-; cbn in N, S; try lia; exfalso; apply S; tauto|]); destruct I. }
  assert (SG : (z < 0 \/ 2 ^ 31 <= z) /\ to_signed 4 (z mod 2 ^ 32) < 0 \/
               0 <= z < 2 ^ 31 /\ to_signed 4 (z mod 2 ^ 32) = z).
  { destruct (Z_lt_le_dec z 0) as [Z0|Z0]; [|destruct (Z_lt_le_dec z (2 ^ 31)) as [Z1|Z1]].
    - left; split; [now left|].
      rewrite <- (Z_mod_plus_full z 1), Z.mod_small by lia; unfold to_signed.
      change (2 ^ (8 * Z.of_nat 4 - 1)) with (2 ^ 31); destruct (Z.ltb_spec (z + 1 * 2 ^ 32) (2 ^ 31)); [lia|].
      change (2 ^ (8 * Z.of_nat 4)) with (2 ^ 32); lia.
    - right; split; [lia|apply to_signed_small; lia].
    - left; split; [now right|].
      rewrite Z.mod_small by lia; unfold to_signed.
      change (2 ^ (8 * Z.of_nat 4 - 1)) with (2 ^ 31); destruct (Z.ltb_spec z (2 ^ 31)); [lia|].
      change (2 ^ (8 * Z.of_nat 4)) with (2 ^ 32); lia. }
  destruct SG as [[_ SG]|[ZR SG]].
  - destruct (Z.ltb_spec (to_signed 4 (z mod 2 ^ 32)) 0); [discriminate|lia].
  - rewrite SG; destruct (Z.ltb_spec z 0); [lia|].
    pose proof (at_next _ _ _ _ E) as E'; rewrite E'.
    assert (LI : List.length inp = (pos + List.length lb + List.length rest)%nat).
    { assert (LB : lb <> []).
      { intros ->; apply num_val_spec in N as [N _]; pose proof (num_size_pos k); cbn in N; lia. }
      pose proof (f_equal (@List.length byte) E) as X; rewrite skipn_length, app_length in X.
      pose proof (at_length _ _ _ _ E LB); lia. }
    destruct (Z.leb_spec z (Z.of_nat (List.length rest))) as [L|L]; intros [= <- <-].
    + left; destruct (Z.leb_spec (Z.of_nat (pos + List.length lb) + z) (Z.of_nat (List.length inp))) as [L2|L2]; [|lia].
      assert (LF : List.length (firstn (Z.to_nat z) rest) = Z.to_nat z) by (rewrite firstn_length; lia).
      unfold cs_decode; rewrite LF.
      destruct (Z.ltb_spec (Z.of_nat (Z.to_nat z)) (2 ^ 31)); [reflexivity|lia].
    + right; lia.
Qed.

(** ** Reading *)

Lemma cs_member inp call fuel t s m :
  call_ok cs_rt p inp call cs_len fuel -> declares p t s -> In m (s_members s) ->
  member_ok cs_rt p inp call cs_len fuel m (cs_read p (cs_level ns s) m).
Proof.
  intros C D I; pose proof (wf_member_types p W t s m D I) as T.
  unfold cs_read; destruct (v_list m) eqn:L.
  - destruct (list_size_num p W) as (k & K & NB); rewrite cs_prim_num, K; cbn [with_prim].
    apply member_push; auto; [intro z; exact Logic.I|].
    destruct (lookup (v_type m) (p_enums p)) as [e|] eqn:E.
    + destruct (enum_encoding_num p W _ e (lookup_In _ _ _ E)) as (ke & KE & _).
      rewrite cs_prim_num, KE; cbn [with_prim].
      apply body_push_enum with (e := e); auto using lookup_In.
    + rewrite cs_read_one_code by assumption; now apply body_push.
  - rewrite cs_read_one_code by assumption; now apply member_one.
Qed.

Hypothesis SIZES : cs_compiles p = true.

Lemma cs_trap inp pos : cs_str p inp pos = Crash -> false = true.
Proof. intro H; now apply cs_str_crash in H. Qed.
Lemma cs_lent t z : (exists k, num_of (p_list_size_type p) = Some k /\ num_min k <= z <= num_max k) ->
  cs_len t z = Crash -> false = true.
Proof. discriminate. Qed.
Lemma cs_agrees inp fuel : call_ok cs_rt p inp (run cs_rt p (cs_reader ns) inp fuel) cs_len fuel.
Proof.
  apply (run_agrees _ p inp (cs_reader ns) (fun s => cs_read p (cs_level ns s)) cs_len W).
  - reflexivity.
  - intros t s D; now apply cs_init_names.
  - apply cs_member.
Qed.

Lemma cs_reads : reads_wire p (texted cs_decode) (cs_from_bytes ns p).
Proof.
  intros t s v0 v bs inp pos rest D WI TX E; unfold cs_from_bytes; rewrite SIZES.
  exact (good_reads cs_rt p (cs_reader ns) cs_len cs_decode false W cs_agrees cs_trap cs_lent (declared_kept p) (fun t z _ => ex_intro _ tt (ex_intro _ 0%nat eq_refl)) cs_str_forward
    t s v0 v bs inp pos rest D WI TX E).
Qed.

Lemma cs_answers : always_answers p false (cs_from_bytes ns p).
Proof.
  intros t s inp pos D; unfold cs_from_bytes; rewrite SIZES.
  exact (good_answers cs_rt p (cs_reader ns) cs_len false W cs_agrees cs_trap cs_lent t s inp pos D).
Qed.

Lemma cs_moves : moves p (cs_from_bytes ns p).
Proof.
  intros t s inp pos v q D; unfold cs_from_bytes; rewrite SIZES.
  exact (good_moves cs_rt p (cs_reader ns) cs_len false W cs_agrees cs_trap cs_lent cs_str_moves t s inp pos v q D).
Qed.

Lemma cs_text : returns_text p (cs_from_bytes ns p).
Proof.
  intros t s inp pos v q D; unfold cs_from_bytes; rewrite SIZES.
  refine (good_text cs_rt p (cs_reader ns) cs_len false W cs_agrees cs_trap cs_lent _ t s inp pos v q D).
  clear; intros inp pos s q; cbn [rt_str cs_rt]; unfold cs_str.
  destruct (cs_prim (p_string_size_type p)) as [k|]; [|discriminate].
  destruct (read_num k inp pos) as [[z| | | | |] q'| |]; try discriminate.
  cbv zeta; destruct (_ <? 0); [discriminate|]; intros [= <- _]; apply utf8_lossy_utf8.
Qed.

Lemma cs_enums : only_declared_enums p (cs_from_bytes ns p).
Proof.
  intros t s inp pos v q D; unfold cs_from_bytes; rewrite SIZES.
  exact (good_enums cs_rt p (cs_reader ns) cs_len false W cs_agrees cs_trap cs_lent (declared_only p) t s inp pos v q D).
Qed.

Section Strict.
Hypothesis LAST : no_string_last p.
Hypothesis S64 : ~ In (p_string_size_type p) ["uint64"; "int64"]%string.
Hypothesis UNSIGNED : unsigned_type (p_list_size_type p).

Lemma cs_only : only_wire p cs_decode (cs_from_bytes ns p).
Proof.
  intros t s inp pos v q D; unfold cs_from_bytes; rewrite SIZES.
  assert (LEN : len_ok cs_len p).
  { intros t' z Z0 (k & K & R); exfalso; rewrite (unsigned_min _ _ UNSIGNED K) in R; lia. }
  refine (good_only_short cs_rt p (cs_reader ns) cs_len false W cs_agrees cs_trap cs_lent cs_strict_str cs_decode LAST (declared_only p) LEN (fun i o s' r => cs_str_short i o s' r S64) cs_str_at_end _
    t s inp pos v q D).
  intros i o s' q'; unfold cs_strict_str; apply sized_str_back; discriminate.
Qed.

Lemma cs_truncated : rejects_truncated p false (cs_from_bytes ns p).
Proof. eapply only_wire_truncated; [exact W|apply cs_only|apply cs_answers]. Qed.
End Strict.

Lemma cs_txt s : short_text s -> cs_decode s = Some s.
Proof.
  intros [U L]; unfold cs_decode, short_bytes in *; destruct (Z.ltb_spec (Z.of_nat (List.length s)) (2 ^ 31)); [|lia].
  now rewrite utf8_lossy_id.
Qed.
Lemma cs_any s : short_bytes s -> exists s', cs_decode s = Some s'.
Proof.
  intros L; unfold cs_decode, short_bytes in *; destruct (Z.ltb_spec (Z.of_nat (List.length s)) (2 ^ 31)); [|lia]; eauto.
Qed.

Lemma cs_reads_back : reads_back p (strings short_text) (cs_from_bytes ns p).
Proof. eapply reads_back_text; [exact cs_txt|apply cs_reads]. Qed.

(** ** Writing *)

Lemma cs_writes t s v bs : declares p t s -> wire p t v bs -> writes cs_wt (cs_write_bytes p t v) bs.
Proof.
  intros D WI; unfold cs_write_bytes; rewrite SIZES.
  eapply write_ok with (mcode := fun _ => cs_write p); eauto.
  intros call fuel t' s' m C D' I F; pose proof (wf_member_types p W t' s' m D' I) as T.
  unfold cs_write; destruct (v_list m) eqn:L.
  - destruct (list_size_num p W) as (k & K & NB); rewrite cs_typed_num, K; cbn [with_prim].
    rewrite cs_write_one_code by assumption.
    eapply member_writes_each; eauto.
  - rewrite cs_write_one_code by assumption; eapply member_writes_one; eauto.
Qed.

Lemma cs_writer_appends : writer_does appends p (cs_write_bytes p).
Proof. intros t s v bs D WI; apply (writes_appends cs_wt); [reflexivity|eapply cs_writes; eassumption]. Qed.

Lemma cs_tagged_appends : tagged_writer_does appends p (cs_write_tagged p).
Proof.
  intros [t v] bs WT; apply (writes_appends cs_wt); [reflexivity|].
  apply (write_tagged_ok cs_wt p (cs_write_bytes p) W cs_writes (t, v) bs WT).
Qed.

(** ** Streams *)

Lemma cs_streams : streams (cs_stream ns) p (cs_process ns p).
Proof.
  constructor; [exact W|intros inp pos L; now apply Nat.leb_gt|apply byte_tag_ok| | |].
  - intros inp pos L; left; now apply Nat.leb_le.
  - intros b t _; apply case_numbered.
  - intros max inp pos; unfold cs_process; now rewrite SIZES.
Qed.

Lemma cs_reads_streams : reads_streams p (strings short_text) (cs_process ns p).
Proof. exact (streams_read _ _ _ cs_streams _ (strings short_text) (text_kept p _ _ cs_txt) cs_reads). Qed.
Lemma cs_stops_at_max : stops_at_max p (strings short_text) (cs_process ns p).
Proof. exact (streams_max _ _ _ cs_streams _ (strings short_text) (text_kept p _ _ cs_txt) cs_reads). Qed.
Lemma cs_rejects_unknown : rejects_unknown p (strings short_bytes) (cs_process ns p).
Proof. exact (streams_unknown _ _ _ cs_streams _ (strings short_bytes) (text_some p _ _ cs_any) cs_reads eq_refl). Qed.
Lemma cs_stream_answers : stream_answers false (cs_process ns p).
Proof. exact (streams_answer_moves _ _ _ cs_streams false cs_moves cs_answers). Qed.

(** ** Packed buffers *)

Lemma cs_packs : packer_does appends p (cs_pack p).
Proof.
  intros ms bs H; apply (writes_appends cs_wt); [reflexivity|].
  exact (pack_ok cs_wt p (cs_write_bytes p) W cs_writes ms bs H).
Qed.

Lemma cs_up : counts (cs_stream ns) p (2 ^ 31 - 1) false (cs_unpack ns p).
Proof.
  apply counts_in_place; intros inp pos nb rest n E N; unfold cs_unpack; rewrite SIZES, E; cbn [firstn header List.app List.length].
  change (utf8_lossy [x42; x53; x43; x49]) with header.
  destruct (list_eq_dec Byte.byte_eq_dec header header); [|congruence].
  rewrite (read_count inp pos nb rest n E N).
  destruct (Z.eqb_spec n 0) as [->|NZ].
  - left; exists 0; split; [reflexivity|auto].
  - destruct (Z.ltb_spec n (2 ^ 31)).
    + left; exists n; split; [reflexivity|auto].
    + right; split; [lia|now left].
Qed.

Lemma cs_bad_header : rejects_bad_header false (cs_unpack ns p).
Proof.
  intros inp pos NH; left; unfold cs_unpack; rewrite SIZES.
  destruct (list_eq_dec Byte.byte_eq_dec _ header) as [E|]; [|reflexivity].
  exfalso; apply header_lossy in E.
  apply (NH (skipn 4 (skipn pos inp))); rewrite <- E; symmetry; apply firstn_skipn.
Qed.

Lemma cs_bad_count : rejects_bad_count false (cs_unpack ns p).
Proof.
  intros inp pos c E L; left; unfold cs_unpack; rewrite SIZES, E; cbn [firstn header List.app List.length].
  destruct (list_eq_dec Byte.byte_eq_dec _ header); [|reflexivity].
  destruct (read_count_short inp pos c E L) as [q ->]; reflexivity.
Qed.

Lemma cs_unpacking : unpacking (cs_stream ns) p (2 ^ 31 - 1) false (cs_unpack ns p).
Proof. constructor; [apply cs_up|apply cs_bad_header|apply cs_bad_count]. Qed.

Lemma cs_unpacks : unpacks p (strings short_text) (2 ^ 31 - 1) (cs_unpack ns p).
Proof. exact (unpacking_reads _ _ _ cs_streams _ false _ _ (strings short_text) cs_up (text_kept p _ _ cs_txt) cs_reads). Qed.
Lemma cs_missing : rejects_missing_for p (strings short_bytes) false (cs_unpack ns p).
Proof. exact (unpacking_missing_reads _ _ _ cs_streams _ false _ _ (strings short_bytes) cs_up (text_some p _ _ cs_any) cs_reads). Qed.
Lemma cs_unpack_answers : unpack_answers false (cs_unpack ns p).
Proof. exact (unpacking_answers_moves _ _ _ cs_streams _ _ _ cs_unpacking cs_answers cs_moves). Qed.

Section StrictStreams.
Hypothesis LAST : no_string_last p.
Hypothesis S64 : ~ In (p_string_size_type p) ["uint64"; "int64"]%string.
Hypothesis UNSIGNED : unsigned_type (p_list_size_type p).
Let ONLY := cs_only LAST S64 UNSIGNED.

Lemma cs_rejects_cut : rejects_cut_streams p (strings short_bytes) false (cs_process ns p).
Proof. exact (streams_cut _ _ _ cs_streams false _ (strings short_bytes) (text_some p _ _ cs_any) cs_reads eq_refl (cs_truncated LAST S64 UNSIGNED)). Qed.
Lemma cs_only_streams : only_streams p cs_decode (cs_process ns p).
Proof. exact (streams_only _ _ _ _ cs_streams ONLY eq_refl). Qed.
Lemma cs_only_packed : only_packed p cs_decode (cs_unpack ns p).
Proof. exact (unpacking_only _ _ _ cs_streams _ _ _ cs_unpacking _ ONLY eq_refl). Qed.
End StrictStreams.

(** ** Size *)

Lemma cs_no_loops lvl t i : ~ loop_at cs_style p lvl t i.
Proof. intro H; induction H; try contradiction; discriminate. Qed.

Lemma wrap_small z : 0 <= z < 2 ^ 31 -> wrap_int z = Some z.
Proof. intro R; unfold wrap_int; now rewrite to_signed_small. Qed.

Lemma cs_size_ok t s v bs : declares p t s -> wire p t v bs -> strings ascii_text v ->
  Z.of_nat (List.length bs) < 2 ^ 31 -> cs_size ns p t v = MRet (Z.of_nat (List.length bs)).
Proof.
  intros D WI A L; unfold cs_size; rewrite SIZES.
  assert (E : size_with cs_style p (if ns then 3 else 2) t v = MRet (Z.of_nat (List.length bs))).
  { eapply size_ok_gen; eauto.
    - intros lvl t' s' m i _ _ _ _; apply cs_no_loops.
    - intros _; clear - A; induction A; constructor; auto using ascii_utf16. }
  rewrite E; cbn [returning]; rewrite wrap_small by lia; reflexivity.
Qed.

Lemma cs_exact_size : exact_size_for p (strings ascii_text) (2 ^ 31) (cs_size ns p).
Proof. intros t s v bs D WI; eapply cs_size_ok; eassumption. Qed.

Lemma cs_exact_packed_size : exact_packed_size_for p (strings ascii_text) (2 ^ 31) (cs_packed_size ns p).
Proof.
  intros ms bs H A L; unfold cs_packed_size.
  rewrite (packed_size_ok p (cs_size ns p) ms bs W); [cbn [returning]; rewrite wrap_small by lia; reflexivity| |exact H].
  intros t s v b D WI I.
  eapply cs_size_ok; [eassumption..| |]; [unfold all_values in A; rewrite Forall_forall in A; exact (A _ I)|].
  pose proof (wire_packed_length p ms bs t v b W H WI I); lia.
Qed.
End CS.

(** ** Fresh objects *)

Lemma cs_fresh p t s : WF p -> declares p t s -> fresh p t (VStruct (cs_init p (depth_of p) t)).
Proof.
  intros W D.
  pose (def := fun d m =>
         if v_list m then VList []
         else if String.eqb (v_type m) "string" then VStr []
         else match lookup (v_type m) (p_enums p) with
         | Some e => match get_default_pair e with Some (_, z) => VInt z | None => VUndef end
         | None => if mem (v_type m) (p_structs p) then VStruct (cs_init p d (v_type m))
                   else match cs_typed (v_type m) with Some NBool => VBool false | Some _ => VInt 0 | None => VUndef end
         end).
  apply (init_fresh p W (cs_init p) def) with (s := s); [| |exact D|now apply WF_fits_any].
  - intros d t' s' D'; cbn [cs_init]; rewrite (find_declares p W t' s' D'); reflexivity.
  - intros d t' s' m D' I; unfold def; destruct (v_list m); [reflexivity|].
    destruct (type_cases p (v_type m) W (wf_member_types p W t' s' m D' I)) as [k K M S E L| E1 E L|e k K M S IE E KE _|s'' K M S E L].
    + rewrite S, E; unfold mem; rewrite L, cs_typed_num, K.
      change (match k with NBool => VBool false | _ => VInt 0 end) with (zero_of k); now apply default_num.
    + rewrite E1 in *; cbn; now apply default_str.
    + rewrite S, E; unfold get_default_pair.
      destruct (wf_enum_values p W _ e IE) as [NE _].
      destruct (e_values e) as [|[n z] r] eqn:EV; [now contradiction NE|]; cbn [hd_error].
      eapply default_enum; eassumption.
    + rewrite S, E; unfold mem; rewrite L; eapply default_struct; eassumption.
Qed.
