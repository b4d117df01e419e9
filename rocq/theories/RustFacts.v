(** Generated Rust: agreement with the reference reader and the format. *)
From Verif Require Export Rust RenameFacts TextFacts LangFacts StreamFacts CutFacts LocalsFacts.
Open Scope Z_scope.
Open Scope list_scope.

(** There is no method for bool. *)
Lemma rs_prim_num t k : num_of t = Some k -> k <> NBool -> rs_prim t = Some k.
Proof.
  intros K NB; apply num_of_in in K as I; cbn in I.
  repeat (destruct I as [<-|I]; [injection K as <-; try reflexivity; congruence|]); destruct I.
Qed.

Lemma rs_read_num_code n t k : num_of t = Some k -> rs_read_num n t = [RNum (DLocal n) k].
Proof.
  intro K; unfold rs_read_num.
  destruct (String.eqb_spec t "byte") as [->|N1]; [injection K as <-; reflexivity|].
  destruct (String.eqb_spec t "bool") as [->|N2]; [injection K as <-; reflexivity|].
  rewrite (rs_prim_num t k K); [reflexivity|].
  intros ->; apply N2; apply num_of_in in K as I; cbn in I.
  repeat (destruct I as [<-|I]; [try discriminate K; reflexivity|]); destruct I.
Qed.
Lemma rs_write_num_code s t k : num_of t = Some k -> rs_write_num s t = [WNum k s].
Proof.
  intro K; unfold rs_write_num.
  destruct (String.eqb_spec t "byte") as [->|N1]; [injection K as <-; reflexivity|].
  destruct (String.eqb_spec t "bool") as [->|N2]; [injection K as <-; reflexivity|].
  rewrite (rs_prim_num t k K); [reflexivity|].
  intros ->; apply N2; apply num_of_in in K as I; cbn in I.
  repeat (destruct I as [<-|I]; [try discriminate K; reflexivity|]); destruct I.
Qed.

Lemma rs_read_one_code p x t : WF p -> declared_type p t -> rs_read_one p x t = local_code p x t.
Proof.
  intros W T; unfold rs_read_one, local_code; destruct (type_cases p t W T) as [k K M S E _| -> E _|e k K M S _ E KE NB|s K M S E _].
  - now rewrite M, K, (rs_read_num_code _ _ _ K).
  - reflexivity.
  - now rewrite M, S, E, K, (rs_prim_num _ _ KE NB), KE.
  - now rewrite M, S, E, K.
Qed.

Lemma rs_write_one_code p s t : WF p -> declared_type p t -> rs_write_one p s t = wone p s t.
Proof.
  intros W T; unfold rs_write_one, wone, enum_num; destruct (type_cases p t W T) as [k K M S E _| -> E _|e k K M S _ E KE NB|s' K M S E _].
  - now rewrite M, K, (rs_write_num_code _ _ _ K).
  - reflexivity.
  - rewrite M, S, E, K, KE, (rs_prim_num _ _ KE NB).
    destruct (String.eqb_spec (e_encoding e) "byte") as [B|B]; [|reflexivity].
    rewrite B in KE; injection KE as <-; reflexivity.
  - now rewrite M, S, E, K.
Qed.

(** ** Strings *)

Lemma rs_txt s : utf8 s -> rs_decode s = Some s.
Proof. intro U; unfold rs_decode; now rewrite (proj2 (utf8_valid_spec s) U). Qed.
Lemma rs_any s : utf8 s -> exists s', rs_decode s = Some s'.
Proof. eauto using rs_txt. Qed.

Definition rs_len (t : string) (z : Z) : got unit := Got tt 0.

Section Str.
Variable p : protocol.
Hypothesis W : WF p.

Lemma rs_string_prim : exists k, num_of (p_string_size_type p) = Some k /\ k <> NBool /\ rs_prim (p_string_size_type p) = Some k.
Proof.
  destruct (string_size_num p W) as (k & K & NB); exists k; split; [exact K|]; split; [exact NB|now apply rs_prim_num].
Qed.

Lemma rs_str_sized inp pos s q :
  rs_str p inp pos = Got s q <-> sized_str Crash rs_decode p inp inp pos = Got s q.
Proof.
  unfold rs_str, sized_str; destruct rs_string_prim as (k & K & NB & ->); rewrite K.
  destruct (read_num k inp pos) as [v q'| |]; try reflexivity.
  destruct v as [z| | | | |]; try reflexivity.
  destruct (z <? 0); [destruct (0 <=? _); split; discriminate|].
  destruct (_ <=? _); [reflexivity|].
  destruct ((_ <=? _) && (_ <=? _)); [split; discriminate|reflexivity].
Qed.

Lemma rs_str_forward inp pos s lb raw rest : skipn pos inp = lb ++ raw ++ rest ->
  wire_size reading (p_string_size_type p) (List.length raw) lb -> rs_decode raw = Some s ->
  rs_str p inp pos = Got s (pos + List.length lb + List.length raw).
Proof.
  intros E L C; apply rs_str_sized.
  rewrite <- (app_nil_r inp) at 1; eapply sized_str_forward; eassumption.
Qed.

Lemma rs_str_back inp pos s q : rs_str p inp pos = Got s q ->
  exists lb raw rest, skipn pos inp = lb ++ raw ++ rest /\
    wire_size reading (p_string_size_type p) (List.length raw) lb /\
    q = (pos + List.length lb + List.length raw)%nat /\ rs_decode raw = Some s.
Proof. intro H; apply rs_str_sized, sized_str_back in H; [exact H|discriminate]. Qed.

Lemma rs_str_within inp pos s q : rs_str p inp pos = Got s q -> (q <= List.length inp)%nat.
Proof. intro H; apply rs_str_sized in H; eapply sized_str_within; [|exact H]; discriminate. Qed.

Lemma rs_str_moves inp pos s q : rs_str p inp pos = Got s q -> (pos <= q)%nat.
Proof. intro H; apply rs_str_back in H as (lb & raw & rest & _ & _ & -> & _); lia. Qed.

Lemma rs_str_small inp pos : small_unsigned (p_string_size_type p) -> rs_str p inp pos <> Crash.
Proof.
  intro U; unfold rs_str; destruct rs_string_prim as (k & K & NB & ->).
  destruct (read_num_cases k inp pos) as [[v E]|E]; rewrite E; [|discriminate].
  apply read_num_got in E as (lb & rest & _ & N & _); destruct (integral_vint _ _ _ _ NB N) as [z ->].
  apply wire_num_vint in N.
  assert (R : 0 <= z < 2 ^ 32).
  { revert U K N; clear; generalize (p_string_size_type p); intros t U K N.
    repeat (destruct U as [<-|U]; [injection K as <-; cbn in N; lia|]); destruct U. }
  destruct (Z.ltb_spec z 0); [lia|].
  destruct (_ <=? _); [destruct (rs_decode _); discriminate|].
  destruct (Z.leb_spec (2 ^ 32) z); [lia|discriminate].
Qed.

Lemma rs_str_cut inp pos lb raw : ~ In (p_string_size_type p) ["uint64"; "int64"]%string ->
  wire_size reading (p_string_size_type p) (List.length raw) lb -> along inp pos (lb ++ raw) ->
  rs_str p inp pos <> Crash /\
  forall s q, rs_str p inp pos = Got s q -> q = (pos + List.length (lb ++ raw))%nat.
Proof.
  intros S64 (k & K & N) A; unfold rs_str; destruct rs_string_prim as (k' & K' & NB & ->).
  rewrite K in K'; injection K' as <-.
  destruct (read_num_cases k inp pos) as [[v E]|E]; rewrite E; [|split; discriminate].
  apply (along_read _ _ _ _ _ _ _ (along_left _ _ _ _ A) N) in E as (-> & -> & _).
  assert (R : Z.of_nat (List.length raw) < 2 ^ 32).
  { apply wire_num_vint in N; pose proof (wf_string_size p W) as I.
    revert S64 K N I; clear; generalize (p_string_size_type p); intros t S K N I; cbn in I.
    repeat (destruct I as [<-|I]; [injection K as <-; cbn in N, S; try lia; exfalso; apply S; tauto|]); destruct I. }
  destruct (Z.ltb_spec (Z.of_nat (List.length raw)) 0); [lia|].
  destruct (_ <=? _).
  - destruct (rs_decode _); split; try discriminate.
    intros s' q [= _ <-]; rewrite Nat2Z.id, app_length; lia.
  - destruct (Z.leb_spec (2 ^ 32) (Z.of_nat (List.length raw))); [lia|]; split; discriminate.
Qed.
End Str.

(** ** Reading *)

Definition rs_target (s : struct) (m : var) : string := v_name m.
Definition rs_touched (s : struct) (m : var) : list string :=
  if v_list m then [v_name m; (v_name m +++ "_len")%string; "_"%string; "_el"%string] else [v_name m].

Lemma suffix_neq n x r : (n +++ String x r)%string <> n.
Proof.
  intro E; apply (f_equal String.length) in E; revert E; induction n as [|c n IH]; cbn; [discriminate|].
  intro E; injection E as E; auto.
Qed.
Lemma under_neq u n : starts_underscore n = false -> ("_" +++ u)%string <> n.
Proof. intros S <-; discriminate S. Qed.

Section RS.
Variable p : protocol.
Hypothesis W : WF p.
Hypothesis LENGTHS : no_length_first "_len" p.
Hypothesis COMPILES : rs_compiles p = true.

Lemma rs_apart t s : declares p t s -> apart (rs_target s) (rs_touched s) (s_members s).
Proof.
  intro D.
  assert (H : forall post pre, s_members s = pre ++ post -> apart (rs_target s) (rs_touched s) post).
  { induction post as [|m post IH]; intros pre E; [exact Logic.I|split].
    - intros m' I T; unfold rs_target, rs_touched in T.
      assert (ND : ~ In (v_name m) (map v_name post)).
      { pose proof (wf_member_nodup p W t s D) as ND; rewrite E, map_app in ND.
        apply NoDup_remove_2 in ND; intro H; apply ND, in_or_app; now right. }
      assert (NN : v_name m' <> v_name m) by (intro Q; apply ND; rewrite <- Q; now apply in_map).
      assert (U : starts_underscore (v_name m) = false).
      { apply (wf_member_names p W t s m D); rewrite E; apply in_or_app; right; now left. }
      destruct (v_list m') eqn:L.
      + destruct T as [T|[T|[T|[T|[]]]]].
        * congruence.
        * apply in_split in I as (a & b & ->).
          apply (LENGTHS t s (pre ++ m :: a) m' b D); [rewrite E, <- app_assoc; reflexivity|exact L|].
          rewrite T, map_app; apply in_or_app; right; now left.
        * revert T; now apply (under_neq "").
        * revert T; now apply (under_neq "el").
      + destruct T as [T|[]]; congruence.
    - apply (IH (pre ++ [m])); now rewrite <- app_assoc. }
  now apply (H _ []).
Qed.

Lemma rs_member inp call fuel t s m :
  call_ok rs_rt p inp call rs_len fuel -> declares p t s -> In m (s_members s) ->
  member_local rs_rt p inp call rs_len fuel m (rs_target s m) (rs_touched s m) (rs_read p m).
Proof.
  intros C D I; pose proof (wf_member_types p W t s m D I) as T.
  destruct (wf_member_names p W t s m D I) as [_ U].
  unfold rs_read, rs_target, rs_touched; destruct (v_list m) eqn:L.
  - destruct (list_size_num p W) as (k & K & NB); rewrite (rs_prim_num _ _ K NB); cbn [with_prim].
    rewrite rs_read_one_code by assumption.
    apply member_local_push; auto.
    + intro z; exact Logic.I.
    + apply suffix_neq.
    + now apply (under_neq "").
    + now apply (under_neq "el").
  - rewrite rs_read_one_code by assumption; now apply member_local_one.
Qed.

Lemma rs_agrees inp fuel : call_ok rs_rt p inp (run rs_rt p rs_reader inp fuel) rs_len fuel.
Proof.
  apply (run_locals rs_rt p inp rs_reader rs_len W (fun _ => rs_read p) rs_target rs_touched).
  - exact rs_apart.
  - reflexivity.
  - intros; now apply rs_member with (t := t).
Qed.

Lemma rs_lent trap t z : (exists k, num_of (p_list_size_type p) = Some k /\ num_min k <= z <= num_max k) ->
  rs_len t z = Crash -> trap = true.
Proof. discriminate. Qed.
Lemma rs_len_got t z : 0 <= z -> exists a b, rs_len t z = Got a b.
Proof. unfold rs_len; eauto. Qed.

Lemma rs_from p' t inp pos : p' = p -> rs_from_bytes p' t inp pos = read_with rs_rt rs_reader p t inp pos.
Proof. intros ->; unfold rs_from_bytes; now rewrite COMPILES. Qed.

Lemma rs_reads : reads_wire p (texted rs_decode) (rs_from_bytes p).
Proof.
  intros t s v0 v bs inp pos rest; rewrite rs_from by reflexivity.
  exact (good_reads rs_rt p rs_reader rs_len rs_decode true W rs_agrees (fun _ _ _ => eq_refl) (rs_lent true)
    (declared_kept p) rs_len_got (rs_str_forward p W) t s v0 v bs inp pos rest).
Qed.

Lemma rs_reads_back : reads_back p (strings utf8) (rs_from_bytes p).
Proof. eapply reads_back_text; [exact rs_txt|exact rs_reads]. Qed.

Lemma rs_moves : moves p (rs_from_bytes p).
Proof.
  intros t s inp pos v q; rewrite rs_from by reflexivity.
  exact (good_moves rs_rt p rs_reader rs_len true W rs_agrees (fun _ _ _ => eq_refl) (rs_lent true) (rs_str_moves p W) t s inp pos v q).
Qed.

Lemma rs_text : returns_text p (rs_from_bytes p).
Proof.
  intros t s inp pos v q; rewrite rs_from by reflexivity.
  refine (good_text rs_rt p rs_reader rs_len true W rs_agrees (fun _ _ _ => eq_refl) (rs_lent true) _ t s inp pos v q).
  clear - W; intros inp pos s q H; apply (rs_str_back p W) in H as (lb & raw & rest & _ & _ & _ & H).
  unfold rs_decode in H; destruct (utf8_valid raw) eqn:V; [|discriminate]; injection H as <-; now apply utf8_valid_spec.
Qed.

Lemma rs_enums : only_declared_enums p (rs_from_bytes p).
Proof.
  intros t s inp pos v q; rewrite rs_from by reflexivity.
  exact (good_enums rs_rt p rs_reader rs_len true W rs_agrees (fun _ _ _ => eq_refl) (rs_lent true) (declared_only p) t s inp pos v q).
Qed.

Lemma rs_truncated : ~ In (p_string_size_type p) ["uint64"; "int64"]%string ->
  rejects_truncated p false (rs_from_bytes p).
Proof.
  intros S64 t s v bs before cut x rest; rewrite rs_from by reflexivity.
  exact (good_cut rs_rt p rs_reader rs_len true false W rs_agrees (fun _ _ _ => eq_refl) (rs_lent true) (fun t z R => or_introl (rs_len_got t z R))
    (fun inp pos lb raw L A => no_crash _ _ (rs_str_cut p W inp pos lb raw S64 L A)) (rs_str_within p W) t s v bs before cut x rest).
Qed.

Section Unsigned.
Hypothesis UL : unsigned_type (p_list_size_type p).
Lemma rs_len_ok : len_ok rs_len p.
Proof.
  intros t z Z0 (k & K & R); rewrite (unsigned_min _ _ UL K) in R; lia.
Qed.
Lemma rs_only : only_wire p rs_decode (rs_from_bytes p).
Proof.
  intros t s inp pos v q; rewrite rs_from by reflexivity.
  exact (good_only rs_rt p rs_reader rs_len rs_decode true W rs_agrees (fun _ _ _ => eq_refl) (rs_lent true) (declared_only p) rs_len_ok
    (rs_str_back p W) t s inp pos v q).
Qed.
End Unsigned.

Lemma rs_answers : small_unsigned (p_string_size_type p) -> always_answers p false (rs_from_bytes p).
Proof.
  intros US t s inp pos; rewrite rs_from by reflexivity.
  refine (good_answers rs_rt p rs_reader rs_len false W rs_agrees _ (rs_lent false) t s inp pos).
  intros i o H; now apply rs_str_small in H.
Qed.
Lemma rs_answers_trap : always_answers p true (rs_from_bytes p).
Proof.
  intros t s inp pos; rewrite rs_from by reflexivity.
  exact (good_answers rs_rt p rs_reader rs_len true W rs_agrees (fun _ _ _ => eq_refl) (rs_lent true) t s inp pos).
Qed.

(** ** Writing *)

Lemma rs_writes t s v bs : declares p t s -> wire p t v bs -> writes rs_wt (rs_write_bytes p t v) bs.
Proof.
  intros D WI; apply (writes_ext rs_wt _ (write_with rs_wt rs_writer p t v)).
  { intro w; unfold rs_write_bytes; now rewrite COMPILES. }
  eapply write_ok with (mcode := fun _ => rs_write p); eauto.
  intros call fuel t' s' m C D' I F; pose proof (wf_member_types p W t' s' m D' I) as T.
  unfold rs_write; destruct (v_list m) eqn:L.
  - destruct (list_size_num p W) as (k & K & NB); rewrite (rs_prim_num _ _ K NB); cbn [with_prim].
    rewrite rs_write_one_code by assumption.
    eapply member_writes_each; eauto.
  - rewrite rs_write_one_code by assumption; eapply member_writes_one; eauto.
Qed.

Lemma rs_writer_appends : writer_does appends p (rs_write_bytes p).
Proof. intros t s v bs D WI; apply (writes_appends rs_wt); [reflexivity|eapply rs_writes; eassumption]. Qed.

Lemma rs_tagged_appends : tagged_writer_does appends p (rs_write_tagged p).
Proof.
  intros [t v] bs WT; apply (writes_appends rs_wt); [reflexivity|].
  apply (write_tagged_ok rs_wt p (rs_write_bytes p) W rs_writes (t, v) bs WT).
Qed.

(** ** Streams *)

Lemma rs_streams : streams rs_stream p (rs_process p).
Proof.
  constructor; [exact W|intros inp pos L; now apply Nat.leb_gt|apply byte_tag_ok| | |].
  - intros inp pos L; left; now apply Nat.leb_le.
  - intros b t _; apply case_numbered.
  - intros max inp pos; unfold rs_process; now rewrite COMPILES.
Qed.

Lemma rs_reads_streams : reads_streams p (strings utf8) (rs_process p).
Proof. exact (streams_read _ _ _ rs_streams _ (strings utf8) (text_kept p _ _ rs_txt) rs_reads). Qed.
Lemma rs_stops_at_max : stops_at_max p (strings utf8) (rs_process p).
Proof. exact (streams_max _ _ _ rs_streams _ (strings utf8) (text_kept p _ _ rs_txt) rs_reads). Qed.
Lemma rs_rejects_unknown : rejects_unknown p (strings utf8) (rs_process p).
Proof. exact (streams_unknown _ _ _ rs_streams _ (strings utf8) (text_some p _ _ rs_any) rs_reads eq_refl). Qed.
Lemma rs_rejects_cut : ~ In (p_string_size_type p) ["uint64"; "int64"]%string ->
  rejects_cut_streams p (strings utf8) false (rs_process p).
Proof.
  intro S64; exact (streams_cut _ _ _ rs_streams false _ (strings utf8) (text_some p _ _ rs_any) rs_reads eq_refl (rs_truncated S64)).
Qed.
Lemma rs_only_streams : unsigned_type (p_list_size_type p) -> only_streams p rs_decode (rs_process p).
Proof. intro UL; exact (streams_only _ _ _ _ rs_streams (rs_only UL) eq_refl). Qed.
Lemma rs_stream_answers : small_unsigned (p_string_size_type p) -> stream_answers false (rs_process p).
Proof. intro US; exact (streams_answer_moves _ _ _ rs_streams false rs_moves (rs_answers US)). Qed.

(** ** Packed buffers *)

Lemma rs_packs : packer_does appends p (rs_pack p).
Proof.
  intros ms bs H; apply (writes_appends rs_wt); [reflexivity|].
  exact (pack_ok rs_wt p (rs_write_bytes p) W rs_writes ms bs H).
Qed.

Lemma rs_up trap : counts rs_stream p (2 ^ 31 - 1) trap (rs_unpack p).
Proof.
  apply counts_in_place; intros inp pos nb rest n E N; left; exists (to_signed 4 n).
  assert (LN : List.length nb = 4%nat) by (inversion N; subst; assumption).
  assert (R : 0 <= n) by (apply wire_num_vint in N; cbn in N; lia).
  split.
  - unfold rs_unpack; rewrite COMPILES, E, (proj2 (Nat.leb_le _ _)).
    2:{ apply f_equal with (f := @List.length byte) in E; rewrite skipn_length, !app_length in E; cbn in E; lia. }
    cbn [firstn header List.app].
    destruct (list_eq_dec Byte.byte_eq_dec _ _) as [_|NE]; [|contradiction NE; reflexivity].
    now rewrite (read_count inp pos nb rest n E N).
  - intro L; unfold to_signed; change (2 ^ (8 * Z.of_nat 4 - 1)) with (2 ^ 31); destruct (Z.ltb_spec n (2 ^ 31)); lia.
Qed.

Lemma rs_bad_header trap : rejects_bad_header trap (rs_unpack p).
Proof.
  intros inp pos NH; left; unfold rs_unpack; rewrite COMPILES.
  destruct (_ <=? _)%nat; [|reflexivity].
  destruct (list_eq_dec Byte.byte_eq_dec _ header) as [E|]; [|reflexivity].
  exfalso; apply (NH (skipn 4 (skipn pos inp))); rewrite <- E; symmetry; apply firstn_skipn.
Qed.

Lemma rs_bad_count trap : rejects_bad_count trap (rs_unpack p).
Proof.
  intros inp pos c E L; left; unfold rs_unpack; rewrite COMPILES, E.
  destruct (_ <=? _)%nat; [|reflexivity].
  destruct (list_eq_dec Byte.byte_eq_dec _ _); [|reflexivity].
  destruct (read_count_short _ pos c E L) as [q RC]; now rewrite RC.
Qed.

Lemma rs_unpacking trap : unpacking rs_stream p (2 ^ 31 - 1) trap (rs_unpack p).
Proof. constructor; [apply rs_up|apply rs_bad_header|apply rs_bad_count]. Qed.

Lemma rs_unpacks : unpacks p (strings utf8) (2 ^ 31 - 1) (rs_unpack p).
Proof. exact (unpacking_reads _ _ _ rs_streams _ false _ _ (strings utf8) (rs_up false) (text_kept p _ _ rs_txt) rs_reads). Qed.
Lemma rs_missing : rejects_missing_for p (strings utf8) false (rs_unpack p).
Proof. exact (unpacking_missing_reads _ _ _ rs_streams _ false _ _ (strings utf8) (rs_up false) (text_some p _ _ rs_any) rs_reads). Qed.
Lemma rs_only_packed : unsigned_type (p_list_size_type p) -> only_packed p rs_decode (rs_unpack p).
Proof. intro UL; exact (unpacking_only _ _ _ rs_streams _ _ _ (rs_unpacking false) _ (rs_only UL) eq_refl). Qed.
Lemma rs_unpack_answers : small_unsigned (p_string_size_type p) -> unpack_answers false (rs_unpack p).
Proof.
  intro US; exact (unpacking_answers_moves _ _ _ rs_streams _ _ _ (rs_unpacking false) (rs_answers US) rs_moves).
Qed.

(** ** Size *)

Lemma rs_no_loops lvl t i : ~ loop_at rs_style p lvl t i.
Proof. intro H; induction H; try contradiction; discriminate. Qed.

Lemma rs_exact_size : exact_size p (rs_size p).
Proof.
  intros t s v bs D WI; unfold rs_size; rewrite COMPILES.
  eapply size_ok_gen; eauto.
  - intros lvl t' s' m i _ _ _ _; apply rs_no_loops.
  - discriminate.
Qed.

Lemma rs_exact_packed_size : exact_packed_size p (rs_packed_size p).
Proof.
  intros ms bs H; unfold rs_packed_size.
  rewrite (packed_size_ok p (rs_size p) ms bs W); [reflexivity| |exact H].
  intros t s v b D WI I; eapply rs_exact_size; eassumption.
Qed.
End RS.

(** ** Protocols that work *)

Lemma rs_members_ok p before ms :
  (forall a m b, ms = a ++ m :: b -> rs_bad_list m = false /\ rs_bad_length p (before ++ a) m = false /\
                                     rs_bad_reader b m = false) ->
  rs_members_compile p before ms = true.
Proof.
  revert before; induction ms as [|m ms IH]; intros before H; [reflexivity|]; cbn [rs_members_compile].
  destruct (H [] m ms eq_refl) as (A & B & C); rewrite app_nil_r in B; rewrite A, B, C; cbn.
  apply IH; intros a m' b E; rewrite <- app_assoc; apply (H (m :: a)); now rewrite E.
Qed.

Lemma rs_compiles_ok p : rust_names p -> rs_compiles p = true.
Proof.
  intros (ND & LF & BL & NR); unfold rs_compiles; apply forallb_forall; intros [n s] I; cbn [snd].
  assert (D : declares p n s) by (apply in_app_iff in I; exact I).
  apply andb_true_iff; split.
  - apply negb_true_iff, has_dup_str_false, (ND n s D).
  - apply rs_members_ok; intros a m b E.
    assert (IM : In m (s_members s)) by (rewrite E; apply in_or_app; right; now left).
    repeat split.
    + unfold rs_bad_list; destruct (v_list m) eqn:L; [cbn|reflexivity].
      destruct (BL n s m D IM L) as [X Y]; apply String.eqb_neq in X, Y; now rewrite X, Y.
    + unfold rs_bad_length; destruct (v_list m) eqn:L; [cbn|reflexivity].
      apply not_true_iff_false; intro H; apply existsb_exists in H as (m' & I' & H).
      apply andb_true_iff in H as [H _]; apply String.eqb_eq in H.
      apply (LF n s a m b D E L); rewrite <- H; now apply in_map.
    + unfold rs_bad_reader; replace (String.eqb (v_name m) "reader") with false; [reflexivity|].
      symmetry; apply String.eqb_neq; intro H; apply (NR n s D); rewrite <- H; now apply in_map.
Qed.

Lemma rs_protocol_WF rename p : WF p -> names_apart (fun n => n) (rs_protocol rename p) -> WF (rs_protocol rename p).
Proof.
  intros W ND; destruct rename; [|exact W]; cbn in *; apply rename_WF; auto using snake_no_space, snake_underscore.
  intros n s D; specialize (ND n (rename_struct snake s)).
  cbn in ND; rewrite map_map in ND; apply ND, rename_declares; eauto.
Qed.

(** ** Fresh objects *)

Lemma rs_fresh p t s : WF p -> declares p t s -> fresh p t (VStruct (rs_default p (depth_of p) t)).
Proof.
  intros W D.
  pose (def := fun d m =>
         if v_list m then VList []
         else match lookup (v_type m) (rs_types ++ [("string", "String")]%string) with
         | Some n => match lookup n rs_defaults with Some v => v | None => VUndef end
         | None =>
             match lookup (v_type m) (p_enums p) with
             | Some e => match get_default_pair e with Some (_, z) => VInt z | None => VUndef end
             | None => VStruct (rs_default p d (v_type m))
             end
         end).
  apply (init_fresh p W (rs_default p) def) with (s := s); [| |exact D|now apply WF_fits_any].
  - intros d t' s' D'; cbn [rs_default]; rewrite (find_declares p W t' s' D'); reflexivity.
  - assert (NUM : forall t k, num_of t = Some k -> exists n, lookup t (rs_types ++ [("string", "String")]%string) = Some n /\
                    lookup n rs_defaults = Some (zero_of k)).
    { intros t' k K; apply num_of_in in K as I; cbn in I.
      repeat (destruct I as [<-|I]; [injection K as <-; eexists; split; reflexivity|]); destruct I. }
    assert (NONE : forall t, num_of t = None -> String.eqb t "string" = false ->
                     lookup t (rs_types ++ [("string", "String")]%string) = None).
    { intros t' K S; unfold num_of in K; unfold rs_types; cbn [lookup List.app] in *.
      repeat match goal with |- context [String.eqb t' ?x] => destruct (String.eqb t' x); [discriminate|] end.
      reflexivity. }
    intros d t' s' m D' I; unfold def; destruct (v_list m); [reflexivity|].
    destruct (type_cases p (v_type m) W (wf_member_types p W t' s' m D' I)) as [k K M S E L| E1 E L|e k K M S IE E KE _|s'' K M S E L].
    + destruct (NUM _ _ K) as (n & -> & ->); now apply default_num.
    + rewrite E1 in *; cbn; now apply default_str.
    + rewrite (NONE _ K S), E; unfold get_default_pair.
      destruct (wf_enum_values p W _ e IE) as [NE _].
      destruct (e_values e) as [|[n z] r] eqn:EV; [now contradiction NE|]; cbn [hd_error].
      eapply default_enum; eassumption.
    + rewrite (NONE _ K S), E; eapply default_struct; eassumption.
Qed.
