(** Generated TypeScript: agreement with the reference reader and the format. *)
From Verif Require Export TypeScript LangFacts StreamFacts.
Open Scope Z_scope.
Open Scope list_scope.

Lemma ts_prim_num : forall t, ts_prim t = num_of t.
Proof. unfold ts_prim, prim, ts_serializers; prim_tac. Qed.

Lemma ts_read_one_code p d x t : WF p -> declared_type p t -> ts_read_one p d x t = one_code p d x t.
Proof.
  intros W T; unfold ts_read_one, one_code; destruct (type_cases p t W T) as [k K M S E _| -> E _|e k K M S _ E KE _|s K M S E _].
  - now rewrite S, E, M, K, ts_prim_num, K.
  - reflexivity.
  - now rewrite S, E, K, ts_prim_num, KE.
  - now rewrite S, E, M, K.
Qed.

Lemma ts_write_one_code p s t : WF p -> declared_type p t -> ts_write_one p s t = wone p s t.
Proof.
  intros W T; unfold ts_write_one, wone, enum_num; destruct (type_cases p t W T) as [k K M S E _| -> E _|e k K M S _ E KE _|s' K M S E _].
  - now rewrite S, E, M, K, ts_prim_num, K.
  - reflexivity.
  - now rewrite S, E, K, ts_prim_num, KE.
  - now rewrite S, E, M, K.
Qed.

(** A list body of an enum is the same as the general one. *)
Lemma ts_list_body p d x t : WF p -> declared_type p t ->
  (match lookup t (p_enums p) with
   | Some e => with_prim (ts_prim (e_encoding e)) RIllTyped
                 (fun k => [RNum (DLocal x) k; REnumCheck x t; RMove d x])
   | None => ts_read_one p d x t
   end) = one_code p d x t.
Proof.
  intros W T; rewrite <- ts_read_one_code by assumption.
  unfold ts_read_one; destruct (type_cases p t W T) as [k K M S E _| -> E _|e k K M S _ E KE _|s K M S E _];
    rewrite E; try reflexivity.
  now rewrite S.
Qed.

Lemma ts_init_names p d t s : WF p -> declares p t s -> map fst (ts_init p d t) = map v_name (s_members s).
Proof.
  intros W D; destruct d; cbn [ts_init]; rewrite (find_declares p W t s D), map_map; apply map_ext; reflexivity.
Qed.

Lemma underscore_not_i n idx : ("i" +++ dec_str idx)%string <> ("_" +++ n)%string.
Proof. discriminate. Qed.

Definition ts_len (t : string) (z : Z) : got unit := if z <? 0 then Miss 0 else Got tt 0.

Section TS.
Variable ns : bool.
Variable p : protocol.
Hypothesis W : WF p.

Lemma ts_member pre post inp call fuel t s m :
  call_ok (ts_rt pre post) p inp call ts_len fuel -> declares p t s -> In m (s_members s) ->
  member_ok (ts_rt pre post) p inp call ts_len fuel m (ts_read p (ts_level ns s) m).
Proof.
  intros C D I; pose proof (wf_member_types p W t s m D I) as T.
  unfold ts_read; destruct (v_list m) eqn:L.
  - destruct (list_size_num p W) as (k & K & NB); rewrite ts_prim_num, K; cbn [with_prim].
    rewrite ts_list_body by assumption.
    eapply member_index; eauto; [discriminate|].
    intro z; unfold ts_len; cbn; destruct (z <? 0); exact Logic.I.
  - rewrite ts_read_one_code by assumption; now apply member_one.
Qed.

Lemma ts_agrees pre post inp fuel :
  call_ok (ts_rt pre post) p inp (run (ts_rt pre post) p (ts_reader ns) inp fuel) ts_len fuel.
Proof.
  apply (run_agrees _ p inp (ts_reader ns) (fun s => ts_read p (ts_level ns s)) ts_len W).
  - reflexivity.
  - intros t s D; now apply ts_init_names.
  - apply ts_member.
Qed.

Hypothesis SIZES : ts_compiles p = true.

Lemma ts_reads post : reads_wire p (texted ts_decode) (ts_from_bytes ns [] post p).
Proof.
  assert (G : reads_wire p (texted ts_decode) (read_with (ts_rt [] post) (ts_reader ns) p)).
  { eapply good_reads with (len := ts_len) (trap := false).
    - exact W.
    - apply ts_agrees.
    - intros inp pos H; apply (sized_str_crash p W) in H; discriminate.
    - intros t z _ H; unfold ts_len in H; destruct (z <? 0); discriminate.
    - apply declared_kept.
    - intros t z Z0; unfold ts_len; destruct (Z.ltb_spec z 0); [lia|eauto].
    - intros inp pos s lb raw rest E S C; cbn [rt_str ts_rt app].
      now apply sized_str_forward with (rest := rest). }
  intros t s v0 v bs inp pos rest D WI TX E; unfold ts_from_bytes; rewrite SIZES; eapply G; eauto.
Qed.

Lemma ts_only : only_wire p ts_decode (ts_from_bytes ns [] [] p).
Proof.
  assert (G : only_wire p ts_decode (read_with (ts_rt [] []) (ts_reader ns) p)).
  { eapply good_only with (len := ts_len) (trap := false).
    - exact W.
    - apply ts_agrees.
    - intros inp pos H; apply (sized_str_crash p W) in H; discriminate.
    - intros t z _ H; unfold ts_len in H; destruct (z <? 0); discriminate.
    - apply declared_only.
    - intros t z Z0 _ a b; unfold ts_len; destruct (Z.ltb_spec z 0); [discriminate|lia].
    - intros inp pos s pos'; cbn [rt_str ts_rt app]; rewrite app_nil_r; apply sized_str_back; discriminate. }
  intros t s inp pos v pos' D; unfold ts_from_bytes; rewrite SIZES; now apply G with (s := s).
Qed.

Lemma ts_decode_text s s' : ts_decode s = Some s' -> utf8 s'.
Proof. intros [= <-]; apply strip_bom_utf8, utf8_lossy_utf8. Qed.

Lemma ts_text pre post : returns_text p (ts_from_bytes ns pre post p).
Proof.
  intros t s inp pos v q D; unfold ts_from_bytes; rewrite SIZES.
  refine (good_text (ts_rt pre post) p (ts_reader ns) ts_len true W (ts_agrees pre post) (fun _ _ _ => eq_refl) (fun _ _ _ _ => eq_refl) _ t s inp pos v q D).
  clear; intros inp pos s q; cbn [rt_str ts_rt]; intro H; apply sized_str_text in H as [raw H]; [|discriminate]; exact (ts_decode_text _ _ H).
Qed.

Lemma ts_answers pre post : always_answers p false (ts_from_bytes ns pre post p).
Proof.
  assert (G : always_answers p false (read_with (ts_rt pre post) (ts_reader ns) p)).
  { eapply good_answers with (len := ts_len).
    - exact W.
    - apply ts_agrees.
    - intros inp pos H; apply (sized_str_crash p W) in H; discriminate.
    - intros t z _ H; unfold ts_len in H; destruct (z <? 0); discriminate. }
  intros t s inp pos D; unfold ts_from_bytes; rewrite SIZES; now apply G with (s := s).
Qed.

Lemma ts_write_puts t s v bs : declares p t s -> wire p t v bs ->
  exists cs, List.concat cs = bs /\ forall w, ts_write_bytes p t v w = puts ts_wt cs w.
Proof.
  intros D WI; unfold ts_write_bytes; rewrite SIZES.
  eapply write_ok with (mcode := fun _ => ts_write p); eauto.
  intros call fuel t' s' m C D' I F; pose proof (wf_member_types p W t' s' m D' I) as T.
  unfold ts_write; destruct (v_list m) eqn:L.
  - destruct (list_size_num p W) as (k & K & NB); rewrite ts_prim_num, K; cbn [with_prim].
    rewrite ts_write_one_code by assumption.
    eapply member_writes_idx; eauto.
  - rewrite ts_write_one_code by assumption; eapply member_writes_one; eauto.
Qed.

(** ** One message, as stated in CodecSpec.v *)

Definition ts_any s (_ : any_text s) : exists s', ts_decode s = Some s' := ex_intro _ _ eq_refl.
Definition ts_txt s (H : plain_text s) : ts_decode s = Some s := f_equal Some (plain_text_decoded s H).

Lemma ts_reads_back post : reads_back p (strings plain_text) (ts_from_bytes ns [] post p).
Proof. eapply reads_back_text; [exact ts_txt|apply ts_reads]. Qed.

Lemma ts_truncated : rejects_truncated p false (ts_from_bytes ns [] [] p).
Proof. eapply only_wire_truncated; [exact W|apply ts_only|apply ts_answers]. Qed.

Lemma ts_enums : only_declared_enums p (ts_from_bytes ns [] [] p).
Proof. eapply only_wire_enums; [exact W|apply ts_only]. Qed.

Lemma ts_writes t s v bs : declares p t s -> wire p t v bs -> writes ts_wt (ts_write_bytes p t v) bs.
Proof. apply ts_write_puts. Qed.

Lemma ts_writer_fills : writer_does fills p (ts_write_bytes p).
Proof. intros t s v bs D WI; apply (writes_fills ts_wt); [reflexivity|eapply ts_writes; eassumption]. Qed.

Lemma ts_writer_refuses : writer_does refuses_short p (ts_write_bytes p).
Proof. intros t s v bs D WI; apply (writes_refuses ts_wt); [reflexivity|eapply ts_writes; eassumption]. Qed.

Lemma ts_tagged_fills : tagged_writer_does fills p (ts_write_tagged p).
Proof.
  intros [t v] bs WT; apply (writes_fills ts_wt); [reflexivity|].
  apply (write_tagged_ok ts_wt p (ts_write_bytes p) W ts_writes (t, v) bs WT).
Qed.

(** ** Streams *)

Lemma ts_streams pre post : streams (ts_stream ns pre post) p (ts_process ns pre post p).
Proof.
  constructor; [exact W|intros inp pos L; now apply Nat.leb_gt|apply byte_tag_ok| | |].
  - intros inp pos L; left; now apply Nat.leb_le.
  - intros b t _; apply case_numbered.
  - intros max inp pos; unfold ts_process; now rewrite SIZES.
Qed.

Lemma ts_reads_streams post : reads_streams p (strings plain_text) (ts_process ns [] post p).
Proof. exact (streams_read _ _ _ (ts_streams [] post) _ (strings plain_text) (text_kept p _ _ ts_txt) (ts_reads post)). Qed.
Lemma ts_stops_at_max post : stops_at_max p (strings plain_text) (ts_process ns [] post p).
Proof. exact (streams_max _ _ _ (ts_streams [] post) _ (strings plain_text) (text_kept p _ _ ts_txt) (ts_reads post)). Qed.
Lemma ts_rejects_unknown post : rejects_unknown p (strings any_text) (ts_process ns [] post p).
Proof. exact (streams_unknown _ _ _ (ts_streams [] post) _ (strings any_text) (text_some p _ _ ts_any) (ts_reads post) eq_refl). Qed.
Lemma ts_rejects_cut : rejects_cut_streams p (strings any_text) false (ts_process ns [] [] p).
Proof.
  exact (streams_cut _ _ _ (ts_streams [] []) false _ (strings any_text) (text_some p _ _ ts_any) (ts_reads []) eq_refl ts_truncated).
Qed.
Lemma ts_only_streams : only_streams p ts_decode (ts_process ns [] [] p).
Proof. exact (streams_only _ _ _ _ (ts_streams [] []) ts_only eq_refl). Qed.
Lemma ts_stream_answers : stream_answers false (ts_process ns [] [] p).
Proof. exact (streams_answer _ _ _ _ (ts_streams [] []) false ts_only (ts_answers [] [])). Qed.

(** ** Packed buffers *)

Lemma ts_pack_plain ms w : ts_pack [] [] p ms w = ([], pack ts_wt (ts_tags p) (ts_write_bytes p) ms w, []).
Proof.
  unfold ts_pack, pack; cbn [ts_wt wt_put List.app List.length firstn skipn Nat.add]; unfold put_fixed.
  rewrite app_nil_r; cbn [List.length header].
  destruct (Nat.leb_spec (w_pos w + 4) (List.length (w_buf w))) as [L|L]; [|reflexivity].
  cbn [wbind].
  pose proof (overwrite_length (w_buf w) (w_pos w) header L) as OL.
  rewrite <- OL, firstn_all, skipn_all; reflexivity.
Qed.

Lemma ts_pack_writes ms bs : wire_packed strict p ms bs ->
  writes ts_wt (pack ts_wt (ts_tags p) (ts_write_bytes p) ms) bs.
Proof. intro H; exact (pack_ok ts_wt p (ts_write_bytes p) W ts_writes ms bs H). Qed.

Lemma ts_packs : packer_does fills p (fun ms w => snd (fst (ts_pack [] [] p ms w))).
Proof.
  intros ms bs H; apply (writes_fills ts_wt); [reflexivity|].
  eapply writes_ext; [intro w; rewrite ts_pack_plain; reflexivity|now apply ts_pack_writes].
Qed.
Lemma ts_packs_short : packer_does refuses_short p (fun ms w => snd (fst (ts_pack [] [] p ms w))).
Proof.
  intros ms bs H; apply (writes_refuses ts_wt); [reflexivity|].
  eapply writes_ext; [intro w; rewrite ts_pack_plain; reflexivity|now apply ts_pack_writes].
Qed.

Lemma ts_unpack_counted post inp pos nb rest n : skipn pos inp = header ++ nb ++ rest ->
  wire_num strict NU32 (VInt n) nb ->
  ts_unpack ns [] post p inp pos = unpack_counted (ts_stream ns [] post) p n n inp (pos + 8).
Proof.
  intros E N; unfold ts_unpack; rewrite SIZES; cbn [List.app].
  assert (L : (pos + 4 <= List.length inp)%nat).
  { apply (f_equal (@List.length byte)) in E; rewrite skipn_length, !app_length in E; cbn [List.length header] in E; lia. }
  rewrite (proj2 (Nat.leb_le _ _)) by (rewrite app_length; lia).
  rewrite skipn_app, E, <- !app_assoc; cbn [firstn header List.app].
  change (ts_decode [x42; x53; x43; x49]) with (Some header).
  destruct (list_eq_dec Byte.byte_eq_dec header header); [|congruence].
  now rewrite (read_count inp pos nb rest n E N).
Qed.

Lemma ts_up post : counts (ts_stream ns [] post) p (2 ^ 32 - 1) false (ts_unpack ns [] post p).
Proof.
  apply counts_in_place; intros inp pos nb rest n E N; left; exists n.
  split; [now apply ts_unpack_counted with (nb := nb) (rest := rest)|auto].
Qed.

Lemma ts_bad_header : rejects_bad_header false (ts_unpack ns [] [] p).
Proof.
  intros inp pos NH; left; unfold ts_unpack; rewrite SIZES; cbn [List.app]; rewrite app_nil_r.
  destruct (Nat.leb_spec (pos + 4) (List.length inp)) as [L|L]; [|reflexivity].
  unfold ts_decode; destruct (list_eq_dec Byte.byte_eq_dec _ header) as [E|]; [|reflexivity].
  exfalso; apply header_plain in E; [|rewrite firstn_length, skipn_length; lia].
  apply (NH (skipn 4 (skipn pos inp))); rewrite <- E; symmetry; apply firstn_skipn.
Qed.

Lemma ts_bad_count : rejects_bad_count false (ts_unpack ns [] [] p).
Proof.
  intros inp pos c E L; left; unfold ts_unpack; rewrite SIZES; cbn [List.app]; rewrite app_nil_r.
  destruct (Nat.leb (pos + 4) (List.length inp)); [|reflexivity].
  destruct (ts_decode _) as [x|]; [|reflexivity].
  destruct (list_eq_dec Byte.byte_eq_dec x header); [|reflexivity].
  destruct (read_count_short inp pos c E L) as [q ->]; reflexivity.
Qed.

Lemma ts_unpacking : unpacking (ts_stream ns [] []) p (2 ^ 32 - 1) false (ts_unpack ns [] [] p).
Proof. constructor; [apply ts_up|apply ts_bad_header|apply ts_bad_count]. Qed.

Lemma ts_unpacks post : unpacks p (strings plain_text) (2 ^ 32 - 1) (ts_unpack ns [] post p).
Proof. exact (unpacking_reads _ _ _ (ts_streams [] post) _ false _ _ (strings plain_text) (ts_up post) (text_kept p _ _ ts_txt) (ts_reads post)). Qed.
Lemma ts_missing : rejects_missing p false (ts_unpack ns [] [] p).
Proof. exact (unpacking_missing _ _ _ (ts_streams [] []) _ _ _ ts_unpacking _ ts_only (ts_answers [] []) eq_refl). Qed.
Lemma ts_only_packed : only_packed p ts_decode (ts_unpack ns [] [] p).
Proof. exact (unpacking_only _ _ _ (ts_streams [] []) _ _ _ ts_unpacking _ ts_only eq_refl). Qed.
Lemma ts_unpack_answers : unpack_answers false (ts_unpack ns [] [] p).
Proof. exact (unpacking_answers _ _ _ (ts_streams [] []) _ _ _ ts_unpacking _ ts_only (ts_answers [] [])). Qed.

(** ** Size *)

Hypothesis NAMES : inner_lists_renamed p.
Hypothesis BRACKETS : no_brackets p.

Lemma ts_loop_at lvl t i : loop_at ts_style p lvl t i -> is_struct p t ->
  exists u su mu, reaches p t u /\ declares p u su /\ In mu (s_members su) /\ v_list mu = true /\
    i = (v_name mu +++ "_i")%string.
Proof.
  induction 1 as [lvl t s m i D I L E S|lvl t s m i D I L E S|lvl t s m i D I L A IH|lvl t s m i D I L A IH]; intro IS.
  - exists t, s, m; cbn in S; injection S as <-; repeat split; auto; apply rt_refl.
  - exists t, s, m; cbn in S; injection S as <-; repeat split; auto; [apply rt_refl|].
    destruct (BRACKETS t s m D I) as [B1 B2]; now rewrite var_clean_id.
  - assert (C : is_struct p (v_type m)).
    { assert (X : exists s', declares p (v_type m) s') by (inversion A; eauto).
      destruct X as [s' [X|X]]; [now exists s'|].
      destruct (wf_member_types p W t s m D I) as [B|[B|[B|B]]]; [| |exact B|].
      - destruct (declares_names p _ s' W (or_intror X)) as (Y & _); contradiction.
      - destruct (declares_names p _ s' W (or_intror X)) as (_ & Y & _); congruence.
      - destruct (declares_names p _ s' W (or_intror X)) as (_ & _ & Y); contradiction. }
    destruct (IH C) as (u & su & mu & R & Q); exists u, su, mu; split; [|exact Q].
    eapply rt_trans; [|exact R]; apply rt_step.
    destruct IS as [s0 S0]; exists s0, m; repeat split; auto.
    now rewrite (declares_unique p t s0 s W (or_introl S0) D).
  - assert (C : is_struct p (v_type m)).
    { assert (X : exists s', declares p (v_type m) s') by (inversion A; eauto).
      destruct X as [s' [X|X]]; [now exists s'|].
      destruct (wf_member_types p W t s m D I) as [B|[B|[B|B]]]; [| |exact B|].
      - destruct (declares_names p _ s' W (or_intror X)) as (Y & _); contradiction.
      - destruct (declares_names p _ s' W (or_intror X)) as (_ & Y & _); congruence.
      - destruct (declares_names p _ s' W (or_intror X)) as (_ & _ & Y); contradiction. }
    destruct (IH C) as (u & su & mu & R & Q); exists u, su, mu; split; [|exact Q].
    eapply rt_trans; [|exact R]; apply rt_step.
    destruct IS as [s0 S0]; exists s0, m; repeat split; auto.
    now rewrite (declares_unique p t s0 s W (or_introl S0) D).
Qed.

Lemma ts_no_shadow : no_shadow ts_style p.
Proof.
  intros lvl t s m i D I L E LA; cbn in E; subst i.
  assert (IS : is_struct p (v_type m)).
  { assert (X : exists s', declares p (v_type m) s') by (inversion LA; eauto).
    destruct X as [s' [X|X]]; [now exists s'|].
    destruct (wf_member_types p W t s m D I) as [B|[B|[B|B]]]; [| |exact B|].
    - destruct (declares_names p _ s' W (or_intror X)) as (Y & _); contradiction.
    - destruct (declares_names p _ s' W (or_intror X)) as (_ & Y & _); congruence.
    - destruct (declares_names p _ s' W (or_intror X)) as (_ & _ & Y); contradiction. }
  destruct (ts_loop_at _ _ _ LA IS) as (u & su & mu & R & DU & IU & LU & E).
  apply str_app_cancel in E.
  destruct (BRACKETS t s m D I) as [B1 B2]; rewrite var_clean_id in E by assumption.
  now apply (NAMES t s m u su mu).
Qed.

Lemma ts_size_ok t s v bs : declares p t s -> wire p t v bs ->
  ts_size p t v = MRet (Z.of_nat (List.length bs)).
Proof.
  intros D WI; unfold ts_size; rewrite SIZES.
  eapply size_ok_gen; eauto using ts_no_shadow.
  intro U; discriminate.
Qed.

Lemma ts_exact_size : exact_size p (ts_size p).
Proof. intros t s v bs D WI; eapply ts_size_ok; eassumption. Qed.

Lemma ts_exact_packed_size : exact_packed_size p (ts_packed_size p).
Proof. intros ms bs H; apply (packed_size_ok p (ts_size p) ms bs W); [|exact H]; intros; eapply ts_size_ok; eassumption. Qed.
End TS.

(** ** Fresh objects *)

Lemma ts_fresh p t s : WF p -> ~ In "boolean"%string (declared_names p) -> ~ In "bigint"%string (declared_names p) ->
  declares p t s -> fresh p t (VStruct (ts_init p (depth_of p) t)).
Proof.
  intros W NB NI D.
  pose (def := fun d m =>
         if v_list m then VList []
         else if ts_is p (v_type m) "bigint" then VInt 0
         else if ts_is p (v_type m) "boolean" then VBool false
         else if ts_is p (v_type m) "string" then VStr []
         else match lookup (v_type m) (p_enums p) with
         | Some e => match get_default_pair e with Some (_, z) => VInt z | None => VUndef end
         | None => if mem (v_type m) (p_structs p) then VStruct (ts_init p d (v_type m)) else VInt 0
         end).
  apply (init_fresh p W (ts_init p) def) with (s := s); [| |exact D|now apply WF_fits_any].
  - intros d t' s' D'; cbn [ts_init]; rewrite (find_declares p W t' s' D'); reflexivity.
  - intros d t' s' m D' I; unfold def; destruct (v_list m); [reflexivity|].
    destruct (type_cases p (v_type m) W (wf_member_types p W t' s' m D' I)) as [k K M S E L| E1 E L|e k K M S IE E KE _|s'' K M S E L].
    + assert (X : exists z, zero_of k = z /\
        (if ts_is p (v_type m) "bigint" then VInt 0
         else if ts_is p (v_type m) "boolean" then VBool false
         else if ts_is p (v_type m) "string" then VStr [] else VInt 0) = z).
      { exists (zero_of k); split; [reflexivity|]; clear - K; revert K; generalize (v_type m); intros t K.
        num_cases K; reflexivity. }
      rewrite E; unfold mem; rewrite L; destruct X as (z & <- & ->); now apply default_num.
    + rewrite E1 in *; cbn; now apply default_str.
    + unfold ts_is, ts_type; rewrite M, S.
      assert (IN : In (v_type m) (declared_names p)).
      { unfold declared_names; rewrite !in_app_iff; right; right; change (v_type m) with (fst (v_type m, e)); now apply in_map. }
      rewrite (proj2 (existsb_exists _ _)) by (exists (v_type m); split; [exact IN|apply String.eqb_refl]).
      rewrite (proj2 (String.eqb_neq _ "bigint")), (proj2 (String.eqb_neq _ "boolean")) by congruence.
      rewrite S, E; unfold get_default_pair.
      destruct (wf_enum_values p W _ e IE) as [NE _].
      destruct (e_values e) as [|[n z] r] eqn:EV; [now contradiction NE|]; cbn [hd_error].
      eapply default_enum; eassumption.
    + unfold ts_is, ts_type; rewrite M, S.
      assert (IN : In (v_type m) (declared_names p)).
      { unfold declared_names; rewrite !in_app_iff; left; apply lookup_In in L.
        change (v_type m) with (fst (v_type m, s'')); now apply in_map. }
      rewrite (proj2 (existsb_exists _ _)) by (exists (v_type m); split; [exact IN|apply String.eqb_refl]).
      rewrite (proj2 (String.eqb_neq _ "bigint")), (proj2 (String.eqb_neq _ "boolean")) by congruence.
      rewrite S, E; unfold mem; rewrite L; eapply default_struct; eassumption.
Qed.
