(** Generated AssemblyScript: agreement with the reference reader and the format. *)
From Verif Require Export AssemblyScript TypeScriptFacts CutFacts.
Open Scope Z_scope.
Open Scope list_scope.

Lemma as_prim_num : forall t, as_prim t = num_of t.
Proof. unfold as_prim, prim, as_serializers; prim_tac. Qed.
Lemma as_cast_int t k : In t ["byte"; "int16"; "int32"]%string -> num_of t = Some k -> as_cast t = Some k.
Proof. intros I K; cbn in I; repeat (destruct I as [<-|I]; [injection K as <-; reflexivity|]); destruct I. Qed.

Lemma as_types_none t : num_of t = None -> String.eqb t "string" = false -> lookup t as_types = None.
Proof.
  intros K S; unfold num_of in K; unfold as_types; cbn [lookup] in *.
  repeat match type of K with context [String.eqb t ?x] => destruct (String.eqb t x); [discriminate|] end.
  now rewrite S.
Qed.

Lemma as_read_one_code p d x t : WF p -> declared_type p t -> as_read_one p d x t = one_code p d x t.
Proof.
  intros W T; unfold as_read_one, one_code; destruct (type_cases p t W T) as [k K M S E _| -> E _|e k K M S _ E KE _|s K M S E _].
  - now rewrite S, E, M, K, as_prim_num, K.
  - reflexivity.
  - now rewrite S, E, K, as_prim_num, KE.
  - now rewrite S, E, M, K.
Qed.

Lemma as_write_one_code p s t : WF p -> declared_type p t -> as_write_one p s t = wone p s t.
Proof.
  intros W T; unfold as_write_one, wone, enum_num; destruct (type_cases p t W T) as [k K M S E _| -> E _|e k K M S _ E KE _|s' K M S E _].
  - now rewrite S, E, M, K, as_prim_num, K.
  - reflexivity.
  - now rewrite S, E, K, as_prim_num, KE.
  - now rewrite S, E, M, K.
Qed.

Lemma as_list_body p d x t : WF p -> declared_type p t ->
  (match lookup t (p_enums p) with
   | Some e => with_prim (as_prim (e_encoding e)) RIllTyped
                 (fun k => [RNum (DLocal x) k; REnumCheck x t; RMove d x])
   | None => as_read_one p d x t
   end) = one_code p d x t.
Proof.
  intros W T; rewrite <- as_read_one_code by assumption.
  unfold as_read_one; destruct (type_cases p t W T) as [k K M S E _| -> E _|e k K M S _ E KE _|s K M S E _];
    rewrite E; try reflexivity.
  now rewrite S.
Qed.

Lemma as_init_names p d t s : WF p -> declares p t s -> map fst (as_init p d t) = map v_name (s_members s).
Proof.
  intros W D; destruct d; cbn [as_init]; rewrite (find_declares p W t s D), map_map; apply map_ext; reflexivity.
Qed.

(** ** Enums *)

Lemma min_pair_least l x : min_pair l = Some x -> forall y, In y l -> snd x <= snd y.
Proof.
  revert x; induction l as [|a l IH]; intros x H y []; cbn in H; destruct (min_pair l) as [b|] eqn:M.
  - subst a; destruct (Z.leb_spec (snd y) (snd b)); injection H as <-; lia.
  - injection H as <-; subst; lia.
  - destruct (Z.leb_spec (snd a) (snd b)); injection H as <-; specialize (IH b eq_refl y H0); lia.
  - destruct l; [destruct H0|]; cbn in M; destruct (min_pair l); [destruct (_ <=? _)|]; discriminate.
Qed.
Lemma min_pair_some l : l <> [] -> exists x, min_pair l = Some x.
Proof. destruct l as [|a l]; [congruence|]; cbn; destruct (min_pair l); [destruct (_ <=? _)|]; eauto. Qed.
Lemma min_pair_in l x : min_pair l = Some x -> In x l.
Proof.
  revert x; induction l as [|a l IH]; intros x H; cbn in H; [discriminate|].
  destruct (min_pair l) as [b|]; [|injection H as <-; now left].
  destruct (_ <=? _); injection H as <-; [now left|right; now apply IH].
Qed.

Lemma last_in (l : list Z) d : l <> [] -> In (List.last l d) l.
Proof.
  induction l as [|a [|b l] IH]; intro N; [congruence|now left|].
  right; apply IH; discriminate.
Qed.

Lemma wrap_in k z : k <> NBool -> num_min k <= z <= num_max k -> wrap_num k z = z.
Proof.
  intros NB R; apply (wire_int_wrap strict k z (le_bytes (num_size k) z)); constructor; auto.
  - apply le_bytes_length.
  - apply le_val_le_bytes.
Qed.

Section Enums.
Variable p : protocol.
Hypothesis W : WF p.
Hypothesis UP : enums_count_up p.

Lemma as_enum_eq t e : In (t, e) (p_enums p) -> exists low,
  In low (map snd (e_values e)) /\ (forall z, In z (map snd (e_values e)) -> low <= z) /\
  forall z, as_enum e z = Some (if (z <? low) || (List.last (map snd (e_values e)) 0 + 1 <=? z)
                                then List.last (map snd (e_values e)) 0 + 1 else z).
Proof.
  intro I; destruct (wf_enum_values p W t e I) as (NE & _).
  destruct (min_pair_some _ NE) as [[n low] M].
  exists low; split; [apply (in_map snd _ (n, low)), min_pair_in, M|].
  split; [intros z Z; apply in_map_iff in Z as (y & <- & Y); exact (min_pair_least _ _ M y Y)|].
  intro z; unfold as_enum, get_minimum_pair, as_unknown; rewrite M.
  assert (K : exists k, num_of (e_encoding e) = Some k /\ In (e_encoding e) ["byte"; "int16"; "int32"]%string /\ k <> NBool /\
    forall z, In z (map snd (e_values e)) -> num_min k <= z <= num_max k).
  { destruct (wf_enum_encoding p W t e I) as [[-> F]|[(-> & F & _)|(-> & F & _)]]; eexists;
      (split; [reflexivity|]); (split; [cbn; tauto|]); (split; [discriminate|]);
      intros y Y; unfold fits_in in F; specialize (F y Y); cbn; lia. }
  destruct K as (k & K & IN & NB & R); rewrite (as_cast_int _ _ IN K).
  destruct (UP t e k I K) as [LAST ROOM].
  assert (LI : In (List.last (map snd (e_values e)) 0) (map snd (e_values e))).
  { apply last_in; intro X; apply map_eq_nil in X; contradiction. }
  specialize (R _ LI); set (l := List.last _ _) in *.
  assert (RI : num_min NI32 <= l + 1 <= num_max NI32).
  { clear - IN K R ROOM; cbn in IN; destruct IN as [E|[E|[E|[]]]]; rewrite <- E in K; injection K as <-; cbn in *; lia. }
  rewrite (wrap_in NI32) by (discriminate || assumption).
  rewrite wrap_in by (assumption || lia).
  reflexivity.
Qed.

Lemma as_enums_kept : enums_kept as_enum p.
Proof.
  intros t e z I Z; destruct (as_enum_eq t e I) as (low & _ & LOW & ->).
  specialize (LOW z Z).
  destruct (wf_enum_encoding p W t e I) as [[E F]|[(E & F & _)|(E & F & _)]].
  all: assert (K : exists k, num_of (e_encoding e) = Some k) by (rewrite E; eexists; reflexivity).
  all: destruct K as [k K]; destruct (UP t e k I K) as [LAST _]; specialize (LAST z Z).
  all: destruct (Z.ltb_spec z low); [lia|]; destruct (Z.leb_spec (List.last (map snd (e_values e)) 0 + 1) z); [lia|]; reflexivity.
Qed.

(** Without gaps, what is read is declared or one more than the last. *)
Lemma as_enums_gapless : enums_gapless p -> forall t e z z', In (t, e) (p_enums p) -> as_enum e z = Some z' ->
  In z' (map snd (e_values e)) \/ z' = List.last (map snd (e_values e)) 0 + 1.
Proof.
  intros GAP t e z z' I; destruct (as_enum_eq t e I) as (low & LI & LOW & ->); intros [= <-].
  destruct (Z.ltb_spec z low); [now right|].
  destruct (Z.leb_spec (List.last (map snd (e_values e)) 0 + 1) z); [now right|left].
  apply (GAP t e low (List.last (map snd (e_values e)) 0) z I LI); [|cbn [orb]; lia].
  apply last_in; intro X; apply map_eq_nil in X; now destruct (wf_enum_values p W t e I).
Qed.
End Enums.

(** ** Strings *)

Lemma as_txt lossy s : utf8 s -> as_decode lossy s = Some s.
Proof. intro U; unfold as_decode; now rewrite (proj2 (utf8_valid_spec s) U). Qed.
Lemma as_any lossy s : any_text s -> exists s', as_decode lossy s = Some s'.
Proof. intros _; unfold as_decode; eauto. Qed.

Section AS.
Variable lossy : list byte -> list byte.
Variable room : string -> Z.
Variable p : protocol.
Hypothesis W : WF p.

Lemma as_str_sized inp pos s q :
  as_str lossy p inp pos = Got s q <-> sized_str Crash (as_decode lossy) p inp inp pos = Got s q.
Proof.
  unfold as_str, sized_str; rewrite as_prim_num.
  destruct (num_of (p_string_size_type p)) as [k|]; [|reflexivity].
  destruct (read_num k inp pos) as [v q'| |]; try reflexivity.
  destruct v as [z| | | | |]; try reflexivity.
  destruct (z <? 0); [destruct (_ <? 0); split; discriminate|].
  destruct (_ <=? _); [reflexivity|].
  destruct ((_ <=? _) && (_ <=? _)); split; discriminate.
Qed.

Lemma as_str_forward inp pos s lb raw rest : skipn pos inp = lb ++ raw ++ rest ->
  wire_size reading (p_string_size_type p) (List.length raw) lb -> as_decode lossy raw = Some s ->
  as_str lossy p inp pos = Got s (pos + List.length lb + List.length raw).
Proof.
  intros E L C; apply as_str_sized.
  rewrite <- (app_nil_r inp) at 1; eapply sized_str_forward; eassumption.
Qed.
Lemma as_str_back inp pos s q : as_str lossy p inp pos = Got s q ->
  exists lb raw rest, skipn pos inp = lb ++ raw ++ rest /\
    wire_size reading (p_string_size_type p) (List.length raw) lb /\
    q = (pos + List.length lb + List.length raw)%nat /\ as_decode lossy raw = Some s.
Proof. intro H; apply as_str_sized, sized_str_back in H; [exact H|discriminate]. Qed.
Lemma as_str_within inp pos s q : as_str lossy p inp pos = Got s q -> (q <= List.length inp)%nat.
Proof. intro H; apply as_str_sized in H; eapply sized_str_within; [|exact H]; discriminate. Qed.
Lemma as_str_moves inp pos s q : as_str lossy p inp pos = Got s q -> (pos <= q)%nat.
Proof. intro H; apply as_str_back in H as (lb & raw & rest & _ & _ & -> & _); lia. Qed.

Lemma as_str_small inp pos : tiny_unsigned (p_string_size_type p) -> as_str lossy p inp pos <> Crash.
Proof.
  intro U; unfold as_str; rewrite as_prim_num; destruct (string_size_num p W) as (k & K & NB); rewrite K.
  destruct (read_num_cases k inp pos) as [[v E]|E]; rewrite E; [|discriminate].
  apply read_num_got in E as (lb & rest & _ & N & _); destruct (integral_vint _ _ _ _ NB N) as [z ->].
  apply wire_num_vint in N.
  assert (R : 0 <= z < 2 ^ 31).
  { revert U K N; clear; generalize (p_string_size_type p); intros t U K N.
    repeat (destruct U as [<-|U]; [injection K as <-; cbn in N; lia|]); destruct U. }
  destruct (Z.ltb_spec z 0); [lia|].
  destruct (_ <=? _); [discriminate|].
  destruct (Z.leb_spec (2 ^ 31) z); [lia|discriminate].
Qed.

Lemma as_str_cut inp pos lb raw : wire_size reading (p_string_size_type p) (List.length raw) lb ->
  along inp pos (lb ++ raw) ->
  (as_str lossy p inp pos = Crash -> true = true) /\
  forall s q, as_str lossy p inp pos = Got s q -> q = (pos + List.length (lb ++ raw))%nat.
Proof.
  intros (k & K & N) A; split; [reflexivity|]; intros s q; unfold as_str; rewrite as_prim_num, K.
  destruct (read_num_cases k inp pos) as [[v E]|E]; rewrite E; [|discriminate].
  apply (along_read _ _ _ _ _ _ _ (along_left _ _ _ _ A) N) in E as (-> & -> & _).
  destruct (Z.ltb_spec (Z.of_nat (List.length raw)) 0); [lia|].
  destruct (_ <=? _).
  - intros [= _ <-]; rewrite Nat2Z.id, app_length; lia.
  - destruct (_ && _); discriminate.
Qed.

(** ** Reading *)

Lemma as_member inp call fuel t s m :
  call_ok (as_rt lossy room) p inp call (as_make room) fuel -> declares p t s -> In m (s_members s) ->
  member_ok (as_rt lossy room) p inp call (as_make room) fuel m (as_read p 2 m).
Proof.
  intros C D I; pose proof (wf_member_types p W t s m D I) as T.
  unfold as_read; destruct (v_list m) eqn:L.
  - destruct (list_size_num p W) as (k & K & NB); rewrite as_prim_num, K; cbn [with_prim].
    rewrite as_list_body by assumption.
    eapply member_index; eauto; [discriminate|].
    intro z; cbn; unfold as_make; destruct (_ || _); cbn; auto.
  - rewrite as_read_one_code by assumption; now apply member_one.
Qed.

Lemma as_agrees inp fuel :
  call_ok (as_rt lossy room) p inp (run (as_rt lossy room) p as_reader inp fuel) (as_make room) fuel.
Proof.
  apply (run_agrees _ p inp as_reader (fun _ => as_read p 2) (as_make room) W).
  - reflexivity.
  - intros t s D; now apply as_init_names.
  - apply as_member.
Qed.

Lemma as_len_ok : len_ok (as_make room) p.
Proof. intros t z Z0 _ a b; unfold as_make; destruct (Z.ltb_spec z 0); [discriminate|lia]. Qed.

Hypothesis SIZES : as_compiles p = true.

Definition as_taken (v0 v : val) : Prop := texted (as_decode lossy) v0 v /\ lists modest v0.
Lemma as_kept t v bs : wire_in reading p t v bs -> utf8_modest v -> as_taken v v.
Proof. intros WI [S L]; split; [|exact L]; eapply text_kept; [exact (as_txt lossy)|exact WI|exact S]. Qed.
Lemma as_some t v bs : wire_in reading p t v bs -> lists modest v -> exists v', as_taken v v'.
Proof.
  intros WI L; destruct (text_some p _ _ (as_any lossy) t v bs WI) as [v' H]; [apply strings_any|].
  exists v'; now split.
Qed.

Lemma as_from_eq t inp pos : as_from_bytes lossy room p t inp pos = read_with (as_rt lossy room) as_reader p t inp pos.
Proof. unfold as_from_bytes; now rewrite SIZES. Qed.

Lemma as_reads : enums_count_up p -> has_room room -> reads_wire p as_taken (as_from_bytes lossy room p).
Proof.
  intros UP ROOM t s v0 v bs inp pos rest D WI TX E; rewrite as_from_eq.
  eapply (good_reads_sized (as_rt lossy room) p as_reader (as_make room) (as_decode lossy) true W as_agrees
    (fun _ _ _ => eq_refl) (fun _ _ _ _ => eq_refl) modest); try eassumption.
  - now apply as_enums_kept.
  - intros u n M; unfold as_make, modest in *; specialize (ROOM u).
    destruct (Z.ltb_spec (Z.of_nat n) 0); [lia|]; destruct (Z.ltb_spec (room u) (Z.of_nat n)); [lia|]; cbn; eauto.
  - exact as_str_forward.
Qed.

Lemma as_reads_back : enums_count_up p -> has_room room -> reads_back p utf8_modest (as_from_bytes lossy room p).
Proof. intros UP ROOM; exact (reads_back_of _ _ _ _ as_kept (as_reads UP ROOM)). Qed.

Lemma as_answers_trap : always_answers p true (as_from_bytes lossy room p).
Proof.
  intros t s inp pos D; rewrite as_from_eq; revert t s inp pos D.
  exact (good_answers (as_rt lossy room) p as_reader (as_make room) true W as_agrees (fun _ _ _ => eq_refl) (fun _ _ _ _ => eq_refl)).
Qed.

Lemma as_only : no_enums p -> only_wire p (as_decode lossy) (as_from_bytes lossy room p).
Proof.
  intros NE t s inp pos v q D; rewrite as_from_eq; revert t s inp pos v q D.
  refine (good_only (as_rt lossy room) p as_reader (as_make room) (as_decode lossy) true W as_agrees (fun _ _ _ => eq_refl)
    (fun _ _ _ _ => eq_refl) _ as_len_ok as_str_back).
  intros t e z z' I; rewrite NE in I; destruct I.
Qed.

Lemma as_moves : moves p (as_from_bytes lossy room p).
Proof.
  intros t s inp pos v q D; rewrite as_from_eq; revert t s inp pos v q D.
  exact (good_moves (as_rt lossy room) p as_reader (as_make room) true W as_agrees (fun _ _ _ => eq_refl) (fun _ _ _ _ => eq_refl) as_str_moves).
Qed.

Lemma as_enums : enums_count_up p -> enums_gapless p ->
  only_enums_in (fun e z => In z (map snd (e_values e)) \/ z = List.last (map snd (e_values e)) 0 + 1) p
    (as_from_bytes lossy room p).
Proof.
  intros UP GAP t s inp pos v q D; rewrite as_from_eq; revert t s inp pos v q D.
  refine (good_enums_in (as_rt lossy room) p as_reader (as_make room) true W as_agrees (fun _ _ _ => eq_refl) (fun _ _ _ _ => eq_refl) _ _).
  now apply as_enums_gapless.
Qed.

Lemma as_answers : tiny_unsigned (p_string_size_type p) -> tiny_unsigned (p_list_size_type p) -> has_room room ->
  always_answers p false (as_from_bytes lossy room p).
Proof.
  intros US UL ROOM t s inp pos D; rewrite as_from_eq; revert t s inp pos D.
  refine (good_answers (as_rt lossy room) p as_reader (as_make room) false W as_agrees _ _).
  - intros inp pos H; now apply as_str_small in H.
  - intros t z (k & K & R) H; exfalso; revert H; unfold as_make; specialize (ROOM t).
    assert (R' : 0 <= z < 2 ^ 16).
    { revert UL K R; clear; generalize (p_list_size_type p); intros t U K N.
      repeat (destruct U as [<-|U]; [injection K as <-; cbn in N; lia|]); destruct U. }
    destruct (Z.ltb_spec z 0); [lia|]; destruct (Z.ltb_spec (room t) z); [lia|discriminate].
Qed.

Lemma as_truncated : rejects_truncated p true (as_from_bytes lossy room p).
Proof.
  intros t s v bs before cut x rest D WI E; rewrite as_from_eq; revert t s v bs before cut x rest D WI E.
  refine (good_cut (as_rt lossy room) p as_reader (as_make room) true true W as_agrees (fun _ _ _ => eq_refl) (fun _ _ _ _ => eq_refl) _
    as_str_cut as_str_within).
  intros t z R; unfold as_make; destruct (_ || _); [right|left]; eauto.
Qed.
Lemma as_truncated_fails : tiny_unsigned (p_string_size_type p) -> tiny_unsigned (p_list_size_type p) -> has_room room ->
  rejects_truncated p false (as_from_bytes lossy room p).
Proof.
  intros US UL ROOM t s v bs before cut x rest D WI E.
  destruct (as_truncated t s v bs before cut x rest D WI E) as [->|[_ T]]; [now left|].
  pose proof (as_answers US UL ROOM t s (before ++ cut) (List.length before) D) as A; rewrite T in A; discriminate.
Qed.

(** ** Writing *)

Lemma as_writes t s v bs : declares p t s -> wire p t v bs -> writes as_wt (as_write_bytes p t v) bs.
Proof.
  intros D WI; unfold as_write_bytes; rewrite SIZES.
  eapply write_ok with (mcode := fun _ => as_write p); eauto.
  intros call fuel t' s' m C D' I F; pose proof (wf_member_types p W t' s' m D' I) as T.
  unfold as_write; destruct (v_list m) eqn:L.
  - destruct (list_size_num p W) as (k & K & NB); rewrite as_prim_num, K; cbn [with_prim].
    rewrite as_write_one_code by assumption.
    eapply member_writes_idx; eauto.
  - rewrite as_write_one_code by assumption; eapply member_writes_one; eauto.
Qed.

Lemma as_writer_fills : writer_does fills p (as_write_bytes p).
Proof. intros t s v bs D WI; apply (writes_fills as_wt); [reflexivity|eapply as_writes; eassumption]. Qed.
Lemma as_writer_refuses : writer_does refuses_short p (as_write_bytes p).
Proof. intros t s v bs D WI; apply (writes_refuses as_wt); [reflexivity|eapply as_writes; eassumption]. Qed.
Lemma as_tagged_writes m bs : wire_tagged strict p m bs -> writes as_wt (as_write_tagged p (fst m) (snd m)) bs.
Proof.
  destruct m as [t v]; intro WT; exact (write_tagged_ok as_wt p (as_write_bytes p) W as_writes (t, v) bs WT).
Qed.
Lemma as_tagged_fills : tagged_writer_does fills p (as_write_tagged p).
Proof. intros m bs WT; apply (writes_fills as_wt); [reflexivity|now apply as_tagged_writes]. Qed.
Lemma as_tagged_refuses : tagged_writer_does refuses_short p (as_write_tagged p).
Proof. intros m bs WT; apply (writes_refuses as_wt); [reflexivity|now apply as_tagged_writes]. Qed.

(** ** Streams *)

Lemma as_streams : streams (as_stream lossy room) p (as_process lossy room p).
Proof.
  constructor; [exact W| | | | |].
  - intros inp pos L; apply Nat.ltb_ge; lia.
  - intros inp pos b rest E; unfold sm_tag, as_stream, as_tag.
    pose proof (byte_tag_ok inp pos b rest E) as B; unfold byte_tag in B.
    destruct (read_num NByte inp pos) as [[]| |]; try discriminate; exact B.
  - intros inp pos L; right; unfold sm_tag, as_stream, as_tag.
    destruct (read_num_cases NByte inp pos) as [[v E]|E]; rewrite E; [|reflexivity].
    apply read_num_got in E as (lb & rest & E & N & Q).
    assert (LB : List.length lb = 1%nat) by (inversion N; subst; assumption).
    apply (f_equal (@List.length byte)) in E; rewrite skipn_length, app_length in E; lia.
  - intros b t _; apply case_numbered.
  - intros max inp pos; unfold as_process; now rewrite SIZES.
Qed.

Lemma as_reads_streams : enums_count_up p -> has_room room -> reads_streams p utf8_modest (as_process lossy room p).
Proof. intros UP ROOM; exact (streams_read _ _ _ as_streams _ _ as_kept (as_reads UP ROOM)). Qed.
Lemma as_stops_at_max : enums_count_up p -> has_room room -> stops_at_max p utf8_modest (as_process lossy room p).
Proof. intros UP ROOM; exact (streams_max _ _ _ as_streams _ _ as_kept (as_reads UP ROOM)). Qed.
Lemma as_stream_answers : tiny_unsigned (p_string_size_type p) -> tiny_unsigned (p_list_size_type p) -> has_room room ->
  stream_answers false (as_process lossy room p).
Proof. intros US UL ROOM; exact (streams_answer_moves _ _ _ as_streams false as_moves (as_answers US UL ROOM)). Qed.
Lemma as_stream_answers_trap : stream_answers true (as_process lossy room p).
Proof. exact (streams_answer_moves _ _ _ as_streams true as_moves as_answers_trap). Qed.

(** ** Packed buffers *)

Lemma as_put_each_ok bs : writes as_wt (as_put_each bs) bs.
Proof.
  exists (map (fun b => [b]) bs); split; [induction bs; cbn; congruence|].
  induction bs as [|b bs IH]; intro w; [reflexivity|].
  cbn [as_put_each map puts]; destruct (wt_put as_wt [b] w); cbn [wbind]; auto.
Qed.
Lemma as_pack_writes ms bs : wire_packed strict p ms bs -> writes as_wt (as_pack_all p ms) bs.
Proof.
  intro H; inversion H as [? nb b N S]; subst.
  apply (writes_bind as_wt (as_put_each header) (pack_rest as_wt _ (as_write_bytes p) ms)); [apply as_put_each_ok|].
  exact (pack_rest_ok as_wt p (as_write_bytes p) W as_writes ms nb b N S).
Qed.
Lemma as_packs : packer_does fills p (as_pack p).
Proof.
  intros ms bs H before old after L; unfold as_pack.
  rewrite (writes_fills as_wt _ _ eq_refl (as_pack_writes ms bs H) before old after L); reflexivity.
Qed.

Definition as_long (inp : list byte) (pos : nat) := shifted pos (as_unpack_long lossy room [] [] p (skipn pos inp)).
Lemma as_unpack_cases inp pos :
  as_unpack lossy room p inp pos = if (List.length (skipn pos inp) <? 12)%nat then RErr else as_long inp pos.
Proof. unfold as_unpack, as_unpack_data, as_long; destruct (_ <? _)%nat; reflexivity. Qed.

Lemma as_long_counted post nb rest n : wire_num strict NU32 (VInt n) nb ->
  as_unpack_long lossy room [] post p (header ++ nb ++ rest)
  = shifted 8 (unpack_counted (as_stream lossy room) p n n rest 0).
Proof.
  intro N; assert (LN : List.length nb = 4%nat) by (inversion N; subst; assumption).
  unfold as_unpack_long; rewrite SIZES; cbn [firstn header List.app].
  change (as_decode lossy [x42; x53; x43; x49]) with (Some header).
  destruct (list_eq_dec Byte.byte_eq_dec header header) as [_|NE]; [|contradiction NE; reflexivity].
  assert (E0 : skipn 0 (header ++ nb ++ rest) = header ++ nb ++ rest) by reflexivity.
  pose proof (read_count _ 0 nb rest n E0 N) as RC; cbn [Nat.add header List.app] in RC |- *; rewrite RC.
  do 4 (destruct nb as [|? nb]; [discriminate LN|]); destruct nb; [|discriminate LN].
  cbn [List.app skipn List.length Nat.sub].
  rewrite Nat.sub_0_r, firstn_app, firstn_all, Nat.sub_diag, firstn_O, app_nil_r; reflexivity.
Qed.

Lemma as_up trap : counts (as_stream lossy room) p (2 ^ 32 - 1) trap as_long.
Proof.
  intros inp pos nb rest n E N; left; exists n, [], (pos + 8)%nat.
  split; [|split; [auto|cbn; lia]].
  unfold as_long; rewrite E, (as_long_counted [] nb rest n N); cbn [List.app List.length].
  destruct (unpack_counted _ _ _ _ _ _); cbn [shifted]; f_equal; lia.
Qed.

(** What is made of bytes that are no UTF-8 is not the header. *)
Hypothesis HEADER : keeps_header lossy.

Lemma as_bad_header_long trap : rejects_bad_header trap as_long.
Proof.
  intros inp pos NH; left; unfold as_long, as_unpack_long; rewrite SIZES; unfold as_decode.
  destruct (list_eq_dec Byte.byte_eq_dec _ header) as [E|]; [|reflexivity].
  exfalso; assert (X : firstn 4 (skipn pos inp) = header).
  { destruct (utf8_valid (firstn 4 (skipn pos inp))) eqn:U; [exact E|].
    exfalso; apply (HEADER (firstn 4 (skipn pos inp))); [rewrite firstn_length; lia| |exact E].
    intro V; apply utf8_valid_spec in V; congruence. }
  apply (NH (skipn 4 (skipn pos inp))); rewrite <- X; symmetry; apply firstn_skipn.
Qed.
Lemma as_bad_count_long trap : rejects_bad_count trap as_long.
Proof.
  intros inp pos c E L; left; unfold as_long, as_unpack_long; rewrite SIZES, E; unfold as_decode.
  destruct (list_eq_dec Byte.byte_eq_dec _ header); [|reflexivity].
  assert (E0 : skipn 0 (header ++ c) = header ++ c) by reflexivity.
  destruct (read_count_short _ 0 c E0 L) as [q RC]; cbn [Nat.add] in RC; rewrite RC; reflexivity.
Qed.
Lemma as_unpacking trap : unpacking (as_stream lossy room) p (2 ^ 32 - 1) trap as_long.
Proof. constructor; [apply as_up|apply as_bad_header_long|apply as_bad_count_long]. Qed.

Lemma as_shorter trap (r : res message_list) (b : bool) : fails trap r -> fails trap (if b then RErr else r).
Proof. destruct b; [now left|auto]. Qed.
Lemma as_bad_header trap : rejects_bad_header trap (as_unpack lossy room p).
Proof. intros inp pos H; rewrite as_unpack_cases; now apply as_shorter, as_bad_header_long. Qed.
Lemma as_bad_count trap : rejects_bad_count trap (as_unpack lossy room p).
Proof. intros inp pos c E L; rewrite as_unpack_cases; now apply as_shorter, (as_bad_count_long trap _ _ c). Qed.
Lemma as_unpack_answers : tiny_unsigned (p_string_size_type p) -> tiny_unsigned (p_list_size_type p) -> has_room room ->
  unpack_answers false (as_unpack lossy room p).
Proof.
  intros US UL ROOM inp pos; rewrite as_unpack_cases; destruct (_ <? _)%nat; [exact I|].
  exact (unpacking_answers_moves _ _ _ as_streams _ _ _ (as_unpacking false) (as_answers US UL ROOM) as_moves inp pos).
Qed.
End AS.

Section Packed.
Variable lossy : list byte -> list byte.
Variable room : string -> Z.
Variable p : protocol.
Hypothesis W : WF p.
Hypothesis SIZES : as_compiles p = true.

Lemma as_unpacks : enums_count_up p -> has_room room ->
  unpacks_from 12 p utf8_modest (2 ^ 32 - 1) (as_unpack lossy room p).
Proof.
  intros UP ROOM ms bs before after H A L L12; rewrite as_unpack_cases.
  rewrite (proj2 (Nat.ltb_ge _ _)).
  - exact (unpacking_reads _ _ _ (as_streams lossy room p W SIZES) _ false _ _ _ (as_up lossy room p SIZES false)
             (as_kept lossy p) (as_reads lossy room p W SIZES UP ROOM) ms bs before after H A L).
  - rewrite skipn_app, skipn_all, Nat.sub_diag; exact L12.
Qed.
Lemma as_missing : enums_count_up p -> has_room room ->
  rejects_missing_for p (lists modest) false (as_unpack lossy room p).
Proof.
  intros UP ROOM ms bs n nb before after H A N L Z0; rewrite as_unpack_cases; apply as_shorter.
  exact (unpacking_missing_reads _ _ _ (as_streams lossy room p W SIZES) _ false _ _ _ (as_up lossy room p SIZES false)
           (as_some lossy p) (as_reads lossy room p W SIZES UP ROOM) ms bs n nb before after H A N L Z0).
Qed.

(** ** Size *)

Hypothesis NAMES : inner_lists_renamed p.
Hypothesis BRACKETS : no_brackets p.

Lemma as_size_ok t s v bs : declares p t s -> wire p t v bs -> Z.of_nat (List.length bs) < 2 ^ 32 ->
  as_size p t v = MRet (Z.of_nat (List.length bs)).
Proof.
  intros D WI L; unfold as_size; rewrite SIZES.
  assert (E : size_with ts_style p 0 t v = MRet (Z.of_nat (List.length bs))).
  { eapply size_ok_gen; eauto using ts_no_shadow.
    intro U; discriminate. }
  rewrite E; cbn [returning]; rewrite Z.mod_small by lia; reflexivity.
Qed.
Lemma as_exact_size : exact_size_for p (strings any_text) (2 ^ 32) (as_size p).
Proof. intros t s v bs D WI _; eapply as_size_ok; eassumption. Qed.
Lemma as_exact_packed_size : exact_packed_size_for p (strings any_text) (2 ^ 32) (as_packed_size p).
Proof.
  intros ms bs H _ L; unfold as_packed_size.
  rewrite (packed_size_ok p (as_size p) ms bs W); [| |exact H].
  - cbn [returning]; rewrite Z.mod_small by lia; reflexivity.
  - intros t s v b D WI I; eapply as_size_ok; [eassumption..|].
    pose proof (wire_packed_length p ms bs t v b W H WI I); lia.
Qed.
End Packed.

(** ** Fresh objects *)

Lemma as_fresh p t s : WF p -> ~ In "boolean"%string (declared_names p) -> ~ In "bigint"%string (declared_names p) ->
  declares p t s -> fresh p t (VStruct (as_init p (depth_of p) t)).
Proof.
  intros W NB NI D.
  pose (def := fun d m =>
         if v_list m then VList []
         else if as_is p (v_type m) "bigint" then VUndef
         else if as_is p (v_type m) "boolean" then VBool false
         else if as_is p (v_type m) "string" then VStr []
         else match lookup (v_type m) (p_enums p) with
         | Some e => match get_default_pair e with Some (_, z) => VInt z | None => VUndef end
         | None => if mem (v_type m) (p_structs p) then VStruct (as_init p d (v_type m)) else as_zero (v_type m)
         end).
  apply (init_fresh p W (as_init p) def) with (s := s); [| |exact D|now apply WF_fits_any].
  - intros d t' s' D'; cbn [as_init]; rewrite (find_declares p W t' s' D'); reflexivity.
  - intros d t' s' m D' I; unfold def; destruct (v_list m); [reflexivity|].
    destruct (type_cases p (v_type m) W (wf_member_types p W t' s' m D' I)) as [k K M S E L| E1 E L|e k K M S IE E KE _|s'' K M S E L].
    + assert (X : (if as_is p (v_type m) "bigint" then VUndef
         else if as_is p (v_type m) "boolean" then VBool false
         else if as_is p (v_type m) "string" then VStr [] else as_zero (v_type m)) = zero_of k).
      { clear - K; revert K; generalize (v_type m); intros t K; num_cases K; reflexivity. }
      rewrite E; unfold mem; rewrite L, X; now apply default_num.
    + rewrite E1 in *; cbn; now apply default_str.
    + assert (X : as_type p (v_type m) = Some (v_type m)).
      { unfold as_type; rewrite as_types_none by assumption.
        rewrite (proj2 (existsb_exists _ _)); [reflexivity|]; exists (v_type m); split; [|apply String.eqb_refl].
        unfold declared_names; rewrite !in_app_iff; right; right; change (v_type m) with (fst (v_type m, e)); now apply in_map. }
      assert (IN : In (v_type m) (declared_names p)).
      { unfold declared_names; rewrite !in_app_iff; right; right; change (v_type m) with (fst (v_type m, e)); now apply in_map. }
      unfold as_is; rewrite X, (proj2 (String.eqb_neq _ "bigint")), (proj2 (String.eqb_neq _ "boolean")) by congruence.
      rewrite S, E; unfold get_default_pair.
      destruct (wf_enum_values p W _ e IE) as [NE _].
      destruct (e_values e) as [|[n z] r] eqn:EV; [now contradiction NE|]; cbn [hd_error].
      eapply default_enum; eassumption.
    + assert (IN : In (v_type m) (declared_names p)).
      { unfold declared_names; rewrite !in_app_iff; left; apply lookup_In in L.
        change (v_type m) with (fst (v_type m, s'')); now apply in_map. }
      assert (X : as_type p (v_type m) = Some (v_type m)).
      { unfold as_type; rewrite as_types_none by assumption.
        rewrite (proj2 (existsb_exists _ _)); [reflexivity|]; exists (v_type m); split; [exact IN|apply String.eqb_refl]. }
      unfold as_is; rewrite X, (proj2 (String.eqb_neq _ "bigint")), (proj2 (String.eqb_neq _ "boolean")) by congruence.
      rewrite S, E; unfold mem; rewrite L; eapply default_struct; eassumption.
Qed.
