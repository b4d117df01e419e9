(** Proofs for PropC.v. *)
From Coq Require Import Permutation.
From Verif Require Export CStreamFacts CWriteFacts LangSampleFacts.
Open Scope string_scope.
Open Scope Z_scope.
Open Scope list_scope.

(** ** From the hypotheses of the theorems to those of the proofs *)

Lemma has_dup_false l : NoDup l -> has_dup_str l = false.
Proof. intro H; now apply has_dup_str_false. Qed.

Lemma ordered_from p : WF p -> in_order p -> forall a l, p_structs p = a ++ l -> c_ordered p (map fst a) l = true.
Proof.
  intros W O a l; revert a; induction l as [|[n s] l IH]; intros a E; cbn [c_ordered]; [reflexivity|].
  apply andb_true_iff; split.
  - apply forallb_forall; intros m I; apply orb_true_iff; destruct (mem (v_type m) (p_structs p)) eqn:M; [right|now left].
    assert (S : is_struct p (v_type m)).
    { unfold mem in M; destruct (lookup (v_type m) (p_structs p)) as [s'|] eqn:L; [|discriminate].
      exists s'; now apply lookup_In. }
    assert (N : nth_error (p_structs p) (List.length a) = Some (n, s)).
    { rewrite E, nth_error_app2, Nat.sub_diag by lia; reflexivity. }
    destruct (O _ n s m N I S) as (j & s' & LT & NJ); rewrite E, nth_error_app1 in NJ by exact LT.
    apply in_strs_true, in_map_iff; exists (v_type m, s'); split; [reflexivity|now apply nth_error_In in NJ].
  - specialize (IH (a ++ [(n, s)])); rewrite map_app in IH; apply IH; rewrite <- app_assoc; exact E.
Qed.

Lemma c_compiles_ok p : WF p -> c_builds p -> c_compiles p = true.
Proof.
  intros W ((N & F) & O & L); unfold c_compiles.
  apply andb_true_iff; split; [apply andb_true_iff; split; [apply andb_true_iff; split|]|].
  - now apply negb_true_iff, has_dup_false.
  - apply forallb_forall; intros [t s] I; cbn [snd]; apply negb_true_iff, has_dup_false, (F t s).
    apply in_app_iff in I; exact I.
  - exact (ordered_from p W O [] (p_structs p) eq_refl).
  - destruct L as [L|L]; [rewrite L, String.eqb_refl; apply orb_true_r|].
    apply orb_true_iff; left; apply negb_true_iff, not_true_iff_false; intro X; unfold c_has_string_list in X.
    apply existsb_exists in X as ([t s] & I & X); apply existsb_exists in X as (m & IM & X); cbn [snd] in IM.
    apply andb_true_iff in X as [V S]; apply String.eqb_eq in S; apply in_app_iff in I; exact (L t s m I IM V S).
Qed.

Lemma c_use p (X : Prop) : (WF p -> c_compiles p = true -> X) -> accepted p -> c_builds p -> X.
Proof. intros H A N; pose proof (accepted_WF p A) as W; apply H; [exact W|now apply c_compiles_ok]. Qed.
Lemma c_use_lens M p (X : Prop) : (WF p -> c_compiles p = true -> lens_ok M p -> X) ->
  accepted p -> c_builds p -> sane M -> c_counts p -> X.
Proof.
  intros H A N S C; pose proof (accepted_WF p A) as W; apply H; [exact W|now apply c_compiles_ok|now apply sane_lens].
Qed.

Section Uses.
Variable M : machine.
Variable p : protocol.
Hypothesis W : WF p.
Hypothesis COMPILES : c_compiles p = true.

Lemma c_fills : c_writer_does fills p (c_write_bytes p).
Proof. intros t s fs v bs D V B; apply (writes_fills c_wt); [reflexivity|]; now apply (c_write_ok p W COMPILES t s fs v). Qed.
Lemma c_refuses : c_writer_does refuses_short p (c_write_bytes p).
Proof. intros t s fs v bs D V B; apply (writes_refuses c_wt); [reflexivity|]; now apply (c_write_ok p W COMPILES t s fs v). Qed.
Lemma c_tag_fills : c_tagged_does fills p (c_write_tagged p).
Proof. intros m fs bs V B; apply (writes_fills c_wt); [reflexivity|]; now apply (c_write_tagged_ok p W COMPILES). Qed.
Lemma c_tag_refuses : c_tagged_does refuses_short p (c_write_tagged p).
Proof. intros m fs bs V B; apply (writes_refuses c_wt); [reflexivity|]; now apply (c_write_tagged_ok p W COMPILES). Qed.
Lemma c_sized : c_exact_size p (c_size p).
Proof. intros t fs v bs [s I] V B L; now apply (c_size_ok p W COMPILES t s fs v). Qed.
Lemma c_packed_sized : c_exact_packed_size p (c_packed_size p).
Proof. intros fss ms bs F B L; now apply (c_packed_size_ok p W COMPILES fss ms). Qed.

(** Exact objects. *)
Lemma collect_mono {A B} (f g : A -> option B) l bs : (forall a b, In a l -> f a = Some b -> g a = Some b) ->
  collect f l = Some bs -> collect g l = Some bs.
Proof.
  revert bs; induction l as [|a l IH]; intros bs H C; cbn [collect] in *; [exact C|].
  destruct (f a) as [b|] eqn:F; [|discriminate]; destruct (collect f l) as [bs'|] eqn:C'; [|discriminate].
  rewrite (H a b (or_introl eq_refl) F), (IH bs' (fun a b I => H a b (or_intror I)) eq_refl); exact C.
Qed.
Lemma holds_exact n size : holds true n size = true -> holds false n size = true.
Proof. unfold holds; intro H; apply andb_true_iff in H as [-> H]; apply Z.eqb_eq in H; subst; cbn; apply Z.leb_refl. Qed.
Lemma text_exact l d v : c_text true l d = Some v -> c_text false l d = Some v.
Proof.
  destruct l as [[[z| | | | |]| | | | |]|]; try discriminate; destruct d as [[|b bs| | | |]|]; try discriminate.
  cbn [c_text negb orb]; intro H.
  destruct (holds true (z + 1) (List.length bs)) eqn:X; cbn [andb] in H; [|discriminate].
  destruct (0 <=? z) eqn:Y; cbn [andb] in H; [|discriminate].
  assert (X' : holds false z (List.length bs) = true).
  { unfold holds in X |- *; rewrite Y; apply andb_true_iff in X as [_ X]; apply Z.eqb_eq in X; apply Z.leb_le; lia. }
  rewrite X'; cbn [andb]; destruct (last bs x01 =? x00)%byte; [exact H|discriminate].
Qed.
Lemma cell_exact q (f g : string -> cfields -> option val) t c v : (forall fs v, f t fs = Some v -> g t fs = Some v) ->
  c_cell q f t c = Some v -> c_cell q g t c = Some v.
Proof. intro H; unfold c_cell; destruct c; auto; destruct (mem t (p_structs q)); auto. Qed.
Lemma exact_loose : forall d t fs v, c_value true p d t fs = Some v -> c_value false p d t fs = Some v.
Proof.
  induction d as [|d IH]; intros t fs v H; [discriminate|]; cbn [c_value] in *.
  destruct (find_struct p t) as [s|]; [|discriminate].
  destruct (collect _ (s_members s)) as [vs|] eqn:C; [|discriminate].
  erewrite collect_mono; [exact H| |exact C].
  intros m b _ E; cbn beta in E; destruct (c_member true p (c_value true p d) fs m) as [x|] eqn:CM; [|discriminate].
  enough (Y : c_member false p (c_value false p d) fs m = Some x) by (rewrite Y; exact E).
  clear - CM IH; unfold c_member in *; cbv zeta in *; destruct (v_list m).
  - unfold c_list in *; destruct (c_int (c_len (v_name m)) fs) as [z|]; [|discriminate].
    cbn [negb andb] in *; destruct (z =? 0) eqn:Z0.
    { destruct (lookup (v_name m) fs) as [[| |b cells| | |]|]; try discriminate.
      apply Z.eqb_eq in Z0; subst z; destruct (holds true 0 _); [|discriminate].
      destruct (String.eqb (v_type m) "string"); [|exact CM].
      destruct (lookup (c_els_len (v_name m)) fs) as [[| |b' ls| | |]|]; try discriminate.
      destruct (holds true 0 _); [exact CM|discriminate]. }
    destruct (lookup (v_name m) fs) as [[| |b cells| | |]|]; try discriminate.
    destruct (holds true z (List.length cells)) eqn:X; [|discriminate]; rewrite (holds_exact _ _ X).
    destruct (String.eqb (v_type m) "string").
    + destruct (lookup (c_els_len (v_name m)) fs) as [[| |b' ls| | |]|]; try discriminate.
      destruct (holds true z (List.length ls)) eqn:X'; [|discriminate]; rewrite (holds_exact _ _ X').
      destruct (collect _ (combine _ _)) as [vs|] eqn:C; [|discriminate].
      erewrite collect_mono; [exact CM| |exact C]; intros a0 b0 _; apply text_exact.
    + destruct (collect _ (firstn _ cells)) as [vs|] eqn:C; [|discriminate].
      erewrite collect_mono; [exact CM| |exact C]; intros a0 b0 _; apply cell_exact; auto.
  - destruct (String.eqb (v_type m) "string"); [now apply text_exact|].
    destruct (lookup (v_name m) fs); [|discriminate]; revert CM; apply cell_exact; auto.
Qed.
Lemma exactly_stands t fs v : exactly p t fs v -> stands_for p t fs v.
Proof. apply exact_loose. Qed.

Lemma c_written_back next t s v bs before after : declares p t s -> wire p t v bs -> c_fits M v ->
  exists c, c_from_bytes M p t (before ++ bs ++ after) (List.length before) next = COk c /\
    exactly p t (c_fs c) v /\ fills (c_write_bytes p t (c_fs c)) bs.
Proof.
  intros D B F; pose proof (c_reads_back M p W COMPILES next strict t s v bs before after (or_introl eq_refl) D B F) as R.
  unfold c_reader in R; destruct (c_from_bytes M p t (before ++ bs ++ after) (List.length before) next) as [c|c| | |];
    cbn [erased] in R; try discriminate.
  destruct (c_value true p (depth_of p) t (c_fs c)) as [v'|] eqn:V; cbn [option_map] in R; [|discriminate].
  injection R as -> _; exists c; split; [reflexivity|]; split; [exact V|].
  apply (c_fills t s (c_fs c) v bs D); [now apply exactly_stands|exact B].
Qed.

Hypothesis LENS : lens_ok M p.
Lemma c_lengths next t s inp pos c : declares p t s -> c_from_bytes M p t inp pos next = COk c ->
  exists v, exactly p t (c_fs c) v.
Proof.
  intros D E; pose proof (c_answers_trap M p W COMPILES LENS next t s inp pos D) as A; unfold c_reader in A; rewrite E in A.
  cbn [erased] in A; unfold exactly; destruct (c_value true p (depth_of p) t (c_fs c)) as [v|]; [now exists v|].
  cbn in A; contradiction.
Qed.
Lemma c_released next t s inp pos c : declares p t s -> c_from_bytes M p t inp pos next = COk c ->
  exists ids, c_cleanup p s (c_fs c) = Some ids /\ each_once next (c_next c) ids.
Proof.
  intros D E; destruct (c_clean M p W COMPILES LENS t s inp pos next c D E) as (L & ids & C & P).
  exists ids; split; [exact C|now apply once].
Qed.
Lemma c_stream_released max inp pos next s : c_process M p max inp pos next = COk s ->
  exists ids, c_destroy_list p next (cs_msgs s) = Some ids /\ each_once next (cs_next s) ids.
Proof.
  intro E; destruct (c_process_clean M p W COMPILES LENS max inp pos next s E) as (L & ids & C & P).
  exists ids; split; [exact C|apply once; [lia|exact P]].
Qed.
Lemma c_packed_released data next s : c_unpack M p data 0 next = COk s ->
  exists ids, c_destroy_list p next (cs_msgs s) = Some ids /\ each_once next (cs_next s) ids.
Proof.
  intro E; destruct (c_unpack_clean M p W COMPILES LENS data next s E) as (L & ids & C & P).
  exists ids; split; [exact C|apply once; [lia|exact P]].
Qed.
End Uses.

(** ** Deciding the conditions *)

Lemma ordered_inv p : WF p -> forall l a, p_structs p = a ++ l -> c_ordered p (map fst a) l = true ->
  forall i t s m, nth_error l i = Some (t, s) -> In m (s_members s) -> is_struct p (v_type m) ->
  exists j s', (j < List.length a + i)%nat /\ nth_error (p_structs p) j = Some (v_type m, s').
Proof.
  intros W; induction l as [|[n s0] l IH]; intros a E C i t s m N I S; [destruct i; discriminate|].
  cbn [c_ordered] in C; apply andb_true_iff in C as [C1 C2]; destruct i as [|i]; cbn [nth_error] in N.
  - injection N as -> ->; rewrite forallb_forall in C1; specialize (C1 m I).
    destruct S as [s' S]; unfold mem in C1; rewrite (In_lookup _ _ _ (wf_structs_nodup p W) S) in C1; cbn in C1.
    apply in_strs_true, in_map_iff in C1 as ([x y] & EX & IX); cbn [fst] in EX; subst x.
    apply In_nth_error in IX as [j NJ]; assert (L : (j < List.length a)%nat) by (apply nth_error_Some; congruence).
    exists j, y; split; [lia|]; rewrite E, nth_error_app1 by exact L; exact NJ.
  - specialize (IH (a ++ [(n, s0)])); rewrite map_app, <- app_assoc in IH.
    destruct (IH E C2 i t s m N I S) as (j & s' & L & NJ); exists j, s'; split; [rewrite app_length in L; cbn in L; lia|exact NJ].
Qed.
Lemma c_builds_ok p : WF p -> c_compiles p = true -> c_builds p.
Proof.
  intros W C; pose proof (c_compiles_inv p C) as N; unfold c_compiles in C.
  apply andb_true_iff in C as [C C3]; apply andb_true_iff in C as [_ C2].
  split; [exact N|]; split.
  - intros i t s m NE I S; exact (ordered_inv p W (p_structs p) [] eq_refl C2 i t s m NE I S).
  - apply orb_true_iff in C3 as [C3|C3]; [right|left; now apply String.eqb_eq].
    intros t s m D I V E; apply negb_true_iff in C3; unfold c_has_string_list in C3.
    assert (X : existsb (fun s => existsb (fun m => v_list m && String.eqb (v_type m) "string") (s_members (snd s)))
                        (p_structs p ++ p_messages p) = true).
    { apply existsb_exists; exists (t, s); split; [now apply in_app_iff|]; apply existsb_exists; exists m; split; [exact I|].
      rewrite V, E; reflexivity. }
    congruence.
Qed.
Lemma c_compiles_iff p : WF p -> (c_compiles p = true <-> c_builds p).
Proof. intro W; split; [now apply c_builds_ok|now apply c_compiles_ok]. Qed.
Ltac builds_tac := apply c_builds_ok; [apply accepted_WF|vm_compute; reflexivity].

(** ** The samples *)

(** A machine with a terabyte. *)
Definition big : machine := {| mc_alloc := fun z => (0 <=? z) && (z <? 2 ^ 40); mc_sizeof := fun _ => 64 |}.
(** One whose malloc does not return a block of no bytes. *)
Definition strict_malloc : machine := {| mc_alloc := fun z => (0 <? z) && (z <? 2 ^ 40); mc_sizeof := fun _ => 64 |}.
Lemma big_sane : sane big.
Proof. split; cbn; intros; lia. Qed.
Lemma strict_sane : sane strict_malloc.
Proof. split; cbn; intros; lia. Qed.
Lemma big_list n : Z.of_nat n <= 2 ^ 30 -> c_list_fits big n.
Proof.
  intros L t; assert (R : 1 <= c_sizeof big t <= 64).
  { unfold c_sizeof; destruct (c_type t) as [[]|]; try destruct (String.eqb t "string"); cbn; lia. }
  cbn [mc_alloc big]; split; [nia|]; apply andb_true_iff; split; [apply Z.leb_le; nia|apply Z.ltb_lt; nia].
Qed.
Lemma big_text s : Z.of_nat (List.length s) <= 2 ^ 30 -> c_text_fits big s.
Proof. intro L; split; [lia|]; cbn [mc_alloc big]; lia. Qed.

Lemma lists_more (P Q : nat -> Prop) v : (forall n, P n -> Q n) -> lists P v -> lists Q v.
Proof. intros H L; induction L; constructor; auto. Qed.

Lemma photos_builds : c_builds photos.
Proof. builds_tac; exact photos_accepted. Qed.
Lemma photos_c : c_counts photos /\ small_unsigned (p_string_size_type photos).
Proof. split; [split; discriminate|unfold small_unsigned; cbn; tauto]. Qed.
Lemma photo_fits : c_fits big photo.
Proof.
  split; unfold photo; [strings_tac; apply big_text; cbn; lia|].
  apply (lists_more modest); [intros n H; apply big_list; unfold modest in H; lia|lists_tac].
Qed.
Definition photo_object : cfields :=
  [("_mt", CNum (VInt 1)); ("title_len", CNum (VInt 2)); ("title", CStr (Some 5%nat) (text "us" ++ [x00]));
   ("moods_len", CNum (VInt 1)); ("moods", CArr 6 [CNum (VInt 1)]);
   ("faces_len", CNum (VInt 1));
   ("faces", CArr 7 [CStruct [("label_len", CNum (VInt 1)); ("label", CStr (Some 8%nat) (text "A" ++ [x00]));
                              ("at", CStruct [("x", CNum (VInt 1)); ("y", CNum (VInt (-2)))])]])].
Lemma photo_stands : stands_for photos "Photo" photo_object photo /\ message_for photos photo_object ("Photo", photo).
Proof.
  assert (V : stands_for photos "Photo" photo_object photo) by (vm_compute; reflexivity).
  split; [exact V|]; split; [exact V|]; exists 1; split; [apply (numbered_at photos "Photo" 0%nat) with (1 := eq_refl)|reflexivity].
Qed.
Lemma two_photos_fit : all_values (c_fits big) two_photos.
Proof. repeat (constructor; [exact photo_fits|]); constructor. Qed.
Lemma two_photos_stand : Forall2 (message_for photos) [photo_object; photo_object] two_photos.
Proof. repeat (constructor; [exact (proj2 photo_stands)|]); constructor. Qed.
Lemma photo_read : exists c, c_from_bytes big photos "Photo" photo_bytes 0 3 = COk c.
Proof. eexists; vm_compute; reflexivity. Qed.
Lemma two_photos_read : exists s, c_process big photos (-1) two_photos_bytes 0 3 = COk s.
Proof. eexists; vm_compute; reflexivity. Qed.
Lemma two_photos_unpacked : exists s, c_unpack big photos packed_photos_bytes 0 3 = COk s.
Proof. eexists; vm_compute; reflexivity. Qed.
Lemma pose_created : exists s, In ("Pose", s) (p_messages (pose "x" "y")) /\
  forall m, In m (s_members s) -> v_list m = false /\ v_type m <> "string".
Proof. eexists; split; [left; reflexivity|]; intros m [<-|[]]; split; [reflexivity|discriminate]. Qed.

(** ** Counterexamples *)

(** The documentation's own example has a list of strings. *)
Lemma C31_c : exists p t v bs, accepted p /\ c_names p /\ in_order p /\ is_message_name p t /\ wire p t v bs /\
  forall M next, c_reader M p next t bs 0%nat = RStuck.
Proof.
  exists annotated, "CharacterJoinedTeam", joined_team, joined_team_bytes.
  assert (W : WF annotated) by apply accepted_WF, annotated_accepted_proof.
  split; [exact annotated_accepted_proof|]; split.
  { split; [apply has_dup_str_false; vm_compute; reflexivity|].
    intros t s D; apply has_dup_str_false; apply in_app_iff in D; revert t s D.
    assert (X : forallb (fun s => negb (has_dup_str (c_field_names (snd s)))) (p_structs annotated ++ p_messages annotated) = true)
      by (vm_compute; reflexivity).
    rewrite forallb_forall in X; intros t s D; specialize (X (t, s) D); now apply negb_true_iff. }
  split. { intros i t s m NE I S; refine (ordered_inv annotated W (p_structs annotated) [] eq_refl _ i t s m NE I S); vm_compute; reflexivity. }
  split; [eexists; right; right; left; reflexivity|]; split; [exact joined_team_wire|].
  intros M next; vm_compute; reflexivity.
Qed.

(** Names and order. *)
Lemma C32_c_order : exists p, accepted p /\ c_names p /\ c_compiles p = false.
Proof.
  exists backwards; split; [accepted_tac backwards_toml|]; split; [|vm_compute; reflexivity].
  split; [apply has_dup_str_false; vm_compute; reflexivity|].
  intros t s D; apply has_dup_str_false; apply in_app_iff in D; revert t s D.
  assert (X : forallb (fun s => negb (has_dup_str (c_field_names (snd s)))) (p_structs backwards ++ p_messages backwards) = true)
    by (vm_compute; reflexivity).
  rewrite forallb_forall in X; intros t s D; specialize (X (t, s) D); now apply negb_true_iff.
Qed.
Lemma C32_c_field : exists p, accepted p /\ c_compiles p = false.
Proof. exists (counted "byte"); split; [accepted_tac (counted_toml "byte")|vm_compute; reflexivity]. Qed.
Lemma C32_c_type : exists p, accepted p /\ c_compiles p = false.
Proof. exists (two_types "DataAccess" "Note"); split; [accepted_tac (two_types_toml "DataAccess" "Note")|vm_compute; reflexivity]. Qed.
Lemma C32_c_enums : exists p, accepted p /\ c_compiles p = false.
Proof. exists (two_enums "A" "B_C" "A_B" "C"); split; [accepted_tac (two_enums_toml "A" "B_C" "A_B" "C")|vm_compute; reflexivity]. Qed.

Lemma notes_builds : c_builds notes.
Proof. builds_tac; exact notes_accepted. Qed.

(** Create. *)
Lemma C30_c : exists p t s, accepted p /\ c_builds p /\ In (t, s) (p_messages p) /\
  (forall v, ~ stands_for p t (c_create p s) v) /\ c_size p t (c_create p s) = MCrash.
Proof.
  exists notes, "Note", (MkStruct "Note" [MkVar "body" "string" false] true).
  split; [exact notes_accepted|]; split; [exact notes_builds|]; split; [now left|].
  split; [intros v H; vm_compute in H; discriminate|vm_compute; reflexivity].
Qed.
Lemma C42_c : exists p t s, accepted p /\ c_builds p /\ In (t, s) (p_messages p) /\
  c_cleanup p s (c_create p s) = None.
Proof.
  exists notes, "Note", (MkStruct "Note" [MkVar "body" "string" false] true).
  split; [exact notes_accepted|]; split; [exact notes_builds|]; split; [now left|]; vm_compute; reflexivity.
Qed.
Lemma C43_c : exists M p max inp s, accepted p /\ c_builds p /\ sane M /\
  c_process M p max inp 0 0 = CErr s /\ c_destroy_list p 0 (cs_msgs s) = None.
Proof.
  exists big, notes, (-1), [x01; x05; x61]; eexists.
  split; [exact notes_accepted|]; split; [exact notes_builds|]; split; [exact big_sane|].
  split; [vm_compute; reflexivity|vm_compute; reflexivity].
Qed.

(** A malloc that has no blocks without bytes. *)
Lemma C12_c_empty : exists M p t v bs, sane M /\ accepted p /\ c_builds p /\ is_message_name p t /\ wire p t v bs /\
  forall next, c_reader M p next t bs 0%nat = RErr.
Proof.
  exists strict_malloc, (numbers "byte"), "Numbers", (some_numbers []), [x00].
  assert (A : accepted (numbers "byte")) by accepted_tac (numbers_toml "byte").
  split; [exact strict_sane|]; split; [exact A|]; split; [builds_tac; exact A|].
  split; [eexists; left; reflexivity|]; split; [wire_tac|]; intro next; vm_compute; reflexivity.
Qed.

(** Undefined behaviour. *)
Definition wrapping := ([x00; x00; x00; x00; x00; x00; x00; x20] ++ repeat x00 8).
Lemma for_fails M p inp call n body i s z : c_int n (c_fs s) = Some z -> 0 < z ->
  cexec M p inp call body 0 s = CUB -> cexec_stmt M p inp call (CFor n body) i s = CUB.
Proof.
  intros E L H; cbn [cexec_stmt]; rewrite E.
  destruct (Z.to_nat z) as [|k] eqn:K; [lia|].
  assert (G : (fix go (l : list cstmt) (s : cst) : cres cst :=
                 match l with [] => COk s | a :: r => cbind (cexec_stmt M p inp call a 0 s) (go r) end) body s
              = cexec M p inp call body 0 s).
  { clear; revert s; induction body as [|a l IH]; intro s; cbn [cexec]; [reflexivity|].
    destruct (cexec_stmt M p inp call a 0 s); cbn [cbind]; auto. }
  rewrite G, H; reflexivity.
Qed.
Lemma cexec_app M p inp call a b i s : cexec M p inp call (a ++ b) i s = cbind (cexec M p inp call a i s) (cexec M p inp call b i).
Proof.
  revert s; induction a as [|x a IH]; intro s; cbn [List.app cexec cbind]; [reflexivity|].
  destruct (cexec_stmt M p inp call x i s); cbn [cbind]; auto.
Qed.
Lemma wraps next : c_from_bytes big (doubles "uint64") "Numbers" wrapping 0 next = CUB.
Proof.
  unfold c_from_bytes; replace (c_compiles (doubles "uint64")) with true by (vm_compute; reflexivity).
  change (depth_of (doubles "uint64")) with 1%nat; cbn [c_run].
  change (find_struct (doubles "uint64") "Numbers") with (Some (MkStruct "Numbers" [MkVar "items" "double" true] true)).
  cbv iota; cbn [s_members].
  change (flat_map (c_read (doubles "uint64")) [MkVar "items" "double" true])
    with ([CRead (LField "items_len") NU64; CMalloc "items" "double" "items_len"; CIfNull "items"] ++
          [CFor "items_len" [CRead (LElem "items") NF64]]).
  rewrite cexec_app.
  match goal with |- cbind ?x _ = _ => let y := eval vm_compute in x in replace x with y by (vm_compute; reflexivity) end.
  cbn [cbind cexec]; rewrite for_fails with (z := 2 ^ 61); [reflexivity|reflexivity|lia|].
  cbn [cexec]; reflexivity.
Qed.
Lemma C40_c_list : exists M p t inp, sane M /\ accepted p /\ c_builds p /\ is_message_name p t /\
  forall next, c_from_bytes M p t inp 0 next = CUB.
Proof.
  exists big, (doubles "uint64"), "Numbers", wrapping.
  assert (A : accepted (doubles "uint64")) by accepted_tac (doubles_toml "uint64").
  split; [exact big_sane|]; split; [exact A|]; split; [builds_tac; exact A|]; split; [eexists; left; reflexivity|].
  exact wraps.
Qed.
Lemma C40_c_string : exists M p t inp, sane M /\ accepted p /\ c_builds p /\ c_counts p /\ is_message_name p t /\
  forall next, c_from_bytes M p t inp 0 next = CUB.
Proof.
  exists big, (sized_notes "int16"), "Note", [xff; xff].
  assert (A : accepted (sized_notes "int16")) by accepted_tac (sized_notes_toml "int16").
  split; [exact big_sane|]; split; [exact A|]; split; [builds_tac; exact A|]; split; [split; discriminate|].
  split; [eexists; left; reflexivity|]; intro next; vm_compute; reflexivity.
Qed.
Lemma C29_c_short : exists p inp, accepted p /\ c_builds p /\ forall M next, c_unpack M p inp 0 next = CUB.
Proof.
  exists photos, (text "BSC"); split; [exact photos_accepted|]; split; [exact photos_builds|].
  intros M next; vm_compute; reflexivity.
Qed.
(** In the middle of a buffer. *)
Lemma C27_c_middle : exists p inp pos, accepted p /\ c_builds p /\ (exists ms bs, skipn pos inp = bs /\ wire_packed strict p ms bs) /\
  forall M next, exists s, c_unpack M p inp pos next = CErr s.
Proof.
  exists photos, (repeat x00 4 ++ packed_photos_bytes), 4%nat; split; [exact photos_accepted|]; split; [exact photos_builds|].
  split; [do 2 eexists; split; [reflexivity|exact two_photos_packed]|].
  intros M next; eexists; vm_compute; reflexivity.
Qed.
Lemma C27_c_pack_middle : exists p fss ms bs buf w', accepted p /\ c_builds p /\ Forall2 (message_for p) fss ms /\
  wire_packed strict p ms bs /\ c_pack p fss {| w_buf := [x07] ++ buf; w_pos := 1 |} = WDone w' /\
  firstn (w_pos w') (w_buf w') <> [x07] ++ bs.
Proof.
  exists photos, [photo_object; photo_object], two_photos, packed_photos_bytes, (repeat x00 59); eexists.
  split; [exact photos_accepted|]; split; [exact photos_builds|]; split; [exact two_photos_stand|]; split; [exact two_photos_packed|].
  split; [vm_compute; reflexivity|vm_compute; discriminate].
Qed.
Lemma C23_c_pack : exists p fss ms bs buf w', accepted p /\ c_builds p /\ Forall2 (message_for p) fss ms /\
  wire_packed strict p ms bs /\ (List.length buf < List.length bs)%nat /\
  c_pack p fss {| w_buf := buf; w_pos := 0 |} = WDone w'.
Proof.
  exists photos, [photo_object; photo_object], two_photos, packed_photos_bytes, (repeat x00 58); eexists.
  split; [exact photos_accepted|]; split; [exact photos_builds|]; split; [exact two_photos_stand|]; split; [exact two_photos_packed|].
  split; [cbn; lia|vm_compute; reflexivity].
Qed.

(** Two gigabytes. *)
Definition doubles_object (cells : list cval) : cfields :=
  [("_mt", CNum (VInt 1)); ("items_len", CNum (VInt (2 ^ 28))); ("items", CArr 0 cells)].
Lemma collect_repeat {A B} (f : A -> option B) a b n : f a = Some b -> collect f (repeat a n) = Some (repeat b n).
Proof. intro E; induction n as [|n IH]; cbn [repeat collect]; [reflexivity|]; now rewrite E, IH. Qed.
Lemma firstn_repeat {A} (a : A) n : firstn n (repeat a n) = repeat a n.
Proof. rewrite <- (repeat_length a n) at 1; apply firstn_all. Qed.
Lemma doubles_stand n : Z.of_nat n = 2 ^ 28 ->
  stands_for (doubles "int32") "Numbers" (doubles_object (repeat (CNum (VInt 0)) n)) (VStruct [("items", VList (repeat (VInt 0) n))]).
Proof.
  intro EN; assert (TN : Z.to_nat (2 ^ 28) = n) by (rewrite <- EN; apply Nat2Z.id).
  unfold stands_for; change (depth_of (doubles "int32")) with 1%nat; cbn [c_value].
  change (find_struct (doubles "int32") "Numbers") with (Some (MkStruct "Numbers" [MkVar "items" "double" true] true)).
  cbv iota; cbn [s_members collect]; unfold c_member, c_list; cbn [v_list v_name v_type].
  change (c_int (c_len "items") (doubles_object (repeat (CNum (VInt 0)) n))) with (Some (2 ^ 28)).
  change (lookup "items" (doubles_object (repeat (CNum (VInt 0)) n))) with (Some (CArr 0 (repeat (CNum (VInt 0)) n))).
  cbv iota; change (negb false && (2 ^ 28 =? 0)) with false; cbv iota.
  rewrite repeat_length; unfold holds; rewrite EN, Z.leb_refl; change (0 <=? 2 ^ 28) with true; cbn [andb].
  change (String.eqb "double" "string") with false; cbv iota; rewrite TN, firstn_repeat.
  rewrite (collect_repeat _ _ (VInt 0)) by reflexivity; reflexivity.
Qed.
Lemma doubles_size cells : c_size (doubles "int32") "Numbers" (doubles_object cells) = MCrash.
Proof. vm_compute; reflexivity. Qed.
Lemma C19_c : exists p t fs v, accepted p /\ c_builds p /\ is_message_name p t /\ stands_for p t fs v /\
  (exists n, Z.of_nat n = 2 ^ 28 /\ v = VStruct [("items", VList (repeat (VInt 0) n))]) /\ c_size p t fs = MCrash.
Proof.
  assert (A : accepted (doubles "int32")) by accepted_tac (doubles_toml "int32").
  assert (B : c_builds (doubles "int32")) by (builds_tac; exact A).
  assert (N : exists n, Z.of_nat n = 2 ^ 28) by (eexists; apply Z2Nat.id; lia).
  destruct N as [n EN].
  exists (doubles "int32"), "Numbers", (doubles_object (repeat (CNum (VInt 0)) n)), (VStruct [("items", VList (repeat (VInt 0) n))]).
  split; [exact A|]; split; [exact B|]; split; [eexists; left; reflexivity|].
  split; [now apply doubles_stand|]; split; [now exists n|apply doubles_size].
Qed.
