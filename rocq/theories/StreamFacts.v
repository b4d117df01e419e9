(** Streams and packed buffers: what follows from correct readers and writers. *)
From Verif Require Export Stream ReaderFacts LooseFacts WriterFacts MeasureFacts PropWireFacts.
Open Scope Z_scope.
Open Scope list_scope.

(** ** Message numbers *)

Lemma count_from_case k l b t :
  tag_case b (count_from k l) = Some t <->
  exists i s, nth_error l i = Some (t, s) /\ b = k + Z.of_nat i.
Proof.
  revert k; induction l as [|[n s] l IH]; intro k; cbn [count_from tag_case].
  - split; [discriminate|intros (i & s & H & _); destruct i; discriminate].
  - destruct (Z.eqb_spec k b) as [->|N].
    + split.
      * intros [= ->]; exists 0%nat, s; split; [reflexivity|lia].
      * intros (i & s' & H & E); assert (i = 0%nat) by lia; subst; cbn in H; congruence.
    + rewrite IH; split.
      * intros (i & s' & H & E); exists (S i), s'; split; [exact H|lia].
      * intros (i & s' & H & E); destruct i; [lia|]; exists i, s'; split; [exact H|lia].
Qed.

Lemma count_from_of k l t : NoDup (map fst l) -> forall b,
  tag_of t (count_from k l) = Some b <-> exists i s, nth_error l i = Some (t, s) /\ b = k + Z.of_nat i.
Proof.
  revert k; induction l as [|[n s] l IH]; intros k ND b; cbn [count_from tag_of].
  - split; [discriminate|intros (i & s & H & _); destruct i; discriminate].
  - cbn in ND; inversion ND as [|? ? NI ND']; subst.
    destruct (String.eqb_spec n t) as [->|N].
    + split.
      * intros [= <-]; exists 0%nat, s; split; [reflexivity|lia].
      * intros (i & s' & H & E); destruct i as [|i]; [f_equal; lia|].
        exfalso; apply NI; cbn in H; apply nth_error_In in H; apply (in_map fst) in H; exact H.
    + rewrite IH by assumption; split.
      * intros (i & s' & H & E); exists (S i), s'; split; [exact H|lia].
      * intros (i & s' & H & E); destruct i; [cbn in H; congruence|]; exists i, s'; split; [exact H|lia].
Qed.

Lemma numbered_iff p t b : numbered p t b <-> exists i s, nth_error (p_messages p) i = Some (t, s) /\ b = 1 + Z.of_nat i.
Proof.
  split.
  - intros [u i s H]; exists i, s; split; [exact H|lia].
  - intros (i & s & H & ->); replace (1 + Z.of_nat i) with (Z.of_nat (S i)) by lia; econstructor; eassumption.
Qed.

Lemma case_numbered p b t : tag_case b (count_from 1 (p_messages p)) = Some t <-> numbered p t b.
Proof. rewrite count_from_case, numbered_iff; reflexivity. Qed.
Lemma case0_numbered p b t : tag_case (b - 1) (count_from 0 (p_messages p)) = Some t <-> numbered p t b.
Proof.
  rewrite count_from_case, numbered_iff; split; intros (i & s & H & E); exists i, s; (split; [exact H|lia]).
Qed.
Lemma of_numbered p b t : WF p -> tag_of t (count_from 1 (p_messages p)) = Some b <-> numbered p t b.
Proof. intro W; rewrite count_from_of, numbered_iff by apply W; reflexivity. Qed.

Lemma numbered_declares p t i : numbered p t i -> exists s, declares p t s.
Proof. intros [u j s H]; exists s; right; eapply nth_error_In; eassumption. Qed.

Lemma numbered_message p t i : numbered p t i -> exists s, In (t, s) (p_messages p).
Proof. intros [u j s H]; exists s; eapply nth_error_In; eassumption. Qed.

Lemma truncated_messages p trap rd : rejects_truncated p trap rd -> rejects_truncated_messages p trap rd.
Proof. intros H t s v bs before cut x rest I; apply (H t s); now right. Qed.
Lemma wire_messages p txt rd : only_wire p txt rd -> only_wire_messages p txt rd.
Proof. intros H t s inp pos v q I; apply (H t s); now right. Qed.

Lemma byte_tag_ok inp pos b rest : skipn pos inp = b :: rest ->
  byte_tag (read_num NByte) inp pos = ROk (Z_of_byte b) (pos + 1).
Proof.
  intro E; unfold byte_tag.
  rewrite (proj2 (read_num_got NByte inp pos (VInt (Z_of_byte b)) (pos + 1)%nat)); [reflexivity|].
  exists [b], rest; split; [exact E|split; [|reflexivity]].
  pose proof (Z_of_byte_range b).
  constructor; [discriminate|reflexivity|cbn; lia|].
  cbn [le_val num_size]; rewrite Z.mod_small; cbn; lia.
Qed.

(** The count behind the header of a packed buffer. *)
Lemma read_count inp pos nb rest n : skipn pos inp = header ++ nb ++ rest ->
  wire_num strict NU32 (VInt n) nb -> read_num NU32 inp (pos + 4) = Got (VInt n) (pos + 8).
Proof.
  intros E N; apply read_num_got; apply at_next in E; cbn [List.length header] in E.
  exists nb, rest; split; [exact E|]; inversion N as [? ? ? ? LN ? ?| |]; subst; split; [now constructor|].
  rewrite LN; cbn; lia.
Qed.
Lemma read_count_short inp pos c : skipn pos inp = header ++ c -> (List.length c < 4)%nat ->
  exists q, read_num NU32 inp (pos + 4) = Miss q.
Proof.
  intros E L; apply at_next in E; cbn [List.length header] in E.
  unfold read_num, bytes_at; cbn [num_size].
  destruct (Nat.leb_spec (pos + 4 + 4) (List.length inp)) as [H|H]; [|eauto].
  exfalso; apply (f_equal (@List.length byte)) in E; rewrite skipn_length in E; lia.
Qed.

(** ** Lists of messages *)

Lemma same_texts_length f ms0 ms : same_texts f ms0 ms -> List.length ms0 = List.length ms.
Proof. induction 1; cbn; congruence. Qed.

(** Messages that are read as others. *)
Definition taken (T : val -> val -> Prop) (ms0 ms : message_list) : Prop :=
  Forall2 (fun a b => fst a = fst b /\ T (snd a) (snd b)) ms0 ms.

Lemma taken_length T ms0 ms : taken T ms0 ms -> List.length ms0 = List.length ms.
Proof. induction 1; cbn; congruence. Qed.

Lemma taken_same md p (T : val -> val -> Prop) (Q : val -> Prop) :
  (forall t v bs, wire_in md p t v bs -> Q v -> T v v) ->
  forall ms bs, wire_stream md p ms bs -> all_values Q ms -> taken T ms ms.
Proof.
  intros TP ms bs H; induction H as [|m ms a b TG H IH]; intro F; [constructor|].
  inversion F; subst; constructor; [|now apply IH].
  split; [reflexivity|]; destruct TG as [t i v c bs N B WI]; eapply TP; eassumption.
Qed.

Lemma taken_total md p (T : val -> val -> Prop) (Q : val -> Prop) :
  (forall t v bs, wire_in md p t v bs -> Q v -> exists v', T v v') ->
  forall ms bs, wire_stream md p ms bs -> all_values Q ms -> exists ms', taken T ms ms'.
Proof.
  intros TP ms bs H; induction H as [|m ms a b TG H IH]; intro F; [exists []; constructor|].
  inversion F as [|x l S F']; subst; destruct (IH F') as [ms' E]; destruct TG as [t i v c bs N B WI].
  destruct (TP _ _ _ WI S) as [v' TX].
  exists ((t, v') :: ms'); constructor; [now split|exact E].
Qed.

Lemma taken_firstn md p (T : val -> val -> Prop) k ms0 : forall ms bs, wire_stream md p ms0 bs -> taken T ms0 ms ->
  exists a b, bs = a ++ b /\ wire_stream md p (firstn k ms0) a /\ taken T (firstn k ms0) (firstn k ms).
Proof.
  revert k; induction ms0 as [|m ms0 IH]; intros k ms bs H TK.
  - exists [], bs; rewrite firstn_nil; inversion TK; subst; rewrite firstn_nil; repeat split; constructor.
  - destruct k as [|k]; [exists [], bs; repeat split; constructor|].
    inversion H as [|? ? a b HT HS]; subst; inversion TK as [|? m' ? ms' TM TR]; subst.
    destruct (IH k ms' b HS TR) as (c & d & -> & W1 & T1).
    exists (a ++ c), d; split; [now rewrite app_assoc|]; split; constructor; assumption.
Qed.

Lemma same_texts_id f ms0 ms : (forall s, f s = Some s) -> same_texts f ms0 ms -> ms = ms0.
Proof.
  intros TI F; induction F as [|[t v] [t' v'] ms0 ms [E T] F IH]; [reflexivity|].
  cbn in *; subst; f_equal; f_equal; now apply (texted_id f).
Qed.

Lemma wire_stream_mode md md' p ms bs :
  (forall t v bs, wire_in md p t v bs -> wire_in md' p t v bs) ->
  wire_stream md p ms bs -> wire_stream md' p ms bs.
Proof.
  intros M H; induction H as [|m ms a b T H IH]; [constructor|].
  constructor; [|assumption]; destruct T; econstructor; eauto.
Qed.

Lemma stream_reading p ms bs : wire_stream strict p ms bs -> wire_stream reading p ms bs.
Proof. apply wire_stream_mode; intros; now apply (proj1 (wire_mode _ _ p strict_reading)). Qed.

Lemma wire_stream_long md p ms bs : WF p -> wire_stream md p ms bs -> (List.length ms <= List.length bs)%nat.
Proof.
  intros W H; induction H as [|m ms a b T H IH]; cbn [List.length]; [lia|].
  destruct (wire_tagged_nonempty _ _ _ _ W T) as (x & c & -> & _); rewrite app_length; cbn; lia.
Qed.

(** ** ProcessRawBytes *)

(** What an unpacker does behind the header and a complete count: it reads the rest,
    in place or as a part of its own. *)
Definition counts (S : stream) (p : protocol) (most : Z) (trap : bool) (up : unpacker) : Prop :=
  forall inp pos nb rest n, skipn pos inp = header ++ nb ++ rest -> wire_num strict NU32 (VInt n) nb ->
    (exists max pre off, up inp pos = shifted off (unpack_counted S p n max (pre ++ rest) (List.length pre)) /\
       (n <= most -> max = n) /\ (off + List.length pre = pos + 8)%nat) \/
    (most < n /\ fails trap (up inp pos)).

Lemma shifted_0 {A} (r : res A) : shifted 0 r = r.
Proof. now destruct r. Qed.

Lemma counts_here S p inp pos nb rest n max (u : res message_list) :
  skipn pos inp = header ++ nb ++ rest -> wire_num strict NU32 (VInt n) nb ->
  u = unpack_counted S p n max inp (pos + 8) ->
  exists pre off, u = shifted off (unpack_counted S p n max (pre ++ rest) (List.length pre)) /\
    (off + List.length pre = pos + 8)%nat.
Proof.
  intros E N ->; exists (firstn (pos + 8) inp), 0%nat; rewrite shifted_0.
  assert (LN : List.length nb = 4%nat) by (inversion N; subst; assumption).
  assert (E8 : skipn (pos + 8) inp = rest).
  { rewrite app_assoc in E; apply at_next in E; rewrite app_length, LN in E; exact E. }
  assert (LF : List.length (firstn (pos + 8) inp) = (pos + 8)%nat).
  { rewrite firstn_length; apply f_equal with (f := @List.length byte) in E.
    rewrite skipn_length, !app_length, LN in E; cbn [List.length header] in E; lia. }
  rewrite LF, <- E8, firstn_skipn; split; reflexivity.
Qed.

Lemma counts_in_place S p most trap (up : unpacker) :
  (forall inp pos nb rest n, skipn pos inp = header ++ nb ++ rest -> wire_num strict NU32 (VInt n) nb ->
    (exists max, up inp pos = unpack_counted S p n max inp (pos + 8) /\ (n <= most -> max = n)) \/
    (most < n /\ fails trap (up inp pos))) -> counts S p most trap up.
Proof.
  intros H inp pos nb rest n E N; destruct (H _ _ _ _ _ E N) as [(max & U & M)|X]; [left|now right].
  destruct (counts_here S p inp pos nb rest n max _ E N U) as (pre & off & -> & L); eauto 6.
Qed.

Section Process.
Variable S : stream.
Variable p : protocol.
Hypothesis W : WF p.
Hypothesis FIN : forall inp pos, (pos < List.length inp)%nat -> sm_finished S inp pos = false.
Hypothesis TAG : forall inp pos b rest, skipn pos inp = b :: rest ->
  sm_tag S inp pos = ROk (Z_of_byte b) (pos + 1).
Hypothesis END : forall inp pos, (List.length inp <= pos)%nat ->
  sm_finished S inp pos = true \/ sm_tag S inp pos = ROk 0 pos.
Hypothesis CASE : forall b t, 1 <= b -> sm_case S p b = Some t <-> numbered p t b.

Lemma at_nonempty (inp : list byte) pos b rest : skipn pos inp = b :: rest -> (pos < List.length inp)%nat.
Proof.
  intro E; destruct (le_lt_dec (List.length inp) pos); [|assumption].
  rewrite skipn_all2 in E by assumption; discriminate.
Qed.

Definition below (max : Z) (n : nat) : Prop := max < 0 \/ Z.of_nat n < max.

Lemma below_test max n : below max n -> negb ((max <? 0) || (Z.of_nat n <? max)) = false.
Proof.
  intros [H|H]; [apply Z.ltb_lt in H; now rewrite H|].
  apply Z.ltb_lt in H; now rewrite H, orb_true_r.
Qed.
Lemma not_below_test max n : max = Z.of_nat n -> negb ((max <? 0) || (Z.of_nat n <? max)) = true.
Proof.
  intros ->; rewrite Z.ltb_irrefl; destruct (Z.ltb_spec (Z.of_nat n) 0); [lia|reflexivity].
Qed.

Lemma below_cases max n : 0 <= max -> (Z.of_nat n <= max) -> below max n \/ max = Z.of_nat n.
Proof. unfold below; lia. Qed.

(** *** Reading what was written *)

Section Forward.
Variable T : val -> val -> Prop.
Hypothesis READ : reads_wire p T (sm_read S p).

Lemma process_step ms0 bs : wire_stream reading p ms0 bs ->
  forall ms inp pos rest max acc f, taken T ms0 ms -> skipn pos inp = bs ++ rest ->
    (max < 0 \/ Z.of_nat (List.length acc + List.length ms) <= max) ->
    process_from (List.length ms + f) S p max inp pos acc =
    process_from f S p max inp (pos + List.length bs) (acc ++ ms).
Proof.
  induction 1 as [|m ms0 a b TG H IH]; intros ms inp pos rest max acc f ST E L.
  - inversion ST; subst; cbn [List.length Nat.add]; now rewrite Nat.add_0_r, app_nil_r.
  - inversion ST as [|x [t v] y ms' [E1 TX] ST']; subst.
    destruct TG as [u i v0 c bs N B WI]; cbn in E1, TX; subst u.
    cbn [List.length] in L |- *; cbn [Nat.add process_from].
    cbn [List.app] in E; rewrite <- app_assoc in E.
    rewrite FIN by (eapply at_nonempty; exact E).
    rewrite below_test by (unfold below; lia); cbn [orb].
    rewrite (TAG _ _ _ _ E), B.
    destruct (numbered_range p t i W N) as [R _].
    destruct (Z.eqb_spec i 0); [lia|].
    rewrite (proj2 (CASE i t ltac:(lia)) N).
    destruct (numbered_declares p t i N) as [s D].
    assert (E2 : skipn (pos + 1) inp = bs ++ b ++ rest).
    { change (c :: bs ++ b ++ rest) with ([c] ++ (bs ++ b ++ rest)) in E; apply at_next in E; exact E. }
    rewrite (READ t s v0 v bs inp (pos + 1)%nat (b ++ rest) D WI TX E2).
    rewrite (IH ms' inp (pos + 1 + List.length bs)%nat rest max (acc ++ [(t, v)]) f); [| assumption | | ].
    + rewrite <- app_assoc; cbn [List.app List.length]; f_equal; rewrite app_length; lia.
    + now apply at_next in E2.
    + rewrite app_length; cbn; lia.
Qed.

Lemma process_all ms0 ms bs rest inp pos max :
  wire_stream reading p ms0 bs -> taken T ms0 ms -> skipn pos inp = bs ++ rest ->
  (pos <= List.length inp)%nat ->
  max < 0 \/ Z.of_nat (List.length ms) <= max ->
  exists f, process S p max inp pos = process_from (Datatypes.S f) S p max inp (pos + List.length bs) ms \/
            (max = 0 /\ process S p max inp pos = ROk ms (pos + List.length bs) /\ ms = []).
Proof.
  intros H ST E PL L.
  pose proof (wire_stream_long _ _ _ _ W H) as LN; rewrite (taken_length _ _ _ ST) in LN.
  assert (LB : (List.length bs <= List.length inp)%nat).
  { apply (f_equal (@List.length byte)) in E; rewrite skipn_length, app_length in E; lia. }
  unfold process; destruct (Z.eqb_spec max 0) as [->|NZ].
  - exists 0%nat; right; assert (ms = []) by (destruct ms; [reflexivity|cbn in L; lia]); subst.
    inversion ST; subst; inversion H; subst; cbn; rewrite Nat.add_0_r; auto.
  - exists (Datatypes.S (List.length inp) - List.length ms)%nat; left.
    replace (Datatypes.S (Datatypes.S (List.length inp)))
      with (List.length ms + (Datatypes.S (Datatypes.S (List.length inp) - List.length ms)))%nat by lia.
    now rewrite (process_step ms0 bs H ms inp pos rest max []).
Qed.

(** To the end of the data. *)
Lemma process_to_end ms0 ms bs pre max :
  wire_stream reading p ms0 bs -> taken T ms0 ms ->
  max < 0 \/ Z.of_nat (List.length ms) <= max ->
  process S p max (pre ++ bs) (List.length pre) = ROk ms (List.length pre + List.length bs).
Proof.
  intros H ST L.
  destruct (process_all ms0 ms bs [] (pre ++ bs) (List.length pre) max H ST) as [f [E|(_ & E & _)]]; auto.
  { rewrite skipn_app, skipn_all, Nat.sub_diag, app_nil_r; reflexivity. }
  { rewrite app_length; lia. }
  rewrite E; cbn [process_from].
  destruct (END (pre ++ bs) (List.length pre + List.length bs)) as [X|X]; [rewrite app_length; lia| |].
  - now rewrite X.
  - destruct (sm_finished S _ _ || _); [reflexivity|]; now rewrite X.
Qed.

(** To a zero byte. *)
Lemma process_to_zero ms0 ms bs pre rest max :
  wire_stream reading p ms0 bs -> taken T ms0 ms ->
  max < 0 \/ Z.of_nat (List.length ms) < max ->
  process S p max (pre ++ bs ++ x00 :: rest) (List.length pre) = ROk ms (List.length pre + List.length bs + 1).
Proof.
  intros H ST L.
  assert (E0 : skipn (List.length pre) (pre ++ bs ++ x00 :: rest) = bs ++ x00 :: rest).
  { rewrite skipn_app, skipn_all, Nat.sub_diag; reflexivity. }
  destruct (process_all ms0 ms bs (x00 :: rest) (pre ++ bs ++ x00 :: rest) (List.length pre) max H ST) as [f [E|(Z0 & E & _)]]; auto.
  { rewrite app_length; lia. } { lia. }
  2:{ exfalso; subst max; destruct L; lia. }
  rewrite E; cbn [process_from].
  apply at_next in E0.
  rewrite FIN by (eapply at_nonempty; exact E0).
  rewrite below_test by exact L; cbn [orb]; now rewrite (TAG _ _ _ _ E0).
Qed.

(** To the limit, whatever follows. *)
Lemma process_to_limit ms0 ms bs pre rest :
  wire_stream reading p ms0 bs -> taken T ms0 ms ->
  process S p (Z.of_nat (List.length ms)) (pre ++ bs ++ rest) (List.length pre)
  = ROk ms (List.length pre + List.length bs).
Proof.
  intros H ST.
  assert (E0 : skipn (List.length pre) (pre ++ bs ++ rest) = bs ++ rest).
  { rewrite skipn_app, skipn_all, Nat.sub_diag; reflexivity. }
  destruct (process_all ms0 ms bs rest (pre ++ bs ++ rest) (List.length pre) (Z.of_nat (List.length ms)) H ST)
    as [f [E|(_ & E & _)]]; auto.
  { rewrite app_length; lia. } { lia. }
  rewrite E; cbn [process_from].
  rewrite not_below_test by reflexivity; now rewrite orb_true_r.
Qed.

(** To a tag that belongs to no message. *)
Lemma process_unknown ms0 ms bs pre b rest max :
  wire_stream reading p ms0 bs -> taken T ms0 ms ->
  max < 0 \/ Z.of_nat (List.length ms) < max ->
  b <> x00 -> (forall t, ~ numbered p t (Z_of_byte b)) ->
  process S p max (pre ++ bs ++ b :: rest) (List.length pre)
  = if sm_lenient S then ROk ms (List.length pre + List.length bs + 1) else RErr.
Proof.
  intros H ST L NB NN.
  assert (E0 : skipn (List.length pre) (pre ++ bs ++ b :: rest) = bs ++ b :: rest).
  { rewrite skipn_app, skipn_all, Nat.sub_diag; reflexivity. }
  destruct (process_all ms0 ms bs (b :: rest) (pre ++ bs ++ b :: rest) (List.length pre) max H ST) as [f [E|(Z0 & E & _)]]; auto.
  { rewrite app_length; lia. } { lia. }
  2:{ exfalso; subst max; destruct L; lia. }
  rewrite E; cbn [process_from].
  apply at_next in E0.
  rewrite FIN by (eapply at_nonempty; exact E0).
  rewrite below_test by exact L; cbn [orb]; rewrite (TAG _ _ _ _ E0).
  pose proof (Z_of_byte_range b) as RB.
  destruct (Z.eqb_spec (Z_of_byte b) 0) as [Z0|NZ].
  { exfalso; apply NB; now apply Z_of_byte_inj. }
  destruct (sm_case S p (Z_of_byte b)) as [t|] eqn:C; [|reflexivity].
  apply CASE in C; [|lia]; exfalso; eapply NN; exact C.
Qed.

(** To a message that is cut short. *)
Lemma process_cut trap ms0 ms bs pre t i v b body cut max :
  wire_stream reading p ms0 bs -> taken T ms0 ms ->
  max < 0 \/ Z.of_nat (List.length ms) < max ->
  rejects_truncated_messages p trap (sm_read S p) ->
  numbered p t i -> Z_of_byte b = i -> wire_in reading p t v body ->
  (exists x r, body = cut ++ x :: r) -> sm_lenient S = false ->
  process S p max (pre ++ bs ++ b :: cut) (List.length pre) = RErr \/
  (trap = true /\ process S p max (pre ++ bs ++ b :: cut) (List.length pre) = RTrap).
Proof.
  intros H ST L TR N B WI (x & r & CUT) LEN.
  assert (E0 : skipn (List.length pre) (pre ++ bs ++ b :: cut) = bs ++ b :: cut).
  { rewrite skipn_app, skipn_all, Nat.sub_diag; reflexivity. }
  destruct (process_all ms0 ms bs (b :: cut) (pre ++ bs ++ b :: cut) (List.length pre) max H ST) as [f [E|(Z0 & E & _)]]; auto.
  { rewrite app_length; lia. } { lia. }
  2:{ exfalso; subst max; destruct L; lia. }
  rewrite E; cbn [process_from].
  apply at_next in E0.
  rewrite FIN by (eapply at_nonempty; exact E0).
  rewrite below_test by exact L; cbn [orb]; rewrite (TAG _ _ _ _ E0), B.
  destruct (numbered_range p t i W N) as [R _].
  destruct (Z.eqb_spec i 0); [lia|].
  rewrite (proj2 (CASE i t ltac:(lia)) N).
  destruct (numbered_message p t i N) as [s D].
  assert (Q : (List.length pre + List.length bs + 1)%nat = List.length (pre ++ bs ++ [b])).
  { rewrite !app_length; cbn; lia. }
  assert (Q2 : pre ++ bs ++ b :: cut = (pre ++ bs ++ [b]) ++ cut).
  { rewrite <- !app_assoc; reflexivity. }
  rewrite Q, Q2.
  destruct (TR t s v body (pre ++ bs ++ [b]) cut x r D WI CUT) as [->|[-> ->]]; [rewrite LEN; now left|now right].
Qed.
End Forward.

(** *** Only streams are read *)

Section Backward.
Variable txt : list byte -> option (list byte).
Hypothesis ONLY : only_wire_messages p txt (sm_read S p).
Hypothesis STRICT : sm_lenient S = false.

Lemma process_from_only f max inp : forall pos acc ms q,
  (max < 0 \/ Z.of_nat (List.length acc) <= max) ->
  process_from f S p max inp pos acc = ROk ms q ->
  exists ms0 ms' bs rest, ms = acc ++ ms' /\ skipn pos inp = bs ++ rest /\
    wire_stream reading p ms0 bs /\ same_texts txt ms0 ms' /\
    stops inp max (List.length ms) (pos + List.length bs) q.
Proof.
  induction f as [|f IH]; intros pos acc ms q L; cbn [process_from]; [discriminate|].
  destruct (sm_finished S inp pos) eqn:FI; cbn [orb].
  { intros [= <- <-]; exists [], [], [], (skipn pos inp); rewrite app_nil_r; refine (conj eq_refl (conj _ (conj (wst_nil _ _) (conj (Forall2_nil _) _)))); [auto|].
    cbn; rewrite Nat.add_0_r; left; split; [|reflexivity].
    apply skipn_all2; destruct (le_lt_dec (List.length inp) pos) as [|LT]; [assumption|].
    rewrite (FIN _ _ LT) in FI; discriminate. }
  destruct (negb _) eqn:BT.
  { intros [= <- <-]; exists [], [], [], (skipn pos inp); rewrite app_nil_r; refine (conj eq_refl (conj _ (conj (wst_nil _ _) (conj (Forall2_nil _) _)))); [auto|].
    cbn [List.length]; rewrite Nat.add_0_r; right; right; split; [|reflexivity].
    destruct L as [L|L]; [apply Z.ltb_lt in L; rewrite L in BT; discriminate|].
    destruct (below_cases max (List.length acc)) as [B|B]; [lia|assumption| |assumption].
    rewrite (below_test _ _ B) in BT; discriminate. }
  destruct (skipn pos inp) as [|b rest] eqn:E.
  { assert (LE : (List.length inp <= pos)%nat).
    { destruct (le_lt_dec (List.length inp) pos); [assumption|].
      apply (f_equal (@List.length byte)) in E; rewrite skipn_length in E; cbn in E; lia. }
    destruct (END inp pos LE) as [X|X]; [congruence|]; rewrite X; cbn [Z.eqb].
    intros [= <- <-]; exists [], [], [], []; rewrite app_nil_r; refine (conj eq_refl (conj _ (conj (wst_nil _ _) (conj (Forall2_nil _) _)))); [auto|].
    cbn; rewrite Nat.add_0_r; left; auto. }
  rewrite (TAG _ _ _ _ E).
  pose proof (Z_of_byte_range b) as RB.
  destruct (Z.eqb_spec (Z_of_byte b) 0) as [Z0|NZ].
  { intros [= <- <-]; exists [], [], [], (b :: rest); rewrite app_nil_r; refine (conj eq_refl (conj _ (conj (wst_nil _ _) (conj (Forall2_nil _) _)))); [auto|].
    cbn; rewrite Nat.add_0_r; right; left; exists rest; split; [|reflexivity].
    rewrite E; f_equal; now apply Z_of_byte_inj. }
  destruct (sm_case S p (Z_of_byte b)) as [t|] eqn:C; [|rewrite STRICT; discriminate].
  apply CASE in C; [|lia]; destruct (numbered_message p t _ C) as [s D].
  destruct (sm_read S p t inp (pos + 1)) as [v q'| | | |] eqn:R; try discriminate; [|rewrite STRICT; discriminate].
  apply (ONLY t s _ _ _ _ D) in R as (v0 & bs & rest' & E' & -> & WI & TX).
  intro PR; apply IH in PR as (ms0 & ms' & bs' & rest'' & -> & E'' & WS & ST & SP).
  2:{ rewrite app_length; cbn.
      destruct L as [L|L]; [now left|right].
      apply negb_false_iff, orb_prop in BT as [BT|BT]; apply Z.ltb_lt in BT; lia. }
  exists ((t, v0) :: ms0), ((t, v) :: ms'), ((b :: bs) ++ bs'), rest''.
  rewrite <- app_assoc; split; [reflexivity|split; [|split; [|split]]].
  - change (b :: rest) with ([b] ++ rest) in E; apply at_next in E; cbn [List.length] in E.
    rewrite <- E, E'; apply at_next in E'; rewrite <- E', E''.
    cbn; now rewrite <- app_assoc.
  - constructor; [econstructor; eauto|assumption].
  - constructor; [split; auto|assumption].
  - rewrite <- app_assoc in SP.
    replace (pos + List.length ((b :: bs) ++ bs'))%nat
      with (pos + 1 + List.length bs + List.length bs')%nat by (rewrite app_length; cbn [List.length]; lia); exact SP.
Qed.

Lemma process_only max inp pos ms q : process S p max inp pos = ROk ms q ->
  exists ms0 bs rest, skipn pos inp = bs ++ rest /\
    wire_stream reading p ms0 bs /\ same_texts txt ms0 ms /\
    stops inp max (List.length ms) (pos + List.length bs) q.
Proof.
  unfold process; destruct (Z.eqb_spec max 0) as [->|NZ].
  - intros [= <- <-]; exists [], [], (skipn pos inp); refine (conj eq_refl (conj (wst_nil _ _) (conj (Forall2_nil _) _))).
    cbn; rewrite Nat.add_0_r; right; right; auto.
  - intro H; destruct (Z.ltb_spec max 0).
    + apply process_from_only in H as (ms0 & ms' & bs & rest & -> & H); [|now left]; eauto.
    + apply process_from_only in H as (ms0 & ms' & bs & rest & -> & H); [|cbn; lia]; eauto.
Qed.

End Backward.

(** *** It ends *)

Section Ends.
Hypothesis MOVES : moves p (sm_read S p).

Lemma process_from_answers trap max inp :
  (forall t s pos, declares p t s -> answers trap (sm_read S p t inp pos)) ->
  forall f pos acc, (List.length inp < pos + f)%nat -> (1 <= f)%nat ->
  answers trap (process_from f S p max inp pos acc).
Proof.
  intro A; induction f as [|f IH]; intros pos acc L F1; [lia|]; cbn [process_from].
  destruct (sm_finished S inp pos) eqn:FI; [exact I|]; cbn [orb].
  destruct (negb _); [exact I|].
  destruct (skipn pos inp) as [|b rest] eqn:E.
  { assert (LE : (List.length inp <= pos)%nat).
    { destruct (le_lt_dec (List.length inp) pos); [assumption|].
      apply (f_equal (@List.length byte)) in E; rewrite skipn_length in E; cbn in E; lia. }
    destruct (END inp pos LE) as [X|X]; [congruence|]; rewrite X; exact I. }
  pose proof (at_nonempty _ _ _ _ E) as LT.
  rewrite (TAG _ _ _ _ E).
  pose proof (Z_of_byte_range b) as RB.
  destruct (Z.eqb_spec (Z_of_byte b) 0) as [Z0|NZ]; [exact I|].
  destruct (sm_case S p (Z_of_byte b)) as [t|] eqn:C; [|destruct (sm_lenient S); exact I].
  apply CASE in C; [|lia]; destruct (numbered_declares p t _ C) as [s D].
  pose proof (A t s (pos + 1)%nat D) as AN.
  destruct (sm_read S p t inp (pos + 1)) as [v q'| | | |] eqn:R; cbn in AN |- *; try contradiction; [|destruct (sm_lenient S); exact I|assumption].
  apply (MOVES t s _ _ _ _ D) in R.
  apply IH; lia.
Qed.

Lemma process_answers trap max inp pos :
  (forall t s pos, declares p t s -> answers trap (sm_read S p t inp pos)) ->
  answers trap (process S p max inp pos).
Proof.
  intro A; unfold process; destruct (max =? 0); [exact I|]; apply process_from_answers; [assumption|lia|lia].
Qed.
End Ends.

(** ** UnpackMessages *)

(** What is behind the count is read back; the limit is the count. *)
Lemma unpack_reads (T : val -> val -> Prop) ms0 ms bs pre rest : reads_wire p T (sm_read S p) ->
  wire_stream reading p ms0 bs -> taken T ms0 ms ->
  unpack_counted S p (Z.of_nat (List.length ms)) (Z.of_nat (List.length ms)) (pre ++ bs ++ rest) (List.length pre)
  = ROk ms (List.length pre + List.length bs).
Proof.
  intros R H ST; unfold unpack_counted.
  destruct (Z.eqb_spec (Z.of_nat (List.length ms)) 0) as [E|N].
  - destruct ms; [|cbn in E; lia]; inversion ST; subst; inversion H; subst; cbn; now rewrite Nat.add_0_r.
  - rewrite (process_to_limit T R ms0 ms bs pre rest H ST).
    destruct (Nat.eqb_spec (List.length ms) 0); [lia|]; now rewrite Z.eqb_refl.
Qed.

(** An accepted list has the recorded number of messages. *)
Lemma unpack_only txt n max inp pos ms q : only_wire_messages p txt (sm_read S p) -> sm_lenient S = false ->
  unpack_counted S p n max inp pos = ROk ms q ->
  n = Z.of_nat (List.length ms) /\
  exists ms0 bs rest, skipn pos inp = bs ++ rest /\ wire_stream reading p ms0 bs /\ same_texts txt ms0 ms.
Proof.
  intros O ST; unfold unpack_counted; destruct (Z.eqb_spec n 0) as [->|N].
  - intros [= <- <-]; split; [reflexivity|]; exists [], [], (skipn pos inp); repeat split; constructor.
  - destruct (process S p max inp pos) as [ms' q'| | | |] eqn:P; try discriminate.
    destruct (Nat.eqb_spec (List.length ms') 0); [discriminate|].
    destruct (Z.eqb_spec (Z.of_nat (List.length ms')) n) as [E|]; [|discriminate].
    intros [= <- <-]; split; [now symmetry|].
    destruct (process_only txt O ST _ _ _ _ _ P) as (ms0 & bs & rest & E1 & WS & TX & _); eauto 6.
Qed.

Lemma counted_answers trap n max inp pos : moves p (sm_read S p) ->
  (forall t s pos, declares p t s -> answers trap (sm_read S p t inp pos)) -> answers trap (unpack_counted S p n max inp pos).
Proof.
  intros O A; unfold unpack_counted; destruct (n =? 0); [exact I|].
  pose proof (process_answers O trap max inp pos A) as AN.
  destruct (process S p max inp pos) as [ms' q'| | | |]; cbn in AN |- *; auto.
  destruct (Nat.eqb_spec (List.length ms') 0); [exact I|].
  destruct (Z.of_nat (List.length ms') =? n); exact I.
Qed.
(** *** The statements of CodecSpec.v *)

Section Spec.
Variable T : val -> val -> Prop.
Variable Q : val -> Prop.
Hypothesis KEPT : forall t v bs, wire_in reading p t v bs -> Q v -> T v v.

Lemma strict_texts ms bs : wire_stream strict p ms bs -> all_values Q ms ->
  wire_stream reading p ms bs /\ taken T ms ms.
Proof.
  intros H A; split; [now apply stream_reading|]; eapply taken_same; [exact KEPT|apply stream_reading; exact H|exact A].
Qed.

Lemma process_reads_streams : reads_wire p T (sm_read S p) -> reads_streams p Q (process S p).
Proof.
  intros R ms bs before max H A; destruct (strict_texts ms bs H A) as [HR ST]; split.
  - intro L; eapply process_to_end; eassumption.
  - intros L after; eapply process_to_zero; eassumption.
Qed.

Lemma process_stops_at_max : reads_wire p T (sm_read S p) -> stops_at_max p Q (process S p).
Proof.
  intros R ms bs before after H A; destruct (strict_texts ms bs H A) as [HR ST].
  eapply process_to_limit; eassumption.
Qed.
End Spec.

Section SpecTotal.
Variable T : val -> val -> Prop.
Variable Q : val -> Prop.
Hypothesis SOME : forall t v bs, wire_in reading p t v bs -> Q v -> exists v', T v v'.

Lemma process_rejects_unknown : reads_wire p T (sm_read S p) -> sm_lenient S = false ->
  rejects_unknown p Q (process S p).
Proof.
  intros R SL ms bs before b after max H A L NB NN.
  pose proof (stream_reading _ _ _ H) as HR; destruct (taken_total _ p T Q SOME _ _ HR A) as [ms' ST].
  assert (LL : max < 0 \/ Z.of_nat (List.length ms') < max) by (rewrite <- (taken_length _ _ _ ST); exact L).
  rewrite (process_unknown T R ms ms' bs before b after max HR ST LL NB NN); now rewrite SL.
Qed.

Lemma process_rejects_cut trap : reads_wire p T (sm_read S p) -> sm_lenient S = false ->
  rejects_truncated_messages p trap (sm_read S p) ->
  rejects_cut_streams p Q trap (process S p).
Proof.
  intros R SL TR ms bs before m last cut x rest max H A L TG E NC.
  pose proof (stream_reading _ _ _ H) as HR; destruct (taken_total _ p T Q SOME _ _ HR A) as [ms' ST].
  assert (LL : max < 0 \/ Z.of_nat (List.length ms') < max) by (rewrite <- (taken_length _ _ _ ST); exact L).
  destruct TG as [t i v b body N B WI]; destruct cut as [|c cut]; [congruence|].
  cbn in E; injection E as <- E.
  pose proof (proj1 (wire_mode _ _ p strict_reading) _ _ _ WI) as WR.
  eapply process_cut; eauto.
Qed.
End SpecTotal.

Lemma process_only_streams txt : only_wire_messages p txt (sm_read S p) -> sm_lenient S = false ->
  only_streams p txt (process S p).
Proof. intros O SL max inp pos ms q; apply process_only; assumption. Qed.

Lemma process_stream_answers trap : moves p (sm_read S p) ->
  always_answers p trap (sm_read S p) -> stream_answers trap (process S p).
Proof. intros O A max inp pos; apply (process_answers O); intros t s q; apply A. Qed.

(** A stream does not continue past its end. *)
Lemma wire_stream_longer md ms ms' bs bs' after rest : wire_stream md p ms bs -> wire_stream md p ms' bs' ->
  (forall b r, after = b :: r -> b = x00) -> bs ++ after = bs' ++ rest -> (List.length ms' <= List.length ms)%nat.
Proof.
  intros H H' Z0; revert ms' bs' H'; induction H as [|m ms a b T H IH]; intros ms' bs' H' E; inversion H' as [|m' ms'' a' b' T' H'']; subst; cbn; try lia.
  - destruct (wire_tagged_nonempty _ _ _ _ W T') as (x & c & -> & NX); cbn in E.
    exfalso; apply NX; eapply Z0; exact E.
  - rewrite <- !app_assoc in E.
    destruct (wire_tagged_prefix _ _ _ _ _ _ _ _ W T T' E) as (-> & -> & E').
    apply IH in H''; [lia|assumption].
Qed.

Section Unpacker.
Variable up : unpacker.
Variable most : Z.
Variable trap : bool.
Hypothesis UP : counts S p most trap up.
Hypothesis HDR : rejects_bad_header trap up.
Hypothesis CNT : rejects_bad_count trap up.
Hypothesis ANS : always_answers p trap (sm_read S p).
Hypothesis STRICT : sm_lenient S = false.

Lemma unpacker_answers_moves : moves p (sm_read S p) -> unpack_answers trap up.
Proof.
  intros MOVES inp pos.
  assert (X : (exists rest, skipn pos inp = header ++ rest) \/ (forall rest, skipn pos inp <> header ++ rest)).
  { destruct (skipn pos inp) as [|a [|b [|c [|d r]]]] eqn:E; try (right; discriminate).
    destruct (list_eq_dec Byte.byte_eq_dec [a; b; c; d] header) as [Q|Q].
    - left; exists r; rewrite <- Q; reflexivity.
    - right; intros rest H; apply Q; cbn in H; injection H as -> -> -> -> _; reflexivity. }
  assert (FA : forall r : res message_list, fails trap r -> answers trap r).
  { intros r [->|[-> ->]]; [exact I|reflexivity]. }
  destruct X as [(c & E)|X]; [|now apply FA, HDR].
  destruct (le_lt_dec 4 (List.length c)) as [L4|L4]; [|now apply FA, (CNT _ _ _ E)].
  assert (N : exists n, wire_num strict NU32 (VInt n) (firstn 4 c)).
  { assert (LF : List.length (firstn 4 c) = 4%nat) by (rewrite firstn_length; lia).
    exists (le_val (firstn 4 c)); pose proof (le_val_range (firstn 4 c)) as R; rewrite LF in R.
    constructor; [discriminate|exact LF|cbn; cbn in R; lia|].
    rewrite Z.mod_small; [reflexivity|exact R]. }
  destruct N as [n N].
  rewrite <- (firstn_skipn 4 c) in E.
  destruct (UP _ _ (firstn 4 c) (skipn 4 c) n E N) as [(max & pre & off & UE & _)|[_ X]]; [|now apply FA].
  pose proof (counted_answers trap n max (pre ++ skipn 4 c) (List.length pre) MOVES (fun t s q => ANS t s _ q)) as CA.
  rewrite UE; destruct (unpack_counted _ _ _ _ _ _); exact CA.
Qed.

Variable txt : list byte -> option (list byte).
Hypothesis ONLY : only_wire_messages p txt (sm_read S p).

Lemma unpacker_unpacks (T : val -> val -> Prop) (Q : val -> Prop) : (forall t v bs, wire_in reading p t v bs -> Q v -> T v v) ->
  reads_wire p T (sm_read S p) -> unpacks p Q most up.
Proof.
  intros TP R ms bs before after H A L; destruct H as [ms nb bs N H].
  destruct (strict_texts T Q TP ms bs H A) as [HR ST].
  assert (LN : List.length nb = 4%nat) by (inversion N; subst; assumption).
  assert (E : skipn (List.length before) (before ++ (header ++ nb ++ bs ++ [x00]) ++ after)
              = header ++ nb ++ bs ++ [x00] ++ after).
  { rewrite skipn_app, skipn_all, Nat.sub_diag; cbn [skipn app]; rewrite <- !app_assoc; reflexivity. }
  destruct (UP _ _ nb (bs ++ [x00] ++ after) _ E N) as [(max & pre & off & U & M & LO)|[ML _]]; [|lia].
  rewrite U, (M L), (unpack_reads T ms ms bs pre ([x00] ++ after) R HR ST); cbn [shifted].
  f_equal; rewrite !app_length, LN; cbn [List.length header]; lia.
Qed.

Lemma skipn_header (inp : list byte) pos rest : skipn pos inp = header ++ rest -> skipn (pos + 4) inp = rest.
Proof. intro E; apply at_next in E; exact E. Qed.

Lemma unpacker_only : only_packed p txt up.
Proof.
  intros inp pos ms q U.
  assert (X : (exists rest, skipn pos inp = header ++ rest) \/ (forall rest, skipn pos inp <> header ++ rest)).
  { destruct (skipn pos inp) as [|a [|b [|c [|d r]]]] eqn:E; try (right; discriminate).
    destruct (list_eq_dec Byte.byte_eq_dec [a; b; c; d] header) as [Q|Q].
    - left; exists r; rewrite <- Q; reflexivity.
    - right; intros rest H; apply Q; cbn in H; injection H as -> -> -> -> _; reflexivity. }
  destruct X as [(c & E)|X].
  2:{ apply HDR in X; destruct X as [X|[_ X]]; rewrite U in X; discriminate. }
  destruct (le_lt_dec 4 (List.length c)) as [L4|L4].
  2:{ apply (CNT _ _ _ E) in L4; destruct L4 as [X|[_ X]]; rewrite U in X; discriminate. }
  assert (N : exists n, wire_num strict NU32 (VInt n) (firstn 4 c)).
  { assert (LF : List.length (firstn 4 c) = 4%nat) by (rewrite firstn_length; lia).
    exists (le_val (firstn 4 c)); pose proof (le_val_range (firstn 4 c)) as R; rewrite LF in R.
    constructor; [discriminate|exact LF|cbn; cbn in R; lia|].
    rewrite Z.mod_small; [reflexivity|exact R]. }
  destruct N as [n N].
  rewrite <- (firstn_skipn 4 c) in E.
  destruct (UP _ _ (firstn 4 c) (skipn 4 c) n E N) as [(max & pre & off & UE & _)|[_ [X|[_ X]]]]; [|rewrite U in X; discriminate|rewrite U in X; discriminate].
  rewrite U in UE; symmetry in UE.
  destruct (unpack_counted S p n max _ _) as [ms' q'| | | |] eqn:UC; try discriminate; injection UE as -> _.
  apply (unpack_only _ _ _ _ _ _ _ ONLY STRICT) in UC as (-> & ms0 & bs & rest & E' & WS & TX).
  rewrite skipn_app, skipn_all, Nat.sub_diag in E'; cbn [skipn app] in E'.
  exists ms0, (firstn 4 c), bs, rest; repeat split; auto.
  rewrite E; do 2 f_equal; exact E'.
Qed.

Lemma unpacker_missing : moves p (sm_read S p) -> rejects_missing p trap up.
Proof.
  intros MOVES ms bs n nb before after H N L Z0.
  pose proof (unpacker_answers_moves MOVES (before ++ header ++ nb ++ bs ++ after) (List.length before)) as A.
  destruct (up _ _) as [ms' q| | | |] eqn:U; cbn in A; try contradiction; [|now left|now right].
  exfalso; apply unpacker_only in U as (ms0 & nb' & bs' & rest & E & N' & H' & TX).
  rewrite skipn_app, skipn_all, Nat.sub_diag in E; cbn [skipn app] in E.
  apply app_inv_head in E.
  assert (LN : List.length nb = List.length nb').
  { inversion N; inversion N'; subst; congruence. }
  assert (E2 : nb = nb' /\ bs ++ after = bs' ++ rest).
  { split.
    - apply (f_equal (firstn (List.length nb))) in E.
      rewrite !firstn_app, firstn_all, Nat.sub_diag, app_nil_r in E.
      rewrite LN, firstn_all, Nat.sub_diag, app_nil_r in E; exact E.
    - apply (f_equal (skipn (List.length nb))) in E.
      rewrite !skipn_app, skipn_all, Nat.sub_diag in E.
      rewrite LN, skipn_all, Nat.sub_diag in E; exact E. }
  destruct E2 as [<- E2].
  pose proof (wire_stream_longer _ _ _ _ _ _ _ H H' Z0 E2) as LL.
  rewrite (same_texts_length _ _ _ TX) in LL.
  assert (n = Z.of_nat (List.length ms')).
  { clear - N N'. inversion N as [? ? ? _ _ R1 M1| |]; inversion N' as [? ? ? _ _ R2 M2| |]; subst.
    cbn in *; rewrite !Z.mod_small in * by lia; lia. }
  lia.
Qed.
End Unpacker.
End Process.

(** ** PackMessages *)

Section Pack.
Variable T : wt.
Variable p : protocol.
Variable wr : string -> val -> wstate -> wout.
Hypothesis W : WF p.
Hypothesis WR : forall t s v bs, declares p t s -> wire p t v bs -> writes T (wr t v) bs.

Lemma write_tagged_ok m bs : wire_tagged strict p m bs ->
  writes T (write_tagged T (count_from 1 (p_messages p)) wr m) bs.
Proof.
  intros [t i v b c N B WI]; unfold write_tagged; cbn [fst snd].
  rewrite (proj2 (of_numbered p i t W) N).
  destruct (numbered_declares p t i N) as [s D].
  change (b :: c) with ([b] ++ c).
  apply (writes_bind T (put_num T NByte (VInt i)) (wr t v)); [|eapply WR; eassumption].
  apply writes_num; constructor; [discriminate|reflexivity| |].
  - pose proof (Z_of_byte_range b); cbn; lia.
  - cbn [le_val num_size]; pose proof (Z_of_byte_range b); rewrite Z.mod_small; cbn; lia.
Qed.

Lemma write_all_ok ms bs : wire_stream strict p ms bs ->
  writes T (write_all T (count_from 1 (p_messages p)) wr ms) bs.
Proof.
  induction 1 as [|m ms a b H _ IH]; cbn [write_all]; [apply writes_nil|].
  apply (writes_bind T (write_tagged T _ wr m) (write_all T _ wr ms)); [now apply write_tagged_ok|assumption].
Qed.

Lemma pack_rest_ok ms nb bs : wire_num strict NU32 (VInt (Z.of_nat (List.length ms))) nb ->
  wire_stream strict p ms bs ->
  writes T (pack_rest T (count_from 1 (p_messages p)) wr ms) (nb ++ bs ++ [x00]).
Proof.
  intros N H; unfold pack_rest.
  apply (writes_bind T (put_len T NU32 _) (fun w1 => wbind _ _)).
  { apply (writes_ext T _ (wt_put T nb)); [intro w; exact (put_len_ok T NU32 (List.length ms) nb w N)|apply writes_put]. }
  apply (writes_bind T (write_all T _ wr ms)); [now apply write_all_ok|].
  apply writes_num; constructor; [discriminate|reflexivity|cbn; lia|reflexivity].
Qed.

Lemma pack_ok ms bs : wire_packed strict p ms bs ->
  writes T (pack T (count_from 1 (p_messages p)) wr ms) bs.
Proof.
  intros [ms' nb bs' N H]; unfold pack.
  apply (writes_bind T (wt_put T header) (pack_rest T _ wr ms')); [apply writes_put|now apply pack_rest_ok].
Qed.
End Pack.

(** ** GetPackedSize *)

Lemma sum_sizes_ok p size ms bs : WF p ->
  (forall t s v b, declares p t s -> wire p t v b -> In (t, v) ms -> size t v = MRet (Z.of_nat (List.length b))) ->
  wire_stream strict p ms bs ->
  sum_sizes size ms = MRet (Z.of_nat (List.length bs) - Z.of_nat (List.length ms)).
Proof.
  intros W SZ H; induction H as [|m ms a b T H IH]; [reflexivity|].
  destruct T as [t i v c bs N B WI]; cbn [sum_sizes].
  destruct (numbered_declares p t i N) as [s D].
  rewrite (SZ t s v bs D WI) by now left.
  rewrite IH by (intros; eapply SZ; eauto; now right).
  f_equal; rewrite app_length; cbn [List.length]; lia.
Qed.

Lemma packed_size_ok p size ms bs : WF p ->
  (forall t s v b, declares p t s -> wire p t v b -> In (t, v) ms -> size t v = MRet (Z.of_nat (List.length b))) ->
  wire_packed strict p ms bs -> packed_size size ms = MRet (Z.of_nat (List.length bs)).
Proof.
  intros W SZ H0; revert SZ; destruct H0 as [ms' nb bs' N H]; intro SZ; unfold packed_size; rewrite (sum_sizes_ok p size ms' bs' W SZ H).
  f_equal; inversion N; subst; rewrite !app_length; cbn [List.length header].
  match goal with X : List.length nb = _ |- _ => rewrite X end; cbn [num_size]; lia.
Qed.

(** A message is not longer than the buffer that contains it. *)
Lemma wire_packed_length p ms bs t v b : WF p -> wire_packed strict p ms bs -> wire p t v b -> In (t, v) ms ->
  (List.length b <= List.length bs)%nat.
Proof.
  intros W [ms' nb bs' N H] WI I; rewrite !app_length; enough (List.length b <= List.length bs')%nat by lia.
  clear N; induction H as [|m ms1 a c T H IH]; [destruct I|]; rewrite app_length.
  destruct I as [->|I]; [|specialize (IH I); lia].
  inversion T as [t' i v' x body NU B WB]; subst; cbn [List.length].
  rewrite (proj1 (wire_det p W) _ _ _ WI _ WB); lia.
Qed.

(** ** All of it for one language *)

(** [pr] is the loop of Stream.v, with tags that are the message numbers. *)
Record streams (S : stream) (p : protocol) (pr : stream_reader) : Prop := {
  st_wf : WF p;
  st_fin : forall inp pos, (pos < List.length inp)%nat -> sm_finished S inp pos = false;
  st_tag : forall inp pos b rest, skipn pos inp = b :: rest -> sm_tag S inp pos = ROk (Z_of_byte b) (pos + 1);
  st_end : forall inp pos, (List.length inp <= pos)%nat -> sm_finished S inp pos = true \/ sm_tag S inp pos = ROk 0 pos;
  st_case : forall b t, 1 <= b -> sm_case S p b = Some t <-> numbered p t b;
  st_eq : forall max inp pos, pr max inp pos = process S p max inp pos }.

Section Streams.
Variable S : stream.
Variable p : protocol.
Variable pr : stream_reader.
Variable txt : list byte -> option (list byte).
Variable G : streams S p pr.

Lemma streams_read (T : val -> val -> Prop) (Q : val -> Prop) : (forall t v bs, wire_in reading p t v bs -> Q v -> T v v) ->
  reads_wire p T (sm_read S p) -> reads_streams p Q pr.
Proof.
  destruct G as [W FIN TAG END CASE EQ]; intros TP R ms bs before max H A.
  destruct (process_reads_streams S p W FIN TAG END CASE T Q TP R ms bs before max H A) as [H1 H2].
  split; [intro L|intros L after]; rewrite EQ; auto.
Qed.

Lemma streams_max (T : val -> val -> Prop) (Q : val -> Prop) : (forall t v bs, wire_in reading p t v bs -> Q v -> T v v) ->
  reads_wire p T (sm_read S p) -> stops_at_max p Q pr.
Proof.
  destruct G as [W FIN TAG END CASE EQ]; intros TP R ms bs before after H A; rewrite EQ.
  exact (process_stops_at_max S p W FIN TAG END CASE T Q TP R ms bs before after H A).
Qed.

Lemma streams_unknown (T : val -> val -> Prop) (Q : val -> Prop) : (forall t v bs, wire_in reading p t v bs -> Q v -> exists v', T v v') ->
  reads_wire p T (sm_read S p) -> sm_lenient S = false -> rejects_unknown p Q pr.
Proof.
  destruct G as [W FIN TAG END CASE EQ]; intros TP R SL ms bs before b after max H A L NB NN; rewrite EQ.
  exact (process_rejects_unknown S p W FIN TAG END CASE T Q TP R SL ms bs before b after max H A L NB NN).
Qed.

Lemma streams_cut_messages trap (T : val -> val -> Prop) (Q : val -> Prop) : (forall t v bs, wire_in reading p t v bs -> Q v -> exists v', T v v') ->
  reads_wire p T (sm_read S p) -> sm_lenient S = false -> rejects_truncated_messages p trap (sm_read S p) ->
  rejects_cut_streams p Q trap pr.
Proof.
  destruct G as [W FIN TAG END CASE EQ]; intros TP R SL TR ms bs before m last cut x rest max H AS L TG E NC; rewrite EQ.
  eapply (process_rejects_cut S p W FIN TAG END CASE T Q TP trap R SL TR); eassumption.
Qed.
Lemma streams_cut trap (T : val -> val -> Prop) (Q : val -> Prop) : (forall t v bs, wire_in reading p t v bs -> Q v -> exists v', T v v') ->
  reads_wire p T (sm_read S p) -> sm_lenient S = false -> rejects_truncated p trap (sm_read S p) ->
  rejects_cut_streams p Q trap pr.
Proof. intros TP R SL TR; exact (streams_cut_messages trap T Q TP R SL (truncated_messages _ _ _ TR)). Qed.

Lemma streams_only_messages : only_wire_messages p txt (sm_read S p) -> sm_lenient S = false -> only_streams p txt pr.
Proof.
  destruct G as [W FIN TAG END CASE EQ]; intros O SL max inp pos ms q; rewrite EQ.
  now apply (process_only_streams S p FIN TAG END CASE txt O SL).
Qed.
Lemma streams_only : only_wire p txt (sm_read S p) -> sm_lenient S = false -> only_streams p txt pr.
Proof. intro O; exact (streams_only_messages (wire_messages _ _ _ O)). Qed.

Lemma streams_answer trap : only_wire p txt (sm_read S p) ->
  always_answers p trap (sm_read S p) -> stream_answers trap pr.
Proof.
  destruct G as [W FIN TAG END CASE EQ]; intros O A max inp pos; rewrite EQ.
  now apply (process_stream_answers S p FIN TAG END CASE trap (only_moves p txt _ O) A).
Qed.
Lemma streams_answer_moves trap : moves p (sm_read S p) ->
  always_answers p trap (sm_read S p) -> stream_answers trap pr.
Proof.
  destruct G as [W FIN TAG END CASE EQ]; intros O A max inp pos; rewrite EQ.
  now apply (process_stream_answers S p FIN TAG END CASE trap O A).
Qed.

(** [up] counts up to [most] messages. *)
Record unpacking (most : Z) (trap : bool) (up : unpacker) : Prop := {
  un_counted : counts S p most trap up;
  un_header : rejects_bad_header trap up;
  un_count : rejects_bad_count trap up }.
End Streams.

Section Unpacking.
Variable S : stream.
Variable p : protocol.
Variable pr : stream_reader.
Variable G : streams S p pr.
Variable most : Z.
Variable trap : bool.
Variable up : unpacker.

(** This much does not need to know what comes of a bad header. *)
Lemma unpacking_reads (T : val -> val -> Prop) (Q : val -> Prop) :
  counts S p most trap up ->
  (forall t v bs, wire_in reading p t v bs -> Q v -> T v v) ->
  reads_wire p T (sm_read S p) -> unpacks p Q most up.
Proof.
  destruct G as [W FIN TAG END CASE EQ]; intros UP TP R.
  exact (unpacker_unpacks S p W FIN TAG END CASE up most trap UP T Q TP R).
Qed.

(** A count that is too large, from the forward direction only. *)
Lemma unpacking_missing_reads (T : val -> val -> Prop) (Q : val -> Prop) :
  counts S p most trap up ->
  (forall t v bs, wire_in reading p t v bs -> Q v -> exists v', T v v') ->
  reads_wire p T (sm_read S p) -> rejects_missing_for p Q trap up.
Proof.
  destruct G as [W FIN TAG END CASE EQ]; intros UP TP R ms0 bs n nb before after H AS N L Z0.
  assert (E : skipn (List.length before) (before ++ header ++ nb ++ bs ++ after) = header ++ nb ++ bs ++ after)
    by (rewrite skipn_app, skipn_all, Nat.sub_diag; reflexivity).
  destruct (UP _ _ _ _ _ E N) as [(max & pre & off & -> & _ & _)|[_ F]]; [|exact F].
  destruct (taken_total _ p T Q TP _ _ H AS) as [ms ST].
  pose proof (taken_length _ _ _ ST) as LM.
  unfold unpack_counted.
  destruct (Z.eqb_spec n 0) as [->|_]; [lia|]; left.
  assert (X : forall ms' q, process S p max (pre ++ bs ++ after) (List.length pre) = ROk ms' q ->
    (List.length ms' <= List.length ms)%nat ->
    shifted off match process S p max (pre ++ bs ++ after) (List.length pre) with
    | ROk ms1 q1 => if (List.length ms1 =? 0)%nat then RErr
        else if Z.of_nat (List.length ms1) =? n then ROk ms1 q1 else RErr
    | r => r end = RErr).
  { intros ms' q -> LE; destruct (_ =? 0)%nat; [reflexivity|].
    destruct (Z.eqb_spec (Z.of_nat (List.length ms')) n); [lia|reflexivity]. }
  destruct (Z_lt_le_dec max 0) as [M|M]; [|destruct (Z_lt_le_dec (Z.of_nat (List.length ms)) max) as [M'|M']].
  - destruct after as [|b after]; [|rewrite (Z0 b after eq_refl)].
    + rewrite app_nil_r in *; eapply X; [|apply le_n]; eapply process_to_end; eauto.
    + rewrite (Z0 b after eq_refl) in X; eapply X; [|apply le_n]; eapply process_to_zero; eauto.
  - destruct after as [|b after]; [|rewrite (Z0 b after eq_refl)].
    + rewrite app_nil_r in *; eapply X; [|apply le_n]; eapply process_to_end; eauto; right; lia.
    + rewrite (Z0 b after eq_refl) in X; eapply X; [|apply le_n]; eapply process_to_zero; eauto.
  - destruct (taken_firstn reading p T (Z.to_nat max) ms0 ms bs H ST) as (bs1 & bs2 & -> & H1 & ST1).
    assert (LF : List.length (firstn (Z.to_nat max) ms) = Z.to_nat max) by (apply firstn_length_le; lia).
    rewrite <- app_assoc in *; eapply X; [|rewrite LF; lia].
    replace max with (Z.of_nat (List.length (firstn (Z.to_nat max) ms))) at 1 by (rewrite LF; lia).
    eapply process_to_limit; eauto.
Qed.

Hypothesis U : unpacking S p most trap up.

Lemma unpacking_answers_moves : always_answers p trap (sm_read S p) ->
  moves p (sm_read S p) -> unpack_answers trap up.
Proof.
  destruct G as [W FIN TAG END CASE EQ]; destruct U as [UP HDR CNT]; intros ANS MOVES.
  exact (unpacker_answers_moves S p FIN TAG END CASE up most trap UP HDR CNT ANS MOVES).
Qed.

Lemma unpacking_only_messages txt : only_wire_messages p txt (sm_read S p) -> sm_lenient S = false ->
  only_packed p txt up.
Proof.
  destruct G as [W FIN TAG END CASE EQ]; destruct U as [UP HDR CNT]; intros ONLY STRICT.
  exact (unpacker_only S p FIN TAG END CASE up most trap UP HDR CNT STRICT txt ONLY).
Qed.

Variable txt : list byte -> option (list byte).
Hypothesis ONLY : only_wire p txt (sm_read S p).
Hypothesis ANS : always_answers p trap (sm_read S p).
Hypothesis STRICT : sm_lenient S = false.

Lemma unpacking_missing : rejects_missing p trap up.
Proof.
  destruct G as [W FIN TAG END CASE EQ]; destruct U as [UP HDR CNT].
  exact (unpacker_missing S p W FIN TAG END CASE up most trap UP HDR CNT ANS STRICT txt
    (wire_messages _ _ _ ONLY) (only_moves p txt _ ONLY)).
Qed.
Lemma unpacking_only : only_packed p txt up.
Proof. exact (unpacking_only_messages txt (wire_messages _ _ _ ONLY) STRICT). Qed.
Lemma unpacking_answers : unpack_answers trap up.
Proof. exact (unpacking_answers_moves ANS (only_moves p txt _ ONLY)). Qed.
End Unpacking.
