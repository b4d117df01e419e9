(** Readers that do not reject everything that is no encoding: what still holds of
    them. *)
From Verif Require Export ReaderFacts LangSpec.
Open Scope Z_scope.
Open Scope list_scope.

(** An accepted message does not end in front of its start. *)
Definition moves (p : protocol) (rd : reader) : Prop :=
  forall t s inp pos v q, declares p t s -> rd t inp pos = ROk v q -> (pos <= q)%nat.

Lemma only_moves p txt rd : only_wire p txt rd -> moves p rd.
Proof. intros O t s inp pos v q D R; apply (O t s _ _ _ _ D) in R as (v0 & bs & rest & _ & -> & _); lia. Qed.

Lemma rbind_ok {A B} (r : res A) (k : A -> nat -> res B) b q :
  rbind r k = ROk b q -> exists a q', r = ROk a q' /\ k a q' = ROk b q.
Proof. destruct r; cbn; try discriminate; eauto. Qed.

Section Loose.
Variable str : protocol -> list byte -> nat -> got (list byte).
Variable len : string -> Z -> got unit.
Variable enums : enum -> Z -> option Z.
Variable p : protocol.
Hypothesis W : WF p.
Variable inp : list byte.
Notation dec := (dec str len enums p inp).

Lemma dec_num_moves k pos v q : dec_num inp k pos = ROk v q -> (pos <= q)%nat.
Proof. intro H; apply dec_num_ok in H as (bs & rest & _ & _ & ->); lia. Qed.

Lemma dec_list_inv rd t pos v q : dec_list len p inp rd t pos = ROk v q ->
  exists k z q' a b vs, num_of (p_list_size_type p) = Some k /\ dec_num inp k pos = ROk (VInt z) q' /\
    len t z = Got a b /\ dec_elems rd t (Z.to_nat z) q' = ROk vs q /\ v = VList vs.
Proof.
  unfold dec_list; destruct (num_of (p_list_size_type p)) as [k|]; [|discriminate].
  intro H; apply rbind_ok in H as (n & q' & N & H); destruct n as [z| | | | |]; try discriminate.
  destruct (len t z) as [a b| |] eqn:L; try discriminate.
  apply rbind_ok in H as (vs & q'' & E & H); injection H as <- <-; exists k, z, q', a, b, vs; auto.
Qed.

(** ** Position *)

Section Moves.
Hypothesis STR : forall pos s q, str p inp pos = Got s q -> (pos <= q)%nat.

Lemma dec_moves fuel : forall t pos v q, dec fuel t pos = ROk v q -> (pos <= q)%nat.
Proof.
  induction fuel as [|f IH]; intros t pos v q; cbn [Dec.dec].
  all: destruct (num_of t) as [k|]; [apply dec_num_moves|].
  all: destruct (String.eqb t "string");
    [destruct (str p inp pos) as [s q'| |] eqn:S; try discriminate; intros [= <- <-]; eapply STR; eassumption|].
  all: destruct (lookup t (p_enums p)) as [e|].
  1,3: unfold dec_enum; destruct (num_of (e_encoding e)) as [k|]; [|discriminate];
    intro H; apply rbind_ok in H as (n & q' & N & H); apply dec_num_moves in N;
    destruct n as [z| | | | |]; try discriminate; destruct (enums e z); [|discriminate]; injection H as <- <-; assumption.
  all: destruct (find_struct p t) as [s|]; [|discriminate].
  1: discriminate.
  intro H; apply rbind_ok in H as (fs & q' & M & H); injection H as <- <-.
  revert pos fs M; induction (s_members s) as [|m ms IHm]; intros pos fs; cbn [dec_members]; [intros [= <- <-]; lia|].
  intro H; apply rbind_ok in H as (v1 & q1 & H1 & H); apply rbind_ok in H as (fs2 & q2 & H2 & H); injection H as <- <-.
  apply IHm in H2.
  enough (pos <= q1)%nat by lia; clear - IH H1.
  unfold dec_member in H1; destruct (v_list m); [|eapply IH; eassumption].
  apply dec_list_inv in H1 as (k & z & q' & a & b & vs & _ & N & _ & E & _); apply dec_num_moves in N.
  enough (q' <= q1)%nat by lia; clear - IH E.
  revert q' vs E; induction (Z.to_nat z) as [|n IHn]; intros pos vs; cbn [dec_elems]; [intros [= <- <-]; lia|].
  intro H; apply rbind_ok in H as (v2 & q2 & H2 & H); apply rbind_ok in H as (vs3 & q3 & H3 & H); injection H as <- <-.
  apply IH in H2; apply IHn in H3; lia.
Qed.
End Moves.

(** ** Strings *)

Section Strings.
Variable P : list byte -> Prop.
Hypothesis STR : forall pos s q, str p inp pos = Got s q -> P s.

Lemma dec_num_strings k pos v q : dec_num inp k pos = ROk v q -> strings P v.
Proof. intro H; apply dec_num_ok in H as (bs & rest & _ & N & _); inversion N; constructor. Qed.

Lemma dec_strings fuel : forall t pos v q, dec fuel t pos = ROk v q -> strings P v.
Proof.
  induction fuel as [|f IH]; intros t pos v q; cbn [Dec.dec].
  all: destruct (num_of t) as [k|]; [apply dec_num_strings|].
  all: destruct (String.eqb t "string");
    [destruct (str p inp pos) as [s q'| |] eqn:S; try discriminate; intros [= <- <-]; constructor; eapply STR; eassumption|].
  all: destruct (lookup t (p_enums p)) as [e|].
  1,3: unfold dec_enum; destruct (num_of (e_encoding e)) as [k|]; [|discriminate];
    intro H; apply rbind_ok in H as (n & q' & N & H);
    destruct n as [z| | | | |]; try discriminate; destruct (enums e z); [|discriminate]; injection H as <- <-; constructor.
  all: destruct (find_struct p t) as [s|]; [|discriminate].
  1: discriminate.
  intro H; apply rbind_ok in H as (fs & q' & M & H); injection H as <- <-; constructor.
  revert pos fs M; induction (s_members s) as [|m ms IHm]; intros pos fs; cbn [dec_members]; [intros [= <- <-] n v []|].
  intro H; apply rbind_ok in H as (v1 & q1 & H1 & H); apply rbind_ok in H as (fs2 & q2 & H2 & H); injection H as <- <-.
  intros n v [[= <- <-]|I]; [|eapply IHm; eassumption]; clear - IH H1.
  unfold dec_member in H1; destruct (v_list m); [|eapply IH; eassumption].
  apply dec_list_inv in H1 as (k & z & q' & a & b & vs & _ & _ & _ & E & ->); constructor; clear - IH E.
  revert q' vs E; induction (Z.to_nat z) as [|n IHn]; intros pos vs; cbn [dec_elems]; [intros [= <- <-] v []|].
  intro H; apply rbind_ok in H as (v2 & q2 & H2 & H); apply rbind_ok in H as (vs3 & q3 & H3 & H); injection H as <- <-.
  intros v [<-|I]; [eapply IH; eassumption|eapply IHn; eassumption].
Qed.
End Strings.

(** ** End of the input *)

Section Within.
Hypothesis STR : forall pos s q, str p inp pos = Got s q -> (q <= List.length inp)%nat.

Lemma dec_num_within k pos v q : dec_num inp k pos = ROk v q -> (q <= List.length inp)%nat.
Proof.
  unfold dec_num, read_num, bytes_at; destruct (Nat.leb_spec (pos + num_size k) (List.length inp)); [|discriminate].
  intros [= _ <-]; assumption.
Qed.

(** Nothing was read, or what was read is part of the input. *)
Lemma dec_within fuel : forall t pos v q, dec fuel t pos = ROk v q -> q = pos \/ (q <= List.length inp)%nat.
Proof.
  induction fuel as [|f IH]; intros t pos v q; cbn [Dec.dec].
  all: destruct (num_of t) as [k|]; [right; eapply dec_num_within; eassumption|].
  all: destruct (String.eqb t "string");
    [destruct (str p inp pos) as [s q'| |] eqn:S; try discriminate; intros [= <- <-]; right; eapply STR; eassumption|].
  all: destruct (lookup t (p_enums p)) as [e|].
  1,3: unfold dec_enum; destruct (num_of (e_encoding e)) as [k|]; [|discriminate];
    intro H; apply rbind_ok in H as (n & q' & N & H); apply dec_num_within in N;
    destruct n as [z| | | | |]; try discriminate; destruct (enums e z); [|discriminate]; injection H as <- <-; now right.
  all: destruct (find_struct p t) as [s|]; [|discriminate].
  1: discriminate.
  intro H; apply rbind_ok in H as (fs & q' & M & H); injection H as <- <-.
  revert pos fs M; induction (s_members s) as [|m ms IHm]; intros pos fs; cbn [dec_members]; [intros [= <- <-]; now left|].
  intro H; apply rbind_ok in H as (v1 & q1 & H1 & H); apply rbind_ok in H as (fs2 & q2 & H2 & H); injection H as <- <-.
  apply IHm in H2; destruct H2 as [->|H2]; [|now right].
  unfold dec_member in H1; destruct (v_list m); [|eapply IH; eassumption].
  apply dec_list_inv in H1 as (k & z & q' & a & b & vs & _ & N & _ & E & _); apply dec_num_within in N.
  enough (X : forall n q' vs, dec_elems (dec f) (v_type m) n q' = ROk vs q1 -> q1 = q' \/ (q1 <= List.length inp)%nat).
  { right; destruct (X _ _ _ E) as [->|L]; assumption. }
  clear - IH; induction n as [|n IHn]; intros pos vs; cbn [dec_elems]; [intros [= <- <-]; now left|].
  intro H; apply rbind_ok in H as (v2 & q2 & H2 & H); apply rbind_ok in H as (vs3 & q3 & H3 & H); injection H as <- <-.
  apply IHn in H3 as [->|H3]; [eapply IH; eassumption|now right].
Qed.
End Within.

(** ** Enums *)

Lemma dec_enums (ok : enum -> Z -> Prop) fuel :
  (forall t e z z', In (t, e) (p_enums p) -> enums e z = Some z' -> ok e z') ->
  forall t pos v q, dec fuel t pos = ROk v q -> enums_in ok p t v.
Proof.
  intro ONLY.
  induction fuel as [|f IH]; intros t pos v q; cbn [Dec.dec].
  all: destruct (num_of t) as [k|] eqn:K; [intros _; apply ed_base; left; apply num_of_base; eauto|].
  all: destruct (String.eqb_spec t "string") as [->|NS]; [intros _; apply ed_base; now right|].
  all: destruct (lookup t (p_enums p)) as [e|] eqn:E.
  1,3: unfold dec_enum; destruct (num_of (e_encoding e)) as [k|]; [|discriminate];
    intro H; apply rbind_ok in H as (n & q' & N & H);
    destruct n as [z| | | | |]; try discriminate; destruct (enums e z) as [z'|] eqn:X; [|discriminate]; injection H as <- <-;
    apply (ONLY t e) in X; [|eapply lookup_In; eassumption];
    eapply ed_enum; [eapply lookup_In; eassumption|assumption].
  all: destruct (find_struct p t) as [s|] eqn:FS; [|discriminate].
  1: discriminate.
  intro H; apply rbind_ok in H as (fs & q' & M & H); injection H as <- <-.
  apply declares_find in FS.
  assert (X : NoDup (map v_name (s_members s)) -> map fst fs = map v_name (s_members s) /\
     (forall m v, In m (s_members s) -> v_list m = false -> In (v_name m, v) fs -> enums_in ok p (v_type m) v) /\
     (forall m vs v, In m (s_members s) -> v_list m = true -> In (v_name m, VList vs) fs -> In v vs -> enums_in ok p (v_type m) v)).
  { revert pos fs M; clear - IH; induction (s_members s) as [|m ms IHm]; intros pos fs; cbn [dec_members].
    - intros [= <- <-] _; split; [reflexivity|]; split; [intros m v []|intros m vs v []].
    - intro H; apply rbind_ok in H as (v1 & q1 & H1 & H); apply rbind_ok in H as (fs2 & q2 & H2 & H); injection H as <- <-.
      intro ND; inversion ND as [|? ? NI ND']; subst.
      destruct (IHm _ _ H2 ND') as (NM & G1 & G2).
      assert (FN : forall m' v', In m' (m :: ms) -> In (v_name m', v') ((v_name m, v1) :: fs2) ->
                (m' = m /\ v' = v1) \/ (In m' ms /\ In (v_name m', v') fs2)).
      { intros m' v' IM IV; destruct IM as [<-|IM], IV as [E|IV].
        - injection E as <-; auto.
        - exfalso; apply NI; rewrite <- NM; apply (in_map fst) in IV; exact IV.
        - injection E as E1 <-; exfalso; apply NI; rewrite E1; now apply in_map.
        - auto. }
      split; [cbn; congruence|]; split.
      + intros m' v' IM VL IV; destruct (FN _ _ IM IV) as [[-> ->]|[I1 I2]]; [|eapply G1; eassumption].
        unfold dec_member in H1; rewrite VL in H1; eapply IH; eassumption.
      + intros m' vs v' IM VL IV IN; destruct (FN _ _ IM IV) as [[-> E1]|[I1 I2]]; [|eapply G2; eassumption].
        unfold dec_member in H1; rewrite VL in H1.
        apply dec_list_inv in H1 as (k & z & q' & a & b & vs1 & _ & _ & _ & E & E2).
        rewrite E2 in E1; injection E1 as ->; clear - IH E IN.
        revert q' vs1 E IN; induction (Z.to_nat z) as [|n IHn]; intros pos vs; cbn [dec_elems]; [intros [= <- <-] []|].
        intro H; apply rbind_ok in H as (v2 & q2 & H2 & H); apply rbind_ok in H as (vs3 & q3 & H3 & H); injection H as <- <-.
        intros [<-|IN]; [eapply IH; eassumption|eapply IHn; eassumption]. }
  destruct (X (wf_member_nodup p W t s FS)) as (_ & G1 & G2); eapply ed_struct; eassumption.
Qed.

(** ** Strings at the end of the input *)

Section Short.
Hypothesis SOLID : no_string_last p.
(** A stricter way to read strings, different from [str] only at the end of input. *)
Variable str' : protocol -> list byte -> nat -> got (list byte).
Notation dec' := (Dec.dec str' len enums p inp).
Hypothesis STR : forall pos s q, str p inp pos = Got s q ->
  str' p inp pos = Got s q \/ (List.length inp <= q)%nat.
(** An empty input is no string. *)
Hypothesis STR0 : forall pos s q, (List.length inp <= pos)%nat -> str p inp pos <> Got s q.

Lemma dec_num_at_end k pos v q : (List.length inp <= pos)%nat -> dec_num inp k pos <> ROk v q.
Proof.
  unfold dec_num, read_num, bytes_at; intros L; pose proof (num_size_pos k).
  destruct (Nat.leb_spec (pos + num_size k) (List.length inp)); [lia|discriminate].
Qed.

Lemma dec_member_at_end rd m pos v q : (List.length inp <= pos)%nat ->
  (forall v q, rd (v_type m) pos <> ROk v q) -> dec_member len p inp rd m pos <> ROk v q.
Proof.
  intros L H; unfold dec_member; destruct (v_list m); [|apply H].
  intro E; apply dec_list_inv in E as (k & z & q' & a & b & vs & _ & N & _).
  eapply dec_num_at_end; eassumption.
Qed.

Lemma dec_at_end fuel : forall t pos v q, (List.length inp <= pos)%nat -> dec fuel t pos <> ROk v q.
Proof.
  induction fuel as [|f IH]; intros t pos v q L; cbn [Dec.dec].
  all: destruct (num_of t) as [k|]; [now apply dec_num_at_end|].
  all: destruct (String.eqb t "string");
    [destruct (str p inp pos) as [s q'| |] eqn:S; try discriminate; now apply STR0 in S|].
  all: destruct (lookup t (p_enums p)) as [e|].
  1,3: unfold dec_enum; destruct (num_of (e_encoding e)) as [k|]; [|discriminate];
    intro H; apply rbind_ok in H as (n & q' & N & H); eapply dec_num_at_end; eassumption.
  all: destruct (find_struct p t) as [s|] eqn:FS; [|discriminate].
  1: discriminate.
  intro H; apply rbind_ok in H as (fs & q' & M & H).
  apply declares_find, SOLID in FS as (ms & m & E & _); rewrite E in M.
  destruct ms as [|m' ms]; cbn [dec_members app] in M; apply rbind_ok in M as (v1 & q1 & H1 & M);
    (eapply dec_member_at_end; [exact L| |exact H1]; intros; now apply IH).
Qed.

Lemma dec_members_at_end f ms pos fs q : (List.length inp <= pos)%nat -> ms <> [] ->
  dec_members len p inp (dec f) ms pos <> ROk fs q.
Proof.
  intros L N; destruct ms as [|m ms]; [congruence|]; cbn [dec_members]; intro H.
  apply rbind_ok in H as (v1 & q1 & H1 & H).
  eapply dec_member_at_end; [exact L| |exact H1]; intros; now apply dec_at_end.
Qed.

Lemma dec_elems_short f t : (forall pos v q, dec f t pos = ROk v q -> dec' f t pos = ROk v q \/ (List.length inp <= q)%nat) ->
  forall n pos vs q, dec_elems (dec f) t n pos = ROk vs q ->
  dec_elems (dec' f) t n pos = ROk vs q \/ (List.length inp <= q)%nat.
Proof.
  intro H; induction n as [|n IH]; intros pos vs q; cbn [dec_elems]; [now left|].
  intro E; apply rbind_ok in E as (v2 & q2 & H2 & E); apply rbind_ok in E as (vs3 & q3 & H3 & E); injection E as <- <-.
  destruct (H _ _ _ H2) as [D|L].
  - destruct (IH _ _ _ H3) as [D3|L3]; [left; rewrite D; cbn [rbind]; now rewrite D3|now right].
  - right; destruct n as [|n]; cbn [dec_elems] in H3; [injection H3 as <- <-; assumption|].
    apply rbind_ok in H3 as (v4 & q4 & H4 & _); now apply dec_at_end in H4.
Qed.

(** Of a type that is no string nothing can be cut short. *)
Lemma dec_short fuel : forall t pos v q, dec fuel t pos = ROk v q ->
  dec' fuel t pos = ROk v q \/ (t = "string"%string /\ (List.length inp <= q)%nat).
Proof.
  induction fuel as [|f IH]; intros t pos v q; cbn [Dec.dec].
  all: destruct (num_of t) as [k|]; [now left|].
  all: destruct (String.eqb_spec t "string") as [->|NS];
    [destruct (str p inp pos) as [s q'| |] eqn:S; try discriminate; cbn [got_res]; intros [= <- <-];
     destruct (STR _ _ _ S) as [->|L]; auto|].
  all: destruct (lookup t (p_enums p)) as [e|]; [now left|].
  all: destruct (find_struct p t) as [s|] eqn:FS; [|discriminate].
  1: discriminate.
  intro H; apply rbind_ok in H as (fs & q' & M & H); injection H as <- <-.
  apply declares_find, SOLID in FS as (ms & m & E & NL); rewrite E in *.
  enough (X : dec_members len p inp (dec' f) (ms ++ [m]) pos = ROk fs q') by (left; rewrite X; reflexivity).
  assert (IH' : forall t pos v q, dec f t pos = ROk v q -> dec' f t pos = ROk v q \/ (List.length inp <= q)%nat).
  { intros t' pos' v' q'' D; destruct (IH _ _ _ _ D) as [?|[_ ?]]; auto. }
  assert (MS : forall m' pos v q, dec_member len p inp (dec f) m' pos = ROk v q ->
            dec_member len p inp (dec' f) m' pos = ROk v q \/ (v_type m' = "string"%string /\ (List.length inp <= q)%nat)).
  { intros m' pos' v' q''; unfold dec_member; destruct (v_list m'); [|apply IH].
    intro H; apply dec_list_inv in H as (k & z & q1 & a & b & vs & K & N & LZ & EL & ->).
    unfold dec_list; rewrite K, N; cbn [rbind]; rewrite LZ.
    destruct (String.eqb_spec (v_type m') "string") as [ES|NES].
    - destruct (dec_elems_short f (v_type m') (IH' _) _ _ _ _ EL) as [X|X]; [left; rewrite X; reflexivity|now right].
    - left.
      assert (X : dec_elems (dec' f) (v_type m') (Z.to_nat z) q1 = ROk vs q''); [|rewrite X; reflexivity].
      clear - EL IH NES; revert q1 vs EL; induction (Z.to_nat z) as [|n IHn]; intros q1 vs; cbn [dec_elems]; [auto|].
      intro H; apply rbind_ok in H as (v2 & q2 & H2 & H); apply rbind_ok in H as (vs3 & q3 & H3 & H); injection H as <- <-.
      destruct (IH _ _ _ _ H2) as [->|[? _]]; [|contradiction]; cbn [rbind]; now rewrite (IHn _ _ H3). }
  clear E; revert pos fs M; induction ms as [|m' ms IHm]; intros pos fs; cbn [dec_members app].
  - intro H; apply rbind_ok in H as (v1 & q1 & H1 & H).
    destruct (MS _ _ _ _ H1) as [->|[? _]]; [exact H|contradiction].
  - intro H; apply rbind_ok in H as (v1 & q1 & H1 & H); apply rbind_ok in H as (fs2 & q2 & H2 & H); injection H as <- <-.
    destruct (MS _ _ _ _ H1) as [->|[_ L]].
    + cbn [rbind]; now rewrite (IHm _ _ H2).
    + exfalso; revert H2; apply dec_members_at_end; [assumption|destruct ms; discriminate].
Qed.
End Short.
End Loose.

(** ** Generated readers *)

Section Good.
Variable R : rt.
Variable p : protocol.
Variable code : protocol -> struct -> list rstmt.
Variable len : string -> Z -> got unit.
Variable trap : bool.
Hypothesis W : WF p.
Hypothesis AGREES : forall inp fuel, call_ok R p inp (run R p code inp fuel) len fuel.
Hypothesis STRT : forall inp pos, rt_str R p inp pos = Crash -> trap = true.
Hypothesis LENT : forall t z, (exists k, num_of (p_list_size_type p) = Some k /\ num_min k <= z <= num_max k) ->
  len t z = Crash -> trap = true.

Lemma good_dec t s inp pos : declares p t s ->
  read_with R code p t inp pos = dec (rt_str R) len (rt_enum R) p inp (depth_of p) t pos.
Proof.
  intro D; pose proof (dec_answers_top R p len trap W STRT LENT t s inp pos D) as A.
  erewrite read_with_dec; eauto.
Qed.

Lemma good_moves : (forall inp pos s q, rt_str R p inp pos = Got s q -> (pos <= q)%nat) ->
  moves p (read_with R code p).
Proof. intros H t s inp pos v q D; rewrite (good_dec t s) by assumption; apply dec_moves, H. Qed.

Lemma good_text : (forall inp pos s q, rt_str R p inp pos = Got s q -> utf8 s) -> returns_text p (read_with R code p).
Proof. intros H t s inp pos v q D; rewrite (good_dec t s) by assumption; apply dec_strings, H. Qed.

(** A reader that goes wrong with strings at the end of the input only. *)
Lemma good_only_short str' txt :
  no_string_last p -> enums_only (rt_enum R) p -> len_ok len p ->
  (forall inp pos s q, rt_str R p inp pos = Got s q -> str' p inp pos = Got s q \/ (List.length inp <= q)%nat) ->
  (forall inp pos s q, (List.length inp <= pos)%nat -> rt_str R p inp pos <> Got s q) ->
  (forall inp pos s pos', str' p inp pos = Got s pos' ->
     exists lb raw rest, skipn pos inp = lb ++ raw ++ rest /\
       wire_size reading (p_string_size_type p) (List.length raw) lb /\
       pos' = (pos + List.length lb + List.length raw)%nat /\ txt raw = Some s) ->
  only_wire p txt (read_with R code p).
Proof.
  intros SOLID ENUMS LEN STR STR0 STR' t s inp pos v q D; rewrite (good_dec t s) by assumption; intro H.
  apply (dec_short _ _ _ p inp SOLID str' (STR inp) (STR0 inp)) in H as [H|[-> _]].
  - eapply dec_back in H; eauto.
  - destruct (declares_not_num p W _ s D) as (_ & N & _); congruence.
Qed.

Lemma good_enums_in (ok : enum -> Z -> Prop) :
  (forall t e z z', In (t, e) (p_enums p) -> rt_enum R e z = Some z' -> ok e z') ->
  only_enums_in ok p (read_with R code p).
Proof. intros E t s inp pos v q D; rewrite (good_dec t s) by assumption; now apply dec_enums. Qed.
Lemma good_enums : enums_only (rt_enum R) p -> only_declared_enums p (read_with R code p).
Proof. intro E; apply good_enums_in; intros t e z z' I X; apply (E t e) in X as [-> X]; assumption. Qed.
End Good.
