(** Facts about UTF-8 decoding. *)
From Verif Require Export Utf8 WireFacts.
Open Scope list_scope.

Lemma span_spec lo hi b : byte_span lo hi b = true <-> byte_in lo hi b.
Proof. unfold byte_span, byte_in; rewrite andb_true_iff, !Z.leb_le; tauto. Qed.

Lemma span_false lo hi b : byte_span lo hi b = false <-> ~ byte_in lo hi b.
Proof. rewrite <- span_spec; destruct (byte_span lo hi b); split; congruence. Qed.

(** The scanner recognises exactly the characters. *)
Lemma scan_char c rest : utf8_char c -> exists a r, c = a :: r /\ scan a (r ++ rest) = (true, List.length c).
Proof.
  assert (R : forall lo hi b, byte_in lo hi b -> byte_span lo hi b = true) by (intros; now apply span_spec).
  assert (N : forall lo hi b l h, byte_in l h b -> (h < lo \/ hi < l) -> byte_span lo hi b = false).
  { intros lo hi b l h B O; apply span_false; unfold byte_in in *; lia. }
  assert (E : forall z a, Z_of_byte a = z -> byte_in z z a) by (unfold byte_in; lia).
  intro U; destruct U; do 2 eexists; (split; [reflexivity|]); cbn [List.app List.length]; unfold scan, second.
  - rewrite (R 0 127 a) by assumption. repeat (destruct (_ =? _); [reflexivity|]); reflexivity.
  - rewrite (N 0 127 a _ _ H), (R 194 223 a), (R 128 191 b) by (assumption || lia).
    repeat (destruct (_ =? _); [reflexivity|]); reflexivity.
  - pose proof (E _ _ H) as H'. rewrite H; cbn [Z.eqb Pos.eqb].
    rewrite (N 0 127 a _ _ H'), (N 194 223 a _ _ H'), (R 224 239 a) by (lia || (unfold byte_in; lia)).
    now rewrite (R 160 191 b), (R 128 191 c) by assumption.
  - assert (H' : byte_in 225 239 a) by (unfold byte_in in *; lia).
    rewrite (N 0 127 a _ _ H'), (N 194 223 a _ _ H'), (R 224 239 a) by (lia || (unfold byte_in in *; lia)).
    replace (Z_of_byte a =? 224) with false by (symmetry; apply Z.eqb_neq; unfold byte_in in *; lia).
    replace (Z_of_byte a =? 237) with false by (symmetry; apply Z.eqb_neq; unfold byte_in in *; lia).
    replace (Z_of_byte a =? 240) with false by (symmetry; apply Z.eqb_neq; unfold byte_in in *; lia).
    replace (Z_of_byte a =? 244) with false by (symmetry; apply Z.eqb_neq; unfold byte_in in *; lia).
    now rewrite (R 128 191 b), (R 128 191 c) by assumption.
  - pose proof (E _ _ H) as H'. rewrite H; cbn [Z.eqb Pos.eqb].
    rewrite (N 0 127 a _ _ H'), (N 194 223 a _ _ H'), (R 224 239 a) by (lia || (unfold byte_in; lia)).
    now rewrite (R 128 159 b), (R 128 191 c) by assumption.
  - pose proof (E _ _ H) as H'. rewrite H; cbn [Z.eqb Pos.eqb].
    rewrite (N 0 127 a _ _ H'), (N 194 223 a _ _ H'), (N 224 239 a _ _ H'), (R 240 244 a) by (lia || (unfold byte_in; lia)).
    now rewrite (R 144 191 b), (R 128 191 c), (R 128 191 d) by assumption.
  - assert (H' : byte_in 241 243 a) by (unfold byte_in in *; lia).
    rewrite (N 0 127 a _ _ H'), (N 194 223 a _ _ H'), (N 224 239 a _ _ H'), (R 240 244 a) by (lia || (unfold byte_in in *; lia)).
    replace (Z_of_byte a =? 224) with false by (symmetry; apply Z.eqb_neq; unfold byte_in in *; lia).
    replace (Z_of_byte a =? 237) with false by (symmetry; apply Z.eqb_neq; unfold byte_in in *; lia).
    replace (Z_of_byte a =? 240) with false by (symmetry; apply Z.eqb_neq; unfold byte_in in *; lia).
    replace (Z_of_byte a =? 244) with false by (symmetry; apply Z.eqb_neq; unfold byte_in in *; lia).
    now rewrite (R 128 191 b), (R 128 191 c), (R 128 191 d) by assumption.
  - pose proof (E _ _ H) as H'. rewrite H; cbn [Z.eqb Pos.eqb].
    rewrite (N 0 127 a _ _ H'), (N 194 223 a _ _ H'), (N 224 239 a _ _ H'), (R 240 244 a) by (lia || (unfold byte_in; lia)).
    now rewrite (R 128 143 b), (R 128 191 c), (R 128 191 d) by assumption.
Qed.

Lemma second_cases a : 
  (Z_of_byte a = 224 /\ second a = (160, 191)) \/ (Z_of_byte a = 237 /\ second a = (128, 159)) \/
  (Z_of_byte a = 240 /\ second a = (144, 191)) \/ (Z_of_byte a = 244 /\ second a = (128, 143)) \/
  (Z_of_byte a <> 224 /\ Z_of_byte a <> 237 /\ Z_of_byte a <> 240 /\ Z_of_byte a <> 244 /\ second a = (128, 191)).
Proof.
  unfold second.
  destruct (Z.eqb_spec (Z_of_byte a) 224); [tauto|].
  destruct (Z.eqb_spec (Z_of_byte a) 237); [tauto|].
  destruct (Z.eqb_spec (Z_of_byte a) 240); [tauto|].
  destruct (Z.eqb_spec (Z_of_byte a) 244); [tauto|].
  tauto.
Qed.

Lemma scan_true a r n : scan a r = (true, n) ->
  utf8_char (firstn n (a :: r)) /\ (1 <= n <= S (List.length r))%nat.
Proof.
  unfold scan; pose proof (second_cases a) as SC.
  destruct (second a) as [lo hi] eqn:SE.
  destruct (byte_span 0 127 a) eqn:B1.
  { intros [= <-]; cbn; split; [|lia]; apply u1; now apply span_spec. }
  destruct (byte_span 194 223 a) eqn:B2.
  { destruct r as [|b r]; [discriminate|]; destruct (byte_span 128 191 b) eqn:B3; [|discriminate].
    intros [= <-]; cbn; split; [|lia]; apply u2; now apply span_spec. }
  destruct (byte_span 224 239 a) eqn:B3.
  { apply span_spec in B3; destruct r as [|b [|c r]]; try discriminate.
    1: destruct (byte_span lo hi b); discriminate.
    destruct (byte_span lo hi b) eqn:B4; [|discriminate]; destruct (byte_span 128 191 c) eqn:B5; [|discriminate].
    apply span_spec in B4, B5; intros [= <-]; cbn; split; [|lia].
    unfold byte_in in *.
    destruct SC as [[Z S]|[[Z S]|[[Z S]|[[Z S]|(Z1 & Z2 & Z3 & Z4 & S)]]]]; injection S as -> ->.
    - apply u3_e0; assumption.
    - apply u3_ed; assumption.
    - lia.
    - lia.
    - apply u3; unfold byte_in; [lia|assumption|assumption]. }
  destruct (byte_span 240 244 a) eqn:B4; [|discriminate].
  apply span_spec in B4; destruct r as [|b [|c [|d r]]]; try discriminate.
  1: destruct (byte_span lo hi b); discriminate.
  1: destruct (byte_span lo hi b); [destruct (byte_span 128 191 c)|]; discriminate.
  destruct (byte_span lo hi b) eqn:B5; [|discriminate]; destruct (byte_span 128 191 c) eqn:B6; [|discriminate].
  destruct (byte_span 128 191 d) eqn:B7; [|discriminate].
  apply span_spec in B5, B6, B7; intros [= <-]; cbn; split; [|lia].
  unfold byte_in in *.
  destruct SC as [[Z S]|[[Z S]|[[Z S]|[[Z S]|(Z1 & Z2 & Z3 & Z4 & S)]]]]; injection S as -> ->; try lia.
  - apply u4_f0; assumption.
  - apply u4_f4; assumption.
  - apply u4; unfold byte_in; [lia|assumption|assumption|assumption].
Qed.

Lemma scan_pos a r : (1 <= snd (scan a r) <= S (List.length r))%nat.
Proof.
  destruct (scan a r) as [[] n] eqn:E; cbn [snd].
  - now apply scan_true in E.
  - revert E; unfold scan; destruct (second a) as [lo hi].
    destruct (byte_span 0 127 a); [discriminate|].
    destruct (byte_span 194 223 a); [destruct r as [|b r]; [|destruct (byte_span 128 191 b)]; intros [= <-]; cbn; lia|].
    destruct (byte_span 224 239 a).
    { destruct r as [|b [|c r]]; [intros [= <-]; cbn; lia|destruct (byte_span lo hi b); intros [= <-]; cbn; lia|].
      destruct (byte_span lo hi b); [destruct (byte_span 128 191 c)|]; intros [= <-]; cbn; lia. }
    destruct (byte_span 240 244 a); [|intros [= <-]; cbn; lia].
    destruct r as [|b [|c [|d r]]].
    + intros [= <-]; cbn; lia.
    + destruct (byte_span lo hi b); intros [= <-]; cbn; lia.
    + destruct (byte_span lo hi b); [destruct (byte_span 128 191 c)|]; intros [= <-]; cbn; lia.
    + destruct (byte_span lo hi b); [destruct (byte_span 128 191 c); [destruct (byte_span 128 191 d)|]|]; intros [= <-]; cbn; lia.
Qed.

Lemma utf8_app a b : utf8 a -> utf8 b -> utf8 (a ++ b).
Proof. induction 1; intro B; cbn; [assumption|]; rewrite <- app_assoc; constructor; auto. Qed.

Lemma char_nonempty c : utf8_char c -> (1 <= List.length c)%nat.
Proof. destruct 1; cbn; lia. Qed.

Lemma valid_from_true s : utf8 s -> forall f, (List.length s <= f)%nat -> valid_from f s = true.
Proof.
  induction 1 as [|c s C S IH]; intros f L; [destruct f; reflexivity|].
  destruct (scan_char c s C) as (a & r & -> & SC).
  rewrite app_length in L; destruct f as [|f]; [cbn in L; lia|].
  cbn [valid_from List.app]; rewrite SC; change (a :: r ++ s) with ((a :: r) ++ s).
  rewrite skipn_app, skipn_all, Nat.sub_diag; cbn; apply IH; cbn in L; lia.
Qed.

Lemma valid_from_utf8 f : forall s, valid_from f s = true -> utf8 s.
Proof.
  induction f as [|f IH]; intros [|a r]; cbn [valid_from]; try discriminate; try constructor.
  destruct (scan a r) as [[] n] eqn:E; [|discriminate]; intro V.
  apply scan_true in E as [C _]; rewrite <- (firstn_skipn n (a :: r)); constructor; auto.
Qed.

Lemma utf8_valid_spec s : utf8_valid s = true <-> utf8 s.
Proof. split; [apply valid_from_utf8|intro U; now apply valid_from_true]. Qed.

Lemma lossy_from_id s : utf8 s -> forall f, (List.length s <= f)%nat -> lossy_from f s = s.
Proof.
  induction 1 as [|c s C S IH]; intros f L; [destruct f; reflexivity|].
  destruct (scan_char c s C) as (a & r & -> & SC).
  rewrite app_length in L; destruct f as [|f]; [cbn in L; lia|].
  cbn [lossy_from List.app]; rewrite SC; change (a :: r ++ s) with ((a :: r) ++ s).
  rewrite skipn_app, firstn_app, skipn_all, firstn_all, Nat.sub_diag, app_nil_r.
  cbn [skipn List.app]; rewrite IH; [reflexivity|cbn in L; lia].
Qed.

Lemma utf8_lossy_id s : utf8 s -> utf8_lossy s = s.
Proof. intro U; now apply lossy_from_id. Qed.

Lemma utf8_lossy_utf8 s : utf8 (utf8_lossy s).
Proof.
  unfold utf8_lossy; generalize (List.length s); intro f; revert s.
  induction f as [|f IH]; intros [|a r]; cbn [lossy_from]; try constructor.
  destruct (scan a r) as [[] n] eqn:E; apply utf8_app; auto.
  - apply scan_true in E as [C _]; rewrite <- (app_nil_r (firstn _ _)); constructor; [assumption|constructor].
  - unfold replacement; change [xef; xbf; xbd] with ([xef; xbf; xbd] ++ []); constructor; [|constructor].
    apply u3; unfold byte_in; cbn; lia.
Qed.

(** Text that does not start with a byte order mark. *)
Definition no_bom (s : list byte) : Prop := strip_bom s = s.

Lemma strip_bom_length s : (List.length (strip_bom s) <= List.length s)%nat.
Proof. unfold strip_bom; repeat (match goal with |- context [match ?x with _ => _ end] => destruct x end; cbn; try lia). Qed.

Lemma utf16_le s f : (List.length s <= f)%nat -> (utf16_from f s <= List.length s)%nat.
Proof.
  revert s; induction f as [|f IH]; intros [|a r] L; cbn [utf16_from]; try (cbn; lia).
  pose proof (scan_pos a r) as P; set (n := snd (scan a r)) in *.
  assert (IH' := IH (skipn n (a :: r))); rewrite skipn_length in IH'; cbn [List.length] in *.
  destruct (Nat.eqb_spec n 4); lia.
Qed.

(** ** Text without replaced characters *)

Definition ascii_bytes (s : list byte) : Prop := Forall (fun b => Z_of_byte b < 128) s.

Lemma lossy_from_ascii f : forall s, (List.length s <= f)%nat -> ascii_bytes (lossy_from f s) -> lossy_from f s = s.
Proof.
  induction f as [|f IH]; intros s L A.
  - destruct s; [reflexivity|cbn in L; lia].
  - destruct s as [|a r]; [reflexivity|]; cbn [lossy_from] in A |- *.
    pose proof (scan_pos a r) as SP.
    destruct (scan a r) as [ok n] eqn:SC; cbn [snd] in SP.
    apply Forall_app in A as [A1 A2]; destruct ok.
    + rewrite IH; [apply firstn_skipn| |assumption].
      rewrite skipn_length; cbn [List.length] in *; lia.
    + inversion A1 as [|? ? X]; cbn in X; lia.
Qed.

Lemma lossy_ascii s : ascii_bytes (utf8_lossy s) -> utf8_lossy s = s.
Proof. apply lossy_from_ascii; lia. Qed.

Lemma header_ascii : ascii_bytes header.
Proof. repeat constructor. Qed.

Lemma header_lossy s : utf8_lossy s = header -> s = header.
Proof. intro E; rewrite <- (lossy_ascii s); [exact E|]; rewrite E; apply header_ascii. Qed.

Lemma scan_ef r ok n : scan xef r = (ok, n) -> ok = true -> n = 3%nat.
Proof.
  unfold scan; cbn -[byte_span]; intros E ->.
  destruct r as [|b [|c r]]; cbn in E.
  - congruence.
  - destruct (byte_span 128 191 b) in E; congruence.
  - destruct (byte_span 128 191 b) in E; [|congruence]; destruct (byte_span 128 191 c) in E; congruence.
Qed.

Lemma header_plain s : List.length s = 4%nat -> strip_bom (utf8_lossy s) = header -> s = header.
Proof.
  intros L E.
  assert (C : utf8_lossy s = header \/ utf8_lossy s = bom ++ header).
  { revert E; generalize (utf8_lossy s); intros x E; unfold strip_bom in E.
    destruct x as [|a [|b [|c x]]]; try discriminate;
      try (left; destruct a; exact E); try (left; destruct a; try exact E; destruct b; exact E).
    destruct a; try (left; exact E); destruct b; try (left; exact E); destruct c; try (left; exact E).
    right; subst x; reflexivity. }
  destruct C as [C|C]; [now apply header_lossy|exfalso].
  destruct s as [|a r]; [discriminate|].
  unfold utf8_lossy in C; cbn [List.length] in C; cbn [lossy_from] in C.
  destruct (scan a r) as [ok n] eqn:SC; destruct ok.
  - assert (NP := scan_pos a r); rewrite SC in NP; cbn [snd] in NP.
    destruct n as [|n]; [lia|]; cbn [firstn app] in C; injection C as -> C.
    apply scan_ef in SC; [|reflexivity]; injection SC as ->.
    destruct r as [|b [|c [|d [|e r]]]]; try discriminate.
    assert (C2 : [b; c] ++ lossy_from 3 [d] = [xbb; xbf] ++ header) by exact C.
    injection C2 as -> -> C2; fold (lossy_from 3 [d]) in C2.
    assert (C3 : lossy_from 3 [d] = header) by exact C2.
    assert (X : lossy_from 3 [d] = [d]).
    { apply lossy_from_ascii; [cbn; lia|]; rewrite C3; apply header_ascii. }
    rewrite X in C3; discriminate.
  - cbn in C; discriminate.
Qed.

Lemma strip_bom_utf8 s : utf8 s -> utf8 (strip_bom s).
Proof.
  intro U; assert (X : s = strip_bom s \/ s = bom ++ strip_bom s).
  { unfold strip_bom; destruct s as [|a [|b [|c r]]]; auto;
      destruct a; auto; destruct b; auto; destruct c; auto. }
  destruct X as [X|X]; [now rewrite <- X|].
  apply (fun H => valid_from_true s H (S (List.length s)) (Nat.le_succ_diag_r _)) in U.
  revert U; generalize (List.length s); rewrite X; intros n U.
  apply (valid_from_utf8 n); exact U.
Qed.
