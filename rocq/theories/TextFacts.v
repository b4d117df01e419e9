(** Facts about name conversions. *)
From Verif Require Export TextUtil TextSpec.
Open Scope list_scope.

Lemma all_ascii (P : ascii -> bool) : (forall n, (n < 256)%nat -> P (ascii_of_nat n) = true) -> forall c, P c = true.
Proof. intros H c; rewrite <- (ascii_nat_embedding c); apply H, nat_ascii_bounded. Qed.

Fixpoint upto (n : nat) : list nat := match n with O => [] | S k => k :: upto k end.
Lemma all_ascii_b (P : ascii -> bool) : forallb (fun n => P (ascii_of_nat n)) (upto 256) = true -> forall c, P c = true.
Proof.
  intro H; apply all_ascii; intros n L.
  rewrite forallb_forall in H; apply (H n).
  clear H P; revert n L; generalize 256%nat; intro m; induction m as [|k IH]; intros n L; [lia|].
  cbn; destruct (Nat.eq_dec n k); [now left|right; apply IH; lia].
Qed.

Ltac ascii_tac P := apply (all_ascii_b P); vm_compute; reflexivity.

Lemma is_upper_spec c : is_upper c = true <-> capital c.
Proof.
  unfold is_upper, in_chars, capital; rewrite andb_true_iff, !Nat.leb_le; tauto.
Qed.
Lemma not_upper c : is_upper c = false <-> ~ capital c.
Proof. rewrite <- is_upper_spec; destruct (is_upper c); split; congruence. Qed.

Lemma lower_not_upper c : is_upper (lower_ascii c) = false.
Proof. apply negb_true_iff; revert c; ascii_tac (fun c => negb (is_upper (lower_ascii c))). Qed.
Lemma lower_id c : is_upper c = false -> lower_ascii c = c.
Proof.
  intro U; apply Ascii.eqb_eq.
  enough (H : (is_upper c || Ascii.eqb (lower_ascii c) c) = true) by (now rewrite U in H).
  revert c U; intros c _; revert c; ascii_tac (fun c => is_upper c || Ascii.eqb (lower_ascii c) c).
Qed.

Definition no_upper (s : string) : Prop := forall c, In c (str_chars s) -> is_upper c = false.

Lemma no_upper_cons c s : no_upper (String c s) <-> is_upper c = false /\ no_upper s.
Proof.
  unfold no_upper; cbn; split.
  - intro H; split; [apply H; now left|intros d I; apply H; now right].
  - intros [A B] d [<-|I]; auto.
Qed.

Lemma lower_no_upper s : no_upper (lower s).
Proof.
  unfold lower; induction s as [|c s IH]; [intros c []|].
  cbn [smap]; apply no_upper_cons; split; [apply lower_not_upper|exact IH].
Qed.
Lemma lower_same s : no_upper s -> lower s = s.
Proof.
  unfold lower; induction s as [|c s IH]; [reflexivity|].
  intro N; apply no_upper_cons in N as [A B]; cbn [smap]; now rewrite lower_id, IH.
Qed.

Lemma split_words_same s : no_upper s -> forall run, split_words run s = s.
Proof.
  induction s as [|c s IH]; [reflexivity|]; intros N run; apply no_upper_cons in N as [A B].
  cbn [split_words]; destruct (run && is_lower c); [now rewrite IH|].
  destruct s as [|u r]; [reflexivity|]; apply no_upper_cons in B as B'; destruct B' as [U _].
  rewrite U, andb_false_r; cbn [andb]; now rewrite IH.
Qed.
Lemma split_caps_same s : no_upper s -> split_caps s = s.
Proof.
  induction s as [|c s IH]; [reflexivity|]; intro N; apply no_upper_cons in N as [A B].
  cbn [split_caps]; destruct s as [|u r]; [reflexivity|]; apply no_upper_cons in B as B'; destruct B' as [U _].
  now rewrite U, andb_false_r, IH.
Qed.
Lemma snake_same s : no_upper s -> snake s = s.
Proof.
  intro N; unfold snake; rewrite split_words_same by exact N; rewrite split_caps_same by exact N; now apply lower_same.
Qed.
Lemma snake_no_upper s : no_upper (snake s).
Proof. apply lower_no_upper. Qed.
Lemma snake_twice s : snake (snake s) = snake s.
Proof. apply snake_same, snake_no_upper. Qed.

(** ** Only underscores are added *)

Lemma spaced_refl s : spaced s s.
Proof. induction s; constructor; auto. Qed.
Lemma spaced_trans a b c : spaced a b -> spaced b c -> spaced a c.
Proof.
  intros H K; revert a H; induction K as [|d b c K IH|b c K IH]; intros a H; [exact H| |constructor; auto].
  inversion H; subst; constructor; auto.
Qed.

Lemma split_words_spaced s run : spaced s (split_words run s).
Proof.
  remember (String.length s) as n eqn:E; assert (L : (String.length s <= n)%nat) by lia; clear E.
  revert s run L; induction n as [|n IH]; intros s run L; [destruct s; [constructor|cbn in L; lia]|].
  destruct s as [|c s]; [constructor|]; cbn in L; cbn [split_words].
  destruct (run && is_lower c); [constructor; apply IH; lia|].
  destruct s as [|u r]; [constructor; constructor|]; cbn in L.
  destruct (_ && _); [do 3 constructor; apply IH; lia|constructor; apply IH; cbn; lia].
Qed.
Lemma split_caps_spaced s : spaced s (split_caps s).
Proof.
  remember (String.length s) as n eqn:E; assert (L : (String.length s <= n)%nat) by lia; clear E.
  revert s L; induction n as [|n IH]; intros s L; [destruct s; [constructor|cbn in L; lia]|].
  destruct s as [|c s]; [constructor|]; cbn in L; cbn [split_caps].
  destruct s as [|u r]; [constructor; constructor|]; cbn in L.
  destruct (_ && _); [do 3 constructor; apply IH; lia|constructor; apply IH; cbn; lia].
Qed.
Lemma spaced_lower a b : spaced a b -> spaced (lower a) (lower b).
Proof. unfold lower; induction 1; cbn [smap]; [constructor|now constructor|now constructor]. Qed.
Lemma snake_spaced s : spaced (lower s) (snake s).
Proof.
  apply spaced_lower; eapply spaced_trans; [apply split_words_spaced|apply split_caps_spaced].
Qed.
Lemma lower_lowered s : lowered s (lower s).
Proof.
  unfold lower; induction s as [|c s IH]; [constructor|]; cbn [smap].
  destruct (is_upper c) eqn:U.
  - apply lo_capital; [now apply is_upper_spec| |exact IH].
    apply Nat.eqb_eq.
    enough (H : (negb (is_upper c) || Nat.eqb (nat_of_ascii (lower_ascii c)) (nat_of_ascii c + 32)) = true) by (now rewrite U in H).
    clear; revert c; ascii_tac (fun c => negb (is_upper c) || Nat.eqb (nat_of_ascii (lower_ascii c)) (nat_of_ascii c + 32)).
  - rewrite lower_id by exact U; apply lo_other; [now apply not_upper|exact IH].
Qed.

(** Characters of the result. *)
Lemma spaced_chars a b c : spaced a b -> In c (str_chars b) -> c = "_"%char \/ In c (str_chars a).
Proof.
  induction 1 as [|d a b H IH|a b H IH]; cbn; [tauto| |].
  - intros [->|I]; [auto|destruct (IH I); auto].
  - intros [<-|I]; auto.
Qed.
Lemma lower_chars s c : In c (str_chars (lower s)) -> exists d, In d (str_chars s) /\ c = lower_ascii d.
Proof.
  unfold lower; induction s as [|d s IH]; cbn; [tauto|].
  intros [<-|I]; [exists d; auto|destruct (IH I) as (e & A & B); exists e; auto].
Qed.

Lemma space_dec c : is_space c \/ ~ is_space c.
Proof. unfold is_space; lia. Qed.
Definition space_b (c : ascii) : bool := in_chars 9 13 c || Nat.eqb (nat_of_ascii c) 32.
Lemma space_b_spec c : space_b c = true <-> is_space c.
Proof.
  unfold space_b, in_chars, is_space; rewrite orb_true_iff, andb_true_iff, !Nat.leb_le, Nat.eqb_eq; tauto.
Qed.
Lemma lower_space c : is_space (lower_ascii c) -> is_space c.
Proof.
  rewrite <- !space_b_spec; intro S.
  enough (H : (negb (space_b (lower_ascii c)) || space_b c) = true) by (now rewrite S in H).
  clear; revert c; ascii_tac (fun c => negb (space_b (lower_ascii c)) || space_b c).
Qed.
Lemma snake_no_space s : no_space s -> no_space (snake s).
Proof.
  intros N c I S; destruct (spaced_chars _ _ c (snake_spaced s) I) as [->|I'].
  - apply space_b_spec in S; discriminate.
  - apply lower_chars in I' as (d & ID & ->); exact (N d ID (lower_space d S)).
Qed.

Lemma split_words_first c s run : exists r, split_words run (String c s) = String c r.
Proof.
  cbn [split_words]; destruct (run && is_lower c); [eauto|].
  destruct s as [|u r]; [eauto|]; destruct (_ && _); eauto.
Qed.
Lemma split_caps_first c s : exists r, split_caps (String c s) = String c r.
Proof. cbn [split_caps]; destruct s as [|u r]; [eauto|]; destruct (_ && _); eauto. Qed.
Lemma snake_first c s : exists r, snake (String c s) = String (lower_ascii c) r.
Proof.
  unfold snake; destruct (split_words_first c s false) as [r ->]; destruct (split_caps_first c r) as [r' ->].
  unfold lower; cbn [smap]; eauto.
Qed.
Lemma starts_underscore_eq c s : starts_underscore (String c s) = Ascii.eqb c "_".
Proof. revert c; intro c; apply Bool.eqb_prop; revert c;
  ascii_tac (fun c => Bool.eqb (starts_underscore (String c s)) (Ascii.eqb c "_")). Qed.
Lemma snake_underscore s : starts_underscore s = false -> starts_underscore (snake s) = false.
Proof.
  destruct s as [|c s]; [reflexivity|]; destruct (snake_first c s) as [r ->]; rewrite !starts_underscore_eq.
  intro S; apply negb_true_iff.
  enough (H : (Ascii.eqb c "_" || negb (Ascii.eqb (lower_ascii c) "_")) = true) by (now rewrite S in H).
  clear; revert c; ascii_tac (fun c => Ascii.eqb c "_" || negb (Ascii.eqb (lower_ascii c) "_")).
Qed.

(** ** Capitalising *)

Lemma upper_twice c : upper_ascii (upper_ascii c) = upper_ascii c.
Proof. apply Ascii.eqb_eq; revert c; ascii_tac (fun c => Ascii.eqb (upper_ascii (upper_ascii c)) (upper_ascii c)). Qed.
Lemma capitalize_twice s : capitalize (capitalize s) = capitalize s.
Proof. destruct s; cbn; [reflexivity|now rewrite upper_twice]. Qed.
Lemma capitalize_tail c s : exists d, capitalize (String c s) = String d s.
Proof. cbn; eauto. Qed.
Lemma capitalize_lower s : lower (capitalize s) = lower s.
Proof.
  destruct s as [|c s]; [reflexivity|]; unfold lower; cbn [capitalize smap]; f_equal.
  apply Ascii.eqb_eq; revert c; ascii_tac (fun c => Ascii.eqb (lower_ascii (upper_ascii c)) (lower_ascii c)).
Qed.
Lemma upper_space c : is_space (upper_ascii c) -> is_space c.
Proof.
  rewrite <- !space_b_spec; intro S.
  enough (H : (negb (space_b (upper_ascii c)) || space_b c) = true) by (now rewrite S in H).
  clear; revert c; ascii_tac (fun c => negb (space_b (upper_ascii c)) || space_b c).
Qed.
Lemma capitalize_no_space s : no_space s -> no_space (capitalize s).
Proof.
  destruct s as [|c s]; [auto|]; intros N d [<-|I] S.
  - apply (N c (or_introl eq_refl)), upper_space, S.
  - exact (N d (or_intror I) S).
Qed.
Lemma capitalize_underscore s : starts_underscore s = false -> starts_underscore (capitalize s) = false.
Proof.
  destruct s as [|c s]; [reflexivity|]; cbn [capitalize]; rewrite !starts_underscore_eq.
  intro S; apply negb_true_iff.
  enough (H : (Ascii.eqb c "_" || negb (Ascii.eqb (upper_ascii c) "_")) = true) by (now rewrite S in H).
  clear; revert c; ascii_tac (fun c => Ascii.eqb c "_" || negb (Ascii.eqb (upper_ascii c) "_")).
Qed.

(** ** Words *)

Definition new_word_b (c u : ascii) (r : string) : bool :=
  is_upper u && (is_lower c || is_digit c || is_any c && match r with String l _ => is_lower l | EmptyString => false end).
Fixpoint brk (s : string) : string :=
  match s with
  | EmptyString => EmptyString
  | String c r =>
      match r with
      | EmptyString => String c EmptyString
      | String u r' => if new_word_b c u r' then String c (String "_" (brk r)) else String c (brk r)
      end
  end.

Lemma is_lower_spec c : is_lower c = true <-> small c.
Proof. unfold is_lower, in_chars, small; rewrite andb_true_iff, !Nat.leb_le; tauto. Qed.
Lemma is_digit_spec c : is_digit c = true <-> digit c.
Proof. unfold is_digit, in_chars, digit; rewrite andb_true_iff, !Nat.leb_le; tauto. Qed.
Lemma is_any_spec c : is_any c = true <-> ~ line_feed c.
Proof. unfold is_any, line_feed; rewrite negb_true_iff, Nat.eqb_neq; tauto. Qed.
Lemma new_word_spec c u r : new_word_b c u r = true <-> new_word c u r.
Proof.
  unfold new_word_b, new_word; rewrite andb_true_iff, !orb_true_iff, andb_true_iff, is_upper_spec, is_lower_spec, is_digit_spec, is_any_spec.
  enough (X : match r with String l _ => is_lower l | EmptyString => false end = true <-> exists l r', r = String l r' /\ small l) by tauto.
  destruct r as [|l r']; [split; [discriminate|now intros (l & r' & E & _)]|].
  rewrite is_lower_spec; split; [eauto|intros (? & ? & [= <- <-] & S); exact S].
Qed.

Lemma brk_words s : words s (brk s).
Proof.
  induction s as [|c s IH]; [constructor|]; destruct s as [|u r]; [constructor|].
  cbn [brk] in *; destruct (new_word_b c u r) eqn:B.
  - apply wo_new; [now apply new_word_spec|exact IH].
  - apply wo_same; [rewrite <- new_word_spec; congruence|exact IH].
Qed.

Lemma upper_apart u : is_upper u = true -> is_lower u = false /\ is_digit u = false.
Proof.
  intro U; enough (H : (negb (is_upper u) || (negb (is_lower u) && negb (is_digit u))) = true).
  { rewrite U in H; cbn in H; apply andb_true_iff in H; rewrite !negb_true_iff in H; exact H. }
  clear U; revert u; ascii_tac (fun u => negb (is_upper u) || (negb (is_lower u) && negb (is_digit u))).
Qed.
Lemma lower_apart u : is_lower u = true -> is_upper u = false.
Proof. destruct (is_upper u) eqn:U; [apply upper_apart in U as [U _]; congruence|reflexivity]. Qed.

Lemma split_caps_upper u r : is_upper u = true -> split_caps (String u r) = String u (split_caps r).
Proof.
  intro U; apply upper_apart in U as [L D]; cbn [split_caps]; rewrite L, D; destruct r; reflexivity.
Qed.
Lemma split_caps_cons c u r : split_caps (String c (String u r)) =
  if (is_lower c || is_digit c) && is_upper u then String c (String "_" (split_caps (String u r)))
  else String c (split_caps (String u r)).
Proof.
  destruct ((is_lower c || is_digit c) && is_upper u) eqn:B.
  - rewrite (split_caps_upper u r) by (now apply andb_true_iff in B).
    cbn [split_caps]; now rewrite B.
  - cbn [split_caps]; now rewrite B.
Qed.

Lemma words_after n : forall r c run, (String.length r <= n)%nat ->
  match r with
  | String u (String l _) => is_any c && is_upper u && is_lower l = true -> is_lower c || is_digit c = true
  | _ => True
  end -> split_caps (String c (split_words run r)) = brk (String c r).
Proof.
  induction n as [|n IH]; intros r c run L OK.
  { destruct r; [reflexivity|cbn in L; lia]. }
  destruct r as [|u r]; [reflexivity|].
  assert (B : new_word_b c u r = (is_lower c || is_digit c) && is_upper u).
  { unfold new_word_b; destruct r as [|l r']; [rewrite andb_false_r, orb_false_r; apply andb_comm|].
    destruct (is_upper u) eqn:U; [|now rewrite andb_false_r]; cbn [andb]; rewrite andb_true_r.
    destruct (is_lower c || is_digit c) eqn:LD; [reflexivity|]; cbn [orb].
    destruct (is_any c && is_lower l) eqn:A; [|reflexivity].
    symmetry; apply OK; apply andb_true_iff in A as [-> ->]; reflexivity. }
  cbn [String.length] in L.
  cbn [brk]; fold (brk (String u r)); rewrite B.
  cbn [split_words]; destruct (run && is_lower u) eqn:RL.
  - apply andb_true_iff in RL as [-> LU]; rewrite split_caps_cons, (lower_apart u LU), andb_false_r; f_equal.
    apply IH; [lia|]; destruct r as [|v [|l r']]; auto; intros _; now rewrite LU.
  - destruct r as [|v r].
    { rewrite split_caps_cons; reflexivity. }
    destruct (is_any u && is_upper v && match r with String l _ => is_lower l | EmptyString => false end) eqn:R1.
    + assert (E : split_caps (String u (String "_" (String v (split_words true r)))) = brk (String u (String v r))).
      { rewrite split_caps_cons; cbn [is_upper in_chars]; change (is_upper "_") with false; rewrite andb_false_r.
        rewrite split_caps_cons; change (is_lower "_" || is_digit "_") with false; cbn [andb].
        cbn [String.length] in L.
        rewrite IH; [|lia|].
        - cbn [brk]; fold (brk (String v r)).
          replace (new_word_b u v r) with true; [reflexivity|]; symmetry; unfold new_word_b.
          apply andb_true_iff in R1 as [R1 R3]; apply andb_true_iff in R1 as [-> ->]; rewrite R3; apply orb_true_r.
        - destruct r as [|l [|l' r']]; auto; apply andb_true_iff in R1 as [_ R1]; rewrite (lower_apart l R1).
          rewrite andb_false_r; discriminate. }
      rewrite split_caps_cons, E; reflexivity.
    + assert (E : split_caps (String u (split_words false (String v r))) = brk (String u (String v r))).
      { apply IH; [cbn [String.length] in *; lia|]; destruct r as [|l r']; auto; intro H; congruence. }
      rewrite split_caps_cons, E; reflexivity.
Qed.

Lemma snake_brk s : snake s = lower (brk s).
Proof.
  unfold snake; f_equal; destruct s as [|c r]; [reflexivity|].
  destruct r as [|u r]; [reflexivity|].
  cbn [split_words andb]; destruct (is_any c && is_upper u && match r with String l _ => is_lower l | EmptyString => false end) eqn:R1.
  - rewrite split_caps_cons; change (is_upper "_") with false; rewrite andb_false_r.
    rewrite split_caps_cons; change (is_lower "_" || is_digit "_") with false; cbn [andb].
    rewrite (words_after (String.length r)); [|lia|].
    + cbn [brk]; fold (brk (String u r)).
      replace (new_word_b c u r) with true; [reflexivity|]; symmetry; unfold new_word_b.
      apply andb_true_iff in R1 as [R1 R3]; apply andb_true_iff in R1 as [-> ->]; rewrite R3; apply orb_true_r.
    + destruct r as [|l [|l' r']]; auto; apply andb_true_iff in R1 as [_ R1]; rewrite (lower_apart l R1).
      rewrite andb_false_r; discriminate.
  - apply (words_after (S (String.length r)) (String u r) c false); [cbn [String.length]; lia|].
    destruct r as [|l r']; auto; intro H; congruence.
Qed.

Lemma snake_words s : exists b, words s b /\ lowered b (snake s).
Proof. exists (brk s); split; [apply brk_words|]; rewrite snake_brk; apply lower_lowered. Qed.
