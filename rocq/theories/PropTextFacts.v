(** Proofs for PropText.v. *)
From Verif Require Export TextFacts.
Open Scope string_scope.
Open Scope list_scope.

Lemma no_upper_spec s : no_upper s <-> forall c, In c (str_chars s) -> ~ capital c.
Proof. split; intros H c I; apply not_upper, H, I. Qed.
Lemma snake_lower s c : In c (str_chars (snake s)) -> ~ capital c.
Proof. apply no_upper_spec, snake_no_upper. Qed.
Lemma snake_keeps s : exists l, lowered s l /\ spaced l (snake s).
Proof. exists (lower s); split; [apply lower_lowered|apply snake_spaced]. Qed.
Lemma snake_kept s : (forall c, In c (str_chars s) -> ~ capital c) -> snake s = s.
Proof. intro H; apply snake_same, no_upper_spec, H. Qed.
Lemma gold_in_wallet : forall c, In c (str_chars "gold_in_wallet") -> ~ capital c.
Proof. intros c H; cbn in H; repeat (destruct H as [<-|H]; [unfold capital; cbn; lia|]); destruct H. Qed.

Definition letter_ok (c : ascii) : bool :=
  let d := upper_ascii c in
  (Ascii.eqb d c && negb (is_lower c)) ||
  (Nat.eqb (nat_of_ascii c) (nat_of_ascii d + 32) && is_upper d).
Lemma letter_all c : letter_ok c = true.
Proof. revert c; ascii_tac letter_ok. Qed.
Lemma capitalize_letter c s : capitalize (String c s) = String c s /\ ~ (97 <= nat_of_ascii c <= 122)%nat \/
  exists d, capitalize (String c s) = String d s /\ nat_of_ascii c = (nat_of_ascii d + 32)%nat /\ capital d.
Proof.
  pose proof (letter_all c) as H; unfold letter_ok in H; apply orb_true_iff in H as [H|H]; apply andb_true_iff in H as [A B].
  - left; apply Ascii.eqb_eq in A; cbn [capitalize]; rewrite A; split; [reflexivity|].
    apply negb_true_iff in B; intros [X Y]; unfold is_lower, in_chars in B.
    apply Nat.leb_le in X, Y; now rewrite X, Y in B.
  - right; exists (upper_ascii c); split; [reflexivity|]; apply Nat.eqb_eq in A; split; [exact A|now apply is_upper_spec].
Qed.

Lemma snake_collides : exists a b, a <> b /\ snake a = snake b.
Proof. exists "fooBar", "foo_bar"; split; [discriminate|reflexivity]. Qed.
Lemma capitalize_collides : exists a b, a <> b /\ capitalize a = capitalize b.
Proof. exists "foo", "Foo"; split; [discriminate|reflexivity]. Qed.
