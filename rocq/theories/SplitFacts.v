From Verif Require Import SplitSpec CommentFacts.
Open Scope string_scope.
Open Scope list_scope.

Lemma is_byte_ascii n c : is_byte n c = true -> c = ascii_of_nat n.
Proof. intro H; apply Nat.eqb_eq in H; rewrite <- H; symmetry; apply ascii_nat_embedding. Qed.
Lemma ends_line_end c : ends_line c = true -> In (String c "") line_ends.
Proof. destruct c as [[] [] [] [] [] [] [] []]; vm_compute; intro H; try discriminate; tauto. Qed.
Lemma splitlines_lines s0 cur0 : lines_of (cur0 +++ s0) (splitlines_from cur0 s0).
Proof.
  enough (IH : forall n s, (String.length s <= n)%nat -> forall cur, lines_of (cur +++ s) (splitlines_from cur s))
    by exact (IH _ s0 (le_n _) cur0).
  clear s0 cur0.
  assert (K : forall cur, lines_of (cur +++ "") (if String.eqb cur "" then [] else [cur])).
  { intro cur; rewrite app_nil_str; destruct (String.eqb_spec cur "") as [->|H]; [apply no_lines|now apply last_of_lines]. }
  induction n as [ |n IH0]; intros [ |c r] LE cur; cbn [splitlines_from]; try (exfalso; cbn in LE; lia); try apply K.
  assert (IH : forall s, (String.length s < Datatypes.S (String.length r))%nat -> forall cur, lines_of (cur +++ s) (splitlines_from cur s))
    by (intros s L; apply IH0; cbn in LE; lia).
  assert (C : lines_of (cur +++ String c r) (splitlines_from (cur +++ String c "") r)).
  { pose proof (IH r ltac:(lia) (cur +++ String c "")) as H; rewrite app_assoc_str in H; exact H. }
  assert (N : forall e x, In e line_ends -> (String.length x < Datatypes.S (String.length r))%nat ->
    lines_of (cur +++ (e +++ x)) (cur :: splitlines_from "" x)).
  { intros e x E L; apply one_of_lines; [exact E|exact (IH x L "")]. }
  destruct (ends_line c) eqn:EL.
  - apply ends_line_end in EL; destruct r as [ |d r']; [exact (N _ "" EL ltac:(cbn; lia))| ].
    destruct (is_byte 13 c && is_byte 10 d) eqn:B; [ |exact (N _ (String d r') EL ltac:(cbn; lia))].
    apply andb_true_iff in B as [B1 B2]; apply is_byte_ascii in B1, B2; subst c d.
    refine (N (byte_str [13; 10]%nat) r' _ ltac:(cbn; lia)); cbn [line_ends map In]; tauto.
  - destruct r as [ |d r']; [exact C| ]; destruct (is_byte 194 c && is_byte 133 d) eqn:B.
    + apply andb_true_iff in B as [B1 B2]; apply is_byte_ascii in B1, B2; subst c d.
      refine (N (byte_str [194; 133]%nat) r' _ ltac:(cbn; lia)); cbn [line_ends map In]; tauto.
    + destruct r' as [ |e r'']; [exact C| ].
      destruct (is_byte 226 c && is_byte 128 d && (is_byte 168 e || is_byte 169 e)) eqn:D; [ |exact C].
      apply andb_true_iff in D as [D D3]; apply andb_true_iff in D as [D1 D2]; apply is_byte_ascii in D1, D2; subst c d.
      apply orb_true_iff in D3 as [D3|D3]; apply is_byte_ascii in D3; subst e;
        [refine (N (byte_str [226; 128; 168]%nat) r'' _ ltac:(cbn; lia))|refine (N (byte_str [226; 128; 169]%nat) r'' _ ltac:(cbn; lia))];
        cbn [line_ends map In]; tauto.
Qed.
Lemma splitlines_right s : lines_of s (splitlines s) /\ forall l, In l (splitlines s) -> ~ In feed (str_chars l).
Proof. split; [exact (splitlines_lines s "")|intros l I; exact (splitlines_feed s "" l (fun H => H) I)]. Qed.
