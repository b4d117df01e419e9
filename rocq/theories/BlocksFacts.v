(** Facts about Blocks.v. *)
From Coq Require Import Permutation.
From Verif Require Export Blocks BytesFacts.
Open Scope list_scope.

Lemma oapp_assoc {A} (a b c : option (list A)) : oapp (oapp a b) c = oapp a (oapp b c).
Proof. destruct a, b, c; cbn [oapp]; try reflexivity; now rewrite app_assoc. Qed.
Lemma oapp_nil_r {A} (a : option (list A)) : oapp a (Some []) = a.
Proof. destruct a; cbn [oapp]; [now rewrite app_nil_r|reflexivity]. Qed.
Lemma oconcat_ext {A B} (f g : A -> option (list B)) l : (forall a, In a l -> f a = g a) -> oconcat (map f l) = oconcat (map g l).
Proof. intro H; f_equal; now apply map_ext_in. Qed.
Lemma oconcat_app {A} : forall (l r : list (option (list A))), oconcat (l ++ r) = oapp (oconcat l) (oconcat r).
Proof. induction l as [|a l IH]; intro r; cbn [List.app oconcat]; [now destruct (oconcat r)|]; now rewrite IH, oapp_assoc. Qed.

(** The blocks from [a] up to [b]. *)
Definition blocks (a b : nat) : list nat := seq a (b - a).
Lemma blocks_split a b c : (a <= b <= c)%nat -> blocks a c = blocks a b ++ blocks b c.
Proof. intros H; unfold blocks; rewrite <- (Nat.sub_add b c) at 1 by lia; replace (c - b + b - a)%nat with ((b - a) + (c - b))%nat by lia; rewrite seq_app; do 2 f_equal; lia. Qed.
Lemma blocks_none a : blocks a a = [].
Proof. unfold blocks; now rewrite Nat.sub_diag. Qed.
Lemma blocks_next a : blocks a (S a) = [a].
Proof. unfold blocks; now replace (S a - a)%nat with 1%nat by lia. Qed.

Lemma once a b ids : (a <= b)%nat -> Permutation ids (blocks a b) -> each_once a b ids.
Proof.
  intros L P; split.
  - apply Permutation_sym in P; apply (Permutation_NoDup P); apply seq_NoDup.
  - intro i; split; intro I.
    + apply (Permutation_in _ P) in I; apply in_seq in I; lia.
    + apply (Permutation_in _ (Permutation_sym P)), in_seq; lia.
Qed.

(** Some of the blocks from [a] up to [b]. *)
Definition part (a b : nat) (l : list nat) : Prop := exists rest, Permutation (l ++ rest) (blocks a b).
Lemma part_all a b l : Permutation l (blocks a b) -> part a b l.
Proof. exists []; now rewrite app_nil_r. Qed.
Lemma part_none a b : part a b [].
Proof. now exists (blocks a b). Qed.
Lemma part_more a b c l : (a <= b <= c)%nat -> part b c l -> part a c l.
Proof.
  intros L (rest & P); exists (rest ++ blocks a b); rewrite app_assoc, P, (blocks_split a b c) by lia.
  apply Permutation_app_comm.
Qed.
Lemma part_join a b c l ids : (a <= b <= c)%nat -> Permutation ids (blocks a b) -> part b c l -> part a c (l ++ ids).
Proof.
  intros L Q (rest & P); exists rest; rewrite (blocks_split a b c), <- Q, <- P by lia.
  rewrite <- app_assoc, (Permutation_app_comm ids rest), app_assoc; apply Permutation_app_comm.
Qed.
Lemma all_join a b c l ids : (a <= b <= c)%nat -> Permutation ids (blocks a b) -> Permutation l (blocks b c) ->
  Permutation (l ++ ids) (blocks a c).
Proof. intros L Q P; rewrite (blocks_split a b c), Q, P by lia; apply Permutation_app_comm. Qed.
Lemma all_add a b c l ids : (a <= b <= c)%nat -> Permutation ids (blocks a b) -> Permutation l (blocks b c) ->
  Permutation (ids ++ l) (blocks a c).
Proof. intros L Q P; rewrite (blocks_split a b c), Q, P by lia; reflexivity. Qed.
Lemma part_twice a b l : part a b l -> none_twice a b l.
Proof.
  intros (rest & P); split.
  - assert (N : NoDup (l ++ rest)) by (apply (Permutation_NoDup (Permutation_sym P)); apply seq_NoDup).
    clear P; revert N; induction l as [|x l IH]; intro N; [constructor|]; cbn in N; inversion N; subst.
    constructor; [intro I; apply H1; now apply in_or_app; left|now apply IH].
  - intros i I; assert (J : In i (blocks a b)) by (apply (Permutation_in _ P), in_or_app; now left).
    apply in_seq in J; lia.
Qed.
