(** Facts about Bytes.v. *)
From Coq Require Export ZifyBool ZifyNat ZifyN.
From Verif Require Export Bytes.
Ltac Zify.zify_post_hook ::= Z.div_mod_to_equations.

(** ** Dictionaries *)

Lemma lookup_In {A} k (d : list (string * A)) a : lookup k d = Some a -> In (k, a) d.
Proof.
  induction d as [|[k' a'] d IH]; cbn; [discriminate|].
  destruct (String.eqb_spec k k') as [->|_]; [intros [= ->]; now left|auto].
Qed.

Lemma lookup_None {A} k (d : list (string * A)) :
  lookup k d = None <-> ~ In k (map fst d).
Proof.
  induction d as [|[k' a'] d IH]; cbn; [tauto|].
  destruct (String.eqb_spec k k') as [->|N]; [split; [discriminate|tauto]|].
  rewrite IH; intuition congruence.
Qed.

Lemma In_lookup {A} k (d : list (string * A)) a :
  NoDup (map fst d) -> In (k, a) d -> lookup k d = Some a.
Proof.
  induction d as [|[k' a'] d IH]; cbn; intros ND H; [tauto|].
  inversion_clear ND as [|? ? Hni ND'].
  destruct H as [[= -> ->]|H]; [now rewrite String.eqb_refl|].
  destruct (String.eqb_spec k k') as [->|_]; [|auto].
  exfalso; apply Hni; apply in_map_iff; now exists (k', a).
Qed.

Lemma lookup_some_iff {A} k (d : list (string * A)) :
  (exists a, lookup k d = Some a) <-> In k (map fst d).
Proof.
  destruct (lookup k d) as [a|] eqn:E.
  - split; [intros _|now exists a].
    apply in_map_iff; exists (k, a); split; [reflexivity|now apply lookup_In].
  - apply lookup_None in E; split; [intros [a H]; discriminate|tauto].
Qed.

Lemma mem_true {A} k (d : list (string * A)) : mem k d = true <-> In k (map fst d).
Proof.
  rewrite <- lookup_some_iff; unfold mem.
  destruct (lookup k d); [split; eauto|split; [discriminate|intros [? ?]; discriminate]].
Qed.

Lemma mem_false {A} k (d : list (string * A)) : mem k d = false <-> ~ In k (map fst d).
Proof. rewrite <- mem_true; destruct (mem k d); split; congruence. Qed.

Lemma mem_exists {A} k (d : list (string * A)) : mem k d = true <-> exists a, In (k, a) d.
Proof.
  rewrite mem_true, in_map_iff; split.
  - intros [[k' a] [E H]]; cbn in E; subst; eauto.
  - intros [a H]; now exists (k, a).
Qed.

Lemma dict_set_fresh {A} k (a : A) d : mem k d = false -> dict_set k a d = d ++ [(k, a)].
Proof.
  induction d as [|[k' a'] d IH]; cbn; [reflexivity|].
  unfold mem; cbn; destruct (String.eqb_spec k k') as [->|N]; [discriminate|].
  intro H; now rewrite IH.
Qed.

Lemma dict_set_keys_nodup {A} k (a : A) d :
  NoDup (map fst d) -> NoDup (map fst (dict_set k a d)).
Proof.
  assert (G : forall d, forall x, In x (map fst (dict_set k a d)) -> x = k \/ In x (map fst d)).
  { induction d0 as [|[k' a'] d0 IH]; cbn; [intuition congruence|].
    destruct (String.eqb_spec k k') as [->|N]; cbn; [intuition congruence|].
    intros x [H|H]; [auto|destruct (IH x H); auto]. }
  induction d as [|[k' a'] d IH]; cbn; intro ND.
  - repeat constructor; cbn; tauto.
  - inversion_clear ND as [|? ? Hni ND'].
    destruct (String.eqb_spec k k') as [->|N]; cbn; constructor; auto.
    intro H; destruct (G d _ H); congruence.
Qed.

Lemma dict_set_In {A} k (a : A) d x y :
  In (x, y) (dict_set k a d) -> (x = k /\ y = a) \/ In (x, y) d.
Proof.
  induction d as [|[k' a'] d IH]; cbn.
  - intros [[= <- <-]|[]]; auto.
  - destruct (String.eqb_spec k k') as [->|N]; cbn.
    + intros [[= <- <-]|H]; auto.
    + intros [[= <- <-]|H]; [auto|destruct (IH H); auto].
Qed.

Lemma in_strs_true k l : in_strs k l = true <-> In k l.
Proof.
  induction l as [|x l IH]; cbn; [intuition discriminate|].
  destruct (String.eqb_spec k x) as [->|N]; [tauto|rewrite IH; intuition congruence].
Qed.

Lemma in_strs_false k l : in_strs k l = false <-> ~ In k l.
Proof. rewrite <- in_strs_true; destruct (in_strs k l); split; congruence. Qed.

(** ** Bytes and integers *)

Lemma Z_of_byte_range b : 0 <= Z_of_byte b < 256.
Proof. unfold Z_of_byte; pose proof (Byte.to_N_bounded b); lia. Qed.

Lemma Z_of_byte_of_Z z : Z_of_byte (byte_of_Z z) = z mod 256.
Proof.
  unfold Z_of_byte, byte_of_Z.
  pose proof (Z.mod_pos_bound z 256 eq_refl) as B.
  destruct (Byte.of_N (Z.to_N (z mod 256))) as [b|] eqn:E.
  - apply Byte.to_of_N in E; rewrite E; lia.
  - apply Byte.of_N_None_iff in E; lia.
Qed.

Lemma byte_of_Z_of_byte b : byte_of_Z (Z_of_byte b) = b.
Proof.
  unfold byte_of_Z; rewrite Z.mod_small by apply Z_of_byte_range.
  unfold Z_of_byte; rewrite N2Z.id, Byte.of_to_N; reflexivity.
Qed.

Lemma Z_of_byte_inj a b : Z_of_byte a = Z_of_byte b -> a = b.
Proof. intro H; rewrite <- (byte_of_Z_of_byte a), H; apply byte_of_Z_of_byte. Qed.

Lemma le_bytes_length n z : List.length (le_bytes n z) = n.
Proof. revert z; induction n as [|n IH]; intro z; cbn; congruence. Qed.

Lemma pow256_succ n : 256 ^ Z.of_nat (S n) = 256 * 256 ^ Z.of_nat n.
Proof. rewrite Nat2Z.inj_succ, Z.pow_succ_r by lia; reflexivity. Qed.

Lemma pow256_pos n : 0 < 256 ^ Z.of_nat n.
Proof. apply Z.pow_pos_nonneg; lia. Qed.

Lemma le_val_range bs : 0 <= le_val bs < 256 ^ Z.of_nat (List.length bs).
Proof.
  induction bs as [|b bs IH]; [cbn; lia|].
  cbn [le_val List.length]; rewrite pow256_succ.
  pose proof (Z_of_byte_range b); lia.
Qed.

Lemma mod_mul_split z m : 0 < m -> z mod (256 * m) = z mod 256 + 256 * ((z / 256) mod m).
Proof.
  intro Hm.
  rewrite (Z.rem_mul_r z 256 m) by lia; reflexivity.
Qed.

Lemma le_val_le_bytes n z : le_val (le_bytes n z) = z mod 256 ^ Z.of_nat n.
Proof.
  revert z; induction n as [|n IH]; intro z.
  - cbn [le_bytes le_val]; change (256 ^ Z.of_nat 0) with 1; now rewrite Z.mod_1_r.
  - cbn [le_bytes le_val]; rewrite IH, Z_of_byte_of_Z, pow256_succ.
    symmetry; apply mod_mul_split, pow256_pos.
Qed.

Lemma le_val_inj a b : List.length a = List.length b -> le_val a = le_val b -> a = b.
Proof.
  revert b; induction a as [|x a IH]; intros [|y b]; cbn [List.length le_val]; try discriminate; auto.
  intros L E.
  pose proof (Z_of_byte_range x); pose proof (Z_of_byte_range y).
  assert (Z_of_byte x = Z_of_byte y /\ le_val a = le_val b) as [E1 E2] by lia.
  f_equal; [now apply Z_of_byte_inj|apply IH; [congruence|assumption]].
Qed.

Lemma le_bytes_le_val bs : le_bytes (List.length bs) (le_val bs) = bs.
Proof.
  apply le_val_inj; [apply le_bytes_length|].
  rewrite le_val_le_bytes, Z.mod_small; [reflexivity|apply le_val_range].
Qed.

Lemma pow2_8 n : 2 ^ (8 * Z.of_nat n) = 256 ^ Z.of_nat n.
Proof. rewrite Z.pow_mul_r by lia; reflexivity. Qed.

Lemma to_signed_mod n z : (0 < n)%nat ->
  - 2 ^ (8 * Z.of_nat n - 1) <= z < 2 ^ (8 * Z.of_nat n - 1) ->
  to_signed n (z mod 256 ^ Z.of_nat n) = z.
Proof.
  intros Hn Hz; unfold to_signed; rewrite <- pow2_8.
  assert (E : 2 ^ (8 * Z.of_nat n) = 2 * 2 ^ (8 * Z.of_nat n - 1)).
  { rewrite <- Z.pow_succ_r by lia; f_equal; lia. }
  assert (P : 0 < 2 ^ (8 * Z.of_nat n - 1)) by (apply Z.pow_pos_nonneg; lia).
  destruct (Z_lt_le_dec z 0) as [Neg|Pos].
  - assert (M : z mod 2 ^ (8 * Z.of_nat n) = z + 2 ^ (8 * Z.of_nat n)).
    { symmetry; apply Z.mod_unique with (-1); lia. }
    rewrite M; destruct (Z.ltb_spec (z + 2 ^ (8 * Z.of_nat n)) (2 ^ (8 * Z.of_nat n - 1))); lia.
  - rewrite Z.mod_small by lia.
    destruct (Z.ltb_spec z (2 ^ (8 * Z.of_nat n - 1))); lia.
Qed.

Lemma to_signed_range n u : (0 < n)%nat -> 0 <= u < 256 ^ Z.of_nat n ->
  - 2 ^ (8 * Z.of_nat n - 1) <= to_signed n u < 2 ^ (8 * Z.of_nat n - 1) /\
  to_signed n u mod 256 ^ Z.of_nat n = u.
Proof.
  intros Hn Hu; unfold to_signed; rewrite <- pow2_8 in *.
  assert (E : 2 ^ (8 * Z.of_nat n) = 2 * 2 ^ (8 * Z.of_nat n - 1)).
  { rewrite <- Z.pow_succ_r by lia; f_equal; lia. }
  assert (P : 0 < 2 ^ (8 * Z.of_nat n - 1)) by (apply Z.pow_pos_nonneg; lia).
  destruct (Z.ltb_spec u (2 ^ (8 * Z.of_nat n - 1))); split; try lia.
  - now rewrite Z.mod_small by lia.
  - symmetry; apply Z.mod_unique with (-1); lia.
Qed.

(** ** Lists *)

Lemma firstn_app_exact {A} (a b : list A) : firstn (List.length a) (a ++ b) = a.
Proof. rewrite firstn_app, Nat.sub_diag, firstn_all; cbn; apply app_nil_r. Qed.

Lemma skipn_app_exact {A} (a b : list A) : skipn (List.length a) (a ++ b) = b.
Proof. rewrite skipn_app, Nat.sub_diag, skipn_all; reflexivity. Qed.

Lemma nodup_app {A} (a b : list A) :
  NoDup a -> NoDup b -> (forall x, In x a -> ~ In x b) -> NoDup (a ++ b).
Proof.
  induction a as [|x a IH]; cbn; intros Ha Hb D; [assumption|].
  inversion_clear Ha as [|? ? Hni Ha']; constructor.
  - rewrite in_app_iff; intros [H|H]; [tauto|apply (D x); auto].
  - apply IH; auto.
Qed.
