(** Facts about the wire relation: inversion by kind of type, unambiguity,
    determinism, sizes. *)
From Verif Require Export Wire ProtocolFacts4.

Scheme wire_in_ind2 := Minimality for wire_in Sort Prop
  with wire_members_ind2 := Minimality for wire_members Sort Prop
  with wire_member_ind2 := Minimality for wire_member Sort Prop
  with wire_elems_ind2 := Minimality for wire_elems Sort Prop.
Combined Scheme wire_mutind from wire_in_ind2, wire_members_ind2, wire_member_ind2, wire_elems_ind2.

(** ** Numbers *)

Lemma num_of_base t : In t base_types <-> exists k, num_of t = Some k.
Proof.
  unfold num_of; rewrite lookup_some_iff; reflexivity.
Qed.

Lemma num_of_none t : ~ In t base_types -> num_of t = None.
Proof. intro H; unfold num_of; apply lookup_None; exact H. Qed.

Lemma num_of_in t k : num_of t = Some k -> In t base_types.
Proof. intro H; apply num_of_base; eauto. Qed.

Lemma num_of_size t k : num_of t = Some k -> lookup t NUMERIC_TYPE_SIZES = Some (Z.of_nat (num_size k)).
Proof.
  unfold num_of; intro H; apply lookup_In in H; cbn [In] in H.
  repeat (destruct H as [[= <- <-]|H]; [reflexivity|]); destruct H.
Qed.

Lemma num_of_base_size t k : num_of t = Some k <-> num_of t = Some k /\ base_size t (Z.of_nat (num_size k)).
Proof.
  split; [intro H; split; [assumption|]|tauto].
  apply num_of_size, lookup_In in H; exact H.
Qed.

Lemma num_size_pos k : (0 < num_size k)%nat. Proof. destruct k; cbn; lia. Qed.

Lemma integral_num t : In t integral_types -> exists k, num_of t = Some k /\ k <> NBool /\ k <> NF32 /\ k <> NF64.
Proof.
  intro H; cbn in H; repeat (destruct H as [<-|H]; [eexists; split; [reflexivity|repeat split; discriminate]|]); destruct H.
Qed.

Lemma num_bounds k : k <> NBool ->
  0 < 256 ^ Z.of_nat (num_size k) /\ num_max k - num_min k = 256 ^ Z.of_nat (num_size k) - 1 /\ num_min k <= 0 <= num_max k.
Proof. intro; destruct k; cbn; try congruence; lia. Qed.

Lemma mod_window a z z' m : 0 < m -> a <= z < a + m -> a <= z' < a + m -> z mod m = z' mod m -> z = z'.
Proof.
  intros P H H' E.
  pose proof (Z_div_mod_eq_full z m) as D; pose proof (Z_div_mod_eq_full z' m) as D'; rewrite E in D.
  generalize dependent (z / m); generalize dependent (z' / m); generalize (z' mod m); intros r q' D' q D.
  assert (q = q') by nia; subst; reflexivity.
Qed.

Lemma num_mod_inj k z z' : k <> NBool ->
  num_min k <= z <= num_max k -> num_min k <= z' <= num_max k ->
  z mod 256 ^ Z.of_nat (num_size k) = z' mod 256 ^ Z.of_nat (num_size k) -> z = z'.
Proof.
  intros NB R R' E; destruct (num_bounds k NB) as (P & D & _).
  apply mod_window with (a := num_min k) in E; lia.
Qed.

Lemma wire_num_length md k v bs : wire_num md k v bs -> List.length bs = num_size k.
Proof. intro H; inversion H; subst; auto. Qed.

Lemma app_prefix_eq {A} (a b r r' : list A) : List.length a = List.length b -> a ++ r = b ++ r' -> a = b /\ r = r'.
Proof.
  revert b; induction a as [|x a IH]; intros [|y b]; cbn; try discriminate; [tauto|].
  intros L [= -> E]; destruct (IH b) as [-> ->]; auto.
Qed.

Lemma wire_num_val md k v v' bs : wire_num md k v bs -> wire_num md k v' bs -> v = v'.
Proof.
  intros H H'; inversion H as [? z ? NB L R E| |b B]; subst; inversion H' as [? z' ? NB' L' R' E'| |b' B']; subst;
    try reflexivity; try congruence.
  - f_equal; apply (num_mod_inj k); auto; congruence.
  - destruct (any_true md); congruence.
  - destruct (any_true md); congruence.
Qed.

Lemma wire_num_prefix md k v v' bs bs' r r' :
  wire_num md k v bs -> wire_num md k v' bs' -> bs ++ r = bs' ++ r' -> v = v' /\ bs = bs' /\ r = r'.
Proof.
  intros H H' E; pose proof (wire_num_length _ _ _ _ H); pose proof (wire_num_length _ _ _ _ H').
  apply app_prefix_eq in E as [-> ->]; [|congruence]; split; [eapply wire_num_val; eassumption|auto].
Qed.

Lemma wire_num_det k v bs bs' : wire_num strict k v bs -> wire_num strict k v bs' -> bs = bs'.
Proof.
  intros H H'; inversion H as [? z ? NB L R E| |b B]; subst; inversion H' as [? z' ? NB' L' R' E'| |b' B']; subst; auto.
  - apply le_val_inj; congruence.
  - cbn in *; congruence.
Qed.

Lemma wire_num_int_mode md md' k z bs : wire_num md k (VInt z) bs -> wire_num md' k (VInt z) bs.
Proof. intro H; inversion H; subst; now constructor. Qed.

Lemma wire_size_prefix md t n n' bs bs' r r' :
  wire_size md t n bs -> wire_size md t n' bs' -> bs ++ r = bs' ++ r' -> n = n' /\ bs = bs' /\ r = r'.
Proof.
  intros (k & K & H) (k' & K' & H') E; rewrite K in K'; injection K' as <-.
  destruct (wire_num_prefix _ _ _ _ _ _ _ _ H H' E) as ([= Z] & -> & ->).
  repeat split; lia.
Qed.

Lemma wire_size_det t n bs bs' : wire_size strict t n bs -> wire_size strict t n bs' -> bs = bs'.
Proof.
  intros (k & K & H) (k' & K' & H'); rewrite K in K'; injection K' as <-; eapply wire_num_det; eassumption.
Qed.

(** ** Inversion by kind of type *)

Section Inversion.
Variable (md : mode) (p : protocol).
Hypothesis W : WF p.

Lemma enum_not_num t e : In (t, e) (p_enums p) -> num_of t = None /\ t <> "string"%string /\ forall s, ~ declares p t s.
Proof.
  intro H; destruct (declared_enum_or p t W) as (N1 & N2 & N3); [now exists e|].
  repeat split; [now apply num_of_none|assumption|].
  intros s [D|D]; [apply N3; now exists s|].
  destruct (wf_disjoint p W t) as (_ & _ & X); apply X; split; [now exists s|now exists e].
Qed.

Lemma declares_not_num t s : declares p t s -> num_of t = None /\ t <> "string"%string /\ forall e, ~ In (t, e) (p_enums p).
Proof.
  intro D; destruct (declares_names p t s W D) as (N1 & N2 & N3).
  repeat split; [now apply num_of_none|assumption|].
  intros e E; apply N3; now exists e.
Qed.

Lemma wire_num_inv t k v bs : num_of t = Some k -> wire_in md p t v bs -> wire_num md k v bs.
Proof.
  intros K H; inversion H as [? k' ? ? K' N|s lb|? e ? ? ? E|? s ? ? D]; subst.
  - congruence.
  - discriminate.
  - apply enum_not_num in E as [E _]; congruence.
  - apply declares_not_num in D as [E _]; congruence.
Qed.

Lemma wire_str_inv v bs : wire_in md p "string" v bs ->
  exists s lb, v = VStr s /\ bs = lb ++ s /\ wire_size md (p_string_size_type p) (List.length s) lb.
Proof.
  intro H; inversion H as [? k' ? ? K' N|s lb|? e ? ? ? E|? s ? ? D]; subst.
  - discriminate.
  - eauto 6.
  - apply enum_not_num in E as [_ [E _]]; congruence.
  - apply declares_not_num in D as [_ [E _]]; congruence.
Qed.

Lemma enum_encoding_num t e : In (t, e) (p_enums p) ->
  exists k, num_of (e_encoding e) = Some k /\ k <> NBool /\ k <> NF32 /\ k <> NF64 /\
            fits_in (num_min k) (num_max k) (map snd (e_values e)).
Proof.
  intro E; destruct (wf_enum_encoding p W t e E) as [[-> F]|[[-> [F _]]|[-> [F _]]]];
    eexists; (split; [reflexivity|]); (split; [discriminate|]); (split; [discriminate|]); (split; [discriminate|]); exact F.
Qed.

Lemma wire_enum_inv t e v bs : In (t, e) (p_enums p) -> wire_in md p t v bs ->
  exists k z, v = VInt z /\ num_of (e_encoding e) = Some k /\ wire_num md k (VInt z) bs /\
              (any_enum md = true \/ In z (map snd (e_values e))).
Proof.
  intros E H; pose proof (enum_not_num t e E) as (A & B & C).
  inversion H as [? k' ? ? K' N|s lb|? e' k z ? E' K M|? s ? ? D]; subst.
  - congruence.
  - congruence.
  - apply (In_lookup _ _ _ (wf_enums_nodup p W)) in E, E'; rewrite E in E'; injection E' as <-.
    exists k, z; auto.
  - now apply C in D.
Qed.

Lemma wire_struct_inv t s v bs : declares p t s -> wire_in md p t v bs ->
  exists fs, v = VStruct fs /\ wire_members md p (s_members s) fs bs.
Proof.
  intros D H; pose proof (declares_not_num t s D) as (A & B & C).
  inversion H as [? k' ? ? K' N|s' lb|? e' k z ? E' K M|? s' ? ? D']; subst.
  - congruence.
  - congruence.
  - now apply C in E'.
  - rewrite (declares_unique p t s s' W D D'); eauto.
Qed.
End Inversion.

(** ** Unambiguity *)

Lemma wire_prefix md p : WF p ->
  (forall t v bs, wire_in md p t v bs -> forall v' bs' r r', wire_in md p t v' bs' ->
     bs ++ r = bs' ++ r' -> v = v' /\ bs = bs' /\ r = r') /\
  (forall ms fs bs, wire_members md p ms fs bs -> forall fs' bs' r r', wire_members md p ms fs' bs' ->
     bs ++ r = bs' ++ r' -> fs = fs' /\ bs = bs' /\ r = r') /\
  (forall m v bs, wire_member md p m v bs -> forall v' bs' r r', wire_member md p m v' bs' ->
     bs ++ r = bs' ++ r' -> v = v' /\ bs = bs' /\ r = r') /\
  (forall t vs bs, wire_elems md p t vs bs -> forall vs' bs' r r', wire_elems md p t vs' bs' ->
     List.length vs = List.length vs' -> bs ++ r = bs' ++ r' -> vs = vs' /\ bs = bs' /\ r = r').
Proof.
  intro W; apply wire_mutind.
  - intros t k v bs K N v' bs' r r' H' E.
    apply (wire_num_inv md p W t k v' bs' K) in H'; eapply wire_num_prefix; eassumption.
  - intros s lb L v' bs' r r' H' E.
    apply (wire_str_inv md p W) in H' as (s' & lb' & -> & -> & L').
    rewrite <- !app_assoc in E.
    destruct (wire_size_prefix _ _ _ _ _ _ _ _ L L' E) as (LL & -> & E').
    apply app_prefix_eq in E' as [-> ->]; auto.
  - intros t e k z bs E K M N v' bs' r r' H' X.
    apply (wire_enum_inv md p W t e v' bs' E) in H' as (k' & z' & -> & K' & N' & M').
    rewrite K in K'; injection K' as <-; eapply wire_num_prefix; eassumption.
  - intros t s fs bs D _ IH v' bs' r r' H' E.
    apply (wire_struct_inv md p W t s v' bs' D) in H' as (fs' & -> & H').
    destruct (IH _ _ _ _ H' E) as (-> & -> & ->); auto.
  - intros fs' bs' r r' H' E; inversion H'; subst; auto.
  - intros m ms v fs a b _ IHa _ IHb fs' bs' r r' H' E; inversion H' as [|? ? v' fs'' a' b' Ha Hb]; subst.
    rewrite <- !app_assoc in E.
    destruct (IHa _ _ _ _ Ha E) as (-> & -> & E'); destruct (IHb _ _ _ _ Hb E') as (-> & -> & ->); auto.
  - intros m v bs L _ IH v' bs' r r' H' E; inversion H' as [? ? ? ? H|? ? ? ? L']; subst; [eauto|congruence].
  - intros m vs lb bs L SZ _ IH v' bs' r r' H' E; inversion H' as [? ? ? L'|? vs' lb' bs'' L' SZ' H]; subst; [congruence|].
    rewrite <- !app_assoc in E.
    destruct (wire_size_prefix _ _ _ _ _ _ _ _ SZ SZ' E) as (LL & -> & E').
    destruct (IH _ _ _ _ H LL E') as (-> & -> & ->); auto.
  - intros t vs' bs' r r' H' L E; inversion H'; subst; [auto|discriminate].
  - intros t v vs a b _ IHa _ IHb vs' bs' r r' H' L E; inversion H' as [|? v' vs'' a' b' Ha Hb]; subst; [discriminate|].
    rewrite <- !app_assoc in E.
    destruct (IHa _ _ _ _ Ha E) as (-> & -> & E').
    destruct (IHb _ _ _ _ Hb ltac:(cbn in L; congruence) E') as (-> & -> & ->); auto.
Qed.

(** ** Determinism of writing *)

Lemma wire_det p : WF p ->
  (forall t v bs, wire p t v bs -> forall bs', wire p t v bs' -> bs = bs') /\
  (forall ms fs bs, wire_members strict p ms fs bs -> forall bs', wire_members strict p ms fs bs' -> bs = bs') /\
  (forall m v bs, wire_member strict p m v bs -> forall bs', wire_member strict p m v bs' -> bs = bs') /\
  (forall t vs bs, wire_elems strict p t vs bs -> forall bs', wire_elems strict p t vs bs' -> bs = bs').
Proof.
  intro W; apply wire_mutind.
  - intros t k v bs K N bs' H'; apply (wire_num_inv _ p W t k v bs' K) in H'; eapply wire_num_det; eassumption.
  - intros s lb L bs' H'; apply (wire_str_inv _ p W) in H' as (s' & lb' & [= <-] & -> & L').
    f_equal; eapply wire_size_det; eassumption.
  - intros t e k z bs E K M N bs' H'.
    apply (wire_enum_inv _ p W t e _ bs' E) in H' as (k' & z' & [= <-] & K' & N' & M').
    rewrite K in K'; injection K' as <-; eapply wire_num_det; eassumption.
  - intros t s fs bs D _ IH bs' H'; apply (wire_struct_inv _ p W t s _ bs' D) in H' as (fs' & [= <-] & H'); auto.
  - intros bs' H'; now inversion H'.
  - intros m ms v fs a b _ IHa _ IHb bs' H'; inversion H' as [|? ? v' fs'' a' b' Ha Hb]; subst.
    f_equal; auto.
  - intros m v bs L _ IH bs' H'; inversion H' as [? ? ? ? H|? ? ? ? L']; subst; [eauto|congruence].
  - intros m vs lb bs L SZ _ IH bs' H'; inversion H' as [? ? ? L'|? vs' lb' bs'' L' SZ' H]; subst; [congruence|].
    f_equal; [eapply wire_size_det; eassumption|auto].
  - intros t bs' H'; now inversion H'.
  - intros t v vs a b _ IHa _ IHb bs' H'; inversion H' as [|? v' vs'' a' b' Ha Hb]; subst; f_equal; auto.
Qed.

(** ** Modes *)

Definition mode_le (a b : mode) : Prop :=
  (any_true a = true -> any_true b = true) /\ (any_enum a = true -> any_enum b = true).

Lemma wire_num_mode a b k v bs : mode_le a b -> wire_num a k v bs -> wire_num b k v bs.
Proof.
  intros [M _] H; inversion H as [| |c B]; subst; try (now constructor).
  constructor; destruct (any_true a), (any_true b); auto; [now specialize (M eq_refl)|subst; discriminate].
Qed.

Lemma wire_size_mode a b t n bs : wire_size a t n bs -> wire_size b t n bs.
Proof. intros (k & K & H); exists k; split; [assumption|now apply wire_num_int_mode with a]. Qed.

Lemma wire_mode a b p : mode_le a b ->
  (forall t v bs, wire_in a p t v bs -> wire_in b p t v bs) /\
  (forall ms fs bs, wire_members a p ms fs bs -> wire_members b p ms fs bs) /\
  (forall m v bs, wire_member a p m v bs -> wire_member b p m v bs) /\
  (forall t vs bs, wire_elems a p t vs bs -> wire_elems b p t vs bs).
Proof.
  intro M; apply wire_mutind; intros.
  - econstructor; [eassumption|eapply wire_num_mode; eassumption].
  - econstructor; eapply wire_size_mode; eassumption.
  - destruct M as [_ ME]; eapply w_enum; [eassumption|eassumption| |eapply wire_num_int_mode; eassumption].
    match goal with H : _ \/ _ |- _ => destruct H; auto end.
  - econstructor; eassumption.
  - constructor.
  - constructor; assumption.
  - constructor; assumption.
  - constructor; [assumption|eapply wire_size_mode; eassumption|assumption].
  - constructor.
  - constructor; assumption.
Qed.

Lemma strict_reading : mode_le strict reading. Proof. split; cbn; auto. Qed.
Lemma reading_unchecked : mode_le reading unchecked. Proof. split; cbn; auto. Qed.

(** ** Fixed sizes *)

Lemma wire_fixed_size md p : WF p ->
  (forall t v bs, wire_in md p t v bs -> forall n, fixed_size p t n -> Z.of_nat (List.length bs) = n) /\
  (forall ms fs bs, wire_members md p ms fs bs -> forall n, fixed_members p ms n -> Z.of_nat (List.length bs) = n) /\
  (forall m v bs, wire_member md p m v bs -> forall n, v_list m = false -> fixed_size p (v_type m) n -> Z.of_nat (List.length bs) = n) /\
  (forall t vs bs, wire_elems md p t vs bs -> forall n, fixed_size p t n -> Z.of_nat (List.length bs) = Z.of_nat (List.length vs) * n).
Proof.
  intro W; apply wire_mutind.
  - intros t k v bs K N n F.
    rewrite (wire_num_length _ _ _ _ N).
    pose proof (proj2 (proj1 (num_of_base_size t k) K)) as B.
    eapply (proj1 (fixed_size_fun p W)); [constructor; exact B|exact F].
  - intros s lb L n F; inversion F as [? ? B|? e ? E|? st ? D]; subst.
    + apply base_size_In in B; cbn in B; intuition discriminate.
    + apply (enum_not_num p W) in E; tauto.
    + apply (declares_not_num p W) in D; tauto.
  - intros t e k z bs E K M N n F.
    rewrite (wire_num_length _ _ _ _ N).
    pose proof (proj2 (proj1 (num_of_base_size _ k) K)) as B.
    eapply (proj1 (fixed_size_fun p W)); [eapply fs_enum; eassumption|exact F].
  - intros t s fs bs D _ IH n F.
    destruct (declares_not_num p W t s D) as (A & _ & C).
    inversion F as [? ? B|? e ? E|? st ? D' M]; subst.
    + apply base_size_In, num_of_base in B as [k B]; congruence.
    + now apply C in E.
    + rewrite <- (declares_unique p t s st W D D') in M; auto.
  - intros n F; inversion F; reflexivity.
  - intros m ms v fs a b _ IHa _ IHb n F; inversion F as [|? ? x y L Fa Fb]; subst.
    rewrite app_length, Nat2Z.inj_add, (IHa _ L Fa), (IHb _ Fb); reflexivity.
  - intros; eauto.
  - intros; congruence.
  - intros; cbn; lia.
  - intros t v vs a b _ IHa _ IHb n F; rewrite app_length; cbn [List.length].
    rewrite Nat2Z.inj_add, (IHa _ F), (IHb _ F); lia.
Qed.

(** The names of the members of a struct value. *)
Lemma wire_members_names md p ms fs bs : wire_members md p ms fs bs -> map fst fs = map v_name ms.
Proof. induction 1 as [|m ms v fs a b _ _ IH]; cbn; congruence. Qed.
