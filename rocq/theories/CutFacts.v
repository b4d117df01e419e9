(** Encodings that are cut short, for readers that crash on some other inputs: what
    is left of an encoding does not make them crash. *)
From Verif Require Export LooseFacts.
Open Scope Z_scope.
Open Scope list_scope.

(** The input from [pos] on and [bs] agree as far as both go. *)
Definition along (inp : list byte) (pos : nat) (bs : list byte) : Prop :=
  exists x y, skipn pos inp ++ x = bs ++ y.

Lemma along_left inp pos a b : along inp pos (a ++ b) -> along inp pos a.
Proof. intros (x & y & E); exists x, (b ++ y); now rewrite app_assoc. Qed.

Lemma along_next inp pos a b : along inp pos (a ++ b) -> along inp (pos + List.length a) b.
Proof.
  intros (x & y & E); unfold along; rewrite <- app_assoc in E; rewrite skipn_plus.
  destruct (le_lt_dec (List.length a) (List.length (skipn pos inp))) as [L|L].
  - exists x, y; apply (f_equal (skipn (List.length a))) in E.
    rewrite !skipn_app, skipn_all, Nat.sub_diag in E.
    replace (List.length a - List.length (skipn pos inp))%nat with 0%nat in E by lia; exact E.
  - exists (b ++ y), y; rewrite skipn_all2 by lia; reflexivity.
Qed.

Lemma along_cut pre cut x rest : along (pre ++ cut) (List.length pre) (cut ++ x :: rest).
Proof.
  exists (x :: rest), []; rewrite skipn_app, skipn_all, Nat.sub_diag, app_nil_r; reflexivity.
Qed.

Lemma along_read inp pos k z bs v q : along inp pos bs -> wire_num reading k z bs ->
  read_num k inp pos = Got v q -> v = z /\ q = (pos + List.length bs)%nat /\ exists rest, skipn pos inp = bs ++ rest.
Proof.
  intros (x & y & A) N R; apply read_num_got in R as (bs' & rest & E & N' & ->).
  rewrite E, <- app_assoc in A.
  assert (bs' = bs).
  { apply num_val_spec in N as [L _]; apply num_val_spec in N' as [L' _].
    apply (f_equal (firstn (num_size k))) in A.
    rewrite !firstn_app, L, L', Nat.sub_diag, <- L', firstn_all, L', <- L, firstn_all, !firstn_O, !app_nil_r in A; exact A. }
  subst bs'; split; [eapply wire_num_val; eassumption|split; eauto].
Qed.

(** A failure, or a result and the given position. *)
Definition stays {A} (trap : bool) (r : res A) (q : nat) : Prop := fails trap r \/ exists a, r = ROk a q.

Lemma stays_bind {A B} trap (r : res A) (f : A -> nat -> res B) q q' :
  stays trap r q -> (forall a, stays trap (f a q) q') -> stays trap (rbind r f) q'.
Proof. intros [[-> | [T ->]]|[a ->]] H; [left; now left|left; right; now split|apply H]. Qed.

Section Cut.
Variable str : protocol -> list byte -> nat -> got (list byte).
Variable len : string -> Z -> got unit.
Variable enums : enum -> Z -> option Z.
Variable p : protocol.
Variable trap : bool.
Hypothesis W : WF p.
Variable inp : list byte.
Hypothesis STR : forall pos lb raw, wire_size reading (p_string_size_type p) (List.length raw) lb ->
  along inp pos (lb ++ raw) ->
  (str p inp pos = Crash -> trap = true) /\ forall s q, str p inp pos = Got s q -> q = (pos + List.length (lb ++ raw))%nat.
Hypothesis LEN : forall t z, 0 <= z -> (exists a b, len t z = Got a b) \/ trap = true /\ len t z = Crash.
Notation dec := (dec str len enums p inp).

Lemma dec_num_cut k z bs pos : wire_num reading k z bs -> along inp pos bs ->
  dec_num inp k pos = RErr \/ dec_num inp k pos = ROk z (pos + List.length bs).
Proof.
  intros N A; unfold dec_num; destruct (read_num_cases k inp pos) as [[v E]|E]; rewrite E; [right|now left].
  apply (along_read _ _ _ _ _ _ _ A N) in E as (-> & -> & _); reflexivity.
Qed.

Lemma dec_cut :
  (forall t v0 bs, wire_in reading p t v0 bs -> forall pos fuel,
     along inp pos bs -> fits_any p fuel t = true -> stays trap (dec fuel t pos) (pos + List.length bs)) /\
  (forall ms fs0 bs, wire_members reading p ms fs0 bs -> forall pos fuel,
     along inp pos bs -> (forall m, In m ms -> fits_any p fuel (v_type m) = true) ->
     stays trap (dec_members len p inp (dec fuel) ms pos) (pos + List.length bs)) /\
  (forall m v0 bs, wire_member reading p m v0 bs -> forall pos fuel,
     along inp pos bs -> fits_any p fuel (v_type m) = true ->
     stays trap (dec_member len p inp (dec fuel) m pos) (pos + List.length bs)) /\
  (forall t vs0 bs, wire_elems reading p t vs0 bs -> forall pos fuel,
     along inp pos bs -> fits_any p fuel t = true ->
     stays trap (dec_elems (dec fuel) t (List.length vs0) pos) (pos + List.length bs)).
Proof.
  apply wire_mutind.
  - intros t k v bs K N pos fuel A F.
    destruct fuel; cbn [Dec.dec]; rewrite K; (destruct (dec_num_cut k v bs pos N A) as [->| ->]; [left; now left|right; eauto]).
  - intros s lb L pos fuel A F.
    destruct (STR pos lb s L A) as [NC Q].
    assert (X : stays trap (got_res VStr (str p inp pos)) (pos + List.length (lb ++ s))).
    { destruct (str p inp pos) as [s' q| |]; [right|left; now left|left; right; split; [now apply NC|reflexivity]].
      rewrite <- (Q s' q eq_refl); cbn; eauto. }
    destruct fuel; cbn [Dec.dec num_of lookup]; cbn; exact X.
  - intros t e k z bs EN K M N pos fuel A F.
    destruct (enum_not_num p W t e EN) as (A1 & B & _); apply String.eqb_neq in B.
    assert (L := In_lookup _ _ _ (wf_enums_nodup p W) EN).
    destruct fuel; cbn [Dec.dec]; rewrite A1, B, L; unfold dec_enum; rewrite K;
      (destruct (dec_num_cut k (VInt z) bs pos N A) as [->| ->]; [left; now left|]); cbn [rbind];
      (destruct (enums e z); [right; eauto|left; now left]).
  - intros t s fs bs D _ IH pos fuel A F.
    destruct (declares_not_num p W t s D) as (A1 & B & C); apply String.eqb_neq in B.
    destruct (fits_any_members p fuel t s W D F) as (f & -> & FM).
    cbn [Dec.dec]; rewrite A1, B, (find_declares p W t s D).
    destruct (lookup t (p_enums p)) as [e|] eqn:L; [apply lookup_In in L; now apply C in L|].
    eapply stays_bind; [exact (IH pos f A FM)|]; intro x; right; eauto.
  - intros pos fuel A F; right; exists []; cbn; f_equal; lia.
  - intros m ms v0 fs0 a b _ IHa _ IHb pos fuel A F.
    cbn [dec_members]; rewrite app_length, Nat.add_assoc.
    eapply stays_bind; [apply (IHa pos fuel (along_left _ _ _ _ A)); apply F; now left|intro x].
    eapply stays_bind; [apply (IHb _ fuel (along_next _ _ _ _ A)); intros; apply F; now right|intro y]; right; eauto.
  - intros m v0 bs L _ IH pos fuel A F; unfold dec_member; rewrite L; auto.
  - intros m vs lb bs L S _ IH pos fuel A F.
    unfold dec_member, dec_list; rewrite L; destruct S as (k & K & N); rewrite K, app_length, Nat.add_assoc.
    destruct (dec_num_cut k _ lb pos N (along_left _ _ _ _ A)) as [->| ->]; [left; now left|]; cbn [rbind].
    destruct (LEN (v_type m) (Z.of_nat (List.length vs))) as [(x & y & ->)|[T ->]]; [lia| |left; right; now split].
    rewrite Nat2Z.id.
    eapply stays_bind; [exact (IH _ fuel (along_next _ _ _ _ A) F)|]; intro z; right; eauto.
  - intros t pos fuel A F; right; exists []; cbn; f_equal; lia.
  - intros t v0 vs0 a b _ IHa _ IHb pos fuel A F.
    cbn [dec_elems List.length]; rewrite app_length, Nat.add_assoc.
    eapply stays_bind; [exact (IHa pos fuel (along_left _ _ _ _ A) F)|intro x].
    eapply stays_bind; [exact (IHb _ fuel (along_next _ _ _ _ A) F)|intro y]; right; eauto.
Qed.
End Cut.

Lemma no_crash {A} (g : got A) (P : Prop) : g <> Crash /\ P -> (g = Crash -> false = true) /\ P.
Proof. intros [N H]; split; [intro E; now apply N in E|exact H]. Qed.

(** A generated reader fails on what is left of an encoding. *)
Lemma good_cut R p code len trap trap' : WF p ->
  (forall inp fuel, call_ok R p inp (run R p code inp fuel) len fuel) ->
  (forall inp pos, rt_str R p inp pos = Crash -> trap = true) ->
  (forall t z, (exists k, num_of (p_list_size_type p) = Some k /\ num_min k <= z <= num_max k) ->
     len t z = Crash -> trap = true) ->
  (forall t z, 0 <= z -> (exists a b, len t z = Got a b) \/ trap' = true /\ len t z = Crash) ->
  (forall inp pos lb raw, wire_size reading (p_string_size_type p) (List.length raw) lb ->
     along inp pos (lb ++ raw) ->
     (rt_str R p inp pos = Crash -> trap' = true) /\ forall s q, rt_str R p inp pos = Got s q -> q = (pos + List.length (lb ++ raw))%nat) ->
  (forall inp pos s q, rt_str R p inp pos = Got s q -> (q <= List.length inp)%nat) ->
  rejects_truncated p trap' (read_with R code p).
Proof.
  intros W AGREES STRT LENT LEN STR IN t s v bs before cut x rest D WI E.
  rewrite (good_dec R p code len trap W AGREES STRT LENT t s) by assumption.
  destruct (proj1 (dec_cut (rt_str R) len (rt_enum R) p trap' W (before ++ cut) (STR _) LEN) t v bs WI (List.length before) (depth_of p)) as [H|[a H]].
  - rewrite E; apply along_cut.
  - now apply WF_fits_any.
  - exact H.
  - exfalso; apply dec_within in H; [|apply IN].
    rewrite E, !app_length in H; cbn [List.length] in H; lia.
Qed.
