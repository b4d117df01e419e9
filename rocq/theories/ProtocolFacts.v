(** Proofs about the loader (Protocol.v) against its specification
    (ProtocolSpec.v). *)
From Verif Require Export BytesFacts ProtocolSpec.

(** ** The exception monad *)

Lemma pbind_Ret {A B} (m : pyres A) (f : A -> pyres B) b :
  pbind m f = Ret b -> exists a, m = Ret a /\ f a = Ret b.
Proof. destruct m as [a|e|]; cbn; try discriminate; eauto. Qed.

Lemma raise_if_Ret b e u : raise_if b e = Ret u -> b = false.
Proof. destruct b; cbn; [discriminate|reflexivity]. Qed.

Ltac pinv :=
  repeat match goal with
  | H : pbind _ _ = Ret _ |- _ =>
      let a := fresh "a" in let H1 := fresh "R" in let H2 := fresh "R" in
      apply pbind_Ret in H; destruct H as [a [H1 H2]]
  | H : raise_if _ _ = Ret _ |- _ => apply raise_if_Ret in H
  | H : Ret _ = Ret _ |- _ => injection H as H; subst
  | H : Raise _ = Ret _ |- _ => discriminate H
  | H : OutOfSteps = Ret _ |- _ => discriminate H
  end.

Lemma for_each_Ret {A} (f : A -> pyres unit) l :
  for_each f l = Ret tt <-> (forall x, In x l -> f x = Ret tt).
Proof.
  induction l as [|x l IH]; cbn; [split; [tauto|reflexivity]|].
  split.
  - intro H; pinv; destruct a; rewrite IH in R0; intros y [<-|Hy]; auto.
  - intro H; rewrite (H x (or_introl eq_refl)); cbn; apply IH; auto.
Qed.

Lemma for_each_Ret_u {A} (f : A -> pyres unit) l u :
  for_each f l = Ret u -> (forall x, In x l -> f x = Ret tt).
Proof. destruct u; apply for_each_Ret. Qed.

(** ** White space and names *)

Lemma has_char_In c s : has_char c s = true <-> In c (str_chars s).
Proof.
  induction s as [|d s IH]; cbn; [intuition discriminate|].
  destruct (Ascii.eqb_spec c d) as [->|N]; [tauto|rewrite IH; intuition congruence].
Qed.

Lemma is_space_In c : is_space c <-> In c WHITESPACE.
Proof.
  assert (E : existsb (Ascii.eqb c) WHITESPACE =
              ((Nat.leb 9 (nat_of_ascii c) && Nat.leb (nat_of_ascii c) 13)
               || Nat.eqb (nat_of_ascii c) 32)%bool).
  { destruct c as [[] [] [] [] [] [] [] []]; vm_compute; reflexivity. }
  assert (B : existsb (Ascii.eqb c) WHITESPACE = true <-> In c WHITESPACE).
  { rewrite existsb_exists; split.
    - intros [x [Hx Ex]]; apply Ascii.eqb_eq in Ex; now subst.
    - intro H; exists c; split; [assumption|apply Ascii.eqb_refl]. }
  rewrite <- B, E; unfold is_space; lia.
Qed.

Lemma contains_whitespace_false s : contains_whitespace s = false <-> no_space s.
Proof.
  unfold contains_whitespace, no_space; split.
  - intros H c Hc Sp; apply is_space_In in Sp.
    assert (existsb (fun c => has_char c s) WHITESPACE = true); [|congruence].
    apply existsb_exists; exists c; split; [assumption|now apply has_char_In].
  - intro H; destruct (existsb _ WHITESPACE) eqn:E; [|reflexivity].
    apply existsb_exists in E; destruct E as [c [Hc Hs]].
    apply has_char_In in Hs; apply is_space_In in Hc; now destruct (H c Hs).
Qed.

Lemma reserved_words_eq : RESERVED_WORDS = base_types ++ ["string"; "list"]%string.
Proof. reflexivity. Qed.

Lemma numeric_keys : map fst NUMERIC_TYPE_SIZES = base_types.
Proof. reflexivity. Qed.

Lemma name_checks s :
  String.eqb s "" = false -> contains_whitespace s = false ->
  in_strs (lower s) RESERVED_WORDS = false -> name_ok s.
Proof.
  intros H1 H2 H3; repeat split.
  - now apply String.eqb_neq.
  - now apply contains_whitespace_false.
  - now apply in_strs_false.
Qed.

Lemma name_ok_checks s : name_ok s ->
  String.eqb s "" = false /\ contains_whitespace s = false /\
  in_strs (lower s) RESERVED_WORDS = false.
Proof.
  intros (H1 & H2 & H3); repeat split.
  - now apply String.eqb_neq.
  - now apply contains_whitespace_false.
  - now apply in_strs_false.
Qed.

(** ** Building structs *)

Lemma build_var_name k t v : build_var k t = Ret v -> v_name v = k.
Proof.
  destruct t as [s| | | | |l|]; cbn; try discriminate.
  - destruct (bracketed s) as [[]|]; try discriminate.
    + destruct (bracketed (drop_last (drop_first s))) as [[]|]; try discriminate.
      now intros [= <-].
    + now intros [= <-].
  - destruct l; discriminate.
Qed.

Lemma build_members_names items ms :
  build_members items = Ret ms ->
  map v_name ms = filter (fun k => negb (starts_underscore k)) (map fst items).
Proof.
  revert ms; induction items as [|[k t] items IH]; cbn; intros ms H; pinv; [reflexivity|].
  destruct (starts_underscore k) eqn:U; cbn; [auto|].
  pinv; cbn; rewrite (build_var_name _ _ _ R); f_equal; auto.
Qed.

Lemma build_struct_inv im d s :
  build_struct im d = Ret s ->
  exists items, d = TTab items /\ build_members items = Ret (s_members s) /\
    lookup "_name" items = Some (TStr (s_name s)) /\ s_is_message s = im.
Proof.
  unfold build_struct; intro H; pinv.
  destruct d as [| | | | | |items]; try discriminate; cbn in *; pinv.
  destruct (lookup "_name" items) as [n|] eqn:L; [|discriminate]; injection R0 as ->.
  destruct a1; try discriminate; injection R4 as <-; cbn.
  exists items; repeat split; auto.
Qed.

Lemma load_structs_inv im l acc r :
  load_structs im l acc = Ret r ->
  exists new, r = acc ++ new /\
    Forall2 (fun d ns => build_struct im d = Ret (snd ns) /\ fst ns = s_name (snd ns)) l new /\
    (NoDup (map fst acc) -> NoDup (map fst r)).
Proof.
  revert acc r; induction l as [|d l IH]; cbn; intros acc r H; pinv.
  - exists []; rewrite app_nil_r; auto.
  - destruct (IH _ _ R2) as [new [E [F N]]].
    rewrite dict_set_fresh in E by assumption.
    exists ((s_name a, a) :: new); split; [|split].
    + rewrite E, <- app_assoc; reflexivity.
    + constructor; cbn; auto.
    + intro ND; apply N, dict_set_keys_nodup, ND.
Qed.

(** ** Enums *)

Lemma has_dup_str_false l : has_dup_str l = false <-> NoDup l.
Proof.
  induction l as [|x l IH]; cbn; [split; [constructor|reflexivity]|].
  rewrite orb_false_iff, in_strs_false, IH; split.
  - intros [H1 H2]; now constructor.
  - now inversion_clear 1.
Qed.

Lemma has_dup_Z_false l : has_dup_Z l = false <-> NoDup l.
Proof.
  induction l as [|x l IH]; cbn; [split; [constructor|reflexivity]|].
  rewrite orb_false_iff, IH.
  assert (E : existsb (Z.eqb x) l = false <-> ~ In x l).
  { split.
    - intros H Hi; assert (existsb (Z.eqb x) l = true); [|congruence].
      apply existsb_exists; exists x; split; [assumption|apply Z.eqb_refl].
    - intro H; destruct (existsb _ l) eqn:B; [|reflexivity].
      apply existsb_exists in B; destruct B as [y [Hy Ey]]; apply Z.eqb_eq in Ey; now subst. }
  rewrite E; split; [intros [H1 H2]; now constructor|now inversion_clear 1].
Qed.

Lemma number_from_fst i l : map fst (number_from i l) = l.
Proof. revert i; induction l as [|x l IH]; intro i; cbn; congruence. Qed.

Lemma number_from_snd k l :
  map snd (number_from (Z.of_nat k) l) = map Z.of_nat (seq k (List.length l)).
Proof.
  revert k; induction l as [|x l IH]; intro k; cbn; [reflexivity|].
  f_equal; rewrite <- IH; f_equal; f_equal; lia.
Qed.

Lemma number_from_unique values :
  map snd values = map Z.of_nat (seq 0 (List.length values)) ->
  number_from 0 (map fst values) = values.
Proof.
  assert (G : forall k, map snd values = map Z.of_nat (seq k (List.length values)) ->
              number_from (Z.of_nat k) (map fst values) = values).
  { induction values as [|[n z] values IH]; intros k H; cbn in *; [reflexivity|].
    injection H as H1 H2; subst z; f_equal.
    replace (Z.of_nat k + 1) with (Z.of_nat (S k)) by lia; auto. }
  exact (G 0%nat).
Qed.

Lemma zmin_spec l m : zmin l = Some m -> In m l /\ forall x, In x l -> m <= x.
Proof.
  revert m; induction l as [|x l IH]; cbn; intros m H; [discriminate|].
  destruct (zmin l) as [m'|] eqn:E; injection H as <-.
  - destruct (IH m' eq_refl) as [I B]; split.
    + destruct (Z.min_spec x m') as [[_ ->]|[_ ->]]; auto.
    + intros y [<-|Hy]; [lia|specialize (B y Hy); lia].
  - destruct l as [|y l]; [|cbn in E; destruct (zmin l); discriminate].
    split; [now left|intros y [<-|[]]; lia].
Qed.

Lemma zmax_spec l m : zmax l = Some m -> In m l /\ forall x, In x l -> x <= m.
Proof.
  revert m; induction l as [|x l IH]; cbn; intros m H; [discriminate|].
  destruct (zmax l) as [m'|] eqn:E; injection H as <-.
  - destruct (IH m' eq_refl) as [I B]; split.
    + destruct (Z.max_spec x m') as [[_ ->]|[_ ->]]; auto.
    + intros y [<-|Hy]; [lia|specialize (B y Hy); lia].
  - destruct l as [|y l]; [|cbn in E; destruct (zmax l); discriminate].
    split; [now left|intros y [<-|[]]; lia].
Qed.

Lemma zmin_none l : zmin l = None <-> l = [].
Proof. destruct l; cbn; [tauto|destruct (zmin l); split; discriminate]. Qed.
Lemma zmax_none l : zmax l = None <-> l = [].
Proof. destruct l; cbn; [tauto|destruct (zmax l); split; discriminate]. Qed.

Lemma fits_in_minmax lo hi l mn mx :
  zmin l = Some mn -> zmax l = Some mx ->
  ((lo <=? mn) && (mx <=? hi) = true <-> fits_in lo hi l).
Proof.
  intros H1 H2; apply zmin_spec in H1; apply zmax_spec in H2.
  destruct H1 as [I1 B1], H2 as [I2 B2]; unfold fits_in; split.
  - intros H z Hz; specialize (B1 z Hz); specialize (B2 z Hz); lia.
  - intro H; pose proof (H mn I1); pose proof (H mx I2); lia.
Qed.

Lemma pick_encoding_spec l mn mx enc :
  zmin l = Some mn -> zmax l = Some mx ->
  (pick_encoding mn mx ["byte"; "int16"; "int32"]%string = Ret enc <-> smallest_encoding l enc).
Proof.
  intros H1 H2; cbn.
  pose proof (fits_in_minmax 0 255 l mn mx H1 H2) as F1.
  pose proof (fits_in_minmax (-32768) 32767 l mn mx H1 H2) as F2.
  pose proof (fits_in_minmax (-2147483648) 2147483647 l mn mx H1 H2) as F3.
  unfold smallest_encoding.
  destruct ((0 <=? mn) && (mx <=? 255)) eqn:B1.
  { split; [intros [= <-]; left; tauto|].
    intros [[-> _]|[(_ & _ & H)|(_ & _ & _ & H)]]; [reflexivity|tauto|tauto]. }
  assert (N1 : ~ fits_in 0 255 l) by (rewrite <- F1; congruence).
  destruct ((-32768 <=? mn) && (mx <=? 32767)) eqn:B2.
  { split; [intros [= <-]; right; left; tauto|].
    intros [[_ H]|[(-> & _ & _)|(_ & _ & H & _)]]; [tauto|reflexivity|tauto]. }
  assert (N2 : ~ fits_in (-32768) 32767 l) by (rewrite <- F2; congruence).
  destruct ((-2147483648 <=? mn) && (mx <=? 2147483647)) eqn:B3.
  { split; [intros [= <-]; right; right; tauto|].
    intros [[_ H]|[(_ & H & _)|(-> & _)]]; [tauto|tauto|reflexivity]. }
  assert (N3 : ~ fits_in (-2147483648) 2147483647 l) by (rewrite <- F3; congruence).
  split; [discriminate|].
  intros [[_ H]|[(_ & H & _)|(_ & H & _)]]; tauto.
Qed.

Lemma enum_tables_nodup l od vs :
  enum_tables l od = Ret vs -> NoDup (map fst od) -> NoDup (map fst vs).
Proof.
  revert od; induction l as [|v l IH]; cbn; intros od H ND; pinv; [assumption|].
  eapply IH; [eassumption|]; now apply dict_set_keys_nodup.
Qed.

Lemma enum_init_inv n spec e :
  enum_init n spec = Ret e ->
  e_name e = n /\ e_values e <> [] /\ NoDup (map fst (e_values e)) /\
  smallest_encoding (map snd (e_values e)) (e_encoding e).
Proof.
  unfold enum_init; intro H; pinv.
  destruct (zmin (map snd a)) as [mn|] eqn:Emn; [|discriminate].
  destruct (zmax (map snd a)) as [mx|] eqn:Emx; [|discriminate].
  pinv; cbn.
  repeat split.
  - intros ->; discriminate.
  - destruct (forallb is_tstr spec); pinv.
    + rewrite number_from_fst; now apply has_dup_str_false.
    + destruct (forallb is_ttab spec); cbn in R; [|discriminate].
      eapply enum_tables_nodup; [eassumption|constructor].
  - eapply pick_encoding_spec; eassumption.
Qed.

Lemma load_enums_inv l acc r :
  load_enums l acc = Ret r ->
  NoDup (map fst acc) ->
  (forall n e, In (n, e) acc -> e_name e = n /\ exists spec, enum_init n spec = Ret e) ->
  NoDup (map fst r) /\
  (forall n e, In (n, e) r -> e_name e = n /\ exists spec, enum_init n spec = Ret e).
Proof.
  revert acc; induction l as [|d l IH]; cbn; intros acc H ND Inv; pinv; [auto|].
  destruct a3; try discriminate; pinv.
  destruct a3; try discriminate; pinv.
  eapply IH; [eassumption| |].
  - now apply dict_set_keys_nodup.
  - intros m e' Hin; apply dict_set_In in Hin as [[-> ->]|Hin]; [|auto].
    split; [reflexivity|].
    match goal with E : enum_init _ _ = Ret _ |- _ =>
      pose proof (enum_init_inv _ _ _ E) as (-> & _); eauto end.
Qed.

(** ** Cycles *)

Lemma push_members_spec p start ms stack :
  push_members p start ms stack =
  if existsb (String.eqb start) (map v_type ms) then Raise RecursionError
  else Ret (rev (filter (fun t => mem t (p_structs p)) (map v_type ms)) ++ stack).
Proof.
  revert stack; induction ms as [|m ms IH]; intro stack; cbn; [reflexivity|].
  rewrite (String.eqb_sym start (v_type m)).
  destruct (String.eqb (v_type m) start); cbn; [reflexivity|].
  destruct (mem (v_type m) (p_structs p)) eqn:M; cbn; rewrite IH.
  - destruct (existsb _ (map v_type ms)); [reflexivity|].
    f_equal; rewrite <- app_assoc; reflexivity.
  - destruct (existsb _ (map v_type ms)); reflexivity.
Qed.

Definition struct_types (p : protocol) (s : struct) : list string :=
  filter (fun t => mem t (p_structs p)) (map v_type (s_members s)).

Lemma is_struct_mem p t : is_struct p t <-> mem t (p_structs p) = true.
Proof. unfold is_struct; now rewrite mem_exists. Qed.
Lemma is_message_mem p t : is_message_name p t <-> mem t (p_messages p) = true.
Proof. unfold is_message_name; now rewrite mem_exists. Qed.
Lemma is_enum_mem p t : is_enum p t <-> mem t (p_enums p) = true.
Proof. unfold is_enum; now rewrite mem_exists. Qed.

Lemma contains_types p a b :
  NoDup (map fst (p_structs p)) ->
  (contains p a b <-> exists s, lookup a (p_structs p) = Some s /\ In b (struct_types p s)).
Proof.
  intro ND; unfold contains, struct_types; split.
  - intros (s & m & H1 & H2 & <- & H4); exists s; split; [now apply In_lookup|].
    apply filter_In; split; [now apply in_map|now apply is_struct_mem].
  - intros (s & L & H); apply filter_In in H as [H M]; apply in_map_iff in H as [m [E H]].
    exists s, m; repeat split; auto; [now apply lookup_In|now apply is_struct_mem].
Qed.

(** If the loop ends normally, nothing on the work list reaches the start. *)
Lemma cycle_loop_Ret p start fuel stack :
  NoDup (map fst (p_structs p)) ->
  cycle_loop p start fuel stack = Ret tt ->
  forall t, In t stack -> forall u, clos_refl_trans_1n _ (contains p) t u -> u <> start.
Proof.
  intro ND; revert stack; induction fuel as [|fuel IH]; intros [|t rest] H; cbn in H; try discriminate.
  - intros t [].
  - intros t [].
  - destruct (String.eqb_spec t start) as [E|Ne]; [discriminate|].
    destruct (lookup t (p_structs p)) as [s|] eqn:L; [|discriminate].
    rewrite push_members_spec in H.
    destruct (existsb (String.eqb start) (map v_type (s_members s))) eqn:X; cbn in H; [discriminate|].
    specialize (IH _ H).
    intros t' [<-|Hin] u Ru.
    + destruct Ru as [|t2 u Hc Hr]; [assumption|].
      apply (IH t2); [|assumption].
      apply in_or_app; left; rewrite <- in_rev.
      apply contains_types in Hc as [s' [L' Hs]]; [|assumption].
      rewrite L in L'; injection L' as <-; exact Hs.
    + apply (IH t'); [apply in_or_app; now right|assumption].
Qed.

Lemma clos_rt_rt1n {A} (R : relation A) x y :
  clos_refl_trans _ R x y <-> clos_refl_trans_1n _ R x y.
Proof. split; [apply clos_rt_rt1n|apply clos_rt1n_rt]. Qed.

Lemma clos_trans_head {A} (R : relation A) x y :
  clos_trans _ R x y <-> exists z, R x z /\ clos_refl_trans_1n _ R z y.
Proof.
  split.
  - intro H; apply clos_trans_t1n in H; destruct H as [y H|z y H H'].
    + exists y; split; [assumption|constructor].
    + exists z; split; [assumption|]; apply clos_rt_rt1n.
      apply clos_t1n_trans in H'; clear H.
      induction H' as [a b Hab|a b c _ IH1 _ IH2]; [now apply rt_step|eapply rt_trans; eauto].
  - intros [z [H H']]; apply clos_rt_rt1n in H'.
    assert (G : forall a b, clos_refl_trans _ R a b -> forall c, R c a -> clos_trans _ R c b).
    { intros a b Hab; induction Hab as [a b Hab|a|a b c' H1 IH1 H2 IH2]; intros c Hc.
      - eapply t_trans; apply t_step; eassumption.
      - now apply t_step.
      - clear IH2; specialize (IH1 c Hc).
        assert (Q : forall a b, clos_refl_trans _ R a b -> forall c, clos_trans _ R c a -> clos_trans _ R c b).
        { intros a0 b0 Hr; induction Hr; intros c0 Hc0; auto.
          eapply t_trans; [eassumption|now apply t_step]. }
        eapply Q; eauto. }
    eapply G; eauto.
Qed.

Lemma check_all_acyclic p fuel :
  NoDup (map fst (p_structs p)) ->
  (forall n s, In (n, s) (p_structs p) -> s_name s = n) ->
  (forall s, In s (map snd (p_structs p)) -> check_for_cycles p fuel s = Ret tt) ->
  acyclic p.
Proof.
  intros ND Names Chk a H; apply clos_trans_head in H as [b [Hab Hba]].
  pose proof Hab as Hab'; apply contains_types in Hab' as [s [L Hb]]; [|assumption].
  pose proof (lookup_In _ _ _ L) as Hin.
  assert (Hs : In s (map snd (p_structs p))) by (apply in_map_iff; now exists (a, s)).
  specialize (Chk s Hs); unfold check_for_cycles in Chk; rewrite (Names _ _ Hin) in Chk.
  eapply (cycle_loop_Ret p a fuel _ ND Chk b); [|exact Hba|reflexivity].
  now apply -> in_rev.
Qed.

(** ** Soundness of the loader *)

Lemma in_valid_types p t : in_strs t (valid_types p) = true <-> declared_type p t.
Proof.
  rewrite in_strs_true; unfold valid_types, declared_type.
  rewrite !in_app_iff, is_struct_mem, is_enum_mem, !mem_true, numeric_keys; cbn.
  intuition congruence.
Qed.

Lemma load_size_inv key meta t : load_size key meta = Ret t -> In t integral_types.
Proof.
  unfold load_size; intro H; pinv; destruct a; pinv.
  - destruct a; try discriminate.
    destruct (in_strs s valid_sizes) eqn:E; [|discriminate]; pinv.
    now apply in_strs_true in E.
  - unfold integral_types; cbn; tauto.
Qed.

Lemma toml_wf_tab_nodup kvs : toml_wf (TTab kvs) -> NoDup (map fst kvs).
Proof. cbn; tauto. Qed.

Lemma toml_wf_tab_In kvs k v : toml_wf (TTab kvs) -> In (k, v) kvs -> toml_wf v.
Proof.
  cbn; intros [_ H]; induction kvs as [|kv kvs IH]; [intros []|].
  destruct H as [H1 H2]; intros [->|Hin]; [exact H1|auto].
Qed.

Lemma toml_wf_arr_In l v : toml_wf (TArr l) -> In v l -> toml_wf v.
Proof.
  cbn; intro H; induction l as [|w l IH]; [intros []|].
  destruct H as [H1 H2]; intros [->|Hin]; [exact H1|auto].
Qed.

Lemma py_iter_wf v l x : toml_wf v -> py_iter v = Ret l -> In x l -> toml_wf x.
Proof.
  destruct v; cbn [py_iter]; intros W [= <-] Hin.
  - clear W; induction s as [|c s IH]; [destruct Hin|].
    destruct Hin as [<-|Hin]; [exact I|auto].
  - eapply toml_wf_arr_In; eassumption.
  - apply in_map_iff in Hin as [kv [<- _]]; exact I.
Qed.

Lemma section_wf key data : toml_wf (TTab data) -> toml_wf (section key data).
Proof.
  intro W; unfold section; destruct (lookup key data) as [v|] eqn:L; [|exact I].
  eapply toml_wf_tab_In; [exact W|eapply lookup_In; eassumption].
Qed.

Lemma Forall2_In_r {A B} (P : A -> B -> Prop) l1 l2 y :
  Forall2 P l1 l2 -> In y l2 -> exists x, In x l1 /\ P x y.
Proof.
  induction 1 as [|a b l1 l2 Hab H IH]; [intros []|].
  intros [<-|Hin]; [exists a; split; [now left|assumption]|].
  destruct (IH Hin) as [x [Hx Px]]; exists x; split; [now right|assumption].
Qed.

Lemma NoDup_filter {A} (f : A -> bool) l : NoDup l -> NoDup (filter f l).
Proof.
  induction 1 as [|x l Hni ND IH]; cbn; [constructor|].
  destruct (f x); [constructor; auto; rewrite filter_In; tauto|assumption].
Qed.

Lemma load_structs_entries im v l r :
  toml_wf v -> py_iter v = Ret l -> load_structs im l [] = Ret r ->
  NoDup (map fst r) /\
  (forall n s, In (n, s) r -> s_name s = n /\ s_is_message s = im /\
     NoDup (map v_name (s_members s)) /\
     (forall m, In m (s_members s) -> starts_underscore (v_name m) = false)).
Proof.
  intros W It H; apply load_structs_inv in H as [new [E [F N]]]; cbn in E; subst r.
  split; [apply N; constructor|].
  intros n s Hin; destruct (Forall2_In_r _ _ _ _ F Hin) as [d [Hd [Hb Hn]]]; cbn in Hb, Hn; subst n.
  destruct (build_struct_inv _ _ _ Hb) as [items [-> [Hm [Hl Hi]]]].
  pose proof (build_members_names _ _ Hm) as Hnames.
  assert (Wd : toml_wf (TTab items)) by (eapply py_iter_wf; eassumption).
  repeat split; auto.
  - rewrite Hnames; apply NoDup_filter, toml_wf_tab_nodup, Wd.
  - intros m Hin'; apply (in_map v_name) in Hin'; rewrite Hnames in Hin'.
    apply filter_In in Hin' as [_ Hu]; now apply negb_true_iff in Hu.
Qed.

Lemma load_inv fuel data p : load fuel data = Ret p -> build data = Ret p /\ validate fuel p = Ret tt.
Proof. unfold load; intro H; pinv; destruct a0; auto. Qed.

Lemma validate_inv fuel p : validate fuel p = Ret tt ->
  (forall s, In s (map snd (p_structs p)) -> validate_struct p s = Ret tt) /\
  (forall s, In s (map snd (p_messages p)) -> validate_struct p s = Ret tt) /\
  (forall e, In e (map snd (p_enums p)) -> validate_enum p e = Ret tt) /\
  (List.length (p_messages p) <= 255)%nat /\
  (forall s, In s (map snd (p_structs p)) -> check_for_cycles p fuel s = Ret tt) /\
  (forall s, In s (map snd (p_messages p)) -> check_for_cycles p fuel s = Ret tt).
Proof.
  unfold validate; intro H; pinv.
  repeat split; try (eapply for_each_Ret_u; eassumption).
  apply Nat.ltb_ge; assumption.
Qed.

Lemma validate_struct_inv p s : validate_struct p s = Ret tt ->
  name_ok (s_name s) /\
  (s_is_message s = true -> mem (s_name s) (p_structs p) = false) /\
  (forall m, In m (s_members s) -> no_space (v_name m) /\ declared_type p (v_type m)).
Proof.
  unfold validate_struct; intro H; pinv.
  split; [now apply name_checks|split].
  - intro M; match goal with E : _ && _ = false |- _ => rewrite M in E; exact E end.
  - intros m Hm; match goal with F : for_each _ _ = Ret _ |- _ =>
      pose proof (for_each_Ret_u _ _ _ F m Hm) as V end; unfold validate_member in V.
    pinv; split; [now apply contains_whitespace_false|].
    apply in_valid_types; destruct (in_strs (v_type m) (valid_types p)); [reflexivity|].
    destruct (s_is_message s && mem (v_type m) (p_messages p)); discriminate.
Qed.

Lemma validate_enum_inv p e : validate_enum p e = Ret tt ->
  name_ok (e_name e) /\ NoDup (map snd (e_values e)) /\
  mem (e_name e) (p_structs p) = false /\ mem (e_name e) (p_messages p) = false /\
  (forall v, In v (map fst (e_values e)) ->
     no_space v /\ mem v (p_structs p) = false /\ mem v (p_messages p) = false).
Proof.
  unfold validate_enum; intro H; pinv.
  split; [now apply name_checks|].
  split; [now apply has_dup_Z_false|].
  repeat (split; [assumption|]).
  intros v Hv; match goal with F : for_each _ _ = Ret _ |- _ =>
    pose proof (for_each_Ret_u _ _ _ F v Hv) as V end; cbn in V; pinv.
  split; [now apply contains_whitespace_false|tauto].
Qed.

Lemma load_WF fuel data p : toml_wf (TTab data) -> load fuel data = Ret p -> WF p.
Proof.
  intros W H; apply load_inv in H as [Hb Hv].
  unfold build in Hb; pinv.
  destruct a as [[ns ls] ss]; pinv.
  destruct (load_structs_entries _ _ _ _ (section_wf "structs" _ W) R1 R0) as [SN SE].
  destruct (load_structs_entries _ _ _ _ (section_wf "messages" _ W) R2 R3) as [MN ME].
  destruct (load_enums_inv _ _ _ R5) as [EN EE]; [constructor|intros ? ? []|].
  apply validate_inv in Hv; cbn [p_structs p_messages p_enums] in Hv.
  destruct Hv as (VS & VM & VE & Cnt & CS & CM).
  set (p := MkProtocol ns ls ss a1 a3 a5) in *.
  assert (VS' : forall n s, In (n, s) a1 -> validate_struct p s = Ret tt).
  { intros n s Hin; apply VS; apply in_map_iff; now exists (n, s). }
  assert (VM' : forall n s, In (n, s) a3 -> validate_struct p s = Ret tt).
  { intros n s Hin; apply VM; apply in_map_iff; now exists (n, s). }
  assert (VE' : forall n e, In (n, e) a5 -> validate_enum p e = Ret tt).
  { intros n e Hin; apply VE; apply in_map_iff; now exists (n, e). }
  assert (Sizes : In ls integral_types /\ In ss integral_types).
  { unfold load_meta in R; destruct (lookup "meta" data); pinv.
    - split; eapply load_size_inv; eassumption.
    - unfold integral_types; cbn; tauto. }
  split; [|eapply (check_all_acyclic p fuel); auto;
           intros n s Hin; now destruct (SE n s Hin) as (? & _)].
  constructor; cbn [p_structs p_messages p_enums p_list_size_type p_string_size_type p]; auto.
  - intros n s Hin; destruct (SE n s Hin) as (? & ? & _); auto.
  - intros n s Hin; destruct (ME n s Hin) as (? & ? & _); auto.
  - intros n e Hin; destruct (EE n e Hin); auto.
  - intros n [[s Hin]|[[s Hin]|[e Hin]]]; cbn in Hin.
    + destruct (SE n s Hin) as (<- & _); now apply (validate_struct_inv p s), VS' with (n := s_name s).
    + destruct (ME n s Hin) as (<- & _); now apply (validate_struct_inv p s), VM' with (n := s_name s).
    + destruct (EE n e Hin) as (<- & _); now apply (validate_enum_inv p e), VE' with (n := e_name e).
  - intro n; repeat split.
    + intros [H1 [s Hin]]; cbn in Hin; apply is_struct_mem in H1.
      destruct (ME n s Hin) as (<- & Im & _).
      pose proof (validate_struct_inv p s (VM' _ _ Hin)) as (_ & Hs & _).
      rewrite (Hs Im) in H1; discriminate.
    + intros [H1 [e Hin]]; cbn in Hin; apply is_struct_mem in H1.
      destruct (EE n e Hin) as (<- & _).
      pose proof (validate_enum_inv p e (VE' _ _ Hin)) as (_ & _ & Hs & _); congruence.
    + intros [H1 [e Hin]]; cbn in Hin; apply is_message_mem in H1.
      destruct (EE n e Hin) as (<- & _).
      pose proof (validate_enum_inv p e (VE' _ _ Hin)) as (_ & _ & _ & Hs & _); congruence.
  - intros n s [Hin|Hin]; cbn in Hin.
    + destruct (SE n s Hin) as (_ & _ & ? & _); auto.
    + destruct (ME n s Hin) as (_ & _ & ? & _); auto.
  - intros n s m [Hin|Hin] Hm; cbn in Hin.
    + destruct (SE n s Hin) as (_ & _ & _ & Hu).
      pose proof (validate_struct_inv p s (VS' _ _ Hin)) as (_ & _ & Hs); split; [apply Hs|]; auto.
    + destruct (ME n s Hin) as (_ & _ & _ & Hu).
      pose proof (validate_struct_inv p s (VM' _ _ Hin)) as (_ & _ & Hs); split; [apply Hs|]; auto.
  - intros n s m [Hin|Hin] Hm; cbn in Hin.
    + now apply (validate_struct_inv p s (VS' _ _ Hin)).
    + now apply (validate_struct_inv p s (VM' _ _ Hin)).
  - intros n e Hin; destruct (EE n e Hin) as (_ & spec & Hi).
    apply enum_init_inv in Hi as (_ & ? & ? & _).
    pose proof (validate_enum_inv p e (VE' _ _ Hin)) as (_ & ? & _); auto.
  - intros n e v Hin Hv; pose proof (validate_enum_inv p e (VE' _ _ Hin)) as (_ & _ & _ & _ & Hs).
    destruct (Hs v Hv) as (Q1 & Q2 & Q3); split; [assumption|].
    rewrite is_struct_mem, is_message_mem, Q2, Q3; split; discriminate.
  - intros n e Hin; destruct (EE n e Hin) as (_ & spec & Hi).
    now apply enum_init_inv in Hi as (_ & _ & _ & ?).
  - tauto.
  - tauto.
Qed.

Lemma accepted_WF p : accepted p -> WF p.
Proof. intros (fuel & data & W & H); eapply load_WF; eassumption. Qed.
