(** The reference reader accepts exactly the encodings. *)
From Verif Require Export Dec WireFacts CodecSpec.
Open Scope list_scope.

(** ** Positions in the input *)

Lemma skipn_plus {A} m n (l : list A) : skipn (m + n) l = skipn n (skipn m l).
Proof.
  revert l; induction m as [|m IH]; intro l; [reflexivity|].
  destruct l as [|x l]; [now rewrite !skipn_nil|cbn; apply IH].
Qed.

Lemma at_next {A} (l : list A) pos a b : skipn pos l = a ++ b -> skipn (pos + List.length a) l = b.
Proof. intro H; rewrite skipn_plus, H; apply skipn_app_exact. Qed.

Lemma bytes_at_spec inp pos n bs : (0 < n)%nat ->
  bytes_at inp pos n = Some bs <-> exists rest, skipn pos inp = bs ++ rest /\ List.length bs = n.
Proof.
  intro P; unfold bytes_at; split.
  - destruct (Nat.leb_spec (pos + n) (List.length inp)) as [L|L]; [|discriminate]; intros [= <-].
    exists (skipn n (skipn pos inp)); split; [now rewrite firstn_skipn|].
    rewrite firstn_length, skipn_length; lia.
  - intros (rest & E & L).
    assert (X : List.length (skipn pos inp) = (n + List.length rest)%nat) by (rewrite E, app_length; lia).
    rewrite skipn_length in X.
    destruct (Nat.leb_spec (pos + n) (List.length inp)); [|lia].
    rewrite E; subst n; now rewrite firstn_app_exact.
Qed.

Lemma bytes_at_0 inp pos : (pos <= List.length inp)%nat -> bytes_at inp pos 0 = Some [].
Proof. intro H; unfold bytes_at; destruct (Nat.leb_spec (pos + 0) (List.length inp)); [reflexivity|lia]. Qed.

Lemma bytes_at_ge inp pos n : (pos <= List.length inp)%nat -> forall bs,
  bytes_at inp pos n = Some bs <-> exists rest, skipn pos inp = bs ++ rest /\ List.length bs = n.
Proof.
  intros H bs; destruct n as [|n]; [|apply bytes_at_spec; lia].
  rewrite bytes_at_0 by assumption; split.
  - intros [= <-]; exists (skipn pos inp); auto.
  - intros (rest & E & L); destruct bs; [reflexivity|discriminate].
Qed.

Lemma at_length {A} (l : list A) pos a b : skipn pos l = a ++ b -> a <> [] -> (pos + List.length a <= List.length l)%nat.
Proof.
  intros E N; assert (X := f_equal (@List.length _) E); rewrite skipn_length, app_length in X.
  destruct a; [congruence|cbn in *; lia].
Qed.

(** ** Numbers *)

Lemma num_val_spec k v bs : wire_num reading k v bs <-> List.length bs = num_size k /\ v = num_val k bs.
Proof.
  split.
  - intro H; split; [eapply wire_num_length; eassumption|].
    inversion H as [? z ? NB L R E| |b B]; subst.
    + unfold num_val; destruct k; try congruence; cbn [num_min num_max] in R; rewrite E;
        try (f_equal; symmetry; apply Z.mod_small; cbn [num_size]; cbn; lia);
        f_equal; symmetry; apply to_signed_mod; cbn; lia.
    + reflexivity.
    + cbn in B; cbn [num_val]; do 2 f_equal; cbn [le_val]; symmetry; apply negb_true_iff, Z.eqb_neq.
      intro Z; apply B; apply Z_of_byte_inj; change (Z_of_byte x00) with 0; lia.
  - intros [L ->]; pose proof (le_val_range bs) as R; rewrite L in R.
    assert (I : k <> NBool -> k <> NI16 -> k <> NI32 -> k <> NI64 -> wire_num reading k (VInt (le_val bs)) bs).
    { intros; constructor; auto; [destruct k; try congruence; cbn in *; lia|now rewrite Z.mod_small]. }
    assert (G : k = NI16 \/ k = NI32 \/ k = NI64 -> wire_num reading k (VInt (to_signed (num_size k) (le_val bs))) bs).
    { intro C; destruct (to_signed_range (num_size k) (le_val bs)) as [B M]; [destruct C as [->|[->| ->]]; cbn; lia|assumption|].
      constructor; [destruct C as [->|[->| ->]]; discriminate|assumption| |congruence].
      destruct C as [->|[->| ->]]; cbn in *; lia. }
    destruct k; cbn [num_val]; try (apply I; discriminate); try (apply G; tauto).
    destruct bs as [|b [|c bs]]; try discriminate; cbn [le_val]; rewrite Z.mul_0_r, Z.add_0_r.
    destruct (Z.eqb_spec (Z_of_byte b) 0) as [E|E]; cbn [negb].
    + replace b with x00 by (apply Z_of_byte_inj; rewrite E; reflexivity); constructor.
    + constructor; cbn; intros ->; apply E; reflexivity.
Qed.

Lemma read_num_got k inp pos v pos' :
  read_num k inp pos = Got v pos' <->
  exists bs rest, skipn pos inp = bs ++ rest /\ wire_num reading k v bs /\ pos' = (pos + List.length bs)%nat.
Proof.
  unfold read_num; split.
  - destruct (bytes_at inp pos (num_size k)) as [bs|] eqn:B; [|discriminate]; intros [= <- <-].
    apply bytes_at_spec in B as (rest & E & L); [|apply num_size_pos].
    exists bs, rest; split; [assumption|split; [now apply num_val_spec|congruence]].
  - intros (bs & rest & E & N & ->); apply num_val_spec in N as [L ->].
    rewrite (proj2 (bytes_at_spec inp pos (num_size k) bs (num_size_pos k))) by eauto.
    now rewrite L.
Qed.

Lemma read_num_cases k inp pos :
  (exists v, read_num k inp pos = Got v (pos + num_size k)) \/ read_num k inp pos = Miss pos.
Proof. unfold read_num; destruct (bytes_at _ _ _); [left; eauto|now right]. Qed.

Lemma wire_num_vint md k z bs : wire_num md k (VInt z) bs -> num_min k <= z <= num_max k.
Proof. intro H; inversion H; auto. Qed.

Lemma integral_vint md k v bs : k <> NBool -> wire_num md k v bs -> exists z, v = VInt z.
Proof. intros N H; inversion H; subst; eauto; congruence. Qed.

(** ** Text conversion *)

Definition fields_texted f := Forall2 (fun a b : string * val => fst a = fst b /\ texted f (snd a) (snd b)).

Lemma wire_num_texted md k v bs f : wire_num md k v bs -> texted f v v.
Proof. intro H; inversion H; constructor. Qed.

Lemma texted_num md k v v' bs f : wire_num md k v bs -> texted f v v' -> v = v'.
Proof. intros H T; inversion H; subst; inversion T; reflexivity. Qed.

(** ** The reference reader *)

Section Facts.
Variable str : protocol -> list byte -> nat -> got (list byte).
Variable len : string -> Z -> got unit.
Variable enums : enum -> Z -> option Z.
Variable txt : list byte -> option (list byte).
Variable p : protocol.
Hypothesis W : WF p.

(** The string reader accepts exactly encoded strings whose bytes [txt] accepts. *)
Definition str_reads : Prop := forall inp pos s pos',
  str p inp pos = Got s pos' <->
  exists lb raw rest, skipn pos inp = lb ++ raw ++ rest /\
    wire_size reading (p_string_size_type p) (List.length raw) lb /\
    pos' = (pos + List.length lb + List.length raw)%nat /\ txt raw = Some s.

(** No negative list length is accepted. *)
Definition len_ok : Prop := forall t z, z < 0 ->
  (exists k, num_of (p_list_size_type p) = Some k /\ num_min k <= z <= num_max k) ->
  forall a b, len t z <> Got a b.

(** Declared numbers of enums are let through; no others are. *)
Definition enums_kept : Prop := forall t e z, In (t, e) (p_enums p) -> In z (map snd (e_values e)) ->
  enums e z = Some z.
Definition enums_only : Prop := forall t e z z', In (t, e) (p_enums p) -> enums e z = Some z' ->
  z' = z /\ In z (map snd (e_values e)).

Lemma find_declares t s : declares p t s -> find_struct p t = Some s.
Proof.
  intros [D|D]; unfold find_struct.
  - now rewrite (In_lookup _ _ _ (wf_structs_nodup p W) D).
  - rewrite (proj2 (lookup_None t (p_structs p))).
    + now apply In_lookup; [apply W|].
    + intro H; apply in_map_iff in H as ([t' s'] & E & H); cbn in E; subst t'.
      destruct (wf_disjoint p W t) as [X _]; apply X; split; eexists; eassumption.
Qed.

Lemma declares_find t s : find_struct p t = Some s -> declares p t s.
Proof.
  unfold find_struct; destruct (lookup t (p_structs p)) eqn:L.
  - intros [= <-]; left; now apply lookup_In.
  - intro H; right; now apply lookup_In.
Qed.

Lemma list_size_num : exists k, num_of (p_list_size_type p) = Some k /\ k <> NBool.
Proof. destruct (integral_num _ (wf_list_size p W)) as (k & K & N & _); eauto. Qed.
Lemma string_size_num : exists k, num_of (p_string_size_type p) = Some k /\ k <> NBool.
Proof. destruct (integral_num _ (wf_string_size p W)) as (k & K & N & _); eauto. Qed.

Notation dec := (dec str len enums p).

Section Forward.
Hypothesis STR : forall inp pos s lb raw rest, skipn pos inp = lb ++ raw ++ rest ->
  wire_size reading (p_string_size_type p) (List.length raw) lb -> txt raw = Some s ->
  str p inp pos = Got s (pos + List.length lb + List.length raw).
Hypothesis ENUMS : enums_kept.
(** Lists of these lengths can be made. *)
Variable sized : nat -> Prop.
Hypothesis LEN : forall t n, sized n -> exists a b, len t (Z.of_nat n) = Got a b.

Lemma dec_forward :
  (forall t v0 bs, wire_in reading p t v0 bs -> forall v inp pos rest fuel, lists sized v0 ->
     skipn pos inp = bs ++ rest -> texted txt v0 v -> fits_any p fuel t = true ->
     dec inp fuel t pos = ROk v (pos + List.length bs)) /\
  (forall ms fs0 bs, wire_members reading p ms fs0 bs -> forall fs inp pos rest fuel, (forall n v, In (n, v) fs0 -> lists sized v) ->
     skipn pos inp = bs ++ rest -> fields_texted txt fs0 fs ->
     (forall m, In m ms -> fits_any p fuel (v_type m) = true) ->
     dec_members len p inp (dec inp fuel) ms pos = ROk fs (pos + List.length bs)) /\
  (forall m v0 bs, wire_member reading p m v0 bs -> forall v inp pos rest fuel, lists sized v0 ->
     skipn pos inp = bs ++ rest -> texted txt v0 v -> fits_any p fuel (v_type m) = true ->
     dec_member len p inp (dec inp fuel) m pos = ROk v (pos + List.length bs)) /\
  (forall t vs0 bs, wire_elems reading p t vs0 bs -> forall vs inp pos rest fuel, (forall v, In v vs0 -> lists sized v) ->
     skipn pos inp = bs ++ rest -> Forall2 (texted txt) vs0 vs -> fits_any p fuel t = true ->
     dec_elems (dec inp fuel) t (List.length vs0) pos = ROk vs (pos + List.length bs)).
Proof.
  assert (NUM : forall inp k v bs rest pos, wire_num reading k v bs -> skipn pos inp = bs ++ rest ->
            dec_num inp k pos = ROk v (pos + List.length bs)).
  { intros inp k v bs rest pos N E; unfold dec_num.
    rewrite (proj2 (read_num_got k inp pos v (pos + List.length bs))) by eauto; reflexivity. }
  apply wire_mutind.
  - intros t k v bs K N v' inp pos rest fuel LS E T F; rewrite <- (texted_num _ _ _ _ _ _ N T).
    destruct fuel; cbn [Dec.dec]; rewrite K; eapply NUM; eassumption.
  - intros s lb L v' inp pos rest fuel LS E T F; inversion T as [| |? s' TX| |]; subst.
    rewrite <- app_assoc in E.
    assert (X := STR _ _ _ _ _ _ E L TX).
    destruct fuel; cbn [Dec.dec num_of lookup]; cbn; rewrite X; cbn [got_res]; rewrite app_length; f_equal; lia.
  - intros t e k z bs EN K M N v' inp pos rest fuel LS E T F; rewrite <- (texted_num _ _ _ _ _ _ N T).
    destruct (enum_not_num p W t e EN) as (A & B & _); apply String.eqb_neq in B.
    assert (L := In_lookup _ _ _ (wf_enums_nodup p W) EN).
    destruct fuel; cbn [Dec.dec]; rewrite A, B, L; unfold dec_enum; rewrite K, (NUM _ _ _ _ _ _ N E); cbn [rbind];
      (destruct M as [M|M]; [discriminate|]); rewrite (ENUMS t e z EN M); reflexivity.
  - intros t s fs bs D _ IH v' inp pos rest fuel LS E T F; inversion LS as [| | | | |? LF]; subst; inversion T as [| | | |? fs' TF]; subst.
    destruct (declares_not_num p W t s D) as (A & B & C); apply String.eqb_neq in B.
    destruct (fits_any_members p fuel t s W D F) as (f & -> & FM).
    cbn [Dec.dec]; rewrite A, B, (find_declares t s D).
    destruct (lookup t (p_enums p)) as [e|] eqn:L; [apply lookup_In in L; now apply C in L|].
    rewrite (IH fs' inp pos rest f LF E TF FM); reflexivity.
  - intros fs inp pos rest fuel LS E T F; inversion T; subst; cbn; f_equal; lia.
  - intros m ms v0 fs0 a b _ IHa _ IHb fs inp pos rest fuel LS E T F; inversion T as [|? [n v] ? fs' [N TV] TF]; subst.
    cbn in N, TV; subst n; rewrite <- app_assoc in E.
    cbn [dec_members]; rewrite (IHa v inp pos _ fuel (LS _ _ (or_introl eq_refl)) E TV) by (apply F; now left); cbn [rbind].
    rewrite (IHb fs' inp _ rest fuel (fun n w I => LS n w (or_intror I)) (at_next _ _ _ _ E) TF) by (intros; apply F; now right); cbn [rbind].
    rewrite app_length; f_equal; lia.
  - intros m v0 bs L _ IH v inp pos rest fuel LS E T F; unfold dec_member; rewrite L; eapply IH; eassumption.
  - intros m vs lb bs L S _ IH v inp pos rest fuel LS E T F; inversion LS as [| | | |? LN LF|]; subst; inversion T as [| | |? vs' TV|]; subst.
    rewrite <- app_assoc in E.
    unfold dec_member, dec_list; rewrite L; destruct S as (k & K & N); rewrite K, (NUM _ _ _ _ _ _ N E); cbn [rbind].
    destruct (LEN (v_type m) (List.length vs) LN) as (x & y & ->).
    rewrite Nat2Z.id, (IH vs' inp _ rest fuel LF (at_next _ _ _ _ E) TV F); cbn [rbind].
    rewrite app_length; f_equal; lia.
  - intros t vs inp pos rest fuel LS E T F; inversion T; subst; cbn; f_equal; lia.
  - intros t v0 vs0 a b _ IHa _ IHb vs inp pos rest fuel LS E T F; inversion T as [|? v ? vs' TV TF]; subst.
    rewrite <- app_assoc in E.
    cbn [dec_elems List.length]; rewrite (IHa v inp pos _ fuel (LS _ (or_introl eq_refl)) E TV F); cbn [rbind].
    rewrite (IHb vs' inp _ rest fuel (fun w I => LS w (or_intror I)) (at_next _ _ _ _ E) TF F); cbn [rbind].
    rewrite app_length; f_equal; lia.
Qed.
End Forward.

Section Backward.
Hypothesis STR : forall inp pos s pos', str p inp pos = Got s pos' ->
  exists lb raw rest, skipn pos inp = lb ++ raw ++ rest /\
    wire_size reading (p_string_size_type p) (List.length raw) lb /\
    pos' = (pos + List.length lb + List.length raw)%nat /\ txt raw = Some s.
Hypothesis LEN : len_ok.
Hypothesis ENUMS : enums_only.

Definition comes_from (inp : list byte) (t : string) (pos : nat) (v : val) (pos' : nat) : Prop :=
  exists v0 bs rest, skipn pos inp = bs ++ rest /\ pos' = (pos + List.length bs)%nat /\
    wire_in reading p t v0 bs /\ texted txt v0 v.

Lemma dec_num_ok inp k pos v pos' : dec_num inp k pos = ROk v pos' ->
  exists bs rest, skipn pos inp = bs ++ rest /\ wire_num reading k v bs /\ pos' = (pos + List.length bs)%nat.
Proof.
  unfold dec_num; destruct (read_num k inp pos) as [w q| |] eqn:R; try discriminate.
  intros [= <- <-]; now apply read_num_got.
Qed.

Lemma dec_elems_back inp rd t : (forall pos v pos', rd t pos = ROk v pos' -> comes_from inp t pos v pos') ->
  forall n pos vs pos', dec_elems rd t n pos = ROk vs pos' ->
  exists vs0 bs rest, skipn pos inp = bs ++ rest /\ pos' = (pos + List.length bs)%nat /\
    wire_elems reading p t vs0 bs /\ Forall2 (texted txt) vs0 vs /\ List.length vs0 = n.
Proof.
  intro H; induction n as [|n IH]; intros pos vs pos'; cbn [dec_elems].
  - intros [= <- <-]; exists [], [], (skipn pos inp); repeat split; [cbn; lia|constructor|constructor].
  - destruct (rd t pos) as [v q| | | |] eqn:R; try discriminate; cbn [rbind].
    destruct (dec_elems rd t n q) as [vs' q'| | | |] eqn:R'; try discriminate; cbn [rbind]; intros [= <- <-].
    destruct (H _ _ _ R) as (v0 & a & ra & Ea & -> & Wa & Ta).
    destruct (IH _ _ _ R') as (vs0 & b & rb & Eb & -> & Wb & Tb & L).
    pose proof (at_next _ _ _ _ Ea) as X; rewrite X in Eb; subst ra.
    exists (v0 :: vs0), (a ++ b), rb; repeat split.
    + now rewrite <- app_assoc.
    + rewrite app_length; lia.
    + now constructor.
    + now constructor.
    + cbn; lia.
Qed.

Lemma dec_member_back inp rd m : (forall pos v pos', rd (v_type m) pos = ROk v pos' -> comes_from inp (v_type m) pos v pos') ->
  forall pos v pos', dec_member len p inp rd m pos = ROk v pos' ->
  exists v0 bs rest, skipn pos inp = bs ++ rest /\ pos' = (pos + List.length bs)%nat /\
    wire_member reading p m v0 bs /\ texted txt v0 v.
Proof.
  intros H pos v pos'; unfold dec_member; destruct (v_list m) eqn:L.
  - unfold dec_list; destruct list_size_num as (k & K & NB); rewrite K.
    destruct (dec_num inp k pos) as [n q| | | |] eqn:R; try discriminate; cbn [rbind].
    destruct n as [z| | | | |]; try discriminate.
    destruct (len (v_type m) z) eqn:LZ; try discriminate.
    destruct (dec_elems rd (v_type m) (Z.to_nat z) q) as [vs q'| | | |] eqn:R'; try discriminate; cbn [rbind]; intros [= <- <-].
    destruct (dec_num_ok _ _ _ _ _ R) as (lb & ra & Ea & N & ->).
    destruct (dec_elems_back inp rd _ H _ _ _ _ R') as (vs0 & b & rb & Eb & -> & Wb & Tb & LL).
    pose proof (at_next _ _ _ _ Ea) as X; rewrite X in Eb; subst ra.
    assert (Z0 : 0 <= z).
    { destruct (Z_lt_le_dec z 0) as [Z0|Z0]; [|assumption]; exfalso.
      apply (LEN (v_type m) z Z0) in LZ; [assumption|exists k; split; [assumption|eapply wire_num_vint; eassumption]]. }
    exists (VList vs0), (lb ++ b), rb; repeat split.
    + now rewrite <- app_assoc.
    + rewrite app_length; lia.
    + constructor; [assumption| |assumption].
      exists k; split; [assumption|]; rewrite LL, Z2Nat.id; assumption.
    + now constructor.
  - intro R; destruct (H _ _ _ R) as (v0 & a & ra & Ea & -> & Wa & Ta).
    exists v0, a, ra; repeat split; auto; now constructor.
Qed.

Lemma dec_members_back inp rd ms :
  (forall m, In m ms -> forall pos v pos', rd (v_type m) pos = ROk v pos' -> comes_from inp (v_type m) pos v pos') ->
  forall pos fs pos', dec_members len p inp rd ms pos = ROk fs pos' ->
  exists fs0 bs rest, skipn pos inp = bs ++ rest /\ pos' = (pos + List.length bs)%nat /\
    wire_members reading p ms fs0 bs /\ fields_texted txt fs0 fs.
Proof.
  induction ms as [|m ms IH]; intros H pos fs pos'; cbn [dec_members].
  - intros [= <- <-]; exists [], [], (skipn pos inp); repeat split; [cbn; lia|constructor|constructor].
  - destruct (dec_member len p inp rd m pos) as [v q| | | |] eqn:R; try discriminate; cbn [rbind].
    destruct (dec_members len p inp rd ms q) as [fs' q'| | | |] eqn:R'; try discriminate; cbn [rbind]; intros [= <- <-].
    destruct (dec_member_back inp rd m (H m (or_introl eq_refl)) _ _ _ R) as (v0 & a & ra & Ea & -> & Wa & Ta).
    destruct (IH (fun m' I => H m' (or_intror I)) _ _ _ R') as (fs0 & b & rb & Eb & -> & Wb & Tb).
    pose proof (at_next _ _ _ _ Ea) as X; rewrite X in Eb; subst ra.
    exists ((v_name m, v0) :: fs0), (a ++ b), rb; repeat split.
    + now rewrite <- app_assoc.
    + rewrite app_length; lia.
    + now constructor.
    + constructor; [cbn; auto|assumption].
Qed.

Lemma dec_back inp fuel t pos v pos' : dec inp fuel t pos = ROk v pos' -> comes_from inp t pos v pos'.
Proof.
  revert t pos v pos'; induction fuel as [|f IH]; intros t pos v pos'; cbn [Dec.dec].
  all: destruct (num_of t) as [k|] eqn:K;
    [intro R; destruct (dec_num_ok _ _ _ _ _ R) as (bs & rest & E & N & ->);
     exists v, bs, rest; repeat split; [assumption|econstructor; eassumption|eapply wire_num_texted; eassumption]|].
  all: destruct (String.eqb_spec t "string") as [->|NS];
    [destruct (str p inp pos) as [s q| |] eqn:S; try discriminate; cbn [got_res]; intros [= <- <-];
     apply STR in S as (lb & raw & rest & E & L & -> & T);
     exists (VStr raw), (lb ++ raw), rest; repeat split;
       [now rewrite <- app_assoc|rewrite app_length; lia|now constructor|now constructor]|].
  all: destruct (lookup t (p_enums p)) as [e|] eqn:EN.
  1,3: unfold dec_enum; destruct (num_of (e_encoding e)) as [k|] eqn:KE; [|discriminate];
     destruct (dec_num inp k pos) as [n q| | | |] eqn:R; try discriminate; cbn [rbind];
     destruct n as [z| | | | |]; try discriminate; destruct (enums e z) as [z'|] eqn:X; [|discriminate]; intros [= <- <-];
     destruct (dec_num_ok _ _ _ _ _ R) as (bs & rest & E & N & ->);
     apply (ENUMS t e) in X as [-> X]; [|eapply lookup_In; eassumption];
     exists (VInt z), bs, rest; repeat split; [assumption| |constructor];
     eapply w_enum; [eapply lookup_In; eassumption|eassumption|now right|assumption].
  all: destruct (find_struct p t) as [s|] eqn:FS; [|discriminate].
  1: discriminate.
  destruct (dec_members len p inp (dec inp f) (s_members s) pos) as [fs q| | | |] eqn:R; try discriminate.
  cbn [rbind]; intros [= <- <-].
  apply dec_members_back in R as (fs0 & bs & rest & E & -> & Wf & Tf); [|intros; now apply IH].
  exists (VStruct fs0), bs, rest; repeat split; [assumption| |now constructor].
  eapply w_struct; [eapply declares_find; eassumption|assumption].
Qed.
End Backward.

(** ** The reference reader always gives an answer *)

Section Total.
Variable trap : bool.
Variable inp : list byte.
Hypothesis STR : forall pos, str p inp pos = Crash -> trap = true.
Hypothesis LENT : forall t z, (exists k, num_of (p_list_size_type p) = Some k /\ num_min k <= z <= num_max k) ->
  len t z = Crash -> trap = true.

Lemma rbind_answers {A B} (r : res A) (k : A -> nat -> res B) :
  answers trap r -> (forall a pos, r = ROk a pos -> answers trap (k a pos)) -> answers trap (rbind r k).
Proof. destruct r; cbn; auto. Qed.

Lemma dec_num_answers k pos : answers trap (dec_num inp k pos).
Proof. unfold dec_num; destruct (read_num_cases k inp pos) as [[v ->]| ->]; exact I. Qed.

Lemma dec_members_answers rd ms : (forall m, In m ms -> forall pos, answers trap (rd (v_type m) pos)) ->
  forall pos, answers trap (dec_members len p inp rd ms pos).
Proof.
  induction ms as [|m ms IH]; intros H pos; cbn [dec_members]; [exact I|].
  apply rbind_answers.
  - unfold dec_member; destruct (v_list m); [|apply H; now left].
    unfold dec_list; destruct list_size_num as (k & K & NB); rewrite K.
    apply rbind_answers; [apply dec_num_answers|]; intros n q R.
    destruct (dec_num_ok _ _ _ _ _ R) as (lb & ra & Ea & N & ->).
    destruct (integral_vint _ _ _ _ NB N) as [z ->].
    destruct (len (v_type m) z) eqn:L; cbn; auto.
    + apply rbind_answers; [|intros; exact I].
      generalize (pos + List.length lb)%nat; induction (Z.to_nat z) as [|j IHj]; intro q; cbn [dec_elems]; [exact I|].
      apply rbind_answers; [apply H; now left|]; intros; apply rbind_answers; [apply IHj|intros; exact I].
    + eapply LENT; [|eassumption]; exists k; split; [assumption|eapply wire_num_vint; eassumption].
  - intros; apply rbind_answers; [apply IH; intros; apply H; now right|intros; exact I].
Qed.

Lemma dec_answers fuel t pos : declared_type p t \/ is_message_name p t ->
  fits_any p fuel t = true -> answers trap (dec inp fuel t pos).
Proof.
  revert t pos; induction fuel as [|f IH]; intros t pos KT F; cbn [Dec.dec].
  all: destruct (num_of t) as [k|] eqn:K; [apply dec_num_answers|].
  all: destruct (String.eqb_spec t "string") as [->|NS];
    [destruct (str p inp pos) eqn:S; cbn; auto; eapply STR; eassumption|].
  all: destruct (lookup t (p_enums p)) as [e|] eqn:EN.
  1,3: unfold dec_enum; destruct (enum_encoding_num p W t e (lookup_In _ _ _ EN)) as (k & KE & NB & _); rewrite KE;
    apply rbind_answers; [apply dec_num_answers|]; intros n q R;
    destruct (dec_num_ok _ _ _ _ _ R) as (lb & ra & Ea & N & ->);
    destruct (integral_vint _ _ _ _ NB N) as [z ->]; destruct (enums e z); exact I.
  all: assert (D : exists s, declares p t s) by
    (destruct KT as [[B|[B|[[s B]|[e B]]]]|[s B]];
      [apply num_of_base in B as [k B]; congruence|congruence|exists s; now left
      |apply lookup_None in EN; exfalso; apply EN, in_map_iff; now exists (t, e)|exists s; now right]);
    destruct D as [s D]; rewrite (find_declares t s D);
    destruct (fits_any_members p _ t s W D F) as (f' & EF & FM).
  1: discriminate.
  injection EF as <-.
  apply rbind_answers; [|intros; exact I].
  apply dec_members_answers; intros m Hm q; apply IH; [|now apply FM].
  left; eapply (wf_member_types p W); eassumption.
Qed.
End Total.
End Facts.
