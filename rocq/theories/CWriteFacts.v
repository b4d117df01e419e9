(** The writers and size functions of generated C code. *)
From Verif Require Export CStreamFacts.
Open Scope Z_scope.
Open Scope list_scope.

Lemma nth_firstn {A} n : forall (l : list A) i x, nth_error (firstn n l) i = Some x -> nth_error l i = Some x.
Proof.
  induction n as [|n IH]; intros [|a l] [|i] x; cbn; try discriminate; auto.
Qed.
Lemma nth_combine {A B} : forall (a : list A) (b : list B) i x y, nth_error (combine a b) i = Some (x, y) ->
  nth_error a i = Some x /\ nth_error b i = Some y.
Proof.
  induction a as [|u a IH]; intros [|w b] [|i] x y; cbn; try discriminate; auto.
  intros [= -> ->]; auto.
Qed.
Lemma collect_nth {A B} (f : A -> option B) : forall l vs i v, collect f l = Some vs -> nth_error vs i = Some v ->
  exists a, nth_error l i = Some a /\ f a = Some v.
Proof.
  induction l as [|a l IH]; intros vs i v; cbn [collect]; [intros [= <-]; destruct i; discriminate|].
  destruct (f a) as [b|] eqn:F; [|discriminate]; destruct (collect f l) as [bs|]; [|discriminate]; intros [= <-].
  destruct i as [|i]; cbn [nth_error]; [intros [= <-]; eauto|]; eauto.
Qed.

(** A list in an object, element by element. *)
Section Parts.
Variable p : protocol.
Variable sub : string -> cfields -> option val.

Definition one_held (fs : cfields) (x : clv) (i : nat) (t : string) (v : val) : Prop :=
  if String.eqb t "string" then c_text false (c_get (c_len_of x) i fs) (c_get x i fs) = Some v
  else exists c, c_get x i fs = Some c /\ c_cell p sub t c = Some v.

Lemma text_held len data v : c_text false len data = Some v ->
  exists z b bs, len = Some (CNum (VInt z)) /\ data = Some (CStr b bs) /\ 0 <= z <= Z.of_nat (List.length bs) /\
    v = VStr (firstn (Z.to_nat z) bs).
Proof.
  unfold c_text; destruct len as [[[z| | | | |]| | | | |]|]; try discriminate; destruct data as [[| b bs| | | |]|]; try discriminate.
  unfold holds; destruct (0 <=? z) eqn:Z0; [|discriminate]; cbn [andb negb orb]; rewrite !andb_true_r.
  destruct (z <=? _) eqn:Z1; [|discriminate]; intros [= <-]; exists z, b, bs; repeat split; lia.
Qed.

Lemma list_held fs n t v : c_list false p sub fs n t = Some v ->
  exists vs, v = VList vs /\ c_int (c_len n) fs = Some (Z.of_nat (List.length vs)) /\
    forall i x, nth_error vs i = Some x -> one_held fs (LElem n) i t x.
Proof.
  unfold c_list, one_held; destruct (c_int (c_len n) fs) as [z|]; [|discriminate]; cbn [negb andb].
  destruct (Z.eqb_spec z 0) as [->|NZ].
  { intros [= <-]; exists []; split; [reflexivity|]; split; [reflexivity|]; intros [|i]; discriminate. }
  destruct (lookup n fs) as [[| |b cells| | |]|] eqn:L; try discriminate.
  unfold holds; destruct (0 <=? z) eqn:Z0; [|discriminate]; cbn [andb].
  destruct (z <=? Z.of_nat (List.length cells)) eqn:Z1; [|discriminate].
  destruct (String.eqb t "string").
  - destruct (lookup (c_els_len n) fs) as [[| |b' ls| | |]|] eqn:L'; try discriminate.
    destruct (z <=? Z.of_nat (List.length ls)) eqn:Z2; [|discriminate].
    destruct (collect _ _) as [vs|] eqn:C; [|discriminate]; intros [= <-]; exists vs; split; [reflexivity|]; split.
    + f_equal; apply collect_length in C; rewrite combine_length, !firstn_length in C; lia.
    + intros i x N; destruct (collect_nth _ _ _ _ _ C N) as ([l c] & NC & T); cbn [fst snd] in T.
      apply nth_combine in NC as [N1 N2]; apply nth_firstn in N1, N2.
      cbn [c_len_of c_get]; now rewrite L, L', N1, N2.
  - destruct (collect _ _) as [vs|] eqn:C; [|discriminate]; intros [= <-]; exists vs; split; [reflexivity|]; split.
    + f_equal; apply collect_length in C; rewrite firstn_length in C; lia.
    + intros i x N; destruct (collect_nth _ _ _ _ _ C N) as (c & NC & T); apply nth_firstn in NC.
      exists c; cbn [c_get]; now rewrite L.
Qed.

Lemma member_held fs m v : v_list m = false -> c_member false p sub fs m = Some v -> one_held fs (LField (v_name m)) 0 (v_type m) v.
Proof.
  intro VL; unfold c_member, one_held; rewrite VL; destruct (String.eqb (v_type m) "string"); [auto|].
  cbn [c_get]; destruct (lookup (v_name m) fs) as [c|]; [|discriminate]; eauto.
Qed.
Lemma struct_held fs x i t v : mem t (p_structs p) = true -> String.eqb t "string" = false -> one_held fs x i t v ->
  exists fs', c_get x i fs = Some (CStruct fs') /\ sub t fs' = Some v.
Proof.
  intros S NS; unfold one_held; rewrite NS; intros (c & G & C); unfold c_cell in C; rewrite S in C.
  destruct c as [| | | |fs'|]; try discriminate; eauto.
Qed.
Lemma num_held fs x i t v : mem t (p_structs p) = false -> String.eqb t "string" = false -> one_held fs x i t v ->
  c_get x i fs = Some (CNum v).
Proof.
  intros S NS; unfold one_held; rewrite NS; intros (c & G & C); unfold c_cell in C; rewrite S in C.
  destruct c as [| | | |fs'|]; try discriminate; now injection C as <-.
Qed.
End Parts.

Lemma value_struct p n t s fs v : WF p -> declares p t s -> c_value false p (S n) t fs = Some v ->
  exists vs, v = VStruct vs /\ collect (fun m => option_map (pair (v_name m)) (c_member false p (c_value false p n) fs m)) (s_members s) = Some vs.
Proof.
  intros W D; cbn [c_value]; rewrite (find_declares p W t s D).
  destruct (collect _ _) as [vs|]; [|discriminate]; intros [= <-]; eauto.
Qed.
Lemma members_held {A} (f : A -> option val) (name : A -> string) a r vs :
  collect (fun m => option_map (pair (name m)) (f m)) (a :: r) = Some vs ->
  exists v vs', vs = (name a, v) :: vs' /\ f a = Some v /\ collect (fun m => option_map (pair (name m)) (f m)) r = Some vs'.
Proof.
  cbn [collect]; destruct (f a) as [v|]; [|discriminate]; cbn [option_map].
  destruct (collect _ r) as [vs'|]; [|discriminate]; intros [= <-]; eauto.
Qed.

(** ** Writing *)

Section Write.
Variable p : protocol.
Hypothesis W : WF p.

Notation writes := (writes c_wt).

Section Code.
Variable call : string -> cfields -> wstate -> wout.
Variable sub : string -> cfields -> option val.
Hypothesis CALL : forall t s fs v bs, declares p t s -> sub t fs = Some v -> wire p t v bs -> writes (call t fs) bs.

Notation pexec := (pexec p call).
Notation pexec_stmt := (pexec_stmt p call).

Lemma pexec_one a fs i w : pexec [a] fs i w = pexec_stmt a fs i w.
Proof. cbn [C.pexec]; destruct (pexec_stmt a fs i w); reflexivity. Qed.
Lemma pexec_app a b fs i w : pexec (a ++ b) fs i w = wbind (pexec a fs i w) (pexec b fs i).
Proof.
  revert w; induction a as [|x a IH]; intro w; cbn [List.app C.pexec]; [reflexivity|].
  rewrite wbind_assoc; apply wbind_ext, IH.
Qed.

Fixpoint ploop (body : list pstmt) (fs : cfields) (k j : nat) (w : wstate) : wout :=
  match k with O => WDone w | S k' => wbind (pexec body fs j w) (ploop body fs k' (S j)) end.
Lemma pexec_for n body fs i w z : c_int n fs = Some z ->
  pexec_stmt (PFor n body) fs i w = ploop body fs (Z.to_nat z) 0 w.
Proof.
  intro E; cbn [C.pexec_stmt]; rewrite E; clear E; generalize (Z.to_nat z) as k, 0%nat as j.
  intros k; revert w; induction k as [|k IH]; intros w j; cbn [ploop]; [reflexivity|].
  match goal with |- wbind (?g body w) _ = _ => assert (G : forall l w, g l w = pexec l fs j w) end.
  { intro l; induction l as [|a l IHl]; intro w0; cbn [C.pexec]; [reflexivity|].
    apply wbind_ext; exact IHl. }
  rewrite G; apply wbind_ext; intro w'; apply IH.
Qed.

Lemma c_put_fixed z data w : 0 <= z <= Z.of_nat (List.length data) -> c_put z data w = put_fixed (firstn (Z.to_nat z) data) w.
Proof.
  intro B; unfold c_put; replace (z <? 0) with false by lia; replace (z <=? _) with true by lia.
  destruct (_ <? _) eqn:L; [|reflexivity]; unfold put_fixed; rewrite firstn_length_le by lia.
  now rewrite (proj2 (Nat.leb_gt _ _)) by lia.
Qed.

Lemma write_one_ok x t fs i v bs : declared_type p t -> one_held p sub fs x i t v -> wire p t v bs ->
  writes (pexec (c_write_one p x t) fs i) bs.
Proof.
  intros D H WI; unfold c_write_one; rewrite !c_prim_num.
  destruct (type_cases p t W D) as [k K MM SS E ES|E1 E _|e k K MM SS IE E KE NB|st K MM SS E L].
  - rewrite SS, E, MM; unfold with_prim; rewrite K.
    eapply writes_ext; [intro w; rewrite pexec_one; cbn [C.pexec_stmt]|exact (writes_num c_wt k v bs (wire_num_inv _ p W t k v bs K WI))].
    rewrite (num_held p sub fs x i t v) by (auto; unfold mem; now rewrite ES); reflexivity.
  - subst t; unfold one_held in H; cbn [String.eqb] in H; change (String.eqb "string" "string") with true in *; cbv iota in *.
    destruct (text_held _ _ _ H) as (z & b & data & G1 & G2 & B & ->).
    apply (wire_str_inv _ p W) in WI as (s & lb & E0 & -> & (k & K & N)); injection E0 as <-.
    rewrite firstn_length_le in N by lia; rewrite Z2Nat.id in N by lia.
    eapply writes_ext; [|apply (writes_bind c_wt _ _ _ _ (writes_num c_wt k _ _ N) (writes_put c_wt (firstn (Z.to_nat z) data)))].
    intro w; rewrite pexec_one; cbn [C.pexec_stmt]; rewrite G1, G2, c_prim_num, K; apply wbind_ext; intro w'; now apply c_put_fixed.
  - rewrite SS, E, c_prim_num; unfold with_prim; rewrite KE.
    destruct (wire_enum_inv _ p W t e _ bs IE WI) as (k' & z & EV & KE' & N & _); rewrite KE in KE'; injection KE' as <-; subst v.
    eapply writes_ext; [intro w; rewrite pexec_one; cbn [C.pexec_stmt]|exact (writes_num c_wt k (VInt z) bs N)].
    rewrite (num_held p sub fs x i t (VInt z)), (wire_int_wrap _ _ _ _ N); auto.
    destruct (mem t (p_structs p)) eqn:X; [|reflexivity]; exfalso; unfold mem in X.
    destruct (lookup t (p_structs p)) as [s|] eqn:LS; [|discriminate]; apply lookup_In in LS.
    destruct (declares_not_num p W t s (or_introl LS)) as (_ & _ & C); now apply C in IE.
  - rewrite SS, E, MM; destruct (struct_held p sub fs x i t v) as (fs' & G & S); auto; [unfold mem; now rewrite L|].
    eapply writes_ext; [intro w; rewrite pexec_one; cbn [C.pexec_stmt]; rewrite G; reflexivity|].
    eapply CALL; [left; eapply lookup_In; exact L|exact S|exact WI].
Qed.

Lemma write_loop body t fs : forall vs bs j, wire_elems strict p t vs bs ->
  (forall i v b, nth_error vs i = Some v -> wire p t v b -> writes (pexec body fs (j + i)) b) ->
  writes (ploop body fs (List.length vs) j) bs.
Proof.
  induction vs as [|v vs IH]; intros bs j H B; inversion H as [|? ? ? a b WI WE]; subst; [apply writes_nil|].
  cbn [List.length ploop]; apply writes_bind.
  - specialize (B 0%nat v a eq_refl WI); now rewrite Nat.add_0_r in B.
  - apply IH; [exact WE|]; intros i x c N WX; specialize (B (S i) x c N WX); now rewrite Nat.add_succ_r in B.
Qed.

Lemma write_member_ok m fs v bs : declared_type p (v_type m) -> c_member false p sub fs m = Some v ->
  wire_member strict p m v bs -> writes (pexec (c_write p m) fs 0) bs.
Proof.
  intros D H WM; unfold c_write; inversion WM as [? ? ? VL WI|? vs lb bs' VL (k & K & N) WE]; subst; rewrite VL.
  - eapply write_one_ok; [exact D|exact (member_held p sub fs m v VL H)|exact WI].
  - rewrite c_prim_num; unfold with_prim; rewrite K.
    unfold c_member in H; rewrite VL in H; apply list_held in H as (vs' & E & CL & EL); injection E as <-.
    apply writes_ext with (g := fun w => wbind (put_num c_wt k (VInt (Z.of_nat (List.length vs))) w)
                                           (ploop (c_write_one p (LElem (v_name m)) (v_type m)) fs (List.length vs) 0)).
    + intro w; remember (PFor _ _) as FOR eqn:EF; cbn [C.pexec C.pexec_stmt c_get]; unfold c_int in CL.
      destruct (lookup (c_len (v_name m)) fs) as [[[z| | | | |]| | | | |]|] eqn:LL; try discriminate; injection CL as ->.
      apply wbind_ext; intro w'; subst FOR; rewrite (pexec_for _ _ _ _ _ (Z.of_nat (List.length vs))).
      * rewrite Nat2Z.id; apply wbind_done.
      * unfold c_int; now rewrite LL.
    + apply writes_bind; [exact (writes_num c_wt k _ lb N)|].
      eapply write_loop; [exact WE|]; intros i x b NE WX; cbn [Nat.add].
      eapply write_one_ok; eauto.
Qed.

Lemma write_members_ok ms : (forall m, In m ms -> declared_type p (v_type m)) -> forall fs vs bs,
  collect (fun m => option_map (pair (v_name m)) (c_member false p sub fs m)) ms = Some vs ->
  wire_members strict p ms vs bs -> writes (pexec (flat_map (c_write p) ms) fs 0) bs.
Proof.
  induction ms as [|m ms IH]; intros D fs vs bs C WM; cbn [flat_map].
  - cbn in C; injection C as <-; inversion WM; subst; apply writes_nil.
  - apply members_held in C as (v & vs' & -> & CM & C); inversion WM as [|? ? ? ? a b W1 W2]; subst.
    eapply writes_ext; [intro w; apply pexec_app|]; apply writes_bind.
    + eapply write_member_ok; [apply D; now left|exact CM|exact W1].
    + apply (IH (fun m' I => D m' (or_intror I)) fs vs' b C W2).
Qed.
End Code.

Lemma c_wrun_ok n : forall t s fs v bs, declares p t s -> c_value false p n t fs = Some v -> wire p t v bs ->
  writes (c_wrun p n t fs) bs.
Proof.
  induction n as [|n IH]; intros t s fs v bs D V WI; [discriminate|].
  destruct (value_struct p n t s fs v W D V) as (vs & -> & C).
  apply (wire_struct_inv _ p W t s _ bs D) in WI as (vs' & E & WM); injection E as <-.
  cbn [c_wrun]; rewrite (find_declares p W t s D).
  eapply write_members_ok; [exact IH|intros m I; exact (wf_member_types p W t s m D I)|exact C|exact WM].
Qed.

Hypothesis COMPILES : c_compiles p = true.

Lemma c_write_ok t s fs v bs : declares p t s -> stands_for p t fs v -> wire p t v bs -> writes (c_write_bytes p t fs) bs.
Proof.
  intros D V WI; eapply writes_ext; [intro w; unfold c_write_bytes; rewrite COMPILES; reflexivity|].
  eapply c_wrun_ok; eassumption.
Qed.

Lemma c_write_tagged_ok m fs bs : message_for p fs m -> wire_tagged strict p m bs -> writes (c_write_tagged p (fst m) fs) bs.
Proof.
  intros [V (n & N & MT)] T; destruct T as [t i v b bs N' B WI]; cbn [fst snd] in *.
  assert (n = i).
  { apply (of_numbered p _ _ W) in N, N'; congruence. }
  subst n; destruct (numbered_declares p t i N) as [s D].
  assert (WN : wire_num strict NByte (VInt i) [b]).
  { pose proof (Z_of_byte_range b); constructor; [discriminate|reflexivity|cbn; lia|].
    cbn [le_val num_size]; rewrite Z.mod_small; cbn; lia. }
  apply writes_ext with (g := fun w => wbind (put_num c_wt NByte (VInt i) w) (c_write_bytes p t fs)).
  - intro w; unfold c_write_tagged; rewrite COMPILES, MT, (wire_int_wrap _ _ _ _ WN); reflexivity.
  - change (b :: bs) with ([b] ++ bs); apply writes_bind; [exact (writes_num c_wt NByte _ [b] WN)|].
    eapply c_write_ok; eassumption.
Qed.

Lemma c_write_message_ok m fs bs : message_for p fs m -> wire_tagged strict p m bs -> writes (c_write_message p fs) bs.
Proof.
  intros V T; eapply writes_ext; [|eapply c_write_tagged_ok; eassumption].
  intro w; unfold c_write_message; destruct V as [_ (n & N & MT)].
  now rewrite (name_of_number p W (fst m) n fs N MT).
Qed.
Lemma c_write_messages_ok ms bs : wire_stream strict p ms bs -> forall fss, Forall2 (message_for p) fss ms ->
  writes (c_write_messages p fss) bs.
Proof.
  induction 1 as [|m ms a b T H IH]; intros fss F; inversion F as [|fs ? fss' ? MF F']; subst; [apply writes_nil|].
  cbn [c_write_messages]; apply writes_bind; [eapply c_write_message_ok; eassumption|now apply IH].
Qed.

(** ** Packing *)

(** Up to the closing zero byte. *)
Definition c_pack_front (fss : list cfields) (w : wstate) : wout :=
  wbind (put_fixed header w) (fun w1 => wbind (put_len c_wt NU32 (List.length fss) w1) (c_write_messages p fss)).

Lemma c_pack_front_ok fss ms nb bs : wire_num strict NU32 (VInt (Z.of_nat (List.length ms))) nb ->
  wire_stream strict p ms bs -> Forall2 (message_for p) fss ms ->
  writes (c_pack_front fss) (header ++ nb ++ bs).
Proof.
  intros N H F; assert (L : List.length fss = List.length ms) by (clear - F; induction F; cbn; congruence).
  apply (writes_bind c_wt (put_fixed header)); [exact (writes_put c_wt header)|].
  apply writes_bind; [|eapply c_write_messages_ok; eassumption].
  eapply writes_ext; [intro w; apply (put_len_ok c_wt NU32 (List.length fss) nb w); rewrite L; exact N|apply writes_put].
Qed.

Lemma c_pack_split fss w : (4 <= List.length (w_buf w))%nat -> w_pos w = 0%nat ->
  c_pack p fss w = wbind (c_pack_front fss w) (fun w3 => match put_num c_wt NByte (VInt 0) w3 with WFail w4 => WDone w4 | o => o end).
Proof.
  intros L Z; unfold c_pack, c_pack_front; rewrite COMPILES, (proj2 (Nat.ltb_ge _ _)) by exact L.
  unfold put_fixed; rewrite Z; change (0 + List.length header)%nat with 4%nat; rewrite (proj2 (Nat.leb_le _ _)) by exact L.
  cbn [wbind]; rewrite wbind_assoc; apply wbind_ext; reflexivity.
Qed.

Lemma packed_inv ms bs : wire_packed strict p ms bs -> exists nb c, bs = (header ++ nb ++ c) ++ [x00] /\
  wire_num strict NU32 (VInt (Z.of_nat (List.length ms))) nb /\ wire_stream strict p ms c.
Proof. intros [ms' nb c N H]; exists nb, c; split; [now rewrite <- !app_assoc|auto]. Qed.

Lemma c_packs fss ms bs old after : wire_packed strict p ms bs -> Forall2 (message_for p) fss ms ->
  List.length old = List.length bs ->
  c_pack p fss {| w_buf := old ++ after; w_pos := 0 |} = WDone {| w_buf := bs ++ after; w_pos := List.length bs |}.
Proof.
  intros H F L; destruct (packed_inv ms bs H) as (nb & c & E & N & WS); set (front := header ++ nb ++ c) in *.
  assert (L4 : (4 <= List.length old)%nat) by (rewrite L, E; unfold front; rewrite !app_length; cbn; lia).
  rewrite c_pack_split by (cbn [w_buf w_pos]; auto; rewrite app_length; lia).
  pose proof (writes_fills c_wt _ _ eq_refl (c_pack_front_ok fss ms nb c N WS F)) as FI; fold front in FI.
  assert (X : exists x, skipn (List.length front) old = [x]).
  { assert (Y : List.length (skipn (List.length front) old) = 1%nat).
    { rewrite skipn_length, L, E, app_length; cbn [List.length]; lia. }
    destruct (skipn (List.length front) old) as [|x [|y r]]; try discriminate; eauto. }
  destruct X as [x X].
  assert (LF : List.length (firstn (List.length front) old) = List.length front).
  { apply firstn_length_le; rewrite L, E, app_length; lia. }
  specialize (FI [] (firstn (List.length front) old) (x :: after) LF); cbn [List.app List.length Nat.add] in FI.
  replace (firstn (List.length front) old ++ x :: after) with (old ++ after) in FI.
  2:{ rewrite <- (firstn_skipn (List.length front) old) at 1; rewrite X, <- app_assoc; reflexivity. }
  rewrite FI; cbn [wbind].
  unfold put_num; cbn [num_bytes]; change (wt_put c_wt) with put_fixed; unfold put_fixed; cbn [w_pos w_buf].
  change (le_bytes (num_size NByte) 0) with [x00]; cbn [List.length].
  rewrite (proj2 (Nat.leb_le _ _)) by (rewrite app_length; cbn; lia).
  change (x :: after) with ([x] ++ after); rewrite E, <- app_assoc, (overwrite_exact front [x] after [x00]) by reflexivity.
  rewrite app_length; reflexivity.
Qed.

(** One byte too small: no error.  Smaller: an error, except below four bytes. *)
Lemma c_pack_tight fss ms bs old x : wire_packed strict p ms bs -> Forall2 (message_for p) fss ms ->
  List.length (old ++ [x]) = List.length bs ->
  exists front, bs = front ++ [x00] /\ c_pack p fss {| w_buf := old; w_pos := 0 |} = WDone {| w_buf := front; w_pos := List.length front |}.
Proof.
  intros H F L; destruct (packed_inv ms bs H) as (nb & c & E & N & WS); exists (header ++ nb ++ c); split; [exact E|].
  set (front := header ++ nb ++ c) in *.
  assert (LO : List.length old = List.length front) by (rewrite E, !app_length in L; cbn [List.length] in L; lia).
  assert (L4 : (4 <= List.length old)%nat) by (rewrite LO; unfold front; rewrite !app_length; cbn; lia).
  rewrite c_pack_split by (cbn [w_buf w_pos]; auto).
  pose proof (writes_fills c_wt _ _ eq_refl (c_pack_front_ok fss ms nb c N WS F) [] old [] LO) as FI.
  cbn [List.app List.length Nat.add] in FI; rewrite !app_nil_r in FI; fold front in FI; rewrite FI; cbn [wbind].
  unfold put_num; cbn [num_bytes]; change (wt_put c_wt) with put_fixed; unfold put_fixed; cbn [w_pos w_buf].
  change (le_bytes (num_size NByte) 0) with [x00]; cbn [List.length].
  now rewrite (proj2 (Nat.leb_gt _ _)) by lia.
Qed.
Lemma c_pack_short fss ms bs old : wire_packed strict p ms bs -> Forall2 (message_for p) fss ms ->
  (4 <= List.length old)%nat -> (List.length old + 1 < List.length bs)%nat ->
  exists w', c_pack p fss {| w_buf := old; w_pos := 0 |} = WFail w' /\ List.length (w_buf w') = List.length old.
Proof.
  intros H F L4 L; destruct (packed_inv ms bs H) as (nb & c & E & N & WS); set (front := header ++ nb ++ c) in *.
  rewrite c_pack_split by (cbn [w_buf w_pos]; auto).
  destruct (writes_refuses c_wt _ _ eq_refl (c_pack_front_ok fss ms nb c N WS F) {| w_buf := old; w_pos := 0 |}) as (w' & E1 & E2 & _).
  { cbn [w_buf w_pos]; fold front; rewrite E, app_length in L; cbn [List.length] in L; lia. }
  exists w'; rewrite E1; cbn [wbind]; auto.
Qed.
End Write.

(** ** Size *)

Section Size.
Variable p : protocol.
Hypothesis W : WF p.
Variable k : num.

Notation lexec := (C.lexec k).
Notation lexec_stmt := (C.lexec_stmt k).

Lemma lexec_app a b fs size : lexec (a ++ b) fs size =
  match lexec a fs size with MOk (Some z) => lexec b fs z | o => o end.
Proof.
  revert size; induction a as [|x a IH]; intro size; cbn [List.app C.lexec]; [reflexivity|].
  destruct (lexec_stmt x fs size) as [[z|]| | | |]; auto.
Qed.
Lemma lexec_one a fs size : lexec [a] fs size = lexec_stmt a fs size.
Proof. cbn [C.lexec]; destruct (lexec_stmt a fs size) as [[z|]| | | |]; auto. Qed.

(** The body of a loop over the elements of [f]. *)
Fixpoint lloop (f : string) (body : list lstmt) (fs : cfields) (j i : nat) (size : Z) : mout :=
  match j with
  | O => MOk (Some size)
  | S j' =>
      match c_get (LElem f) i fs with
      | Some (CStruct fs') => match lexec body fs' size with MOk (Some z) => lloop f body fs j' (S i) z | o => o end
      | _ => MCrash
      end
  end.
Lemma body_lexec body : forall fs size,
  (fix go (l : list lstmt) (size : Z) : mout :=
     match l with
     | [] => MOk (Some size)
     | a :: r => match lexec_stmt a fs size with MOk (Some z) => go r z | o => o end
     end) body size = lexec body fs size.
Proof.
  induction body as [|a l IH]; intros fs size; cbn [C.lexec]; [reflexivity|].
  destruct (lexec_stmt a fs size) as [[z|]| | | |]; auto.
Qed.
Lemma lexec_for f body fs size n : c_int (c_len f) fs = Some n ->
  lexec_stmt (LFor f body) fs size = lloop f body fs (Z.to_nat n) 0 size.
Proof.
  intro E; cbn [C.lexec_stmt]; rewrite E; clear E; generalize (Z.to_nat n) as j, 0%nat as i; intro j; revert size.
  induction j as [|j IH]; intros size i; cbn [lloop]; [reflexivity|].
  destruct (c_get (LElem f) i fs) as [[| | | |fs'|]|]; try reflexivity.
  rewrite body_lexec; destruct (lexec body fs' size) as [[z|]| | | |]; auto.
Qed.
Lemma lexec_in f body fs fs' size : lookup f fs = Some (CStruct fs') -> lexec_stmt (LIn f body) fs size = lexec body fs' size.
Proof. intro E; cbn [C.lexec_stmt]; rewrite E; apply body_lexec. Qed.

Fixpoint sloop (f : string) (z : Z) (fs : cfields) (j i : nat) (size : Z) : mout :=
  match j with
  | O => MOk (Some size)
  | S j' =>
      match c_get (LElem (c_els_len f)) i fs with
      | Some (CNum (VInt l)) => match c_arith k (z + l) with Some a => sloop f z fs j' (S i) (c_grow size a) | None => MCrash end
      | _ => MCrash
      end
  end.
Lemma lexec_forstr f z fs size n : c_int (c_len f) fs = Some n ->
  lexec_stmt (LForStr f z) fs size = sloop f z fs (Z.to_nat n) 0 size.
Proof.
  intro E; cbn [C.lexec_stmt]; rewrite E; clear E; generalize (Z.to_nat n) as j, 0%nat as i; intro j; revert size.
  induction j as [|j IH]; intros size i; cbn [sloop]; [reflexivity|].
  destruct (c_get (LElem (c_els_len f)) i fs) as [[[l| | | | |]| | | | |]|]; try reflexivity.
  destruct (c_arith k (z + l)); auto.
Qed.

Lemma c_arith_small z : 0 <= z < 2 ^ 31 -> c_arith k z = Some z.
Proof.
  intro R; unfold c_arith; destruct k; cbn [num_min num_max];
    try (rewrite Z.mod_small by lia; reflexivity); replace (_ && _) with true by lia; reflexivity.
Qed.
Lemma c_grow_small a b : 0 <= a -> 0 <= b -> a + b < 2 ^ 31 -> c_grow a b = a + b.
Proof. intros; unfold c_grow; apply Z.mod_small; lia. Qed.

Lemma base_size_of t : In t integral_types -> forall md n lb, wire_size md t n lb -> Z.of_nat (List.length lb) = size_of p t.
Proof.
  intros I md n lb (k' & K & N).
  assert (KT : known_type p t) by (left; left; apply num_of_base; eauto).
  rewrite (size_of_fixed p t (Z.of_nat (num_size k')) W KT).
  - now rewrite (wire_num_length _ _ _ _ N).
  - constructor; now apply num_of_base_size.
Qed.

(** The lines add what is not in the constant. *)
Definition adds (l : list lstmt) (a : Z) (len : Z) (fs : cfields) : Prop :=
  0 <= a <= len /\ forall size, 0 <= size -> size + (len - a) < 2 ^ 31 -> lexec l fs size = MOk (Some (size + (len - a))).

Section Members.
Variable sub : string -> cfields -> option val.
Variable inner : string -> option (list lstmt * Z).
(** Only for structs of no fixed size. *)
Variable good : string -> Prop.
Hypothesis INNER : forall t s, In (t, s) (p_structs p) -> is_simple p t = false -> good t ->
  exists l a, inner t = Some (l, a) /\ forall fs v bs, sub t fs = Some v -> wire p t v bs ->
    adds (C.drop_init l) a (Z.of_nat (List.length bs)) fs.

Lemma strs_added f fs : forall vs bs i size, wire_elems strict p "string" vs bs ->
  (forall j v, nth_error vs j = Some v -> one_held p sub fs (LElem f) (i + j) "string" v) ->
  0 <= size -> size + Z.of_nat (List.length bs) < 2 ^ 31 ->
  sloop f (size_of p (p_string_size_type p)) fs (List.length vs) i size = MOk (Some (size + Z.of_nat (List.length bs))).
Proof.
  induction vs as [|v vs IH]; intros bs i size H B S0 S1; inversion H as [|? ? ? a b WI WE]; subst; cbn [List.length sloop].
  - do 2 f_equal; cbn; lia.
  - pose proof (B 0%nat v eq_refl) as B0; rewrite Nat.add_0_r in B0; unfold one_held in B0.
    change (String.eqb "string" "string") with true in B0; cbv iota in B0.
    destruct (text_held _ _ _ B0) as (z & blk & data & G1 & G2 & R & ->); cbn [c_len_of] in G1; rewrite G1.
    apply (wire_str_inv _ p W) in WI as (s & lb & E0 & -> & WS); injection E0 as <-.
    pose proof (base_size_of _ (wf_string_size p W) _ _ _ WS) as EL.
    assert (EZ : Z.of_nat (List.length (firstn (Z.to_nat z) data)) = z) by (rewrite firstn_length_le; lia).
    rewrite !app_length in S1 |- *.
    rewrite c_arith_small by lia; rewrite c_grow_small by lia.
    rewrite (IH b (S i)); [do 2 f_equal; lia|exact WE| |lia|lia].
    intros j x N; specialize (B (S j) x N); now rewrite Nat.add_succ_r in B.
Qed.

Lemma structs_added f t fs l a : mem t (p_structs p) = true -> String.eqb t "string" = false ->
  (forall fs v bs, sub t fs = Some v -> wire p t v bs -> adds l a (Z.of_nat (List.length bs)) fs) ->
  forall vs bs i size, wire_elems strict p t vs bs ->
  (forall j v, nth_error vs j = Some v -> one_held p sub fs (LElem f) (i + j) t v) ->
  0 <= size -> size + Z.of_nat (List.length bs) < 2 ^ 31 ->
  lloop f (l ++ [LAdd a]) fs (List.length vs) i size = MOk (Some (size + Z.of_nat (List.length bs))).
Proof.
  intros S NS A; induction vs as [|v vs IH]; intros bs i size H B S0 S1; inversion H as [|? ? ? x b WI WE]; subst; cbn [List.length lloop].
  - do 2 f_equal; cbn; lia.
  - pose proof (B 0%nat v eq_refl) as B0; rewrite Nat.add_0_r in B0.
    destruct (struct_held p sub fs (LElem f) i t v S NS B0) as (fs' & G & V); rewrite G.
    destruct (A fs' v x V WI) as [R L]; rewrite app_length in S1 |- *.
    rewrite lexec_app, L by lia; rewrite lexec_one; cbn [C.lexec_stmt]; rewrite c_grow_small by lia.
    rewrite (IH b (Datatypes.S i)); [do 2 f_equal; lia|exact WE| |lia|lia].
    intros j y N; specialize (B (Datatypes.S j) y N); now rewrite Nat.add_succ_r in B.
Qed.

Lemma member_added m : declared_type p (v_type m) -> good (v_type m) ->
  exists l a, c_measure_member p inner m = Some (l, a) /\
    forall fs v bs, c_member false p sub fs m = Some v -> wire_member strict p m v bs ->
      adds l a (Z.of_nat (List.length bs)) fs.
Proof.
  intros D GO; unfold c_measure_member.
  assert (K : known_type p (v_type m)) by (now left).
  assert (ST : is_simple p (v_type m) = false -> String.eqb (v_type m) "string" = false ->
    exists s, In (v_type m, s) (p_structs p) /\ mem (v_type m) (p_structs p) = true).
  { intros NSI NS; destruct (type_cases p (v_type m) W D) as [k0 K0 _ _ _ _|E1 _ _|e k0 _ _ _ IE _ _ _|st _ _ _ _ L].
    - rewrite (simple_num p W _ _ K0) in NSI; discriminate.
    - rewrite E1 in NS; discriminate.
    - rewrite (simple_enum p W _ _ IE) in NSI; discriminate.
    - exists st; split; [now apply lookup_In|unfold mem; now rewrite L]. }
  destruct (v_list m) eqn:VL.
  - destruct (is_simple p (v_type m)) eqn:SI; [|destruct (String.eqb (v_type m) "string") eqn:NS].
    + do 2 eexists; split; [reflexivity|]; intros fs v bs H WM.
      inversion WM as [|? vs lb bs' _ WS WE]; subst; [congruence|].
      unfold c_member in H; rewrite VL in H; apply list_held in H as (vs' & E & CL & _); injection E as <-.
      pose proof (base_size_of _ (wf_list_size p W) _ _ _ WS) as EL.
      pose proof (proj2 (proj2 (proj2 (wire_fixed_size strict p W))) _ _ _ WE _ (is_simple_fixed p _ W K SI)) as EE.
      rewrite app_length; split; [lia|]; intros size S0 S1; rewrite lexec_one; cbn [C.lexec_stmt]; rewrite CL.
      rewrite c_arith_small by lia; rewrite c_grow_small by lia; do 2 f_equal; lia.
    + do 2 eexists; split; [reflexivity|]; intros fs v bs H WM.
      inversion WM as [|? vs lb bs' _ WS WE]; subst; [congruence|].
      unfold c_member in H; rewrite VL in H; apply list_held in H as (vs' & E & CL & EH); injection E as <-.
      pose proof (base_size_of _ (wf_list_size p W) _ _ _ WS) as EL; apply String.eqb_eq in NS; rewrite NS in *.
      rewrite app_length; split; [lia|]; intros size S0 S1; rewrite lexec_one, (lexec_forstr _ _ _ _ _ CL), Nat2Z.id.
      rewrite (strs_added (v_name m) fs vs bs' 0 size WE); [do 2 f_equal; lia|exact EH|lia|lia].
    + destruct (ST eq_refl eq_refl) as (s & IS & MS).
      destruct (INNER _ _ IS SI GO) as (l & a & -> & A); do 2 eexists; split; [reflexivity|]; intros fs v bs H WM.
      inversion WM as [|? vs lb bs' _ WS WE]; subst; [congruence|].
      unfold c_member in H; rewrite VL in H; apply list_held in H as (vs' & E & CL & EH); injection E as <-.
      pose proof (base_size_of _ (wf_list_size p W) _ _ _ WS) as EL.
      rewrite app_length; split; [lia|]; intros size S0 S1; rewrite lexec_one, (lexec_for _ _ _ _ _ CL), Nat2Z.id.
      rewrite (structs_added (v_name m) (v_type m) fs _ a MS NS A vs bs' 0 size WE); [do 2 f_equal; lia|exact EH|lia|lia].
  - destruct (is_simple p (v_type m)) eqn:SI; [|destruct (String.eqb (v_type m) "string") eqn:NS].
    + do 2 eexists; split; [reflexivity|]; intros fs v bs H WM.
      inversion WM as [? ? ? _ WI|]; subst; [|congruence].
      pose proof (proj1 (wire_fixed_size strict p W) _ _ _ WI _ (is_simple_fixed p _ W K SI)) as EE.
      rewrite EE; split; [pose proof (size_of_nonneg p W _ K SI); lia|]; intros size S0 S1; cbn [C.lexec]; do 2 f_equal; lia.
    + do 2 eexists; split; [reflexivity|]; intros fs v bs H WM.
      inversion WM as [? ? ? _ WI|]; subst; [|congruence].
      pose proof (member_held p sub fs m v VL H) as B0; unfold one_held in B0; rewrite NS in B0.
      destruct (text_held _ _ _ B0) as (z & blk & data & G1 & G2 & R & ->); apply String.eqb_eq in NS; rewrite NS in *.
      apply (wire_str_inv _ p W) in WI as (s & lb & E0 & -> & WS); injection E0 as <-.
      pose proof (base_size_of _ (wf_string_size p W) _ _ _ WS) as EL.
      assert (EZ : Z.of_nat (List.length (firstn (Z.to_nat z) data)) = z) by (rewrite firstn_length_le; lia).
      rewrite app_length; split; [lia|]; intros size S0 S1; rewrite lexec_one; cbn [C.lexec_stmt]; unfold c_int.
      cbn [c_len_of c_get] in G1; rewrite G1, c_grow_small by lia; do 2 f_equal; lia.
    + destruct (ST eq_refl eq_refl) as (s & IS & MS).
      destruct (INNER _ _ IS SI GO) as (l & a & -> & A); do 2 eexists; split; [reflexivity|]; intros fs v bs H WM.
      inversion WM as [? ? ? _ WI|]; subst; [|congruence].
      pose proof (member_held p sub fs m v VL H) as B0.
      destruct (struct_held p sub fs _ _ _ v MS NS B0) as (fs' & G & V); cbn [c_get] in G.
      destruct (A fs' v bs V WI) as [R L]; split; [exact R|]; intros size S0 S1.
      rewrite lexec_one, (lexec_in _ _ _ _ _ G); now apply L.
Qed.

Lemma members_added ms : (forall m, In m ms -> declared_type p (v_type m)) -> (forall m, In m ms -> good (v_type m)) ->
  exists l a, c_measure_members p inner ms = Some (l, a) /\
    forall fs vs bs, collect (fun m => option_map (pair (v_name m)) (c_member false p sub fs m)) ms = Some vs ->
      wire_members strict p ms vs bs -> adds l a (Z.of_nat (List.length bs)) fs.
Proof.
  induction ms as [|m ms IH]; intros D GO; cbn [c_measure_members].
  - exists [], 0; split; [reflexivity|]; intros fs vs bs C WM; cbn in C; injection C as <-; inversion WM; subst.
    split; [cbn; lia|]; intros size S0 S1; cbn; do 2 f_equal; lia.
  - destruct (member_added m (D m (or_introl eq_refl)) (GO m (or_introl eq_refl))) as (l1 & a1 & -> & A1).
    destruct (IH (fun m' I => D m' (or_intror I)) (fun m' I => GO m' (or_intror I))) as (l2 & a2 & -> & A2).
    do 2 eexists; split; [reflexivity|]; intros fs vs bs C WM.
    apply members_held in C as (v & vs' & -> & CM & C); inversion WM as [|? ? ? ? x y W1 W2]; subst.
    destruct (A1 fs v x CM W1) as [R1 L1]; destruct (A2 fs vs' y C W2) as [R2 L2].
    rewrite app_length; split; [lia|]; intros size S0 S1.
    rewrite lexec_app, L1 by lia; rewrite L2 by lia; do 2 f_equal; lia.
Qed.
End Members.

Lemma measure_added d : forall t s, declares p t s -> is_simple p t = false -> fits_any p d t = true ->
  exists l a, c_measure p d s = Some (LSet 0 :: l, a) /\ forall n fs v bs, c_value false p n t fs = Some v -> wire p t v bs ->
    adds l a (Z.of_nat (List.length bs)) fs.
Proof.
  induction d as [|d IH]; intros t s D SI F; destruct (fits_any_members p _ t s W D F) as (d' & E & FM); [discriminate|injection E as <-].
  cbn [c_measure]; rewrite (declares_name p t s W D), SI.
  destruct (members_added (fun _ _ => None) (fun t0 => match lookup t0 (p_structs p) with Some st => c_measure p d st | None => None end)
              (fun t0 => fits_any p d t0 = true)) with (ms := s_members s) as (l & a & E & _).
  { intros t0 s0 I0 S0 F0; rewrite (In_lookup _ _ _ (wf_structs_nodup p W) I0).
    destruct (IH t0 s0 (or_introl I0) S0 F0) as (l & a & -> & _); do 2 eexists; split; [reflexivity|]; discriminate. }
  { intros m I; exact (wf_member_types p W t s m D I). }
  { exact FM. }
  rewrite E; exists l, a; split; [reflexivity|].
  intros n fs v bs V WI; destruct n as [|n]; [discriminate|].
  destruct (value_struct p n t s fs v W D V) as (vs & -> & C).
  apply (wire_struct_inv _ p W t s _ bs D) in WI as (vs' & E' & WM); injection E' as <-.
  destruct (members_added (c_value false p n) (fun t0 => match lookup t0 (p_structs p) with Some st => c_measure p d st | None => None end)
              (fun t0 => fits_any p d t0 = true)) with (ms := s_members s) as (l' & a' & E' & A).
  { intros t0 s0 I0 S0 F0; rewrite (In_lookup _ _ _ (wf_structs_nodup p W) I0).
    destruct (IH t0 s0 (or_introl I0) S0 F0) as (l0 & a0 & -> & A0); do 2 eexists; split; [reflexivity|].
    intros fs0 v0 bs0; exact (A0 n fs0 v0 bs0). }
  { intros m I; exact (wf_member_types p W t s m D I). }
  { exact FM. }
  rewrite E in E'; injection E' as <- <-; exact (A fs vs bs C WM).
Qed.
End Size.

Section Sizes.
Variable p : protocol.
Hypothesis W : WF p.
Hypothesis COMPILES : c_compiles p = true.

Lemma c_size_ok t s fs v bs : In (t, s) (p_messages p) -> stands_for p t fs v -> wire p t v bs ->
  Z.of_nat (List.length bs) < 2 ^ 31 -> c_size p t fs = MRet (Z.of_nat (List.length bs)).
Proof.
  intros I V WI LT; unfold c_size; rewrite COMPILES, (In_lookup _ _ _ (wf_messages_nodup p W) I), c_prim_num.
  destruct (list_size_num p W) as (k & K & _); rewrite K.
  assert (KT : known_type p t) by (right; eexists; exact I).
  pose proof (declares_name p t s W (or_intror I)) as NM.
  destruct (is_simple p t) eqn:SI.
  - assert (E : c_measure p (depth_of p) s = Some ([LSet (size_of p t)], 0)).
    { destruct (depth_of p); cbn [c_measure]; rewrite NM, SI; reflexivity. }
    rewrite E; cbn [Z.ltb Z.compare List.app C.lexec C.lexec_stmt].
    now rewrite (proj1 (wire_fixed_size strict p W) _ _ _ WI _ (is_simple_fixed p _ W KT SI)).
  - destruct (measure_added p W k (depth_of p) t s (or_intror I) SI (WF_fits_any p t W)) as (l & a & -> & A).
    destruct (A _ fs v bs V WI) as [R L].
    change (LSet 0 :: l) with ([LSet 0] ++ l); rewrite <- app_assoc, lexec_app.
    cbn [C.lexec C.lexec_stmt]; rewrite lexec_app, L by lia.
    destruct (Z.ltb_spec 0 a) as [A0|A0].
    + rewrite lexec_one; cbn [C.lexec_stmt]; rewrite c_grow_small by lia; f_equal; lia.
    + cbn [C.lexec]; f_equal; lia.
Qed.

Lemma c_sizes_ok ms bs : wire_stream strict p ms bs -> forall fss size, Forall2 (message_for p) fss ms ->
  0 <= size -> size + Z.of_nat (List.length bs) < 2 ^ 31 ->
  c_sizes p fss size = MOk (Some (size + Z.of_nat (List.length bs) - Z.of_nat (List.length ms))).
Proof.
  induction 1 as [|m ms a b T H IH]; intros fss size F S0 S1; inversion F as [|fs ? fss' ? MF F']; subst; cbn [c_sizes List.length].
  - do 2 f_equal; cbn; lia.
  - destruct MF as [V (n & N & MT)]; rewrite (name_of_number p W (fst m) n fs N MT).
    destruct T as [t i v c bs N' B WI]; cbn [fst snd] in *; destruct (numbered_message p t n N) as [s I].
    rewrite app_length in S1 |- *; cbn [List.length] in S1 |- *.
    rewrite (c_size_ok t s fs v bs I V WI) by lia; rewrite c_grow_small by lia.
    rewrite (IH fss') by (auto; lia); do 2 f_equal; lia.
Qed.
Lemma c_packed_size_ok fss ms bs : wire_packed strict p ms bs -> Forall2 (message_for p) fss ms ->
  Z.of_nat (List.length bs) < 2 ^ 31 -> c_packed_size p fss = MRet (Z.of_nat (List.length bs)).
Proof.
  intros H F LT; assert (L : List.length fss = List.length ms) by (clear - F; induction F; cbn; congruence).
  destruct H as [ms nb bs N H]; unfold c_packed_size; rewrite COMPILES.
  assert (LN : List.length nb = 4%nat) by (inversion N; subst; assumption).
  pose proof (wire_stream_long _ _ _ _ W H) as LL.
  rewrite !app_length, LN in LT; cbn [List.length header] in LT.
  rewrite (c_sizes_ok ms bs H fss 0 F) by lia.
  rewrite (c_grow_small (0 + _ - _)) by lia; rewrite c_grow_small by lia.
  rewrite !app_length, LN; cbn [List.length header]; f_equal; lia.
Qed.
End Sizes.

(** ** Fresh objects *)

Section Fresh.
Variable p : protocol.
Hypothesis W : WF p.
Hypothesis COMPILES : c_compiles p = true.

Definition default_fields (d : nat) (m : var) : cfields :=
  let n := v_name m in
  let t := v_type m in
  if v_list m then
    (c_len n, CNum (VInt 0)) :: (if String.eqb t "string" then [(c_els_len n, CNull)] else []) ++ [(n, CNull)]
  else match lookup t c_defaults with
  | Some v => [(n, CNum v)]
  | None =>
      if String.eqb t "string" then [(c_len n, CNum (VInt 0)); (n, CStr None [x00])]
      else match lookup t (p_enums p) with
      | Some e => [(n, match get_default_pair e with Some (_, z) => CNum (VInt z) | None => CUndef end)]
      | None =>
          match lookup t (p_structs p) with
          | Some s => [(n, CStruct (c_default_members p d (s_members s)))]
          | None => [(n, CUndef)]
          end
      end
  end.
Lemma default_members_S d ms : c_default_members p (S d) ms = flat_map (default_fields d) ms.
Proof. reflexivity. Qed.

Lemma c_defaults_num t k : num_of t = Some k -> lookup t c_defaults = Some (zero_of k).
Proof.
  intro K; apply num_of_in in K as I; cbn in I.
  repeat (destruct I as [<-|I]; [injection K as <-; reflexivity|]); destruct I.
Qed.
Lemma c_defaults_none t : num_of t = None -> lookup t c_defaults = None.
Proof.
  intro K; unfold num_of in K; unfold c_defaults; cbn [lookup] in *.
  repeat match type of K with context [String.eqb t ?x] => destruct (String.eqb t x); [discriminate|] end.
  reflexivity.
Qed.
Lemma default_names d m : map fst (default_fields d m) = c_member_names m.
Proof.
  unfold default_fields, c_member_names; cbv zeta; destruct (v_list m); [destruct (String.eqb (v_type m) "string"); reflexivity|].
  destruct (num_of (v_type m)) as [k|] eqn:K.
  - rewrite (c_defaults_num _ _ K); destruct (String.eqb (v_type m) "string") eqn:S; [|reflexivity].
    apply String.eqb_eq in S; rewrite S in K; discriminate.
  - rewrite (c_defaults_none _ K); destruct (String.eqb (v_type m) "string"); [reflexivity|].
    destruct (lookup (v_type m) (p_enums p)); [reflexivity|]; now destruct (lookup (v_type m) (p_structs p)).
Qed.

Lemma lookup_front {A} (a b : list (string * A)) x : In x (map fst a) -> lookup x (a ++ b) = lookup x a.
Proof.
  induction a as [|[y v] a IH]; cbn; [intros []|]; intros [->|I].
  - now rewrite String.eqb_refl.
  - destruct (String.eqb x y); auto.
Qed.
Lemma lookup_back {A} (a b : list (string * A)) x : ~ In x (map fst a) -> lookup x (a ++ b) = lookup x b.
Proof.
  induction a as [|[y v] a IH]; cbn; [auto|]; intro N; destruct (String.eqb_spec x y) as [->|NE]; [tauto|auto].
Qed.
Lemma names_flat d ms : map fst (flat_map (default_fields d) ms) = flat_map c_member_names ms.
Proof. induction ms as [|m ms IH]; cbn; [reflexivity|]; now rewrite map_app, default_names, IH. Qed.
Lemma lookup_default d m x : forall ms, NoDup (flat_map c_member_names ms) -> In m ms -> In x (c_member_names m) ->
  lookup x (flat_map (default_fields d) ms) = lookup x (default_fields d m).
Proof.
  induction ms as [|m' ms IH]; intros ND I IX; [destruct I|]; cbn [flat_map] in *; apply nodup_app_inv in ND as (N1 & N2 & N3).
  destruct I as [->|I].
  - apply lookup_front; now rewrite default_names.
  - rewrite lookup_back; [now apply IH|]; rewrite default_names; intro X; apply (N3 x X).
    apply in_flat_map; eauto.
Qed.

Lemma fresh_members d : forall t s e fs, declares p t s -> fits_any p d t = true -> (d <= e)%nat ->
  (forall m x, In m (s_members s) -> In x (c_member_names m) -> lookup x fs = lookup x (c_default_members p e (s_members s))) ->
  exists v, c_value false p d t fs = Some v /\ fresh p t v.
Proof.
  induction d as [|d IH]; intros t s e fs D F LE FS; destruct (fits_any_members p _ t s W D F) as (d' & E & FM);
    [discriminate|injection E as <-].
  destruct e as [|e]; [lia|]; rewrite default_members_S in FS.
  assert (ND : NoDup (flat_map c_member_names (s_members s))).
  { pose proof (proj2 (c_compiles_inv p COMPILES) t s D) as X; unfold c_field_names in X; now apply nodup_app_inv in X. }
  assert (G : forall ms, incl ms (s_members s) -> exists vs,
    collect (fun m => option_map (pair (v_name m)) (c_member false p (c_value false p d) fs m)) ms = Some vs /\
    Forall2 (fun m f => fst f = v_name m /\
      ((v_list m = true /\ snd f = VList []) \/ (v_list m = false /\ fresh p (v_type m) (snd f)))) ms vs).
  2:{ destruct (G _ (incl_refl _)) as (vs & C & FF); exists (VStruct vs); split; [|now apply fr_struct with (s := s)].
      cbn [c_value]; rewrite (find_declares p W t s D), C; reflexivity. }
  induction ms as [|m ms IHm]; intro Inc; [exists []; split; [reflexivity|constructor]|].
  destruct (IHm (fun x X => Inc x (or_intror X))) as (vs & C & FF).
  assert (I : In m (s_members s)) by (apply Inc; now left).
  assert (LK : forall x, In x (c_member_names m) -> lookup x fs = lookup x (default_fields e m)).
  { intros x IX; rewrite (FS m x I IX); now apply lookup_default. }
  enough (X : exists v, c_member false p (c_value false p d) fs m = Some v /\
            ((v_list m = true /\ v = VList []) \/ (v_list m = false /\ fresh p (v_type m) v))).
  { destruct X as (v & E & X); exists ((v_name m, v) :: vs); cbn [collect]; rewrite E, C; split; [reflexivity|].
    constructor; [split; [reflexivity|exact X]|exact FF]. }
  unfold c_member, default_fields, c_member_names in *; cbv zeta in *.
  destruct (v_list m) eqn:VL.
  - exists (VList []); split; [|now left].
    unfold c_list, c_int; rewrite (LK (c_len (v_name m))) by (now left); cbn [lookup]; rewrite String.eqb_refl; reflexivity.
  - destruct (type_cases p (v_type m) W (wf_member_types p W t s m D I)) as [k K M S E L| E1 E L|en k K M S IE E KE _|s' K M S E L].
    + rewrite (c_defaults_num _ _ K) in LK; rewrite S in *; rewrite (LK (v_name m)) by (now left); cbn [lookup].
      rewrite String.eqb_refl; cbn [c_cell]; unfold mem; rewrite L; exists (zero_of k); split; [reflexivity|right; split; [reflexivity|now constructor]].
    + rewrite E1 in *; change (String.eqb "string" "string") with true in *; cbv iota in *.
      change (lookup "string" c_defaults) with (@None val) in LK; cbv iota in LK.
      rewrite (LK (c_len (v_name m))), (LK (v_name m)) by (cbn; auto); cbn [lookup]; rewrite !String.eqb_refl.
      exists (VStr []); split; [|right; split; [reflexivity|constructor]].
      destruct (String.eqb (v_name m) (c_len (v_name m))) eqn:X; [|reflexivity].
      apply String.eqb_eq in X; exfalso.
      apply (f_equal String.length) in X; unfold c_len in X; clear - X; revert X; induction (v_name m) as [|a r IHr]; cbn; [discriminate|].
      intro X; injection X as X; auto.
    + rewrite (c_defaults_none _ K) in LK; rewrite S, E in *; rewrite (LK (v_name m)) by (now left); cbn [lookup]; rewrite String.eqb_refl.
      destruct (wf_enum_values p W _ en IE) as [NE _]; unfold get_default_pair.
      destruct (e_values en) as [|[n z] r] eqn:EV; [now contradiction NE|].
      destruct (enum_not_num p W _ en IE) as (_ & _ & X).
      assert (MS : mem (v_type m) (p_structs p) = false).
      { unfold mem; destruct (lookup (v_type m) (p_structs p)) as [s'|] eqn:L; [|reflexivity].
        exfalso; apply (X s'); left; now apply lookup_In. }
      cbn [hd_error c_cell]; rewrite MS; exists (VInt z); split; [reflexivity|right; split; [reflexivity|]].
      econstructor; eassumption.
    + rewrite (c_defaults_none _ K) in LK; rewrite S, E, L in *; rewrite (LK (v_name m)) by (now left); cbn [lookup]; rewrite String.eqb_refl.
      cbn [c_cell]; unfold mem; rewrite L.
      assert (D' : declares p (v_type m) s') by (left; now apply lookup_In).
      destruct (IH _ s' e (c_default_members p e (s_members s')) D' (FM m I) ltac:(lia) ltac:(reflexivity)) as (v & V & FR).
      exists v; split; [exact V|right; auto].
Qed.

Lemma start_apart t s m x : declares p t s -> In m (s_members s) -> In x (c_member_names m) -> ~ In x (map fst (c_start p s)).
Proof.
  intros D I IX; pose proof (proj2 (c_compiles_inv p COMPILES) t s D) as X; unfold c_field_names in X.
  apply nodup_app_inv in X as (_ & _ & X); unfold c_start; intro Y.
  destruct (s_is_message s); [|exact Y]; destruct (tag_of (s_name s) (c_message_types p)); [|exact Y].
  apply (X x Y); apply in_flat_map; eauto.
Qed.

Lemma c_default_fresh t s : declares p t s -> exists v, stands_for p t (c_default p s) v /\ fresh p t v.
Proof.
  intro D; apply (fresh_members (depth_of p) t s (depth_of p)); [exact D|now apply WF_fits_any|lia|].
  intros m x I IX; unfold c_default; apply lookup_back; exact (start_apart t s m x D I IX).
Qed.

(** A message whose members have no lengths. *)
Lemma c_create_fresh t s : In (t, s) (p_messages p) ->
  (forall m, In m (s_members s) -> v_list m = false /\ v_type m <> "string"%string) ->
  exists v, message_for p (c_create p s) (t, v) /\ fresh p t v.
Proof.
  intros I H; assert (D : declares p t s) by (now right).
  destruct (fresh_members (depth_of p) t s (depth_of p) (c_create p s)) as (v & V & FR);
    [exact D|now apply WF_fits_any|lia| |].
  - intros m x IM IX; unfold c_create; rewrite lookup_back by exact (start_apart t s m x D IM IX).
    assert (EN : forall m, In m (s_members s) -> c_member_names m = [v_name m]).
    { intros m' I'; unfold c_member_names; destruct (H m' I') as [-> N]; apply String.eqb_neq in N; now rewrite N. }
    rewrite (EN m IM) in IX; destruct IX as [<-|[]].
    assert (NN : exists v, lookup (v_name m) (c_default_members p (depth_of p) (s_members s)) = Some v).
    { destruct (fits_any_members p _ t s W D (WF_fits_any p t W)) as (d & E & _); rewrite E, default_members_S.
      assert (IX : In (v_name m) (map fst (flat_map (default_fields d) (s_members s)))).
      { rewrite names_flat; apply in_flat_map; exists m; split; [exact IM|]; rewrite (EN m IM); now left. }
      revert IX; generalize (flat_map (default_fields d) (s_members s)) as l; induction l as [|[y w] l IH]; cbn; [intros []|].
      destruct (String.eqb_spec (v_name m) y); [eauto|]; intros [X|X]; [congruence|auto]. }
    destruct NN as [v E]; rewrite E.
    assert (E' : lookup (v_name m) (c_default p s) = Some v).
    { unfold c_default; rewrite lookup_back; [exact E|]; apply (start_apart t s m (v_name m) D IM); rewrite (EN m IM); now left. }
    assert (G : forall ms, In m ms ->
      lookup (v_name m) (map (fun m => (v_name m, match lookup (v_name m) (c_default p s) with Some v => v | None => CUndef end)) ms) = Some v).
    { induction ms as [|m' ms IH]; intros []; cbn [map lookup]; [subst m'; rewrite String.eqb_refl, E'; reflexivity|].
      destruct (String.eqb_spec (v_name m) (v_name m')) as [EQ|NE]; [rewrite <- EQ, E'; reflexivity|auto]. }
    now apply G.
  - exists v; split; [|exact FR]; split; [exact V|]; cbn [fst snd].
    apply In_nth_error in I as [i I']; pose proof (proj2 (numbered_iff p t (1 + Z.of_nat i)) (ex_intro _ i (ex_intro _ s (conj I' eq_refl)))) as N.
    exists (1 + Z.of_nat i); split; [exact N|].
    unfold c_create; rewrite (start_number p W t s _ (nth_error_In _ _ I') N); reflexivity.
Qed.
End Fresh.
