(** Generated Zig: agreement with the reference reader and the format. *)
From Verif Require Export Zig ZigSpec TextFacts LangFacts StreamFacts CutFacts LocalsFacts OverlongFacts.
Open Scope Z_scope.
Open Scope list_scope.

Lemma zig_prim_num : forall t, zig_prim t = num_of t.
Proof. unfold zig_prim, prim, zig_types; prim_tac. Qed.

(** ** readList *)

Section Lists.
Variable R : rt.
Variable p : protocol.
Variable inp : list byte.
Variable call : string -> list (string * val) -> nat -> outcome.
Variable len : string -> Z -> got unit.
Variable fuel : nat.
Hypothesis W : WF p.
Hypothesis NUMS : rt_num R = read_num.
Hypothesis CALL : call_ok R p inp call len fuel.
Notation dec := (dec (rt_str R) len (rt_enum R) p inp).

Definition in_list (acc vs : list val) (s : rstate) (pos : nat) (s' : rstate) : Prop :=
  lookup "" (r_env s') = Some (VList (acc ++ vs)) /\ r_pos s' = pos /\ kept [""%string] s s'.

(** An element that is not a struct. *)
Lemma list_elem_ok t pos : declared_type p t -> (forall s, ~ declares p t s) ->
  dec fuel t pos = match list_elem R p inp t pos with Got v q => ROk v q | Miss _ => RErr | Crash => RTrap end.
Proof.
  intros T ND; unfold list_elem, enum_num.
  destruct (type_cases p t W T) as [k K M S E _| -> E _|e k K M S IE E KE NB|s K M S E L].
  - rewrite K; destruct fuel; cbn [Dec.dec]; rewrite K; unfold dec_num; rewrite NUMS; reflexivity.
  - destruct fuel; cbn [Dec.dec num_of lookup String.eqb Ascii.eqb Bool.eqb];
      rewrite E; cbn; unfold got_res; destruct (rt_str R p inp pos); reflexivity.
  - rewrite K, E, KE; destruct fuel; cbn [Dec.dec]; rewrite K, S, E; unfold dec_enum; rewrite KE, NUMS;
      unfold dec_num; (destruct (read_num_cases k inp pos) as [[v RN]|RN]; rewrite RN; cbn [got_res rbind]; [|reflexivity]);
      apply read_num_got in RN as (lb & rest & _ & N & _); destruct (integral_vint _ _ _ _ NB N) as [z ->];
      destruct (rt_enum R e z); reflexivity.
  - exfalso; apply (ND s); left; now apply lookup_In.
Qed.

Lemma list_loop_ok t : declared_type p t -> forall n acc s,
  agrees (dec_elems (dec fuel) t n (r_pos s)) (list_loop R p inp call t n acc s) (fun vs => in_list acc vs s).
Proof.
  intros T n; induction n as [|n IH]; intros acc s.
  - cbn; exists (set_local "" (VList acc) s); split; [reflexivity|].
    split; [cbn [set_local r_env]; now rewrite lookup_dict_set_eq, app_nil_r|]; split; [reflexivity|apply kept_local; now left].
  - assert (NEXT : forall v pos, r_pos (set_pos pos s) = pos ->
      agrees (rbind (dec_elems (dec fuel) t n pos) (fun vs q => ROk (v :: vs) q))
        (list_loop R p inp call t n (acc ++ [v]) (set_pos pos s)) (fun vs => in_list acc vs s)).
    { intros v pos _; specialize (IH (acc ++ [v]) (set_pos pos s)); cbn [set_pos r_pos] in IH.
      destruct (dec_elems (dec fuel) t n pos) as [vs q| | | |]; cbn [agrees rbind] in IH |- *; auto.
      destruct IH as (s1 & -> & L & P & K); exists s1; split; [reflexivity|].
      rewrite <- app_assoc in L; split; [exact L|]; split; [exact P|exact K]. }
    cbn [list_loop dec_elems].
    destruct (match num_of t, enum_num p t with None, None => negb (String.eqb t "string") | _, _ => false end) eqn:ST.
    + assert (D : exists st, declares p t st).
      { destruct (num_of t) eqn:K; [discriminate|]; destruct (enum_num p t) eqn:EN; [discriminate|].
        destruct (type_cases p t W T) as [k K' M S E _| -> E _|e k K' M S IE E KE NB|st K' M S E L]; try congruence.
        - discriminate ST.
        - unfold enum_num in EN; rewrite E in EN; congruence.
        - exists st; left; now apply lookup_In. }
      destruct D as [st D]; pose proof (CALL t st (r_pos s) D) as C.
      destruct (dec fuel t (r_pos s)) as [v q| | | |]; cbn [agrees rbind] in C |- *; auto.
      * destruct C as (c & -> & -> & ->); now apply NEXT.
      * destruct C as [c ->]; eauto.
      * now rewrite C.
    + rewrite (list_elem_ok t (r_pos s) T).
      * destruct (list_elem R p inp t (r_pos s)) as [v q|q|]; cbn [rbind]; [now apply NEXT|cbn; eauto|reflexivity].
      * intros st D; destruct (declares_not_num p W t st D) as (A & B & C); apply String.eqb_neq in B.
        rewrite A in ST; unfold enum_num in ST.
        destruct (lookup t (p_enums p)) as [e|] eqn:L; [apply lookup_In in L; now apply C in L|].
        rewrite B in ST; discriminate.
Qed.

Lemma member_local_at m x : v_list m = false -> declared_type p (v_type m) ->
  member_local R p inp call len fuel m x [x] (local_code p x (v_type m)).
Proof. intros NL T s; unfold dec_member; rewrite NL; now apply local_one. Qed.

Lemma member_local_list m x : v_list m = true -> declared_type p (v_type m) ->
  (forall z, same_got (len (v_type m) z) (rt_make R (v_type m) z)) ->
  member_local R p inp call len fuel m x [x; ""%string] [RList (DLocal x) (v_type m)].
Proof.
  intros VL T LEN s; unfold dec_member, dec_list; rewrite VL.
  rewrite exec_one; cbn [exec_stmt]; destruct (list_size_num p W) as (k & K & NB); rewrite K, NUMS; unfold dec_num.
  destruct (read_num_cases k inp (r_pos s)) as [[v E]|E]; rewrite E; cbn [got_res rbind agrees]; [|eauto].
  apply read_num_got in E as (lb & rest & _ & N & _); destruct (integral_vint _ _ _ _ NB N) as [z ->].
  specialize (LEN z); unfold guard.
  destruct (rt_make R (v_type m) z) as [u' q'|q'|]; destruct (len (v_type m) z); try contradiction; cbn [agrees rbind obind]; eauto.
  set (after := (r_pos s + num_size k)%nat).
  pose proof (list_loop_ok (v_type m) T (Z.to_nat z) [] (set_pos after s)) as L; cbn [set_pos r_pos] in L.
  destruct (dec_elems (dec fuel) (v_type m) (Z.to_nat z) after) as [vs q2| | | |]; cbn [agrees rbind] in L |- *; auto.
  - destruct L as (s1 & L1 & LV & P & KE).
    change (list_loop R p inp call (v_type m) (Z.to_nat z) [] (set_pos after s) = Done s1) in L1.
    rewrite L1; cbn [obind]; rewrite LV; cbn [store done_or_stuck].
    eexists; split; [reflexivity|]; split; [cbn; now rewrite lookup_dict_set_eq|]; split; [exact P|].
    eapply kept_trans; [|apply kept_local; now left].
    eapply kept_incl; [|exact KE]; intros y [<-|[]]; right; now left.
  - destruct L as [s1 L1].
    change (list_loop R p inp call (v_type m) (Z.to_nat z) [] (set_pos after s) = Fail s1) in L1.
    rewrite L1; cbn; eauto.
  - change (list_loop R p inp call (v_type m) (Z.to_nat z) [] (set_pos after s) = Trap) in L.
    now rewrite L.
Qed.

(** ** Simple structs *)

Lemma size_of_num t k : num_of t = Some k -> fixed_size p t (Z.of_nat (num_size k)) /\ size_of p t = Z.of_nat (num_size k).
Proof.
  intro K; assert (F : fixed_size p t (Z.of_nat (num_size k))) by (constructor; apply num_of_base_size in K; tauto).
  split; [exact F|]; eapply size_of_fixed; eauto; left; left; apply num_of_base; eauto.
Qed.
Lemma size_of_enum t e k : In (t, e) (p_enums p) -> num_of (e_encoding e) = Some k ->
  fixed_size p t (Z.of_nat (num_size k)) /\ size_of p t = Z.of_nat (num_size k).
Proof.
  intros E K; assert (F : fixed_size p t (Z.of_nat (num_size k))).
  { eapply fs_enum; [exact E|]; apply num_of_base_size in K; tauto. }
  split; [exact F|]; eapply size_of_fixed; eauto; left; do 3 right; eexists; eassumption.
Qed.

Definition flat_member (m : var) : Prop :=
  v_list m = false /\ ((exists k, num_of (v_type m) = Some k) \/ exists e, In (v_type m, e) (p_enums p)).

Lemma zig_local_inj s m m' : zig_local s m = zig_local s m' -> v_name m = v_name m'.
Proof.
  unfold zig_local; induction (s_name s) as [|c n IH]; cbn; intro E; injection E; auto.
Qed.

(** A member at its offset. *)
Lemma flat_at s m off st : flat_member m ->
  agrees (dec fuel (v_type m) (r_pos st + Z.to_nat off)) (exec R p inp call (zig_read_at p s off m) st)
    (fun v pos st' => lookup (zig_local s m) (r_env st') = Some v /\ r_pos st' = r_pos st /\
       kept [zig_local s m] st st' /\
       exists n, fixed_size p (v_type m) n /\ size_of p (v_type m) = n /\ 0 <= n /\
                 pos = (r_pos st + Z.to_nat off + Z.to_nat n)%nat).
Proof.
  intros [_ [[k K]|[e IE]]].
  - assert (T : declared_type p (v_type m)) by (left; apply num_of_base; eauto).
    assert (M : mem (v_type m) NUMERIC_TYPE_SIZES = true).
    { destruct (type_cases p _ W T) as [k' K' M S E _| E1 E _|e' k' K' M S IE E KE NB|st' K' M S E L]; try congruence.
      rewrite E1 in K; discriminate. }
    unfold zig_read_at; rewrite M, zig_prim_num, K; cbn [with_prim].
    replace (dec fuel (v_type m) (r_pos st + Z.to_nat off)) with (dec_num inp k (r_pos st + Z.to_nat off))
      by (destruct fuel; cbn [Dec.dec]; now rewrite K).
    rewrite exec_one; cbn [exec_stmt]; rewrite NUMS; unfold dec_num.
    destruct (read_num_cases k inp (r_pos st + Z.to_nat off)) as [[v ->]| ->]; cbn [got_res agrees store done_or_stuck]; [|eauto].
    eexists; split; [reflexivity|]; split; [cbn; now rewrite lookup_dict_set_eq|]; split; [reflexivity|].
    split; [apply kept_local; now left|].
    destruct (size_of_num _ _ K) as [F Z]; exists (Z.of_nat (num_size k)); split; [exact F|]; split; [exact Z|]; split; lia.
  - destruct (enum_not_num p W _ e IE) as (A & B & _).
    destruct (enum_encoding_num p W _ e IE) as (k & KE & NB & _).
    assert (M : mem (v_type m) NUMERIC_TYPE_SIZES = false).
    { assert (T : declared_type p (v_type m)) by (do 3 right; eexists; exact IE).
      destruct (type_cases p _ W T) as [k' K' M S E _| E1 E _|e' k' K' M S IE' E KE' NB'|st' K' M S E L]; congruence. }
    pose proof (In_lookup _ _ _ (wf_enums_nodup p W) IE) as L.
    unfold zig_read_at; rewrite M; replace (mem (v_type m) (p_enums p)) with true
      by (symmetry; unfold mem; now rewrite L).
    rewrite (dec_unfold_enum R p inp len fuel W _ e _ IE); unfold dec_enum; rewrite KE.
    rewrite exec_one; cbn [exec_stmt]; unfold enum_num; rewrite L, KE, NUMS; unfold dec_num.
    destruct (read_num_cases k inp (r_pos st + Z.to_nat off)) as [[v E]|E]; rewrite E; cbn [got_res rbind agrees]; [|eauto].
    apply read_num_got in E as (lb & rest & _ & N & _); destruct (integral_vint _ _ _ _ NB N) as [z ->].
    destruct (rt_enum R e z) as [z'|]; cbn [agrees store done_or_stuck]; [|eauto].
    eexists; split; [reflexivity|]; split; [cbn; now rewrite lookup_dict_set_eq|]; split; [reflexivity|].
    split; [apply kept_local; now left|].
    destruct (size_of_enum _ _ _ IE KE) as [F Z]; exists (Z.of_nat (num_size k)); split; [exact F|]; split; [exact Z|]; split; lia.
Qed.

Lemma flat_members s : forall ms, NoDup (map v_name ms) -> (forall m, In m ms -> flat_member m) ->
  forall off st, 0 <= off ->
  agrees (dec_members len p inp (dec fuel) ms (r_pos st + Z.to_nat off)) (exec R p inp call (zig_read_simple p s off ms) st)
    (fun fs pos st' => Forall2 (collected (zig_local s) (r_env st')) ms fs /\ r_pos st' = r_pos st /\
       kept (map (zig_local s) ms) st st' /\
       exists n, fixed_members p ms n /\ 0 <= n /\ pos = (r_pos st + Z.to_nat (off + n))%nat).
Proof.
  induction ms as [|m ms IH]; intros ND OK off st O.
  - cbn; exists st; split; [reflexivity|]; split; [constructor|]; split; [reflexivity|]; split; [apply kept_refl|].
    exists 0; split; [constructor|]; split; [lia|]; now rewrite Z.add_0_r.
  - inversion ND as [|? ? NI ND']; subst; cbn [zig_read_simple dec_members]; rewrite exec_app.
    destruct (OK m (or_introl eq_refl)) as [VL _]; unfold dec_member at 1; rewrite VL.
    eapply agrees_bind; [exact (flat_at s m off st (OK m (or_introl eq_refl)))|].
    intros v pos s1 (LV & P1 & K1 & n1 & F1 & S1 & N1 & ->).
    specialize (IH ND' (fun m' H => OK m' (or_intror H)) (off + n1) s1 ltac:(lia)).
    rewrite S1; rewrite P1 in IH.
    replace (r_pos st + Z.to_nat off + Z.to_nat n1)%nat with (r_pos st + Z.to_nat (off + n1))%nat by lia.
    destruct (dec_members len p inp (dec fuel) ms (r_pos st + Z.to_nat (off + n1))) as [fs q| | | |];
      cbn [agrees rbind] in IH |- *; auto.
    destruct IH as (s2 & -> & C & P2 & K2 & n2 & F2 & N2 & ->); exists s2; split; [reflexivity|].
    split; [|split; [exact P2|split]].
    + constructor; [|exact C]; split; [reflexivity|]; cbn [snd].
      rewrite K2; [exact LV|]; intro H; apply in_map_iff in H as (m' & E & H).
      apply NI; apply zig_local_inj in E; rewrite <- E; now apply in_map.
    + eapply kept_trans; [eapply kept_incl; [|exact K1]|eapply kept_incl; [|exact K2]].
      * intros y [<-|[]]; now left.
      * intros y Y; now right.
    + exists (n1 + n2); split; [now constructor|]; split; [lia|]; now rewrite Z.add_assoc.
Qed.
End Lists.

(** ** Strings *)

Definition zig_fits (p : protocol) (s : list byte) : bool :=
  match num_of (p_string_size_type p) with
  | Some k => Z.of_nat (List.length s) + Z.of_nat (num_size k) <=? num_max k
  | None => false
  end.
Definition zig_text (p : protocol) (s : list byte) : option (list byte) := if zig_fits p s then Some s else None.

Section Str.
Variable p : protocol.
Hypothesis W : WF p.

Lemma zig_txt s : zig_string p s -> zig_text p s = Some s.
Proof.
  intro H; unfold zig_text, zig_fits; destruct (string_size_num p W) as (k & K & _); rewrite K.
  now rewrite (proj2 (Z.leb_le _ _) (H k K)).
Qed.
Lemma zig_any s : zig_string p s -> exists s', zig_text p s = Some s'.
Proof. eauto using zig_txt. Qed.
Lemma zig_text_same s s' : zig_text p s = Some s' -> s' = s /\ zig_fits p s = true.
Proof. unfold zig_text; destruct (zig_fits p s); [|discriminate]; intros [= ->]; auto. Qed.

Lemma zig_str_sized inp pos s q :
  zig_str p inp pos = Got s q <-> sized_str Crash (zig_text p) p inp inp pos = Got s q.
Proof.
  unfold zig_str, sized_str; rewrite zig_prim_num; destruct (string_size_num p W) as (k & K & NB); rewrite K.
  destruct (read_num k inp pos) as [v q'| |]; try reflexivity.
  destruct v as [z| | | | |]; try reflexivity.
  destruct (Z.ltb_spec z 0) as [Z0|Z0]; [split; discriminate|].
  destruct (Z.leb_spec (Z.of_nat q' + z) (Z.of_nat (List.length inp))) as [L|L].
  - unfold zig_text, zig_fits; rewrite K.
    replace (Z.of_nat (List.length (firstn (Z.to_nat z) (skipn q' inp)))) with z.
    2:{ rewrite firstn_length, skipn_length; lia. }
    destruct (_ <=? _); [reflexivity|split; discriminate].
  - destruct (_ && _); split; discriminate.
Qed.

Lemma zig_str_forward inp pos s lb raw rest : skipn pos inp = lb ++ raw ++ rest ->
  wire_size reading (p_string_size_type p) (List.length raw) lb -> zig_text p raw = Some s ->
  zig_str p inp pos = Got s (pos + List.length lb + List.length raw).
Proof.
  intros E L C; apply zig_str_sized.
  rewrite <- (app_nil_r inp) at 1; eapply sized_str_forward; eassumption.
Qed.

Lemma zig_str_back inp pos s q : zig_str p inp pos = Got s q ->
  exists lb raw rest, skipn pos inp = lb ++ raw ++ rest /\
    wire_size reading (p_string_size_type p) (List.length raw) lb /\
    q = (pos + List.length lb + List.length raw)%nat /\ Some raw = Some s.
Proof.
  intro H; apply zig_str_sized, sized_str_back in H; [|discriminate].
  destruct H as (lb & raw & rest & E & L & Q & T); apply zig_text_same in T as [-> _].
  exists lb, raw, rest; auto.
Qed.

Lemma zig_str_moves inp pos s q : zig_str p inp pos = Got s q -> (pos <= q)%nat.
Proof. intro H; apply zig_str_back in H as (lb & raw & rest & _ & _ & -> & _); lia. Qed.

(** For 32-bit lengths it takes 4 GiB of input to get an overflow. *)
Lemma zig_str_small inp pos : p_string_size_type p = "uint32"%string -> Z.of_nat (List.length inp) < 2 ^ 32 ->
  zig_str p inp pos <> Crash.
Proof.
  intros U L; unfold zig_str; rewrite U; change (zig_prim "uint32") with (Some NU32).
  destruct (read_num_cases NU32 inp pos) as [[v E]|E]; rewrite E; [|discriminate].
  apply read_num_got in E as (lb & rest & _ & N & _); destruct (integral_vint _ NU32 _ _ ltac:(discriminate) N) as [z ->].
  apply wire_num_vint in N; change (num_min NU32) with 0 in N; change (num_max NU32) with (2 ^ 32 - 1) in N |- *.
  change (num_size NU32) with 4%nat.
  destruct (Z.ltb_spec z 0); [lia|].
  destruct (Z.leb_spec (Z.of_nat (pos + 4) + z) (Z.of_nat (List.length inp))).
  - destruct (Z.leb_spec (z + Z.of_nat 4) (2 ^ 32 - 1)); [discriminate|lia].
  - destruct (Z.leb_spec (2 ^ 32) z); [lia|discriminate].
Qed.
End Str.

(** ** Reading *)

Lemma zig_read_code p s m : WF p -> v_list m = false -> declared_type p (v_type m) ->
  zig_read p s m = local_code p (zig_local s m) (v_type m).
Proof.
  intros W L T; unfold zig_read, local_code; rewrite L.
  destruct (type_cases p (v_type m) W T) as [k K M S E _| E1 E _|e k K M S _ E KE NB|st K M S E _].
  - now rewrite M, zig_prim_num, K.
  - rewrite E1 in *; rewrite E; reflexivity.
  - now rewrite M, S, E, zig_prim_num, K, KE.
  - now rewrite M, S, E, K.
Qed.
Lemma zig_write_code p m : WF p -> v_list m = false -> declared_type p (v_type m) ->
  zig_write p m = wone p (SField (v_name m)) (v_type m).
Proof.
  intros W L T; unfold zig_write, wone, enum_num; rewrite L.
  destruct (type_cases p (v_type m) W T) as [k K M S E _| E1 E _|e k K M S _ E KE NB|st K M S E _].
  - now rewrite M, zig_prim_num, K.
  - rewrite E1 in *; rewrite E; reflexivity.
  - now rewrite M, S, E, zig_prim_num, K, KE.
  - now rewrite M, S, E, K.
Qed.

Definition zig_touched (s : struct) (m : var) : list string :=
  if v_list m then [zig_local s m; ""%string] else [zig_local s m].

Lemma zig_local_some s m : zig_local s m <> ""%string.
Proof. unfold zig_local; destruct (s_name s); discriminate. Qed.

Lemma zig_apart s ms : NoDup (map v_name ms) -> apart (zig_local s) (zig_touched s) ms.
Proof.
  induction ms as [|m ms IH]; intro ND; [exact Logic.I|]; inversion ND as [|? ? NI ND']; subst.
  split; [|now apply IH].
  intros m' I T.
  assert (X : zig_local s m = zig_local s m').
  { unfold zig_touched in T; destruct (v_list m'); destruct T as [T|T]; auto.
    - destruct T as [T|[]]; symmetry in T; now apply zig_local_some in T.
    - destruct T. }
  apply NI; apply zig_local_inj in X; rewrite X; now apply in_map.
Qed.

Section ZIG.
Variable room : string -> Z.
Variable p : protocol.
Hypothesis W : WF p.
Hypothesis COMPILES : zig_compiles p = true.

Section Read.
Hypothesis READS : zig_reads p = true.

Lemma zig_flat_members t s m : declares p t s -> is_simple p t = true -> In m (s_members s) -> flat_member p m.
Proof.
  intros D SI I; split.
  - eapply fixed_members_list; [eapply simple_fixed_members|]; eassumption.
  - unfold zig_reads in READS; apply andb_true_iff in READS as [_ F].
    rewrite forallb_forall in F; specialize (F (t, s)); cbn [snd] in F.
    rewrite (declares_name p t s W D), SI in F; cbn [negb orb] in F.
    assert (IN : In (t, s) (p_structs p ++ p_messages p)) by (apply in_or_app; exact D).
    specialize (F IN); rewrite forallb_forall in F; specialize (F m I); apply orb_true_iff in F as [F|F].
    + left; destruct (type_cases p _ W (wf_member_types p W t s m D I)) as [k K M S E _| E1 E _|e k K M S _ E KE NB|st K M S E _];
        try congruence; eauto.
      rewrite E1 in F; discriminate.
    + right; apply mem_exists in F; exact F.
Qed.

Lemma zig_body inp call fuel t s st : call_ok (zig_rt room) p inp call (zig_make room) fuel -> declares p t s ->
  agrees (dec_members (zig_make room) p inp (dec zig_str (zig_make room) only_declared p inp fuel) (s_members s) (r_pos st))
    (exec (zig_rt room) p inp call (zig_reader p s) st) (fun fs pos st' => r_obj st' = fs /\ r_pos st' = pos).
Proof.
  intros C D; destruct (is_simple p t) eqn:SI.
  - unfold zig_reader; rewrite (declares_name p t s W D), SI.
    rewrite exec_app.
    pose proof (flat_members (zig_rt room) p inp call (zig_make room) fuel W eq_refl C s (s_members s)
      (wf_member_nodup p W t s D) (fun m => zig_flat_members t s m D SI) 0 st ltac:(lia)) as F.
    cbn [Z.to_nat] in F; rewrite Nat.add_0_r in F; cbn [rt_str rt_enum zig_rt] in F.
    destruct (dec_members (zig_make room) p inp (dec zig_str (zig_make room) only_declared p inp fuel) (s_members s) (r_pos st))
      as [fs q| | | |]; cbn [agrees] in F |- *; auto.
    + destruct F as (s1 & -> & CO & P & _ & n & FM & N0 & ->); cbn [obind].
      change [RBuild ?b; ?a] with ([RBuild b] ++ [a]); rewrite exec_app.
      rewrite (build_ok (zig_rt room) p inp call (zig_local s) (s_members s) fs s1 CO); cbn [obind].
      rewrite exec_one; cbn [exec_stmt]; eexists; split; [reflexivity|]; split; [reflexivity|].
      cbn [set_pos set_obj r_pos]; rewrite P; do 2 f_equal.
      eapply (proj2 (fixed_size_fun p W)); [eapply simple_fixed_members; eassumption|exact FM].
    + destruct F as [s1 ->]; cbn; eauto.
    + now rewrite F.
  - eapply (body_locals (zig_rt room) p inp zig_reader (zig_make room) (zig_read p) zig_local zig_touched); eauto.
    + intros t' s' D'; apply zig_apart; exact (wf_member_nodup p W t' s' D').
    + intros call' fuel' t' s' m C' D' I; pose proof (wf_member_types p W t' s' m D' I) as T.
      unfold zig_touched; destruct (v_list m) eqn:L.
      * unfold zig_read; rewrite L; apply member_local_list; auto.
        intro z; cbn; unfold zig_make; destruct (_ || _); cbn; auto.
      * rewrite zig_read_code by assumption; now apply member_local_at.
    + unfold zig_reader; now rewrite (declares_name p t s W D), SI.
Qed.

Lemma zig_agrees inp fuel :
  call_ok (zig_rt room) p inp (run (zig_rt room) p zig_reader inp fuel) (zig_make room) fuel.
Proof. apply run_body; [exact W|]; intros; now apply zig_body with (t := t). Qed.

Lemma zig_from t inp pos : zig_from_bytes room p t inp pos = read_with (zig_rt room) zig_reader p t inp pos.
Proof. unfold zig_from_bytes; now rewrite COMPILES, READS. Qed.

Lemma zig_lent trap t z : (exists k, num_of (p_list_size_type p) = Some k /\ num_min k <= z <= num_max k) ->
  zig_make room t z = Crash -> trap = true.
Proof. unfold zig_make; destruct (_ || _); discriminate. Qed.
Lemma zig_len_ok : len_ok (zig_make room) p.
Proof. intros t z Z0 _ a b; unfold zig_make; destruct (Z.ltb_spec z 0); [discriminate|lia]. Qed.

Definition zig_taken (v0 v : val) : Prop := texted (zig_text p) v0 v /\ lists modest v0.
Lemma zig_kept t v bs : wire_in reading p t v bs -> zig_value p v -> zig_taken v v.
Proof. intros WI [S L]; split; [|exact L]; eapply text_kept; [exact (zig_txt p W)|exact WI|exact S]. Qed.
Lemma zig_some t v bs : wire_in reading p t v bs -> zig_value p v -> exists v', zig_taken v v'.
Proof. intros WI Q; exists v; eapply zig_kept; eassumption. Qed.

Lemma zig_reads_wire : has_room room -> reads_wire p zig_taken (zig_from_bytes room p).
Proof.
  intros ROOM t s v0 v bs inp pos rest D WI TX E; rewrite zig_from.
  eapply (good_reads_sized (zig_rt room) p zig_reader (zig_make room) (zig_text p) true W zig_agrees
    (fun _ _ _ => eq_refl) (zig_lent true) modest); try eassumption.
  - apply declared_kept.
  - intros u n M; unfold zig_make, modest in *; specialize (ROOM u).
    destruct (Z.ltb_spec (Z.of_nat n) 0); [lia|]; destruct (Z.ltb_spec (room u) (Z.of_nat n)); [lia|]; cbn; eauto.
  - exact (zig_str_forward p W).
Qed.

Lemma zig_reads_back : has_room room -> reads_back p (zig_value p) (zig_from_bytes room p).
Proof. intro ROOM; exact (reads_back_of _ _ _ _ zig_kept (zig_reads_wire ROOM)). Qed.

Lemma zig_only : only_wire p Some (zig_from_bytes room p).
Proof.
  intros t s inp pos v q; rewrite zig_from.
  exact (good_only (zig_rt room) p zig_reader (zig_make room) Some true W zig_agrees (fun _ _ _ => eq_refl) (zig_lent true)
    (declared_only p) zig_len_ok (zig_str_back p W) t s inp pos v q).
Qed.
Lemma zig_answers_trap : always_answers p true (zig_from_bytes room p).
Proof.
  intros t s inp pos; rewrite zig_from.
  exact (good_answers (zig_rt room) p zig_reader (zig_make room) true W zig_agrees (fun _ _ _ => eq_refl) (zig_lent true) t s inp pos).
Qed.
Lemma zig_answers t s inp pos : p_string_size_type p = "uint32"%string -> Z.of_nat (List.length inp) < 2 ^ 32 ->
  declares p t s -> answers false (zig_from_bytes room p t inp pos).
Proof.
  intros U L D; rewrite zig_from.
  assert (A : answers false (dec zig_str (zig_make room) only_declared p inp (depth_of p) t pos)).
  { eapply dec_answers; eauto.
    - intros q H; now apply zig_str_small in H.
    - apply zig_lent.
    - destruct D as [D|D]; [left; do 2 right; left; eexists; eassumption|right; eexists; eassumption].
    - now apply WF_fits_any. }
  erewrite read_with_dec; [exact A|apply zig_agrees|exact D|exact A].
Qed.
Lemma zig_enums : only_declared_enums p (zig_from_bytes room p).
Proof. eapply only_wire_enums; [exact W|exact zig_only]. Qed.
Lemma zig_truncated_trap : rejects_truncated p true (zig_from_bytes room p).
Proof. eapply only_wire_truncated; eauto using zig_only, zig_answers_trap. Qed.
Lemma zig_moves : moves p (zig_from_bytes room p).
Proof. exact (only_moves p Some _ zig_only). Qed.

(** ** Streams *)

Lemma zig_streams : streams (zig_stream room) p (zig_process room p).
Proof.
  constructor; [exact W|intros inp pos L; now apply Nat.leb_gt|apply byte_tag_ok| | |].
  - intros inp pos L; left; now apply Nat.leb_le.
  - intros b t _; apply case0_numbered.
  - intros max inp pos; unfold zig_process; now rewrite COMPILES, READS.
Qed.

Lemma zig_reads_streams : has_room room -> reads_streams p (zig_value p) (zig_process room p).
Proof. intro ROOM; exact (streams_read _ _ _ zig_streams _ _ zig_kept (zig_reads_wire ROOM)). Qed.
Lemma zig_stops_at_max : has_room room -> stops_at_max p (zig_value p) (zig_process room p).
Proof. intro ROOM; exact (streams_max _ _ _ zig_streams _ _ zig_kept (zig_reads_wire ROOM)). Qed.
Lemma zig_rejects_unknown : has_room room -> rejects_unknown p (zig_value p) (zig_process room p).
Proof. intro ROOM; exact (streams_unknown _ _ _ zig_streams _ _ zig_some (zig_reads_wire ROOM) eq_refl). Qed.
Lemma zig_rejects_cut : has_room room -> rejects_cut_streams p (zig_value p) true (zig_process room p).
Proof. intro ROOM; exact (streams_cut _ _ _ zig_streams true _ _ zig_some (zig_reads_wire ROOM) eq_refl zig_truncated_trap). Qed.
Lemma zig_only_streams : only_streams p Some (zig_process room p).
Proof. exact (streams_only _ _ _ _ zig_streams zig_only eq_refl). Qed.
Lemma zig_stream_answers_trap : stream_answers true (zig_process room p).
Proof. exact (streams_answer _ _ _ _ zig_streams true zig_only zig_answers_trap). Qed.
Lemma zig_stream_answers max inp pos : p_string_size_type p = "uint32"%string -> Z.of_nat (List.length inp) < 2 ^ 32 ->
  answers false (zig_process room p max inp pos).
Proof.
  intros U L; destruct zig_streams as [_ FIN TAG END CASE EQ]; rewrite EQ.
  apply (process_answers (zig_stream room) p FIN TAG END CASE zig_moves); intros t s q D; eapply zig_answers; eassumption.
Qed.

(** ** Packed buffers *)

Lemma zig_unpack_counted data nb rest n : data = header ++ nb ++ rest -> wire_num strict NU32 (VInt n) nb ->
  zig_unpack_data room p data = if 2 ^ 31 <=? n then RTrap else shifted 8 (unpack_counted (zig_stream room) p n n rest 0).
Proof.
  intros -> N; assert (LN : List.length nb = 4%nat) by (inversion N; subst; assumption).
  unfold zig_unpack_data; rewrite COMPILES, READS; cbn [andb].
  rewrite (proj2 (Nat.ltb_ge _ _)) by (rewrite !app_length; cbn; lia).
  cbn [firstn header List.app].
  destruct (list_eq_dec Byte.byte_eq_dec _ _) as [_|NE]; [|contradiction NE; reflexivity].
  assert (E0 : skipn 0 (header ++ nb ++ rest) = header ++ nb ++ rest) by reflexivity.
  pose proof (read_count _ 0 nb rest n E0 N) as RC; cbn [Nat.add header List.app] in RC |- *; rewrite RC.
  replace (skipn 8 _) with rest; [reflexivity|].
  cbn [skipn]; do 5 (destruct nb as [|? nb]; try discriminate LN); reflexivity.
Qed.

(** Counts from 2^31 on. *)
Definition zig_stops (over : res (list (string * val))) (up : unpacker) : Prop :=
  forall inp pos nb rest n, skipn pos inp = header ++ nb ++ rest -> wire_num strict NU32 (VInt n) nb ->
    up inp pos = if 2 ^ 31 <=? n then over else shifted (pos + 8) (unpack_counted (zig_stream room) p n n rest 0).

Lemma zig_up_eq : zig_stops RTrap (zig_unpack room p).
Proof.
  intros inp pos nb rest n E N; unfold zig_unpack; rewrite (zig_unpack_counted _ nb rest n E N).
  destruct (_ <=? _); [reflexivity|].
  destruct (unpack_counted _ _ _ _ _ _); cbn [shifted]; f_equal; lia.
Qed.
Lemma zig_counts over trap up : fails trap over -> zig_stops over up -> counts (zig_stream room) p (2 ^ 31 - 1) trap up.
Proof.
  intros OV UP inp pos nb rest n E N; rewrite (UP _ _ _ _ _ E N).
  destruct (Z.leb_spec (2 ^ 31) n) as [L|L].
  - right; split; [lia|exact OV].
  - left; exists n, [], (pos + 8)%nat; split; [reflexivity|]; split; [auto|cbn; lia].
Qed.

Lemma zig_header inp pos : (forall rest, skipn pos inp <> header ++ rest) -> (pos + 4 <= List.length inp)%nat ->
  zig_unpack room p inp pos = RErr.
Proof.
  intros NH L; unfold zig_unpack, zig_unpack_data; rewrite COMPILES, READS; cbn [andb].
  rewrite (proj2 (Nat.ltb_ge _ _)) by (rewrite skipn_length; lia).
  destruct (list_eq_dec Byte.byte_eq_dec _ _) as [E|]; [|reflexivity].
  exfalso; apply (NH (skipn 4 (skipn pos inp))); rewrite <- E; symmetry; apply firstn_skipn.
Qed.
Lemma zig_short inp pos : (List.length (skipn pos inp) < 4)%nat -> zig_unpack room p inp pos = RTrap.
Proof.
  intro L; unfold zig_unpack, zig_unpack_data; rewrite COMPILES, READS; cbn [andb].
  now rewrite (proj2 (Nat.ltb_lt _ _)).
Qed.
Lemma zig_bad_header : rejects_bad_header true (zig_unpack room p).
Proof.
  intros inp pos NH; destruct (le_lt_dec 4 (List.length (skipn pos inp))) as [L|L].
  - left; apply zig_header; [exact NH|]; rewrite skipn_length in L; lia.
  - right; split; [reflexivity|now apply zig_short].
Qed.
Lemma zig_bad_count trap : rejects_bad_count trap (zig_unpack room p).
Proof.
  intros inp pos c E L; left; unfold zig_unpack, zig_unpack_data; rewrite COMPILES, READS, E; cbn [andb].
  rewrite (proj2 (Nat.ltb_ge _ _)) by (rewrite !app_length; cbn; lia).
  destruct (list_eq_dec Byte.byte_eq_dec _ _); [|reflexivity].
  assert (E0 : skipn 0 (header ++ c) = header ++ c) by reflexivity.
  destruct (read_count_short _ 0 c E0 L) as [q RC]; cbn [Nat.add] in RC; rewrite RC; reflexivity.
Qed.

Lemma zig_up : counts (zig_stream room) p (2 ^ 31 - 1) true (zig_unpack room p).
Proof. eapply zig_counts; [|exact zig_up_eq]; now right. Qed.
Lemma zig_unpacking : unpacking (zig_stream room) p (2 ^ 31 - 1) true (zig_unpack room p).
Proof. constructor; [exact zig_up|exact zig_bad_header|apply zig_bad_count]. Qed.

Lemma zig_unpacks : has_room room -> unpacks p (zig_value p) (2 ^ 31 - 1) (zig_unpack room p).
Proof. intro ROOM; exact (unpacking_reads _ _ _ zig_streams _ _ _ _ _ zig_up zig_kept (zig_reads_wire ROOM)). Qed.
Lemma zig_missing : rejects_missing p true (zig_unpack room p).
Proof. exact (unpacking_missing _ _ _ zig_streams _ _ _ zig_unpacking _ zig_only zig_answers_trap eq_refl). Qed.
Lemma zig_only_packed : only_packed p Some (zig_unpack room p).
Proof. exact (unpacking_only _ _ _ zig_streams _ _ _ zig_unpacking _ zig_only eq_refl). Qed.
Lemma zig_unpack_answers_trap : unpack_answers true (zig_unpack room p).
Proof. exact (unpacking_answers _ _ _ zig_streams _ _ _ zig_unpacking _ zig_only zig_answers_trap). Qed.

Lemma zig_unpack_answers inp pos nb rest n : p_string_size_type p = "uint32"%string -> Z.of_nat (List.length inp) < 2 ^ 32 ->
  skipn pos inp = header ++ nb ++ rest -> wire_num strict NU32 (VInt n) nb -> n < 2 ^ 31 ->
  answers false (zig_unpack room p inp pos).
Proof.
  intros U L E N SM; rewrite (zig_up_eq _ _ _ _ _ E N).
  destruct (Z.leb_spec (2 ^ 31) n); [lia|].
  destruct zig_streams as [_ FIN TAG END CASE EQ].
  assert (A : answers false (unpack_counted (zig_stream room) p n n rest 0)).
  { apply (counted_answers (zig_stream room) p FIN TAG END CASE); [exact zig_moves|].
    intros t s q D; eapply zig_answers; eauto.
    apply (f_equal (@List.length byte)) in E; rewrite skipn_length, !app_length in E; lia. }
  destruct (unpack_counted _ _ _ _ _ _); exact A.
Qed.
End Read.

(** ** Writing *)

Lemma elems_write call fuel t : wcall_ok zig_wt p call fuel -> len_as zig_wt p t -> declared_type p t ->
  fits_any p fuel t = true -> forall l bs, wire_elems strict p t l bs -> writes zig_wt (put_elems zig_wt p call t l) bs.
Proof.
  intros C LEN T F l; induction l as [|v l IH]; intros bs H; inversion H as [|? ? ? b1 b2 WI WE]; subst; [apply writes_nil|].
  cbn [put_elems]; apply writes_bind; [|now apply IH].
  pose proof (writes_one zig_wt p call fuel W C (SLocal "x") t v b1 [] [("x"%string, v)] LEN eq_refl T F WI) as X.
  eapply writes_ext; [|exact X]; intro w; unfold put_elem, wone.
  destruct (num_of t) as [k|] eqn:K; [now rewrite wexec_one|].
  destruct (String.eqb_spec t "string") as [->|NS].
  - destruct (enum_num p "string") eqn:EN; [|now rewrite wexec_one].
    unfold enum_num in EN; destruct (lookup "string" (p_enums p)) as [e|] eqn:L; [|discriminate].
    apply lookup_In in L; now destruct (enum_not_num p W _ e L).
  - destruct (enum_num p t); now rewrite wexec_one.
Qed.

Lemma zig_list_writes call fuel m : wcall_ok zig_wt p call fuel -> len_as zig_wt p (v_type m) -> v_list m = true ->
  declared_type p (v_type m) -> fits_any p fuel (v_type m) = true ->
  member_writes zig_wt p call m [WList (v_type m) (SField (v_name m))].
Proof.
  intros C LEN VL T F obj env v bs L H; inversion H as [|? vs lb bs' VL' (k & K & N) E]; subst; [congruence|].
  eapply writes_ext.
  - intro w; rewrite wexec_one; cbn [wexec_stmt fst wfetch]; rewrite L, K, (put_len_ok zig_wt _ _ _ _ N); reflexivity.
  - apply writes_bind; [apply writes_put|eapply elems_write; eassumption].
Qed.

Lemma simple_writes call : forall ms off fs bs obj env, 0 <= off ->
  (forall m, In m ms -> v_list m = false /\ exists k, num_of (v_type m) = Some k) ->
  (forall n v, In (n, v) fs -> lookup n obj = Some v) -> wire_members strict p ms fs bs ->
  exists cs, List.concat cs = bs /\ forall w,
    wexec zig_wt p call (zig_write_simple p off ms) obj env w
    = puts zig_wt cs {| w_buf := w_buf w; w_pos := (w_pos w + Z.to_nat off)%nat |}.
Proof.
  induction ms as [|m ms IH]; intros off fs bs obj env O OK L H; inversion H as [|? ? v fs' b1 b2 WM WS]; subst.
  - exists []; split; [reflexivity|]; intro w; cbn [zig_write_simple]; rewrite wexec_one; reflexivity.
  - destruct (OK m (or_introl eq_refl)) as [VL [k K]].
    inversion WM as [? ? ? _ WI|]; subst; [|congruence].
    pose proof (wire_num_inv _ p W _ _ _ _ K WI) as N.
    assert (LB : List.length b1 = num_size k) by (inversion N; subst; auto).
    assert (SZ : size_of p (v_type m) = Z.of_nat (num_size k)).
    { apply (size_of_num p W _ _ K). }
    assert (M : mem (v_type m) NUMERIC_TYPE_SIZES = true).
    { assert (T : declared_type p (v_type m)) by (left; apply num_of_base; eauto).
      destruct (type_cases p _ W T) as [k' K' M S E _| E1 E _|e' k' K' M S IE E KE NB|st' K' M S E L']; try congruence.
      rewrite E1 in K; discriminate. }
    destruct (IH (off + size_of p (v_type m)) fs' b2 obj env ltac:(lia)
      (fun m' I => OK m' (or_intror I)) (fun n v' I => L n v' (or_intror I)) WS) as (cs & CS & EQ).
    exists (b1 :: cs); split; [cbn; now rewrite CS|].
    intro w; cbn [zig_write_simple]; unfold zig_write_at; rewrite M, zig_prim_num, K; cbn [with_prim List.app].
    rewrite wexec_cons; cbn [wexec_stmt fst snd wfetch].
    rewrite (L _ _ (or_introl eq_refl)); unfold put_num; rewrite (wire_num_bytes _ _ _ N).
    cbn [puts]; change (wt_put zig_wt) with put_checked; unfold put_checked, put_fixed; cbn [w_buf w_pos].
    match goal with |- context [if ?c then _ else _] => destruct c end; cbn [wbind]; [|reflexivity].
    cbn [w_buf w_pos]; rewrite EQ; cbn [w_buf w_pos]; do 2 f_equal; lia.
Qed.

Section Write.
Hypothesis NUMBERS : numbers_only p.
Hypothesis SIZES : same_sizes p.

Lemma zig_len_as t s m : declares p t s -> In m (s_members s) -> len_as zig_wt p (v_type m).
Proof.
  intros D I E; destruct SIZES as [S|S]; [exact S|]; exfalso; exact (S t s m D I E).
Qed.

Lemma zig_writes t s v bs : declares p t s -> wire p t v bs -> writes zig_wt (zig_write_bytes p t v) bs.
Proof.
  intros D WI; apply (writes_ext zig_wt _ (write_with zig_wt zig_writer p t v)).
  { intro w; unfold zig_write_bytes; now rewrite COMPILES. }
  eapply write_body; eauto.
  clear t s v bs D WI; intros call fuel t s fs bs C D FM L WM; unfold zig_writer.
  rewrite (declares_name p t s W D).
  destruct (is_simple p t && negb (s_is_message s)) eqn:SM.
  - apply andb_true_iff in SM as [SI NM].
    assert (IS : In (t, s) (p_structs p)).
    { destruct D as [D|D]; [exact D|]; apply (wf_message_entry p W) in D as [_ D]; rewrite D in NM; discriminate. }
    pose proof (simple_fixed_members p t s W D SI) as FX.
    assert (FS : fixed_size p t (size_of p t)) by (econstructor 3; eassumption).
    destruct (simple_writes call (s_members s) 0 fs bs fs [] ltac:(lia)) as (cs & CS & EQ); auto.
    + intros m I; split; [eapply fixed_members_list; eassumption|].
      apply num_of_base; eapply NUMBERS; eassumption.
    + exists cs; split; [exact CS|]; intro w; rewrite EQ; cbn [Z.to_nat]; rewrite Nat.add_0_r; now destruct w.
  - eapply members_write; [|exact L|exact WM].
    intros m I; pose proof (wf_member_types p W t s m D I) as T; pose proof (zig_len_as t s m D I) as LEN.
    destruct (v_list m) eqn:VL.
    + unfold zig_write; rewrite VL; eapply zig_list_writes; eauto.
    + rewrite zig_write_code by assumption; eapply member_writes_one; eauto.
Qed.

Lemma elems_fit call t : call_fits p call -> len_as zig_wt p t -> forall l w w', can_hold_all p t l ->
  put_elems zig_wt p call t l w = WDone w' -> in_range_all p t l.
Proof.
  intros C STR; induction l as [|v l IH]; intros w w' H D; inversion H as [|? ? ? HV HL]; subst; [constructor|].
  cbn [put_elems] in D; apply wbind_done_inv in D as (w1 & D1 & D2); constructor; [|eapply IH; eassumption].
  unfold put_elem in D1; destruct (num_of t) as [k|] eqn:K; [exact (hold_num p W t k v K HV)|].
  unfold enum_num in D1; destruct (lookup t (p_enums p)) as [e|] eqn:L.
  { apply lookup_In in L; exact (hold_enum p W t e v L HV). }
  destruct (String.eqb_spec t "string") as [->|NS].
  - eapply (put_str_fits zig_wt p W eq_refl); eauto.
  - inversion HV; subst; try congruence.
    + apply lookup_None in L; exfalso; apply L, in_map_iff; now exists (t, e).
    + eapply C; eassumption.
Qed.

Lemma zig_refuses : refuses_overlong p (zig_write_bytes p).
Proof.
  intros t s v w w' D H E; unfold zig_write_bytes in E; rewrite COMPILES in E.
  revert t s v w w' D H E; change (refuses_overlong p (write_with zig_wt zig_writer p)).
  apply (write_fits zig_wt p W zig_writer); intros call t s fs w w' C D L H E; unfold zig_writer in E.
  rewrite (declares_name p t s W D) in E.
  destruct (is_simple p t && negb (s_is_message s)) eqn:SM.
  - apply andb_true_iff in SM as [SI NM].
    exact (proj2 (hold_fixed p W) _ _ (simple_fixed_members p t s W D SI) fs H).
  - eapply (members_fit zig_wt p call); [|exact L|exact H|exact E].
    intros m I; pose proof (wf_member_types p W t s m D I) as T; pose proof (zig_len_as t s m D I) as LEN.
    destruct (v_list m) eqn:VL.
    + unfold zig_write; rewrite VL; intros obj env w1 w2 v1 LO E1; rewrite VL; intros l -> HL.
      rewrite wexec_one in E1; cbn [wexec_stmt fst wfetch] in E1; rewrite LO in E1.
      destruct (list_size_num p W) as (k & K & NB); rewrite K in E1.
      apply wbind_done_inv in E1 as (w3 & E1 & E2); split; [|eapply elems_fit; eassumption].
      exists k; split; [exact K|]; eapply (put_len_fits zig_wt eq_refl); eassumption.
    + rewrite zig_write_code by assumption; apply member_fits_one; auto.
Qed.

Lemma zig_writer_fills : writer_does fills p (zig_write_bytes p).
Proof. intros t s v bs D WI; apply (writes_fills_checked zig_wt); [reflexivity|eapply zig_writes; eassumption]. Qed.
Lemma zig_writer_traps : writer_does traps_short p (zig_write_bytes p).
Proof. intros t s v bs D WI; apply (writes_traps zig_wt); [reflexivity|eapply zig_writes; eassumption]. Qed.
Lemma zig_tagged_writes m bs : wire_tagged strict p m bs -> writes zig_wt (zig_write_tagged p (fst m) (snd m)) bs.
Proof.
  destruct m as [t v]; intro WT; exact (write_tagged_ok zig_wt p (zig_write_bytes p) W zig_writes (t, v) bs WT).
Qed.
Lemma zig_tagged_fills : tagged_writer_does fills p (zig_write_tagged p).
Proof. intros m bs WT; apply (writes_fills_checked zig_wt); [reflexivity|now apply zig_tagged_writes]. Qed.
Lemma zig_tagged_traps : tagged_writer_does traps_short p (zig_write_tagged p).
Proof. intros m bs WT; apply (writes_traps zig_wt); [reflexivity|now apply zig_tagged_writes]. Qed.
Lemma zig_pack_writes ms bs : wire_packed strict p ms bs -> writes zig_wt (zig_pack p ms) bs.
Proof. exact (pack_ok zig_wt p (zig_write_bytes p) W zig_writes ms bs). Qed.
Lemma zig_packs : packer_does fills p (zig_pack p).
Proof. intros ms bs H; apply (writes_fills_checked zig_wt); [reflexivity|now apply zig_pack_writes]. Qed.
Lemma zig_packs_traps : packer_does traps_short p (zig_pack p).
Proof. intros ms bs H; apply (writes_traps zig_wt); [reflexivity|now apply zig_pack_writes]. Qed.
End Write.

(** ** Size *)

Lemma zig_no_loops lvl t i : ~ loop_at zig_style p lvl t i.
Proof. intro H; induction H; try contradiction; discriminate. Qed.

Lemma zig_exact_size : exact_size p (zig_size p).
Proof.
  intros t s v bs D WI; unfold zig_size; rewrite COMPILES.
  eapply size_ok_gen; eauto.
  - intros lvl t' s' m i _ _ _ _; apply zig_no_loops.
  - discriminate.
Qed.
Lemma zig_exact_packed_size : exact_packed_size p (zig_packed_size p).
Proof.
  intros ms bs H; unfold zig_packed_size.
  rewrite (packed_size_ok p (zig_size p) ms bs W); [reflexivity| |exact H].
  intros t s v b D WI I; eapply zig_exact_size; eassumption.
Qed.
End ZIG.

(** ** Protocols that work *)

Lemma nodup_app_iff {A} (a b : list A) : NoDup (a ++ b) <-> NoDup a /\ NoDup b /\ (forall x, In x a -> ~ In x b).
Proof.
  split; [|intros (X & Y & Z); now apply nodup_app].
  induction a as [|x a IH]; cbn; intro H; [split; [constructor|split; [exact H|intros _ []]]|].
  inversion H as [|? ? N H']; subst; destruct (IH H') as (X & Y & Z).
  rewrite in_app_iff in N; split; [constructor; tauto|split; [exact Y|]].
  intros y [<-|I]; [tauto|now apply Z].
Qed.

Lemma nodup_flat {A B} (f g : A -> list B) ms : (forall m, In m ms -> incl (f m) (g m) /\ NoDup (f m)) ->
  NoDup (flat_map g ms) -> NoDup (flat_map f ms).
Proof.
  induction ms as [|m ms IH]; intros H N; cbn [flat_map] in *; [constructor|].
  apply nodup_app_iff in N as (N1 & N2 & N3).
  destruct (H m (or_introl eq_refl)) as [I ND].
  apply nodup_app_iff; split; [exact ND|]; split; [apply IH; [intros; apply H; now right|exact N2]|].
  intros x X Y; apply (N3 x (I x X)); apply in_flat_map in Y as (m' & I' & Y).
  apply in_flat_map; exists m'; split; [exact I'|]; now apply (H m' (or_intror I')).
Qed.

Lemma zig_top_names n : In n zig_top <-> In n zig_fixed_names.
Proof. split; intro H; cbn in H; repeat (destruct H as [<-|H]; [cbn; tauto|]); destruct H. Qed.
Lemma zig_inner_names n : In n zig_inner -> In n zig_names_inside.
Proof. intro H; cbn in H; repeat (destruct H as [<-|H]; [cbn; tauto|]); destruct H. Qed.
Lemma zig_capture_el n : zig_capture n = true -> numbered_el n.
Proof.
  unfold zig_capture, numbered_el; destruct n as [|[[] [] [] [] [] [] [] []] n]; try discriminate.
  destruct n as [|[[] [] [] [] [] [] [] []] n]; try discriminate; destruct n as [|c r]; try discriminate.
  intro H; apply andb_true_iff in H as [H _]; unfold zig_digit in H; apply andb_true_iff in H as [A B].
  apply Nat.leb_le in A, B; exists c, r; auto.
Qed.

Lemma simple_fixed p t s : WF p -> declares p t s -> is_simple p t = true -> fixed_size p t (size_of p t).
Proof. intros W D SI; econstructor 3; [exact D|now apply simple_fixed_members]. Qed.

Lemma zig_struct_ok p t s : WF p -> declares p t s -> zig_names p -> zig_struct_compiles p s = true.
Proof.
  intros W D (_ & _ & LOC & OUT & (M1 & M2 & M3 & M4) & NUM); unfold zig_struct_compiles.
  pose proof (declares_name p t s W D) as EN.
  assert (IN : forall m, incl (zig_locals p s m) (zig_constants t m) /\ NoDup (zig_locals p s m)).
  { intro m; unfold zig_locals, zig_constants, zig_local; rewrite EN; destruct (_ && _).
    - split; [intros x [<-|[]]; right; now left|constructor; [intros []|constructor]].
    - assert (AS : forall a b c, ((a +++ b) +++ c = a +++ (b +++ c))%string).
      { induction a; intros; cbn; [reflexivity|now rewrite IHa]. }
      rewrite !AS; split; [apply incl_refl|].
      constructor; [|constructor; [intros []|constructor]].
      intros [H|[]]; rewrite <- !AS in H; symmetry in H; revert H.
      generalize ((t +++ "_") +++ v_name m)%string; clear; intros n H.
      apply (f_equal String.length) in H; rewrite str_app_length in H; cbn in H; lia. }
  apply andb_true_iff; split; [apply andb_true_iff; split; [apply andb_true_iff; split|]|].
  - apply negb_true_iff, has_dup_str_false.
    specialize (LOC t s D); apply nodup_app_iff in LOC as (N1 & N2 & N3).
    apply nodup_app_iff; split; [|split].
    + unfold zig_params; destruct (is_simple p (s_name s)); apply has_dup_str_false; reflexivity.
    + eapply nodup_flat; [|exact N2]; intros m _; apply IN.
    + intros x X Y; apply (N3 x).
      * unfold zig_params in X; destruct (is_simple p (s_name s)); cbn in X |- *; tauto.
      * apply in_flat_map in Y as (m & I & Y); apply in_flat_map; exists m; split; [exact I|now apply (IN m)].
  - apply forallb_forall; intros x X; apply negb_true_iff, in_strs_false; intro Y.
    apply in_flat_map in X as (m & I & X); apply (IN m) in X.
    apply (OUT t s m x D I X); apply in_app_iff in Y as [Y|Y]; apply in_app_iff; [left; now apply zig_top_names|now right].
  - apply forallb_forall; intros m I; apply negb_true_iff, in_strs_false.
    assert (IM : In (v_name m) (map v_name (s_members s))) by now apply in_map.
    intro H; cbn in H; destruct H as [H|[H|[H|[H|[]]]]]; rewrite <- H in IM;
      [exact (M1 t s D IM)|exact (M2 t s D IM)|exact (M3 t s D IM)|exact (M4 t s D IM)].
  - destruct (s_is_message s) eqn:MS; [reflexivity|]; rewrite EN; destruct (is_simple p t) eqn:SI; [cbn|reflexivity].
    assert (IS : In (t, s) (p_structs p)).
    { destruct D as [D|D]; [exact D|]; apply (wf_message_entry p W) in D as [_ D]; rewrite D in MS; discriminate. }
    destruct (NUM t s _ IS (simple_fixed p t s W D SI)) as (m & I & B).
    apply existsb_exists; exists m; split; [exact I|].
    apply num_of_base in B as [k K].
    destruct (type_cases p _ W (wf_member_types p W t s m D I)) as [k' K' M S E _| E1 E _|e' k' K' M S IE E KE NB|st' K' M S E L]; try congruence.
    rewrite E1 in K; discriminate.
Qed.

Lemma zig_compiles_ok p : WF p -> zig_names p -> zig_compiles p = true.
Proof.
  intros W N; unfold zig_compiles; apply andb_true_iff; split; [apply andb_true_iff; split|].
  - destruct N as (N & _); apply nodup_app_iff in N as (N1 & N2 & N3).
    apply negb_true_iff, has_dup_str_false, nodup_app_iff; split; [apply has_dup_str_false; reflexivity|].
    split; [exact N2|]; intros x X; apply N3; now apply zig_top_names.
  - destruct N as (_ & N & _); apply forallb_forall; intros t T; destruct (N t T) as [A B].
    apply andb_true_iff; split; apply negb_true_iff.
    + apply in_strs_false; intro H; now apply A, zig_inner_names.
    + apply not_true_iff_false; intro H; now apply B, zig_capture_el.
  - apply forallb_forall; intros [t s] I; cbn [snd]; apply zig_struct_ok with (t := t); auto.
    apply in_app_iff in I; exact I.
Qed.

Lemma zig_reads_ok p : WF p -> unsigned_sizes p -> flat p -> zig_reads p = true.
Proof.
  intros W (UL & US) F; unfold zig_reads.
  assert (U : forall t, unsigned_type t -> zig_unsigned t = true).
  { intros t H; unfold zig_unsigned; now apply in_strs_true. }
  apply andb_true_iff; split; [apply andb_true_iff; split|].
  - destruct UL as [H|H]; [now rewrite U|]; apply orb_true_iff; right.
    apply negb_true_iff, not_true_iff_false; intro X; apply existsb_exists in X as ([t s] & I & X).
    apply existsb_exists in X as (m & IM & X); rewrite (H t s m) in X; [discriminate| |exact IM].
    apply in_app_iff in I; exact I.
  - destruct US as [H|H]; [now rewrite U|]; apply orb_true_iff; right.
    apply negb_true_iff, not_true_iff_false; intro X; apply existsb_exists in X as ([t s] & I & X).
    apply existsb_exists in X as (m & IM & X); apply String.eqb_eq in X; apply (H t s m) in X; auto.
    apply in_app_iff in I; exact I.
  - apply forallb_forall; intros [t s] I; cbn [snd]; assert (D : declares p t s) by (apply in_app_iff in I; exact I).
    rewrite (declares_name p t s W D); destruct (is_simple p t) eqn:SI; [cbn|reflexivity].
    apply forallb_forall; intros m IM.
    destruct (type_cases p _ W (wf_member_types p W t s m D IM)) as [k' K' M S E _| E1 E _|e' k' K' M S IE E KE NB|st' K' M S E L].
    + now rewrite M.
    + exfalso; pose proof (simple_fixed_members p t s W D SI) as FM.
      assert (X : exists n, fixed_size p (v_type m) n).
      { revert IM; clear - FM; induction FM; intros []; subst; eauto. }
      destruct X as [n X]; rewrite E1 in X; inversion X as [? ? B|? e ? IE|? st ? D' M]; subst.
      * apply base_size_In, num_of_base in B as [k B]; discriminate.
      * now destruct (enum_not_num p W _ e IE).
      * now destruct (declares_not_num p W _ st D').
    + unfold mem at 2; rewrite E; apply orb_true_r.
    + exfalso; apply (F t s _ m D (simple_fixed p t s W D SI) IM); exists st'; now apply lookup_In.
Qed.

(** ** Fresh objects *)

Lemma zig_fresh p t s : WF p -> declares p t s -> fresh p t (VStruct (zig_default p (depth_of p) t)).
Proof.
  intros W D.
  pose (def := fun d m =>
         if v_list m then VList []
         else match lookup (v_type m) zig_defaults with
         | Some v => v
         | None =>
             match lookup (v_type m) (p_enums p) with
             | Some e => match get_default_pair e with Some (_, z) => VInt z | None => VUndef end
             | None => VStruct (zig_default p d (v_type m))
             end
         end).
  apply (init_fresh p W (zig_default p) def) with (s := s); [| |exact D|now apply WF_fits_any].
  - intros d t' s' D'; cbn [zig_default]; rewrite (find_declares p W t' s' D'); reflexivity.
  - assert (NUM : forall t k, num_of t = Some k -> lookup t zig_defaults = Some (zero_of k)).
    { intros t' k K; apply num_of_in in K as I; cbn in I.
      repeat (destruct I as [<-|I]; [injection K as <-; reflexivity|]); destruct I. }
    assert (NONE : forall t, num_of t = None -> String.eqb t "string" = false -> lookup t zig_defaults = None).
    { intros t' K S; unfold num_of in K; unfold zig_defaults; cbn [lookup] in *.
      repeat match type of K with context [String.eqb t' ?x] => destruct (String.eqb t' x); [discriminate|] end.
      now rewrite S. }
    intros d t' s' m D' I; unfold def; destruct (v_list m); [reflexivity|].
    destruct (type_cases p (v_type m) W (wf_member_types p W t' s' m D' I)) as [k K M S E L| E1 E L|e k K M S IE E KE _|s'' K M S E L].
    + rewrite (NUM _ _ K); now apply default_num.
    + rewrite E1 in *; cbn; now apply default_str.
    + rewrite (NONE _ K S), E; unfold get_default_pair.
      destruct (wf_enum_values p W _ e IE) as [NE _].
      destruct (e_values e) as [|[n z] r] eqn:EV; [now contradiction NE|]; cbn [hd_error].
      eapply default_enum; eassumption.
    + rewrite (NONE _ K S), E; eapply default_struct; eassumption.
Qed.
