(** From agreement with the reference reader to statements about generated
    readers. *)
From Verif Require Export WireExec IRFacts Utf8Facts.
Open Scope list_scope.

(** ** Strings *)

Section Str.
Variable p : protocol.
Hypothesis W : WF p.

Lemma sized_str_forward neg conv inp extra pos s lb raw rest :
  skipn pos inp = lb ++ raw ++ rest ->
  wire_size reading (p_string_size_type p) (List.length raw) lb -> conv raw = Some s ->
  sized_str neg conv p (inp ++ extra) inp pos = Got s (pos + List.length lb + List.length raw).
Proof.
  intros E (k & K & N) C; unfold sized_str; rewrite K.
  rewrite (proj2 (read_num_got k inp pos (VInt (Z.of_nat (List.length raw))) (pos + List.length lb))) by eauto.
  replace (Z.of_nat (List.length raw) <? 0) with false by (symmetry; apply Z.ltb_ge; lia).
  pose proof (at_next _ _ _ _ E) as E'.
  destruct (le_lt_dec (List.length raw) 0) as [R0|R0].
  - destruct raw; [|cbn in R0; lia]. rewrite Nat2Z.id; cbn [firstn List.length]; rewrite C.
    destruct (Z.leb_spec (Z.of_nat (pos + List.length lb) + Z.of_nat 0) (Z.of_nat (List.length (inp ++ extra)))) as [H|H]; [reflexivity|].
    exfalso. rewrite app_length in H.
    assert (LB : (1 <= List.length lb)%nat).
    { inversion N; subst; cbn in *; try lia. destruct k; cbn in *; try congruence; lia. }
    pose proof (at_length _ _ _ _ E ltac:(intros ->; cbn in LB; lia)) as L0; lia.
  - destruct (Z.leb_spec (Z.of_nat (pos + List.length lb) + Z.of_nat (List.length raw)) (Z.of_nat (List.length (inp ++ extra)))) as [H|H].
    2:{ exfalso; rewrite app_length in H.
        pose proof (at_length _ _ _ _ E' ltac:(intros ->; cbn in R0; lia)) as L; lia. }
    rewrite Nat2Z.id, skipn_app, E', <- app_assoc, firstn_app, Nat.sub_diag, firstn_all, app_nil_r, C.
    reflexivity.
Qed.

Lemma sized_str_back neg conv inp pos s pos' :
  (forall s pos, neg <> Got s pos) ->
  sized_str neg conv p inp inp pos = Got s pos' ->
  exists lb raw rest, skipn pos inp = lb ++ raw ++ rest /\
    wire_size reading (p_string_size_type p) (List.length raw) lb /\
    pos' = (pos + List.length lb + List.length raw)%nat /\ conv raw = Some s.
Proof.
  intros NEG; unfold sized_str; destruct (num_of (p_string_size_type p)) as [k|] eqn:K; [|discriminate].
  destruct (read_num k inp pos) as [v q| |] eqn:R; try discriminate.
  destruct v as [z| | | | |]; try discriminate.
  destruct (Z.ltb_spec z 0) as [Z0|Z0]; [intro H; now apply NEG in H|].
  destruct (Z.leb_spec (Z.of_nat q + z) (Z.of_nat (List.length inp))) as [H|H]; [|discriminate].
  destruct (conv (firstn (Z.to_nat z) (skipn q inp))) as [s'|] eqn:C; [|discriminate]; intros [= <- <-].
  apply read_num_got in R as (lb & rest & E & N & ->).
  pose proof (at_next _ _ _ _ E) as E'.
  rewrite E' in C.
  exists lb, (firstn (Z.to_nat z) rest), (skipn (Z.to_nat z) rest).
  assert (L : List.length (firstn (Z.to_nat z) rest) = Z.to_nat z).
  { apply firstn_length_le; rewrite <- E', skipn_length; lia. }
  rewrite firstn_skipn, L; repeat split; auto.
  exists k; split; [assumption|]; now rewrite Z2Nat.id.
Qed.

Lemma sized_str_within neg conv inp pos s q : (forall s pos, neg <> Got s pos) ->
  sized_str neg conv p inp inp pos = Got s q -> (q <= List.length inp)%nat.
Proof.
  intros NEG; unfold sized_str; destruct (num_of (p_string_size_type p)) as [k|]; [|discriminate].
  destruct (read_num k inp pos) as [v q'| |]; try discriminate.
  destruct v as [z| | | | |]; try discriminate.
  destruct (Z.ltb_spec z 0) as [Z0|Z0]; [intro H; now apply NEG in H|].
  destruct (Z.leb_spec (Z.of_nat q' + z) (Z.of_nat (List.length inp))) as [H|H]; [|discriminate].
  destruct (conv _); [|discriminate]; intros [= _ <-]; lia.
Qed.

Lemma sized_str_text neg conv buf inp pos s q : (forall s q, neg <> Got s q) ->
  sized_str neg conv p buf inp pos = Got s q -> exists raw, conv raw = Some s.
Proof.
  intros NEG; unfold sized_str; destruct (num_of (p_string_size_type p)) as [k|]; [|discriminate].
  destruct (read_num k inp pos) as [[z| | | | |] q'| |]; try discriminate.
  destruct (z <? 0); [intro H; now apply NEG in H|]; destruct (_ <=? _); [|discriminate].
  destruct (conv _) eqn:C; [|discriminate]; intros [= <- _]; eauto.
Qed.

Lemma sized_str_crash neg conv buf inp pos : sized_str neg conv p buf inp pos = Crash -> neg = Crash.
Proof.
  unfold sized_str; destruct (integral_num _ (wf_string_size p W)) as (k & -> & NB & _).
  destruct (read_num k inp pos) as [v q|q|] eqn:R; try discriminate.
  - apply read_num_got in R as (lb & rest & E & N & _); destruct (integral_vint _ _ _ _ NB N) as [z ->].
    destruct (z <? 0); [auto|]; destruct (_ <=? _); [|discriminate]; destruct (conv _); discriminate.
  - destruct (read_num_cases k inp pos) as [[v X]|X]; congruence.
Qed.

(** Negative lengths cannot be read with an unsigned size type. *)
Lemma sized_str_crash_unsigned neg conv buf inp pos k :
  num_of (p_string_size_type p) = Some k -> num_min k = 0 ->
  sized_str neg conv p buf inp pos <> Crash.
Proof.
  intros K U; unfold sized_str; rewrite K.
  destruct (integral_num _ (wf_string_size p W)) as (k' & K' & NB & _); rewrite K in K'; injection K' as <-.
  destruct (read_num k inp pos) as [v q|q|] eqn:R; try discriminate.
  - apply read_num_got in R as (lb & rest & E & N & _); destruct (integral_vint _ _ _ _ NB N) as [z ->].
    apply wire_num_vint in N as [N _]; rewrite U in N.
    replace (z <? 0) with false by (symmetry; apply Z.ltb_ge; lia).
    destruct (_ <=? _); [|discriminate]; destruct (conv _); discriminate.
  - destruct (read_num_cases k inp pos) as [[v X]|X]; congruence.
Qed.
End Str.

(** ** A run of generated code and the reference reader *)

Section Run.
Variable R : rt.
Variable p : protocol.
Variable inp : list byte.
Variable code : protocol -> struct -> list rstmt.
Variable mcode : struct -> var -> list rstmt.
Variable len : string -> Z -> got unit.
Hypothesis W : WF p.
Notation dec := (dec (rt_str R) len (rt_enum R) p inp).

Hypothesis CODE : forall t s, declares p t s -> code p s = flat_map (mcode s) (s_members s).
Hypothesis INIT : forall t s, declares p t s -> map fst (rt_init R p t) = map v_name (s_members s).
Hypothesis MEMBER : forall call fuel t s m, call_ok R p inp call len fuel -> declares p t s -> In m (s_members s) ->
  member_ok R p inp call len fuel m (mcode s m).

Lemma run_agrees fuel : call_ok R p inp (run R p code inp fuel) len fuel.
Proof.
  induction fuel as [|f IH]; intros t s pos D.
  - destruct (declares_not_num p W t s D) as (A & B & C); apply String.eqb_neq in B.
    cbn [Dec.dec]; rewrite A, B, (find_declares p W t s D).
    destruct (lookup t (p_enums p)) as [e|] eqn:L; [apply lookup_In in L; now apply C in L|exact I].
  - destruct (declares_not_num p W t s D) as (A & B & C); apply String.eqb_neq in B.
    cbn [Dec.dec run]; rewrite A, B, (find_declares p W t s D).
    destruct (lookup t (p_enums p)) as [e|] eqn:L; [apply lookup_In in L; now apply C in L|].
    rewrite (CODE t s D).
    pose proof (members_ok R p inp (run R p code inp f) len f (mcode s) (s_members s)
                  (wf_member_nodup p W t s D) (fun m H => MEMBER _ f t s m IH D H)
                  [] (rt_init R p t) {| r_pos := pos; r_obj := rt_init R p t; r_env := [] |}
                  (INIT t s D) eq_refl (fun _ _ H => H)) as M.
    cbn [r_pos] in M.
    destruct (dec_members len p inp (dec f) (s_members s) pos) as [fs q| | | |]; cbn [agrees rbind] in M |- *; auto.
    destruct M as (s' & -> & O & P); exists s'; split; [reflexivity|].
    cbn in O; rewrite O; auto.
Qed.

End Run.

(** If the reference reader gives an answer, the generated reader gives the same. *)
Lemma read_with_dec R p inp code len t s pos trap :
  call_ok R p inp (run R p code inp (depth_of p)) len (depth_of p) ->
  declares p t s -> answers trap (dec (rt_str R) len (rt_enum R) p inp (depth_of p) t pos) ->
  read_with R code p t inp pos = dec (rt_str R) len (rt_enum R) p inp (depth_of p) t pos.
Proof.
  intros C D A; unfold read_with; pose proof (C t s pos D) as G.
  destruct (dec _ _ _ _ _ (depth_of p) t pos) as [v q| | | |]; cbn [agrees answers] in *; try contradiction.
  - destruct G as (c & -> & -> & ->); reflexivity.
  - destruct G as [c ->]; reflexivity.
  - now rewrite G.
Qed.

(** ** What holds of a reader that agrees with the reference reader *)

Lemma lists_any v : lists (fun _ => True) v.
Proof.
  induction v using val_ind2; constructor; auto.
  - intros w I; rewrite Forall_forall in H; now apply H.
  - intros n w I; rewrite Forall_forall in H; exact (H _ I).
Qed.

Lemma declared_kept p : enums_kept only_declared p.
Proof.
  intros t e z _ I; unfold only_declared.
  replace (existsb _ _) with true; [reflexivity|].
  symmetry; apply existsb_exists; exists z; split; [assumption|apply Z.eqb_refl].
Qed.
Lemma declared_only p : enums_only only_declared p.
Proof.
  intros t e z z' _; unfold only_declared; destruct (existsb _ _) eqn:X; [|discriminate]; intros [= <-].
  apply existsb_exists in X as (z' & X & Y); apply Z.eqb_eq in Y as <-; auto.
Qed.


(** An encoded value is read as any other that it is in relation [T] with. *)
Definition reads_wire (p : protocol) (T : val -> val -> Prop) (rd : reader) : Prop :=
  forall t s v0 v bs inp pos rest, declares p t s ->
    wire_in reading p t v0 bs -> T v0 v -> skipn pos inp = bs ++ rest ->
    rd t inp pos = ROk v (pos + List.length bs).

Section Good.
Variable R : rt.
Variable p : protocol.
Variable code : protocol -> struct -> list rstmt.
Variable len : string -> Z -> got unit.
Variable txt : list byte -> option (list byte).
Variable trap : bool.
Hypothesis W : WF p.
Hypothesis AGREES : forall inp fuel, call_ok R p inp (run R p code inp fuel) len fuel.
Hypothesis STRT : forall inp pos, rt_str R p inp pos = Crash -> trap = true.
Hypothesis LENT : forall t z, (exists k, num_of (p_list_size_type p) = Some k /\ num_min k <= z <= num_max k) ->
  len t z = Crash -> trap = true.

Lemma dec_answers_top t s inp pos : declares p t s ->
  answers trap (dec (rt_str R) len (rt_enum R) p inp (depth_of p) t pos).
Proof.
  intro D; eapply dec_answers; try eassumption; [exact (STRT inp)| |].
  - destruct D as [D|D]; [left; do 2 right; left; eexists; eassumption|right; eexists; eassumption].
  - now apply WF_fits_any.
Qed.

Lemma good_answers : always_answers p trap (read_with R code p).
Proof.
  intros t s inp pos D; pose proof (dec_answers_top t s inp pos D) as A.
  erewrite read_with_dec; eauto.
Qed.

Lemma good_reads_sized (sized : nat -> Prop) :
  enums_kept (rt_enum R) p ->
  (forall t n, sized n -> exists a b, len t (Z.of_nat n) = Got a b) ->
  (forall inp pos s lb raw rest, skipn pos inp = lb ++ raw ++ rest ->
     wire_size reading (p_string_size_type p) (List.length raw) lb -> txt raw = Some s ->
     rt_str R p inp pos = Got s (pos + List.length lb + List.length raw)) ->
  reads_wire p (fun v0 v => texted txt v0 v /\ lists sized v0) (read_with R code p).
Proof.
  intros ENUMS LEN STR t s v0 v bs inp pos rest D WI [T LS] E; pose proof (dec_answers_top t s inp pos D) as A.
  erewrite read_with_dec; eauto.
  pose proof (dec_forward (rt_str R) len (rt_enum R) txt p W STR ENUMS sized LEN) as (F & _).
  exact (F t v0 bs WI v inp pos rest (depth_of p) LS E T (WF_fits_any p t W)).
Qed.

Lemma good_reads :
  enums_kept (rt_enum R) p ->
  (forall t z, 0 <= z -> exists a b, len t z = Got a b) ->
  (forall inp pos s lb raw rest, skipn pos inp = lb ++ raw ++ rest ->
     wire_size reading (p_string_size_type p) (List.length raw) lb -> txt raw = Some s ->
     rt_str R p inp pos = Got s (pos + List.length lb + List.length raw)) ->
  reads_wire p (texted txt) (read_with R code p).
Proof.
  intros ENUMS LEN STR t s v0 v bs inp pos rest D WI T E.
  refine (good_reads_sized (fun _ => True) ENUMS (fun t n _ => LEN t (Z.of_nat n) (Nat2Z.is_nonneg n)) STR
            t s v0 v bs inp pos rest D WI (conj T (lists_any v0)) E).
Qed.

Lemma good_only :
  enums_only (rt_enum R) p ->
  len_ok len p ->
  (forall inp pos s pos', rt_str R p inp pos = Got s pos' ->
     exists lb raw rest, skipn pos inp = lb ++ raw ++ rest /\
       wire_size reading (p_string_size_type p) (List.length raw) lb /\
       pos' = (pos + List.length lb + List.length raw)%nat /\ txt raw = Some s) ->
  only_wire p txt (read_with R code p).
Proof.
  intros ENUMS LEN STR t s inp pos v pos' D H; pose proof (dec_answers_top t s inp pos D) as A.
  erewrite read_with_dec in H; eauto.
  eapply dec_back in H; eauto.
Qed.
End Good.

(** ** Consequences *)

(** Conversion of a value whose strings are left alone by [f]. *)
Lemma texted_same md p f (P : list byte -> Prop) : (forall s, P s -> f s = Some s) ->
  (forall t v bs, wire_in md p t v bs -> strings P v -> texted f v v) /\
  (forall ms fs bs, wire_members md p ms fs bs -> (forall n v, In (n, v) fs -> strings P v) -> fields_texted f fs fs) /\
  (forall m v bs, wire_member md p m v bs -> strings P v -> texted f v v) /\
  (forall t vs bs, wire_elems md p t vs bs -> (forall v, In v vs -> strings P v) -> Forall2 (texted f) vs vs).
Proof.
  intro F; apply wire_mutind; intros.
  - eapply wire_num_texted; eassumption.
  - match goal with H : strings _ _ |- _ => inversion H; subst end; constructor; auto.
  - constructor.
  - match goal with H : strings _ _ |- _ => inversion H; subst end; constructor; unfold fields_texted in *; auto.
  - constructor.
  - constructor; cbn; [split; [reflexivity|]|].
    + match goal with H : forall n w, In (n, w) (_ :: _) -> _ |- _ => pose proof (H _ _ (or_introl eq_refl)) end; auto.
    + match goal with H : _ -> fields_texted _ _ _ |- _ => apply H end; intros; eauto with datatypes.
  - auto.
  - match goal with H : strings _ _ |- _ => inversion H; subst end; constructor; auto.
  - constructor.
  - constructor; auto with datatypes.
Qed.

(** Conversion of a value all of whose strings [f] accepts. *)
Lemma texted_total md p f (P : list byte -> Prop) : (forall s, P s -> exists s', f s = Some s') ->
  (forall t v bs, wire_in md p t v bs -> strings P v -> exists v', texted f v v') /\
  (forall ms fs bs, wire_members md p ms fs bs -> (forall n v, In (n, v) fs -> strings P v) ->
     exists fs', fields_texted f fs fs') /\
  (forall m v bs, wire_member md p m v bs -> strings P v -> exists v', texted f v v') /\
  (forall t vs bs, wire_elems md p t vs bs -> (forall v, In v vs -> strings P v) -> exists vs', Forall2 (texted f) vs vs').
Proof.
  intro F; apply wire_mutind.
  - intros; eexists; eapply wire_num_texted; eassumption.
  - intros s lb N S; inversion S as [| | |x X| |]; subst; destruct (F _ X) as [s' E]; exists (VStr s'); now constructor.
  - intros; eexists; constructor.
  - intros t s fs bs D WM IH S; inversion S as [| | | | |x X]; subst; destruct (IH X) as [fs' E]; exists (VStruct fs'); now constructor.
  - intros _; exists []; constructor.
  - intros m ms v fs b1 b2 WM IH WS IHS S.
    destruct (IH (S _ _ (or_introl eq_refl))) as [v' E].
    destruct IHS as [fs' E']; [intros; eauto with datatypes|].
    exists ((v_name m, v') :: fs'); constructor; [now split|exact E'].
  - auto.
  - intros m vs nb bs L N WE IH S; inversion S as [| | | |x X|]; subst; destruct (IH X) as [vs' E]; exists (VList vs'); now constructor.
  - exists []; constructor.
  - intros t v vs b1 b2 WI IH WE IHS S.
    destruct IH as [v' E]; [auto with datatypes|]; destruct IHS as [vs' E']; [auto with datatypes|].
    exists (v' :: vs'); now constructor.
Qed.

Lemma texted_id f v : (forall s, f s = Some s) -> forall w, texted f v w -> w = v.
Proof.
  intro F; induction v using val_ind2; intros w T; inversion T as [| |s' s2 E|l1 l' F2|l1 fs' F2]; subst; auto.
  - rewrite F in E; congruence.
  - clear T; f_equal; induction F2 as [|v w l l' E F2 IH]; [reflexivity|].
    inversion H; subst; f_equal; auto.
  - clear T; f_equal; induction F2 as [|[n v] [n' w] l l' [E1 E2] F2 IH]; [reflexivity|].
    inversion H; subst; cbn in *; subst; f_equal; auto; f_equal; auto.
Qed.

Section Consequences.
Variable p : protocol.
Hypothesis W : WF p.
Variable txt : list byte -> option (list byte).
Variable rd : reader.

Lemma reads_back_of (T : val -> val -> Prop) (Q : val -> Prop) :
  (forall t v bs, wire_in reading p t v bs -> Q v -> T v v) -> reads_wire p T rd -> reads_back p Q rd.
Proof.
  intros TP R md t s v bs pre rest MD D WI S.
  assert (WR : wire_in reading p t v bs).
  { destruct MD as [->| ->]; [now apply (proj1 (wire_mode _ _ p strict_reading))|assumption]. }
  eapply R; [eassumption|exact WR| |].
  - eapply TP; eassumption.
  - rewrite skipn_app, skipn_all, Nat.sub_diag; reflexivity.
Qed.

Lemma text_kept (P : list byte -> Prop) : (forall s, P s -> txt s = Some s) ->
  forall t v bs, wire_in reading p t v bs -> strings P v -> texted txt v v.
Proof. intros TP t v bs WI; exact (proj1 (texted_same _ p txt P TP) t v bs WI). Qed.
Lemma text_some (P : list byte -> Prop) : (forall s, P s -> exists s', txt s = Some s') ->
  forall t v bs, wire_in reading p t v bs -> strings P v -> exists v', texted txt v v'.
Proof. intros TP t v bs WI; exact (proj1 (texted_total _ p txt P TP) t v bs WI). Qed.

Lemma reads_back_text (P : list byte -> Prop) : (forall s, P s -> txt s = Some s) -> reads_wire p (texted txt) rd ->
  reads_back p (strings P) rd.
Proof. intros TP R; exact (reads_back_of _ _ (text_kept P TP) R). Qed.

(** A strict prefix of an encoding is not accepted. *)
Lemma truncated_rejected : only_wire p txt rd ->
  forall t s v bs pre cut v' q, declares p t s -> wire_in reading p t v bs ->
    (exists x rest, bs = cut ++ x :: rest) ->
    rd t (pre ++ cut) (List.length pre) <> ROk v' q.
Proof.
  intros O t s v bs pre cut v' q D WI (x & rest & E) H.
  apply (O t s _ _ _ _ D) in H as (v0 & bs' & rest' & E' & _ & WI' & _).
  rewrite skipn_app, skipn_all, Nat.sub_diag in E'; cbn in E'.
  assert (X : bs ++ [] = bs' ++ (rest' ++ x :: rest)).
  { rewrite E, E', app_nil_r, <- app_assoc; reflexivity. }
  destruct (proj1 (wire_prefix reading p W) _ _ _ WI _ _ _ _ WI' X) as (_ & _ & N).
  destruct rest'; discriminate.
Qed.

Lemma texted_enums f : forall t v v', texted f v v' -> enums_declared p t v -> enums_declared p t v'.
Proof.
  intros t v v' T ED; revert v' T; induction ED as [t e z E I|t s fs D _ IH1 _ IH2|t v B]; intros v' T.
  - inversion T; subst; eapply ed_enum; eassumption.
  - inversion T as [| | | |? fs' TF]; subst; eapply ed_struct; [eassumption| |].
    + intros m v' IM VL IV.
      assert (X : exists v, In (v_name m, v) fs /\ texted f v v').
      { clear - TF IV; induction TF as [|[n v] [n' w] fs fs' [E X] TF IH]; [destruct IV|].
        cbn in *; subst; destruct IV as [[= -> ->]|IV]; [eauto|]. destruct (IH IV) as (v0 & ? & ?); eauto. }
      destruct X as (v0 & I0 & T0); eapply IH1; eassumption.
    + intros m vs' v' IM VL IV IN.
      assert (X : exists vs, In (v_name m, VList vs) fs /\ exists v, In v vs /\ texted f v v').
      { clear - TF IV IN; induction TF as [|[n v] [n' w] fs fs' [E X] TF IH]; [destruct IV|].
        cbn in *; subst; destruct IV as [[= -> ->]|IV].
        - inversion X as [| | |l l' F2|]; subst; exists l; split; [now left|].
          clear - F2 IN; induction F2 as [|a b l l' T F2 IH]; [destruct IN|].
          destruct IN as [->|IN]; [exists a; cbn; auto|]. destruct (IH IN) as (v & ? & ?); exists v; cbn; auto.
        - destruct (IH IV) as (vs & ? & ?); eauto. }
      destruct X as (vs & I0 & v0 & I1 & T0); eapply IH2; eassumption.
  - now apply ed_base.
Qed.

Lemma wire_enums_declared md : any_enum md = false ->
  (forall t v bs, wire_in md p t v bs -> enums_declared p t v) /\
  (forall ms fs bs, wire_members md p ms fs bs -> NoDup (map v_name ms) ->
     (forall m v, In m ms -> v_list m = false -> In (v_name m, v) fs -> enums_declared p (v_type m) v) /\
     (forall m vs v, In m ms -> v_list m = true -> In (v_name m, VList vs) fs -> In v vs -> enums_declared p (v_type m) v)) /\
  (forall m v bs, wire_member md p m v bs ->
     (v_list m = false -> enums_declared p (v_type m) v) /\
     (forall vs x, v_list m = true -> v = VList vs -> In x vs -> enums_declared p (v_type m) x)) /\
  (forall t vs bs, wire_elems md p t vs bs -> forall v, In v vs -> enums_declared p t v).
Proof.
  intro ME; apply wire_mutind.
  - intros t k v bs K N; apply ed_base; left; apply num_of_base; eauto.
  - intros; apply ed_base; now right.
  - intros t e k z bs E K [M|M] N; [congruence|eapply ed_enum; eassumption].
  - intros t s fs bs D M IH.
    destruct (IH (wf_member_nodup p W t s D)) as [H1 H2]; eapply ed_struct; eassumption.
  - intros _; split; [intros m v []|intros m vs v []].
  - intros m ms v fs a b WM [IH1 IH2] WMS IHS ND; inversion ND as [|? ? NI ND']; subst.
    destruct (IHS ND') as [H1 H2].
    pose proof (wire_members_names _ _ _ _ _ WMS) as NM.
    assert (FN : forall m' v', In m' (m :: ms) -> In (v_name m', v') ((v_name m, v) :: fs) ->
              (m' = m /\ v' = v) \/ (In m' ms /\ In (v_name m', v') fs)).
    { intros m' v' IM IV; destruct IM as [<-|IM], IV as [E|IV].
      - injection E as <-; auto.
      - exfalso; apply NI; rewrite <- NM; apply (in_map fst) in IV; exact IV.
      - injection E as E1 <-; exfalso; apply NI; rewrite E1; now apply in_map.
      - auto. }
    split.
    + intros m' v' IM VL IV; destruct (FN _ _ IM IV) as [[-> ->]|[I1 I2]]; eauto.
    + intros m' vs v' IM VL IV IN; destruct (FN _ _ IM IV) as [[-> <-]|[I1 I2]]; eauto.
  - intros m v bs VL _ IH; split; [auto|congruence].
  - intros m vs lb bs VL _ _ IH; split; [congruence|intros vs' x _ [= <-]; auto].
  - intros t v [].
  - intros t v vs a b _ IH1 _ IH2 x [<-|I]; auto.
Qed.

(** An accepted value has no undeclared enum numbers. *)
Lemma enums_checked : only_wire p txt rd ->
  forall t s inp pos v q, declares p t s -> rd t inp pos = ROk v q -> enums_declared p t v.
Proof.
  intros O t s inp pos v q D H; apply (O t s _ _ _ _ D) in H as (v0 & bs & rest & E & _ & WI & T).
  eapply texted_enums; [exact T|].
  eapply (proj1 (wire_enums_declared reading eq_refl)); eassumption.
Qed.

Lemma only_wire_truncated trap : only_wire p txt rd -> always_answers p trap rd -> rejects_truncated p trap rd.
Proof.
  intros O A t s v bs before cut x rest D WI E.
  pose proof (A t s (before ++ cut) (List.length before) D) as AN.
  destruct (rd t (before ++ cut) (List.length before)) as [v' q| | | |] eqn:R; cbn in AN; try contradiction.
  - exfalso; eapply truncated_rejected; eauto.
  - now left.
  - now right.
Qed.

Lemma only_wire_enums : only_wire p txt rd -> only_declared_enums p rd.
Proof. intros O t s inp pos v q D H; eapply enums_checked; eassumption. Qed.
End Consequences.
