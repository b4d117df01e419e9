(** Lemmas for PropCDecl.v. *)
From Verif Require Import CDeclFacts PropFieldFacts PropTopFacts LangSampleFacts CSpec.
Open Scope string_scope.
Open Scope Z_scope.
Open Scope list_scope.

Lemma c_declares_expected p g : c_usual p g -> c_declares p g (c_expected_parts p g).
Proof.
  intros (A & (E & N & B & F) & WT & WN & NB); pose proof (accepted_WF p A) as W.
  apply c_generate_walks; auto; [apply WF_text_ok, W|apply WF_field_types, W].
Qed.
Lemma c_declares_unique p g a b : c_declares p g a -> c_declares p g b -> a = b.
Proof. intros (x & X & E) (y & Y & F); rewrite X in Y; injection Y as <-; rewrite E in F; now injection F. Qed.
Lemma c_parts_exactly p g parts : c_usual p g -> (c_declares p g parts <-> parts = c_expected_parts p g).
Proof.
  intro U; pose proof (c_declares_expected p g U) as H; split; [intro K; exact (c_declares_unique _ _ _ _ K H)|now intros ->].
Qed.

(** ** The names *)

Lemma c_type_list_app a b : c_type_list (a ++ b) = c_type_list a ++ c_type_list b.
Proof. apply flat_map_app. Qed.
Lemma c_type_list_members l : c_type_list (map CMember l) = [].
Proof. induction l as [ |x l IH]; [reflexivity|exact IH]. Qed.
Lemma c_type_list_parts p g l : c_type_list (flat_map (c_type_parts p g) l) = map (fun x => c_prefix g +++ x) (map fst l).
Proof.
  induction l as [ |[n s] l IH]; [reflexivity| ]; cbn [flat_map map fst]; rewrite c_type_list_app, IH; unfold c_type_parts; cbn [fst snd].
  rewrite !c_type_list_app, c_type_list_members; destruct (s_is_message s); reflexivity.
Qed.
Lemma c_type_list_enums g (l : list (string * enum)) :
  c_type_list (map (fun e => CType (c_prefix g +++ fst e)) l) = map (fun x => c_prefix g +++ x) (map fst l).
Proof. induction l as [ |[n s] l IH]; [reflexivity| ]; cbn [map c_type_list flat_map app fst]; f_equal; exact IH. Qed.
Lemma c_type_list_expected p g :
  c_type_list (c_expected_parts p g) = map (fun x => c_prefix g +++ x) (c_own_types ++ types_in_order p).
Proof.
  unfold c_expected_parts; rewrite !c_type_list_app, c_type_list_enums, c_type_list_parts; unfold types_in_order.
  rewrite !map_app; reflexivity.
Qed.
Lemma nodup_prefix (a : string) l : NoDup (map (fun x => a +++ x) l) <-> NoDup l.
Proof.
  induction l as [ |x l IH]; cbn [map]; [split; constructor| ]; rewrite !NoDup_cons_iff, IH, in_map_iff.
  split; intros [H N]; split; auto.
  - intro I; apply H; now exists x.
  - intros (y & E & I); apply app_str_inv in E; subst y; contradiction.
Qed.
Lemma c_types_distinct p g parts : c_usual p g -> c_declares p g parts ->
  (NoDup (c_type_list parts) <-> forall t, In t (types_in_order p) -> ~ In t c_own_types).
Proof.
  intros U D; apply c_parts_exactly in D as ->; [ |exact U].
  rewrite c_type_list_expected, nodup_prefix, PropTopFacts.nodup_app; destruct U as (A & _); pose proof (types_nodup p (accepted_WF p A)) as T.
  split.
  - intros (_ & _ & H) t I J; exact (H t J I).
  - intro H; split; [ |split; [exact T|intros x I J; exact (H x J I)]].
    repeat constructor; cbn; intuition discriminate.
Qed.

(** ** The order *)

Definition known (seen : list string) (d : string) : Prop := In (first_word d) c_builtin \/ In (first_word d) seen.
Fixpoint ordered (seen : list string) (parts : list c_part) : Prop :=
  match parts with
  | [] => True
  | CType n :: r => ordered (n :: seen) r
  | CMember d :: r => known seen d /\ ordered seen r
  end.
Lemma known_more a b d : incl a b -> known a d -> known b d.
Proof. intros I [H|H]; [now left|right; now apply I]. Qed.
Lemma ordered_more a b l : incl a b -> ordered a l -> ordered b l.
Proof.
  revert a b; induction l as [ |[d|n] l IH]; intros a b I; cbn [ordered]; [auto| | ].
  - intros [K O]; split; [now apply (known_more a)|now apply (IH a)].
  - apply IH; intros x [<-|J]; [now left|right; now apply I].
Qed.
Lemma ordered_iff parts : forall seen, ordered seen parts <->
  (forall a d b, parts = a ++ CMember d :: b -> In (first_word d) c_builtin \/ In (first_word d) seen \/ In (CType (first_word d)) a).
Proof.
  induction parts as [ |[x|n] parts IH]; intro seen; cbn [ordered].
  - split; [intros _ a d b E; destruct a; discriminate|auto].
  - rewrite IH; split.
    + intros [K H] a d b E; destruct a as [ |y a]; cbn [app] in E.
      * injection E as -> _; destruct K; auto.
      * injection E as <- E; destruct (H a d b E) as [X|[X|X]]; auto; right; right; now right.
    + intro H; split; [destruct (H [] x parts eq_refl) as [X|[X|[]]]; [now left|now right]| ].
      intros a d b ->; destruct (H (CMember x :: a) d b eq_refl) as [X|[X|[X|X]]]; auto; discriminate.
  - rewrite IH; split.
    + intros H a d b E; destruct a as [ |y a]; cbn [app] in E; [discriminate| ]; injection E as <- E.
      destruct (H a d b E) as [X|[[X|X]|X]]; auto; right; right; [left; now f_equal|now right].
    + intros H a d b ->; destruct (H (CType n :: a) d b eq_refl) as [X|[X|[X|X]]]; auto.
      * right; left; now right.
      * right; left; left; now injection X.
Qed.
Lemma declared_first_iff parts : declared_first parts <-> ordered [] parts.
Proof.
  rewrite ordered_iff; unfold declared_first; split; intros H a d b E.
  - destruct (H a d b E); auto.
  - destruct (H a d b E) as [X|[[]|X]]; auto.
Qed.
Lemma ordered_app a b : forall seen, ordered seen (a ++ b) <-> ordered seen a /\ ordered (rev (c_type_list a) ++ seen) b.
Proof.
  induction a as [ |[d|n] a IH]; intro seen; cbn [app ordered c_type_list flat_map rev]; [tauto| | ].
  - rewrite IH; tauto.
  - rewrite IH; fold (c_type_list a); rewrite <- app_assoc; reflexivity.
Qed.
Lemma ordered_types seen l : ordered seen (map CType l).
Proof. revert seen; induction l as [ |x l IH]; intro seen; cbn [map ordered]; auto. Qed.
Lemma ordered_members seen l : ordered seen (map CMember l) <-> forall d, In d l -> known seen d.
Proof.
  induction l as [ |x l IH]; cbn [map ordered In]; [split; [intros _ d []|auto]| ]; rewrite IH; split.
  - intros [K H] d [<-|I]; auto.
  - intro H; split; [apply H; now left|intros d I; apply H; now right].
Qed.

Section Order.
Variable p : protocol.
Variable g : settings.
Hypothesis U : c_usual p g.

Lemma base_word t r c : In t base_type_names -> word_char c = false -> In (first_word (c_type_text g t +++ String c r)) c_builtin.
Proof. intros I C; cbn in I; decompose [or] I; subst; try contradiction; cbn; rewrite ?C; cbn; tauto. Qed.
Lemma name_word t r c : ~ In t base_type_names -> word t = true -> word_char c = false ->
  first_word (c_type_text g t +++ String c r) = c_prefix g +++ t.
Proof.
  intros N W C; rewrite c_type_text_name by exact N; apply first_word_app; [ |exact C].
  apply word_app; [apply c_prefix_word; apply U|exact W].
Qed.
Lemma c_members_known seen m : (forall d, In d (c_member_texts p g m) -> known seen d) <->
  In (first_word (c_type_text g (v_type m) +++ " ")) c_builtin \/ In (first_word (c_type_text g (v_type m) +++ " ")) seen.
Proof.
  assert (T : text_ok p) by apply WF_text_ok, accepted_WF, U.
  assert (L : In (p_list_size_type p) base_type_names) by apply base_listed, (tk_list p T).
  assert (S : In (p_string_size_type p) base_type_names) by apply base_listed, (tk_string p T).
  assert (X : forall c r, word_char c = false -> first_word (c_type_text g (v_type m) +++ String c r) = first_word (c_type_text g (v_type m) +++ " ")).
  { intros c r C; generalize (c_type_text g (v_type m)) as x; induction x as [ |y x IH]; cbn [String.append first_word].
    - now rewrite C.
    - destruct (word_char y); [now rewrite IH|reflexivity]. }
  unfold c_member_texts, known; destruct (v_list m); cbn [app String.append]; rewrite ?app_str_assoc; split.
  - intro H; specialize (H (c_type_text g (v_type m) +++ String "*" (String " " (v_name m +++ ";")))); cbn in H.
    rewrite X in H by reflexivity; apply H; right; apply in_or_app; right; now left.
  - intros H d I; destruct I as [<-|I]; [left; now apply base_word| ]; apply in_app_iff in I as [I|I].
    + destruct (String.eqb (v_type m) "string"); [destruct I as [<-|[]]|destruct I]; left; now apply base_word.
    + destruct I as [<-|[]]; cbn [String.append]; rewrite X by reflexivity; exact H.
  - intro H; specialize (H (c_type_text g (v_type m) +++ String " " (v_name m +++ ";"))); cbn in H.
    rewrite X in H by reflexivity; apply H, in_or_app; right; now left.
  - intros H d I; apply in_app_iff in I as [I|I].
    + destruct (String.eqb (v_type m) "string"); [destruct I as [<-|[]]|destruct I]; left; now apply base_word.
    + destruct I as [<-|[]]; cbn [String.append]; rewrite X by reflexivity; exact H.
Qed.
Lemma c_known_type seen t : field_type p t ->
  (known seen (c_type_text g t +++ " ") <->
   In t base_type_names \/ In (c_prefix g +++ t) c_builtin \/ In (c_prefix g +++ t) seen).
Proof.
  intro F; unfold known; destruct (in_dec string_dec t base_type_names) as [I|N].
  - split; [now left|intros _; left; now apply base_word].
  - assert (W : word t = true) by (destruct U as (_ & _ & WT & _); exact (WT t (field_type_listed p t F t eq_refl N))).
    rewrite name_word by (auto; reflexivity); tauto.
Qed.
(** What is declared before the structs. *)
Definition c_seen (a : list string) : list string :=
  map (fun x => c_prefix g +++ x) (rev a ++ rev (map fst (p_enums p)) ++ rev c_own_types).
Lemma prefixed x l : In (c_prefix g +++ x) (map (fun y => c_prefix g +++ y) l) <-> In x l.
Proof.
  rewrite in_map_iff; split; [intros (y & E & I); apply app_str_inv in E; now subst y|intro I; now exists x].
Qed.
Lemma struct_ordered seen n s : declares p n s -> s_is_message s = false ->
  (ordered seen (c_type_parts p g (n, s)) <-> forall m, In m (s_members s) -> known seen (c_type_text g (v_type m) +++ " ")).
Proof.
  intros D M; unfold c_type_parts; cbn [fst snd]; rewrite M; cbn [app]; rewrite ordered_app, ordered_members.
  cbn [ordered]; split.
  - intros [H _] m I; apply c_members_known; intros d J; apply H, in_flat_map; eauto.
  - intro H; split; [ |exact Logic.I]; intros d I; apply in_flat_map in I as (m & I & J); apply (proj2 (c_members_known seen m) (H m I) d J).
Qed.
Lemma message_ordered seen n s : declares p n s -> In (c_prefix g +++ "MessageType") seen ->
  (forall m, In m (s_members s) -> known seen (c_type_text g (v_type m) +++ " ")) ->
  ordered seen (c_type_parts p g (n, s)).
Proof.
  intros D M H; unfold c_type_parts; cbn [fst snd]; rewrite !ordered_app, ordered_members.
  split; [ |split; [ |exact Logic.I]].
  - destruct (s_is_message s); [ |exact Logic.I]; cbn [ordered]; split; [ |exact Logic.I]; right.
    change (c_prefix g +++ "MessageType _mt;") with (c_prefix g +++ "MessageType" +++ String " " "_mt;").
    rewrite <- app_str_assoc, first_word_app; [exact M|apply word_app; [apply c_prefix_word; apply U|reflexivity]|reflexivity].
  - intros d I; apply in_flat_map in I as (m & I & J).
    replace (rev _ ++ seen) with seen by (destruct (s_is_message s); reflexivity).
    exact (proj2 (c_members_known seen m) (H m I) d J).
Qed.
Lemma enum_seen t a : is_enum p t -> In (c_prefix g +++ t) (c_seen a).
Proof.
  intros [e E]; apply prefixed; rewrite !in_app_iff, <- !in_rev; right; left; apply in_map_iff; now exists (t, e).
Qed.
Lemma field_kinds t : field_type p t -> In t base_type_names \/ is_enum p t \/ is_struct p t.
Proof.
  intros [B _ _|B _ _|e v r L _ _ _ _ _|S _ _ _].
  - left; now apply base_listed.
  - left; subst t; cbn; tauto.
  - right; left; exists e; now apply lookup_In.
  - right; right; unfold mem in S; destruct (lookup t (p_structs p)) as [s| ] eqn:L; [ |discriminate]; exists s; now apply lookup_In.
Qed.
Lemma structs_ordered l : forall a, p_structs p = a ++ l ->
  (forall b n s c m, l = b ++ (n, s) :: c -> In m (s_members s) -> is_struct p (v_type m) -> In (v_type m) (map fst (a ++ b))) ->
  ordered (c_seen (map fst a)) (flat_map (c_type_parts p g) l).
Proof.
  assert (W : WF p) by apply accepted_WF, U.
  induction l as [ |[n s] l IH]; intros a E H; cbn [flat_map]; [exact Logic.I| ].
  assert (I : In (n, s) (p_structs p)) by (rewrite E, in_app_iff; right; now left).
  assert (D : declares p n s) by now left.
  apply ordered_app; split.
  - apply struct_ordered; [exact D|apply (wf_struct_entry p W n s I)| ]; intros m J.
    pose proof (WF_field_types p W n s m D J) as F; apply c_known_type; [exact F| ].
    destruct (field_kinds _ F) as [B|[X|X]]; [now left|right; right; now apply enum_seen|right; right].
    apply prefixed; rewrite !in_app_iff, <- in_rev; left.
    specialize (H [] n s l m eq_refl J X); now rewrite app_nil_r in H.
  - assert (R : rev (c_type_list (c_type_parts p g (n, s))) ++ c_seen (map fst a) = c_seen (map fst (a ++ [(n, s)]))).
    { pose proof (c_type_list_parts p g [(n, s)]) as Q; cbn [flat_map] in Q; rewrite app_nil_r in Q; rewrite Q.
      unfold c_seen; rewrite (map_app fst), rev_app_distr; reflexivity. }
    rewrite R; apply IH; [rewrite <- app_assoc; exact E| ].
    intros b n' s' c m -> J X; rewrite <- app_assoc; exact (H ((n, s) :: b) n' s' c m eq_refl J X).
Qed.
Lemma in_order_split : in_order p <->
  forall b n s c m, p_structs p = b ++ (n, s) :: c -> In m (s_members s) -> is_struct p (v_type m) -> In (v_type m) (map fst b).
Proof.
  split; intro H.
  - intros b n s c m E J X; assert (N : nth_error (p_structs p) (List.length b) = Some (n, s))
      by (rewrite E, nth_error_app2, Nat.sub_diag by lia; reflexivity).
    destruct (H _ n s m N J X) as (j & s' & LT & NJ); rewrite E, nth_error_app1 in NJ by exact LT.
    apply in_map_iff; exists (v_type m, s'); split; [reflexivity|now apply nth_error_In in NJ].
  - intros i t s m N J X; destruct (nth_error_split _ _ N) as (b & c & E & <-).
    pose proof (H b t s c m E J X) as I; apply in_map_iff in I as ([x y] & EX & I); cbn [fst] in EX; subst x.
    apply In_nth_error in I as [j NJ]; assert (L : (j < List.length b)%nat) by (apply nth_error_Some; congruence).
    exists j, y; split; [exact L| ]; rewrite E, nth_error_app1 by exact L; exact NJ.
Qed.
Lemma own_ordered : ordered [] (c_own_parts g ++ map (fun e => CType (c_prefix g +++ fst e)) (p_enums p)) /\
  rev (c_type_list (c_own_parts g ++ map (fun e => CType (c_prefix g +++ fst e)) (p_enums p))) ++ [] = c_seen [].
Proof.
  split.
  - apply ordered_app; split; [ |rewrite <- (map_map (fun e : string * enum => c_prefix g +++ fst e) CType); apply ordered_types].
    unfold c_own_parts; cbn [ordered]; unfold known; cbn; tauto.
  - rewrite app_nil_r, c_type_list_app, c_type_list_enums; unfold c_seen; cbn [rev app].
    rewrite rev_app_distr, !map_app, map_rev; reflexivity.
Qed.
Lemma messages_ordered l : (forall n s, In (n, s) l -> In (n, s) (p_messages p)) -> forall seen,
  incl (c_seen (map fst (p_structs p))) seen -> ordered seen (flat_map (c_type_parts p g) l).
Proof.
  assert (W : WF p) by apply accepted_WF, U.
  induction l as [ |[n s] l IH]; intros H seen S; cbn [flat_map]; [exact Logic.I| ].
  assert (D : declares p n s) by (right; apply H; now left).
  apply ordered_app; split.
  - apply message_ordered; [exact D| | ].
    + apply S, prefixed; rewrite !in_app_iff; right; right; cbn; tauto.
    + intros m J; pose proof (WF_field_types p W n s m D J) as F; apply c_known_type; [exact F| ].
      destruct (field_kinds _ F) as [B|[X|X]]; [now left|right; right; now apply S, enum_seen|right; right].
      apply S, prefixed; rewrite !in_app_iff, <- in_rev; left; destruct X as [s' X]; apply in_map_iff; now exists (v_type m, s').
  - apply IH; [intros; apply H; now right|intros x I; apply in_or_app; right; now apply S].
Qed.
Lemma c_order_kept : in_order p -> declared_first (c_expected_parts p g).
Proof.
  intro O; apply declared_first_iff; unfold c_expected_parts; rewrite app_assoc, flat_map_app.
  destruct own_ordered as [O1 O2]; apply ordered_app; split; [exact O1| ]; rewrite O2; apply ordered_app; split.
  - apply (structs_ordered (p_structs p) []); [reflexivity|cbn [app]; now apply in_order_split].
  - apply messages_ordered; [auto| ]; rewrite c_type_list_parts; unfold c_seen; intros x I.
    rewrite map_app in I; rewrite in_app_iff in I |- *; rewrite <- map_rev; destruct I as [I|I]; [now left|right; exact I].
Qed.
(** The other way, if names do not meet by accident. *)
Lemma c_order_needed : (forall t, In t (types_in_order p) -> ~ In t c_own_types /\ ~ In (c_prefix g +++ t) c_builtin) ->
  declared_first (c_expected_parts p g) -> in_order p.
Proof.
  intros H O; assert (W : WF p) by apply accepted_WF, U; apply in_order_split; intros b n s c m E J X.
  apply declared_first_iff in O; unfold c_expected_parts in O; rewrite app_assoc, flat_map_app, E, flat_map_app in O.
  cbn [flat_map] in O; apply ordered_app in O as [_ O]; rewrite (proj2 own_ordered) in O.
  apply ordered_app in O as [O _]; apply ordered_app in O as [_ O]; apply ordered_app in O as [O _].
  assert (I : In (n, s) (p_structs p)) by (rewrite E, in_app_iff; right; now left).
  assert (D : declares p n s) by now left.
  pose proof (proj1 (struct_ordered _ _ _ D (proj2 (wf_struct_entry p W n s I))) O) as K; clear O; rename K into O.
  specialize (O m J); apply c_known_type in O; [ |exact (WF_field_types p W n s m D J)].
  assert (L : In (v_type m) (types_in_order p)).
  { unfold types_in_order; rewrite !in_app_iff; right; left; destruct X as [s' X]; apply in_map_iff; now exists (v_type m, s'). }
  destruct (H _ L) as [H1 H2]; destruct O as [O|[O|O]]; [ |contradiction| ].
  - exfalso; destruct (wf_names p W (v_type m) (or_introl X)) as (_ & _ & N); apply N.
    clear - O; generalize dependent (v_type m); intros t O; cbn in O; decompose [or] O; subst; try contradiction; vm_compute; tauto.
  - rewrite c_type_list_parts in O; unfold c_seen in O; rewrite <- map_rev, <- map_app in O; rewrite prefixed in O.
    repeat rewrite in_app_iff in O; repeat rewrite <- in_rev in O; destruct O as [O|[[]|[O|O]]]; [exact O| |contradiction].
    exfalso; apply (proj1 (proj2 (wf_disjoint p W (v_type m)))); split; [exact X| ].
    apply in_map_iff in O as ([x e] & <- & O); now exists e.
Qed.
End Order.

Lemma c_order p g parts : c_usual p g -> c_declares p g parts ->
  (forall t, In t (types_in_order p) -> ~ In t c_own_types /\ ~ In (c_prefix g +++ t) c_builtin) ->
  (declared_first parts <-> in_order p).
Proof.
  intros U D H; apply c_parts_exactly in D as ->; [ |exact U]; split; [now apply c_order_needed|now apply c_order_kept].
Qed.
Lemma c_order_sound p g parts : c_usual p g -> in_order p -> c_declares p g parts -> declared_first parts.
Proof. intros U O D; apply c_parts_exactly in D as ->; [ |exact U]; now apply c_order_kept. Qed.

(** ** Samples *)

Lemma c_usual_plain p : accepted p -> word_types p -> c_usual p (plain_settings "c" None).
Proof. intros A W; repeat split; auto; try apply plain_usual; discriminate. Qed.
Ltac types_words := intros t I; cbn in I; decompose [or] I; subst; try contradiction; reflexivity.
Lemma backwards_usual : c_usual backwards (plain_settings "c" None).
Proof. apply c_usual_plain; [accepted_tac backwards_toml|types_words]. Qed.
Lemma c_order_wrong : exists p g parts, c_usual p g /\ c_declares p g parts /\ ~ declared_first parts /\
  (forall t, In t (types_in_order p) -> ~ In t c_own_types /\ ~ In (c_prefix g +++ t) c_builtin).
Proof.
  pose proof (c_declares_expected _ _ backwards_usual) as D.
  exists backwards, (plain_settings "c" None), (c_expected_parts backwards (plain_settings "c" None)).
  split; [exact backwards_usual|split; [exact D|split]].
  - intro H; destruct (H (c_own_parts (plain_settings "c" None)) "beschi_Point start;" _ eq_refl) as [I|I];
      cbn in I; decompose [or] I; try contradiction; discriminate.
  - intros t I; cbn in I; decompose [or] I; subst; try contradiction; split; intro J; cbn in J; decompose [or] J; try contradiction; discriminate.
Qed.
Lemma access_accepted : accepted (two_types "DataAccess" "Note").
Proof. accepted_tac (two_types_toml "DataAccess" "Note"). Qed.
Lemma c_types_twice : exists p g parts, c_usual p g /\ c_declares p g parts /\ ~ NoDup (c_type_list parts).
Proof.
  assert (U : c_usual (two_types "DataAccess" "Note") (plain_settings "c" None)) by (apply c_usual_plain; [exact access_accepted|types_words]).
  pose proof (c_declares_expected _ _ U) as D.
  exists (two_types "DataAccess" "Note"), (plain_settings "c" None), (c_expected_parts (two_types "DataAccess" "Note") (plain_settings "c" None)).
  split; [exact U|split; [exact D| ]].
  rewrite (c_types_distinct _ _ _ U D); intro H; apply (H "DataAccess"); cbn; tauto.
Qed.
Lemma annotated_c : c_usual annotated (plain_settings "c" None) /\ in_order annotated /\
  (forall t, In t (types_in_order annotated) -> ~ In t c_own_types /\ ~ In (c_prefix (plain_settings "c" None) +++ t) c_builtin).
Proof.
  split; [apply c_usual_plain; [exact annotated_accepted_proof|types_words]|split].
  - intros [ |[ |i]] t s m N I X; cbn in N; try (injection N as <- <-); [ | |destruct i; discriminate]; cbn in I; decompose [or] I; subst; try contradiction;
      cbn [v_type] in *; try (destruct X as [s' X]; cbn in X; decompose [or] X; try contradiction; discriminate).
    all: exists 0%nat; eexists; split; [lia|reflexivity].
  - intros t I; cbn in I; decompose [or] I; subst; try contradiction; split; intro J; cbn in J; decompose [or] J; try contradiction; discriminate.
Qed.
Lemma two_types_c : c_usual (two_types "Item" "Note") (plain_settings "c" None) /\
  c_expected_parts (two_types "Item" "Note") (plain_settings "c" None) =
  c_own_parts (plain_settings "c" None) ++ [CMember "uint8_t n;"; CType "beschi_Item"; CMember "beschi_MessageType _mt;";
    CMember "uint32_t items_len;"; CMember "beschi_Item* items;"; CType "beschi_Note"].
Proof.
  split; [apply c_usual_plain; [accepted_tac (two_types_toml "Item" "Note")|types_words]|reflexivity].
Qed.
Lemma annotated_c_types : c_usual annotated (plain_settings "c" None) /\
  c_declares annotated (plain_settings "c" None) (c_expected_parts annotated (plain_settings "c" None)) /\
  forall t, In t (types_in_order annotated) -> ~ In t c_own_types.
Proof.
  destruct annotated_c as (U & _ & H); split; [exact U|split; [now apply c_declares_expected|intros t I; exact (proj1 (H t I))]].
Qed.
Lemma annotated_c_order : c_usual annotated (plain_settings "c" None) /\ in_order annotated /\
  c_declares annotated (plain_settings "c" None) (c_expected_parts annotated (plain_settings "c" None)).
Proof. destruct annotated_c as (U & O & _); split; [exact U|split; [exact O|now apply c_declares_expected]]. Qed.
Lemma c_order_wrong_only : exists p g parts, c_usual p g /\ c_declares p g parts /\ ~ declared_first parts.
Proof. destruct c_order_wrong as (p & g & parts & A & B & C & _); exists p, g, parts; auto. Qed.
