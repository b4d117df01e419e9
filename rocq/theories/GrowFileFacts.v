(** Documents that say more describe protocols that can do more. *)
From Verif Require Import GrowSpec ProtocolSpec ProtocolFacts2 LangFacts.
Open Scope string_scope.
Open Scope list_scope.

Lemma Forall2_fun {A B} (R : A -> B -> Prop) l m m' :
  (forall a b b', R a b -> R a b' -> b = b') -> Forall2 R l m -> Forall2 R l m' -> m = m'.
Proof.
  intros F H; revert m'; induction H as [|a b l m X H IH]; intros m' H'; inversion H'; subst; [reflexivity|].
  f_equal; [eapply F; eassumption|now apply IH].
Qed.
Lemma Forall2_prefix {A B} (R : A -> B -> Prop) l r m m' :
  (forall a b b', R a b -> R a b' -> b = b') -> Forall2 R l m -> Forall2 R (l ++ r) m' -> exists s, m' = m ++ s.
Proof.
  intros F H H'; apply Forall2_app_inv_l in H' as (a & b & H1 & H2 & ->).
  rewrite (Forall2_fun R l m a F H H1); now exists b.
Qed.

Lemma append_inj_r a b c : (a +++ c = b +++ c)%string -> a = b.
Proof.
  intro E; assert (L : String.length a = String.length b).
  { apply (f_equal String.length) in E; rewrite !str_app_length in E; lia. }
  revert b E L; induction a as [|x a IH]; intros [|y b] E L; try discriminate; [reflexivity|].
  cbn in E, L; injection E as -> E; f_equal; apply IH; [exact E|lia].
Qed.

Lemma doc_member_fun kv m m' : doc_member kv m -> doc_member kv m' -> m = m'.
Proof.
  destruct m as [n t l], m' as [n' t' l']; intros (N & _ & B & E) (N' & _ & B' & E'); cbn [v_name v_type v_list] in *.
  rewrite E in E'; injection E' as E'; subst n n'.
  destruct l, l'; cbn in E'.
  - injection E' as E'; apply append_inj_r in E'; now subst.
  - exfalso; apply B'; now exists t.
  - exfalso; apply B; now exists t'.
  - now subst.
Qed.
Lemma doc_struct_fun b d ns ns' : doc_struct b d ns -> doc_struct b d ns' -> ns = ns'.
Proof.
  destruct ns as [n [sn ms im]], ns' as [n' [sn' ms' im']].
  intros (i & E & N & S & M & F) (i' & E' & N' & S' & M' & F'); cbn [fst snd s_name s_members s_is_message] in *.
  rewrite E in E'; injection E' as <-; rewrite N in N'; injection N' as <-; subst.
  now rewrite (Forall2_fun _ _ _ _ doc_member_fun F F').
Qed.

Lemma doc_values_prefix vs more values values' :
  doc_enum_values vs values -> doc_enum_values (vs ++ more) values' -> exists r, values' = values ++ r.
Proof.
  intros [[E I]|F] [[E' I']|F'].
  - subst vs; exists (skipn (List.length values) values').
    rewrite <- (firstn_skipn (List.length values) values') at 1; f_equal; revert E' I'; revert I.
    generalize O at 1 2 as k; revert values'; induction values as [|[n z] values IH]; intros values' k I E' I'; [reflexivity|].
    destruct values' as [|[n' z'] values']; [discriminate|]; cbn in E', I', I; injection E' as <- E'; injection I' as -> I'; injection I as -> I.
    cbn [List.length firstn]; f_equal; exact (IH values' (S k) I E' I').
  - subst vs; destruct values as [|nz values]; [now exists values'|].
    inversion F' as [|a b c d (i & X & _) _ Y]; subst; discriminate.
  - destruct vs as [|v vs]; [inversion F; subst; now exists values'|].
    destruct values' as [|[n z] values']; [discriminate|]; injection E' as -> _.
    inversion F as [|a b c d (i & X & _) _]; subst; discriminate.
  - refine (Forall2_prefix _ vs more values values' _ F F').
    intros d [n z] [n' z'] (i & D & N & V) (i' & D' & N' & V'); cbn [fst snd] in *.
    rewrite D in D'; injection D' as <-; rewrite N in N'; rewrite V in V'; congruence.
Qed.

Lemma enums_grow l m r es es' : Forall2 more_values l m -> Forall2 doc_enum l es -> Forall2 doc_enum (m ++ r) es' ->
  forall t e, In (t, e) es -> exists e', In (t, e') es' /\ exists more, e_values e' = e_values e ++ more.
Proof.
  intro G; revert es es'; induction G as [|d d' l m X G IH]; intros es es' F F' t e I; inversion F; subst; [destruct I|].
  inversion F' as [|a [n' e'] b' c' DE' FR]; subst.
  destruct I as [->|I]; [|destruct (IH _ _ H3 FR t e I) as (e2 & I2 & V); exists e2; split; [now right|exact V]].
  exists e'; destruct H1 as (i & vs & D & N & _ & V & DV), DE' as (i' & vs' & D' & N' & _ & V' & DV'); cbn [fst snd] in *.
  destruct X as [<-|(j & j' & ws & mo & J & J' & NN & W & W')].
  - rewrite D in D'; injection D' as <-; rewrite N in N'; rewrite V in V'; injection N' as <-; injection V' as <-.
    split; [now left|]; rewrite <- (app_nil_r vs) in DV'; exact (doc_values_prefix vs [] _ _ DV DV').
  - rewrite D in J; injection J as <-; rewrite D' in J'; injection J' as <-.
    rewrite N, N' in NN; injection NN as ->; rewrite V in W; injection W as <-; rewrite V' in W'; injection W' as ->.
    split; [now left|]; exact (doc_values_prefix vs mo _ _ DV DV').
Qed.

Lemma doc_size_fun key meta t t' : doc_size key meta t -> doc_size key meta t' -> t = t'.
Proof. intros [E|[E ->]] [E'|[E' ->]]; congruence. Qed.

Lemma extends_newer data data' p q : describes data p -> describes data' q -> extends data data' ->
  (forall t e e', In (t, e) (p_enums p) -> In (t, e') (p_enums q) -> e_encoding e' = e_encoding e) -> newer p q.
Proof.
  intros ((meta & M & L & S & _) & sl & ml & el & DS & DM & DE & FS & FM & FE)
         ((meta' & M' & L' & S' & _) & sl' & ml' & el' & DS' & DM' & DE' & FS' & FM' & FE') (ME & XS & XM & XE) EN.
  assert (meta' = meta) as -> by (rewrite ME in M'; destruct M as [M|[M ->]], M' as [M'|[M' ->]]; congruence).
  assert (EQ : forall l m : list toml, Forall2 eq l m -> l = m) by (intros l m H; induction H; congruence).
  split; [exact (doc_size_fun _ _ _ _ L' L)|]; split; [exact (doc_size_fun _ _ _ _ S' S)|]; split; [|split].
  - destruct (XE _ _ DE DE') as (m & r & -> & G); intros t e I.
    destruct (enums_grow _ _ _ _ _ G FE FE' t e I) as (e' & I' & more & V).
    exists e'; split; [exact I'|]; split; [exact (EN t e e' I I')|]; rewrite V; intros x X; apply in_or_app; now left.
  - destruct (XS _ _ DS DS') as (m & r & -> & G); apply EQ in G as <-.
    destruct (Forall2_prefix _ _ _ _ _ (doc_struct_fun false) FS FS') as (s & ->); intros x X; apply in_or_app; now left.
  - destruct (XM _ _ DM DM') as (m & r & -> & G); apply EQ in G as <-.
    exact (Forall2_prefix _ _ _ _ _ (doc_struct_fun true) FM FM').
Qed.
