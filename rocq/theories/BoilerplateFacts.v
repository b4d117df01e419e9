(** Facts about the substitution in boilerplate files. *)
From Coq Require Import Lia.
From Verif Require Export LinesSpec LinesFacts BoilerplateFiles.
Open Scope string_scope.
Open Scope Z_scope.
Open Scope list_scope.

(** ** Prefixes *)

Lemma starts_with_iff : forall m s, starts_with m s = true <-> exists t, s = m +++ t.
Proof.
  induction m as [ | a m IH]; intros s; cbn [starts_with].
  - split; [intros _; exists s; reflexivity | reflexivity].
  - destruct s as [ | b s].
    + split; [discriminate | ]. intros [t E]. discriminate E.
    + rewrite andb_true_iff, Ascii.eqb_eq, IH. split.
      * intros [-> [t ->]]. exists t. reflexivity.
      * intros [t E]. cbn in E. injection E as -> ->. split; [reflexivity | exists t; reflexivity].
Qed.

Lemma starts_with_app : forall m t, starts_with m (m +++ t) = true.
Proof. intros m t. apply starts_with_iff. exists t. reflexivity. Qed.

Lemma app_str_nil : forall s, s +++ "" = s.
Proof. induction s as [ | c s IH]; [reflexivity | ]. cbn. rewrite IH. reflexivity. Qed.
Lemma app_str_assoc : forall a b c, (a +++ b) +++ c = a +++ (b +++ c).
Proof. induction a as [ | x a IH]; intros b c; [reflexivity | ]. cbn. rewrite IH. reflexivity. Qed.
Lemma length_app_str : forall a b, String.length (a +++ b) = (String.length a + String.length b)%nat.
Proof. induction a as [ | x a IH]; intros b; [reflexivity | ]. cbn. rewrite IH. reflexivity. Qed.
Lemma app_str_inv : forall a b c, a +++ b = a +++ c -> b = c.
Proof. induction a as [ | x a IH]; intros b c E; [exact E | ]. cbn in E. injection E as E. apply IH, E. Qed.

(** ** replace *)

Lemma replace_gap : forall old new m r, replace_from old new (String.length m) (m +++ r) = replace_from old new 0 r.
Proof. induction m as [ | a m IH]; intros r; [reflexivity | ]. cbn [String.length append replace_from]. apply IH. Qed.

Lemma replace_hit : forall old new r, old <> "" -> replace old new (old +++ r) = new +++ replace old new r.
Proof.
  intros old new r N. destruct old as [ | a old]; [congruence | ].
  cbn [replace]. change (String a old +++ r) with (String a (old +++ r)). cbn [replace_from].
  change (String a (old +++ r)) with (String a old +++ r). rewrite starts_with_app.
  f_equal. cbn [String.length]. rewrite Nat.sub_0_r || (replace (S (String.length old) - 1)%nat with (String.length old) by lia).
  apply replace_gap.
Qed.

Lemma replace_miss : forall old new c r, old <> "" -> starts_with old (String c r) = false ->
  replace old new (String c r) = String c (replace old new r).
Proof.
  intros old new c r N F. destruct old as [ | a old]; [congruence | ].
  cbn [replace replace_from]. rewrite F. reflexivity.
Qed.

Lemma replace_nil : forall old new, old <> "" -> replace old new "" = "".
Proof. intros old new N. destruct old; [congruence | reflexivity]. Qed.

(** ** Occurrences *)

Fixpoint occurs (m s : string) : bool :=
  starts_with m s || match s with EmptyString => false | String _ r => occurs m r end.

Lemma occurs_start : forall m s, starts_with m s = true -> occurs m s = true.
Proof. intros m s H. destruct s; cbn [occurs]; rewrite H; reflexivity. Qed.
Lemma occurs_skip : forall m a r, occurs m r = true -> occurs m (a +++ r) = true.
Proof.
  induction a as [ | c a IH]; intros r H; [exact H | ]. cbn [append occurs]. rewrite (IH r H). apply orb_true_r.
Qed.

(** The nonempty proper suffixes of a string. *)
Fixpoint tails (m : string) : list string :=
  match m with EmptyString => [] | String _ r => match r with EmptyString => [] | _ => r :: tails r end end.

Lemma tails_In : forall x y m, m = x +++ y -> x <> "" -> y <> "" -> In y (tails m).
Proof.
  induction x as [ | a x IH]; intros y m E Nx Ny; [congruence | ].
  subst m. cbn [append tails]. destruct (x +++ y) as [ | b r] eqn:X.
  - destruct x; [ | discriminate X]. cbn in X. congruence.
  - destruct x as [ | b' x].
    + cbn in X. subst y. left. reflexivity.
    + right. apply IH; [symmetry; exact X | discriminate | exact Ny].
Qed.

(** [s] may begin with [m] once the marks [olds] are replaced. *)
Fixpoint fits (olds : list string) (m s : string) : bool :=
  match m with
  | EmptyString => true
  | String a m' =>
      existsb (fun old => starts_with old s) olds ||
      match s with EmptyString => false | String b r => Ascii.eqb a b && fits olds m' r end
  end.

(** [s] begins with [m], and no mark of [olds] begins inside. *)
Fixpoint plainly (olds : list string) (m s : string) : bool :=
  match m with
  | EmptyString => true
  | String a m' =>
      negb (existsb (fun old => starts_with old s) olds) &&
      match s with EmptyString => false | String b r => Ascii.eqb a b && plainly olds m' r end
  end.

(** Replacing the marks [olds] neither makes nor breaks an occurrence of [m]
    (except inside the new text). *)
Definition apart_here (olds : list string) (m s : string) : bool :=
  forallb (fun old => if starts_with old s
                      then let r := substring (String.length old) (String.length s - String.length old) s in
                           forallb (fun y => negb (fits olds y r)) (tails m)
                      else true) olds &&
  (existsb (fun old => starts_with old s) olds || negb (fits olds m s) || plainly olds m s).
Fixpoint apart (olds : list string) (m s : string) : bool :=
  apart_here olds m s && match s with EmptyString => true | String _ r => apart olds m r end.

Lemma substring_all : forall s, substring 0 (String.length s) s = s.
Proof. induction s as [ | c s IH]; [reflexivity | ]. cbn. rewrite IH. reflexivity. Qed.
Lemma substring_app : forall a r, substring (String.length a) (String.length (a +++ r) - String.length a) (a +++ r) = r.
Proof.
  induction a as [ | x a IH]; intros r.
  - cbn [String.length append]. rewrite Nat.sub_0_r. apply substring_all.
  - cbn [String.length append substring]. rewrite Nat.sub_succ. apply IH.
Qed.

Lemma apart_skip : forall olds m a r, apart olds m (a +++ r) = true -> apart olds m r = true.
Proof.
  induction a as [ | x a IH]; intros r H; [exact H | ].
  cbn [append apart] in H. apply andb_true_iff in H. apply IH, (proj2 H).
Qed.
Lemma apart_now : forall olds m s, apart olds m s = true -> apart_here olds m s = true.
Proof. intros olds m s H. destruct s; cbn [apart] in H; apply andb_true_iff in H; apply H. Qed.

Lemma prefix_of_app : forall m w r t, m <> "" -> w +++ r = m +++ t ->
  (exists u, w = m +++ u) \/ (exists y, y <> "" /\ m = w +++ y /\ r = y +++ t).
Proof.
  induction m as [ | a m IH]; intros w r t M W; [congruence | ].
  destruct w as [ | b w].
  - right. exists (String a m). repeat split; [discriminate | exact W].
  - cbn in W. injection W as -> W. destruct m as [ | a' m'].
    + left. exists w. reflexivity.
    + destruct (IH w r t ltac:(discriminate) W) as [[u ->] | (y & Ny & E & E')].
      * left. exists u. reflexivity.
      * right. exists y. repeat split; [exact Ny | cbn; rewrite <- E; reflexivity | exact E'].
Qed.

Section Rewrites.
Variable subs : list (string * string).
Let olds := map fst subs.

Lemma fits_rewrites : forall s s1, rewrites subs s s1 -> forall y, starts_with y s1 = true -> fits olds y s = true.
Proof.
  induction 1 as [ | old new r r' I R IH | c r r' N R IH]; intros y Y.
  - destruct y; [reflexivity | discriminate Y].
  - destruct y as [ | a y]; [reflexivity | ]. cbn [fits]. apply orb_true_iff. left.
    apply existsb_exists. exists old. split; [ | apply starts_with_app].
    apply (in_map fst) in I. exact I.
  - destruct y as [ | a y]; [reflexivity | ]. cbn [fits]. apply orb_true_iff. right.
    cbn [starts_with] in Y. apply andb_true_iff in Y. destruct Y as [E Y].
    rewrite E. cbn [andb]. apply IH, Y.
Qed.

Lemma fits_start : forall y s, starts_with y s = true -> fits olds y s = true.
Proof.
  induction y as [ | a y IH]; intros s Y; [reflexivity | ]. cbn [fits]. apply orb_true_iff. right.
  destruct s as [ | b s]; [discriminate Y | ]. cbn [starts_with] in Y. apply andb_true_iff in Y.
  rewrite (proj1 Y). cbn [andb]. apply IH, Y.
Qed.

Lemma plainly_rewrites : forall m s s1, rewrites subs s s1 -> plainly olds m s = true ->
  exists r r1, s = m +++ r /\ s1 = m +++ r1 /\ rewrites subs r r1.
Proof.
  induction m as [ | a m IH]; intros s s1 R P.
  - exists s, s1. repeat split. exact R.
  - cbn [plainly] in P. apply andb_true_iff in P. destruct P as [P0 P].
    destruct R as [ | old new r r' I R | c r r' N R]; [discriminate P | | ].
    + apply negb_true_iff in P0. exfalso.
      assert (X : existsb (fun o => starts_with o (old +++ r)) olds = true).
      { apply existsb_exists. exists old. split; [apply (in_map fst) in I; exact I | apply starts_with_app]. }
      rewrite X in P0. discriminate P0.
    + apply andb_true_iff in P. destruct P as [E P]. apply Ascii.eqb_eq in E. subst c.
      destruct (IH r r' R P) as (t & t1 & -> & -> & R').
      exists t, t1. repeat split. exact R'.
Qed.

Variables m n : string.
Hypothesis M : m <> "".
Hypothesis proper : ~ In "" olds.

Lemma replace_through : forall new r1, occurs m new = false ->
  (forall y, In y (tails m) -> starts_with y r1 = false) ->
  replace m n (new +++ r1) = new +++ replace m n r1.
Proof.
  induction new as [ | c x IH]; intros r1 O Y; [reflexivity | ].
  cbn [occurs] in O. apply orb_false_iff in O. destruct O as [O0 O].
  cbn [append]. rewrite replace_miss; [rewrite IH by assumption; reflexivity | exact M | ].
  destruct (starts_with m (String c (x +++ r1))) eqn:W; [exfalso | reflexivity].
  apply starts_with_iff in W. destruct W as [t W].
  change (String c (x +++ r1)) with (String c x +++ r1) in W.
  destruct (prefix_of_app m (String c x) r1 t M W) as [[u K] | (y & Ny & E & E')].
  - rewrite K, starts_with_app in O0. discriminate O0.
  - specialize (Y y (tails_In _ _ _ E ltac:(discriminate) Ny)). rewrite E', starts_with_app in Y. discriminate Y.
Qed.

Lemma rewrites_one_more : forall k s s1, (String.length s <= k)%nat -> rewrites subs s s1 -> apart olds m s = true ->
  (forall old new, In (old, new) subs -> occurs old s = true -> occurs m new = false) ->
  rewrites (subs ++ [(m, n)]) s (replace m n s1).
Proof.
  induction k as [ | k IH]; intros s s1 L R A outside.
  - destruct s; [ | cbn in L; lia]. inversion R as [E | old new r r' I R' E E1 | ]; subst.
    + rewrite replace_nil by exact M. constructor.
    + destruct old; [ | discriminate E]. destruct proper. apply (in_map fst) in I. exact I.
  - pose proof (apart_now _ _ _ A) as H. unfold apart_here in H. apply andb_true_iff in H. destruct H as [H1 H2].
    destruct R as [ | old new r r' I R | c r r' N R].
    + rewrite replace_nil by exact M. constructor.
    + assert (Io : In old olds) by (apply (in_map fst) in I; exact I).
      rewrite replace_through.
      * apply rw_mark; [apply in_or_app; left; exact I | ]. apply IH; [ | exact R | apply (apart_skip _ _ old), A | ].
        2: intros o w Iw O; apply (outside o w Iw), occurs_skip, O.
        rewrite length_app_str in L. destruct old; [destruct (proper Io) | cbn in L; lia].
      * apply (outside old new I), occurs_start, starts_with_app.
      * intros y Y. rewrite forallb_forall in H1. specialize (H1 old Io). cbv beta in H1.
        rewrite starts_with_app in H1. cbv zeta in H1. rewrite substring_app in H1.
        rewrite forallb_forall in H1. specialize (H1 y Y). apply negb_true_iff in H1.
        destruct (starts_with y r') eqn:W; [ | reflexivity].
        rewrite (fits_rewrites _ _ R y W) in H1. discriminate H1.
    + assert (X : existsb (fun o => starts_with o (String c r)) olds = false).
      { destruct (existsb _ olds) eqn:X; [exfalso | reflexivity]. apply existsb_exists in X. destruct X as (o & Io & W).
        apply starts_with_iff in W. destruct W as [t W]. apply in_map_iff in Io. destruct Io as ([o' w] & E & Io).
        cbn in E. subst o'. exact (N o w t Io W). }
      rewrite X in H2. cbn [orb] in H2.
      pose proof (rw_keep subs c r r' N R) as R0.
      destruct (fits olds m (String c r)) eqn:F; cbn [negb orb] in H2.
      * destruct (plainly_rewrites _ _ _ R0 H2) as (t & t1 & Es & Es1 & R').
        rewrite Es, Es1, replace_hit by exact M.
        apply rw_mark; [apply in_or_app; right; left; reflexivity | ].
        rewrite Es in L, A. rewrite length_app_str in L.
        apply IH; [destruct m; [congruence | cbn in L; lia] | exact R' | apply (apart_skip _ _ m), A | ].
        intros o w Iw O. apply (outside o w Iw). rewrite Es. apply occurs_skip, O.
      * rewrite replace_miss; [ | exact M | ].
        -- apply rw_keep; [ | apply IH; [cbn in L; lia | exact R | apply (apart_skip _ _ (String c "")), A | ]].
           2: intros o w Iw O; apply (outside o w Iw), (occurs_skip o (String c "")), O.
           intros old new t I. apply in_app_or in I. destruct I as [I | [I | []]]; [exact (N old new t I) | ].
           injection I as <- <-. intros E. rewrite (fits_start m (String c r)) in F; [discriminate F | ].
           rewrite E. apply starts_with_app.
        -- destruct (starts_with m (String c r')) eqn:W; [ | reflexivity].
           rewrite (fits_rewrites _ _ R0 m W) in F. discriminate F.
Qed.

End Rewrites.

(** ** A table of substitutions *)

(** The text allows the substitutions [marks] after [done]. *)
Fixpoint unmixed (done marks : list string) (s : string) : bool :=
  match marks with
  | [] => true
  | m :: rest => negb (String.eqb m "") && apart done m s && unmixed (done ++ [m]) rest s
  end.

Lemma rewrites_none : forall s, rewrites [] s s.
Proof. induction s as [ | c s IH]; constructor; [intros old new t [] | exact IH]. Qed.

Definition replaced (subs : list (string * string)) (s : string) : string :=
  fold_left (fun t d => replace (fst d) (snd d) t) subs s.

(** No later mark is inside an earlier new text, if that is used in [ls] at all. *)
Definition unnested (ls : list string) (subs : list (string * string)) : Prop :=
  ForallOrdPairs (fun a b => existsb (occurs (fst a)) ls = false \/ occurs (fst b) (snd a) = false) subs.

Lemma rewrites_table : forall ls s, In s ls -> forall more subs s1,
  rewrites subs s s1 -> ~ In "" (map fst subs) -> unmixed (map fst subs) (map fst more) s = true ->
  unnested ls (subs ++ more) -> rewrites (subs ++ more) s (replaced more s1).
Proof.
  intros ls s Is. induction more as [ | [m n] more IH]; intros subs s1 R E U F.
  - rewrite app_nil_r. exact R.
  - cbn [map fst unmixed] in U. apply andb_true_iff in U. destruct U as [U U2].
    apply andb_true_iff in U. destruct U as [U0 U1]. apply negb_true_iff, String.eqb_neq in U0.
    unfold replaced. cbn [fold_left fst snd].
    replace (subs ++ (m, n) :: more) with ((subs ++ [(m, n)]) ++ more) in * by (rewrite <- app_assoc; reflexivity).
    apply IH.
    + apply (rewrites_one_more subs m n U0) with (k := String.length s); [exact E | lia | exact R | exact U1 | ].
      intros old new I O. clear - F I O Is. induction subs as [ | a subs IHs]; [destruct I | ].
      inversion F as [ | ? ? G K]; subst. destruct I as [-> | I].
      * rewrite Forall_forall in G. destruct (G (m, n)) as [Q | Q]; [ | exfalso | exact Q].
        -- apply in_or_app. left. apply in_or_app. right. left. reflexivity.
        -- assert (Q' : existsb (occurs (fst (old, new))) ls = true) by (apply existsb_exists; exists s; auto).
           rewrite Q' in Q. discriminate Q.
      * apply (IHs K I).
    + rewrite map_app. intros I. apply in_app_or in I. destruct I as [I | [I | []]]; [exact (E I) | ]. cbn in I. congruence.
    + rewrite map_app. exact U2.
    + exact F.
Qed.

Lemma prefix_compare : forall a b x y, a +++ x = b +++ y -> starts_with a b = true \/ starts_with b a = true.
Proof.
  induction a as [ | c a IH]; intros b x y E; [left; reflexivity | ].
  destruct b as [ | d b]; [right; reflexivity | ]. cbn in E. injection E as <- E.
  cbn [starts_with]. rewrite Ascii.eqb_refl. cbn [andb]. apply (IH _ _ _ E).
Qed.

Lemma distinct_same : forall subs a b x y, distinct subs -> In a subs -> In b subs ->
  fst a +++ x = fst b +++ y -> a = b.
Proof.
  intros subs a b x y [D _] Ia Ib E. destruct (prefix_compare _ _ _ _ E) as [P | P];
    apply starts_with_iff in P; destruct P as [t P]; [apply (D a b t) | symmetry; apply (D b a t)]; assumption.
Qed.

Lemma rewrites_unique : forall subs, distinct subs -> forall k s, (String.length s <= k)%nat ->
  forall a b, rewrites subs s a -> rewrites subs s b -> a = b.
Proof.
  intros subs D. induction k as [ | k IH]; intros s L a b A B.
  - destruct s; [ | cbn in L; lia].
    assert (Q : forall z, rewrites subs "" z -> z = "").
    { intros z Z. inversion Z as [E | old new r r' I R E E1 | ]; subst; [reflexivity | ].
      destruct old; [ | discriminate E]. destruct D as [_ D]. destruct D. apply (in_map fst) in I. exact I. }
    rewrite (Q a A), (Q b B). reflexivity.
  - destruct A as [ | old new r r' I R | c r r' N R].
    + inversion B as [E | old new r r' I R E E1 | ]; subst; [reflexivity | ].
      destruct old; [ | discriminate E]. destruct D as [_ D]. destruct D. apply (in_map fst) in I. exact I.
    + assert (No : old <> "") by (intros ->; destruct D as [_ D]; apply D; apply (in_map fst) in I; exact I).
      inversion B as [E | old2 new2 r2 r2' I2 R2 E E1 | c r2 r2' N2 R2 E E1]; subst.
      * destruct old; [congruence | discriminate E].
      * assert (Q := distinct_same subs (old2, new2) (old, new) r2 r D I2 I E). injection Q as -> ->.
        apply app_str_inv in E. subst r2. f_equal. apply (IH r); [ | exact R | exact R2].
        rewrite length_app_str in L. destruct old; [congruence | cbn in L; lia].
      * destruct (N2 old new r I E).
    + inversion B as [ | old2 new2 r2 r2' I2 R2 E E1 | c2 r2 r2' N2 R2 E E1]; subst.
      * destruct (N old2 new2 r2 I2). symmetry. exact E.
      * f_equal. apply (IH r); [cbn in L; lia | exact R | exact R2].
Qed.

(** ** Indentation *)

Lemma substring_more : forall a i n k, (String.length a <= i + n)%nat -> (String.length a <= i + k)%nat ->
  substring i n a = substring i k a.
Proof.
  induction a as [ | x a IH]; intros i n k Ln Lk; destruct i, n, k; cbn [substring String.length] in *; try reflexivity; try lia;
    [rewrite (IH O n k) by lia; reflexivity | apply IH; lia ..].
Qed.

Lemma unindent_spec : forall old, old <> "" -> forall fuel s, (String.length s <= fuel)%nat ->
  let (k, r) := unindent fuel old s in s = repeat_str k old +++ r /\ (forall t, r <> old +++ t).
Proof.
  intros old N. induction fuel as [ | f IH]; intros s L.
  - cbn. split; [reflexivity | ]. intros t E. destruct s; [ | cbn in L; lia]. destruct old; [congruence | discriminate E].
  - cbn [unindent]. destruct (starts_with old s) eqn:W.
    + apply starts_with_iff in W. destruct W as [t ->].
      assert (Q : substring (String.length old) (String.length (old +++ t)) (old +++ t) = t).
      { rewrite (substring_more _ _ _ (String.length (old +++ t) - String.length old)).
        - apply substring_app.
        - rewrite length_app_str. lia.
        - lia. }
      rewrite Q. specialize (IH t). rewrite length_app_str in L.
      destruct (unindent f old t) as [k r]. destruct IH as [E F].
      { destruct old; [congruence | cbn in L; lia]. }
      split; [ | exact F]. cbn [repeat_str]. rewrite app_str_assoc, <- E. reflexivity.
    + split; [reflexivity | ]. intros t ->. rewrite starts_with_app in W. discriminate W.
Qed.

Lemma replace_indent_spec : forall old new s, old <> "" -> reindented old new s (replace_indent old new s).
Proof.
  intros old new s N. unfold replace_indent. pose proof (unindent_spec old N (String.length s) s (le_n _)) as U.
  destruct (unindent (String.length s) old s) as [k r]. destruct U as [E F]. exists k, r. auto.
Qed.

(** ** Whole lines *)

Lemma splice_app : forall old new i a b, (i <= List.length a)%nat ->
  splice old new i (a ++ b) = splice old new i a ++ b.
Proof.
  induction i as [ | j IH]; intros a b L; [reflexivity | ]. cbn [splice].
  rewrite nth_error_app1 by lia. destruct (nth_error a j) as [l | ] eqn:Q; [ | apply nth_error_None in Q; lia].
  destruct (String.eqb l old).
  - rewrite firstn_app, skipn_app. replace (j - List.length a)%nat with O by lia.
    replace (S j - List.length a)%nat with O by lia. rewrite firstn_O, skipn_O, app_nil_r.
    replace (firstn j a ++ new ++ skipn (S j) a ++ b) with ((firstn j a ++ new ++ skipn (S j) a) ++ b)
      by (rewrite <- !app_assoc; reflexivity).
    apply IH. rewrite !app_length, firstn_length. lia.
  - apply IH. lia.
Qed.

Lemma splice_lines : forall old new ls,
  splice old new (List.length ls) ls = flat_map (fun l => if string_dec l old then new else [l]) ls.
Proof.
  intros old new ls. induction ls as [ | x ls IH] using rev_ind; [reflexivity | ].
  rewrite app_length. cbn [List.length]. rewrite Nat.add_1_r. cbn [splice].
  rewrite nth_error_app2, Nat.sub_diag by lia. cbn [nth_error].
  rewrite flat_map_app. cbn [flat_map]. rewrite app_nil_r.
  destruct (string_dec x old) as [-> | N].
  - rewrite String.eqb_refl. rewrite firstn_app, Nat.sub_diag, firstn_all. cbn [firstn].
    rewrite app_nil_r. rewrite skipn_all2 by (rewrite app_length; cbn; lia). rewrite app_nil_r.
    rewrite splice_app by lia. rewrite IH. reflexivity.
  - apply String.eqb_neq in N. rewrite N. rewrite splice_app by lia. rewrite IH. reflexivity.
Qed.

(** ** add_boilerplate *)

(** [g] prints the lines [file] with the marks replaced and the indentation changed
    from [native] to [tab]. *)
Definition inserts (subs : list (string * string)) (native tab : string) (file : list string) (g : gtext) : Prop :=
  forall n, exists ls,
    g n = Ret (map (fun l => (n, l)) ls, n) /\
    Forall2 (fun l l' => exists m, rewrites subs l m /\ reindented native tab m l') file ls.

(** The same when the marks are whole lines, replaced by lines. *)
Definition inserts_lines (mark : string) (new : list string) (native tab : string) (file : list string) (g : gtext) : Prop :=
  forall n, exists ls,
    g n = Ret (map (fun l => (n, l)) ls, n) /\
    Forall2 (reindented native tab) (flat_map (fun l => if string_dec l mark then new else [l]) file) ls.

Definition texts (subs : list (string * string)) : list (string * substitute_by) :=
  map (fun d => (fst d, Text (snd d))) subs.

Lemma substitute_texts : forall subs ls, fold_left substitute (texts subs) ls = map (replaced subs) ls.
Proof.
  induction subs as [ | [o w] subs IH]; intros ls.
  - cbn. symmetry. apply map_id.
  - cbn [texts map fold_left]. unfold substitute at 2. cbn [fst snd].
    change (fold_left substitute (texts subs) (map (replace o w) ls) = map (replaced ((o, w) :: subs)) ls).
    rewrite IH, map_map. reflexivity.
Qed.

Lemma each_lines : forall (ls : list string) n, each ls (fun l => line l) n = Ret (map (fun l => (n, l)) ls, n).
Proof.
  induction ls as [ | l ls IH]; intros n; [reflexivity | ].
  change (each (l :: ls) (fun l => line l)) with (andthen (line l) (each ls (fun l => line l))).
  unfold andthen. cbn [line]. unfold line. cbn. rewrite IH. reflexivity.
Qed.

Lemma inserts_ok : forall subs native tab file, native <> "" ->
  forallb (unmixed [] (map fst subs)) file = true -> unnested file subs ->
  inserts subs native tab file (add_boilerplate native tab (texts subs) file).
Proof.
  intros subs native tab file N U F n. exists (boilerplate_lines native tab (texts subs) file).
  split; [apply each_lines | ]. unfold boilerplate_lines. rewrite substitute_texts, map_map.
  assert (G : forall ls, (forall l, In l ls -> In l file) ->
    Forall2 (fun l l' => exists m, rewrites subs l m /\ reindented native tab m l') ls
            (map (fun x => replace_indent native tab (replaced subs x)) ls)).
  { induction ls as [ | l ls IH]; intros I; [constructor | ]. cbn [map].
    constructor; [ | apply IH; intros l' Il; apply I; right; exact Il].
    exists (replaced subs l). split; [ | apply replace_indent_spec, N].
    specialize (I l (or_introl eq_refl)).
    apply (rewrites_table file l I subs [] l (rewrites_none l)); [intros [] | | exact F].
    rewrite forallb_forall in U. apply (U l I). }
  apply G. auto.
Qed.

Lemma inserts_lines_ok : forall mark new native tab file, native <> "" ->
  inserts_lines mark new native tab file (add_boilerplate native tab [(mark, Lines new)] file).
Proof.
  intros mark new native tab file N n. exists (boilerplate_lines native tab [(mark, Lines new)] file).
  split; [apply each_lines | ]. unfold boilerplate_lines. cbn [fold_left]. unfold substitute. cbn [snd fst].
  rewrite splice_lines. generalize (flat_map (fun l => if string_dec l mark then new else [l]) file) as ls.
  induction ls as [ | l ls IH]; constructor; [apply replace_indent_spec, N | exact IH].
Qed.

(** ** Parts of a text *)

(** What [whole] prints has what [q] prints in it, at some level. *)
Definition part (q whole : gtext) : Prop :=
  forall k out k', whole k = Ret (out, k') ->
  exists n n' before ls after, q n = Ret (ls, n') /\ out = before ++ ls ++ after.

Lemma part_refl : forall q, part q q.
Proof. intros q k out k' E. exists k, k', [], out, []. rewrite app_nil_r. auto. Qed.

Lemma part_block : forall q a gs, In a gs -> part q a -> part q (block gs).
Proof.
  intros q a gs. induction gs as [ | b gs IH]; intros I P; [destruct I | ].
  intros k out k' E. change (block (b :: gs)) with (andthen b (block gs)) in E. unfold andthen in E.
  destruct (b k) as [[l1 k1] | | ] eqn:B; try discriminate E. cbn [pbind fst snd] in E.
  destruct (block gs k1) as [[l2 k2] | | ] eqn:G; try discriminate E. cbn [pbind fst snd] in E.
  injection E as <- <-. destruct I as [-> | I].
  - destruct (P _ _ _ B) as (n & n' & before & ls & after & Q & ->).
    exists n, n', before, ls, (after ++ l2). split; [exact Q | rewrite <- !app_assoc; reflexivity].
  - destruct (IH I P _ _ _ G) as (n & n' & before & ls & after & Q & ->).
    exists n, n', (l1 ++ before), ls, after. split; [exact Q | rewrite <- !app_assoc; reflexivity].
Qed.

Lemma part_given : forall A q (m : pyres A) f a, m = Ret a -> part q (f a) -> part q (given m f).
Proof. intros A q m f a -> P. exact P. Qed.

Lemma includes_part : forall subs native tab file q g,
  inserts subs native tab file q -> part q g -> well_nested g -> includes subs native tab file g.
Proof.
  intros subs native tab file q g I P (out & E & _). destruct (P _ _ _ E) as (n & n' & before & ls & after & Q & ->).
  destruct (I n) as (ls' & Q' & F). rewrite Q' in Q. injection Q as <- <-.
  exists n, before, ls', after. auto.
Qed.
Lemma includes_lines_part : forall mark new native tab file q g,
  inserts_lines mark new native tab file q -> part q g -> well_nested g -> includes_lines mark new native tab file g.
Proof.
  intros mark new native tab file q g I P (out & E & _). destruct (P _ _ _ E) as (n & n' & before & ls & after & Q & ->).
  destruct (I n) as (ls' & Q' & F). rewrite Q' in Q. injection Q as <- <-.
  exists n, before, ls', after. auto.
Qed.

Lemma occurs_inside : forall m s, occurs m s = true <-> inside m s.
Proof.
  intros m s. split.
  - induction s as [ | c s IH]; cbn [occurs]; intros H; apply orb_true_iff in H; destruct H as [H | H].
    + apply starts_with_iff in H. destruct H as [t E]. exists "", t. exact E.
    + discriminate H.
    + apply starts_with_iff in H. destruct H as [t E]. exists "", t. exact E.
    + destruct (IH H) as (a & b & ->). exists (String c a), b. reflexivity.
  - intros (a & b & ->). apply occurs_skip, occurs_start, starts_with_app.
Qed.
Lemma occurs_false : forall m s, ~ inside m s -> occurs m s = false.
Proof. intros m s N. destruct (occurs m s) eqn:O; [ | reflexivity]. destruct N. apply occurs_inside, O. Qed.

(** ** The rewritten line exists *)

Fixpoint once (subs : list (string * string)) (gap : nat) (s : string) : string :=
  match s with
  | EmptyString => EmptyString
  | String c r =>
      match gap with
      | S g => once subs g r
      | O => match find (fun d => starts_with (fst d) s) subs with
             | Some (old, new) => new +++ once subs (String.length old - 1) r
             | None => String c (once subs 0 r)
             end
      end
  end.

Lemma once_gap : forall subs m r, once subs (String.length m) (m +++ r) = once subs 0 r.
Proof. induction m as [ | a m IH]; intros r; [reflexivity | ]. cbn [String.length append once]. apply IH. Qed.

Lemma once_rewrites : forall subs, ~ In "" (map fst subs) -> forall k s, (String.length s <= k)%nat ->
  rewrites subs s (once subs 0 s).
Proof.
  intros subs N. induction k as [ | k IH]; intros s L.
  - destruct s; [constructor | cbn in L; lia].
  - destruct s as [ | c r]; [constructor | ]. cbn [once].
    destruct (find (fun d => starts_with (fst d) (String c r)) subs) as [[old new] | ] eqn:F.
    + apply find_some in F. destruct F as [I W]. cbn [fst] in W. apply starts_with_iff in W. destruct W as [t W].
      destruct old as [ | a old]; [destruct N; apply (in_map fst) in I; exact I | ].
      cbn in W. injection W as -> ->. change (String a (old +++ t)) with (String a old +++ t).
      cbn [String.length]. rewrite Nat.sub_succ, Nat.sub_0_r, once_gap.
      apply rw_mark; [exact I | ]. apply IH. cbn [String.length] in L. rewrite length_app_str in L. lia.
    + apply rw_keep; [ | apply IH; cbn in L; lia].
      intros old new t I E. apply (find_none _ _ F) in I. cbn [fst] in I. rewrite E, starts_with_app in I. discriminate I.
Qed.

Lemma rewrites_defined : forall subs, distinct subs -> forall s, exists! s', rewrites subs s s'.
Proof.
  intros subs D s. exists (once subs 0 s). split; [apply (once_rewrites subs (proj2 D) _ s (le_n _)) | ].
  intros s' R. apply (rewrites_unique subs D _ s (le_n _)); [apply (once_rewrites subs (proj2 D) _ s (le_n _)) | exact R].
Qed.
