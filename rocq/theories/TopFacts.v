(** The lines of generated text that declare names at the top level. *)
From Verif Require Export TopSpec LinesFacts BoilerplateFacts.
Open Scope string_scope.
Open Scope Z_scope.
Open Scope list_scope.

(** ** Words *)

Lemma first_word_app w c r : word w = true -> word_char c = false -> first_word (w +++ String c r) = w.
Proof.
  induction w as [ |a w IH]; cbn [word first_word String.append]; intros W C; [now rewrite C| ].
  apply andb_true_iff in W as [Wa W]; rewrite Wa; f_equal; now apply IH.
Qed.
Lemma first_word_all w : word w = true -> first_word w = w.
Proof.
  induction w as [ |a w IH]; cbn [word first_word]; intro W; [reflexivity| ].
  apply andb_true_iff in W as [Wa W]; rewrite Wa; f_equal; now apply IH.
Qed.
Lemma word_app a b : word a = true -> word b = true -> word (a +++ b) = true.
Proof.
  induction a as [ |c a IH]; cbn [word String.append]; intros A B; [exact B| ].
  apply andb_true_iff in A as [C A]; rewrite C; now apply IH.
Qed.

Lemma word_enum p t e : word_types p -> In (t, e) (p_enums p) -> word t = true.
Proof. intros W I; apply W; unfold types_in_order; rewrite !in_app_iff, !in_map_iff; left; now exists (t, e). Qed.
Lemma word_struct p t s : word_types p -> In (t, s) (p_structs p) -> word t = true.
Proof. intros W I; apply W; unfold types_in_order; rewrite !in_app_iff, !in_map_iff; right; left; now exists (t, s). Qed.
Lemma word_message p t s : word_types p -> In (t, s) (p_messages p) -> word t = true.
Proof. intros W I; apply W; unfold types_in_order; rewrite !in_app_iff, !in_map_iff; right; right; now exists (t, s). Qed.
#[export] Hint Resolve word_enum word_struct word_message : text.

(** ** Lines *)

Lemma tops_app intros n a b : tops intros n (a ++ b) = tops intros n a ++ tops intros n b.
Proof. unfold tops; now rewrite flat_map_app. Qed.
Lemma tops_inner intros n ls : Forall (fun l => n + 1 <= fst l) ls -> tops intros n ls = [].
Proof.
  induction 1 as [ |l ls H F IH]; [reflexivity| ]; unfold tops in *; cbn [flat_map].
  destruct (Z.eqb_spec (fst l) n); [lia|exact IH].
Qed.

(** From level [n + k] to [n + k'], [g] prints lines that declare [names] at level [n]. *)
Definition shows (intros : list string) (n : Z) (g : gtext) (k k' : Z) (names : list string) : Prop :=
  exists ls, g (n + k) = Ret (ls, n + k') /\ tops intros n ls = names.

Section Shows.
Variable intros : list string.

Lemma shows_nil n k : shows intros n (block []) k k [].
Proof. exists []; split; reflexivity. Qed.
Lemma shows_cons n a r k k1 k2 N1 N2 :
  shows intros n a k k1 N1 -> shows intros n (block r) k1 k2 N2 -> shows intros n (block (a :: r)) k k2 (N1 ++ N2).
Proof.
  intros (l1 & E1 & T1) (l2 & E2 & T2); exists (l1 ++ l2).
  change (block (a :: r)) with (andthen a (block r)); unfold andthen; rewrite E1; cbn [pbind snd fst].
  rewrite E2; cbn [pbind fst snd]; split; [reflexivity| ].
  now rewrite tops_app, T1, T2.
Qed.
Lemma shows_line n t s r k k2 names N : t = Ret s -> names = declared intros s -> k = 0 ->
  shows intros n (block r) k k2 N -> shows intros n (block (line t :: r)) k k2 (names ++ N).
Proof.
  intros E -> -> H; eapply shows_cons; [ |exact H].
  exists [(n + 0, s)]; subst t; split; [reflexivity| ].
  unfold tops; cbn [flat_map fst snd]; rewrite Z.add_0_r, Z.eqb_refl; apply app_nil_r.
Qed.
Lemma shows_outer n t r k k2 N : good t -> (k =? 0) = false ->
  shows intros n (block r) k k2 N -> shows intros n (block (line t :: r)) k k2 N.
Proof.
  intros [s E] K H; apply Z.eqb_neq in K; change N with ([] ++ N); eapply shows_cons; [ |exact H].
  exists [(n + k, s)]; subst t; split; [reflexivity| ].
  unfold tops; cbn [flat_map fst snd]; destruct (Z.eqb_spec (n + k) n); [lia|reflexivity].
Qed.
Lemma shows_indent n r k k1 k2 N : k + 1 = k1 ->
  shows intros n (block r) k1 k2 N -> shows intros n (block (indent :: r)) k k2 N.
Proof.
  intros <- H; change N with ([] ++ N); eapply shows_cons; [ |exact H].
  exists []; split; [unfold indent; do 2 f_equal; lia|reflexivity].
Qed.
Lemma shows_dedent n r k k1 k2 N : k - 1 = k1 ->
  shows intros n (block r) k1 k2 N -> shows intros n (block (dedent :: r)) k k2 N.
Proof.
  intros <- H; change N with ([] ++ N); eapply shows_cons; [ |exact H].
  exists []; split; [unfold dedent; do 2 f_equal; lia|reflexivity].
Qed.
Lemma shows_check n r k k2 N : n + k = 0 ->
  shows intros n (block r) k k2 N -> shows intros n (block (check_level :: r)) k k2 N.
Proof.
  intros E H; change N with ([] ++ N); eapply shows_cons; [ |exact H].
  exists []; unfold check_level; rewrite E; split; reflexivity.
Qed.
Lemma shows_skip n r k k2 N :
  shows intros n (block r) k k2 N -> shows intros n (block (skip :: r)) k k2 N.
Proof.
  intro H; change N with ([] ++ N); eapply shows_cons; [ |exact H]; exists []; split; reflexivity.
Qed.
(** What is printed further in. *)
Lemma shows_inside n a r j j1 k2 N : runs (n + 1) a j j1 ->
  shows intros n (block r) (1 + j1) k2 N -> shows intros n (block (a :: r)) (1 + j) k2 N.
Proof.
  intros (ls & E & F) H; change N with ([] ++ N); eapply shows_cons; [ |exact H].
  exists ls; split; [rewrite !Z.add_assoc; exact E|now apply tops_inner].
Qed.
Lemma andthen_ret a b n ls m : andthen a b n = Ret (ls, m) <->
  exists l1 k l2, a n = Ret (l1, k) /\ b k = Ret (l2, m) /\ ls = l1 ++ l2.
Proof.
  unfold andthen; destruct (a n) as [[l1 k]| | ]; cbn [pbind fst snd].
  - destruct (b k) as [[l2 m']| | ] eqn:B; cbn [pbind fst snd]; split; intro H.
    + injection H as <- <-; exists l1, k, l2; auto.
    + destruct H as (x & y & z & X & Y & ->); injection X as <- <-; rewrite B in Y; injection Y as <- <-; reflexivity.
    + discriminate.
    + destruct H as (x & y & z & X & Y & _); injection X as <- <-; rewrite B in Y; discriminate.
    + discriminate.
    + destruct H as (x & y & z & X & Y & _); injection X as <- <-; rewrite B in Y; discriminate.
  - split; [discriminate|now intros (x & y & z & X & _)].
  - split; [discriminate|now intros (x & y & z & X & _)].
Qed.
Lemma shows_andthen n a b r k k2 N :
  shows intros n (block (a :: b :: r)) k k2 N -> shows intros n (block (andthen a b :: r)) k k2 N.
Proof.
  intros (ls & E & T); exists ls; split; [ |exact T].
  change (andthen a (andthen b (block r)) (n + k) = Ret (ls, n + k2)) in E.
  change (andthen (andthen a b) (block r) (n + k) = Ret (ls, n + k2)).
  apply andthen_ret in E as (l1 & k' & l2 & Ea & E & ->).
  apply andthen_ret in E as (l3 & k3 & l4 & Eb & Er & ->).
  apply andthen_ret; exists (l1 ++ l3), k3, l4; split; [ |split; [exact Er|apply app_assoc]].
  apply andthen_ret; exists l1, k', l3; auto.
Qed.
Lemma shows_flat n l r k k2 N :
  shows intros n (block (l ++ r)) k k2 N -> shows intros n (block (block l :: r)) k k2 N.
Proof.
  revert k k2 N; induction l as [ |a l IH]; intros k k2 N H; [now apply shows_skip| ].
  change (block (a :: l)) with (andthen a (block l)); apply shows_andthen.
  destruct H as (ls & E & T).
  change (andthen a (block (l ++ r)) (n + k) = Ret (ls, n + k2)) in E.
  apply andthen_ret in E as (l1 & k1 & l2 & Ea & E & ->); rewrite tops_app in T; subst N.
  eapply shows_cons with (k1 := k1 - n); [exists l1; split; [ |reflexivity]|apply IH; exists l2; split; [ |reflexivity]].
  - rewrite Ea; do 2 f_equal; lia.
  - replace (n + (k1 - n)) with k1 by lia; exact E.
Qed.
Lemma shows_given {A} n (m : pyres A) f r k k2 N : good m ->
  (forall a, m = Ret a -> shows intros n (block (f a :: r)) k k2 N) ->
  shows intros n (block (given m f :: r)) k k2 N.
Proof.
  intros [a E] H; destruct (H a E) as (ls & E1 & T); exists ls; split; [ |exact T].
  change (andthen (f a) (block r) (n + k) = Ret (ls, n + k2)) in E1.
  change (andthen (given m f) (block r) (n + k) = Ret (ls, n + k2)).
  unfold andthen, given in *; now rewrite E.
Qed.
Lemma shows_block n a k k2 N : shows intros n (block [a]) k k2 N -> shows intros n a k k2 N.
Proof.
  intros (ls & E & T); change (andthen a skip (n + k) = Ret (ls, n + k2)) in E.
  apply andthen_ret in E as (l1 & k1 & l2 & Ea & S & ->).
  unfold skip in S; injection S as <- E; rewrite E, app_nil_r in *; exists l1; auto.
Qed.
Lemma shows_each {A} n (l : list A) f names k :
  (forall x, In x l -> shows intros n (f x) k k (names x)) ->
  shows intros n (each l f) k k (flat_map names l).
Proof.
  unfold each; induction l as [ |x l IH]; intro H; cbn [map flat_map]; [apply shows_nil| ].
  eapply shows_cons; [apply H; now left|apply IH; intros y I; apply H; now right].
Qed.
Lemma shows_entries {A} n (l : list (string * A)) f k :
  (forall t x, In (t, x) l -> shows intros n (f (t, x)) k k [t]) ->
  shows intros n (each l f) k k (map fst l).
Proof.
  intro H; replace (map fst l) with (flat_map (fun x => [fst x]) l).
  - apply shows_each; intros [t x] I; now apply H.
  - clear; induction l as [ |x l IH]; cbn; congruence.
Qed.

(** ** Boilerplate *)

Definition unblank (i : string) : bool := match i with String c _ => negb (blank_char c) | "" => false end.

Lemma declared_blank c r : forallb unblank intros = true -> blank_char c = true -> declared intros (String c r) = [].
Proof.
  induction intros as [ |i l IH]; cbn [forallb declared]; intros U B; [reflexivity| ].
  apply andb_true_iff in U as [Ui U]; destruct i as [ |a i]; [discriminate| ]; cbn [rest_after].
  destruct (Ascii.eqb_spec a c) as [->|_]; [cbn [unblank] in Ui; rewrite B in Ui; discriminate|now apply IH].
Qed.
Lemma declared_reindent native tab l : forallb unblank intros = true ->
  blanks native = true -> native <> "" -> blanks tab = true -> tab <> "" ->
  declared intros (replace_indent native tab l) = declared intros l.
Proof.
  intros U Bn Nn Bt Nt; destruct (replace_indent_spec native tab l Nn) as (k & r & -> & _ & ->).
  destruct k as [ |k]; [reflexivity| ]; cbn [repeat_str].
  destruct native as [ |a native]; [congruence| ]; destruct tab as [ |b tab]; [congruence| ].
  cbn [blanks] in Bn, Bt; apply andb_true_iff in Bn as [Ba _]; apply andb_true_iff in Bt as [Bb _].
  cbn [String.append]; now rewrite !declared_blank.
Qed.
Lemma shows_boilerplate n native tab subs file r k2 N names :
  forallb unblank intros = true -> blanks native = true -> native <> "" -> blanks tab = true -> tab <> "" ->
  names = flat_map (declared intros) (fold_left substitute subs file) ->
  shows intros n (block r) 0 k2 N ->
  shows intros n (block (add_boilerplate native tab subs file :: r)) 0 k2 (names ++ N).
Proof.
  intros U Bn Nn Bt Nt -> H; eapply shows_cons; [ |exact H].
  unfold add_boilerplate, boilerplate_lines; rewrite Z.add_0_r || idtac.
  eexists; split; [apply each_lines| ].
  generalize (fold_left substitute subs file) as ls; intro ls; rewrite Z.add_0_r.
  induction ls as [ |l ls IH]; [reflexivity| ].
  unfold tops in *; cbn [map flat_map fst snd]; rewrite Z.eqb_refl, IH; f_equal.
  now apply declared_reindent.
Qed.
(** Marks in lines that are further in do not matter. *)
Definition blank_line (l : string) : bool := match l with String c _ => blank_char c | "" => false end.
Lemma replace_absent old new : old <> "" -> forall s, occurs old s = false -> replace old new s = s.
Proof.
  intros N; induction s as [ |c s IH]; intro O; [now apply replace_nil| ].
  destruct (starts_with old (String c s)) eqn:S; [rewrite (occurs_start _ _ S) in O; discriminate| ].
  rewrite replace_miss by assumption; f_equal; apply IH.
  cbn [occurs] in O; apply orb_false_iff in O; apply O.
Qed.
Lemma replace_blank old new l : unblank old = true -> blank_line l = true -> blank_line (replace old new l) = true.
Proof.
  destruct old as [ |a old]; [discriminate| ]; destruct l as [ |c l]; [discriminate| ]; cbn [unblank blank_line]; intros U B.
  rewrite replace_miss; [exact B|discriminate| ].
  cbn [starts_with]; destruct (Ascii.eqb_spec a c) as [->|_]; [rewrite B in U; discriminate|reflexivity].
Qed.
Lemma declared_blank_line l : forallb unblank intros = true -> blank_line l = true -> declared intros l = [].
Proof. destruct l as [ |c l]; [discriminate| ]; intros U B; now apply declared_blank. Qed.
Lemma declared_replaced subs ls : forallb unblank intros = true -> forallb unblank (map fst subs) = true ->
  forallb (fun l => blank_line l || forallb (fun m => negb (occurs m l)) (map fst subs)) ls = true ->
  flat_map (declared intros) (map (replaced subs) ls) = flat_map (declared intros) ls.
Proof.
  intros U V F; induction ls as [ |l ls IH]; [reflexivity| ]; cbn [map flat_map forallb] in *.
  apply andb_true_iff in F as [L F]; rewrite (IH F); f_equal; clear IH F.
  apply orb_true_iff in L as [L|L].
  - rewrite (declared_blank_line l U L); apply declared_blank_line; [exact U| ].
    unfold replaced; revert l L; induction subs as [ |[o w] subs IH]; intros l L; [exact L| ]; cbn [fold_left fst snd].
    cbn [map forallb fst] in V; apply andb_true_iff in V as [V1 V2]; apply IH; [exact V2|now apply replace_blank].
  - f_equal; unfold replaced; induction subs as [ |[o w] subs IH]; [reflexivity| ]; cbn [fold_left fst snd].
    cbn [map forallb fst] in V, L; apply andb_true_iff in V as [V1 V2]; apply andb_true_iff in L as [L1 L2].
    rewrite replace_absent; [now apply IH|destruct o; discriminate|now apply negb_true_iff].
Qed.
(** Outside of the namespace nothing counts. *)
Lemma shows_boilerplate_out n native tab subs file r k k2 N : (k =? 0) = false ->
  shows intros n (block r) k k2 N ->
  shows intros n (block (add_boilerplate native tab subs file :: r)) k k2 N.
Proof.
  intros K H; apply Z.eqb_neq in K; change N with ([] ++ N); eapply shows_cons; [ |exact H].
  eexists; split; [apply each_lines| ].
  generalize (boilerplate_lines native tab subs file) as ls; induction ls as [ |l ls IH]; [reflexivity| ].
  unfold tops in *; cbn [map flat_map fst snd]; destruct (Z.eqb_spec (n + k) n); [lia|exact IH].
Qed.
End Shows.

(** ** Tactics *)

Lemma shows_eq intros n g k k' N N' : shows intros n g k k' N -> N = N' -> shows intros n g k k' N'.
Proof. now intros H <-. Qed.

(** Text with known parts. *)
Ltac known_text := cbn [lit pcat pbind]; unfold pcat, lit; cbn [pbind]; reflexivity.

Ltac norm_level k :=
  let v := eval vm_compute in k in
  match k with v => idtac | _ => change k with v end.

Ltac read_line := cbn [declared rest_after String.append Ascii.eqb Bool.eqb].
(** The name that stands in a line. *)
Lemma append_empty s : s +++ "" = s.
Proof. induction s as [ |c s IH]; cbn [String.append]; congruence. Qed.
Ltac named := cbn [app]; rewrite ?append_empty; first [now rewrite first_word_app|now rewrite first_word_all].
Ltac show_more := fail.
Ltac show :=
  cbv beta zeta;
  lazymatch goal with
  | |- shows _ _ (block []) _ _ _ => apply shows_nil
  | |- shows _ _ (block (indent :: _)) ?k _ _ =>
      let v := eval vm_compute in (k + 1) in apply (shows_indent _ _ _ k v _ _ eq_refl); show
  | |- shows _ _ (block (dedent :: _)) ?k _ _ =>
      let v := eval vm_compute in (k - 1) in apply (shows_dedent _ _ _ k v _ _ eq_refl); show
  | |- shows _ _ (block (check_level :: _)) _ _ _ => apply shows_check; [reflexivity|show]
  | |- shows _ _ (block (skip :: _)) _ _ _ => apply shows_skip; show
  | |- shows _ _ (block (blank :: _)) ?k _ _ => unfold blank at 1; show
  | |- shows _ _ (block (line _ :: _)) 0 _ _ => eapply shows_line; [known_text|read_line; reflexivity|reflexivity|show]
  | |- shows _ _ (block (line _ :: _)) _ _ _ => apply shows_outer; [good|reflexivity|show]
  | |- shows _ _ (block (when true _ :: _)) _ _ _ => cbn [when]; show
  | |- shows _ _ (block (when false _ :: _)) _ _ _ => cbn [when]; show
  | |- shows _ _ (block (block _ :: _)) _ _ _ => apply shows_flat; cbn [app]; show
  | |- shows _ _ (block (?a :: _)) ?k _ _ =>
      first
        [ show_more; show
        | let j := eval vm_compute in (k - 1) in
          let ok := eval vm_compute in (0 <=? j) in
          match ok with true => idtac end;
          change k with (1 + j); eapply shows_inside; [solve [run]| ];
          match goal with |- shows _ _ _ ?k1 _ _ => let v := eval vm_compute in k1 in change k1 with v end; show
        | match a with
          | when ?b _ => known_if b; show
          | (if ?b then _ else _) => known_if b; show
          | given _ _ => apply shows_given; [good|intros; show]
          | (let (_, _) := ?x in _) => destruct x; show
          end
        | idtac ]
  | |- _ => idtac
  end.
