From Verif Require Import IndentSpec LinesFacts CliSpec.
Open Scope string_scope.
Open Scope list_scope.

(** ** Strings *)

Lemma strip_blanks b s : blanks b = true -> strip (b +++ s) = strip s.
Proof.
  induction b as [ |c b IH]; [reflexivity| ]; cbn [blanks String.append strip]; intro H.
  apply andb_prop in H as [C H]; rewrite C; auto.
Qed.
Lemma blanks_app a b : blanks a = true -> blanks b = true -> blanks (a +++ b) = true.
Proof. induction a as [ |c a IH]; [auto| ]; cbn; intros H B; apply andb_prop in H as [C H]; rewrite C; auto. Qed.
Lemma blanks_repeat n t : blanks t = true -> blanks (repeat_str n t) = true.
Proof. intro H; induction n as [ |n IH]; [reflexivity| ]; cbn [repeat_str]; now apply blanks_app. Qed.

Lemma feed_lines_not_nil s : feed_lines s <> [].
Proof. destruct s as [ |c r]; [discriminate| ]; cbn [feed_lines]; destruct (Ascii.eqb c "010"); [discriminate| ]; destruct (feed_lines r); discriminate. Qed.
Lemma blank_no_feed c : blank_char c = true -> Ascii.eqb c "010" = false.
Proof.
  unfold blank_char; intro H; apply orb_prop in H as [H|H]; apply Ascii.eqb_eq in H; subst; reflexivity.
Qed.
Lemma unindented_blank c s : blank_char c = true -> unindented (String c s) = unindented s.
Proof.
  intro H; unfold unindented; cbn [feed_lines]; rewrite (blank_no_feed c H).
  destruct (feed_lines s) as [ |l ls] eqn:E; [now apply feed_lines_not_nil in E| ].
  cbn [map strip]; now rewrite H.
Qed.
Lemma unindented_strip s : unindented (strip s) = unindented s.
Proof.
  induction s as [ |c s IH]; [reflexivity| ]; cbn [strip]; destruct (blank_char c) eqn:C; [ |reflexivity].
  now rewrite IH, unindented_blank.
Qed.
Lemma unindented_feed a b : unindented (a +++ line_feed +++ b) = unindented a ++ unindented b.
Proof.
  unfold unindented; rewrite <- map_app; f_equal; unfold line_feed; induction a as [ |c a IH]; [reflexivity| ].
  cbn [String.append feed_lines] in *; rewrite IH; destruct (Ascii.eqb c "010"); [reflexivity| ].
  destruct (feed_lines a) eqn:E; [now apply feed_lines_not_nil in E|reflexivity].
Qed.

(** ** Runs *)

Definition rel {A B} (R : A -> B -> Prop) (x : pyres A) (y : pyres B) : Prop :=
  match x, y with
  | Ret a, Ret b => R a b
  | Raise e, Raise e' => e = e'
  | OutOfSteps, OutOfSteps => True
  | _, _ => False
  end.
Lemma rel_bind {A B C D} (R : A -> B -> Prop) (Q : C -> D -> Prop) x y f h :
  rel R x y -> (forall a b, R a b -> rel Q (f a) (h b)) -> rel Q (pbind x f) (pbind y h).
Proof. destruct x, y; cbn; auto; contradiction. Qed.
Lemma rel_same {A B C} (Q : A -> B -> Prop) (x : pyres C) f h :
  (forall a, rel Q (f a) (h a)) -> rel Q (pbind x f) (pbind x h).
Proof. destruct x; cbn; auto. Qed.
Lemma rel_refl {A} (R : A -> A -> Prop) x : (forall a, R a a) -> rel R x x.
Proof. destruct x; cbn; auto. Qed.

Definition alike (a b : string) : Prop := strip a = strip b.
Definition like (a b : out_line) : Prop := fst a = fst b /\ alike (snd a) (snd b).
Definition same (a b : gtext) : Prop :=
  forall n, rel (fun x y => Forall2 like (fst x) (fst y) /\ snd x = snd y) (a n) (b n).

Lemma alikes_refl l : Forall2 alike l l.
Proof. induction l; constructor; auto; reflexivity. Qed.
Lemma alike_length l l' : Forall2 alike l l' -> List.length l = List.length l'.
Proof. intro H; induction H; cbn; congruence. Qed.
Lemma likes_refl l : Forall2 like l l.
Proof. induction l; constructor; auto; split; reflexivity. Qed.
Lemma same_refl a : same a a.
Proof. intro n; apply rel_refl; intro x; split; [apply likes_refl|reflexivity]. Qed.
Lemma same_andthen a b a' b' : same a a' -> same b b' -> same (andthen a b) (andthen a' b').
Proof.
  intros A B n; unfold andthen; eapply rel_bind; [apply A| ]; intros x y [L E]; rewrite E.
  eapply rel_bind; [apply B| ]; intros z w [L' E']; cbn; split; [now apply Forall2_app|exact E'].
Qed.
Lemma same_cons a l a' l' : same a a' -> same (block l) (block l') -> same (block (a :: l)) (block (a' :: l')).
Proof. intros A L; exact (same_andthen _ _ _ _ A L). Qed.
Lemma same_line s s' : s = s' -> same (line s) (line s').
Proof. intros ->; apply same_refl. Qed.
Lemma same_alike a b : alike a b -> same (line a) (line b).
Proof. intros H n; cbn; split; [ |reflexivity]; constructor; [split; [reflexivity|exact H]|constructor]. Qed.
Lemma same_when b a a' : same a a' -> same (when b a) (when b a').
Proof. destruct b; cbn [when]; auto using same_refl. Qed.
Lemma same_if (b : bool) x x' y y' : same x x' -> same y y' -> same (if b then x else y) (if b then x' else y').
Proof. destruct b; auto. Qed.
Lemma same_each {A} (l : list A) f f' : (forall x, same (f x) (f' x)) -> same (each l f) (each l f').
Proof. intro H; unfold each; induction l as [ |x l IH]; [apply same_refl| ]; cbn [map]; apply same_cons; auto. Qed.
Lemma same_each2 {A B} (R : A -> B -> Prop) l l' f f' : Forall2 R l l' -> (forall x y, R x y -> same (f x) (f' y)) -> same (each l f) (each l' f').
Proof. intros L H; unfold each; induction L; [apply same_refl| ]; cbn [map]; apply same_cons; auto. Qed.
Lemma same_given {A} (m : pyres A) f f' : (forall a, same (f a) (f' a)) -> same (given m f) (given m f').
Proof. intros H n; unfold given; apply rel_same; intro a; apply H. Qed.
Lemma same_given2 {A B} (R : A -> B -> Prop) m m' f f' : rel R m m' -> (forall a b, R a b -> same (f a) (f' b)) -> same (given m f) (given m' f').
Proof. intros M H n; unfold given; eapply rel_bind; [exact M| ]; intros a b X; now apply H. Qed.
Lemma same_at f f' : (forall n, same (f n) (f' n)) -> same (at_level f) (at_level f').
Proof. intros H n; apply H. Qed.

Section Tabs.
Variables t t' : string.
Hypothesis B : blanks t = true.
Hypothesis B' : blanks t' = true.

Lemma tabs_alike s s' : alike s s' -> alike (t +++ s) (t' +++ s').
Proof. unfold alike; intro H; now rewrite !strip_blanks. Qed.
Lemma indented_alike l l' : Forall2 alike l l' -> Forall2 alike (map (fun x => t +++ x) l) (map (fun x => t' +++ x) l').
Proof. intro H; induction H; cbn [map]; constructor; auto using tabs_alike. Qed.
Lemma pcat_tab r : rel alike (pcat (lit t) r) (pcat (lit t') r).
Proof. unfold pcat, lit; cbn [pbind]; destruct r; cbn; auto. apply tabs_alike; reflexivity. Qed.
Lemma reindent_alike native s : alike (replace_indent native t s) (replace_indent native t' s).
Proof. unfold replace_indent; destruct (unindent _ _ _) as [k r]; unfold alike; now rewrite !strip_blanks by now apply blanks_repeat. Qed.
Lemma same_boilerplate native subs ls : same (add_boilerplate native t subs ls) (add_boilerplate native t' subs ls).
Proof.
  unfold add_boilerplate, boilerplate_lines; eapply same_each2; [ |intros x y; apply same_alike].
  induction (fold_left substitute subs ls); cbn [map]; constructor; auto using reindent_alike.
Qed.

Lemma same_layout a a' : Forall2 like a a' -> unindented (layout t a) = unindented (layout t' a').
Proof.
  assert (X : forall x y, like x y -> unindented (layout_line t x) = unindented (layout_line t' y)).
  { intros [n x] [n' y] [N S]; cbn [fst snd] in *; subst n'; unfold layout_line; cbn [fst snd].
    assert (Y : forall k s, blanks k = true -> unindented (if String.eqb s "" then "" else repeat_str (Z.to_nat n) k +++ s) = unindented (strip s)).
    { intros k s K; destruct (String.eqb_spec s "") as [->| _]; [reflexivity| ].
      rewrite <- unindented_strip, strip_blanks by now apply blanks_repeat.
      reflexivity. }
    now rewrite !Y, S. }
  intro H; unfold layout; induction H as [ |x y a a' L F IH]; [reflexivity| ].
  inversion F as [E1 E2|x0 y0 b b' L0 F0]; subst; cbn [map String.concat]; [now apply X| ].
  rewrite !unindented_feed, (X x y L); f_equal; exact IH.
Qed.
Lemma same_generated a a' : same a a' -> same_text (generated t a) (generated t' a').
Proof.
  intro H; unfold generated; specialize (H 0%Z); destruct (a 0%Z) as [[l k]|e| ], (a' 0%Z) as [[l' k']|e'| ]; cbn in *; try contradiction; auto.
  now apply same_layout.
Qed.
End Tabs.

(** ** Measuring *)

(** The same first line, which is there, and alike lines after it. *)
Definition heads (l l' : list string) : Prop := exists x r r', l = x :: r /\ l' = x :: r' /\ Forall2 alike r r'.
Definition measures (x y : list string * Z) : Prop := heads (fst x) (fst y) /\ snd x = snd y.
Lemma heads_refl x r : heads (x :: r) (x :: r).
Proof. exists x, r, r; auto using alikes_refl. Qed.
Lemma heads_app l l' a a' : heads l l' -> Forall2 alike a a' -> heads (l ++ a) (l' ++ a').
Proof. intros (x & r & r' & -> & -> & F) A; exists x, (r ++ a), (r' ++ a'); repeat split; now apply Forall2_app. Qed.
Lemma heads_alike l l' : heads l l' -> Forall2 alike l l'.
Proof. intros (x & r & r' & -> & -> & F); constructor; [reflexivity|exact F]. Qed.
Lemma heads_drop x l l' : heads l l' -> rel (Forall2 alike) (drop_first_if x l) (drop_first_if x l').
Proof.
  intros (y & r & r' & -> & -> & F); cbn; destruct (String.eqb y x); [exact F|constructor; [reflexivity|exact F]].
Qed.
Lemma measures_ret l l' z : heads l l' -> rel measures (Ret (l, z)) (Ret (l', z)).
Proof. now split. Qed.

Ltac alike_lines :=
  lazymatch goal with
  | |- Forall2 alike [] [] => constructor
  | |- Forall2 alike ?l ?l => apply alikes_refl
  | H : Forall2 alike ?l ?l' |- Forall2 alike ?l ?l' => exact H
  | |- Forall2 alike (_ :: _) (_ :: _) => constructor; [first [reflexivity|assumption]|alike_lines]
  | |- Forall2 alike (_ ++ _) (_ ++ _) => apply Forall2_app; alike_lines
  | |- Forall2 alike (map _ _) (map _ _) => apply indented_alike; [assumption|assumption|alike_lines]
  end.
(** [next] is the induction hypothesis for the rest of the members, [R] the one for structs. *)
Ltac measuring next R :=
  cbv beta zeta;
  lazymatch goal with
  | |- rel measures (if ?b then _ else _) (if ?b then _ else _) => destruct b; measuring next R
  | |- rel measures (Ret _) (Ret _) => apply measures_ret; assumption
  | |- rel measures (pbind ?x _) (pbind ?x _) => apply rel_same; let a := fresh "a" in intro a; measuring next R
  | |- rel measures (pbind (drop_first_if _ _) _) (pbind (drop_first_if _ _) _) =>
      let a := fresh "a" in let b := fresh "b" in let H := fresh "A" in
      eapply rel_bind; [apply heads_drop; eassumption|intros a b H; measuring next R]
  | |- rel measures (pbind (if ?b then _ else _) _) (pbind (if ?b then _ else _) _) => destruct b; measuring next R
  | |- rel measures (pbind (pcat (lit _) _) _) (pbind (pcat (lit _) _) _) =>
      let a := fresh "a" in let b := fresh "b" in let H := fresh "A" in
      eapply rel_bind; [apply pcat_tab; assumption|intros a b H; measuring next R]
  | |- rel measures (pbind _ _) (pbind _ _) =>
      let a := fresh "a" in let z := fresh "z" in let b := fresh "b" in let z' := fresh "z" in let H := fresh "H" in let E := fresh "E" in
      eapply rel_bind; [apply R|intros [a z] [b z'] [H E]; cbn [fst snd] in H, E |- *; subst z'; measuring next R]
  | |- _ => apply next; first [assumption|apply heads_app; [assumption|alike_lines]]
  end.

(** ** Printing *)
Create HintDb indent.
Ltac sames :=
  cbv beta zeta;
  lazymatch goal with
  | |- same ?a ?a => apply same_refl
  | |- same (block (_ :: _)) (block (_ :: _)) => apply same_cons; [sames|sames]
  | |- same (line _) (line _) => first [apply same_line; reflexivity|apply same_alike; assumption]
  | |- same (when ?b _) (when ?b' _) => change b' with b; apply same_when; sames
  | |- same (if ?b then _ else _) (if ?b' then _ else _) => change b' with b; apply same_if; sames
  | |- same (each ?l _) (each ?l' _) => 
      first [change l' with l; apply same_each; let x := fresh "x" in intro x; sames
            |eapply same_each2; [eassumption|let x := fresh "x" in let y := fresh "y" in let H := fresh "A" in intros x y H; sames]]
  | |- same (given _ _) (given _ _) =>
      first [apply same_given; let a := fresh "a" in intro a; sames
            |eapply same_given2; [solve [eauto with indent]| ];
             let a := fresh "a" in let z := fresh "z" in let b := fresh "b" in let z' := fresh "z" in let H := fresh "H" in let E := fresh "E" in
             intros [a z] [b z'] [H E]; cbn [fst snd] in H, E; subst z'; apply heads_alike in H; rewrite <- ?(alike_length _ _ H); sames]
  | |- same (let (_, _) := ?x in _) _ => destruct x; sames
  | |- same (match ?x with Some _ => _ | None => _ end) _ => destruct x; sames
  | |- same (at_level _) (at_level _) => apply same_at; let n := fresh "n" in intro n; sames
  | |- same (add_boilerplate _ _ ?s ?l) (add_boilerplate _ _ ?s' ?l') => change s' with s; change l' with l; apply same_boilerplate; assumption
  | |- _ => first [solve [eauto with indent]|match goal with |- same ?a ?b => change b with a; apply same_refl end|idtac]
  end.

Section Same.
Variables t t' : string.
Hypothesis B : blanks t = true.
Hypothesis B' : blanks t' = true.
Variable p : protocol.
Variable g : settings.
Notation g1 := (with_tab t g).
Notation g2 := (with_tab t' g).

Lemma cst_measure_same : forall d lev s acc, rel measures (cst_measure p g1 d lev s acc) (cst_measure p g2 d lev s acc).
Proof.
  induction d as [ |d IH]; intros lev s acc; [exact I| ]; cbn [cst_measure].
  destruct (is_simple p (s_name s)); [apply rel_same; intro l; apply measures_ret, heads_refl| ].
  assert (X : forall ms ls ls' z, heads ls ls' -> rel measures
    (cst_measure_members p g1 (cst_measure p g1 d) lev acc ms ls z) (cst_measure_members p g2 (cst_measure p g2 d) lev acc ms ls' z)).
  { induction ms as [ |m ms next]; intros ls ls' z H; cbn [cst_measure_members]; cbn [g_tab with_tab]; [now apply measures_ret| ].
    measuring next IH. }
  apply X, heads_refl.
Qed.
Lemma cst_gen_measurement_same lev s acc : rel measures (cst_gen_measurement p g1 lev s acc) (cst_gen_measurement p g2 lev s acc).
Proof. apply cst_measure_same. Qed.
Hint Resolve cst_gen_measurement_same : indent.
Lemma cst_gen_struct_same n s : same (cst_gen_struct p g1 n s) (cst_gen_struct p g2 n s).
Proof. unfold cst_gen_struct; sames. Qed.
Hint Resolve cst_gen_struct_same : indent.
Lemma csharp_same : same (cst_generate p g1) (cst_generate p g2).
Proof. unfold cst_generate; cbn [g_tab with_tab]; sames. Qed.

Lemma ct_measure_same : forall d lev s acc, rel measures (ct_measure p g1 d lev s acc) (ct_measure p g2 d lev s acc).
Proof.
  induction d as [ |d IH]; intros lev s acc; [exact I| ]; cbn [ct_measure].
  destruct (is_simple p (s_name s)); [apply rel_same; intro l; apply measures_ret, heads_refl| ].
  assert (X : forall ms ls ls' z, heads ls ls' -> rel measures
    (ct_measure_members p g1 (ct_measure p g1 d) lev acc ms ls z) (ct_measure_members p g2 (ct_measure p g2 d) lev acc ms ls' z)).
  { induction ms as [ |m ms next]; intros ls ls' z H; cbn [ct_measure_members]; cbn [g_tab with_tab]; [now apply measures_ret| ].
    measuring next IH. }
  apply X, heads_refl.
Qed.
Lemma ct_gen_measurement_same lev s acc : rel measures (ct_gen_measurement p g1 lev s acc) (ct_gen_measurement p g2 lev s acc).
Proof. apply ct_measure_same. Qed.
Hint Resolve ct_gen_measurement_same : indent.
Lemma ct_gen_implementation_same n s : same (ct_gen_implementation p g1 n s) (ct_gen_implementation p g2 n s).
Proof. unfold ct_gen_implementation; sames. Qed.
Hint Resolve ct_gen_implementation_same : indent.
Lemma c_same : same (ct_generate p g1) (ct_generate p g2).
Proof. unfold ct_generate; cbn [g_tab with_tab]; sames. Qed.

Lemma got_measure_same : forall d s acc, rel measures (got_measure p g1 d s acc) (got_measure p g2 d s acc).
Proof.
  induction d as [ |d IH]; intros s acc; [exact I| ]; cbn [got_measure].
  destruct (is_simple p (s_name s)); [apply rel_same; intro l; apply measures_ret, heads_refl| ].
  assert (X : forall ms ls ls' z, heads ls ls' -> rel measures
    (got_measure_members p g1 (got_measure p g1 d) acc ms ls z) (got_measure_members p g2 (got_measure p g2 d) acc ms ls' z)).
  { induction ms as [ |m ms next]; intros ls ls' z H; cbn [got_measure_members]; cbn [g_tab with_tab]; [now apply measures_ret| ].
    measuring next IH. }
  apply X, heads_refl.
Qed.
Lemma got_gen_measurement_same s acc : rel measures (got_gen_measurement p g1 s acc) (got_gen_measurement p g2 s acc).
Proof. apply got_measure_same. Qed.
Hint Resolve got_gen_measurement_same : indent.
Lemma got_gen_struct_same n s : same (got_gen_struct p g1 n s) (got_gen_struct p g2 n s).
Proof. unfold got_gen_struct; sames. Qed.
Hint Resolve got_gen_struct_same : indent.
Lemma go_same : same (got_generate p g1) (got_generate p g2).
Proof. unfold got_generate; cbn [g_tab with_tab]; sames. Qed.

Lemma zgt_measure_same : forall d s acc dep, rel measures (zgt_measure p g1 d s acc dep) (zgt_measure p g2 d s acc dep).
Proof.
  induction d as [ |d IH]; intros s acc dep; [exact I| ]; cbn [zgt_measure].
  destruct (is_simple p (s_name s)); [apply rel_same; intro l; apply measures_ret, heads_refl| ].
  assert (X : forall ms ls ls' z, heads ls ls' -> rel measures
    (zgt_measure_members p g1 (zgt_measure p g1 d) acc dep ms ls z) (zgt_measure_members p g2 (zgt_measure p g2 d) acc dep ms ls' z)).
  { induction ms as [ |m ms next]; intros ls ls' z H; cbn [zgt_measure_members]; cbn [g_tab with_tab]; [now apply measures_ret| ].
    measuring next IH. }
  apply X, heads_refl.
Qed.
Lemma zgt_gen_measurement_same s acc dep : rel measures (zgt_gen_measurement p g1 s acc dep) (zgt_gen_measurement p g2 s acc dep).
Proof. apply zgt_measure_same. Qed.
Hint Resolve zgt_gen_measurement_same : indent.
Lemma zgt_gen_struct_same n s : same (zgt_gen_struct p g1 n s) (zgt_gen_struct p g2 n s).
Proof. unfold zgt_gen_struct; sames. Qed.
Hint Resolve zgt_gen_struct_same : indent.
Lemma zig_same : same (zgt_generate p g1) (zgt_generate p g2).
Proof. unfold zgt_generate; cbn [g_tab with_tab]; sames. Qed.

Lemma rst_measure_same : forall d s acc, rel measures (rst_measure p g1 d s acc) (rst_measure p g2 d s acc).
Proof.
  induction d as [ |d IH]; intros s acc; [exact I| ]; cbn [rst_measure].
  destruct (is_simple p (s_name s)); [apply rel_same; intro l; apply measures_ret, heads_refl| ].
  assert (X : forall ms ls ls' z, heads ls ls' -> rel measures
    (rst_measure_members p g1 (rst_measure p g1 d) acc ms ls z) (rst_measure_members p g2 (rst_measure p g2 d) acc ms ls' z)).
  { induction ms as [ |m ms next]; intros ls ls' z H; cbn [rst_measure_members]; cbn [g_tab with_tab]; [now apply measures_ret| ].
    measuring next IH. }
  apply X, heads_refl.
Qed.
Lemma rst_gen_measurement_same s acc : rel measures (rst_gen_measurement p g1 s acc) (rst_gen_measurement p g2 s acc).
Proof. apply rst_measure_same. Qed.
Hint Resolve rst_gen_measurement_same : indent.
Lemma rst_gen_struct_same n s : same (rst_gen_struct p g1 n s) (rst_gen_struct p g2 n s).
Proof. unfold rst_gen_struct; sames. Qed.
Hint Resolve rst_gen_struct_same : indent.
Lemma rust_same : same (rst_generate p g1) (rst_generate p g2).
Proof. unfold rst_generate; cbn [g_tab with_tab]; sames. Qed.

Lemma swt_measure_same : forall d s acc, rel measures (swt_measure p g1 d s acc) (swt_measure p g2 d s acc).
Proof.
  induction d as [ |d IH]; intros s acc; [exact I| ]; cbn [swt_measure].
  destruct (is_simple p (s_name s)); [apply rel_same; intro l; apply measures_ret, heads_refl| ].
  assert (X : forall ms ls ls' z, heads ls ls' -> rel measures
    (swt_measure_members p g1 (swt_measure p g1 d) acc ms ls z) (swt_measure_members p g2 (swt_measure p g2 d) acc ms ls' z)).
  { induction ms as [ |m ms next]; intros ls ls' z H; cbn [swt_measure_members]; cbn [g_tab with_tab]; [now apply measures_ret| ].
    measuring next IH. }
  apply X, heads_refl.
Qed.
Lemma swt_gen_measurement_same s acc : rel measures (swt_gen_measurement p g1 s acc) (swt_gen_measurement p g2 s acc).
Proof. apply swt_measure_same. Qed.
Hint Resolve swt_gen_measurement_same : indent.
Lemma swt_gen_struct_same n s : same (swt_gen_struct p g1 n s) (swt_gen_struct p g2 n s).
Proof. unfold swt_gen_struct; sames. Qed.
Hint Resolve swt_gen_struct_same : indent.
Lemma swift_same : same (swt_generate p g1) (swt_generate p g2).
Proof. unfold swt_generate; cbn [g_tab with_tab]; sames. Qed.
Variable asm : bool.
Lemma tst_measure_same : forall d s acc, rel measures (tst_measure p g1 asm d s acc) (tst_measure p g2 asm d s acc).
Proof.
  induction d as [ |d IH]; intros s acc; [exact I| ]; cbn [tst_measure].
  destruct (is_simple p (s_name s)); [apply rel_same; intro l; apply measures_ret, heads_refl| ].
  assert (X : forall ms ls ls' z, heads ls ls' -> rel measures
    (tst_measure_members p g1 asm (tst_measure p g1 asm d) acc ms ls z) (tst_measure_members p g2 asm (tst_measure p g2 asm d) acc ms ls' z)).
  { induction ms as [ |m ms next]; intros ls ls' z H; cbn [tst_measure_members]; cbn [g_tab with_tab]; [now apply measures_ret| ].
    measuring next IH. }
  apply X, heads_refl.
Qed.
Lemma tst_gen_measurement_same s acc : rel measures (tst_gen_measurement p g1 asm s acc) (tst_gen_measurement p g2 asm s acc).
Proof. apply tst_measure_same. Qed.
Hint Resolve tst_gen_measurement_same : indent.
Lemma tst_gen_struct_same n s : same (tst_gen_struct p g1 asm n s) (tst_gen_struct p g2 asm n s).
Proof. unfold tst_gen_struct; sames. Qed.
Hint Resolve tst_gen_struct_same : indent.
Lemma typescript_same : same (tst_generate p g1 asm) (tst_generate p g2 asm).
Proof. unfold tst_generate; cbn [g_tab with_tab]; sames. Qed.
End Same.

(** ** All languages *)

Lemma all_same lang t t' p g : blanks t = true -> blanks t' = true ->
  same (generate lang p (with_tab t g)) (generate lang p (with_tab t' g)).
Proof.
  intros B B'; unfold generate; cbn [g_flag with_tab].
  destruct (String.eqb lang "assemblyscript"); [exact (typescript_same t t' B B' p g true)| ].
  destruct (String.eqb lang "c"); [exact (c_same t t' B B' p g)| ].
  destruct (String.eqb lang "csharp"); [exact (csharp_same t t' B B' p g)| ].
  destruct (String.eqb lang "go"); [exact (go_same t t' B B' _ g)| ].
  destruct (String.eqb lang "rust"); [exact (rust_same t t' B B' _ g)| ].
  destruct (String.eqb lang "swift"); [exact (swift_same t t' B B' p g)| ].
  destruct (String.eqb lang "typescript"); [exact (typescript_same t t' B B' p g false)| ].
  exact (zig_same t t' B B' p g).
Qed.
Lemma all_texts lang t t' p g : blanks t = true -> blanks t' = true ->
  same_text (generated t (generate lang p (with_tab t g))) (generated t' (generate lang p (with_tab t' g))).
Proof. intros B B'; apply same_generated; auto using all_same. Qed.

Lemma tab_for_blank a i lang tab : blank_indent i -> tab_for (with_indent i a) lang tab -> blanks tab = true.
Proof.
  intros I [[E _]|[_ [[_ ->]|[[_ ->]|[_ ->]]]]]; try reflexivity; cbn in E; subst i; exact I.
Qed.
Lemma tab_for_some a lang : In lang writers -> exists tab, tab_for a lang tab.
Proof.
  intro I; unfold tab_for; destruct (a_indent a) as [[ |c r]| ].
  2: exists (String c r); left; split; [reflexivity|discriminate].
  all: cbn [In writers] in I; repeat (destruct I as [<-|I]); [..|destruct I];
    eexists; right; (split; [auto| ]);
    first [left; split; [cbn; tauto|reflexivity]|right; left; split; reflexivity|right; right; split; [cbn; tauto|reflexivity]].
Qed.
Lemma asked_same read fuel a i i' output : blank_indent i -> blank_indent i' ->
  asked_for read fuel (with_indent i a) output ->
  exists output', asked_for read fuel (with_indent i' a) output' /\ unindented output = unindented output'.
Proof.
  intros I I' (path & lang & text & data & p & ns & tab & ls & P & L & W & R & D & N & T & G & ->).
  destruct (tab_for_some (with_indent i' a) lang W) as (tab' & T').
  pose proof (tab_for_blank a i lang tab I T) as B; pose proof (tab_for_blank a i' lang tab' I' T') as B'.
  pose proof (all_same lang tab tab' p {| g_namespace := ns; g_tab := ""; g_embed := a_embed_protocol a; g_source := text;
     g_flag := flag_for a lang; g_files := writer_files lang |} B B' 0%Z) as S.
  unfold with_tab in S; cbn [g_namespace g_embed g_source g_flag g_files] in S.
  cbn [with_indent a_embed_protocol] in G; change (flag_for (with_indent i a) lang) with (flag_for a lang) in G; rewrite G in S.
  destruct (generate lang p _ 0%Z) as [[ls' k]|e| ] eqn:G' in S; cbn [rel fst snd] in S; try contradiction; destruct S as [S <-].
  exists (layout tab' ls'); split; [ |now apply same_layout].
  exists path, lang, text, data, p, ns, tab', ls'; do 7 (split; [assumption| ]); split; [exact G'|reflexivity].
Qed.
