(** Facts about text that is made of statements. *)
From Coq Require Import DecimalPos DecimalNat Lia.
From Verif Require Export Syntax Stream LinesFacts MeasureFacts.
Open Scope string_scope.
Open Scope Z_scope.
Open Scope list_scope.

(** ** Strings *)

Lemma app_assoc_s : forall a b c : string, (a +++ b) +++ c = a +++ (b +++ c).
Proof. induction a as [ |x a IH]; intros b c; cbn [append]; [reflexivity|now rewrite IH]. Qed.
Lemma app_nil_s : forall a : string, a +++ "" = a.
Proof. induction a as [ |x a IH]; cbn [append]; [reflexivity|now rewrite IH]. Qed.

(** ** Order of pieces *)

Lemma in_order_app : forall q1 l1 q2 l2, in_order q1 l1 -> in_order q2 l2 -> in_order (q1 ++ q2) (l1 ++ l2).
Proof.
  assert (P : forall q l1 l2, in_order q l2 -> in_order q (l1 ++ l2)).
  { intros [ |a q] l1 l2 H; [exact I| ]. destruct H as (b & r & -> & H). exists (l1 ++ b), r.
    split; [now rewrite app_assoc|exact H]. }
  induction q1 as [ |a q1 IH]; intros l1 q2 l2 H1 H2; cbn [app]; [now apply P| ].
  destruct H1 as (b & r & -> & H1). exists b, (r ++ l2).
  split; [now rewrite <- !app_assoc| ]. now apply IH.
Qed.
Lemma in_order_one l : in_order [l] l.
Proof. exists [], []; split; [now rewrite app_nil_r|exact I]. Qed.

(** From level [n], [g] prints the pieces in order and ends at level [m], if it ends. *)
Definition steps (n : Z) (g : gtext) (qs : list (list out_line)) (m : Z) : Prop :=
  exists ls, g n = Ret (ls, m) /\ in_order qs ls.
(** It prints exactly these lines. *)
Definition exactly (n : Z) (g : gtext) (ls : list out_line) (m : Z) : Prop := g n = Ret (ls, m).

Lemma steps_nil n : steps n (block []) [] n.
Proof. exists []; split; [reflexivity|exact I]. Qed.
Lemma steps_cons n a r q1 q2 k m : steps n a q1 k -> steps k (block r) q2 m -> steps n (block (a :: r)) (q1 ++ q2) m.
Proof.
  intros (l1 & E1 & H1) (l2 & E2 & H2); exists (l1 ++ l2).
  change (block (a :: r)) with (andthen a (block r)); unfold andthen; rewrite E1; cbn [pbind snd fst].
  rewrite E2; cbn [pbind fst snd]; split; [reflexivity|now apply in_order_app].
Qed.
(** A part without pieces. *)
Lemma steps_skip n a r q k m : steps n a [] k -> steps k (block r) q m -> steps n (block (a :: r)) q m.
Proof. intros H1 H2; exact (steps_cons n a r [] q k m H1 H2). Qed.
Lemma steps_line n t : good t -> steps n (line t) [] n.
Proof. intros [s ->]; exists [(n, s)]; split; [reflexivity|exact I]. Qed.
Lemma steps_indent n : steps n indent [] (n + 1).
Proof. exists []; split; [reflexivity|exact I]. Qed.
Lemma steps_dedent n : steps n dedent [] (n - 1).
Proof. exists []; split; [reflexivity|exact I]. Qed.
Lemma steps_runs n g k : runs n g 0 k -> steps n g [] (n + k).
Proof. intros (ls & E & _); rewrite Z.add_0_r in E; exists ls; split; [exact E|exact I]. Qed.
Lemma steps_runs0 n g : runs n g 0 0 -> steps n g [] n.
Proof. intro R; apply steps_runs in R; now rewrite Z.add_0_r in R. Qed.
Lemma steps_given {A} n (m : pyres A) f a q k : m = Ret a -> steps n (f a) q k -> steps n (given m f) q k.
Proof. intros -> H; exact H. Qed.
Lemma steps_at n f q k : steps n (f n) q k -> steps n (at_level f) q k.
Proof. auto. Qed.
Lemma steps_exactly n g ls k : exactly n g ls k -> steps n g [ls] k.
Proof. intro E; exists ls; split; [exact E|apply in_order_one]. Qed.
Lemma steps_level n g q k k' : steps n g q k -> k = k' -> steps n g q k'.
Proof. now intros H <-. Qed.
Lemma steps_each {A} n (l : list A) f x q : In x l -> steps n (f x) q n -> (forall y, In y l -> steps n (f y) [] n) ->
  steps n (each l f) q n.
Proof.
  intros I H1 H2; unfold each; induction l as [ |y l IH]; [destruct I|cbn [map]].
  assert (R : forall l', (forall y, In y l' -> steps n (f y) [] n) -> steps n (block (map f l')) [] n).
  { clear; induction l' as [ |z l' IH']; intro H; [apply steps_nil| ]. cbn [map].
    eapply steps_skip; [apply H; now left|apply IH'; intros; apply H; now right]. }
  destruct I as [->|I].
  - rewrite <- (app_nil_r q). eapply steps_cons; [exact H1| ]. apply R; intros; apply H2; now right.
  - eapply steps_skip; [apply H2; now left|apply IH; [exact I|intros; apply H2; now right]].
Qed.

Lemma steps_all {A} n (l : list A) f h : (forall x, In x l -> steps n (f x) (h x) n) -> steps n (each l f) (flat_map h l) n.
Proof.
  unfold each; induction l as [ |x l IH]; intro H; [apply steps_nil|cbn [map flat_map]].
  eapply steps_cons; [apply H; now left|apply IH; intros; apply H; now right].
Qed.
Lemma steps_prints g q : steps 0 g q 0 -> prints g q.
Proof. intro H; exact H. Qed.

Lemma exactly_nil n : exactly n (block []) [] n.
Proof. reflexivity. Qed.
Lemma exactly_cons n a r l1 l2 k m : exactly n a l1 k -> exactly k (block r) l2 m -> exactly n (block (a :: r)) (l1 ++ l2) m.
Proof.
  unfold exactly; intros E1 E2.
  change (block (a :: r)) with (andthen a (block r)); unfold andthen; rewrite E1; cbn [pbind snd fst].
  rewrite E2; reflexivity.
Qed.
Lemma exactly_line n s : exactly n (line (Ret s)) [(n, s)] n.
Proof. reflexivity. Qed.
Lemma exactly_text n t s : t = Ret s -> exactly n (line t) [(n, s)] n.
Proof. intros ->; reflexivity. Qed.
Lemma exactly_each {A} n (l : list A) f h : (forall x, In x l -> exactly n (f x) (h x) n) -> exactly n (each l f) (flat_map h l) n.
Proof.
  unfold each; induction l as [ |x l IH]; intro H; [reflexivity|cbn [map flat_map]].
  eapply exactly_cons; [apply H; now left|apply IH; intros; apply H; now right].
Qed.
Lemma exactly_lines n (l : list string) : exactly n (each l (fun s => line (lit s))) (at_lvl n l) n.
Proof. induction l as [ |x l IH]; [reflexivity| ]. cbn [at_lvl map]. exact (exactly_cons n _ _ [(n, x)] _ n n eq_refl IH). Qed.

(** Several elements of a block in one piece. *)
Lemma steps_piece n l r ls q k m : exactly n (block l) ls k -> steps k (block r) q m -> steps n (block (l ++ r)) (ls :: q) m.
Proof.
  intros E (l2 & E2 & H2); exists (ls ++ l2). split.
  - revert n ls E; induction l as [ |a l IH]; intros n ls E.
    + injection E as <- <-; exact E2.
    + cbn [app]; unfold exactly in E; change (block (a :: l)) with (andthen a (block l)) in E.
      change (block (a :: l ++ r)) with (andthen a (block (l ++ r))).
      unfold andthen in *; destruct (a n) as [[l1 k1]| | ]; cbn [pbind fst snd] in *; try discriminate.
      destruct (block l k1) as [[l3 k3]| | ] eqn:E3; cbn [pbind fst snd] in *; try discriminate.
      injection E as <- <-; rewrite (IH k1 l3 E3); cbn [pbind fst snd]; now rewrite app_assoc.
  - exists [], l2; split; [reflexivity|exact H2].
Qed.

(** ** Numbers in text *)

Lemma of_uint_acc_pos : forall d a, Nat.of_uint_acc d (Pos.to_nat a) = Pos.to_nat (Pos.of_uint_acc d a).
Proof.
  induction d as [ |d IH|d IH|d IH|d IH|d IH|d IH|d IH|d IH|d IH|d IH]; intro a; cbn [Nat.of_uint_acc Pos.of_uint_acc];
    [reflexivity|..]; rewrite <- IH; f_equal; rewrite Nat.tail_mul_spec; lia.
Qed.
Lemma of_uint_N : forall d, Nat.of_uint d = N.to_nat (Pos.of_uint d).
Proof.
  unfold Nat.of_uint.
  induction d as [ |d IH|d IH|d IH|d IH|d IH|d IH|d IH|d IH|d IH|d IH]; cbn [Nat.of_uint_acc Pos.of_uint];
    [reflexivity|exact IH|..]; cbn [N.to_nat]; rewrite <- of_uint_acc_pos; f_equal.
Qed.
Lemma to_uint_pos a : Nat.to_uint (Pos.to_nat a) = Pos.to_uint a.
Proof.
  assert (E : Nat.of_uint (Pos.to_uint a) = Pos.to_nat a).
  { rewrite of_uint_N, DecimalPos.Unsigned.of_to; reflexivity. }
  rewrite <- E, DecimalNat.Unsigned.to_of, <- DecimalPos.Unsigned.to_of, DecimalPos.Unsigned.of_to; reflexivity.
Qed.
Lemma str_of_nat n : str_of_Z (Z.of_nat n) = dec_str n.
Proof.
  unfold str_of_Z, dec_str; destruct n as [ |n]; [reflexivity| ].
  remember (Pos.of_nat (S n)) as a eqn:A.
  assert (N : S n = Pos.to_nat a) by (subst a; now rewrite Nat2Pos.id by discriminate).
  rewrite N, to_uint_pos, positive_nat_Z; cbn [Z.to_int].
  pose proof (DecimalPos.Unsigned.to_uint_nonnil a) as X.
  unfold NilZero.string_of_int, NilZero.string_of_uint; destruct (Pos.to_uint a); [congruence|reflexivity..].
Qed.

(** ** Programs that measure *)

Section Measure.
Variable S : style.
Variable p : protocol.
Hypothesis T : text_ok p.

Lemma measure_members_defined rec lvl acc : forall ms lines accum,
  (forall m s lvl' acc', In m ms -> is_simple p (v_type m) = false -> get_struct p (v_type m) = Ret s ->
     exists r, rec lvl' s acc' = Some r) ->
  (forall m, In m ms -> declared_type p (v_type m)) ->
  exists r, measure_members S p rec lvl acc ms lines accum = Some r.
Proof.
  induction ms as [ |m ms IH]; intros lines accum R D; cbn [measure_members]; [eauto| ].
  assert (next : forall ls z, exists r, measure_members S p rec lvl acc ms ls z = Some r).
  { intros; apply IH; [intros m' s l a I; apply (R m' s l a); now right|intros; apply D; now right]. }
  assert (V : is_simple p (v_type m) = false -> String.eqb (v_type m) "string" = false ->
              exists s, lookup (v_type m) (p_structs p) = Some s /\ get_struct p (v_type m) = Ret s).
  { intros E1 E2; destruct (tk_variable p T (v_type m)) as (s & G & I).
    - apply D; now left.
    - exact E1.
    - intro X; rewrite X in E2; discriminate.
    - exists s; split; [ |exact G]; unfold get_struct, item in G; destruct (lookup (v_type m) (p_structs p)); [congruence|discriminate]. }
  cbv zeta; destruct (v_list m), (is_simple p (v_type m)) eqn:E1; auto;
    destruct (String.eqb (v_type m) "string") eqn:E2; auto;
    destruct (V eq_refl eq_refl) as (s & L & G); rewrite L;
    match goal with |- context[rec ?l s ?a] => destruct (R m s l a (or_introl eq_refl) E1 G) as [[cl ca] ->] end; auto.
Qed.
Lemma measure_defined : forall d lvl s acc, declares p (s_name s) s -> fits_any p d (s_name s) = true ->
  exists r, measure S p d lvl s acc = Some r.
Proof.
  induction d as [ |d IH]; intros lvl s acc D F; destruct (tk_ranked p T _ _ _ D F) as (d' & E & M); [discriminate| ].
  injection E as <-; cbn [measure]; destruct (is_simple p (s_name s)); [eauto| ].
  destruct (measure_members_defined (measure S p d) lvl acc (s_members s) [] 0) as [[ls z] ->]; [ | |eauto].
  - intros m s' lvl' acc' I SI G; unfold get_struct, item in G.
    destruct (lookup (v_type m) (p_structs p)) as [s0| ] eqn:L; [injection G as ->|discriminate].
    apply lookup_In in L; pose proof (tk_name p T _ _ (or_introl L)) as N.
    apply IH; rewrite N; [now left|exact (M m I)].
  - intros m I; eapply (tk_types p T); eassumption.
Qed.
Lemma gen_size_defined lvl n s : declares p n s -> exists size, gen_size S p lvl s = Some size.
Proof.
  intro D; pose proof (tk_name p T n s D); subst n; unfold gen_size.
  destruct (measure_defined (depth_of p) lvl s MRoot D (tk_fits p T _)) as [[ls z] ->]; eauto.
Qed.

(** The struct of a member that has no fixed size. *)
Lemma variable_struct t : declared_type p t -> is_simple p t = false -> String.eqb t "string" = false ->
  exists s, lookup t (p_structs p) = Some s /\ get_struct p t = Ret s /\ s_name s = t.
Proof.
  intros D E1 E2; destruct (tk_variable p T t D E1) as (s & G & I).
  - intro X; rewrite X in E2; discriminate.
  - exists s; split; [ |split; [exact G|apply (tk_name p T); now left]].
    unfold get_struct, item in G; destruct (lookup t (p_structs p)); [congruence|discriminate].
Qed.
Lemma simple_size t : known_type p t -> is_simple p t = true -> get_size_of p t = Ret (size_of p t).
Proof.
  intros K E; destruct (tk_simple p T t K E) as [z G]; unfold size_of; unfold get_size_of in *; now rewrite G.
Qed.
Lemma list_size : numeric_size (p_list_size_type p) = Ret (num_size_of (p_list_size_type p)).
Proof.
  destruct (good_numeric _ (tk_list p T)) as [z G]; unfold num_size_of, numeric_size, item in *.
  destruct (lookup (p_list_size_type p) NUMERIC_TYPE_SIZES); [reflexivity|discriminate].
Qed.
Lemma string_size : numeric_size (p_string_size_type p) = Ret (num_size_of (p_string_size_type p)).
Proof.
  destruct (good_numeric _ (tk_string p T)) as [z G]; unfold num_size_of, numeric_size, item in *.
  destruct (lookup (p_string_size_type p) NUMERIC_TYPE_SIZES); [reflexivity|discriminate].
Qed.
Lemma string_size_positive : num_size_of (p_string_size_type p) =? 0 = false.
Proof. pose proof (tk_string p T) as B; cbn in B; repeat destruct B as [<-|B]; try reflexivity; destruct B. Qed.
End Measure.

(** ** Tables of the number types *)

(** A table has the same name as [f] for every number type. *)
Lemma table_entry (d : list (string * string)) (f : num -> string) t :
  forallb (fun t => match lookup t d, num_of t with Some n, Some k => String.eqb n (f k) | _, _ => false end) base_types = true ->
  In t base_types -> exists k, num_of t = Some k /\ item d t = Ret (f k).
Proof.
  intros F B; apply (proj1 (forallb_forall _ _) F) in B; unfold item.
  destruct (lookup t d) as [n| ]; [ |discriminate]; destruct (num_of t) as [k| ]; [ |discriminate].
  apply String.eqb_eq in B; subst; eauto.
Qed.
Definition num_eq_dec (a b : num) : {a = b} + {a <> b}.
Proof. decide equality. Defined.
Lemma prim_num (names : list (string * string)) (methods : list (string * num)) t :
  forallb (fun t => match prim names methods t, num_of t with Some a, Some b => if num_eq_dec a b then true else false | _, _ => false end) base_types = true ->
  In t base_types -> prim names methods t = num_of t.
Proof.
  intros F B; apply (proj1 (forallb_forall _ _) F) in B.
  destruct (prim names methods t), (num_of t); try discriminate; destruct (num_eq_dec n n0); congruence.
Qed.

Lemma number_or_not t : In t base_types /\ mem t NUMERIC_TYPE_SIZES = true \/ num_of t = None /\ mem t NUMERIC_TYPE_SIZES = false.
Proof.
  destruct (mem t NUMERIC_TYPE_SIZES) eqn:M; [left; split; [now apply mem_base|reflexivity]|right; split; [ |reflexivity]].
  destruct (num_of t) as [k| ] eqn:K; [exfalso|reflexivity].
  assert (B : In t base_types) by (apply num_of_base; eauto); clear K; cbn in B.
  repeat (destruct B as [<-|B]; [discriminate M| ]); destruct B.
Qed.

Lemma exactly_eq n g ls ls' m m' : exactly n g ls m -> ls = ls' -> m = m' -> exactly n g ls' m'.
Proof. now intros H <- <-. Qed.

Lemma in_strs_existsb t l : in_strs t l = existsb (String.eqb t) l.
Proof. induction l as [ |x l IH]; cbn [in_strs existsb]; [reflexivity| ]. now destruct (String.eqb t x). Qed.

Lemma enum_text p t e : text_ok p -> lookup t (p_enums p) = Some e ->
  In (e_encoding e) base_types /\ str_of (minimum_value e) = Ret (lowest e).
Proof.
  intros T L; apply lookup_In in L; pose proof (tk_enums p T _ _ L) as [B N]; split; [exact B| ].
  pose proof (minimum_some e (conj B N)) as M; unfold str_of, minimum_value, of_option, lowest.
  destruct (get_minimum_pair e) as [[a z]| ]; [reflexivity|congruence].
Qed.

(** Printing, step by step. *)
Ltac compute_text :=
  cbv [block fold_right andthen skip line blank when given at_level indent dedent pbind pcat lit str_of fst snd app negb andb
       with_prim map flat_map cat or_empty at_lvl].
Lemma level_back n : n + 1 - 1 = n. Proof. lia. Qed.
Ltac same_text :=
  compute_text; rewrite ?level_back, ?str_of_nat, ?app_assoc_s, ?app_nil_s; reflexivity.

Lemma drop_first_line l r : drop_first_if l (l :: r) = Ret r.
Proof. unfold drop_first_if; now rewrite String.eqb_refl. Qed.
(** Use what is known about a recursive call, whose argument may be written differently. *)
Ltac recall f H :=
  match type of H with _ = ?r => match goal with |- context [f ?s ?x] => replace (f s x) with r by (symmetry; exact H) end end.
Ltac recall3 f H :=
  match type of H with _ = ?r => match goal with |- context [f ?n ?s ?x] => replace (f n s x) with r by (symmetry; exact H) end end.

Lemma more_lines {A B} (f : A -> list B) l : (forall x, f x <> []) -> Nat.ltb 0 (List.length (flat_map f l)) = Nat.ltb 0 (List.length l).
Proof.
  intro N; destruct l as [ |x l]; [reflexivity|cbn [flat_map List.length]]; rewrite app_length.
  specialize (N x); destruct (f x); [congruence|reflexivity].
Qed.
(** [len(lines) > 1] *)
Lemma many_lines {A B} (f : A -> list B) l x y : (forall x, f x <> []) ->
  (Z.of_nat (List.length (y :: flat_map f l)) >? 1) = (1 <? List.length (x :: l))%nat.
Proof.
  intro N; pose proof (more_lines f l N) as M; cbn [List.length].
  rewrite Z.gtb_ltb; destruct (List.length (flat_map f l)), (List.length l); cbn in M |- *; try discriminate; try reflexivity.
  apply Z.ltb_lt; lia.
Qed.

(** ** Walking through printed text *)

Lemma block_app l r n : block (l ++ r) n = andthen (block l) (block r) n.
Proof.
  revert n; induction l as [ |a l IH]; intro n; cbn [app].
  - unfold andthen; cbn; destruct (block r n) as [[x y]| | ]; reflexivity.
  - change (block (a :: l ++ r)) with (andthen a (block (l ++ r))); change (block (a :: l)) with (andthen a (block l)).
    unfold andthen; destruct (a n) as [[l1 k1]| | ]; cbn [pbind fst snd]; try reflexivity.
    rewrite IH; unfold andthen; destruct (block l k1) as [[l2 k2]| | ]; cbn [pbind fst snd]; try reflexivity.
    destruct (block r k2) as [[l3 k3]| | ]; cbn [pbind fst snd]; try reflexivity; now rewrite app_assoc.
Qed.
Lemma steps_flat n l r q m : steps n (block (l ++ r)) q m -> steps n (block (block l :: r)) q m.
Proof.
  intros (ls & E & H); exists ls; split; [ |exact H]; rewrite block_app in E; exact E.
Qed.
Lemma steps_flat_after l0 n l r q m : steps n (block (l0 ++ l ++ r)) q m -> steps n (block (l0 ++ block l :: r)) q m.
Proof.
  intros (ls & E & H); exists ls; split; [ |exact H]; rewrite block_app in E |- *; unfold andthen in *.
  destruct (block l0 n) as [[l1 k1]| | ]; cbn [pbind fst snd] in *; try discriminate.
  rewrite block_app in E; exact E.
Qed.
Lemma steps_block_given {A} n (x : pyres A) a f r q m : x = Ret a -> steps n (block (f a :: r)) q m -> steps n (block (given x f :: r)) q m.
Proof. intros -> H; exact H. Qed.
Lemma exactly_indent n : exactly n indent [] (n + 1). Proof. reflexivity. Qed.
Lemma exactly_dedent n : exactly n dedent [] (n - 1). Proof. reflexivity. Qed.
Lemma exactly_skip n : exactly n skip [] n. Proof. reflexivity. Qed.

Lemma exactly_at n f ls k : exactly n (f n) ls k -> exactly n (at_level f) ls k.
Proof. auto. Qed.

(** Step over what is in no piece. *)
Ltac walk1 :=
  lazymatch goal with
  | |- steps _ (block []) _ _ => apply steps_nil
  | |- steps ?n (block (indent :: ?r)) ?q ?m => apply (steps_skip n indent r q _ m (steps_indent n))
  | |- steps ?n (block (dedent :: ?r)) ?q ?m => apply (steps_skip n dedent r q _ m (steps_dedent n)); rewrite ?level_back; try change (1 - 1) with 0
  | |- steps ?n (block (line ?t :: ?r)) ?q ?m => apply (steps_skip n (line t) r q n m); [apply steps_line; solve [good]| ]
  | |- steps ?n (block (blank :: ?r)) ?q ?m => apply (steps_skip n blank r q n m); [apply steps_line; solve [good]| ]
  | |- steps ?n (block (skip :: ?r)) ?q ?m => apply (steps_skip n skip r q n m); [apply (steps_runs0 _ skip), runs_skip| ]
  | |- steps 0 (block (check_level :: ?r)) ?q ?m => apply (steps_skip 0 check_level r q 0 m); [apply (steps_runs0 0 check_level), runs_check; reflexivity| ]
  | |- steps _ (block (block ?l :: ?r)) _ _ => apply (steps_flat _ l r); cbn [app]
  end.
Ltac walk := cbn [negb andb when]; repeat walk1; cbn [negb andb when].
(** The same, up to the line that starts with [s]. *)
Ltac walk_to s :=
  cbn [negb andb when];
  repeat
    (lazymatch goal with
     | |- steps _ (block (line (lit s) :: _)) _ _ => fail
     | |- steps _ (block (line (pcat (lit s) _) :: _)) _ _ => fail
     | |- _ => walk1
     end);
  cbn [negb andb when].
(** Step over one element that is nested as it should. *)
Ltac over := eapply steps_skip; [apply steps_runs0; run| ].
(** The next [k] elements are a piece. *)
Ltac piece k :=
  lazymatch goal with
  | |- steps ?n (block ?l) (_ :: _) _ =>
      let a := eval cbv [firstn] in (firstn k l) in
      let b := eval cbv [skipn] in (skipn k l) in
      eapply (steps_piece n a b)
  end.
(** The element after the first [k] is a value that is known, and then a block. *)
Ltac inside k E :=
  lazymatch goal with
  | |- steps ?n (block ?l) _ _ =>
      let a := eval cbv [firstn] in (firstn k l) in
      let b := eval cbv [skipn] in (skipn k l) in
      lazymatch b with
      | given _ ?f :: ?r =>
          rewrite E;
          lazymatch type of E with
          | _ = Ret ?x =>
              let c := eval cbv beta iota in (f x) in
              lazymatch c with
              | block ?c => apply (steps_flat_after a n c r); cbn [app]
              end
          end
      end
  end.
(** The element after the first [k] is a block. *)
Ltac flatten k :=
  lazymatch goal with
  | |- steps ?n (block ?l) _ _ =>
      let a := eval cbv [firstn] in (firstn k l) in
      let b := eval cbv [skipn] in (skipn k l) in
      lazymatch b with
      | block ?c :: ?r => apply (steps_flat_after a n c r); cbn [app]
      end
  end.
(** What a piece is. *)
Ltac exact_piece :=
  lazymatch goal with
  | |- exactly _ (block []) _ _ => apply exactly_nil
  | |- exactly _ (block (_ :: _)) _ _ => eapply exactly_cons; [exact_piece|exact_piece]
  | |- exactly _ skip _ _ => apply exactly_skip
  | |- exactly _ (at_level _) _ _ => apply exactly_at; cbv beta; exact_piece
  | |- exactly _ indent _ _ => apply exactly_indent
  | |- exactly _ dedent _ _ => apply exactly_dedent
  | |- exactly _ blank _ _ => apply exactly_text; reflexivity
  | |- exactly _ (line _) _ _ => apply exactly_text; compute_text; reflexivity
  | |- exactly _ (each _ (fun s => line (lit s))) _ _ => apply exactly_lines
  | |- _ => idtac
  end.
Lemma exactly_given {A} n (x : pyres A) a f ls m : x = Ret a -> exactly n (f a) ls m -> exactly n (given x f) ls m.
Proof. intros -> H; exact H. Qed.
Lemma exactly_when n b t s : t = Ret s -> exactly n (when b (line t)) (at_lvl n (if b then [s] else [])) n.
Proof. intros ->; destruct b; reflexivity. Qed.
Lemma at_lvl_app n a b : at_lvl n (a ++ b) = at_lvl n a ++ at_lvl n b.
Proof. apply map_app. Qed.

(** ** The numbers of the messages *)

Lemma flat_map_map_one {A B} (h : A -> B) l : flat_map (fun x => [h x]) l = map h l.
Proof. induction l as [ |x l IH]; cbn [flat_map map app]; [reflexivity|now rewrite IH]. Qed.
Lemma enumerate_tags : forall (l : list (string * struct)) i, map (fun x => (fst x + 1, snd x)) (enumerate_from i l) = count_from (i + 1) l.
Proof. induction l as [ |[n s] l IH]; intro i; cbn [enumerate_from map count_from fst snd]; [reflexivity|now rewrite IH]. Qed.
Lemma names_tags : forall (l : list (string * struct)) i, map snd (count_from i l) = map fst l.
Proof. induction l as [ |[n s] l IH]; intro i; cbn [map count_from fst snd]; [reflexivity|now rewrite IH]. Qed.
Lemma exactly_map {A} n (l : list A) f h : (forall x, In x l -> exactly n (f x) [h x] n) -> exactly n (each l f) (map h l) n.
Proof.
  intro H; rewrite <- (flat_map_map_one h l); now apply exactly_each.
Qed.
Lemma each_name {B} (F : string -> list B) (l : list (string * struct)) i : flat_map F (map fst l) = flat_map (fun t => F (snd t)) (count_from i l).
Proof. rewrite <- (names_tags l i); induction (count_from i l) as [ |x r IH]; cbn [flat_map map]; [reflexivity|now rewrite IH]. Qed.
Lemma each_name_one {B} (F : string -> B) (l : list (string * struct)) i : map F (map fst l) = map (fun t => F (snd t)) (count_from i l).
Proof. now rewrite <- (names_tags l i), map_map. Qed.
Lemma each_number {B} (F : Z * string -> B) (l : list (string * struct)) :
  map (fun x => F (fst x + 1, snd x)) (enumerate l) = map F (count_from 1 l).
Proof. unfold enumerate; change 1 with (0 + 1) at 2; now rewrite <- enumerate_tags, map_map. Qed.
Lemma position_tag n : forall (l : list (string * struct)) i k, position n (map fst l) = Ret i -> tag_of n (count_from k l) = Some (i + k).
Proof.
  induction l as [ |[a s] l IH]; intros i k E; cbn [map fst position count_from tag_of] in *; [discriminate| ].
  destruct (String.eqb a n); [injection E as <-; reflexivity| ].
  destruct (position n (map fst l)) as [j| | ]; [ |discriminate..]; injection E as <-.
  rewrite (IH j (k + 1) eq_refl); f_equal; lia.
Qed.
