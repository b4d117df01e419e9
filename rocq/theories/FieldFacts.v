(** The lines of generated text that declare types and their members. *)
From Verif Require Export FieldSpec TopFacts.
From Verif Require Import IndentFacts.
Open Scope string_scope.
Open Scope Z_scope.
Open Scope list_scope.

(** ** Texts *)

Lemma to_space_app n r : spaceless n -> to_space (n +++ String " " r) = (n, String " " r).
Proof.
  unfold spaceless; induction n as [ |c n IH]; cbn [String.append to_space]; [reflexivity| ].
  destruct (Ascii.eqb_spec c " ") as [->|_]; [discriminate| ].
  destruct (to_space n) as [a b]; intro E; injection E as -> ->; now rewrite IH.
Qed.
Lemma spaceless_app a b : spaceless a -> spaceless b -> spaceless (a +++ b).
Proof.
  unfold spaceless; induction a as [ |c a IH]; cbn [String.append to_space]; [auto| ].
  destruct (Ascii.eqb c " "); [discriminate| ]; destruct (to_space a) as [x y]; intros E B; injection E as -> ->.
  now rewrite IH.
Qed.
Lemma to_space_colon n r : spaceless n -> to_space (n +++ String ":" (String " " r)) = (n +++ ":", String " " r).
Proof.
  unfold spaceless; induction n as [ |c n IH]; cbn [String.append to_space]; [reflexivity| ].
  destruct (Ascii.eqb_spec c " ") as [->|_]; [discriminate| ].
  destruct (to_space n) as [x y]; intro E; injection E as -> ->; rewrite IH by reflexivity; reflexivity.
Qed.
Lemma before_app e n : before e (n +++ e) = Some n.
Proof.
  induction n as [ |c n IH].
  - destruct e; cbn [String.append before]; now rewrite String.eqb_refl.
  - cbn [String.append before]; destruct (String.eqb_spec (String c (n +++ e)) e) as [X|_]; [ |now rewrite IH].
    exfalso; apply (f_equal String.length) in X; cbn [String.length] in X; rewrite length_app_str in X; lia.
Qed.
Lemma before_all n : before "" n = Some n.
Proof. rewrite <- (append_empty n) at 1; apply before_app. Qed.
Lemma no_brace n a x r : Ascii.eqb a x = false -> String.eqb (n +++ String a r) (String x "") = false.
Proof.
  intro A; destruct n as [ |c n]; cbn [String.append String.eqb]; [now rewrite A| ].
  destruct n; cbn [String.append String.eqb]; now destruct (Ascii.eqb c x).
Qed.
Lemma no_empty n a r : String.eqb (n +++ String a r) "" = false.
Proof. now destruct n. Qed.

(** ** Lines *)

Section Walks.
Variable lang : string.

Lemma field_looks_app n a ls r : field_looks lang n a (ls ++ r) =
  let (b, x) := field_looks lang n a ls in let (c, y) := field_looks lang n b r in (c, x ++ y).
Proof.
  revert a; induction ls as [ |l ls IH]; intro a; cbn [app field_looks]; [now destruct (field_looks lang n a r)| ].
  destruct (field_look lang n a l) as [b x]; rewrite IH; destruct (field_looks lang n b ls) as [c y].
  destruct (field_looks lang n c r) as [d z]; now rewrite app_assoc.
Qed.
Lemma field_looks_inner n ls : Forall (fun l => n + 1 <= fst l) ls -> field_looks lang n Away ls = (Away, []).
Proof.
  induction 1 as [ |l ls H F IH]; [reflexivity| ]; cbn [field_looks]; unfold field_look at 1.
  destruct (Z.eqb_spec (fst l) n); [lia|now rewrite IH].
Qed.

(** From level [n + k] to [n + k'], [x] prints lines that declare [N]; the reader goes
    from [a] to [b]. *)
Definition walks (n : Z) (x : gtext) (k k' : Z) (a b : place) (N : list fpart) : Prop :=
  exists ls, x (n + k) = Ret (ls, n + k') /\ field_looks lang n a ls = (b, N).

Lemma walks_nil n k a : walks n (block []) k k a a [].
Proof. exists []; split; reflexivity. Qed.
Lemma walks_cons n x r k k1 k2 a b c N1 N2 :
  walks n x k k1 a b N1 -> walks n (block r) k1 k2 b c N2 -> walks n (block (x :: r)) k k2 a c (N1 ++ N2).
Proof.
  intros (l1 & E1 & T1) (l2 & E2 & T2); exists (l1 ++ l2).
  change (block (x :: r)) with (andthen x (block r)); unfold andthen; rewrite E1; cbn [pbind snd fst].
  rewrite E2; cbn [pbind fst snd]; split; [reflexivity| ].
  now rewrite field_looks_app, T1, T2.
Qed.
Lemma walks_look n t s r k k2 a b c M N : t = Ret s -> field_look lang n a (n + k, s) = (b, M) ->
  walks n (block r) k k2 b c N -> walks n (block (line t :: r)) k k2 a c (M ++ N).
Proof.
  intros -> E H; eapply walks_cons; [ |exact H].
  exists [(n + k, s)]; split; [reflexivity| ]; cbn [field_looks]; rewrite E; now rewrite app_nil_r.
Qed.
Lemma walks_none n t s r k2 c N : t = Ret s -> opened (heads_of lang) s = None ->
  walks n (block r) 0 k2 Away c N -> walks n (block (line t :: r)) 0 k2 Away c N.
Proof.
  intros E O H; change N with ([] ++ N); eapply walks_look; [exact E| |exact H].
  unfold field_look; cbn [fst snd]; now rewrite Z.add_0_r, Z.eqb_refl, O.
Qed.
Lemma walks_head n t s r k2 c N name : t = Ret s -> opened (heads_of lang) s = Some name ->
  walks n (block r) 0 k2 Within c N -> walks n (block (line t :: r)) 0 k2 Away c (Opens name :: N).
Proof.
  intros E O H; change (Opens name :: N) with ([Opens name] ++ N); eapply walks_look; [exact E| |exact H].
  unfold field_look; cbn [fst snd]; now rewrite Z.add_0_r, Z.eqb_refl, O.
Qed.
Lemma walks_outer n t r k k2 c N : good t -> (k =? 0) = false ->
  walks n (block r) k k2 Away c N -> walks n (block (line t :: r)) k k2 Away c N.
Proof.
  intros [s E] K H; apply Z.eqb_neq in K; change N with ([] ++ N); eapply walks_look; [exact E| |exact H].
  unfold field_look; cbn [fst snd]; destruct (Z.eqb_spec (n + k) n); [lia|reflexivity].
Qed.
Lemma walks_end n t s r k k2 c N : t = Ret s -> String.eqb s (last_line lang) = true ->
  walks n (block r) k k2 Away c N -> walks n (block (line t :: r)) k k2 Within c N.
Proof.
  intros E S H; change N with ([] ++ N); eapply walks_look; [exact E| |exact H].
  unfold field_look; cbn [fst snd]; now rewrite S.
Qed.
Lemma walks_brace n t r k k2 c N : t = Ret "{" -> last_line lang = "" ->
  walks n (block r) k k2 Within c N -> walks n (block (line t :: r)) k k2 Within c N.
Proof.
  intros E S H; change N with ([] ++ N); eapply walks_look; [exact E| |exact H].
  unfold field_look; cbn [fst snd]; now rewrite S.
Qed.
Lemma walks_indent n r k k1 k2 a c N : k + 1 = k1 ->
  walks n (block r) k1 k2 a c N -> walks n (block (indent :: r)) k k2 a c N.
Proof.
  intros <- H; change N with ([] ++ N); eapply walks_cons; [ |exact H].
  exists []; split; [unfold indent; do 2 f_equal; lia|reflexivity].
Qed.
Lemma walks_dedent n r k k1 k2 a c N : k - 1 = k1 ->
  walks n (block r) k1 k2 a c N -> walks n (block (dedent :: r)) k k2 a c N.
Proof.
  intros <- H; change N with ([] ++ N); eapply walks_cons; [ |exact H].
  exists []; split; [unfold dedent; do 2 f_equal; lia|reflexivity].
Qed.
Lemma walks_check n r k k2 a c N : n + k = 0 ->
  walks n (block r) k k2 a c N -> walks n (block (check_level :: r)) k k2 a c N.
Proof.
  intros E H; change N with ([] ++ N); eapply walks_cons; [ |exact H].
  exists []; unfold check_level; rewrite E; split; reflexivity.
Qed.
Lemma walks_skip n r k k2 a c N : walks n (block r) k k2 a c N -> walks n (block (skip :: r)) k k2 a c N.
Proof. intro H; change N with ([] ++ N); eapply walks_cons; [ |exact H]; exists []; split; reflexivity. Qed.
Lemma walks_inside n x r j j1 k2 c N : runs (n + 1) x j j1 ->
  walks n (block r) (1 + j1) k2 Away c N -> walks n (block (x :: r)) (1 + j) k2 Away c N.
Proof.
  intros (ls & E & F) H; change N with ([] ++ N); eapply walks_cons; [ |exact H].
  exists ls; split; [rewrite !Z.add_assoc; exact E|now apply field_looks_inner].
Qed.
Lemma walks_flat n l r k k2 a c N : walks n (block (l ++ r)) k k2 a c N -> walks n (block (block l :: r)) k k2 a c N.
Proof.
  revert k k2 a c N; induction l as [ |x l IH]; intros k k2 a c N H; [now apply walks_skip| ].
  destruct H as (ls & E & T).
  change (andthen x (block (l ++ r)) (n + k) = Ret (ls, n + k2)) in E.
  apply andthen_ret in E as (l1 & k1 & l2 & Ea & E & ->).
  rewrite field_looks_app in T; destruct (field_looks lang n a l1) as [b y] eqn:R1;
    destruct (field_looks lang n b l2) as [d m] eqn:R2.
  injection T as -> <-.
  destruct (IH (k1 - n) k2 b c m) as (l3 & E3 & T3);
    [exists l2; split; [replace (n + (k1 - n)) with k1 by lia; exact E|exact R2]| ].
  replace (n + (k1 - n)) with k1 in E3 by lia.
  change (andthen (block l) (block r) k1 = Ret (l3, n + k2)) in E3.
  apply andthen_ret in E3 as (l4 & k4 & l5 & E4 & E5 & ->).
  exists (l1 ++ l4 ++ l5); split; [ |now rewrite field_looks_app, R1, T3].
  change (andthen (andthen x (block l)) (block r) (n + k) = Ret (l1 ++ l4 ++ l5, n + k2)).
  apply andthen_ret; exists (l1 ++ l4), k4, l5; split; [ |split; [exact E5|apply app_assoc]].
  apply andthen_ret; exists l1, k1, l4; auto.
Qed.
Lemma walks_given {A} n (m : pyres A) f r k k2 a c N : good m ->
  (forall x, m = Ret x -> walks n (block (f x :: r)) k k2 a c N) -> walks n (block (given m f :: r)) k k2 a c N.
Proof.
  intros [x E] H; destruct (H x E) as (ls & E1 & T); exists ls; split; [ |exact T].
  change (andthen (f x) (block r) (n + k) = Ret (ls, n + k2)) in E1.
  change (andthen (given m f) (block r) (n + k) = Ret (ls, n + k2)).
  unfold andthen, given in *; now rewrite E.
Qed.
Lemma walks_each {A} n (l : list A) f names k a :
  (forall x, In x l -> walks n (f x) k k a a (names x)) -> walks n (each l f) k k a a (flat_map names l).
Proof.
  unfold each; induction l as [ |x l IH]; intro H; cbn [map flat_map]; [apply walks_nil| ].
  eapply walks_cons; [apply H; now left|apply IH; intros y I; apply H; now right].
Qed.
Lemma walks_given_one {A} n (m : pyres A) f k k2 a c N : good m ->
  (forall x, m = Ret x -> walks n (f x) k k2 a c N) -> walks n (given m f) k k2 a c N.
Proof.
  intros [x E] H; destruct (H x E) as (ls & E1 & T); exists ls; split; [ |exact T].
  unfold given; now rewrite E.
Qed.
Lemma walks_eq n x k k' a b N N' : walks n x k k' a b N -> N = N' -> walks n x k k' a b N'.
Proof. now intros H <-. Qed.
Lemma walks_same n x y k k' a b N : walks n x k k' a b N -> (forall j, x j = y j) -> walks n y k k' a b N.
Proof. intros (ls & E & T) H; exists ls; split; [now rewrite <- H|exact T]. Qed.

Lemma walks_entries {A} n (l : list (string * A)) f names k a :
  (forall t x, In (t, x) l -> walks n (f (t, x)) k k a a (names (t, x))) ->
  walks n (each l f) k k a a (flat_map names l).
Proof. intro H; apply walks_each; intros [t x] I; now apply H. Qed.
Lemma walks_no_entries {A} n (l : list (string * A)) f k a :
  (forall t x, In (t, x) l -> walks n (f (t, x)) k k a a []) -> walks n (each l f) k k a a [].
Proof.
  intro H; eapply walks_eq; [apply (walks_entries _ _ _ (fun _ => [])); exact H|clear; induction l as [ |x l IH]; [reflexivity|exact IH]].
Qed.

(** The lines of the members. *)
Definition a_field (l : string) : Prop := String.eqb l (last_line lang) = false /\ String.eqb l "{" = false.
Lemma walks_fields n p f (ms : list var) :
  (forall m, In m ms -> (forall j, f m j = line (lit (field_text lang p m)) j) /\ a_field (field_text lang p m)) ->
  walks n (each ms f) 1 1 Within Within (map (fun m => Field (without_blanks (field_text lang p m))) ms).
Proof.
  intro H; eapply walks_eq; [apply (walks_each _ _ _ (fun m => [Field (without_blanks (field_text lang p m))]))|clear; induction ms; cbn; congruence].
  intros m I; destruct (H m I) as [E [A B]]; exists [(n + 1, field_text lang p m)]; split; [now rewrite E| ].
  cbn [field_looks]; unfold field_look; cbn [fst snd]; now rewrite A, B.
Qed.

(** ** Boilerplate *)

Lemma without_blanks_app b r : blanks b = true -> without_blanks (b +++ r) = without_blanks r.
Proof.
  induction b as [ |c b IH]; cbn [blanks String.append without_blanks]; [reflexivity| ].
  rewrite andb_true_iff; intros [C B]; rewrite C; now apply IH.
Qed.
Definition head_unblank (h : string * string * string) : bool := unblank (fst (fst h)).
Lemma opened_blank hs c r : forallb head_unblank hs = true -> blank_char c = true -> opened hs (String c r) = None.
Proof.
  induction hs as [ |[[i j] k] l IH]; cbn [forallb opened]; intros U B; [reflexivity| ].
  apply andb_true_iff in U as [Ui U]; unfold head_name; cbn [fst snd]; unfold head_unblank in Ui; cbn [fst] in Ui.
  destruct i as [ |a i]; [discriminate| ]; cbn [rest_after].
  destruct (Ascii.eqb_spec a c) as [->|_]; [cbn [unblank] in Ui; rewrite B in Ui; discriminate|now apply IH].
Qed.
Lemma look_indented n native tab a l : forallb head_unblank (heads_of lang) = true ->
  (last_line lang = "" \/ last_line lang = "}") ->
  blanks native = true -> native <> "" -> blanks tab = true -> tab <> "" ->
  field_look lang n a (n + 0, replace_indent native tab l) = field_look lang n a (n + 0, l).
Proof.
  intros U Q Bn Nn Bt Nt; destruct (replace_indent_spec native tab l Nn) as (k & r & -> & _ & ->).
  destruct k as [ |k]; [reflexivity| ].
  assert (X : forall t, blanks t = true -> t <> "" -> exists c b, repeat_str (Datatypes.S k) t = String c b /\ blank_char c = true /\ blanks b = true).
  { clear; intros t B N; destruct t as [ |c t]; [congruence| ]; cbn [repeat_str String.append].
    pose proof (blanks_repeat (Datatypes.S k) (String c t) B) as Y; cbn [repeat_str String.append blanks] in Y.
    apply andb_true_iff in Y as [Y1 Y2]; eauto. }
  destruct (X native Bn Nn) as (c & b & -> & C & B); destruct (X tab Bt Nt) as (c' & b' & -> & C' & B').
  unfold field_look; cbn [fst snd]; destruct a.
  - cbn [String.append]; rewrite !opened_blank by assumption; reflexivity.
  - assert (Z : forall c b, blank_char c = true ->
      String.eqb (String c b +++ r) (last_line lang) = false /\ String.eqb (String c b +++ r) "{" = false).
    { clear - Q; intros c b C; revert C; unfold blank_char; rewrite orb_true_iff, !Ascii.eqb_eq.
      destruct Q as [-> | ->]; intros [->| ->]; split; reflexivity. }
    destruct (Z c b C) as [-> ->]; destruct (Z c' b' C') as [-> ->].
    rewrite !without_blanks_app; [reflexivity|cbn [blanks]; now rewrite C|cbn [blanks]; now rewrite C'].
Qed.
Lemma walks_boilerplate n native tab subs file r k2 a b c M N :
  forallb head_unblank (heads_of lang) = true -> (last_line lang = "" \/ last_line lang = "}") ->
  blanks native = true -> native <> "" -> blanks tab = true -> tab <> "" ->
  field_looks lang 0 a (map (fun l => (0, l)) (fold_left substitute subs file)) = (b, M) ->
  walks n (block r) 0 k2 b c N ->
  walks n (block (add_boilerplate native tab subs file :: r)) 0 k2 a c (M ++ N).
Proof.
  intros U Q Bn Nn Bt Nt E H; eapply walks_cons; [ |exact H].
  eexists; split; [apply each_lines| ]; unfold boilerplate_lines.
  clear H; revert a b M E; generalize (fold_left substitute subs file) as ls; induction ls as [ |l ls IH]; intros a b M E; [exact E| ].
  cbn [map field_looks] in *; rewrite look_indented by assumption.
  replace (field_look lang n a (n + 0, l)) with (field_look lang 0 a (0, l)).
  - destruct (field_look lang 0 a (0, l)) as [d x]; destruct (field_looks lang 0 d (map (fun l => (0, l)) ls)) as [e y] eqn:Y.
    rewrite (IH d e y Y); exact E.
  - unfold field_look; cbn [fst snd]; now rewrite Z.add_0_r, !Z.eqb_refl.
Qed.
(** Boilerplate in which no type is opened. *)
Definition unopened (ls : list string) : Prop := forall l, In l ls -> opened (heads_of lang) l = None.
Lemma unopened_computed ls :
  forallb (fun l => match opened (heads_of lang) l with None => true | Some _ => false end) ls = true -> unopened ls.
Proof. rewrite forallb_forall; intros H l I; specialize (H l I); destruct (opened _ _); [discriminate|reflexivity]. Qed.
Lemma opened_indented native tab l : forallb head_unblank (heads_of lang) = true ->
  native <> "" -> blanks tab = true -> tab <> "" ->
  opened (heads_of lang) l = None -> opened (heads_of lang) (replace_indent native tab l) = None.
Proof.
  intros U Nn Bt Nt L; destruct (replace_indent_spec native tab l Nn) as (k & r & -> & _ & ->).
  destruct k as [ |k]; [exact L| ].
  destruct tab as [ |b tab]; [congruence| ]; cbn [blanks] in Bt; apply andb_true_iff in Bt as [Bb _].
  cbn [repeat_str String.append]; now apply opened_blank.
Qed.
Lemma walks_plain n native tab subs file r k2 c N :
  forallb head_unblank (heads_of lang) = true ->
  native <> "" -> blanks tab = true -> tab <> "" ->
  unopened (fold_left substitute subs file) ->
  walks n (block r) 0 k2 Away c N ->
  walks n (block (add_boilerplate native tab subs file :: r)) 0 k2 Away c N.
Proof.
  intros U Nn Bt Nt F H; change N with ([] ++ N); eapply walks_cons; [ |exact H].
  eexists; split; [apply each_lines| ]; unfold boilerplate_lines.
  clear H; revert F; generalize (fold_left substitute subs file) as ls; induction ls as [ |l ls IH]; intros F; [reflexivity| ].
  cbn [map field_looks]; unfold field_look at 1; cbn [fst snd]; rewrite Z.add_0_r, Z.eqb_refl, opened_indented; try assumption.
  - rewrite Z.add_0_r in IH; rewrite IH; [reflexivity|intros x I; apply F; now right].
  - apply F; now left.
Qed.
(** The marks may be in lines that are further in. *)
Lemma unopened_replaced subs ls : forallb head_unblank (heads_of lang) = true -> forallb unblank (map fst subs) = true ->
  forallb (fun l => blank_line l || forallb (fun m => negb (occurs m l)) (map fst subs)) ls = true ->
  unopened ls -> unopened (map (replaced subs) ls).
Proof.
  intros U V F H x I; apply in_map_iff in I as (l & <- & I); rewrite forallb_forall in F; specialize (F l I); specialize (H l I).
  apply orb_true_iff in F as [L|L].
  - assert (B : blank_line (replaced subs l) = true).
    { clear - L V; unfold replaced; revert l L; induction subs as [ |[o w] subs IH]; intros l L; [exact L| ]; cbn [fold_left fst snd].
      cbn [map forallb fst] in V; apply andb_true_iff in V as [V1 V2]; apply IH; [exact V2|now apply replace_blank]. }
    destruct (replaced subs l); [discriminate|now apply opened_blank].
  - enough (E : replaced subs l = l) by now rewrite E.
    clear - L V; unfold replaced; induction subs as [ |[o w] subs IH]; [reflexivity| ]; cbn [fold_left fst snd].
    cbn [map forallb fst] in V, L; apply andb_true_iff in V as [V1 V2]; apply andb_true_iff in L as [L1 L2].
    rewrite replace_absent; [now apply IH|destruct o; discriminate|now apply negb_true_iff].
Qed.
Lemma walks_boilerplate_out n native tab subs file r k k2 c N : (k =? 0) = false ->
  walks n (block r) k k2 Away c N ->
  walks n (block (add_boilerplate native tab subs file :: r)) k k2 Away c N.
Proof.
  intros K H; apply Z.eqb_neq in K; change N with ([] ++ N); eapply walks_cons; [ |exact H].
  eexists; split; [apply each_lines| ].
  generalize (boilerplate_lines native tab subs file) as ls; induction ls as [ |l ls IH]; [reflexivity| ].
  cbn [map field_looks]; unfold field_look; cbn [fst snd]; destruct (Z.eqb_spec (n + k) n); [lia|now rewrite IH].
Qed.
End Walks.

(** ** The types of members *)

Inductive field_type (p : protocol) (t : string) : Prop :=
| ft_base : In t base_types -> mem t (p_enums p) = false -> mem t (p_structs p) = false -> field_type p t
| ft_string : t = "string" -> mem t (p_enums p) = false -> mem t (p_structs p) = false -> field_type p t
| ft_enum e v r : lookup t (p_enums p) = Some e -> e_values e = v :: r -> e_name e = t -> mem t (p_structs p) = false ->
    ~ In t base_type_names -> in_strs t (declared_names p) = true -> field_type p t
| ft_struct : mem t (p_structs p) = true -> mem t (p_enums p) = false ->
    ~ In t base_type_names -> in_strs t (declared_names p) = true -> field_type p t.
Definition field_types (p : protocol) : Prop :=
  forall n s m, declares p n s -> In m (s_members s) -> field_type p (v_type m).
Lemma name_not_base t : lookup t NUMERIC_TYPE_SIZES = None -> String.eqb t "string" = false -> ~ In t base_type_names.
Proof.
  intros L S I; apply lookup_None in L; apply String.eqb_neq in S; cbn in L, I; decompose [or] I; subst; try tauto.
Qed.
Lemma base_not_declared p t : WF p -> In t (base_types ++ ["string"]) -> mem t (p_enums p) = false /\ mem t (p_structs p) = false.
Proof.
  intros W I; assert (N : ~ name_ok t).
  { intros (_ & _ & N); apply N; cbn in I; decompose [or] I; subst; try contradiction; vm_compute; tauto. }
  split; apply mem_lookup_none, lookup_None; intro J; apply in_map_iff in J as ([x y] & E & J); cbn in E; subst x; apply N, (wf_names p W).
  - right; right; now exists y.
  - left; now exists y.
Qed.
Lemma in_declared_struct p t s : In (t, s) (p_structs p) -> in_strs t (declared_names p) = true.
Proof. intro I; apply in_strs_true; unfold declared_names; rewrite !in_app_iff, in_map_iff; left; now exists (t, s). Qed.
Lemma in_declared_enum p t e : In (t, e) (p_enums p) -> in_strs t (declared_names p) = true.
Proof. intro I; apply in_strs_true; unfold declared_names; rewrite !in_app_iff, !in_map_iff; right; right; now exists (t, e). Qed.
Lemma WF_field_types p : WF p -> field_types p.
Proof.
  intros W n s m D I; pose proof (wf_member_types p W n s m D I) as K.
  destruct (known_cases p _ W (or_introl K)) as [(k & L & _)|[E|[(e & L & L1 & L2 & L3 & _)|(s0 & D0 & L & L1 & L2 & L3)]]].
  - assert (B : In (v_type m) base_types) by (rewrite <- numeric_keys; apply lookup_In, (in_map fst) in L; exact L).
    destruct (base_not_declared p _ W (in_or_app _ _ _ (or_introl B))); now apply ft_base.
  - destruct (base_not_declared p _ W (in_or_app base_types ["string"] (v_type m) (or_intror (or_introl (eq_sym E))))); now apply ft_string.
  - apply lookup_In in L as J; destruct (wf_enum_values p W _ _ J) as [V _]; destruct (e_values e) as [ |v r] eqn:EV; [congruence| ].
    apply (ft_enum p _ e v r); auto.
    + exact (wf_enum_entry p W _ _ J).
    + now apply mem_lookup_none.
    + now apply name_not_base.
    + exact (in_declared_enum p _ e J).
  - assert (S : is_struct p (v_type m)).
    { destruct K as [B|[E|[S|[e E]]]]; [ | |exact S| ].
      - rewrite <- numeric_keys in B; apply lookup_None in L1; tauto.
      - rewrite E in L2; discriminate.
      - apply lookup_None in L3; exfalso; apply L3, in_map_iff; now exists (v_type m, e). }
    destruct S as [s1 S]; apply ft_struct.
    + unfold mem; destruct (lookup (v_type m) (p_structs p)) eqn:Q; [reflexivity| ].
      apply lookup_None in Q; exfalso; apply Q, in_map_iff; now exists (v_type m, s1).
    + now apply mem_lookup_none.
    + now apply name_not_base.
    + exact (in_declared_struct p _ s1 S).
Qed.
Lemma mem_fst {A B} t (d : list (string * A)) (d' : list (string * B)) : map fst d = map fst d' -> mem t d = mem t d'.
Proof.
  intro E; unfold mem; destruct (lookup t d) eqn:X; destruct (lookup t d') eqn:Y; try reflexivity.
  - apply lookup_In, (in_map fst) in X; apply lookup_None in Y; rewrite E in X; tauto.
  - apply lookup_In, (in_map fst) in Y; apply lookup_None in X; rewrite E in X; tauto.
Qed.
Lemma field_types_renamed f p : field_types p -> field_types (rename_members f p).
Proof.
  intros H n s m D I; apply rename_declares in D as (s0 & D & ->).
  cbn [s_members rename_struct] in I; apply in_map_iff in I as (m0 & <- & I).
  assert (M : forall t, mem t (p_structs (rename_members f p)) = mem t (p_structs p)).
  { intro t; apply mem_fst; cbn [p_structs rename_members]; apply rename_names. }
  assert (DN : declared_names (rename_members f p) = declared_names p).
  { unfold declared_names; cbn [p_structs p_messages p_enums rename_members]; now rewrite !rename_names. }
  destruct (H n s0 m0 D I) as [B E S|B E S|e v r L V E S N Q|S E N Q].
  - apply ft_base; [exact B|exact E|rewrite M; exact S].
  - apply ft_string; [exact B|exact E|rewrite M; exact S].
  - apply (ft_enum _ _ e v r); auto; [rewrite M; exact S|rewrite DN; exact Q].
  - apply ft_struct; [rewrite M; exact S|exact E|exact N|rewrite DN; exact Q].
Qed.

Lemma field_type_listed p t : field_type p t -> forall x, t = x -> ~ In x base_type_names -> In t (types_in_order p).
Proof.
  intros H x X N; subst x; unfold types_in_order; rewrite !in_app_iff; destruct H as [B _ _|B _ _|e v r L _ _ _ _ _|S _ _ _].
  - exfalso; apply N; cbn in B |- *; tauto.
  - exfalso; apply N; rewrite B; cbn; tauto.
  - left; apply lookup_In, (in_map fst) in L; exact L.
  - right; left; unfold mem in S; destruct (lookup t (p_structs p)) eqn:L; [ |discriminate].
    apply lookup_In, (in_map fst) in L; exact L.
Qed.

Lemma spaceless_struct p t s : (forall t, In t (types_in_order p) -> spaceless t) -> In (t, s) (p_structs p) -> spaceless t.
Proof. intros H I; apply H; unfold types_in_order; rewrite !in_app_iff; right; left; apply (in_map fst) in I; exact I. Qed.
Lemma spaceless_message p t s : (forall t, In t (types_in_order p) -> spaceless t) -> In (t, s) (p_messages p) -> spaceless t.
Proof. intros H I; apply H; unfold types_in_order; rewrite !in_app_iff; right; right; apply (in_map fst) in I; exact I. Qed.
Lemma spaceless_enum p t e : (forall t, In t (types_in_order p) -> spaceless t) -> In (t, e) (p_enums p) -> spaceless t.
Proof. intros H I; apply H; unfold types_in_order; rewrite !in_app_iff; left; apply (in_map fst) in I; exact I. Qed.

(** Their texts. *)
Lemma type_text_name lang t : ~ In t base_type_names -> type_text lang t = t.
Proof.
  intro N; unfold type_text; replace (lookup t _) with (@None string); [reflexivity| ]; symmetry.
  apply lookup_None; intro I; apply N; apply in_map_iff in I as ([x y] & E & I); cbn in E; subst x.
  exact (in_combine_l _ _ _ _ I).
Qed.
Lemma mapping_text lang p more t :
  (forall x, In x base_type_names -> mapping p more x = Ret (type_text lang x)) -> incl (map fst more) base_type_names ->
  field_type p t -> mapping p more t = Ret (type_text lang t).
Proof.
  intros C S H.
  assert (N : ~ In t base_type_names -> in_strs t (declared_names p) = true -> mapping p more t = Ret (type_text lang t)).
  { intros N Q; rewrite type_text_name by exact N; unfold mapping; replace (lookup t more) with (@None string).
    - destruct (String.eqb_spec t "string") as [->|_]; [exfalso; apply N; cbn; tauto|now rewrite Q].
    - symmetry; apply lookup_None; intro I; apply N, S, I. }
  destruct H as [B _ _|B _ _|e v r _ _ _ _ X Y|_ _ X Y]; auto.
  - apply C; cbn in B |- *; tauto.
  - apply C; rewrite B; cbn; tauto.
Qed.
Lemma not_string t : ~ In t base_type_names -> String.eqb t "string" = false.
Proof. intro N; apply String.eqb_neq; intros ->; apply N; cbn; tauto. Qed.
Lemma not_number t : ~ In t base_type_names -> in_strs t (map fst NUMERIC_TYPE_SIZES) = false.
Proof. intro N; apply in_strs_false; intro I; apply N; cbn in I |- *; tauto. Qed.
Lemma enum_found p t e : lookup t (p_enums p) = Some e -> get_enum p t = Ret e.
Proof. intro L; unfold get_enum, item; now rewrite L. Qed.
Lemma default_found e v r : e_values e = v :: r -> default_name e = Ret (fst v).
Proof. intro V; unfold default_name, get_default_pair; now rewrite V. Qed.

(** ** Tactics *)

(** Two ways to put a line together. *)
Ltac same_text :=
  unfold line, pcat, lit; cbn [pbind fst snd]; repeat (rewrite ?append_empty; rewrite ?app_str_assoc);
  cbn [String.append]; reflexivity.

Ltac opens :=
  lazymatch goal with
  | |- opened (heads_of ?l) _ = _ => let h := eval vm_compute in (heads_of l) in change (heads_of l) with h
  end;
  cbn [heads_of opened head_name fst snd rest_after String.append Ascii.eqb Bool.eqb];
  rewrite ?to_space_app, ?to_space_colon by assumption; rewrite ?append_empty;
  repeat match goal with H : spaceless ?x |- context [to_space ?x] => rewrite (H : to_space x = (x, "")) end;
  cbn [String.eqb Ascii.eqb Bool.eqb]; rewrite ?before_all, ?before_app; reflexivity.
Ltac walk_more := fail.
Ltac walk :=
  cbv beta zeta;
  lazymatch goal with
  | |- walks _ _ (block []) _ _ _ _ _ => apply walks_nil
  | |- walks _ _ (block (indent :: _)) ?k _ _ _ _ =>
      let v := eval vm_compute in (k + 1) in apply (walks_indent _ _ _ k v _ _ _ _ eq_refl); walk
  | |- walks _ _ (block (dedent :: _)) ?k _ _ _ _ =>
      let v := eval vm_compute in (k - 1) in apply (walks_dedent _ _ _ k v _ _ _ _ eq_refl); walk
  | |- walks _ _ (block (check_level :: _)) _ _ _ _ _ => apply walks_check; [reflexivity|walk]
  | |- walks _ _ (block (skip :: _)) _ _ _ _ _ => apply walks_skip; walk
  | |- walks _ _ (block (blank :: _)) ?k _ _ _ _ => unfold blank at 1; walk
  | |- walks _ _ (block (line _ :: _)) _ _ Within _ _ =>
      first [eapply walks_end; [known_text|reflexivity|walk]|apply walks_brace; [reflexivity|reflexivity|walk]|idtac]
  | |- walks _ _ (block (line _ :: _)) 0 _ Away _ _ =>
      first [eapply walks_none; [known_text|solve [opens]|walk]|eapply walks_head; [known_text|solve [opens]|walk]|idtac]
  | |- walks _ _ (block (line _ :: _)) _ _ _ _ _ => apply walks_outer; [good|reflexivity|walk]
  | |- walks _ _ (block (when true _ :: _)) _ _ _ _ _ => cbn [when]; walk
  | |- walks _ _ (block (when false _ :: _)) _ _ _ _ _ => cbn [when]; walk
  | |- walks _ _ (block (block _ :: _)) _ _ _ _ _ => apply walks_flat; cbn [app]; walk
  | |- walks _ _ (block (?a :: _)) ?k _ _ _ _ =>
      first
        [ walk_more; walk
        | let j := eval vm_compute in (k - 1) in
          let ok := eval vm_compute in (0 <=? j) in
          match ok with true => idtac end;
          change k with (1 + j); eapply walks_inside; [solve [run]| ];
          match goal with |- walks _ _ _ ?k1 _ _ _ _ => let v := eval vm_compute in k1 in change k1 with v end; walk
        | match a with
          | when ?b _ => known_if b; walk
          | (if ?b then _ else _) => known_if b; walk
          | given _ _ => apply walks_given; [good|intros; walk]
          | (let (_, _) := ?x in _) => destruct x; walk
          end
        | idtac ]
  | |- _ => idtac
  end.
