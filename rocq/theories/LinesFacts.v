(** Facts about printing: levels of indentation, and text that does not raise. *)
From Verif Require Export Lines ProtocolFacts3 RenameFacts.
Open Scope string_scope.
Open Scope Z_scope.
Open Scope list_scope.

(** ** Text that does not raise *)

Definition good {A} (m : pyres A) : Prop := exists a, m = Ret a.

Lemma good_ret {A} (a : A) : good (Ret a). Proof. now exists a. Qed.
Lemma good_lit s : good (lit s). Proof. now exists s. Qed.
Lemma good_cat a b : good a -> good b -> good (pcat a b).
Proof. intros [x ->] [y ->]; cbn [pcat pbind]; unfold pcat; cbn [pbind]; apply good_ret. Qed.
Lemma good_str z : good z -> good (str_of z).
Proof. intros [x ->]; unfold str_of; cbn [pbind]; apply good_lit. Qed.
Lemma good_bind {A B} (m : pyres A) (k : A -> pyres B) : good m -> (forall a, m = Ret a -> good (k a)) -> good (pbind m k).
Proof. intros [a E] H; rewrite E in *; cbn [pbind]; now apply H. Qed.
Lemma good_if {A} (b : bool) (x y : pyres A) : (b = true -> good x) -> (b = false -> good y) -> good (if b then x else y).
Proof. destruct b; auto. Qed.
Lemma good_item {A} (d : list (string * A)) k : mem k d = true -> good (item d k).
Proof. unfold mem, item; destruct (lookup k d); [intro; apply good_ret|discriminate]. Qed.
Lemma good_of_option {A} (o : option A) : o <> None -> good (of_option o).
Proof. destruct o; [intro; apply good_ret|congruence]. Qed.

(** A table with an entry for every base type. *)
Definition covers {A} (d : list (string * A)) : bool := forallb (fun t => mem t d) base_types.
Lemma covers_mem {A} (d : list (string * A)) t : covers d = true -> In t base_types -> mem t d = true.
Proof. intros C I; exact (proj1 (forallb_forall _ _) C t I). Qed.
Lemma covers_item {A} (d : list (string * A)) t : covers d = true -> In t base_types -> good (item d t).
Proof. intros C I; now apply good_item, covers_mem. Qed.

Lemma mem_base t : mem t NUMERIC_TYPE_SIZES = true -> In t base_types.
Proof.
  intro M; rewrite <- numeric_keys; unfold mem in M; destruct (lookup t NUMERIC_TYPE_SIZES) eqn:L; [ |discriminate].
  apply lookup_In in L; apply in_map_iff; eexists; split; [ |exact L]; reflexivity.
Qed.
Lemma base_mem t : In t base_types -> mem t NUMERIC_TYPE_SIZES = true.
Proof. apply covers_mem; reflexivity. Qed.
Lemma integral_base t : In t integral_types -> In t base_types.
Proof. cbn; tauto. Qed.
Lemma good_numeric t : In t base_types -> good (numeric_size t).
Proof. apply covers_item; reflexivity. Qed.

(** ** Printing *)

(** Printed from level [n + k], [g] raises nothing, ends at level [n + k'], and prints
    no line left of [n]. *)
Definition runs (n : Z) (g : gtext) (k k' : Z) : Prop :=
  exists ls, g (n + k) = Ret (ls, n + k') /\ Forall (fun l => n <= fst l) ls.

Lemma runs_cons n a r k k1 k2 : runs n a k k1 -> runs n (block r) k1 k2 -> runs n (block (a :: r)) k k2.
Proof.
  intros (l1 & E1 & F1) (l2 & E2 & F2); exists (l1 ++ l2).
  change (block (a :: r)) with (andthen a (block r)); unfold andthen; rewrite E1; cbn [pbind snd fst].
  rewrite E2; cbn [pbind fst snd]; split; [reflexivity|now apply Forall_app].
Qed.
Lemma runs_nil n k : runs n (block []) k k.
Proof. exists []; split; [reflexivity|constructor]. Qed.
Lemma runs_skip n k : runs n skip k k.
Proof. exists []; split; [reflexivity|constructor]. Qed.
Lemma runs_line n t k : 0 <= k -> good t -> runs n (line t) k k.
Proof.
  intros K [s ->]; exists [(n + k, s)]; split; [reflexivity| ].
  constructor; [cbn; lia|constructor].
Qed.
Lemma runs_indent n k k' : k + 1 = k' -> runs n indent k k'.
Proof. intros <-; exists []; split; [unfold indent; do 2 f_equal; lia|constructor]. Qed.
Lemma runs_dedent n k k' : k - 1 = k' -> runs n dedent k k'.
Proof. intros <-; exists []; split; [unfold dedent; do 2 f_equal; lia|constructor]. Qed.
Lemma runs_check n k : n + k = 0 -> runs n check_level k k.
Proof. intro E; exists []; unfold check_level; rewrite E; split; [reflexivity|constructor]. Qed.
Lemma runs_when n b g k : (b = true -> runs n g k k) -> runs n (when b g) k k.
Proof. destruct b; cbn [when]; [auto|intros _; apply runs_skip]. Qed.
Lemma runs_if n (b : bool) x y k k' : (b = true -> runs n x k k') -> (b = false -> runs n y k k') -> runs n (if b then x else y) k k'.
Proof. destruct b; auto. Qed.
Lemma runs_each {A} n (l : list A) f k : (forall x, In x l -> runs n (f x) k k) -> runs n (each l f) k k.
Proof.
  unfold each; induction l as [ |x l IH]; intro H; cbn [map]; [apply runs_nil| ].
  eapply runs_cons; [apply H; now left|apply IH; intros y I; apply H; now right].
Qed.
Lemma runs_given {A} n (m : pyres A) f k k' : good m -> (forall a, m = Ret a -> runs n (f a) k k') -> runs n (given m f) k k'.
Proof. intros [a E] H; unfold runs, given; rewrite E in *; cbn [pbind]; now apply H. Qed.
Lemma runs_given_ret {A} n (a : A) f k k' : runs n (f a) k k' -> runs n (given (Ret a) f) k k'.
Proof. auto. Qed.
Lemma runs_at n f k k' : (forall z, runs n (f z) k k') -> runs n (at_level f) k k'.
Proof. intro H; exact (H (n + k)). Qed.
Lemma runs_boilerplate n native tab subs ls k : 0 <= k -> runs n (add_boilerplate native tab subs ls) k k.
Proof. intro K; apply runs_each; intros l _; apply runs_line; [exact K|apply good_lit]. Qed.
(** A part that keeps the level, further in. *)
Lemma runs_deeper n g k : 0 <= n -> 0 <= k -> (forall n', 0 <= n' -> runs n' g 0 0) -> runs n g k k.
Proof.
  intros N K H; destruct (H (n + k) ltac:(lia)) as (ls & E & F); exists ls; split.
  - rewrite !Z.add_0_r in E; exact E.
  - eapply Forall_impl; [ |exact F]; cbn; lia.
Qed.

(** ** The measuring functions: they return lines, at least one *)

Definition measured (r : pyres (list string * Z)) : Prop := exists l z, r = Ret (l, z) /\ l <> [].

Lemma measured_ret l z : l <> [] -> measured (Ret (l, z)).
Proof. intro; exists l, z; auto. Qed.
Lemma measured_good r : measured r -> good r.
Proof. intros (l & z & E & _); now exists (l, z). Qed.
Lemma measured_bind {A} (m : pyres A) k : good m -> (forall a, m = Ret a -> measured (k a)) -> measured (pbind m k).
Proof. intros [a E] H; rewrite E in *; cbn [pbind]; now apply H. Qed.
Lemma measured_rec (m : pyres (list string * Z)) k : measured m -> (forall l z, l <> [] -> measured (k (l, z))) -> measured (pbind m k).
Proof. intros (l & z & E & N) H; rewrite E; cbn [pbind]; now apply H. Qed.
Lemma good_drop x ls : ls <> [] -> good (drop_first_if x ls).
Proof. destruct ls; [congruence|intro; apply good_ret]. Qed.
Lemma app_not_nil {A} (a b : list A) : a <> [] -> a ++ b <> [].
Proof. destruct a; [congruence|discriminate]. Qed.

(** ** What the text needs to know about a protocol *)

Record text_ok (p : protocol) : Prop := {
  tk_name : forall n s, declares p n s -> s_name s = n;
  tk_types : forall n s m, declares p n s -> In m (s_members s) -> declared_type p (v_type m);
  tk_enums : forall n e, In (n, e) (p_enums p) -> In (e_encoding e) base_types /\ e_values e <> [];
  tk_list : In (p_list_size_type p) base_types;
  tk_string : In (p_string_size_type p) base_types;
  tk_simple : forall t, known_type p t -> is_simple p t = true -> good (get_size_of p t);
  tk_variable : forall t, declared_type p t -> is_simple p t = false -> t <> "string" ->
                exists s, get_struct p t = Ret s /\ In (t, s) (p_structs p);
  tk_message : forall n s, declares p n s -> s_is_message s = true -> In n (map fst (p_messages p));
  tk_fixed : forall n s m, declares p n s -> is_simple p n = true -> In m (s_members s) -> is_simple p (v_type m) = true;
  tk_fits : forall t, fits_any p (depth_of p) t = true;
  tk_ranked : forall d t s, declares p t s -> fits_any p d t = true ->
              exists d', d = S d' /\ forall m, In m (s_members s) -> fits_any p d' (v_type m) = true }.

Lemma WF_text_ok p : WF p -> text_ok p.
Proof.
  intro W; constructor.
  - intros n s [D|D]; [apply (wf_struct_entry p W n s D)|apply (wf_message_entry p W n s D)].
  - intros n s m; apply (wf_member_types p W).
  - intros n e I; split; [ |apply (wf_enum_values p W n e I)].
    destruct (wf_enum_encoding p W n e I) as [[-> _]|[[-> _]|[-> _]]]; cbn; tauto.
  - apply integral_base, (wf_list_size p W).
  - apply integral_base, (wf_string_size p W).
  - intros t K S; unfold is_simple in S; unfold get_size_of.
    destruct (simple_type_ok p (depth_of p) t W K (WF_fits_any p t W)) as [[_ (z & -> & _)]|[E _]]; [apply good_ret| ].
    rewrite E in S; discriminate.
  - intros t K S N.
    destruct (known_cases p t W (or_introl K)) as [(k & L & _)|[->|[(e & L & L1 & L2 & _)|(s & D & L & _)]]].
    + exfalso; revert S; unfold is_simple, depth_of; cbn [simple_type]; rewrite (mem_lookup_some _ _ _ L); discriminate.
    + congruence.
    + exfalso; revert S; unfold is_simple, depth_of; cbn [simple_type].
      rewrite (mem_lookup_none _ _ L1), L2, (mem_lookup_some _ _ _ L); discriminate.
    + destruct L as [L|[L M]].
      * exists s; unfold get_struct, item; rewrite L; split; [reflexivity|now apply lookup_In].
      * exfalso; eapply (declared_not_message p t W); [exact K| ]; exists s; now apply lookup_In.
  - intros n s [D|D] M; [destruct (wf_struct_entry p W n s D); congruence| ].
    apply in_map_iff; exists (n, s); auto.
  - intros n s m D S I.
    assert (K : known_type p n) by (destruct D as [D|D]; [left; right; right; left|right]; now exists s).
    pose proof (is_simple_fixed p n W K S) as F; inversion F as [? ? B|? e ? E _|? s' ? D' FM]; subst.
    + exfalso; apply base_size_In in B; destruct D as [D|D].
      * destruct (declared_struct_or p n W) as (X & _); [now exists s|contradiction].
      * destruct (declared_message_or p n W) as (X & _); [now exists s|contradiction].
    + exfalso; destruct D as [D|D].
      * destruct (declared_struct_or p n W) as (_ & _ & X); [now exists s|apply X; now exists e].
      * destruct (declared_message_or p n W) as (_ & _ & _ & X); [now exists s|apply X; now exists e].
    + rewrite (declares_unique p n s s' W D D') in *.
      assert (KM : known_type p (v_type m)) by (left; exact (wf_member_types p W n s' m D' I)).
      assert (FX : exists z, fixed_size p (v_type m) z).
      { clear - FM I; induction FM as [ |m' ms a b L H _ IH]; [destruct I|destruct I as [<-|I]; [eauto|auto]]. }
      destruct FX as [z FX]; exact (fixed_is_simple p (v_type m) z W KM FX).
  - intro t; apply (WF_fits_any p t W).
  - intros d t s; apply fits_any_members; exact W.
Qed.

(** Renaming of members keeps all this. *)
Lemma lookup_renamed f (l : list (string * struct)) t :
  lookup t (map (fun ns => (fst ns, rename_struct f (snd ns))) l) = option_map (rename_struct f) (lookup t l).
Proof.
  induction l as [ |[n s] l IH]; cbn [map lookup fst snd option_map]; [reflexivity| ].
  destruct (String.eqb t n); [reflexivity|exact IH].
Qed.
Lemma depth_renamed f p : depth_of (rename_members f p) = depth_of p.
Proof. unfold depth_of; cbn; now rewrite map_length. Qed.
Lemma fits_renamed f p d : forall t, fits (rename_members f p) d t = fits p d t.
Proof.
  induction d as [ |d IH]; intro t; cbn [fits]; cbn [p_structs rename_members]; rewrite lookup_renamed;
    destruct (lookup t (p_structs p)) as [s| ]; cbn [option_map]; try reflexivity.
  cbn [s_members rename_struct]; induction (s_members s) as [ |m ms IHm]; cbn [map forallb]; [reflexivity| ].
  rewrite IHm; cbn [v_type rename_var]; now rewrite IH.
Qed.
Lemma fits_any_renamed f p d t : fits_any (rename_members f p) d t = fits_any p d t.
Proof.
  unfold fits_any; cbn [p_structs p_messages rename_members]; rewrite !lookup_renamed.
  destruct (lookup t (p_structs p)) as [s| ]; cbn [option_map]; [apply fits_renamed| ].
  destruct (lookup t (p_messages p)) as [s| ]; cbn [option_map]; [ |reflexivity].
  destruct d as [ |d]; [reflexivity| ].
  cbn [s_members rename_struct]; induction (s_members s) as [ |m ms IHm]; cbn [map forallb]; [reflexivity| ].
  rewrite IHm; cbn [v_type rename_var]; now rewrite fits_renamed.
Qed.
Lemma simple_renamed f p d : forall t, simple_type (rename_members f p) d t = simple_type p d t.
Proof.
  assert (M : forall ms e, (forall t, simple_type (rename_members f p) e t = simple_type p e t) ->
     (fix all (ms : list var) : pyres bool :=
         match ms with
         | [] => Ret true
         | m :: r =>
             a <- (if v_list m then Ret false else simple_type (rename_members f p) e (v_type m)) ;;
             b <- all r ;;
             Ret (a && b)
         end) (map (rename_var f) ms) =
     (fix all (ms : list var) : pyres bool :=
         match ms with
         | [] => Ret true
         | m :: r =>
             a <- (if v_list m then Ret false else simple_type p e (v_type m)) ;;
             b <- all r ;;
             Ret (a && b)
         end) ms).
  { intros ms e H; induction ms as [ |m ms IH]; cbn [map]; [reflexivity| ].
    cbn [v_list v_type rename_var]; now rewrite IH, H. }
  induction d as [ |d IH]; intro t; cbn [simple_type]; cbn [p_enums p_structs p_messages rename_members];
    rewrite !lookup_renamed;
    destruct (mem t NUMERIC_TYPE_SIZES); try reflexivity;
    destruct (String.eqb t "string"); try reflexivity;
    destruct (mem t (p_enums p)); try reflexivity;
    destruct (lookup t (p_structs p)) as [s| ]; cbn [option_map]; try reflexivity;
    try (destruct (lookup t (p_messages p)) as [s| ]; cbn [option_map]; try reflexivity);
    cbn [s_members rename_struct]; now apply M.
Qed.
Lemma size_renamed f p d : forall t, size_of_type (rename_members f p) d t = size_of_type p d t.
Proof.
  assert (M : forall ms e, (forall t, size_of_type (rename_members f p) e t = size_of_type p e t) ->
     (fix sum (ms : list var) : pyres Z :=
         match ms with
         | [] => Ret 0
         | m :: r =>
             if v_list m then Raise NotImplementedError
             else a <- size_of_type (rename_members f p) e (v_type m) ;; b <- sum r ;; Ret (a + b)
         end) (map (rename_var f) ms) =
     (fix sum (ms : list var) : pyres Z :=
         match ms with
         | [] => Ret 0
         | m :: r =>
             if v_list m then Raise NotImplementedError
             else a <- size_of_type p e (v_type m) ;; b <- sum r ;; Ret (a + b)
         end) ms).
  { intros ms e H; induction ms as [ |m ms IH]; cbn [map]; [reflexivity| ].
    cbn [v_list v_type rename_var]; now rewrite IH, H. }
  induction d as [ |d IH]; intro t; cbn [size_of_type]; cbn [p_enums p_structs p_messages rename_members];
    rewrite !lookup_renamed;
    destruct (lookup t NUMERIC_TYPE_SIZES); try reflexivity;
    destruct (lookup t (p_enums p)); try reflexivity;
    destruct (String.eqb t "string"); try reflexivity;
    destruct (lookup t (p_structs p)) as [s| ]; cbn [option_map]; try reflexivity;
    try (destruct (lookup t (p_messages p)) as [s| ]; cbn [option_map]; try reflexivity);
    cbn [s_members rename_struct]; now apply M.
Qed.
Lemma is_simple_renamed f p t : is_simple (rename_members f p) t = is_simple p t.
Proof. unfold is_simple; now rewrite depth_renamed, simple_renamed. Qed.
Lemma get_size_renamed f p t : get_size_of (rename_members f p) t = get_size_of p t.
Proof. unfold get_size_of; now rewrite depth_renamed, size_renamed. Qed.

Lemma text_ok_renamed f p : text_ok p -> text_ok (rename_members f p).
Proof.
  intro W; constructor.
  - intros n s D; apply rename_declares in D as (s0 & D & ->); exact (tk_name p W n s0 D).
  - intros n s m D I; apply rename_declares in D as (s0 & D & ->).
    cbn [s_members rename_struct] in I; apply in_map_iff in I as (m0 & <- & I).
    apply rename_declared_type; exact (tk_types p W n s0 m0 D I).
  - exact (tk_enums p W).
  - exact (tk_list p W).
  - exact (tk_string p W).
  - intros t K S; rewrite get_size_renamed; rewrite is_simple_renamed in S; apply (tk_simple p W); [ |exact S].
    destruct K as [K|K]; [left; exact (proj1 (rename_declared_type f p t) K)|right; exact (proj1 (rename_is_message f p t) K)].
  - intros t K S N; rewrite is_simple_renamed in S; apply (rename_declared_type f p t) in K.
    destruct (tk_variable p W t K S N) as (s & G & I); exists (rename_struct f s).
    unfold get_struct, item in *; cbn [p_structs rename_members]; rewrite lookup_renamed.
    destruct (lookup t (p_structs p)) as [s0| ]; [ |discriminate]; injection G as ->; split; [reflexivity| ].
    apply In_rename; eauto.
  - intros n s D M; apply rename_declares in D as (s0 & D & ->); cbn [p_messages rename_members].
    rewrite rename_names; exact (tk_message p W n s0 D M).
  - intros n s m D S I; apply rename_declares in D as (s0 & D & ->); rewrite is_simple_renamed in *.
    cbn [s_members rename_struct] in I; apply in_map_iff in I as (m0 & <- & I); exact (tk_fixed p W n s0 m0 D S I).
  - intro t; rewrite depth_renamed, fits_any_renamed; apply (tk_fits p W).
  - intros d t s D F; apply rename_declares in D as (s0 & D & ->); rewrite fits_any_renamed in F.
    destruct (tk_ranked p W d t s0 D F) as (d' & -> & H); exists d'; split; [reflexivity| ].
    intros m I; cbn [s_members rename_struct] in I; apply in_map_iff in I as (m0 & <- & I).
    rewrite fits_any_renamed; exact (H m0 I).
Qed.

Section Facts.
Variable p : protocol.
Hypothesis T : text_ok p.

Lemma good_mapping more t : covers more = true -> declared_type p t -> good (mapping p more t).
Proof.
  intros C D; unfold mapping; destruct (lookup t more) eqn:L; [apply good_ret| ].
  destruct (String.eqb t "string") eqn:E; [apply good_ret| ].
  destruct (in_strs t (declared_names p)) eqn:I; [apply good_ret|exfalso].
  destruct D as [B|[->|D]].
  - apply (covers_mem _ _ C) in B; unfold mem in B; rewrite L in B; discriminate.
  - discriminate.
  - assert (X : in_strs t (declared_names p) = true); [ |congruence].
    apply in_strs_true; unfold declared_names; rewrite !in_app_iff.
    destruct D as [[s D]|[e D]]; [left|right; right]; apply in_map_iff; eexists; split; [ |exact D| |exact D]; reflexivity.
Qed.
Lemma good_mapping_base more t : covers more = true -> In t base_types -> good (mapping p more t).
Proof. intros C B; apply good_mapping; [exact C|now left]. Qed.
Lemma good_mapping_name more t s : declares p t s -> good (mapping p more t).
Proof.
  intros D; unfold mapping; destruct (lookup t more) eqn:L; [apply good_ret| ].
  destruct (String.eqb t "string") eqn:E; [apply good_ret| ].
  destruct (in_strs t (declared_names p)) eqn:I; [apply good_ret|exfalso].
  assert (X : in_strs t (declared_names p) = true); [ |congruence].
  apply in_strs_true; unfold declared_names; rewrite !in_app_iff.
  destruct D as [D|D]; [left|right; left]; apply in_map_iff; eexists; split; [ |exact D| |exact D]; reflexivity.
Qed.

Lemma declared_names_struct t s : In (t, s) (p_structs p) -> declares p t s.
Proof. now left. Qed.
Lemma declared_names_message t s : In (t, s) (p_messages p) -> declares p t s.
Proof. now right. Qed.

Lemma good_position x l : In x l -> good (position x l).
Proof.
  induction l as [ |y l IH]; intro I; [destruct I|cbn [position]].
  destruct (String.eqb y x) eqn:E; [apply good_ret| ].
  destruct I as [->|I]; [rewrite String.eqb_refl in E; discriminate| ].
  apply good_bind; [auto|intros; apply good_ret].
Qed.
Lemma good_message_position n s : declares p n s -> s_is_message s = true -> good (position n (map fst (p_messages p))).
Proof. intros D M; exact (good_position _ _ (tk_message p T n s D M)). Qed.
Lemma known_declares n s : declares p n s -> known_type p n.
Proof. intros [D|D]; [left; right; right; left|right]; now exists s. Qed.
Lemma good_struct_size n s : declares p n s -> is_simple p n = true -> good (get_size_of p n).
Proof. intros D S; apply (tk_simple p T); [eapply known_declares; eassumption|exact S]. Qed.
Lemma good_member_size m : declared_type p (v_type m) -> is_simple p (v_type m) = true -> good (get_size_of p (v_type m)).
Proof. intros D S; apply (tk_simple p T); [now left|exact S]. Qed.
Lemma good_get_struct t : mem t (p_structs p) = true -> good (get_struct p t).
Proof. apply good_item. Qed.
Lemma get_struct_In t s : get_struct p t = Ret s -> In (t, s) (p_structs p).
Proof.
  unfold get_struct, item; destruct (lookup t (p_structs p)) as [s'| ] eqn:L; [ |discriminate].
  intro E; injection E as ->; now apply lookup_In.
Qed.
(** What is no number, no string and no enum is a struct. *)
Lemma remaining_struct t : declared_type p t -> mem t NUMERIC_TYPE_SIZES = false -> String.eqb t "string" = false ->
  mem t (p_enums p) = false -> exists s, get_struct p t = Ret s /\ In (t, s) (p_structs p).
Proof.
  intros [B|[->|[[s S]|[e E]]]] M N Q.
  - rewrite (base_mem t B) in M; discriminate.
  - discriminate.
  - assert (X : In t (map fst (p_structs p))) by (apply in_map_iff; exists (t, s); auto).
    apply lookup_some_iff in X as [s' L]; exists s'; unfold get_struct, item; rewrite L.
    split; [reflexivity|now apply lookup_In].
  - exfalso; assert (X : In t (map fst (p_enums p))) by (apply in_map_iff; exists (t, e); auto).
    apply lookup_some_iff in X as [e' L]; unfold mem in Q; rewrite L in Q; discriminate.
Qed.

(** The enum that a member has. *)
Definition fine_enum (e : enum) : Prop := In (e_encoding e) base_types /\ e_values e <> [].
Lemma get_enum_fine t e : get_enum p t = Ret e -> fine_enum e.
Proof.
  unfold get_enum, item; destruct (lookup t (p_enums p)) as [e'| ] eqn:L; [ |discriminate].
  intro E; injection E as ->; apply lookup_In in L; exact (tk_enums p T t e L).
Qed.
Lemma good_get_enum t : mem t (p_enums p) = true -> good (get_enum p t).
Proof. apply good_item. Qed.
Lemma fine_encoding e : fine_enum e -> In (e_encoding e) base_types.
Proof. now intros [H _]. Qed.
Lemma default_some e : fine_enum e -> get_default_pair e <> None.
Proof. intros [_ N]; unfold get_default_pair; destruct (e_values e); [congruence|discriminate]. Qed.
Lemma good_default_name e : fine_enum e -> good (default_name e).
Proof. intro F; apply good_bind; [now apply good_of_option, default_some|intros; apply good_ret]. Qed.
Lemma good_default_value e : fine_enum e -> good (default_value e).
Proof. intro F; apply good_bind; [now apply good_of_option, default_some|intros; apply good_ret]. Qed.
Lemma minimum_some e : fine_enum e -> get_minimum_pair e <> None.
Proof. intros [_ N]; unfold get_minimum_pair; destruct (e_values e) as [ |x r]; [congruence|cbn [min_pair]; destruct (min_pair r); [destruct (Z.leb _ _)| ]; discriminate]. Qed.
Lemma good_minimum_value e : fine_enum e -> good (minimum_value e).
Proof. intro F; apply good_bind; [now apply good_of_option, minimum_some|intros; apply good_ret]. Qed.
Lemma good_minimum_name e : fine_enum e -> good (minimum_name e).
Proof. intro F; apply good_bind; [now apply good_of_option, minimum_some|intros; apply good_ret]. Qed.
End Facts.

(** ** Tactics *)

#[export] Hint Resolve good_item good_lit good_ret good_str good_numeric good_default_name good_default_value good_minimum_value
  Z.le_refl good_minimum_name fine_encoding mem_base tk_list tk_string tk_types tk_name good_get_enum measured_good
  good_message_position good_struct_size good_member_size good_get_struct declared_names_struct declared_names_message : text.

Ltac good :=
  lazymatch goal with
  | |- good (lit _) => apply good_lit
  | |- good (Ret _) => apply good_ret
  | |- good (pcat _ _) => apply good_cat; good
  | |- good (str_of _) => apply good_str; good
  | |- good (if ?b then _ else _) => let H := fresh "B" in destruct b eqn:H; good
  | |- good (match ?x with Some _ => _ | None => _ end) => let H := fresh "O" in destruct x eqn:H; good
  | |- good (pbind (get_enum ?p ?t) _) =>
      let e := fresh "e" in let H := fresh "G" in
      apply good_bind; [good|intros e H; first [apply (get_enum_fine p) in H; [ |assumption]]; good]
  | |- good (pbind _ _) => let H := fresh "G" in apply good_bind; [good|intros ? H; good]
  | |- good (let (_, _) := ?x in _) => destruct x; good
  | |- _ => eauto 6 with text
  end.

Ltac level := vm_compute; discriminate.
Ltac known_if b :=
  match goal with
  | H : b = true |- _ => rewrite H
  | H : b = false |- _ => rewrite H
  end.
(** For what a language has besides. *)
Ltac run_more := fail.
Ltac run :=
  cbv beta zeta;
  lazymatch goal with
  | |- runs _ (block []) _ _ => apply runs_nil
  | |- runs _ (block (_ :: _)) _ _ => eapply runs_cons; [run|run]
  | |- runs _ skip _ _ => apply runs_skip
  | |- runs _ (line _) _ _ => apply runs_line; [level|good]
  | |- runs _ blank _ _ => apply runs_line; [level|good]
  | |- runs _ indent ?k _ => let v := eval vm_compute in (k + 1) in apply (runs_indent _ k v eq_refl)
  | |- runs _ dedent ?k _ => let v := eval vm_compute in (k - 1) in apply (runs_dedent _ k v eq_refl)
  | |- runs _ check_level _ _ => apply runs_check; reflexivity
  | |- runs _ (when true _) _ _ => cbn [when]; run
  | |- runs _ (when false _) _ _ => cbn [when]; run
  | |- runs _ (when ?b _) _ _ =>
      first [known_if b; cbn [when]; run
            |let H := fresh "B" in apply runs_when; intro H; run]
  | |- runs _ (if true then _ else _) _ _ => cbv iota; run
  | |- runs _ (if false then _ else _) _ _ => cbv iota; run
  | |- runs _ (if ?b then _ else _) _ _ =>
      first [known_if b; run
            |let H := fresh "B" in apply runs_if; intro H; run]
  | |- runs _ (each _ _) _ _ => let x := fresh "x" in let I := fresh "I" in apply runs_each; intros x I; run
  | |- runs _ (given (get_enum ?p ?t) _) _ _ =>
      let e := fresh "e" in let H := fresh "G" in
      apply runs_given; [good|intros e H; apply (get_enum_fine p) in H; [ |assumption]; run]
  | |- runs _ (given _ _) _ _ => let a := fresh "a" in let H := fresh "G" in apply runs_given; [good|intros a H; run]
  | |- runs _ (let (_, _) := ?x in _) _ _ => destruct x; run
  | |- runs _ (match ?x with Some _ => _ | None => _ end) _ _ => let H := fresh "O" in destruct x eqn:H; run
  | |- runs _ (at_level _) _ _ => let z := fresh "z" in apply runs_at; intro z; run
  | |- runs _ (add_boilerplate _ _ _ _) _ _ => apply runs_boilerplate; level
  | |- _ => first [run_more; run
                  |solve [eauto 6 with text]
                  |solve [apply runs_deeper; [first [assumption|apply Z.le_refl]|level|intros ? ?; eauto 6 with text]]
                  |idtac]
  end.

(** The measuring functions: [T] is [text_ok p]; [R] the induction hypothesis for
    structs, [D] and [F] that the type is declared and its nesting bounded, [next] the
    induction hypothesis for the rest of the members. *)
Ltac measure_struct T R D F next :=
  match goal with
  | B : is_simple ?p ?t = false, B' : String.eqb ?t "string" = false |- _ =>
    let s := fresh "s" in let E := fresh "E" in let I := fresh "I" in let N := fresh "N" in
    destruct (tk_variable p T t D B) as (s & E & I); [let X := fresh in intro X; rewrite X in B'; discriminate| ];
    rewrite E; cbn [pbind];
    assert (N : s_name s = t) by (apply (tk_name p T); now left);
    apply measured_rec; [apply R; rewrite N; [now left|exact F]| ];
    let l := fresh "l" in let z := fresh "z" in let NL := fresh "NL" in let cl := fresh "cl" in
    intros l z NL; cbn [fst snd]; apply measured_bind; [now apply good_drop|intros cl _]
  end.
Ltac measure :=
  cbv beta zeta;
  lazymatch goal with
  | |- measured (Ret (_, _)) => apply measured_ret
  | |- measured (if ?b then _ else _) => let H := fresh "B" in destruct b eqn:H; measure
  | |- measured (pbind _ _) =>
      first [apply measured_bind; [solve [good]|let a := fresh "a" in let H := fresh "G" in intros a H; measure]
            |idtac]
  | |- _ => idtac
  end.
