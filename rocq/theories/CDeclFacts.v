(** The lines of generated C that declare types and their members. *)
From Verif Require Export CDeclSpec FieldFacts.
From Verif Require Import IndentFacts CTextFacts PropBoilerplateFacts.
Open Scope string_scope.
Open Scope Z_scope.
Open Scope list_scope.

(** ** Lines *)

Lemma c_looks_app n a ls r : c_looks n a (ls ++ r) =
  let (b, x) := c_looks n a ls in let (c, y) := c_looks n b r in (c, x ++ y).
Proof.
  revert a; induction ls as [ |l ls IH]; intro a; cbn [app c_looks]; [now destruct (c_looks n a r)| ].
  destruct (c_look n a l) as [b x]; rewrite IH; destruct (c_looks n b ls) as [c y].
  destruct (c_looks n c r) as [d z]; now rewrite app_assoc.
Qed.
Lemma c_looks_join n a b c ls r x y z : c_looks n a ls = (b, x) -> c_looks n b r = (c, y) -> z = x ++ y -> c_looks n a (ls ++ r) = (c, z).
Proof. now intros E F ->; rewrite c_looks_app, E, F. Qed.
Lemma c_looks_inner n ls : Forall (fun l => n + 1 <= fst l) ls -> c_looks n AtTop ls = (AtTop, []).
Proof.
  induction 1 as [ |l ls H F IH]; [reflexivity| ]; cbn [c_looks]; unfold c_look at 1.
  destruct (Z.eqb_spec (fst l) n); [lia|now rewrite IH].
Qed.

(** From level [n + k] to [n + k'], [x] prints lines that declare [N]; the reader goes
    from [a] to [b]. *)
Definition cwalks (n : Z) (x : gtext) (k k' : Z) (a b : c_place) (N : list c_part) : Prop :=
  exists ls, x (n + k) = Ret (ls, n + k') /\ c_looks n a ls = (b, N).

Lemma cwalks_nil n k a : cwalks n (block []) k k a a [].
Proof. exists []; split; reflexivity. Qed.
Lemma cwalks_cons n x r k k1 k2 a b c N1 N2 :
  cwalks n x k k1 a b N1 -> cwalks n (block r) k1 k2 b c N2 -> cwalks n (block (x :: r)) k k2 a c (N1 ++ N2).
Proof.
  intros (l1 & E1 & T1) (l2 & E2 & T2); exists (l1 ++ l2).
  change (block (x :: r)) with (andthen x (block r)); unfold andthen; rewrite E1; cbn [pbind snd fst].
  rewrite E2; cbn [pbind fst snd]; split; [reflexivity| ].
  now rewrite c_looks_app, T1, T2.
Qed.
Lemma cwalks_look n t s r k k2 a b c M N : t = Ret s -> c_look n a (n + k, s) = (b, M) ->
  cwalks n (block r) k k2 b c N -> cwalks n (block (line t :: r)) k k2 a c (M ++ N).
Proof.
  intros -> E H; eapply cwalks_cons; [ |exact H].
  exists [(n + k, s)]; split; [reflexivity| ]; cbn [c_looks]; rewrite E; now rewrite app_nil_r.
Qed.
Lemma cwalks_outer n t r k k2 c N : good t -> (k =? 0) = false ->
  cwalks n (block r) k k2 AtTop c N -> cwalks n (block (line t :: r)) k k2 AtTop c N.
Proof.
  intros [s E] K H; apply Z.eqb_neq in K; change N with ([] ++ N); eapply cwalks_look; [exact E| |exact H].
  unfold c_look; cbn [fst snd]; destruct (Z.eqb_spec (n + k) n); [lia|reflexivity].
Qed.
Lemma cwalks_indent n r k k1 k2 a c N : k + 1 = k1 ->
  cwalks n (block r) k1 k2 a c N -> cwalks n (block (indent :: r)) k k2 a c N.
Proof.
  intros <- H; change N with ([] ++ N); eapply cwalks_cons; [ |exact H].
  exists []; split; [unfold indent; do 2 f_equal; lia|reflexivity].
Qed.
Lemma cwalks_dedent n r k k1 k2 a c N : k - 1 = k1 ->
  cwalks n (block r) k1 k2 a c N -> cwalks n (block (dedent :: r)) k k2 a c N.
Proof.
  intros <- H; change N with ([] ++ N); eapply cwalks_cons; [ |exact H].
  exists []; split; [unfold dedent; do 2 f_equal; lia|reflexivity].
Qed.
Lemma cwalks_check n r k k2 a c N : n + k = 0 ->
  cwalks n (block r) k k2 a c N -> cwalks n (block (check_level :: r)) k k2 a c N.
Proof.
  intros E H; change N with ([] ++ N); eapply cwalks_cons; [ |exact H].
  exists []; unfold check_level; rewrite E; split; reflexivity.
Qed.
Lemma cwalks_skip n r k k2 a c N : cwalks n (block r) k k2 a c N -> cwalks n (block (skip :: r)) k k2 a c N.
Proof. intro H; change N with ([] ++ N); eapply cwalks_cons; [ |exact H]; exists []; split; reflexivity. Qed.
Lemma cwalks_inside n x r j j1 k2 c N : runs (n + 1) x j j1 ->
  cwalks n (block r) (1 + j1) k2 AtTop c N -> cwalks n (block (x :: r)) (1 + j) k2 AtTop c N.
Proof.
  intros (ls & E & F) H; change N with ([] ++ N); eapply cwalks_cons; [ |exact H].
  exists ls; split; [rewrite !Z.add_assoc; exact E|now apply c_looks_inner].
Qed.
Lemma cwalks_flat n l r k k2 a c N : cwalks n (block (l ++ r)) k k2 a c N -> cwalks n (block (block l :: r)) k k2 a c N.
Proof.
  revert k k2 a c N; induction l as [ |x l IH]; intros k k2 a c N H; [now apply cwalks_skip| ].
  destruct H as (ls & E & T).
  change (andthen x (block (l ++ r)) (n + k) = Ret (ls, n + k2)) in E.
  apply andthen_ret in E as (l1 & k1 & l2 & Ea & E & ->).
  rewrite c_looks_app in T; destruct (c_looks n a l1) as [b y] eqn:R1;
    destruct (c_looks n b l2) as [d m] eqn:R2.
  injection T as -> <-.
  destruct (IH (k1 - n) k2 b c m) as (l3 & E3 & T3);
    [exists l2; split; [replace (n + (k1 - n)) with k1 by lia; exact E|exact R2]| ].
  replace (n + (k1 - n)) with k1 in E3 by lia.
  change (andthen (block l) (block r) k1 = Ret (l3, n + k2)) in E3.
  apply andthen_ret in E3 as (l4 & k4 & l5 & E4 & E5 & ->).
  exists (l1 ++ l4 ++ l5); split; [ |now rewrite c_looks_app, R1, T3].
  change (andthen (andthen x (block l)) (block r) (n + k) = Ret (l1 ++ l4 ++ l5, n + k2)).
  apply andthen_ret; exists (l1 ++ l4), k4, l5; split; [ |split; [exact E5|apply app_assoc]].
  apply andthen_ret; exists l1, k1, l4; auto.
Qed.
Lemma cwalks_given {A} n (m : pyres A) f r k k2 a c N : good m ->
  (forall x, m = Ret x -> cwalks n (block (f x :: r)) k k2 a c N) -> cwalks n (block (given m f :: r)) k k2 a c N.
Proof.
  intros [x E] H; destruct (H x E) as (ls & E1 & T); exists ls; split; [ |exact T].
  change (andthen (f x) (block r) (n + k) = Ret (ls, n + k2)) in E1.
  change (andthen (given m f) (block r) (n + k) = Ret (ls, n + k2)).
  unfold andthen, given in *; now rewrite E.
Qed.
Lemma cwalks_each {A} n (l : list A) f names k a :
  (forall x, In x l -> cwalks n (f x) k k a a (names x)) -> cwalks n (each l f) k k a a (flat_map names l).
Proof.
  unfold each; induction l as [ |x l IH]; intro H; cbn [map flat_map]; [apply cwalks_nil| ].
  eapply cwalks_cons; [apply H; now left|apply IH; intros y I; apply H; now right].
Qed.
Lemma cwalks_given_one {A} n (m : pyres A) f k k2 a c N : good m ->
  (forall x, m = Ret x -> cwalks n (f x) k k2 a c N) -> cwalks n (given m f) k k2 a c N.
Proof.
  intros [x E] H; destruct (H x E) as (ls & E1 & T); exists ls; split; [ |exact T].
  unfold given; now rewrite E.
Qed.
Lemma cwalks_eq n x k k' a b N N' : cwalks n x k k' a b N -> N = N' -> cwalks n x k k' a b N'.
Proof. now intros H <-. Qed.
Lemma cwalks_same n x y k k' a b N : cwalks n x k k' a b N -> (forall j, x j = y j) -> cwalks n y k k' a b N.
Proof. intros (ls & E & T) H; exists ls; split; [now rewrite <- H|exact T]. Qed.

Lemma cwalks_entries {A} n (l : list (string * A)) f names k a :
  (forall t x, In (t, x) l -> cwalks n (f (t, x)) k k a a (names (t, x))) ->
  cwalks n (each l f) k k a a (flat_map names l).
Proof. intro H; apply cwalks_each; intros [t x] I; now apply H. Qed.
Lemma cwalks_no_entries {A} n (l : list (string * A)) f k a :
  (forall t x, In (t, x) l -> cwalks n (f (t, x)) k k a a []) -> cwalks n (each l f) k k a a [].
Proof.
  intro H; eapply cwalks_eq; [apply (cwalks_entries _ _ _ (fun _ => [])); exact H|clear; induction l as [ |x l IH]; [reflexivity|exact IH]].
Qed.

(** The lines at the top. *)
Lemma cwalks_top n t s r k2 b c M N : t = Ret s -> c_opens s = (b, M) ->
  cwalks n (block r) 0 k2 b c N -> cwalks n (block (line t :: r)) 0 k2 AtTop c (M ++ N).
Proof.
  intros E O H; eapply cwalks_look; [exact E| |exact H]; unfold c_look; cbn [fst snd].
  now rewrite Z.add_0_r, Z.eqb_refl.
Qed.
Lemma cwalks_quiet n t s r k2 c N : t = Ret s -> rest_after "typedef " s = None ->
  cwalks n (block r) 0 k2 AtTop c N -> cwalks n (block (line t :: r)) 0 k2 AtTop c N.
Proof. intros E O H; change N with ([] ++ N); eapply cwalks_top; [exact E| |exact H]; unfold c_opens; now rewrite O. Qed.
Lemma cwalks_close n t s r k2 a c N name : t = Ret s -> a <> AtTop -> c_closes s = Some name ->
  cwalks n (block r) 0 k2 AtTop c N -> cwalks n (block (line t :: r)) 0 k2 a c (CType name :: N).
Proof.
  intros E A O H; change (CType name :: N) with ([CType name] ++ N); eapply cwalks_look; [exact E| |exact H].
  unfold c_look; cbn [fst snd]; rewrite Z.add_0_r, Z.eqb_refl, O; destruct a; [congruence|reflexivity|reflexivity].
Qed.
Lemma cwalks_member n t s r k k2 c N : t = Ret s -> (k =? 0) = false ->
  cwalks n (block r) k k2 InStruct c N -> cwalks n (block (line t :: r)) k k2 InStruct c (CMember (without_blanks s) :: N).
Proof.
  intros E K H; apply Z.eqb_neq in K; change (CMember (without_blanks s) :: N) with ([CMember (without_blanks s)] ++ N).
  eapply cwalks_look; [exact E| |exact H]; unfold c_look; cbn [fst snd]; destruct (Z.eqb_spec (n + k) n); [lia|reflexivity].
Qed.
Lemma c_looks_enum n ls : Forall (fun l => n + 1 <= fst l) ls -> c_looks n InEnum ls = (InEnum, []).
Proof.
  induction 1 as [ |l ls H F IH]; [reflexivity| ]; cbn [c_looks]; unfold c_look at 1.
  destruct (Z.eqb_spec (fst l) n); [lia|now rewrite IH].
Qed.
Lemma cwalks_values n x r j j1 k2 c N : runs (n + 1) x j j1 ->
  cwalks n (block r) (1 + j1) k2 InEnum c N -> cwalks n (block (x :: r)) (1 + j) k2 InEnum c N.
Proof.
  intros (ls & E & F) H; change N with ([] ++ N); eapply cwalks_cons; [ |exact H].
  exists ls; split; [rewrite !Z.add_assoc; exact E|now apply c_looks_enum].
Qed.

(** ** Names *)

Lemma word_spaceless w : word w = true -> spaceless w.
Proof.
  unfold spaceless; induction w as [ |c w IH]; cbn [word to_space]; [reflexivity| ].
  rewrite andb_true_iff; intros [C W]; destruct (Ascii.eqb_spec c " ") as [->|_]; [discriminate C|now rewrite IH].
Qed.
Lemma word_unblank w r : word w = true -> w <> "" -> without_blanks (w +++ r) = w +++ r.
Proof.
  destruct w as [ |c w]; [congruence| ]; cbn [word]; rewrite andb_true_iff; intros [C _] _; cbn [String.append without_blanks].
  unfold blank_char; destruct (Ascii.eqb_spec c " ") as [->|_]; [discriminate C| ].
  destruct (Ascii.eqb_spec c "009") as [->|_]; [discriminate C|reflexivity].
Qed.
(** An underscore where the pattern has none. *)
Lemma rest_after_word i w r : word w = true -> word i = true -> has_char "_" i = false ->
  rest_after (i +++ " ") (w +++ String "_" r) = None.
Proof.
  revert w; induction i as [ |a i IH]; intros w W V H; cbn [String.append].
  - destruct w as [ |c w]; [reflexivity| ]; cbn [String.append rest_after].
    destruct (Ascii.eqb_spec " " c) as [<-|_]; [discriminate W|reflexivity].
  - cbn [has_char] in H; destruct (Ascii.eqb_spec "_" a) as [<-|A]; [discriminate H| ].
    cbn [word] in V; apply andb_true_iff in V as [_ V].
    destruct w as [ |c w]; cbn [String.append rest_after].
    + destruct (Ascii.eqb_spec a "_"); [congruence|reflexivity].
    + cbn [word] in W; apply andb_true_iff in W as [_ W]; destruct (Ascii.eqb a c); [now apply IH|reflexivity].
Qed.
Lemma quiet_word w r : word w = true -> rest_after "typedef " (w +++ String "_" r) = None.
Proof. intro W; now apply (rest_after_word "typedef"). Qed.

(** ** Boilerplate *)

Lemma c_look_indented n native tab a l :
  blanks native = true -> native <> "" -> blanks tab = true -> tab <> "" ->
  c_look n a (n + 0, replace_indent native tab l) = c_look n a (n + 0, l).
Proof.
  intros Bn Nn Bt Nt; destruct (replace_indent_spec native tab l Nn) as (k & r & -> & _ & ->).
  destruct k as [ |k]; [reflexivity| ].
  assert (X : forall t, blanks t = true -> t <> "" -> exists c b, repeat_str (Datatypes.S k) t = String c b /\ blank_char c = true /\ blanks b = true).
  { clear; intros t B N; destruct t as [ |c t]; [congruence| ]; cbn [repeat_str String.append].
    pose proof (blanks_repeat (Datatypes.S k) (String c t) B) as Y; cbn [repeat_str String.append blanks] in Y.
    apply andb_true_iff in Y as [Y1 Y2]; eauto. }
  destruct (X native Bn Nn) as (c & b & -> & C & B); destruct (X tab Bt Nt) as (c' & b' & -> & C' & B').
  assert (Z : forall c b, blank_char c = true -> c_opens (String c b +++ r) = (AtTop, []) /\ c_closes (String c b +++ r) = None).
  { clear; intros c b C; revert C; unfold blank_char; rewrite orb_true_iff, !Ascii.eqb_eq; intros [->| ->]; split; reflexivity. }
  destruct (Z c b C) as [Z1 Z2]; destruct (Z c' b' C') as [Z3 Z4].
  unfold c_look; cbn [fst snd]; rewrite Z.add_0_r, Z.eqb_refl, Z1, Z2, Z3, Z4.
  rewrite !without_blanks_app; [reflexivity|cbn [blanks]; now rewrite C|cbn [blanks]; now rewrite C'].
Qed.
Lemma cwalks_boilerplate n native tab subs file r k2 a b c M N :
  blanks native = true -> native <> "" -> blanks tab = true -> tab <> "" ->
  c_looks 0 a (map (fun l => (0, l)) (fold_left substitute subs file)) = (b, M) ->
  cwalks n (block r) 0 k2 b c N ->
  cwalks n (block (add_boilerplate native tab subs file :: r)) 0 k2 a c (M ++ N).
Proof.
  intros Bn Nn Bt Nt E H; eapply cwalks_cons; [ |exact H].
  eexists; split; [apply each_lines| ]; unfold boilerplate_lines.
  clear H; revert a b M E; generalize (fold_left substitute subs file) as ls; induction ls as [ |l ls IH]; intros a b M E; [exact E| ].
  cbn [map c_looks] in *; rewrite c_look_indented by assumption.
  replace (c_look n a (n + 0, l)) with (c_look 0 a (0, l)).
  - destruct (c_look 0 a (0, l)) as [d x]; destruct (c_looks 0 d (map (fun l => (0, l)) ls)) as [e y] eqn:Y.
    rewrite (IH d e y Y); exact E.
  - unfold c_look; cbn [fst snd]; now rewrite Z.add_0_r, !Z.eqb_refl.
Qed.

(** Lines that open nothing. *)
Definition calm (marks : list string) (l : string) : bool :=
  (in_strs "beschi" marks && starts_with "beschi_" l) ||
  match l with
  | EmptyString => true
  | String c r => forallb (fun m => negb (starts_with m l)) marks && negb (Ascii.eqb c "t")
  end.
Lemma calm_quiet o more l : (forall ns, o = Some ns -> word ns = true) -> forallb (starts_with "{") (map fst more) = true ->
  calm (map fst (ns_marks o ++ more)) l = true -> rest_after "typedef " (once (ns_marks o ++ more) 0 l) = None.
Proof.
  intros W B C; unfold calm in C; apply orb_true_iff in C as [C|C].
  - apply andb_true_iff in C as [I S]; destruct o as [ns| ].
    2:{ exfalso; cbn [ns_marks app] in I; apply in_strs_true in I; rewrite forallb_forall in B; discriminate (B _ I). }
    apply starts_with_iff in S as [t ->]; set (subs := ns_marks (Some ns) ++ more).
    change (once subs 0 ("beschi_" +++ t)) with (ns +++ once subs 0 ("_" +++ t)).
    replace (once subs 0 ("_" +++ t)) with (String "_" (once subs 0 t)); [apply quiet_word, (W ns eq_refl)| ].
    cbn [String.append once]; replace (find _ subs) with (@None (string * string)); [reflexivity| ]; symmetry.
    unfold subs; cbn [ns_marks app find fst starts_with Ascii.eqb Bool.eqb andb].
    clear - B; induction more as [ |[x y] more IH]; [reflexivity| ]; cbn [map fst forallb find] in *.
    apply andb_true_iff in B as [B1 B]; destruct x as [ |d x]; [discriminate| ]; cbn [starts_with] in *.
    apply andb_true_iff in B1 as [D _]; apply Ascii.eqb_eq in D; subst d; cbn [Ascii.eqb Bool.eqb andb]; now apply IH.
  - destruct l as [ |c r]; [reflexivity| ]; apply andb_true_iff in C as [F T].
    set (subs := ns_marks o ++ more) in *; cbn [once].
    replace (find _ subs) with (@None (string * string)).
    + cbn [rest_after]; destruct (Ascii.eqb_spec "t" c) as [<-|_]; [discriminate T|reflexivity].
    + symmetry; clear T W B; clearbody subs; induction subs as [ |[x y] subs IH]; [reflexivity| ]; cbn [map fst forallb find] in *.
      apply andb_true_iff in F as [F1 F]; rewrite negb_true_iff in F1; rewrite F1; now apply IH.
Qed.
Lemma calm_lines subs ls : (forall l, In l ls -> rest_after "typedef " (once subs 0 l) = None) ->
  c_looks 0 AtTop (map (fun l => (0, l)) (map (once subs 0) ls)) = (AtTop, []).
Proof.
  induction ls as [ |l ls IH]; intro H; [reflexivity| ]; cbn [map c_looks]; unfold c_look at 1; cbn [fst snd].
  change (0 =? 0) with true; cbv iota; unfold c_opens; rewrite (H l (or_introl eq_refl)), IH; [reflexivity|intros; apply H; now right].
Qed.
Lemma once_replaced subs file : distinct subs -> forallb (unmixed [] (map fst subs)) file = true -> unnested file subs ->
  fold_left substitute (BoilerplateFacts.texts subs) file = map (once subs 0) file.
Proof.
  intros D U F; rewrite substitute_texts; apply map_ext_in; intros l I.
  apply (rewrites_unique subs D _ l (le_n _)); [ |apply (once_rewrites subs (proj2 D) _ l (le_n _))].
  apply (rewrites_table file l I subs [] l (rewrites_none l)); [intros []| |exact F].
  rewrite forallb_forall in U; apply (U l I).
Qed.

(** ** The file *)

Section Declarations.
Variable p : protocol.
Variable g : settings.
Hypothesis A : accepted p.
Hypothesis G : g_files g = c_files.
Hypothesis W : word_namespace g.
Hypothesis NB : forall ns, g_namespace g = Some ns -> ~ inside "BESCHI" ns.

Lemma word_brace w : word w = true -> has_char "{" w = false.
Proof.
  induction w as [ |c w IH]; cbn [word has_char]; [reflexivity| ]; rewrite andb_true_iff; intros [C V].
  destruct (Ascii.eqb_spec "{" c) as [<-|_]; [discriminate C|now apply IH].
Qed.
Lemma c_prefix_word : word (c_prefix g) = true.
Proof.
  unfold c_prefix; destruct (g_namespace g) as [ns| ] eqn:E; [ |reflexivity].
  apply word_app; [exact (W ns E)|reflexivity].
Qed.
Lemma c_prefix_some : c_prefix g <> "".
Proof. unfold c_prefix; destruct (g_namespace g) as [ns| ]; [destruct ns| ]; discriminate. Qed.
Lemma c_prefix_quiet r : rest_after "typedef " (c_prefix g +++ r) = None.
Proof.
  unfold c_prefix; destruct (g_namespace g) as [ns| ] eqn:E; [ |reflexivity].
  rewrite app_str_assoc; apply quiet_word, (W ns E).
Qed.

Definition c_marks_0 (size native : string) : list (string * string) :=
  ns_marks (g_namespace g) ++
  [("{# STRING_SIZE_TYPE #}", size); ("{# STRING_SIZE_TYPE_LOWER #}", lower size); ("{# STRING_SIZE_TYPE_NATIVE #}", native)].
Definition c_marks_1 (size : string) : list (string * string) :=
  ns_marks (g_namespace g) ++ [("{# STRING_SIZE_TYPE #}", size); ("{# STRING_SIZE_TYPE_LOWER #}", lower size)].

Lemma marks_free ns : g_namespace g = Some ns ->
  occurs "BESCHI" ns = false /\ (forall m, starts_with "{" m = true -> occurs m ns = false /\ occurs m (upper ns) = false).
Proof.
  intro E; split; [apply occurs_false, (NB ns E)| ].
  assert (H : has_char "{" ns = false) by apply word_brace, (W ns E).
  intros m M; split; apply brace_free; try exact M; [exact H|rewrite upper_brace; exact H].
Qed.
Ltac apart := split;
  [ intros a b t Ia Ib; cbn [ns_marks app In] in Ia, Ib; decompose [or] Ia; decompose [or] Ib; subst;
    cbn [fst String.append]; first [contradiction|reflexivity|discriminate]
  | cbn [ns_marks app map fst In]; intuition discriminate ].

Lemma c_file_0_lines size native : lookup (p_string_size_type p) c_serializers = Some size ->
  lookup (p_string_size_type p) (("string", "char*") :: c_types) = Some native ->
  fold_left substitute (ct_substitutions_0 g size native) c_file_0 = map (once (c_marks_0 size native) 0) c_file_0.
Proof.
  intros Z S.
  replace (ct_substitutions_0 g size native) with (BoilerplateFacts.texts (c_marks_0 size native))
    by (unfold ct_substitutions_0, ct_subs, c_marks_0; destruct (g_namespace g); reflexivity).
  apply once_replaced; unfold c_marks_0.
  - destruct (g_namespace g); apart.
  - destruct (g_namespace g); vm_compute; reflexivity.
  - pose proof marks_free as F; destruct (g_namespace g) as [ns| ]; cbn [ns_marks app];
      [destruct (F ns eq_refl) as [F1 F2]| ];
      pairs ltac:(first [exact F1|apply F2; reflexivity|name Z|lower_name Z]).
Qed.
Lemma c_file_1_lines size : lookup (p_string_size_type p) c_serializers = Some size ->
  fold_left substitute (ct_substitutions_1 g size) c_file_1 = map (once (c_marks_1 size) 0) c_file_1.
Proof.
  intros Z.
  replace (ct_substitutions_1 g size) with (BoilerplateFacts.texts (c_marks_1 size))
    by (unfold ct_substitutions_1, ct_subs, c_marks_1; destruct (g_namespace g); reflexivity).
  apply once_replaced; unfold c_marks_1.
  - destruct (g_namespace g); apart.
  - destruct (g_namespace g); vm_compute; reflexivity.
  - pose proof marks_free as F; destruct (g_namespace g) as [ns| ]; cbn [ns_marks app];
      [destruct (F ns eq_refl) as [F1 F2]| ];
      pairs ltac:(first [exact F1|apply F2; reflexivity|name Z|lower_name Z]).
Qed.
Lemma c_file_2_lines :
  fold_left substitute (ct_subs g) c_file_2 = map (once (ns_marks (g_namespace g)) 0) c_file_2.
Proof.
  replace (ct_subs g) with (BoilerplateFacts.texts (ns_marks (g_namespace g)))
    by (unfold ct_subs; destruct (g_namespace g); reflexivity).
  apply once_replaced.
  - destruct (g_namespace g); apart.
  - destruct (g_namespace g); vm_compute; reflexivity.
  - pose proof marks_free as F; destruct (g_namespace g) as [ns| ]; cbn [ns_marks app];
      [destruct (F ns eq_refl) as [F1 F2]| ];
      pairs ltac:(first [exact F1|apply F2; reflexivity]).
Qed.
Lemma calm_part more ls : forallb (starts_with "{") (map fst more) = true ->
  forallb (calm (map fst (ns_marks (g_namespace g) ++ more))) ls = true ->
  c_looks 0 AtTop (map (fun l => (0, l)) (map (once (ns_marks (g_namespace g) ++ more) 0) ls)) = (AtTop, []).
Proof.
  intros B F; apply calm_lines; intros l I; apply calm_quiet; [exact W|exact B| ].
  rewrite forallb_forall in F; now apply F.
Qed.
Lemma c_file_0_looks size native :
  c_looks 0 AtTop (map (fun l => (0, l)) (map (once (c_marks_0 size native) 0) c_file_0)) =
  (AtTop, [CType (c_prefix g +++ "err_t");
           CMember "uint8_t* buffer;"; CMember "size_t bufferSize;"; CMember "size_t position;";
           CType (c_prefix g +++ "DataAccess")]).
Proof.
  replace c_file_0 with (firstn 13 c_file_0 ++ ["typedef uint8_t beschi_err_t;"] ++ firstn 12 (skipn 14 c_file_0) ++
    ["typedef struct {"; "    uint8_t* buffer;"; "    size_t bufferSize;"; "    size_t position;"; "} beschi_DataAccess;"] ++
    skipn 31 c_file_0) by (vm_compute; reflexivity).
  unfold c_marks_0; rewrite !map_app.
  pose proof (before_app ";" (c_prefix g +++ "err_t")) as B1; pose proof (before_app ";" (c_prefix g +++ "DataAccess")) as B2.
  set (more := [("{# STRING_SIZE_TYPE #}", size); _; _]).
  eapply c_looks_join; [apply calm_part; [reflexivity|destruct (g_namespace g); vm_compute; reflexivity]| |reflexivity].
  eapply (c_looks_join _ _ AtTop _ _ _ [CType (c_prefix g +++ "err_t")]
    [CMember "uint8_t* buffer;"; CMember "size_t bufferSize;"; CMember "size_t position;"; CType (c_prefix g +++ "DataAccess")]); [ | |reflexivity].
  2:{ eapply c_looks_join; [apply calm_part; [reflexivity|destruct (g_namespace g); vm_compute; reflexivity]| |reflexivity].
      eapply (c_looks_join _ _ _ _ _ _ [CMember "uint8_t* buffer;"; CMember "size_t bufferSize;"; CMember "size_t position;"; CType (c_prefix g +++ "DataAccess")] []);
        [ |apply calm_part; [reflexivity|destruct (g_namespace g); vm_compute; reflexivity]|reflexivity].
      cbn [map c_looks]; unfold c_look; cbn [fst snd Z.eqb].
      replace (once (ns_marks (g_namespace g) ++ more) 0 "} beschi_DataAccess;") with ("} " +++ (c_prefix g +++ "DataAccess") +++ ";")
        by (unfold c_prefix; destruct (g_namespace g); rewrite ?app_str_assoc; reflexivity).
      replace (once (ns_marks (g_namespace g) ++ more) 0 "typedef struct {") with "typedef struct {" by (destruct (g_namespace g); reflexivity).
      replace (once (ns_marks (g_namespace g) ++ more) 0 "    uint8_t* buffer;") with "    uint8_t* buffer;" by (destruct (g_namespace g); reflexivity).
      replace (once (ns_marks (g_namespace g) ++ more) 0 "    size_t bufferSize;") with "    size_t bufferSize;" by (destruct (g_namespace g); reflexivity).
      replace (once (ns_marks (g_namespace g) ++ more) 0 "    size_t position;") with "    size_t position;" by (destruct (g_namespace g); reflexivity).
      unfold c_opens, c_closes; cbn [rest_after String.append Ascii.eqb Bool.eqb to_space String.eqb without_blanks blank_char orb].
      rewrite B2; reflexivity. }
  replace (map (once (ns_marks (g_namespace g) ++ more) 0) ["typedef uint8_t beschi_err_t;"]) with ["typedef uint8_t " +++ (c_prefix g +++ "err_t") +++ ";"]
    by (unfold c_prefix; destruct (g_namespace g); rewrite ?app_str_assoc; reflexivity).
  cbn [map c_looks]; unfold c_look; cbn [fst snd Z.eqb].
  unfold c_opens; cbn [rest_after String.append Ascii.eqb Bool.eqb to_space String.eqb].
  rewrite B1; reflexivity.
Qed.

(** The members. *)
Lemma cwalks_one n x k k' a b N : cwalks n (block [x]) k k' a b N -> cwalks n x k k' a b N.
Proof.
  intro H; eapply cwalks_same; [exact H| ]; intro j; cbn [block fold_right]; unfold block, andthen, skip.
  destruct (x j) as [[l z]| | ]; cbn [pbind fst snd]; [now rewrite app_nil_r|reflexivity|reflexivity].
Qed.
Lemma c_type_text_name t : ~ In t base_type_names -> c_type_text g t = c_prefix g +++ t.
Proof.
  intro N; unfold c_type_text; replace (lookup t _) with (@None string); [reflexivity| ]; symmetry.
  apply lookup_None; intro I; apply N; apply in_map_iff in I as ([x y] & E & I); cbn in E; subst x.
  exact (in_combine_l _ _ _ _ I).
Qed.
Lemma c_type_unblank t r : without_blanks (c_type_text g t +++ r) = c_type_text g t +++ r.
Proof.
  destruct (in_dec string_dec t base_type_names) as [I|I].
  - cbn in I; decompose [or] I; subst; try contradiction; reflexivity.
  - rewrite c_type_text_name by exact I; rewrite app_str_assoc; apply word_unblank; [apply c_prefix_word|apply c_prefix_some].
Qed.
Lemma ct_types_text t : In t base_type_names -> ct_types p t = Ret (c_type_text g t).
Proof. intro I; cbn in I; decompose [or] I; subst; try contradiction; reflexivity. Qed.
Lemma base_listed t : In t base_types -> In t base_type_names.
Proof. cbn; tauto. Qed.

Hypothesis T : text_ok p.
Hypothesis FT : field_types p.
Lemma c_string_size : ct_types p (p_string_size_type p) = Ret (c_type_text g (p_string_size_type p)).
Proof. apply ct_types_text, base_listed, (tk_string p T). Qed.
Lemma c_list_size : ct_types p (p_list_size_type p) = Ret (c_type_text g (p_list_size_type p)).
Proof. apply ct_types_text, base_listed, (tk_list p T). Qed.
Ltac member := eapply cwalks_member; [known_text|reflexivity| ].
Lemma c_member_walks n m : field_type p (v_type m) ->
  cwalks n ((if (v_list m) then
         block [
           line [| ct_types p (p_list_size_type p); " "; v_name m; "_len;" |];
           when (String.eqb (v_type m) "string") (
             line [| ct_types p (p_list_size_type p); "* "; v_name m; "_els_len;" |]);
           (if (mem (v_type m) NUMERIC_TYPE_SIZES) || (String.eqb (v_type m) "string") then
              line [| ct_types p (v_type m); "* "; v_name m; ";" |]
            else when ((mem (v_type m) (p_structs p)) || (mem (v_type m) (p_enums p))) (
                line [| ct_prefix g; v_type m; "* "; v_name m; ";" |]))]
       else if String.eqb (v_type m) "string" then
         block [
           line [| ct_types p (p_string_size_type p); " "; v_name m; "_len;" |];
           line [| ct_types p (v_type m); " "; v_name m; ";" |]]
       else if mem (v_type m) NUMERIC_TYPE_SIZES then
         line [| ct_types p (v_type m); " "; v_name m; ";" |]
       else if mem (v_type m) (p_enums p) then
         line [| ct_prefix g; v_type m; " "; v_name m; ";" |]
       else when (mem (v_type m) (p_structs p)) (line [| ct_prefix g; v_type m; " "; v_name m; ";" |])))
    1 1 InStruct InStruct (map CMember (c_member_texts p g m)).
Proof.
  intro F; change (ct_prefix g) with (c_prefix g); rewrite c_list_size, c_string_size.
  destruct m as [name t l]; cbn [v_name v_type v_list] in *; unfold c_member_texts; cbn [v_name v_type v_list].
  assert (K : (String.eqb t "string" = true /\ t = "string") \/
              (String.eqb t "string" = false /\ mem t NUMERIC_TYPE_SIZES = true /\ ct_types p t = Ret (c_type_text g t)) \/
              (String.eqb t "string" = false /\ mem t NUMERIC_TYPE_SIZES = false /\ ~ In t base_type_names /\
               (mem t (p_structs p) || mem t (p_enums p) = true))).
  { destruct F as [B _ _|B _ _|e v r L V _ S N _|S E N _].
    - right; left; split; [ |split; [ |apply ct_types_text, base_listed, B]]; cbn in B; decompose [or] B; subst; try contradiction; reflexivity.
    - left; subst t; split; reflexivity.
    - right; right; split; [now apply not_string| ]; split; [ |split; [exact N| ]].
      + apply mem_lookup_none, lookup_None; intro I; apply N; cbn in I |- *; tauto.
      + apply orb_true_iff; right; now rewrite (mem_lookup_some _ _ _ L).
    - right; right; split; [now apply not_string| ]; split; [ |split; [exact N| ]].
      + apply mem_lookup_none, lookup_None; intro I; apply N; cbn in I |- *; tauto.
      + apply orb_true_iff; now left. }
  destruct K as [[K ->]|[(K & M & X)|(K & M & N & S)]].
  - change (ct_types p "string") with (Ret (c_type_text g "string")); cbn [String.eqb Ascii.eqb Bool.eqb when].
    replace (mem "string" NUMERIC_TYPE_SIZES || true) with true by reflexivity; cbv iota.
    destruct l; (eapply cwalks_eq; [repeat member; apply cwalks_nil| ]); unfold lit; rewrite !c_type_unblank; cbn [app map]; rewrite !append_empty; reflexivity.
  - rewrite K, M, X; cbn [when orb].
    destruct l; [ |apply cwalks_one]; (eapply cwalks_eq; [repeat first [member|apply cwalks_skip]; apply cwalks_nil| ]);
      rewrite !c_type_unblank; cbn [app map]; rewrite !append_empty; reflexivity.
  - rewrite K, M, S; cbn [when orb]; rewrite !(c_type_text_name t N).
    assert (Y : (if mem t (p_enums p) then line [| c_prefix g; t; " "; name; ";" |]
       else when (mem t (p_structs p)) (line [| c_prefix g; t; " "; name; ";" |])) = line [| c_prefix g; t; " "; name; ";" |]).
    { destruct (mem t (p_enums p)); [reflexivity| ]; rewrite orb_false_r in S; now rewrite S. }
    rewrite Y; destruct l; [ |apply cwalks_one]; (eapply cwalks_eq; [repeat first [member|apply cwalks_skip]; apply cwalks_nil| ]);
      rewrite ?c_type_unblank, !word_unblank by (apply c_prefix_word || apply c_prefix_some); cbn [app map];
      rewrite !append_empty, !app_str_assoc; reflexivity.
Qed.

Lemma cwalks_at n f r k k2 a c N : cwalks n (block (f (n + k) :: r)) k k2 a c N -> cwalks n (block (at_level f :: r)) k k2 a c N.
Proof. exact (fun H => H). Qed.
Lemma c_closes_name x : c_closes ("} " +++ x +++ ";") = Some x.
Proof. unfold c_closes; cbn [rest_after String.append Ascii.eqb Bool.eqb]; apply before_app. Qed.
Lemma c_closes_type t : c_closes ("} " +++ c_prefix g +++ t +++ ";") = Some (c_prefix g +++ t).
Proof. rewrite <- (c_closes_name (c_prefix g +++ t)), app_str_assoc; reflexivity. Qed.
Ltac quiet := cbn [String.append]; first [reflexivity|apply c_prefix_quiet].
Ltac cwalk_more := fail.
Ltac cwalk :=
  cbv beta zeta;
  lazymatch goal with
  | |- cwalks _ (block []) _ _ _ _ _ => apply cwalks_nil
  | |- cwalks _ (block (indent :: _)) ?k _ _ _ _ =>
      let v := eval vm_compute in (k + 1) in apply (cwalks_indent _ _ k v _ _ _ _ eq_refl); cwalk
  | |- cwalks _ (block (dedent :: _)) ?k _ _ _ _ =>
      let v := eval vm_compute in (k - 1) in apply (cwalks_dedent _ _ k v _ _ _ _ eq_refl); cwalk
  | |- cwalks _ (block (check_level :: _)) _ _ _ _ _ => apply cwalks_check; [reflexivity|cwalk]
  | |- cwalks _ (block (skip :: _)) _ _ _ _ _ => apply cwalks_skip; cwalk
  | |- cwalks _ (block (blank :: _)) ?k _ _ _ _ => unfold blank at 1; cwalk
  | |- cwalks _ (block (line _ :: _)) 0 _ AtTop _ _ =>
      first [eapply cwalks_quiet; [known_text|solve [quiet]|cwalk]|eapply cwalks_top; [known_text|reflexivity|cwalk]|idtac]
  | |- cwalks _ (block (line _ :: _)) 0 _ _ _ _ =>
      first [eapply cwalks_close; [known_text|discriminate|solve [apply c_closes_type|exact (c_closes_type "MessageType")]|cwalk]|idtac]
  | |- cwalks _ (block (line _ :: _)) _ _ InStruct _ _ => eapply cwalks_member; [known_text|reflexivity|cwalk]
  | |- cwalks _ (block (line _ :: _)) _ _ AtTop _ _ => apply cwalks_outer; [good|reflexivity|cwalk]
  | |- cwalks _ (block (when true _ :: _)) _ _ _ _ _ => cbn [when]; cwalk
  | |- cwalks _ (block (when false _ :: _)) _ _ _ _ _ => cbn [when]; cwalk
  | |- cwalks _ (block (block _ :: _)) _ _ _ _ _ => apply cwalks_flat; cbn [app]; cwalk
  | |- cwalks _ (block (?a :: _)) ?k _ ?at_ _ _ =>
      first
        [ cwalk_more; cwalk
        | let j := eval vm_compute in (k - 1) in
          let ok := eval vm_compute in (0 <=? j) in
          match ok with true => idtac end;
          change k with (1 + j);
          match at_ with
          | AtTop => eapply cwalks_inside; [solve [run]| ]
          | InEnum => eapply cwalks_values; [solve [run]| ]
          end;
          match goal with |- cwalks _ _ ?k1 _ _ _ _ => let v := eval vm_compute in k1 in change k1 with v end; cwalk
        | match a with
          | when ?b _ => known_if b; cwalk
          | (if ?b then _ else _) => known_if b; cwalk
          | given _ _ => apply cwalks_given; [good|intros; cwalk]
          | at_level _ => apply cwalks_at; cwalk
          | (let (_, _) := ?x in _) => destruct x; cwalk
          end
        | idtac ]
  | |- _ => idtac
  end.
Hint Resolve ct_types_ok ct_types_base ct_types_name ct_serializers_ok ct_gen_measurement_ok : text.
Hint Resolve ct_err_nested ct_deserializer_nested ct_serializer_nested ct_message_default ct_message_destructor : text.

Lemma ct_gen_enum_walks n ename e : 0 <= n -> In (ename, e) (p_enums p) ->
  cwalks n (ct_gen_enum p g ename e) 0 0 AtTop AtTop [CType (c_prefix g +++ ename)].
Proof.
  intros N I; assert (N1 : 0 <= n + 1) by lia.
  pose proof (tk_enums p T ename e I : fine_enum e) as F; unfold ct_gen_enum; change (ct_prefix g) with (c_prefix g).
  destruct (ct_types_base p _ (fine_encoding e F)) as [x ->].
  eapply cwalks_eq; [cwalk|reflexivity].
Qed.
Lemma ct_gen_struct_walks n sname s : 0 <= n -> declares p sname s ->
  cwalks n (ct_gen_struct p g sname s) 0 0 AtTop AtTop (c_type_parts p g (sname, s)).
Proof.
  intros N D; assert (N1 : 0 <= n + 1) by lia; pose proof (tk_name p T sname s D) as E.
  unfold ct_gen_struct; cbv zeta; change (ct_prefix g) with (c_prefix g).
  unfold c_type_parts; cbn [fst snd].
  assert (M : cwalks n (each (s_members s) (fun m =>
      (if (v_list m) then
         block [
           line [| ct_types p (p_list_size_type p); " "; v_name m; "_len;" |];
           when (String.eqb (v_type m) "string") (
             line [| ct_types p (p_list_size_type p); "* "; v_name m; "_els_len;" |]);
           (if (mem (v_type m) NUMERIC_TYPE_SIZES) || (String.eqb (v_type m) "string") then
              line [| ct_types p (v_type m); "* "; v_name m; ";" |]
            else when ((mem (v_type m) (p_structs p)) || (mem (v_type m) (p_enums p))) (
                line [| c_prefix g; v_type m; "* "; v_name m; ";" |]))]
       else if String.eqb (v_type m) "string" then
         block [
           line [| ct_types p (p_string_size_type p); " "; v_name m; "_len;" |];
           line [| ct_types p (v_type m); " "; v_name m; ";" |]]
       else if mem (v_type m) NUMERIC_TYPE_SIZES then
         line [| ct_types p (v_type m); " "; v_name m; ";" |]
       else if mem (v_type m) (p_enums p) then
         line [| c_prefix g; v_type m; " "; v_name m; ";" |]
       else when (mem (v_type m) (p_structs p)) (line [| c_prefix g; v_type m; " "; v_name m; ";" |]))))
    1 1 InStruct InStruct (map CMember (flat_map (c_member_texts p g) (s_members s)))).
  { eapply cwalks_eq; [apply (cwalks_each _ _ _ (fun m => map CMember (c_member_texts p g m)))| ].
    - intros m I; apply (c_member_walks n m), (FT sname s m D I).
    - generalize (s_members s) as ms; induction ms as [ |m ms IH]; [reflexivity| ]; cbn [flat_map]; now rewrite map_app, IH. }
  destruct (s_is_message s) eqn:Q; cbn [when].
  all: eapply cwalks_eq; [cwalk; (eapply cwalks_cons; [exact M| ]); cwalk| ].
  all: cbn [app]; rewrite ?app_nil_r, ?word_unblank by (apply c_prefix_word || apply c_prefix_some); reflexivity.
Qed.
Lemma ct_gen_enum_implementation_walks n ename e : 0 <= n -> In (ename, e) (p_enums p) ->
  cwalks n (ct_gen_enum_implementation p g ename e) 0 0 AtTop AtTop [].
Proof.
  intros N I; assert (N1 : 0 <= n + 1) by lia.
  pose proof (tk_enums p T ename e I : fine_enum e) as F; unfold ct_gen_enum_implementation; change (ct_prefix g) with (c_prefix g).
  destruct (ct_types_base p _ (fine_encoding e F)) as [x ->].
  eapply cwalks_eq; [cwalk|reflexivity].
Qed.
Lemma ct_gen_implementation_walks n sname s : 0 <= n -> declares p sname s ->
  cwalks n (ct_gen_implementation p g sname s) 0 0 AtTop AtTop [].
Proof.
  intros N D; assert (N1 : 0 <= n + 1) by lia.
  unfold ct_gen_implementation; cbv zeta; change (ct_prefix g) with (c_prefix g).
  destruct (s_is_message s) eqn:Q; cbn [when].
  all: eapply cwalks_eq; [cwalk|reflexivity].
Qed.

Hypothesis U : g_tab g <> "" /\ blanks (g_tab g) = true.
Hypothesis E : g_embed g = false.
Lemma c_sizes : exists size native, lookup (p_string_size_type p) c_serializers = Some size /\
  lookup (p_string_size_type p) (("string", "char*") :: c_types) = Some native.
Proof.
  destruct (table_name p c_serializers A eq_refl) as [size Z].
  destruct (table_name p (("string", "char*") :: c_types) A eq_refl) as [native S]; eauto.
Qed.
Lemma ct_boilerplate_0 n r k2 c N : cwalks n (block r) 0 k2 AtTop c N ->
  cwalks n (block (given (ct_serializers (p_string_size_type p)) (fun string_size =>
      given (ct_types p (p_string_size_type p)) (fun native_size =>
        add_boilerplate "    " (g_tab g) (ct_substitutions_0 g string_size native_size) (g_files g 0))) :: r)) 0 k2 AtTop c
    ([CType (c_prefix g +++ "err_t"); CMember "uint8_t* buffer;"; CMember "size_t bufferSize;"; CMember "size_t position;";
      CType (c_prefix g +++ "DataAccess")] ++ N).
Proof.
  intro H; rewrite G; destruct c_sizes as (size & native & Z & S).
  replace (ct_serializers (p_string_size_type p)) with (Ret size) by (symmetry; apply item_found, Z).
  replace (ct_types p (p_string_size_type p)) with (Ret native) by (symmetry; apply mapping_found, S).
  apply cwalks_given; [eexists; reflexivity|intros x X; injection X as <-].
  apply cwalks_given; [eexists; reflexivity|intros x X; injection X as <-].
  eapply cwalks_boilerplate; [reflexivity|discriminate|apply U|apply U| |exact H].
  change (c_files 0) with c_file_0; rewrite c_file_0_lines by assumption; apply c_file_0_looks.
Qed.
Lemma ct_boilerplate_1 n r k2 c N : cwalks n (block r) 0 k2 AtTop c N ->
  cwalks n (block (given (ct_serializers (p_string_size_type p)) (fun string_size =>
        add_boilerplate "    " (g_tab g) (ct_substitutions_1 g string_size) (g_files g 1)) :: r)) 0 k2 AtTop c N.
Proof.
  intro H; rewrite G; destruct c_sizes as (size & native & Z & _).
  replace (ct_serializers (p_string_size_type p)) with (Ret size) by (symmetry; apply item_found, Z).
  apply cwalks_given; [eexists; reflexivity|intros x X; injection X as <-].
  change N with ([] ++ N); eapply cwalks_boilerplate; [reflexivity|discriminate|apply U|apply U| |exact H].
  change (c_files 1) with c_file_1; rewrite c_file_1_lines by assumption.
  apply calm_part; [reflexivity|destruct (g_namespace g); vm_compute; reflexivity].
Qed.
Lemma ct_boilerplate_2 n r k2 c N : cwalks n (block r) 0 k2 AtTop c N ->
  cwalks n (block (add_boilerplate "    " (g_tab g) (ct_subs g) (g_files g 2) :: r)) 0 k2 AtTop c N.
Proof.
  intro H; rewrite G; change N with ([] ++ N); eapply cwalks_boilerplate; [reflexivity|discriminate|apply U|apply U| |exact H].
  change (c_files 2) with c_file_2; rewrite c_file_2_lines.
  replace (ns_marks (g_namespace g)) with (ns_marks (g_namespace g) ++ []) by apply app_nil_r.
  apply calm_part; [reflexivity|destruct (g_namespace g); vm_compute; reflexivity].
Qed.
Ltac cwalk_more ::=
  lazymatch goal with
  | |- cwalks _ (block (given _ (fun _ => given _ _) :: _)) 0 _ _ _ _ => apply ct_boilerplate_0
  | |- cwalks _ (block (given _ _ :: _)) 0 _ _ _ _ => apply ct_boilerplate_1
  | |- cwalks _ (block (add_boilerplate _ _ _ _ :: _)) 0 _ _ _ _ => apply ct_boilerplate_2
  | |- cwalks _ (block (each (p_enums _) (fun '(t, x) => ct_gen_enum _ _ t x) :: _)) 0 _ _ _ _ =>
      eapply cwalks_cons; [apply (cwalks_entries _ _ _ (fun e => [CType (c_prefix g +++ fst e)]));
        let t := fresh "t" in let x := fresh "x" in let I := fresh "I" in
        intros t x I; apply ct_gen_enum_walks; [lia|assumption]| ]
  | |- cwalks _ (block (each _ (fun '(t, x) => ct_gen_struct _ _ t x) :: _)) 0 _ _ _ _ =>
      eapply cwalks_cons; [apply (cwalks_entries _ _ _ (c_type_parts p g));
        let t := fresh "t" in let x := fresh "x" in let I := fresh "I" in
        intros t x I; apply ct_gen_struct_walks; [lia|eauto with text]| ]
  | |- cwalks _ (block (each _ (fun '(t, x) => ct_gen_enum_implementation _ _ t x) :: _)) 0 _ _ _ _ =>
      eapply (cwalks_cons _ _ _ _ _ _ _ _ _ []); [apply cwalks_no_entries;
        let t := fresh "t" in let x := fresh "x" in let I := fresh "I" in
        intros t x I; apply ct_gen_enum_implementation_walks; [lia|assumption]| ]
  | |- cwalks _ (block (each _ (fun '(t, x) => ct_gen_implementation _ _ t x) :: _)) 0 _ _ _ _ =>
      eapply (cwalks_cons _ _ _ _ _ _ _ _ _ []); [apply cwalks_no_entries;
        let t := fresh "t" in let x := fresh "x" in let I := fresh "I" in
        intros t x I; apply ct_gen_implementation_walks; [lia|eauto with text]| ]
  end.
Lemma c_generate_walks : c_declares p g (c_expected_parts p g).
Proof.
  unfold c_declares; change (generate "c" p g) with (ct_generate p g).
  enough (H : cwalks 0 (ct_generate p g) 0 0 AtTop AtTop (c_expected_parts p g)) by exact H.
  assert (N1 : 0 <= 0 + 1) by lia; unfold c_expected_parts; rewrite flat_map_app.
  unfold ct_generate; cbv zeta; change (ct_prefix g) with (c_prefix g); rewrite E; cbn [when].
  eapply cwalks_eq; [cwalk| ].
  unfold c_own_parts; cbn [app]; rewrite ?app_nil_r; do 6 f_equal.
Qed.
End Declarations.
