From Verif Require Import ScopesSpec LangFacts ProtocolFacts3 WireFacts DecFacts TypeScriptFacts AssemblyScriptFacts CSharpFacts SwiftFacts BytesFacts.
Open Scope string_scope.
Open Scope list_scope.

(** ** Strings *)
Lemma suffix_eq a b u v : String.length u = String.length v -> (a +++ u = b +++ v)%string -> a = b /\ u = v.
Proof.
  intro L; revert b; induction a as [|x a IH]; intros [|y b] E; cbn in E.
  - auto.
  - exfalso; apply (f_equal String.length) in E; cbn in E; rewrite str_app_length in E; lia.
  - exfalso; apply (f_equal String.length) in E; cbn in E; rewrite str_app_length in E; lia.
  - injection E as -> E; destruct (IH b E) as [-> ->]; auto.
Qed.

(** ** Legal blocks *)
Definition Legal (shadow : bool) (outer : list string) (l : list decl) : Prop := legal_in shadow outer (Inner l) = true.

Lemma Legal_iff shadow outer l :
  Legal shadow outer l <->
  NoDup (declared_here l) /\ (shadow = true \/ forall x, In x (declared_here l) -> ~ In x outer) /\
  (forall l', In (Inner l') l -> Legal shadow (declared_here l ++ outer) l').
Proof.
  unfold Legal; cbn [legal_in]; rewrite !andb_true_iff, negb_true_iff, has_dup_str_false, orb_true_iff, forallb_forall.
  assert (X : forall o, (fix all (l : list decl) : bool :=
         match l with [] => true | d :: r => legal_in shadow o d && all r end) l = true <->
         (forall l', In (Inner l') l -> legal_in shadow o (Inner l') = true)).
  { intro o; induction l as [|d r IH]; [split; [intros _ ? []|reflexivity]|].
    rewrite andb_true_iff, IH; split.
    - intros [A B] l' [->|I]; auto.
    - intro A; split; [|intros l' I; apply A; now right].
      destruct d as [x|l']; [reflexivity|apply A; now left]. }
  rewrite X.
  assert (Y : (forall x, In x (declared_here l) -> negb (in_strs x outer) = true) <-> (forall x, In x (declared_here l) -> ~ In x outer)).
  { split; intros A x I; specialize (A x I).
    - apply negb_true_iff, in_strs_false in A; assumption.
    - apply negb_true_iff, in_strs_false; assumption. }
  rewrite Y; tauto.
Qed.

Lemma declared_app a b : declared_here (a ++ b) = declared_here a ++ declared_here b.
Proof. apply flat_map_app. Qed.
Lemma declared_flat {A} (f : A -> list decl) l : declared_here (flat_map f l) = flat_map (fun x => declared_here (f x)) l.
Proof. induction l as [|x l IH]; cbn [flat_map]; [reflexivity|now rewrite declared_app, IH]. Qed.
Lemma flat_flat {A B C} (f : B -> list C) (g : A -> list B) l : flat_map f (flat_map g l) = flat_map (fun x => flat_map f (g x)) l.
Proof. induction l as [|x l IH]; cbn [flat_map]; [reflexivity|now rewrite flat_map_app, IH]. Qed.

Lemma flat_map_same {A B} (f g : A -> list B) l : (forall x, In x l -> f x = g x) -> flat_map f l = flat_map g l.
Proof.
  induction l as [|x l IH]; intro H; [reflexivity|]; cbn [flat_map].
  rewrite (H x (or_introl eq_refl)), IH; [reflexivity|intros y I; apply H; now right].
Qed.

Lemma NoDup_both {A} (a b : list A) : NoDup (a ++ b) <-> NoDup a /\ NoDup b /\ forall x, In x a -> ~ In x b.
Proof.
  induction a as [|x a IH]; cbn [app].
  - split; [intro H; repeat split; auto; constructor|tauto].
  - rewrite !NoDup_cons_iff, IH, in_app_iff; split.
    + intros (N & Q & B & D); repeat split; auto; try tauto.
      intros y [->|I]; [tauto|auto].
    + intros ((N & Q) & B & D); repeat split; auto.
      * intros [I|I]; [tauto|]; apply (D x (or_introl eq_refl) I).
      * intros y I; apply D; now right.
Qed.

Lemma NoDup_members (f : var -> list string) ms :
  NoDup (map v_name ms) -> (forall m, In m ms -> NoDup (f m)) ->
  (forall m m' x, In m ms -> In m' ms -> In x (f m) -> In x (f m') -> v_name m = v_name m') -> NoDup (flat_map f ms).
Proof.
  induction ms as [|m ms IH]; cbn [map flat_map]; [constructor|].
  intros ND F D; inversion ND as [|? ? N ND']; subst.
  apply NoDup_both; split; [apply F; now left|split].
  - apply IH; [assumption|intros; apply F; now right|intros a b x A B; apply D; now right].
  - intros x I J; apply in_flat_map in J as (m' & I' & J).
    apply N; rewrite (D m m' x (or_introl eq_refl) (or_intror I') I J); now apply in_map.
Qed.

Lemma same_name ms m m' : NoDup (map v_name ms) -> In m ms -> In m' ms -> v_name m = v_name m' -> m = m'.
Proof.
  induction ms as [|a ms IH]; cbn [map In]; [tauto|]; intro ND; inversion ND as [|? ? N ND']; subst.
  intros [->|I] [->|I'] E; auto; exfalso; apply N; [rewrite E|rewrite <- E]; now apply in_map.
Qed.

(** ** What is known about the members *)
Record named (p : protocol) (m : var) : Prop := {
  nm_clean : var_clean (v_name m) = v_name m;
  nm_space : no_space (v_name m);
  nm_under : starts_underscore (v_name m) = false;
  nm_empty : v_name m <> "";
  nm_type : declared_type p (v_type m) }.

Lemma named_member p t s m : WF p -> plain_names p -> declares p t s -> In m (s_members s) -> named p m.
Proof.
  intros W [B E] D I; destruct (wf_member_names p W t s m D I) as [X Y]; destruct (B t s m D I) as [B1 B2]; constructor; auto.
  - now apply var_clean_id.
  - eauto.
  - exact (wf_member_types p W t s m D I).
Qed.

Lemma under_length p m x u : named p m -> ("_" +++ x <> v_name m +++ u)%string.
Proof.
  intros [_ _ U E _] H; destruct (v_name m) as [|c n]; [congruence|]; cbn in H; injection H as <- _; discriminate.
Qed.

Definition enumb (p : protocol) (t : string) : bool := match lookup t (p_enums p) with Some _ => true | None => false end.

Lemma enumb_true p t : WF p -> enumb p t = true <-> is_enum p t.
Proof.
  intro W; unfold enumb; destruct (lookup t (p_enums p)) as [e|] eqn:E.
  - split; [intros _; exists e; now apply lookup_In|reflexivity].
  - split; [discriminate|intros [e I]].
    apply lookup_None in E; exfalso; apply E; exact (in_map fst _ _ I).
Qed.

(** ** TypeScript *)
Definition length_name (m : var) : string := (v_name m +++ "_Length")%string.

Definition ts_decls (p : protocol) (idx : nat) (m : var) : list decl :=
  let own := if enumb p (v_type m) then [Local ("_" +++ v_name m)] else [] in
  if v_list m then [Local (length_name m); Inner [Local ("i" +++ dec_str idx); Inner own]] else own.

Ltac member_cases p W m N prims :=
  unfold length_name, enumb; rewrite ?(nm_clean p m N);
  let LK := fresh "LK" in destruct (list_size_num p W) as (? & LK & _); rewrite ?LK; clear LK;
  destruct (type_cases p (v_type m) W (nm_type p m N))
    as [? H1 H2 H3 H4 _|H1 H4 _|? ? H1 H2 H3 _ H4 H5 _|? H1 H2 H3 H4 _];
  rewrite ?H4; rewrite ?H3, ?H2, ?H1; rewrite ?prims; rewrite ?H1, ?H5;
  destruct (v_list m); try reflexivity; (cbn [with_prim flat_map read_declares as_extra as_target map app negb orb]; rewrite ?(nm_clean p m N); reflexivity).

Lemma ts_declares p idx m : WF p -> named p m -> flat_map (read_declares no_extra) (ts_read p idx m) = ts_decls p idx m.
Proof.
  intros W N; unfold ts_read, ts_read_one, ts_decls; rewrite !ts_prim_num; member_cases p W m N ts_prim_num.
Qed.

Lemma ts_write_declares p m : WF p -> named p m ->
  flat_map (write_declares no_extra) (ts_write p m) = if v_list m then [Inner [Local "i"; Inner [Local "el"]]] else [].
Proof.
  intros W N; unfold ts_write, ts_write_one; rewrite !ts_prim_num; member_cases p W m N ts_prim_num.
Qed.

(** The names that a member declares in the function itself; [q] tells the types with a
    variable of their own. *)
Definition ts_names (q : string -> bool) (m : var) : list string :=
  if v_list m then [length_name m] else if q (v_type m) then ["_" +++ v_name m] else [].

Lemma ts_decls_here p idx m : declared_here (ts_decls p idx m) = ts_names (enumb p) m.
Proof. unfold ts_decls, ts_names; destruct (v_list m), (enumb p (v_type m)); reflexivity. Qed.

Lemma length_name_eq m m' : length_name m = length_name m' -> v_name m = v_name m'.
Proof. intro E; exact (proj1 (suffix_eq _ _ _ _ eq_refl E)). Qed.
Lemma length_name_under p m x : named p m -> length_name m <> ("_" +++ x)%string.
Proof. intros N E; exact (under_length p m x "_Length" N (eq_sym E)). Qed.
Lemma length_name_long m x : (String.length x <= 6)%nat -> length_name m <> x.
Proof. intros L <-; unfold length_name in L; rewrite str_app_length in L; cbn in L; lia. Qed.

Lemma ts_names_nodup p q ms : NoDup (map v_name ms) -> (forall m, In m ms -> named p m) -> NoDup (flat_map (ts_names q) ms).
Proof.
  intros ND N; apply NoDup_members; [assumption| |].
  - intros m _; unfold ts_names; destruct (v_list m), (q (v_type m)); repeat constructor; auto.
  - intros m m' x I I' X X'; unfold ts_names in X, X'.
    destruct (v_list m), (v_list m'), (q (v_type m)), (q (v_type m')); cbn [In] in X, X'; try tauto;
      destruct X as [<-|[]]; destruct X' as [X'|[]]; try (injection X' as ->; reflexivity);
      try (symmetry; exact (length_name_eq _ _ X')).
    all: exfalso; first [exact (length_name_under p m' _ (N _ I') X') | exact (length_name_under p m _ (N _ I) (eq_sym X'))].
Qed.

Lemma scopes_iff shadow rd wr p :
  scopes_legal shadow rd wr p = true <->
  forall t s, declares p t s -> Legal shadow [] (rd s) /\ Legal shadow [] (wr s).
Proof.
  unfold scopes_legal; rewrite forallb_forall; split.
  - intros H t s D; specialize (H (t, s)); apply andb_true_iff; apply H; apply in_app_iff; exact D.
  - intros H [t s] I; apply andb_true_iff, (H t s); apply in_app_iff in I; exact I.
Qed.

(** With shadowing, it is enough that names in the same block differ. *)
Lemma legal_in_shadow : forall d o o', legal_in true o d = legal_in true o' d.
Proof.
  fix IH 1; intros [x|l] o o'; [reflexivity|]; cbn [legal_in]; f_equal.
  generalize (declared_here l ++ o), (declared_here l ++ o'); induction l as [|d r IHl]; [reflexivity|].
  intros a b; rewrite (IH d a b), (IHl a b); reflexivity.
Qed.

Lemma Legal_shadow o l : Legal true o l <-> NoDup (declared_here l) /\ (forall l', In (Inner l') l -> Legal true [] l').
Proof.
  rewrite Legal_iff; unfold Legal; split.
  - intros (A & _ & B); split; [assumption|intros l' I; rewrite (legal_in_shadow _ _ (declared_here l ++ o)); auto].
  - intros (A & B); repeat split; [assumption|now left|intros l' I; rewrite (legal_in_shadow _ _ []); auto].
Qed.

Lemma inner_flat l' (f : var -> list decl) ms : In (Inner l') (flat_map f ms) -> exists m, In m ms /\ In (Inner l') (f m).
Proof. intro I; apply in_flat_map in I; exact I. Qed.

(** Members and the locals before them. *)
Lemma body_ok (decls : var -> list decl) (names : var -> list string) (pre : list string) ms :
  (forall m, declared_here (decls m) = names m) -> (forall m l, In (Inner l) (decls m) -> Legal true [] l) ->
  (Legal true [] (map Local pre ++ flat_map decls ms) <->
   NoDup pre /\ NoDup (flat_map names ms) /\ forall x, In x pre -> ~ In x (flat_map names ms)).
Proof.
  intros H IN; rewrite Legal_shadow, declared_app, declared_flat.
  rewrite (flat_map_ext _ _ H).
  replace (declared_here (map Local pre)) with pre by (induction pre as [|x r IH]; cbn in *; [reflexivity|]; f_equal; auto).
  rewrite NoDup_both; split; [intros (A & _); exact A|intro A; split; [assumption|]].
  intros l' I; apply in_app_iff in I as [I|I]; [apply in_map_iff in I as (? & ? & _); discriminate|].
  apply inner_flat in I as (m & I & J); exact (IN m l' J).
Qed.

Lemma ts_inner p idx m l : In (Inner l) (ts_decls p idx m) -> Legal true [] l.
Proof.
  unfold ts_decls; destruct (v_list m), (enumb p (v_type m)); cbn [In]; intro J;
    repeat destruct J as [J|J]; try discriminate; try tauto; injection J as <-; reflexivity.
Qed.

Lemma ts_name_n p q t s : (forall m, In m (s_members s) -> named p m) ->
  ((forall x, In x ["da"; "n" +++ t] -> ~ In x (flat_map (ts_names q) (s_members s))) <->
   (forall m, In m (s_members s) -> v_list m = true -> length_name m <> ("n" +++ t)%string)).
Proof.
  intro N; split.
  - intros A m I L E; apply (A ("n" +++ t)%string); [right; now left|].
    apply in_flat_map; exists m; split; [assumption|unfold ts_names; rewrite L; now left].
  - intros A x I J; apply in_flat_map in J as (m & J & K); unfold ts_names in K.
    destruct (v_list m) eqn:L.
    + destruct K as [<-|[]]; destruct I as [I|[I|[]]]; [exact (length_name_long m "da" ltac:(cbn; lia) (eq_sym I))|exact (A m J L (eq_sym I))].
    + destruct (q (v_type m)); [|destruct K]; destruct K as [<-|[]]; destruct I as [I|[I|[]]]; discriminate.
Qed.

(** Writers: all variables but the parameters are in loops. *)
Lemma write_ok x l (pre : list string) ms :
  NoDup pre -> Legal true [] [Local x; Inner l] ->
  Legal true [] (map Local pre ++ flat_map (fun m => if v_list m then [Inner [Local x; Inner l]] else []) ms).
Proof.
  intros P X; rewrite Legal_shadow, declared_app, declared_flat.
  assert (E : flat_map (fun m => declared_here (if v_list m then [Inner [Local x; Inner l]] else [])) ms = [])
    by (induction ms as [|m r IH]; [reflexivity|]; cbn [flat_map]; rewrite IH; destruct (v_list m); reflexivity).
  rewrite E; clear E.
  replace (declared_here (map Local pre)) with pre by (clear X; induction pre as [|y r IH]; cbn in *; [reflexivity|]; inversion P; f_equal; auto).
  rewrite app_nil_r; split; [assumption|].
  intros l' I; apply in_app_iff in I as [I|I]; [apply in_map_iff in I as (? & ? & _); discriminate|].
  apply inner_flat in I as (m & I & J); destruct (v_list m); cbn [In] in J; [|destruct J].
  destruct J as [J|[]]; injection J as <-; exact X.
Qed.

Lemma ts_no_da p q ms : (forall m, In m ms -> named p m) -> ~ In "da" (flat_map (ts_names q) ms).
Proof.
  intros N J; apply in_flat_map in J as (m & J & K); unfold ts_names in K; destruct (v_list m).
  - destruct K as [K|[]]; exact (length_name_long m "da" ltac:(cbn; lia) K).
  - destruct (q (v_type m)); [|destruct K]; destruct K as [K|[]]; discriminate.
Qed.

Lemma ts_scopes_exact p ns : WF p -> plain_names p -> (ts_scopes ns p = true <-> lengths_free p).
Proof.
  intros W PN; unfold ts_scopes; rewrite scopes_iff.
  assert (R : forall t s, declares p t s -> (Legal true [] (ts_read_scope ns p s) <->
     forall m, In m (s_members s) -> v_list m = true -> length_name m <> ("n" +++ t)%string)).
  { intros t s D; pose proof (fun m => named_member p t s m W PN D) as N; pose proof (wf_member_nodup p W t s D) as ND.
    rewrite <- (ts_name_n p (enumb p) t s N).
    unfold ts_read_scope, ts_reader; rewrite (declares_name p t s W D), flat_flat.
    rewrite (flat_map_same _ (ts_decls p (ts_level ns s)) (s_members s) (fun m I => ts_declares p _ m W (N m I))).
    pose proof (fun pre => body_ok (ts_decls p (ts_level ns s)) _ pre (s_members s) (ts_decls_here p _) (ts_inner p _)) as X.
    pose proof (ts_names_nodup p (enumb p) (s_members s) ND N) as NN.
    destruct (s_is_message s).
    - rewrite Legal_shadow; specialize (X ["n" +++ t]%string); cbn [map app] in X; split.
      + intros (_ & A) x I; specialize (A _ (or_intror (or_intror (or_introl eq_refl)))).
        destruct I as [<-|I]; [now apply ts_no_da with p|apply X in A; now apply A].
      + intro A; split; [cbn; repeat constructor; cbn; intuition discriminate|].
        intros l' I; cbn [In] in I; destruct I as [I|[I|[I|[]]]]; try discriminate; injection I as <-.
        apply X; repeat split; auto; [repeat constructor; auto|intros x I; apply A; now right].
    - specialize (X ["da"; "n" +++ t]%string); cbn [map app] in X; rewrite X; split; [tauto|].
      intro A; repeat split; auto; repeat constructor; cbn; intuition discriminate. }
  split.
  - intros A t s m D I; exact (proj1 (R t s D) (proj1 (A t s D)) m I).
  - intros A t s D; split; [apply (R t s D); intros m I; exact (A t s m D I)|].
    pose proof (fun m => named_member p t s m W PN D) as N.
    unfold ts_write_scope, ts_writer; rewrite flat_flat.
    rewrite (flat_map_same _ _ (s_members s) (fun m I => ts_write_declares p m W (N m I))).
    destruct (s_is_message s); [apply (write_ok "i" [Local "el"] ["data"; "tag"; "da"])|apply (write_ok "i" [Local "el"] ["da"])];
      try reflexivity; repeat constructor; cbn; intuition discriminate.
Qed.

(** ** AssemblyScript *)
Definition structb (p : protocol) (t : string) : bool :=
  negb (mem t NUMERIC_TYPE_SIZES || String.eqb t "string").

Definition as_decls (p : protocol) (idx : nat) (m : var) : list decl :=
  let i := ("i" +++ dec_str idx)%string in
  let n := v_name m in
  if v_list m then
    [Local (length_name m);
     Inner [Local i; Inner (if enumb p (v_type m) then [Local ("_" +++ n)]
                            else if structb p (v_type m) then [Local ("_" +++ var_clean (n +++ "[" +++ i +++ "]"))] else [])]]
  else if structb p (v_type m) then [Local ("_" +++ n)] else [].

Lemma as_declares p idx m : WF p -> named p m -> flat_map (read_declares as_extra) (as_read p idx m) = as_decls p idx m.
Proof.
  intros W N; unfold as_read, as_read_one, as_decls, structb; rewrite !as_prim_num; member_cases p W m N as_prim_num.
Qed.

Lemma as_write_declares p m : WF p -> named p m ->
  flat_map (write_declares no_extra) (as_write p m) = if v_list m then [Inner [Local "i"; Inner [Local "el"]]] else [].
Proof.
  intros W N; unfold as_write, as_write_one; rewrite !as_prim_num; member_cases p W m N as_prim_num.
Qed.

Lemma as_decls_here p idx m : declared_here (as_decls p idx m) = ts_names (structb p) m.
Proof. unfold as_decls, ts_names; destruct (v_list m), (structb p (v_type m)); reflexivity. Qed.

Lemma as_inner p idx m l : In (Inner l) (as_decls p idx m) -> Legal true [] l.
Proof.
  unfold as_decls; destruct (v_list m), (enumb p (v_type m)), (structb p (v_type m)); cbn [In]; intro J;
    repeat destruct J as [J|J]; try discriminate; try tauto; injection J as <-; reflexivity.
Qed.

Lemma as_scopes_exact p : WF p -> plain_names p -> (as_scopes p = true <-> lengths_free p).
Proof.
  intros W PN; unfold as_scopes; rewrite scopes_iff.
  assert (R : forall t s, declares p t s -> (Legal true [] (as_read_scope p s) <->
     forall m, In m (s_members s) -> v_list m = true -> length_name m <> ("n" +++ t)%string)).
  { intros t s D; pose proof (fun m => named_member p t s m W PN D) as N; pose proof (wf_member_nodup p W t s D) as ND.
    rewrite <- (ts_name_n p (structb p) t s N).
    unfold as_read_scope, as_reader; rewrite (declares_name p t s W D), flat_flat.
    rewrite (flat_map_same _ (as_decls p 2) (s_members s) (fun m I => as_declares p _ m W (N m I))).
    pose proof (body_ok (as_decls p 2) _ ["da"; "n" +++ t]%string (s_members s) (as_decls_here p _) (as_inner p _)) as X.
    pose proof (ts_names_nodup p (structb p) (s_members s) ND N) as NN.
    cbn [map app] in X; rewrite X; split; [tauto|].
    intro A; repeat split; auto; repeat constructor; cbn; intuition discriminate. }
  split.
  - intros A t s m D I; exact (proj1 (R t s D) (proj1 (A t s D)) m I).
  - intros A t s D; split; [apply (R t s D); intros m I; exact (A t s m D I)|].
    pose proof (fun m => named_member p t s m W PN D) as N.
    unfold as_write_scope, as_writer; rewrite flat_flat.
    rewrite (flat_map_same _ _ (s_members s) (fun m I => as_write_declares p m W (N m I))).
    destruct (s_is_message s); [apply (write_ok "i" [Local "el"] ["da"; "tag"])|apply (write_ok "i" [Local "el"] ["da"])];
      try reflexivity; repeat constructor; cbn; intuition discriminate.
Qed.

(** ** Swift *)
Definition sw_decls (p : protocol) (m : var) : list decl :=
  let n := v_name m in
  if v_list m then
    [Local (length_name m);
     Inner [Local ""; Inner ((if enumb p (v_type m) then [Local ("_" +++ n +++ "Read")] else []) ++ [Local ("_" +++ n +++ "_el")])]]
  else if enumb p (v_type m) then [Local ("_" +++ n +++ "Read"); Local ("_" +++ n)] else [].
Definition sw_names (p : protocol) (m : var) : list string :=
  if v_list m then [length_name m] else if enumb p (v_type m) then ["_" +++ v_name m +++ "Read"; "_" +++ v_name m]%string else [].

Lemma sw_declares p m : WF p -> named p m -> flat_map (read_declares sw_extra) (sw_read p m) = sw_decls p m.
Proof.
  intros W N; unfold sw_read, sw_read_one, sw_decls; rewrite !sw_prim_num; member_cases p W m N sw_prim_num.
Qed.

Lemma sw_write_declares p m : WF p -> named p m ->
  flat_map (write_declares no_extra) (sw_write p m) = if v_list m then [Inner [Local "el"; Inner []]] else [].
Proof.
  intros W N; unfold sw_write, sw_write_one; rewrite !sw_label_num; member_cases p W m N sw_label_num.
Qed.

Lemma sw_decls_here p m : declared_here (sw_decls p m) = sw_names p m.
Proof. unfold sw_decls, sw_names; destruct (v_list m), (enumb p (v_type m)); reflexivity. Qed.

Lemma read_not_el n : ("_" +++ n +++ "Read")%string <> ("_" +++ n +++ "_el")%string.
Proof. intro E; apply (f_equal String.length) in E; cbn in E; rewrite !str_app_length in E; cbn in E; lia. Qed.
Lemma read_not_self n : ("_" +++ n +++ "Read")%string <> ("_" +++ n)%string.
Proof. intro E; apply (f_equal String.length) in E; cbn in E; rewrite !str_app_length in E; cbn in E; lia. Qed.

Lemma sw_inner p m l : In (Inner l) (sw_decls p m) -> Legal true [] l.
Proof.
  unfold sw_decls; destruct (v_list m), (enumb p (v_type m)); cbn [In app]; intro J;
    repeat destruct J as [J|J]; try discriminate; try tauto; injection J as <-; apply Legal_shadow;
    (split; [repeat constructor; auto|]); intros l' [K|[K|[]]]; try discriminate; injection K as <-; apply Legal_shadow.
  all: split; [repeat constructor; cbn; auto|intros l' K; cbn [In] in K; intuition discriminate].
  intros [K|[]]; exact (read_not_el _ (eq_sym K)).
Qed.

Lemma sw_names_nodup p t s : WF p -> declares p t s -> (forall m, In m (s_members s) -> named p m) ->
  (NoDup (flat_map (sw_names p) (s_members s)) <->
   forall m m', In m (s_members s) -> In m' (s_members s) -> enum_member p m -> enum_member p m' -> v_name m' <> (v_name m +++ "Read")%string).
Proof.
  intros W D N; pose proof (wf_member_nodup p W t s D) as ND; split.
  - intros H m m' I I' [L E] [L' E'] X; apply (enumb_true p _ W) in E; apply (enumb_true p _ W) in E'.
    assert (NE : m <> m').
    { intros <-; apply (f_equal String.length) in X; rewrite str_app_length in X; cbn in X; lia. }
    clear ND D N; induction (s_members s) as [|a ms IH]; [destruct I|].
    cbn [flat_map] in H; apply NoDup_both in H as (_ & H & Y).
    assert (In ("_" +++ v_name m')%string (sw_names p m')) by (unfold sw_names; rewrite L', E'; right; now left).
    assert (In ("_" +++ v_name m')%string (sw_names p m)) by (unfold sw_names; rewrite L, E, X; now left).
    destruct I as [->|I], I' as [->|I']; [congruence| | |now apply IH].
    + apply (Y ("_" +++ v_name m')%string); [assumption|apply in_flat_map; eauto].
    + apply (Y ("_" +++ v_name m')%string); [assumption|apply in_flat_map; eauto].
  - intro A; apply NoDup_members; [assumption| |].
    + intros m _; unfold sw_names; destruct (v_list m), (enumb p (v_type m)); repeat constructor; cbn; auto.
      intros [K|[]]; exact (read_not_self _ (eq_sym K)).
    + intros m m' x I I' X X'; unfold sw_names in X, X'.
      destruct (v_list m) eqn:L, (v_list m') eqn:L', (enumb p (v_type m)) eqn:E, (enumb p (v_type m')) eqn:E'; cbn [In] in X, X'; try tauto;
        repeat destruct X as [<-|X]; try contradiction; repeat destruct X' as [X'|X']; try contradiction;
        try (symmetry; exact (length_name_eq _ _ X'));
        try (exfalso; first [exact (length_name_under p m' _ (N _ I') X') | exact (length_name_under p m _ (N _ I) (eq_sym X'))]).
      all: apply (enumb_true p _ W) in E; apply (enumb_true p _ W) in E'; pose proof (A m m' I I' (conj L E) (conj L' E'));
        pose proof (A m' m I' I (conj L' E') (conj L E)); cbn in X'; injection X' as X'; try congruence.
      symmetry; exact (proj1 (suffix_eq _ _ "Read" "Read" eq_refl X')).
Qed.

Lemma sw_no_n p t ms : (forall m, In m ms -> named p m) ->
  (~ In ("n" +++ t)%string (flat_map (sw_names p) ms) <->
   forall m, In m ms -> v_list m = true -> length_name m <> ("n" +++ t)%string).
Proof.
  intro N; split.
  - intros A m I L E; apply A, in_flat_map; exists m; split; [assumption|unfold sw_names; rewrite L; now left].
  - intros A J; apply in_flat_map in J as (m & J & K); unfold sw_names in K; destruct (v_list m) eqn:L.
    + destruct K as [K|[]]; exact (A m J L K).
    + destruct (enumb p (v_type m)); [|destruct K]; destruct K as [K|[K|[]]]; discriminate.
Qed.

Lemma sw_scopes_exact p : WF p -> plain_names p -> (sw_scopes p = true <-> sw_locals_free p).
Proof.
  intros W PN; unfold sw_scopes; rewrite scopes_iff; unfold sw_locals_free, lengths_free.
  assert (R : forall t s, declares p t s -> (Legal true [] (sw_read_scope p s) <->
     (forall m, In m (s_members s) -> v_list m = true -> length_name m <> ("n" +++ t)%string) /\
     (forall m m', In m (s_members s) -> In m' (s_members s) -> enum_member p m -> enum_member p m' -> v_name m' <> (v_name m +++ "Read")%string))).
  { intros t s D; pose proof (fun m => named_member p t s m W PN D) as N.
    rewrite <- (sw_names_nodup p t s W D N), <- (sw_no_n p t _ N).
    unfold sw_read_scope, sw_reader; rewrite (declares_name p t s W D), flat_flat.
    rewrite (flat_map_same _ (sw_decls p) (s_members s) (fun m I => sw_declares p m W (N m I))).
    pose proof (body_ok (sw_decls p) _ ["n" +++ t]%string (s_members s) (sw_decls_here p) (sw_inner p)) as X.
    cbn [map app] in X; rewrite Legal_shadow; split.
    - intros (_ & A); specialize (A _ (or_intror (or_introl eq_refl))); apply X in A as (_ & A & B); split; [|assumption].
      apply B; now left.
    - intros (A & B); split; [cbn; repeat constructor; auto|].
      intros l' I; cbn [In] in I; destruct I as [I|[I|[]]]; try discriminate; injection I as <-.
      apply X; repeat split; auto; [repeat constructor; auto|intros x [<-|[]]; assumption]. }
  split.
  - intro A; split; [intros t s m D I|intros t s m m' D I I'].
    + exact (proj1 (proj1 (R t s D) (proj1 (A t s D))) m I).
    + exact (proj2 (proj1 (R t s D) (proj1 (A t s D))) m m' I I').
  - intros [A B] t s D; split; [apply (R t s D); split; [intros m I; exact (A t s m D I)|intros m m' I I'; exact (B t s m m' D I I')]|].
    pose proof (fun m => named_member p t s m W PN D) as N.
    unfold sw_write_scope, sw_writer; rewrite flat_flat.
    rewrite (flat_map_same _ _ (s_members s) (fun m I => sw_write_declares p m W (N m I))).
    rewrite Legal_shadow; split; [destruct (s_is_message s); cbn; repeat constructor; auto|].
    intros l' I; destruct I as [I|[I|[]]]; [destruct (s_is_message s); discriminate|injection I as <-].
    destruct (s_is_message s); [apply (write_ok "el" [] ["dataWriter"])|apply (write_ok "el" [] [])];
      try reflexivity; repeat constructor; cbn; intuition discriminate.
Qed.

(** ** C# *)
Definition buffer_name (m : var) : string := (v_name m +++ "_Buffer")%string.
Definition stringb (t : string) : bool := String.eqb t "string".

Definition cs_decls (p : protocol) (idx : nat) (m : var) : list decl :=
  let n := v_name m in
  if v_list m then
    [Local (length_name m);
     Inner [Local ("i" +++ dec_str idx);
            Inner (map Local (if enumb p (v_type m) then ["_" +++ n]%string
                              else "_el" :: if stringb (v_type m) then ["string__el_Length"; "string__el_Buffer"] else []))]]
  else if stringb (v_type m) then [Local (length_name m); Local (buffer_name m)]
  else if enumb p (v_type m) then [Local ("_" +++ n)] else [].
Definition cs_names (p : protocol) (m : var) : list string :=
  if v_list m then [length_name m]
  else if stringb (v_type m) then [length_name m; buffer_name m]
  else if enumb p (v_type m) then ["_" +++ v_name m]%string else [].

Lemma cs_clean_named p m : named p m -> cs_clean (v_name m) = v_name m.
Proof.
  intro N; unfold cs_clean; rewrite (nm_clean p m N); apply replace_char_id; intro I; apply (nm_space p m N _ I).
  right; reflexivity.
Qed.

Lemma cs_declares p idx m : WF p -> named p m -> flat_map (read_declares cs_extra) (cs_read p idx m) = cs_decls p idx m.
Proof.
  intros W N; unfold cs_read, cs_read_one, cs_decls, stringb, buffer_name; rewrite !cs_prim_num.
  unfold length_name, enumb; rewrite ?(cs_clean_named p m N).
  destruct (list_size_num p W) as (? & LK & _); rewrite ?LK; clear LK.
  destruct (type_cases p (v_type m) W (nm_type p m N))
    as [? H1 H2 H3 H4 _|H1 H4 _|? ? H1 H2 H3 _ H4 H5 _|? H1 H2 H3 H4 _];
  rewrite ?H4; rewrite ?cs_mem; rewrite ?H3, ?H2, ?H1; rewrite ?cs_prim_num; rewrite ?H1, ?H5.
  all: destruct (v_list m); try reflexivity.
  cbn [String.eqb Ascii.eqb Bool.eqb flat_map read_declares cs_extra app map].
  rewrite (cs_clean_named p m N); reflexivity.
Qed.

(** The other string members declare a buffer. *)
Lemma cs_write_declares p m : WF p -> named p m ->
  flat_map (write_declares cs_write_extra) (cs_write p m) =
  if v_list m then [Inner [Local "el"; Inner (if stringb (v_type m) then [Local "el_Buffer"] else [])]]
  else if stringb (v_type m) then [Local (buffer_name m)] else [].
Proof.
  intros W N; unfold cs_write, cs_write_one, stringb, buffer_name; rewrite !cs_typed_num; member_cases p W m N cs_typed_num.
Qed.

Lemma cs_decls_here p idx m : declared_here (cs_decls p idx m) = cs_names p m.
Proof. unfold cs_decls, cs_names; destruct (v_list m), (stringb (v_type m)), (enumb p (v_type m)); reflexivity. Qed.

Lemma buffer_name_eq m m' : buffer_name m = buffer_name m' -> v_name m = v_name m'.
Proof. intro E; exact (proj1 (suffix_eq _ _ _ _ eq_refl E)). Qed.
Lemma buffer_name_under p m x : named p m -> buffer_name m <> ("_" +++ x)%string.
Proof. intros N E; exact (under_length p m x "_Buffer" N (eq_sym E)). Qed.
Lemma buffer_name_long m x : (String.length x <= 6)%nat -> buffer_name m <> x.
Proof. intros L <-; unfold buffer_name in L; rewrite str_app_length in L; cbn in L; lia. Qed.
Lemma buffer_not_length m m' : buffer_name m <> length_name m'.
Proof. intro E; destruct (suffix_eq _ _ "_Buffer" "_Length" eq_refl E); discriminate. Qed.

Lemma cs_in_names p m x : In x (cs_names p m) <->
  ((v_list m = true \/ stringb (v_type m) = true) /\ x = length_name m) \/
  (v_list m = false /\ stringb (v_type m) = true /\ x = buffer_name m) \/
  (v_list m = false /\ stringb (v_type m) = false /\ enumb p (v_type m) = true /\ x = ("_" +++ v_name m)%string).
Proof.
  unfold cs_names; destruct (v_list m), (stringb (v_type m)), (enumb p (v_type m)); cbn [In]; intuition congruence.
Qed.

Lemma cs_names_nodup p ms : NoDup (map v_name ms) -> (forall m, In m ms -> named p m) -> NoDup (flat_map (cs_names p) ms).
Proof.
  intros ND N; apply NoDup_members; [assumption| |].
  - intros m _; unfold cs_names; destruct (v_list m), (stringb (v_type m)), (enumb p (v_type m)); repeat constructor; cbn [In]; auto;
      intros [K|[]]; exact (buffer_not_length _ _ K).
  - intros m m' x I I' X X'; apply cs_in_names in X; apply cs_in_names in X'.
    destruct X as [(_ & ->)|[(_ & _ & ->)|(_ & _ & _ & ->)]], X' as [(_ & X')|[(_ & _ & X')|(_ & _ & _ & X')]].
    + now apply length_name_eq.
    + now apply eq_sym, buffer_not_length in X'.
    + now apply (length_name_under p m _ (N _ I)) in X'.
    + now apply buffer_not_length in X'.
    + now apply buffer_name_eq.
    + now apply (buffer_name_under p m _ (N _ I)) in X'.
    + now apply eq_sym, (length_name_under p m' _ (N _ I')) in X'.
    + now apply eq_sym, (buffer_name_under p m' _ (N _ I')) in X'.
    + injection X' as ->; reflexivity.
Qed.

Lemma here_locals l : declared_here (map Local l) = l.
Proof. induction l as [|x l IH]; cbn in *; [reflexivity|now f_equal]. Qed.
Lemma inner_locals l' l : ~ In (Inner l') (map Local l).
Proof. intro I; apply in_map_iff in I as (? & ? & _); discriminate. Qed.

(** A loop with variables inside. *)
Lemma loop_legal outer i l :
  Legal false outer [Local i; Inner (map Local l)] <-> ~ In i outer /\ NoDup l /\ (forall x, In x l -> x <> i /\ ~ In x outer).
Proof.
  rewrite Legal_iff; cbn [declared_here flat_map app In]; split.
  - intros (_ & A & B); destruct A as [A|A]; [discriminate|].
    specialize (B _ (or_intror (or_introl eq_refl))); rewrite Legal_iff, here_locals in B; destruct B as (B1 & B2 & _).
    destruct B2 as [B2|B2]; [discriminate|].
    split; [apply A; now left|split; [assumption|]].
    intros x I; specialize (B2 x I); cbn [In app] in B2; split; [intros ->|]; tauto.
  - intros (A & B & C); split; [repeat constructor; auto|split; [right; intros x [<-|[]]; assumption|]].
    intros l' [J|[J|[]]]; [discriminate|injection J as <-]; rewrite Legal_iff, here_locals; split; [assumption|split].
    + right; intros x I; destruct (C x I); cbn [In app]; intros [->|?]; tauto.
    + intros l' J; now apply inner_locals in J.
Qed.

(** A block with some locals before those of the members. *)
Lemma cs_block outer pre (decls : var -> list decl) names ms :
  (forall m, declared_here (decls m) = names m) ->
  (Legal false outer (map Local pre ++ flat_map decls ms) <->
   NoDup (pre ++ flat_map names ms) /\ (forall x, In x (pre ++ flat_map names ms) -> ~ In x outer) /\
   (forall m l, In m ms -> In (Inner l) (decls m) -> Legal false ((pre ++ flat_map names ms) ++ outer) l)).
Proof.
  intro H; rewrite Legal_iff, declared_app, declared_flat, here_locals, (flat_map_ext _ _ H); split.
  - intros (A & B & C); destruct B as [B|B]; [discriminate|]; repeat split; auto.
    intros m l I J; apply C, in_app_iff; right; apply in_flat_map; eauto.
  - intros (A & B & C); repeat split; auto.
    intros l I; apply in_app_iff in I as [I|I]; [now apply inner_locals in I|].
    apply in_flat_map in I as (m & I & J); eauto.
Qed.

(** The conditions for one struct or message. *)
Definition cs_c1 p t ms : Prop := forall m, In m ms -> is_enum p (v_type m) -> v_name m <> ("n" +++ t)%string.
Definition cs_c2 p ms : Prop := forall m m', In m ms -> In m' ms ->
  v_list m' = true -> ~ is_enum p (v_type m') -> enum_member p m -> v_name m <> "el"%string.
Definition cs_c3 (ms : list var) : Prop := forall m m', In m ms -> In m' ms ->
  v_list m' = true -> v_type m' = "string"%string -> (v_list m = true \/ v_type m = "string"%string) -> v_name m <> "string__el"%string.
Definition cs_c4 (ms : list var) : Prop := forall m m', In m ms -> In m' ms ->
  v_list m' = true -> v_type m' = "string"%string -> v_list m = false -> v_type m = "string"%string -> v_name m <> "el"%string.

Lemma stringb_true t : stringb t = true <-> t = "string"%string.
Proof. apply String.eqb_eq. Qed.

Lemma string_no_enum p : WF p -> enumb p "string" = false.
Proof.
  intro W; destruct (enumb p "string") eqn:E; [|reflexivity]; apply (enumb_true p _ W) in E as [e E].
  exfalso; assert (K := wf_names p W "string" (or_intror (or_intror (ex_intro _ e E)))).
  destruct K as (_ & _ & K); apply K; cbn; tauto.
Qed.

(** All names of the function but those in loops. *)
Lemma cs_reader_names p t ms m : WF p -> (forall m, In m ms -> named p m) -> NoDup (map v_name ms) ->
  cs_c1 p t ms -> cs_c2 p ms -> cs_c3 ms -> In m ms -> v_list m = true ->
  forall x, In x (if enumb p (v_type m) then ["_" +++ v_name m]%string
                  else "_el" :: if stringb (v_type m) then ["string__el_Length"; "string__el_Buffer"] else []) ->
  x <> "br"%string /\ x <> ("_n" +++ t)%string /\ ~ In x (flat_map (cs_names p) ms).
Proof.
  intros W N ND C1 C2 C3 I L x X; destruct (enumb p (v_type m)) eqn:E.
  - destruct X as [<-|[]]; split; [discriminate|split].
    + intro H; injection H as H; apply (enumb_true p _ W) in E; exact (C1 m I E H).
    + intro J; apply in_flat_map in J as (m' & I' & J); apply cs_in_names in J as [(_ & J)|[(_ & _ & J)|(L' & _ & _ & J)]].
      * exact (length_name_under p m' _ (N _ I') (eq_sym J)).
      * exact (buffer_name_under p m' _ (N _ I') (eq_sym J)).
      * injection J as J; enough (m = m') by congruence; exact (same_name ms m m' ND I I' J).
  - assert (NE : ~ is_enum p (v_type m)) by (intro Q; apply (enumb_true p _ W) in Q; congruence).
    destruct X as [<-|X].
    + split; [discriminate|split; [discriminate|]].
      intro J; apply in_flat_map in J as (m' & I' & J); apply cs_in_names in J as [(_ & J)|[(_ & _ & J)|(L' & _ & E' & J)]].
      * exact (length_name_under p m' "el" (N _ I') (eq_sym J)).
      * exact (buffer_name_under p m' "el" (N _ I') (eq_sym J)).
      * injection J as J; apply (enumb_true p _ W) in E'; exact (C2 m' m I' I L NE (conj L' E') (eq_sym J)).
    + destruct (stringb (v_type m)) eqn:T; [|destruct X]; apply stringb_true in T.
      destruct X as [<-|[<-|[]]]; (split; [discriminate|split; [discriminate|]]);
        intro J; apply in_flat_map in J as (m' & I' & J); apply cs_in_names in J as [(O & J)|[(L' & T' & J)|(L' & _ & E' & J)]];
        try discriminate.
      * assert (Q : v_list m' = true \/ v_type m' = "string"%string) by (rewrite <- (stringb_true (v_type m')); exact O).
        exact (C3 m' m I' I L T Q (eq_sym (proj1 (suffix_eq "string__el" _ "_Length" "_Length" eq_refl J)))).
      * destruct (suffix_eq "string__el" (v_name m') "_Length" "_Buffer" eq_refl J); discriminate.
      * destruct (suffix_eq "string__el" (v_name m') "_Buffer" "_Length" eq_refl J); discriminate.
      * apply stringb_true in T'.
        exact (C3 m' m I' I L T (or_intror T') (eq_sym (proj1 (suffix_eq "string__el" _ "_Buffer" "_Buffer" eq_refl J)))).
Qed.

Lemma cs_level_name ns s : exists c, ("i" +++ dec_str (cs_level ns s))%string = String "i" (String c "") /\ c <> "_"%char.
Proof. unfold cs_level; destruct ns, (s_is_message s); cbn; eexists; split; try reflexivity; discriminate. Qed.

Lemma cs_inner_iff p ns s m outer : v_list m = true ->
  let i := ("i" +++ dec_str (cs_level ns s))%string in
  let l := if enumb p (v_type m) then ["_" +++ v_name m]%string
           else "_el" :: if stringb (v_type m) then ["string__el_Length"; "string__el_Buffer"] else [] in
  ((forall l', In (Inner l') (cs_decls p (cs_level ns s) m) -> Legal false outer l') <->
   ~ In i outer /\ (forall x, In x l -> ~ In x outer)).
Proof.
  intros L i l; unfold cs_decls; rewrite L; cbn [In]; fold i l; split.
  - intro H; specialize (H _ (or_intror (or_introl eq_refl))); apply loop_legal in H as (A & _ & B).
    split; [assumption|intros x I; exact (proj2 (B x I))].
  - intros (A & B) l' [J|[J|[]]]; [discriminate|injection J as <-]; apply loop_legal; split; [assumption|split].
    + subst l; destruct (enumb p (v_type m)), (stringb (v_type m)); repeat constructor; cbn [In]; intuition discriminate.
    + intros x I; split; [|now apply B].
      destruct (cs_level_name ns s) as (c & Q & NC); intro X; unfold i in X; rewrite Q in X.
      subst l; destruct (enumb p (v_type m)), (stringb (v_type m)); cbn [In] in I;
        repeat (destruct I as [I|I]; [subst x; discriminate|]); exact I.
Qed.

Lemma cs_no_i p ms ns s x : (forall m, In m ms -> named p m) -> x = ("i" +++ dec_str (cs_level ns s))%string ->
  ~ In x (flat_map (cs_names p) ms).
Proof.
  intros N -> J; destruct (cs_level_name ns s) as (c & Q & _); rewrite Q in J.
  apply in_flat_map in J as (m & I & J); apply cs_in_names in J as [(_ & J)|[(_ & _ & J)|(_ & _ & _ & J)]].
  - symmetry in J; revert J; apply length_name_long; cbn; lia.
  - symmetry in J; revert J; apply buffer_name_long; cbn; lia.
  - discriminate.
Qed.
Lemma cs_no_br p ms : (forall m, In m ms -> named p m) -> ~ In "br"%string (flat_map (cs_names p) ms).
Proof.
  intros N J; apply in_flat_map in J as (m & I & J); apply cs_in_names in J as [(_ & J)|[(_ & _ & J)|(_ & _ & _ & J)]].
  - symmetry in J; revert J; apply length_name_long; cbn; lia.
  - symmetry in J; revert J; apply buffer_name_long; cbn; lia.
  - discriminate.
Qed.
Lemma cs_no_n p t ms : WF p -> (forall m, In m ms -> named p m) -> cs_c1 p t ms -> ~ In ("_n" +++ t)%string (flat_map (cs_names p) ms).
Proof.
  intros W N C1 J; apply in_flat_map in J as (m & I & J); apply cs_in_names in J as [(_ & J)|[(_ & _ & J)|(_ & _ & E & J)]].
  - exact (length_name_under p m _ (N m I) (eq_sym J)).
  - exact (buffer_name_under p m _ (N m I) (eq_sym J)).
  - injection J as J; apply (enumb_true p _ W) in E; exact (C1 m I E (eq_sym J)).
Qed.

(** What a block that declares the members' locals needs, when the function has [br] and [_nT] too. *)
Lemma cs_members_ok p ns s t ms outer : WF p -> (forall m, In m ms -> named p m) -> NoDup (map v_name ms) ->
  (forall x, In x outer <-> x = "br"%string \/ x = ("_n" +++ t)%string \/ In x (flat_map (cs_names p) ms)) ->
  ((~ In ("_n" +++ t)%string (flat_map (cs_names p) ms) /\
    forall m l, In m ms -> In (Inner l) (cs_decls p (cs_level ns s) m) -> Legal false outer l) <->
   cs_c1 p t ms /\ cs_c2 p ms /\ cs_c3 ms).
Proof.
  intros W N ND O; split.
  - intros [A B].
    assert (B' : forall m, In m ms -> v_list m = true -> forall x,
       In x (if enumb p (v_type m) then ["_" +++ v_name m]%string
             else "_el" :: if stringb (v_type m) then ["string__el_Length"; "string__el_Buffer"] else []) -> ~ In x outer).
    { intros m I L; exact (proj2 (proj1 (cs_inner_iff p ns s m outer L) (fun l J => B m l I J))). }
    split; [|split].
    + intros m I E Q; apply (enumb_true p _ W) in E; destruct (v_list m) eqn:L.
      * specialize (B' m I L); rewrite E in B'; apply (B' ("_" +++ v_name m)%string); [now left|].
        apply O; right; left; rewrite Q; reflexivity.
      * apply A, in_flat_map; exists m; split; [assumption|]; apply cs_in_names; right; right.
        rewrite Q; repeat split; auto; destruct (stringb (v_type m)) eqn:T; [|reflexivity].
        apply stringb_true in T; rewrite T, string_no_enum in E by assumption; discriminate.
    + intros m m' I I' L' E' [L E] Q; specialize (B' m' I' L').
      destruct (enumb p (v_type m')) eqn:X; [apply (enumb_true p _ W) in X; tauto|].
      apply (B' "_el"%string); [now left|]; apply O; right; right; apply in_flat_map; exists m; split; [assumption|].
      apply (enumb_true p _ W) in E; apply cs_in_names; right; right; rewrite Q; repeat split; auto.
      destruct (stringb (v_type m)) eqn:T; [|reflexivity].
      apply stringb_true in T; rewrite T, string_no_enum in E by assumption; discriminate.
    + intros m m' I I' L' T' H Q; specialize (B' m' I' L').
      rewrite T', (string_no_enum p W) in B'; apply (B' "string__el_Length"%string); [right; now left|].
      apply O; right; right; apply in_flat_map; exists m; split; [assumption|]; apply cs_in_names; left.
      split; [rewrite stringb_true; exact H|unfold length_name; rewrite Q; reflexivity].
  - intros (C1 & C2 & C3); split; [now apply cs_no_n|].
    intros m l I; destruct (v_list m) eqn:L.
    + revert l; apply (cs_inner_iff p ns s m outer L); split.
      * intro J; apply O in J as [J|[J|J]]; [ | |exact (cs_no_i p ms ns s _ N eq_refl J)];
          destruct (cs_level_name ns s) as (c & Q & _); rewrite Q in J; discriminate.
      * intros x X J; destruct (cs_reader_names p t ms m W N ND C1 C2 C3 I L x X) as (A1 & A2 & A3).
        apply O in J; tauto.
    + unfold cs_decls; rewrite L; destruct (stringb (v_type m)), (enumb p (v_type m)); cbn [In]; intuition discriminate.
Qed.

Lemma cs_read_exact p ns t s : WF p -> plain_names p -> declares p t s ->
  (Legal false [] (cs_read_scope ns p s) <-> cs_c1 p t (s_members s) /\ cs_c2 p (s_members s) /\ cs_c3 (s_members s)).
Proof.
  intros W PN D; pose proof (fun m => named_member p t s m W PN D) as N; pose proof (wf_member_nodup p W t s D) as ND.
  pose proof (cs_names_nodup p _ ND N) as NN; pose proof (cs_no_br p _ N) as NB.
  unfold cs_read_scope, cs_reader; rewrite (declares_name p t s W D), flat_flat.
  rewrite (flat_map_same _ (cs_decls p (cs_level ns s)) (s_members s) (fun m I => cs_declares p _ m W (N m I))).
  pose proof (fun outer => cs_members_ok p ns s t (s_members s) outer W N ND) as X.
  destruct (s_is_message s).
  - rewrite Legal_iff; cbn [declared_here flat_map app].
    pose proof (cs_block ["br"]%string ["_n" +++ t]%string (cs_decls p (cs_level ns s)) _ (s_members s) (cs_decls_here p _)) as B.
    cbn [map] in B.
    rewrite <- (X ((["_n" +++ t]%string ++ flat_map (cs_names p) (s_members s)) ++ ["br"]%string))
      by (intro x; rewrite !in_app_iff; cbn [In]; intuition congruence).
    split.
    + intros (_ & _ & A); specialize (A _ (or_intror (or_introl eq_refl))); apply B in A as (A1 & _ & A2).
      split; [|exact A2]; cbn [app] in A1; now inversion A1.
    + intros (A1 & A2); split; [repeat constructor; auto|split; [right; intros x _ []|]].
      intros l' [J|[J|[]]]; [discriminate|injection J as <-]; apply B; split; [now constructor|split; [|exact A2]].
      cbn [In app]; intros x [<-|I] [J|[]]; [discriminate|subst x; exact (NB I)].
  - pose proof (cs_block [] ["br"; "_n" +++ t]%string (cs_decls p (cs_level ns s)) _ (s_members s) (cs_decls_here p _)) as B.
    cbn [map] in B; cbn [app] in *; rewrite B; rewrite app_nil_r.
    rewrite <- (X ("br" :: ("_n" +++ t) :: flat_map (cs_names p) (s_members s))%string)
      by (intro x; cbn [In]; intuition congruence).
    split.
    + intros (A1 & _ & A2); split; [|exact A2]; inversion A1 as [|? ? _ A3]; now inversion A3.
    + intros (A1 & A2); split; [constructor; [intros [J|J]; [discriminate|exact (NB J)]|now constructor]|split; [intros x _ []|exact A2]].
Qed.

Definition cs_wnames (m : var) : list string := if v_list m then [] else if stringb (v_type m) then [buffer_name m] else [].

Lemma cs_write_exact p t s : WF p -> plain_names p -> declares p t s ->
  (Legal false [] (cs_write_scope p s) <-> cs_c4 (s_members s)).
Proof.
  intros W PN D; pose proof (fun m => named_member p t s m W PN D) as N; pose proof (wf_member_nodup p W t s D) as ND.
  unfold cs_write_scope, cs_writer; rewrite flat_flat.
  rewrite (flat_map_same _ _ (s_members s) (fun m I => cs_write_declares p m W (N m I))).
  set (decls := fun m : var => _).
  replace (Local "bw" :: (if s_is_message s then [Local "tag"] else []) ++ flat_map decls (s_members s))
    with (map Local ("bw" :: if s_is_message s then ["tag"] else [])%string ++ flat_map decls (s_members s))
    by (destruct (s_is_message s); reflexivity).
  rewrite (cs_block [] _ decls cs_wnames)
    by (intro m; unfold decls, cs_wnames; destruct (v_list m), (stringb (v_type m)); reflexivity).
  set (pre := ("bw" :: _)%string).
  assert (P : forall x, In x pre -> x = "bw"%string \/ x = "tag"%string)
    by (unfold pre; destruct (s_is_message s); cbn [In]; intuition).
  assert (NP : NoDup pre) by (unfold pre; destruct (s_is_message s); repeat constructor; cbn; intuition discriminate).
  assert (NN : NoDup (flat_map cs_wnames (s_members s))).
  { apply NoDup_members; [assumption| |].
    - intros m _; unfold cs_wnames; destruct (v_list m), (stringb (v_type m)); repeat constructor; auto.
    - intros m m' x I I' X X'; unfold cs_wnames in X, X'.
      destruct (v_list m), (v_list m'), (stringb (v_type m)), (stringb (v_type m')); cbn [In] in X, X'; try tauto.
      destruct X as [<-|[]], X' as [X'|[]]; symmetry; now apply buffer_name_eq. }
  assert (BN : forall x, In x (flat_map cs_wnames (s_members s)) <->
     exists m, In m (s_members s) /\ v_list m = false /\ v_type m = "string"%string /\ x = buffer_name m).
  { intro x; rewrite in_flat_map; split.
    - intros (m & I & J); exists m; unfold cs_wnames in J; destruct (v_list m); [destruct J|].
      destruct (stringb (v_type m)) eqn:T; [|destruct J]; apply stringb_true in T; destruct J as [<-|[]]; auto.
    - intros (m & I & L & T & ->); exists m; split; [assumption|]; unfold cs_wnames; apply stringb_true in T; rewrite L, T; now left. }
  split.
  - intros (_ & _ & A) m m' I I' L' T' L T Q; apply stringb_true in T'.
    assert (J : In (Inner [Local "el"; Inner [Local "el_Buffer"]]) (decls m')) by (unfold decls; rewrite L', T'; now left).
    apply (A m' _ I') in J; apply (loop_legal _ "el" ["el_Buffer"]%string) in J as (_ & _ & J).
    destruct (J "el_Buffer"%string (or_introl eq_refl)) as (_ & K); apply K; rewrite !in_app_iff; left; right.
    apply BN; exists m; repeat split; auto; unfold buffer_name; rewrite Q; reflexivity.
  - intro C; split; [|split].
    + apply NoDup_both; repeat split; auto; intros x I J; apply BN in J as (m & _ & _ & _ & ->).
      apply P in I as [I|I]; revert I; apply buffer_name_long; cbn; lia.
    + intros x _ [].
    + intros m l I J; unfold decls in J; destruct (v_list m) eqn:L.
      * destruct J as [J|[]]; injection J as <-.
        assert (E : ~ In "el"%string ((pre ++ flat_map cs_wnames (s_members s)) ++ [])).
        { rewrite app_nil_r, in_app_iff; intros [J|J]; [apply P in J as [J|J]; discriminate|].
          apply BN in J as (m' & _ & _ & _ & J); symmetry in J; revert J; apply buffer_name_long; cbn; lia. }
        destruct (stringb (v_type m)) eqn:T.
        -- apply stringb_true in T.
           apply (loop_legal _ "el" ["el_Buffer"]%string); split; [assumption|split; [repeat constructor; auto|]].
           intros x [<-|[]]; split; [discriminate|]; rewrite app_nil_r, in_app_iff; intros [J|J]; [apply P in J as [J|J]; discriminate|].
           apply BN in J as (m' & I' & L' & T' & J).
           exact (C m' m I' I L T L' T' (eq_sym (proj1 (suffix_eq "el" _ "_Buffer" "_Buffer" eq_refl J)))).
        -- apply (loop_legal _ "el" []); split; [assumption|split; [constructor|intros x []]].
      * destruct (stringb (v_type m)); cbn [In] in J; intuition discriminate.
Qed.

Lemma cs_scopes_exact p ns : WF p -> plain_names p -> (cs_scopes ns p = true <-> cs_locals_free p).
Proof.
  intros W PN; unfold cs_scopes; rewrite scopes_iff; unfold cs_locals_free; split.
  - intro A.
    pose proof (fun t s D => proj1 (cs_read_exact p ns t s W PN D) (proj1 (A t s D))) as R.
    pose proof (fun t s D => proj1 (cs_write_exact p t s W PN D) (proj2 (A t s D))) as X.
    split; [intros t s m D|split; [|split]; intros t s m m' D].
    + exact (proj1 (R t s D) m).
    + exact (proj1 (proj2 (R t s D)) m m').
    + exact (proj2 (proj2 (R t s D)) m m').
    + exact (X t s D m m').
  - intros (A & B & C & E) t s D; split.
    + apply (cs_read_exact p ns t s W PN D); split; [|split].
      * intro m; exact (A t s m D).
      * intros m m'; exact (B t s m m' D).
      * intros m m'; exact (C t s m m' D).
    + apply (cs_write_exact p t s W PN D); intros m m'; exact (E t s m m' D).
Qed.

(** ** Members of a class *)
Lemma dup_app_false (a b : list string) : NoDup a -> NoDup b -> (NoDup (a ++ b) <-> forall x, In x a -> ~ In x b).
Proof. rewrite (NoDup_both a b); tauto. Qed.

Lemma cs_classes_exact p : WF p ->
  (cs_classes p = true <->
   members_avoid ["FromBytes"; "WriteBytes"] ["GetMessageType"; "GetSizeInBytes"] p /\ members_not_type p).
Proof.
  intro W; unfold cs_classes; rewrite forallb_forall.
  assert (Q : forall t s, declares p t s ->
    (negb (has_dup_str (cs_class_names s)) && negb (in_strs t (map v_name (s_members s))) = true <->
     forall m, In m (s_members s) -> (~ In (v_name m) ["FromBytes"; "WriteBytes"]%string /\
        (In (t, s) (p_messages p) -> ~ In (v_name m) ["GetMessageType"; "GetSizeInBytes"]%string)) /\ v_name m <> t)).
  { intros t s D; rewrite andb_true_iff, !negb_true_iff, has_dup_str_false, in_strs_false.
    assert (MM : s_is_message s = true <-> In (t, s) (p_messages p)).
    { split; [|intro I; apply (wf_message_entry p W) in I; tauto].
      destruct D as [D|D]; [apply (wf_struct_entry p W) in D as [_ D]; congruence|auto]. }
    unfold cs_class_names; rewrite dup_app_false;
      [|exact (wf_member_nodup p W t s D)|destruct (s_is_message s); repeat constructor; cbn; intuition discriminate].
    split.
    - intros [A B] m I; pose proof (A _ (in_map v_name _ _ I)) as A'; rewrite in_app_iff in A'; repeat split.
      + tauto.
      + intro M; apply MM in M; rewrite M in A'; tauto.
      + intros <-; apply B; now apply in_map.
    - intro A; split.
      + intros x I; apply in_map_iff in I as (m & <- & I); destruct (A m I) as ((A1 & A2) & _); rewrite in_app_iff.
        intros [J|J]; [|tauto]; destruct (s_is_message s); [apply A2 in J; tauto|destruct J].
      + intro I; apply in_map_iff in I as (m & E & I); now apply (A m I). }
  split.
  - intro A; assert (A' : forall t s, declares p t s -> _) by (intros t s D; exact (proj1 (Q t s D) (A (t, s) (proj2 (in_app_iff _ _ _) D)))).
    split; intros t s m D I; apply (A' t s D m I).
  - intros [A B] [t s] I; apply in_app_iff in I; apply (Q t s I); intros m J; split; [exact (A t s m I J)|exact (B t s m I J)].
Qed.

Lemma ts_classes_exact p : WF p ->
  (ts_classes p = true <-> members_avoid ["writeBytes"] ["getMessageType"; "getSizeInBytes"] p).
Proof.
  intro W; unfold ts_classes; rewrite forallb_forall.
  assert (Q : forall t s, declares p t s ->
    (negb (has_dup_str (ts_class_names s)) = true <->
     forall m, In m (s_members s) -> ~ In (v_name m) ["writeBytes"]%string /\
        (In (t, s) (p_messages p) -> ~ In (v_name m) ["getMessageType"; "getSizeInBytes"]%string))).
  { intros t s D; rewrite negb_true_iff, has_dup_str_false.
    assert (MM : s_is_message s = true <-> In (t, s) (p_messages p)).
    { split; [|intro I; apply (wf_message_entry p W) in I; tauto].
      destruct D as [D|D]; [apply (wf_struct_entry p W) in D as [_ D]; congruence|auto]. }
    unfold ts_class_names; rewrite dup_app_false;
      [|exact (wf_member_nodup p W t s D)|destruct (s_is_message s); repeat constructor; cbn; intuition discriminate].
    split.
    - intros A m I; pose proof (A _ (in_map v_name _ _ I)) as A'; rewrite in_app_iff in A'; split.
      + tauto.
      + intro M; apply MM in M; rewrite M in A'; tauto.
    - intros A x I; apply in_map_iff in I as (m & <- & I); destruct (A m I) as (A1 & A2); rewrite in_app_iff.
      intros [J|J]; [|tauto]; destruct (s_is_message s); [apply A2 in J; tauto|destruct J]. }
  split.
  - intro A; assert (A' : forall t s, declares p t s -> _) by (intros t s D; exact (proj1 (Q t s D) (A (t, s) (proj2 (in_app_iff _ _ _) D)))).
    intros t s m D I; apply (A' t s D m I).
  - intros A [t s] I; apply in_app_iff in I; apply (Q t s I); intros m J; exact (A t s m I J).
Qed.
