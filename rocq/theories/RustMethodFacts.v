(** The trait of Rust files and its implementations. *)
From Verif Require Export RustMethodSpec FieldFacts TopFacts.
From Verif Require Import RustTextFacts IndentFacts.
Open Scope string_scope.
Open Scope Z_scope.
Open Scope list_scope.

Lemma rust_looks_app a ls r : rust_looks a (ls ++ r) =
  let (b, n) := rust_looks a ls in let (c, m) := rust_looks b r in (c, n ++ m).
Proof.
  revert a; induction ls as [ |l ls IH]; intro a; cbn [app rust_looks]; [now destruct (rust_looks a r)| ].
  destruct (rust_look a l) as [b n]; rewrite IH; destruct (rust_looks b ls) as [c m]; destruct (rust_looks c r) as [d k].
  now rewrite app_assoc.
Qed.
Lemma rust_looks_inner ls : Forall (fun l => 1 <= fst l) ls -> rust_looks Beyond ls = (Beyond, []).
Proof.
  induction 1 as [ |l ls H F IH]; [reflexivity| ]; cbn [rust_looks]; unfold rust_look at 1.
  destruct (Z.eqb_spec (fst l) 0); [lia|cbn [negb]; now rewrite IH].
Qed.

(** From level [k] to [k'], [g] prints lines that declare [names]; the reader goes from
    [a] to [b]. *)
Definition views (g : gtext) (k k' : Z) (a b : rplace) (names : list mpart) : Prop :=
  exists ls, g k = Ret (ls, k') /\ rust_looks a ls = (b, names).

Lemma views_nil k a : views (block []) k k a a [].
Proof. exists []; split; reflexivity. Qed.
Lemma views_cons x r k k1 k2 a b c N1 N2 :
views x k k1 a b N1 -> views (block r) k1 k2 b c N2 -> views (block (x :: r)) k k2 a c (N1 ++ N2).
Proof.
  intros (l1 & E1 & T1) (l2 & E2 & T2); exists (l1 ++ l2).
  change (block (x :: r)) with (andthen x (block r)); unfold andthen; rewrite E1; cbn [pbind snd fst].
  rewrite E2; cbn [pbind fst snd]; split; [reflexivity| ].
  now rewrite rust_looks_app, T1, T2.
Qed.
Lemma views_line t s r k k2 a b c names N : t = Ret s -> rust_look a (k, s) = (b, names) ->
views (block r) k k2 b c N -> views (block (line t :: r)) k k2 a c (names ++ N).
Proof.
  intros -> E H; eapply views_cons; [ |exact H].
  exists [(k, s)]; split; [reflexivity| ]; cbn [rust_looks]; rewrite E; now rewrite app_nil_r.
Qed.
Lemma views_indent r k k1 k2 a c N : k + 1 = k1 ->
views (block r) k1 k2 a c N -> views (block (indent :: r)) k k2 a c N.
Proof. intros <- H; change N with ([] ++ N); eapply views_cons; [ |exact H]; exists []; split; reflexivity. Qed.
Lemma views_dedent r k k1 k2 a c N : k - 1 = k1 ->
views (block r) k1 k2 a c N -> views (block (dedent :: r)) k k2 a c N.
Proof. intros <- H; change N with ([] ++ N); eapply views_cons; [ |exact H]; exists []; split; reflexivity. Qed.
Lemma views_check r k k2 a c N : k = 0 ->
views (block r) k k2 a c N -> views (block (check_level :: r)) k k2 a c N.
Proof. intros -> H; change N with ([] ++ N); eapply views_cons; [ |exact H]; exists []; split; reflexivity. Qed.
Lemma views_skip r k k2 a c N : views (block r) k k2 a c N -> views (block (skip :: r)) k k2 a c N.
Proof. intro H; change N with ([] ++ N); eapply views_cons; [ |exact H]; exists []; split; reflexivity. Qed.
Lemma views_inside x r j j1 k2 c N : runs 1 x j j1 ->
views (block r) (1 + j1) k2 Beyond c N -> views (block (x :: r)) (1 + j) k2 Beyond c N.
Proof.
  intros (ls & E & F) H; change N with ([] ++ N); eapply views_cons; [ |exact H].
  exists ls; split; [exact E|now apply rust_looks_inner].
Qed.
Lemma views_flat l r k k2 a c N : views (block (l ++ r)) k k2 a c N -> views (block (block l :: r)) k k2 a c N.
Proof.
  revert k k2 a c N; induction l as [ |x l IH]; intros k k2 a c N H; [now apply views_skip| ].
  destruct H as (ls & E & T).
  change (andthen x (block (l ++ r)) k = Ret (ls, k2)) in E.
  apply andthen_ret in E as (l1 & k1 & l2 & Ea & E & ->).
  rewrite rust_looks_app in T; destruct (rust_looks a l1) as [b n] eqn:R1; destruct (rust_looks b l2) as [d m] eqn:R2.
  injection T as -> <-.
  destruct (IH k1 k2 b c m) as (l3 & E3 & T3); [now exists l2| ].
  change (andthen (block l) (block r) k1 = Ret (l3, k2)) in E3.
  apply andthen_ret in E3 as (l4 & k4 & l5 & E4 & E5 & ->).
  exists (l1 ++ l4 ++ l5); split; [ |now rewrite rust_looks_app, R1, T3].
  change (andthen (andthen x (block l)) (block r) k = Ret (l1 ++ l4 ++ l5, k2)).
  apply andthen_ret; exists (l1 ++ l4), k4, l5; split; [ |split; [exact E5|apply app_assoc]].
  apply andthen_ret; exists l1, k1, l4; auto.
Qed.
Lemma views_given {A} (m : pyres A) f r k k2 a c N : good m ->
  (forall x, m = Ret x -> views (block (f x :: r)) k k2 a c N) -> views (block (given m f :: r)) k k2 a c N.
Proof.
  intros [x E] H; destruct (H x E) as (ls & E1 & T); exists ls; split; [ |exact T].
  change (andthen (f x) (block r) k = Ret (ls, k2)) in E1.
  change (andthen (given m f) (block r) k = Ret (ls, k2)).
  unfold andthen, given in *; now rewrite E.
Qed.
Lemma views_each {A} (l : list A) f names k a :
  (forall x, In x l -> views (f x) k k a a (names x)) -> views (each l f) k k a a (flat_map names l).
Proof.
  unfold each; induction l as [ |x l IH]; intro H; cbn [map flat_map]; [apply views_nil| ].
  eapply views_cons; [apply H; now left|apply IH; intros y I; apply H; now right].
Qed.
Lemma views_given_one {A} (m : pyres A) f k k2 a c N : good m ->
  (forall x, m = Ret x -> views (f x) k k2 a c N) -> views (given m f) k k2 a c N.
Proof.
  intros [x E] H; destruct (H x E) as (ls & E1 & T); exists ls; split; [ |exact T].
  unfold given; now rewrite E.
Qed.
Lemma views_eq g k k' a b N N' : views g k k' a b N -> N = N' -> views g k k' a b N'.
Proof. now intros H <-. Qed.

Lemma views_block x k k2 a c N : views (block [x]) k k2 a c N -> views x k k2 a c N.
Proof.
  intros (ls & E & T); change (andthen x skip k = Ret (ls, k2)) in E.
  apply andthen_ret in E as (l1 & k1 & l2 & Ea & S & ->).
  unfold skip in S; injection S as <- E; rewrite E, app_nil_r in *; exists l1; auto.
Qed.



Lemma rust_looks_deep t ls : Forall (fun l => 2 <= fst l) ls -> rust_looks (Implementation t) ls = (Implementation t, []).
Proof.
  induction 1 as [ |l ls H F IH]; [reflexivity| ]; cbn [rust_looks]; unfold rust_look at 1.
  destruct (Z.eqb_spec (fst l) 0); [lia| ]; destruct (Z.eqb_spec (fst l) 1); [lia|cbn [andb]; now rewrite IH].
Qed.
Lemma views_deep x r j j1 k2 t c N : runs 2 x j j1 ->
  views (block r) (2 + j1) k2 (Implementation t) c N -> views (block (x :: r)) (2 + j) k2 (Implementation t) c N.
Proof.
  intros (ls & E & F) H; change N with ([] ++ N); eapply views_cons; [ |exact H].
  exists ls; split; [exact E|now apply rust_looks_deep].
Qed.
Lemma rest_after_app i : forall s x, rest_after i s = Some x -> s = i +++ x.
Proof.
  induction i as [ |a i IH]; intros s x H; cbn [rest_after] in H; [now injection H as ->| ].
  destruct s as [ |b s]; [discriminate| ]; destruct (Ascii.eqb_spec a b) as [->|_]; [ |discriminate].
  cbn [String.append]; f_equal; now apply IH.
Qed.
Lemma rust_look_type n : spaceless n -> rust_look Beyond (0, "impl " +++ (n +++ " {")) = (Beyond, []).
Proof.
  intros S; unfold rust_look, head_name; cbn [fst snd Z.eqb].
  replace (String.eqb ("impl " +++ (n +++ " {")) "pub trait MessageCodec {") with false by reflexivity.
  destruct (rest_after "impl MessageCodec for " ("impl " +++ (n +++ " {"))) as [x| ] eqn:R; [exfalso|reflexivity].
  change (rest_after "MessageCodec for " (n +++ " {") = Some x) in R; apply rest_after_app in R.
  assert (K : to_space (n +++ " {") = to_space ("MessageCodec for " +++ x)) by now rewrite R.
  rewrite to_space_app in K by exact S; change (to_space ("MessageCodec for " +++ x)) with ("MessageCodec", " for " +++ x) in K.
  discriminate.
Qed.
Lemma rust_look_impl n : spaceless n -> rust_look Beyond (0, "impl MessageCodec for " +++ (n +++ " {")) = (Implementation n, []).
Proof.
  intros S; unfold rust_look, head_name; cbn [fst snd Z.eqb].
  replace (String.eqb ("impl MessageCodec for " +++ (n +++ " {")) "pub trait MessageCodec {") with false by reflexivity.
  change (rest_after "impl MessageCodec for " ("impl MessageCodec for " +++ (n +++ " {"))) with (Some (n +++ " {")).
  cbv beta iota; rewrite to_space_app by exact S; cbv beta iota; rewrite String.eqb_refl; now rewrite before_all.
Qed.

Ltac view_line := vm_compute; reflexivity.
Ltac view_more := fail.
Ltac view :=
  cbv beta zeta;
  lazymatch goal with
  | |- views (block []) _ _ _ _ _ => apply views_nil
  | |- views (block (indent :: _)) ?k _ _ _ _ =>
      let v := eval vm_compute in (k + 1) in apply (views_indent _ k v _ _ _ _ eq_refl); view
  | |- views (block (dedent :: _)) ?k _ _ _ _ =>
      let v := eval vm_compute in (k - 1) in apply (views_dedent _ k v _ _ _ _ eq_refl); view
  | |- views (block (check_level :: _)) _ _ _ _ _ => apply views_check; [reflexivity|view]
  | |- views (block (skip :: _)) _ _ _ _ _ => apply views_skip; view
  | |- views (block (blank :: _)) ?k _ _ _ _ => unfold blank at 1; view
  | |- views (block (line _ :: _)) 0 _ _ _ _ => eapply views_line; [known_text|first [apply rust_look_type; assumption|apply rust_look_impl; assumption|view_line]|view]
  | |- views (block (when true _ :: _)) _ _ _ _ _ => cbn [when]; view
  | |- views (block (when false _ :: _)) _ _ _ _ _ => cbn [when]; view
  | |- views (block (block _ :: _)) _ _ _ _ _ => apply views_flat; cbn [app]; view
  | |- views (block (?x :: _)) ?k _ _ _ _ =>
      first
        [ view_more; view
        | lazymatch goal with |- views (block (line _ :: _)) 1 _ (Implementation _) _ _ => idtac end;
          eapply views_line; [known_text|view_line|view]
        | lazymatch goal with |- views _ _ _ (Implementation _) _ _ => idtac end;
          let j := eval vm_compute in (k - 2) in
          let ok := eval vm_compute in (0 <=? j) in
          match ok with true => idtac end;
          change k with (2 + j); eapply views_deep; [solve [run]| ];
          match goal with |- views _ ?k1 _ _ _ _ => let v := eval vm_compute in k1 in change k1 with v end; view
        | let j := eval vm_compute in (k - 1) in
          let ok := eval vm_compute in (0 <=? j) in
          match ok with true => idtac end;
          change k with (1 + j); eapply views_inside; [solve [run]| ];
          match goal with |- views _ ?k1 _ _ _ _ => let v := eval vm_compute in k1 in change k1 with v end; view
        | match x with
          | when ?b _ => known_if b; view
          | (if ?b then _ else _) => known_if b; view
          | given _ _ => apply views_given; [good|intros; view]
          | (let (_, _) := ?y in _) => destruct y; view
          end
        | idtac ]
  | |- _ => idtac
  end.



(** ** Boilerplate *)

Lemma without_blanks_repeat k b r : blanks b = true -> without_blanks (repeat_str k b +++ r) = without_blanks r.
Proof.
  intro B; pose proof (blanks_repeat k b B) as R; revert R; generalize (repeat_str k b); clear; intro s.
  induction s as [ |c s IH]; intro B; [reflexivity| ]; cbn [blanks] in B; apply andb_true_iff in B as [C B].
  cbn [String.append without_blanks]; rewrite C; now apply IH.
Qed.
Lemma rust_look_blank c r : blank_char c = true -> rust_look Beyond (0, String c r) = (Beyond, []) /\
  rust_look Trait (0, String c r) = (Trait, map (Demands "MessageCodec") (declared ["fn "] (without_blanks r))).
Proof.
  intro C; split; revert C; unfold blank_char; rewrite orb_true_iff, !Ascii.eqb_eq; intros [->| ->]; reflexivity.
Qed.
Lemma rust_look_reindent native tab a l : a = Beyond \/ a = Trait -> blanks native = true -> native <> "" -> blanks tab = true -> tab <> "" ->
  rust_look a (0, replace_indent native tab l) = rust_look a (0, l).
Proof.
  intros A Bn Nn Bt Nt; destruct (replace_indent_spec native tab l Nn) as (k & r & -> & _ & ->).
  destruct k as [ |k]; [reflexivity| ].
  assert (X : forall t, blanks t = true -> t <> "" -> rust_look a (0, repeat_str (Datatypes.S k) t +++ r) =
    match a with Beyond => (Beyond, []) | _ => (Trait, map (Demands "MessageCodec") (declared ["fn "] (without_blanks r))) end).
  { clear - A; intros t B N; pose proof (without_blanks_repeat (Datatypes.S k) t r B) as V.
    pose proof (blanks_repeat (Datatypes.S k) t B) as Y.
    destruct (repeat_str (Datatypes.S k) t) as [ |c b] eqn:Z; [destruct t; [congruence|discriminate]| ].
    cbn [blanks] in Y; apply andb_true_iff in Y as [C _]; cbn [String.append] in *.
    destruct (rust_look_blank c (b +++ r) C) as [L1 L2]; destruct A as [-> | ->]; [exact L1|rewrite L2; do 3 f_equal].
    cbn [without_blanks] in V; now rewrite C in V. }
  rewrite !X by assumption; reflexivity.
Qed.
Definition not_codec (l : string) : bool := match head_name ("impl MessageCodec for ", "", " {") l with None => true | _ => false end.
Lemma rust_looks_reindent native tab : blanks native = true -> native <> "" -> blanks tab = true -> tab <> "" ->
  forall ls a, a = Beyond \/ a = Trait -> forallb not_codec ls = true ->
  rust_looks a (map (fun l => (0, l)) (map (replace_indent native tab) ls)) = rust_looks a (map (fun l => (0, l)) ls).
Proof.
  intros Bn Nn Bt Nt; induction ls as [ |l ls IH]; intros a A L; [reflexivity| ]; cbn [map rust_looks forallb] in *.
  apply andb_true_iff in L as [L1 L]; rewrite rust_look_reindent by assumption.
  destruct (rust_look a (0, l)) as [b n] eqn:G; rewrite IH; [reflexivity| |exact L].
  revert G; unfold not_codec in L1; destruct A as [-> | ->]; unfold rust_look; cbn [fst snd Z.eqb].
  - destruct (head_name _ l); [discriminate| ]; destruct (String.eqb l _); intro G; injection G as <- <-; auto.
  - destruct (String.eqb l "}"); intro G; injection G as <- <-; auto.
Qed.

Section Methods.
Variable p : protocol.
Variable g : settings.
Hypothesis T : text_ok p.
Hint Resolve rst_types_ok rst_types_base rst_gen_measurement_ok : text.
Hint Resolve rst_deserializer_nested rst_serializer_nested : text.
Hint Resolve rst_gen_enum_nested rst_gen_struct_nested : text.
Hypothesis SP : forall t, In t (types_in_order p) -> spaceless t.

Definition type_codec (t : string * struct) : list mpart :=
  if s_is_message (snd t) then map (Offers (fst t)) codec_functions else [].
Lemma rst_gen_enum_views ename e : In (ename, e) (p_enums p) -> views (rst_gen_enum p g ename e) 0 0 Beyond Beyond [].
Proof.
  intros I; assert (N1 : 0 <= 1) by lia.
  pose proof (tk_enums p T ename e I : fine_enum e) as F; unfold rst_gen_enum.
  destruct (rst_types_base p _ (fine_encoding e F)) as [x ->].
  eapply views_eq; [view|reflexivity].
Qed.
Lemma rst_gen_struct_views sname s : declares p sname s -> spaceless sname ->
  views (rst_gen_struct p g sname s) 0 0 Beyond Beyond (type_codec (sname, s)).
Proof.
  intros D SE; assert (N1 : 0 <= 1) by lia; assert (N2 : 0 <= 2) by lia; pose proof (tk_name p T sname s D) as E.
  unfold rst_gen_struct, type_codec; cbv zeta; cbn [fst snd].
  destruct (s_is_message s) eqn:M, (Z.of_nat (List.length (s_members s)) =? 0); cbn [when].
  all: eapply views_eq; [view|reflexivity].
Qed.

Hypothesis U : g_tab g <> "" /\ blanks (g_tab g) = true.
Hypothesis E : g_embed g = false.
Hypothesis F : g_files g = rust_files.

Lemma rst_boilerplate_views :
  views (given (rst_types p (p_string_size_type p)) (fun string_size =>
      add_boilerplate "    " (g_tab g) (rst_substitutions g string_size) (g_files g (-1)))) 0 0 Beyond Beyond
    (map (Demands "MessageCodec") codec_functions).
Proof.
  pose proof (tk_string p T) as S; destruct U as [U1 U2]; rewrite F.
  apply views_given_one; [eauto with text|intros a Ga].
  unfold add_boilerplate, boilerplate_lines; eexists; split; [apply each_lines| ].
  assert (L : forallb not_codec (fold_left substitute (rst_substitutions g a) (rust_files (-1))) = true /\
              rust_looks Beyond (map (fun l => (0, l)) (fold_left substitute (rst_substitutions g a) (rust_files (-1)))) =
                (Beyond, map (Demands "MessageCodec") codec_functions)).
  { clear - S Ga; unfold rst_types, mapping in Ga; unfold rst_substitutions.
    destruct (g_namespace g) as [ns| ] eqn:G; clear G; cbn in S; decompose [or] S; clear S; try contradiction;
      match goal with X : _ = p_string_size_type p |- _ => rewrite <- X in * end;
      vm_compute in Ga; injection Ga as <-; (split; vm_compute; reflexivity). }
  destruct L as [L1 L2]; rewrite rust_looks_reindent; auto; discriminate.
Qed.
Hint Resolve spaceless_struct spaceless_message : text.
Ltac view_more ::=
  match goal with
  | |- views (block (given _ (fun _ => add_boilerplate _ _ _ _) :: _)) _ _ _ _ _ => eapply views_cons; [apply rst_boilerplate_views| ]
  | |- views (block (each (p_enums _) _ :: _)) 0 _ _ _ _ =>
      eapply views_cons; [apply (views_each _ _ (fun _ => [])); intros [? ?] ?; now apply rst_gen_enum_views| ]
  | |- views (block (each _ (fun '(t, x) => rst_gen_struct _ _ t x) :: _)) 0 _ _ _ _ =>
      eapply views_cons; [apply (views_each _ _ type_codec); intros [? ?] ?; apply rst_gen_struct_views; eauto with text| ]
  end.
Lemma no_codec {A} (l : list A) : flat_map (fun _ => @nil mpart) l = [].
Proof. induction l; [reflexivity|assumption]. Qed.
Lemma rst_generate_views : views (rst_generate p g) 0 0 Beyond Beyond
  (map (Demands "MessageCodec") codec_functions ++ map (Offers "Message") codec_functions ++
   flat_map type_codec (p_structs p) ++ flat_map type_codec (p_messages p)).
Proof.
  assert (N1 : 0 <= 1) by lia; assert (N2 : 0 <= 2) by lia.
  eapply views_eq; [unfold rst_generate; cbv zeta; rewrite E; cbn [when]; view| ].
  rewrite no_codec, !app_nil_r; reflexivity.
Qed.
End Methods.

Lemma rust_structs_codec l : (forall n s, In (n, s) l -> s_is_message s = false) -> flat_map type_codec l = [].
Proof.
  induction l as [ |[n s] l IH]; intro H; [reflexivity| ]; cbn [flat_map]; rewrite IH by (intros; eapply H; right; eassumption).
  unfold type_codec; cbn [fst snd]; now rewrite (H n s) by now left.
Qed.
Lemma rust_messages_codec l : (forall n s, In (n, s) l -> s_is_message s = true) ->
  flat_map type_codec l = flat_map (fun t => map (Offers t) codec_functions) (map fst l).
Proof.
  induction l as [ |[n s] l IH]; intro H; [reflexivity| ]; cbn [flat_map map]; rewrite IH by (intros; eapply H; right; eassumption).
  unfold type_codec; cbn [fst snd]; now rewrite (H n s) by now left.
Qed.
Lemma rust_generate_views p g : text_ok p -> usual "rust" g -> (forall t, In t (types_in_order p) -> spaceless t) ->
  (forall n s, In (n, s) (p_structs p) -> s_is_message s = false) ->
  (forall n s, In (n, s) (p_messages p) -> s_is_message s = true) -> rust_file_methods p g (rust_method_parts p).
Proof.
  intros T (E & N & B & F) W S M; set (q := rs_protocol (negb (g_flag g)) p).
  assert (Q : map fst (p_messages q) = map fst (p_messages p) /\ text_ok q /\ (forall t, In t (types_in_order q) -> spaceless t) /\
    (forall n s, In (n, s) (p_structs q) -> s_is_message s = false) /\ (forall n s, In (n, s) (p_messages q) -> s_is_message s = true)).
  { subst q; unfold rs_protocol; destruct (negb (g_flag g)); [ |auto]; split; [ |split; [now apply text_ok_renamed|split]].
    - cbn [p_messages rename_members]; rewrite map_map; apply map_ext; now intros [n s].
    - intros t I; apply W; revert I; unfold types_in_order; cbn [p_enums p_structs p_messages rename_members]; now rewrite !rename_names.
    - cbn [p_structs p_messages rename_members]; split; intros n s I; apply in_map_iff in I as ([n' s'] & X & I); injection X as <- <-;
        [exact (S n' s' I)|exact (M n' s' I)]. }
  destruct Q as (Q & TQ & WQ & SQ & MQ).
  pose proof (rst_generate_views q g TQ WQ (conj N B) E F) as H.
  rewrite rust_structs_codec, (rust_messages_codec (p_messages q)), Q in H by assumption; exact H.
Qed.
