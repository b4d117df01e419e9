(** The interfaces and methods of Go files. *)
From Verif Require Export GoMethodSpec FieldFacts TopFacts.
From Verif Require Import GoTextFacts IndentFacts CDeclFacts.
Open Scope string_scope.
Open Scope Z_scope.
Open Scope list_scope.

Lemma method_looks_app a ls r : method_looks a (ls ++ r) =
  let (b, n) := method_looks a ls in let (c, m) := method_looks b r in (c, n ++ m).
Proof.
  revert a; induction ls as [ |l ls IH]; intro a; cbn [app method_looks]; [now destruct (method_looks a r)| ].
  destruct (method_look a l) as [b n]; rewrite IH; destruct (method_looks b ls) as [c m]; destruct (method_looks c r) as [d k].
  now rewrite app_assoc.
Qed.
Lemma method_looks_inner ls : Forall (fun l => 1 <= fst l) ls -> method_looks Elsewhere ls = (Elsewhere, []).
Proof.
  induction 1 as [ |l ls H F IH]; [reflexivity| ]; cbn [method_looks]; unfold method_look at 1.
  destruct (Z.eqb_spec (fst l) 0); [lia|cbn [negb]; now rewrite IH].
Qed.

(** From level [k] to [k'], [g] prints lines that declare [names]; the reader goes from
    [a] to [b]. *)
Definition meets (g : gtext) (k k' : Z) (a b : mplace) (names : list mpart) : Prop :=
  exists ls, g k = Ret (ls, k') /\ method_looks a ls = (b, names).

Lemma meets_nil k a : meets (block []) k k a a [].
Proof. exists []; split; reflexivity. Qed.
Lemma meets_cons x r k k1 k2 a b c N1 N2 :
meets x k k1 a b N1 -> meets (block r) k1 k2 b c N2 -> meets (block (x :: r)) k k2 a c (N1 ++ N2).
Proof.
  intros (l1 & E1 & T1) (l2 & E2 & T2); exists (l1 ++ l2).
  change (block (x :: r)) with (andthen x (block r)); unfold andthen; rewrite E1; cbn [pbind snd fst].
  rewrite E2; cbn [pbind fst snd]; split; [reflexivity| ].
  now rewrite method_looks_app, T1, T2.
Qed.
Lemma meets_line t s r k k2 a b c names N : t = Ret s -> method_look a (k, s) = (b, names) ->
meets (block r) k k2 b c N -> meets (block (line t :: r)) k k2 a c (names ++ N).
Proof.
  intros -> E H; eapply meets_cons; [ |exact H].
  exists [(k, s)]; split; [reflexivity| ]; cbn [method_looks]; rewrite E; now rewrite app_nil_r.
Qed.
Lemma meets_indent r k k1 k2 a c N : k + 1 = k1 ->
meets (block r) k1 k2 a c N -> meets (block (indent :: r)) k k2 a c N.
Proof. intros <- H; change N with ([] ++ N); eapply meets_cons; [ |exact H]; exists []; split; reflexivity. Qed.
Lemma meets_dedent r k k1 k2 a c N : k - 1 = k1 ->
meets (block r) k1 k2 a c N -> meets (block (dedent :: r)) k k2 a c N.
Proof. intros <- H; change N with ([] ++ N); eapply meets_cons; [ |exact H]; exists []; split; reflexivity. Qed.
Lemma meets_check r k k2 a c N : k = 0 ->
meets (block r) k k2 a c N -> meets (block (check_level :: r)) k k2 a c N.
Proof. intros -> H; change N with ([] ++ N); eapply meets_cons; [ |exact H]; exists []; split; reflexivity. Qed.
Lemma meets_skip r k k2 a c N : meets (block r) k k2 a c N -> meets (block (skip :: r)) k k2 a c N.
Proof. intro H; change N with ([] ++ N); eapply meets_cons; [ |exact H]; exists []; split; reflexivity. Qed.
Lemma meets_inside x r j j1 k2 c N : runs 1 x j j1 ->
meets (block r) (1 + j1) k2 Elsewhere c N -> meets (block (x :: r)) (1 + j) k2 Elsewhere c N.
Proof.
  intros (ls & E & F) H; change N with ([] ++ N); eapply meets_cons; [ |exact H].
  exists ls; split; [exact E|now apply method_looks_inner].
Qed.
Lemma meets_flat l r k k2 a c N : meets (block (l ++ r)) k k2 a c N -> meets (block (block l :: r)) k k2 a c N.
Proof.
  revert k k2 a c N; induction l as [ |x l IH]; intros k k2 a c N H; [now apply meets_skip| ].
  destruct H as (ls & E & T).
  change (andthen x (block (l ++ r)) k = Ret (ls, k2)) in E.
  apply andthen_ret in E as (l1 & k1 & l2 & Ea & E & ->).
  rewrite method_looks_app in T; destruct (method_looks a l1) as [b n] eqn:R1; destruct (method_looks b l2) as [d m] eqn:R2.
  injection T as -> <-.
  destruct (IH k1 k2 b c m) as (l3 & E3 & T3); [now exists l2| ].
  change (andthen (block l) (block r) k1 = Ret (l3, k2)) in E3.
  apply andthen_ret in E3 as (l4 & k4 & l5 & E4 & E5 & ->).
  exists (l1 ++ l4 ++ l5); split; [ |now rewrite method_looks_app, R1, T3].
  change (andthen (andthen x (block l)) (block r) k = Ret (l1 ++ l4 ++ l5, k2)).
  apply andthen_ret; exists (l1 ++ l4), k4, l5; split; [ |split; [exact E5|apply app_assoc]].
  apply andthen_ret; exists l1, k1, l4; auto.
Qed.
Lemma meets_given {A} (m : pyres A) f r k k2 a c N : good m ->
  (forall x, m = Ret x -> meets (block (f x :: r)) k k2 a c N) -> meets (block (given m f :: r)) k k2 a c N.
Proof.
  intros [x E] H; destruct (H x E) as (ls & E1 & T); exists ls; split; [ |exact T].
  change (andthen (f x) (block r) k = Ret (ls, k2)) in E1.
  change (andthen (given m f) (block r) k = Ret (ls, k2)).
  unfold andthen, given in *; now rewrite E.
Qed.
Lemma meets_each {A} (l : list A) f names k a :
  (forall x, In x l -> meets (f x) k k a a (names x)) -> meets (each l f) k k a a (flat_map names l).
Proof.
  unfold each; induction l as [ |x l IH]; intro H; cbn [map flat_map]; [apply meets_nil| ].
  eapply meets_cons; [apply H; now left|apply IH; intros y I; apply H; now right].
Qed.
Lemma meets_given_one {A} (m : pyres A) f k k2 a c N : good m ->
  (forall x, m = Ret x -> meets (f x) k k2 a c N) -> meets (given m f) k k2 a c N.
Proof.
  intros [x E] H; destruct (H x E) as (ls & E1 & T); exists ls; split; [ |exact T].
  unfold given; now rewrite E.
Qed.
Lemma meets_eq g k k' a b N N' : meets g k k' a b N -> N = N' -> meets g k k' a b N'.
Proof. now intros H <-. Qed.

Lemma meets_block x k k2 a c N : meets (block [x]) k k2 a c N -> meets x k k2 a c N.
Proof.
  intros (ls & E & T); change (andthen x skip k = Ret (ls, k2)) in E.
  apply andthen_ret in E as (l1 & k1 & l2 & Ea & S & ->).
  unfold skip in S; injection S as <- E; rewrite E, app_nil_r in *; exists l1; auto.
Qed.


Lemma no_receiver w c r : word w = true -> Ascii.eqb "(" c = false -> rest_after "func (" ("func " +++ (w +++ String c r)) = None.
Proof.
  intros V C; cbn [rest_after Ascii.eqb Bool.eqb String.append]; destruct w as [ |a w].
  - cbn [String.append rest_after]; change ((if Ascii.eqb "(" c then Some r else None) = None); now rewrite C.
  - cbn [word] in V; apply andb_true_iff in V as [V _].
    change ((if Ascii.eqb "(" a then Some (w +++ String c r) else None) = None).
    destruct (Ascii.eqb_spec "(" a) as [<-|_]; [discriminate|reflexivity].
Qed.
Lemma method_look_func w c r : word w = true -> Ascii.eqb "(" c = false ->
  method_look Elsewhere (0, "func " +++ (w +++ String c r)) = (Elsewhere, []).
Proof.
  intros V C; unfold method_look, method_line; cbn [fst snd]; rewrite no_receiver by assumption; reflexivity.
Qed.
Lemma method_look_type n x : spaceless n -> String.eqb x "interface {" = false ->
  method_look Elsewhere (0, "type " +++ (n +++ (" " +++ x))) = (Elsewhere, []).
Proof.
  intros S X; unfold method_look, head_name, method_line; cbn [fst snd Z.eqb rest_after String.append Ascii.eqb Bool.eqb].
  rewrite to_space_app by exact S; cbn [String.eqb Ascii.eqb Bool.eqb]; now rewrite X.
Qed.
Lemma spaceless_paren n r : spaceless n -> to_space (n +++ String ")" (String " " r)) = (n +++ ")", String " " r).
Proof.
  unfold spaceless; induction n as [ |c n IH]; cbn [String.append to_space]; [reflexivity| ].
  destruct (Ascii.eqb_spec c " ") as [->|_]; [discriminate| ].
  destruct (to_space n) as [x y]; intro E; injection E as -> ->; rewrite IH by reflexivity; reflexivity.
Qed.
Lemma method_look_method n r m : spaceless n -> before " {" r = Some m ->
  method_look Elsewhere (0, "func (output " +++ (n +++ String ")" (String " " r))) = (Elsewhere, [Offers n m]).
Proof.
  intros S B; unfold method_look, head_name, method_line; cbn [fst snd Z.eqb rest_after String.append Ascii.eqb Bool.eqb].
  cbn [to_space Ascii.eqb Bool.eqb fst snd rest_after]; rewrite spaceless_paren by exact S.
  rewrite before_app; cbn [rest_after Ascii.eqb Bool.eqb]; now rewrite B.
Qed.
Ltac meet_line := vm_compute; reflexivity.
Ltac meet_more := fail.
Ltac meet :=
  cbv beta zeta;
  lazymatch goal with
  | |- meets (block []) _ _ _ _ _ => apply meets_nil
  | |- meets (block (indent :: _)) ?k _ _ _ _ =>
      let v := eval vm_compute in (k + 1) in apply (meets_indent _ k v _ _ _ _ eq_refl); meet
  | |- meets (block (dedent :: _)) ?k _ _ _ _ =>
      let v := eval vm_compute in (k - 1) in apply (meets_dedent _ k v _ _ _ _ eq_refl); meet
  | |- meets (block (check_level :: _)) _ _ _ _ _ => apply meets_check; [reflexivity|meet]
  | |- meets (block (skip :: _)) _ _ _ _ _ => apply meets_skip; meet
  | |- meets (block (blank :: _)) ?k _ _ _ _ => unfold blank at 1; meet
  | |- meets (block (line _ :: _)) 0 _ _ _ _ => eapply meets_line; [known_text|first [apply method_look_func; [assumption|reflexivity]|apply method_look_type; [assumption|reflexivity]|apply method_look_method; [assumption|vm_compute; reflexivity]|meet_line]|meet]
  | |- meets (block (when true _ :: _)) _ _ _ _ _ => cbn [when]; meet
  | |- meets (block (when false _ :: _)) _ _ _ _ _ => cbn [when]; meet
  | |- meets (block (block _ :: _)) _ _ _ _ _ => apply meets_flat; cbn [app]; meet
  | |- meets (block (?x :: _)) ?k _ _ _ _ =>
      first
        [ meet_more; meet
        | let j := eval vm_compute in (k - 1) in
          let ok := eval vm_compute in (0 <=? j) in
          match ok with true => idtac end;
          change k with (1 + j); eapply meets_inside; [solve [run]| ];
          match goal with |- meets _ ?k1 _ _ _ _ => let v := eval vm_compute in k1 in change k1 with v end; meet
        | match x with
          | when ?b _ => known_if b; meet
          | (if ?b then _ else _) => known_if b; meet
          | given _ _ => apply meets_given; [good|intros; meet]
          | (let (_, _) := ?y in _) => destruct y; meet
          end
        | idtac ]
  | |- _ => idtac
  end.


(** ** Boilerplate *)

Lemma method_looks_reindent native tab : blanks native = true -> native <> "" -> blanks tab = true -> tab <> "" ->
  forall ls, method_looks Elsewhere (map (fun l => (0, l)) ls) = (Elsewhere, []) ->
  Forall (fun l => method_look Elsewhere (0, l) = (Elsewhere, [])) ls ->
  method_looks Elsewhere (map (fun l => (0, l)) (map (replace_indent native tab) ls)) = (Elsewhere, []).
Proof.
  intros Bn Nn Bt Nt ls _ F; induction F as [ |l ls L F IH]; [reflexivity| ]; cbn [map method_looks].
  replace (method_look Elsewhere (0, replace_indent native tab l)) with (Elsewhere, @nil mpart); [now rewrite IH| ].
  symmetry; destruct (replace_indent_spec native tab l Nn) as (k & r & -> & _ & ->).
  destruct k as [ |k]; [exact L| ]; clear - Bt Nt.
  destruct tab as [ |c t]; [congruence| ]; cbn [blanks] in Bt; apply andb_true_iff in Bt as [C _].
  cbn [repeat_str String.append]; revert C; unfold blank_char; rewrite orb_true_iff, !Ascii.eqb_eq; intros [->| ->]; reflexivity.
Qed.

Section Methods.
Variable p : protocol.
Variable g : settings.
Hypothesis T : text_ok p.
Hint Resolve got_types_ok got_types_base got_gen_measurement_ok and_true_l : text.
Hint Resolve got_deserializer_nested got_serializer_nested : text.
Hint Resolve got_gen_enum_nested got_gen_struct_nested : text.
Hypothesis W : word_types p.

Lemma got_encoding_plain t : In t base_types -> exists x, got_types p t = Ret x /\ String.eqb x "interface {" = false.
Proof.
  intro B; cbn in B; decompose [or] B; subst; try contradiction; (eexists; split; [reflexivity|reflexivity]).
Qed.
Definition type_methods (t : string * struct) : list mpart :=
  if s_is_message (snd t) then map (Offers (fst t)) message_methods else [Offers (fst t) "WriteBytes(data io.Writer)"].
Lemma got_gen_enum_meets ename e : In (ename, e) (p_enums p) ->
  meets (got_gen_enum p ename e) 0 0 Elsewhere Elsewhere [].
Proof.
  intros I; assert (N1 : 0 <= 1) by lia; pose proof (word_enum p ename e W I) as WE; pose proof (word_spaceless _ WE) as SE.
  pose proof (tk_enums p T ename e I : fine_enum e) as F; unfold got_gen_enum.
  destruct (got_encoding_plain _ (fine_encoding e F)) as (x & -> & X).
  eapply meets_given_one; [now apply longest_fine|intros l L].
  eapply meets_eq; [eapply meets_line; [known_text|rewrite ?append_empty; now apply method_look_type|meet]|reflexivity].
Qed.
Lemma got_gen_struct_meets sname s : declares p sname s -> word sname = true ->
  meets (got_gen_struct p g sname s) 0 0 Elsewhere Elsewhere (type_methods (sname, s)).
Proof.
  intros D WS; assert (N1 : 0 <= 1) by lia; pose proof (tk_name p T sname s D) as E; pose proof (word_spaceless _ WS) as SE.
  unfold got_gen_struct, type_methods; cbv zeta; rewrite E; cbn [fst snd].
  destruct (s_is_message s) eqn:M; cbn [when].
  all: eapply meets_eq; [meet|reflexivity].
Qed.

Hypothesis U : g_tab g <> "" /\ blanks (g_tab g) = true.
Hypothesis E : g_embed g = false.
Hypothesis F : g_files g = go_files.

Lemma got_boilerplate_meets :
  meets (given (got_types p (p_string_size_type p)) (fun string_size =>
      add_boilerplate got_tab (g_tab g) (got_substitutions g string_size) (g_files g (-1)))) 0 0 Elsewhere Elsewhere [].
Proof.
  pose proof (tk_string p T) as S; destruct U as [U1 U2]; rewrite F.
  apply meets_given_one; [eauto with text|intros a Ga].
  unfold add_boilerplate, boilerplate_lines; eexists; split; [apply each_lines| ].
  assert (L : Forall (fun l => method_look Elsewhere (0, l) = (Elsewhere, []))
                (fold_left substitute (got_substitutions g a) (go_files (-1)))).
  { clear - S Ga; unfold got_types, mapping in Ga; unfold got_substitutions.
    generalize (snake (or_none (g_namespace g))) (or_none (g_namespace g)); intros low ns.
    cbn in S; decompose [or] S; clear S; try contradiction;
      match goal with X : _ = p_string_size_type p |- _ => rewrite <- X in * end;
      vm_compute in Ga; injection Ga as <-; destruct (has_namespace g), (negb (g_flag g)); vm_compute;
      repeat (constructor; [reflexivity| ]); constructor. }
  apply method_looks_reindent; auto; try reflexivity; try discriminate.
  clear - L; induction L as [ |l ls H F IH]; [reflexivity| ]; cbn [map method_looks]; now rewrite H, IH.
Qed.
Ltac meet_more ::=
  match goal with
  | |- meets (block (given _ (fun _ => add_boilerplate _ _ _ _) :: _)) _ _ _ _ _ => eapply meets_cons; [apply got_boilerplate_meets| ]
  | |- meets (block (line _ :: _)) 1 _ (Listing _) _ _ => eapply meets_line; [known_text|reflexivity| ]
  | |- meets (block (each (p_enums _) _ :: _)) 0 _ _ _ _ =>
      eapply meets_cons; [apply (meets_each _ _ (fun _ => [])); intros [? ?] ?; now apply got_gen_enum_meets| ]
  | |- meets (block (each _ _ :: _)) 0 _ _ _ _ =>
      eapply meets_cons; [apply (meets_each _ _ type_methods); intros [? ?] ?; apply got_gen_struct_meets; eauto with text| ]
  end.
Lemma no_parts {A} (l : list A) : flat_map (fun _ => @nil mpart) l = [].
Proof. induction l; [reflexivity|assumption]. Qed.
Lemma got_generate_meets : meets (got_generate p g) 0 0 Elsewhere Elsewhere
  ([Demands "Message" "GetMessageType() MessageType"; Demands "Message" "WriteBytes(data io.Writer, tag bool)";
    Demands "Message" "GetSizeInBytes() int"] ++
   flat_map type_methods (p_structs p) ++ flat_map type_methods (p_messages p)).
Proof.
  assert (N1 : 0 <= 1) by lia; eapply meets_eq; [unfold got_generate; cbv zeta; rewrite E; cbn [when]; meet| ].
  rewrite no_parts, !app_nil_r; reflexivity.
Qed.
End Methods.

Lemma renamed_types f p : types_in_order (rename_members f p) = types_in_order p.
Proof. unfold types_in_order; cbn [p_enums p_structs p_messages rename_members]; now rewrite !rename_names. Qed.
Lemma go_structs_methods l : (forall n s, In (n, s) l -> s_is_message s = false) ->
  flat_map type_methods l = map (fun t => Offers (fst t) "WriteBytes(data io.Writer)") l.
Proof.
  induction l as [ |[n s] l IH]; intro H; [reflexivity| ]; cbn [flat_map map]; rewrite IH by (intros; eapply H; right; eassumption).
  unfold type_methods; cbn [fst snd]; now rewrite (H n s) by now left.
Qed.
Lemma go_messages_methods l : (forall n s, In (n, s) l -> s_is_message s = true) ->
  flat_map type_methods l = flat_map (fun t => map (Offers (fst t)) message_methods) l.
Proof.
  induction l as [ |[n s] l IH]; intro H; [reflexivity| ]; cbn [flat_map]; rewrite IH by (intros; eapply H; right; eassumption).
  unfold type_methods; cbn [fst snd]; now rewrite (H n s) by now left.
Qed.
Lemma go_renamed_methods f p : go_method_parts (rename_members f p) = go_method_parts p.
Proof.
  unfold go_method_parts; cbn [p_structs p_messages rename_members]; do 2 f_equal.
  - rewrite map_map; apply map_ext; now intros [n s].
  - rewrite !flat_map_concat_map, map_map; f_equal; apply map_ext; now intros [n s].
Qed.
Lemma go_generate_meets p g : text_ok p -> usual "go" g -> word_types p ->
  (forall n s, In (n, s) (p_structs p) -> s_is_message s = false) ->
  (forall n s, In (n, s) (p_messages p) -> s_is_message s = true) -> go_file_methods p g (go_method_parts p).
Proof.
  intros T (E & N & B & F) W S M; set (q := go_protocol (negb (g_flag g)) p).
  assert (Q : go_method_parts q = go_method_parts p /\ text_ok q /\ word_types q /\
    (forall n s, In (n, s) (p_structs q) -> s_is_message s = false) /\ (forall n s, In (n, s) (p_messages q) -> s_is_message s = true)).
  { subst q; unfold go_protocol; destruct (negb (g_flag g)); [ |auto].
    split; [apply go_renamed_methods|split; [now apply text_ok_renamed|split; [intros t I; rewrite renamed_types in I; now apply W| ]]].
    cbn [p_structs p_messages rename_members]; split; intros n s I; apply in_map_iff in I as ([n' s'] & X & I); injection X as <- <-;
      [exact (S n' s' I)|exact (M n' s' I)]. }
  destruct Q as (Q & TQ & WQ & SQ & MQ); rewrite <- Q; unfold go_method_parts.
  rewrite <- (go_structs_methods (p_structs q)), <- (go_messages_methods (p_messages q)) by assumption.
  exact (got_generate_meets q g TQ WQ (conj N B) E F).
Qed.
