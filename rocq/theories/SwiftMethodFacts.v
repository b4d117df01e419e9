(** The class Message of Swift files and the classes derived from it. *)
From Verif Require Export SwiftMethodSpec FieldFacts TopFacts.
From Verif Require Import SwiftTextFacts SwiftFieldFacts RustMethodFacts IndentFacts ProtocolFacts3.
Open Scope string_scope.
Open Scope Z_scope.
Open Scope list_scope.

Lemma swift_looks_app n a ls r : swift_looks n a (ls ++ r) =
  let (b, x) := swift_looks n a ls in let (c, y) := swift_looks n b r in (c, x ++ y).
Proof.
  revert a; induction ls as [ |l ls IH]; intro a; cbn [app swift_looks]; [now destruct (swift_looks n a r)| ].
  destruct (swift_look n a l) as [b x]; rewrite IH; destruct (swift_looks n b ls) as [c y].
  destruct (swift_looks n c r) as [d z]; now rewrite app_assoc.
Qed.
Lemma swift_looks_inner n ls : Forall (fun l => n + 1 <= fst l) ls -> swift_looks n Apart ls = (Apart, []).
Proof.
  induction 1 as [ |l ls H F IH]; [reflexivity| ]; cbn [swift_looks]; unfold swift_look at 1.
  destruct (Z.eqb_spec (fst l) n); [lia|now rewrite IH].
Qed.

(** From level [n + k] to [n + k'], [x] prints lines that declare [N]; the reader goes
    from [a] to [b]. *)
Definition tells (n : Z) (x : gtext) (k k' : Z) (a b : splace) (N : list mpart) : Prop :=
  exists ls, x (n + k) = Ret (ls, n + k') /\ swift_looks n a ls = (b, N).

Lemma tells_nil n k a : tells n (block []) k k a a [].
Proof. exists []; split; reflexivity. Qed.
Lemma tells_cons n x r k k1 k2 a b c N1 N2 :
  tells n x k k1 a b N1 -> tells n (block r) k1 k2 b c N2 -> tells n (block (x :: r)) k k2 a c (N1 ++ N2).
Proof.
  intros (l1 & E1 & T1) (l2 & E2 & T2); exists (l1 ++ l2).
  change (block (x :: r)) with (andthen x (block r)); unfold andthen; rewrite E1; cbn [pbind snd fst].
  rewrite E2; cbn [pbind fst snd]; split; [reflexivity| ].
  now rewrite swift_looks_app, T1, T2.
Qed.
Lemma tells_look n t s r k k2 a b c M N : t = Ret s -> swift_look n a (n + k, s) = (b, M) ->
  tells n (block r) k k2 b c N -> tells n (block (line t :: r)) k k2 a c (M ++ N).
Proof.
  intros -> E H; eapply tells_cons; [ |exact H].
  exists [(n + k, s)]; split; [reflexivity| ]; cbn [swift_looks]; rewrite E; now rewrite app_nil_r.
Qed.
Lemma tells_indent n r k k1 k2 a c N : k + 1 = k1 ->
  tells n (block r) k1 k2 a c N -> tells n (block (indent :: r)) k k2 a c N.
Proof.
  intros <- H; change N with ([] ++ N); eapply tells_cons; [ |exact H].
  exists []; split; [unfold indent; do 2 f_equal; lia|reflexivity].
Qed.
Lemma tells_dedent n r k k1 k2 a c N : k - 1 = k1 ->
  tells n (block r) k1 k2 a c N -> tells n (block (dedent :: r)) k k2 a c N.
Proof.
  intros <- H; change N with ([] ++ N); eapply tells_cons; [ |exact H].
  exists []; split; [unfold dedent; do 2 f_equal; lia|reflexivity].
Qed.
Lemma tells_check n r k k2 a c N : n + k = 0 ->
  tells n (block r) k k2 a c N -> tells n (block (check_level :: r)) k k2 a c N.
Proof.
  intros E H; change N with ([] ++ N); eapply tells_cons; [ |exact H].
  exists []; unfold check_level; rewrite E; split; reflexivity.
Qed.
Lemma tells_skip n r k k2 a c N : tells n (block r) k k2 a c N -> tells n (block (skip :: r)) k k2 a c N.
Proof. intro H; change N with ([] ++ N); eapply tells_cons; [ |exact H]; exists []; split; reflexivity. Qed.
Lemma tells_inside n x r j j1 k2 c N : runs (n + 1) x j j1 ->
  tells n (block r) (1 + j1) k2 Apart c N -> tells n (block (x :: r)) (1 + j) k2 Apart c N.
Proof.
  intros (ls & E & F) H; change N with ([] ++ N); eapply tells_cons; [ |exact H].
  exists ls; split; [rewrite !Z.add_assoc; exact E|now apply swift_looks_inner].
Qed.
Lemma tells_flat n l r k k2 a c N : tells n (block (l ++ r)) k k2 a c N -> tells n (block (block l :: r)) k k2 a c N.
Proof.
  revert k k2 a c N; induction l as [ |x l IH]; intros k k2 a c N H; [now apply tells_skip| ].
  destruct H as (ls & E & T).
  change (andthen x (block (l ++ r)) (n + k) = Ret (ls, n + k2)) in E.
  apply andthen_ret in E as (l1 & k1 & l2 & Ea & E & ->).
  rewrite swift_looks_app in T; destruct (swift_looks n a l1) as [b y] eqn:R1;
    destruct (swift_looks n b l2) as [d m] eqn:R2.
  injection T as -> <-.
  destruct (IH (k1 - n) k2 b c m) as (l3 & E3 & T3);
    [exists l2; split; [replace (n + (k1 - n)) with k1 by lia; exact E|exact R2]| ].
  replace (n + (k1 - n)) with k1 in E3 by lia.
  change (andthen (block l) (block r) k1 = Ret (l3, n + k2)) in E3.
  apply andthen_ret in E3 as (l4 & k4 & l5 & E4 & E5 & ->).
  exists (l1 ++ l4 ++ l5); split; [ |now rewrite swift_looks_app, R1, T3].
  change (andthen (andthen x (block l)) (block r) (n + k) = Ret (l1 ++ l4 ++ l5, n + k2)).
  apply andthen_ret; exists (l1 ++ l4), k4, l5; split; [ |split; [exact E5|apply app_assoc]].
  apply andthen_ret; exists l1, k1, l4; auto.
Qed.
Lemma tells_given {A} n (m : pyres A) f r k k2 a c N : good m ->
  (forall x, m = Ret x -> tells n (block (f x :: r)) k k2 a c N) -> tells n (block (given m f :: r)) k k2 a c N.
Proof.
  intros [x E] H; destruct (H x E) as (ls & E1 & T); exists ls; split; [ |exact T].
  change (andthen (f x) (block r) (n + k) = Ret (ls, n + k2)) in E1.
  change (andthen (given m f) (block r) (n + k) = Ret (ls, n + k2)).
  unfold andthen, given in *; now rewrite E.
Qed.
Lemma tells_each {A} n (l : list A) f names k a :
  (forall x, In x l -> tells n (f x) k k a a (names x)) -> tells n (each l f) k k a a (flat_map names l).
Proof.
  unfold each; induction l as [ |x l IH]; intro H; cbn [map flat_map]; [apply tells_nil| ].
  eapply tells_cons; [apply H; now left|apply IH; intros y I; apply H; now right].
Qed.
Lemma tells_given_one {A} n (m : pyres A) f k k2 a c N : good m ->
  (forall x, m = Ret x -> tells n (f x) k k2 a c N) -> tells n (given m f) k k2 a c N.
Proof.
  intros [x E] H; destruct (H x E) as (ls & E1 & T); exists ls; split; [ |exact T].
  unfold given; now rewrite E.
Qed.
Lemma tells_eq n x k k' a b N N' : tells n x k k' a b N -> N = N' -> tells n x k k' a b N'.
Proof. now intros H <-. Qed.
Lemma tells_same n x y k k' a b N : tells n x k k' a b N -> (forall j, x j = y j) -> tells n y k k' a b N.
Proof. intros (ls & E & T) H; exists ls; split; [now rewrite <- H|exact T]. Qed.



Lemma swift_looks_deep n t ls : Forall (fun l => n + 2 <= fst l) ls -> swift_looks n (Subclass t) ls = (Subclass t, []).
Proof.
  induction 1 as [ |l ls H F IH]; [reflexivity| ]; cbn [swift_looks]; unfold swift_look at 1.
  destruct (Z.eqb_spec (fst l) n); [lia| ]; destruct (Z.eqb_spec (fst l) (n + 1)); [lia|cbn [andb]; now rewrite IH].
Qed.
Lemma tells_deep n x r j j1 k2 t c N : runs (n + 2) x j j1 ->
  tells n (block r) (2 + j1) k2 (Subclass t) c N -> tells n (block (x :: r)) (2 + j) k2 (Subclass t) c N.
Proof.
  intros (ls & E & F) H; change N with ([] ++ N); eapply tells_cons; [ |exact H].
  exists ls; split; [rewrite !Z.add_assoc; exact E|now apply swift_looks_deep].
Qed.
Lemma tells_outer n t r k k2 c N : good t -> (k =? 0) = false ->
  tells n (block r) k k2 Apart c N -> tells n (block (line t :: r)) k k2 Apart c N.
Proof.
  intros [s E] K H; apply Z.eqb_neq in K; change N with ([] ++ N); eapply tells_look; [exact E| |exact H].
  unfold swift_look; cbn [fst snd]; destruct (Z.eqb_spec (n + k) n); [lia|reflexivity].
Qed.
Lemma tells_at n f r k k2 a c N : (forall z, tells n (block (f z :: r)) k k2 a c N) -> tells n (block (at_level f :: r)) k k2 a c N.
Proof.
  intro H; destruct (H (n + k)) as (ls & E & T); exists ls; split; [exact E|exact T].
Qed.
Lemma swift_look_struct n t : swift_look n Apart (n + 0, "public struct " +++ (t +++ " {")) = (Apart, []).
Proof. unfold swift_look, head_name; cbn [fst snd]; rewrite Z.add_0_r, Z.eqb_refl; reflexivity. Qed.
Lemma swift_look_derived n t : spaceless t ->
  swift_look n Apart (n + 0, "public class " +++ (t +++ ": Message {")) = (Subclass t, []).
Proof.
  intro S; unfold swift_look, head_name; cbn [fst snd]; rewrite Z.add_0_r, Z.eqb_refl.
  replace (String.eqb ("public class " +++ (t +++ ": Message {")) "public class Message {") with false.
  - change (rest_after "public class " ("public class " +++ (t +++ ": Message {"))) with (Some (t +++ ": Message {")).
    cbv beta iota; rewrite to_space_colon by exact S; cbv beta iota; rewrite String.eqb_refl; now rewrite before_app.
  - symmetry; apply String.eqb_neq; intro H.
    assert (K : t +++ ": Message {" = "Message {") by (injection H; auto).
    assert (L : forall x, (String.length (x +++ ": Message {") >= 11)%nat) by (induction x; cbn [String.append String.length]; [cbn| ]; lia).
    specialize (L t); rewrite K in L; cbn in L; lia.
Qed.
Lemma swift_look_method n t s : swift_look n (Subclass t) (n + 1, s) = (Subclass t, map (Offers t) (overridden s)).
Proof.
  unfold swift_look; cbn [fst snd]; destruct (Z.eqb_spec (n + 1) n); [lia| ]; now rewrite Z.eqb_refl.
Qed.
Lemma swift_look_end n t : swift_look n (Subclass t) (n + 0, "}") = (Apart, []).
Proof. unfold swift_look; cbn [fst snd]; now rewrite Z.add_0_r, Z.eqb_refl. Qed.
Ltac tell_line :=
  first [apply swift_look_end
        |unfold swift_look; cbn [fst snd]; rewrite Z.add_0_r, Z.eqb_refl; vm_compute; reflexivity].

Ltac tell_more := fail.
Ltac tell :=
  cbv beta zeta;
  lazymatch goal with
  | |- tells _ (block []) _ _ _ _ _ => apply tells_nil
  | |- tells _ (block (indent :: _)) ?k _ _ _ _ =>
      let v := eval vm_compute in (k + 1) in apply (tells_indent _ _ k v _ _ _ _ eq_refl); tell
  | |- tells _ (block (dedent :: _)) ?k _ _ _ _ =>
      let v := eval vm_compute in (k - 1) in apply (tells_dedent _ _ k v _ _ _ _ eq_refl); tell
  | |- tells _ (block (check_level :: _)) _ _ _ _ _ => apply tells_check; [reflexivity|tell]
  | |- tells _ (block (skip :: _)) _ _ _ _ _ => apply tells_skip; tell
  | |- tells _ (block (blank :: _)) ?k _ _ _ _ => unfold blank at 1; tell
  | |- tells _ (block (line _ :: _)) 0 _ _ _ _ =>
      eapply tells_look; [known_text|first [apply swift_look_struct|apply swift_look_derived; assumption|tell_line]|tell]
  | |- tells _ (block (line _ :: _)) 1 _ (Subclass _) _ _ =>
      eapply tells_look; [known_text|apply swift_look_method|tell]
  | |- tells _ (block (line _ :: _)) _ _ Apart _ _ => apply tells_outer; [good|reflexivity|tell]
  | |- tells _ (block (when true _ :: _)) _ _ _ _ _ => cbn [when]; tell
  | |- tells _ (block (when false _ :: _)) _ _ _ _ _ => cbn [when]; tell
  | |- tells _ (block (block _ :: _)) _ _ _ _ _ => apply tells_flat; cbn [app]; tell
  | |- tells _ (block (?a :: _)) ?k _ _ _ _ =>
      first
        [ tell_more; tell
        | lazymatch goal with |- tells _ _ _ _ (Subclass _) _ _ => idtac end;
          let j := eval vm_compute in (k - 2) in
          let ok := eval vm_compute in (0 <=? j) in
          match ok with true => idtac end;
          change k with (2 + j); eapply tells_deep; [solve [run]| ];
          match goal with |- tells _ _ ?k1 _ _ _ _ => let v := eval vm_compute in k1 in change k1 with v end; tell
        | let j := eval vm_compute in (k - 1) in
          let ok := eval vm_compute in (0 <=? j) in
          match ok with true => idtac end;
          change k with (1 + j); eapply tells_inside; [solve [run]| ];
          match goal with |- tells _ _ ?k1 _ _ _ _ => let v := eval vm_compute in k1 in change k1 with v end; tell
        | match a with
          | at_level _ => let z := fresh "z" in apply tells_at; intro z; tell
          | when ?b _ => known_if b; tell
          | (if ?b then _ else _) => known_if b; tell
          | given _ _ => apply tells_given; [good|intros; tell]
          | (let (_, _) := ?x in _) => destruct x; tell
          end
        | idtac ]
  | |- _ => idtac
  end.

(** ** Boilerplate *)

Definition plain_place (a : splace) : Prop := a = Apart \/ a = BaseClass.
Lemma swift_look_zero n a l : plain_place a -> swift_look n a (n + 0, l) = swift_look 0 a (0, l).
Proof. intros [-> | ->]; unfold swift_look; cbn [fst snd]; now rewrite ?Z.add_0_r, ?Z.eqb_refl. Qed.
Lemma swift_look_blank c r : blank_char c = true -> swift_look 0 Apart (0, String c r) = (Apart, []) /\
  swift_look 0 BaseClass (0, String c r) = (BaseClass, map (Demands "Message") (open_function (without_blanks r))).
Proof.
  intro C; split; revert C; unfold blank_char; rewrite orb_true_iff, !Ascii.eqb_eq; intros [->| ->]; reflexivity.
Qed.
Lemma swift_look_reindent native tab a l : plain_place a -> blanks native = true -> native <> "" -> blanks tab = true -> tab <> "" ->
  swift_look 0 a (0, replace_indent native tab l) = swift_look 0 a (0, l).
Proof.
  intros A Bn Nn Bt Nt; destruct (replace_indent_spec native tab l Nn) as (k & r & -> & _ & ->).
  destruct k as [ |k]; [reflexivity| ].
  assert (X : forall t, blanks t = true -> t <> "" -> swift_look 0 a (0, repeat_str (Datatypes.S k) t +++ r) =
    match a with Apart => (Apart, []) | _ => (BaseClass, map (Demands "Message") (open_function (without_blanks r))) end).
  { clear - A; intros t B N; pose proof (without_blanks_repeat (Datatypes.S k) t r B) as V.
    pose proof (blanks_repeat (Datatypes.S k) t B) as Y.
    destruct (repeat_str (Datatypes.S k) t) as [ |c b] eqn:Z; [destruct t; [congruence|discriminate]| ].
    cbn [blanks] in Y; apply andb_true_iff in Y as [C _]; cbn [String.append] in *.
    destruct (swift_look_blank c (b +++ r) C) as [L1 L2]; destruct A as [-> | ->]; [exact L1|rewrite L2; do 3 f_equal].
    cbn [without_blanks] in V; now rewrite C in V. }
  rewrite !X by assumption; reflexivity.
Qed.
Definition not_derived (l : string) : bool := match head_name ("public class ", ":", " Message {") l with None => true | _ => false end.
Lemma swift_looks_reindent n native tab : blanks native = true -> native <> "" -> blanks tab = true -> tab <> "" ->
  forall ls a, plain_place a -> forallb not_derived ls = true ->
  swift_looks n a (map (fun l => (n + 0, l)) (map (replace_indent native tab) ls)) = swift_looks 0 a (map (fun l => (0, l)) ls).
Proof.
  intros Bn Nn Bt Nt; induction ls as [ |l ls IH]; intros a A L; [reflexivity| ]; cbn [map swift_looks forallb] in *.
  apply andb_true_iff in L as [L1 L]; rewrite swift_look_zero, swift_look_reindent by assumption.
  destruct (swift_look 0 a (0, l)) as [b m] eqn:G; rewrite IH; [reflexivity| |exact L].
  revert G; unfold not_derived in L1; destruct A as [-> | ->]; unfold swift_look; cbn [fst snd Z.eqb].
  - destruct (head_name _ l); [discriminate| ]; destruct (String.eqb l _); intro G; injection G as <- <-; unfold plain_place; auto.
  - destruct (String.eqb l "}"); intro G; injection G as <- <-; unfold plain_place; auto.
Qed.
Lemma tells_boilerplate n native tab subs file r k2 N M : blanks native = true -> native <> "" -> blanks tab = true -> tab <> "" ->
  forallb not_derived (fold_left substitute subs file) = true ->
  swift_looks 0 Apart (map (fun l => (0, l)) (fold_left substitute subs file)) = (Apart, M) ->
  tells n (block r) 0 k2 Apart Apart N ->
  tells n (block (add_boilerplate native tab subs file :: r)) 0 k2 Apart Apart (M ++ N).
Proof.
  intros Bn Nn Bt Nt F E H; eapply tells_cons; [ |exact H].
  eexists; split; [apply each_lines| ]; unfold boilerplate_lines; rewrite swift_looks_reindent by (assumption || now left); exact E.
Qed.
Lemma tells_boilerplate_out n native tab subs file r k k2 c N : (k =? 0) = false ->
  tells n (block r) k k2 Apart c N ->
  tells n (block (add_boilerplate native tab subs file :: r)) k k2 Apart c N.
Proof.
  intros K H; apply Z.eqb_neq in K; change N with ([] ++ N); eapply tells_cons; [ |exact H].
  eexists; split; [apply each_lines| ].
  generalize (boilerplate_lines native tab subs file) as ls; induction ls as [ |l ls IH]; [reflexivity| ].
  cbn [map swift_looks]; unfold swift_look; cbn [fst snd]; destruct (Z.eqb_spec (n + k) n); [lia|now rewrite IH].
Qed.


Section Methods.
Variable p : protocol.
Variable g : settings.
Hypothesis T : text_ok p.
Hypothesis FT : field_types p.
Hypothesis SP : forall t, In t (types_in_order p) -> spaceless t.
Hint Resolve swt_types_ok swt_types_base swt_gen_measurement_ok : text.
Hint Resolve swt_deserializer_nested swt_serializer_nested : text.
Hint Resolve swt_gen_enum_nested swt_gen_struct_nested : text.

Lemma swt_fields_tell n t s : declares p t s ->
  tells n (each (s_members s) (fun m =>
      (if (v_list m) then
         line [| "public var "; v_name m; ": ["; swt_types p (v_type m); "] = []" |]
       else given (match lookup (v_type m) swt_defaults with
                   | Some d => lit d
                   | None => if mem (v_type m) (p_enums p) then
                               e <- get_enum p (v_type m) ;; [| v_type m; "."; default_name e |]
                             else [| v_type m; "()" |]
                   end) (fun default_value =>
           line [| "public var "; v_name m; ": "; swt_types p (v_type m);
                   (if String.eqb default_value "" then lit "" else [| " = "; default_value |]) |])))) 1 1 (Subclass t) (Subclass t) [].
Proof.
  intro D; eapply tells_eq; [apply (tells_each _ _ _ (fun _ => []))|clear; induction (s_members s); [reflexivity|assumption]].
  intros m I; pose proof (FT t s m D I) as F.
  eapply tells_same; [ |intro j; symmetry; now apply swt_field_text].
  exists [(n + 1, field_text "swift" p m)]; split; [reflexivity| ].
  cbn [swift_looks]; rewrite swift_look_method; unfold field_text; replace (in_strs "swift" _) with false by reflexivity.
  cbn [String.eqb Ascii.eqb Bool.eqb]; destruct (v_list m); reflexivity.
Qed.

Definition type_functions (t : string * struct) : list mpart :=
  if s_is_message (snd t) then map (Offers (fst t)) swift_offered else [].
Lemma swt_gen_enum_tells ename e n : 0 <= n -> In (ename, e) (p_enums p) ->
  tells n (swt_gen_enum p ename e) 0 0 Apart Apart [].
Proof.
  intros N I; assert (N1 : 0 <= n + 1) by lia; unfold swt_gen_enum.
  pose proof (tk_enums p T ename e I) as [B _]; destruct (swt_types_base p _ B) as [x ->].
  eapply tells_eq; [tell|reflexivity].
Qed.
Ltac tell_more ::= eapply tells_cons; [eapply swt_fields_tell; eassumption| ].
Lemma swt_gen_struct_tells sname s n : 0 <= n -> spaceless sname -> declares p sname s ->
  tells n (swt_gen_struct p g sname s) 0 0 Apart Apart (type_functions (sname, s)).
Proof.
  intros N W D; assert (N1 : 0 <= n + 1) by lia; assert (N2 : 0 <= n + 2) by lia; unfold swt_gen_struct, type_functions; cbv zeta; cbn [fst snd].
  destruct (s_is_message s) eqn:M; cbn [when].
  all: eapply tells_eq; [tell|reflexivity].
Qed.

Hypothesis U : g_tab g <> "" /\ blanks (g_tab g) = true.
Hypothesis E : g_embed g = false.

Lemma swt_boilerplate_tells n r k2 N : g_files g = swift_files ->
  tells n (block r) 0 k2 Apart Apart N ->
  tells n (block (given (swt_types p (p_string_size_type p)) (fun string_size =>
      add_boilerplate "    " (g_tab g) (swt_substitutions string_size) (g_files g 0)) :: r)) 0 k2 Apart Apart
    (map (Demands "Message") swift_demanded ++ N).
Proof.
  intros F H; pose proof (tk_string p T) as S; rewrite F; destruct U as [U1 U2].
  apply tells_given; [eauto with text|intros a Ga].
  apply tells_boilerplate; [reflexivity|discriminate|exact U2|exact U1| | |exact H].
  all: clear - S Ga; unfold swt_types, mapping in Ga;
    cbn in S; decompose [or] S; clear S; try contradiction;
    match goal with X : _ = p_string_size_type p |- _ => rewrite <- X in * end;
    vm_compute in Ga; injection Ga as <-; vm_compute; reflexivity.
Qed.
Hint Resolve spaceless_struct spaceless_message : text.
Ltac tell_more ::=
  lazymatch goal with
  | |- tells _ (block (given (swt_types _ _) _ :: _)) 0 _ _ _ _ => apply swt_boilerplate_tells; [assumption| ]
  | |- tells _ (block (add_boilerplate _ _ _ _ :: _)) ?k _ _ _ _ =>
      lazymatch k with
      | 0 => eapply (tells_boilerplate _ _ _ _ _ _ _ _ []); [reflexivity|discriminate|apply U|apply U
               |match goal with F : g_files g = _ |- _ => rewrite F; vm_compute; reflexivity end
               |match goal with F : g_files g = _ |- _ => rewrite F; vm_compute; reflexivity end| ]
      | _ => apply tells_boilerplate_out; [reflexivity| ]
      end
  | |- tells _ (block (each (p_enums _) _ :: _)) 0 _ _ _ _ =>
      eapply tells_cons; [apply (tells_each _ _ _ (fun _ => []));
        let t := fresh "t" in let x := fresh "x" in let I := fresh "I" in
        intros [t x] I; apply swt_gen_enum_tells; [lia|assumption]| ]
  | |- tells _ (block (each _ (fun '(t, x) => swt_gen_struct _ _ t x) :: _)) 0 _ _ _ _ =>
      eapply tells_cons; [apply (tells_each _ _ _ type_functions);
        let t := fresh "t" in let x := fresh "x" in let I := fresh "I" in
        intros [t x] I; apply swt_gen_struct_tells; [lia|eauto with text|eauto with text]| ]
  end.
Definition swt_parts : list mpart :=
  map (Demands "Message") swift_demanded ++ flat_map type_functions (p_structs p) ++ flat_map type_functions (p_messages p).
Lemma sw_generate_tells : g_files g = swift_files -> swift_file_methods p g swt_parts.
Proof.
  intro F; unfold swift_file_methods; change (generate "swift" p g) with (swt_generate p g).
  set (some := match g_namespace g with Some _ => true | None => false end); change (inside_namespace "swift" g) with some.
  assert (H : tells (if some then 1 else 0) (swt_generate p g)
    (if some then -1 else 0) (if some then -1 else 0) Apart Apart swt_parts).
  { unfold swt_parts, swt_generate, swt_last_substitutions; cbv zeta; rewrite E; subst some; destruct (g_namespace g) eqn:Z; cbn [when].
    - assert (N : 0 <= 1) by lia; assert (N1 : 0 <= 1 + 1) by lia.
      eapply tells_eq; [tell|rewrite no_codec, ?app_nil_r; reflexivity].
    - assert (N1 : 0 <= 0 + 1) by lia.
      eapply tells_eq; [tell|rewrite no_codec, ?app_nil_r; reflexivity]. }
  destruct H as (ls & G & H); exists ls; split; [ |exact H].
  destruct some; exact G.
Qed.
End Methods.

Lemma swt_parts_expected p : (forall n s, In (n, s) (p_structs p) -> s_is_message s = false) ->
  (forall n s, In (n, s) (p_messages p) -> s_is_message s = true) -> swt_parts p = swift_method_parts p.
Proof.
  intros S M; unfold swt_parts, swift_method_parts; f_equal.
  replace (flat_map type_functions (p_structs p)) with (@nil mpart).
  - cbn [app]; clear S; induction (p_messages p) as [ |[n s] l IH]; [reflexivity| ]; cbn [flat_map map fst].
    apply (f_equal2 (@app mpart)); [unfold type_functions; cbn [fst snd]; now rewrite (M n s) by now left|apply IH; intros; eapply M; right; eassumption].
  - clear M; induction (p_structs p) as [ |[n s] l IH]; [reflexivity| ]; cbn [flat_map].
    rewrite <- IH by (intros; eapply S; right; eassumption); unfold type_functions; cbn [fst snd]; now rewrite (S n s) by now left.
Qed.
