(** The class Message of C# files and the classes derived from it. *)
From Verif Require Export CSharpMethodSpec FieldFacts TopFacts.
From Verif Require Import CSharpTextFacts CSharpFieldFacts RustMethodFacts IndentFacts ProtocolFacts3.
Open Scope string_scope.
Open Scope Z_scope.
Open Scope list_scope.

Lemma csharp_looks_app n a ls r : csharp_looks n a (ls ++ r) =
  let (b, x) := csharp_looks n a ls in let (c, y) := csharp_looks n b r in (c, x ++ y).
Proof.
  revert a; induction ls as [ |l ls IH]; intro a; cbn [app csharp_looks]; [now destruct (csharp_looks n a r)| ].
  destruct (csharp_look n a l) as [b x]; rewrite IH; destruct (csharp_looks n b ls) as [c y].
  destruct (csharp_looks n c r) as [d z]; now rewrite app_assoc.
Qed.
Lemma csharp_looks_inner n ls : Forall (fun l => n + 1 <= fst l) ls -> csharp_looks n Nowhere ls = (Nowhere, []).
Proof.
  induction 1 as [ |l ls H F IH]; [reflexivity| ]; cbn [csharp_looks]; unfold csharp_look at 1.
  destruct (Z.eqb_spec (fst l) n); [lia|now rewrite IH].
Qed.

(** From level [n + k] to [n + k'], [x] prints lines that declare [N]; the reader goes
    from [a] to [b]. *)
Definition notes (n : Z) (x : gtext) (k k' : Z) (a b : cplace) (N : list mpart) : Prop :=
  exists ls, x (n + k) = Ret (ls, n + k') /\ csharp_looks n a ls = (b, N).

Lemma notes_nil n k a : notes n (block []) k k a a [].
Proof. exists []; split; reflexivity. Qed.
Lemma notes_cons n x r k k1 k2 a b c N1 N2 :
  notes n x k k1 a b N1 -> notes n (block r) k1 k2 b c N2 -> notes n (block (x :: r)) k k2 a c (N1 ++ N2).
Proof.
  intros (l1 & E1 & T1) (l2 & E2 & T2); exists (l1 ++ l2).
  change (block (x :: r)) with (andthen x (block r)); unfold andthen; rewrite E1; cbn [pbind snd fst].
  rewrite E2; cbn [pbind fst snd]; split; [reflexivity| ].
  now rewrite csharp_looks_app, T1, T2.
Qed.
Lemma notes_look n t s r k k2 a b c M N : t = Ret s -> csharp_look n a (n + k, s) = (b, M) ->
  notes n (block r) k k2 b c N -> notes n (block (line t :: r)) k k2 a c (M ++ N).
Proof.
  intros -> E H; eapply notes_cons; [ |exact H].
  exists [(n + k, s)]; split; [reflexivity| ]; cbn [csharp_looks]; rewrite E; now rewrite app_nil_r.
Qed.
Lemma notes_indent n r k k1 k2 a c N : k + 1 = k1 ->
  notes n (block r) k1 k2 a c N -> notes n (block (indent :: r)) k k2 a c N.
Proof.
  intros <- H; change N with ([] ++ N); eapply notes_cons; [ |exact H].
  exists []; split; [unfold indent; do 2 f_equal; lia|reflexivity].
Qed.
Lemma notes_dedent n r k k1 k2 a c N : k - 1 = k1 ->
  notes n (block r) k1 k2 a c N -> notes n (block (dedent :: r)) k k2 a c N.
Proof.
  intros <- H; change N with ([] ++ N); eapply notes_cons; [ |exact H].
  exists []; split; [unfold dedent; do 2 f_equal; lia|reflexivity].
Qed.
Lemma notes_check n r k k2 a c N : n + k = 0 ->
  notes n (block r) k k2 a c N -> notes n (block (check_level :: r)) k k2 a c N.
Proof.
  intros E H; change N with ([] ++ N); eapply notes_cons; [ |exact H].
  exists []; unfold check_level; rewrite E; split; reflexivity.
Qed.
Lemma notes_skip n r k k2 a c N : notes n (block r) k k2 a c N -> notes n (block (skip :: r)) k k2 a c N.
Proof. intro H; change N with ([] ++ N); eapply notes_cons; [ |exact H]; exists []; split; reflexivity. Qed.
Lemma notes_inside n x r j j1 k2 c N : runs (n + 1) x j j1 ->
  notes n (block r) (1 + j1) k2 Nowhere c N -> notes n (block (x :: r)) (1 + j) k2 Nowhere c N.
Proof.
  intros (ls & E & F) H; change N with ([] ++ N); eapply notes_cons; [ |exact H].
  exists ls; split; [rewrite !Z.add_assoc; exact E|now apply csharp_looks_inner].
Qed.
Lemma notes_flat n l r k k2 a c N : notes n (block (l ++ r)) k k2 a c N -> notes n (block (block l :: r)) k k2 a c N.
Proof.
  revert k k2 a c N; induction l as [ |x l IH]; intros k k2 a c N H; [now apply notes_skip| ].
  destruct H as (ls & E & T).
  change (andthen x (block (l ++ r)) (n + k) = Ret (ls, n + k2)) in E.
  apply andthen_ret in E as (l1 & k1 & l2 & Ea & E & ->).
  rewrite csharp_looks_app in T; destruct (csharp_looks n a l1) as [b y] eqn:R1;
    destruct (csharp_looks n b l2) as [d m] eqn:R2.
  injection T as -> <-.
  destruct (IH (k1 - n) k2 b c m) as (l3 & E3 & T3);
    [exists l2; split; [replace (n + (k1 - n)) with k1 by lia; exact E|exact R2]| ].
  replace (n + (k1 - n)) with k1 in E3 by lia.
  change (andthen (block l) (block r) k1 = Ret (l3, n + k2)) in E3.
  apply andthen_ret in E3 as (l4 & k4 & l5 & E4 & E5 & ->).
  exists (l1 ++ l4 ++ l5); split; [ |now rewrite csharp_looks_app, R1, T3].
  change (andthen (andthen x (block l)) (block r) (n + k) = Ret (l1 ++ l4 ++ l5, n + k2)).
  apply andthen_ret; exists (l1 ++ l4), k4, l5; split; [ |split; [exact E5|apply app_assoc]].
  apply andthen_ret; exists l1, k1, l4; auto.
Qed.
Lemma notes_given {A} n (m : pyres A) f r k k2 a c N : good m ->
  (forall x, m = Ret x -> notes n (block (f x :: r)) k k2 a c N) -> notes n (block (given m f :: r)) k k2 a c N.
Proof.
  intros [x E] H; destruct (H x E) as (ls & E1 & T); exists ls; split; [ |exact T].
  change (andthen (f x) (block r) (n + k) = Ret (ls, n + k2)) in E1.
  change (andthen (given m f) (block r) (n + k) = Ret (ls, n + k2)).
  unfold andthen, given in *; now rewrite E.
Qed.
Lemma notes_each {A} n (l : list A) f names k a :
  (forall x, In x l -> notes n (f x) k k a a (names x)) -> notes n (each l f) k k a a (flat_map names l).
Proof.
  unfold each; induction l as [ |x l IH]; intro H; cbn [map flat_map]; [apply notes_nil| ].
  eapply notes_cons; [apply H; now left|apply IH; intros y I; apply H; now right].
Qed.
Lemma notes_given_one {A} n (m : pyres A) f k k2 a c N : good m ->
  (forall x, m = Ret x -> notes n (f x) k k2 a c N) -> notes n (given m f) k k2 a c N.
Proof.
  intros [x E] H; destruct (H x E) as (ls & E1 & T); exists ls; split; [ |exact T].
  unfold given; now rewrite E.
Qed.
Lemma notes_eq n x k k' a b N N' : notes n x k k' a b N -> N = N' -> notes n x k k' a b N'.
Proof. now intros H <-. Qed.
Lemma notes_same n x y k k' a b N : notes n x k k' a b N -> (forall j, x j = y j) -> notes n y k k' a b N.
Proof. intros (ls & E & T) H; exists ls; split; [now rewrite <- H|exact T]. Qed.



Lemma csharp_looks_deep n t ls : Forall (fun l => n + 2 <= fst l) ls -> csharp_looks n (Derived t) ls = (Derived t, []).
Proof.
  induction 1 as [ |l ls H F IH]; [reflexivity| ]; cbn [csharp_looks]; unfold csharp_look at 1.
  destruct (Z.eqb_spec (fst l) n); [lia| ]; destruct (Z.eqb_spec (fst l) (n + 1)); [lia|cbn [andb]; now rewrite IH].
Qed.
Lemma notes_deep n x r j j1 k2 t c N : runs (n + 2) x j j1 ->
  notes n (block r) (2 + j1) k2 (Derived t) c N -> notes n (block (x :: r)) (2 + j) k2 (Derived t) c N.
Proof.
  intros (ls & E & F) H; change N with ([] ++ N); eapply notes_cons; [ |exact H].
  exists ls; split; [rewrite !Z.add_assoc; exact E|now apply csharp_looks_deep].
Qed.
Lemma notes_outer n t r k k2 c N : good t -> (k =? 0) = false ->
  notes n (block r) k k2 Nowhere c N -> notes n (block (line t :: r)) k k2 Nowhere c N.
Proof.
  intros [s E] K H; apply Z.eqb_neq in K; change N with ([] ++ N); eapply notes_look; [exact E| |exact H].
  unfold csharp_look; cbn [fst snd]; destruct (Z.eqb_spec (n + k) n); [lia|reflexivity].
Qed.
Lemma notes_at n f r k k2 a c N : (forall z, notes n (block (f z :: r)) k k2 a c N) -> notes n (block (at_level f :: r)) k k2 a c N.
Proof.
  intro H; destruct (H (n + k)) as (ls & E & T); exists ls; split; [exact E|exact T].
Qed.
Lemma csharp_look_class n t : spaceless t -> csharp_look n Nowhere (n + 0, "public class " +++ t) = (Nowhere, []).
Proof.
  intro S; unfold csharp_look, head_name; cbn [fst snd]; rewrite Z.add_0_r, Z.eqb_refl.
  replace (String.eqb ("public class " +++ t) "public abstract class Message") with false by reflexivity.
  change (rest_after "public class " ("public class " +++ t)) with (Some t); cbv beta iota; now rewrite S.
Qed.
Lemma csharp_look_derived n t : spaceless t ->
  csharp_look n Nowhere (n + 0, "public class " +++ (t +++ " : Message")) = (Derived t, []).
Proof.
  intro S; unfold csharp_look, head_name; cbn [fst snd]; rewrite Z.add_0_r, Z.eqb_refl.
  replace (String.eqb ("public class " +++ (t +++ " : Message")) "public abstract class Message") with false by reflexivity.
  change (rest_after "public class " ("public class " +++ (t +++ " : Message"))) with (Some (t +++ " : Message")).
  cbv beta iota; rewrite to_space_app by exact S; cbv beta iota; rewrite String.eqb_refl; now rewrite before_all.
Qed.
Lemma csharp_look_method n t s : csharp_look n (Derived t) (n + 1, s) = (Derived t, map (Offers t) (signature "public override " s)).
Proof.
  unfold csharp_look; cbn [fst snd]; destruct (Z.eqb_spec (n + 1) n); [lia| ]; now rewrite Z.eqb_refl.
Qed.
Lemma csharp_look_open n t : csharp_look n (Derived t) (n + 0, "{") = (Derived t, []).
Proof.
  unfold csharp_look; cbn [fst snd]; rewrite Z.add_0_r, Z.eqb_refl; cbn [andb String.eqb Ascii.eqb Bool.eqb].
  destruct (Z.eqb_spec n (n + 1)); [lia|reflexivity].
Qed.
Lemma csharp_look_end n t : csharp_look n (Derived t) (n + 0, "}") = (Nowhere, []).
Proof. unfold csharp_look; cbn [fst snd]; now rewrite Z.add_0_r, Z.eqb_refl. Qed.
Ltac note_line :=
  first [apply csharp_look_open|apply csharp_look_end
        |unfold csharp_look; cbn [fst snd]; rewrite Z.add_0_r, Z.eqb_refl; vm_compute; reflexivity].

Ltac note_more := fail.
Ltac note :=
  cbv beta zeta;
  lazymatch goal with
  | |- notes _ (block []) _ _ _ _ _ => apply notes_nil
  | |- notes _ (block (indent :: _)) ?k _ _ _ _ =>
      let v := eval vm_compute in (k + 1) in apply (notes_indent _ _ k v _ _ _ _ eq_refl); note
  | |- notes _ (block (dedent :: _)) ?k _ _ _ _ =>
      let v := eval vm_compute in (k - 1) in apply (notes_dedent _ _ k v _ _ _ _ eq_refl); note
  | |- notes _ (block (check_level :: _)) _ _ _ _ _ => apply notes_check; [reflexivity|note]
  | |- notes _ (block (skip :: _)) _ _ _ _ _ => apply notes_skip; note
  | |- notes _ (block (blank :: _)) ?k _ _ _ _ => unfold blank at 1; note
  | |- notes _ (block (line _ :: _)) 0 _ _ _ _ =>
      eapply notes_look; [known_text|first [rewrite ?append_empty; apply csharp_look_class; assumption|apply csharp_look_derived; assumption|note_line]|note]
  | |- notes _ (block (line _ :: _)) 1 _ (Derived _) _ _ =>
      eapply notes_look; [known_text|apply csharp_look_method|note]
  | |- notes _ (block (line _ :: _)) _ _ Nowhere _ _ => apply notes_outer; [good|reflexivity|note]
  | |- notes _ (block (when true _ :: _)) _ _ _ _ _ => cbn [when]; note
  | |- notes _ (block (when false _ :: _)) _ _ _ _ _ => cbn [when]; note
  | |- notes _ (block (block _ :: _)) _ _ _ _ _ => apply notes_flat; cbn [app]; note
  | |- notes _ (block (?a :: _)) ?k _ _ _ _ =>
      first
        [ note_more; note
        | lazymatch goal with |- notes _ _ _ _ (Derived _) _ _ => idtac end;
          let j := eval vm_compute in (k - 2) in
          let ok := eval vm_compute in (0 <=? j) in
          match ok with true => idtac end;
          change k with (2 + j); eapply notes_deep; [solve [run]| ];
          match goal with |- notes _ _ ?k1 _ _ _ _ => let v := eval vm_compute in k1 in change k1 with v end; note
        | let j := eval vm_compute in (k - 1) in
          let ok := eval vm_compute in (0 <=? j) in
          match ok with true => idtac end;
          change k with (1 + j); eapply notes_inside; [solve [run]| ];
          match goal with |- notes _ _ ?k1 _ _ _ _ => let v := eval vm_compute in k1 in change k1 with v end; note
        | match a with
          | at_level _ => let z := fresh "z" in apply notes_at; intro z; note
          | when ?b _ => known_if b; note
          | (if ?b then _ else _) => known_if b; note
          | given _ _ => apply notes_given; [good|intros; note]
          | (let (_, _) := ?x in _) => destruct x; note
          end
        | idtac ]
  | |- _ => idtac
  end.

(** ** Boilerplate *)

Definition plain_place (a : cplace) : Prop := a = Nowhere \/ a = AbstractClass.
Lemma csharp_look_zero n a l : plain_place a -> csharp_look n a (n + 0, l) = csharp_look 0 a (0, l).
Proof. intros [-> | ->]; unfold csharp_look; cbn [fst snd]; now rewrite ?Z.add_0_r, ?Z.eqb_refl. Qed.
Lemma csharp_look_blank c r : blank_char c = true -> csharp_look 0 Nowhere (0, String c r) = (Nowhere, []) /\
  csharp_look 0 AbstractClass (0, String c r) = (AbstractClass, map (Demands "Message") (signature "abstract public " (without_blanks r))).
Proof.
  intro C; split; revert C; unfold blank_char; rewrite orb_true_iff, !Ascii.eqb_eq; intros [->| ->]; reflexivity.
Qed.
Lemma csharp_look_reindent native tab a l : plain_place a -> blanks native = true -> native <> "" -> blanks tab = true -> tab <> "" ->
  csharp_look 0 a (0, replace_indent native tab l) = csharp_look 0 a (0, l).
Proof.
  intros A Bn Nn Bt Nt; destruct (replace_indent_spec native tab l Nn) as (k & r & -> & _ & ->).
  destruct k as [ |k]; [reflexivity| ].
  assert (X : forall t, blanks t = true -> t <> "" -> csharp_look 0 a (0, repeat_str (Datatypes.S k) t +++ r) =
    match a with Nowhere => (Nowhere, []) | _ => (AbstractClass, map (Demands "Message") (signature "abstract public " (without_blanks r))) end).
  { clear - A; intros t B N; pose proof (without_blanks_repeat (Datatypes.S k) t r B) as V.
    pose proof (blanks_repeat (Datatypes.S k) t B) as Y.
    destruct (repeat_str (Datatypes.S k) t) as [ |c b] eqn:Z; [destruct t; [congruence|discriminate]| ].
    cbn [blanks] in Y; apply andb_true_iff in Y as [C _]; cbn [String.append] in *.
    destruct (csharp_look_blank c (b +++ r) C) as [L1 L2]; destruct A as [-> | ->]; [exact L1|rewrite L2; do 3 f_equal].
    cbn [without_blanks] in V; now rewrite C in V. }
  rewrite !X by assumption; reflexivity.
Qed.
Definition not_derived (l : string) : bool := match head_name ("public class ", "", " : Message") l with None => true | _ => false end.
Lemma csharp_looks_reindent n native tab : blanks native = true -> native <> "" -> blanks tab = true -> tab <> "" ->
  forall ls a, plain_place a -> forallb not_derived ls = true ->
  csharp_looks n a (map (fun l => (n + 0, l)) (map (replace_indent native tab) ls)) = csharp_looks 0 a (map (fun l => (0, l)) ls).
Proof.
  intros Bn Nn Bt Nt; induction ls as [ |l ls IH]; intros a A L; [reflexivity| ]; cbn [map csharp_looks forallb] in *.
  apply andb_true_iff in L as [L1 L]; rewrite csharp_look_zero, csharp_look_reindent by assumption.
  destruct (csharp_look 0 a (0, l)) as [b m] eqn:G; rewrite IH; [reflexivity| |exact L].
  revert G; unfold not_derived in L1; destruct A as [-> | ->]; unfold csharp_look; cbn [fst snd Z.eqb].
  - destruct (head_name _ l); [discriminate| ]; destruct (String.eqb l _); intro G; injection G as <- <-; unfold plain_place; auto.
  - destruct (String.eqb l "}"); intro G; injection G as <- <-; unfold plain_place; auto.
Qed.
Lemma notes_boilerplate n native tab subs file r k2 N M : blanks native = true -> native <> "" -> blanks tab = true -> tab <> "" ->
  forallb not_derived (fold_left substitute subs file) = true ->
  csharp_looks 0 Nowhere (map (fun l => (0, l)) (fold_left substitute subs file)) = (Nowhere, M) ->
  notes n (block r) 0 k2 Nowhere Nowhere N ->
  notes n (block (add_boilerplate native tab subs file :: r)) 0 k2 Nowhere Nowhere (M ++ N).
Proof.
  intros Bn Nn Bt Nt F E H; eapply notes_cons; [ |exact H].
  eexists; split; [apply each_lines| ]; unfold boilerplate_lines; rewrite csharp_looks_reindent by (assumption || now left); exact E.
Qed.
Lemma notes_boilerplate_out n native tab subs file r k k2 c N : (k =? 0) = false ->
  notes n (block r) k k2 Nowhere c N ->
  notes n (block (add_boilerplate native tab subs file :: r)) k k2 Nowhere c N.
Proof.
  intros K H; apply Z.eqb_neq in K; change N with ([] ++ N); eapply notes_cons; [ |exact H].
  eexists; split; [apply each_lines| ].
  generalize (boilerplate_lines native tab subs file) as ls; induction ls as [ |l ls IH]; [reflexivity| ].
  cbn [map csharp_looks]; unfold csharp_look; cbn [fst snd]; destruct (Z.eqb_spec (n + k) n); [lia|now rewrite IH].
Qed.

Section Methods.
Variable p : protocol.
Variable g : settings.
Hypothesis T : text_ok p.
Hypothesis FT : field_types p.
Hint Resolve cst_types_ok cst_types_base cst_gen_measurement_ok : text.
Hint Resolve cst_deserializer_nested cst_serializer_nested : text.
Hint Resolve cst_gen_enum_nested cst_gen_struct_nested : text.
Hypothesis SP : forall t, In t (types_in_order p) -> spaceless t.
Hypothesis NO : ~ In "override" (types_in_order p).

Lemma type_named t : in_strs t (declared_names p) = true -> mem t (p_enums p) = true \/ mem t (p_structs p) = true ->
  In t (types_in_order p).
Proof.
  intros _ M; unfold types_in_order; rewrite !in_app_iff; destruct M as [M|M]; [left|right; left].
  all: now apply mem_true.
Qed.
Lemma printed_type t : field_type p t -> spaceless (type_text "csharp" t) /\ type_text "csharp" t <> "override".
Proof.
  assert (X : forall t, ~ In t base_type_names -> type_text "csharp" t = t).
  { clear; intros t H; unfold type_text; replace (lookup t _) with (@None string); [reflexivity| ].
    cbn [base_type_names types_of combine String.eqb Ascii.eqb Bool.eqb in_strs]; cbn in H.
    cbn [lookup]; repeat match goal with |- None = (if String.eqb t ?k then _ else _) => destruct (String.eqb_spec t k); [exfalso; subst; tauto| ] end.
    reflexivity. }
  assert (Y : In t (types_in_order p) -> ~ In t base_type_names -> spaceless (type_text "csharp" t) /\ type_text "csharp" t <> "override").
  { intros I B; rewrite X by exact B; split; [now apply SP|now intros ->]. }
  intros [B _ _|B _ _|e v r L _ _ _ B D|M _ B D].
  - cbn in B; decompose [or] B; subst; try contradiction; (split; [reflexivity|discriminate]).
  - subst; split; [reflexivity|discriminate].
  - apply Y; [apply type_named; [exact D|left; exact (mem_lookup_some _ _ _ L)]|exact B].
  - apply Y; [apply type_named; [exact D|now right]|exact B].
Qed.
Lemma no_override t r : spaceless t -> t <> "override" -> signature "public override " ("public " +++ (t +++ String " " r)) = [].
Proof.
  intros S O; unfold signature; destruct (rest_after "public override " ("public " +++ (t +++ String " " r))) as [x| ] eqn:R; [exfalso|reflexivity].
  change (rest_after "override " (t +++ String " " r) = Some x) in R; apply rest_after_app in R.
  assert (K : to_space (t +++ String " " r) = to_space ("override " +++ x)) by now rewrite R.
  rewrite to_space_app in K by exact S; change (to_space ("override " +++ x)) with ("override", String " " x) in K; congruence.
Qed.
Lemma field_plain m : field_type p (v_type m) -> signature "public override " (field_text "csharp" p m) = [].
Proof.
  intro F; destruct (printed_type _ F) as [S O]; unfold field_text; replace (in_strs "csharp" _) with false by reflexivity.
  cbn [String.eqb Ascii.eqb Bool.eqb]; destruct (v_list m); [reflexivity| ].
  destruct (in_strs (v_type m) _); now apply no_override.
Qed.
Lemma cst_fields_note n t s : declares p t s ->
  notes n (each (s_members s) (fun m =>
      (if (v_list m) then
         line [| "public List<"; cst_types p (v_type m); "> "; v_name m; " = new List<"; cst_types p (v_type m); ">();" |]
       else given (if String.eqb (v_type m) "string" then Ret (Some """""")
                  else if mem (v_type m) (p_enums p) then
                    e <- get_enum p (v_type m) ;; d <- [| v_type m; "."; default_name e |] ;; Ret (Some d)
                  else if mem (v_type m) (p_structs p) then d <- [| "new "; v_type m; "()" |] ;; Ret (Some d)
                  else Ret None) (fun default =>
           line [| "public "; cst_types p (v_type m); " "; v_name m;
                   match default with Some d => [| " = "; d |] | None => lit "" end; ";" |])))) 1 1 (Derived t) (Derived t) [].
Proof.
  intro D; eapply notes_eq; [apply (notes_each _ _ _ (fun _ => []))|clear; induction (s_members s); [reflexivity|assumption]].
  intros m I; pose proof (FT t s m D I) as F.
  eapply notes_same; [ |intro j; symmetry; now apply cst_field_text].
  exists [(n + 1, field_text "csharp" p m)]; split; [reflexivity| ].
  cbn [csharp_looks]; rewrite csharp_look_method, field_plain by exact F; reflexivity.
Qed.

Definition type_overrides (t : string * struct) : list mpart :=
  if s_is_message (snd t) then map (Offers (fst t))
    ["MessageType GetMessageType()"; "int GetSizeInBytes()"; "void WriteBytes(BinaryWriter bw, bool tag)"] else [].
Lemma cst_gen_enum_notes ename e n : 0 <= n -> In (ename, e) (p_enums p) ->
  notes n (cst_gen_enum p ename e) 0 0 Nowhere Nowhere [].
Proof.
  intros N I; assert (N1 : 0 <= n + 1) by lia; unfold cst_gen_enum.
  pose proof (tk_enums p T ename e I) as [B _]; destruct (cst_types_base p _ B) as [x ->].
  eapply notes_eq; [note|reflexivity].
Qed.
Ltac note_more ::= eapply notes_cons; [eapply cst_fields_note; eassumption| ].
Lemma cst_gen_struct_notes sname s n : 0 <= n -> spaceless sname -> declares p sname s ->
  notes n (cst_gen_struct p g sname s) 0 0 Nowhere Nowhere (type_overrides (sname, s)).
Proof.
  intros N W D; assert (N1 : 0 <= n + 1) by lia; assert (N2 : 0 <= n + 2) by lia; unfold cst_gen_struct, type_overrides; cbv zeta; cbn [fst snd].
  destruct (s_is_message s) eqn:M; cbn [when].
  all: eapply notes_eq; [note|reflexivity].
Qed.

Hypothesis U : g_tab g <> "" /\ blanks (g_tab g) = true.
Hypothesis E : g_embed g = false.

Definition csharp_demands : list mpart :=
  map (Demands "Message") ["MessageType GetMessageType()"; "void WriteBytes(BinaryWriter bw, bool tag)"; "int GetSizeInBytes()"].
Lemma cst_second_file : exists pre post,
  fold_left substitute (cst_substitutions p) (csharp_files 1) = pre ++ cst_message_cases p ++ post /\
  forallb not_derived (pre ++ post) = true /\
  csharp_looks 0 Nowhere (map (fun l => (0, l)) pre) = (AbstractClass, csharp_demands) /\
  csharp_looks 0 AbstractClass (map (fun l => (0, l)) post) = (Nowhere, []).
Proof.
  exists (firstn 42 (csharp_files 1)), (skipn 43 (csharp_files 1)); split; [ |split; [ |split]; vm_compute; reflexivity].
  unfold cst_substitutions; cbn [fold_left]; unfold substitute; cbn [fst snd]; rewrite splice_lines.
  generalize (cst_message_cases p) as c; intro c; vm_compute; reflexivity.
Qed.
Lemma cst_cases_plain : forallb not_derived (cst_message_cases p) = true /\
  csharp_looks 0 AbstractClass (map (fun l => (0, l)) (cst_message_cases p)) = (AbstractClass, []).
Proof.
  unfold cst_message_cases; induction (map fst (p_messages p)) as [ |t l [IH1 IH2]]; [split; reflexivity| ].
  cbn [flat_map]; rewrite map_app, csharp_looks_app, forallb_app, IH1; split; [reflexivity| ].
  match goal with |- context [csharp_looks 0 AbstractClass (map ?f [?x; ?y; ?z])] =>
    replace (csharp_looks 0 AbstractClass (map f [x; y; z])) with (AbstractClass, @nil mpart) by reflexivity end.
  now rewrite IH2.
Qed.
Lemma cst_boilerplate_plain : forallb not_derived (fold_left substitute (cst_substitutions p) (csharp_files 1)) = true /\
  csharp_looks 0 Nowhere (map (fun l => (0, l)) (fold_left substitute (cst_substitutions p) (csharp_files 1))) = (Nowhere, csharp_demands).
Proof.
  destruct cst_second_file as (pre & post & -> & D & L1 & L2); destruct cst_cases_plain as [C1 C2].
  rewrite forallb_app in D; apply andb_true_iff in D as [D1 D2]; rewrite !forallb_app, D1, D2, C1; split; [reflexivity| ].
  now rewrite map_app, csharp_looks_app, L1, map_app, csharp_looks_app, C2, L2.
Qed.
Hint Resolve spaceless_struct spaceless_message : text.
Ltac note_more ::=
  lazymatch goal with
  | |- notes _ (block (add_boilerplate _ _ _ _ :: _)) ?k _ _ _ _ =>
      lazymatch k with
      | 0 => first
          [ eapply notes_boilerplate; [reflexivity|discriminate|apply U|apply U|apply cst_boilerplate_plain|apply cst_boilerplate_plain| ]
          | eapply (notes_boilerplate _ _ _ _ _ _ _ _ []); [reflexivity|discriminate|apply U|apply U|vm_compute; reflexivity|vm_compute; reflexivity| ] ]
      | _ => apply notes_boilerplate_out; [reflexivity| ]
      end
  | |- notes _ (block (each (p_enums _) _ :: _)) 0 _ _ _ _ =>
      eapply notes_cons; [apply (notes_each _ _ _ (fun _ => []));
        let t := fresh "t" in let x := fresh "x" in let I := fresh "I" in
        intros [t x] I; apply cst_gen_enum_notes; [lia|assumption]| ]
  | |- notes _ (block (each _ (fun '(t, x) => cst_gen_struct _ _ t x) :: _)) 0 _ _ _ _ =>
      eapply notes_cons; [apply (notes_each _ _ _ type_overrides);
        let t := fresh "t" in let x := fresh "x" in let I := fresh "I" in
        intros [t x] I; apply cst_gen_struct_notes; [lia|eauto with text|eauto with text]| ]
  end.
Lemma cs_generate_notes : g_files g = csharp_files ->
  csharp_file_methods p g (csharp_demands ++ flat_map type_overrides (p_structs p) ++ flat_map type_overrides (p_messages p)).
Proof.
  intro F; unfold csharp_file_methods; change (generate "csharp" p g) with (cst_generate p g).
  change (inside_namespace "csharp" g) with (has_namespace g).
  assert (H : notes (if has_namespace g then 1 else 0) (cst_generate p g)
    (if has_namespace g then -1 else 0) (if has_namespace g then -1 else 0) Nowhere Nowhere
    (csharp_demands ++ flat_map type_overrides (p_structs p) ++ flat_map type_overrides (p_messages p))).
  { unfold cst_generate; cbv zeta; rewrite E, F; destruct (has_namespace g) eqn:Z; cbn [when].
    - assert (N : 0 <= 1) by lia; assert (N1 : 0 <= 1 + 1) by lia.
      eapply notes_eq; [note|rewrite no_codec, ?app_nil_r; reflexivity].
    - assert (N1 : 0 <= 0 + 1) by lia.
      eapply notes_eq; [note|rewrite no_codec, ?app_nil_r; reflexivity]. }
  destruct H as (ls & G & H); exists ls; split; [ |exact H].
  destruct (has_namespace g); exact G.
Qed.
End Methods.

Lemma csharp_generate_notes p g : text_ok p -> field_types p -> usual "csharp" g ->
  (forall t, In t (types_in_order p) -> spaceless t) -> ~ In "override" (types_in_order p) ->
  (forall n s, In (n, s) (p_structs p) -> s_is_message s = false) ->
  (forall n s, In (n, s) (p_messages p) -> s_is_message s = true) -> csharp_file_methods p g (csharp_method_parts p).
Proof.
  intros T FT (E & N & B & F) SP NO S M.
  pose proof (cs_generate_notes p g T FT SP NO (conj N B) E F) as H.
  replace (flat_map type_overrides (p_structs p)) with (@nil mpart) in H.
  - replace (flat_map type_overrides (p_messages p)) with (flat_map (fun t => map (Offers t)
      ["MessageType GetMessageType()"; "int GetSizeInBytes()"; "void WriteBytes(BinaryWriter bw, bool tag)"]) (map fst (p_messages p))) in H; [exact H| ].
    clear - M; induction (p_messages p) as [ |[n s] l IH]; [reflexivity| ]; cbn [flat_map map fst].
    apply (f_equal2 (@app mpart)); [unfold type_overrides; cbn [fst snd]; now rewrite (M n s) by now left|apply IH; intros; eapply M; right; eassumption].
  - clear - S; induction (p_structs p) as [ |[n s] l IH]; [reflexivity| ]; cbn [flat_map].
    rewrite <- IH by (intros; eapply S; right; eassumption); unfold type_overrides; cbn [fst snd]; now rewrite (S n s) by now left.
Qed.
