(** The class Message of TypeScript and AssemblyScript files and the classes that extend it. *)
From Verif Require Export TypeScriptMethodSpec FieldFacts TopFacts.
From Verif Require Import TypeScriptTextFacts TypeScriptFieldFacts RustMethodFacts IndentFacts ProtocolFacts3.
Open Scope string_scope.
Open Scope Z_scope.
Open Scope list_scope.

Lemma ts_looks_app n a ls r : ts_looks n a (ls ++ r) =
  let (b, x) := ts_looks n a ls in let (c, y) := ts_looks n b r in (c, x ++ y).
Proof.
  revert a; induction ls as [ |l ls IH]; intro a; cbn [app ts_looks]; [now destruct (ts_looks n a r)| ].
  destruct (ts_look n a l) as [b x]; rewrite IH; destruct (ts_looks n b ls) as [c y].
  destruct (ts_looks n c r) as [d z]; now rewrite app_assoc.
Qed.
Lemma ts_looks_inner n ls : Forall (fun l => n + 1 <= fst l) ls -> ts_looks n NoClass ls = (NoClass, []).
Proof.
  induction 1 as [ |l ls H F IH]; [reflexivity| ]; cbn [ts_looks]; unfold ts_look at 1.
  destruct (Z.eqb_spec (fst l) n); [lia|now rewrite IH].
Qed.

(** From level [n + k] to [n + k'], [x] prints lines that declare [N]; the reader goes
    from [a] to [b]. *)
Definition tells (n : Z) (x : gtext) (k k' : Z) (a b : tplace) (N : list mpart) : Prop :=
  exists ls, x (n + k) = Ret (ls, n + k') /\ ts_looks n a ls = (b, N).

Lemma tells_nil n k a : tells n (block []) k k a a [].
Proof. exists []; split; reflexivity. Qed.
Lemma tells_cons n x r k k1 k2 a b c N1 N2 :
  tells n x k k1 a b N1 -> tells n (block r) k1 k2 b c N2 -> tells n (block (x :: r)) k k2 a c (N1 ++ N2).
Proof.
  intros (l1 & E1 & T1) (l2 & E2 & T2); exists (l1 ++ l2).
  change (block (x :: r)) with (andthen x (block r)); unfold andthen; rewrite E1; cbn [pbind snd fst].
  rewrite E2; cbn [pbind fst snd]; split; [reflexivity| ].
  now rewrite ts_looks_app, T1, T2.
Qed.
Lemma tells_look n t s r k k2 a b c M N : t = Ret s -> ts_look n a (n + k, s) = (b, M) ->
  tells n (block r) k k2 b c N -> tells n (block (line t :: r)) k k2 a c (M ++ N).
Proof.
  intros -> E H; eapply tells_cons; [ |exact H].
  exists [(n + k, s)]; split; [reflexivity| ]; cbn [ts_looks]; rewrite E; now rewrite app_nil_r.
Qed.
Lemma tells_indent n r k k1 k2 a c N : k + 1 = k1 ->
  tells n (block r) k1 k2 a c N -> tells n (block (indent :: r)) k k2 a c N.
Proof.
  intros <- H; change N with ([] ++ N); eapply tells_cons; [ |exact H].
  exists []; split; [unfold indent; do 2 f_equal; lia|reflexivity].
Qed.
Lemma tells_dedent n r k k1 k2 a c N : k - 1 = k1 ->
  tells n (block r) k1 k2 a c N -> tells n (block (dedent :: r)) k k2 a c N.
Proof.
  intros <- H; change N with ([] ++ N); eapply tells_cons; [ |exact H].
  exists []; split; [unfold dedent; do 2 f_equal; lia|reflexivity].
Qed.
Lemma tells_check n r k k2 a c N : n + k = 0 ->
  tells n (block r) k k2 a c N -> tells n (block (check_level :: r)) k k2 a c N.
Proof.
  intros E H; change N with ([] ++ N); eapply tells_cons; [ |exact H].
  exists []; unfold check_level; rewrite E; split; reflexivity.
Qed.
Lemma tells_skip n r k k2 a c N : tells n (block r) k k2 a c N -> tells n (block (skip :: r)) k k2 a c N.
Proof. intro H; change N with ([] ++ N); eapply tells_cons; [ |exact H]; exists []; split; reflexivity. Qed.
Lemma tells_inside n x r j j1 k2 c N : runs (n + 1) x j j1 ->
  tells n (block r) (1 + j1) k2 NoClass c N -> tells n (block (x :: r)) (1 + j) k2 NoClass c N.
Proof.
  intros (ls & E & F) H; change N with ([] ++ N); eapply tells_cons; [ |exact H].
  exists ls; split; [rewrite !Z.add_assoc; exact E|now apply ts_looks_inner].
Qed.
Lemma tells_flat n l r k k2 a c N : tells n (block (l ++ r)) k k2 a c N -> tells n (block (block l :: r)) k k2 a c N.
Proof.
  revert k k2 a c N; induction l as [ |x l IH]; intros k k2 a c N H; [now apply tells_skip| ].
  destruct H as (ls & E & T).
  change (andthen x (block (l ++ r)) (n + k) = Ret (ls, n + k2)) in E.
  apply andthen_ret in E as (l1 & k1 & l2 & Ea & E & ->).
  rewrite ts_looks_app in T; destruct (ts_looks n a l1) as [b y] eqn:R1;
    destruct (ts_looks n b l2) as [d m] eqn:R2.
  injection T as -> <-.
  destruct (IH (k1 - n) k2 b c m) as (l3 & E3 & T3);
    [exists l2; split; [replace (n + (k1 - n)) with k1 by lia; exact E|exact R2]| ].
  replace (n + (k1 - n)) with k1 in E3 by lia.
  change (andthen (block l) (block r) k1 = Ret (l3, n + k2)) in E3.
  apply andthen_ret in E3 as (l4 & k4 & l5 & E4 & E5 & ->).
  exists (l1 ++ l4 ++ l5); split; [ |now rewrite ts_looks_app, R1, T3].
  change (andthen (andthen x (block l)) (block r) (n + k) = Ret (l1 ++ l4 ++ l5, n + k2)).
  apply andthen_ret; exists (l1 ++ l4), k4, l5; split; [ |split; [exact E5|apply app_assoc]].
  apply andthen_ret; exists l1, k1, l4; auto.
Qed.
Lemma tells_given {A} n (m : pyres A) f r k k2 a c N : good m ->
  (forall x, m = Ret x -> tells n (block (f x :: r)) k k2 a c N) -> tells n (block (given m f :: r)) k k2 a c N.
Proof.
  intros [x E] H; destruct (H x E) as (ls & E1 & T); exists ls; split; [ |exact T].
  change (andthen (f x) (block r) (n + k) = Ret (ls, n + k2)) in E1.
  change (andthen (given m f) (block r) (n + k) = Ret (ls, n + k2)).
  unfold andthen, given in *; now rewrite E.
Qed.
Lemma tells_each {A} n (l : list A) f names k a :
  (forall x, In x l -> tells n (f x) k k a a (names x)) -> tells n (each l f) k k a a (flat_map names l).
Proof.
  unfold each; induction l as [ |x l IH]; intro H; cbn [map flat_map]; [apply tells_nil| ].
  eapply tells_cons; [apply H; now left|apply IH; intros y I; apply H; now right].
Qed.
Lemma tells_given_one {A} n (m : pyres A) f k k2 a c N : good m ->
  (forall x, m = Ret x -> tells n (f x) k k2 a c N) -> tells n (given m f) k k2 a c N.
Proof.
  intros [x E] H; destruct (H x E) as (ls & E1 & T); exists ls; split; [ |exact T].
  unfold given; now rewrite E.
Qed.
Lemma tells_eq n x k k' a b N N' : tells n x k k' a b N -> N = N' -> tells n x k k' a b N'.
Proof. now intros H <-. Qed.
Lemma tells_same n x y k k' a b N : tells n x k k' a b N -> (forall j, x j = y j) -> tells n y k k' a b N.
Proof. intros (ls & E & T) H; exists ls; split; [now rewrite <- H|exact T]. Qed.



Lemma ts_looks_deep n t ls : Forall (fun l => n + 2 <= fst l) ls -> ts_looks n (Extending t) ls = (Extending t, []).
Proof.
  induction 1 as [ |l ls H F IH]; [reflexivity| ]; cbn [ts_looks]; unfold ts_look at 1.
  destruct (Z.eqb_spec (fst l) n); [lia| ]; destruct (Z.eqb_spec (fst l) (n + 1)); [lia|cbn [andb]; now rewrite IH].
Qed.
Lemma tells_deep n x r j j1 k2 t c N : runs (n + 2) x j j1 ->
  tells n (block r) (2 + j1) k2 (Extending t) c N -> tells n (block (x :: r)) (2 + j) k2 (Extending t) c N.
Proof.
  intros (ls & E & F) H; change N with ([] ++ N); eapply tells_cons; [ |exact H].
  exists ls; split; [rewrite !Z.add_assoc; exact E|now apply ts_looks_deep].
Qed.
Lemma tells_outer n t r k k2 c N : good t -> (k =? 0) = false ->
  tells n (block r) k k2 NoClass c N -> tells n (block (line t :: r)) k k2 NoClass c N.
Proof.
  intros [s E] K H; apply Z.eqb_neq in K; change N with ([] ++ N); eapply tells_look; [exact E| |exact H].
  unfold ts_look; cbn [fst snd]; destruct (Z.eqb_spec (n + k) n); [lia|reflexivity].
Qed.
Lemma tells_at n f r k k2 a c N : (forall z, tells n (block (f z :: r)) k k2 a c N) -> tells n (block (at_level f :: r)) k k2 a c N.
Proof.
  intro H; destruct (H (n + k)) as (ls & E & T); exists ls; split; [exact E|exact T].
Qed.
Lemma ts_look_class n t : spaceless t -> ts_look n NoClass (n + 0, "export class " +++ (t +++ " {")) = (NoClass, []).
Proof.
  intro S; unfold ts_look, head_name; cbn [fst snd]; rewrite Z.add_0_r, Z.eqb_refl.
  replace (String.eqb ("export class " +++ (t +++ " {")) "export abstract class Message {") with false by reflexivity.
  change (rest_after "export class " ("export class " +++ (t +++ " {"))) with (Some (t +++ " {")); cbv beta iota; now rewrite to_space_app by exact S.
Qed.
Lemma ts_look_derived n t : spaceless t ->
  ts_look n NoClass (n + 0, "export class " +++ (t +++ " extends Message {")) = (Extending t, []).
Proof.
  intro S; unfold ts_look, head_name; cbn [fst snd]; rewrite Z.add_0_r, Z.eqb_refl.
  replace (String.eqb ("export class " +++ (t +++ " extends Message {")) "export abstract class Message {") with false by reflexivity.
  change (rest_after "export class " ("export class " +++ (t +++ " extends Message {"))) with (Some (t +++ " extends Message {")).
  cbv beta iota; rewrite to_space_app by exact S; cbv beta iota; rewrite String.eqb_refl; now rewrite before_all.
Qed.
Lemma ts_look_method n t s : ts_look n (Extending t) (n + 1, s) = (Extending t, map (Offers t) (calls s)).
Proof.
  unfold ts_look; cbn [fst snd]; destruct (Z.eqb_spec (n + 1) n); [lia| ]; now rewrite Z.eqb_refl.
Qed.
Lemma ts_look_end n t : ts_look n (Extending t) (n + 0, "}") = (NoClass, []).
Proof. unfold ts_look; cbn [fst snd]; now rewrite Z.add_0_r, Z.eqb_refl. Qed.
Ltac tell_line :=
  first [apply ts_look_end
        |unfold ts_look; cbn [fst snd]; rewrite Z.add_0_r, Z.eqb_refl; vm_compute; reflexivity].

Ltac tell_more := fail.
Ltac tell :=
  cbv beta zeta;
  lazymatch goal with
  | |- tells _ (block []) _ _ _ _ _ => apply tells_nil
  | |- tells _ (block (indent :: _)) ?k _ _ _ _ =>
      let v := eval vm_compute in (k + 1) in apply (tells_indent _ _ k v _ _ _ _ eq_refl); tell
  | |- tells _ (block (dedent :: _)) ?k _ _ _ _ =>
      let v := eval vm_compute in (k - 1) in apply (tells_dedent _ _ k v _ _ _ _ eq_refl); tell
  | |- tells _ (block (check_level :: _)) _ _ _ _ _ => apply tells_check; [reflexivity|tell]
  | |- tells _ (block (skip :: _)) _ _ _ _ _ => apply tells_skip; tell
  | |- tells _ (block (blank :: _)) ?k _ _ _ _ => unfold blank at 1; tell
  | |- tells _ (block (line _ :: _)) 0 _ _ _ _ =>
      eapply tells_look; [known_text|first [rewrite ?append_empty; apply ts_look_class; assumption|apply ts_look_derived; assumption|tell_line]|tell]
  | |- tells _ (block (line _ :: _)) 1 _ (Extending _) _ _ =>
      eapply tells_look; [known_text|apply ts_look_method|tell]
  | |- tells _ (block (line _ :: _)) _ _ NoClass _ _ => apply tells_outer; [good|reflexivity|tell]
  | |- tells _ (block (when true _ :: _)) _ _ _ _ _ => cbn [when]; tell
  | |- tells _ (block (when false _ :: _)) _ _ _ _ _ => cbn [when]; tell
  | |- tells _ (block (block _ :: _)) _ _ _ _ _ => apply tells_flat; cbn [app]; tell
  | |- tells _ (block (?a :: _)) ?k _ _ _ _ =>
      first
        [ tell_more; tell
        | lazymatch goal with |- tells _ _ _ _ (Extending _) _ _ => idtac end;
          let j := eval vm_compute in (k - 2) in
          let ok := eval vm_compute in (0 <=? j) in
          match ok with true => idtac end;
          change k with (2 + j); eapply tells_deep; [solve [run]| ];
          match goal with |- tells _ _ ?k1 _ _ _ _ => let v := eval vm_compute in k1 in change k1 with v end; tell
        | let j := eval vm_compute in (k - 1) in
          let ok := eval vm_compute in (0 <=? j) in
          match ok with true => idtac end;
          change k with (1 + j); eapply tells_inside; [solve [run]| ];
          match goal with |- tells _ _ ?k1 _ _ _ _ => let v := eval vm_compute in k1 in change k1 with v end; tell
        | match a with
          | at_level _ => let z := fresh "z" in apply tells_at; intro z; tell
          | when ?b _ => known_if b; tell
          | (if ?b then _ else _) => known_if b; tell
          | given _ _ => apply tells_given; [good|intros; tell]
          | (let (_, _) := ?x in _) => destruct x; tell
          end
        | idtac ]
  | |- _ => idtac
  end.

(** ** Boilerplate *)

Definition plain_place (a : tplace) : Prop := a = NoClass \/ a = MessageClass.
Lemma ts_look_zero n a l : plain_place a -> ts_look n a (n + 0, l) = ts_look 0 a (0, l).
Proof. intros [-> | ->]; unfold ts_look; cbn [fst snd]; now rewrite ?Z.add_0_r, ?Z.eqb_refl. Qed.
Lemma ts_look_blank c r : blank_char c = true -> ts_look 0 NoClass (0, String c r) = (NoClass, []) /\
  ts_look 0 MessageClass (0, String c r) = (MessageClass, map (Demands "Message") (abstract_calls (without_blanks r))).
Proof.
  intro C; split; revert C; unfold blank_char; rewrite orb_true_iff, !Ascii.eqb_eq; intros [->| ->]; reflexivity.
Qed.
Lemma ts_look_reindent native tab a l : plain_place a -> blanks native = true -> native <> "" -> blanks tab = true -> tab <> "" ->
  ts_look 0 a (0, replace_indent native tab l) = ts_look 0 a (0, l).
Proof.
  intros A Bn Nn Bt Nt; destruct (replace_indent_spec native tab l Nn) as (k & r & -> & _ & ->).
  destruct k as [ |k]; [reflexivity| ].
  assert (X : forall t, blanks t = true -> t <> "" -> ts_look 0 a (0, repeat_str (Datatypes.S k) t +++ r) =
    match a with NoClass => (NoClass, []) | _ => (MessageClass, map (Demands "Message") (abstract_calls (without_blanks r))) end).
  { clear - A; intros t B N; pose proof (without_blanks_repeat (Datatypes.S k) t r B) as V.
    pose proof (blanks_repeat (Datatypes.S k) t B) as Y.
    destruct (repeat_str (Datatypes.S k) t) as [ |c b] eqn:Z; [destruct t; [congruence|discriminate]| ].
    cbn [blanks] in Y; apply andb_true_iff in Y as [C _]; cbn [String.append] in *.
    destruct (ts_look_blank c (b +++ r) C) as [L1 L2]; destruct A as [-> | ->]; [exact L1|rewrite L2; do 3 f_equal].
    cbn [without_blanks] in V; now rewrite C in V. }
  rewrite !X by assumption; reflexivity.
Qed.
Definition not_derived (l : string) : bool := match head_name ("export class ", "", " extends Message {") l with None => true | _ => false end.
Lemma ts_looks_reindent n native tab : blanks native = true -> native <> "" -> blanks tab = true -> tab <> "" ->
  forall ls a, plain_place a -> forallb not_derived ls = true ->
  ts_looks n a (map (fun l => (n + 0, l)) (map (replace_indent native tab) ls)) = ts_looks 0 a (map (fun l => (0, l)) ls).
Proof.
  intros Bn Nn Bt Nt; induction ls as [ |l ls IH]; intros a A L; [reflexivity| ]; cbn [map ts_looks forallb] in *.
  apply andb_true_iff in L as [L1 L]; rewrite ts_look_zero, ts_look_reindent by assumption.
  destruct (ts_look 0 a (0, l)) as [b m] eqn:G; rewrite IH; [reflexivity| |exact L].
  revert G; unfold not_derived in L1; destruct A as [-> | ->]; unfold ts_look; cbn [fst snd Z.eqb].
  - destruct (head_name _ l); [discriminate| ]; destruct (String.eqb l _); intro G; injection G as <- <-; unfold plain_place; auto.
  - destruct (String.eqb l "}"); intro G; injection G as <- <-; unfold plain_place; auto.
Qed.
Lemma tells_boilerplate n native tab subs file r k2 N M : blanks native = true -> native <> "" -> blanks tab = true -> tab <> "" ->
  forallb not_derived (fold_left substitute subs file) = true ->
  ts_looks 0 NoClass (map (fun l => (0, l)) (fold_left substitute subs file)) = (NoClass, M) ->
  tells n (block r) 0 k2 NoClass NoClass N ->
  tells n (block (add_boilerplate native tab subs file :: r)) 0 k2 NoClass NoClass (M ++ N).
Proof.
  intros Bn Nn Bt Nt F E H; eapply tells_cons; [ |exact H].
  eexists; split; [apply each_lines| ]; unfold boilerplate_lines; rewrite ts_looks_reindent by (assumption || now left); exact E.
Qed.
Lemma tells_boilerplate_out n native tab subs file r k k2 c N : (k =? 0) = false ->
  tells n (block r) k k2 NoClass c N ->
  tells n (block (add_boilerplate native tab subs file :: r)) k k2 NoClass c N.
Proof.
  intros K H; apply Z.eqb_neq in K; change N with ([] ++ N); eapply tells_cons; [ |exact H].
  eexists; split; [apply each_lines| ].
  generalize (boilerplate_lines native tab subs file) as ls; induction ls as [ |l ls IH]; [reflexivity| ].
  cbn [map ts_looks]; unfold ts_look; cbn [fst snd]; destruct (Z.eqb_spec (n + k) n); [lia|now rewrite IH].
Qed.

Lemma called_member n r : parenthesis n = false -> called (n +++ String ":" (String " " r)) = None.
Proof.
  induction n as [ |c n IH]; intro H; [reflexivity| ]; cbn [parenthesis] in H; apply orb_false_iff in H as [H1 H].
  cbn [String.append]; change (called (String c (n +++ String ":" (String " " r)))) with
    (if Ascii.eqb c "(" then Some "" else if Ascii.eqb c " " then None
     else match called (n +++ String ":" (String " " r)) with Some m => Some (String c m) | None => None end).
  rewrite H1, IH by exact H; now destruct (Ascii.eqb c " ").
Qed.

Section Methods.
Variable p : protocol.
Variable g : settings.
Hypothesis T : text_ok p.
Hypothesis SP : forall t, In t (types_in_order p) -> spaceless t.
Hypothesis NP : forall t s m, declares p t s -> In m (s_members s) -> parenthesis (v_name m) = false.
Hint Resolve tst_types_ok tst_types_base tst_types_name tst_serializers_ok : text.
Hint Resolve tst_deserializer_nested tst_serializer_nested tst_gen_measurement_ok : text.
Hint Resolve tst_gen_enum_nested tst_gen_struct_nested declared_names_struct declared_names_message : text.

Lemma tells_member n t m x k : parenthesis (v_name m) = false -> good x -> k = 1 ->
  tells n (line (pcat (v_name m) (pcat ": " x))) k k (Extending t) (Extending t) [].
Proof.
  intros N [s E] ->; exists [(n + 1, v_name m +++ (": " +++ s))]; split.
  - rewrite E; unfold pcat, lit; cbn [pbind]; reflexivity.
  - cbn [ts_looks]; rewrite ts_look_method; unfold calls; change (": " +++ s) with (String ":" (String " " s)); now rewrite called_member.
Qed.
Lemma tst_fields_tell asm n t s : declares p t s ->
  tells n (each (s_members s) (fun m =>
      (if v_list m then
         line [| v_name m; ": "; tst_types p asm (v_type m); "[] = [];" |]
       else given (tst_types p asm (v_type m)) (fun ty =>
         given (if String.eqb ty "bigint" then lit "0n"
                else if String.eqb ty "boolean" then lit "false"
                else if String.eqb ty "string" then lit """"""
                else if mem (v_type m) (p_enums p) then
                  e <- get_enum p (v_type m) ;; [| v_type m; "."; default_name e |]
                else if mem (v_type m) (p_structs p) then [| "new "; v_type m; "()" |]
                else lit "0") (fun default_value =>
           line [| v_name m; ": "; tst_types p asm (v_type m);
                   (if String.eqb default_value "" then lit "" else [| " = "; default_value |]); ";" |]))))) 1 1 (Extending t) (Extending t) [].
Proof.
  intro D; eapply tells_eq; [apply (tells_each _ _ _ (fun _ => []))|clear; induction (s_members s); [reflexivity|assumption]].
  intros m I; pose proof (NP t s m D I) as P.
  assert (Y : good (tst_types p asm (v_type m))) by eauto with text.
  destruct (v_list m); [apply tells_member; [exact P|good|reflexivity]| ].
  apply tells_given_one; [exact Y|intros ty G].
  apply tells_given_one; [good|intros d G']; apply tells_member; [exact P|good|reflexivity].
Qed.

Definition type_calls (asm : bool) (t : string * struct) : list mpart :=
  if s_is_message (snd t) then map (Offers (fst t)) (ts_offered (ts_lang asm)) else [].
Lemma tst_gen_enum_tells (asm : bool) ename e n : 0 <= n ->
  tells n (tst_gen_enum asm ename e) 0 0 NoClass NoClass [].
Proof.
  intros N; assert (N1 : 0 <= n + 1) by lia; unfold tst_gen_enum; destruct asm; cbn [when].
  all: eapply tells_eq; [tell|reflexivity].
Qed.
Ltac tell_more ::= eapply tells_cons; [eapply (tst_fields_tell true) || eapply (tst_fields_tell false); eassumption| ].
Lemma tst_gen_struct_tells (asm : bool) sname s n : 0 <= n -> spaceless sname -> declares p sname s ->
  tells n (tst_gen_struct p g asm sname s) 0 0 NoClass NoClass (type_calls asm (sname, s)).
Proof.
  intros N W D; assert (N1 : 0 <= n + 1) by lia; assert (N2 : 0 <= n + 2) by lia; unfold tst_gen_struct, type_calls; cbv zeta; cbn [fst snd].
  destruct (s_is_message s) eqn:M; destruct asm; cbn [negb andb when].
  all: eapply tells_eq; [tell|reflexivity].
Qed.

Hypothesis U : g_tab g <> "" /\ blanks (g_tab g) = true.
Hypothesis E : g_embed g = false.

Lemma tst_boilerplate_tells n (asm : bool) r k2 N :
  g_files g = (if asm then assemblyscript_files else typescript_files) ->
  tells n (block r) 0 k2 NoClass NoClass N ->
  tells n (block (given (tst_serializers asm (p_string_size_type p)) (fun string_size =>
      given (tst_types p asm (p_string_size_type p)) (fun native_string_size =>
        add_boilerplate "  " (g_tab g)
          (tst_substitutions string_size native_string_size)
          (g_files g (-1)))) :: r)) 0 k2 NoClass NoClass (map (Demands "Message") (ts_demanded (ts_lang asm)) ++ N).
Proof.
  intros F H; pose proof (tk_string p T) as S; rewrite F; destruct U as [U1 U2].
  apply tells_given; [destruct asm; eauto with text|intros a Ga].
  apply tells_given; [destruct asm; eauto with text|intros b Gb].
  apply tells_boilerplate; [reflexivity|discriminate|exact U2|exact U1| | |exact H].
  all: clear - S Ga Gb; unfold tst_types, mapping in Gb;
    cbn in S; decompose [or] S; clear S; try contradiction;
    match goal with X : _ = p_string_size_type p |- _ => rewrite <- X in * end;
    destruct asm; vm_compute in Ga, Gb; injection Ga as <-; injection Gb as <-; vm_compute; reflexivity.
Qed.
Hint Resolve spaceless_struct spaceless_message spaceless_enum : text.
Ltac tell_more ::=
  lazymatch goal with
  | |- tells _ (block (given (tst_serializers ?b _) _ :: _)) 0 _ _ _ _ => eapply (tst_boilerplate_tells _ b); [assumption| ]
  | |- tells _ (block (each (p_enums _) (fun '(t, x) => tst_gen_enum ?b t x) :: _)) 0 _ _ _ _ =>
      eapply tells_cons; [apply (tells_each _ _ _ (fun _ => []));
        let t := fresh "t" in let x := fresh "x" in let I := fresh "I" in
        intros [t x] I; apply (tst_gen_enum_tells b); lia| ]
  | |- tells _ (block (each _ (fun '(t, x) => tst_gen_struct _ _ ?b t x) :: _)) 0 _ _ _ _ =>
      eapply tells_cons; [apply (tells_each _ _ _ (type_calls b));
        let t := fresh "t" in let x := fresh "x" in let I := fresh "I" in
        intros [t x] I; apply (tst_gen_struct_tells b); [lia|eauto with text|eauto with text]| ]
  end.
Definition tst_parts (asm : bool) : list mpart :=
  map (Demands "Message") (ts_demanded (ts_lang asm)) ++ flat_map (type_calls asm) (p_structs p) ++ flat_map (type_calls asm) (p_messages p).
Lemma ts_generate_tells : g_files g = typescript_files -> ts_file_methods "typescript" p g (tst_parts false).
Proof.
  intro F; unfold ts_file_methods; change (generate "typescript" p g) with (tst_generate p g false).
  change (inside_namespace "typescript" g) with (g_flag g).
  assert (H : tells (if g_flag g then 1 else 0) (tst_generate p g false)
    (if g_flag g then -1 else 0) (if g_flag g then -1 else 0) NoClass NoClass (tst_parts false)).
  { unfold tst_parts, tst_generate; cbv zeta; rewrite E; destruct (g_flag g) eqn:Z; cbn [negb andb when].
    - assert (N : 0 <= 1) by lia; assert (N1 : 0 <= 1 + 1) by lia.
      eapply tells_eq; [tell|rewrite no_codec, ?app_nil_r; reflexivity].
    - assert (N1 : 0 <= 0 + 1) by lia.
      eapply tells_eq; [tell|rewrite no_codec, ?app_nil_r; reflexivity]. }
  destruct H as (ls & G & H); exists ls; split; [ |exact H].
  destruct (g_flag g); exact G.
Qed.
Lemma as_generate_tells : g_files g = assemblyscript_files -> ts_file_methods "assemblyscript" p g (tst_parts true).
Proof.
  intro F; unfold ts_file_methods; change (generate "assemblyscript" p g) with (tst_generate p g true).
  change (inside_namespace "assemblyscript" g) with false.
  enough (H : tells 0 (tst_generate p g true) 0 0 NoClass NoClass (tst_parts true)) by exact H.
  assert (N1 : 0 <= 0 + 1) by lia.
  unfold tst_parts, tst_generate; cbv zeta; rewrite E, andb_false_r; cbn [negb when].
  eapply tells_eq; [tell|rewrite no_codec, ?app_nil_r; reflexivity].
Qed.
End Methods.

Lemma tst_parts_expected p asm : (forall n s, In (n, s) (p_structs p) -> s_is_message s = false) ->
  (forall n s, In (n, s) (p_messages p) -> s_is_message s = true) -> tst_parts p asm = ts_method_parts (ts_lang asm) p.
Proof.
  intros S M; unfold tst_parts, ts_method_parts; f_equal.
  replace (flat_map (type_calls asm) (p_structs p)) with (@nil mpart).
  - cbn [app]; clear S; induction (p_messages p) as [ |[n s] l IH]; [reflexivity| ]; cbn [flat_map map fst].
    apply (f_equal2 (@app mpart)); [unfold type_calls; cbn [fst snd]; now rewrite (M n s) by now left|apply IH; intros; eapply M; right; eassumption].
  - clear M; induction (p_structs p) as [ |[n s] l IH]; [reflexivity| ]; cbn [flat_map].
    rewrite <- IH by (intros; eapply S; right; eassumption); unfold type_calls; cbn [fst snd]; now rewrite (S n s) by now left.
Qed.
