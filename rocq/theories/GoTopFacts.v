(** The names at package level of Go files. *)
From Verif Require Export GoTopSpec TopFacts.
From Verif Require Import GoTextFacts IndentFacts.
From Coq Require Import Permutation.
Open Scope string_scope.
Open Scope Z_scope.
Open Scope list_scope.

Lemma first_word_cat w r : word w = true -> first_word (w +++ r) = w +++ first_word r.
Proof.
  induction w as [ |a w IH]; cbn [word first_word String.append]; intro W; [reflexivity| ].
  apply andb_true_iff in W as [Wa W]; rewrite Wa; f_equal; now apply IH.
Qed.

Lemma first_word_char c r : word_char c = true -> first_word (String c r) = String c (first_word r).
Proof. intro C; cbn [first_word]; now rewrite C. Qed.
Lemma first_word_stop c r : word_char c = false -> first_word (String c r) = "".
Proof. intro C; cbn [first_word]; now rewrite C. Qed.

Lemma go_looks_app a ls r : go_looks a (ls ++ r) =
  let (b, n) := go_looks a ls in let (c, m) := go_looks b r in (c, n ++ m).
Proof.
  revert a; induction ls as [ |l ls IH]; intro a; cbn [app go_looks]; [now destruct (go_looks a r)| ].
  destruct (go_look a l) as [b n]; rewrite IH; destruct (go_looks b ls) as [c m]; destruct (go_looks c r) as [d k].
  now rewrite app_assoc.
Qed.
Lemma go_looks_inner ls : Forall (fun l => 1 <= fst l) ls -> go_looks Outside ls = (Outside, []).
Proof.
  induction 1 as [ |l ls H F IH]; [reflexivity| ]; cbn [go_looks]; unfold go_look at 1.
  destruct (Z.eqb_spec (fst l) 0); [lia|cbn [negb]; now rewrite IH].
Qed.

(** From level [k] to [k'], [g] prints lines that declare [names]; the reader goes from
    [a] to [b]. *)
Definition sees (g : gtext) (k k' : Z) (a b : go_place) (names : list string) : Prop :=
  exists ls, g k = Ret (ls, k') /\ go_looks a ls = (b, names).

Lemma sees_nil k a : sees (block []) k k a a [].
Proof. exists []; split; reflexivity. Qed.
Lemma sees_cons x r k k1 k2 a b c N1 N2 :
  sees x k k1 a b N1 -> sees (block r) k1 k2 b c N2 -> sees (block (x :: r)) k k2 a c (N1 ++ N2).
Proof.
  intros (l1 & E1 & T1) (l2 & E2 & T2); exists (l1 ++ l2).
  change (block (x :: r)) with (andthen x (block r)); unfold andthen; rewrite E1; cbn [pbind snd fst].
  rewrite E2; cbn [pbind fst snd]; split; [reflexivity| ].
  now rewrite go_looks_app, T1, T2.
Qed.
Lemma sees_line t s r k k2 a b c names N : t = Ret s -> go_look a (k, s) = (b, names) ->
  sees (block r) k k2 b c N -> sees (block (line t :: r)) k k2 a c (names ++ N).
Proof.
  intros -> E H; eapply sees_cons; [ |exact H].
  exists [(k, s)]; split; [reflexivity| ]; cbn [go_looks]; rewrite E; now rewrite app_nil_r.
Qed.
Lemma sees_indent r k k1 k2 a c N : k + 1 = k1 ->
  sees (block r) k1 k2 a c N -> sees (block (indent :: r)) k k2 a c N.
Proof. intros <- H; change N with ([] ++ N); eapply sees_cons; [ |exact H]; exists []; split; reflexivity. Qed.
Lemma sees_dedent r k k1 k2 a c N : k - 1 = k1 ->
  sees (block r) k1 k2 a c N -> sees (block (dedent :: r)) k k2 a c N.
Proof. intros <- H; change N with ([] ++ N); eapply sees_cons; [ |exact H]; exists []; split; reflexivity. Qed.
Lemma sees_check r k k2 a c N : k = 0 ->
  sees (block r) k k2 a c N -> sees (block (check_level :: r)) k k2 a c N.
Proof. intros -> H; change N with ([] ++ N); eapply sees_cons; [ |exact H]; exists []; split; reflexivity. Qed.
Lemma sees_skip r k k2 a c N : sees (block r) k k2 a c N -> sees (block (skip :: r)) k k2 a c N.
Proof. intro H; change N with ([] ++ N); eapply sees_cons; [ |exact H]; exists []; split; reflexivity. Qed.
Lemma sees_inside x r j j1 k2 c N : runs 1 x j j1 ->
  sees (block r) (1 + j1) k2 Outside c N -> sees (block (x :: r)) (1 + j) k2 Outside c N.
Proof.
  intros (ls & E & F) H; change N with ([] ++ N); eapply sees_cons; [ |exact H].
  exists ls; split; [exact E|now apply go_looks_inner].
Qed.
Lemma sees_flat l r k k2 a c N : sees (block (l ++ r)) k k2 a c N -> sees (block (block l :: r)) k k2 a c N.
Proof.
  revert k k2 a c N; induction l as [ |x l IH]; intros k k2 a c N H; [now apply sees_skip| ].
  destruct H as (ls & E & T).
  change (andthen x (block (l ++ r)) k = Ret (ls, k2)) in E.
  apply andthen_ret in E as (l1 & k1 & l2 & Ea & E & ->).
  rewrite go_looks_app in T; destruct (go_looks a l1) as [b n] eqn:R1; destruct (go_looks b l2) as [d m] eqn:R2.
  injection T as -> <-.
  destruct (IH k1 k2 b c m) as (l3 & E3 & T3); [now exists l2| ].
  change (andthen (block l) (block r) k1 = Ret (l3, k2)) in E3.
  apply andthen_ret in E3 as (l4 & k4 & l5 & E4 & E5 & ->).
  exists (l1 ++ l4 ++ l5); split; [ |now rewrite go_looks_app, R1, T3].
  change (andthen (andthen x (block l)) (block r) k = Ret (l1 ++ l4 ++ l5, k2)).
  apply andthen_ret; exists (l1 ++ l4), k4, l5; split; [ |split; [exact E5|apply app_assoc]].
  apply andthen_ret; exists l1, k1, l4; auto.
Qed.
Lemma sees_given {A} (m : pyres A) f r k k2 a c N : good m ->
  (forall x, m = Ret x -> sees (block (f x :: r)) k k2 a c N) -> sees (block (given m f :: r)) k k2 a c N.
Proof.
  intros [x E] H; destruct (H x E) as (ls & E1 & T); exists ls; split; [ |exact T].
  change (andthen (f x) (block r) k = Ret (ls, k2)) in E1.
  change (andthen (given m f) (block r) k = Ret (ls, k2)).
  unfold andthen, given in *; now rewrite E.
Qed.
Lemma sees_each {A} (l : list A) f names k a :
  (forall x, In x l -> sees (f x) k k a a (names x)) -> sees (each l f) k k a a (flat_map names l).
Proof.
  unfold each; induction l as [ |x l IH]; intro H; cbn [map flat_map]; [apply sees_nil| ].
  eapply sees_cons; [apply H; now left|apply IH; intros y I; apply H; now right].
Qed.
Lemma sees_given_one {A} (m : pyres A) f k k2 a c N : good m ->
  (forall x, m = Ret x -> sees (f x) k k2 a c N) -> sees (given m f) k k2 a c N.
Proof.
  intros [x E] H; destruct (H x E) as (ls & E1 & T); exists ls; split; [ |exact T].
  unfold given; now rewrite E.
Qed.
Lemma sees_eq g k k' a b N N' : sees g k k' a b N -> N = N' -> sees g k k' a b N'.
Proof. now intros H <-. Qed.

Lemma sees_block x k k2 a c N : sees (block [x]) k k2 a c N -> sees x k k2 a c N.
Proof.
  intros (ls & E & T); change (andthen x skip k = Ret (ls, k2)) in E.
  apply andthen_ret in E as (l1 & k1 & l2 & Ea & S & ->).
  unfold skip in S; injection S as <- E; rewrite E, app_nil_r in *; exists l1; auto.
Qed.

Lemma look_func w c r : word w = true -> Ascii.eqb "(" c = false ->
  go_look Outside (0, "func " +++ (w +++ String c r)) = (Outside, [first_word (w +++ String c r)]).
Proof.
  intros V C; unfold go_look; cbn [fst snd Z.eqb negb String.append String.eqb Ascii.eqb Bool.eqb].
  replace (rest_after "func (" _) with (@None string); [reflexivity| ].
  cbn [rest_after Ascii.eqb Bool.eqb]; destruct w as [ |a w].
  - cbn [String.append rest_after]; change (None = if Ascii.eqb "(" c then Some r else None); now rewrite C.
  - cbn [word] in V; apply andb_true_iff in V as [V _].
    change (None = if Ascii.eqb "(" a then Some (w +++ String c r) else None).
    destruct (Ascii.eqb_spec "(" a) as [<-|_]; [discriminate|reflexivity].
Qed.
Ltac see_line :=
  unfold go_look; cbn [fst snd negb andb Z.eqb String.eqb String.append declared rest_after Ascii.eqb Bool.eqb];
  reflexivity.
Ltac see_more := fail.
Ltac see :=
  cbv beta zeta;
  lazymatch goal with
  | |- sees (block []) _ _ _ _ _ => apply sees_nil
  | |- sees (block (indent :: _)) ?k _ _ _ _ =>
      let v := eval vm_compute in (k + 1) in apply (sees_indent _ k v _ _ _ _ eq_refl); see
  | |- sees (block (dedent :: _)) ?k _ _ _ _ =>
      let v := eval vm_compute in (k - 1) in apply (sees_dedent _ k v _ _ _ _ eq_refl); see
  | |- sees (block (check_level :: _)) _ _ _ _ _ => apply sees_check; [reflexivity|see]
  | |- sees (block (skip :: _)) _ _ _ _ _ => apply sees_skip; see
  | |- sees (block (blank :: _)) ?k _ _ _ _ => unfold blank at 1; see
  | |- sees (block (line _ :: _)) 0 _ _ _ _ => eapply sees_line; [known_text|first [apply look_func; [assumption|reflexivity]|see_line]|see]
  | |- sees (block (when true _ :: _)) _ _ _ _ _ => cbn [when]; see
  | |- sees (block (when false _ :: _)) _ _ _ _ _ => cbn [when]; see
  | |- sees (block (block _ :: _)) _ _ _ _ _ => apply sees_flat; cbn [app]; see
  | |- sees (block (?x :: _)) ?k _ _ _ _ =>
      first
        [ see_more; see
        | let j := eval vm_compute in (k - 1) in
          let ok := eval vm_compute in (0 <=? j) in
          match ok with true => idtac end;
          change k with (1 + j); eapply sees_inside; [solve [run]| ];
          match goal with |- sees _ ?k1 _ _ _ _ => let v := eval vm_compute in k1 in change k1 with v end; see
        | match x with
          | when ?b _ => known_if b; see
          | (if ?b then _ else _) => known_if b; see
          | given _ _ => apply sees_given; [good|intros; see]
          | (let (_, _) := ?y in _) => destruct y; see
          end
        | idtac ]
  | |- _ => idtac
  end.

(** ** Boilerplate *)

Lemma last_word_blank b : forall r, blanks b = true -> r <> "" -> last_word (b +++ r) "" = last_word r "".
Proof.
  induction b as [ |c b IH]; intros r B R; [reflexivity| ]; cbn [blanks] in B; apply andb_true_iff in B as [C B].
  cbn [String.append last_word]; assert (N : b +++ r <> "") by (destruct b; [exact R|discriminate]).
  destruct (b +++ r) eqn:X; [congruence| ]; rewrite <- X in *; clear X.
  replace (word_char c) with false; [now apply IH| ].
  revert C; unfold blank_char; rewrite orb_true_iff, !Ascii.eqb_eq; intros [->| ->]; reflexivity.
Qed.
Lemma look_reindent native tab a l : a <> Constants -> blanks native = true -> native <> "" -> blanks tab = true -> tab <> "" ->
  (l = "" \/ blanks l = false) -> go_look a (0, replace_indent native tab l) = go_look a (0, l).
Proof.
  intros A Bn Nn Bt Nt L; destruct (replace_indent_spec native tab l Nn) as (k & r & -> & _ & ->).
  destruct k as [ |k]; [reflexivity| ].
  assert (R : r <> "").
  { intros ->; rewrite append_empty in L; destruct L as [L|L]; cbn [repeat_str] in L;
      [destruct native; [congruence|discriminate]|change (blanks (repeat_str (Datatypes.S k) native) = false) in L].
    rewrite (blanks_repeat (Datatypes.S k) native Bn) in L; discriminate. }
  assert (X : forall t, blanks t = true -> t <> "" -> exists c b, repeat_str (Datatypes.S k) t = String c b /\ blank_char c = true /\ blanks b = true).
  { clear; intros t B N; destruct t as [ |c t]; [congruence| ]; cbn [repeat_str String.append].
    pose proof (blanks_repeat (Datatypes.S k) (String c t) B) as Y; cbn [repeat_str String.append blanks] in Y.
    apply andb_true_iff in Y as [Y1 Y2]; eauto. }
  destruct (X native Bn Nn) as (c & b & -> & C & B); destruct (X tab Bt Nt) as (c' & b' & -> & C' & B').
  destruct a; [ | |congruence]; unfold go_look; cbn [fst snd negb].
  - assert (Z : forall c b, blank_char c = true -> (if String.eqb (String c b +++ r) "import (" then (Imports, [])
      else if String.eqb (String c b +++ r) "const (" then (Constants, [])
      else (Outside, match rest_after "func (" (String c b +++ r) with
                     | Some _ => []
                     | None => declared ["type "; "func "] (String c b +++ r)
                     end)) = (Outside, [])).
    { clear; intros c b C; revert C; unfold blank_char; rewrite orb_true_iff, !Ascii.eqb_eq; intros [->| ->]; reflexivity. }
    cbn [Z.eqb negb]; now rewrite !Z.
  - assert (Z : forall c b, blank_char c = true -> String.eqb (String c b +++ r) ")" = false).
    { clear; intros c b C; revert C; unfold blank_char; rewrite orb_true_iff, !Ascii.eqb_eq; intros [->| ->]; reflexivity. }
    rewrite !Z by assumption; rewrite !andb_false_r.
    rewrite !last_word_blank; [reflexivity|cbn [blanks]; now rewrite C|exact R|cbn [blanks]; now rewrite C'|exact R].
Qed.
Lemma looks_reindent native tab : blanks native = true -> native <> "" -> blanks tab = true -> tab <> "" ->
  forall ls a, a <> Constants -> forallb (fun l => negb (String.eqb l "const (") && (String.eqb l "" || negb (blanks l))) ls = true ->
  go_looks a (map (fun l => (0, l)) (map (replace_indent native tab) ls)) = go_looks a (map (fun l => (0, l)) ls).
Proof.
  intros Bn Nn Bt Nt; induction ls as [ |l ls IH]; intros a A L; [reflexivity| ]; cbn [map go_looks forallb] in *.
  apply andb_true_iff in L as [L1 L]; apply andb_true_iff in L1 as [LC LB].
  rewrite look_reindent; auto.
  - destruct (go_look a (0, l)) as [b n] eqn:G; rewrite IH; [reflexivity| |exact L].
    revert G; unfold go_look; cbn [fst snd]; apply negb_true_iff in LC; rewrite LC.
    destruct a; [ | |congruence].
    + cbn [Z.eqb negb]; destruct (String.eqb l "import ("); intro G; injection G as <- <-; discriminate.
    + destruct ((0 =? 0) && String.eqb l ")"); intro G; injection G as <- <-; discriminate.
  - apply orb_true_iff in LB as [LB|LB]; [left; now apply String.eqb_eq|right; now apply negb_true_iff].
Qed.

Section Top.
Variable p : protocol.
Variable g : settings.
Hypothesis T : text_ok p.
Hint Resolve got_types_ok got_types_base got_gen_measurement_ok and_true_l : text.
Hint Resolve got_deserializer_nested got_serializer_nested : text.
Hint Resolve got_gen_enum_nested got_gen_struct_nested : text.
Hypothesis W : word_types p.
Hypothesis WV : word_values p.

Definition go_enum_names (n : string) (e : enum) : list string :=
  n :: map (fun v => n +++ fst v) (e_values e) ++ ["isValid" +++ n].
Definition go_struct_names (n : string) : list string := [n; "New" +++ n +++ "Default"; n +++ "FromBytes"].

Lemma first_word_pad n w k r : word n = true -> word w = true ->
  first_word (n +++ pad k w +++ String " " r) = n +++ w.
Proof.
  intros N V; rewrite first_word_cat by exact N; f_equal; unfold pad.
  rewrite app_str_assoc, first_word_cat by exact V.
  assert (E : forall j, first_word (repeat_str j " " +++ String " " r) = "") by (intros [ |j]; reflexivity).
  rewrite E; apply append_empty.
Qed.
Lemma got_constants_sees ename k (l : list (string * Z)) : word ename = true -> (forall v, In v l -> word (fst v) = true) ->
  sees (each l (fun '(v, vi) => line [| ename; pad k v; " "; ename; " = "; str_of_Z vi |])) 1 1 Constants Constants
    (map (fun v => ename +++ fst v) l).
Proof.
  intros WE V; eapply sees_eq; [apply (sees_each _ _ (fun v => [ename +++ fst v]))|clear; induction l; cbn; congruence].
  intros [v vi] I; apply sees_block; eapply sees_eq; [eapply sees_line; [known_text|reflexivity|apply sees_nil]| ].
  cbn [snd app]; f_equal; apply first_word_pad; [exact WE|exact (V _ I)].
Qed.
Lemma got_tags_sees (l : list (Z * string)) : (forall v, In v l -> word (snd v) = true) ->
  sees (each l (fun '(i, n) => line [| n; "Type MessageType = "; str_of_Z (i + 1) |])) 1 1 Constants Constants
    (map (fun v => snd v +++ "Type") l).
Proof.
  intros V; eapply sees_eq; [apply (sees_each _ _ (fun v => [snd v +++ "Type"]))|clear; induction l; cbn; congruence].
  intros [i n] I; apply sees_block; eapply sees_eq; [eapply sees_line; [known_text|reflexivity|apply sees_nil]| ].
  cbn [snd app]; f_equal; rewrite first_word_cat; [reflexivity|exact (V _ I)].
Qed.
Ltac see_more ::=
  match goal with
  | |- sees (block (each (e_values _) _ :: _)) 1 _ Constants _ _ =>
      eapply sees_cons; [apply got_constants_sees; [assumption|intros; eapply WV; eassumption]| ]
  end.
Ltac go_named :=
  cbn [app String.append];
  repeat first [rewrite first_word_cat by assumption|rewrite first_word_char by reflexivity|rewrite first_word_stop by reflexivity];
  rewrite ?append_empty; reflexivity.
Lemma got_gen_enum_sees ename e : In (ename, e) (p_enums p) ->
  sees (got_gen_enum p ename e) 0 0 Outside Outside (go_enum_names ename e).
Proof.
  intros I; assert (N1 : 0 <= 1) by lia; pose proof (word_enum p ename e W I) as WE.
  pose proof (tk_enums p T ename e I : fine_enum e) as F; unfold got_gen_enum.
  destruct (got_types_base p _ (fine_encoding e F)) as [x ->].
  eapply sees_given_one; [now apply longest_fine|intros l L].
  eapply sees_eq; [see|unfold go_enum_names; go_named].
Qed.
Lemma got_gen_struct_sees sname s : declares p sname s -> word sname = true ->
  sees (got_gen_struct p g sname s) 0 0 Outside Outside (go_struct_names sname).
Proof.
  intros D WS; assert (N1 : 0 <= 1) by lia; pose proof (tk_name p T sname s D) as E.
  unfold got_gen_struct; cbv zeta; rewrite E.
  destruct (s_is_message s) eqn:M; cbn [when].
  all: eapply sees_eq; [see|unfold go_struct_names; go_named].
Qed.

Hypothesis U : g_tab g <> "" /\ blanks (g_tab g) = true.
Hypothesis E : g_embed g = false.
Hypothesis F : g_files g = go_files.

(** The boilerplate. *)
Lemma got_boilerplate_sees :
  sees (given (got_types p (p_string_size_type p)) (fun string_size =>
      add_boilerplate got_tab (g_tab g) (got_substitutions g string_size) (g_files g (-1)))) 0 0 Outside Outside
    ["binary"; "fmt"; "io"; "readString"; "writeString"; "getDataOffset"; "GetPackedSize"; "PackMessages"; "UnpackMessages"].
Proof.
  pose proof (tk_string p T) as S; destruct U as [U1 U2]; rewrite F.
  apply sees_given_one; [eauto with text|intros a Ga].
  unfold add_boilerplate, boilerplate_lines; eexists; split; [apply each_lines| ].
  assert (L : forallb (fun l => negb (String.eqb l "const (") && (String.eqb l "" || negb (blanks l)))
                (fold_left substitute (got_substitutions g a) (go_files (-1))) = true /\
              go_looks Outside (map (fun l => (0, l)) (fold_left substitute (got_substitutions g a) (go_files (-1)))) =
                (Outside, ["binary"; "fmt"; "io"; "readString"; "writeString"; "getDataOffset"; "GetPackedSize"; "PackMessages";
                           "UnpackMessages"])).
  { clear - S Ga; unfold got_types, mapping in Ga; unfold got_substitutions.
    generalize (snake (or_none (g_namespace g))) (or_none (g_namespace g)); intros low ns.
    cbn in S; decompose [or] S; clear S; try contradiction;
      match goal with X : _ = p_string_size_type p |- _ => rewrite <- X in * end;
      vm_compute in Ga; injection Ga as <-; destruct (has_namespace g), (negb (g_flag g)); (split; vm_compute; reflexivity). }
  destruct L as [L1 L2]; rewrite looks_reindent; auto; discriminate.
Qed.

Ltac see_more ::=
  match goal with
  | |- sees (block (given _ (fun _ => add_boilerplate _ _ _ _) :: _)) _ _ _ _ _ => eapply sees_cons; [apply got_boilerplate_sees| ]
  | |- sees (block (each (enumerate _) _ :: _)) 1 _ Constants _ _ =>
      eapply sees_cons; [apply got_tags_sees| ]
  | |- sees (block (each (p_enums _) _ :: _)) 0 _ _ _ _ =>
      eapply sees_cons; [apply (sees_each _ _ (fun x => go_enum_names (fst x) (snd x))); intros [? ?] ?; now apply got_gen_enum_sees| ]
  | |- sees (block (each _ _ :: _)) 0 _ _ _ _ =>
      eapply sees_cons; [apply (sees_each _ _ (fun x => go_struct_names (fst x))); intros [? ?] ?; apply got_gen_struct_sees; eauto with text| ]
  end.
Definition go_in_order : list string :=
  ["binary"; "fmt"; "io"; "readString"; "writeString"; "getDataOffset"; "GetPackedSize"; "PackMessages"; "UnpackMessages"; "MessageType"] ++
  map (fun m => fst m +++ "Type") (p_messages p) ++ ["Message"; "ProcessRawBytes"] ++
  flat_map (fun x => go_enum_names (fst x) (snd x)) (p_enums p) ++
  flat_map (fun x => go_struct_names (fst x)) (p_structs p) ++ flat_map (fun x => go_struct_names (fst x)) (p_messages p).
Lemma enumerate_names {A} (f : string -> string) (d : list (string * A)) i :
  map (fun v => f (snd v)) (enumerate_from i d) = map (fun m => f (fst m)) d.
Proof. revert i; induction d as [ |[k x] d IH]; intro i; cbn; [reflexivity|now rewrite IH]. Qed.
Lemma enumerate_in {A} (d : list (string * A)) v : forall i, In v (enumerate_from i d) -> exists x, In (snd v, x) d.
Proof.
  induction d as [ |[k x] d IH]; intros i I; cbn in I; [destruct I| ].
  destruct I as [<-|I]; [exists x; now left|destruct (IH _ I) as [y Y]; exists y; now right].
Qed.
Lemma got_generate_sees : sees (got_generate p g) 0 0 Outside Outside go_in_order.
Proof.
  assert (N1 : 0 <= 1) by lia; eapply sees_eq; [unfold got_generate; cbv zeta; rewrite E; cbn [when]; see| ].
  - intros v I; apply enumerate_in in I as [x I]; eauto with text.
  - unfold go_in_order, enumerate; rewrite (enumerate_names (fun n => n +++ "Type") (p_messages p) 0).
    rewrite !app_nil_r; reflexivity.
Qed.
Lemma go_in_order_all : Permutation go_in_order (go_declared p).
Proof.
  unfold go_in_order, go_declared, go_boilerplate; rewrite flat_map_app.
  change (["binary"; "fmt"; "io"; "readString"; "writeString"; "getDataOffset"; "GetPackedSize"; "PackMessages";
     "UnpackMessages"; "MessageType"; "Message"; "ProcessRawBytes"]) with
    (["binary"; "fmt"; "io"; "readString"; "writeString"; "getDataOffset"; "GetPackedSize"; "PackMessages";
     "UnpackMessages"; "MessageType"] ++ ["Message"; "ProcessRawBytes"]).
  rewrite <- app_assoc; apply Permutation_app_head; rewrite !app_assoc; do 3 apply Permutation_app_tail.
  apply Permutation_app_comm.
Qed.
End Top.

Lemma go_generate_declares p g : text_ok p -> usual "go" g -> word_types p -> word_values p ->
  exists names, go_file_declares p g names /\ Permutation names (go_declared (go_protocol (negb (g_flag g)) p)).
Proof.
  intros T (E & N & B & F) W WV; set (q := go_protocol (negb (g_flag g)) p).
  assert (O : types_in_order q = types_in_order p /\ p_enums q = p_enums p).
  { subst q; unfold types_in_order, go_protocol; destruct (negb (g_flag g)); [ |auto].
    cbn [p_enums p_structs p_messages rename_members]; now rewrite !rename_names. }
  destruct O as [O OE].
  exists (go_in_order q); split; [ |apply go_in_order_all].
  apply (got_generate_sees q g); auto.
  - subst q; unfold go_protocol; destruct (negb (g_flag g)); [now apply text_ok_renamed|exact T].
  - intros t I; rewrite O in I; now apply W.
  - intros n e v I J; rewrite OE in I; exact (WV n e v I J).
Qed.
