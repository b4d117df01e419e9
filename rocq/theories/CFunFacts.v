(** The lines of generated C that declare and define functions. *)
From Verif Require Export CFunSpec CDeclFacts.
From Verif Require Import IndentFacts CTextFacts PropBoilerplateFacts.
Open Scope string_scope.
Open Scope Z_scope.
Open Scope list_scope.

(** ** Lines *)

Lemma functions_in_app a b : functions_in (a ++ b) = functions_in a ++ functions_in b.
Proof. apply flat_map_app. Qed.
Lemma functions_in_inner ls : Forall (fun l => 0 + 1 <= fst l) ls -> functions_in ls = [].
Proof.
  induction 1 as [ |l ls H F IH]; [reflexivity| ]; cbn [functions_in flat_map]; fold (functions_in ls).
  destruct (Z.eqb_spec (fst l) 0); [lia|exact IH].
Qed.

(** From level [k] to [k'], [x] prints lines with the functions [N]. *)
Definition sees (x : gtext) (k k' : Z) (N : list c_fun) : Prop :=
  exists ls, x k = Ret (ls, k') /\ functions_in ls = N.

Lemma sees_nil k : sees (block []) k k [].
Proof. exists []; split; reflexivity. Qed.
Lemma sees_cons x r k k1 k2 N1 N2 : sees x k k1 N1 -> sees (block r) k1 k2 N2 -> sees (block (x :: r)) k k2 (N1 ++ N2).
Proof.
  intros (l1 & E1 & T1) (l2 & E2 & T2); exists (l1 ++ l2).
  change (block (x :: r)) with (andthen x (block r)); unfold andthen; rewrite E1; cbn [pbind snd fst].
  rewrite E2; cbn [pbind fst snd]; split; [reflexivity| ].
  now rewrite functions_in_app, T1, T2.
Qed.
Lemma sees_top t s r k2 M N : t = Ret s -> function_line s = M -> sees (block r) 0 k2 N -> sees (block (line t :: r)) 0 k2 (M ++ N).
Proof.
  intros -> E H; eapply sees_cons; [ |exact H]; exists [(0, s)]; split; [reflexivity| ].
  cbn [functions_in flat_map fst snd]; change (0 =? 0) with true; cbv iota; now rewrite app_nil_r.
Qed.
Lemma sees_none x r k k1 k2 N : sees x k k1 [] -> sees (block r) k1 k2 N -> sees (block (x :: r)) k k2 N.
Proof. apply (sees_cons x r k k1 k2 []). Qed.
Lemma sees_outer t r k k2 N : good t -> (k =? 0) = false -> sees (block r) k k2 N -> sees (block (line t :: r)) k k2 N.
Proof.
  intros [s E] K H; eapply sees_none; [ |exact H]; exists [(k, s)]; split; [rewrite E; reflexivity| ].
  cbn [functions_in flat_map fst snd]; now rewrite K.
Qed.
Lemma sees_indent r k k1 k2 N : k + 1 = k1 -> sees (block r) k1 k2 N -> sees (block (indent :: r)) k k2 N.
Proof. intros <- H; eapply sees_none; [ |exact H]; exists []; split; reflexivity. Qed.
Lemma sees_dedent r k k1 k2 N : k - 1 = k1 -> sees (block r) k1 k2 N -> sees (block (dedent :: r)) k k2 N.
Proof. intros <- H; eapply sees_none; [ |exact H]; exists []; split; reflexivity. Qed.
Lemma sees_skip r k k2 N : sees (block r) k k2 N -> sees (block (skip :: r)) k k2 N.
Proof. intro H; eapply sees_none; [ |exact H]; exists []; split; reflexivity. Qed.
Lemma sees_inside x r j j1 k2 N : runs (0 + 1) x j j1 -> sees (block r) (1 + j1) k2 N -> sees (block (x :: r)) (1 + j) k2 N.
Proof.
  intros (ls & E & F) H; eapply sees_none; [ |exact H].
  exists ls; split; [exact E|now apply functions_in_inner].
Qed.
Lemma sees_flat l r k k2 N : sees (block (l ++ r)) k k2 N -> sees (block (block l :: r)) k k2 N.
Proof.
  revert k k2 N; induction l as [ |x l IH]; intros k k2 N H; [now apply sees_skip| ].
  destruct H as (ls & E & T).
  change (andthen x (block (l ++ r)) k = Ret (ls, k2)) in E.
  apply andthen_ret in E as (l1 & k1 & l2 & Ea & E & ->).
  rewrite functions_in_app in T.
  destruct (IH k1 k2 (functions_in l2)) as (l3 & E3 & T3); [now exists l2| ].
  change (andthen (block l) (block r) k1 = Ret (l3, k2)) in E3.
  apply andthen_ret in E3 as (l4 & k4 & l5 & E4 & E5 & ->).
  exists (l1 ++ l4 ++ l5); split; [ |now rewrite functions_in_app, T3].
  change (andthen (andthen x (block l)) (block r) k = Ret (l1 ++ l4 ++ l5, k2)).
  apply andthen_ret; exists (l1 ++ l4), k4, l5; split; [ |split; [exact E5|apply app_assoc]].
  apply andthen_ret; exists l1, k1, l4; auto.
Qed.
Lemma sees_given {A} (m : pyres A) f r k k2 N : good m ->
  (forall x, m = Ret x -> sees (block (f x :: r)) k k2 N) -> sees (block (given m f :: r)) k k2 N.
Proof.
  intros [x E] H; destruct (H x E) as (ls & E1 & T); exists ls; split; [ |exact T].
  change (andthen (f x) (block r) k = Ret (ls, k2)) in E1.
  change (andthen (given m f) (block r) k = Ret (ls, k2)).
  unfold andthen, given in *; now rewrite E.
Qed.
Lemma sees_each {A} (l : list (string * A)) f names k :
  (forall t x, In (t, x) l -> sees (f (t, x)) k k (names (t, x))) -> sees (each l f) k k (flat_map names l).
Proof.
  unfold each; induction l as [ |[t x] l IH]; intro H; cbn [map flat_map]; [apply sees_nil| ].
  eapply sees_cons; [apply H; now left|apply IH; intros s y I; apply H; now right].
Qed.
Lemma sees_eq x k k' N N' : sees x k k' N -> N = N' -> sees x k k' N'.
Proof. now intros H <-. Qed.
Lemma sees_at f r k k2 N : sees (block (f k :: r)) k k2 N -> sees (block (at_level f :: r)) k k2 N.
Proof. exact (fun H => H). Qed.

(** ** Texts in pieces *)

Inductive piece := Lit (s : string) | Word (w : string).
Definition text_of (x : piece) : string := match x with Lit s | Word s => s end.
Fixpoint render (t : list piece) : string := match t with [] => "" | x :: r => text_of x +++ render r end.
Definition piece_ok (x : piece) : Prop := match x with Lit _ => True | Word w => word w = true end.
Fixpoint pieces_ok (t : list piece) : Prop := match t with [] => True | x :: r => piece_ok x /\ pieces_ok r end.

Lemma has_char_app c a b : has_char c (a +++ b) = has_char c a || has_char c b.
Proof. induction a as [ |d a IH]; cbn [String.append has_char]; [reflexivity| ]; destruct (Ascii.eqb c d); [reflexivity|exact IH]. Qed.
Lemma word_char_not w c : word w = true -> word_char c = false -> has_char c w = false.
Proof.
  induction w as [ |d w IH]; cbn [word has_char]; [reflexivity| ]; rewrite andb_true_iff; intros [D V] C.
  destruct (Ascii.eqb_spec c d) as [->|_]; [congruence|now apply IH].
Qed.
Definition p_paren (t : list piece) : bool := existsb (fun x => match x with Lit s => has_char "(" s | Word _ => false end) t.
Lemma render_paren t : pieces_ok t -> has_char "(" (render t) = p_paren t.
Proof.
  induction t as [ |x t IH]; [reflexivity| ]; cbn [pieces_ok render p_paren existsb]; intros [O P]; rewrite has_char_app, IH by exact P.
  destruct x as [s|w]; [reflexivity| ]; cbn [text_of]; cbn [piece_ok] in O; rewrite (word_char_not w) by auto; reflexivity.
Qed.
Lemma last_char_app a b : b <> "" -> last_char (a +++ b) = last_char b.
Proof.
  intro B; induction a as [ |c a IH]; [reflexivity| ]; cbn [String.append last_char]; rewrite IH.
  destruct (a +++ b) eqn:E; [ |reflexivity]; destruct a; cbn in E; congruence.
Qed.
Fixpoint p_last (t : list piece) : option ascii :=
  match t with
  | [] => None
  | [Lit s] => last_char s
  | _ :: r => p_last r
  end.
Lemma render_last t c : p_last t = Some c -> last_char (render t) = Some c.
Proof.
  induction t as [ |x t IH]; [discriminate| ]; intro E; cbn [render].
  destruct t as [ |y t].
  - destruct x as [s|w]; [ |discriminate]; cbn [p_last text_of render] in *; now rewrite append_empty.
  - assert (L : p_last (y :: t) = Some c) by (destruct x; exact E).
    specialize (IH L); rewrite last_char_app; [exact IH|intro Z; rewrite Z in IH; discriminate].
Qed.

(** What has been read of a word, as a function that puts it before a text. *)
Definition puts (now : string -> string) : Prop := forall x, now x = now "" +++ x.
Lemma puts_id : puts (fun x => x).
Proof. intro x; reflexivity. Qed.
Lemma puts_char now c : puts now -> puts (fun x => now (String c x)).
Proof. intros P x; rewrite (P (String c x)), (P (String c "")), app_str_assoc; reflexivity. Qed.
Lemma puts_word now w : puts now -> puts (fun x => now (w +++ x)).
Proof. intros P x; rewrite (P (w +++ x)), (P (w +++ "")), append_empty, app_str_assoc; reflexivity. Qed.
(** The name. *)
Fixpoint name_scan (s : string) (now : string -> string) : string + (string -> string) :=
  match s with
  | EmptyString => inr now
  | String c r =>
      if word_char c then name_scan r (fun x => now (String c x))
      else if Ascii.eqb c "(" then inl (now "")
      else name_scan r (fun x => x)
  end.
Fixpoint p_name (t : list piece) (now : string -> string) : string :=
  match t with
  | [] => ""
  | Lit s :: r => match name_scan s now with inl n => n | inr now' => p_name r now' end
  | Word w :: r => p_name r (fun x => now (w +++ x))
  end.
Lemma fun_name_word w r now : word w = true -> fun_name (w +++ r) now = fun_name r (now +++ w).
Proof.
  revert now; induction w as [ |c w IH]; intros now; cbn [word String.append fun_name]; [now rewrite append_empty| ].
  rewrite andb_true_iff; intros [C W]; rewrite C, IH by exact W; now rewrite app_str_assoc.
Qed.
Lemma fun_name_lit s r : forall now, puts now ->
  match name_scan s now with
  | inl n => fun_name (s +++ r) (now "") = n
  | inr now' => puts now' /\ fun_name (s +++ r) (now "") = fun_name r (now' "")
  end.
Proof.
  induction s as [ |c s IH]; intros now P; cbn [String.append fun_name name_scan]; [auto| ].
  destruct (word_char c).
  - specialize (IH _ (puts_char now c P)); cbv beta in IH; rewrite <- (P (String c "")); exact IH.
  - destruct (Ascii.eqb c "("); [reflexivity|exact (IH _ puts_id)].
Qed.
Lemma render_name t : pieces_ok t -> forall now, puts now -> fun_name (render t) (now "") = p_name t now.
Proof.
  induction t as [ |[s|w] t IH]; cbn [pieces_ok piece_ok render text_of p_name]; [reflexivity| | ]; intros [O P] now Q.
  - pose proof (fun_name_lit s (render t) now Q) as H; destruct (name_scan s now) as [n|k]; [exact H| ].
    destruct H as [K ->]; now apply IH.
  - rewrite fun_name_word by exact O; rewrite <- (Q w), <- (append_empty w) at 1; apply (IH P _ (puts_word now w Q)).
Qed.
(** The signature. *)
Fixpoint sig_scan (s : string) (now : string -> string) : (string -> string) * option (string -> string) :=
  match s with
  | EmptyString => (fun x => x, Some now)
  | String c r =>
      if word_char c then sig_scan r (fun x => now (String c x))
      else if Ascii.eqb c ")" then (fun _ => ")", None)
      else if Ascii.eqb c "," then let (o, k) := sig_scan r (fun x => x) in (fun x => String "," (o x), k)
      else let (o, k) := sig_scan r (fun x => x) in (fun x => now (String c (o x)), k)
  end.
Fixpoint p_sig (t : list piece) (now : string -> string) : string :=
  match t with
  | [] => ""
  | Lit s :: r => match sig_scan s now with (o, None) => o "" | (o, Some now') => o (p_sig r now') end
  | Word w :: r => p_sig r (fun x => now (w +++ x))
  end.
Lemma signature_word w r now : word w = true -> signature (w +++ r) now = signature r (now +++ w).
Proof.
  revert now; induction w as [ |c w IH]; intros now; cbn [word String.append signature]; [now rewrite append_empty| ].
  rewrite andb_true_iff; intros [C W]; rewrite C, IH by exact W; now rewrite app_str_assoc.
Qed.
Lemma signature_lit s r : forall now, puts now ->
  match sig_scan s now with
  | (o, None) => signature (s +++ r) (now "") = o ""
  | (o, Some now') => puts now' /\ signature (s +++ r) (now "") = o (signature r (now' ""))
  end.
Proof.
  induction s as [ |c s IH]; intros now P; cbn [String.append signature sig_scan]; [auto| ].
  destruct (word_char c).
  - specialize (IH _ (puts_char now c P)); cbv beta in IH; rewrite <- (P (String c "")); exact IH.
  - destruct (Ascii.eqb c ")"); [reflexivity| ].
    specialize (IH _ puts_id); destruct (Ascii.eqb c ","); destruct (sig_scan s (fun x => x)) as [o [k| ]].
    + destruct IH as [K ->]; auto.
    + now rewrite IH.
    + destruct IH as [K ->]; split; [exact K|symmetry; apply P].
    + rewrite IH; symmetry; apply P.
Qed.
Lemma render_sig t : pieces_ok t -> forall now, puts now -> signature (render t) (now "") = p_sig t now.
Proof.
  induction t as [ |[s|w] t IH]; cbn [pieces_ok piece_ok render text_of p_sig]; [reflexivity| | ]; intros [O P] now Q.
  - pose proof (signature_lit s (render t) now Q) as H; destruct (sig_scan s now) as [o [k| ]]; [ |exact H].
    destruct H as [K ->]; f_equal; now apply IH.
  - rewrite signature_word by exact O; rewrite <- (Q w), <- (append_empty w) at 1; apply (IH P _ (puts_word now w Q)).
Qed.
(** The line as a whole. *)
Definition p_blank (t : list piece) : bool := match t with Lit (String c _) :: _ => blank_char c | _ => false end.
Definition p_function (t : list piece) : list c_fun :=
  if p_blank t || negb (p_paren t) then []
  else match p_last t with
       | Some ";" => [Declared (p_name t (fun x => x)) (p_sig t (fun x => x))]
       | Some "{" => [Defined (p_name t (fun x => x)) (p_sig t (fun x => x))]
       | _ => []
       end%char.
(** The first character is known, or it is that of a word; and the last one is known. *)
Fixpoint p_begins (t : list piece) : bool :=
  match t with
  | Lit (String c _) :: _ => negb (blank_char c)
  | Word _ :: r => p_begins r
  | _ => false
  end.
Definition p_known (t : list piece) : bool :=
  match t with
  | [] => true
  | Lit (String _ _) :: _ => true
  | Word _ :: r => p_begins r
  | _ => false
  end && (negb (p_paren t) || match p_last t with Some _ => true | None => false end).
Lemma begins_start t : pieces_ok t -> p_begins t = true -> blank_start (render t) = false.
Proof.
  induction t as [ |[[ |c s]|w] t IH]; cbn [p_begins pieces_ok piece_ok render text_of]; try discriminate.
  - intros _; cbn [String.append blank_start]; now rewrite negb_true_iff.
  - intros [W O] K; destruct w as [ |c w]; [now apply IH| ]; cbn [String.append blank_start].
    cbn [word] in W; apply andb_true_iff in W as [C _]; unfold blank_char.
    destruct (Ascii.eqb_spec c " ") as [->|_]; [discriminate C| ].
    destruct (Ascii.eqb_spec c "009") as [->|_]; [discriminate C|reflexivity].
Qed.
Lemma render_start t : pieces_ok t -> p_known t = true -> blank_start (render t) = p_blank t.
Proof.
  intros O K; unfold p_known in K; apply andb_true_iff in K as [K _].
  destruct t as [ |[[ |c s]|w] t]; [reflexivity|discriminate|reflexivity| ]; cbn [p_blank].
  now apply begins_start.
Qed.
Lemma render_function t : pieces_ok t -> p_known t = true -> function_line (render t) = p_function t.
Proof.
  intros O K; unfold function_line, p_function; rewrite (render_start t O K), render_paren by exact O.
  destruct (p_blank t); [reflexivity| ]; destruct (p_paren t) eqn:Q; cbn [negb orb]; [ |reflexivity].
  unfold p_known in K; rewrite Q in K; cbn [negb orb] in K; apply andb_true_iff in K as [_ K].
  destruct (p_last t) as [c| ] eqn:L; [ |discriminate].
  rewrite (render_last t c L), (render_name t O _ puts_id), (render_sig t O _ puts_id); reflexivity.
Qed.

(** ** Boilerplate *)

Fixpoint in_pieces (subs : list (string * string)) (gap : nat) (s : string) : list piece :=
  match s with
  | EmptyString => []
  | String c r =>
      match gap with
      | Datatypes.S k => in_pieces subs k r
      | Datatypes.O => match find (fun d => starts_with (fst d) s) subs with
             | Some (old, new) => Word new :: in_pieces subs (String.length old - 1) r
             | None => Lit (String c "") :: in_pieces subs 0 r
             end
      end
  end.
Lemma in_pieces_text subs s : forall gap, render (in_pieces subs gap s) = once subs gap s.
Proof.
  induction s as [ |c s IH]; intros [ |gap]; cbn [in_pieces once]; try reflexivity; [ |apply IH].
  destruct (find _ subs) as [[o w]| ]; cbn [render text_of String.append]; now rewrite IH.
Qed.
Lemma in_pieces_ok subs s : (forall m, In m subs -> word (snd m) = true) -> forall gap, pieces_ok (in_pieces subs gap s).
Proof.
  intro W; induction s as [ |c s IH]; intros [ |gap]; cbn [in_pieces pieces_ok]; auto.
  destruct (find _ subs) as [[o w]| ] eqn:F; cbn [pieces_ok piece_ok]; split; auto.
  apply find_some in F as [I _]; exact (W _ I).
Qed.
Lemma functions_indented native tab l : native <> "" -> blanks native = true -> blanks tab = true -> tab <> "" ->
  function_line (replace_indent native tab l) = function_line l.
Proof.
  intros Nn Bn Bt Nt; destruct (replace_indent_spec native tab l Nn) as (k & r & -> & _ & ->).
  destruct k as [ |k]; [reflexivity| ].
  assert (X : forall t, blanks t = true -> t <> "" -> blank_start (repeat_str (Datatypes.S k) t +++ r) = true).
  { clear; intros [ |c t] B N; [congruence| ]; cbn [blanks] in B; apply andb_true_iff in B as [B _]; exact B. }
  unfold function_line; now rewrite !X.
Qed.
Lemma sees_boilerplate native tab subs file r k2 N :
  blanks native = true -> native <> "" -> blanks tab = true -> tab <> "" ->
  sees (block r) 0 k2 N ->
  sees (block (add_boilerplate native tab subs file :: r)) 0 k2 (flat_map function_line (fold_left substitute subs file) ++ N).
Proof.
  intros Bn Nn Bt Nt H; eapply sees_cons; [ |exact H].
  eexists; split; [apply each_lines| ]; unfold boilerplate_lines.
  clear H; generalize (fold_left substitute subs file) as ls; induction ls as [ |l ls IH]; [reflexivity| ].
  cbn [map functions_in flat_map fst snd]; change (0 =? 0) with true; cbv iota; rewrite functions_indented by assumption.
  f_equal; exact IH.
Qed.
Lemma once_functions subs file : (forall m, In m subs -> word (snd m) = true) ->
  forallb (fun l => p_known (in_pieces subs 0 l)) file = true ->
  flat_map function_line (map (once subs 0) file) = flat_map (fun l => p_function (in_pieces subs 0 l)) file.
Proof.
  intros W F; induction file as [ |l file IH]; [reflexivity| ]; cbn [map flat_map forallb] in *; apply andb_true_iff in F as [L F].
  rewrite IH by exact F; f_equal; rewrite <- in_pieces_text; apply render_function; [now apply in_pieces_ok|exact L].
Qed.
Lemma word_upper w : word w = true -> word (upper w) = true.
Proof.
  induction w as [ |c w IH]; [reflexivity| ]; cbn [word upper smap]; rewrite !andb_true_iff; intros [C W]; split; [ |now apply IH].
  clear - C; revert C; destruct c as [[] [] [] [] [] [] [] []]; vm_compute; intro; congruence.
Qed.


(** ** The file *)

Section Functions.
Variable p : protocol.
Variable g : settings.
Hypothesis A : accepted p.
Hypothesis G : g_files g = c_files.
Hypothesis WN : word_namespace g.
Hypothesis WT : word_types p.
Hypothesis NB : forall ns, g_namespace g = Some ns -> ~ inside "BESCHI" ns.

(** The functions that both of the first files have. *)
Definition file_functions (size native : string) : list (string * string) :=
  declared_of (flat_map (fun l => p_function (in_pieces (c_marks_0 g size native) 0 l)) c_file_0).
Definition file_names : list string :=
  ["IsFinished"] ++ map (fun t => "Read" +++ t) c_numbers ++ map (fun t => "Write" +++ t) c_numbers.
Definition c_size_words (size native : string) : Prop :=
  In (size, native) [("UInt8", "uint8_t"); ("Int16", "int16_t"); ("UInt16", "uint16_t"); ("Int32", "int32_t");
                     ("UInt32", "uint32_t"); ("Int64", "int64_t"); ("UInt64", "uint64_t")].
Lemma c_size_found size native : lookup (p_string_size_type p) c_serializers = Some size ->
  lookup (p_string_size_type p) (("string", "char*") :: c_types) = Some native -> c_size_words size native.
Proof.
  pose proof (wf_string_size p (accepted_WF p A)) as I; cbn in I; decompose [or] I; try contradiction; clear I;
    match goal with H : _ = p_string_size_type p |- _ => rewrite <- H end; cbn; intros X Y; injection X as <-; injection Y as <-; unfold c_size_words; cbn; tauto.
Qed.
Ltac sizes H := unfold c_size_words in H; cbn [In] in H; decompose [or] H; clear H; try contradiction;
  match goal with H : (_, _) = (_, _) |- _ => injection H as <- <- end.
Lemma marks_words more : (forall m, In m more -> word (snd m) = true) ->
  forall m, In m (ns_marks (g_namespace g) ++ more) -> word (snd m) = true.
Proof.
  intros H m; rewrite in_app_iff; intros [I|I]; [ |now apply H].
  destruct (g_namespace g) as [ns| ] eqn:E; cbn in I; [ |contradiction].
  destruct I as [<-|[<-|[]]]; [exact (WN ns E)|apply word_upper, (WN ns E)].
Qed.
Lemma file_0_functions size native : c_size_words size native ->
  flat_map function_line (map (once (c_marks_0 g size native) 0) c_file_0) =
  map (fun f => Declared (fst f) (snd f)) (file_functions size native).
Proof.
  intro Z; rewrite once_functions.
  - unfold file_functions, c_marks_0; sizes Z; destruct (g_namespace g); vm_compute; reflexivity.
  - apply marks_words; sizes Z; intros m I; cbn [In] in I; decompose [or] I; subst; try contradiction; reflexivity.
  - unfold c_marks_0; sizes Z; destruct (g_namespace g); vm_compute; reflexivity.
Qed.
Lemma file_1_functions size native : c_size_words size native ->
  flat_map function_line (map (once (c_marks_1 g size) 0) c_file_1) =
  map (fun f => Defined (fst f) (snd f)) (file_functions size native).
Proof.
  intro Z; rewrite once_functions.
  - unfold file_functions, c_marks_0, c_marks_1; sizes Z; destruct (g_namespace g); vm_compute; reflexivity.
  - apply marks_words; sizes Z; intros m I; cbn [In] in I; decompose [or] I; subst; try contradiction; reflexivity.
  - unfold c_marks_1; sizes Z; destruct (g_namespace g); vm_compute; reflexivity.
Qed.
Lemma file_2_functions : flat_map function_line (map (once (ns_marks (g_namespace g)) 0) c_file_2) = [].
Proof.
  rewrite once_functions.
  - destruct (g_namespace g); vm_compute; reflexivity.
  - intros m I; apply (marks_words [] (fun m F => match F with end)), in_or_app; now left.
  - destruct (g_namespace g); vm_compute; reflexivity.
Qed.
Lemma file_functions_names size native : c_size_words size native ->
  map fst (file_functions size native) = map (fun f => c_prefix g +++ f) file_names.
Proof.
  intro Z; unfold file_functions, c_marks_0, c_prefix; destruct (g_namespace g) as [ns| ].
  - transitivity (map (fun f => ns +++ String "_" f) file_names); [sizes Z; vm_compute; reflexivity| ].
    apply map_ext; intro f; now rewrite app_str_assoc.
  - sizes Z; vm_compute; reflexivity.
Qed.

(** A line that is put together. *)
Inductive quoted : string -> list piece -> Prop :=
| q_text a : quoted a [Lit a]
| q_none : quoted "" []
| q_last a : quoted (a +++ "") [Lit a]
| q_lit a s t : quoted s t -> quoted (a +++ s) (Lit a :: t)
| q_word w s t : quoted s t -> quoted (w +++ s) (Word w :: t).
Lemma quoted_render s t : quoted s t -> s = render t.
Proof. induction 1; cbn [render text_of]; rewrite ?append_empty; congruence. Qed.
Lemma quoted_function s t : quoted s t -> pieces_ok t -> p_known t = true -> function_line s = p_function t.
Proof. intros Q O K; rewrite (quoted_render s t Q); now apply render_function. Qed.
Ltac quote :=
  lazymatch goal with
  | |- quoted (?a +++ EmptyString) _ => lazymatch a with String _ _ => apply q_last end
  | |- quoted (?a +++ _) _ => lazymatch a with String _ _ => apply q_lit | _ => apply q_word end; quote
  | |- quoted EmptyString _ => apply q_none
  | |- quoted (String _ _) _ => apply q_text
  end.
Ltac the_function :=
  first
    [ eapply quoted_function; [quote|cbn [pieces_ok piece_ok]; repeat split; assumption|vm_compute; reflexivity]
    | vm_compute; reflexivity ].
Ltac see_more := fail.
Ltac see :=
  cbv beta zeta;
  lazymatch goal with
  | |- sees (block []) _ _ _ => apply sees_nil
  | |- sees (block (indent :: _)) ?k _ _ =>
      let v := eval vm_compute in (k + 1) in apply (sees_indent _ k v _ _ eq_refl); see
  | |- sees (block (dedent :: _)) ?k _ _ =>
      let v := eval vm_compute in (k - 1) in apply (sees_dedent _ k v _ _ eq_refl); see
  | |- sees (block (skip :: _)) _ _ _ => apply sees_skip; see
  | |- sees (block (blank :: _)) ?k _ _ => unfold blank at 1; see
  | |- sees (block (line _ :: _)) 0 _ _ => first [eapply sees_top; [known_text|the_function|see]|idtac]
  | |- sees (block (line _ :: _)) _ _ _ => apply sees_outer; [good|reflexivity|see]
  | |- sees (block (when true _ :: _)) _ _ _ => cbn [when]; see
  | |- sees (block (when false _ :: _)) _ _ _ => cbn [when]; see
  | |- sees (block (block _ :: _)) _ _ _ => apply sees_flat; cbn [app]; see
  | |- sees (block (?a :: _)) ?k _ _ =>
      first
        [ see_more; see
        | let j := eval vm_compute in (k - 1) in
          let ok := eval vm_compute in (0 <=? j) in
          match ok with true => idtac end;
          change k with (1 + j);
          eapply sees_inside; [solve [run]| ];
          match goal with |- sees _ ?k1 _ _ => let v := eval vm_compute in k1 in change k1 with v end; see
        | match a with
          | when ?b _ => known_if b; see
          | (if ?b then _ else _) => known_if b; see
          | given _ _ => apply sees_given; [good|intros; see]
          | at_level _ => apply sees_at; see
          | (let (_, _) := ?x in _) => destruct x; see
          end
        | idtac ]
  | |- _ => idtac
  end.
Hypothesis T : text_ok p.
Hint Resolve ct_types_ok ct_types_base ct_types_name ct_serializers_ok ct_gen_measurement_ok : text.
Hint Resolve ct_err_nested ct_deserializer_nested ct_serializer_nested ct_message_default ct_message_destructor : text.

Lemma enum_size_word t : In t base_types -> exists x, ct_types p t = Ret x /\ word x = true.
Proof. intro I; cbn in I; decompose [or] I; subst; try contradiction; eexists; split; reflexivity. Qed.
Definition enum_function (e : string * enum) : string * string :=
  (c_prefix g +++ "IsValid" +++ fst e,
   "bool " +++ c_prefix g +++ "IsValid" +++ fst e +++ "(" +++ c_type_text g (e_encoding (snd e)) +++ " )").
Lemma ct_gen_enum_sees ename e : In (ename, e) (p_enums p) ->
  sees (ct_gen_enum p g ename e) 0 0 [Declared (fst (enum_function (ename, e))) (snd (enum_function (ename, e)))].
Proof.
  intros I; assert (N1 : 0 <= 0 + 1) by lia; pose proof (c_prefix_word g WN NB) as PW; pose proof (word_enum p ename e WT I) as EW.
  pose proof (tk_enums p T ename e I : fine_enum e) as F; unfold ct_gen_enum; change (ct_prefix g) with (c_prefix g).
  destruct (enum_size_word _ (fine_encoding e F)) as (x & X & XW); rewrite X.
  rewrite (ct_types_text p g _ (base_listed _ (fine_encoding e F))) in X; injection X as X.
  unfold enum_function; cbn [fst snd]; rewrite X.
  eapply sees_eq; [see| ].
  match goal with |- _ = [?f _ ?s] => transitivity [f (c_prefix g +++ "IsValid" +++ ename +++ "") s]; [ |now rewrite append_empty] end.
  generalize (c_prefix g); intros; vm_compute; reflexivity.
Qed.
Lemma ct_gen_enum_implementation_sees ename e : In (ename, e) (p_enums p) ->
  sees (ct_gen_enum_implementation p g ename e) 0 0 [Defined (fst (enum_function (ename, e))) (snd (enum_function (ename, e)))].
Proof.
  intros I; assert (N1 : 0 <= 0 + 1) by lia; pose proof (c_prefix_word g WN NB) as PW; pose proof (word_enum p ename e WT I) as EW.
  pose proof (tk_enums p T ename e I : fine_enum e) as F; unfold ct_gen_enum_implementation; change (ct_prefix g) with (c_prefix g).
  destruct (enum_size_word _ (fine_encoding e F)) as (x & X & XW); rewrite X.
  rewrite (ct_types_text p g _ (base_listed _ (fine_encoding e F))) in X; injection X as X.
  unfold enum_function; cbn [fst snd]; rewrite X.
  eapply sees_eq; [see| ].
  match goal with |- _ = [?f _ ?s] => transitivity [f (c_prefix g +++ "IsValid" +++ ename +++ "") s]; [ |now rewrite append_empty] end.
  generalize (c_prefix g); intros; vm_compute; reflexivity.
Qed.

(** The functions of a struct or message, in the order of declaration and in that of
    definition. *)
Definition writes (t : string * struct) : string * string :=
  (c_prefix g +++ fst t +++ "_WriteBytes",
   c_prefix g +++ "err_t " +++ c_prefix g +++ fst t +++ "_WriteBytes(" +++ c_prefix g +++ "DataAccess* , const " +++
   c_prefix g +++ fst t +++ (if s_is_message (snd t) then "* , bool )" else "* )")).
Definition reads (t : string * struct) : string * string :=
  (c_prefix g +++ fst t +++ "_FromBytes",
   c_prefix g +++ "err_t " +++ c_prefix g +++ fst t +++ "_FromBytes(" +++ c_prefix g +++ "DataAccess* , " +++
   c_prefix g +++ fst t +++ "* )").
Definition others (t : string * struct) : list (string * string) :=
  if s_is_message (snd t) then
    [(c_prefix g +++ fst t +++ "_GetSizeInBytes",
      c_prefix g +++ "err_t " +++ c_prefix g +++ fst t +++ "_GetSizeInBytes(const " +++ c_prefix g +++ fst t +++ "* , size_t* )");
     (c_prefix g +++ fst t +++ "_Create", c_prefix g +++ fst t +++ "* " +++ c_prefix g +++ fst t +++ "_Create()");
     (c_prefix g +++ fst t +++ "_Cleanup", "void " +++ c_prefix g +++ fst t +++ "_Cleanup(" +++ c_prefix g +++ fst t +++ " *)");
     (c_prefix g +++ fst t +++ "_Destroy", "void " +++ c_prefix g +++ fst t +++ "_Destroy(" +++ c_prefix g +++ fst t +++ " *)")]
  else [].
Definition struct_functions (t : string * struct) : list (string * string) := writes t :: reads t :: others t.
Definition struct_definitions (t : string * struct) : list (string * string) := others t ++ [reads t; writes t].
Notation declared_all l := (map (fun f => Declared (fst f) (snd f)) l).
Notation defined_all l := (map (fun f => Defined (fst f) (snd f)) l).
Lemma declares_word sname s : declares p sname s -> word sname = true.
Proof. intros [I|I]; [exact (word_struct p sname s WT I)|exact (word_message p sname s WT I)]. Qed.
Lemma ct_gen_struct_sees sname s : declares p sname s ->
  sees (ct_gen_struct p g sname s) 0 0 (declared_all (struct_functions (sname, s))).
Proof.
  intros D; assert (N1 : 0 <= 0 + 1) by lia; pose proof (c_prefix_word g WN NB) as PW; pose proof (declares_word sname s D) as SW.
  unfold ct_gen_struct; cbv zeta; change (ct_prefix g) with (c_prefix g).
  unfold struct_functions, writes, reads, others; cbn [fst snd].
  destruct (s_is_message s) eqn:Q; cbn [when].
  all: eapply sees_eq; [see|generalize (c_prefix g); intros; vm_compute; reflexivity].
Qed.
Lemma ct_gen_implementation_sees sname s : declares p sname s ->
  sees (ct_gen_implementation p g sname s) 0 0 (defined_all (struct_definitions (sname, s))).
Proof.
  intros D; assert (N1 : 0 <= 0 + 1) by lia; pose proof (c_prefix_word g WN NB) as PW; pose proof (declares_word sname s D) as SW.
  unfold ct_gen_implementation; cbv zeta; change (ct_prefix g) with (c_prefix g).
  unfold struct_definitions, writes, reads, others; cbn [fst snd].
  destruct (s_is_message s) eqn:Q; cbn [when].
  all: eapply sees_eq; [see|generalize (c_prefix g); intros; vm_compute; reflexivity].
Qed.

(** The functions for all messages. *)
Definition own_function (name args : string) : string * string :=
  (c_prefix g +++ name, c_prefix g +++ "err_t " +++ c_prefix g +++ name +++ "(" +++ args).
Definition own_functions : list (string * string) :=
  [(c_prefix g +++ "GetMessageType", c_prefix g +++ "MessageType " +++ c_prefix g +++ "GetMessageType(const void* )");
   own_function "GetSizeInBytes" "const void* , size_t* )";
   own_function "WriteBytes" (c_prefix g +++ "DataAccess* , const void* , bool )")].
Definition own_process : string * string :=
  own_function "ProcessRawBytes" (c_prefix g +++ "DataAccess* , int32_t , void*** , size_t* )").
Definition own_destroy : string * string := own_function "Destroy" "void* )".
Definition own_lists : list (string * string) :=
  [own_function "DestroyMessageList" "void** , size_t )";
   own_function "GetPackedSize" "void** , size_t , size_t* )";
   own_function "PackMessages" ("void** , size_t , " +++ c_prefix g +++ "DataAccess* )");
   own_function "UnpackMessages" (c_prefix g +++ "DataAccess* , void*** , size_t* )")].

Hypothesis U : g_tab g <> "" /\ blanks (g_tab g) = true.
Hypothesis E : g_embed g = false.
Section Sizes.
Variables size native : string.
Hypothesis Z1 : lookup (p_string_size_type p) c_serializers = Some size.
Hypothesis Z2 : lookup (p_string_size_type p) (("string", "char*") :: c_types) = Some native.
Lemma ct_boilerplate_0_sees r k2 N : sees (block r) 0 k2 N ->
  sees (block (given (ct_serializers (p_string_size_type p)) (fun string_size =>
      given (ct_types p (p_string_size_type p)) (fun native_size =>
        add_boilerplate "    " (g_tab g) (ct_substitutions_0 g string_size native_size) (g_files g 0))) :: r)) 0 k2
    (declared_all (file_functions size native) ++ N).
Proof.
  intro H; rewrite G.
  replace (ct_serializers (p_string_size_type p)) with (Ret size) by (symmetry; apply item_found, Z1).
  replace (ct_types p (p_string_size_type p)) with (Ret native) by (symmetry; apply mapping_found, Z2).
  apply sees_given; [eexists; reflexivity|intros x X; injection X as <-].
  apply sees_given; [eexists; reflexivity|intros x X; injection X as <-].
  rewrite <- file_0_functions by (now apply c_size_found).
  rewrite <- (c_file_0_lines p g WN NB size native Z1 Z2); change c_file_0 with (c_files 0).
  apply sees_boilerplate; [reflexivity|discriminate|apply U|apply U|exact H].
Qed.
Lemma ct_boilerplate_1_sees r k2 N : sees (block r) 0 k2 N ->
  sees (block (given (ct_serializers (p_string_size_type p)) (fun string_size =>
        add_boilerplate "    " (g_tab g) (ct_substitutions_1 g string_size) (g_files g 1)) :: r)) 0 k2
    (defined_all (file_functions size native) ++ N).
Proof.
  intro H; rewrite G.
  replace (ct_serializers (p_string_size_type p)) with (Ret size) by (symmetry; apply item_found, Z1).
  apply sees_given; [eexists; reflexivity|intros x X; injection X as <-].
  rewrite <- file_1_functions by (now apply c_size_found).
  rewrite <- (c_file_1_lines p g WN NB size Z1); change c_file_1 with (c_files 1).
  apply sees_boilerplate; [reflexivity|discriminate|apply U|apply U|exact H].
Qed.
Lemma ct_boilerplate_2_sees r k2 N : sees (block r) 0 k2 N ->
  sees (block (add_boilerplate "    " (g_tab g) (ct_subs g) (g_files g 2) :: r)) 0 k2 N.
Proof.
  intro H; rewrite G; change N with ([] ++ N); rewrite <- file_2_functions.
  rewrite <- (c_file_2_lines g WN NB); change c_file_2 with (c_files 2).
  apply sees_boilerplate; [reflexivity|discriminate|apply U|apply U|exact H].
Qed.
Ltac entries lem :=
  let t := fresh "t" in let x := fresh "x" in let I := fresh "I" in
  intros t x I; apply lem; first [exact I|now left|now right].
Ltac see_more ::=
  lazymatch goal with
  | |- sees (block (given _ (fun _ => given _ _) :: _)) 0 _ _ => apply ct_boilerplate_0_sees
  | |- sees (block (given _ _ :: _)) 0 _ _ => apply ct_boilerplate_1_sees
  | |- sees (block (add_boilerplate _ _ _ _ :: _)) 0 _ _ => apply ct_boilerplate_2_sees
  | |- sees (block (each (p_enums _) (fun '(t, x) => ct_gen_enum _ _ t x) :: _)) 0 _ _ =>
      eapply sees_cons; [apply (sees_each _ _ (fun e => [Declared (fst (enum_function e)) (snd (enum_function e))])); entries ct_gen_enum_sees| ]
  | |- sees (block (each _ (fun '(t, x) => ct_gen_struct _ _ t x) :: _)) 0 _ _ =>
      eapply sees_cons; [apply (sees_each _ _ (fun t => declared_all (struct_functions t))); entries ct_gen_struct_sees| ]
  | |- sees (block (each _ (fun '(t, x) => ct_gen_enum_implementation _ _ t x) :: _)) 0 _ _ =>
      eapply sees_cons; [apply (sees_each _ _ (fun e => [Defined (fst (enum_function e)) (snd (enum_function e))])); entries ct_gen_enum_implementation_sees| ]
  | |- sees (block (each _ (fun '(t, x) => ct_gen_implementation _ _ t x) :: _)) 0 _ _ =>
      eapply sees_cons; [apply (sees_each _ _ (fun t => defined_all (struct_definitions t))); entries ct_gen_implementation_sees| ]
  end.
Definition c_declared : list (string * string) :=
  file_functions size native ++ own_functions ++ own_process :: own_destroy :: own_lists ++
  map enum_function (p_enums p) ++ flat_map struct_functions (p_structs p ++ p_messages p).
Definition c_defined : list (string * string) :=
  file_functions size native ++ own_functions ++ own_destroy :: own_process :: own_lists ++
  map enum_function (p_enums p) ++ flat_map struct_definitions (p_structs p ++ p_messages p).
Lemma flat_map_one {X Y} (f : X -> Y) l : flat_map (fun x => [f x]) l = map f l.
Proof. induction l as [ |x l IH]; [reflexivity|cbn; now f_equal]. Qed.
Lemma map_flat_map {X Y W} (f : Y -> W) (h : X -> list Y) l : map f (flat_map h l) = flat_map (fun x => map f (h x)) l.
Proof. induction l as [ |x l IH]; [reflexivity|cbn; now rewrite map_app, IH]. Qed.
Lemma c_generate_sees : sees (ct_generate p g) 0 0 (declared_all c_declared ++ defined_all c_defined).
Proof.
  assert (N1 : 0 <= 0 + 1) by lia; pose proof (c_prefix_word g WN NB) as PW.
  unfold ct_generate; cbv zeta; change (ct_prefix g) with (c_prefix g); rewrite E; cbn [when].
  eapply sees_eq; [see| ].
  unfold c_declared, c_defined; rewrite !flat_map_app, !map_app.
  cbn [map]; rewrite !map_app, !map_flat_map, !map_map, !flat_map_one.
  rewrite <- !app_assoc, app_nil_r, <- !app_comm_cons, <- !app_assoc.
  generalize (file_functions size native); intros; vm_compute; reflexivity.
Qed.
End Sizes.
End Functions.
