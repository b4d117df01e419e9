From Verif Require Import CommentSpec LangFacts PropNestingFacts.
Open Scope string_scope.
Open Scope list_scope.

Lemma app_assoc_str a b c : (a +++ b) +++ c = a +++ (b +++ c).
Proof. induction a as [ |x a IH]; cbn; [reflexivity|now rewrite IH]. Qed.
Lemma app_nil_str a : a +++ "" = a.
Proof. induction a as [ |x a IH]; cbn; [reflexivity|now rewrite IH]. Qed.

Lemma inside_trans a b c : inside a b -> inside b c -> inside a c.
Proof. intros (x & y & ->) (u & v & ->); exists (u +++ x), (y +++ v); now rewrite !app_assoc_str. Qed.

(** ** Lines of a text *)
Lemma splitlines_inside s0 cur0 l0 : In l0 (splitlines_from cur0 s0) -> inside l0 (cur0 +++ s0).
Proof.
  enough (IH : forall n s, (String.length s <= n)%nat -> forall cur l, In l (splitlines_from cur s) -> inside l (cur +++ s))
    by exact (IH _ s0 (le_n _) cur0 l0).
  clear s0 cur0 l0.
  assert (K : forall cur l s, In l [cur] -> inside l (cur +++ s)).
  { intros cur l s [->|[]]; exists "", s; reflexivity. }
  induction n as [ |n IH0]; intros [ |c r] LE cur l; cbn [splitlines_from]; try (exfalso; cbn in LE; lia).
  1: destruct (String.eqb cur ""); [intros []|apply K].
  - destruct (String.eqb cur ""); [intros []|apply K].
  - assert (IH : forall s, (String.length s < Datatypes.S (String.length r))%nat -> forall cur l, In l (splitlines_from cur s) -> inside l (cur +++ s))
      by (intros s L; apply IH0; cbn in LE; lia).
    assert (N : forall x, inside l ("" +++ x) -> forall y, inside l (cur +++ (y +++ x))).
    { intros x H y; apply (inside_trans l x); [exact H|exists (cur +++ y), ""; now rewrite app_nil_str, app_assoc_str]. }
    assert (C : In l (splitlines_from (cur +++ String c "") r) -> inside l (cur +++ String c r)).
    { intro H; apply IH in H; [ |lia]; rewrite app_assoc_str in H; exact H. }
    destruct (ends_line c).
    + destruct r as [ |d r'].
      * intros [H|H]; [apply K; now left|destruct H].
      * destruct (is_byte 13 c && is_byte 10 d); (intros [H|H]; [apply K; now left| ]).
        -- exact (N r' (IH r' ltac:(cbn; lia) "" l H) (String c (String d ""))).
        -- exact (N (String d r') (IH (String d r') ltac:(cbn; lia) "" l H) (String c "")).
    + destruct r as [ |d r']; [exact C| ].
      destruct (is_byte 194 c && is_byte 133 d).
      * intros [H|H]; [apply K; now left|exact (N r' (IH r' ltac:(cbn; lia) "" l H) (String c (String d "")))].
      * destruct r' as [ |e r'']; [exact C| ].
        destruct (is_byte 226 c && is_byte 128 d && (is_byte 168 e || is_byte 169 e)); [ |exact C].
        intros [H|H]; [apply K; now left|exact (N r'' (IH r'' ltac:(cbn; lia) "" l H) (String c (String d (String e ""))))].
Qed.

Definition feed : ascii := "010"%char.
Lemma splitlines_feed s0 cur0 l0 : ~ In feed (str_chars cur0) -> In l0 (splitlines_from cur0 s0) -> ~ In feed (str_chars l0).
Proof.
  enough (IH : forall n s, (String.length s <= n)%nat -> forall cur l, ~ In feed (str_chars cur) ->
    In l (splitlines_from cur s) -> ~ In feed (str_chars l)) by exact (IH _ s0 (le_n _) cur0 l0).
  clear s0 cur0 l0.
  assert (K : forall cur l, ~ In feed (str_chars cur) -> In l [cur] -> ~ In feed (str_chars l)) by (intros cur l H [->|[]]; exact H).
  induction n as [ |n IH0]; intros [ |c r] LE cur l F; cbn [splitlines_from]; try (exfalso; cbn in LE; lia).
  1: destruct (String.eqb cur ""); [intros []|now apply K].
  - destruct (String.eqb cur ""); [intros []|now apply K].
  - assert (IH : forall s, (String.length s < Datatypes.S (String.length r))%nat -> forall cur l, ~ In feed (str_chars cur) ->
      In l (splitlines_from cur s) -> ~ In feed (str_chars l)) by (intros s L; apply IH0; cbn in LE; lia).
    assert (E : ~ In feed (str_chars "")) by (intros []).
    destruct (ends_line c) eqn:EL.
    + destruct r as [ |d r'].
      * intros [H|H]; [apply (K cur); [assumption|now left]|destruct H].
      * destruct (is_byte 13 c && is_byte 10 d); (intros [H|H]; [apply (K cur); [assumption|now left]| ]); (refine (IH _ _ "" l E H); cbn; lia).
    + assert (C : ~ In feed (str_chars (cur +++ String c ""))).
      { assert (NC : c <> feed) by (intros ->; discriminate).
        clear -F NC; induction cur as [ |x cur IHc]; cbn in *; [intuition|intros [H|H]; [tauto|apply IHc; tauto]]. }
      destruct r as [ |d r']; [(apply IH; [cbn; lia|exact C])| ].
      destruct (is_byte 194 c && is_byte 133 d).
      * intros [H|H]; [apply (K cur); [assumption|now left]|(refine (IH _ _ "" l E H); cbn; lia)].
      * destruct r' as [ |e r'']; [(apply IH; [cbn; lia|exact C])| ].
        destruct (is_byte 226 c && is_byte 128 d && (is_byte 168 e || is_byte 169 e)); [ |(apply IH; [cbn; lia|exact C])].
        intros [H|H]; [apply (K cur); [assumption|now left]|(refine (IH _ _ "" l E H); cbn; lia)].
Qed.

(** ** Comments are skipped *)
Lemma line_skipped blocks nested l rest : ~ In feed (str_chars l) ->
  uncomment blocks nested LineComment (l +++ line_feed +++ rest) = line_feed +++ uncomment blocks nested Code rest.
Proof.
  induction l as [ |c l IH]; cbn [append str_chars In]; intro H; [reflexivity| ].
  cbn [uncomment]; destruct (Ascii.eqb_spec c "010") as [->| ]; [exfalso; apply H; now left|apply IH; tauto].
Qed.

Lemma block_skipped blocks nested l rest :
  ~ inside "*/" l -> (nested = true -> ~ inside "/*" l) ->
  uncomment blocks nested (BlockComment 0) (l +++ line_feed +++ rest) = uncomment blocks nested (BlockComment 0) rest.
Proof.
  induction l as [ |c l IH]; intros A B.
  - cbn [append line_feed]; cbn [uncomment]; destruct rest as [ |d r]; [destruct nested; reflexivity| ].
    cbn [Ascii.eqb Bool.eqb andb]; destruct nested; reflexivity.
  - assert (A' : ~ inside "*/" l) by (intro H; apply A; destruct H as (x & y & ->); exists (String c x), y; reflexivity).
    assert (B' : nested = true -> ~ inside "/*" l) by (intros N H; apply (B N); destruct H as (x & y & ->); exists (String c x), y; reflexivity).
    specialize (IH A' B'); cbn [append]; cbn [uncomment].
    destruct l as [ |d l]; cbn [append] in *.
    + cbn [line_feed append] in *; rewrite !andb_false_r; exact IH.
    + destruct (Ascii.eqb c "*" && Ascii.eqb d "/") eqn:E.
      * apply andb_true_iff in E as [E1 E2]; apply Ascii.eqb_eq in E1; apply Ascii.eqb_eq in E2; subst.
        exfalso; apply A; exists "", l; reflexivity.
      * destruct nested; [ |exact IH]; destruct (Ascii.eqb c "/" && Ascii.eqb d "*") eqn:E'; [ |exact IH].
        apply andb_true_iff in E' as [E1 E2]; apply Ascii.eqb_eq in E1; apply Ascii.eqb_eq in E2; subst.
        exfalso; apply (B eq_refl); exists "", l; reflexivity.
Qed.

(** ** Lines put together *)
Fixpoint feeds (ls : list string) : string :=
  match ls with [] => "" | l :: r => l +++ line_feed +++ feeds r end.

Lemma concat_feeds a b : b <> [] -> String.concat line_feed (a ++ b) = feeds a +++ String.concat line_feed b.
Proof.
  intro N; induction a as [ |x a IH]; [reflexivity| ]; cbn [app feeds].
  assert (Q : a ++ b <> []) by (destruct a; [exact N|discriminate]).
  destruct (a ++ b) as [ |y r] eqn:E; [congruence| ]; cbn [String.concat] in *; rewrite IH, !app_assoc_str; reflexivity.
Qed.
Lemma feeds_app a b : feeds (a ++ b) = feeds a +++ feeds b.
Proof. induction a as [ |x a IH]; cbn [app feeds]; [reflexivity|now rewrite IH, !app_assoc_str]. Qed.
Lemma feeds_concat ls : ls <> [] -> feeds ls = String.concat line_feed ls +++ line_feed.
Proof.
  induction ls as [ |x ls IH]; [congruence| ]; intros _; cbn [feeds]; destruct ls as [ |y ls]; [reflexivity| ].
  rewrite IH by discriminate; cbn [String.concat]; now rewrite !app_assoc_str.
Qed.

Lemma layout_zero tab ls : map (layout_line tab) (map (fun l => (0%Z, l)) ls) = ls.
Proof.
  rewrite map_map; induction ls as [ |l ls IH]; cbn [map]; [reflexivity| ].
  rewrite IH; f_equal; unfold layout_line; cbn [snd fst repeat_str Z.to_nat append].
  destruct (String.eqb_spec l ""); [now subst|reflexivity].
Qed.

(** ** Blocks of lines *)
Lemma blocks_skipped blocks nested ls rest :
  Forall (fun l => ~ inside "*/" l) ls -> (nested = true -> Forall (fun l => ~ inside "/*" l) ls) ->
  uncomment blocks nested (BlockComment 0) (feeds ls +++ rest) = uncomment blocks nested (BlockComment 0) rest.
Proof.
  induction 1 as [ |l ls A F IH]; intro B; [reflexivity| ]; cbn [feeds].
  rewrite !app_assoc_str, block_skipped.
  - apply IH; intro N; specialize (B N); now inversion B.
  - assumption.
  - intro N; specialize (B N); now inversion B.
Qed.

Lemma lines_skipped blocks nested ls rest : Forall (fun l => ~ In feed (str_chars l)) ls ->
  squeeze true (uncomment blocks nested Code (feeds (map (fun l => "// " +++ l) ls) +++ rest)) =
  squeeze true (uncomment blocks nested Code rest).
Proof.
  induction 1 as [ |l ls A F IH]; [reflexivity| ]; cbn [feeds map].
  rewrite !app_assoc_str.
  change (uncomment blocks nested Code ("// " +++ l +++ line_feed +++ feeds (map (fun l => "// " +++ l) ls) +++ rest))
    with (uncomment blocks nested LineComment (l +++ line_feed +++ feeds (map (fun l => "// " +++ l) ls) +++ rest)).
  rewrite line_skipped by assumption; cbn [line_feed append squeeze Ascii.eqb Bool.eqb]; exact IH.
Qed.

Definition block_lines (source : string) : list string :=
  ["/*"; "DATA PROTOCOL"; "-----------------"] ++ splitlines source ++ ["-----------------"; "END DATA PROTOCOL"; "*/"].
Definition zig_lines (source : string) : list string :=
  map (fun l => "// " +++ l) (["DATA PROTOCOL"; "-----------------"] ++ splitlines source ++ ["-----------------"; "END DATA PROTOCOL"]).

Lemma block_lines_skipped nested source rest :
  ~ inside "*/" source -> (nested = true -> ~ inside "/*" source) ->
  squeeze true (uncomment true nested Code (feeds (block_lines source) +++ rest)) = squeeze true (uncomment true nested Code rest).
Proof.
  intros A B; unfold block_lines; rewrite !feeds_app, !app_assoc_str.
  assert (P : forall m l, ~ inside m source -> In l (splitlines source) -> ~ inside m l).
  { intros m l N I H; apply N, (inside_trans m l); [exact H|exact (splitlines_inside source "" l I)]. }
  transitivity (squeeze true (uncomment true nested (BlockComment 0) (feeds (([""; "DATA PROTOCOL"; "-----------------"] ++ splitlines source ++
     ["-----------------"; "END DATA PROTOCOL"])) +++ "*/" +++ line_feed +++ rest))).
  { rewrite !feeds_app, !app_assoc_str; destruct nested; reflexivity. }
  assert (Q : forall m l, In m ["*/"; "/*"] -> In l [""; "DATA PROTOCOL"; "-----------------"; "END DATA PROTOCOL"] -> ~ inside m l).
  { intros m l Hm Hl (x & y & E).
    assert (HL : In "/"%char (str_chars l)).
    { rewrite E; clear -Hm; induction x as [ |c x IH]; [destruct Hm as [<-|[<-|[]]]; cbn; tauto|right; exact IH]. }
    cbn [In] in Hl; repeat (destruct Hl as [<-|Hl]; [cbn in HL; intuition discriminate| ]); exact Hl. }
  rewrite blocks_skipped.
  - transitivity (squeeze true (uncomment true nested Code (line_feed +++ rest))); [reflexivity| ].
    destruct rest; reflexivity.
  - apply Forall_forall; intros l I; rewrite !in_app_iff in I; destruct I as [I|[I|I]]; [ |exact (P _ l A I)| ];
      (apply Q; [now left|cbn [In] in *; tauto]).
  - intro N; apply Forall_forall; intros l I; rewrite !in_app_iff in I; destruct I as [I|[I|I]]; [ |exact (P _ l (B N) I)| ];
      (apply Q; [right; now left|cbn [In] in *; tauto]).
Qed.

Lemma zig_lines_skipped source rest :
  squeeze true (uncomment false false Code (feeds (zig_lines source) +++ rest)) = squeeze true (uncomment false false Code rest).
Proof.
  apply lines_skipped; apply Forall_forall; intros l I; rewrite !in_app_iff in I.
  destruct I as [I|[I|I]]; [ |exact (splitlines_feed source "" l (fun H => H) I)| ];
    cbn [In] in I; repeat (destruct I as [<-|I]; [cbn; intuition discriminate| ]); destruct I.
Qed.

(** ** The same text with and without the comment *)
Lemma block_app a b n : block (a ++ b) n = (r <- block a n ;; r' <- block b (snd r) ;; Ret (fst r ++ fst r', snd r'))%list.
Proof.
  revert n; induction a as [ |x a IH]; intro n; cbn [app block fold_right].
  - change (fold_right andthen skip b n) with (block b n); unfold skip; cbn [pbind fst snd app].
    destruct (block b n) as [[ls m]| | ]; reflexivity.
  - unfold andthen at 1; change (fold_right andthen skip (a ++ b)) with (block (a ++ b)); unfold andthen at 1.
    change (fold_right andthen skip a) with (block a).
    destruct (x n) as [[ls m]| | ]; cbn [pbind fst snd]; try reflexivity.
    rewrite IH; destruct (block a m) as [[ls' m']| | ]; cbn [pbind fst snd]; try reflexivity.
    destruct (block b m') as [[ls'' m'']| | ]; cbn [pbind fst snd]; try reflexivity.
    now rewrite app_assoc.
Qed.

Lemma embed_block heads B rest hs bs ls m :
  block heads 0 = Ret (hs, 0%Z) -> B 0%Z = Ret (bs, 0%Z) -> block (heads ++ when false B :: rest) 0 = Ret (ls, m) ->
  exists after, ls = hs ++ after /\ block (heads ++ when true B :: rest) 0 = Ret (hs ++ bs ++ after, m).
Proof.
  intros H HB E; rewrite block_app, H in E; rewrite block_app, H; cbn [pbind fst snd] in *.
  change (block (when false B :: rest) 0) with (andthen skip (block rest) 0) in E.
  change (block (when true B :: rest) 0) with (andthen B (block rest) 0).
  unfold andthen, skip in *; rewrite HB; cbn [pbind fst snd app] in *.
  destruct (block rest 0) as [[after m']| | ]; cbn [pbind fst snd] in *; try discriminate.
  injection E as <- <-; exists after; split; reflexivity.
Qed.

Lemma each_lines {A} (f : A -> string) (t : A -> ptext) ls n : (forall a, t a = Ret (f a)) ->
  each ls (fun a => line (t a)) n = Ret (map (fun a => (n, f a)) ls, n).
Proof.
  intro H; unfold each; induction ls as [ |a ls IH]; [reflexivity| ]; cbn [map block fold_right].
  change (andthen (line (t a)) (block (map (fun a => line (t a)) ls)) n = Ret ((n, f a) :: map (fun a => (n, f a)) ls, n)).
  unfold andthen, line at 1; rewrite H; cbn [pbind fst snd]; rewrite IH; reflexivity.
Qed.

(** What the texts have in common. *)
Lemma two_feeds blocks nested rest :
  squeeze true (uncomment blocks nested Code (line_feed +++ line_feed +++ rest)) = squeeze true (uncomment blocks nested Code rest).
Proof. destruct blocks, rest; reflexivity. Qed.

Lemma embed_strings lang (B A comment : list string) pre :
  comment <> [] ->
  (forall x, code_of lang (feeds B +++ x) = pre +++ squeeze true (uncomment (has_blocks lang) (nests lang) Code x)) ->
  code_of lang (String.concat line_feed B) = pre ->
  (forall x, squeeze true (uncomment (has_blocks lang) (nests lang) Code (feeds comment +++ x)) =
             squeeze true (uncomment (has_blocks lang) (nests lang) Code x)) ->
  code_of lang (String.concat line_feed (B ++ (comment ++ [""; ""]) ++ A)) = code_of lang (String.concat line_feed (B ++ A)).
Proof.
  intros N P P0 C.
  rewrite (concat_feeds B) by (destruct comment; [congruence|discriminate]).
  rewrite P, <- app_assoc, (concat_feeds comment) by discriminate; rewrite C.
  destruct A as [ |x A].
  - rewrite !app_nil_r, P0; transitivity (pre +++ ""); [ |apply app_nil_str].
    destruct (has_blocks lang); reflexivity.
  - rewrite (concat_feeds B) by discriminate; rewrite P.
    change (String.concat line_feed ([""; ""] ++ x :: A)) with (line_feed +++ line_feed +++ String.concat line_feed (x :: A)).
    now rewrite two_feeds.
Qed.

Lemma inside_strings (B A a b M : list string) : b <> [] ->
  inside (String.concat line_feed M) (String.concat line_feed (B ++ ((a ++ M ++ b) ++ [""; ""]) ++ A)).
Proof.
  intro NB; destruct M as [ |m M].
  - exists "", (String.concat line_feed (B ++ ((a ++ [] ++ b) ++ [""; ""]) ++ A)); reflexivity.
  - rewrite (concat_feeds B), <- !app_assoc, (concat_feeds a), (concat_feeds (m :: M))
      by (try discriminate; destruct a, b; try congruence; discriminate).
    rewrite (feeds_concat (m :: M)) by discriminate.
    eexists (feeds B +++ feeds a), _; rewrite !app_assoc_str; reflexivity.
Qed.

Lemma embed_text lang p g before comment after pre :
  generate lang p (embedding false g) 0 = Ret (before ++ after, 0%Z) ->
  generate lang p (embedding true g) 0 = Ret (before ++ map (fun l => (0%Z, l)) (comment ++ [""; ""]) ++ after, 0%Z) ->
  (forall x, code_of lang (feeds (map (layout_line (g_tab g)) before) +++ x) =
             pre +++ squeeze true (uncomment (has_blocks lang) (nests lang) Code x)) ->
  code_of lang (String.concat line_feed (map (layout_line (g_tab g)) before)) = pre ->
  (forall x, squeeze true (uncomment (has_blocks lang) (nests lang) Code (feeds comment +++ x)) =
             squeeze true (uncomment (has_blocks lang) (nests lang) Code x)) ->
  (exists a b, comment = a ++ map (fun l => (if has_blocks lang then "" else "// ") +++ l) (splitlines (g_source g)) ++ b /\ b <> []) ->
  embeds lang p g.
Proof.
  intros E1 E2 P P0 C (a & b & EC & NB).
  exists (layout (g_tab g) (before ++ after)), (layout (g_tab g) (before ++ map (fun l => (0%Z, l)) (comment ++ [""; ""]) ++ after)).
  unfold generated; rewrite E1, E2; split; [reflexivity|split; [reflexivity| ]].
  unfold layout; rewrite !map_app, !layout_zero; split.
  - apply (embed_strings lang _ _ comment pre); try assumption.
    rewrite EC; intro Z; apply app_eq_nil in Z as [_ Z]; apply app_eq_nil in Z as [_ Z]; now apply NB.
  - rewrite EC; apply inside_strings, NB.
Qed.

(** ** Every language *)
Definition zeros (ls : list string) : list out_line := map (fun l => (0%Z, l)) ls.

Lemma drawn {A} (f : A -> string) (t : A -> ptext) ls a b xs ys : (forall x, t x = Ret (f x)) ->
  block a 0 = Ret (zeros xs, 0%Z) -> block b 0 = Ret (zeros ys, 0%Z) ->
  block (a ++ each ls (fun x => line (t x)) :: b) 0 = Ret (zeros (xs ++ map f ls ++ ys), 0%Z).
Proof.
  intros T HA HB; rewrite block_app, HA; cbn [pbind fst snd].
  change (block (each ls (fun x => line (t x)) :: b) 0) with (andthen (each ls (fun x => line (t x))) (block b) 0).
  unfold andthen; rewrite (each_lines f) by exact T; cbn [pbind fst snd]; rewrite HB; cbn [pbind fst snd].
  unfold zeros; now rewrite !map_app, !map_map.
Qed.
Lemma block_lines_drawn source :
  block [line "/*"; line "DATA PROTOCOL"; line "-----------------"; each (splitlines source) (fun l => line [| l |]);
         line "-----------------"; line "END DATA PROTOCOL"; line "*/"; blank; blank] 0 =
  Ret (zeros (block_lines source ++ [""; ""]), 0%Z).
Proof.
  unfold block_lines; rewrite <- !app_assoc.
  replace (splitlines source) with (map (fun l => l) (splitlines source)) at 2 by apply map_id.
  refine (drawn (fun l => l) (fun l => [| l |]) _ [line "/*"; line "DATA PROTOCOL"; line "-----------------"] _ _ _ _ _ _); try reflexivity.
  intro l; cbn; now rewrite app_nil_str.
Qed.
Lemma zig_lines_drawn source :
  block [line "// DATA PROTOCOL"; line "// -----------------"; each (splitlines source) (fun l => line [| "// "; l |]);
         line "// -----------------"; line "// END DATA PROTOCOL"; blank; blank] 0 =
  Ret (zeros (zig_lines source ++ [""; ""]), 0%Z).
Proof.
  unfold zig_lines; rewrite !map_app, <- !app_assoc.
  refine (drawn (fun l => "// " +++ l) (fun l => [| "// "; l |]) _ [line "// DATA PROTOCOL"; line "// -----------------"] _ _ _ _ _ _); try reflexivity.
  intro l; cbn; now rewrite app_nil_str.
Qed.

Lemma embed_generate lang p g heads B rest hs comment pre :
  (forall b, generate lang p (embedding b g) = block (heads ++ when b B :: rest)) ->
  well_nested (generate lang p (embedding false g)) ->
  block heads 0 = Ret (zeros hs, 0%Z) ->
  B 0%Z = Ret (zeros (comment ++ [""; ""]), 0%Z) ->
  (forall x, code_of lang (feeds hs +++ x) = pre +++ squeeze true (uncomment (has_blocks lang) (nests lang) Code x)) ->
  code_of lang (String.concat line_feed hs) = pre ->
  (forall x, squeeze true (uncomment (has_blocks lang) (nests lang) Code (feeds comment +++ x)) =
             squeeze true (uncomment (has_blocks lang) (nests lang) Code x)) ->
  (exists a b, comment = a ++ map (fun l => (if has_blocks lang then "" else "// ") +++ l) (splitlines (g_source g)) ++ b /\ b <> []) ->
  embeds lang p g.
Proof.
  intros G (ls & E & _) H HB P P0 C L; rewrite G in E.
  destruct (embed_block _ _ _ _ _ _ _ H HB E) as (after & -> & E2).
  apply (embed_text lang p g (zeros hs) comment after pre); try assumption.
  - rewrite G; exact E.
  - rewrite G; exact E2.
  - unfold zeros; rewrite layout_zero; exact P.
  - unfold zeros; rewrite layout_zero; exact P0.
Qed.

Ltac after_drawing name tac :=
  match goal with |- embeds ?lang ?p ?g =>
    let E := fresh in
    assert (E : generate lang p (embedding false g) = generate lang p (embedding false g)) by reflexivity;
    unfold generate in E at 2; cbn [String.eqb Ascii.eqb Bool.eqb] in E; unfold name in E; cbn [embedding g_embed g_source] in E;
    match type of E with _ = block ?l => tac l end; clear E
  end.

Lemma block_comment lang p g heads rest hs pre :
  has_blocks lang = true -> fits_comment lang (g_source g) ->
  (forall b, generate lang p (embedding b g) = block (heads ++ when b (block [line "/*"; line "DATA PROTOCOL"; line "-----------------"; each (splitlines (g_source g)) (fun l => line [| l |]);
         line "-----------------"; line "END DATA PROTOCOL"; line "*/"; blank; blank]) :: rest)) ->
  well_nested (generate lang p (embedding false g)) ->
  block heads 0 = Ret (zeros hs, 0%Z) ->
  (forall x, code_of lang (feeds hs +++ x) = pre +++ squeeze true (uncomment (has_blocks lang) (nests lang) Code x)) ->
  code_of lang (String.concat line_feed hs) = pre ->
  embeds lang p g.
Proof.
  intros HB [F1 F2] G N H P P0.
  eapply embed_generate; try eassumption; [apply block_lines_drawn| | ].
  - intro x; rewrite HB; apply block_lines_skipped; auto.
  - rewrite HB; exists ["/*"; "DATA PROTOCOL"; "-----------------"], ["-----------------"; "END DATA PROTOCOL"; "*/"].
    split; [ |discriminate]; unfold block_lines; do 2 f_equal; cbn [append]; now rewrite map_id.
Qed.

Definition notice : list string :=
  ["// This file was automatically generated by " +++ LIB_NAME +++ " v" +++ LIB_VERSION;
   "// <https://github.com/sjml/beschi>"; "// Do not edit directly."; ""].

Ltac four_lines l :=
  match goal with |- embeds ?lang ?p ?g =>
    match l with ?a :: ?b :: ?c :: ?d :: when _ _ :: ?rest =>
      refine (block_comment lang p g [a; b; c; d] rest notice line_feed eq_refl _ _ _ _ _ _)
    end
  end.
Ltac six_lines hs pre l :=
  match goal with |- embeds ?lang ?p ?g =>
    match l with ?a :: ?b :: ?c :: ?d :: ?e :: ?f :: when _ _ :: ?rest =>
      refine (block_comment lang p g [a; b; c; d; e; f] rest hs pre eq_refl _ _ _ _ _ _)
    end
  end.
Lemma typescript_embeds p g : accepted p -> fits_comment "typescript" (g_source g) -> embeds "typescript" p g.
Proof.
  intros A F; after_drawing tst_generate four_lines.
  all: [> exact F|intros [ | ]; reflexivity|exact (typescript_nested p (embedding false g) A)|reflexivity|intros [ |c x]; reflexivity|reflexivity].
Qed.
Lemma assemblyscript_embeds p g : accepted p -> fits_comment "assemblyscript" (g_source g) -> embeds "assemblyscript" p g.
Proof.
  intros A F; after_drawing tst_generate four_lines.
  all: [> exact F|intros [ | ]; reflexivity|exact (assemblyscript_nested p (embedding false g) A)|reflexivity|intros [ |c x]; reflexivity|reflexivity].
Qed.
Lemma csharp_embeds p g : accepted p -> fits_comment "csharp" (g_source g) -> embeds "csharp" p g.
Proof.
  intros A F; after_drawing cst_generate four_lines.
  all: [> exact F|intros [ | ]; reflexivity|exact (csharp_nested p (embedding false g) A)|reflexivity|intros [ |c x]; reflexivity|reflexivity].
Qed.
Lemma rust_embeds p g : accepted p -> fits_comment "rust" (g_source g) -> embeds "rust" p g.
Proof.
  intros A F; after_drawing rst_generate four_lines.
  all: [> exact F|intros [ | ]; reflexivity|exact (rust_nested _ p (embedding false g) A)|reflexivity|intros [ |c x]; reflexivity|reflexivity].
Qed.
Lemma go_embeds p g : accepted p -> fits_comment "go" (g_source g) -> embeds "go" p g.
Proof.
  intros A F; after_drawing got_generate four_lines.
  all: [> exact F|intros [ | ]; reflexivity|exact (go_nested _ p (embedding false g) A)|reflexivity|intros [ |c x]; reflexivity|reflexivity].
Qed.
Lemma swift_embeds p g : accepted p -> fits_comment "swift" (g_source g) -> embeds "swift" p g.
Proof.
  intros A F; after_drawing swt_generate ltac:(fun l => six_lines (notice ++ ["import Foundation"; ""]) (line_feed +++ "import Foundation" +++ line_feed) l).
  all: [> exact F|intros [ | ]; reflexivity|exact (swift_nested p (embedding false g) A)|reflexivity|intros [ |c x]; reflexivity|reflexivity].
Qed.
Lemma c_embeds p g : accepted p -> fits_comment "c" (g_source g) -> embeds "c" p g.
Proof.
  intros A F; after_drawing ct_generate ltac:(fun l => six_lines ["/*"; "   This file was automatically generated by " +++ LIB_NAME +++ " v" +++ LIB_VERSION; "   <https://github.com/sjml/beschi>"; "   Do not edit directly."; "*/"; ""] line_feed l).
  all: [> exact F|intros [ | ]; reflexivity|exact (c_nested p (embedding false g) A)|reflexivity|intros [ |c x]; reflexivity|reflexivity].
Qed.

Lemma zig_embeds p g : accepted p -> embeds "zig" p g.
Proof.
  intro A; after_drawing zgt_generate ltac:(fun l =>
    match l with ?a :: ?b :: ?c :: ?d :: when _ ?B :: ?rest =>
      refine (embed_generate "zig" p g [a; b; c; d] B rest notice (zig_lines (g_source g)) line_feed _ (zig_nested p (embedding false g) A) _ _ _ _ _ _)
    end).
  - intros [ | ]; reflexivity.
  - reflexivity.
  - apply zig_lines_drawn.
  - intros [ |c x]; reflexivity.
  - reflexivity.
  - intro x; apply zig_lines_skipped.
  - exists ["// DATA PROTOCOL"; "// -----------------"], ["// -----------------"; "// END DATA PROTOCOL"].
    split; [unfold zig_lines; rewrite !map_app; reflexivity|discriminate].
Qed.

Lemma embeds_all lang p g : In lang writers -> accepted p -> fits_comment lang (g_source g) -> embeds lang p g.
Proof.
  intros I A F; cbn [In writers] in I; repeat (destruct I as [<-|I]); [..|destruct I];
    auto using typescript_embeds, assemblyscript_embeds, csharp_embeds, rust_embeds, go_embeds, swift_embeds, c_embeds, zig_embeds.
Qed.
