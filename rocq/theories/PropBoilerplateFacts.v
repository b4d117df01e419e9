(** Proofs for PropBoilerplate.v. *)
From Coq Require Import Lia.
From Verif Require Export BoilerplateFacts PropNestingFacts.
Open Scope string_scope.
Open Scope Z_scope.
Open Scope list_scope.

(** The names of the type of string lengths. *)
Lemma table_name : forall p (d : list (string * string)), accepted p -> covers d = true ->
  exists w, lookup (p_string_size_type p) d = Some w.
Proof.
  intros p d A C. pose proof (tk_string p (accepted_text p A)) as B.
  destruct (covers_item d (p_string_size_type p) C B) as [w E]. unfold item in E.
  exists w. destruct (lookup (p_string_size_type p) d); [injection E as ->; reflexivity | discriminate E].
Qed.
Lemma table_list_name : forall p (d : list (string * string)), accepted p -> covers d = true ->
  exists w, lookup (p_list_size_type p) d = Some w.
Proof.
  intros p d A C. pose proof (tk_list p (accepted_text p A)) as B.
  destruct (covers_item d (p_list_size_type p) C B) as [w E]. unfold item in E.
  exists w. destruct (lookup (p_list_size_type p) d); [injection E as ->; reflexivity | discriminate E].
Qed.

Lemma item_found : forall (d : list (string * string)) k w, lookup k d = Some w -> item d k = Ret w.
Proof. intros d k w E. unfold item. rewrite E. reflexivity. Qed.
Lemma mapping_found : forall p (d : list (string * string)) k w, lookup k d = Some w -> mapping p d k = Ret w.
Proof. intros p d k w E. unfold mapping. rewrite E. reflexivity. Qed.

(** A name from a table does not have the mark in it. *)
Lemma name_free : forall (d : list (string * string)) k w m, lookup k d = Some w ->
  forallb (fun e => negb (occurs m (snd e))) d = true -> occurs m w = false.
Proof.
  intros d k w m E F. apply lookup_In in E. rewrite forallb_forall in F. apply negb_true_iff, (F (k, w) E).
Qed.
Lemma lower_name_free : forall (d : list (string * string)) k w m, lookup k d = Some w ->
  forallb (fun e => negb (occurs m (lower (snd e)))) d = true -> occurs m (lower w) = false.
Proof.
  intros d k w m E F. apply lookup_In in E. rewrite forallb_forall in F. apply negb_true_iff, (F (k, w) E).
Qed.

Lemma part_nth : forall q k gs a, nth_error gs k = Some a -> part q a -> part q (block gs).
Proof. intros q k gs a E. apply part_block. apply (nth_error_In gs k E). Qed.
(** The place of the element that has a boilerplate file, after [skip] others. *)
Ltac place skip l :=
  lazymatch l with
  | add_boilerplate _ _ _ _ :: ?r => lazymatch skip with O => constr:(O) | Datatypes.S ?s => let n := place s r in constr:(Datatypes.S n) end
  | given _ _ :: ?r => lazymatch skip with O => constr:(O) | Datatypes.S ?s => let n := place s r in constr:(Datatypes.S n) end
  | block _ :: ?r => lazymatch skip with O => constr:(O) | Datatypes.S ?s => let n := place s r in constr:(Datatypes.S n) end
  | _ :: ?r => let n := place skip r in constr:(Datatypes.S n)
  end.
Ltac at_place skip found :=
  lazymatch goal with |- part _ (block ?l) => let k := place skip l in eapply (part_nth _ k); [reflexivity | found] end.
Ltac name S := apply (name_free _ _ _ _ S); vm_compute; reflexivity.
Ltac lower_name S := apply (lower_name_free _ _ _ _ S); vm_compute; reflexivity.
Ltac pairs tac := unfold unnested; repeat (constructor; try (right; cbn [fst snd]; tac)).

Lemma typescript_boilerplate p g : accepted p -> g_files g = typescript_files ->
  exists size native, lookup (p_string_size_type p) ts_serializers = Some size /\
    lookup (p_string_size_type p) ts_numbers = Some native /\
    includes [("{# STRING_SIZE_TYPE #}", size); ("{# NATIVE_STRING_SIZE_TYPE #}", native)]
             "  " (g_tab g) typescript_file (tst_generate p g false).
Proof.
  intros A G. destruct (table_name p ts_serializers A eq_refl) as [size S].
  destruct (table_name p ts_numbers A eq_refl) as [native N]. exists size, native.
  split; [exact S | ]. split; [exact N | ].
  eapply includes_part; [apply inserts_ok | | apply typescript_nested, A].
  - discriminate.
  - vm_compute. reflexivity.
  - pairs ltac:(name S).
  - unfold tst_generate.
    at_place 0%nat ltac:(eapply part_given; [apply item_found, S | ]; eapply part_given; [apply mapping_found, N | ];
                    rewrite G; apply part_refl).
Qed.

Lemma assemblyscript_boilerplate p g : accepted p -> g_files g = assemblyscript_files ->
  exists size native, lookup (p_string_size_type p) as_serializers = Some size /\
    lookup (p_string_size_type p) as_types = Some native /\
    includes [("{# STRING_SIZE_TYPE #}", size); ("{# NATIVE_STRING_SIZE_TYPE #}", native)]
             "  " (g_tab g) assemblyscript_file (tst_generate p g true).
Proof.
  intros A G. destruct (table_name p as_serializers A eq_refl) as [size S].
  destruct (table_name p as_types A eq_refl) as [native N]. exists size, native.
  split; [exact S | ]. split; [exact N | ].
  eapply includes_part; [apply inserts_ok | | apply assemblyscript_nested, A].
  - discriminate.
  - vm_compute. reflexivity.
  - pairs ltac:(name S).
  - unfold tst_generate.
    at_place 0%nat ltac:(eapply part_given; [apply item_found, S | ]; eapply part_given; [apply mapping_found, N | ];
                    rewrite G; apply part_refl).
Qed.

Lemma csharp_boilerplate p g : accepted p -> g_files g = csharp_files ->
  includes [] "    " (g_tab g) csharp_file_0 (cst_generate p g) /\
  includes_lines "{# MESSAGE_TYPE_CASES #}"
    (flat_map (fun m => ["                case (byte)MessageType." +++ m +++ "Type:";
                         "                    msgList.Add(" +++ m +++ ".FromBytes(br));";
                         "                    break;"]) (map fst (p_messages p)))
    "    " (g_tab g) csharp_file_1 (cst_generate p g).
Proof.
  intros A G. split.
  - eapply includes_part; [apply (inserts_ok []) | | apply csharp_nested, A].
    + discriminate.
    + vm_compute. reflexivity.
    + constructor.
    + unfold cst_generate. at_place 0%nat ltac:(rewrite G; apply part_refl).
  - eapply includes_lines_part; [apply inserts_lines_ok; discriminate | | apply csharp_nested, A].
    unfold cst_generate. at_place 1%nat ltac:(rewrite G; apply part_refl).
Qed.

Lemma swift_boilerplate p g : accepted p -> g_files g = swift_files ->
  exists size, lookup (p_string_size_type p) sw_types = Some size /\
    includes [("{# STRING_SIZE_TYPE #}", size); ("{# STRING_SIZE_TYPE_LOWER #}", lower size)]
             "    " (g_tab g) swift_file_0 (swt_generate p g) /\
    includes [("{# NAMESPACE_PREFIX_DOT #}", match g_namespace g with Some ns => ns +++ "." | None => "" end)]
             "    " (g_tab g) swift_file_1 (swt_generate p g).
Proof.
  intros A G. destruct (table_name p (("string", "String") :: sw_types) A eq_refl) as [size S].
  assert (S' : lookup (p_string_size_type p) sw_types = Some size).
  { destruct (table_name p sw_types A eq_refl) as [w E]. cbn [lookup] in S.
    destruct (String.eqb (p_string_size_type p) "string") eqn:Q; [ | exact S].
    apply String.eqb_eq in Q. rewrite Q in E. discriminate E. }
  exists size. split; [exact S' | ]. split.
  - eapply includes_part; [apply inserts_ok | | apply swift_nested, A].
    + discriminate.
    + vm_compute. reflexivity.
    + pairs ltac:(name S).
    + unfold swt_generate.
      at_place 0%nat ltac:(eapply part_given; [apply mapping_found, S | ]; rewrite G; apply part_refl).
  - eapply includes_part; [apply inserts_ok | | apply swift_nested, A].
    + discriminate.
    + vm_compute. reflexivity.
    + repeat constructor.
    + unfold swt_generate, swt_last_substitutions. cbv zeta. rewrite G. destruct (g_namespace g); at_place 2%nat ltac:(idtac; at_place 0%nat ltac:(apply part_refl)).
Qed.

Lemma rust_boilerplate rename p g : accepted p -> g_files g = rust_files ->
  exists size, lookup (p_string_size_type p) rs_types = Some size /\
    includes (("{# STRING_SIZE_TYPE #}", size) :: match g_namespace g with Some ns => [("Beschi", ns)] | None => [] end)
             "    " (g_tab g) rust_file (rst_generate (rs_protocol rename p) g).
Proof.
  intros A G. destruct (table_name p (("string", "String") :: rs_types) A eq_refl) as [size S].
  assert (S' : lookup (p_string_size_type p) rs_types = Some size).
  { destruct (table_name p rs_types A eq_refl) as [w E]. cbn [lookup] in S.
    destruct (String.eqb (p_string_size_type p) "string") eqn:Q; [ | exact S].
    apply String.eqb_eq in Q. rewrite Q in E. discriminate E. }
  assert (S2 : lookup (p_string_size_type (rs_protocol rename p)) (("string", "String") :: rs_types) = Some size)
    by (destruct rename; exact S).
  exists size. split; [exact S' | ].
  eapply includes_part; [apply inserts_ok | | apply rust_nested, A].
  - discriminate.
  - destruct (g_namespace g); vm_compute; reflexivity.
  - destruct (g_namespace g); pairs ltac:(name S).
  - unfold rst_generate, rst_substitutions. rewrite G.
    destruct (g_namespace g);
      at_place 0%nat ltac:(eapply part_given; [apply mapping_found, S2 | ]; apply part_refl).
Qed.

Lemma go_boilerplate p g : accepted p -> g_files g = go_files ->
  exists size, lookup (p_string_size_type p) go_types = Some size /\
    includes (("{# STRING_SIZE_TYPE #}", size)
              :: match g_namespace g with
                 | None | Some "" => []
                 | Some ns => ("Beschi", ns) :: (if g_flag g then [] else [("beschi", snake ns)])
                 end)
             got_tab (g_tab g) go_file (got_generate (go_protocol (negb (g_flag g)) p) g).
Proof.
  intros A G. destruct (table_name p go_types A eq_refl) as [size S].
  assert (S2 : forall r, lookup (p_string_size_type (go_protocol r p)) go_types = Some size)
    by (intros [ | ]; exact S).
  exists size. split; [exact S | ].
  eapply includes_part; [apply inserts_ok | | apply go_nested, A].
  - discriminate.
  - destruct (g_namespace g) as [[ | c ns] | ]; [ | destruct (g_flag g) | ]; vm_compute; reflexivity.
  - assert (Q : existsb (occurs "Beschi") go_file = false) by (vm_compute; reflexivity).
    destruct (g_namespace g) as [[ | c ns] | ]; [ | destruct (g_flag g) | ];
      unfold unnested; repeat (constructor; try (left; exact Q); try (right; cbn [fst snd]; name S)).
  - unfold got_generate, got_substitutions, has_namespace, or_none. rewrite G. specialize (S2 (negb (g_flag g))).
    destruct (g_namespace g) as [[ | c ns] | ]; [ | destruct (g_flag g) | ];
      at_place 0%nat ltac:(eapply part_given; [apply mapping_found, S2 | ]; apply part_refl).
Qed.

(** In a list of names without white space, a space stands only after a comma. *)
Lemma no_space_tail : forall c a, no_space (String c a) -> no_space a.
Proof. intros c a N x I. apply N. right. exact I. Qed.
Lemma hash_name : forall a r, no_space a -> occurs "# " (a +++ String "," (String " " r)) = occurs "# " r.
Proof.
  induction a as [ | c a IH]; intros r N; [reflexivity | ].
  cbn [append occurs]. rewrite (IH r (no_space_tail c a N)).
  replace (starts_with "# " (String c (a +++ String "," (String " " r)))) with false; [reflexivity | ].
  symmetry. cbn [starts_with]. apply andb_false_iff. right.
  destruct a as [ | d a]; [reflexivity | ]. cbn [append].
  destruct (Ascii.eqb " " d) eqn:E; [ | reflexivity]. apply Ascii.eqb_eq in E. subst d. exfalso.
  apply (N " "%char); [right; left; reflexivity | right; reflexivity].
Qed.
Lemma hash_last : forall a, no_space a -> occurs "# " (a +++ ",") = false.
Proof.
  induction a as [ | c a IH]; intros N; [reflexivity | ].
  cbn [append occurs]. rewrite (IH (no_space_tail c a N)), orb_false_r.
  cbn [starts_with]. apply andb_false_iff. right.
  destruct a as [ | d a]; [reflexivity | ]. cbn [append].
  destruct (Ascii.eqb " " d) eqn:E; [ | reflexivity]. apply Ascii.eqb_eq in E. subst d. exfalso.
  apply (N " "%char); [right; left; reflexivity | right; reflexivity].
Qed.
Lemma hash_names : forall l, Forall no_space l -> occurs "# " (zgt_names l) = false.
Proof.
  intros l F. unfold zgt_names. destruct l as [ | a l]; [reflexivity | ].
  replace (Z.of_nat (List.length (a :: l)) >? 0) with true by (symmetry; apply Z.gtb_lt; cbn [List.length]; lia).
  revert a F. induction l as [ | b l IH]; intros a F; inversion F as [ | ? ? N F']; subst.
  - apply hash_last, N.
  - change (String.concat ", " (a :: b :: l)) with (a +++ ", " +++ String.concat ", " (b :: l)).
    rewrite !app_str_assoc.
    change (occurs "# " (a +++ String "," (String " " (String.concat ", " (b :: l) +++ ","))) = false).
    rewrite hash_name by exact N. apply (IH b F').
Qed.

Lemma occurs_hash : forall s, occurs "# " s = false -> occurs "{# ENUM_TYPES #}" s = false.
Proof.
  intros s H. apply occurs_false. intros (a & b & ->).
  assert (Q : occurs "# " (a +++ "{# ENUM_TYPES #}" +++ b) = true) by (apply occurs_skip; reflexivity).
  rewrite Q in H. discriminate H.
Qed.

Lemma zgt_names_commas : forall l, zgt_names l = comma_list l.
Proof.
  intros l. unfold zgt_names. destruct l as [ | a l]; [reflexivity | ].
  replace (Z.of_nat (List.length (a :: l)) >? 0) with true by (symmetry; apply Z.gtb_lt; cbn [List.length]; lia).
  revert a. induction l as [ | b l IH]; intros a; [reflexivity | ].
  change (String.concat ", " (a :: b :: l)) with (a +++ ", " +++ String.concat ", " (b :: l)).
  change (comma_list (a :: b :: l)) with (a +++ ", " +++ comma_list (b :: l)).
  rewrite <- IH, !app_str_assoc. reflexivity.
Qed.

Lemma zig_boilerplate p g : accepted p -> g_files g = zig_files ->
  exists string_size list_size, lookup (p_string_size_type p) zig_types = Some string_size /\
    lookup (p_list_size_type p) zig_types = Some list_size /\
    includes [("{# STRING_SIZE_TYPE #}", string_size); ("{# LIST_SIZE_TYPE #}", list_size);
              ("{# SIMPLE_TYPES #}",
               comma_list (filter (is_simple p) (map fst (p_structs p) ++ map fst (p_messages p))));
              ("{# ENUM_TYPES #}", comma_list (map fst (p_enums p)))]
             "    " (g_tab g) zig_file (zgt_generate p g).
Proof.
  intros A G. pose proof (accepted_WF p A) as W.
  destruct (table_name p (("string", "[]const u8") :: zig_types) A eq_refl) as [size S].
  assert (S' : lookup (p_string_size_type p) zig_types = Some size).
  { destruct (table_name p zig_types A eq_refl) as [w E]. cbn [lookup] in S.
    destruct (String.eqb (p_string_size_type p) "string") eqn:Q; [ | exact S].
    apply String.eqb_eq in Q. rewrite Q in E. discriminate E. }
  destruct (table_list_name p (("string", "[]const u8") :: zig_types) A eq_refl) as [size2 S2].
  assert (S2' : lookup (p_list_size_type p) zig_types = Some size2).
  { destruct (table_list_name p zig_types A eq_refl) as [w E]. cbn [lookup] in S2.
    destruct (String.eqb (p_list_size_type p) "string") eqn:Q; [ | exact S2].
    apply String.eqb_eq in Q. rewrite Q in E. discriminate E. }
  exists size, size2. split; [exact S' | ]. split; [exact S2' | ].
  replace (filter (is_simple p) (map fst (p_structs p) ++ map fst (p_messages p))) with (zgt_simpletons p).
  2: { unfold zgt_simpletons. rewrite <- map_app.
       assert (N : forall d, In d (p_structs p ++ p_messages p) -> s_name (snd d) = fst d).
       { intros [n s] I. apply in_app_or in I. destruct I as [I | I];
           [apply (wf_struct_entry p W n s I) | apply (wf_message_entry p W n s I)]. }
       induction (p_structs p ++ p_messages p) as [ | d l IH]; [reflexivity | ].
       cbn [filter map]. rewrite (N d (or_introl eq_refl)), <- (IH (fun e I => N e (or_intror I))).
       destruct (is_simple p (fst d)); reflexivity. }
  rewrite <- !zgt_names_commas.
  eapply includes_part; [apply inserts_ok | | apply zig_nested, A].
  - discriminate.
  - vm_compute. reflexivity.
  - assert (H : occurs "{# ENUM_TYPES #}" (zgt_names (zgt_simpletons p)) = false);
      [ | pairs ltac:(first [name S | name S2 | exact H])].
    apply occurs_hash, hash_names. apply Forall_forall. intros n I. unfold zgt_simpletons in I. apply in_map_iff in I. destruct I as ([n' s] & E & I).
    cbn in E. subst n'. apply filter_In in I. destruct I as [I _].
    apply (wf_names p W). apply in_app_or in I. destruct I as [I | I]; [left | right; left]; exists s; exact I.
  - unfold zgt_generate, zgt_substitutions. rewrite G.
    replace (map fst (p_enums p)) with (map (fun d : string * enum => e_name (snd d)) (p_enums p)).
    + at_place 0%nat ltac:(eapply part_given; [apply mapping_found, S | ]; eapply part_given; [apply mapping_found, S2 | ]; apply part_refl).
    + apply map_ext_in. intros [n e] I. apply (wf_enum_entry p W n e I).
Qed.

(** C: the namespace is replaced first. *)
Lemma upper_brace : forall s, has_char "{" (upper s) = has_char "{" s.
Proof.
  induction s as [ | c s IH]; [reflexivity | ]. change (upper (String c s)) with (String (upper_ascii c) (upper s)).
  cbn [has_char]. rewrite IH. destruct c as [[ | ] [ | ] [ | ] [ | ] [ | ] [ | ] [ | ] [ | ]]; vm_compute; reflexivity.
Qed.
Lemma brace_free : forall m s, has_char "{" s = false -> starts_with "{" m = true -> occurs m s = false.
Proof.
  intros m s H M. induction s as [ | c s IH]; cbn [occurs].
  - destruct m; [discriminate M | reflexivity].
  - cbn [has_char] in H. destruct (Ascii.eqb "{" c) eqn:Hc; [discriminate H | ]. rewrite (IH H), orb_false_r.
    destruct m as [ | a m]; [discriminate M | ]. cbn [starts_with] in *. apply andb_true_iff in M. destruct M as [M _].
    apply Ascii.eqb_eq in M. subst a. rewrite Hc. reflexivity.
Qed.

(** The marks of a namespace. *)
Definition ns_marks (o : option string) : list (string * string) :=
  match o with Some ns => [("beschi", ns); ("BESCHI", upper ns)] | None => [] end.

Lemma c_boilerplate p g : accepted p -> g_files g = c_files ->
  (forall ns, g_namespace g = Some ns -> ~ inside "BESCHI" ns /\ ~ inside "{" ns) ->
  exists size native, lookup (p_string_size_type p) c_serializers = Some size /\
    lookup (p_string_size_type p) c_types = Some native /\
    includes (ns_marks (g_namespace g) ++
              [("{# STRING_SIZE_TYPE #}", size); ("{# STRING_SIZE_TYPE_LOWER #}", lower size);
               ("{# STRING_SIZE_TYPE_NATIVE #}", native)])
             "    " (g_tab g) c_file_0 (ct_generate p g) /\
    includes (ns_marks (g_namespace g) ++
              [("{# STRING_SIZE_TYPE #}", size); ("{# STRING_SIZE_TYPE_LOWER #}", lower size)])
             "    " (g_tab g) c_file_1 (ct_generate p g) /\
    includes (ns_marks (g_namespace g)) "    " (g_tab g) c_file_2 (ct_generate p g).
Proof.
  intros A G NS.
  destruct (table_name p c_serializers A eq_refl) as [size Z].
  destruct (table_name p (("string", "char*") :: c_types) A eq_refl) as [native S].
  assert (S' : lookup (p_string_size_type p) c_types = Some native).
  { destruct (table_name p c_types A eq_refl) as [w E]. cbn [lookup] in S.
    destruct (String.eqb (p_string_size_type p) "string") eqn:Q; [ | exact S].
    apply String.eqb_eq in Q. rewrite Q in E. discriminate E. }
  exists size, native. split; [exact Z | ]. split; [exact S' | ].
  assert (F : forall ns, g_namespace g = Some ns ->
     occurs "BESCHI" ns = false /\ (forall m, starts_with "{" m = true -> occurs m ns = false /\ occurs m (upper ns) = false)).
  { intros ns E. destruct (NS ns E) as [N1 N2]. split; [apply occurs_false, N1 | ].
    assert (H : has_char "{" ns = false).
    { apply occurs_false in N2. clear - N2. induction ns as [ | c s IH]; [reflexivity | ].
      cbn [occurs starts_with] in N2. apply orb_false_iff in N2. destruct N2 as [N0 N2]. rewrite andb_true_r in N0.
      cbn [has_char]. rewrite N0. apply IH, N2. }
    intros m M. split; apply brace_free; try exact M; [exact H | rewrite upper_brace; exact H]. }
  split; [ | split].
  - eapply includes_part; [apply inserts_ok | | apply c_nested, A].
    + discriminate.
    + destruct (g_namespace g); vm_compute; reflexivity.
    + destruct (g_namespace g) as [ns | ]; cbn [ns_marks app];
        [destruct (F ns eq_refl) as [F1 F2] | ];
        pairs ltac:(first [exact F1 | apply F2; reflexivity | name Z | lower_name Z]).
    + unfold ct_generate, ct_substitutions_0, ct_subs. rewrite G.
      destruct (g_namespace g);
        at_place 0%nat ltac:(eapply part_given; [apply item_found, Z | ]; eapply part_given; [apply mapping_found, S | ]; apply part_refl).
  - eapply includes_part; [apply inserts_ok | | apply c_nested, A].
    + discriminate.
    + destruct (g_namespace g); vm_compute; reflexivity.
    + destruct (g_namespace g) as [ns | ]; cbn [ns_marks app];
        [destruct (F ns eq_refl) as [F1 F2] | ];
        pairs ltac:(first [exact F1 | apply F2; reflexivity | name Z | lower_name Z]).
    + unfold ct_generate, ct_substitutions_1, ct_subs. rewrite G.
      destruct (g_namespace g);
        at_place 1%nat ltac:(eapply part_given; [apply item_found, Z | ]; apply part_refl).
  - eapply includes_part; [apply inserts_ok | | apply c_nested, A].
    + discriminate.
    + destruct (g_namespace g); vm_compute; reflexivity.
    + destruct (g_namespace g) as [ns | ]; cbn [ns_marks app];
        [destruct (F ns eq_refl) as [F1 F2] | ];
        pairs ltac:(first [exact F1 | apply F2; reflexivity | name Z | lower_name Z]).
    + unfold ct_generate, ct_subs. rewrite G.
      destruct (g_namespace g); at_place 2%nat ltac:(apply part_refl).
Qed.

(** C with a namespace that has "BESCHI" in it. *)
Definition my_settings (ns tab : string) (files : Z -> list string) : settings :=
  {| g_namespace := Some ns; g_tab := tab; g_embed := false; g_source := ""; g_flag := false; g_files := files |}.

Definition lines_of (g : gtext) : list string :=
  match g 0 with Ret (ls, _) => map snd ls | _ => [] end.

Lemma lines_of_ret : forall g ls n, g 0 = Ret (ls, n) -> lines_of g = map snd ls.
Proof. intros g ls n E. unfold lines_of. rewrite E. reflexivity. Qed.

Lemma my_beschi_lines :
  existsb (String.eqb "bool MyBESCHI_IsFinished(const MyBESCHI_DataAccess *r) {")
    (lines_of (ct_generate annotated (my_settings "MyBESCHI" "    " c_files))) = false.
Proof. vm_compute. reflexivity. Qed.

Lemma c_boilerplate_refuted :
  exists p g ns, accepted p /\ g_files g = c_files /\ g_namespace g = Some ns /\ ~ inside "{" ns /\
    forall size, lookup (p_string_size_type p) c_serializers = Some size ->
    ~ includes [("beschi", ns); ("BESCHI", upper ns); ("{# STRING_SIZE_TYPE #}", size);
                ("{# STRING_SIZE_TYPE_LOWER #}", lower size)] "    " (g_tab g) c_file_1 (ct_generate p g).
Proof.
  exists annotated, (my_settings "MyBESCHI" "    " c_files), "MyBESCHI".
  split; [exact annotated_accepted_proof | ]. split; [reflexivity | ]. split; [reflexivity | ]. split.
  { intros I. apply occurs_inside in I. vm_compute in I. discriminate I. }
  intros size S (n & before & ls & after & E & F).
  assert (S' : size = "UInt8") by (vm_compute in S; injection S as <-; reflexivity). subst size.
  set (subs := [("beschi", "MyBESCHI"); ("BESCHI", upper "MyBESCHI"); ("{# STRING_SIZE_TYPE #}", "UInt8");
                ("{# STRING_SIZE_TYPE_LOWER #}", lower "UInt8")]) in *.
  assert (D : distinct subs).
  { split; [ | cbn; intuition discriminate]. intros a b t Ia Ib W. cbn in Ia, Ib.
    destruct Ia as [<- | [<- | [<- | [<- | []]]]]; destruct Ib as [<- | [<- | [<- | [<- | []]]]];
      first [reflexivity | discriminate W]. }
  assert (I : In "bool beschi_IsFinished(const beschi_DataAccess *r) {" c_file_1).
  { assert (Q : existsb (String.eqb "bool beschi_IsFinished(const beschi_DataAccess *r) {") c_file_1 = true)
      by (vm_compute; reflexivity).
    apply existsb_exists in Q. destruct Q as (x & Ix & Ex). apply String.eqb_eq in Ex. rewrite Ex. exact Ix. }
  assert (J : exists l', In l' ls /\ exists m, rewrites subs "bool beschi_IsFinished(const beschi_DataAccess *r) {" m /\
              reindented "    " "    " m l').
  { clear - I F. induction F as [ | l l' a b H F IH]; [destruct I | ].
    destruct I as [-> | I]; [exists l'; split; [left; reflexivity | exact H] | ].
    destruct (IH I) as (x & Ix & Hx). exists x. split; [right; exact Ix | exact Hx]. }
  destruct J as (l' & I' & m & R & k & r & Em & _ & El).
  assert (M : m = "bool MyBESCHI_IsFinished(const MyBESCHI_DataAccess *r) {").
  { apply (rewrites_unique subs D _ _ (le_n _) _ _ R).
    replace "bool MyBESCHI_IsFinished(const MyBESCHI_DataAccess *r) {"
      with (once subs 0 "bool beschi_IsFinished(const beschi_DataAccess *r) {") by (vm_compute; reflexivity).
    apply (once_rewrites subs (proj2 D) _ _ (le_n _)). }
  rewrite M in Em. destruct k; [ | discriminate Em]. cbn [repeat_str append] in Em, El. rewrite El, <- Em in I'.
  pose proof my_beschi_lines as O.
  rewrite (lines_of_ret _ _ _ E) in O. rewrite !map_app, !existsb_app, map_map in O.
  apply orb_false_iff in O. destruct O as [_ O]. apply orb_false_iff in O. destruct O as [O _].
  cbn [snd] in O. rewrite map_id in O.
  assert (O' : existsb (String.eqb "bool MyBESCHI_IsFinished(const MyBESCHI_DataAccess *r) {") ls = true).
  { apply existsb_exists. eexists. split; [exact I' | apply String.eqb_refl]. }
  rewrite O' in O. discriminate O.
Qed.

Lemma distinct_met :
  distinct [("Beschi", "Ns"); ("{# STRING_SIZE_TYPE #}", "u8")] /\ rewrites [("Beschi", "Ns")] "enum BeschiError" "enum NsError".
Proof.
  split.
  - split; [ | cbn; intuition discriminate]. intros a b t Ia Ib W. cbn in Ia, Ib.
    destruct Ia as [<- | [<- | []]]; destruct Ib as [<- | [<- | []]]; first [reflexivity | discriminate W].
  - replace "enum NsError" with (once [("Beschi", "Ns")] 0 "enum BeschiError") by (vm_compute; reflexivity).
    apply (once_rewrites [("Beschi", "Ns")]) with (k := 20%nat); [cbn; intuition discriminate | cbn; lia].
Qed.
Lemma namespace_met : ~ inside "BESCHI" "WireNs" /\ ~ inside "{" "WireNs".
Proof. split; intros I; apply occurs_inside in I; vm_compute in I; discriminate I. Qed.
