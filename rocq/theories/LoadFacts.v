(** What the loader accepts, the file says. *)
From Verif Require Import LoadSpec ProtocolFacts ProtocolFacts2.

Lemma build_var_sound k t m : build_var k t = Ret m -> doc_member (k, t) m.
Proof.
  destruct t as [s| | | | |l|]; cbn [build_var]; try discriminate;
    [|destruct l; discriminate].
  destruct (bracketed s) as [[]|] eqn:B; try discriminate.
  - apply bracketed_true in B as [u ->].
    assert (E : drop_last (drop_first ("[" +++ u +++ "]")) = u).
    { cbn [String.append drop_first].
      change "]"%string with (String "]" ""); now rewrite drop_last_app. }
    rewrite E; destruct (bracketed u) as [[]|] eqn:B; try discriminate.
    intros [= <-]; unfold doc_member; cbn.
    split; [reflexivity|]; split; [|split; [|reflexivity]].
    + intro E0; apply bracketed_none in E0; congruence.
    + intro E0; apply bracketed_true in E0; congruence.
  - intros [= <-]; unfold doc_member; cbn.
    split; [reflexivity|]; split; [|split; [|reflexivity]].
    + intro E0; apply bracketed_none in E0; congruence.
    + intro E0; apply bracketed_true in E0; congruence.
Qed.

Lemma build_members_sound items ms :
  build_members items = Ret ms ->
  Forall2 doc_member (filter (fun kv => negb (starts_underscore (fst kv))) items) ms.
Proof.
  revert ms; induction items as [|[k t] items IH]; cbn [build_members filter fst]; intros ms H.
  - pinv; constructor.
  - destruct (starts_underscore k); cbn [negb]; [now apply IH|].
    pinv; constructor; [now apply build_var_sound|now apply IH].
Qed.

Lemma build_struct_sound im d s :
  build_struct im d = Ret s -> doc_struct im d (s_name s, s).
Proof.
  intro H; apply build_struct_inv in H as (items & -> & B & L & Im).
  exists items; cbn; do 4 (split; [auto; reflexivity|]).
  now apply build_members_sound.
Qed.

Lemma load_structs_sound im l r :
  load_structs im l [] = Ret r -> Forall2 (doc_struct im) l r.
Proof.
  intro H; apply load_structs_inv in H as (new & -> & F & _); cbn [app].
  induction F as [|d [n s] l new [B N] F IH]; constructor; [|exact IH].
  cbn in B, N; subst n; now apply build_struct_sound.
Qed.

(** ** Enums *)

Lemma enum_entry_sound d nz :
  enum_entry d = Ret nz ->
  exists items, d = TTab items /\ lookup "_name" items = Some (TStr (fst nz)) /\
    lookup "_value" items = Some (TInt (snd nz)).
Proof.
  unfold enum_entry; intro H; pinv.
  destruct d as [| | | | | |items]; try discriminate; cbn in *; pinv.
  destruct (lookup "_name" items) as [n|] eqn:L; [|discriminate]; injection R0 as ->.
  destruct a1; try discriminate; pinv.
  destruct (lookup "_value" items) as [v|] eqn:L2; [|discriminate]; pinv.
  match goal with E : match ?x with TStr _ => _ | _ => _ end = Ret nz |- _ =>
    destruct x; try discriminate; injection E as <- end.
  exists items; auto.
Qed.

Definition doc_value (d : toml) (nz : string * Z) : Prop :=
  exists items, d = TTab items /\ lookup "_name" items = Some (TStr (fst nz)) /\
    lookup "_value" items = Some (TInt (snd nz)).

Lemma enum_tables_sound l od r :
  enum_tables l od = Ret r -> NoDup (map fst od ++ names_of l) ->
  exists new, r = od ++ new /\ Forall2 doc_value l new.
Proof.
  revert od; induction l as [|d l IH]; cbn [enum_tables]; intros od H ND; pinv.
  - exists []; rewrite app_nil_r; split; [reflexivity|constructor].
  - pose proof (enum_entry_sound _ _ R) as (items & -> & L1 & L2).
    unfold names_of in ND; cbn [flat_map name_of] in ND; rewrite L1 in ND; cbn [app] in ND.
    assert (M : mem (fst a) od = false).
    { apply mem_false; apply NoDup_remove_2 in ND.
      intro Hin; apply ND, in_or_app; now left. }
    rewrite dict_set_fresh in R0 by assumption.
    destruct (IH _ R0) as (new & -> & F).
    { rewrite map_app; cbn [map fst]; rewrite <- app_assoc; exact ND. }
    exists (a :: new); split; [rewrite <- app_assoc; now destruct a|].
    constructor; [exists items; auto|exact F].
Qed.

Lemma tstrs_all l : forallb is_tstr l = true -> l = map TStr (tstrs l).
Proof.
  induction l as [|[s| | | | | |] l IH]; cbn; try discriminate; intro H; [reflexivity|].
  f_equal; now apply IH.
Qed.

Lemma number_from_snd l i :
  map snd (number_from (Z.of_nat i) l) = map Z.of_nat (seq i (List.length l)).
Proof.
  revert i; induction l as [|x l IH]; intro i; cbn; [reflexivity|].
  f_equal; rewrite <- IH; do 2 f_equal; lia.
Qed.

Lemma number_from_length l i : List.length (number_from i l) = List.length l.
Proof. revert i; induction l as [|x l IH]; intro i; cbn; congruence. Qed.

Lemma enum_init_sound n vs e :
  enum_init n vs = Ret e -> NoDup (names_of vs) ->
  e_name e = n /\ doc_enum_values vs (e_values e).
Proof.
  unfold enum_init; intros H ND; pinv.
  destruct (zmin (map snd a)) as [mn|]; [|discriminate].
  destruct (zmax (map snd a)) as [mx|]; [|discriminate].
  pinv; cbn; split; [reflexivity|].
  destruct (forallb is_tstr vs) eqn:Str; pinv.
  - left; split.
    + rewrite (tstrs_all vs Str) at 1.
      rewrite <- (map_map fst TStr), number_from_fst; reflexivity.
    + rewrite number_from_length; exact (number_from_snd _ O).
  - destruct (forallb is_ttab vs); cbn in R; [|discriminate].
    destruct (enum_tables_sound _ _ _ R ND) as (new & -> & F); right; exact F.
Qed.

Lemma load_enums_sound l acc r :
  load_enums l acc = Ret r -> NoDup (map fst acc ++ names_of l) ->
  (forall d, In d l -> plain_enum d) ->
  exists new, r = acc ++ new /\ Forall2 doc_enum l new.
Proof.
  revert acc; induction l as [|d l IH]; cbn [load_enums]; intros acc H ND Pl; pinv.
  - exists []; rewrite app_nil_r; split; [reflexivity|constructor].
  - destruct a3; try discriminate; pinv.
    destruct a3; try discriminate; pinv.
    destruct d as [| | | | | |items]; try discriminate; cbn [py_in py_get] in *.
    destruct (lookup "_name" items) as [n|] eqn:L1; [|discriminate].
    destruct (lookup "_values" items) as [v|] eqn:L2; [|discriminate].
    pinv.
    match goal with E : enum_init ?n ?vs = Ret ?e |- _ =>
      destruct (enum_init_sound _ _ _ E (Pl _ (or_introl eq_refl) _ _ eq_refl L2)) as [N V];
      rewrite N in *; rename e into e0, n into n0 end.
    unfold names_of in ND; cbn [flat_map name_of] in ND; rewrite L1 in ND; cbn [app] in ND.
    match goal with E : load_enums _ (dict_set ?k _ _) = Ret _ |- _ =>
      assert (M : mem k acc = false);
      [apply mem_false; apply NoDup_remove_2 in ND; intro Hin; apply ND, in_or_app; now left|];
      rewrite dict_set_fresh in E by assumption;
      destruct (IH _ E) as (new & -> & F) end.
    { rewrite map_app; cbn [map fst]; rewrite <- app_assoc; exact ND. }
    { intros d Hd; apply Pl; now right. }
    eexists (_ :: new); split; [rewrite <- app_assoc; reflexivity|].
    constructor; [|exact F].
    eexists items, _; cbn [fst snd]; eauto 6.
Qed.

(** ** The whole file *)

Lemma load_size_sound key meta t :
  load_size key (TTab meta) = Ret t -> doc_size key meta t.
Proof.
  unfold load_size, doc_size; cbn [py_in py_get pbind]; unfold mem.
  destruct (lookup key meta) as [v|]; cbn [pbind].
  - destruct v; try discriminate; destruct (in_strs s valid_sizes); [|discriminate].
    intros [= ->]; auto.
  - intros [= <-]; auto.
Qed.

Lemma load_meta_sound data ns ls ss :
  plain_meta data -> load_meta data = Ret (ns, ls, ss) ->
  exists meta,
    (lookup "meta" data = Some (TTab meta) \/ (lookup "meta" data = None /\ meta = [])) /\
    doc_size "list_size_type" meta ls /\ doc_size "string_size_type" meta ss /\
    match ns with
    | Some v => lookup "namespace" meta = Some v /\ exists s, v = TStr s /\ no_space s
    | None => lookup "namespace" meta = None
    end.
Proof.
  unfold load_meta; intros [N|(meta & M & T)] H.
  - rewrite N in H; injection H as <- <- <-.
    exists []; unfold doc_size; cbn; auto 6.
  - rewrite M in H; pinv; cbn [py_in py_get] in *; pinv.
    exists meta; split; [auto|].
    do 2 (split; [now apply load_size_sound|]).
    unfold mem in *; destruct (lookup "namespace" meta) as [v|] eqn:L; pinv; [|reflexivity].
    split; [reflexivity|].
    destruct (T _ eq_refl) as [s ->]; exists s; split; [reflexivity|].
    match goal with E : contains_ws_any _ _ = Ret _ |- _ =>
      rewrite contains_ws_any_str in E; injection E as E end.
    apply contains_whitespace_false; assumption.
Qed.

Lemma section_sound key data l :
  plain_section key data -> py_iter (section key data) = Ret l -> doc_section key data l.
Proof.
  unfold section, doc_section; intros [N|[l' L]] H.
  - rewrite N in H; cbn in H; injection H as <-; auto.
  - rewrite L in H; cbn in H; injection H as <-; auto.
Qed.

Lemma build_sound data p : plain data -> build data = Ret p -> describes data p.
Proof.
  intros Pl H; unfold build in H; pinv; destruct a as [[ns ls] ss]; pinv.
  destruct (load_meta_sound _ _ _ _ (pl_meta _ Pl) R) as (meta & M1 & M2 & M3 & M4).
  split; [exists meta; cbn; auto|].
  match goal with
  | E1 : py_iter (section "structs" data) = Ret ?sl, E2 : py_iter (section "messages" data) = Ret ?ml,
    E3 : py_iter (section "enums" data) = Ret ?el |- _ =>
      exists sl, ml, el;
      pose proof (section_sound _ _ _ (pl_structs _ Pl) E1) as S1;
      pose proof (section_sound _ _ _ (pl_messages _ Pl) E2) as S2;
      pose proof (section_sound _ _ _ (pl_enums _ Pl) E3) as S3
  end.
  do 3 (split; [assumption|]); cbn [p_structs p_messages p_enums].
  split; [now apply load_structs_sound|]; split; [now apply load_structs_sound|].
  match goal with E : load_enums ?l [] = Ret _ |- _ =>
    destruct (load_enums_sound _ _ _ E) as (new & Ee & F) end.
  - cbn [map app]; destruct S3 as [S3|[_ ->]]; [now apply (pl_enum_names _ Pl)|constructor].
  - destruct S3 as [S3|[_ ->]]; [now apply (pl_value_names _ Pl)|intros d []].
  - cbn [app] in Ee; subst; exact F.
Qed.

Lemma load_sound fuel data p : plain data -> load fuel data = Ret p -> describes data p.
Proof. intros Pl H; apply load_inv in H as [H _]; now apply build_sound. Qed.

Lemma load_iff data p :
  toml_wf (TTab data) -> plain data ->
  ((exists fuel, load fuel data = Ret p) <-> WF p /\ describes data p).
Proof.
  intros W Pl; split.
  - intros [fuel H]; split; [eapply load_WF; eassumption|eapply load_sound; eassumption].
  - intros [Wp D]; destruct (load_complete data p Wp D) as [n H]; exists n; apply H; lia.
Qed.

(** ** What is not looked at *)

Lemma load_sections fuel d1 d2 :
  (forall k, In k ["meta"; "structs"; "messages"; "enums"]%string -> lookup k d1 = lookup k d2) ->
  load fuel d1 = load fuel d2.
Proof.
  intro H; unfold load, build, load_meta, section.
  rewrite (H "meta"%string), (H "structs"%string), (H "messages"%string), (H "enums"%string)
    by (cbn; tauto).
  reflexivity.
Qed.

Lemma build_struct_str im s x : build_struct im (TStr s) <> Ret x.
Proof.
  intro H; apply build_struct_inv in H as (items & H & _); discriminate.
Qed.

Lemma load_structs_str im s l acc r : load_structs im (TStr s :: l) acc <> Ret r.
Proof. cbn [load_structs]; intro H; pinv; now apply build_struct_str in R. Qed.

Lemma load_enums_str s l acc r : load_enums (TStr s :: l) acc <> Ret r.
Proof. cbn [load_enums py_in py_get]; intro H; pinv. Qed.

Lemma odd_section key data l :
  py_iter (section key data) = Ret l ->
  (forall s r, l <> TStr s :: r) ->
  plain_section key data \/ lookup key data = Some (TStr "") \/ lookup key data = Some (TTab []).
Proof.
  unfold section, plain_section; destruct (lookup key data) as [v|]; [|auto].
  destruct v as [s| | | | |v|items]; cbn [py_iter]; try discriminate; intros [= <-] N.
  - destruct s; [auto|]; cbn in N; now destruct (N _ _ eq_refl).
  - eauto.
  - destruct items; [auto|]; cbn in N; now destruct (N _ _ eq_refl).
Qed.

Lemma odd_sections fuel data p key :
  load fuel data = Ret p -> In key ["structs"; "messages"; "enums"]%string ->
  plain_section key data \/ lookup key data = Some (TStr "") \/ lookup key data = Some (TTab []).
Proof.
  intros H Hk; apply load_inv in H as [H _].
  unfold build in H; pinv; destruct a as [[ns ls] ss]; pinv.
  destruct Hk as [<-|[<-|[<-|[]]]]; eapply odd_section; try eassumption; intros s r ->.
  - eapply load_structs_str; eassumption.
  - eapply load_structs_str; eassumption.
  - eapply load_enums_str; eassumption.
Qed.
