(** Lemmas for PropCFun.v. *)
From Verif Require Import CFunFacts PropCDeclFacts PropFieldFacts PropTopFacts LangSampleFacts CSpec.
From Coq Require Import Permutation.
Open Scope string_scope.
Open Scope Z_scope.
Open Scope list_scope.

Lemma declared_of_app a b : declared_of (a ++ b) = declared_of a ++ declared_of b.
Proof. apply flat_map_app. Qed.
Lemma defined_of_app a b : defined_of (a ++ b) = defined_of a ++ defined_of b.
Proof. apply flat_map_app. Qed.
Lemma pairs_same (l : list (string * string)) : map (fun f => (fst f, snd f)) l = l.
Proof. induction l as [ |[a b] l IH]; cbn; congruence. Qed.
Lemma declared_of_map l : declared_of (map (fun f => Declared (fst f) (snd f)) l) = l.
Proof. induction l as [ |[a b] l IH]; [reflexivity|cbn; f_equal; exact IH]. Qed.
Lemma declared_of_defined l : declared_of (map (fun f => Defined (fst f) (snd f)) l) = [].
Proof. induction l as [ |[a b] l IH]; [reflexivity|exact IH]. Qed.
Lemma defined_of_map l : defined_of (map (fun f => Defined (fst f) (snd f)) l) = l.
Proof. induction l as [ |[a b] l IH]; [reflexivity|cbn; f_equal; exact IH]. Qed.
Lemma defined_of_declared l : defined_of (map (fun f => Declared (fst f) (snd f)) l) = [].
Proof. induction l as [ |[a b] l IH]; [reflexivity|exact IH]. Qed.

Lemma struct_order g t : Permutation (struct_functions g t) (struct_definitions g t).
Proof.
  unfold struct_functions, struct_definitions.
  apply Permutation_trans with (CFunFacts.reads g t :: CFunFacts.writes g t :: others g t); [apply perm_swap| ].
  apply (Permutation_app_comm [CFunFacts.reads g t; CFunFacts.writes g t]).
Qed.
Lemma structs_order g l : Permutation (flat_map (struct_functions g) l) (flat_map (struct_definitions g) l).
Proof. induction l as [ |t l IH]; [constructor|cbn [flat_map]; apply Permutation_app; [apply struct_order|exact IH]]. Qed.
Lemma same_functions p g size native : Permutation (c_declared p g size native) (c_defined p g size native).
Proof.
  unfold c_declared, c_defined; do 2 apply Permutation_app_head.
  eapply Permutation_trans; [apply perm_swap| ]; do 2 apply perm_skip; do 2 apply Permutation_app_head; apply structs_order.
Qed.
Lemma struct_names g l : map fst (flat_map (struct_functions g) l) = map (fun f => c_prefix g +++ f) (flat_map c_type_functions l).
Proof.
  induction l as [ |[n s] l IH]; [reflexivity| ]; cbn [flat_map]; rewrite !map_app, IH; f_equal.
  unfold struct_functions, others, c_type_functions; cbn [fst snd]; destruct (s_is_message s); reflexivity.
Qed.
Lemma declared_names p g size native : (forall ns, g_namespace g = Some ns -> ~ inside "BESCHI" ns) -> c_size_words size native ->
  map fst (c_declared p g size native) = map (fun f => c_prefix g +++ f) (c_function_names p).
Proof.
  intros NB Z; unfold c_declared, c_function_names, c_own_functions.
  rewrite !(map_app fst); cbn [map]; rewrite !(map_app fst), struct_names, (file_functions_names g NB size native Z), !map_map.
  unfold file_names; rewrite !map_app, !map_map, <- !app_assoc; reflexivity.
Qed.
Lemma c_functions p g : c_usual p g -> exists declared defined, c_text_functions p g declared defined /\
  Permutation declared defined /\ map fst declared = map (fun f => c_prefix g +++ f) (c_function_names p).
Proof.
  intros (A & (E & N & B & F) & WT & WN & NB); pose proof (accepted_WF p A) as W.
  destruct (CDeclFacts.c_sizes p A) as (size & native & Z1 & Z2).
  destruct (c_generate_sees p g A F WN WT NB (WF_text_ok p W) (conj N B) E size native Z1 Z2) as (ls & X & Y).
  exists (c_declared p g size native), (c_defined p g size native); split; [exists ls; split; [exact X| ]|split].
  - rewrite Y, declared_of_app, defined_of_app, declared_of_map, declared_of_defined, defined_of_map, defined_of_declared, app_nil_r.
    split; reflexivity.
  - apply same_functions.
  - apply declared_names; [exact NB|exact (c_size_found p A size native Z1 Z2)].
Qed.
Lemma c_text_functions_unique p g a b a' b' : c_text_functions p g a b -> c_text_functions p g a' b' -> a = a' /\ b = b'.
Proof. intros (x & X & <- & <-) (y & Y & <- & <-); rewrite X in Y; injection Y as <-; auto. Qed.
Lemma c_functions_all p g declared defined : c_usual p g -> c_text_functions p g declared defined ->
  Permutation declared defined /\ map fst declared = map (fun f => c_prefix g +++ f) (c_function_names p).
Proof.
  intros U D; destruct (c_functions p g U) as (a & b & D' & H).
  destruct (c_text_functions_unique _ _ _ _ _ _ D D') as [-> ->]; exact H.
Qed.

(** ** Names *)

Definition within (a b : list string) : Prop := forall x, (count_occ string_dec a x <= count_occ string_dec b x)%nat.
Lemma within_nodup a b : within a b -> NoDup b -> NoDup a.
Proof. rewrite !(NoDup_count_occ string_dec); intros W H x; specialize (W x); specialize (H x); lia. Qed.
Lemma within_app a b a' b' : within a b -> within a' b' -> within (a ++ a') (b ++ b').
Proof. intros W V x; rewrite !count_occ_app; specialize (W x); specialize (V x); lia. Qed.
Lemma within_refl a : within a a.
Proof. intro; lia. Qed.
Lemma within_more a b : within a (a ++ b).
Proof. intro; rewrite count_occ_app; lia. Qed.
Lemma within_cons y a b : within a b -> within a (y :: b).
Proof. intros W x; specialize (W x); cbn; destruct (string_dec y x); lia. Qed.
Lemma within_flat_map {X} (f h : X -> list string) l : (forall x, In x l -> within (f x) (h x)) -> within (flat_map f l) (flat_map h l).
Proof.
  induction l as [ |x l IH]; intro H; [apply within_refl| ]; cbn [flat_map]; apply within_app; [apply H; now left|apply IH; intros; apply H; now right].
Qed.
Lemma within_perm a b c : Permutation a b -> within b c -> within a c.
Proof. intros P W x; rewrite (proj1 (Permutation_count_occ string_dec a b) P x); apply W. Qed.
Lemma nodup_within a b : NoDup a -> incl a b -> within a b.
Proof.
  intros N I x; pose proof (proj1 (NoDup_count_occ string_dec a) N x) as H.
  destruct (in_dec string_dec x a) as [J|J].
  - pose proof (proj1 (count_occ_In string_dec b x) (I x J)); lia.
  - rewrite (proj1 (count_occ_not_In string_dec a x) J); lia.
Qed.
Lemma perm_flat {X} (f : X -> string) (h : X -> list string) l : Permutation (map f l ++ flat_map h l) (flat_map (fun x => f x :: h x) l).
Proof.
  induction l as [ |x l IH]; [constructor| ]; cbn [map flat_map app]; apply perm_skip.
  rewrite app_assoc; eapply Permutation_trans; [apply Permutation_app_tail, Permutation_app_comm| ].
  rewrite <- app_assoc; apply Permutation_app_head, IH.
Qed.
Lemma c_top_within p : accepted p -> within (c_top_names p) (c_names_of p).
Proof.
  intro A; pose proof (accepted_WF p A) as W; pose proof (WF_text_ok p W) as T.
  apply within_perm with ((c_own_types ++ c_own_functions) ++
    flat_map (fun e : string * enum => fst e :: ["IsValid" +++ fst e]) (p_enums p) ++
    flat_map (fun t : string * struct => fst t :: c_type_functions t) (p_structs p ++ p_messages p)).
  - unfold c_top_names, c_function_names, types_in_order.
    pose proof (perm_flat fst (fun e => ["IsValid" +++ fst e]) (p_enums p)) as P1; rewrite flat_map_one in P1.
    pose proof (perm_flat fst c_type_functions (p_structs p ++ p_messages p)) as P2; rewrite (map_app fst) in P2.
    rewrite <- P1, <- P2; clear P1 P2.
    generalize c_own_types c_own_functions (map fst (p_enums p)) (map (fun e : string * enum => "IsValid" +++ fst e) (p_enums p))
      (map fst (p_structs p) ++ map fst (p_messages p)) (flat_map c_type_functions (p_structs p ++ p_messages p)); clear; intros a b c d e f.
    rewrite <- !app_assoc; apply Permutation_app_head.
    rewrite (app_assoc c e); eapply Permutation_trans; [apply Permutation_app_swap_app| ].
    apply Permutation_app_head; rewrite <- !app_assoc; apply Permutation_app_head, Permutation_app_swap_app.
  - unfold c_names_of; apply within_app; [ |apply within_app].
    + apply nodup_within; [apply has_dup_str_false; vm_compute; reflexivity| ].
      intros x I; apply in_strs_true; revert x I; apply Forall_forall; repeat constructor.
    + apply within_flat_map; intros [n e] I; cbn [fst snd]; unfold c_enum_names; rewrite (wf_enum_entry p W n e I); apply within_more.
    + apply within_flat_map; intros [n s] I; cbn [fst snd]; unfold c_struct_names, c_type_functions; cbn [fst snd].
      assert (D : declares p n s) by (apply in_app_iff in I; exact I); rewrite (tk_name p T n s D).
      destruct (s_is_message s); [ |apply within_refl]; cbn [app map].
      apply (within_app [n; _; _] [n; _; _]); [apply within_refl|do 2 apply within_cons; apply within_refl].
Qed.
Lemma c_names_distinct p g parts declared defined : c_usual p g -> c_names p -> c_declares p g parts -> c_text_functions p g declared defined ->
  NoDup (c_type_list parts ++ map fst declared).
Proof.
  intros U C D F; apply c_parts_exactly in D as ->; [ |exact U].
  rewrite (proj2 (c_functions_all p g declared defined U F)), c_type_list_expected, <- map_app; apply nodup_prefix.
  rewrite <- app_assoc; apply (within_nodup _ (c_names_of p)); [apply c_top_within, U|apply C].
Qed.

(** ** Samples *)

Lemma finished_accepted : accepted (two_types "IsFinished" "Note").
Proof. accepted_tac (two_types_toml "IsFinished" "Note"). Qed.
Lemma c_name_twice : exists p g parts declared defined, c_usual p g /\ c_declares p g parts /\ c_text_functions p g declared defined /\
  ~ NoDup (c_type_list parts ++ map fst declared).
Proof.
  assert (U : c_usual (two_types "IsFinished" "Note") (plain_settings "c" None)) by (apply c_usual_plain; [exact finished_accepted|types_words]).
  pose proof (c_declares_expected _ _ U) as D; destruct (c_functions _ _ U) as (a & b & F & _ & N).
  eexists _, _, _, a, b; split; [exact U|split; [exact D|split; [exact F| ]]].
  rewrite N, c_type_list_expected; intro H; apply (NoDup_count_occ string_dec) with (x := "beschi_IsFinished") in H; revert H; vm_compute; lia.
Qed.
Lemma annotated_functions : c_usual annotated (plain_settings "c" None) /\ c_names annotated.
Proof.
  split; [apply annotated_c| ]; split; [apply has_dup_str_false; vm_compute; reflexivity| ].
  intros t s [I|I]; cbn in I; decompose [or] I; try contradiction;
    match goal with H : (_, _) = (_, _) |- _ => injection H as <- <- end; apply has_dup_str_false; vm_compute; reflexivity.
Qed.
Lemma two_types_functions : c_usual (two_types "Item" "Note") (plain_settings "c" None) /\
  c_function_names (two_types "Item" "Note") =
  c_own_functions ++ ["Item_WriteBytes"; "Item_FromBytes"; "Note_WriteBytes"; "Note_FromBytes"; "Note_GetSizeInBytes";
    "Note_Create"; "Note_Cleanup"; "Note_Destroy"].
Proof. split; [apply two_types_c|reflexivity]. Qed.
