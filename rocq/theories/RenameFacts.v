(** Renaming members keeps protocols valid, if names stay apart, and the format as
    it is. *)
From Verif Require Export Rename WireFacts.
Open Scope list_scope.

Section Rename.
Variable f : string -> string.
Variable p : protocol.
Notation q := (rename_members f p).

Lemma rename_names (l : list (string * struct)) :
  map fst (map (fun ns => (fst ns, rename_struct f (snd ns))) l) = map fst l.
Proof. rewrite map_map; reflexivity. Qed.

Lemma In_rename (l : list (string * struct)) n s :
  In (n, s) (map (fun ns => (fst ns, rename_struct f (snd ns))) l) <->
  exists s0, In (n, s0) l /\ s = rename_struct f s0.
Proof.
  rewrite in_map_iff; split.
  - intros ([n' s'] & E & I); injection E as <- <-; eauto.
  - intros (s0 & I & ->); exists (n, s0); auto.
Qed.

Lemma rename_is_struct n : is_struct q n <-> is_struct p n.
Proof.
  unfold is_struct; cbn; split.
  - intros [s I]; apply In_rename in I as (s0 & I & _); eauto.
  - intros [s I]; exists (rename_struct f s); apply In_rename; eauto.
Qed.
Lemma rename_is_message n : is_message_name q n <-> is_message_name p n.
Proof.
  unfold is_message_name; cbn; split.
  - intros [s I]; apply In_rename in I as (s0 & I & _); eauto.
  - intros [s I]; exists (rename_struct f s); apply In_rename; eauto.
Qed.
Lemma rename_is_enum n : is_enum q n <-> is_enum p n.
Proof. reflexivity. Qed.

Lemma rename_declares n s : declares q n s <-> exists s0, declares p n s0 /\ s = rename_struct f s0.
Proof.
  unfold declares; cbn; rewrite !In_rename; split.
  - intros [(s0 & I & ->)|(s0 & I & ->)]; eauto.
  - intros (s0 & [I| I] & ->); eauto.
Qed.

Lemma rename_declared_type t : declared_type q t <-> declared_type p t.
Proof. unfold declared_type; rewrite rename_is_struct, rename_is_enum; reflexivity. Qed.

Lemma rename_contains a b : contains q a b -> contains p a b.
Proof.
  intros (s & m & I & M & T & B); cbn in I; apply In_rename in I as (s0 & I & ->).
  cbn in M; apply in_map_iff in M as (m0 & <- & M).
  exists s0, m0; repeat split; auto. now apply rename_is_struct.
Qed.

Lemma clos_trans_impl {A} (R R' : A -> A -> Prop) : (forall a b, R a b -> R' a b) ->
  forall a b, clos_trans _ R a b -> clos_trans _ R' a b.
Proof. intros H a b C; induction C; [now constructor; apply H|eapply t_trans; eassumption]. Qed.

Hypothesis NAMES : forall n s, declares p n s -> NoDup (map (fun m => f (v_name m)) (s_members s)).
Hypothesis SPACE : forall s, no_space s -> no_space (f s).
Hypothesis UNDER : forall s, starts_underscore s = false -> starts_underscore (f s) = false.

Lemma rename_WF : WF p -> WF q.
Proof.
  intros [W A]; split.
  - constructor.
    + cbn; rewrite rename_names; apply wf_structs_nodup; exact W.
    + cbn; rewrite rename_names; apply wf_messages_nodup; exact W.
    + exact (wf_enums_nodup p W).
    + intros n s I; cbn in I; apply In_rename in I as (s0 & I & ->); cbn; exact (wf_struct_entry p W n s0 I).
    + intros n s I; cbn in I; apply In_rename in I as (s0 & I & ->); cbn; exact (wf_message_entry p W n s0 I).
    + intros n e; apply (wf_enum_entry p W).
    + intros n; rewrite rename_is_struct, rename_is_message, rename_is_enum; apply (wf_names p W).
    + intros n; rewrite rename_is_struct, rename_is_message, rename_is_enum; apply (wf_disjoint p W).
    + intros n s D; apply rename_declares in D as (s0 & D & ->); cbn; rewrite map_map; exact (NAMES n s0 D).
    + intros n s m D M; apply rename_declares in D as (s0 & D & ->); cbn in M; apply in_map_iff in M as (m0 & <- & M).
      destruct (wf_member_names p W n s0 m0 D M) as [X Y]; cbn; auto.
    + intros n s m D M; apply rename_declares in D as (s0 & D & ->); cbn in M; apply in_map_iff in M as (m0 & <- & M).
      apply rename_declared_type; exact (wf_member_types p W n s0 m0 D M).
    + apply (wf_enum_values p W).
    + intros n e v I V; rewrite rename_is_struct, rename_is_message; exact (wf_enum_value_names p W n e v I V).
    + apply (wf_enum_encoding p W).
    + apply (wf_list_size p W).
    + apply (wf_string_size p W).
    + cbn; rewrite map_length; apply (wf_message_count p W).
  - intros a C; apply (A a); revert C; apply clos_trans_impl, rename_contains.
Qed.
End Rename.

(** ** The format *)

Section Wire.
Variable f : string -> string.
Variable p : protocol.
Variable md : mode.
Notation q := (rename_members f p).

Lemma rename_num k v bs : wire_num md k v bs -> rename_val f v = v.
Proof. destruct 1; reflexivity. Qed.

Lemma rename_forward :
  (forall t v bs, wire_in md p t v bs -> wire_in md q t (rename_val f v) bs) /\
  (forall ms fs bs, wire_members md p ms fs bs ->
     wire_members md q (map (rename_var f) ms) (map (fun nv => (f (fst nv), rename_val f (snd nv))) fs) bs) /\
  (forall m v bs, wire_member md p m v bs -> wire_member md q (rename_var f m) (rename_val f v) bs) /\
  (forall t vs bs, wire_elems md p t vs bs -> wire_elems md q t (map (rename_val f) vs) bs).
Proof.
  apply wire_mutind.
  - intros t k v bs K N; rewrite (rename_num _ _ _ N); eapply w_num; eassumption.
  - intros s lb S; now apply w_str.
  - intros t e k z bs I K Z N; eapply w_enum; eassumption.
  - intros t s fs bs D _ IH; cbn [rename_val]; apply w_struct with (s := rename_struct f s); [|exact IH].
    apply rename_declares; eauto.
  - constructor.
  - intros m ms v fs a b _ A _ B; cbn [map fst snd]; exact (wm_cons md q (rename_var f m) _ _ _ _ _ A B).
  - intros m v bs L _ IH; now apply wm_one.
  - intros m vs lb bs L S _ IH; cbn [rename_val]; apply wm_list; [exact L| |exact IH].
    rewrite map_length; exact S.
  - constructor.
  - intros t v vs a b _ A _ B; cbn [map]; now constructor.
Qed.

Lemma rename_back :
  (forall t v' bs, wire_in md q t v' bs -> exists v, v' = rename_val f v /\ wire_in md p t v bs) /\
  (forall ms' fs' bs, wire_members md q ms' fs' bs -> forall ms, ms' = map (rename_var f) ms ->
     exists fs, fs' = map (fun nv => (f (fst nv), rename_val f (snd nv))) fs /\ wire_members md p ms fs bs) /\
  (forall m' v' bs, wire_member md q m' v' bs -> forall m, m' = rename_var f m ->
     exists v, v' = rename_val f v /\ wire_member md p m v bs) /\
  (forall t vs' bs, wire_elems md q t vs' bs -> exists vs, vs' = map (rename_val f) vs /\ wire_elems md p t vs bs).
Proof.
  apply wire_mutind.
  - intros t k v bs K N; exists v; split; [now rewrite (rename_num _ _ _ N)|eapply w_num; eassumption].
  - intros s lb S; exists (VStr s); split; [reflexivity|now apply w_str].
  - intros t e k z bs I K Z N; exists (VInt z); split; [reflexivity|eapply w_enum; eassumption].
  - intros t s fs bs D _ IH; apply rename_declares in D as (s0 & D & ->).
    destruct (IH (s_members s0) eq_refl) as (fs0 & -> & M).
    exists (VStruct fs0); split; [reflexivity|eapply w_struct; eassumption].
  - intros ms E; destruct ms; [|discriminate]; exists []; split; [reflexivity|constructor].
  - intros m' ms' v' fs' a b _ A _ B ms E; destruct ms as [|m ms]; [discriminate|]; cbn in E; injection E as -> ->.
    destruct (A m eq_refl) as (v & -> & M); destruct (B ms eq_refl) as (fs & -> & MS).
    exists ((v_name m, v) :: fs); split; [reflexivity|now constructor].
  - intros m' v' bs L _ (v & -> & IH) m ->; exists v; split; [reflexivity|now apply wm_one].
  - intros m' vs' lb bs L S _ (vs & -> & IH) m ->; exists (VList vs); split; [reflexivity|].
    apply wm_list; [exact L| |exact IH]. now rewrite map_length in S.
  - intros t; exists []; split; [reflexivity|constructor].
  - intros t v' vs' a b _ (v & -> & A) _ (vs & -> & B); exists (v :: vs); split; [reflexivity|now constructor].
Qed.

Lemma rename_wire t v bs : wire_in md p t v bs -> wire_in md q t (rename_val f v) bs.
Proof. apply rename_forward. Qed.
Lemma rename_wire_back t v' bs : wire_in md q t v' bs -> exists v, v' = rename_val f v /\ wire_in md p t v bs.
Proof. apply rename_back. Qed.
End Wire.

(** ** Streams *)

Definition rename_message (f : string -> string) (m : string * val) : string * val := (fst m, rename_val f (snd m)).

Section Streams.
Variable f : string -> string.
Variable p : protocol.
Variable md : mode.
Notation q := (rename_members f p).

Lemma rename_numbered t i : numbered q t i <-> numbered p t i.
Proof.
  split; intro N; inversion N as [? j s E X Y]; subst.
  - cbn in E; rewrite nth_error_map in E; destruct (nth_error (p_messages p) j) as [[n s0]|] eqn:H; [|discriminate].
    injection E as -> _; econstructor; exact H.
  - apply (numbered_at q t j (rename_struct f s)); cbn; now rewrite nth_error_map, E.
Qed.

Lemma rename_tagged m bs : wire_tagged md p m bs -> wire_tagged md q (rename_message f m) bs.
Proof.
  intro H; inversion H as [t i v b bs' N B WI]; subst; econstructor;
    [now apply rename_numbered; eassumption|reflexivity|now apply rename_wire].
Qed.
Lemma rename_stream ms bs : wire_stream md p ms bs -> wire_stream md q (map (rename_message f) ms) bs.
Proof. intro H; induction H; constructor; auto using rename_tagged. Qed.
Lemma rename_packed ms bs : wire_packed md p ms bs -> wire_packed md q (map (rename_message f) ms) bs.
Proof.
  intro H; inversion H as [? nb b N S]; subst; constructor; [now rewrite map_length|now apply rename_stream].
Qed.

Lemma rename_strings P v : strings P v -> strings P (rename_val f v).
Proof.
  intro H; induction H as [| | | |l _ IH|fs _ IH]; try (constructor; assumption); cbn [rename_val].
  - apply st_list; intros v I; apply in_map_iff in I as (v' & <- & I); auto.
  - apply st_struct; intros n v I; apply in_map_iff in I as ([n' v'] & E & I); injection E as <- <-; eauto.
Qed.
End Streams.
