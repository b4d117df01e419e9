From Verif Require Import GrowSpec WireFacts.
Open Scope list_scope.

(** ** Later versions *)
Section Grow.
Variables p q : protocol.
Hypothesis G : newer p q.
Variable md : mode.

Lemma grows_declares t s : declares p t s -> declares q t s.
Proof.
  destruct G as (_ & _ & _ & ST & more & MS); intros [I|I]; [left; now apply ST|right; rewrite MS; apply in_or_app; now left].
Qed.

Lemma grows_forward :
  (forall t v bs, wire_in md p t v bs -> wire_in md q t v bs) /\
  (forall ms fs bs, wire_members md p ms fs bs -> wire_members md q ms fs bs) /\
  (forall m v bs, wire_member md p m v bs -> wire_member md q m v bs) /\
  (forall t vs bs, wire_elems md p t vs bs -> wire_elems md q t vs bs).
Proof.
  pose proof G as (L & S & E & _ & _).
  apply wire_mutind.
  - intros t k v bs K N; eapply w_num; eassumption.
  - intros s lb W; apply w_str; now rewrite S.
  - intros t e k z bs I K Z N; destruct (E t e I) as (e' & I' & EE & V); apply w_enum with (e := e') (k := k); auto.
    + now rewrite EE.
    + destruct Z as [Z|Z]; [now left|right]; apply in_map_iff in Z as (x & <- & X); apply in_map; auto.
  - intros t s fs bs D _ IH; apply w_struct with (s := s); [now apply grows_declares|exact IH].
  - constructor.
  - intros m ms v fs a b _ A _ B; now constructor.
  - intros m v bs F _ IH; now apply wm_one.
  - intros m vs lb bs F W _ IH; apply wm_list; [exact F|now rewrite L|exact IH].
  - constructor.
  - intros t v vs a b _ A _ B; now constructor.
Qed.
Lemma grows_wire t v bs : wire_in md p t v bs -> wire_in md q t v bs.
Proof. apply grows_forward. Qed.

Lemma grows_numbered t i : numbered p t i -> numbered q t i.
Proof.
  intro N; inversion N as [? j s E X Y]; subst; destruct G as (_ & _ & _ & _ & more & MS).
  apply (numbered_at q t j s); rewrite MS, nth_error_app1; [exact E|apply nth_error_Some; congruence].
Qed.
Lemma grows_tagged m bs : wire_tagged md p m bs -> wire_tagged md q m bs.
Proof. intro H; inversion H; subst; econstructor; eauto using grows_numbered, grows_wire. Qed.
Lemma grows_stream ms bs : wire_stream md p ms bs -> wire_stream md q ms bs.
Proof. intro H; induction H; constructor; auto using grows_tagged. Qed.
Lemma grows_packed ms bs : wire_packed md p ms bs -> wire_packed md q ms bs.
Proof. intro H; inversion H; subst; constructor; auto using grows_stream. Qed.
End Grow.

(** ** Other names *)
Section Named.
Variable ns : option toml.
Variables f g h : string -> string.
Variable p : protocol.
Hypothesis B : keeps_base_types g.
Variable md : mode.
Notation q := (named ns f g h p).

Lemma num_of_base t k : num_of t = Some k -> In t base_types.
Proof.
  unfold num_of; intro H; apply lookup_In, (in_map fst) in H; exact H.
Qed.

Lemma named_declares t s : declares p t s -> declares q (g t) (named_struct f g s).
Proof.
  intros [I|I]; [left|right]; cbn [p_structs p_messages named].
  - exact (in_map (fun d => (g (fst d), named_struct f g (snd d))) _ _ I).
  - exact (in_map (fun d => (g (fst d), named_struct f g (snd d))) _ _ I).
Qed.

Lemma named_forward :
  (forall t v bs, wire_in md p t v bs -> wire_in md q (g t) (named_val f v) bs) /\
  (forall ms fs bs, wire_members md p ms fs bs ->
     wire_members md q (map (named_var f g) ms) (map (fun nv => (f (fst nv), named_val f (snd nv))) fs) bs) /\
  (forall m v bs, wire_member md p m v bs -> wire_member md q (named_var f g m) (named_val f v) bs) /\
  (forall t vs bs, wire_elems md p t vs bs -> wire_elems md q (g t) (map (named_val f) vs) bs).
Proof.
  apply wire_mutind.
  - intros t k v bs K N; rewrite (B t (or_introl (num_of_base t k K))).
    replace (named_val f v) with v by (destruct N; reflexivity); eapply w_num; eassumption.
  - intros s lb S; rewrite (B "string"%string (or_intror eq_refl)); now apply w_str.
  - intros t e k z bs I K Z N; apply w_enum with (e := named_enum h g e) (k := k); auto.
    + exact (in_map (fun d => (g (fst d), named_enum h g (snd d))) _ _ I).
    + destruct Z as [Z|Z]; [now left|right]; cbn [named_enum e_values]; rewrite map_map; exact Z.
  - intros t s fs bs D _ IH; cbn [named_val]; apply w_struct with (s := named_struct f g s); [now apply named_declares|exact IH].
  - constructor.
  - intros m ms v fs a b _ A _ BB; cbn [map fst snd]; exact (wm_cons md q (named_var f g m) _ _ _ _ _ A BB).
  - intros m v bs L _ IH; now apply wm_one.
  - intros m vs lb bs L S _ IH; cbn [named_val]; apply wm_list; [exact L| |exact IH].
    rewrite map_length; exact S.
  - constructor.
  - intros t v vs a b _ A _ BB; cbn [map]; now constructor.
Qed.
Lemma named_wire t v bs : wire_in md p t v bs -> wire_in md q (g t) (named_val f v) bs.
Proof. apply named_forward. Qed.

Lemma named_numbered t i : numbered p t i -> numbered q (g t) i.
Proof.
  intro N; inversion N as [? j s E X Y]; subst.
  apply (numbered_at q (g t) j (named_struct f g s)); cbn [named p_messages]; now rewrite nth_error_map, E.
Qed.
Lemma named_tagged m bs : wire_tagged md p m bs -> wire_tagged md q (named_message f g m) bs.
Proof.
  intro H; inversion H as [t i v b bs' N E WI]; subst; econstructor; [apply named_numbered; eassumption|reflexivity|now apply named_wire].
Qed.
Lemma named_stream ms bs : wire_stream md p ms bs -> wire_stream md q (map (named_message f g) ms) bs.
Proof. intro H; induction H; constructor; auto using named_tagged. Qed.
Lemma named_packed ms bs : wire_packed md p ms bs -> wire_packed md q (map (named_message f g) ms) bs.
Proof. intro H; inversion H as [? nb b N S]; subst; constructor; [now rewrite map_length|now apply named_stream]. Qed.
End Named.
