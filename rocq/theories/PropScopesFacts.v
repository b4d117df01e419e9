From Verif Require Export ScopesSpec.
From Verif Require Import ScopesFacts LangSampleFacts ProtocolFacts3.
Open Scope string_scope.
Open Scope list_scope.

(** A message with two members, and an enum. *)
Definition two_members_toml (t n1 t1 n2 t2 : string) : list (string * toml) :=
  [("enums", TArr [TTab [("_name", TStr "Mood"); ("_values", TArr [TStr "Calm"; TStr "Happy"])]]);
   ("messages", TArr [tab [("_name", t); (n1, t1); (n2, t2)]])].
Definition two_members (t : string) (m1 m2 : var) : protocol :=
  MkProtocol None "uint32" "uint32" [] [(t, MkStruct t [m1; m2] true)]
    [("Mood", MkEnum "Mood" [("Calm", 0); ("Happy", 1)] "byte")]%Z.

Definition plain_text_name (n : string) : bool :=
  negb (existsb (fun c => Ascii.eqb c "[" || Ascii.eqb c "]") (str_chars n)) && negb (String.eqb n "").
Lemma plain_by_check p :
  forallb (fun d => forallb (fun m => plain_text_name (v_name m)) (s_members (snd d))) (p_structs p ++ p_messages p) = true -> plain_names p.
Proof.
  rewrite forallb_forall; intro H.
  assert (X : forall t s m, declares p t s -> In m (s_members s) -> plain_text_name (v_name m) = true).
  { intros t s m D; specialize (H (t, s) (proj2 (in_app_iff _ _ _) D)); rewrite forallb_forall in H; exact (H m). }
  unfold plain_text_name in X; split; intros t s m D I; specialize (X t s m D I);
    apply andb_true_iff in X as [A B]; apply negb_true_iff in A; apply negb_true_iff in B.
  - split; intro J; rewrite <- not_true_iff_false in A; apply A, existsb_exists; eexists; split; try eassumption; reflexivity.
  - now apply String.eqb_neq.
Qed.

Lemma photos_plain : plain_names photos.
Proof. apply plain_by_check; vm_compute; reflexivity. Qed.

Ltac refute t m1 m2 data := exists (two_members t m1 m2); split; [accepted_tac data|]; split; [apply plain_by_check; vm_compute; reflexivity|].

Lemma C32_ts_exact p ns : accepted p -> plain_names p -> (ts_scopes ns p = true <-> lengths_free p).
Proof. intros A; exact (ts_scopes_exact p ns (accepted_WF p A)). Qed.
Lemma C32_as_exact p : accepted p -> plain_names p -> (as_scopes p = true <-> lengths_free p).
Proof. intros A; exact (as_scopes_exact p (accepted_WF p A)). Qed.
Lemma C32_sw_exact p : accepted p -> plain_names p -> (sw_scopes p = true <-> sw_locals_free p).
Proof. intros A; exact (sw_scopes_exact p (accepted_WF p A)). Qed.
Lemma C32_cs_exact p ns : accepted p -> plain_names p -> (cs_scopes ns p = true <-> cs_locals_free p).
Proof. intros A; exact (cs_scopes_exact p ns (accepted_WF p A)). Qed.
Lemma C32_cs_classes_exact p : accepted p -> (cs_classes p = true <->
   members_avoid ["FromBytes"; "WriteBytes"] ["GetMessageType"; "GetSizeInBytes"] p /\ members_not_type p).
Proof. intros A; exact (cs_classes_exact p (accepted_WF p A)). Qed.
Lemma C32_ts_classes_exact p : accepted p ->
  (ts_classes p = true <-> members_avoid ["writeBytes"] ["getMessageType"; "getSizeInBytes"] p).
Proof. intros A; exact (ts_classes_exact p (accepted_WF p A)). Qed.

Lemma photos_lengths : lengths_free photos.
Proof. apply (C32_as_exact photos photos_accepted photos_plain); vm_compute; reflexivity. Qed.
Lemma photos_sw : sw_locals_free photos.
Proof. apply (C32_sw_exact photos photos_accepted photos_plain); vm_compute; reflexivity. Qed.
Lemma photos_cs : cs_locals_free photos.
Proof. apply (C32_cs_exact photos true photos_accepted photos_plain); vm_compute; reflexivity. Qed.
Lemma photos_cs_class : members_avoid ["FromBytes"; "WriteBytes"] ["GetMessageType"; "GetSizeInBytes"] photos /\ members_not_type photos.
Proof. apply (C32_cs_classes_exact photos photos_accepted); vm_compute; reflexivity. Qed.
Lemma photos_ts_class : members_avoid ["writeBytes"] ["getMessageType"; "getSizeInBytes"] photos.
Proof. apply (C32_ts_classes_exact photos photos_accepted); vm_compute; reflexivity. Qed.

Lemma C32_ts_length : exists p, accepted p /\ plain_names p /\ (forall ns, ts_scopes ns p = false) /\ as_scopes p = false /\ sw_scopes p = false.
Proof.
  refute "ote_Length" (MkVar "body" "string" false) (MkVar "note" "byte" true) (two_members_toml "ote_Length" "body" "string" "note" "[byte]").
  split; [intros []|split]; vm_compute; reflexivity.
Qed.

Lemma C32_sw_read : exists p, accepted p /\ plain_names p /\ sw_scopes p = false.
Proof.
  refute "Day" (MkVar "mood" "Mood" false) (MkVar "moodRead" "Mood" false) (two_members_toml "Day" "mood" "Mood" "moodRead" "Mood").
  vm_compute; reflexivity.
Qed.

Lemma C32_cs_result : exists p, accepted p /\ plain_names p /\ (forall ns, cs_scopes ns p = false).
Proof.
  refute "Day" (MkVar "nDay" "Mood" false) (MkVar "body" "string" false) (two_members_toml "Day" "nDay" "Mood" "body" "string").
  intros []; vm_compute; reflexivity.
Qed.

Lemma C32_cs_element : exists p, accepted p /\ plain_names p /\ (forall ns, cs_scopes ns p = false).
Proof.
  refute "Day" (MkVar "el" "Mood" false) (MkVar "hours" "byte" true) (two_members_toml "Day" "el" "Mood" "hours" "[byte]").
  intros []; vm_compute; reflexivity.
Qed.

Lemma C32_cs_string : exists p, accepted p /\ plain_names p /\ (forall ns, cs_scopes ns p = false).
Proof.
  refute "Day" (MkVar "string__el" "string" false) (MkVar "notes" "string" true) (two_members_toml "Day" "string__el" "string" "notes" "[string]").
  intros []; vm_compute; reflexivity.
Qed.

Lemma C32_cs_buffer : exists p, accepted p /\ plain_names p /\ (forall ns, cs_scopes ns p = false).
Proof.
  refute "Day" (MkVar "el" "string" false) (MkVar "notes" "string" true) (two_members_toml "Day" "el" "string" "notes" "[string]").
  intros []; vm_compute; reflexivity.
Qed.

Lemma C32_cs_class : exists p, accepted p /\ plain_names p /\ cs_classes p = false.
Proof.
  refute "Day" (MkVar "Day" "byte" false) (MkVar "body" "string" false) (two_members_toml "Day" "Day" "byte" "body" "string").
  vm_compute; reflexivity.
Qed.

Lemma C32_cs_method : exists p, accepted p /\ plain_names p /\ cs_classes p = false.
Proof.
  refute "Day" (MkVar "hours" "byte" false) (MkVar "WriteBytes" "string" false) (two_members_toml "Day" "hours" "byte" "WriteBytes" "string").
  vm_compute; reflexivity.
Qed.

Lemma C32_ts_method : exists p, accepted p /\ plain_names p /\ ts_classes p = false.
Proof.
  refute "Day" (MkVar "hours" "byte" false) (MkVar "writeBytes" "string" false) (two_members_toml "Day" "hours" "byte" "writeBytes" "string").
  vm_compute; reflexivity.
Qed.
