(** Proofs for PropLoad.v. *)
From Verif Require Export LoadSpec LoadFacts Samples.
From Verif Require Import ProtocolFacts ProtocolFacts2 PropProtocolFacts.
Open Scope string_scope.

Lemma annotated_plain : plain annotated_toml.
Proof.
  constructor; try (right; eexists; reflexivity).
  - right; eexists; split; [reflexivity|]; cbn; intros v [= <-]; eauto.
  - cbn; intros l [= <-]; cbn; nodup_strings.
  - cbn; intros l [= <-] d [<-|[<-|[]]] items vs [= <-]; cbn; intros [= <-]; cbn; nodup_strings.
Qed.

(** A file that no valid protocol fits is never accepted. *)
Lemma no_fit fuel data q :
  toml_wf (TTab data) -> plain data -> (forall p, WF p -> ~ describes data p) -> load fuel data <> Ret q.
Proof.
  intros W Pl N H; apply (N q); [eapply load_WF; eassumption|eapply load_sound; eassumption].
Qed.

(** A member of a type that is not declared. *)
Definition bad_type_toml : list (string * toml) :=
  [("messages", TArr [tab [("_name", "Hello"); ("who", "Person")]])].

Lemma bad_type_plain : plain bad_type_toml.
Proof.
  constructor; try (now left); try (right; eexists; reflexivity); discriminate.
Qed.

Lemma bad_type_fit p : WF p -> ~ describes bad_type_toml p.
Proof.
  intros W (_ & sl & ml & el & [S1|[S1 ->]] & [S2|[S2 ->]] & [S3|[S3 ->]] & F1 & F2 & F3);
    try discriminate.
  cbn in S2; injection S2 as <-.
  inversion F1 as [E0 E1|]; inversion F3 as [E0' E3|]; inversion F2 as [|d ns l0 ms D F2' E2a E2].
  destruct D as (items & [= <-] & L & N & Im & Fm); cbn in Fm.
  inversion Fm as [|kv m l1 ms1 Dm Fm' E4 Em]; subst kv.
  destruct Dm as (_ & _ & _ & T); cbn in T.
  assert (Hm : In m (s_members (snd ns))) by (rewrite <- Em; now left).
  assert (Dn : declares p (fst ns) (snd ns)).
  { right; rewrite <- E2; left; now destruct ns. }
  pose proof (wf_member_types p W _ _ m Dn Hm) as Ty.
  destruct (v_list m); [discriminate|injection T as T].
  unfold declared_type, is_struct, is_enum in Ty; rewrite <- T, <- E1, <- E3 in Ty.
  cbn in Ty; destruct Ty as [Ty|[Ty|[[? []]|[? []]]]]; intuition discriminate.
Qed.

(** ** Files from which something is lost *)

Definition twin_values_toml : list (string * toml) :=
  [("enums", TArr
     [TTab [("_name", TStr "Grade");
            ("_values", TArr [TTab [("_name", TStr "low"); ("_value", TInt 1)];
                              TTab [("_name", TStr "low"); ("_value", TInt 2)]])]])].

Definition meta_array_toml : list (string * toml) :=
  [("meta", TArr [TTab [("namespace", TStr "Game"); ("list_size_type", TStr "byte")]]);
   ("messages", TArr [tab [("_name", "Hello"); ("names", "[string]")]])].

Definition namespace_array_toml : list (string * toml) :=
  [("meta", TTab [("namespace", TArr [TStr "Game"; TStr "Net"])]);
   ("messages", TArr [tab [("_name", "Hello")]])].

Definition misspelt_toml : list (string * toml) :=
  [("messages", TArr [tab [("_name", "Hello")]]);
   ("message", TArr [tab [("_name", "Bye")]])].

Lemma enum_lost :
  exists data l p, toml_wf (TTab data) /\ load 10 data = Ret p /\ ~ describes data p /\
    lookup "enums" data = Some (TArr l) /\
    (forall d, In d l -> plain_enum d) /\ (List.length (p_enums p) < List.length l)%nat.
Proof.
  exists twin_enums_toml; do 2 eexists; split; [|split; [vm_compute; reflexivity|]].
  - toml_wf_tac.
  - split; [|split; [reflexivity|split]].
    + intros (_ & sl & ml & el & _ & _ & [S3|[S3 _]] & _ & _ & F3); [|discriminate].
      cbn in S3; injection S3 as <-; inversion F3 as [|? ? ? ? _ F4]; inversion F4.
    + intros d [<-|[<-|[]]] items vs [= <-]; cbn; intros [= <-]; constructor.
    + cbn; lia.
Qed.

Lemma value_lost :
  exists data items vs p n e, toml_wf (TTab data) /\ load 10 data = Ret p /\ ~ describes data p /\
    lookup "enums" data = Some (TArr [TTab items]) /\ lookup "_values" items = Some (TArr vs) /\
    In (n, e) (p_enums p) /\ (List.length (e_values e) < List.length vs)%nat.
Proof.
  exists twin_values_toml; do 5 eexists; split; [|split; [vm_compute; reflexivity|]].
  - toml_wf_tac.
  - split; [|split; [reflexivity|split; [reflexivity|split; [left; reflexivity|cbn; lia]]]].
    intros (_ & sl & ml & el & _ & _ & [S3|[S3 _]] & _ & _ & F3); [|discriminate].
    cbn in S3; injection S3 as <-; inversion F3 as [|? ? ? ? D _]; subst.
    destruct D as (items & vs & [= <-] & _ & _ & L & V); cbn in L; injection L as <-.
    destruct V as [[V _]|V]; [discriminate|].
    inversion V as [|? ? ? ? _ V']; inversion V'.
Qed.

Lemma meta_lost :
  exists data meta p, toml_wf (TTab data) /\ load 10 data = Ret p /\ ~ describes data p /\
    lookup "meta" data = Some (TArr [TTab meta]) /\
    lookup "list_size_type" meta = Some (TStr "byte") /\ p_list_size_type p = "uint32" /\
    lookup "namespace" meta = Some (TStr "Game") /\ p_namespace p = None.
Proof.
  exists meta_array_toml; do 2 eexists; split; [|split; [vm_compute; reflexivity|]].
  - toml_wf_tac.
  - split; [|repeat split; reflexivity].
    intros ((meta & [M|[M _]] & _) & _); discriminate.
Qed.

Lemma namespace_odd :
  exists data p l, toml_wf (TTab data) /\ load 10 data = Ret p /\ ~ describes data p /\
    p_namespace p = Some (TArr l) /\ l <> [].
Proof.
  exists namespace_array_toml; do 2 eexists; split; [|split; [vm_compute; reflexivity|]].
  - toml_wf_tac.
  - split; [|split; [reflexivity|discriminate]].
    intros ((meta & _ & _ & _ & N) & _); cbn in N; destruct N as [_ (s & N & _)]; discriminate.
Qed.

Lemma section_lost :
  exists data l p, toml_wf (TTab data) /\ plain data /\ load 10 data = Ret p /\
    lookup "message" data = Some (TArr l) /\ names_of l = ["Bye"] /\ ~ is_message_name p "Bye".
Proof.
  exists misspelt_toml; do 2 eexists; split; [|split; [|split; [vm_compute; reflexivity|]]].
  - toml_wf_tac.
  - constructor; try (now left); try (right; eexists; reflexivity); discriminate.
  - split; [reflexivity|split; [reflexivity|]].
    intros [s [H|[]]]; discriminate.
Qed.
