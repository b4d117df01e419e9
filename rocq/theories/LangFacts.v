(** Facts used for all languages. *)
From Verif Require Export Lang LangSpec ReaderFacts WriterFacts MeasureFacts.
Open Scope list_scope.

(** What the branches of the generators see of a member type. *)
Inductive kind_of (p : protocol) (t : string) : Prop :=
| ko_num k : num_of t = Some k -> mem t NUMERIC_TYPE_SIZES = true -> String.eqb t "string" = false ->
    lookup t (p_enums p) = None -> lookup t (p_structs p) = None -> kind_of p t
| ko_str : t = "string"%string -> lookup t (p_enums p) = None -> lookup t (p_structs p) = None -> kind_of p t
| ko_enum e k : num_of t = None -> mem t NUMERIC_TYPE_SIZES = false -> String.eqb t "string" = false ->
    In (t, e) (p_enums p) ->
    lookup t (p_enums p) = Some e -> num_of (e_encoding e) = Some k -> k <> NBool -> kind_of p t
| ko_struct s : num_of t = None -> mem t NUMERIC_TYPE_SIZES = false -> String.eqb t "string" = false ->
    lookup t (p_enums p) = None -> lookup t (p_structs p) = Some s -> kind_of p t.

Lemma num_of_mem t : num_of t = None -> mem t NUMERIC_TYPE_SIZES = false.
Proof.
  intro H; unfold mem; destruct (lookup t NUMERIC_TYPE_SIZES) eqn:E; [|reflexivity].
  exfalso; apply lookup_In in E; cbn [In NUMERIC_TYPE_SIZES] in E.
  repeat (destruct E as [E|E]; [injection E as <- <-; discriminate|]); destruct E.
Qed.

Lemma type_cases p t : WF p -> declared_type p t -> kind_of p t.
Proof.
  intros W [B|[->|[[s S]|[e E]]]].
  - pose proof B as B0; apply num_of_base in B as [k K].
    pose proof (num_of_size t k K) as N.
    eapply ko_num; [exact K|unfold mem; now rewrite N|..].
    + apply String.eqb_neq; intros ->; discriminate.
    + apply lookup_None; intro H; apply in_map_iff in H as ([x e] & E0 & I); cbn in E0; subst x.
      destruct (enum_not_num p W t e I) as (A & _); congruence.
    + destruct (lookup t (p_structs p)) as [s|] eqn:L; [|reflexivity].
      apply lookup_In in L; destruct (declares_names p t s W (or_introl L)) as (A & _); contradiction.
  - apply ko_str; [reflexivity|..].
    + apply lookup_None; intro H; apply in_map_iff in H as ([x e] & E & I); cbn in E; subst.
      destruct (enum_not_num p W _ e I) as (_ & A & _); congruence.
    + destruct (lookup _ (p_structs p)) as [s|] eqn:L; [|reflexivity].
      apply lookup_In in L; destruct (declares_names p _ s W (or_introl L)) as (_ & A & _); congruence.
  - destruct (declares_not_num p W t s (or_introl S)) as (A & B & C).
    eapply ko_struct; [exact A|now apply num_of_mem|now apply String.eqb_neq| |].
    + apply lookup_None; intro H; apply in_map_iff in H as ([x e] & E & I); cbn in E; subst.
      now apply C in I.
    + apply In_lookup; [exact (wf_structs_nodup p W)|exact S].
  - destruct (enum_not_num p W t e E) as (A & B & _).
    destruct (enum_encoding_num p W t e E) as (k & K & NB & _).
    eapply ko_enum; [exact A|now apply num_of_mem|now apply String.eqb_neq|exact E| |exact K|exact NB].
    apply In_lookup; [exact (wf_enums_nodup p W)|exact E].
Qed.

(** The numeric types one by one. *)
Ltac num_cases K :=
  unfold num_of in K; apply lookup_In in K; cbn [In] in K;
  repeat (destruct K as [K|K]; [injection K as <- <-|]); [..|destruct K].

(** A pair of tables that gives every type its kind. *)
Ltac prim_tac :=
  let t := fresh "t" in
  intro t; unfold num_of; cbn [lookup];
  repeat (destruct (String.eqb t _); [reflexivity|]); reflexivity.

Lemma str_app_length a b : String.length (a +++ b) = (String.length a + String.length b)%nat.
Proof. induction a; cbn; auto. Qed.

Lemma replace_char_length a b s : String.length (replace_char a b s) = String.length s.
Proof. induction s; cbn; auto. Qed.

Lemma var_clean_length s : String.length (var_clean s) = String.length s.
Proof. unfold var_clean; now rewrite !replace_char_length. Qed.

Lemma replace_char_id a b s : ~ In a (str_chars s) -> replace_char a b s = s.
Proof.
  induction s as [|c s IH]; cbn; [reflexivity|]; intro N.
  destruct (Ascii.eqb_spec c a) as [->|]; [tauto|]; rewrite IH; tauto.
Qed.

Lemma var_clean_id s : ~ In "["%char (str_chars s) -> ~ In "]"%char (str_chars s) -> var_clean s = s.
Proof. intros A B; unfold var_clean; rewrite (replace_char_id _ _ s A); now apply replace_char_id. Qed.

Lemma str_app_cancel a b c : (a +++ c = b +++ c)%string -> a = b.
Proof.
  revert b; induction a as [|x a IH]; intros [|y b] E; auto.
  - exfalso; apply (f_equal String.length) in E; cbn in E; rewrite str_app_length in E; lia.
  - exfalso; apply (f_equal String.length) in E; cbn in E; rewrite str_app_length in E; lia.
  - cbn in E; injection E as -> E; f_equal; auto.
Qed.

(** A size type that is not 64 bits wide. *)
Lemma is_64_false t : ~ In t ["uint64"; "int64"]%string -> is_64 t = false.
Proof.
  intro H; unfold is_64; destruct (String.eqb_spec t "uint64"); [subst; cbn in H; tauto|].
  destruct (String.eqb_spec t "int64"); [subst; cbn in H; tauto|reflexivity].
Qed.

(** An unsigned size type has no negative numbers. *)
Lemma unsigned_min t k : unsigned_type t -> num_of t = Some k -> num_min k = 0.
Proof.
  intros U K; cbn in U; repeat (destruct U as [<-|U]; [injection K as <-; reflexivity|]); destruct U.
Qed.

(** A list length that was read is in the range of its type. *)
Definition len_read (p : protocol) (z : Z) : Prop :=
  exists k, num_of (p_list_size_type p) = Some k /\ num_min k <= z <= num_max k.

Lemma plain_text_decoded s : plain_text s -> strip_bom (utf8_lossy s) = s.
Proof.
  intros [U N]; rewrite (utf8_lossy_id s U).
  unfold strip_bom.
  destruct s as [|a [|b [|c r]]]; try reflexivity; try (destruct a; reflexivity); try (destruct a; try reflexivity; destruct b; reflexivity).
  destruct a; try reflexivity; destruct b; try reflexivity; destruct c; try reflexivity.
  exfalso; now apply (N r).
Qed.

(** ** Fresh objects *)

Section Fresh.
Variable p : protocol.
Hypothesis W : WF p.
Variable init : nat -> string -> list (string * val).
Variable def : nat -> var -> val.
Hypothesis INIT : forall d t s, declares p t s ->
  init (S d) t = map (fun m => (v_name m, def d m)) (s_members s).

(** A default value for each kind of type. *)
Definition default_ok (d : nat) (t : string) (v : val) : Prop :=
  (forall k, num_of t = Some k -> v = match k with NBool => VBool false | _ => VInt 0 end) /\
  (t = "string"%string -> v = VStr []) /\
  (forall e n z r, lookup t (p_enums p) = Some e -> e_values e = (n, z) :: r -> v = VInt z) /\
  (forall s, lookup t (p_structs p) = Some s -> v = VStruct (init d t)).

Definition zero_of (k : num) : val := match k with NBool => VBool false | _ => VInt 0 end.

(** One case for each kind of type. *)
Lemma default_num d t k : num_of t = Some k -> String.eqb t "string" = false ->
  lookup t (p_enums p) = None -> lookup t (p_structs p) = None -> default_ok d t (zero_of k).
Proof.
  intros K S E L; apply String.eqb_neq in S.
  repeat split; [|congruence|rewrite E; discriminate|rewrite L; discriminate].
  intros k' K'; rewrite K in K'; injection K' as <-; reflexivity.
Qed.
Lemma default_str d : lookup "string" (p_enums p) = None -> lookup "string" (p_structs p) = None ->
  default_ok d "string" (VStr []).
Proof. intros E L; repeat split; [intros k K; discriminate|rewrite E; discriminate|rewrite L; discriminate]. Qed.
Lemma default_enum d t e n z r : num_of t = None -> String.eqb t "string" = false -> In (t, e) (p_enums p) ->
  lookup t (p_enums p) = Some e -> e_values e = (n, z) :: r -> default_ok d t (VInt z).
Proof.
  intros K S I E EV; apply String.eqb_neq in S.
  repeat split; [rewrite K; discriminate|congruence| |].
  - intros e' n' z' r'; rewrite E; intros H; injection H as <-; rewrite EV; intros H; now injection H as _ -> _.
  - intros s L; exfalso; destruct (enum_not_num p W t e I) as (_ & _ & X); apply (X s); left; now apply lookup_In.
Qed.
Lemma default_struct d t s : num_of t = None -> String.eqb t "string" = false -> lookup t (p_enums p) = None ->
  lookup t (p_structs p) = Some s -> default_ok d t (VStruct (init d t)).
Proof.
  intros K S E L; apply String.eqb_neq in S.
  repeat split; [rewrite K; discriminate|congruence|rewrite E; discriminate].
Qed.

Hypothesis DEF : forall d t s m, declares p t s -> In m (s_members s) ->
  if v_list m then def d m = VList [] else default_ok d (v_type m) (def d m).

Lemma init_fresh : forall d t s, declares p t s -> fits_any p d t = true -> fresh p t (VStruct (init d t)).
Proof.
  induction d as [|d IH]; intros t s D F; destruct (fits_any_members p _ t s W D F) as (d' & E & FM);
    [discriminate|injection E as <-].
  apply fr_struct with (s := s); [exact D|]; rewrite (INIT d t s D).
  assert (G : forall ms, incl ms (s_members s) -> Forall2 (fun m f => fst f = v_name m /\
      ((v_list m = true /\ snd f = VList []) \/ (v_list m = false /\ fresh p (v_type m) (snd f))))
    ms (map (fun m => (v_name m, def d m)) ms)).
  2:{ apply G, incl_refl. }
  induction ms as [|m ms IHm]; intro Inc; [constructor|]; cbn [map].
  constructor; [|apply IHm; intros x X; apply Inc; now right].
  assert (I : In m (s_members s)) by (apply Inc; now left).
  cbn [fst snd]; split; [reflexivity|].
  specialize (DEF d t s m D I); destruct (v_list m); [left; auto|right; split; [reflexivity|]].
  destruct DEF as (D1 & D2 & D3 & D4).
  destruct (type_cases p (v_type m) W (wf_member_types p W t s m D I)) as [k K M S E _| E1 E _|e k K M S IE E KE _|s' K M S E L].
  - rewrite (D1 k K); now constructor.
  - rewrite (D2 E1), E1; constructor.
  - destruct (wf_enum_values p W _ e IE) as [NE _].
    destruct (e_values e) as [|[n z] r] eqn:EV; [now contradiction NE|].
    rewrite (D3 e n z r E EV); econstructor; eassumption.
  - rewrite (D4 s' L); apply (IH _ s').
    + left; now apply lookup_In.
    + now apply FM.
Qed.
End Fresh.

Lemma strings_any v : strings any_text v.
Proof.
  induction v using val_ind2; constructor; auto; try exact I.
  - intros w I; rewrite Forall_forall in H; now apply H.
  - intros n w I; rewrite Forall_forall in H; exact (H _ I).
Qed.

(** What is in a struct of fixed size. *)
Lemma simple_fixed_members p t s : WF p -> declares p t s -> is_simple p t = true ->
  fixed_members p (s_members s) (size_of p t).
Proof.
  intros W D SI.
  assert (K : known_type p t) by (destruct D as [D|D]; [left; right; right; left|right]; eexists; eassumption).
  pose proof (is_simple_fixed p t W K SI) as F.
  destruct (declares_not_num p W t s D) as (A & _ & C).
  inversion F as [? ? B|? e ? E|? st ? D' M]; subst.
  - apply base_size_In, num_of_base in B as [k B]; congruence.
  - now apply C in E.
  - now rewrite (declares_unique p t s st W D D').
Qed.
Lemma fixed_members_list p ms n m : fixed_members p ms n -> In m ms -> v_list m = false.
Proof. induction 1; intros []; subst; auto. Qed.

Lemma declares_name p t s : WF p -> declares p t s -> s_name s = t.
Proof. intros W [D|D]; [apply (wf_struct_entry p W) in D|apply (wf_message_entry p W) in D]; tauto. Qed.

Lemma fixed_member_type p ms n m : fixed_members p ms n -> In m ms -> exists k, fixed_size p (v_type m) k.
Proof. induction 1; intros []; subst; eauto. Qed.
