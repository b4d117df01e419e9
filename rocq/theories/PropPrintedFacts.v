(** Proofs for PropPrinted.v. *)
From Verif Require Export LangSpec LangSampleFacts PropProtocolFacts PropNestingFacts.
From Verif Require Export TypeScriptClassFacts CSharpClassFacts SwiftClassFacts RustClassFacts ZigClassFacts GoClassFacts CClassFacts.
Open Scope string_scope.
Open Scope Z_scope.
Open Scope list_scope.

(** No type that is declared has the name of a type that the language has. *)
Lemma declared_name p n s : accepted p -> declares p n s -> ~ In n (base_types ++ ["string"]).
Proof.
  intros A D I; destruct (wf_names p (accepted_WF p A) n) as (_ & _ & N).
  { destruct D as [D|D]; [left|right; left]; now exists s. }
  apply N; cbn in I |- *; repeat (destruct I as [<-|I]; [cbn; tauto| ]); destruct I.
Qed.
Lemma enum_name p t e : accepted p -> lookup t (p_enums p) = Some e -> ~ In t (base_types ++ ["string"]).
Proof.
  intros A L I; destruct (wf_names p (accepted_WF p A) t) as (_ & _ & N).
  { right; right; exists e; now apply lookup_In. }
  apply N; cbn in I |- *; repeat (destruct I as [<-|I]; [cbn; tauto| ]); destruct I.
Qed.
Lemma declared_mapping p n s more : accepted p -> declares p n s -> (forall t, In t (map fst more) -> In t (base_types ++ ["string"])) ->
  mapping p more n = Ret n.
Proof.
  intros A D M; pose proof (declared_name p n s A D) as N; unfold mapping.
  destruct (lookup n more) eqn:L; [exfalso; apply N, M; apply in_map_iff; eexists; split; [ |apply (lookup_In _ _ _ L)]; reflexivity| ].
  destruct (String.eqb n "string") eqn:E; [apply String.eqb_eq in E; now subst| ].
  replace (in_strs n (declared_names p)) with true; [reflexivity|symmetry; apply in_strs_true].
  unfold declared_names; rewrite !in_app_iff.
  destruct D as [D|D]; [left|right; left]; apply in_map_iff; eexists; split; [ |exact D| |exact D]; reflexivity.
Qed.

Lemma typescript_printed p g : accepted p -> prints (tst_generate p g false) (ts_file p g false).
Proof.
  intro A; apply steps_prints, tsx_generate; [apply accepted_text, A| ].
  intros n s D; apply (declared_mapping p n s _ A D); cbn; intros t; tauto.
Qed.
Lemma assemblyscript_printed p g : accepted p -> prints (tst_generate p g true) (ts_file p g true).
Proof.
  intro A; apply steps_prints, tsx_generate; [apply accepted_text, A| ].
  intros n s D; apply (declared_mapping p n s _ A D); cbn; intros t; tauto.
Qed.
Lemma csharp_printed p g : accepted p -> prints (cst_generate p g) (cs_file p g).
Proof.
  intro A; pose proof (accepted_WF p A) as W; apply steps_prints, csx_generate; [apply accepted_text, A| | ].
  - intros n s D; exact (wf_member_nodup p W n s D).
  - intros n s D; exact (find_declares p W n s D).
Qed.
Lemma swift_printed p g : accepted p -> prints (swt_generate p g) (sw_file p g).
Proof.
  intro A; apply steps_prints, swx_generate; [apply accepted_text, A|intros t e; apply enum_name, A].
Qed.
Lemma enum_plain p t e : accepted p -> lookup t (p_enums p) = Some e -> e_encoding e <> "bool".
Proof.
  intros A L E; apply lookup_In in L; destruct (wf_enum_encoding p (accepted_WF p A) t e L) as [[F _]|[[F _]|[F _]]]; congruence.
Qed.
Lemma list_size_plain p : accepted p -> p_list_size_type p <> "bool".
Proof.
  intros A E; pose proof (wf_list_size p (accepted_WF p A)) as I; rewrite E in I; cbn in I; intuition discriminate.
Qed.
Lemma rust_printed rename p g : accepted p -> prints (rst_generate (rs_protocol rename p) g) (rs_file (rs_protocol rename p) g).
Proof.
  intro A; pose proof (accepted_text p A) as X; apply steps_prints, rsx_generate.
  - unfold rs_protocol; destruct rename; [now apply text_ok_renamed|exact X].
  - replace (p_enums (rs_protocol rename p)) with (p_enums p) by now destruct rename.
    intros t e L; split; [now apply (enum_name p t e)|now apply (enum_plain p t e)].
  - replace (p_list_size_type (rs_protocol rename p)) with (p_list_size_type p) by now destruct rename.
    now apply list_size_plain.
Qed.
Lemma zig_measured p s lvl ls z : accepted p -> declares p (s_name s) s -> is_simple p (s_name s) = false ->
  measure zig_style p (depth_of p) lvl s MRoot = Some (ls, z) -> (1 <? List.length ls)%nat = true.
Proof.
  intros A D SI E; pose proof (accepted_WF p A) as W.
  assert (NS : no_shadow zig_style p).
  { intros lvl' t s' m i _ _ _ _ L; induction L; discriminate || assumption. }
  destruct (measure_ok zig_style p W strict NS (depth_of p) lvl _ s MRoot D) as (l & a & EM & _ & N & _);
    [apply (tk_fits p (accepted_text p A))|exact SI| ].
  rewrite EM in E; injection E as <- _; destruct l; [congruence|reflexivity].
Qed.
Lemma zig_printed p g : accepted p -> prints (zgt_generate p g) (zig_file p g).
Proof.
  intro A; apply steps_prints, zgx_generate; [apply accepted_text, A| |intros s lvl ls z; now apply zig_measured].
  intros t e L; split; [now apply (enum_name p t e)|exact (wf_enum_entry p (accepted_WF p A) t e (lookup_In _ _ _ L))].
Qed.
Lemma go_printed rename p g : accepted p -> prints (got_generate (go_protocol rename p) g) (go_file (go_protocol rename p) g).
Proof.
  intro A; pose proof (accepted_text p A) as X; apply steps_prints, gox_generate.
  - unfold go_protocol; destruct rename; [now apply text_ok_renamed|exact X].
  - replace (p_enums (go_protocol rename p)) with (p_enums p) by now destruct rename.
    intros t e L; now apply (enum_name p t e).
Qed.
Lemma no_line_feed : forall n, no_space n -> has_line_feed n = false.
Proof.
  induction n as [ |c n IH]; intro H; cbn [has_line_feed]; [reflexivity| ].
  rewrite IH by (intros x I; apply H; now right); rewrite orb_false_r.
  destruct (is_byte 10 c) eqn:E; [exfalso|reflexivity].
  apply (H c (or_introl eq_refl)); unfold is_byte in E; apply Nat.eqb_eq in E.
  unfold is_space; rewrite E; lia.
Qed.
Lemma no_index n : no_space n -> ~ In "]"%char (str_chars n) -> ct_idx_search n = None.
Proof.
  intros S B; unfold ct_idx_search; destruct (string_rev n "") as [ |c r] eqn:E; [reflexivity| ].
  assert (N : n = string_rev r "" +++ String c "").
  { rewrite <- (string_rev_rev n), E; cbn [string_rev]; apply string_rev_acc. }
  assert (I : In c (str_chars n)).
  { rewrite N; clear; induction (string_rev r "") as [ |x a IH]; cbn; [now left|right; exact IH]. }
  assert (NL : is_byte 10 c = false).
  { destruct (is_byte 10 c) eqn:Q; [exfalso|reflexivity]; unfold is_byte in Q; apply Nat.eqb_eq in Q.
    apply (S c I); unfold is_space; rewrite Q; lia. }
  rewrite NL. destruct (ascii_dec c "]"%char) as [->|NE]; [contradiction| ].
  destruct c as [[] [] [] [] [] [] [] []]; try reflexivity; congruence.
Qed.
Lemma c_printed p g : accepted p -> no_brackets p -> prints (ct_generate p g) (c_file p g).
Proof.
  intros A NB; pose proof (accepted_WF p A) as W; apply steps_prints, cx_generate; [apply accepted_text, A| | ].
  - intros t e L; split; [now apply (enum_name p t e)|exact (wf_enum_entry p W t e (lookup_In _ _ _ L))].
  - intros n s m D I; destruct (wf_member_names p W n s m D I) as [S _]; split; [now apply no_line_feed|apply no_index; [exact S|exact (NB n s m D I)]].
Qed.

(** A name that looks like that of an element. *)
Lemma in_order_all : forall q ls l x, in_order q ls -> In l q -> In x l -> In x ls.
Proof.
  induction q as [ |a q IH]; intros ls l x H I J; [destruct I| ]; destruct I as [->|I]; destruct H as (b & r & -> & H); rewrite !in_app_iff.
  - tauto.
  - right; right; eapply IH; eassumption.
Qed.
Definition bracket_toml : list (string * toml) :=
  [("meta", tab [("list_size_type", "byte"); ("string_size_type", "byte")]);
   ("messages", TArr [tab [("_name", "Note"); ("x[i3]", "string")]])].
Definition bracket : protocol :=
  MkProtocol None "byte" "byte" [] [("Note", MkStruct "Note" [MkVar "x[i3]" "string" false] true)] [].
Lemma bracket_accepted : accepted bracket.
Proof. accepted_tac bracket_toml. Qed.
Lemma out_line_dec (a b : out_line) : {a = b} + {a <> b}.
Proof. decide equality; [apply string_dec|apply Z.eq_dec]. Defined.
Definition no_settings : settings :=
  {| g_namespace := None; g_tab := ""; g_embed := false; g_source := ""; g_flag := false; g_files := fun _ => [] |}.
Lemma c_brackets : exists p g, accepted p /\ ~ prints (ct_generate p g) (c_file p g).
Proof.
  exists bracket, no_settings; split; [exact bracket_accepted|intros (ls & E & H)].
  assert (I : In (1, "err = beschi_ReadString(r, &(dst->x[i3]), &(dst->x[i3]_len));") ls).
  { eapply in_order_all; [exact H| | ].
    - apply (nth_error_In _ 16); vm_compute; reflexivity.
    - apply (nth_error_In _ 3); vm_compute; reflexivity. }
  assert (N : match ct_generate bracket no_settings 0 with
              | Ret (ls, _) => if in_dec out_line_dec (1, "err = beschi_ReadString(r, &(dst->x[i3]), &(dst->x[i3]_len));") ls then true else false
              | _ => false
              end = false) by (vm_compute; reflexivity).
  rewrite E in N; destruct (in_dec _ _ ls); [discriminate|contradiction].
Qed.
Lemma annotated_plain : no_brackets annotated.
Proof.
  intros n s m [D|D] I; cbn in D; repeat (destruct D as [E|D]; [injection E as <- <-; cbn in I| ]); try destruct D;
    repeat (destruct I as [<-|I]; [cbn; intuition discriminate| ]); destruct I.
Qed.
