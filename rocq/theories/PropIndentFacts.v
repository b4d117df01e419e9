(** Lemmas for PropIndent.v. *)
From Verif Require Import IndentSpec IndentFacts CliSpec PropCliFacts LangSampleFacts.
Open Scope string_scope.
Open Scope Z_scope.
Open Scope list_scope.

Lemma both_texts lang t t' p g : accepted p -> In lang writers -> blanks t = true -> blanks t' = true ->
  exists s s', generated t (generate lang p (with_tab t g)) = Ret s /\
    generated t' (generate lang p (with_tab t' g)) = Ret s' /\ unindented s = unindented s'.
Proof.
  intros A I B B'; pose proof (all_texts lang t t' p g B B') as S.
  destruct (generate_nested lang p (with_tab t g) A I) as (ls & E & _).
  destruct (generate_nested lang p (with_tab t' g) A I) as (ls' & E' & _).
  unfold generated in *; rewrite E, E' in *; cbn [pbind fst] in *; eauto.
Qed.

(** Settings without boilerplate files. *)
Definition bare : settings :=
  {| g_namespace := None; g_tab := "  "; g_embed := false; g_source := ""; g_flag := false; g_files := fun _ => [] |}.
Definition text_of (r : pyres string) : string := match r with Ret s => String.concat line_feed (unindented s) | _ => "" end.
Lemma other_tabs lang : In lang writers -> exists p t t', accepted p /\ blanks t = true /\
  ~ same_text (generated t (generate lang p (with_tab t bare))) (generated t' (generate lang p (with_tab t' bare))).
Proof.
  intro I; exists notes, "  ", "//"; split; [exact notes_accepted|split; [reflexivity| ]].
  intro S; assert (E : String.eqb (text_of (generated "  " (generate lang notes (with_tab "  " bare))))
                       (text_of (generated "//" (generate lang notes (with_tab "//" bare)))) = true).
  { destruct (generated "  " _), (generated "//" _); cbn in S |- *; try contradiction; try reflexivity; rewrite S; apply String.eqb_refl. }
  clear S; revert E.
  cbn [In writers] in I; repeat (destruct I as [<-|I]); [..|destruct I]; vm_compute; discriminate.
Qed.
