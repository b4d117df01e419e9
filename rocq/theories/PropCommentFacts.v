From Verif Require Import CommentSpec CommentFacts LangSampleFacts.
Open Scope string_scope.
Open Scope list_scope.

Definition same_code (lang : string) (p : protocol) (g : settings) : bool :=
  match generated (g_tab g) (generate lang p (embedding false g)), generated (g_tab g) (generate lang p (embedding true g)) with
  | Ret plain, Ret full => String.eqb (code_of lang full) (code_of lang plain)
  | _, _ => true
  end.

Lemma embeds_same_code lang p g : embeds lang p g -> same_code lang p g = true.
Proof. intros (a & b & E1 & E2 & E & _); unfold same_code; rewrite E1, E2, E; apply String.eqb_refl. Qed.

(** Settings without boilerplate files. *)
Definition embedded_source (s : string) : settings :=
  {| g_namespace := None; g_tab := "  "; g_embed := true; g_source := s; g_flag := false; g_files := fun _ => [] |}.

Lemma comment_end lang : In lang writers -> lang <> "zig" ->
  exists p g, accepted p /\ ~ embeds lang p g.
Proof.
  intros I N; exists notes, (embedded_source "# */"); split; [exact notes_accepted| ].
  intro H; apply embeds_same_code in H; revert H.
  cbn [In writers] in I; repeat (destruct I as [<-|I]); [..|destruct I]; try congruence; vm_compute; discriminate.
Qed.

Lemma no_comment_end : ~ inside "*/" "# /*".
Proof.
  intros (a & b & E).
  repeat (destruct a as [ |? a]; cbn [append] in E; [discriminate|injection E as _ E]); destruct a; discriminate.
Qed.

Lemma comment_start lang : In lang ["swift"; "rust"] ->
  exists p g, accepted p /\ ~ inside "*/" (g_source g) /\ ~ embeds lang p g.
Proof.
  intro I; exists notes, (embedded_source "# /*"); split; [exact notes_accepted|split; [exact no_comment_end| ]].
  intro H; apply embeds_same_code in H; revert H.
  cbn [In] in I; repeat (destruct I as [<-|I]); [..|destruct I]; vm_compute; discriminate.
Qed.

Definition notes_source : string :=
  "[[messages]]" +++ line_feed +++ "_name = ""Note"" # // a note" +++ line_feed +++ "body = ""string""" +++ line_feed.

Lemma inside_first a x b : inside (String a x) b -> In a (str_chars b).
Proof. intros (u & v & ->); induction u as [ |c u IH]; [now left|right; exact IH]. Qed.

Lemma notes_fit lang : fits_comment lang notes_source.
Proof.
  split; intros _ H.
  - apply inside_first in H; revert H; vm_compute; intuition discriminate.
  - destruct H as (u & v & E).
    assert (S : In "*"%char (str_chars notes_source)).
    { rewrite E; clear E; induction u as [ |c u IH]; [right; now left|right; exact IH]. }
    revert S; vm_compute; intuition discriminate.
Qed.
