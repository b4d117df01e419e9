(** C48: --embed-protocol adds nothing but a comment (model: Cli.v; specifications: CommentSpec.v, SplitSpec.v). *)
From Verif Require Import CommentSpec CommentFacts SplitSpec SplitFacts PropCommentFacts LangSampleFacts.
Open Scope string_scope.
Open Scope list_scope.

(** With and without --embed-protocol, both texts are generated, they are the same without comments
    and empty lines, and the lines of the protocol file are in the text - if the file does not end or
    start the comment.  (Missing: files that do.) *)
Theorem C48_embed_partial lang p g :
  In lang writers -> accepted p -> fits_comment lang (g_source g) -> embeds lang p g.
Proof. exact (embeds_all lang p g). Qed.
Print Assumptions C48_embed_partial.
Example C48_embed_partial_met :
  In "rust" writers /\ accepted notes /\ fits_comment "rust" (g_source (embedded_source notes_source)).
Proof. exact (conj (or_intror (or_intror (or_intror (or_intror (or_introl eq_refl))))) (conj notes_accepted (notes_fit "rust"))). Qed.

(** In Zig, whatever is in the file. *)
Theorem C48_zig_embed p g :
  accepted p -> embeds "zig" p g.
Proof. exact (zig_embeds p g). Qed.
Print Assumptions C48_zig_embed.
Example C48_zig_embed_met :
  accepted notes.
Proof. exact (notes_accepted). Qed.

(** In the other languages, the end of a comment in the file ends the comment: what follows is code. *)
Theorem C48_comment_end_refuted lang :
  In lang writers -> lang <> "zig" -> exists p g, accepted p /\ ~ embeds lang p g.
Proof. exact (comment_end lang). Qed.
Print Assumptions C48_comment_end_refuted.
Example C48_comment_end_refuted_met :
  In "c" writers /\ "c" <> "zig".
Proof. exact (conj (or_intror (or_introl eq_refl)) (fun E : "c" = "zig" => eq_ind "c" (fun s => if String.eqb s "c" then True else False) I "zig" E)). Qed.

(** In Swift and Rust, the start of a comment in the file needs an end of its own: the rest of the
    text is not code. *)
Theorem C48_comment_start_refuted lang :
  In lang ["swift"; "rust"] -> exists p g, accepted p /\ ~ inside "*/" (g_source g) /\ ~ embeds lang p g.
Proof. exact (comment_start lang). Qed.
Print Assumptions C48_comment_start_refuted.
Example C48_comment_start_refuted_met :
  In "swift" ["swift"; "rust"].
Proof. exact (or_introl eq_refl). Qed.

(** The lines of a file are all of it: with their line ends they make up the text, and no line feed is inside one. *)
Theorem C48_lines s :
  lines_of s (splitlines s) /\ forall l, In l (splitlines s) -> ~ In feed (str_chars l).
Proof. exact (splitlines_right s). Qed.
Print Assumptions C48_lines.
Example C48_lines_met :
  splitlines (byte_str [97; 13; 10; 10; 98; 194; 133; 99]%nat) = ["a"; ""; "b"; "c"].
Proof. exact (eq_refl). Qed.
