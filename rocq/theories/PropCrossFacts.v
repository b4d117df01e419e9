(** Lemmas for PropCross.v. *)
From Verif Require Export Cross PropTypeScriptFacts PropCSharpFacts PropSwiftFacts PropRustFacts PropGoFacts
  PropAssemblyScriptFacts PropZigFacts PropCFacts.
Open Scope string_scope.
Open Scope Z_scope.
Open Scope list_scope.

(** ** Renaming *)

Lemma rename_lists f P v : lists P v -> lists P (rename_val f v).
Proof.
  intro H; induction H as [| | | |l L _ IH|fs _ IH]; try (constructor; assumption); cbn [rename_val].
  - apply ls_list; [now rewrite map_length|]; intros v I; apply in_map_iff in I as (v' & <- & I); auto.
  - apply ls_struct; intros n v I; apply in_map_iff in I as ([n' v'] & E & I); injection E as <- <-; eauto.
Qed.

(** The protocol with the names that the code uses. *)
Definition printed (c : code) (p : protocol) : protocol :=
  match c with RustCode r => rs_protocol r p | GoCode r => go_protocol r p | _ => p end.

Lemma renamed_plain c ms : match c with RustCode true | GoCode true => False | _ => True end ->
  map (renamed_message c) ms = ms.
Proof.
  intro H; rewrite <- (map_id ms) at 2; apply map_ext; intros [t v]; destruct c as [| | |[]|[]| | |]; try easy; destruct H.
Qed.

Section Names.
Variable c : code.
Variable p : protocol.
Notation q := (printed c p).

Lemma printed_wire md t v bs : wire_in md p t v bs -> wire_in md q t (renamed c v) bs.
Proof. destruct c; try easy; [apply rs_same_wire|apply go_same_wire]. Qed.
Lemma printed_declares t s : declares p t s -> exists s', declares q t s'.
Proof. destruct c as [| | |[]|[]| | |]; eauto; intro D; eexists; apply rename_declares; eauto. Qed.
Lemma printed_tagged md m bs : wire_tagged md p m bs -> wire_tagged md q (renamed_message c m) bs.
Proof. destruct c as [| | |[]|[]| | |]; try (now destruct m); apply rename_tagged. Qed.
Lemma printed_stream md ms bs : wire_stream md p ms bs -> wire_stream md q (map (renamed_message c) ms) bs.
Proof.
  intro H; destruct c as [| | |[]|[]| | |]; try (rewrite renamed_plain; [exact H|exact I]); now apply rename_stream.
Qed.
Lemma printed_packed md ms bs : wire_packed md p ms bs -> wire_packed md q (map (renamed_message c) ms) bs.
Proof.
  intro H; destruct c as [| | |[]|[]| | |]; try (rewrite renamed_plain; [exact H|exact I]); now apply rename_packed.
Qed.
Lemma renamed_keeps e v : keeps c e p v -> keeps c e p (renamed c v).
Proof. destruct c as [| | |[]|[]| | |]; try easy; [apply rename_strings|apply rename_lists]. Qed.
Lemma renamed_all e ms : all_values (keeps c e p) ms -> all_values (keeps c e p) (map (renamed_message c) ms).
Proof. intro A; apply Forall_map; revert A; apply Forall_impl; intros [t v]; apply renamed_keeps. Qed.
End Names.

(** ** Each language *)

Lemma cross_sends c p t s v bs : accepted p -> can_write c p -> declares p t s -> wire p t v bs -> sends c p t v bs.
Proof.
  intros A K D WI; pose proof (accepted_WF p A) as W; destruct c; cbn [sends can_write] in *.
  - exact (ts_writer_fills p W (ts_compiles_32 p K) t s v bs D WI).
  - exact (cs_writer_appends p W (cs_compiles_not_64 p K) t s v bs D WI).
  - exact (sw_writer_appends p W t s v bs D WI).
  - destruct (printed_declares (RustCode rename) p t s D) as (s' & D').
    exact (rs_use rename p _ (fun W L C => rs_writer_appends (rs_protocol rename p) W C) A K t s' _ bs D' (printed_wire (RustCode rename) p _ t v bs WI)).
  - destruct (printed_declares (GoCode rename) p t s D) as (s' & D').
    exact (go_use rename p _ (fun W C => go_writer_appends (go_protocol rename p) W C) A K t s' _ bs D' (printed_wire (GoCode rename) p _ t v bs WI)).
  - exact (as_writer_fills p W (as_compiles_32 p K) t s v bs D WI).
  - destruct K as (N & K); destruct K as (O & Z).
    exact (zig_use p _ (fun W C => zig_writer_fills (fun _ => 0) p W C) A N O Z t s v bs D WI).
  - intros fs SF; exact (c_use p _ (fun W C => c_fills p W C) A K t s fs v bs D SF WI).
Qed.

Lemma cross_sends_tagged c p m bs : accepted p -> can_write c p -> wire_tagged strict p m bs -> sends_tagged c p m bs.
Proof.
  intros A K WI; pose proof (accepted_WF p A) as W; destruct c; cbn [sends_tagged can_write] in *.
  - exact (ts_tagged_fills p W (ts_compiles_32 p K) m bs WI).
  - exact (cs_tagged_appends p W (cs_compiles_not_64 p K) m bs WI).
  - exact (sw_tagged_appends p W m bs WI).
  - exact (rs_use rename p _ (fun W L C => rs_tagged_appends (rs_protocol rename p) W C) A K _ bs (printed_tagged (RustCode rename) p _ m bs WI)).
  - exact (go_use rename p _ (fun W C => go_tagged_appends (go_protocol rename p) W C) A K _ bs (printed_tagged (GoCode rename) p _ m bs WI)).
  - exact (as_tagged_fills p W (as_compiles_32 p K) m bs WI).
  - destruct K as (N & K); destruct K as (O & Z).
    exact (zig_use p _ (fun W C => zig_tagged_fills (fun _ => 0) p W C) A N O Z m bs WI).
  - intros fs SF; exact (c_use p _ (fun W C => c_tag_fills p W C) A K m fs bs SF WI).
Qed.

Lemma cross_sends_packed c p ms bs : accepted p -> can_write c p -> wire_packed strict p ms bs -> sends_packed c p ms bs.
Proof.
  intros A K WI; pose proof (accepted_WF p A) as W; pose proof (printed_packed c p _ ms bs WI) as WJ.
  destruct c; cbn [sends_packed can_write printed] in *.
  - exact (ts_packs p W (ts_compiles_32 p K) ms bs WI).
  - exact (cs_packs p W (cs_compiles_not_64 p K) ms bs WI).
  - exact (sw_packs p W ms bs WI).
  - exact (rs_use rename p _ (fun W L C => rs_packs (rs_protocol rename p) W C) A K _ bs WJ).
  - exact (go_use rename p _ (fun W C => go_packs (go_protocol rename p) W C) A K _ bs WJ).
  - exact (as_packs p W (as_compiles_32 p K) ms bs WI).
  - destruct K as (N & K); destruct K as (O & Z).
    exact (zig_use p _ (fun W C => zig_packs (fun _ => 0) p W C) A N O Z ms bs WI).
  - intros fss old after F L; exact (c_use p _ (fun W C => c_packs p W C) A K fss ms bs old after WI F L).
Qed.

Section Reads.
Variable c : code.
Variable e : world.
Variable p : protocol.
Hypothesis A : accepted p.
Hypothesis K : can_read c e p.

Lemma cross_reads_back : reads_back (printed c p) (keeps c e p) (read_in c e p).
Proof.
  pose proof (accepted_WF p A) as W; destruct c; cbn [keeps read_in can_read printed] in *.
  - exact (ts_reads_back (w_namespace e) p W (ts_compiles_32 p K) []).
  - exact (cs_reads_back (w_namespace e) p W (cs_compiles_not_64 p K)).
  - exact (sw_reads_back (w_strip e) p W).
  - exact (rs_use rename p _ (fun W L C => rs_reads_back (rs_protocol rename p) W L C) A K).
  - destruct K as (N & M & R).
    exact (go_use rename p _ (fun W C => go_reads_back (w_room e) (go_protocol rename p) W C) A N M R).
  - destruct K as (N & M & R); exact (as_reads_back (w_lossy e) (w_room e) p W (as_compiles_32 p N) M R).
  - destruct K as (N & U & F & R).
    exact (zig_use_reads p _ (fun W C R => zig_reads_back (w_room e) p W C R) A N U F R).
  - exact (c_use p _ (fun W C => c_reads_back (w_machine e) p W C (w_block e)) A K).
Qed.
Lemma cross_reads_streams : reads_streams (printed c p) (keeps c e p) (process_in c e p).
Proof.
  pose proof (accepted_WF p A) as W; destruct c; cbn [keeps process_in can_read printed] in *.
  - exact (ts_reads_streams (w_namespace e) p W (ts_compiles_32 p K) []).
  - exact (cs_reads_streams (w_namespace e) p W (cs_compiles_not_64 p K)).
  - exact (sw_reads_streams (w_strip e) p W).
  - exact (rs_use rename p _ (fun W L C => rs_reads_streams (rs_protocol rename p) W L C) A K).
  - destruct K as (N & M & R).
    exact (go_use rename p _ (fun W C => go_reads_streams (w_room e) (go_protocol rename p) W C) A N M R).
  - destruct K as (N & M & R); exact (as_reads_streams (w_lossy e) (w_room e) p W (as_compiles_32 p N) M R).
  - destruct K as (N & U & F & R).
    exact (zig_use_reads p _ (fun W C R => zig_reads_streams (w_room e) p W C R) A N U F R).
  - exact (c_use p _ (fun W C => c_reads_streams (w_machine e) p W C (w_block e)) A K).
Qed.

Lemma unpacks_weaker q Q most most' least up : most' <= most -> unpacks q Q most up -> unpacks_from least q Q most' up.
Proof. intros L U ms bs before after WP AV LE _; apply U; auto; lia. Qed.
Lemma cross_unpacks : unpacks_from (match c with AssemblyScriptCode => 12 | _ => 0 end)
  (printed c p) (keeps c e p) (2 ^ 31 - 1) (unpack_in c e p).
Proof.
  pose proof (accepted_WF p A) as W; destruct c; cbn [keeps unpack_in can_read printed] in *.
  1: eapply unpacks_weaker; [|exact (ts_unpacks (w_namespace e) p W (ts_compiles_32 p K) [])]; lia.
  1: eapply unpacks_weaker; [|exact (cs_unpacks (w_namespace e) p W (cs_compiles_not_64 p K))]; lia.
  1: eapply unpacks_weaker; [|exact (sw_unpacks (w_strip e) p W)]; lia.
  1: eapply unpacks_weaker; [|exact (rs_use rename p _ (fun W L C => rs_unpacks (rs_protocol rename p) W L C) A K)]; lia.
  1: destruct K as (N & M & R); eapply unpacks_weaker;
     [|exact (go_use rename p _ (fun W C => go_unpacks (w_room e) (go_protocol rename p) W C) A N M R)]; lia.
  1: destruct K as (N & M & R); intros ms bs before after WP AV LE LEN;
     apply (as_unpacks (w_lossy e) (w_room e) p W (as_compiles_32 p N) M R ms bs before after WP AV); [lia|exact LEN].
  1: destruct K as (N & U & F & R); eapply unpacks_weaker;
     [|exact (zig_use_reads p _ (fun W C R => zig_unpacks (w_room e) p W C R) A N U F R)]; lia.
  eapply unpacks_weaker; [|exact (c_use p _ (fun W C => c_unpacks (w_machine e) p W C (w_block e)) A K)]; lia.
Qed.

Lemma cross_receives t s v bs : declares p t s -> wire p t v bs -> keeps c e p v -> receives c e p t v bs.
Proof.
  intros D WI KE before after; destruct (printed_declares c p t s D) as (s' & D').
  apply (cross_reads_back strict t s' (renamed c v) bs before after); auto using printed_wire, renamed_keeps.
Qed.
Lemma cross_receives_stream ms bs : wire_stream strict p ms bs -> all_values (keeps c e p) ms ->
  receives_stream c e p ms bs.
Proof.
  intros WS KE before.
  apply (cross_reads_streams (map (renamed_message c) ms) bs before (-1)); auto using printed_stream, renamed_all; lia.
Qed.
Lemma cross_receives_packed ms bs : wire_packed strict p ms bs -> all_values (keeps c e p) ms ->
  Z.of_nat (List.length ms) < 2 ^ 31 -> receives_packed c e p ms bs.
Proof.
  intros WP KE LE before after L.
  apply (cross_unpacks (map (renamed_message c) ms) bs before after); auto using printed_packed, renamed_all.
  - rewrite map_length; lia.
  - destruct c; try apply Nat.le_0_l; now apply L.
Qed.
End Reads.

(** ** Encodings exist *)

Lemma message_encodes p m : accepted p -> encodable_message p m -> exists bs, wire_tagged strict p m bs.
Proof.
  destruct m as [t v]; intros A [(s & I) R]; cbn [fst snd] in *.
  apply (C09_encodable_proof p t v A) in R as (bs & WI).
  apply In_nth_error in I as (i & E); pose proof (numbered_at p t i s E) as N.
  destruct (numbered_range p t _ (accepted_WF p A) N) as [[L U] _].
  assert (X : 0 <= Z.of_nat (S i) < 256) by lia.
  exists (byte_of_Z (Z.of_nat (S i)) :: bs); econstructor; [exact N| |exact WI].
  rewrite Z_of_byte_of_Z; apply Z.mod_small; exact X.
Qed.
Lemma stream_encodes p ms : accepted p -> Forall (encodable_message p) ms ->
  exists bss, Forall2 (wire_tagged strict p) ms bss /\ wire_stream strict p ms (List.concat bss).
Proof.
  intros A F; induction F as [|m ms H _ (bss & F2 & WS)]; [exists []; split; constructor|].
  destruct (message_encodes p m A H) as (bs & WT); exists (bs :: bss); split; [now constructor|now constructor].
Qed.

(** ** C18 *)

Lemma C18_exchange e p t s v : accepted p -> declares p t s -> in_range p t v ->
  exists bs, (forall c, can_write c p -> sends c p t v bs) /\
    (forall c, can_read c e p -> keeps c e p v -> receives c e p t v bs).
Proof.
  intros A D R; apply (C09_encodable_proof p t v A) in R as (bs & WI); exists bs; split.
  - intros c K; exact (cross_sends c p t s v bs A K D WI).
  - intros c K KE; exact (cross_receives c e p A K t s v bs D WI KE).
Qed.

Lemma C18_streams e p ms : accepted p -> Forall (encodable_message p) ms ->
  exists bss, Forall2 (fun m bs => forall c, can_write c p -> sends_tagged c p m bs) ms bss /\
    forall c, can_read c e p -> all_values (keeps c e p) ms -> receives_stream c e p ms (List.concat bss).
Proof.
  intros A F; destruct (stream_encodes p ms A F) as (bss & F2 & WS); exists bss; split.
  - clear - A F2; induction F2 as [|m bs ms bss H _ IH]; constructor; [|exact IH].
    intros c K; exact (cross_sends_tagged c p m bs A K H).
  - intros c K KE; exact (cross_receives_stream c e p A K ms (List.concat bss) WS KE).
Qed.

Lemma packed_encodes p ms : accepted p -> Forall (encodable_message p) ms -> Z.of_nat (List.length ms) < 2 ^ 32 ->
  exists bs, wire_packed strict p ms bs.
Proof.
  intros A F L; destruct (stream_encodes p ms A F) as (bss & _ & WS).
  assert (O : num_ok NU32 (VInt (Z.of_nat (List.length ms)))) by (constructor; [discriminate|change (num_max NU32) with (2 ^ 32 - 1); change (num_min NU32) with 0; lia]).
  apply num_ok_wire in O as (nb & E).
  exists (header ++ nb ++ List.concat bss ++ [x00]); now constructor.
Qed.
Lemma C18_packed e p ms : accepted p -> Forall (encodable_message p) ms -> Z.of_nat (List.length ms) < 2 ^ 31 ->
  exists bs, (forall c, can_write c p -> sends_packed c p ms bs) /\
    forall c, can_read c e p -> all_values (keeps c e p) ms -> receives_packed c e p ms bs.
Proof.
  intros A F L; destruct (packed_encodes p ms A F) as (bs & WP); [lia|]; exists bs; split.
  - intros c K; exact (cross_sends_packed c p ms bs A K WP).
  - intros c K KE; exact (cross_receives_packed c e p A K ms bs WP KE L).
Qed.

(** An object in C for every value that fits. *)
Lemma C18_object e p t s v : accepted p -> declares p t s -> in_range p t v -> c_builds p -> c_fits (w_machine e) v ->
  exists fs, stands_for p t fs v.
Proof.
  intros A D R K F; apply (C09_encodable_proof p t v A) in R as (bs & WI).
  destruct (c_use p _ (fun W C => c_written_back (w_machine e) p W C 0%nat t s v bs [] [] D WI F) A K) as (c & _ & E & _).
  exists (c_fs c); now apply exactly_stands.
Qed.

(** The string of the documentation's example, as Zig writes it. *)
Lemma C18_bytes_differ : exists p t s v bs buf w',
  accepted p /\ declares p t s /\ in_range p t v /\ sends SwiftCode p t v bs /\
  zig_names p /\ numbers_only p /\
  zig_write_bytes p t v {| w_buf := buf; w_pos := 0 |} = WDone w' /\ firstn (w_pos w') (w_buf w') <> bs.
Proof.
  destruct C31_zig as (p & t & v & bs & buf & w' & A & N & _ & _ & O & (s & I) & WI & _ & E & NE).
  exists p, t, s, v, bs, buf, w'; assert (D : declares p t s) by now right.
  split; [exact A|]; split; [exact D|]; split; [apply (C09_encodable_proof p t v A); now exists bs|].
  split; [exact (cross_sends SwiftCode p t s v bs A Logic.I D WI)|]; auto.
Qed.
Lemma C18_values_differ : exists p t s v bs v',
  accepted p /\ declares p t s /\ in_range p t v /\ sends SwiftCode p t v bs /\
  size_types_32 p /\ utf8_modest v /\ v' <> v /\
  forall lossy, as_from_bytes lossy (fun _ => 2 ^ 28) p t bs 0 = ROk v' (List.length bs).
Proof.
  destruct C17_order as (p & t & v & bs & v' & A & S32 & (s & I) & WI & U & NE & E).
  exists p, t, s, v, bs, v'; assert (D : declares p t s) by now right.
  split; [exact A|]; split; [exact D|]; split; [apply (C09_encodable_proof p t v A); now exists bs|].
  split; [exact (cross_sends SwiftCode p t s v bs A Logic.I D WI)|]; auto.
Qed.

(** ** Photos in all languages *)

Definition somewhere : world := {|
  w_namespace := false; w_strip := false; w_lossy := fun bs => bs; w_room := fun _ => 2 ^ 28;
  w_machine := big; w_block := 0 |}.
Lemma photos_32 : size_types_32 photos.
Proof. split; intros [H|[H|[]]]; discriminate. Qed.
Lemma photos_written c : can_write c photos.
Proof.
  destruct photos_zig as (N & _ & _ & O & SS & _).
  destruct c; cbn [can_write]; auto using photos_32, photos_builds; try discriminate.
  - apply rust_names_ok; destruct rename; vm_compute; reflexivity.
  - apply go_names_ok; destruct rename; vm_compute; reflexivity.
Qed.
Lemma photos_readable c : c <> GoCode false -> can_read c somewhere photos.
Proof.
  intro H; destruct photos_zig as (N & U & F & _); assert (R : has_room (w_room somewhere)) by (intro; cbn; lia).
  destruct c; cbn [can_read]; auto using photos_32, photos_builds; try discriminate.
  - apply rust_names_ok; destruct rename; vm_compute; reflexivity.
  - destruct rename; [|congruence].
    split; [apply go_names_ok; vm_compute; reflexivity|]; split; [|exact R].
    intros t s m [I|[I|[]]] J; injection I as <- <-; destruct J as [<-|[<-|[]]]; vm_compute; lia.
  - split; [exact photos_32|]; split; [|exact R].
    intros t e k [E|[]] K; injection E as <- <-; injection K as <-; cbn; intuition lia.
Qed.
Lemma photo_kept c : keeps c somewhere photos photo.
Proof.
  destruct c; cbn [keeps]; try exact photo_value; try exact photo_fits.
  - unfold photo; strings_tac; apply plain_b; reflexivity.
  - unfold photo; strings_tac; apply short_b; reflexivity.
  - unfold photo; strings_tac; (split; [apply utf8_valid_spec; reflexivity|discriminate]).
  - unfold photo; strings_tac; apply utf8_valid_spec; reflexivity.
  - unfold photo; lists_tac.
  - split; unfold photo; [strings_tac; apply utf8_valid_spec; reflexivity|lists_tac].
Qed.
Lemma photo_declared_in : exists s, declares photos "Photo" s /\ in_range photos "Photo" photo.
Proof.
  destruct photo_declared as (s & D); exists s; split; [exact D|].
  apply (C09_encodable_proof photos "Photo" photo photos_accepted); exists photo_bytes; exact photo_wire.
Qed.
Lemma two_photos_encodable : Forall (encodable_message photos) two_photos.
Proof.
  assert (X : encodable_message photos ("Photo", photo)).
  { split; [eexists; left; reflexivity|]; now destruct photo_declared_in as (s & _ & R). }
  apply Forall_cons; [exact X|]; apply Forall_cons; [exact X|]; constructor.
Qed.
Lemma two_photos_kept c : all_values (keeps c somewhere photos) two_photos.
Proof. repeat (constructor; [exact (photo_kept c)|]); constructor. Qed.
