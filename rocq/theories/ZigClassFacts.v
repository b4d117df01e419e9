(** The file for Zig has the programs of Zig.v. *)
From Coq Require Import Lia.
From Verif Require Export ZigSyntaxFacts.
Open Scope string_scope.
Open Scope Z_scope.
Open Scope list_scope.

Section Classes.
Variable p : protocol.
Variable g : settings.
Hypothesis T : text_ok p.
Hypothesis EN : forall t e, lookup t (p_enums p) = Some e -> ~ In t (base_types ++ ["string"]) /\ e_name e = t.
Hypothesis ML : forall s lvl ls z, declares p (s_name s) s -> is_simple p (s_name s) = false ->
  measure zig_style p (depth_of p) lvl s MRoot = Some (ls, z) -> (1 <? List.length ls)%nat = true.
Hint Resolve zgt_types_ok zgt_types_base zgt_types_name zgt_gen_measurement_ok zgt_destructor_nested zgt_member_size : text.

Lemma zgx_initial m : declared_type p (v_type m) -> v_list m = false ->
  match lookup (v_type m) zgt_defaults with
  | Some d => lit d
  | None => if mem (v_type m) (p_enums p) then
              e <- get_enum p (v_type m) ;; [| e_name e; "."; default_name e |]
            else [| v_type m; "{}" |]
  end = Ret (zig_initial p m).
Proof.
  intros D L; unfold zig_initial; rewrite L; destruct (number_or_not (v_type m)) as [[B _]|[K _]].
  - generalize dependent (v_type m); intros t _ B; cbn in B; repeat (destruct B as [<-|B]; [reflexivity| ]); destruct B.
  - rewrite K; destruct (String.eqb (v_type m) "string") eqn:E; [apply String.eqb_eq in E; rewrite E; reflexivity| ].
    destruct (lookup (v_type m) zgt_defaults) as [d| ] eqn:LD.
    { exfalso; apply lookup_In, (in_map fst) in LD; cbn in LD.
      repeat (destruct LD as [LD|LD]; [rewrite <- LD in K, E; discriminate| ]); destruct LD. }
    unfold mem, get_enum, item, default_name; destruct (lookup (v_type m) (p_enums p)) as [e| ] eqn:LE; [ |same_text].
    destruct (EN _ _ LE) as [_ NE]; destruct (tk_enums p T _ _ (lookup_In _ _ _ LE)) as [_ V].
    cbv [pbind]; rewrite NE; unfold get_default_pair; destruct (e_values e) as [ |[a b] r]; [congruence| ].
    cbn [hd_error of_option pbind pcat lit str_of fst]; same_text.
Qed.
Lemma zgx_field n m : declared_type p (v_type m) ->
  exactly n
    (if (v_list m) then
         line [| v_name m; ": []"; zgt_types p (v_type m); " = &.{}," |]
       else given (match lookup (v_type m) zgt_defaults with
                   | Some d => lit d
                   | None => if mem (v_type m) (p_enums p) then
                               e <- get_enum p (v_type m) ;; [| e_name e; "."; default_name e |]
                             else [| v_type m; "{}" |]
                   end) (fun default_value =>
           line [| v_name m; ": "; zgt_types p (v_type m); " = "; default_value; "," |]))
    [(n, cat [v_name m; ": "; (if v_list m then "[]" else ""); zig_type_name (v_type m); " = "; zig_initial p m; ","])] n.
Proof.
  intro D; rewrite (zgx_types p) by exact D; destruct (v_list m) eqn:L.
  - unfold exactly, zig_initial; rewrite L; same_text.
  - eapply exactly_given; [exact (zgx_initial m D L)|unfold exactly; same_text].
Qed.

Lemma zgx_unused_from lvl (ms : list var) :
  exactly lvl (when (Z.of_nat (List.length ms) =? 0) (block [line "_ = offset;"; line "_ = buffer;"]))
    (match ms with [] => [(lvl, "_ = offset;"); (lvl, "_ = buffer;")] | _ => [] end) lvl.
Proof. destruct ms; reflexivity. Qed.
Lemma zgx_unused_write lvl (ms : list var) (b : bool) :
  exactly lvl (when (Z.of_nat (List.length ms) =? 0) (block [line "_ = self;"; when (negb b) (line "_ = offset;")]))
    (match ms with [] => [(lvl, "_ = self;")] ++ (if b then [] else [(lvl, "_ = offset;")]) | _ => [] end) lvl.
Proof. destruct ms, b; reflexivity. Qed.
Lemma zgx_build lvl s : exactly lvl (each (s_members s) (fun m => line [| "."; v_name m; " = "; s_name s; "_"; v_name m; "," |]))
  (map (fun b => (lvl, cat ["."; fst b; " = "; snd b; ","])) (map (fun m => (v_name m, zig_local s m)) (s_members s))) lvl.
Proof.
  rewrite map_map; apply exactly_map; intros m _; unfold exactly, zig_local; same_text.
Qed.
Lemma zgx_last s : is_simple p (s_name s) = false ->
  (match last (zig_reader p s) RIllTyped with RBuild l => l | _ => [] end) = map (fun m => (v_name m, zig_local s m)) (s_members s).
Proof. intro SI; unfold zig_reader; rewrite SI; cbv zeta; now rewrite last_last. Qed.

Lemma zgx_release n m :
  exactly n (zgt_destructor p m "self.") (flat_map (zig_dstmt n "") (zig_release p m)) n.
Proof.
  unfold zgt_destructor, zgt_destructor_with, zig_release, zig_release_one, var_is_simple, exactly; cbn [v_name v_type v_list].
  destruct (v_list m), (is_simple p (v_type m)) eqn:SI; cbn [negb andb when orb]; try (destruct (String.eqb (v_type m) "string"));
    cbn [negb flat_map app zig_dstmt zig_lvalue]; compute_text; rewrite ?level_back; same_text.
Qed.

Ltac fit :=
  rewrite ?level_back; cbn [app cat fold_right]; rewrite <- ?app_assoc, ?app_nil_s; cbn [app]; rewrite <- ?app_assoc; reflexivity.
Lemma zgx_struct n s size : declares p n s -> gen_size zig_style p 0 s = Some size ->
  steps 0 (zgt_gen_struct p g n s) (zig_class p g s) 0.
Proof.
  intros D GS; pose proof (tk_name p T n s D) as N; subst n.
  unfold zig_class; cbv zeta; rewrite GS; cbn [app].
  unfold zgt_gen_struct, zig_fields_text; cbv zeta; cbn [app]. piece 3%nat.
  { eapply exactly_eq;
    [exact_piece; apply exactly_map; intros m I; apply zgx_field; eapply (tk_types p T); eassumption
    |cbn [app]; rewrite <- ?app_assoc, ?app_nil_r; reflexivity
    |reflexivity]. }
  assert (PO : s_is_message s = true -> exists i, position (s_name s) (map fst (p_messages p)) = Ret i /\
                 tag_of (s_name s) (zig_tags p) = Some (i + 1)).
  { intro M; destruct (good_position (s_name s) (map fst (p_messages p)) (tk_message p T _ s D M)) as [i PO].
    exists i; split; [exact PO|unfold zig_tags; exact (position_tag _ _ i 1 PO)]. }
  destruct (is_simple p (s_name s)) eqn:SI; cbn [negb andb when].
  - walk_to "pub fn getSizeInBytes(self: *const ".
    assert (GZ : get_size_of p (s_name s) = Ret (size_of p (s_name s))).
    { apply (simple_size p T); [eapply known_declares; eassumption|exact SI]. }
    rewrite GZ; piece 5%nat.
    { unfold zig_size_text; rewrite (zgx_size_simple p g _ s size D SI GS).
      eapply exactly_eq; [exact_piece|fit|reflexivity]. }
    walk_to "pub fn fromBytes("; piece 12%nat.
    { unfold zig_from_bytes_text; cbv zeta.
      destruct (zgx_reads_at p T _ s (1 + 1) D SI) as (ls & E & ->).
      eapply exactly_eq; [exact_piece; [apply zgx_unused_from|exact E|apply zgx_build]|unfold zig_build_text; fit|reflexivity]. }
    destruct (s_is_message s) eqn:M; cbn [negb when]; walk_to "pub fn writeBytes(self: *const ".
    + destruct (PO eq_refl) as (i & PI & TI); flatten 3%nat; inside 7%nat PI; piece 13%nat.
      { unfold zig_write_bytes_text; cbv zeta; rewrite M, TI; cbn [andb negb].
        eapply exactly_eq; [exact_piece; [apply (zgx_unused_write _ _ true)|apply (zgx_writes p T EN true 1 _ s (1 + 1) D); congruence]|fit|reflexivity]. }
      walk.
    + piece 7%nat.
      { unfold zig_write_bytes_text; cbv zeta; rewrite M; cbn [andb negb].
        eapply exactly_eq; [exact_piece; [apply (zgx_unused_write _ _ false)|apply (zgx_writes_at p T _ s (1 + 1) D SI M)]|fit|reflexivity]. }
      walk.
  - walk_to "pub fn getSizeInBytes(self: *const ".
    destruct (zgx_size p g T ML _ s size D SI GS) as (ml & mz & EM & ES); inside 2%nat EM; piece 7%nat.
    { unfold zig_size_text; rewrite ES, !at_lvl_app.
      eapply exactly_eq; [exact_piece; apply exactly_when; compute_text; reflexivity|fit|reflexivity]. }
    walk_to "pub fn fromBytes("; flatten 3%nat; piece 13%nat.
    { unfold zig_from_bytes_text; cbv zeta; rewrite (zgx_last s SI).
      eapply exactly_eq; [exact_piece; [apply zgx_unused_from|apply (zgx_reads p T EN _ s (1 + 1) D SI)|apply zgx_build]|unfold zig_build_text; fit|reflexivity]. }
    destruct (s_is_message s) eqn:M; cbn [negb when]; walk_to "pub fn writeBytes(self: *const ".
    + destruct (PO eq_refl) as (i & PI & TI); flatten 3%nat; flatten 4%nat; inside 6%nat PI; piece 13%nat.
      { unfold zig_write_bytes_text; cbv zeta; rewrite M, TI; cbn [andb negb].
        eapply exactly_eq; [exact_piece; [apply (zgx_unused_write _ _ true)|apply (zgx_writes p T EN false (-1) _ s (1 + 1) D); congruence]|fit|reflexivity]. }
      walk_to "pub fn deinit(self: *"; piece 5%nat; [eapply exactly_eq; [exact_piece; apply exactly_each; intros m _; apply zgx_release|unfold zig_deinit_text; fit|reflexivity]| ]; walk.
    + flatten 3%nat; piece 9%nat.
      { unfold zig_write_bytes_text; cbv zeta; rewrite M; cbn [andb negb].
        eapply exactly_eq; [exact_piece; [apply (zgx_unused_write _ _ false)|apply (zgx_writes p T EN false (-1) _ s (1 + 1) D); congruence]|fit|reflexivity]. }
      walk_to "pub fn deinit(self: *"; piece 5%nat; [eapply exactly_eq; [exact_piece; apply exactly_each; intros m _; apply zgx_release|unfold zig_deinit_text; fit|reflexivity]| ]; walk.
Qed.

Lemma zgx_enum n e : In (n, e) (p_enums p) -> steps 0 (zgt_gen_enum p n e) [zig_enum_text 0 n e] 0.
Proof.
  intro I; destruct (tk_enums p T _ _ I) as [B _].
  unfold zgt_gen_enum, zig_enum_text; rewrite (zgx_types p _ (or_introl B)); piece 5%nat.
  { eapply exactly_eq;
    [exact_piece; apply (exactly_map _ _ _ (fun v => (0 + 1, cat [fst v; " = "; str_of_Z (snd v); ","]))); intros [v z] _; compute_text; reflexivity
    |rewrite ?level_back; compute_text; rewrite ?app_nil_s; reflexivity|reflexivity]. }
  walk.
Qed.
Lemma zgx_each n (f : string -> string) (fp : string -> ptext) (l : list (string * struct)) :
  (forall x, fp x = Ret (f x)) ->
  exactly n (each (map fst l) (fun x => line (fp x))) (map (fun t => (n, f (snd t))) (count_from 0 l)) n.
Proof.
  intro F; rewrite <- (each_name_one (fun x => (n, f x))); apply exactly_map; intros x _; rewrite F; reflexivity.
Qed.
Ltac text_is := intro; compute_text; rewrite ?app_nil_s; reflexivity.
Lemma zgx_dispatch n (l : list (string * struct)) : (forall m s, In (m, s) l -> declares p m s) ->
  exactly n (each l (fun '(mname, mdata) =>
      block [
        line [| "."; mname; " => {" |];
        indent;
        (if is_simple p (s_name mdata) then
           line [| "const msg_read = try "; mname; ".fromBytes(local_offset, buffer);" |]
         else line [| "const msg_read = try "; mname; ".fromBytes(allocator, local_offset, buffer);" |]);
        line "local_offset += msg_read.bytes_read;";
        line [| "try msg_list.append(Message{ ."; mname; " = msg_read.value });" |];
        dedent;
        line "},"]))
    (flat_map (fun t =>
     [(n, cat ["."; snd t; " => {"]);
      (n + 1, cat ["const msg_read = try "; snd t; ".fromBytes("; (if is_simple p (snd t) then "" else "allocator, "); "local_offset, buffer);"]);
      (n + 1, "local_offset += msg_read.bytes_read;");
      (n + 1, cat ["try msg_list.append(Message{ ."; snd t; " = msg_read.value });"]);
      (n, "},")]) (count_from 0 l)) n.
Proof.
  intro D; rewrite <- (each_name (fun t =>
     [(n, cat ["."; t; " => {"]);
      (n + 1, cat ["const msg_read = try "; t; ".fromBytes("; (if is_simple p t then "" else "allocator, "); "local_offset, buffer);"]);
      (n + 1, "local_offset += msg_read.bytes_read;");
      (n + 1, cat ["try msg_list.append(Message{ ."; t; " = msg_read.value });"]);
      (n, "},")])).
  rewrite !flat_map_concat_map, map_map, <- flat_map_concat_map.
  apply exactly_each; intros [m s] I; rewrite (tk_name p T m s (D m s I)); cbn [fst].
  unfold exactly; destruct (is_simple p m); same_text.
Qed.
Lemma zgx_generate : steps 0 (zgt_generate p g) (zig_file p g) 0.
Proof.
  unfold zgt_generate, zig_file; cbv zeta; cbn [app]; rewrite flat_map_app.
  assert (LE : steps 0 (each (p_enums p) (fun '(ename, e) => zgt_gen_enum p ename e))
                 (map (fun e => zig_enum_text 0 (fst e) (snd e)) (p_enums p)) 0).
  { rewrite <- flat_map_map_one; apply steps_all; intros [n e] I; now apply zgx_enum. }
  assert (LC : forall l, (forall n s, In (n, s) l -> declares p n s) ->
                 steps 0 (each l (fun '(n, s) => zgt_gen_struct p g n s))
                 (flat_map (fun s => zig_class p g (snd s)) l) 0).
  { intros l D; apply steps_all; intros [n s] I.
    destruct (gen_size_defined zig_style p T 0 n s (D n s I)) as [size GS]; apply (zgx_struct n s size); auto. }
  pose proof (LC (p_structs p) (fun n s I => or_introl I)) as LS.
  pose proof (LC (p_messages p) (fun n s I => or_intror I)) as LM; clear LC.
  unfold zig_messages_text, zig_switch; cbn [app].
  walk_to "pub const MessageType = enum(u8) {"; over; walk_to "pub const MessageType = enum(u8) {"; over; walk_to "pub const MessageType = enum(u8) {".
  piece 5%nat; [eapply exactly_eq; [exact_piece; apply (zgx_each _ (fun x => cat [x; ","])); text_is|fit|reflexivity]| ].
  walk_to "pub const Message = union(MessageType) {"; piece 3%nat;
    [eapply exactly_eq; [exact_piece; apply (zgx_each _ (fun x => cat [x; ": "; x; ","])); text_is|rewrite app_nil_r; fit|reflexivity]| ].
  walk_to "pub fn getSizeInBytes(self: @This()) usize {"; piece 9%nat;
    [eapply exactly_eq; [exact_piece; apply (zgx_each _ (fun x => cat ["."; x; " => self."; x; ".getSizeInBytes(),"])); text_is|fit|reflexivity]| ].
  walk_to "pub fn writeBytes(self: @This(), offset: usize, buffer: []u8, tag: bool) usize {"; piece 9%nat;
    [eapply exactly_eq; [exact_piece; apply (zgx_each _ (fun x => cat ["."; x; " => self."; x; ".writeBytes(offset, buffer, tag),"])); text_is|fit|reflexivity]| ].
  walk_to "const msg_type: MessageType = std.meta.intToEnum(MessageType, msg_type_byte - 1) catch return DataReaderError.InvalidData;"; piece 6%nat;
    [eapply exactly_eq; [exact_piece; apply (zgx_dispatch 3); intros m s I; now right|fit|reflexivity]| ].
  walk. (eapply steps_cons; [apply LE| ]); (eapply steps_cons; [apply LS| ]).
  rewrite <- (app_nil_r (flat_map _ (p_messages p))); (eapply steps_cons; [apply LM| ]); walk.
Qed.
End Classes.
