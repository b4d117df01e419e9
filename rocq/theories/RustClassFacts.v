(** The file for Rust has the programs of Rust.v. *)
From Coq Require Import Lia.
From Verif Require Export RustSyntaxFacts.
Open Scope string_scope.
Open Scope Z_scope.
Open Scope list_scope.

Section Classes.
Variable p : protocol.
Variable g : settings.
Hypothesis T : text_ok p.
Hypothesis EN : forall t e, lookup t (p_enums p) = Some e -> ~ In t (base_types ++ ["string"]) /\ e_encoding e <> "bool".
Hypothesis LB : p_list_size_type p <> "bool".
Hint Resolve rst_types_ok rst_types_base rst_types_name rst_gen_measurement_ok : text.
Notation prefix := (match g_namespace g with Some n => n | None => "Beschi" end).

Lemma rsx_field n m : declared_type p (v_type m) ->
  exactly n
    (if (v_list m) then
         (if rst_maps p (v_type m) then
            line [| "pub "; v_name m; ": Vec<"; rst_types p (v_type m); ">," |]
          else line [| "pub "; v_name m; ": Vec<"; v_type m; ">," |])
       else if rst_maps p (v_type m) then
         line [| "pub "; v_name m; ": "; rst_types p (v_type m); "," |]
       else if mem (v_type m) (p_enums p) then
         given (get_enum p (v_type m)) (fun e => line [| "pub "; v_name m; ": "; v_type m |])
       else line [| "pub "; v_name m; ": "; v_type m; "," |])
    [(n, cat ["pub "; v_name m; ": ";
              (if v_list m then cat ["Vec<"; rs_type_name (v_type m); ">"] else rs_type_name (v_type m)); ","])] n.
Proof.
  intro D; rewrite (rsx_types p), (rsx_maps p) by exact D.
  unfold exactly; destruct (v_list m); same_text.
Qed.

Ltac field_piece :=
  eapply exactly_eq;
    [exact_piece; apply exactly_map; intros m I; apply rsx_field; eapply (tk_types p T); eassumption
    |cbn [app]; rewrite <- ?app_assoc, ?app_nil_r; reflexivity
    |rewrite ?level_back; reflexivity].
Lemma rsx_build s : (match last (rs_reader p s) RIllTyped with RBuild l => l | _ => [] end) = map (fun m => (v_name m, v_name m)) (s_members s).
Proof. unfold rs_reader; now rewrite last_last. Qed.
Lemma rsx_names (ms : list var) :
  map (fun b => if String.eqb (fst b) (snd b) then fst b else cat [fst b; ": "; snd b]) (map (fun m => (v_name m, v_name m)) ms) = map v_name ms.
Proof. rewrite map_map; apply map_ext; intro m; cbn [fst snd]; now rewrite String.eqb_refl. Qed.
Lemma rsx_struct n s size : declares p n s -> gen_size rs_style p 0 s = Some size ->
  steps 0 (rst_gen_struct p g n s) (rs_class p prefix g s) 0.
Proof.
  intros D GS; destruct (rsx_size p g T n s size D GS) as (ml & mz & EM & ES).
  pose proof (tk_name p T n s D) as N.
  unfold rs_class; rewrite GS, rsx_build.
  unfold rst_gen_struct, rs_fields_text, rs_from_bytes_text, rs_write_bytes_text, rs_size_text; cbv zeta; rewrite N, ES, rsx_names.
  replace (if Z.of_nat (List.length (s_members s)) =? 0 then lit "_" else lit "")
    with (lit match s_members s with [] => "_" | _ :: _ => "" end) by (destruct (s_members s); reflexivity).
  cbn [app]; piece 6%nat; [field_piece| ].
  destruct (s_is_message s) eqn:M; walk_to "fn get_size_in_bytes(&self) -> usize {"; inside 2%nat EM; (piece 7%nat;
    [eapply exactly_eq;
        [exact_piece; apply exactly_when; compute_text; reflexivity
        |rewrite !at_lvl_app, <- !app_assoc, ?level_back; reflexivity
        |rewrite ?level_back; reflexivity]| ]); walk_to "fn from_bytes("; flatten 3%nat; (piece 6%nat;
    [eapply exactly_eq; [exact_piece; apply (rsx_reads p T EN LB _ _ _ D)
       |rewrite ?level_back; cbn [app]; rewrite <- ?app_assoc; reflexivity|reflexivity]| ]).
  - destruct (good_position n (map fst (p_messages p)) (tk_message p T n s D M)) as [i PO].
    unfold rs_tags; rewrite (position_tag n _ i 1 PO).
    walk_to "fn write_bytes(&self, writer: &mut Vec<u8>, tag: bool) {"; inside 4%nat PO; piece 12%nat.
    { eapply exactly_eq; [exact_piece; apply (rsx_writes p T EN LB _ _ _ D)
       |rewrite ?level_back; cbn [app cat fold_right]; rewrite <- ?app_assoc, ?app_nil_s; reflexivity|reflexivity]. }
    rewrite ?level_back; walk.
  - walk_to "pub fn write_bytes(&self, writer: &mut Vec<u8>) {"; piece 7%nat.
    { eapply exactly_eq; [exact_piece; apply (rsx_writes p T EN LB _ _ _ D)
       |rewrite ?level_back; cbn [app cat fold_right]; rewrite <- ?app_assoc, ?app_nil_s; reflexivity|reflexivity]. }
    rewrite ?level_back; walk.
Qed.

Lemma rsx_enum n e : In (n, e) (p_enums p) -> steps 0 (rst_gen_enum p g n e) [rs_enum_text prefix 0 n e] 0.
Proof.
  intro I; destruct (tk_enums p T _ _ I) as [B V].
  assert (DN : default_name e = Ret (match get_default_pair e with Some (d, _) => d | None => "" end)).
  { unfold default_name, get_default_pair; destruct (e_values e) as [ |[a b] r]; [congruence|reflexivity]. }
  unfold rst_gen_enum, rs_enum_text; rewrite (rsx_types p _ (or_introl B)), DN.
  piece 30%nat.
  { eapply exactly_eq;
    [exact_piece;
      [apply (exactly_map _ _ _ (fun v => (0 + 1, cat [fst v; " = "; str_of_Z (snd v); ","]))); intros [v z] _; compute_text; rewrite ?app_nil_s; reflexivity
      |apply (exactly_map _ _ _ (fun v => (0 + 3, cat [str_of_Z (snd v); " => Ok("; n; "::"; fst v; "),"]))); intros [v z] _; compute_text; rewrite ?app_nil_s; reflexivity]
    |rewrite ?level_back; compute_text; rewrite ?app_nil_s; reflexivity|reflexivity]. }
  walk.
Qed.
Lemma rsx_cases n first (f : string -> string) (fp : string -> ptext) last (l : list (string * struct)) :
  (forall x, fp x = Ret (f x)) ->
  exactly n (block [line (lit first); indent; each (map fst l) (fun x => line (fp x)); dedent; line (lit last)])
    (rs_cases n first (fun t => f (snd t)) (count_from 1 l) last) n.
Proof.
  intro F; unfold rs_cases; rewrite <- (each_name_one (fun x => (n + 1, f x))).
  eapply exactly_eq;
    [exact_piece; apply (exactly_map _ _ _ (fun x => (n + 1, f x))); intros x _; rewrite F; reflexivity
    |rewrite ?level_back; reflexivity|apply level_back].
Qed.
Lemma rsx_match n head (f : string -> string) (fp : string -> ptext) (l : list (string * struct)) :
  (forall x, fp x = Ret (f x)) ->
  exactly n (block [line (lit head); indent; line "match self {"; indent; each (map fst l) (fun x => line (fp x)); dedent; line "}"; dedent; line "}"])
    ((n, head) :: rs_cases (n + 1) "match self {" (fun t => f (snd t)) (count_from 1 l) "}" ++ [(n, "}")]) n.
Proof.
  intro F; unfold rs_cases; rewrite <- (each_name_one (fun x => (n + 1 + 1, f x))).
  eapply exactly_eq;
    [exact_piece; apply (exactly_map _ _ _ (fun x => (n + 1 + 1, f x))); intros x _; rewrite F; reflexivity
    |rewrite ?level_back; cbn [app]; rewrite <- ?app_assoc; reflexivity|rewrite ?level_back; reflexivity].
Qed.
Ltac text_is := intro; compute_text; rewrite ?app_nil_s; reflexivity.
Lemma rsx_generate : steps 0 (rst_generate p g) (rs_file p g) 0.
Proof.
  unfold rst_generate, rs_file, rs_messages_text; cbv zeta; cbn [app]; rewrite flat_map_app.
  assert (LE : steps 0 (each (p_enums p) (fun '(ename, e) => rst_gen_enum p g ename e))
                 (map (fun e => rs_enum_text prefix 0 (fst e) (snd e)) (p_enums p)) 0).
  { rewrite <- flat_map_map_one; apply steps_all; intros [n e] I; now apply rsx_enum. }
  assert (LC : forall l, (forall n s, In (n, s) l -> declares p n s) ->
                 steps 0 (each l (fun '(n, s) => rst_gen_struct p g n s))
                 (flat_map (fun s => rs_class p prefix g (snd s)) l) 0).
  { intros l D; apply steps_all; intros [n s] I.
    destruct (gen_size_defined rs_style p T 0 n s (D _ _ I)) as [size GS]; eapply rsx_struct; eauto. }
  pose proof (LC (p_structs p) (fun n s I => or_introl I)) as LS.
  pose proof (LC (p_messages p) (fun n s I => or_intror I)) as LM; clear LC.
  walk_to "pub enum MessageType {"; over; over; walk_to "pub enum MessageType {"; unfold rs_tags; piece 5%nat.
  { apply (rsx_cases 0 _ (fun x => cat [x; ","])); text_is. }
  walk_to "pub enum Message {"; piece 5%nat.
  { apply (rsx_cases 0 _ (fun x => cat [x; "("; x; "),"])); text_is. }
  walk_to "fn get_message_type(&self) -> MessageType {"; piece 9%nat.
  { apply (rsx_match 1 _ (fun x => cat ["Message::"; x; "(_) => MessageType::"; x; ","])); text_is. }
  walk_to "fn get_size_in_bytes(&self) -> usize {"; piece 9%nat.
  { apply (rsx_match 1 _ (fun x => cat ["Message::"; x; "(msg) => msg.get_size_in_bytes(),"])); text_is. }
  walk_to "fn from_bytes(reader: &mut BufferReader) -> Result<Message, "; piece 13%nat.
  { rewrite <- (each_number (fun t => (3, cat [str_of_Z (fst t); " => Message::"; snd t; "("; snd t; "::from_bytes(reader)?),"]))).
    eapply exactly_eq;
      [exact_piece; apply (exactly_map _ _ _ (fun x => (3, cat [str_of_Z (fst x + 1); " => Message::"; snd x; "("; snd x; "::from_bytes(reader)?),"])));
       intros [i k] _; compute_text; reflexivity
      |rewrite ?level_back; compute_text; rewrite ?app_nil_s; reflexivity|reflexivity]. }
  walk_to "fn write_bytes(&self, writer: &mut Vec<u8>, tag: bool) {"; piece 9%nat.
  { apply (rsx_match 1 _ (fun x => cat ["Message::"; x; "(msg) => msg.write_bytes(writer, tag),"])); text_is. }
  walk. 
  (eapply steps_cons; [apply LE| ]); (eapply steps_cons; [apply LS| ]).
  rewrite <- (app_nil_r (flat_map _ (p_messages p))); (eapply steps_cons; [apply LM| ]); walk.
Qed.
End Classes.
