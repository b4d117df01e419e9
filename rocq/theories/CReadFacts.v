(** The readers of generated C code. *)
From Coq Require Import Permutation.
From Verif Require Export BlocksFacts CSpec StreamFacts LooseFacts CutFacts LangFacts.
Open Scope Z_scope.
Open Scope list_scope.

Lemma c_prim_num : forall t, c_prim t = num_of t.
Proof.
  intro t; unfold c_prim, c_type, prim, c_serializers, c_types, num_of; cbn [lookup].
  repeat (destruct (String.eqb t _); [reflexivity|]); reflexivity.
Qed.

Lemma c_type_num : forall t, c_type t = num_of t.
Proof. unfold c_type, prim, c_types; prim_tac. Qed.

(** ** Releasing *)

(** What the program for releasing does with a member of an object; [one] is the part for
    what is not a list. *)
Definition c_destroy_member (p : protocol) (one : string -> option cval -> option (list nat)) (fs : cfields) (m : var)
  : option (list nat) :=
  let n := v_name m in
  let t := v_type m in
  if v_list m then
    if is_simple p t then c_free (lookup n fs)
    else match c_int (c_len n) fs with
         | Some z =>
             oapp (oconcat (map (fun i => one t (c_get (LElem n) i fs)) (seq 0 (Z.to_nat z))))
               (oapp (if String.eqb t "string" then c_free (lookup (c_els_len n) fs) else Some [])
                     (c_free (lookup n fs)))
         | None => None
         end
  else one t (lookup n fs).
Fixpoint c_destroy_one (p : protocol) (d : nat) (t : string) (v : option cval) : option (list nat) :=
  if is_simple p t then Some []
  else if String.eqb t "string" then c_free v
  else match d, lookup t (p_structs p), v with
       | S d', Some s, Some (CStruct fs) => oconcat (map (c_destroy_member p (c_destroy_one p d') fs) (s_members s))
       | _, _, _ => None
       end.

Definition dgo (fs : cfields) (i : nat) : list dstmt -> option (list nat) :=
  fix go l := match l with [] => Some [] | a :: r => oapp (dexec_stmt a fs i) (go r) end.
Lemma dgo_app fs i : forall a b, dgo fs i (a ++ b) = oapp (dgo fs i a) (dgo fs i b).
Proof.
  induction a as [|x a IH]; intro b; cbn [List.app dgo]; [destruct (dgo fs i b); reflexivity|].
  fold (dgo fs i); rewrite IH; now rewrite oapp_assoc.
Qed.
Lemma dgo_flat {A} fs i (f : A -> list dstmt) : forall l, dgo fs i (flat_map f l) = oconcat (map (fun a => dgo fs i (f a)) l).
Proof. induction l as [|x l IH]; cbn [flat_map map oconcat]; [reflexivity|]. now rewrite dgo_app, IH. Qed.
Lemma dexec_go fs : forall l, dexec l fs = dgo fs 0 l.
Proof. induction l as [|x l IH]; cbn [dexec dgo]; [reflexivity|]. fold (dgo fs 0); now rewrite IH. Qed.
Lemma c_release_does p : forall d,
  (forall m fs i, dgo fs i (c_release p d m) = c_destroy_member p (c_destroy_one p d) fs m) /\
  (forall x t fs i, dgo fs i (c_release_one p (match d with S d' => Some (c_release p d') | O => None end) x t) =
     c_destroy_one p d t (c_get x i fs)).
Proof.
  assert (K : forall d,
    (forall x t fs i, dgo fs i (c_release_one p (match d with S d' => Some (c_release p d') | O => None end) x t) =
       c_destroy_one p d t (c_get x i fs)) ->
    forall m fs i, dgo fs i (c_release p d m) = c_destroy_member p (c_destroy_one p d) fs m).
  { intros d H m fs i; unfold c_destroy_member; destruct d; cbn [c_release]; cbv zeta;
      (destruct (v_list m); [|apply (H (LField (v_name m)))]);
      (destruct (is_simple p (v_type m)) eqn:S; [cbn [dgo dexec_stmt c_get]; apply oapp_nil_r|]);
      cbn [List.app dgo dexec_stmt c_get]; fold (dgo fs i);
      (destruct (c_int (c_len (v_name m)) fs) as [z|]; [|reflexivity]);
      (f_equal; [f_equal; apply map_ext; intro j; exact (H (LElem (v_name m)) (v_type m) fs j)|]);
      rewrite dgo_app; cbn [dgo dexec_stmt c_get]; rewrite oapp_nil_r;
      destruct (String.eqb (v_type m) "string"); cbn [dgo dexec_stmt c_get]; rewrite ?oapp_nil_r; reflexivity. }
  induction d as [|d [IHm IHo]].
  - assert (O1 : forall x t fs i, dgo fs i (c_release_one p None x t) = c_destroy_one p 0 t (c_get x i fs)).
    { intros x t fs i; unfold c_release_one; cbn [c_destroy_one]; destruct (is_simple p t); [reflexivity|].
      destruct (String.eqb t "string"); [cbn [dgo dexec_stmt]; apply oapp_nil_r|reflexivity]. }
    split; [exact (K O O1)|exact O1].
  - assert (O1 : forall x t fs i, dgo fs i (c_release_one p (Some (c_release p d)) x t) = c_destroy_one p (S d) t (c_get x i fs)).
    { intros x t fs i; unfold c_release_one; cbn [c_destroy_one]; destruct (is_simple p t); [reflexivity|].
      destruct (String.eqb t "string"); [cbn [dgo dexec_stmt]; apply oapp_nil_r|].
      destruct (lookup t (p_structs p)) as [s|]; [|reflexivity].
      cbn [dgo dexec_stmt]; rewrite oapp_nil_r; destruct (c_get x i fs) as [[]|]; try reflexivity.
      fold (dgo fs0 0); rewrite dgo_flat; f_equal; apply map_ext; intro m; apply IHm. }
    split; [exact (K (S d) O1)|exact O1].
Qed.
Lemma c_cleanup_does p s fs : c_cleanup p s fs = oconcat (map (c_destroy_member p (c_destroy_one p (depth_of p)) fs) (s_members s)).
Proof.
  unfold c_cleanup; rewrite dexec_go, dgo_flat; f_equal; apply map_ext; intro m; apply c_release_does.
Qed.

(** ** Executing statements *)

Section Exec.
Variable M : machine.
Variable p : protocol.
Variable inp : list byte.
Variable call : string -> nat -> nat -> cres cst.

Notation cexec := (cexec M p inp call).
Notation cexec_stmt := (cexec_stmt M p inp call).

Lemma cexec_app a b i s : cexec (a ++ b) i s = cbind (cexec a i s) (cexec b i).
Proof.
  revert s; induction a as [|x a IH]; intro s; cbn [List.app C.cexec]; [reflexivity|].
  destruct (cexec_stmt x i s); cbn [cbind]; auto.
Qed.
Lemma cexec_one a i s : cexec [a] i s = cexec_stmt a i s.
Proof. cbn [C.cexec]; destruct (cexec_stmt a i s); reflexivity. Qed.

Fixpoint cloop (body : list cstmt) (k j : nat) (s : cst) : cres cst :=
  match k with O => COk s | S k' => cbind (cexec body j s) (cloop body k' (S j)) end.

Lemma cexec_for n body i s z : c_int n (c_fs s) = Some z ->
  cexec_stmt (CFor n body) i s = cloop body (Z.to_nat z) 0 s.
Proof.
  intro E; cbn [C.cexec_stmt]; rewrite E; clear E; generalize (Z.to_nat z) as k, 0%nat as j.
  intros k; revert s; induction k as [|k IH]; intros s j; cbn [cloop]; [reflexivity|].
  match goal with |- cbind (?g body s) _ = _ => assert (G : forall l s, g l s = cexec l j s) end.
  { intro l; induction l as [|a l IHl]; intro s0; cbn [C.cexec]; [reflexivity|].
    destruct (cexec_stmt a j s0); cbn [cbind]; auto. }
  rewrite G; destruct (cexec body j s); cbn [cbind]; auto.
Qed.
End Exec.

Lemma c_int_num f fs z : lookup f fs = Some (CNum (VInt z)) -> c_int f fs = Some z.
Proof. intro E; unfold c_int; now rewrite E. Qed.

(** ** Sequences of options *)

Lemma collect_app {A B} (f : A -> option B) a b x y :
  collect f a = Some x -> collect f b = Some y -> collect f (a ++ b) = Some (x ++ y).
Proof.
  revert x; induction a as [|c a IH]; intros x E F; cbn in *; [now injection E as <-|].
  destruct (f c) as [v|]; [|discriminate]; destruct (collect f a) as [vs|]; [|discriminate].
  injection E as <-; now rewrite (IH vs eq_refl F).
Qed.
Lemma collect_ext {A B} (f g : A -> option B) l : (forall a, In a l -> f a = g a) -> collect f l = collect g l.
Proof. induction l as [|a l IH]; intro H; cbn; [reflexivity|]; rewrite H, IH; auto; [intros; apply H; now right|now left]. Qed.
Lemma collect_length {A B} (f : A -> option B) l r : collect f l = Some r -> List.length r = List.length l.
Proof.
  revert r; induction l as [|a l IH]; intros r; cbn; [now intros [= <-]|].
  destruct (f a); [|discriminate]; destruct (collect f l); [|discriminate]; intros [= <-]; cbn; now rewrite (IH l0).
Qed.

(** ** Which members matter *)

Lemma c_member_ext exact p sub m fs fs' : (forall n, In n (c_member_names m) -> lookup n fs' = lookup n fs) ->
  c_member exact p sub fs' m = c_member exact p sub fs m.
Proof.
  unfold c_member_names, c_member, c_list, c_int; cbv zeta; intro H; destruct (v_list m).
  - rewrite (H (c_len (v_name m))) by now left.
    rewrite (H (v_name m)) by (apply in_cons, in_or_app; right; now left).
    destruct (String.eqb (v_type m) "string"); [|reflexivity].
    rewrite (H (c_els_len (v_name m))) by (right; now left); reflexivity.
  - destruct (String.eqb (v_type m) "string").
    + rewrite (H (c_len (v_name m))) by (now left); rewrite (H (v_name m)) by (right; now left); reflexivity.
    + rewrite (H (v_name m)) by (now left); reflexivity.
Qed.

Lemma c_destroy_member_ext p one m fs fs' : (forall n, In n (c_member_names m) -> lookup n fs' = lookup n fs) ->
  c_destroy_member p one fs' m = c_destroy_member p one fs m.
Proof.
  unfold c_member_names, c_destroy_member, c_int; cbv zeta; intro H; destruct (v_list m).
  - rewrite (H (c_len (v_name m))) by now left.
    assert (X : lookup (v_name m) fs' = lookup (v_name m) fs) by (apply H, in_cons, in_or_app; right; now left).
    rewrite X.
    assert (Y : forall i, c_get (LElem (v_name m)) i fs' = c_get (LElem (v_name m)) i fs) by (intro; cbn [c_get]; now rewrite X).
    destruct (is_simple p (v_type m)); [reflexivity|].
    destruct (lookup (c_len (v_name m)) fs) as [[[]| | | | |]|]; try reflexivity.
    rewrite (oconcat_ext _ (fun i => one (v_type m) (c_get (LElem (v_name m)) i fs))) by (intros; now rewrite Y).
    destruct (String.eqb (v_type m) "string"); [|reflexivity].
    rewrite (H (c_els_len (v_name m))) by (right; now left); reflexivity.
  - destruct (String.eqb (v_type m) "string").
    + rewrite (H (v_name m)) by (right; now left); reflexivity.
    + rewrite (H (v_name m)) by (now left); reflexivity.
Qed.

Lemma own_name m : In (v_name m) (c_member_names m).
Proof.
  unfold c_member_names; destruct (v_list m); [apply in_cons, in_or_app; right; now left|].
  destruct (String.eqb (v_type m) "string"); cbn; auto.
Qed.

(** ** What the reader does, in the terms of Dec.v *)

Definition c_str (M : machine) (p : protocol) (inp : list byte) (pos : nat) : got (list byte) :=
  match num_of (p_string_size_type p) with
  | None => Crash
  | Some k =>
      match read_num k inp pos with
      | Got (VInt z) q =>
          match c_take M k inp q z with
          | TBytes data q' => Got (firstn (Z.to_nat z) data) q'
          | TEof | TNoMemory => Miss q
          | TBad => Crash
          end
      | _ => Miss pos
      end
  end.

(** A list of this length gets what it needs. *)
Definition c_len_fits (M : machine) (p : protocol) (t : string) (z : Z) : bool :=
  (0 <=? z) && (c_sizeof M t * z <? 2 ^ 64) &&
  (negb (String.eqb t "string") ||
   (mc_alloc M (c_bytes M (p_string_size_type p) z) && (c_sizeof M (p_string_size_type p) * z <? 2 ^ 64))).
Definition c_make (M : machine) (p : protocol) (t : string) (z : Z) : got unit :=
  if mc_alloc M (c_bytes M t z) then if c_len_fits M p t z then Got tt 0 else Crash else Miss 0.

Definition c_dec (M : machine) (p : protocol) : list byte -> nat -> string -> nat -> res val :=
  dec (c_str M) (c_make M p) only_declared p.

(** Every list length either fits or is refused. *)
Definition lens_ok (M : machine) (p : protocol) : Prop :=
  forall t z k, num_of (p_list_size_type p) = Some k -> num_min k <= z <= num_max k -> c_make M p t z <> Crash.

(** The C code goes along with the reference; [P] is about the final state. *)
Definition follows {A X} (lens : Prop) (r : res A) (P : A -> nat -> X -> Prop) (c : cres X) : Prop :=
  match r with
  | ROk a q => exists s, c = COk s /\ P a q s
  | RErr => exists s, c = CErr s
  | RTrap => lens -> c = CUB
  | _ => True
  end.

Lemma follows_bind {A B} lens (r : res A) (k : A -> nat -> res B) (P : A -> nat -> cst -> Prop) (Q : B -> nat -> cst -> Prop) c d :
  follows lens r P c -> (forall a q s, r = ROk a q -> P a q s -> follows lens (k a q) Q (d s)) ->
  follows lens (rbind r k) Q (cbind c d).
Proof.
  destruct r as [a q| | | |]; cbn [follows rbind]; auto.
  - intros (s & -> & H) K; cbn [cbind]; now apply K.
  - intros (s & ->) K; cbn [cbind]; eauto.
  - intros H K L; now rewrite (H L).
Qed.

Lemma follows_mono {A} lens (r : res A) (P Q : A -> nat -> cst -> Prop) c : follows lens r P c -> (forall a q s, r = ROk a q -> P a q s -> Q a q s) -> follows lens r Q c.
Proof. destruct r; cbn; auto; intros (s & -> & H) K; exists s; auto. Qed.

Section Run.
Variable M : machine.
Variable p : protocol.
Hypothesis W : WF p.
Hypothesis FIELDS : forall t s, declares p t s -> NoDup (c_field_names s).
Variable inp : list byte.

Notation dec := (c_dec M p inp).
Notation LENS := (lens_ok M p).

(** A struct or message has been read: the value; the blocks. *)
Definition filled (f : nat) (t : string) (s : struct) (next : nat) (v : val) (q : nat) (c : cst) : Prop :=
  c_pos c = q /\ c_value true p (S f) t (c_fs c) = Some v /\ (next <= c_next c)%nat /\
  (is_simple p t = true -> c_next c = next) /\
  (forall d, (f <= d)%nat -> exists ids,
     oconcat (map (c_destroy_member p (c_destroy_one p d) (c_fs c)) (s_members s)) = Some ids /\
     Permutation ids (blocks next (c_next c))) /\
  (forall y, ~ In y (flat_map c_member_names (s_members s)) -> lookup y (c_fs c) = lookup y (c_start p s)).

Definition call_fills (call : string -> nat -> nat -> cres cst) (fuel : nat) : Prop :=
  match fuel with
  | O => True
  | S f => forall t s pos next, declares p t s ->
      follows LENS (dec (S f) t pos) (filled f t s next) (call t pos next)
  end.

Section Code.
Variable fuel : nat.
Variable call : string -> nat -> nat -> cres cst.
Hypothesis CALL : call_fills call fuel.

Notation cexec := (cexec M p inp call).
Notation sub := (c_value true p fuel).
Notation cell := (c_cell p sub).

(** A cell that has been filled. *)
Definition cell_ok (t : string) (next : nat) (v : val) (c : cval) (next' : nat) : Prop :=
  cell t c = Some v /\ (next <= next')%nat /\
  (is_simple p t = true -> next' = next) /\
  (forall d, (fuel <= d)%nat -> exists ids, c_destroy_one p d t (Some c) = Some ids /\ Permutation ids (blocks next next')).

(** Assigning to [x] works. *)
Definition settable (x : clv) (i : nat) (fs : cfields) : Prop := forall c, exists fs', c_set x i c fs = Some fs'.

Definition assigned (x : clv) (i : nat) (t : string) (s : cst) (v : val) (q : nat) (s' : cst) : Prop :=
  exists c, c_set x i c (c_fs s) = Some (c_fs s') /\ c_pos s' = q /\ cell_ok t (c_next s) v c (c_next s').

Lemma simple_num t k : num_of t = Some k -> is_simple p t = true.
Proof.
  intro K; apply fixed_is_simple with (n := Z.of_nat (num_size k)); auto.
  - left; left; apply num_of_base; eauto.
  - constructor; now apply num_of_base_size.
Qed.
Lemma simple_enum t e : In (t, e) (p_enums p) -> is_simple p t = true.
Proof.
  intro B; destruct (enum_encoding_num p W t e B) as (k & K & _).
  apply fixed_is_simple with (n := Z.of_nat (num_size k)); auto.
  - left; right; right; right; exists e; exact B.
  - eapply fs_enum; [exact B|]; now apply num_of_base_size.
Qed.
Lemma string_not_simple : is_simple p "string" = false.
Proof.
  destruct (is_simple p "string") eqn:E; [|reflexivity]; exfalso.
  assert (K : known_type p "string") by (left; right; now left).
  pose proof (is_simple_fixed p _ W K E) as F.
  apply (proj1 (variable_not_known_fixed p W)) in F; apply F; constructor.
Qed.

Lemma simple_cell t next v c : is_simple p t = true -> cell t c = Some v -> cell_ok t next v c next.
Proof.
  intros S E; repeat split; auto; intros d _; exists []; rewrite blocks_none; split; [|constructor].
  destruct d; cbn [c_destroy_one]; now rewrite S.
Qed.

Lemma assign_ok x i c q n s : settable x i (c_fs s) -> exists s', c_assign x i c q n s = COk s' /\
  c_set x i c (c_fs s) = Some (c_fs s') /\ c_pos s' = q /\ c_next s' = n.
Proof. intro H; destruct (H c) as [fs E]; unfold c_assign; rewrite E; eexists; repeat split. Qed.

Lemma num_assigned x i t s v q : settable x i (c_fs s) -> is_simple p t = true -> lookup t (p_structs p) = None ->
  exists s', c_assign x i (CNum v) q (c_next s) s = COk s' /\ assigned x i t s v q s'.
Proof.
  intros SX S ES; destruct (assign_ok x i (CNum v) q (c_next s) s SX) as (s' & A & B & C & N).
  exists s'; split; [exact A|]; exists (CNum v); split; [exact B|]; split; [exact C|].
  rewrite N; apply simple_cell; [exact S|cbn [c_cell]; unfold mem; now rewrite ES].
Qed.

Lemma enum_no_struct t e : In (t, e) (p_enums p) -> lookup t (p_structs p) = None.
Proof.
  intro E; destruct (lookup t (p_structs p)) as [s|] eqn:L; [|reflexivity]; exfalso.
  destruct (enum_not_num p W t e E) as (_ & _ & X); apply (X s); left; now apply lookup_In.
Qed.

Lemma read_other x t i s : declared_type p t -> t <> "string"%string -> settable x i (c_fs s) ->
  follows LENS (dec fuel t (c_pos s)) (assigned x i t s) (cexec (c_read_one p x t) i s).
Proof.
  intros D NS SX; unfold c_read_one.
  destruct (type_cases p t W D) as [k K MN SS E ES| E1 E _|e k K MN SS IE E KE NB|st K MN SS E L]; [| contradiction | |];
    rewrite SS, E, ?MN, ?c_prim_num, ?K, ?KE; cbn [with_prim]; rewrite cexec_one.
  - assert (X : dec fuel t (c_pos s) = dec_num inp k (c_pos s)) by (unfold c_dec; destruct fuel; cbn [Dec.dec]; now rewrite K).
    rewrite X; unfold dec_num; cbn [cexec_stmt].
    destruct (read_num_cases k inp (c_pos s)) as [[v ->]| ->]; cbn [got_res follows]; [|eauto].
    apply num_assigned; auto; eapply simple_num; eassumption.
  - assert (X : dec fuel t (c_pos s) = dec_enum only_declared inp e (c_pos s)) by (unfold c_dec; destruct fuel; cbn [Dec.dec]; now rewrite K, SS, E).
    rewrite X; unfold dec_enum, dec_num; rewrite KE; cbn [cexec_stmt].
    destruct (read_num k inp (c_pos s)) as [v q| |] eqn:R; cbn [got_res rbind follows]; [|eauto|].
    + apply read_num_got in R as (bs & rest & _ & N & _); destruct (integral_vint _ _ _ _ NB N) as [z ->].
      rewrite E; unfold only_declared; destruct (existsb (Z.eqb z) (map snd (e_values e))); cbn [follows]; [|eauto].
      apply num_assigned; [exact SX|eapply simple_enum; eassumption|eapply enum_no_struct; eassumption].
    + unfold read_num in R; destruct (bytes_at _ _ _); discriminate.
  - destruct fuel as [|f] eqn:EF; [unfold c_dec; cbn [Dec.dec]; rewrite K, SS, E; destruct (find_struct p t); exact I|].
    cbn [call_fills] in CALL; specialize (CALL t st (c_pos s) (c_next s) (or_introl (lookup_In _ _ _ L))).
    cbn [cexec_stmt]; destruct (dec (S f) t (c_pos s)) as [v q| | | |]; cbn [follows] in CALL |- *; auto.
    + destruct CALL as (c & -> & P & V & N & SI & DE & _).
      destruct (assign_ok x i (CStruct (c_fs c)) (c_pos c) (c_next c) s SX) as (s' & A & B & C & N').
      exists s'; split; [exact A|]; exists (CStruct (c_fs c)); split; [exact B|]; split; [congruence|].
      rewrite N'; split; [cbn [c_cell]; unfold mem; rewrite L, EF; exact V|].
      split; [exact N|]; split; [exact SI|].
      intros d Ld; destruct d as [|d]; [lia|]; cbn [c_destroy_one].
      destruct (is_simple p t) eqn:SM.
      * exists []; split; [reflexivity|]; rewrite SI by reflexivity; rewrite blocks_none; constructor.
      * rewrite SS, L; apply DE; lia.
    + destruct CALL as (c & ->).
      destruct (assign_ok x i (CStruct (c_fs c)) (c_pos c) (c_next c) s SX) as (s' & A & _).
      rewrite A; cbn [cbind]; eauto.
    + intro LE; now rewrite (CALL LE).
Qed.

(** A string behind its length. *)
Definition text_assigned (x n : clv) (i : nat) (s : cst) (v : val) (q : nat) (s' : cst) : Prop :=
  exists z data fs1, c_set n i (CNum (VInt z)) (c_fs s) = Some fs1 /\
    c_set x i (CStr (Some (c_next s)) data) fs1 = Some (c_fs s') /\ c_pos s' = q /\ c_next s' = S (c_next s) /\
    c_text true (Some (CNum (VInt z))) (Some (CStr (Some (c_next s)) data)) = Some v.

Lemma last_end (l : list byte) x d : last (l ++ [x]) d = x.
Proof. induction l as [|a l IH]; [reflexivity|]; cbn [List.app last]; destruct (l ++ [x]) eqn:E; [now destruct l|exact IH]. Qed.

Lemma read_text x n i s :
  (forall z, exists fs1, c_set n i (CNum (VInt z)) (c_fs s) = Some fs1 /\ settable x i fs1) ->
  follows LENS (dec fuel "string" (c_pos s)) (text_assigned x n i s) (cexec [CReadStr x n] i s).
Proof.
  intro SX; rewrite cexec_one; cbn [cexec_stmt]; rewrite c_prim_num.
  assert (X : dec fuel "string" (c_pos s) = got_res VStr (c_str M p inp (c_pos s))) by (unfold c_dec; destruct fuel; reflexivity).
  rewrite X; unfold c_str.
  destruct (string_size_num p W) as (k & K & NB); rewrite K.
  destruct (read_num k inp (c_pos s)) as [v q| |] eqn:R; cbn [got_res follows]; [|eauto|unfold read_num in R; destruct (bytes_at _ _ _); discriminate].
  apply read_num_got in R as (bs & rest & _ & N & _); destruct (integral_vint _ _ _ _ NB N) as [z ->].
  destruct (SX z) as (fs1 & E1 & S1); 
  assert (A1 : c_assign n i (CNum (VInt z)) q (c_next s) s = COk {| c_fs := fs1; c_pos := q; c_next := c_next s |}) by (unfold c_assign; now rewrite E1).
  rewrite A1; cbn [cbind].
  unfold c_take; destruct (Z.of_nat (List.length inp) <? (Z.of_nat q + z) mod 2 ^ 64); [cbn [got_res follows]; eauto|].
  destruct (c_succ k z) as [size|]; [|cbn [got_res follows]; auto].
  destruct (mc_alloc M size).
  - destruct ((0 <=? z) && (z <? size) && (Z.of_nat q + z <=? Z.of_nat (List.length inp))) eqn:C; cbn [got_res follows]; [|auto].
    apply andb_true_iff in C as [C C3]; apply andb_true_iff in C as [C1 C2].
    set (data := firstn (Z.to_nat z) (skipn q inp) ++ [x00]).
    cbn [c_next]; destruct (S1 (CStr (Some (c_next s)) data)) as [fs2 E2].
    unfold c_assign; cbn [c_fs]; rewrite E2; eexists; split; [reflexivity|].
    exists z, data, fs1; split; [exact E1|]; split; [exact E2|]; split; [reflexivity|]; split; [reflexivity|].
    assert (LF : List.length (firstn (Z.to_nat z) (skipn q inp)) = Z.to_nat z) by (rewrite firstn_length, skipn_length; lia).
    unfold c_text, holds.
    assert (LD : List.length data = S (Z.to_nat z)) by (unfold data; rewrite app_length, LF; cbn; lia).
    rewrite LD, C1; replace (0 <=? z + 1) with true by lia; replace (z + 1 =? Z.of_nat (S (Z.to_nat z))) with true by lia.
    unfold data; rewrite last_end; reflexivity.
  - cbn [got_res follows]; destruct (S1 CNull) as [fs2 E2]; unfold c_assign; cbn [c_fs]; rewrite E2; cbn [cbind]; eauto.
Qed.

(** ** Lists *)

Lemma settable_field f i fs : settable (LField f) i fs.
Proof. intro c; cbn [c_set]; eauto. Qed.

Lemma elem_set n i c fs b done y todo : lookup n fs = Some (CArr b (done ++ y :: todo)) -> i = List.length done ->
  c_set (LElem n) i c fs = Some (dict_set n (CArr b (done ++ c :: todo)) fs).
Proof.
  intros L ->; cbn [c_set]; rewrite L, app_length; cbn [List.length].
  destruct (Nat.ltb_spec (List.length done) (List.length done + S (List.length todo))); [|lia].
  now rewrite set_nth_app.
Qed.

Definition cells_done (n t : string) (b : nat) (done : list cval) (k : nat) (s : cst) (vs : list val) (q : nat) (s' : cst) : Prop :=
  exists cs, lookup n (c_fs s') = Some (CArr b (done ++ cs)) /\ List.length cs = k /\ collect (cell t) cs = Some vs /\
    c_pos s' = q /\ (c_next s <= c_next s')%nat /\ (is_simple p t = true -> c_next s' = c_next s) /\
    (forall y, y <> n -> lookup y (c_fs s') = lookup y (c_fs s)) /\
    (forall d, (fuel <= d)%nat -> exists ids, oconcat (map (fun c => c_destroy_one p d t (Some c)) cs) = Some ids /\
       Permutation ids (blocks (c_next s) (c_next s'))).

Lemma loop_other n t b : declared_type p t -> t <> "string"%string -> forall k done todo s,
  lookup n (c_fs s) = Some (CArr b (done ++ todo)) -> List.length todo = k ->
  follows LENS (dec_elems (dec fuel) t k (c_pos s)) (cells_done n t b done k s)
    (cloop M p inp call (c_read_one p (LElem n) t) k (List.length done) s).
Proof.
  intros D NS; induction k as [|k IH]; intros done todo s L T; cbn [dec_elems cloop].
  - exists s; split; [reflexivity|]; destruct todo; [|discriminate]; exists []; repeat split; auto.
    intros d _; exists []; rewrite blocks_none; split; [reflexivity|constructor].
  - destruct todo as [|y todo]; [discriminate|]; injection T as T.
    eapply follows_bind; [apply read_other; auto|].
    + intro c; rewrite (elem_set n _ c _ b done y todo L eq_refl); eauto.
    + intros v q s1 _ (c & E & P & CO); rewrite (elem_set n _ c _ b done y todo L eq_refl) in E; injection E as E.
      assert (L1 : lookup n (c_fs s1) = Some (CArr b ((done ++ [c]) ++ todo))) by (rewrite <- E, lookup_dict_set_eq, <- app_assoc; reflexivity).
      pose proof (IH (done ++ [c]) todo s1 L1 T) as X; rewrite app_length in X; cbn [List.length] in X.
      replace (List.length done + 1)%nat with (S (List.length done)) in X by lia; rewrite P in X.
      destruct (dec_elems (dec fuel) t k q) as [vs q'| | | |]; cbn [rbind follows] in X |- *; auto.
      destruct X as (s2 & -> & cs & L2 & LC & CV & P2 & N2 & SI2 & FR & DE).
      exists s2; split; [reflexivity|]; exists (c :: cs).
      destruct CO as (V & N1 & SI1 & DE1).
      split; [now rewrite <- app_assoc in L2|]; split; [cbn; now rewrite LC|]; split; [cbn [collect]; now rewrite V, CV|].
      split; [exact P2|]; split; [lia|]; split; [intro S; rewrite SI2, SI1; auto|]; split.
      * intros z Z; rewrite FR, <- E by exact Z; now apply lookup_dict_set_neq.
      * intros d Ld; destruct (DE1 d Ld) as (i1 & D1 & P1'); destruct (DE d Ld) as (i2 & D2 & P2').
        exists (i1 ++ i2); cbn [map oconcat]; rewrite D1, D2; split; [reflexivity|].
        rewrite (blocks_split _ (c_next s1)) by lia; now apply Permutation_app.
Qed.

Definition texts_done (n el : string) (b bl : nat) (done dl : list cval) (k : nat) (s : cst) (vs : list val) (q : nat) (s' : cst) : Prop :=
  exists cs ls, lookup n (c_fs s') = Some (CArr b (done ++ cs)) /\ lookup el (c_fs s') = Some (CArr bl (dl ++ ls)) /\
    List.length cs = k /\ List.length ls = k /\
    collect (fun lc => c_text true (Some (fst lc)) (Some (snd lc))) (combine ls cs) = Some vs /\
    c_pos s' = q /\ (c_next s <= c_next s')%nat /\
    (forall y, y <> n -> y <> el -> lookup y (c_fs s') = lookup y (c_fs s)) /\
    oconcat (map (fun c => c_free (Some c)) cs) = Some (blocks (c_next s) (c_next s')).

Lemma loop_text n el b bl : n <> el -> forall k done dl todo tl s,
  lookup n (c_fs s) = Some (CArr b (done ++ todo)) -> lookup el (c_fs s) = Some (CArr bl (dl ++ tl)) ->
  List.length todo = k -> List.length tl = k -> List.length dl = List.length done ->
  follows LENS (dec_elems (dec fuel) "string" k (c_pos s)) (texts_done n el b bl done dl k s)
    (cloop M p inp call [CReadStr (LElem n) (LElem el)] k (List.length done) s).
Proof.
  intro NE; induction k as [|k IH]; intros done dl todo tl s L LL T TL DL; cbn [dec_elems cloop].
  - exists s; split; [reflexivity|]; destruct todo; [|discriminate]; destruct tl; [|discriminate]; exists [], [].
    rewrite blocks_none; repeat split; auto.
  - destruct todo as [|y todo]; [discriminate|]; injection T as T; destruct tl as [|yl tl]; [discriminate|]; injection TL as TL.
    assert (SN : forall z, c_set (LElem el) (List.length done) (CNum (VInt z)) (c_fs s)
                   = Some (dict_set el (CArr bl (dl ++ CNum (VInt z) :: tl)) (c_fs s))) by (intro z; eapply elem_set; eauto).
    assert (SX : forall z c, c_set (LElem n) (List.length done) c (dict_set el (CArr bl (dl ++ CNum (VInt z) :: tl)) (c_fs s))
                   = Some (dict_set n (CArr b (done ++ c :: todo)) (dict_set el (CArr bl (dl ++ CNum (VInt z) :: tl)) (c_fs s)))).
    { intros z c; eapply elem_set; [|reflexivity]; rewrite lookup_dict_set_neq by congruence; exact L. }
    eapply follows_bind; [apply read_text|].
    + intro z; rewrite SN; eexists; split; [reflexivity|]; intro c; rewrite SX; eauto.
    + intros v q s1 _ (z & data & fs1 & E1 & E & P & N1 & V); rewrite SN in E1; injection E1 as <-; rewrite SX in E; injection E as E.
      set (c := CStr (Some (c_next s)) data) in *.
      assert (L1 : lookup n (c_fs s1) = Some (CArr b ((done ++ [c]) ++ todo))) by (rewrite <- E, lookup_dict_set_eq, <- app_assoc; reflexivity).
      assert (LL1 : lookup el (c_fs s1) = Some (CArr bl ((dl ++ [CNum (VInt z)]) ++ tl))).
      { rewrite <- E, lookup_dict_set_neq, lookup_dict_set_eq, <- app_assoc by congruence; reflexivity. }
      assert (LD : List.length (dl ++ [CNum (VInt z)]) = List.length (done ++ [c])) by (rewrite !app_length, DL; reflexivity).
      pose proof (IH (done ++ [c]) (dl ++ [CNum (VInt z)]) todo tl s1 L1 LL1 T TL LD) as X.
      rewrite app_length in X; cbn [List.length] in X.
      replace (List.length done + 1)%nat with (S (List.length done)) in X by lia; rewrite P in X.
      destruct (dec_elems (dec fuel) "string" k q) as [vs q'| | | |]; cbn [rbind follows] in X |- *; auto.
      destruct X as (s2 & -> & cs & ls & L2 & LL2 & LC & LS & CV & P2 & N2 & FR & DE).
      exists s2; split; [reflexivity|]; exists (c :: cs), (CNum (VInt z) :: ls).
      split; [now rewrite <- app_assoc in L2|]; split; [now rewrite <- app_assoc in LL2|].
      split; [cbn; now rewrite LC|]; split; [cbn; now rewrite LS|].
      split; [cbn [combine collect fst snd]; now rewrite V, CV|].
      split; [exact P2|]; split; [lia|]; split.
      * intros z' Z Z'; rewrite FR, <- E by assumption; now rewrite !lookup_dict_set_neq by assumption.
      * cbn [map oconcat]; rewrite DE; unfold c; cbn [c_free oapp].
        rewrite (blocks_split (c_next s) (c_next s1) (c_next s2)) by lia; rewrite N1, blocks_next; reflexivity.
Qed.

Lemma map_index {A B} (g : option A -> B) l : map (fun i => g (nth_error l i)) (seq 0 (List.length l)) = map (fun c => g (Some c)) l.
Proof.
  induction l as [|a l IH]; cbn [List.length seq map]; [reflexivity|]; f_equal.
  rewrite <- seq_shift, map_map; exact IH.
Qed.

(** ** Members *)

Definition member_done (m : var) (s : cst) (v : val) (q : nat) (s' : cst) : Prop :=
  c_member true p sub (c_fs s') m = Some v /\ c_pos s' = q /\ (c_next s <= c_next s')%nat /\
  (v_list m = false -> is_simple p (v_type m) = true -> c_next s' = c_next s) /\
  (forall y, ~ In y (c_member_names m) -> lookup y (c_fs s') = lookup y (c_fs s)) /\
  (forall d, (fuel <= d)%nat -> exists ids, c_destroy_member p (c_destroy_one p d) (c_fs s') m = Some ids /\
     Permutation ids (blocks (c_next s) (c_next s'))).

Lemma c_read_list m k : v_list m = true -> num_of (p_list_size_type p) = Some k ->
  c_read p m =
    let n := v_name m in
    [CRead (LField (c_len n)) k; CMalloc n (v_type m) (c_len n); CIfNull n] ++
    (if String.eqb (v_type m) "string" then [CMalloc (c_els_len n) (p_string_size_type p) (c_len n); CIfNull n] else []) ++
    [CFor (c_len n) (c_read_one p (LElem n) (v_type m))].
Proof.
  intros VL K; unfold c_read; rewrite VL, c_prim_num, K; cbn [with_prim]; cbv zeta; do 2 f_equal; do 2 f_equal.
  unfold c_read_one; destruct (lookup (v_type m) (p_enums p)) as [e|] eqn:E; [|reflexivity].
  destruct (String.eqb_spec (v_type m) "string") as [X|X]; [|reflexivity]; exfalso.
  apply lookup_In in E; destruct (enum_not_num p W _ e E) as (_ & Y & _); contradiction.
Qed.

Lemma read_list m s : v_list m = true -> declared_type p (v_type m) -> NoDup (c_member_names m) ->
  follows LENS (dec_list (c_make M p) p inp (dec fuel) (v_type m) (c_pos s)) (member_done m s) (cexec (c_read p m) 0 s).
Proof.
  intros VL D ND; destruct (list_size_num p W) as (k & K & NB).
  rewrite (c_read_list m k VL K); cbv zeta; unfold dec_list; rewrite K.
  unfold member_done, c_member, c_destroy_member; cbv zeta; unfold c_member_names in *; rewrite VL in *.
  set (n := v_name m) in *; set (t := v_type m) in *.
  rewrite cexec_app; cbn [C.cexec]; cbn [cexec_stmt]; unfold dec_num.
  destruct (read_num k inp (c_pos s)) as [v q| |] eqn:R; cbn [got_res rbind follows cbind]; [|eauto|unfold read_num in R; destruct (bytes_at _ _ _); discriminate].
  apply read_num_got in R as (bs & rest & _ & N & _); destruct (integral_vint _ _ _ _ NB N) as [z ->].
  apply wire_num_vint in N.
  unfold c_assign; cbn [c_set c_fs c_pos c_next cbind].
  rewrite (c_int_num _ _ z) by apply lookup_dict_set_eq.
  set (fs1 := dict_set (c_len n) (CNum (VInt z)) (c_fs s)).
  destruct (c_make M p t z) as [[] w| w|] eqn:MK; unfold c_make in MK.
  2: { destruct (mc_alloc M (c_bytes M t z)); [destruct (c_len_fits M p t z); discriminate|].
       cbn [c_set c_fs cbind cexec_stmt]; rewrite lookup_dict_set_eq; cbn [follows cbind]; eauto. }
  2: { cbn [follows]; intro LE; exfalso; apply (LE t z k K N); unfold c_make; exact MK. }
  destruct (mc_alloc M (c_bytes M t z)) eqn:AL; [|discriminate]; destruct (c_len_fits M p t z) eqn:F; [|discriminate]; clear MK.
  apply andb_true_iff in F as [F F3]; apply andb_true_iff in F as [F1 F2].
  assert (CELLS : Z.to_nat (c_cells M t z) = Z.to_nat z) by (unfold c_cells; now rewrite F2).
  rewrite CELLS; cbn [c_set c_fs c_pos c_next cbind]; rewrite lookup_dict_set_eq; cbn [cbind].
  set (fs2 := dict_set n (CArr (c_next s) (repeat CUndef (Z.to_nat z))) fs1).
  assert (NE : c_len n <> n).
  { inversion ND as [|? ? NI _]; subst; intro X; apply NI, in_or_app; right; left; now rewrite X. }
  destruct (String.eqb_spec t "string") as [ES|ES].
  - rewrite ES in *; inversion ND as [|? ? NI ND1]; subst; inversion ND1 as [|? ? NI1 _]; subst.
    assert (NE1 : c_len n <> c_els_len n) by (intro X; apply NI; left; now rewrite X).
    assert (NE2 : n <> c_els_len n) by (intro X; apply NI1; left; now rewrite <- X).
    cbn [negb orb] in F3; apply andb_true_iff in F3 as [F3 F4].
    remember [CFor (c_len n) (c_read_one p (LElem n) "string")] as FOR eqn:EFOR.
    rewrite cexec_app; cbn [C.cexec]; cbn [cexec_stmt]; cbn [c_fs c_pos c_next].
    rewrite (c_int_num (c_len n) fs2 z) by (unfold fs2; rewrite lookup_dict_set_neq by exact NE; apply lookup_dict_set_eq).
    rewrite F3; unfold c_cells at 1; rewrite F4; unfold c_assign; cbn [c_set c_fs c_pos c_next cbind].
    set (fs3 := dict_set (c_els_len n) (CArr (S (c_next s)) (repeat CUndef (Z.to_nat z))) fs2).
    assert (L3 : lookup n fs3 = Some (CArr (c_next s) (repeat CUndef (Z.to_nat z)))).
    { unfold fs3; rewrite lookup_dict_set_neq by exact NE2; apply lookup_dict_set_eq. }
    assert (LL3 : lookup (c_els_len n) fs3 = Some (CArr (S (c_next s)) (repeat CUndef (Z.to_nat z)))) by apply lookup_dict_set_eq.
    assert (LZ3 : lookup (c_len n) fs3 = Some (CNum (VInt z))).
    { unfold fs3, fs2; rewrite !lookup_dict_set_neq by assumption; apply lookup_dict_set_eq. }
    rewrite L3; cbn [cbind]; rewrite EFOR, cexec_one, (cexec_for _ _ _ _ _ _ _ _ z) by (now apply c_int_num).
    set (s3 := {| c_fs := fs3; c_pos := q; c_next := S (S (c_next s)) |}).
    pose proof (loop_text n (c_els_len n) (c_next s) (S (c_next s)) NE2 (Z.to_nat z) [] [] (repeat CUndef (Z.to_nat z)) (repeat CUndef (Z.to_nat z)) s3
                  L3 LL3 (repeat_length _ _) (repeat_length _ _) eq_refl) as X.
    change (c_pos s3) with q in X; cbn [List.length] in X.
    change (c_read_one p (LElem n) "string") with [CReadStr (LElem n) (LElem (c_els_len n))].
    destruct (dec_elems (dec fuel) "string" (Z.to_nat z) q) as [vs q'| | | |]; cbn [rbind follows] in X |- *; auto.
    destruct X as (s' & -> & cs & ls & L & LL & LC & LS & CV & P & NX & FR & DE); exists s'; split; [reflexivity|].
    cbn [List.app] in L, LL.
    assert (LZ : lookup (c_len n) (c_fs s') = Some (CNum (VInt z))) by (rewrite FR by assumption; exact LZ3).
    unfold c_list; rewrite (c_int_num _ _ z LZ), L; cbn [negb andb].
    change (c_next s3) with (S (S (c_next s))) in *.
    split.
    { unfold holds; rewrite LL, LC, LS; replace (z =? Z.of_nat (Z.to_nat z)) with true by lia; rewrite F1; cbn [andb String.eqb].
      rewrite <- LS at 1; rewrite <- LC; rewrite !firstn_all, CV; reflexivity. }
    split; [exact P|]; split; [lia|]; split; [intros [=]|]; split.
    { intros y NY; rewrite FR; [|intros ->; apply NY; cbn; auto..].
      change (c_fs s3) with fs3; unfold fs3, fs2, fs1; rewrite !lookup_dict_set_neq; [reflexivity|intros ->; apply NY; cbn; auto..]. }
    intros d _; rewrite string_not_simple, LL; cbn [c_free oapp String.eqb].
    rewrite (map_ext _ (fun i => (fun v => c_free v) (nth_error cs i))).
    2: { intro i; cbn [c_get]; rewrite L; destruct d; cbn [c_destroy_one]; rewrite string_not_simple; reflexivity. }
    rewrite <- LC, (map_index (fun v => c_free v)), DE; cbn [oapp].
    eexists; split; [reflexivity|].
    rewrite (blocks_split (c_next s) (S (S (c_next s))) (c_next s')) by lia.
    replace (blocks (c_next s) (S (S (c_next s)))) with [c_next s; S (c_next s)] by (unfold blocks; now replace (S (S (c_next s)) - c_next s)%nat with 2%nat by lia).
    eapply Permutation_trans; [apply Permutation_app_comm|]; cbn [List.app]; constructor.
  - set (s2 := {| c_fs := fs2; c_pos := q; c_next := S (c_next s) |}).
    assert (L2 : lookup n fs2 = Some (CArr (c_next s) (repeat CUndef (Z.to_nat z)))) by apply lookup_dict_set_eq.
    assert (LZ2 : lookup (c_len n) fs2 = Some (CNum (VInt z))).
    { unfold fs2; rewrite !lookup_dict_set_neq by assumption; apply lookup_dict_set_eq. }
    cbn [List.app]; rewrite cexec_one, (cexec_for _ _ _ _ _ _ _ _ z) by (now apply c_int_num).
    pose proof (loop_other n t (c_next s) D ES (Z.to_nat z) [] (repeat CUndef (Z.to_nat z)) s2 L2 (repeat_length _ _)) as X.
    change (c_pos s2) with q in X; cbn [List.length] in X.
    destruct (dec_elems (dec fuel) t (Z.to_nat z) q) as [vs q'| | | |]; cbn [rbind follows] in X |- *; auto.
    destruct X as (s' & -> & cs & L & LC & CV & P & NX & SI & FR & DE); exists s'; split; [reflexivity|].
    cbn [List.app] in L; change (c_next s2) with (S (c_next s)) in *.
    assert (LZ : lookup (c_len n) (c_fs s') = Some (CNum (VInt z))) by (rewrite FR by assumption; exact LZ2).
    unfold c_list; rewrite (c_int_num _ _ z LZ), L; cbn [negb andb].
    apply String.eqb_neq in ES; rewrite ES.
    split.
    { unfold holds; rewrite LC; replace (z =? Z.of_nat (Z.to_nat z)) with true by lia; rewrite F1; cbn [andb].
      rewrite <- LC, firstn_all, CV; reflexivity. }
    split; [exact P|]; split; [lia|]; split; [intros [=]|]; split.
    { intros y NY; rewrite FR; [|intros ->; apply NY; cbn; auto..].
      change (c_fs s2) with fs2; unfold fs2, fs1; rewrite !lookup_dict_set_neq; [reflexivity|intros ->; apply NY; cbn; auto..]. }
    intros d Ld; cbn [c_free oapp].
    destruct (is_simple p t) eqn:SM.
    { exists [c_next s]; split; [reflexivity|]; rewrite SI by reflexivity; rewrite blocks_next; auto. }
    destruct (DE d Ld) as (ids & E & PM).
    rewrite (map_ext _ (fun i => (fun v => c_destroy_one p d t v) (nth_error cs i))) by (intro i; cbn [c_get]; now rewrite L).
    rewrite <- LC, (map_index (fun v => c_destroy_one p d t v)), E; cbn [oapp List.app].
    eexists; split; [reflexivity|].
    rewrite (blocks_split (c_next s) (S (c_next s)) (c_next s')) by lia; rewrite blocks_next.
    eapply Permutation_trans; [apply Permutation_app_comm|]; cbn [List.app]; now constructor.
Qed.

Lemma read_member m s : declared_type p (v_type m) -> NoDup (c_member_names m) -> v_list m = false ->
  follows LENS (dec fuel (v_type m) (c_pos s)) (member_done m s) (cexec (c_read p m) 0 s).
Proof.
  intros D ND VL; unfold c_read, member_done, c_member, c_destroy_member; cbv zeta; unfold c_member_names in *; rewrite VL in *.
  destruct (String.eqb_spec (v_type m) "string") as [ES|ES].
  - rewrite ES in *; change (c_read_one p (LField (v_name m)) "string") with [CReadStr (LField (v_name m)) (LField (c_len (v_name m)))].
    eapply follows_mono; [apply read_text|].
    + intro z; eexists; split; [reflexivity|apply settable_field].
    + intros v q s' _ (z & data & fs1 & E1 & E & P & N & V); cbn [c_set] in E1, E; injection E1 as <-; injection E as E.
      inversion ND as [|? ? NI _]; subst.
      assert (NE : c_len (v_name m) <> v_name m) by (intro X; apply NI; left; now rewrite X).
      rewrite <- E, lookup_dict_set_eq, (lookup_dict_set_neq (c_len (v_name m))), lookup_dict_set_eq by exact NE.
      split; [exact V|]; split; [reflexivity|]; split; [lia|].
      split; [intros _ SI; rewrite string_not_simple in SI; discriminate|]; split.
      * intros y NY; rewrite !lookup_dict_set_neq; [reflexivity| |]; intros ->; apply NY; cbn; auto.
      * intros d _; exists [c_next s]; rewrite N, blocks_next; split; [|auto].
        destruct d; cbn [c_destroy_one]; rewrite string_not_simple; reflexivity.
  - eapply follows_mono; [apply read_other; auto using settable_field|].
    intros v q s' _ (c & E & P & V & N & SI & DE); cbn [c_set] in E; injection E as E.
    rewrite <- E, lookup_dict_set_eq; split; [exact V|]; split; [exact P|]; split; [exact N|]; split; [auto|]; split.
    + intros y NY; apply lookup_dict_set_neq; intros ->; apply NY; now left.
    + exact DE.
Qed.

Lemma read_any m s : declared_type p (v_type m) -> NoDup (c_member_names m) ->
  follows LENS (dec_member (c_make M p) p inp (dec fuel) m (c_pos s)) (member_done m s) (cexec (c_read p m) 0 s).
Proof.
  intros D ND; unfold dec_member; destruct (v_list m) eqn:VL; [now apply read_list|now apply read_member].
Qed.

Definition members_done (ms : list var) (s : cst) (fs : list (string * val)) (q : nat) (s' : cst) : Prop :=
  collect (fun m => option_map (pair (v_name m)) (c_member true p sub (c_fs s') m)) ms = Some fs /\
  c_pos s' = q /\ (c_next s <= c_next s')%nat /\
  ((forall m, In m ms -> v_list m = false /\ is_simple p (v_type m) = true) -> c_next s' = c_next s) /\
  (forall y, ~ In y (flat_map c_member_names ms) -> lookup y (c_fs s') = lookup y (c_fs s)) /\
  (forall d, (fuel <= d)%nat -> exists ids, oconcat (map (c_destroy_member p (c_destroy_one p d) (c_fs s')) ms) = Some ids /\
     Permutation ids (blocks (c_next s) (c_next s'))).

Lemma nodup_app_inv {A} (a b : list A) : NoDup (a ++ b) -> NoDup a /\ NoDup b /\ forall x, In x a -> ~ In x b.
Proof.
  induction a as [|y a IH]; cbn [List.app]; intro H; [repeat split; [constructor|assumption|intros ? []]|].
  inversion H as [|? ? NI ND]; subst; destruct (IH ND) as (A1 & A2 & A3); repeat split; auto.
  - constructor; auto; intro X; apply NI, in_or_app; now left.
  - intros x [<-|I]; [intro X; apply NI, in_or_app; now right|now apply A3].
Qed.

Lemma read_members ms : forall s, (forall m, In m ms -> declared_type p (v_type m)) -> NoDup (flat_map c_member_names ms) ->
  follows LENS (dec_members (c_make M p) p inp (dec fuel) ms (c_pos s)) (members_done ms s) (cexec (flat_map (c_read p) ms) 0 s).
Proof.
  induction ms as [|m ms IH]; intros s D ND; cbn [dec_members flat_map].
  - exists s; split; [reflexivity|]; repeat split; auto.
    intros d _; exists []; rewrite blocks_none; split; [reflexivity|constructor].
  - cbn [flat_map] in ND; apply nodup_app_inv in ND as (N1 & N2 & DJ); rewrite cexec_app.
    eapply follows_bind; [apply read_any; [apply D; now left|exact N1]|].
    intros v q s1 _ (V & P & NX & SI & FR & DE).
    pose proof (IH s1 (fun m' I => D m' (or_intror I)) N2) as X; rewrite P in X.
    destruct (dec_members (c_make M p) p inp (dec fuel) ms q) as [fs q'| | | |]; cbn [rbind follows] in X |- *; auto.
    destruct X as (s2 & -> & CV & P2 & NX2 & SI2 & FR2 & DE2); exists s2; split; [reflexivity|].
    assert (KEEP : forall y, In y (c_member_names m) -> lookup y (c_fs s2) = lookup y (c_fs s1)) by (intros y I; apply FR2; auto).
    split; [cbn [collect]; rewrite (c_member_ext _ _ _ _ _ _ KEEP), V, CV; reflexivity|].
    split; [exact P2|]; split; [lia|]; split.
    { intro ALL; rewrite SI2, SI; auto; [apply ALL; now left|apply ALL; now left|intros; apply ALL; now right]. }
    split.
    { intros y NY; cbn [flat_map] in NY; rewrite FR2, FR; [reflexivity|intro; apply NY, in_or_app; now left|intro; apply NY, in_or_app; now right]. }
    intros d Ld; destruct (DE d Ld) as (i1 & E1 & PM1); destruct (DE2 d Ld) as (i2 & E2 & PM2).
    exists (i1 ++ i2); cbn [map oconcat]; rewrite (c_destroy_member_ext _ _ _ _ _ KEEP), E1, E2; split; [reflexivity|].
    rewrite (blocks_split (c_next s) (c_next s1) (c_next s2)) by lia; now apply Permutation_app.
Qed.
End Code.

Lemma simple_struct t s : declares p t s -> is_simple p t = true ->
  forall m, In m (s_members s) -> v_list m = false /\ is_simple p (v_type m) = true.
Proof.
  intros D SI m I; pose proof (simple_fixed_members p t s W D SI) as F.
  split; [eapply fixed_members_list; eassumption|].
  destruct (fixed_member_type p _ _ m F I) as [k FK].
  eapply fixed_is_simple; [exact W|left; eapply (wf_member_types p W); eassumption|exact FK].
Qed.

Lemma run_fills fuel : call_fills (c_run M p inp fuel) fuel.
Proof.
  induction fuel as [|f IH]; [exact Logic.I|]; cbn [call_fills].
  intros t s pos next D; destruct (declares_not_num p W t s D) as (A & B & C); apply String.eqb_neq in B.
  assert (E : lookup t (p_enums p) = None).
  { apply lookup_None; intro H; apply in_map_iff in H as ([x e] & E0 & I); cbn in E0; subst x; now apply C in I. }
  unfold c_dec; cbn [Dec.dec c_run]; rewrite A, B, E, (find_declares p W t s D).
  set (s0 := {| c_fs := c_start p s; c_pos := pos; c_next := next |}).
  assert (ND : NoDup (flat_map c_member_names (s_members s))).
  { pose proof (FIELDS t s D) as X; unfold c_field_names in X; now apply nodup_app_inv in X. }
  pose proof (read_members f (c_run M p inp f) IH (s_members s) s0 (fun m I => wf_member_types p W t s m D I) ND) as X.
  change (c_pos s0) with pos in X; unfold c_dec in X.
  destruct (dec_members (c_make M p) p inp (Dec.dec (c_str M) (c_make M p) only_declared p inp f) (s_members s) pos) as [fs q| | | |];
    cbn [rbind follows] in X |- *; auto.
  destruct X as (s1 & -> & CV & P & NX & SI & FR & DE); exists s1; split; [reflexivity|].
  change (c_next s0) with next in *.
  split; [exact P|]; split; [cbn [c_value]; rewrite (find_declares p W t s D), CV; reflexivity|].
  split; [exact NX|]; split; [|split; [exact DE|exact FR]].
  intro S; apply SI; now apply (simple_struct t s D).
Qed.
End Run.
