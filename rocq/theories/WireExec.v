(** A function that computes encodings, used only to build the concrete examples
    beside the theorems.  It is proved to agree with the wire relation. *)
From Verif Require Export WireFacts.

Definition enc_num (k : num) (v : val) : option (list byte) :=
  match k, v with
  | NBool, VBool b => Some [if b then x01 else x00]
  | NBool, _ => None
  | _, VInt z => if (num_min k <=? z) && (z <=? num_max k) then Some (le_bytes (num_size k) z) else None
  | _, _ => None
  end.

Definition enc_size (t : string) (n : nat) : option (list byte) :=
  match num_of t with Some k => enc_num k (VInt (Z.of_nat n)) | None => None end.

Fixpoint enc (p : protocol) (t : string) (v : val) {struct v} : option (list byte) :=
  match num_of t with
  | Some k => enc_num k v
  | None =>
      match v with
      | VStr s =>
          if String.eqb t "string" then
            match enc_size (p_string_size_type p) (List.length s) with
            | Some lb => Some (lb ++ s)
            | None => None
            end
          else None
      | VInt z =>
          match lookup t (p_enums p) with
          | Some e =>
              if existsb (Z.eqb z) (map snd (e_values e)) then
                match num_of (e_encoding e) with Some k => enc_num k (VInt z) | None => None end
              else None
          | None => None
          end
      | VStruct fs =>
          let members :=
            (fix members (ms : list var) (fs : list (string * val)) {struct fs} : option (list byte) :=
               match ms, fs with
               | [], [] => Some []
               | m :: ms', (n, v) :: fs' =>
                   if String.eqb (v_name m) n then
                     match (match v_list m, v with
                            | false, _ => enc p (v_type m) v
                            | true, VList l =>
                                match enc_size (p_list_size_type p) (List.length l),
                                      (fix elems (l : list val) : option (list byte) :=
                                         match l with
                                         | [] => Some []
                                         | v :: r =>
                                             match enc p (v_type m) v, elems r with
                                             | Some a, Some b => Some (a ++ b)
                                             | _, _ => None
                                             end
                                         end) l with
                                | Some a, Some b => Some (a ++ b)
                                | _, _ => None
                                end
                            | true, _ => None
                            end), members ms' fs' with
                     | Some a, Some b => Some (a ++ b)
                     | _, _ => None
                     end
                   else None
               | _, _ => None
               end) in
          match lookup t (p_structs p) with
          | Some s => members (s_members s) fs
          | None =>
              match lookup t (p_messages p) with
              | Some s => members (s_members s) fs
              | None => None
              end
          end
      | _ => None
      end
  end.

Lemma enc_num_sound k v bs : enc_num k v = Some bs -> wire_num strict k v bs.
Proof.
  assert (I : forall z, k <> NBool -> (if (num_min k <=? z) && (z <=? num_max k)
              then Some (le_bytes (num_size k) z) else None) = Some bs -> wire_num strict k (VInt z) bs).
  { intros z K; destruct (_ && _)%bool eqn:E; [|discriminate]; intros [= <-]; apply andb_prop in E as [E1 E2].
    constructor; [assumption|apply le_bytes_length|lia|apply le_val_le_bytes]. }
  destruct k, v; cbn [enc_num]; try discriminate; try (apply I; discriminate).
  match goal with |- context [if ?b then _ else _] => destruct b end; intros [= <-]; now constructor.
Qed.

Lemma enc_size_sound t n bs : enc_size t n = Some bs -> wire_size strict t n bs.
Proof.
  unfold enc_size; destruct (num_of t) as [k|] eqn:K; [|discriminate].
  intro H; exists k; split; [assumption|now apply enc_num_sound].
Qed.

(** Induction on values through lists and members. *)
Fixpoint val_ind2 (P : val -> Prop)
  (hint : forall z, P (VInt z)) (hbool : forall b, P (VBool b)) (hstr : forall s, P (VStr s))
  (hundef : P VUndef)
  (hlist : forall l, Forall P l -> P (VList l))
  (hstruct : forall fs, Forall (fun nv => P (snd nv)) fs -> P (VStruct fs)) (v : val) : P v :=
  match v with
  | VInt z => hint z
  | VBool b => hbool b
  | VStr s => hstr s
  | VUndef => hundef
  | VList l => hlist l ((fix go (l : list val) : Forall P l :=
      match l with
      | [] => Forall_nil _
      | v :: r => Forall_cons v (val_ind2 P hint hbool hstr hundef hlist hstruct v) (go r)
      end) l)
  | VStruct fs => hstruct fs ((fix go (fs : list (string * val)) : Forall (fun nv => P (snd nv)) fs :=
      match fs with
      | [] => Forall_nil _
      | nv :: r => @Forall_cons _ (fun nv => P (snd nv)) nv r
                     (val_ind2 P hint hbool hstr hundef hlist hstruct (snd nv)) (go r)
      end) fs)
  end.

Definition deep (P : val -> Prop) (v : val) : Prop :=
  P v /\ match v with VList l => Forall P l | _ => True end.

Lemma enc_sound p t v bs : enc p t v = Some bs -> wire p t v bs.
Proof.
  cut (deep (fun v => forall t bs, enc p t v = Some bs -> wire p t v bs) v).
  { intros [H _]; apply H. }
  revert v; clear t bs; apply val_ind2.
  - intro z; split; [|exact I]; intros t bs; cbn [enc]; destruct (num_of t) as [k|] eqn:K.
    + intro H; eapply w_num; [eassumption|now apply enc_num_sound].
    + destruct (lookup t (p_enums p)) as [e|] eqn:E; [|discriminate].
      destruct (existsb _ _) eqn:X; [|discriminate].
      destruct (num_of (e_encoding e)) as [k|] eqn:K'; [|discriminate]; intro H.
      apply existsb_exists in X as (z' & X & Y); apply Z.eqb_eq in Y as <-.
      eapply w_enum; [eapply lookup_In; eassumption|eassumption|now right|now apply enc_num_sound].
  - intro b; split; [|exact I]; intros t bs; cbn [enc]; destruct (num_of t) as [k|] eqn:K; [|discriminate].
    intro H; eapply w_num; [eassumption|now apply enc_num_sound].
  - intro s; split; [|exact I]; intros t bs; cbn [enc]; destruct (num_of t) as [k|] eqn:K.
    + intro H; eapply w_num; [eassumption|now apply enc_num_sound].
    + destruct (String.eqb_spec t "string") as [->|]; [|discriminate].
      destruct (enc_size _ _) as [lb|] eqn:L; [|discriminate]; intros [= <-].
      constructor; now apply enc_size_sound.
  - split; [|exact I]; intros t bs; cbn [enc]; destruct (num_of t) as [k|] eqn:K; [|discriminate].
    intro H; eapply w_num; [eassumption|now apply enc_num_sound].
  - intros l F; split.
    + intros t bs; cbn [enc]; destruct (num_of t) as [k|] eqn:K; [|discriminate].
      intro H; eapply w_num; [eassumption|now apply enc_num_sound].
    + eapply Forall_impl; [|exact F]; intros v H; apply H.
  - intros fs F; split; [|exact I]; intros t bs; cbn [enc]; destruct (num_of t) as [k|] eqn:K.
    + intro H; eapply w_num; [eassumption|now apply enc_num_sound].
    + match goal with |- context [match lookup t (p_structs p) with Some s => ?f (s_members s) fs | None => _ end] =>
        set (members := f) end.
      assert (M : forall ms bs, members ms fs = Some bs -> wire_members strict p ms fs bs).
      { clear t bs K; induction F as [|[n v] fs [Hv Hl] F IH]; intros [|m ms] bs; cbn; try discriminate.
        - intros [= <-]; constructor.
        - cbn [snd] in Hv, Hl.
          destruct (String.eqb_spec (v_name m) n) as [<-|]; [|discriminate].
          destruct (v_list m) eqn:L.
          + destruct v as [| | |l| |]; try discriminate.
            destruct (enc_size _ _) as [lb|] eqn:S; [|discriminate].
            match goal with |- context [?f l] => is_fix f; set (elems := f) end.
            destruct (elems l) as [eb|] eqn:EL; [|discriminate].
            destruct (members ms fs) as [b|] eqn:B; [|discriminate]; intros [= <-].
            constructor; [|now apply IH].
            constructor; [assumption|now apply enc_size_sound|].
            clear S Hv; revert eb EL; induction Hl as [|v l Hv' Hl IHl]; cbn; intros eb EL.
            * injection EL as <-; constructor.
            * destruct (enc p (v_type m) v) as [a|] eqn:A; [|discriminate].
              destruct (elems l) as [c|] eqn:C; [|discriminate]; injection EL as <-.
              constructor; [now apply Hv'|now apply IHl].
          + destruct (enc p (v_type m) v) as [a|] eqn:A; [|discriminate].
            destruct (members ms fs) as [b|] eqn:B; [|discriminate]; intros [= <-].
            constructor; [|now apply IH].
            constructor; [assumption|now apply Hv]. }
      destruct (lookup t (p_structs p)) as [s|] eqn:S.
      * intro H; eapply w_struct; [left; eapply lookup_In; eassumption|now apply M].
      * destruct (lookup t (p_messages p)) as [s|] eqn:S'; [|discriminate].
        intro H; eapply w_struct; [right; eapply lookup_In; eassumption|now apply M].
Qed.
