(** A reader written as a recursive function over the protocol.

    This is a device for proofs, not a model of beschi and not part of the
    specification.  The readers that the generators print are shown to behave
    like it (files ...Facts.v), and it is compared once with the wire relation
    (DecFacts.v). *)
From Verif Require Export IR.

Section Dec.
(** How strings are read, what happens for a list of the given element type and
    length, and what is made of the number of an enum. *)
Variable str : protocol -> list byte -> nat -> got (list byte).
Variable len : string -> Z -> got unit.
Variable enums : enum -> Z -> option Z.
Variable p : protocol.
Variable inp : list byte.

Definition got_res {A B} (f : A -> B) (g : got A) : res B :=
  match g with Got a pos => ROk (f a) pos | Miss _ => RErr | Crash => RTrap end.

Definition rbind {A B} (r : res A) (k : A -> nat -> res B) : res B :=
  match r with
  | ROk a pos => k a pos
  | RErr => RErr | RTrap => RTrap | RStuck => RStuck | RFuel => RFuel
  end.

Definition dec_num (k : num) (pos : nat) : res val := got_res (fun v => v) (read_num k inp pos).

Definition dec_enum (e : enum) (pos : nat) : res val :=
  match num_of (e_encoding e) with
  | None => RStuck
  | Some k =>
      rbind (dec_num k pos) (fun v pos' =>
        match v with
        | VInt z => match enums e z with Some z' => ROk (VInt z') pos' | None => RErr end
        | _ => RStuck
        end)
  end.

Section Members.
Variable rd : string -> nat -> res val.

Fixpoint dec_elems (t : string) (n : nat) (pos : nat) : res (list val) :=
  match n with
  | O => ROk [] pos
  | S n' =>
      rbind (rd t pos) (fun v pos' =>
        rbind (dec_elems t n' pos') (fun vs pos'' => ROk (v :: vs) pos''))
  end.

Definition dec_list (t : string) (pos : nat) : res val :=
  match num_of (p_list_size_type p) with
  | None => RStuck
  | Some k =>
      rbind (dec_num k pos) (fun v pos' =>
        match v with
        | VInt z =>
            match len t z with
            | Got _ _ => rbind (dec_elems t (Z.to_nat z) pos') (fun vs pos'' => ROk (VList vs) pos'')
            | Miss _ => RErr
            | Crash => RTrap
            end
        | _ => RStuck
        end)
  end.

Definition dec_member (m : var) (pos : nat) : res val :=
  if v_list m then dec_list (v_type m) pos else rd (v_type m) pos.

Fixpoint dec_members (ms : list var) (pos : nat) : res (list (string * val)) :=
  match ms with
  | [] => ROk [] pos
  | m :: r =>
      rbind (dec_member m pos) (fun v pos' =>
        rbind (dec_members r pos') (fun fs pos'' => ROk ((v_name m, v) :: fs) pos''))
  end.
End Members.

Fixpoint dec (fuel : nat) (t : string) (pos : nat) : res val :=
  match num_of t with
  | Some k => dec_num k pos
  | None =>
      if String.eqb t "string" then got_res VStr (str p inp pos)
      else match lookup t (p_enums p) with
      | Some e => dec_enum e pos
      | None =>
          match find_struct p t with
          | None => RStuck
          | Some s =>
              match fuel with
              | O => RFuel
              | S f => rbind (dec_members (dec f) (s_members s) pos) (fun fs pos' => ROk (VStruct fs) pos')
              end
          end
      end
  end.
End Dec.
