(** The readers that go.py prints, as a recursive function.

    A device for proofs, as Dec.v: the other languages stop at the first problem;
    in Go, the reader of a nested struct may report an error that nobody looks at,
    and then the object that it has filled so far is kept. *)
From Verif Require Export Go Dec.

Inductive gres (A : Type) :=
| GOk (a : A) (pos : nat)      (* no error *)
| GBad (a : A) (pos : nat)     (* an error, what has been read so far, and where reading stopped *)
| GTrap                        (* panic *)
| GStuck.
Arguments GOk {A} a pos. Arguments GBad {A} a pos. Arguments GTrap {A}. Arguments GStuck {A}.

(** [k]: go on; [e]: complete a partial result. *)
Definition gbind {A B} (r : gres A) (k : A -> nat -> gres B) (e : A -> B) : gres B :=
  match r with GOk a pos => k a pos | GBad a pos => GBad (e a) pos | GTrap => GTrap | GStuck => GStuck end.

Definition got_g {A B} (f : A -> B) (z : B) (g : got A) : gres B :=
  match g with Got a pos => GOk (f a) pos | Miss pos => GBad z pos | Crash => GTrap end.

Section GoDec.
Variable room : string -> Z.
Variable p : protocol.
Variable inp : list byte.

Definition g_num (k : num) (pos : nat) : gres val := got_g (fun v => v) (go_zero_num k) (go_read_num k inp pos).

Definition g_enum (e : enum) (pos : nat) : gres val :=
  match num_of (e_encoding e) with
  | None => GStuck
  | Some k =>
      gbind (g_num k pos) (fun v q =>
        match v with
        | VInt z => match only_declared e z with Some z' => GOk (VInt z') q | None => GBad (VInt 0) q end
        | _ => GStuck
        end) (fun _ => VInt 0)
  end.

Definition g_zero (m : var) : string * val :=
  (v_name m, if v_list m then VList [] else go_zero p (depth_of p) (v_type m)).

Section Members.
Variable rd : string -> nat -> gres val.

Fixpoint g_elems (t : string) (n : nat) (pos : nat) : gres (list val) :=
  match n with
  | O => GOk [] pos
  | S n' =>
      gbind (rd t pos) (fun v q => gbind (g_elems t n' q) (fun vs q' => GOk (v :: vs) q') (fun vs => v :: vs))
        (fun v => v :: repeat (go_zero p (depth_of p) t) n')
  end.

Definition g_list (t : string) (pos : nat) : gres val :=
  match num_of (p_list_size_type p) with
  | None => GStuck
  | Some k =>
      gbind (g_num k pos) (fun v q =>
        match v with
        | VInt z =>
            match go_make room t z with
            | Got _ _ => gbind (g_elems t (Z.to_nat z) q) (fun vs q' => GOk (VList vs) q') VList
            | Miss _ => GStuck
            | Crash => GTrap
            end
        | _ => GStuck
        end) (fun _ => VList [])
  end.

Definition g_member (m : var) (pos : nat) : gres val :=
  if v_list m then g_list (v_type m) pos else rd (v_type m) pos.

Fixpoint g_members (ms : list var) (pos : nat) : gres (list (string * val)) :=
  match ms with
  | [] => GOk [] pos
  | m :: r =>
      gbind (g_member m pos)
        (fun v q => gbind (g_members r q) (fun fs q' => GOk ((v_name m, v) :: fs) q') (fun fs => (v_name m, v) :: fs))
        (fun v => (v_name m, v) :: map g_zero r)
  end.
End Members.

(** The value of a member. *)
Fixpoint g_dec (fuel : nat) (t : string) (pos : nat) : gres val :=
  match num_of t with
  | Some k => g_num k pos
  | None =>
      if String.eqb t "string" then got_g VStr (VStr []) (go_str p inp pos)
      else match lookup t (p_enums p) with
      | Some e => g_enum e pos
      | None =>
          if is_simple p t then got_g (fun v => v) (go_zero p (depth_of p) t) (go_raw p t inp pos)
          else match find_struct p t with
          | None => GStuck
          | Some s =>
              match fuel with
              | O => GStuck
              | S f =>
                  match g_members (g_dec f) (s_members s) pos with
                  | GOk fs q | GBad fs q => GOk (VStruct fs) q
                  | GTrap => GTrap
                  | GStuck => GStuck
                  end
              end
          end
      end
  end.

(** What FromBytes is called for. *)
Definition g_top (fuel : nat) (t : string) (pos : nat) : gres (list (string * val)) :=
  match find_struct p t, fuel with
  | Some s, S f => g_members (g_dec f) (s_members s) pos
  | _, _ => GStuck
  end.
End GoDec.
