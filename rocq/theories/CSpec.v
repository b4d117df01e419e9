(** What C objects stand for, and conditions for the statements about C. *)
From Verif Require Export C ZigSpec CodecSpec.
Open Scope Z_scope.
Open Scope list_scope.

(** ** Objects and values *)

Fixpoint collect {A B} (f : A -> option B) (l : list A) : option (list B) :=
  match l with
  | [] => Some []
  | a :: r => match f a, collect f r with Some b, Some bs => Some (b :: bs) | _, _ => None end
  end.

Section Value.
(** Blocks must have the size that the lengths say, or may be larger. *)
Variable exact : bool.
Variable p : protocol.

Definition holds (n : Z) (size : nat) : bool :=
  (0 <=? n) && (if exact then n =? Z.of_nat size else n <=? Z.of_nat size).

(** A string: its length, and a pointer to its bytes, with a zero byte behind them
    in the exact case. *)
Definition c_text (len data : option cval) : option val :=
  match len, data with
  | Some (CNum (VInt z)), Some (CStr _ bs) =>
      if holds (if exact then z + 1 else z) (List.length bs) && (0 <=? z) && (negb exact || (last bs x01 =? x00)%byte)
      then Some (VStr (firstn (Z.to_nat z) bs)) else None
  | _, _ => None
  end.

(** A variable of type [t] that is no string. *)
Definition c_cell (sub : string -> cfields -> option val) (t : string) (c : cval) : option val :=
  match c with
  | CNum v => if mem t (p_structs p) then None else Some v
  | CStruct fs => if mem t (p_structs p) then sub t fs else None
  | _ => None
  end.

(** A list of [n] elements. *)
Definition c_list (sub : string -> cfields -> option val) (fs : cfields) (n : string) (t : string) : option val :=
  match c_int (c_len n) fs with
  | None => None
  | Some z =>
      if negb exact && (z =? 0) then Some (VList [])
      else match lookup n fs with
      | Some (CArr _ cells) =>
          if holds z (List.length cells) then
            if String.eqb t "string" then
              match lookup (c_els_len n) fs with
              | Some (CArr _ ls) =>
                  if holds z (List.length ls) then
                    option_map VList (collect (fun lc => c_text (Some (fst lc)) (Some (snd lc)))
                                              (combine (firstn (Z.to_nat z) ls) (firstn (Z.to_nat z) cells)))
                  else None
              | _ => None
              end
            else option_map VList (collect (c_cell sub t) (firstn (Z.to_nat z) cells))
          else None
      | _ => None
      end
  end.

Definition c_member (sub : string -> cfields -> option val) (fs : cfields) (m : var) : option val :=
  let n := v_name m in
  let t := v_type m in
  if v_list m then c_list sub fs n t
  else if String.eqb t "string" then c_text (lookup (c_len n) fs) (lookup n fs)
  else match lookup n fs with Some c => c_cell sub t c | None => None end.

(** The value of a struct or message; [d] bounds the nesting. *)
Fixpoint c_value (d : nat) (t : string) (fs : cfields) : option val :=
  match d, find_struct p t with
  | S d', Some s =>
      option_map VStruct
        (collect (fun m => option_map (pair (v_name m)) (c_member (c_value d') fs m)) (s_members s))
  | _, _ => None
  end.
End Value.

(** The object stands for the value: every length member says how many elements or
    bytes there are. *)
Definition stands_for (p : protocol) (t : string) (fs : cfields) (v : val) : Prop :=
  c_value false p (depth_of p) t fs = Some v.
(** And there is not more behind them, except for the zero byte of a string. *)
Definition exactly (p : protocol) (t : string) (fs : cfields) (v : val) : Prop :=
  c_value true p (depth_of p) t fs = Some v.

(** The same for a message; its type is right. *)
Definition message_for (p : protocol) (fs : cfields) (m : string * val) : Prop :=
  stands_for p (fst m) fs (snd m) /\
  exists n, numbered p (fst m) n /\ c_int "_mt" fs = Some n.

(** ** The functions as CodecSpec.v wants them *)

(** Undefined behaviour counts as a crash. *)
Definition erased {A B} (f : A -> option (B * nat)) (c : cres A) : res B :=
  match c with
  | COk a => match f a with Some (b, q) => ROk b q | None => RStuck end
  | CErr _ => RErr
  | CUB => RTrap
  | CStuck => RStuck
  | CFuel => RFuel
  end.

(** FromBytes.  Block numbers start at [next].  Objects must be exact. *)
Definition c_reader (M : machine) (p : protocol) (next : nat) : reader := fun t inp pos =>
  erased (fun s => option_map (fun v => (v, c_pos s)) (c_value true p (depth_of p) t (c_fs s)))
         (c_from_bytes M p t inp pos next).

Definition c_message (p : protocol) (m : cmsg) : option (string * val) :=
  match c_message_name p (snd m) with
  | Some (Some t) => option_map (pair t) (c_value true p (depth_of p) t (snd m))
  | _ => None
  end.
Definition c_messages (p : protocol) (s : cstream) : option (message_list * nat) :=
  option_map (fun ms => (ms, cs_pos s)) (collect (c_message p) (cs_msgs s)).
(** ProcessRawBytes. *)
Definition c_processor (M : machine) (p : protocol) (next : nat) : stream_reader := fun max inp pos =>
  erased (c_messages p) (c_process M p max inp pos next).
(** UnpackMessages of a reader that starts at the given place. *)
Definition c_unpacker (M : machine) (p : protocol) (next : nat) : unpacker := fun inp pos =>
  shifted pos (erased (c_messages p) (c_unpack M p (skipn pos inp) 0 next)).

(** What is said about inputs that are [ok] only. *)
Definition if_ok {A} (ok : bool) (r : res A) : res A := if ok then r else RErr.
Definition small_input (inp : list byte) : bool := Z.of_nat (List.length inp) <? 2 ^ 31.
Definition small_reader (rd : reader) : reader := fun t inp pos => if_ok (small_input inp) (rd t inp pos).
Definition small_stream (pr : stream_reader) : stream_reader := fun max inp pos => if_ok (small_input inp) (pr max inp pos).
(** Also at least four bytes, where the unpacker starts. *)
Definition small_unpacker (up : unpacker) : unpacker := fun inp pos =>
  if_ok (small_input inp && (4 <=? List.length (skipn pos inp))%nat) (up inp pos).

(** ** Machines *)

(** Objects are not empty and not huge.  malloc has less than 2^63 bytes, and where it
    finds a block it also finds a smaller one (not one of 0 bytes, perhaps). *)
Record sane (M : machine) : Prop := {
  sane_sizeof : forall t, 1 <= mc_sizeof M t <= 2 ^ 31;
  sane_limit : forall z, 2 ^ 63 <= z -> mc_alloc M z = false;
  sane_smaller : forall a b, 0 < a <= b -> mc_alloc M b = true -> mc_alloc M a = true }.

(** There is memory for this value. *)
Definition c_text_fits (M : machine) (s : list byte) : Prop :=
  Z.of_nat (List.length s) + 1 < 2 ^ 31 /\ mc_alloc M (Z.of_nat (List.length s) + 1) = true.
Definition c_list_fits (M : machine) (n : nat) : Prop :=
  forall t, 0 <= c_sizeof M t * Z.of_nat n < 2 ^ 64 /\ mc_alloc M (c_sizeof M t * Z.of_nat n) = true.
Definition c_fits (M : machine) (v : val) : Prop :=
  strings (c_text_fits M) v /\ lists (c_list_fits M) v.

(** Lists do not count with 64 bits. *)
Definition c_counts (p : protocol) : Prop :=
  p_list_size_type p <> "int64"%string /\ p_list_size_type p <> "uint64"%string.

(** ** Protocols *)

(** The names at the top of the file are different, and those of the members of every
    struct. *)
Definition c_names (p : protocol) : Prop :=
  NoDup (c_names_of p) /\ forall t s, declares p t s -> NoDup (c_field_names s).
(** A struct that has another one as a member stands behind it in the file. *)
Definition in_order (p : protocol) : Prop :=
  forall i t s m, nth_error (p_structs p) i = Some (t, s) -> In m (s_members s) -> is_struct p (v_type m) ->
    exists j s', (j < i)%nat /\ nth_error (p_structs p) j = Some (v_type m, s').
(** Lengths of lists and strings have the same type, or there is no list of strings. *)
Definition one_length (p : protocol) : Prop :=
  p_list_size_type p = p_string_size_type p \/
  forall t s m, declares p t s -> In m (s_members s) -> v_list m = true -> v_type m <> "string"%string.
Definition c_builds (p : protocol) : Prop := c_names p /\ in_order p /\ one_length p.

(** ** Functions that take objects *)

(** What is said about a value and its bytes, for an object that stands for it. *)
Definition c_writer_does (K : (wstate -> wout) -> list byte -> Prop) (p : protocol)
  (wr : string -> cfields -> wstate -> wout) : Prop :=
  forall t s fs v bs, declares p t s -> stands_for p t fs v -> wire p t v bs -> K (wr t fs) bs.
Definition c_tagged_does (K : (wstate -> wout) -> list byte -> Prop) (p : protocol)
  (wr : string -> cfields -> wstate -> wout) : Prop :=
  forall m fs bs, message_for p fs m -> wire_tagged strict p m bs -> K (wr (fst m) fs) bs.
(** Messages whose bytes are less than 2^31. *)
Definition c_exact_size (p : protocol) (sz : string -> cfields -> mout) : Prop :=
  forall t fs v bs, is_message_name p t -> stands_for p t fs v -> wire p t v bs ->
    Z.of_nat (List.length bs) < 2 ^ 31 -> sz t fs = MRet (Z.of_nat (List.length bs)).
Definition c_exact_packed_size (p : protocol) (sz : list cfields -> mout) : Prop :=
  forall fss ms bs, Forall2 (message_for p) fss ms -> wire_packed strict p ms bs ->
    Z.of_nat (List.length bs) < 2 ^ 31 -> sz fss = MRet (Z.of_nat (List.length bs)).
