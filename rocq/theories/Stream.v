(** Streams of tagged messages and packed buffers: the parts that the target
    languages share.

    Every language has the same loop (ProcessRawBytes), printed by its generator or
    taken from its boilerplate, and the same Pack/Unpack/GetPackedSize functions.
    They differ in the places that are fields of [stream] or arguments below; each
    language file cites its own lines. *)
From Verif Require Export Lang.

(** [enumerate(self.protocol.messages)] with a starting number. *)
Fixpoint count_from (k : Z) (l : list (string * struct)) : list (Z * string) :=
  match l with
  | [] => []
  | (n, _) :: r => (k, n) :: count_from (k + 1) r
  end.

(** A switch over message numbers: the first case that fits. *)
Fixpoint tag_case (b : Z) (l : list (Z * string)) : option string :=
  match l with
  | [] => None
  | (k, n) :: r => if k =? b then Some n else tag_case b r
  end.

(** The number of a message in the generated MessageType. *)
Fixpoint tag_of (t : string) (l : list (Z * string)) : option Z :=
  match l with
  | [] => None
  | (k, n) :: r => if String.eqb n t then Some k else tag_of t r
  end.

Record stream := {
  (** the end test of the loop *)
  sm_finished : list byte -> nat -> bool;
  (** reading the tag byte; a language that leaves the loop here gives tag 0 *)
  sm_tag : list byte -> nat -> res Z;
  (** the message that a tag stands for *)
  sm_case : protocol -> Z -> option string;
  (** FromBytes of a message *)
  sm_read : protocol -> string -> list byte -> nat -> res val;
  (** an unknown tag or a broken message ends the list instead of failing *)
  sm_lenient : bool }.

(** Reading the tag with the language's byte reader. *)
Definition byte_tag (rd : list byte -> nat -> got val) (inp : list byte) (pos : nat) : res Z :=
  match rd inp pos with
  | Got (VInt z) q => ROk z q
  | Got _ _ => RStuck
  | Miss _ => RErr
  | Crash => RTrap
  end.

(** The loop.  Each round takes at least the tag byte, so the length of the input
    bounds the rounds.  (In the lenient case the position after a broken message
    is not modelled; nobody uses it.) *)
Fixpoint process_from (fuel : nat) (S : stream) (p : protocol) (max : Z) (inp : list byte) (pos : nat)
         (acc : list (string * val)) : res (list (string * val)) :=
  match fuel with
  | O => RFuel
  | Datatypes.S f =>
      if sm_finished S inp pos || negb ((max <? 0) || (Z.of_nat (List.length acc) <? max))
      then ROk acc pos
      else match sm_tag S inp pos with
      | ROk b q =>
          if b =? 0 then ROk acc q
          else match sm_case S p b with
          | None => if sm_lenient S then ROk acc q else RErr
          | Some t =>
              match sm_read S p t inp q with
              | ROk v q' => process_from f S p max inp q' (acc ++ [(t, v)])
              | RErr => if sm_lenient S then ROk acc q else RErr
              | RTrap => RTrap | RStuck => RStuck | RFuel => RFuel
              end
          end
      | RErr => RErr | RTrap => RTrap | RStuck => RStuck | RFuel => RFuel
      end
  end.

(** ProcessRawBytes; a negative [max] means no limit. *)
Definition process (S : stream) (p : protocol) (max : Z) (inp : list byte) (pos : nat)
  : res (list (string * val)) :=
  if max =? 0 then ROk [] pos
  else process_from (Datatypes.S (Datatypes.S (List.length inp))) S p max inp pos [].

(** UnpackMessages after the count [n] has been read; [max] is the count as it is
    handed to ProcessRawBytes. *)
Definition unpack_counted (S : stream) (p : protocol) (n max : Z) (inp : list byte) (pos : nat)
  : res (list (string * val)) :=
  if n =? 0 then ROk [] pos
  else match process S p max inp pos with
  | ROk ms q =>
      if (List.length ms =? 0)%nat then RErr
      else if Z.of_nat (List.length ms) =? n then ROk ms q else RErr
  | r => r
  end.

(** A result obtained from a part of the input that starts [off] bytes in. *)
Definition shifted {A} (off : nat) (r : res A) : res A :=
  match r with
  | ROk a q => ROk a (off + q)
  | RErr => RErr | RTrap => RTrap | RStuck => RStuck | RFuel => RFuel
  end.

Section Pack.
Variable T : wt.
Variable tags : list (Z * string).
(** WriteBytes(tag = false) *)
Variable wr : string -> val -> wstate -> wout.

(** WriteBytes(tag = true). *)
Definition write_tagged (m : string * val) (w : wstate) : wout :=
  match tag_of (fst m) tags with
  | Some z => wbind (put_num T NByte (VInt z) w) (wr (fst m) (snd m))
  | None => WStuck
  end.
Fixpoint write_all (ms : list (string * val)) (w : wstate) : wout :=
  match ms with
  | [] => WDone w
  | m :: r => wbind (write_tagged m w) (write_all r)
  end.
(** PackMessages after the header: count, messages, zero byte.  The count is
    converted to 32 bits. *)
Definition pack_rest (ms : list (string * val)) (w : wstate) : wout :=
  wbind (put_len T NU32 (List.length ms) w)
    (fun w1 => wbind (write_all ms w1) (put_num T NByte (VInt 0))).
Definition pack (ms : list (string * val)) (w : wstate) : wout :=
  wbind (wt_put T header w) (pack_rest ms).
End Pack.

(** GetPackedSize. *)
Fixpoint sum_sizes (size : string -> val -> mout) (ms : list (string * val)) : mout :=
  match ms with
  | [] => MRet 0
  | (t, v) :: r =>
      match size t v, sum_sizes size r with
      | MRet a, MRet b => MRet (a + b)
      | MRet _, o => o
      | o, _ => o
      end
  end.
Definition packed_size (size : string -> val -> mout) (ms : list (string * val)) : mout :=
  match sum_sizes size ms with
  | MRet z => MRet (z + Z.of_nat (List.length ms) + 9)
  | o => o
  end.
