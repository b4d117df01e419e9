(** What generated code should do, stated for any reader, writer, size function
    and stream function; the property files apply it to each language.

    Written in terms of the wire format (Wire.v) only. *)
From Verif Require Export ProtocolSpec Wire IR Measure.
Open Scope list_scope.

(** The functions of generated code, with the protocol already given: name of the
    struct or message, input bytes, position. *)
Definition reader := string -> list byte -> nat -> res val.
Definition writer := string -> val -> wstate -> wout.
Definition sizer := string -> val -> mout.
Definition message_list := list (string * val).
(** [max], input, position. *)
Definition stream_reader := Z -> list byte -> nat -> res message_list.
Definition unpacker := list byte -> nat -> res message_list.
Definition packer := message_list -> wstate -> wout.

(** ** Outcomes *)

(** A value or a reported failure; a crash only if [trap]. *)
Definition answers {A} (trap : bool) (r : res A) : Prop :=
  match r with ROk _ _ | RErr => True | RTrap => trap = true | _ => False end.
(** A reported failure; a crash only if [trap]. *)
Definition fails {A} (trap : bool) (r : res A) : Prop := r = RErr \/ (trap = true /\ r = RTrap).

(** Whatever the input, the reader gives an answer. *)
Definition always_answers (p : protocol) (trap : bool) (rd : reader) : Prop :=
  forall t s inp pos, declares p t s -> answers trap (rd t inp pos).

(** ** One message *)

(** C10 to C17, reading.  A value that satisfies [Q] comes back from its encoding,
    wherever it stands and whatever follows, and reading stops right behind it.  ([reading]
    allows any non-zero byte for true.) *)
Definition reads_back (p : protocol) (Q : val -> Prop) (rd : reader) : Prop :=
  forall md t s v bs before after, md = strict \/ md = reading ->
    declares p t s -> wire_in md p t v bs -> Q v ->
    rd t (before ++ bs ++ after) (List.length before) = ROk v (List.length before + List.length bs).

(** C10 to C17, writing: three kinds of destination.  Growing: the bytes are
    appended. *)
Definition appends (f : wstate -> wout) (bs : list byte) : Prop :=
  forall w, f w = WDone {| w_buf := w_buf w ++ bs; w_pos := (w_pos w + List.length bs)%nat |}.
(** Fixed, with enough room: exactly those bytes change. *)
Definition fills (f : wstate -> wout) (bs : list byte) : Prop :=
  forall before old after, List.length old = List.length bs ->
    f {| w_buf := before ++ old ++ after; w_pos := List.length before |}
    = WDone {| w_buf := before ++ bs ++ after; w_pos := (List.length before + List.length bs)%nat |}.
(** Fixed, without enough room: failure; the buffer keeps its size, nothing before
    the start changes. *)
Definition refuses_short (f : wstate -> wout) (bs : list byte) : Prop :=
  forall w, (w_pos w <= List.length (w_buf w) < w_pos w + List.length bs)%nat ->
    exists w', f w = WFail w' /\ List.length (w_buf w') = List.length (w_buf w) /\
      firstn (w_pos w) (w_buf w') = firstn (w_pos w) (w_buf w).
(** The same in a language that crashes there. *)
Definition traps_short (f : wstate -> wout) (bs : list byte) : Prop :=
  forall w, (w_pos w <= List.length (w_buf w) < w_pos w + List.length bs)%nat -> f w = WTrap.

(** The writer of every struct and message does this for every encodable value. *)
Definition writer_does (K : (wstate -> wout) -> list byte -> Prop) (p : protocol) (wr : writer) : Prop :=
  forall t s v bs, declares p t s -> wire p t v bs -> K (wr t v) bs.

(** C07: the same with the message number in front. *)
Definition tagged_writer_does (K : (wstate -> wout) -> list byte -> Prop) (p : protocol) (wr : writer) : Prop :=
  forall m bs, wire_tagged strict p m bs -> K (wr (fst m) (snd m)) bs.

(** C41.  [can_hold p t v]: an object of type [t] can hold [v]; its lists and strings
    may be longer than their size types allow, otherwise it is as in [in_range]. *)
Inductive can_hold (p : protocol) : string -> val -> Prop :=
| ch_num t k v : num_of t = Some k -> num_ok k v -> can_hold p t v
| ch_str s : can_hold p "string" (VStr s)
| ch_enum t e z : In (t, e) (p_enums p) -> In z (map snd (e_values e)) -> can_hold p t (VInt z)
| ch_struct t s fs : declares p t s -> can_hold_members p (s_members s) fs -> can_hold p t (VStruct fs)
with can_hold_members (p : protocol) : list var -> list (string * val) -> Prop :=
| chm_nil : can_hold_members p [] []
| chm_one m ms v fs : v_list m = false -> can_hold p (v_type m) v ->
    can_hold_members p ms fs -> can_hold_members p (m :: ms) ((v_name m, v) :: fs)
| chm_list m ms vs fs : v_list m = true -> can_hold_all p (v_type m) vs ->
    can_hold_members p ms fs -> can_hold_members p (m :: ms) ((v_name m, VList vs) :: fs)
with can_hold_all (p : protocol) : string -> list val -> Prop :=
| cha_nil t : can_hold_all p t []
| cha_cons t v vs : can_hold p t v -> can_hold_all p t vs -> can_hold_all p t (v :: vs).

(** The writer succeeds only with values whose lengths fit. *)
Definition refuses_overlong (p : protocol) (wr : writer) : Prop :=
  forall t s v w w', declares p t s -> can_hold p t v -> wr t v w = WDone w' -> in_range p t v.
(** The contrary: it writes something that is read as a different value. *)
Definition corrupts_overlong (p : protocol) (wr : writer) (rd : reader) : Prop :=
  exists t s v w w' v' q, In (t, s) (p_messages p) /\ can_hold p t v /\ wr t v w = WDone w' /\
    rd t (w_buf w') 0%nat = ROk v' q /\ v' <> v.

(** C19. *)
Definition exact_size (p : protocol) (sz : sizer) : Prop :=
  forall t s v bs, declares p t s -> wire p t v bs -> sz t v = MRet (Z.of_nat (List.length bs)).

(** The same for values that satisfy [Q], and sizes below [lim]. *)
Definition exact_size_for (p : protocol) (Q : val -> Prop) (lim : Z) (sz : sizer) : Prop :=
  forall t s v bs, declares p t s -> wire p t v bs -> Q v -> Z.of_nat (List.length bs) < lim ->
    sz t v = MRet (Z.of_nat (List.length bs)).

(** C20.  A strict prefix of an encoding. *)
Definition rejects_truncated (p : protocol) (trap : bool) (rd : reader) : Prop :=
  forall t s v bs before cut x rest, declares p t s -> wire_in reading p t v bs ->
    bs = cut ++ x :: rest -> fails trap (rd t (before ++ cut) (List.length before)).

(** C21.  What was accepted holds declared enum values; or others that are [ok]. *)
Definition only_enums_in (ok : enum -> Z -> Prop) (p : protocol) (rd : reader) : Prop :=
  forall t s inp pos v pos', declares p t s -> rd t inp pos = ROk v pos' -> enums_in ok p t v.
Definition only_declared_enums : protocol -> reader -> Prop := only_enums_in (fun e z => In z (map snd (e_values e))).

(** C22.  What was accepted is an encoding; [txt] is how the language turns bytes
    into text. *)
Definition only_wire (p : protocol) (txt : list byte -> option (list byte)) (rd : reader) : Prop :=
  forall t s inp pos v pos', declares p t s -> rd t inp pos = ROk v pos' ->
    exists v0 bs rest, skipn pos inp = bs ++ rest /\ pos' = (pos + List.length bs)%nat /\
      wire_in reading p t v0 bs /\ texted txt v0 v.

(** C44.  What was accepted holds well formed text only. *)
Definition returns_text (p : protocol) (rd : reader) : Prop :=
  forall t s inp pos v pos', declares p t s -> rd t inp pos = ROk v pos' -> texts v.

(** C20 and C22 for messages only, not for the structs inside them. *)
Definition rejects_truncated_messages (p : protocol) (trap : bool) (rd : reader) : Prop :=
  forall t s v bs before cut x rest, In (t, s) (p_messages p) -> wire_in reading p t v bs ->
    bs = cut ++ x :: rest -> fails trap (rd t (before ++ cut) (List.length before)).
Definition only_wire_messages (p : protocol) (txt : list byte -> option (list byte)) (rd : reader) : Prop :=
  forall t s inp pos v pos', In (t, s) (p_messages p) -> rd t inp pos = ROk v pos' ->
    exists v0 bs rest, skipn pos inp = bs ++ rest /\ pos' = (pos + List.length bs)%nat /\
      wire_in reading p t v0 bs /\ texted txt v0 v.

(** ** Streams *)

Definition all_values (Q : val -> Prop) (ms : message_list) : Prop := Forall (fun m => Q (snd m)) ms.
Definition all_strings (P : list byte -> Prop) : message_list -> Prop := all_values (strings P).

(** C24. *)
Definition reads_streams (p : protocol) (Q : val -> Prop) (pr : stream_reader) : Prop :=
  forall ms bs before max, wire_stream strict p ms bs -> all_values Q ms ->
    (max < 0 \/ Z.of_nat (List.length ms) <= max ->
       pr max (before ++ bs) (List.length before) = ROk ms (List.length before + List.length bs)) /\
    (max < 0 \/ Z.of_nat (List.length ms) < max -> forall after,
       pr max (before ++ bs ++ x00 :: after) (List.length before)
       = ROk ms (List.length before + List.length bs + 1)).

(** C25.  The first [n] messages are read, whatever follows them. *)
Definition stops_at_max (p : protocol) (Q : val -> Prop) (pr : stream_reader) : Prop :=
  forall ms bs before after, wire_stream strict p ms bs -> all_values Q ms ->
    pr (Z.of_nat (List.length ms)) (before ++ bs ++ after) (List.length before)
    = ROk ms (List.length before + List.length bs).

(** C26. *)
Definition rejects_unknown (p : protocol) (Q : val -> Prop) (pr : stream_reader) : Prop :=
  forall ms bs before b after max, wire_stream strict p ms bs -> all_values Q ms ->
    max < 0 \/ Z.of_nat (List.length ms) < max ->
    b <> x00 -> (forall t, ~ numbered p t (Z_of_byte b)) ->
    pr max (before ++ bs ++ b :: after) (List.length before) = RErr.

(** C20 for streams: the last message is cut short. *)
Definition rejects_cut_streams (p : protocol) (Q : val -> Prop) (trap : bool) (pr : stream_reader) : Prop :=
  forall ms bs before m last cut x rest max, wire_stream strict p ms bs -> all_values Q ms ->
    max < 0 \/ Z.of_nat (List.length ms) < max ->
    wire_tagged strict p m last -> last = cut ++ x :: rest -> cut <> [] ->
    fails trap (pr max (before ++ bs ++ cut) (List.length before)).

(** Where a stream reader may stop: at the end of the data, behind a zero byte, or
    after [max] messages. *)
Definition stops (inp : list byte) (max : Z) (n : nat) (here q : nat) : Prop :=
  (skipn here inp = [] /\ q = here) \/
  (exists rest, skipn here inp = x00 :: rest /\ q = (here + 1)%nat) \/
  (max = Z.of_nat n /\ q = here).

(** C22 for streams. *)
Definition only_streams (p : protocol) (txt : list byte -> option (list byte)) (pr : stream_reader) : Prop :=
  forall max inp pos ms q, pr max inp pos = ROk ms q ->
    exists ms0 bs rest, skipn pos inp = bs ++ rest /\ wire_stream reading p ms0 bs /\ same_texts txt ms0 ms /\
      stops inp max (List.length ms) (pos + List.length bs) q.

Definition stream_answers (trap : bool) (pr : stream_reader) : Prop :=
  forall max inp pos, answers trap (pr max inp pos).

(** ** Packed buffers *)

(** C27, writing. *)
Definition packer_does (K : (wstate -> wout) -> list byte -> Prop) (p : protocol) (pk : packer) : Prop :=
  forall ms bs, wire_packed strict p ms bs -> K (pk ms) bs.

(** C27, reading, for up to [most] messages.  The closing zero byte is left unread. *)
Definition unpacks (p : protocol) (Q : val -> Prop) (most : Z) (up : unpacker) : Prop :=
  forall ms bs before after, wire_packed strict p ms bs -> all_values Q ms ->
    Z.of_nat (List.length ms) <= most ->
    up (before ++ bs ++ after) (List.length before) = ROk ms (List.length before + List.length bs - 1).

(** The same for buffers of at least [least] bytes. *)
Definition unpacks_from (least : nat) (p : protocol) (Q : val -> Prop) (most : Z) (up : unpacker) : Prop :=
  forall ms bs before after, wire_packed strict p ms bs -> all_values Q ms ->
    Z.of_nat (List.length ms) <= most -> (least <= List.length (bs ++ after))%nat ->
    up (before ++ bs ++ after) (List.length before) = ROk ms (List.length before + List.length bs - 1).

(** C28. *)
Definition exact_packed_size (p : protocol) (sz : message_list -> mout) : Prop :=
  forall ms bs, wire_packed strict p ms bs -> sz ms = MRet (Z.of_nat (List.length bs)).

Definition exact_packed_size_for (p : protocol) (Q : val -> Prop) (lim : Z) (sz : message_list -> mout) : Prop :=
  forall ms bs, wire_packed strict p ms bs -> all_values Q ms -> Z.of_nat (List.length bs) < lim ->
    sz ms = MRet (Z.of_nat (List.length bs)).

(** C29.  The header is missing or different; the count is incomplete; there are
    fewer messages than the count says. *)
Definition rejects_bad_header (trap : bool) (up : unpacker) : Prop :=
  forall inp pos, (forall rest, skipn pos inp <> header ++ rest) -> fails trap (up inp pos).
Definition rejects_bad_count (trap : bool) (up : unpacker) : Prop :=
  forall inp pos c, skipn pos inp = header ++ c -> (List.length c < 4)%nat -> fails trap (up inp pos).
Definition rejects_missing (p : protocol) (trap : bool) (up : unpacker) : Prop :=
  forall ms bs n nb before after, wire_stream reading p ms bs ->
    wire_num strict NU32 (VInt n) nb -> Z.of_nat (List.length ms) < n ->
    (forall b r, after = b :: r -> b = x00) ->
    fails trap (up (before ++ header ++ nb ++ bs ++ after) (List.length before)).
Definition rejects_missing_for (p : protocol) (Q : val -> Prop) (trap : bool) (up : unpacker) : Prop :=
  forall ms bs n nb before after, wire_stream reading p ms bs -> all_values Q ms ->
    wire_num strict NU32 (VInt n) nb -> Z.of_nat (List.length ms) < n ->
    (forall b r, after = b :: r -> b = x00) ->
    fails trap (up (before ++ header ++ nb ++ bs ++ after) (List.length before)).

(** C22 for packed buffers. *)
Definition only_packed (p : protocol) (txt : list byte -> option (list byte)) (up : unpacker) : Prop :=
  forall inp pos ms q, up inp pos = ROk ms q ->
    exists ms0 nb bs rest, skipn pos inp = header ++ nb ++ bs ++ rest /\
      wire_num strict NU32 (VInt (Z.of_nat (List.length ms))) nb /\
      wire_stream reading p ms0 bs /\ same_texts txt ms0 ms.

Definition unpack_answers (trap : bool) (up : unpacker) : Prop :=
  forall inp pos, answers trap (up inp pos).

(** ** Fresh objects *)

(** C30.  Zero numbers, false, empty strings and lists, first listed enum values. *)
Inductive fresh (p : protocol) : string -> val -> Prop :=
| fr_num t k : num_of t = Some k -> fresh p t (match k with NBool => VBool false | _ => VInt 0 end)
| fr_str : fresh p "string" (VStr [])
| fr_enum t e n z r : In (t, e) (p_enums p) -> e_values e = (n, z) :: r -> fresh p t (VInt z)
| fr_struct t s fs : declares p t s -> Forall2 (fun m f => fst f = v_name m /\
      ((v_list m = true /\ snd f = VList []) \/ (v_list m = false /\ fresh p (v_type m) (snd f))))
    (s_members s) fs -> fresh p t (VStruct fs).
