(** Model of beschi/writers/zig.py and of boilerplate/Zig.zig.

    Left out: the text around the statements, memory (see ZigMemory.v), and what the
    Zig compiler checks, except for what is in [zig_compiles] and [zig_reads].  A Zig
    string is its bytes.  [usize] is 64 bits wide; an input is shorter than 2^63
    bytes.  Memory for strings, which are no longer than the input, and for the list
    of messages can always be had; for other lists see [room]. *)
From Verif Require Export Stream.

(** zig.py:19-28, type_mapping, for numbers. *)
Definition zig_types : list (string * string) :=
  [("byte", "u8"); ("bool", "bool"); ("uint16", "u16"); ("int16", "i16"); ("uint32", "u32");
   ("int32", "i32"); ("uint64", "u64"); ("int64", "i64"); ("float", "f32"); ("double", "f64")]%string.

(** Zig.zig:64-99 and 179-202, what readNumber and writeNumber do for a type. *)
Definition zig_numbers : list (string * num) :=
  [("bool", NBool); ("u8", NByte); ("u16", NU16); ("i16", NI16); ("u32", NU32); ("i32", NI32);
   ("u64", NU64); ("i64", NI64); ("f32", NF32); ("f64", NF64)]%string.
Definition zig_prim : string -> option num := prim zig_types zig_numbers.

(** ** Reading *)

(** zig.py:48, the constant that holds a member until the struct is built. *)
Definition zig_local (s : struct) (m : var) : string := (s_name s +++ "_" +++ v_name m)%string.

(** zig.py:46-54, deserializer in a simple struct: numbers and enums are read at
    fixed offsets.  The result of fromBytes is used without [try], which is an
    error. *)
Definition zig_read_at (p : protocol) (s : struct) (off : Z) (m : var) : list rstmt :=
  let x := zig_local s m in
  if mem (v_type m) NUMERIC_TYPE_SIZES then
    with_prim (zig_prim (v_type m)) RIllTyped (fun k => [RNumAt (DLocal x) k off])
  else if mem (v_type m) (p_enums p) then [REnumAt (DLocal x) (v_type m) off]
  else [RIllTyped].
Fixpoint zig_read_simple (p : protocol) (s : struct) (off : Z) (ms : list var) : list rstmt :=
  match ms with
  | [] => []
  | m :: r => zig_read_at p s off m ++ zig_read_simple p s (off + size_of p (v_type m)) r
  end.

(** zig.py:55-71, deserializer elsewhere; [x_read], [x] and the new local_offset.
    readNumber tests enums (Zig.zig:86-92). *)
Definition zig_read (p : protocol) (s : struct) (m : var) : list rstmt :=
  let x := zig_local s m in
  let t := v_type m in
  if v_list m then [RList (DLocal x) t]
  else if mem t NUMERIC_TYPE_SIZES then with_prim (zig_prim t) RIllTyped (fun k => [RNum (DLocal x) k])
  else match lookup t (p_enums p) with
  | Some e => with_prim (zig_prim (e_encoding e)) RIllTyped (fun k => [RNum (DLocal x) k; REnumCheck x t])
  | None => if String.eqb t "string" then [RStr (DLocal x)] else [RCall (DLocal x) t]
  end.

(** zig.py:193-216, the body of fromBytes. *)
Definition zig_reader (p : protocol) (s : struct) : list rstmt :=
  let build := RBuild (map (fun m => (v_name m, zig_local s m)) (s_members s)) in
  if is_simple p (s_name s) then
    zig_read_simple p s 0 (s_members s) ++ [build; RAdvance (size_of p (s_name s))]
  else flat_map (zig_read p s) (s_members s) ++ [build].

(** Zig.zig:101-114, readString.  The sum of offset, size and length panics when it
    overflows; so does the sum of size and length, which is computed in the size type
    (Zig.zig:113).  (Negative lengths do not occur, see [zig_reads].) *)
Definition zig_str (p : protocol) (inp : list byte) (pos : nat) : got (list byte) :=
  match zig_prim (p_string_size_type p) with
  | None => Crash
  | Some k =>
      match read_num k inp pos with
      | Got (VInt z) q =>
          if z <? 0 then Miss q
          else if Z.of_nat q + z <=? Z.of_nat (List.length inp)
          then if z + Z.of_nat (num_size k) <=? num_max k
               then Got (firstn (Z.to_nat z) (skipn q inp)) (q + Z.to_nat z)
               else Crash
          else if (2 ^ 32 <=? z) && (2 ^ 64 <=? Z.of_nat q + z) then Crash
          else Miss q
      | Got _ _ => Crash
      | Miss q => Miss q
      | Crash => Crash
      end
  end.

Section Runtime.
(** The largest list of a type for which the allocator finds memory.  If there is
    none, readList returns the error (Zig.zig:121).  (Negative lengths do not occur,
    see [zig_reads].) *)
Variable room : string -> Z.
Definition zig_make (t : string) (z : Z) : got unit :=
  if (z <? 0) || (room t <? z) then Miss 0 else Got tt 0.

(** The initial object is not used: it is built at the end. *)
Definition zig_rt : rt :=
  {| rt_num := read_num;
     rt_str := zig_str;
     rt_raw := fun _ _ _ _ => Crash;
     rt_enum := only_declared;
     rt_make := zig_make;
     rt_for := fun _ => Got tt 0;
     rt_zero := fun _ _ => VUndef;
     rt_init := fun _ _ => [] |}.
End Runtime.

(** ** What does not compile *)

(** Zig.zig and zig.py:298-355: names declared at the top of the file. *)
Definition zig_top : list string :=
  ["std"; "DataReaderError"; "numberTypeIsValid"; "simpleTypes"; "enumTypes"; "typeIsSimple"; "typeIsEnum";
   "isValidEnum"; "readNumber"; "readString"; "readList"; "writeNumber"; "writeString"; "writeList";
   "writeBytes"; "getPackedSize"; "packMessages"; "unpackMessages"; "MessageType"; "Message";
   "processRawBytes"]%string.

(** Names of parameters, local variables and captures in the file, and of the
    functions inside the types.  They may not be names of types: nothing may be
    called like something declared further out.  (deinit is counted even if no
    struct has it.) *)
Definition zig_inner : list string :=
  ["T"; "Te"; "Ti"; "offset"; "buffer"; "allocator"; "self"; "tag"; "value"; "val"; "raw"; "ei"; "enum_info";
   "actual_type"; "vt"; "f"; "validNumericTypes"; "len_read"; "len"; "str"; "i"; "list"; "made_count";
   "list_read"; "item"; "slice"; "m"; "inner"; "msg_list"; "size"; "msg"; "header_bytes"; "b";
   "msg_count_read"; "msg_count"; "max"; "msg_type_byte"; "msg_type"; "msg_read"; "local_offset"; "s";
   "item2"; "getSizeInBytes"; "fromBytes"; "deinit"]%string.

(** zig.py:113: captures called el0, el1, ...  (All are counted, even if there is no
    such loop.) *)
Definition zig_digit (c : ascii) : bool := ((48 <=? nat_of_ascii c) && (nat_of_ascii c <=? 57))%nat.
Fixpoint zig_digits (s : string) : bool :=
  match s with EmptyString => true | String c r => zig_digit c && zig_digits r end.
Definition zig_capture (n : string) : bool :=
  match n with
  | String "e" (String "l" (String c r)) => zig_digit c && zig_digits r
  | _ => false
  end.

Definition zig_type_names (p : protocol) : list string :=
  map fst (p_enums p) ++ map fst (p_structs p) ++ map fst (p_messages p).

(** zig.py:46-71: what fromBytes declares for a member, after its parameters. *)
Definition zig_params (p : protocol) (s : struct) : list string :=
  if is_simple p (s_name s) then ["offset"; "buffer"]%string
  else ["allocator"; "offset"; "buffer"; "local_offset"]%string.
Definition zig_locals (p : protocol) (s : struct) (m : var) : list string :=
  let x := zig_local s m in
  if is_simple p (s_name s) && (mem (v_type m) NUMERIC_TYPE_SIZES || mem (v_type m) (p_enums p))
  then [x] else [(x +++ "_read")%string; x].

(** No two constants of fromBytes have the same name, and none has a name declared
    further out.  No member is called like a function of the struct.  A simple
    struct needs a number: otherwise writeBytes does not use its parameters
    (zig.py:75-78, 225-231). *)
Definition zig_struct_compiles (p : protocol) (s : struct) : bool :=
  negb (has_dup_str (zig_params p s ++ flat_map (zig_locals p s) (s_members s))) &&
  forallb (fun x => negb (in_strs x (zig_top ++ zig_type_names p))) (flat_map (zig_locals p s) (s_members s)) &&
  forallb (fun m => negb (in_strs (v_name m) ["getSizeInBytes"; "fromBytes"; "writeBytes"; "deinit"]%string)) (s_members s) &&
  (s_is_message s || negb (is_simple p (s_name s)) ||
   existsb (fun m => mem (v_type m) NUMERIC_TYPE_SIZES) (s_members s)).

(** Not covered: names that are keywords or primitive types.  These errors concern
    the whole file, whatever is used of it. *)
Definition zig_compiles (p : protocol) : bool :=
  negb (has_dup_str (zig_top ++ zig_type_names p)) &&
  forallb (fun t => negb (in_strs t zig_inner) && negb (zig_capture t)) (zig_type_names p) &&
  forallb (fun ns => zig_struct_compiles p (snd ns)) (p_structs p ++ p_messages p).

(** These errors concern only functions that are used; here a program that uses
    fromBytes of one type is taken to use it of all.  readString and readList need
    unsigned sizes (Zig.zig:109-110, 121, 148), and fromBytes of a simple struct with
    structs in it is wrong (see [zig_read_at]). *)
Definition zig_unsigned (t : string) : bool := in_strs t ["byte"; "uint16"; "uint32"; "uint64"]%string.
Definition zig_reads (p : protocol) : bool :=
  (zig_unsigned (p_list_size_type p) || negb (has_lists p)) &&
  (zig_unsigned (p_string_size_type p) || negb (has_strings p)) &&
  forallb (fun ns => negb (is_simple p (s_name (snd ns))) ||
             forallb (fun m => mem (v_type m) NUMERIC_TYPE_SIZES || mem (v_type m) (p_enums p)) (s_members (snd ns)))
    (p_structs p ++ p_messages p).

(** T.fromBytes(allocator, pos, buffer), and the position after bytes_read. *)
Definition zig_from_bytes (room : string -> Z) (p : protocol) (t : string) (inp : list byte) (pos : nat) : res val :=
  if zig_compiles p && zig_reads p then read_with (zig_rt room) zig_reader p t inp pos else RStuck.

(** ** Writing *)

(** zig.py:76-78, serializer in a simple struct: only numbers are written. *)
Definition zig_write_at (off : Z) (m : var) : list wstmt :=
  if mem (v_type m) NUMERIC_TYPE_SIZES then
    with_prim (zig_prim (v_type m)) WIllTyped (fun k => [WNumAt k (SField (v_name m)) off])
  else [].
Fixpoint zig_write_simple (p : protocol) (off : Z) (ms : list var) : list wstmt :=
  match ms with
  | [] => [WAdvance off]
  | m :: r => zig_write_at off m ++ zig_write_simple p (off + size_of p (v_type m)) r
  end.

(** zig.py:79-87, serializer elsewhere. *)
Definition zig_write (p : protocol) (m : var) : list wstmt :=
  let n := v_name m in
  let t := v_type m in
  if v_list m then [WList t (SField n)]
  else if mem t NUMERIC_TYPE_SIZES then with_prim (zig_prim t) WIllTyped (fun k => [WNum k (SField n)])
  else match lookup t (p_enums p) with
  | Some e => with_prim (zig_prim (e_encoding e)) WIllTyped (fun k => [WNum k (SField n)])
  | None => if String.eqb t "string" then [WStr (SField n)] else [WCall t (SField n)]
  end.

(** zig.py:221-262, the body of writeBytes without the tag. *)
Definition zig_writer (p : protocol) (s : struct) : list wstmt :=
  if is_simple p (s_name s) && negb (s_is_message s) then zig_write_simple p 0 (s_members s)
  else flat_map (zig_write p) (s_members s).

(** Zig.zig:179-230.  Writing outside of the buffer panics; so does [@intCast] for a
    length that does not fit.  writeString uses LIST_SIZE_TYPE. *)
Definition zig_wt : wt :=
  {| wt_put := put_checked; wt_strlen := p_list_size_type; wt_traps := true; wt_raw := fun _ _ _ => None |}.

(** writeBytes(offset, buffer, false) of a message, writeBytes(offset, buffer) of a
    struct. *)
Definition zig_write_bytes (p : protocol) (t : string) (v : val) (w : wstate) : wout :=
  if zig_compiles p then write_with zig_wt zig_writer p t v w else WStuck.

(** zig.py:92-132: [for (...) |el0|], [for (...) |s|]. *)
Definition zig_style : style :=
  {| st_loop := fun lvl _ => LEach ("el" +++ dec_str lvl);
     st_strs := fun _ _ => LEach "s";
     st_deeper := 1; st_utf16 := false |}.

(** zig.py:178-190, getSizeInBytes. *)
Definition zig_size (p : protocol) (t : string) (v : val) : mout :=
  if zig_compiles p then size_with zig_style p 0 t v else MStuck.

(** ** Fresh objects *)

(** zig.py:31-43, base_defaults. *)
Definition zig_defaults : list (string * val) :=
  [("byte", VInt 0); ("bool", VBool false); ("uint16", VInt 0); ("int16", VInt 0); ("uint32", VInt 0);
   ("int32", VInt 0); ("uint64", VInt 0); ("int64", VInt 0); ("float", VInt 0); ("double", VInt 0);
   ("string", VStr [])]%string.
(** zig.py:164-175, the defaults of the members.  [d] bounds the nesting. *)
Fixpoint zig_default (p : protocol) (d : nat) (t : string) : list (string * val) :=
  match find_struct p t with
  | None => []
  | Some s =>
      map (fun m =>
        (v_name m,
         if v_list m then VList []
         else match lookup (v_type m) zig_defaults with
         | Some v => v
         | None =>
             match lookup (v_type m) (p_enums p) with
             | Some e => match get_default_pair e with Some (_, z) => VInt z | None => VUndef end
             | None => match d with S d' => VStruct (zig_default p d' (v_type m)) | O => VUndef end
             end
         end)) (s_members s)
  end.

(** ** Streams *)

(** zig.py:315-320, MessageType, numbered from 0; zig.py:239 and 249, the tag that is
    written. *)
Definition zig_message_type (p : protocol) : list (Z * string) := count_from 0 (p_messages p).
Definition zig_tags (p : protocol) : list (Z * string) := count_from 1 (p_messages p).

(** zig.py:355-394, processRawBytes (there [pos] is 0). *)
Definition zig_stream (room : string -> Z) : stream :=
  {| sm_finished := fun inp pos => (List.length inp <=? pos)%nat;
     sm_tag := byte_tag (read_num NByte);
     sm_case := fun p b => tag_case (b - 1) (zig_message_type p);
     sm_read := zig_from_bytes room;
     sm_lenient := false |}.
Definition zig_process (room : string -> Z) (p : protocol) (max : Z) (inp : list byte) (pos : nat)
  : res (list (string * val)) :=
  if zig_compiles p && zig_reads p then process (zig_stream room) p max inp pos else RStuck.

(** zig.py:222-252, writeBytes(offset, buffer, true). *)
Definition zig_write_tagged (p : protocol) (t : string) (v : val) (w : wstate) : wout :=
  write_tagged zig_wt (zig_tags p) (zig_write_bytes p) (t, v) w.

(** Zig.zig:248-262, packMessages (there the position is 0). *)
Definition zig_pack (p : protocol) : list (string * val) -> wstate -> wout :=
  pack zig_wt (zig_tags p) (zig_write_bytes p).

(** Zig.zig:238-246, getPackedSize. *)
Definition zig_packed_size (p : protocol) : list (string * val) -> mout := packed_size (zig_size p).

(** Zig.zig:264-286, unpackMessages.  [buffer\[0..4\]] panics if there are not four
    bytes, and [@intCast] to i32 for a count that does not fit. *)
Definition zig_unpack_data (room : string -> Z) (p : protocol) (data : list byte) : res (list (string * val)) :=
  if zig_compiles p && zig_reads p then
    if (List.length data <? 4)%nat then RTrap
    else if list_eq_dec Byte.byte_eq_dec (firstn 4 data) header then
      match read_num NU32 data 4 with
      | Got (VInt n) q =>
          if 2 ^ 31 <=? n then RTrap
          else shifted q (unpack_counted (zig_stream room) p n n (skipn q data) 0)
      | Got _ _ => RStuck
      | Miss _ => RErr
      | Crash => RTrap
      end
    else RErr
  else RStuck.

(** The same for everything from [pos] on. *)
Definition zig_unpack (room : string -> Z) (p : protocol) (inp : list byte) (pos : nat)
  : res (list (string * val)) := shifted pos (zig_unpack_data room p (skipn pos inp)).
