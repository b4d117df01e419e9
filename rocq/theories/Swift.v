(** Model of beschi/writers/swift.py and of boilerplate/Swift.0.swift, Swift.1.swift.

    Left out: the text around the statements, and what the Swift compiler checks.
    A Swift string is its UTF-8 encoding.  Integers are 64 bits wide; an input is
    shorter than 2^63 - 2^32 bytes. *)
From Verif Require Export Stream.

(** swift.py:18-28, type_mapping, for numbers. *)
Definition sw_types : list (string * string) :=
  [("byte", "UInt8"); ("bool", "Bool"); ("uint16", "UInt16"); ("int16", "Int16"); ("uint32", "UInt32");
   ("int32", "Int32"); ("uint64", "UInt64"); ("int64", "Int64"); ("float", "Float32"); ("double", "Float64")]%string.

(** Swift.0.swift:17-136, what Get<type>() reads: EOF is thrown when the data are
    too short; GetBool is [GetUInt8() > 0]. *)
Definition sw_getters : list (string * num) :=
  [("UInt8", NByte); ("Bool", NBool); ("Int16", NI16); ("UInt16", NU16); ("Int32", NI32); ("UInt32", NU32);
   ("Int64", NI64); ("UInt64", NU64); ("Float32", NF32); ("Float64", NF64)]%string.
Definition sw_prim : string -> option num := prim sw_types sw_getters.

(** Swift.0.swift:169-222, what Write(<label>:) writes, on a little endian machine;
    the label is the lower case name of the type (swift.py:80-91). *)
Definition sw_labels : list (string * string) :=
  [("byte", "uint8"); ("bool", "bool"); ("uint16", "uint16"); ("int16", "int16"); ("uint32", "uint32");
   ("int32", "int32"); ("uint64", "uint64"); ("int64", "int64"); ("float", "float32"); ("double", "float64")]%string.
Definition sw_setters : list (string * num) :=
  [("uint8", NByte); ("bool", NBool); ("int16", NI16); ("uint16", NU16); ("int32", NI32); ("uint32", NU32);
   ("int64", NI64); ("uint64", NU64); ("float32", NF32); ("float64", NF64)]%string.
Definition sw_label : string -> option num := prim sw_labels sw_setters.

(** swift.py:63-76, deserializer of something that is no list; [d] is accessor and
    name, [x] the local for the number of an enum.  ([guard let _n = E(rawValue: x)]
    and the use of [_n] are REnumCheck and RMove.) *)
Definition sw_read_one (p : protocol) (d : dst) (x t : string) : list rstmt :=
  if mem t NUMERIC_TYPE_SIZES || String.eqb t "string" then
    if String.eqb t "string" then [RStr d]
    else with_prim (sw_prim t) RIllTyped (fun k => [RNum d k])
  else match lookup t (p_enums p) with
  | Some e => with_prim (sw_prim (e_encoding e)) RIllTyped
                (fun k => [RNum (DLocal x) k; REnumCheck x t; RMove d x])
  | None => [RCall d t]
  end.

(** swift.py:44-76, deserializer.  The loop variable has no name. *)
Definition sw_read (p : protocol) (m : var) : list rstmt :=
  let n := v_name m in
  let x := ("_" +++ n +++ "Read")%string in
  let el := ("_" +++ n +++ "_el")%string in
  if v_list m then
    let l := (n +++ "_Length")%string in
    with_prim (sw_prim (p_list_size_type p)) RIllTyped (fun k =>
      [RNum (DLocal l) k;
       RNew (DField n) (v_type m) None;
       RFor "" (DLocal l)
         ((match lookup (v_type m) (p_enums p) with
           | Some e => with_prim (sw_prim (e_encoding e)) RIllTyped
                         (fun k => [RNum (DLocal x) k; REnumCheck x (v_type m); RMove (DLocal el) x])
           | None => sw_read_one p (DLocal el) x (v_type m)
           end) ++ [RPush (DField n) el])])
  else sw_read_one p (DField n) x (v_type m).

(** swift.py:201-209, the body of FromBytes. *)
Definition sw_reader (p : protocol) (s : struct) : list rstmt := flat_map (sw_read p) (s_members s).

(** swift.py:30-42, base_defaults. *)
Definition sw_defaults : list (string * val) :=
  [("byte", VInt 0); ("bool", VBool false); ("uint16", VInt 0); ("int16", VInt 0); ("uint32", VInt 0);
   ("int32", VInt 0); ("uint64", VInt 0); ("int64", VInt 0); ("float", VInt 0); ("double", VInt 0);
   ("string", VStr [])]%string.

(** swift.py:152-163, initial values of the members.  [d] bounds the nesting. *)
Fixpoint sw_init (p : protocol) (d : nat) (t : string) : list (string * val) :=
  match find_struct p t with
  | None => []
  | Some s =>
      map (fun m =>
        (v_name m,
         if v_list m then VList []
         else match lookup (v_type m) sw_defaults with
         | Some v => v
         | None =>
             match lookup (v_type m) (p_enums p) with
             | Some e => match get_default_pair e with Some (_, z) => VInt z | None => VUndef end
             | None => match d with S d' => VStruct (sw_init p d' (v_type m)) | O => VUndef end
             end
         end)) (s_members s)
  end.

(** [String(data:encoding:)]: nil for what is not UTF-8.  [strip] says whether it
    drops a leading byte order mark; this is not documented. *)
Definition sw_decode (strip : bool) (raw : list byte) : option (list byte) :=
  if utf8_valid raw then Some (if strip then strip_bom raw else raw) else None.

(** Swift.0.swift:138-151, GetString.  The conversion of the length to [Int], the sum
    and the range trap when they are not possible.  [data\[a..<b\]] counts from the
    index of the first byte of the Data, [start], which is 0 unless the Data is a
    slice of another one; the offset counts from 0. *)
Definition sw_str (start : nat) (strip : bool) (p : protocol) (inp : list byte) (pos : nat) : got (list byte) :=
  match sw_prim (p_string_size_type p) with
  | None => Crash
  | Some k =>
      match read_num k inp pos with
      | Got (VInt z) q =>
          if z <? 0 then Crash
          else if Z.of_nat q + z <=? Z.of_nat (List.length inp) then
            if (start <=? q)%nat then
              match sw_decode strip (firstn (Z.to_nat z) (skipn (q - start) inp)) with
              | Some s => Got s (q + Z.to_nat z)
              | None => Miss q
              end
            else Crash
          else if (2 ^ 32 <=? z) && (2 ^ 63 <=? Z.of_nat q + z) then Crash
          else Miss q
      | Got _ _ => Crash
      | Miss q => Miss q
      | Crash => Crash
      end
  end.

(** [0..<n] traps for a negative [n]. *)
Definition sw_for (z : Z) : got unit := if z <? 0 then Crash else Got tt 0.

Definition sw_rt (start : nat) (strip : bool) : rt :=
  {| rt_num := read_num;
     rt_str := sw_str start strip;
     rt_raw := fun _ _ _ _ => Crash;
     rt_enum := only_declared;
     rt_make := fun _ _ => Got tt 0;
     rt_for := sw_for;
     rt_zero := fun _ _ => VUndef;
     rt_init := fun p t => sw_init p (depth_of p) t |}.

(** T.FromBytes(dataReader:) with currentOffset [pos]. *)
Definition sw_from_bytes (start : nat) (strip : bool) : protocol -> string -> list byte -> nat -> res val :=
  read_with (sw_rt start strip) sw_reader.

(** swift.py:86-92, serializer of something that is no list. *)
Definition sw_write_one (p : protocol) (s : src) (t : string) : list wstmt :=
  if mem t NUMERIC_TYPE_SIZES || String.eqb t "string" then
    if String.eqb t "string" then [WStr s]
    else with_prim (sw_label t) WIllTyped (fun k => [WNum k s])
  else match lookup t (p_enums p) with
  | Some e => with_prim (sw_label (e_encoding e)) WIllTyped (fun k => [WNum k s])
  | None => [WCall t s]
  end.

(** swift.py:78-92, serializer. *)
Definition sw_write (p : protocol) (m : var) : list wstmt :=
  let n := v_name m in
  if v_list m then
    with_prim (sw_label (p_list_size_type p)) WIllTyped (fun k =>
      [WCount k (SField n); WForEach "el" (SField n) (sw_write_one p (SLocal "el") (v_type m))])
  else sw_write_one p (SField n) (v_type m).
Definition sw_writer (p : protocol) (s : struct) : list wstmt := flat_map (sw_write p) (s_members s).

(** NSMutableData grows.  Lengths are converted with [UInt16(count)] and the like,
    which traps when the number does not fit (swift.py:80, Swift.0.swift:224-228). *)
Definition sw_wt : wt :=
  {| wt_put := put_append; wt_strlen := p_string_size_type; wt_traps := true; wt_raw := fun _ _ _ => None |}.

(** WriteBytes(data:tag: false) of a message, WriteBytes of a struct. *)
Definition sw_write_bytes : protocol -> string -> val -> wstate -> wout := write_with sw_wt sw_writer.

(** swift.py:94-133: [for <name>_el in], [for s in]. *)
Definition sw_style : style :=
  {| st_loop := fun _ n => LEach (n +++ "_el");
     st_strs := fun _ _ => LEach "s";
     st_deeper := 0; st_utf16 := false |}.

(** swift.py:178-187, GetSizeInBytes: [UInt32(size)] traps when it does not fit. *)
Definition fits_u32 (z : Z) : option Z := if z <? 2 ^ 32 then Some z else None.
Definition sw_size (p : protocol) (t : string) (v : val) : mout :=
  returning fits_u32 (size_with sw_style p 0 t v).

(** ** Streams *)

(** swift.py:259-266, MessageType. *)
Definition sw_tags (p : protocol) : list (Z * string) := count_from 1 (p_messages p).

(** swift.py:268-313, ProcessRawBytes (there [pos] is 0); IsFinished is
    Swift.0.swift:13-15. *)
Definition sw_stream (start : nat) (strip : bool) : stream :=
  {| sm_finished := fun inp pos => (List.length inp <=? pos)%nat;
     sm_tag := byte_tag (read_num NByte);
     sm_case := fun p b => tag_case b (sw_tags p);
     sm_read := sw_from_bytes start strip;
     sm_lenient := false |}.
Definition sw_process (start : nat) (strip : bool) (p : protocol) (max : Z) (inp : list byte) (pos : nat)
  : res (list (string * val)) := process (sw_stream start strip) p max inp pos.

(** swift.py:214-224, WriteBytes(data:tag: true). *)
Definition sw_write_tagged (p : protocol) (t : string) (v : val) (w : wstate) : wout :=
  write_tagged sw_wt (sw_tags p) (sw_write_bytes p) (t, v) w.

(** Swift.1.swift:12-22, PackMessages. *)
Definition sw_pack (p : protocol) : list (string * val) -> wstate -> wout :=
  pack sw_wt (sw_tags p) (sw_write_bytes p).

(** Swift.1.swift:2-10, GetPackedSize. *)
Definition sw_packed_size (p : protocol) : list (string * val) -> mout := packed_size (sw_size p).

(** Swift.0.swift:249-274, UnpackMessages.  [data\[0..<4\]] traps if there are not
    four bytes, and for a slice.  Four bytes that are not "BSCI" are no text or a
    different text.  The rest is copied, so it starts at index 0. *)
Definition sw_unpack_data (start : nat) (strip : bool) (p : protocol) (data : list byte)
  : res (list (string * val)) :=
  if (0 <? start)%nat || (List.length data <? 4)%nat then RTrap
  else if list_eq_dec Byte.byte_eq_dec (firstn 4 data) header then
    match read_num NU32 data 4 with
    | Got (VInt n) q => shifted q (unpack_counted (sw_stream 0 strip) p n n (skipn q data) 0)
    | Got _ _ => RStuck
    | Miss _ => RErr
    | Crash => RTrap
    end
  else RErr.

(** The same for a copy of everything from [pos] on. *)
Definition sw_unpack (strip : bool) (p : protocol) (inp : list byte) (pos : nat) : res (list (string * val)) :=
  shifted pos (sw_unpack_data 0 strip p (skipn pos inp)).
