(** Model of beschi/writers/typescript.py with [is_assembly_script], of
    beschi/writers/assemblyscript.py and of boilerplate/AssemblyScript.ts.

    Where assemblyscript.py inherits a method that does the same in both cases, the
    definition of TypeScript.v is used.

    Left out: the text around the statements, and what the compiler checks, except
    for the size types ([as_compiles]).  [throw] ends the program in AssemblyScript;
    where the code throws on purpose that counts as reporting a failure (RErr),
    and RTrap stands for the run-time library or the machine ending it.  A string
    is its UTF-8 encoding; an unpaired surrogate has none and is not a value here.
    Inputs are shorter than 2^31 bytes, as every ArrayBuffer is. *)
From Verif Require Export TypeScript.

(** assemblyscript.py:19-31, type_mapping. *)
Definition as_types : list (string * string) :=
  [("byte", "u8"); ("bool", "bool"); ("uint16", "u16"); ("int16", "i16"); ("uint32", "u32"); ("int32", "i32");
   ("uint64", "u64"); ("int64", "i64"); ("float", "f32"); ("double", "f64"); ("string", "string")]%string.
Definition as_type (p : protocol) (t : string) : option string :=
  match lookup t as_types with
  | Some n => Some n
  | None => if existsb (String.eqb t) (declared_names p) then Some t else None
  end.
(** What [as u8] and so on make of a number. *)
Definition as_casts : list (string * num) :=
  [("u8", NByte); ("bool", NBool); ("i16", NI16); ("u16", NU16); ("i32", NI32); ("u32", NU32); ("i64", NI64);
   ("u64", NU64); ("f32", NF32); ("f64", NF64)]%string.
Definition as_cast : string -> option num := prim as_types as_casts.

(** assemblyscript.py:33-44, base_serializers. *)
Definition as_serializers : list (string * string) :=
  [("byte", "Byte"); ("bool", "Bool"); ("uint16", "Uint16"); ("int16", "Int16");
   ("uint32", "Uint32"); ("int32", "Int32"); ("uint64", "Uint64"); ("int64", "Int64");
   ("float", "Float32"); ("double", "Float64")]%string.
(** AssemblyScript.ts:17-109, the getters, and AssemblyScript.ts:128-211, the setters. *)
Definition as_accessors : list (string * num) :=
  [("Byte", NByte); ("Bool", NBool); ("Int16", NI16); ("Uint16", NU16); ("Int32", NI32);
   ("Uint32", NU32); ("Int64", NI64); ("Uint64", NU64); ("Float32", NF32); ("Float64", NF64)]%string.
Definition as_prim : string -> option num := prim as_serializers as_accessors.

(** ** Reading *)

(** typescript.py:84-124, deserializer of something that is no list.  A getter and
    the test of [hasError] behind it are one statement.  A nested object is first
    put into a local, tested for null, and then stored; that is one statement too,
    as the local is used nowhere else. *)
Definition as_read_one (p : protocol) (d : dst) (x t : string) : list rstmt :=
  if String.eqb t "string" then [RStr d]
  else match lookup t (p_enums p) with
  | Some e => with_prim (as_prim (e_encoding e)) RIllTyped
                (fun k => [RNum (DLocal x) k; REnumCheck x t; RMove d x])
  | None =>
      if mem t NUMERIC_TYPE_SIZES then with_prim (as_prim t) RIllTyped (fun k => [RNum d k])
      else [RCall d t]
  end.

(** typescript.py:51-124, deserializer; [idx] is the indentation level. *)
Definition as_read (p : protocol) (idx : nat) (m : var) : list rstmt :=
  let n := v_name m in
  let x := ("_" +++ n)%string in
  if v_list m then
    let l := (var_clean n +++ "_Length")%string in
    let i := ("i" +++ dec_str idx)%string in
    with_prim (as_prim (p_list_size_type p)) RIllTyped (fun k =>
      [RNum (DLocal l) k;
       RNew (DField n) (v_type m) (Some (DLocal l));
       RFor i (DLocal l)
         (match lookup (v_type m) (p_enums p) with
          | Some e => with_prim (as_prim (e_encoding e)) RIllTyped
                        (fun k => [RNum (DLocal x) k; REnumCheck x (v_type m); RMove (DElem n i) x])
          | None => as_read_one p (DElem n i) x (v_type m)
          end)])
  else as_read_one p (DField n) x (v_type m).

(** typescript.py:223-309, gen_struct: class and method are one level each.
    (assemblyscript.py:18: no namespace.) *)
Definition as_reader (p : protocol) (s : struct) : list rstmt := flat_map (as_read p 2) (s_members s).

Definition as_is (p : protocol) (t n : string) : bool :=
  match as_type p t with Some n' => String.eqb n' n | None => false end.

(** typescript.py:230-247, default values of the members of a new object: [0] is
    false for a bool.  [d] bounds the nesting of [new]. *)
Definition as_zero (t : string) : val := if String.eqb t "bool" then VBool false else VInt 0.
Fixpoint as_init (p : protocol) (d : nat) (t : string) : list (string * val) :=
  match find_struct p t with
  | None => []
  | Some s =>
      map (fun m =>
        (v_name m,
         if v_list m then VList []
         else if as_is p (v_type m) "bigint" then VUndef       (* 0n is no AssemblyScript *)
         else if as_is p (v_type m) "boolean" then VBool false
         else if as_is p (v_type m) "string" then VStr []
         else match lookup (v_type m) (p_enums p) with
         | Some e => match get_default_pair e with Some (_, z) => VInt z | None => VUndef end
         | None =>
             if mem (v_type m) (p_structs p) then
               match d with S d' => VStruct (as_init p d' (v_type m)) | O => VUndef end
             else as_zero (v_type m)
         end)) (s_members s)
  end.

(** typescript.py:212-219: [_Unknown] comes last, without a value of its own, so it
    is one more than the value before it, in 32 bits. *)
Definition as_unknown (e : enum) : Z := wrap_num NI32 (List.last (map snd (e_values e)) 0 + 1).

(** typescript.py:70-78 and 97-105: a number below the smallest value, or not below
    [_Unknown] (cast to the encoding), becomes [_Unknown]; others stay. *)
Definition as_enum (e : enum) (z : Z) : option Z :=
  match as_cast (e_encoding e), get_minimum_pair e with
  | Some k, Some (_, low) =>
      let u := wrap_num k (as_unknown e) in
      Some (if (z <? low) || (u <=? z) then u else z)
  | _, _ => None
  end.

(** AssemblyScript.ts:111-125, getString.  The sum of the offset and the length is
    taken in 32 bits without sign; so a negative length passes the test unless
    there are too few bytes in front, and so does a length so large that the sum
    is 2^32 or more.  Then [new Uint8Array(len)] ends the program, as [len] is
    negative as an i32.

    String.UTF8.decode keeps a byte order mark; it takes the bytes for valid UTF-8
    and makes something of them otherwise: [lossy], about which nothing is known. *)
Section Runtime.
Variable lossy : list byte -> list byte.
Definition as_decode (raw : list byte) : option (list byte) := Some (if utf8_valid raw then raw else lossy raw).
Definition as_str (p : protocol) (inp : list byte) (pos : nat) : got (list byte) :=
  match as_prim (p_string_size_type p) with
  | None => Crash
  | Some k =>
      match read_num k inp pos with
      | Got (VInt z) q =>
          if z <? 0 then if Z.of_nat q + z <? 0 then Miss q else Crash
          else if Z.of_nat q + z <=? Z.of_nat (List.length inp) then
            match as_decode (firstn (Z.to_nat z) (skipn q inp)) with
            | Some s => Got s (q + Z.to_nat z)
            | None => Crash
            end
          else if (2 ^ 31 <=? z) && (2 ^ 32 <=? Z.of_nat q + z) then Crash else Miss q
      | Got _ _ => Crash
      | Miss q => Miss q
      | Crash => Crash
      end
  end.

(** The largest array of a type that can be had: [new Array<T>(n)] ends the program
    for negative and for larger n.  It depends on the element size, the memory
    limit and what else is in memory. *)
Variable room : string -> Z.
Definition as_make (t : string) (z : Z) : got unit :=
  if (z <? 0) || (room t <? z) then Crash else Got tt 0.

Definition as_rt : rt :=
  {| rt_num := read_num;
     rt_str := as_str;
     rt_raw := fun _ _ _ _ => Crash;
     rt_enum := as_enum;
     rt_make := as_make;
     rt_for := fun _ => Got tt 0;
     rt_zero := fun _ _ => VUndef;
     rt_init := fun p t => as_init p (depth_of p) t |}.

(** The compiler accepts the size types: [new Uint8Array] and [new Array] take an
    i32, to which a 64 bit number is not converted.  (Only code that is used is
    compiled.) *)
Definition as_compiles (p : protocol) : bool :=
  (negb (is_64 (p_string_size_type p)) || negb (has_strings p)) &&
  (negb (is_64 (p_list_size_type p)) || negb (has_lists p)).

(** T.fromBytesDA at offset [pos]; null is RErr.  (Structs: T.fromBytes.) *)
Definition as_from_bytes (p : protocol) (t : string) (inp : list byte) (pos : nat) : res val :=
  if as_compiles p then read_with as_rt as_reader p t inp pos else RStuck.
End Runtime.

(** ** Writing *)

(** typescript.py:140-159, serializer of something that is no list.  A setter and
    the test of [hasError] behind it are one statement, and so is a call together
    with the test of its result. *)
Definition as_write_one (p : protocol) (s : src) (t : string) : list wstmt :=
  if String.eqb t "string" then [WStr s]
  else match lookup t (p_enums p) with
  | Some e => with_prim (as_prim (e_encoding e)) WIllTyped (fun k => [WNum k s])
  | None =>
      if mem t NUMERIC_TYPE_SIZES then with_prim (as_prim t) WIllTyped (fun k => [WNum k s])
      else [WCall t s]
  end.

(** typescript.py:126-159, serializer. *)
Definition as_write (p : protocol) (m : var) : list wstmt :=
  let n := v_name m in
  if v_list m then
    with_prim (as_prim (p_list_size_type p)) WIllTyped (fun k =>
      [WCount k (SField n);
       WForIdx "i" (BLen (SField n)) (WLet "el" (SElem n "i") :: as_write_one p (SLocal "el") (v_type m))])
  else as_write_one p (SField n) (v_type m).
Definition as_writer (p : protocol) (s : struct) : list wstmt := flat_map (as_write p) (s_members s).

(** AssemblyScript.ts:128-227: a setter that has no room sets [hasError] and writes
    nothing.  setString tests for all bytes of the string before it writes them one
    by one.  Lengths are cast to the size types. *)
Definition as_wt : wt :=
  {| wt_put := put_fixed; wt_strlen := p_string_size_type; wt_traps := false; wt_raw := fun _ _ _ => None |}.

(** writeBytesDA(da, false) of a message; false is WFail. *)
Definition as_write_bytes (p : protocol) (t : string) (v : val) (w : wstate) : wout :=
  if as_compiles p then write_with as_wt as_writer p t v w else WStuck.

(** typescript.py:161-210, getSizeInBytes: a usize, which has 32 bits. *)
Definition as_size (p : protocol) (t : string) (v : val) : mout :=
  if as_compiles p then returning (fun z => Some (z mod 2 ^ 32)) (size_with ts_style p 0 t v) else MStuck.

(** ** Streams *)

(** typescript.py:408-413, the numbers of MessageType. *)
Definition as_tags (p : protocol) : list (Z * string) := count_from 1 (p_messages p).

(** typescript.py:437-488, ProcessRawBytesDA.  isFinished (AssemblyScript.ts:13-15)
    is true only behind the end.  At the end getByte gives 0, and the list is
    returned as for a zero byte. *)
Definition as_tag (inp : list byte) (pos : nat) : res Z :=
  match read_num NByte inp pos with
  | Got (VInt z) q => ROk z q
  | Got _ _ => RStuck
  | Miss _ => ROk 0 pos
  | Crash => RTrap
  end.
Definition as_stream lossy room : stream :=
  {| sm_finished := fun inp pos => (List.length inp <? pos)%nat;
     sm_tag := as_tag;
     sm_case := fun p b => tag_case b (as_tags p);
     sm_read := as_from_bytes lossy room;
     sm_lenient := true |}.
Definition as_process lossy room (p : protocol) (max : Z) (inp : list byte) (pos : nat) : res (list (string * val)) :=
  if as_compiles p then process (as_stream lossy room) p max inp pos else RStuck.

(** typescript.py:356-372, writeBytesDA(da, true). *)
Definition as_write_tagged (p : protocol) (t : string) (v : val) (w : wstate) : wout :=
  write_tagged as_wt (as_tags p) (as_write_bytes p) (t, v) w.

(** AssemblyScript.ts:260-275, PackMessages.  The header is written byte by byte.
    When there is no room it just returns; the caller sees no difference. *)
Fixpoint as_put_each (bs : list byte) (w : wstate) : wout :=
  match bs with
  | [] => WDone w
  | b :: r => wbind (wt_put as_wt [b] w) (as_put_each r)
  end.
Definition as_pack_all (p : protocol) (ms : list (string * val)) (w : wstate) : wout :=
  wbind (as_put_each header w) (pack_rest as_wt (as_tags p) (as_write_bytes p) ms).
Definition as_pack (p : protocol) (ms : list (string * val)) (w : wstate) : wout :=
  match as_pack_all p ms w with WFail w' => WDone w' | o => o end.

(** AssemblyScript.ts:250-258, GetPackedSize. *)
Definition as_packed_size (p : protocol) (ms : list (string * val)) : mout :=
  returning (fun z => Some (z mod 2 ^ 32)) (packed_size (as_size p) ms).

(** AssemblyScript.ts:277-303, UnpackMessages on a DataView [inp], which is a part
    of an ArrayBuffer [pre ++ inp ++ post].  Buffers shorter than 12 bytes are
    refused.  The messages are read through a new DataView on the same ArrayBuffer,
    whose start is counted from the start of the ArrayBuffer. *)
Definition as_unpack_long lossy room (pre post : list byte) (p : protocol) (inp : list byte)
  : res (list (string * val)) :=
  if as_compiles p then
    match as_decode lossy (firstn 4 inp) with
    | Some s =>
        if list_eq_dec Byte.byte_eq_dec s header then
          match read_num NU32 inp 4 with
          | Got (VInt n) q =>
              let view := firstn (List.length inp - q) (skipn q (pre ++ inp ++ post)) in
              shifted q (unpack_counted (as_stream lossy room) p n n view 0)
          | Got _ _ => RStuck
          | Miss _ => RErr
          | Crash => RTrap
          end
        else RErr
    | None => RTrap
    end
  else RStuck.
Definition as_unpack_data lossy room (pre post : list byte) (p : protocol) (inp : list byte)
  : res (list (string * val)) :=
  if (List.length inp <? 12)%nat then RErr else as_unpack_long lossy room pre post p inp.

(** The same, for the data from [pos] on, in an ArrayBuffer of its own. *)
Definition as_unpack lossy room (p : protocol) (inp : list byte) (pos : nat) : res (list (string * val)) :=
  shifted pos (as_unpack_data lossy room [] [] p (skipn pos inp)).
