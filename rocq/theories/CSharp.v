(** Model of beschi/writers/csharp.py and of boilerplate/CSharp.1.cs.

    Left out: the text around the statements, and what the C# compiler checks,
    except for the list size type ([cs_compiles]).  A C# string is its UTF-8
    encoding; an unpaired surrogate has none and is not a value here.  The loop
    counter of lists is an [int] that is not modelled: a List cannot hold more
    elements than it can count. *)
From Verif Require Export Stream.

(** csharp.py:29-40, base_deserializers. *)
Definition cs_deserializers : list (string * string) :=
  [("byte", "ReadByte"); ("bool", "ReadBoolean"); ("uint16", "ReadUInt16"); ("int16", "ReadInt16");
   ("uint32", "ReadUInt32"); ("int32", "ReadInt32"); ("uint64", "ReadUInt64"); ("int64", "ReadInt64");
   ("float", "ReadSingle"); ("double", "ReadDouble")]%string.

(** System.IO.BinaryReader: little endian; EndOfStreamException when the stream is
    too short; ReadBoolean is true for every byte except 0. *)
Definition cs_readers : list (string * num) :=
  [("ReadByte", NByte); ("ReadBoolean", NBool); ("ReadUInt16", NU16); ("ReadInt16", NI16);
   ("ReadUInt32", NU32); ("ReadInt32", NI32); ("ReadUInt64", NU64); ("ReadInt64", NI64);
   ("ReadSingle", NF32); ("ReadDouble", NF64)]%string.

Definition cs_prim : string -> option num := prim cs_deserializers cs_readers.

(** csharp.py:18-27, type_mapping; a BinaryWriter writes what the static type says. *)
Definition cs_types : list (string * string) :=
  [("byte", "byte"); ("bool", "bool"); ("uint16", "ushort"); ("int16", "short"); ("uint32", "uint");
   ("int32", "int"); ("uint64", "ulong"); ("int64", "long"); ("float", "float"); ("double", "double")]%string.
Definition cs_writers : list (string * num) :=
  [("byte", NByte); ("bool", NBool); ("ushort", NU16); ("short", NI16); ("uint", NU32); ("int", NI32);
   ("ulong", NU64); ("long", NI64); ("float", NF32); ("double", NF64)]%string.
Definition cs_typed : string -> option num := prim cs_types cs_writers.

(** csharp.py:43 *)
Definition cs_clean (n : string) : string := replace_char " " "_" (var_clean n).

(** csharp.py:67-83, deserializer of something that is no list; [d] is accessor
    and name, [x] the local for an enum. *)
Definition cs_read_one (p : protocol) (d : dst) (x t : string) : list rstmt :=
  if String.eqb t "string" then [RStr d]
  else match lookup t (p_enums p) with
  | Some e => with_prim (cs_prim (e_encoding e)) RIllTyped
                (fun k => [RNum (DLocal x) k; REnumCheck x t; RMove d x])
  | None =>
      if mem t cs_deserializers then with_prim (cs_prim t) RIllTyped (fun k => [RNum d k])
      else [RCall d t]
  end.

(** csharp.py:42-83, deserializer; [idx] is the indentation level. *)
Definition cs_read (p : protocol) (idx : nat) (m : var) : list rstmt :=
  let n := v_name m in
  let x := ("_" +++ n)%string in
  if v_list m then
    let l := (cs_clean n +++ "_Length")%string in
    let i := ("i" +++ dec_str idx)%string in
    with_prim (cs_prim (p_list_size_type p)) RIllTyped (fun k =>
      [RNum (DLocal l) k;
       RNew (DField n) (v_type m) None;
       RFor i (DLocal l)
         (match lookup (v_type m) (p_enums p) with
          | Some e => with_prim (cs_prim (e_encoding e)) RIllTyped
                        (fun k => [RNum (DLocal x) k; REnumCheck x (v_type m)] ++ [RPush (DField n) x])
          | None => cs_read_one p (DLocal "_el") "_ _el" (v_type m) ++ [RPush (DField n) "_el"]
          end)])
  else cs_read_one p (DField n) x (v_type m).

(** csharp.py:163-244, gen_struct: namespace, class, method and, for messages, try
    are one level each. *)
Definition cs_level (ns : bool) (s : struct) : nat :=
  ((if ns then 1 else 0) + 2 + (if s_is_message s then 1 else 0))%nat.
Definition cs_reader (ns : bool) (p : protocol) (s : struct) : list rstmt :=
  flat_map (cs_read p (cs_level ns s)) (s_members s).

(** csharp.py:171-185, values of the fields of a new object: initialisers, or the
    default of the type.  [d] bounds the nesting of [new]. *)
Fixpoint cs_init (p : protocol) (d : nat) (t : string) : list (string * val) :=
  match find_struct p t with
  | None => []
  | Some s =>
      map (fun m =>
        (v_name m,
         if v_list m then VList []
         else if String.eqb (v_type m) "string" then VStr []
         else match lookup (v_type m) (p_enums p) with
         | Some e => match get_default_pair e with Some (_, z) => VInt z | None => VUndef end
         | None =>
             if mem (v_type m) (p_structs p) then
               match d with S d' => VStruct (cs_init p d' (v_type m)) | O => VUndef end
             else match cs_typed (v_type m) with
             | Some NBool => VBool false
             | Some _ => VInt 0
             | None => VUndef
             end
         end)) (s_members s)
  end.

(** csharp.py:67-70, a string: its length, [br.ReadBytes((int)length)], GetString.
    The cast keeps the low 32 bits.  ReadBytes throws for a negative number, and
    returns what is left when the stream ends early.  GetString replaces what is
    not UTF-8. *)
Definition cs_str (p : protocol) (inp : list byte) (pos : nat) : got (list byte) :=
  match cs_prim (p_string_size_type p) with
  | None => Crash
  | Some k =>
      match read_num k inp pos with
      | Got (VInt z) q =>
          let n := to_signed 4 (z mod 2 ^ 32) in
          if n <? 0 then Miss q
          else let rest := skipn q inp in
               let raw := if n <=? Z.of_nat (List.length rest) then firstn (Z.to_nat n) rest else rest in
               Got (utf8_lossy raw) (q + List.length raw)
      | Got _ q => Crash
      | Miss q => Miss q
      | Crash => Crash
      end
  end.

(** A negative list length makes the loop run zero times. *)
Definition cs_rt : rt :=
  {| rt_num := read_num;
     rt_str := cs_str;
     rt_raw := fun _ _ _ _ => Crash;
     rt_enum := only_declared;
     rt_make := fun _ _ => Got tt 0;
     rt_for := fun _ => Got tt 0;
     rt_zero := fun _ _ => VUndef;
     rt_init := fun p t => cs_init p (depth_of p) t |}.

(** [i < length] of an [int] and a [ulong] is an error for the compiler (CS0034). *)
Definition cs_compiles (p : protocol) : bool :=
  negb (String.eqb (p_list_size_type p) "uint64") || negb (has_lists p).

(** T.FromBytes of a BinaryReader on [inp] at [pos].  (EndOfStreamException is
    turned into DataReadErrorException; both are RErr.) *)
Definition cs_from_bytes (ns : bool) (p : protocol) (t : string) (inp : list byte) (pos : nat) : res val :=
  if cs_compiles p then read_with cs_rt (cs_reader ns) p t inp pos else RStuck.

(** csharp.py:95-105, serializer of something that is no list.  [WNum] of a plain
    number: the overload is chosen by the field's type. *)
Definition cs_write_one (p : protocol) (s : src) (t : string) : list wstmt :=
  if String.eqb t "string" then [WStr s]
  else match lookup t (p_enums p) with
  | Some e => with_prim (cs_typed (e_encoding e)) WIllTyped (fun k => [WNum k s])
  | None =>
      if mem t NUMERIC_TYPE_SIZES then with_prim (cs_typed t) WIllTyped (fun k => [WNum k s])
      else [WCall t s]
  end.

(** csharp.py:85-105, serializer. *)
Definition cs_write (p : protocol) (m : var) : list wstmt :=
  let n := v_name m in
  if v_list m then
    with_prim (cs_typed (p_list_size_type p)) WIllTyped (fun k =>
      [WCount k (SField n); WForEach "el" (SField n) (cs_write_one p (SLocal "el") (v_type m))])
  else cs_write_one p (SField n) (v_type m).
Definition cs_writer (p : protocol) (s : struct) : list wstmt := flat_map (cs_write p) (s_members s).

(** BinaryWriter on a stream that grows. *)
Definition cs_wt : wt :=
  {| wt_put := put_append; wt_strlen := p_string_size_type; wt_traps := false; wt_raw := fun _ _ _ => None |}.

(** WriteBytes(bw, false) of a message. *)
Definition cs_write_bytes (p : protocol) (t : string) (v : val) (w : wstate) : wout :=
  if cs_compiles p then write_with cs_wt cs_writer p t v w else WStuck.

(** csharp.py:107-151: foreach loops; [el<level>] for structs, [s] for strings.
    Strings that are not in a list are measured with [Length]. *)
Definition cs_style : style :=
  {| st_loop := fun lvl _ => LEach ("el" +++ dec_str lvl);
     st_strs := fun _ _ => LEach "s";
     st_deeper := 0; st_utf16 := true |}.

(** GetSizeInBytes of a message, an [int]. *)
Definition cs_size (ns : bool) (p : protocol) (t : string) (v : val) : mout :=
  if cs_compiles p then returning wrap_int (size_with cs_style p (if ns then 3 else 2) t v) else MStuck.

(** ** Streams *)

(** csharp.py:286-290, the numbers of MessageType. *)
Definition cs_tags (p : protocol) : list (Z * string) := count_from 1 (p_messages p).

(** CSharp.1.cs:31-53, ProcessRawBytes; the cases are csharp.py:276-284. *)
Definition cs_stream (ns : bool) : stream :=
  {| sm_finished := fun inp pos => (List.length inp <=? pos)%nat;
     sm_tag := byte_tag (read_num NByte);
     sm_case := fun p b => tag_case b (cs_tags p);
     sm_read := cs_from_bytes ns;
     sm_lenient := false |}.
Definition cs_process (ns : bool) (p : protocol) (max : Z) (inp : list byte) (pos : nat)
  : res (list (string * val)) :=
  if cs_compiles p then process (cs_stream ns) p max inp pos else RStuck.

(** csharp.py:223-231, WriteBytes(bw, true). *)
Definition cs_write_tagged (p : protocol) (t : string) (v : val) (w : wstate) : wout :=
  write_tagged cs_wt (cs_tags p) (cs_write_bytes p) (t, v) w.

(** CSharp.1.cs:66-77, PackMessages. *)
Definition cs_pack (p : protocol) : list (string * val) -> wstate -> wout :=
  pack cs_wt (cs_tags p) (cs_write_bytes p).

(** CSharp.1.cs:55-64 *)
Definition cs_packed_size (ns : bool) (p : protocol) (ms : list (string * val)) : mout :=
  returning wrap_int (packed_size (cs_size ns p) ms).

(** CSharp.1.cs:79-101, UnpackMessages.  ReadBytes may return less than four bytes;
    Convert.ToInt32 throws OverflowException for counts from 2^31. *)
Definition cs_unpack (ns : bool) (p : protocol) (inp : list byte) (pos : nat) : res (list (string * val)) :=
  if cs_compiles p then
    let label := firstn 4 (skipn pos inp) in
    if list_eq_dec Byte.byte_eq_dec (utf8_lossy label) header then
      match read_num NU32 inp (pos + List.length label) with
      | Got (VInt n) q =>
          if n =? 0 then ROk [] q
          else if n <? 2 ^ 31 then unpack_counted (cs_stream ns) p n n inp q
          else RErr
      | Got _ _ => RStuck
      | Miss _ => RErr
      | Crash => RTrap
      end
    else RErr
  else RStuck.
