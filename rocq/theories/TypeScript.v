(** Model of beschi/writers/typescript.py and of boilerplate/TypeScript.ts.

    [is_assembly_script] is False here; see AssemblyScript.v for the other case.

    Left out: the text around the statements (class and method heads, comments,
    try/catch that rethrows), and what the TypeScript compiler checks, except for
    the size types ([ts_compiles]).  A JavaScript string is its UTF-8 encoding; an
    unpaired surrogate has none and is not a value here. *)
From Verif Require Export Stream.

(** typescript.py:26-34, type_mapping. *)
Definition ts_type (p : protocol) (t : string) : option string :=
  if mem t NUMERIC_TYPE_SIZES then
    if String.eqb t "bool" then Some "boolean"%string
    else if String.eqb t "int64" || String.eqb t "uint64" then Some "bigint"%string
    else Some "number"%string
  else if String.eqb t "string" then Some "string"%string
  else if existsb (String.eqb t) (declared_names p) then Some t
  else None.

(** typescript.py:36-47, base_serializers. *)
Definition ts_serializers : list (string * string) :=
  [("byte", "Byte"); ("bool", "Bool"); ("uint16", "Uint16"); ("int16", "Int16");
   ("uint32", "Uint32"); ("int32", "Int32"); ("uint64", "Uint64"); ("int64", "Int64");
   ("float", "Float32"); ("double", "Float64")]%string.

(** TypeScript.ts:23-84, what get<name>() reads, and TypeScript.ts:93-138, what
    set<name>() writes: the DataView accessors, with littleEndian = true.
    getBool is [getByte() > 0], setBool writes 1 or 0.  [getFloat32] returns
    [Math.fround] of the value, which is the value. *)
Definition ts_accessors : list (string * num) :=
  [("Byte", NByte); ("Bool", NBool); ("Int16", NI16); ("Uint16", NU16); ("Int32", NI32);
   ("Uint32", NU32); ("Int64", NI64); ("Uint64", NU64); ("Float32", NF32); ("Float64", NF64)]%string.

Definition ts_prim : string -> option num := prim ts_serializers ts_accessors.

(** typescript.py:83-111, deserializer of something that is no list.  [d] is
    accessor and name. *)
Definition ts_read_one (p : protocol) (d : dst) (x t : string) : list rstmt :=
  if String.eqb t "string" then [RStr d]
  else match lookup t (p_enums p) with
  | Some e => with_prim (ts_prim (e_encoding e)) RIllTyped
                (fun k => [RNum (DLocal x) k; REnumCheck x t; RMove d x])
  | None =>
      if mem t NUMERIC_TYPE_SIZES then with_prim (ts_prim t) RIllTyped (fun k => [RNum d k])
      else [RCall d t]
  end.

(** typescript.py:51-124, deserializer; [idx] is the indentation level. *)
Definition ts_read (p : protocol) (idx : nat) (m : var) : list rstmt :=
  let n := v_name m in
  let x := ("_" +++ n)%string in
  if v_list m then
    let l := (var_clean n +++ "_Length")%string in
    let i := ("i" +++ dec_str idx)%string in
    with_prim (ts_prim (p_list_size_type p)) RIllTyped (fun k =>
      [RNum (DLocal l) k;
       RNew (DField n) (v_type m) (Some (DLocal l));
       RFor i (DLocal l)
         (match lookup (v_type m) (p_enums p) with
          | Some e => with_prim (ts_prim (e_encoding e)) RIllTyped
                        (fun k => [RNum (DLocal x) k; REnumCheck x (v_type m); RMove (DElem n i) x])
          | None => ts_read_one p (DElem n i) x (v_type m)
          end)])
  else ts_read_one p (DField n) x (v_type m).

(** typescript.py:223-309, gen_struct: class, method and, for messages, try are one
    level each.  [ns] is --typescript-use-namespace. *)
Definition ts_level (ns : bool) (s : struct) : nat :=
  ((if ns then 1 else 0) + 2 + (if s_is_message s then 1 else 0))%nat.
Definition ts_reader (ns : bool) (p : protocol) (s : struct) : list rstmt :=
  flat_map (ts_read p (ts_level ns s)) (s_members s).

Definition ts_is (p : protocol) (t n : string) : bool :=
  match ts_type p t with Some n' => String.eqb n' n | None => false end.

(** typescript.py:230-247, default values of the members of a new object.
    [d] bounds the nesting of [new]. *)
Fixpoint ts_init (p : protocol) (d : nat) (t : string) : list (string * val) :=
  match find_struct p t with
  | None => []
  | Some s =>
      map (fun m =>
        (v_name m,
         if v_list m then VList []
         else if ts_is p (v_type m) "bigint" then VInt 0
         else if ts_is p (v_type m) "boolean" then VBool false
         else if ts_is p (v_type m) "string" then VStr []
         else match lookup (v_type m) (p_enums p) with
         | Some e => match get_default_pair e with Some (_, z) => VInt z | None => VUndef end
         | None =>
             if mem (v_type m) (p_structs p) then
               match d with S d' => VStruct (ts_init p d' (v_type m)) | O => VUndef end
             else VInt 0
         end)) (s_members s)
  end.

(** TypeScript.ts:86-91, getString: the length, then a Uint8Array on
    [this.data.buffer] from [currentOffset], that is, on the whole ArrayBuffer,
    of which the DataView is the part [inp] between [pre] and [post]; a negative
    length and a range outside of the buffer throw RangeError.  TextDecoder
    replaces what is not UTF-8 and drops a leading byte order mark. *)
Definition ts_decode (raw : list byte) : option (list byte) := Some (strip_bom (utf8_lossy raw)).
Definition ts_rt (pre post : list byte) : rt :=
  {| rt_num := read_num;
     rt_str := fun p inp pos => sized_str (Miss pos) ts_decode p (pre ++ inp ++ post) inp pos;
     rt_raw := fun _ _ _ _ => Crash;
     rt_enum := only_declared;
     rt_make := fun _ z => if z <? 0 then Miss 0 else Got tt 0;    (* new Array(z) *)
     rt_for := fun _ => Got tt 0;
     rt_zero := fun _ _ => VUndef;
     rt_init := fun p t => ts_init p (depth_of p) t |}.

(** The compiler accepts the size types: getString adds the length to a number, so
    it must not be a bigint; list code starts its counter with the number 0. *)
Definition ts_compiles (p : protocol) : bool :=
  negb (is_64 (p_string_size_type p)) && (negb (is_64 (p_list_size_type p)) || negb (has_lists p)).

(** T.fromBytes at offset [pos] of a DataView. *)
Definition ts_from_bytes (ns : bool) (pre post : list byte) (p : protocol) (t : string)
           (inp : list byte) (pos : nat) : res val :=
  if ts_compiles p then read_with (ts_rt pre post) (ts_reader ns) p t inp pos else RStuck.

(** typescript.py:139-159, serializer of something that is no list. *)
Definition ts_write_one (p : protocol) (s : src) (t : string) : list wstmt :=
  if String.eqb t "string" then [WStr s]
  else match lookup t (p_enums p) with
  | Some e => with_prim (ts_prim (e_encoding e)) WIllTyped (fun k => [WNum k s])
  | None =>
      if mem t NUMERIC_TYPE_SIZES then with_prim (ts_prim t) WIllTyped (fun k => [WNum k s])
      else [WCall t s]
  end.

(** typescript.py:126-159, serializer. *)
Definition ts_write (p : protocol) (m : var) : list wstmt :=
  let n := v_name m in
  if v_list m then
    with_prim (ts_prim (p_list_size_type p)) WIllTyped (fun k =>
      [WCount k (SField n);
       WForIdx "i" (BLen (SField n)) (WLet "el" (SElem n "i") :: ts_write_one p (SLocal "el") (v_type m))])
  else ts_write_one p (SField n) (v_type m).

Definition ts_writer (p : protocol) (s : struct) : list wstmt := flat_map (ts_write p) (s_members s).

(** TypeScript.ts:93-147: the setters of a DataView throw RangeError outside of it.
    setString writes through an array that covers the DataView. *)
Definition ts_wt : wt :=
  {| wt_put := put_fixed; wt_strlen := p_string_size_type; wt_traps := false; wt_raw := fun _ _ _ => None |}.

(** writeBytes(da, false) of a message. *)
Definition ts_write_bytes (p : protocol) (t : string) (v : val) (w : wstate) : wout :=
  if ts_compiles p then write_with ts_wt ts_writer p t v w else WStuck.

(** typescript.py:161-210: index loops over [<name>_i]. *)
Definition ts_style : style :=
  {| st_loop := fun _ n => LIdx (var_clean n +++ "_i");
     st_strs := fun _ n => LIdx (n +++ "_i");
     st_deeper := 0; st_utf16 := false |}.

(** getSizeInBytes of a message. *)
Definition ts_size (p : protocol) (t : string) (v : val) : mout :=
  if ts_compiles p then size_with ts_style p 0 t v else MStuck.

(** ** Streams *)

(** typescript.py:412-416, the numbers of MessageType. *)
Definition ts_tags (p : protocol) : list (Z * string) := count_from 1 (p_messages p).

(** typescript.py:419-485, ProcessRawBytes; isFinished is TypeScript.ts:18-20.
    ([max] left out is the same as -1.) *)
Definition ts_stream (ns : bool) (pre post : list byte) : stream :=
  {| sm_finished := fun inp pos => (List.length inp <=? pos)%nat;
     sm_tag := byte_tag (read_num NByte);
     sm_case := fun p b => tag_case b (ts_tags p);
     sm_read := ts_from_bytes ns pre post;
     sm_lenient := false |}.
Definition ts_process (ns : bool) (pre post : list byte) (p : protocol) (max : Z) (inp : list byte) (pos : nat)
  : res (list (string * val)) :=
  if ts_compiles p then process (ts_stream ns pre post) p max inp pos else RStuck.

(** typescript.py:327-340, writeBytes(da, true). *)
Definition ts_write_tagged (p : protocol) (t : string) (v : val) (w : wstate) : wout :=
  write_tagged ts_wt (ts_tags p) (ts_write_bytes p) (t, v) w.

(** TypeScript.ts:171-189, PackMessages.  The header goes through an array on the
    whole ArrayBuffer, at the offset that is meant for the DataView (the part
    between [pre] and [post]); so bytes outside of the view can change.  They are
    returned with the result. *)
Definition ts_pack (pre post : list byte) (p : protocol) (ms : list (string * val)) (w : wstate)
  : list byte * wout * list byte :=
  let whole := pre ++ w_buf w ++ post in
  if (w_pos w + 4 <=? List.length whole)%nat then
    let whole' := overwrite whole (w_pos w) header in
    (firstn (List.length pre) whole',
     pack_rest ts_wt (ts_tags p) (ts_write_bytes p) ms
       {| w_buf := firstn (List.length (w_buf w)) (skipn (List.length pre) whole'); w_pos := (w_pos w + 4)%nat |},
     skipn (List.length pre + List.length (w_buf w)) whole')
  else (pre, WFail w, post).

(** TypeScript.ts:160-168 *)
Definition ts_packed_size (p : protocol) : list (string * val) -> mout := packed_size (ts_size p).

(** TypeScript.ts:191-217, UnpackMessages.  The header is read from the whole
    ArrayBuffer. *)
Definition ts_unpack (ns : bool) (pre post : list byte) (p : protocol) (inp : list byte) (pos : nat)
  : res (list (string * val)) :=
  if ts_compiles p then
    let whole := pre ++ inp ++ post in
    if (pos + 4 <=? List.length whole)%nat then
      match ts_decode (firstn 4 (skipn pos whole)) with
      | Some s =>
          if list_eq_dec Byte.byte_eq_dec s header then
            match read_num NU32 inp (pos + 4) with
            | Got (VInt n) q => unpack_counted (ts_stream ns pre post) p n n inp q
            | Got _ _ => RStuck
            | Miss _ => RErr
            | Crash => RTrap
            end
          else RErr
      | None => RErr
      end
    else RErr
  else RStuck.
