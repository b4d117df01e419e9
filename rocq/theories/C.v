(** Model of beschi/writers/c.py and of boilerplate/C.0.h, C.1.h and C.2.h.

    Objects are trees: a pointer is modelled together with the block that it points
    to, and carries the number of that block.  Blocks are numbered in the order in
    which malloc hands them out.

    Left out: the text around the statements; the C compiler, except for what is in
    [c_compiles]; a missing #include <string.h> for memcpy and memcmp.  [int] has 32
    bits and [size_t] 64; the machine is little endian; an input is shorter than 2^63
    bytes.  malloc depends on the size only ([machine]), and memory for messages and
    for the list of messages can always be had.  Enum constants may be outside of
    [int], and structs empty, as gcc allows. *)
From Verif Require Export Stream Blocks.

(** c.py:19-28, type_mapping, for numbers. *)
Definition c_types : list (string * string) :=
  [("byte", "uint8_t"); ("bool", "bool"); ("uint16", "uint16_t"); ("int16", "int16_t"); ("uint32", "uint32_t");
   ("int32", "int32_t"); ("uint64", "uint64_t"); ("int64", "int64_t"); ("float", "float"); ("double", "double")]%string.
Definition c_type_nums : list (string * num) :=
  [("uint8_t", NByte); ("bool", NBool); ("uint16_t", NU16); ("int16_t", NI16); ("uint32_t", NU32);
   ("int32_t", NI32); ("uint64_t", NU64); ("int64_t", NI64); ("float", NF32); ("double", NF64)]%string.
Definition c_type : string -> option num := prim c_types c_type_nums.

(** c.py:31-42, base_serializers. *)
Definition c_serializers : list (string * string) :=
  [("byte", "UInt8"); ("bool", "Bool"); ("uint16", "UInt16"); ("int16", "Int16"); ("uint32", "UInt32");
   ("int32", "Int32"); ("uint64", "UInt64"); ("int64", "Int64"); ("float", "Float"); ("double", "Double")]%string.
(** C.1.h:34-123 and 144-232, the functions ReadUInt8, WriteUInt8 and so on. *)
Definition c_functions : list (string * num) :=
  [("UInt8", NByte); ("Bool", NBool); ("Int16", NI16); ("UInt16", NU16); ("Int32", NI32); ("UInt32", NU32);
   ("Int64", NI64); ("UInt64", NU64); ("Float", NF32); ("Double", NF64)]%string.

Definition num_eqb (a b : num) : bool :=
  match a, b with
  | NByte, NByte | NBool, NBool | NU16, NU16 | NI16, NI16 | NU32, NU32 | NI32, NI32 | NU64, NU64 | NI64, NI64
  | NF32, NF32 | NF64, NF64 => true
  | _, _ => false
  end.
(** The number type of a variable and that of the function must be the same. *)
Definition c_prim (t : string) : option num :=
  match prim c_serializers c_functions t, c_type t with
  | Some a, Some b => if num_eqb a b then Some a else None
  | _, _ => None
  end.

(** ** Memory *)

(** Whether malloc finds a block of so many bytes; the size of enums and structs. *)
Record machine := { mc_alloc : Z -> bool; mc_sizeof : string -> Z }.

(** Contents of a variable.  A block number of [None] is a string literal. *)
Inductive cval :=
| CNum (v : val)                             (* number, bool or enum *)
| CStr (b : option nat) (data : list byte)   (* char*; the bytes of the block *)
| CArr (b : nat) (cells : list cval)         (* T* *)
| CNull
| CStruct (fs : list (string * cval))
| CUndef.                                    (* not initialised *)
Definition cfields := list (string * cval).

(** The object that is read, the position in the input, the next block number. *)
Record cst := { c_fs : cfields; c_pos : nat; c_next : nat }.

(** Results: normal; an error code other than ERR_OK; undefined behaviour; code
    that does not make sense; the bound on nesting. *)
Inductive cres (A : Type) := COk (a : A) | CErr (a : A) | CUB | CStuck | CFuel.
Arguments COk {A} a. Arguments CErr {A} a. Arguments CUB {A}. Arguments CStuck {A}. Arguments CFuel {A}.

Definition cbind {A} (r : cres A) (k : A -> cres A) : cres A :=
  match r with COk a => k a | _ => r end.

(** A member of the object, or the current element of a list member. *)
Inductive clv := LField (f : string) | LElem (f : string).

Definition c_get (x : clv) (i : nat) (fs : cfields) : option cval :=
  match x with
  | LField f => lookup f fs
  | LElem f => match lookup f fs with Some (CArr _ l) => nth_error l i | _ => None end
  end.
(** [None]: there is no such element. *)
Definition c_set (x : clv) (i : nat) (v : cval) (fs : cfields) : option cfields :=
  match x with
  | LField f => Some (dict_set f v fs)
  | LElem f =>
      match lookup f fs with
      | Some (CArr b l) => if (i <? List.length l)%nat then Some (dict_set f (CArr b (set_nth i v l)) fs) else None
      | _ => None
      end
  end.
Definition c_assign (x : clv) (i : nat) (v : cval) (pos next : nat) (s : cst) : cres cst :=
  match c_set x i v (c_fs s) with
  | Some fs => COk {| c_fs := fs; c_pos := pos; c_next := next |}
  | None => CUB
  end.

(** A number held in a member. *)
Definition c_int (f : string) (fs : cfields) : option Z :=
  match lookup f fs with Some (CNum (VInt z)) => Some z | _ => None end.

(** ** Reading *)

Inductive cstmt :=
| CRead (x : clv) (k : num)              (* err = ReadK(r, &x); return if err *)
| CReadStr (x n : clv)                   (* err = ReadString(r, &x, &n); return if err *)
| CReadEnum (x : clv) (t : string) (k : num)
                                         (* K _x; err = ReadK(r, &_x); return if err; test; x = (T)_x *)
| CFrom (x : clv) (t : string)           (* err = T_FromBytes(r, &x); return if err *)
| CMalloc (f t n : string)               (* dst->f = MALLOC(sizeof(T) * dst->n) *)
| CIfNull (f : string)                   (* if (dst->f == NULL) return ALLOCATION_FAILURE *)
| CFor (n : string) (body : list cstmt)  (* for (i = 0; i < dst->n; i++) *)
| CIllTyped.

(** Names of the members for lengths, c.py:72, 81, 108, 110. *)
Definition c_len (n : string) : string := (n +++ "_len")%string.
Definition c_els_len (n : string) : string := (n +++ "_els_len")%string.
Definition c_len_of (x : clv) : clv :=
  match x with LField f => LField (c_len f) | LElem f => LElem (c_els_len f) end.

(** c.py:103-128, deserializer for what is not a list.  (The name of an element
    ends in an index in brackets; no other name is taken to.) *)
Definition c_read_one (p : protocol) (x : clv) (t : string) : list cstmt :=
  if String.eqb t "string" then [CReadStr x (c_len_of x)]
  else match lookup t (p_enums p) with
  | Some e => with_prim (c_prim (e_encoding e)) CIllTyped (fun k => [CReadEnum x t k])
  | None =>
      if mem t NUMERIC_TYPE_SIZES then with_prim (c_prim t) CIllTyped (fun k => [CRead x k])
      else [CFrom x t]
  end.

(** c.py:70-128, deserializer.  For a list of strings the second test (c.py:82) is
    about the first block again. *)
Definition c_read (p : protocol) (m : var) : list cstmt :=
  let n := v_name m in
  let t := v_type m in
  if v_list m then
    with_prim (c_prim (p_list_size_type p)) CIllTyped (fun k =>
      [CRead (LField (c_len n)) k; CMalloc n t (c_len n); CIfNull n] ++
      (if String.eqb t "string" then [CMalloc (c_els_len n) (p_string_size_type p) (c_len n); CIfNull n] else []) ++
      [CFor (c_len n)
         (match lookup t (p_enums p) with
          | Some e => with_prim (c_prim (e_encoding e)) CIllTyped (fun k => [CReadEnum (LElem n) t k])
          | None => c_read_one p (LElem n) t
          end)])
  else c_read_one p (LField n) t.

(** ( size_t )( len + 1 ): the sum is computed in the type of [len], or in [int] if
    that is larger.  [None]: overflow of a signed type. *)
Definition c_succ (k : num) (z : Z) : option Z :=
  match k with
  | NU32 => Some ((z + 1) mod 2 ^ 32)
  | NI32 | NI64 => if z =? num_max k then None else Some ((z + 1) mod 2 ^ 64)
  | _ => Some ((z + 1) mod 2 ^ 64)
  end.

(** C.1.h:131-139, ReadString behind the length: not enough input, no memory, or
    the bytes of the new block.  memcpy gets a negative length as a huge one, which is
    more than there is. *)
Inductive ctake := TBytes (data : list byte) (pos : nat) | TEof | TNoMemory | TBad.
Definition c_take (M : machine) (k : num) (inp : list byte) (pos : nat) (z : Z) : ctake :=
  if Z.of_nat (List.length inp) <? (Z.of_nat pos + z) mod 2 ^ 64 then TEof
  else match c_succ k z with
  | None => TBad
  | Some size =>
      if mc_alloc M size then
        if (0 <=? z) && (z <? size) && (Z.of_nat pos + z <=? Z.of_nat (List.length inp))
        then TBytes (firstn (Z.to_nat z) (skipn pos inp) ++ [x00]) (pos + Z.to_nat z)
        else TBad
      else TNoMemory
  end.

(** sizeof(T) * n as size_t; the number of elements that fit into such a block. *)
Definition c_sizeof (M : machine) (t : string) : Z :=
  match c_type t with
  | Some k => Z.of_nat (num_size k)
  | None => if String.eqb t "string" then 8 else mc_sizeof M t
  end.
Definition c_bytes (M : machine) (t : string) (n : Z) : Z := (c_sizeof M t * n) mod 2 ^ 64.
Definition c_cells (M : machine) (t : string) (n : Z) : Z :=
  if c_sizeof M t * n <? 2 ^ 64 then n else c_bytes M t n / c_sizeof M t.

Section Exec.
Variable M : machine.
Variable p : protocol.
Variable inp : list byte.
(** FromBytes of a struct: position and next block number. *)
Variable call : string -> nat -> nat -> cres cst.

Fixpoint cexec_stmt (st : cstmt) (i : nat) (s : cst) {struct st} : cres cst :=
  match st with
  | CRead x k =>
      match read_num k inp (c_pos s) with
      | Got v q => c_assign x i (CNum v) q (c_next s) s
      | _ => CErr s
      end
  | CReadStr x n =>
      match c_prim (p_string_size_type p) with
      | None => CStuck
      | Some k =>
          match read_num k inp (c_pos s) with
          | Got (VInt z) q =>
              cbind (c_assign n i (CNum (VInt z)) q (c_next s) s) (fun s1 =>
                match c_take M k inp q z with
                | TBytes data q' => c_assign x i (CStr (Some (c_next s1)) data) q' (S (c_next s1)) s1
                | TEof => CErr s1
                | TNoMemory => cbind (c_assign x i CNull q (c_next s1) s1) CErr
                | TBad => CUB
                end)
          | Got _ _ => CStuck
          | _ => CErr s
          end
      end
  | CReadEnum x t k =>
      match read_num k inp (c_pos s), lookup t (p_enums p) with
      | Got (VInt z) q, Some e =>
          if existsb (Z.eqb z) (map snd (e_values e)) then c_assign x i (CNum (VInt z)) q (c_next s) s
          else CErr {| c_fs := c_fs s; c_pos := q; c_next := c_next s |}
      | Got _ _, _ => CStuck
      | _, _ => CErr s
      end
  | CFrom x t =>
      match call t (c_pos s) (c_next s) with
      | COk c => c_assign x i (CStruct (c_fs c)) (c_pos c) (c_next c) s
      | CErr c => cbind (c_assign x i (CStruct (c_fs c)) (c_pos c) (c_next c) s) CErr
      | r => r
      end
  | CMalloc f t n =>
      match c_int n (c_fs s) with
      | Some z =>
          if mc_alloc M (c_bytes M t z)
          then c_assign (LField f) i (CArr (c_next s) (repeat CUndef (Z.to_nat (c_cells M t z)))) (c_pos s) (S (c_next s)) s
          else c_assign (LField f) i CNull (c_pos s) (c_next s) s
      | None => CUB
      end
  | CIfNull f =>
      match lookup f (c_fs s) with
      | Some CNull => CErr s
      | Some (CArr _ _) | Some (CStr _ _) => COk s
      | _ => CUB
      end
  | CFor n body =>
      match c_int n (c_fs s) with
      | Some z =>
          (fix loop (k : nat) (j : nat) (s : cst) : cres cst :=
             match k with
             | O => COk s
             | S k' =>
                 cbind ((fix go (l : list cstmt) (s : cst) : cres cst :=
                           match l with
                           | [] => COk s
                           | a :: r => cbind (cexec_stmt a j s) (go r)
                           end) body s)
                       (loop k' (S j))
             end) (Z.to_nat z) O s
      | None => CUB
      end
  | CIllTyped => CStuck
  end.

Fixpoint cexec (l : list cstmt) (i : nat) (s : cst) : cres cst :=
  match l with
  | [] => COk s
  | a :: r => cbind (cexec_stmt a i s) (cexec r i)
  end.
End Exec.

(** c.py:422-427: MessageType, the numbers of the messages. *)
Definition c_message_types (p : protocol) : list (Z * string) := count_from 1 (p_messages p).

(** c.py:365-375, FromBytes.  The object is not initialised before. *)
Definition c_start (p : protocol) (s : struct) : cfields :=
  if s_is_message s then
    match tag_of (s_name s) (c_message_types p) with Some z => [("_mt"%string, CNum (VInt z))] | None => [] end
  else [].
Fixpoint c_run (M : machine) (p : protocol) (inp : list byte) (fuel : nat) (t : string) (pos next : nat) : cres cst :=
  match fuel with
  | O => CFuel
  | S f =>
      match find_struct p t with
      | Some s =>
          cexec M p inp (c_run M p inp f) (flat_map (c_read p) (s_members s)) O
                {| c_fs := c_start p s; c_pos := pos; c_next := next |}
      | None => CStuck
      end
  end.

(** ** What does not compile *)

(** c.py:256-280: the members of a struct. *)
Definition c_member_names (m : var) : list string :=
  let n := v_name m in
  if v_list m then c_len n :: (if String.eqb (v_type m) "string" then [c_els_len n] else []) ++ [n]
  else if String.eqb (v_type m) "string" then [c_len n; n] else [n].
Definition c_field_names (s : struct) : list string :=
  (if s_is_message s then ["_mt"%string] else []) ++ flat_map c_member_names (s_members s).

(** C.0.h and c.py:422-438: names at the top of the file, without the prefix. *)
Definition c_top : list string :=
  ["err_t"; "DataAccess"; "IsFinished"; "ReadUInt8"; "ReadBool"; "ReadInt16"; "ReadUInt16"; "ReadInt32"; "ReadUInt32";
   "ReadInt64"; "ReadUInt64"; "ReadFloat"; "ReadDouble"; "ReadString"; "WriteUInt8"; "WriteBool"; "WriteInt16";
   "WriteUInt16"; "WriteInt32"; "WriteUInt32"; "WriteInt64"; "WriteUInt64"; "WriteFloat"; "WriteDouble";
   "WriteString"; "MessageType"; "MessageType_BuiltIn_NullMessage"; "GetMessageType"; "GetSizeInBytes"; "WriteBytes";
   "ProcessRawBytes"; "Destroy"; "DestroyMessageList"; "GetPackedSize"; "PackMessages"; "UnpackMessages"]%string.
(** c.py:246-254. *)
Definition c_enum_names (e : enum) : list string :=
  [e_name e; "IsValid" +++ e_name e]%string ++ map (fun v => (e_name e +++ "_" +++ fst v)%string) (e_values e).
(** c.py:256-296, and the constant in MessageType. *)
Definition c_struct_names (s : struct) : list string :=
  let n := s_name s in
  [n; n +++ "_WriteBytes"; n +++ "_FromBytes"]%string ++
  (if s_is_message s
   then ["MessageType_" +++ n; n +++ "_default"; n +++ "_GetSizeInBytes"; n +++ "_Create"; n +++ "_Cleanup"; n +++ "_Destroy"]%string
   else []).
Definition c_names_of (p : protocol) : list string :=
  c_top ++ flat_map (fun e => c_enum_names (snd e)) (p_enums p) ++
  flat_map (fun s => c_struct_names (snd s)) (p_structs p ++ p_messages p).

(** c.py:443-444: structs are declared in the order of the protocol, and used only
    behind their declaration. *)
Fixpoint c_ordered (p : protocol) (seen : list string) (l : list (string * struct)) : bool :=
  match l with
  | [] => true
  | (n, s) :: r =>
      forallb (fun m => negb (mem (v_type m) (p_structs p)) || in_strs (v_type m) seen) (s_members s) &&
      c_ordered p (seen ++ [n]) r
  end.

(** c.py:265 and 81, 108, 146: the lengths of the elements are declared with the type of
    list lengths, but pointers to the type of string lengths are taken. *)
Definition c_has_string_list (p : protocol) : bool :=
  existsb (fun s => existsb (fun m => v_list m && String.eqb (v_type m) "string") (s_members (snd s)))
          (p_structs p ++ p_messages p).

(** Not covered: names that are keywords or macros, and the prefix. *)
Definition c_compiles (p : protocol) : bool :=
  negb (has_dup_str (c_names_of p)) &&
  forallb (fun s => negb (has_dup_str (c_field_names (snd s)))) (p_structs p ++ p_messages p) &&
  c_ordered p [] (p_structs p) &&
  (negb (c_has_string_list p) || String.eqb (p_list_size_type p) (p_string_size_type p)).

(** T_FromBytes(r, dst); the blocks are numbered from [next] on. *)
Definition c_from_bytes (M : machine) (p : protocol) (t : string) (inp : list byte) (pos next : nat) : cres cst :=
  if c_compiles p then c_run M p inp (depth_of p) t pos next else CStuck.

(** ** Writing *)

Inductive pstmt :=
| PNum (x : clv) (k : num)               (* err = WriteK(w, x); return if err *)
| PStr (x n : clv)                       (* err = WriteString(w, &x, n); return if err *)
| PEnum (x : clv) (k : num)              (* err = WriteK(w, (K)x); return if err *)
| PCall (x : clv) (t : string)           (* err = T_WriteBytes(w, &x); return if err *)
| PFor (n : string) (body : list pstmt)
| PIllTyped.

(** c.py:141-156, serializer for what is not a list. *)
Definition c_write_one (p : protocol) (x : clv) (t : string) : list pstmt :=
  if String.eqb t "string" then [PStr x (c_len_of x)]
  else match lookup t (p_enums p) with
  | Some e => with_prim (c_prim (e_encoding e)) PIllTyped (fun k => [PEnum x k])
  | None =>
      if mem t NUMERIC_TYPE_SIZES then with_prim (c_prim t) PIllTyped (fun k => [PNum x k])
      else [PCall x t]
  end.
(** c.py:130-140, serializer. *)
Definition c_write (p : protocol) (m : var) : list pstmt :=
  let n := v_name m in
  if v_list m then
    with_prim (c_prim (p_list_size_type p)) PIllTyped (fun k =>
      [PNum (LField (c_len n)) k; PFor (c_len n) (c_write_one p (LElem n) (v_type m))])
  else c_write_one p (LField n) (v_type m).

(** C.1.h:144-232, for a fixed buffer. *)
Definition c_wt : wt :=
  {| wt_put := put_fixed; wt_strlen := p_string_size_type; wt_traps := false; wt_raw := fun _ _ _ => None |}.

(** C.1.h:240-244, WriteString behind the length. *)
Definition c_put (z : Z) (data : list byte) (w : wstate) : wout :=
  if z <? 0 then (if Z.of_nat (w_pos w) + z <? 0 then WFail w else WTrap)
  else if Z.of_nat (List.length (w_buf w)) <? Z.of_nat (w_pos w) + z then WFail w
  else if z <=? Z.of_nat (List.length data) then put_fixed (firstn (Z.to_nat z) data) w
  else WTrap.

Section PExec.
Variable p : protocol.
Variable call : string -> cfields -> wstate -> wout.

(** Reading what is not initialised, or not there, is undefined. *)
Fixpoint pexec_stmt (st : pstmt) (fs : cfields) (i : nat) (w : wstate) {struct st} : wout :=
  match st with
  | PNum x k => match c_get x i fs with Some (CNum v) => put_num c_wt k v w | _ => WTrap end
  | PStr x n =>
      match c_get n i fs, c_get x i fs, c_prim (p_string_size_type p) with
      | Some (CNum (VInt z)), Some (CStr _ data), Some k => wbind (put_num c_wt k (VInt z) w) (c_put z data)
      | _, _, None => WStuck
      | _, _, _ => WTrap
      end
  | PEnum x k =>
      match c_get x i fs with Some (CNum (VInt z)) => put_num c_wt k (VInt (wrap_num k z)) w | _ => WTrap end
  | PCall x t => match c_get x i fs with Some (CStruct fs') => call t fs' w | _ => WTrap end
  | PFor n body =>
      match c_int n fs with
      | Some z =>
          (fix loop (k : nat) (j : nat) (w : wstate) : wout :=
             match k with
             | O => WDone w
             | S k' =>
                 wbind ((fix go (l : list pstmt) (w : wstate) : wout :=
                           match l with
                           | [] => WDone w
                           | a :: r => wbind (pexec_stmt a fs j w) (go r)
                           end) body w)
                       (loop k' (S j))
             end) (Z.to_nat z) O w
      | None => WTrap
      end
  | PIllTyped => WStuck
  end.

Fixpoint pexec (l : list pstmt) (fs : cfields) (i : nat) (w : wstate) : wout :=
  match l with
  | [] => WDone w
  | a :: r => wbind (pexec_stmt a fs i w) (pexec r fs i)
  end.
End PExec.

(** c.py:377-394, WriteBytes without the tag. *)
Fixpoint c_wrun (p : protocol) (fuel : nat) (t : string) (fs : cfields) (w : wstate) : wout :=
  match fuel with
  | O => WNoFuel
  | S f =>
      match find_struct p t with
      | Some s => pexec p (c_wrun p f) (flat_map (c_write p) (s_members s)) fs O w
      | None => WStuck
      end
  end.
Definition c_write_bytes (p : protocol) (t : string) (fs : cfields) (w : wstate) : wout :=
  if c_compiles p then c_wrun p (depth_of p) t fs w else WStuck.

(** c.py:383-389, with the tag: the lowest byte of _mt. *)
Definition c_write_tagged (p : protocol) (t : string) (fs : cfields) (w : wstate) : wout :=
  if c_compiles p then
    match c_int "_mt" fs with
    | Some z => wbind (put_num c_wt NByte (VInt (wrap_num NByte z)) w) (c_write_bytes p t fs)
    | None => WTrap
    end
  else WStuck.

(** ** Size *)

Inductive lstmt :=
| LSet (z : Z)                           (* *size = z *)
| LAdd (z : Z)                           (* *size += z *)
| LAddLen (f : string) (z : Z)           (* *size += f_len * z *)
| LAddStr (f : string)                   (* *size += f_len *)
| LForStr (f : string) (z : Z)           (* for (i < f_len) *size += z + f_els_len[i] *)
| LFor (f : string) (body : list lstmt)  (* for (i < f_len) the same for f[i]. *)
| LIn (f : string) (body : list lstmt).  (* the same for f. *)

(** c.py:183-184 and 196-197: the first line is dropped if it is "size = 0". *)
Definition drop_init (l : list lstmt) : list lstmt :=
  match l with LSet 0 :: r => r | _ => l end.

(** c.py:158-200, gen_measurement: lines and constant.  First for one member;
    [inner] is the result for a struct.  [None] is a KeyError, or [d] does not bound
    the nesting. *)
Definition c_measure_member (p : protocol) (inner : string -> option (list lstmt * Z)) (m : var)
  : option (list lstmt * Z) :=
  let n := v_name m in
  let t := v_type m in
  if v_list m then
    let a := size_of p (p_list_size_type p) in
    if is_simple p t then Some ([LAddLen n (size_of p t)], a)
    else if String.eqb t "string" then Some ([LForStr n (size_of p (p_string_size_type p))], a)
    else match inner t with
         | Some (l, c) => Some ([LFor n (drop_init l ++ [LAdd c])], a)
         | None => None
         end
  else if is_simple p t then Some ([], size_of p t)
  else if String.eqb t "string" then Some ([LAddStr n], size_of p (p_string_size_type p))
  else match inner t with
       | Some (l, c) => Some ([LIn n (drop_init l)], c)
       | None => None
       end.
Fixpoint c_measure_members (p : protocol) (inner : string -> option (list lstmt * Z)) (ms : list var)
  : option (list lstmt * Z) :=
  match ms with
  | [] => Some ([], 0)
  | m :: r =>
      match c_measure_member p inner m, c_measure_members p inner r with
      | Some (l, a), Some (l', a') => Some (l ++ l', a + a')
      | _, _ => None
      end
  end.
Fixpoint c_measure (p : protocol) (d : nat) (s : struct) : option (list lstmt * Z) :=
  if is_simple p (s_name s) then Some ([LSet (size_of p (s_name s))], 0)
  else
    match
      c_measure_members p
        (fun t => match d, lookup t (p_structs p) with S d', Some st => c_measure p d' st | _, _ => None end)
        (s_members s)
    with
    | Some (l, a) => Some (LSet 0 :: l, a)
    | None => None
    end.

(** A value in a type of at least [int], with the overflow rules of C; [None]:
    overflow of a signed type. *)
Definition c_arith (k : num) (z : Z) : option Z :=
  match k with
  | NU32 => Some (z mod 2 ^ 32)
  | NU64 => Some (z mod 2 ^ 64)
  | NI64 => if (num_min NI64 <=? z) && (z <=? num_max NI64) then Some z else None
  | _ => if (num_min NI32 <=? z) && (z <=? num_max NI32) then Some z else None
  end.
(** *size += z *)
Definition c_grow (size z : Z) : Z := (size + z) mod 2 ^ 64.

Section LExec.
(** The type of list lengths. *)
Variable k : num.

(** [LFor] and [LIn] continue in the members of the struct. *)
Fixpoint lexec_stmt (st : lstmt) (fs : cfields) (size : Z) {struct st} : mout :=
  match st with
  | LSet z => MOk (Some z)
  | LAdd z => MOk (Some (c_grow size z))
  | LAddLen f z =>
      match c_int (c_len f) fs with
      | Some n => match c_arith k (n * z) with Some a => MOk (Some (c_grow size a)) | None => MCrash end
      | None => MCrash
      end
  | LAddStr f => match c_int (c_len f) fs with Some n => MOk (Some (c_grow size n)) | None => MCrash end
  | LForStr f z =>
      match c_int (c_len f) fs with
      | Some n =>
          (fix loop (j : nat) (i : nat) (size : Z) : mout :=
             match j with
             | O => MOk (Some size)
             | S j' =>
                 match c_get (LElem (c_els_len f)) i fs with
                 | Some (CNum (VInt l)) =>
                     match c_arith k (z + l) with Some a => loop j' (S i) (c_grow size a) | None => MCrash end
                 | _ => MCrash
                 end
             end) (Z.to_nat n) O size
      | None => MCrash
      end
  | LFor f body =>
      match c_int (c_len f) fs with
      | Some n =>
          (fix loop (j : nat) (i : nat) (size : Z) : mout :=
             match j with
             | O => MOk (Some size)
             | S j' =>
                 match c_get (LElem f) i fs with
                 | Some (CStruct fs') =>
                     match
                       (fix go (l : list lstmt) (size : Z) : mout :=
                          match l with
                          | [] => MOk (Some size)
                          | a :: r => match lexec_stmt a fs' size with MOk (Some z) => go r z | o => o end
                          end) body size
                     with
                     | MOk (Some z) => loop j' (S i) z
                     | o => o
                     end
                 | _ => MCrash
                 end
             end) (Z.to_nat n) O size
      | None => MCrash
      end
  | LIn f body =>
      match lookup f fs with
      | Some (CStruct fs') =>
          (fix go (l : list lstmt) (size : Z) : mout :=
             match l with
             | [] => MOk (Some size)
             | a :: r => match lexec_stmt a fs' size with MOk (Some z) => go r z | o => o end
             end) body size
      | _ => MCrash
      end
  end.
Fixpoint lexec (l : list lstmt) (fs : cfields) (size : Z) : mout :=
  match l with
  | [] => MOk (Some size)
  | a :: r => match lexec_stmt a fs size with MOk (Some z) => lexec r fs z | o => o end
  end.
End LExec.

(** c.py:326-334, GetSizeInBytes of a message. *)
Definition c_size (p : protocol) (t : string) (fs : cfields) : mout :=
  if c_compiles p then
    match lookup t (p_messages p), c_prim (p_list_size_type p) with
    | Some s, Some k =>
        match c_measure p (depth_of p) s with
        | Some (l, a) =>
            match lexec k (l ++ (if 0 <? a then [LAdd a] else [])) fs 0 with
            | MOk (Some z) => MRet z
            | o => o
            end
        | None => MStuck
        end
    | _, _ => MStuck
    end
  else MStuck.

(** ** Fresh objects *)

(** c.py:44-55, base_defaults. *)
Definition c_defaults : list (string * val) :=
  [("byte", VInt 0); ("bool", VBool false); ("uint16", VInt 0); ("int16", VInt 0); ("uint32", VInt 0);
   ("int32", VInt 0); ("uint64", VInt 0); ("int64", VInt 0); ("float", VInt 0); ("double", VInt 0)]%string.
(** c.py:202-222, gen_default.  [d] bounds the nesting. *)
Fixpoint c_default_members (p : protocol) (d : nat) (ms : list var) {struct d} : cfields :=
  flat_map (fun m =>
    let n := v_name m in
    let t := v_type m in
    if v_list m then
      (c_len n, CNum (VInt 0)) :: (if String.eqb t "string" then [(c_els_len n, CNull)] else []) ++ [(n, CNull)]
    else match lookup t c_defaults with
    | Some v => [(n, CNum v)]
    | None =>
        if String.eqb t "string" then [(c_len n, CNum (VInt 0)); (n, CStr None [x00])]
        else match lookup t (p_enums p) with
        | Some e => [(n, match get_default_pair e with Some (_, z) => CNum (VInt z) | None => CUndef end)]
        | None =>
            match d, lookup t (p_structs p) with
            | S d', Some s => [(n, CStruct (c_default_members p d' (s_members s)))]
            | _, _ => [(n, CUndef)]
            end
        end
    end) ms.
(** c.py:319-324, T_default. *)
Definition c_default (p : protocol) (s : struct) : cfields :=
  c_start p s ++ c_default_members p (depth_of p) (s_members s).
(** c.py:337-345, T_Create: the members are copied one by one. *)
Definition c_create (p : protocol) (s : struct) : cfields :=
  c_start p s ++
  map (fun m => (v_name m, match lookup (v_name m) (c_default p s) with Some v => v | None => CUndef end)) (s_members s).

(** ** Releasing *)

(** The blocks that are released, in order; [None]: undefined behaviour. *)
Definition c_free (v : option cval) : option (list nat) :=
  match v with
  | Some (CStr (Some b) _) | Some (CArr b _) => Some [b]
  | Some CNull => Some []
  | _ => None
  end.

Inductive dstmt :=
| DFree (x : clv)                        (* FREE(x) *)
| DFor (f : string) (body : list dstmt)  (* for (i < f_len) *)
| DIn (x : clv) (body : list dstmt)      (* the same for the members of x *)
| DIllTyped.

(** c.py:225-226 and 241-244, destructor for what is not a list; [of_member] is the
    recursive call. *)
Definition c_release_one (p : protocol) (of_member : option (var -> list dstmt)) (x : clv) (t : string) : list dstmt :=
  if is_simple p t then []
  else if String.eqb t "string" then [DFree x]
  else match of_member, lookup t (p_structs p) with
       | Some f, Some s => [DIn x (flat_map f (s_members s))]
       | _, _ => [DIllTyped]
       end.
(** c.py:224-244, destructor.  [d] bounds the nesting. *)
Fixpoint c_release (p : protocol) (d : nat) (m : var) : list dstmt :=
  let n := v_name m in
  let t := v_type m in
  let of_member := match d with S d' => Some (c_release p d') | O => None end in
  if v_list m then
    if is_simple p t then [DFree (LField n)]
    else [DFor n (c_release_one p of_member (LElem n) t)] ++
         (if String.eqb t "string" then [DFree (LField (c_els_len n))] else []) ++
         [DFree (LField n)]
  else c_release_one p of_member (LField n) t.

Fixpoint dexec_stmt (st : dstmt) (fs : cfields) (i : nat) {struct st} : option (list nat) :=
  match st with
  | DFree x => c_free (c_get x i fs)
  | DFor f body =>
      match c_int (c_len f) fs with
      | Some z =>
          oconcat (map (fun j =>
            (fix go (l : list dstmt) : option (list nat) :=
               match l with [] => Some [] | a :: r => oapp (dexec_stmt a fs j) (go r) end) body) (seq 0 (Z.to_nat z)))
      | None => None
      end
  | DIn x body =>
      match c_get x i fs with
      | Some (CStruct fs') =>
          (fix go (l : list dstmt) : option (list nat) :=
             match l with [] => Some [] | a :: r => oapp (dexec_stmt a fs' O) (go r) end) body
      | _ => None
      end
  | DIllTyped => None
  end.
Fixpoint dexec (l : list dstmt) (fs : cfields) : option (list nat) :=
  match l with [] => Some [] | a :: r => oapp (dexec_stmt a fs O) (dexec r fs) end.

(** c.py:349-353, T_Cleanup. *)
Definition c_cleanup (p : protocol) (s : struct) (fs : cfields) : option (list nat) :=
  dexec (flat_map (c_release p (depth_of p)) (s_members s)) fs.

(** A message on the heap: its block, and its contents. *)
Definition cmsg : Type := nat * cfields.

(** c.py:454-464, GetMessageType: the first byte of the object is that of _mt. *)
Definition c_message_type (p : protocol) (fs : cfields) : option Z :=
  match c_int "_mt" fs with
  | Some z =>
      let b := z mod 256 in
      Some (if Z.of_nat (List.length (p_messages p)) <? b then 0 else b)
  | None => None
  end.
(** The case of a switch over it. *)
Definition c_message_name (p : protocol) (fs : cfields) : option (option string) :=
  match c_message_type p fs with
  | Some b => Some (if b =? 0 then None else tag_case b (c_message_types p))
  | None => None
  end.

(** c.py:356-361, T_Destroy, through c.py:594-602. *)
Definition c_destroy_message (p : protocol) (m : cmsg) : option (list nat) :=
  match c_message_name p (snd m) with
  | Some (Some t) =>
      match lookup t (p_messages p) with
      | Some s => oapp (c_cleanup p s (snd m)) (Some [fst m])
      | None => None
      end
  | _ => None
  end.
(** c.py:589-615, DestroyMessageList of messages with a valid _mt; [b] is the block
    of the list. *)
Definition c_destroy_list (p : protocol) (b : nat) (ms : list cmsg) : option (list nat) :=
  oapp (oconcat (map (c_destroy_message p) ms)) (Some [b]).

(** ** Streams *)

Record cstream := { cs_msgs : list cmsg; cs_pos : nat; cs_next : nat }.

(** c.py:546-585, the loop of ProcessRawBytes.  A message is put into the list
    before the error is looked at. *)
Fixpoint c_process_from (fuel : nat) (M : machine) (p : protocol) (max : Z) (inp : list byte) (s : cstream)
  : cres cstream :=
  match fuel with
  | O => CFuel
  | S f =>
      if (List.length inp <=? cs_pos s)%nat || negb ((max <? 0) || (Z.of_nat (List.length (cs_msgs s)) <? max))
      then COk s
      else match read_num NByte inp (cs_pos s) with
      | Got (VInt b) q =>
          if b =? 0 then COk {| cs_msgs := cs_msgs s; cs_pos := q; cs_next := cs_next s |}
          else match tag_case b (c_message_types p) with
          | None => CErr {| cs_msgs := cs_msgs s; cs_pos := q; cs_next := cs_next s |}
          | Some t =>
              match c_from_bytes M p t inp q (S (cs_next s)) with
              | COk c =>
                  c_process_from f M p max inp
                    {| cs_msgs := cs_msgs s ++ [(cs_next s, c_fs c)]; cs_pos := c_pos c; cs_next := c_next c |}
              | CErr c =>
                  CErr {| cs_msgs := cs_msgs s ++ [(cs_next s, c_fs c)]; cs_pos := c_pos c; cs_next := c_next c |}
              | CUB => CUB | CStuck => CStuck | CFuel => CFuel
              end
          end
      | _ => CStuck
      end
  end.
(** c.py:535-545, ProcessRawBytes.  Block [next] is the list. *)
Definition c_process (M : machine) (p : protocol) (max : Z) (inp : list byte) (pos next : nat) : cres cstream :=
  if c_compiles p then
    let s := {| cs_msgs := []; cs_pos := pos; cs_next := S next |} in
    if max =? 0 then COk s else c_process_from (S (S (List.length inp))) M p max inp s
  else CStuck.

(** c.py:618-648, GetPackedSize.  The result of GetSizeInBytes is not tested; it is
    always ERR_OK. *)
Fixpoint c_sizes (p : protocol) (ms : list cfields) (size : Z) : mout :=
  match ms with
  | [] => MOk (Some size)
  | fs :: r =>
      match c_message_name p fs with
      | Some (Some t) =>
          match c_size p t fs with
          | MRet z => c_sizes p r (c_grow size z)
          | o => o
          end
      | Some None => MStuck
      | None => MCrash
      end
  end.
Definition c_packed_size (p : protocol) (ms : list cfields) : mout :=
  if c_compiles p then
    match c_sizes p ms 0 with
    | MOk (Some z) => MRet (c_grow (c_grow z (Z.of_nat (List.length ms))) 9)
    | o => o
    end
  else MStuck.

(** c.py:490-509, WriteBytes(w, m, tag = true) of any message. *)
Definition c_write_message (p : protocol) (fs : cfields) (w : wstate) : wout :=
  match c_message_name p fs with
  | Some (Some t) => c_write_tagged p t fs w
  | Some None => WFail w
  | None => WTrap
  end.
Fixpoint c_write_messages (p : protocol) (ms : list cfields) (w : wstate) : wout :=
  match ms with
  | [] => WDone w
  | fs :: r => wbind (c_write_message p fs w) (c_write_messages p r)
  end.
(** c.py:651-690, PackMessages.  The header goes to the start of the buffer, wherever
    the position is and however small the buffer.  Nobody looks whether there was room
    for the last byte. *)
Definition c_pack (p : protocol) (ms : list cfields) (w : wstate) : wout :=
  if c_compiles p then
    if (List.length (w_buf w) <? 4)%nat then WTrap
    else
      let w1 := {| w_buf := overwrite (w_buf w) 0 header; w_pos := (w_pos w + 4)%nat |} in
      wbind (put_len c_wt NU32 (List.length ms) w1) (fun w2 =>
      wbind (c_write_messages p ms w2) (fun w3 =>
        match put_num c_wt NByte (VInt 0) w3 with WFail w4 => WDone w4 | o => o end))
  else WStuck.

(** c.py:693-726, UnpackMessages.  The header is looked for at the start of the
    buffer, without a test of its size.  "len == 0" compares a pointer. *)
Definition c_unpack (M : machine) (p : protocol) (inp : list byte) (pos next : nat) : cres cstream :=
  if c_compiles p then
    if (List.length inp <? 4)%nat then CUB
    else if list_eq_dec Byte.byte_eq_dec (firstn 4 inp) header then
      match read_num NU32 inp (pos + 4) with
      | Got (VInt n) q =>
          match c_process M p (to_signed 4 n) inp q next with
          | COk s =>
              if Z.of_nat (List.length (cs_msgs s)) =? n then COk s
              else match c_destroy_list p next (cs_msgs s) with
                   | Some _ => CErr {| cs_msgs := []; cs_pos := cs_pos s; cs_next := cs_next s |}
                   | None => CUB
                   end
          | r => r
          end
      | Got _ _ => CStuck
      | _ => CErr {| cs_msgs := []; cs_pos := (pos + 4)%nat; cs_next := next |}
      end
    else CErr {| cs_msgs := []; cs_pos := pos; cs_next := next |}
  else CStuck.
