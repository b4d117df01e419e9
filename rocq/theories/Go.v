(** Model of beschi/writers/go.py and of boilerplate/Go.go.

    Left out: the text around the statements, and what the Go compiler checks,
    except for what is in [go_compiles].  A Go string is its bytes.  [int] is 64
    bits wide.  The input is a reader over a byte slice (bytes.Reader), the output a
    growing buffer (bytes.Buffer); errors of binary.Write are ignored by the
    generated code and do not occur there.

    [rename] is the absence of --go-no-rename.  The functions from [go_from_bytes] on
    take the protocol with the names that the printed code uses,
    [go_protocol rename p]. *)
From Verif Require Export Stream Rename.

(** go.py:22-32, the constructor.  (Lines 23-26 also compute new names for enum
    values, and throw them away.) *)
Definition go_protocol (rename : bool) (p : protocol) : protocol :=
  if rename then rename_members capitalize p else p.

(** The same value with the printed names, for statements. *)
Definition go_val (rename : bool) (v : val) : val := if rename then rename_val capitalize v else v.

(** go.py:38-47, type_mapping, for numbers. *)
Definition go_types : list (string * string) :=
  [("byte", "byte"); ("bool", "bool"); ("uint16", "uint16"); ("int16", "int16"); ("uint32", "uint32");
   ("int32", "int32"); ("uint64", "uint64"); ("int64", "int64"); ("float", "float32"); ("double", "float64")]%string.
(** What encoding/binary reads and writes for a Go type. *)
Definition go_binary : list (string * num) :=
  [("byte", NByte); ("bool", NBool); ("uint16", NU16); ("int16", NI16); ("uint32", NU32);
   ("int32", NI32); ("uint64", NU64); ("int64", NI64); ("float32", NF32); ("float64", NF64)]%string.
Definition go_prim : string -> option num := prim go_types go_binary.

(** The same for the Go types of enums, [type E int16] (go.py:181). *)
Definition go_kind (p : protocol) (t : string) : option num :=
  match go_prim t with
  | Some k => Some k
  | None => match lookup t (p_enums p) with Some e => go_prim (e_encoding e) | None => None end
  end.

(** ** Reading *)

(** go.py:71-83 and 89-115, deserializer of something that is no list, stored in
    [d]; [n] is the name of the member.  The value of an enum goes through a local
    variable.  What is_simple accepts is handed to binary.Read as it is; other
    structs are filled by their FromBytes, whose error is dropped (line 115). *)
Definition go_read_one (p : protocol) (d : dst) (n t : string) : list rstmt :=
  if String.eqb t "string" then [RStr d]
  else match lookup t (p_enums p) with
  | Some e =>
      with_prim (go_prim (e_encoding e)) RIllTyped (fun k =>
        [RNum (DLocal ("_" +++ n)%string) k; REnumCheck ("_" +++ n)%string t; RMove d ("_" +++ n)%string])
  | None =>
      if is_simple p t then
        match go_prim t with Some k => [RNum d k] | None => [RRaw d t] end
      else [RCallInto d t false]
  end.

(** go.py:59-115, deserializer; the indentation level, which names the loop
    variable, is 1 in FromBytes. *)
Definition go_read (p : protocol) (m : var) : list rstmt :=
  let n := v_name m in
  if v_list m then
    let l := (n +++ "_Len")%string in
    with_prim (go_prim (p_list_size_type p)) RIllTyped (fun k =>
      [RNum (DLocal l) k;
       RNew (DField n) (v_type m) (Some (DLocal l));
       RFor "i1" (DLocal l) (go_read_one p (DElem n "i1") n (v_type m))])
  else go_read_one p (DField n) n (v_type m).

(** go.py:261-278, the body of FromBytes. *)
Definition go_reader (p : protocol) (s : struct) : list rstmt := flat_map (go_read p) (s_members s).

(** io.ReadFull of [n] bytes: when there are fewer, they are taken all the same. *)
Definition go_take (n : nat) (inp : list byte) (pos : nat) : got (list byte) :=
  if (n <=? List.length inp - pos)%nat then Got (firstn n (skipn pos inp)) (pos + n)
  else Miss (Nat.max pos (List.length inp)).

(** binary.Read of a number. *)
Definition go_read_num (k : num) (inp : list byte) (pos : nat) : got val :=
  match go_take (num_size k) inp pos with
  | Got bs q => Got (num_val k bs) q
  | Miss q => Miss q
  | Crash => Crash
  end.

(** Go.go:9-19, readString.  The error of reading the length is dropped, and the
    length is then 0; [make] panics for a negative length; missing bytes panic. *)
Definition go_str (p : protocol) (inp : list byte) (pos : nat) : got (list byte) :=
  match go_prim (p_string_size_type p) with
  | None => Crash
  | Some k =>
      let '(z, q) := match go_read_num k inp pos with
                     | Got (VInt z) q => (z, q)
                     | Got _ q => (0, q)
                     | Miss q => (0, q)
                     | Crash => (0, pos)
                     end in
      if z <? 0 then Crash
      else if z <=? Z.of_nat (List.length inp - q) then
        Got (firstn (Z.to_nat z) (skipn q inp)) (q + Z.to_nat z)
      else Crash
  end.

(** Reflection can set a field only when its name is exported, that is, starts with
    a capital (only ASCII ones here). *)
Definition go_exported (n : string) : bool :=
  match n with String c _ => is_upper c | EmptyString => false end.

(** encoding/binary, decoding the bytes of a struct field by field.  [ro]: below a
    field that is not exported; setting a number there panics ([None]).  No test of
    enum values.  [d] bounds the nesting. *)
Fixpoint bin_decode (p : protocol) (d : nat) (ro : bool) (t : string) (bs : list byte) : option (val * list byte) :=
  match go_kind p t with
  | Some k => if ro then None else Some (num_val k (firstn (num_size k) bs), skipn (num_size k) bs)
  | None =>
      match find_struct p t, d with
      | Some s, S d' =>
          match (fix members (ms : list var) (bs : list byte) : option (list (string * val) * list byte) :=
             match ms with
             | [] => Some ([], bs)
             | m :: r =>
                 match bin_decode p d' (ro || negb (go_exported (v_name m))) (v_type m) bs with
                 | Some (v, b1) =>
                     match members r b1 with
                     | Some (fs, b2) => Some ((v_name m, v) :: fs, b2)
                     | None => None
                     end
                 | None => None
                 end
             end) (s_members s) bs with
          | Some (fs, r) => Some (VStruct fs, r)
          | None => None
          end
      | _, _ => None
      end
  end.

(** binary.Read of a struct: first all its bytes, then the fields.  (Its size in
    bytes is the sum of the sizes of the fields, as in get_size_of.) *)
Definition go_raw (p : protocol) (t : string) (inp : list byte) (pos : nat) : got val :=
  match go_take (Z.to_nat (size_of p t)) inp pos with
  | Got bs q => match bin_decode p (depth_of p) false t bs with Some (v, _) => Got v q | None => Crash end
  | Miss q => Miss q
  | Crash => Crash
  end.

(** The zero value of a type; nil slices are empty lists. *)
Definition go_zero_num (k : num) : val := match k with NBool => VBool false | _ => VInt 0 end.
Fixpoint go_fields (p : protocol) (d : nat) (t : string) : list (string * val) :=
  match d with
  | O => []
  | S d' =>
      match find_struct p t with
      | None => []
      | Some s =>
          map (fun m =>
            (v_name m,
             if v_list m then VList []
             else match go_kind p (v_type m) with
             | Some k => go_zero_num k
             | None => if String.eqb (v_type m) "string" then VStr [] else VStruct (go_fields p d' (v_type m))
             end)) (s_members s)
      end
  end.
Definition go_zero (p : protocol) (d : nat) (t : string) : val :=
  match go_kind p t with
  | Some k => go_zero_num k
  | None => if String.eqb t "string" then VStr [] else VStruct (go_fields p d t)
  end.

Section Room.
(** How many elements of a type [make] can provide. *)
Variable room : string -> Z.

(** [make] panics for a negative length and for one that is too large. *)
Definition go_make (t : string) (z : Z) : got unit :=
  if (z <? 0) || (room t <? z) then Crash else Got tt 0.

(** go.py:190-203, isValid. *)
Definition go_rt : rt :=
  {| rt_num := go_read_num;
     rt_str := go_str;
     rt_raw := go_raw;
     rt_enum := only_declared;
     rt_make := go_make;
     rt_for := fun _ => Got tt 0;
     rt_zero := fun p t => go_zero p (depth_of p) t;
     rt_init := fun p t => go_fields p (depth_of p) t |}.

(** ** What does not compile *)

(** Names that the file declares: imports (Go.go:3-7), functions of Go.go, go.py:328-345,
    go.py:331, go.py:181-190, go.py:207, 218, 261 and 275. *)
Definition go_boilerplate : list string :=
  ["binary"; "fmt"; "io"; "readString"; "writeString"; "getDataOffset"; "GetPackedSize"; "PackMessages";
   "UnpackMessages"; "MessageType"; "Message"; "ProcessRawBytes"]%string.
Definition go_declared (p : protocol) : list string :=
  go_boilerplate ++
  map (fun nm => fst nm +++ "Type")%string (p_messages p) ++
  flat_map (fun ne => fst ne :: map (fun v => fst ne +++ fst v)%string (e_values (snd ne)) ++
                      ["isValid" +++ fst ne])%string (p_enums p) ++
  flat_map (fun ns => [fst ns; "New" +++ fst ns +++ "Default"; fst ns +++ "FromBytes"])%string
    (p_structs p ++ p_messages p).

(** Methods (go.py:242-249, 284-292); a field may not have the name of one. *)
Definition go_methods (s : struct) : list string :=
  "WriteBytes"%string :: if s_is_message s then ["GetMessageType"; "GetSizeInBytes"]%string else [].

(** go.py:61 and 96: the local variables for the length of a list and for an enum
    hide what else has their name, from there on.  (The one of line 72 only does so
    to the end of the loop.)  What FromBytes mentions for a member (go.py:67, 72, 78,
    96, 102). *)
Definition go_mentions (p : protocol) (m : var) : list string :=
  let e := mem (v_type m) (p_enums p) in
  (if v_list m || e then [v_type m] else []) ++ (if e then ["isValid" +++ v_type m]%string else []).
Fixpoint go_locals_ok (p : protocol) (ms : list var) : bool :=
  match ms with
  | [] => true
  | m :: r =>
      (if v_list m then negb (in_strs (v_name m +++ "_Len")%string (flat_map (go_mentions p) ms))
       else if mem (v_type m) (p_enums p) then negb (in_strs ("_" +++ v_name m)%string (flat_map (go_mentions p) r))
       else true) && go_locals_ok p r
  end.

(** Not covered: names that are keywords, predeclared identifiers, parameters and
    local variables of the printed functions, or no identifiers at all. *)
Definition go_compiles (p : protocol) : bool :=
  negb (has_dup_str (go_declared p)) &&
  forallb (fun ns => let ms := s_members (snd ns) in
             negb (has_dup_str (map v_name ms)) &&
             forallb (fun f => negb (in_strs f (map v_name ms))) (go_methods (snd ns)) &&
             go_locals_ok p ms)
    (p_structs p ++ p_messages p).

(** TFromBytes(data) with the reader at [pos]. *)
Definition go_from_bytes (p : protocol) (t : string) (inp : list byte) (pos : nat) : res val :=
  if go_compiles p then read_with go_rt go_reader p t inp pos else RStuck.

(** ** Writing *)

(** go.py:128-136, serializer of something that is no list. *)
Definition go_write_one (p : protocol) (s : src) (t : string) : list wstmt :=
  if String.eqb t "string" then [WStr s]
  else match lookup t (p_enums p) with
  | Some e => with_prim (go_prim (e_encoding e)) WIllTyped (fun k => [WNum k s])
  | None =>
      if is_simple p t then
        match go_prim t with Some k => [WNum k s] | None => [WRaw t s] end
      else [WCall t s]
  end.

(** go.py:117-136, serializer. *)
Definition go_write (p : protocol) (m : var) : list wstmt :=
  let n := v_name m in
  if v_list m then
    let l := (n +++ "_Len")%string in
    with_prim (go_prim (p_list_size_type p)) WIllTyped (fun k =>
      [WLetCount l k (SField n);
       WNum k (SLocal l);
       WForIdx "i1" (BVar l) (go_write_one p (SElem n "i1") (v_type m))])
  else go_write_one p (SField n) (v_type m).
Definition go_writer (p : protocol) (s : struct) : list wstmt := flat_map (go_write p) (s_members s).

(** encoding/binary, encoding a struct field by field; that works for fields that
    are not exported, too. *)
Fixpoint bin_encode (p : protocol) (d : nat) (t : string) (v : val) : option (list byte) :=
  match go_kind p t with
  | Some k => num_bytes k v
  | None =>
      match find_struct p t, d, v with
      | Some s, S d', VStruct fs =>
          (fix members (ms : list var) : option (list byte) :=
             match ms with
             | [] => Some []
             | m :: r =>
                 match lookup (v_name m) fs with
                 | Some w =>
                     match bin_encode p d' (v_type m) w, members r with
                     | Some a, Some b => Some (a ++ b)
                     | _, _ => None
                     end
                 | None => None
                 end
             end) (s_members s)
      | _, _, _ => None
      end
  end.

(** Go.go:21-25, writeString: the conversion of the length keeps the low bits. *)
Definition go_wt : wt :=
  {| wt_put := put_append; wt_strlen := p_string_size_type; wt_traps := false;
     wt_raw := fun p t v => bin_encode p (depth_of p) t v |}.

(** WriteBytes(data, false) of a message, WriteBytes(data) of a struct. *)
Definition go_write_bytes (p : protocol) (t : string) (v : val) (w : wstate) : wout :=
  if go_compiles p then write_with go_wt go_writer p t v w else WStuck.

(** go.py:138-177: [for _, el := range], [for _, s := range]. *)
Definition go_style : style :=
  {| st_loop := fun _ _ => LEach "el";
     st_strs := fun _ _ => LEach "s";
     st_deeper := 0; st_utf16 := false |}.

(** go.py:249-256, GetSizeInBytes. *)
Definition go_size (p : protocol) (t : string) (v : val) : mout :=
  if go_compiles p then size_with go_style p 0 t v else MStuck.

(** ** Fresh objects *)

(** go.py:49-57, struct_has_enums; lists count, too.  [d] bounds the nesting. *)
Fixpoint go_has_enums (p : protocol) (d : nat) (s : struct) : bool :=
  existsb (fun m =>
    if mem (v_type m) (p_enums p) then true
    else match lookup (v_type m) (p_structs p), d with
    | Some st, S d' => go_has_enums p d' st
    | _, _ => false
    end) (s_members s).

(** go.py:218-238, NewTDefault. *)
Fixpoint go_default (p : protocol) (d : nat) (t : string) : list (string * val) :=
  match d with
  | O => []
  | S d' =>
      match find_struct p t with
      | None => []
      | Some s =>
          if go_has_enums p (depth_of p) s then
            map (fun m =>
              (v_name m,
               if v_list m then VList []
               else match lookup (v_type m) (p_enums p) with
               | Some e => match get_default_pair e with Some (_, z) => VInt z | None => VUndef end
               | None =>
                   match lookup (v_type m) (p_structs p) with
                   | Some st =>
                       if go_has_enums p (depth_of p) st then VStruct (go_default p d' (v_type m))
                       else go_zero p d' (v_type m)
                   | None => go_zero p d' (v_type m)
                   end
               end)) (s_members s)
          else go_fields p d t
      end
  end.

(** ** Streams *)

(** go.py:331 and 370, the numbers of messages. *)
Definition go_tags (p : protocol) : list (Z * string) := count_from 1 (p_messages p).

(** go.py:345-389, ProcessRawBytes.  There is no test for the end; when the tag
    cannot be read, the loop ends as for tag 0. *)
Definition go_tag (inp : list byte) (pos : nat) : res Z :=
  match go_read_num NByte inp pos with
  | Got (VInt z) q => ROk z q
  | Got _ _ => RStuck
  | Miss _ => ROk 0 pos
  | Crash => RTrap
  end.
Definition go_stream : stream :=
  {| sm_finished := fun _ _ => false;
     sm_tag := go_tag;
     sm_case := fun p b => tag_case b (go_tags p);
     sm_read := go_from_bytes;
     sm_lenient := false |}.
Definition go_process (p : protocol) (max : Z) (inp : list byte) (pos : nat) : res (list (string * val)) :=
  if go_compiles p then process go_stream p max inp pos else RStuck.

(** go.py:284-290, WriteBytes(data, true). *)
Definition go_write_tagged (p : protocol) (t : string) (v : val) (w : wstate) : wout :=
  write_tagged go_wt (go_tags p) (go_write_bytes p) (t, v) w.

(** Go.go:45-52, PackMessages. *)
Definition go_pack (p : protocol) : list (string * val) -> wstate -> wout :=
  pack go_wt (go_tags p) (go_write_bytes p).

(** Go.go:35-43, GetPackedSize. *)
Definition go_packed_size (p : protocol) : list (string * val) -> mout := packed_size (go_size p).

(** Go.go:54-81, UnpackMessages.  A header that is cut short panics (lines 57-59);
    the count is read as an int32. *)
Definition go_unpack (p : protocol) (inp : list byte) (pos : nat) : res (list (string * val)) :=
  if go_compiles p then
    match go_take 4 inp pos with
    | Got bs q =>
        if list_eq_dec Byte.byte_eq_dec bs header then
          match go_read_num NI32 inp q with
          | Got (VInt n) q' => unpack_counted go_stream p n n inp q'
          | Got _ _ => RStuck
          | Miss _ => RErr
          | Crash => RTrap
          end
        else RErr
    | Miss _ => RTrap
    | Crash => RTrap
    end
  else RStuck.
End Room.
