(** Model of beschi/writers/rust.py and of boilerplate/Rust.rs.

    Left out: the text around the statements, and what the Rust compiler checks,
    except for what is in [rs_compiles].  A Rust string is its UTF-8 encoding.
    [usize] is 64 bits wide; an input is shorter than 2^63 bytes.

    [rename] is the absence of --rust-no-rename.  The functions from [rs_from_bytes]
    on take the protocol with the names that the printed code uses,
    [rs_protocol rename p]. *)
From Verif Require Export Stream Rename.

(** rust.py:21-30, the constructor. *)
Definition rs_protocol (rename : bool) (p : protocol) : protocol :=
  if rename then rename_members snake p else p.

(** The same value with the printed names, for statements. *)
Definition rs_val (rename : bool) (v : val) : val := if rename then rename_val snake v else v.

(** rust.py:34-43, type_mapping, for numbers. *)
Definition rs_types : list (string * string) :=
  [("byte", "u8"); ("bool", "bool"); ("uint16", "u16"); ("int16", "i16"); ("uint32", "u32");
   ("int32", "i32"); ("uint64", "u64"); ("int64", "i64"); ("float", "f32"); ("double", "f64")]%string.

(** Rust.rs:78-121, what read_<type> reads, and what to_le_bytes of the type gives.
    There is none for bool. *)
Definition rs_methods : list (string * num) :=
  [("u8", NByte); ("i16", NI16); ("u16", NU16); ("i32", NI32); ("u32", NU32);
   ("i64", NI64); ("u64", NU64); ("f32", NF32); ("f64", NF64)]%string.
Definition rs_prim : string -> option num := prim rs_types rs_methods.

(** rust.py:60-66, deserializer of a number: [take_byte()?], [take_byte()? > 0] or
    [read_<type>()?]. *)
Definition rs_read_num (n t : string) : list rstmt :=
  if String.eqb t "byte" then [RNum (DLocal n) NByte]
  else if String.eqb t "bool" then [RNum (DLocal n) NBool]
  else with_prim (rs_prim t) RIllTyped (fun k => [RNum (DLocal n) k]).

(** rust.py:60-74, deserializer of something that is no list: [let n = ...].  For an
    enum there are two [let] of the same name. *)
Definition rs_read_one (p : protocol) (n t : string) : list rstmt :=
  if mem t NUMERIC_TYPE_SIZES then rs_read_num n t
  else if String.eqb t "string" then [RStr (DLocal n)]
  else match lookup t (p_enums p) with
  | Some e => with_prim (rs_prim (e_encoding e)) RIllTyped (fun k => [RNum (DLocal n) k; REnumCheck n t])
  | None => [RCall (DLocal n) t]
  end.

(** rust.py:46-74, deserializer. *)
Definition rs_read (p : protocol) (m : var) : list rstmt :=
  let n := v_name m in
  if v_list m then
    let l := (n +++ "_len")%string in
    with_prim (rs_prim (p_list_size_type p)) RIllTyped (fun k =>
      [RNum (DLocal l) k;
       RNew (DLocal n) (v_type m) None;
       RFor "_" (DLocal l) (rs_read_one p "_el" (v_type m) ++ [RPush (DLocal n) "_el"])])
  else rs_read_one p n (v_type m).

(** rust.py:226-231, the body of from_bytes; [Ok(S {a, b})]. *)
Definition rs_reader (p : protocol) (s : struct) : list rstmt :=
  flat_map (rs_read p) (s_members s) ++ [RBuild (map (fun m => (v_name m, v_name m)) (s_members s))].

(** [String::from_utf8] *)
Definition rs_decode (raw : list byte) : option (list byte) := if utf8_valid raw then Some raw else None.

(** Rust.rs:69-76 and 59-67, read_string and take.  The length is converted with
    [as usize], so a negative one becomes a very large one.  The sum in
    has_remaining panics when it overflows, if overflow is checked; if not, it wraps
    around, and then the range in take panics. *)
Definition rs_str (p : protocol) (inp : list byte) (pos : nat) : got (list byte) :=
  match rs_prim (p_string_size_type p) with
  | None => Crash
  | Some k =>
      match read_num k inp pos with
      | Got (VInt z) q =>
          if z <? 0 then if 0 <=? Z.of_nat q + z then Crash else Miss q
          else if Z.of_nat q + z <=? Z.of_nat (List.length inp) then
            match rs_decode (firstn (Z.to_nat z) (skipn q inp)) with
            | Some s => Got s (q + Z.to_nat z)
            | None => Miss q
            end
          else if (2 ^ 32 <=? z) && (2 ^ 64 <=? Z.of_nat q + z) then Crash
          else Miss q
      | Got _ _ => Crash
      | Miss q => Miss q
      | Crash => Crash
      end
  end.

(** [for _ in 0..n] does nothing for a negative [n].  The initial object is not
    used: it is built at the end. *)
Definition rs_rt : rt :=
  {| rt_num := read_num;
     rt_str := rs_str;
     rt_raw := fun _ _ _ _ => Crash;
     rt_enum := only_declared;
     rt_make := fun _ _ => Got tt 0;
     rt_for := fun _ => Got tt 0;
     rt_zero := fun _ _ => VUndef;
     rt_init := fun _ _ => [] |}.

(** ** What does not compile *)

(** rust.py:79-89 for lists of bytes and bools: [_el] is a reference there, so
    neither [writer.push(_el)] nor [if _el] has the right type. *)
Definition rs_bad_list (m : var) : bool :=
  v_list m && (String.eqb (v_type m) "byte" || String.eqb (v_type m) "bool").

(** rust.py:48: the length of list [m] takes the place of an earlier member of the
    same name; the struct built at the end then has the wrong type, unless the
    types happen to agree. *)
Definition rs_bad_length (p : protocol) (before : list var) (m : var) : bool :=
  v_list m &&
  existsb (fun m' => String.eqb (v_name m') (v_name m +++ "_len") &&
                     (v_list m' || negb (String.eqb (v_type m') (p_list_size_type p)))) before.

(** rust.py:48-74: a member called reader takes the place of the parameter, which is
    still needed, unless this is the last use. *)
Definition rs_bad_reader (after : list var) (m : var) : bool :=
  String.eqb (v_name m) "reader" && (v_list m || match after with [] => false | _ => true end).

Fixpoint rs_members_compile (p : protocol) (before ms : list var) : bool :=
  match ms with
  | [] => true
  | m :: r => negb (rs_bad_list m) && negb (rs_bad_length p before m) && negb (rs_bad_reader r m) &&
              rs_members_compile p (before ++ [m]) r
  end.

(** Two members of a struct may not have the same name. *)
Definition rs_compiles (p : protocol) : bool :=
  forallb (fun ns => let ms := s_members (snd ns) in
             negb (has_dup_str (map v_name ms)) && rs_members_compile p [] ms)
    (p_structs p ++ p_messages p).

(** T::from_bytes(reader) with current_position [pos]. *)
Definition rs_from_bytes (p : protocol) (t : string) (inp : list byte) (pos : nat) : res val :=
  if rs_compiles p then read_with rs_rt rs_reader p t inp pos else RStuck.

(** rust.py:85-91, serializer of a number. *)
Definition rs_write_num (s : src) (t : string) : list wstmt :=
  if String.eqb t "byte" then [WNum NByte s]
  else if String.eqb t "bool" then [WNum NBool s]
  else with_prim (rs_prim t) WIllTyped (fun k => [WNum k s]).

(** rust.py:85-102, serializer of something that is no list. *)
Definition rs_write_one (p : protocol) (s : src) (t : string) : list wstmt :=
  if mem t NUMERIC_TYPE_SIZES then rs_write_num s t
  else if String.eqb t "string" then [WStr s]
  else match lookup t (p_enums p) with
  | Some e =>
      if String.eqb (e_encoding e) "byte" then [WNum NByte s]
      else with_prim (rs_prim (e_encoding e)) WIllTyped (fun k => [WNum k s])
  | None => [WCall t s]
  end.

(** rust.py:76-102, serializer. *)
Definition rs_write (p : protocol) (m : var) : list wstmt :=
  let n := v_name m in
  if v_list m then
    with_prim (rs_prim (p_list_size_type p)) WIllTyped (fun k =>
      [WCount k (SField n); WForEach "_el" (SField n) (rs_write_one p (SLocal "_el") (v_type m))])
  else rs_write_one p (SField n) (v_type m).
Definition rs_writer (p : protocol) (s : struct) : list wstmt := flat_map (rs_write p) (s_members s).

(** A Vec grows.  Lengths are converted with [as u16] and the like, which keeps the
    low bits. *)
Definition rs_wt : wt :=
  {| wt_put := put_append; wt_strlen := p_string_size_type; wt_traps := false; wt_raw := fun _ _ _ => None |}.

(** write_bytes(writer, false) of a message, write_bytes(writer) of a struct. *)
Definition rs_write_bytes (p : protocol) (t : string) (v : val) (w : wstate) : wout :=
  if rs_compiles p then write_with rs_wt rs_writer p t v w else WStuck.

(** rust.py:104-144: [for el in], [for s in]. *)
Definition rs_style : style :=
  {| st_loop := fun _ _ => LEach "el";
     st_strs := fun _ _ => LEach "s";
     st_deeper := 0; st_utf16 := false |}.

(** rust.py:214-223, get_size_in_bytes. *)
Definition rs_size (p : protocol) (t : string) (v : val) : mout :=
  if rs_compiles p then size_with rs_style p 0 t v else MStuck.

(** rust.py:181-197, [#\[derive(Default)\]]: zero, false, the empty string, the empty
    list, the defaults of structs; for enums rust.py:156-160.  [d] bounds the
    nesting. *)
Definition rs_defaults : list (string * val) :=
  [("u8", VInt 0); ("bool", VBool false); ("u16", VInt 0); ("i16", VInt 0); ("u32", VInt 0);
   ("i32", VInt 0); ("u64", VInt 0); ("i64", VInt 0); ("f32", VInt 0); ("f64", VInt 0); ("String", VStr [])]%string.
Fixpoint rs_default (p : protocol) (d : nat) (t : string) : list (string * val) :=
  match find_struct p t with
  | None => []
  | Some s =>
      map (fun m =>
        (v_name m,
         if v_list m then VList []
         else match lookup (v_type m) (rs_types ++ [("string", "String")]%string)%list with
         | Some n => match lookup n rs_defaults with Some v => v | None => VUndef end
         | None =>
             match lookup (v_type m) (p_enums p) with
             | Some e => match get_default_pair e with Some (_, z) => VInt z | None => VUndef end
             | None => match d with S d' => VStruct (rs_default p d' (v_type m)) | O => VUndef end
             end
         end)) (s_members s)
  end.

(** ** Streams *)

(** rust.py:240-241 and 327-328, the numbers of messages. *)
Definition rs_tags (p : protocol) : list (Z * string) := count_from 1 (p_messages p).

(** rust.py:350-375, process_raw_bytes, with rust.py:321-334, Message::from_bytes;
    is_finished is Rust.rs:43-45. *)
Definition rs_stream : stream :=
  {| sm_finished := fun inp pos => (List.length inp <=? pos)%nat;
     sm_tag := byte_tag (read_num NByte);
     sm_case := fun p b => tag_case b (rs_tags p);
     sm_read := rs_from_bytes;
     sm_lenient := false |}.
Definition rs_process (p : protocol) (max : Z) (inp : list byte) (pos : nat) : res (list (string * val)) :=
  if rs_compiles p then process rs_stream p max inp pos else RStuck.

(** rust.py:235-249, write_bytes(writer, true). *)
Definition rs_write_tagged (p : protocol) (t : string) (v : val) (w : wstate) : wout :=
  write_tagged rs_wt (rs_tags p) (rs_write_bytes p) (t, v) w.

(** Rust.rs:145-155, pack_messages. *)
Definition rs_pack (p : protocol) : list (string * val) -> wstate -> wout :=
  pack rs_wt (rs_tags p) (rs_write_bytes p).

(** Rust.rs:133-143, get_packed_size. *)
Definition rs_packed_size (p : protocol) : list (string * val) -> mout := packed_size (rs_size p).

(** Rust.rs:157-178, unpack_messages.  The count is converted with [as i32]. *)
Definition rs_unpack (p : protocol) (inp : list byte) (pos : nat) : res (list (string * val)) :=
  if rs_compiles p then
    if (pos + 4 <=? List.length inp)%nat then
      if list_eq_dec Byte.byte_eq_dec (firstn 4 (skipn pos inp)) header then
        match read_num NU32 inp (pos + 4) with
        | Got (VInt n) q => unpack_counted rs_stream p n (to_signed 4 n) inp q
        | Got _ _ => RStuck
        | Miss _ => RErr
        | Crash => RTrap
        end
      else RErr
    else RErr
  else RStuck.
