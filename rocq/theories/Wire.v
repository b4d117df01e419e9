(** The binary format, as a relation between types, values and bytes.

    This file is the specification.  It is written from docs/protocols.md and the
    format descriptions in the README; it does not mention generators, generated
    code, step budgets or computed sizes.  Only the protocol data types are
    shared with the model. *)
From Verif Require Export ProtocolSpec.

(** ** Values *)

(** A message or struct value as a user sees it: named members in declaration
    order.  Floating point numbers are their IEEE bit patterns, enum members
    their numeric values, strings their UTF-8 bytes. *)
Inductive val :=
| VInt (z : Z)
| VBool (b : bool)
| VStr (s : list byte)
| VList (l : list val)
| VStruct (fs : list (string * val))
| VUndef.                              (* a memory cell nobody has written *)

(** ** Base types *)

Inductive num := NByte | NBool | NU16 | NI16 | NU32 | NI32 | NU64 | NI64 | NF32 | NF64.

Definition num_of (t : string) : option num :=
  lookup t [("byte", NByte); ("bool", NBool); ("uint16", NU16); ("int16", NI16);
            ("uint32", NU32); ("int32", NI32); ("uint64", NU64); ("int64", NI64);
            ("float", NF32); ("double", NF64)]%string.

(** Bytes on the wire. *)
Definition num_size (k : num) : nat :=
  match k with
  | NByte | NBool => 1
  | NU16 | NI16 => 2
  | NU32 | NI32 | NF32 => 4
  | NU64 | NI64 | NF64 => 8
  end.

(** Smallest and largest value (for floating point: of the bit pattern). *)
Definition num_min (k : num) : Z :=
  match k with
  | NI16 => - 2 ^ 15 | NI32 => - 2 ^ 31 | NI64 => - 2 ^ 63
  | _ => 0
  end.
Definition num_max (k : num) : Z :=
  match k with
  | NByte => 2 ^ 8 - 1 | NBool => 1
  | NU16 => 2 ^ 16 - 1 | NI16 => 2 ^ 15 - 1
  | NU32 => 2 ^ 32 - 1 | NI32 => 2 ^ 31 - 1 | NF32 => 2 ^ 32 - 1
  | NU64 => 2 ^ 64 - 1 | NI64 => 2 ^ 63 - 1 | NF64 => 2 ^ 64 - 1
  end.

(** Two dimensions in which readers are more liberal than writers:
    [any_true]: every non-zero byte is read as true;
    [any_enum]: an enum member may hold an undeclared number. *)
Record mode := { any_true : bool; any_enum : bool }.

(** What writers produce. *)
Definition strict : mode := {| any_true := false; any_enum := false |}.
(** What a checking reader is entitled to accept. *)
Definition reading : mode := {| any_true := true; any_enum := false |}.
(** As [reading], but without the rule that enum values are declared. *)
Definition unchecked : mode := {| any_true := true; any_enum := true |}.

(** [wire_num md k v bs]: [bs] is [v] as a number of kind [k], least significant
    byte first, negative numbers in two's complement. *)
Inductive wire_num (md : mode) : num -> val -> list byte -> Prop :=
| wn_int k z bs :
    k <> NBool -> List.length bs = num_size k -> num_min k <= z <= num_max k ->
    le_val bs = z mod 256 ^ Z.of_nat (num_size k) ->
    wire_num md k (VInt z) bs
| wn_false : wire_num md NBool (VBool false) [x00]
| wn_true b : (if any_true md then b <> x00 else b = x01) ->
    wire_num md NBool (VBool true) [b].

(** A length, written as a number of type [t]. *)
Definition wire_size (md : mode) (t : string) (n : nat) (bs : list byte) : Prop :=
  exists k, num_of t = Some k /\ wire_num md k (VInt (Z.of_nat n)) bs.

(** ** Types and members *)

Inductive wire_in (md : mode) (p : protocol) : string -> val -> list byte -> Prop :=
| w_num t k v bs :
    num_of t = Some k -> wire_num md k v bs -> wire_in md p t v bs
| w_str s lb :
    wire_size md (p_string_size_type p) (List.length s) lb ->
    wire_in md p "string" (VStr s) (lb ++ s)
| w_enum t e k z bs :
    In (t, e) (p_enums p) -> num_of (e_encoding e) = Some k ->
    (any_enum md = true \/ In z (map snd (e_values e))) ->
    wire_num md k (VInt z) bs -> wire_in md p t (VInt z) bs
| w_struct t s fs bs :
    declares p t s -> wire_members md p (s_members s) fs bs ->
    wire_in md p t (VStruct fs) bs
with wire_members (md : mode) (p : protocol) : list var -> list (string * val) -> list byte -> Prop :=
| wm_nil : wire_members md p [] [] []
| wm_cons m ms v fs a b :
    wire_member md p m v a -> wire_members md p ms fs b ->
    wire_members md p (m :: ms) ((v_name m, v) :: fs) (a ++ b)
with wire_member (md : mode) (p : protocol) : var -> val -> list byte -> Prop :=
| wm_one m v bs :
    v_list m = false -> wire_in md p (v_type m) v bs -> wire_member md p m v bs
| wm_list m vs lb bs :
    v_list m = true -> wire_size md (p_list_size_type p) (List.length vs) lb ->
    wire_elems md p (v_type m) vs bs -> wire_member md p m (VList vs) (lb ++ bs)
with wire_elems (md : mode) (p : protocol) : string -> list val -> list byte -> Prop :=
| we_nil t : wire_elems md p t [] []
| we_cons t v vs a b :
    wire_in md p t v a -> wire_elems md p t vs b -> wire_elems md p t (v :: vs) (a ++ b).

(** The encoding that writers produce. *)
Notation wire := (wire_in strict).

(** ** Values that can be sent *)

Inductive num_ok : num -> val -> Prop :=
| no_int k z : k <> NBool -> num_min k <= z <= num_max k -> num_ok k (VInt z)
| no_bool b : num_ok NBool (VBool b).

(** A length that its size type can hold. *)
Definition size_ok (t : string) (n : nat) : Prop :=
  exists k, num_of t = Some k /\ num_ok k (VInt (Z.of_nat n)).

(** [in_range p t v]: [v] has the shape of type [t], its numbers are in range,
    its enum members are declared, its lists and strings are not too long. *)
Inductive in_range (p : protocol) : string -> val -> Prop :=
| ir_num t k v : num_of t = Some k -> num_ok k v -> in_range p t v
| ir_str s : size_ok (p_string_size_type p) (List.length s) -> in_range p "string" (VStr s)
| ir_enum t e z : In (t, e) (p_enums p) -> In z (map snd (e_values e)) -> in_range p t (VInt z)
| ir_struct t s fs : declares p t s -> in_range_members p (s_members s) fs -> in_range p t (VStruct fs)
with in_range_members (p : protocol) : list var -> list (string * val) -> Prop :=
| irm_nil : in_range_members p [] []
| irm_one m ms v fs : v_list m = false -> in_range p (v_type m) v ->
    in_range_members p ms fs -> in_range_members p (m :: ms) ((v_name m, v) :: fs)
| irm_list m ms vs fs : v_list m = true -> size_ok (p_list_size_type p) (List.length vs) ->
    in_range_all p (v_type m) vs ->
    in_range_members p ms fs -> in_range_members p (m :: ms) ((v_name m, VList vs) :: fs)
with in_range_all (p : protocol) : string -> list val -> Prop :=
| ira_nil t : in_range_all p t []
| ira_cons t v vs : in_range p t v -> in_range_all p t vs -> in_range_all p t (v :: vs).

(** Every enum inside a value of type [t] holds a number that is all right for it. *)
Inductive enums_in (ok : enum -> Z -> Prop) (p : protocol) : string -> val -> Prop :=
| ed_enum t e z : In (t, e) (p_enums p) -> ok e z -> enums_in ok p t (VInt z)
| ed_struct t s fs : declares p t s ->
    (forall m v, In m (s_members s) -> v_list m = false -> In (v_name m, v) fs ->
       enums_in ok p (v_type m) v) ->
    (forall m vs v, In m (s_members s) -> v_list m = true -> In (v_name m, VList vs) fs -> In v vs ->
       enums_in ok p (v_type m) v) ->
    enums_in ok p t (VStruct fs)
| ed_base t v : In t base_types \/ t = "string"%string -> enums_in ok p t v.

(** It holds a declared number. *)
Definition enums_declared : protocol -> string -> val -> Prop := enums_in (fun e z => In z (map snd (e_values e))).

(** ** Messages in a stream *)

(** The number of a message: its position in the protocol, from 1. *)
Inductive numbered (p : protocol) : string -> Z -> Prop :=
| numbered_at t i s : nth_error (p_messages p) i = Some (t, s) ->
    numbered p t (Z.of_nat (S i)).

(** A message preceded by its number. *)
Inductive wire_tagged (md : mode) (p : protocol) : string * val -> list byte -> Prop :=
| wt_intro t i v b bs :
    numbered p t i -> Z_of_byte b = i -> wire_in md p t v bs ->
    wire_tagged md p (t, v) (b :: bs).

(** Messages one after the other. *)
Inductive wire_stream (md : mode) (p : protocol) : list (string * val) -> list byte -> Prop :=
| wst_nil : wire_stream md p [] []
| wst_cons m ms a b :
    wire_tagged md p m a -> wire_stream md p ms b -> wire_stream md p (m :: ms) (a ++ b).

(** A packed buffer: "BSCI", the number of messages in four bytes, the messages,
    a zero byte. *)
Definition header : list byte := [x42; x53; x43; x49].
Inductive wire_packed (md : mode) (p : protocol) : list (string * val) -> list byte -> Prop :=
| wp_intro ms nb bs :
    wire_num md NU32 (VInt (Z.of_nat (List.length ms))) nb ->
    wire_stream md p ms bs ->
    wire_packed md p ms (header ++ nb ++ bs ++ [x00]).

(** ** Text *)

(** Well formed UTF-8 (RFC 3629, section 4). *)
Definition byte_in (lo hi : Z) (b : byte) : Prop := lo <= Z_of_byte b <= hi.
Inductive utf8_char : list byte -> Prop :=
| u1 a : byte_in 0 127 a -> utf8_char [a]
| u2 a b : byte_in 194 223 a -> byte_in 128 191 b -> utf8_char [a; b]
| u3_e0 a b c : Z_of_byte a = 224 -> byte_in 160 191 b -> byte_in 128 191 c -> utf8_char [a; b; c]
| u3 a b c : byte_in 225 236 a \/ byte_in 238 239 a ->
    byte_in 128 191 b -> byte_in 128 191 c -> utf8_char [a; b; c]
| u3_ed a b c : Z_of_byte a = 237 -> byte_in 128 159 b -> byte_in 128 191 c -> utf8_char [a; b; c]
| u4_f0 a b c d : Z_of_byte a = 240 -> byte_in 144 191 b -> byte_in 128 191 c ->
    byte_in 128 191 d -> utf8_char [a; b; c; d]
| u4 a b c d : byte_in 241 243 a -> byte_in 128 191 b -> byte_in 128 191 c ->
    byte_in 128 191 d -> utf8_char [a; b; c; d]
| u4_f4 a b c d : Z_of_byte a = 244 -> byte_in 128 143 b -> byte_in 128 191 c ->
    byte_in 128 191 d -> utf8_char [a; b; c; d].
Inductive utf8 : list byte -> Prop :=
| utf8_nil : utf8 []
| utf8_cons c s : utf8_char c -> utf8 s -> utf8 (c ++ s).

(** Every string in a value satisfies [P]. *)
Inductive strings (P : list byte -> Prop) : val -> Prop :=
| st_int z : strings P (VInt z)
| st_bool b : strings P (VBool b)
| st_undef : strings P VUndef
| st_str s : P s -> strings P (VStr s)
| st_list l : (forall v, In v l -> strings P v) -> strings P (VList l)
| st_struct fs : (forall n v, In (n, v) fs -> strings P v) -> strings P (VStruct fs).

(** A value all of whose lists have lengths that satisfy [P]. *)
Inductive lists (P : nat -> Prop) : val -> Prop :=
| ls_int z : lists P (VInt z)
| ls_bool b : lists P (VBool b)
| ls_undef : lists P VUndef
| ls_str s : lists P (VStr s)
| ls_list l : P (List.length l) -> (forall v, In v l -> lists P v) -> lists P (VList l)
| ls_struct fs : (forall n v, In (n, v) fs -> lists P v) -> lists P (VStruct fs).

(** A value all of whose strings are text. *)
Definition texts : val -> Prop := strings utf8.

(** [texted f v0 v]: [v] is [v0] with [f] applied to every string. *)
Inductive texted (f : list byte -> option (list byte)) : val -> val -> Prop :=
| tx_int z : texted f (VInt z) (VInt z)
| tx_bool b : texted f (VBool b) (VBool b)
| tx_str s s' : f s = Some s' -> texted f (VStr s) (VStr s')
| tx_list l l' : Forall2 (texted f) l l' -> texted f (VList l) (VList l')
| tx_struct fs fs' : Forall2 (fun a b => fst a = fst b /\ texted f (snd a) (snd b)) fs fs' ->
    texted f (VStruct fs) (VStruct fs').

(** The same for a list of messages. *)
Definition same_texts (f : list byte -> option (list byte)) (ms0 ms : list (string * val)) : Prop :=
  Forall2 (fun a b => fst a = fst b /\ texted f (snd a) (snd b)) ms0 ms.
