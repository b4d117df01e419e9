(** Model of beschi/protocol.py.

    Functions follow the Python source branch by branch.  A raised exception is
    the value [Raise e]; only the exception class is kept, not the message.

    Simplifications, all about documents that are rejected anyway:
    - a [_name] that is not a string raises [TypeError] when the struct, message
      or enum is built; Python raises it a little later, at [len(s.name)] or at
      the dictionary lookup;
    - a member whose type is a non-empty TOML array raises [NotImplementedError]
      when the struct is built; Python raises it (or [TypeError]) later. *)
From Verif Require Export Bytes.

(** Exception classes (of Python) that protocol.py and the writers can raise. *)
Inductive exn :=
| ValueError | TypeError | NotImplementedError | RecursionError
| IndexError | KeyError | AssertionError.

(** Result of running Python code.  [OutOfSteps] is not a Python result: it
    says that the step budget given to the one unbounded loop of the module
    (protocol.py:244) was not enough. *)
Inductive pyres (A : Type) :=
| Ret (a : A)
| Raise (e : exn)
| OutOfSteps.
Arguments Ret {A} a. Arguments Raise {A} e. Arguments OutOfSteps {A}.

Definition pbind {A B} (m : pyres A) (f : A -> pyres B) : pyres B :=
  match m with
  | Ret a => f a
  | Raise e => Raise e
  | OutOfSteps => OutOfSteps
  end.
Notation "x <- m ;; k" := (pbind m (fun x => k))
  (at level 61, m at next level, right associativity).
Notation "m ;;; k" := (pbind m (fun _ => k))
  (at level 61, right associativity).

(** [if b: raise e] *)
Definition raise_if (b : bool) (e : exn) : pyres unit :=
  if b then Raise e else Ret tt.

(** [for x in l: f(x)], stopping at the first exception. *)
Fixpoint for_each {A} (f : A -> pyres unit) (l : list A) : pyres unit :=
  match l with
  | [] => Ret tt
  | x :: r => f x ;;; for_each f r
  end.

(** ** Parsed TOML (what tomllib.loads returns) *)
Inductive toml :=
| TStr (s : string)
| TInt (z : Z)
| TBool (b : bool)
| TFloat (text : string)
| TDate (text : string)
| TArr (l : list toml)
| TTab (kvs : list (string * toml)).

(** Python [k in v] for a string [k]. *)
Definition py_in (k : string) (v : toml) : pyres bool :=
  match v with
  | TTab kvs => Ret (mem k kvs)
  | TStr s => Ret (match String.index 0 k s with Some _ => true | None => false end)
  | TArr l => Ret (existsb (fun x => match x with TStr s => String.eqb k s | _ => false end) l)
  | _ => Raise TypeError
  end.

(** Python [v[k]] for a string [k]. *)
Definition py_get (k : string) (v : toml) : pyres toml :=
  match v with
  | TTab kvs => match lookup k kvs with Some x => Ret x | None => Raise KeyError end
  | _ => Raise TypeError
  end.

Fixpoint chars (s : string) : list toml :=
  match s with
  | EmptyString => []
  | String c r => TStr (String c EmptyString) :: chars r
  end.

(** Python [for x in v]. *)
Definition py_iter (v : toml) : pyres (list toml) :=
  match v with
  | TArr l => Ret l
  | TTab kvs => Ret (map (fun kv => TStr (fst kv)) kvs)
  | TStr s => Ret (chars s)
  | _ => Raise TypeError
  end.

(** ** Tables at the top of the module *)

(** protocol.py:7-18 *)
Definition NUMERIC_TYPE_SIZES : list (string * Z) :=
  [("byte", 1); ("bool", 1); ("uint16", 2); ("int16", 2); ("uint32", 4);
   ("int32", 4); ("uint64", 8); ("int64", 8); ("float", 4); ("double", 8)]%string.

(** protocol.py:20-28 *)
Definition NUMERIC_TYPE_RANGES : list (string * (Z * Z)) :=
  [("byte",   (0, 255));
   ("int16",  (-32768, 32767));
   ("uint16", (0, 65535));
   ("int32",  (-2147483648, 2147483647));
   ("uint32", (0, 4294967295));
   ("int64",  (-9223372036854775808, 9223372036854775807));
   ("uint64", (0, 18446744073709551615))]%string.

(** protocol.py:31 *)
Definition RESERVED_WORDS : list string :=
  map fst NUMERIC_TYPE_SIZES ++ ["string"; "list"]%string.

(** Python's [string.whitespace]: space, tab, newline, return, VT, FF. *)
Definition WHITESPACE : list ascii :=
  map ascii_of_nat [32; 9; 10; 13; 11; 12]%nat.

(** protocol.py:33-34, for a string. *)
Definition contains_whitespace (s : string) : bool :=
  existsb (fun c => has_char c s) WHITESPACE.

(** protocol.py:33-34, for any value (the namespace is not type checked). *)
Fixpoint contains_ws_any (cs : list ascii) (v : toml) : pyres bool :=
  match cs with
  | [] => Ret false
  | c :: r => a <- py_in (String c EmptyString) v ;;
              b <- contains_ws_any r v ;;
              Ret (a || b)
  end.

(** ** Classes *)

(** protocol.py:36-47, class Variable (the back reference to the protocol is
    passed separately). *)
Record var := MkVar { v_name : string; v_type : string; v_list : bool }.

(** protocol.py:65-107, class Enum. *)
Record enum := MkEnum { e_name : string; e_values : list (string * Z); e_encoding : string }.

(** protocol.py:109-116, class Struct. *)
Record struct := MkStruct { s_name : string; s_members : list var; s_is_message : bool }.

(** protocol.py:118-125, class Protocol.  [p_namespace = None] is [None]; the
    namespace can be any TOML value because nothing checks its type. *)
Record protocol := MkProtocol {
  p_namespace : option toml;
  p_list_size_type : string;
  p_string_size_type : string;
  p_structs : list (string * struct);
  p_messages : list (string * struct);
  p_enums : list (string * enum) }.

(** protocol.py:70-74: number of occurrences, [Counter(...)]. *)
Fixpoint has_dup_str (l : list string) : bool :=
  match l with
  | [] => false
  | x :: r => in_strs x r || has_dup_str r
  end.

(** protocol.py:198-199: [Counter(e.values.values())] has a count above 1. *)
Fixpoint has_dup_Z (l : list Z) : bool :=
  match l with
  | [] => false
  | x :: r => existsb (Z.eqb x) r || has_dup_Z r
  end.

(** protocol.py:74, [enumerate]. *)
Fixpoint number_from (i : Z) (l : list string) : list (string * Z) :=
  match l with
  | [] => []
  | x :: r => (x, i) :: number_from (i + 1) r
  end.

Definition is_tstr (v : toml) : bool := match v with TStr _ => true | _ => false end.
Definition is_ttab (v : toml) : bool := match v with TTab _ => true | _ => false end.

(** The strings of a list all of whose entries are strings. *)
Fixpoint tstrs (l : list toml) : list string :=
  match l with
  | TStr s :: r => s :: tstrs r
  | _ :: r => tstrs r
  | [] => []
  end.

(** protocol.py:79-88, one table entry of [_values]. *)
Definition enum_entry (v : toml) : pyres (string * Z) :=
  b <- py_in "_name" v ;;
  raise_if (negb b) TypeError ;;;
  n <- py_get "_name" v ;;
  match n with
  | TStr name =>
      b2 <- py_in "_value" v ;;
      raise_if (negb b2) TypeError ;;;
      x <- py_get "_value" v ;;
      match x with
      | TInt z => Ret (name, z)
      | _ => Raise TypeError              (* bool is not int: [type(x) is int] *)
      end
  | _ => Raise TypeError
  end.

(** protocol.py:78-89 *)
Fixpoint enum_tables (l : list toml) (od : list (string * Z)) : pyres (list (string * Z)) :=
  match l with
  | [] => Ret od
  | v :: r => nz <- enum_entry v ;; enum_tables r (dict_set (fst nz) (snd nz) od)
  end.

(** [min] and [max] of a non-empty list; [None] is [ValueError]. *)
Fixpoint zmin (l : list Z) : option Z :=
  match l with
  | [] => None
  | x :: r => match zmin r with None => Some x | Some m => Some (Z.min x m) end
  end.
Fixpoint zmax (l : list Z) : option Z :=
  match l with
  | [] => None
  | x :: r => match zmax r with None => Some x | Some m => Some (Z.max x m) end
  end.

(** protocol.py:95-100: first option whose range holds minimum and maximum. *)
Fixpoint pick_encoding (mn mx : Z) (opts : list string) : pyres string :=
  match opts with
  | [] => Raise ValueError
  | o :: r =>
      match lookup o NUMERIC_TYPE_RANGES with
      | None => Raise KeyError
      | Some (lo, hi) => if (lo <=? mn) && (mx <=? hi) then Ret o else pick_encoding mn mx r
      end
  end.

(** protocol.py:66-100, Enum.__init__ *)
Definition enum_init (name : string) (value_spec : list toml) : pyres enum :=
  values <-
    (if forallb is_tstr value_spec then
       raise_if (has_dup_str (tstrs value_spec)) ValueError ;;;
       Ret (number_from 0 (tstrs value_spec))
     else if negb (forallb is_ttab value_spec) then Raise TypeError
     else enum_tables value_spec []) ;;
  match zmin (map snd values), zmax (map snd values) with
  | Some mn, Some mx =>
      enc <- pick_encoding mn mx ["byte"; "int16"; "int32"]%string ;;
      Ret (MkEnum name values enc)
  | _, _ => Raise ValueError
  end.

(** protocol.py:102-103 *)
Definition get_default_pair (e : enum) : option (string * Z) := hd_error (e_values e).

(** protocol.py:105-107: the first pair with the smallest value. *)
Fixpoint min_pair (l : list (string * Z)) : option (string * Z) :=
  match l with
  | [] => None
  | x :: r => match min_pair r with
              | None => Some x
              | Some y => if snd x <=? snd y then Some x else Some y
              end
  end.
Definition get_minimum_pair (e : enum) : option (string * Z) := min_pair (e_values e).

(** ** Protocol.__init__ *)

(** protocol.py:138 *)
Definition valid_sizes : list string :=
  ["byte"; "uint16"; "int16"; "uint32"; "int32"; "uint64"; "int64"]%string.

(** protocol.py:139-146, one of the two size types. *)
Definition load_size (key : string) (meta : toml) : pyres string :=
  b <- py_in key meta ;;
  if b then
    v <- py_get key meta ;;
    match v with
    | TStr s => if in_strs s valid_sizes then Ret s else Raise ValueError
    | _ => Raise ValueError
    end
  else Ret "uint32"%string.

(** protocol.py:133-146: namespace, list size type, string size type. *)
Definition load_meta (data : list (string * toml))
  : pyres (option toml * string * string) :=
  match lookup "meta" data with
  | None => Ret (None, "uint32"%string, "uint32"%string)
  | Some meta =>
      ns <- (b <- py_in "namespace" meta ;;
             if b then
               v <- py_get "namespace" meta ;;
               ws <- contains_ws_any WHITESPACE v ;;
               raise_if ws ValueError ;;;
               Ret (Some v)
             else Ret None) ;;
      ls <- load_size "list_size_type" meta ;;
      ss <- load_size "string_size_type" meta ;;
      Ret (ns, ls, ss)
  end.

(** [s[0] == "[" and s[-1] == "]"]; [None] is [IndexError]. *)
Definition bracketed (s : string) : option bool :=
  match first_char s, last_char s with
  | Some a, Some z => Some (Ascii.eqb a "[" && Ascii.eqb z "]")%char
  | _, _ => None
  end.

(** protocol.py:159-165: name and type of one member. *)
Definition build_var (name : string) (t : toml) : pyres var :=
  match t with
  | TStr s =>
      match bracketed s with
      | None => Raise IndexError
      | Some true =>
          let listed := drop_last (drop_first s) in
          match bracketed listed with
          | None => Raise IndexError
          | Some true => Raise ValueError
          | Some false => Ret (MkVar name listed true)
          end
      | Some false => Ret (MkVar name s false)
      end
  | TTab _ => Raise KeyError
  | TArr [] => Raise IndexError
  | TArr _ => Raise NotImplementedError
  | _ => Raise TypeError
  end.

Definition starts_underscore (s : string) : bool :=
  match s with String "_" _ => true | _ => false end.

(** protocol.py:157-166 *)
Fixpoint build_members (items : list (string * toml)) : pyres (list var) :=
  match items with
  | [] => Ret []
  | (k, t) :: r =>
      if starts_underscore k then build_members r
      else v <- build_var k t ;;
           vs <- build_members r ;;
           Ret (v :: vs)
  end.

(** protocol.py:152-167 *)
Definition build_struct (is_message : bool) (data : toml) : pyres struct :=
  b <- py_in "_name" data ;;
  raise_if (negb b) ValueError ;;;
  n <- py_get "_name" data ;;
  match data with
  | TTab items =>
      ms <- build_members items ;;
      match n with
      | TStr name => Ret (MkStruct name ms is_message)
      | _ => Raise TypeError
      end
  | _ => Raise TypeError
  end.

(** protocol.py:169-178: structs, or messages, into a dictionary. *)
Fixpoint load_structs (is_message : bool) (l : list toml)
         (acc : list (string * struct)) : pyres (list (string * struct)) :=
  match l with
  | [] => Ret acc
  | d :: r =>
      s <- build_struct is_message d ;;
      raise_if (mem (s_name s) acc) ValueError ;;;
      load_structs is_message r (dict_set (s_name s) s acc)
  end.

(** protocol.py:179-187 *)
Fixpoint load_enums (l : list toml) (acc : list (string * enum))
  : pyres (list (string * enum)) :=
  match l with
  | [] => Ret acc
  | d :: r =>
      b <- py_in "_name" d ;; raise_if (negb b) ValueError ;;;
      b2 <- py_in "_values" d ;; raise_if (negb b2) ValueError ;;;
      vs <- py_get "_values" d ;;
      match vs with
      | TArr spec =>
          n <- py_get "_name" d ;;
          match n with
          | TStr name =>
              e <- enum_init name spec ;;
              load_enums r (dict_set (e_name e) e acc)
          | _ => Raise TypeError
          end
      | _ => Raise ValueError
      end
  end.

(** protocol.py:189-211 *)
Definition validate_enum (p : protocol) (e : enum) : pyres unit :=
  raise_if (String.eqb (e_name e) "") ValueError ;;;
  raise_if (contains_whitespace (e_name e)) ValueError ;;;
  raise_if (in_strs (lower (e_name e)) RESERVED_WORDS) ValueError ;;;
  raise_if (match e_values e with [] => true | _ => false end) ValueError ;;;
  raise_if (has_dup_Z (map snd (e_values e))) ValueError ;;;
  raise_if (mem (e_name e) (p_structs p)) ValueError ;;;
  raise_if (mem (e_name e) (p_messages p)) ValueError ;;;
  for_each (fun v =>
    raise_if (mem v (p_structs p)) ValueError ;;;
    raise_if (mem v (p_messages p)) ValueError ;;;
    raise_if (contains_whitespace v) ValueError) (map fst (e_values e)).

(** protocol.py:228 *)
Definition valid_types (p : protocol) : list string :=
  map fst (p_structs p) ++ map fst (p_enums p) ++ map fst NUMERIC_TYPE_SIZES ++ ["string"%string].

(** protocol.py:225-232, one member *)
Definition validate_member (p : protocol) (s : struct) (v : var) : pyres unit :=
  raise_if (contains_whitespace (v_name v)) ValueError ;;;
  if in_strs (v_type v) (valid_types p) then Ret tt
  else if s_is_message s && mem (v_type v) (p_messages p) then Raise ValueError
  else Raise NotImplementedError.

(** protocol.py:213-232 *)
Definition validate_struct (p : protocol) (s : struct) : pyres unit :=
  raise_if (String.eqb (s_name s) "") ValueError ;;;
  raise_if (contains_whitespace (s_name s)) ValueError ;;;
  raise_if (in_strs (lower (s_name s)) RESERVED_WORDS) ValueError ;;;
  raise_if (s_is_message s && mem (s_name s) (p_structs p)) ValueError ;;;
  for_each (validate_member p s) (s_members s).

(** protocol.py:248-252: members of a struct that came off the work list are
    pushed one by one; [stack] is the Python list reversed (its head is the
    element that [pop] returns). *)
Fixpoint push_members (p : protocol) (start : string) (ms : list var)
         (stack : list string) : pyres (list string) :=
  match ms with
  | [] => Ret stack
  | m :: r =>
      if String.eqb (v_type m) start then Raise RecursionError
      else if negb (mem (v_type m) (p_structs p)) then push_members p start r stack
      else push_members p start r (v_type m :: stack)
  end.

(** protocol.py:244-252: the [while] loop, with a budget of iterations.
    [encountered] is [{start}] throughout: the code never adds to it. *)
Fixpoint cycle_loop (p : protocol) (start : string) (fuel : nat)
         (stack : list string) : pyres unit :=
  match stack with
  | [] => Ret tt
  | t :: rest =>
      match fuel with
      | O => OutOfSteps
      | S fuel' =>
          if String.eqb t start then Raise RecursionError
          else match lookup t (p_structs p) with
               | None => Raise KeyError
               | Some s =>
                   st <- push_members p start (s_members s) rest ;;
                   cycle_loop p start fuel' st
               end
      end
  end.

(** protocol.py:241-252 *)
Definition check_for_cycles (p : protocol) (fuel : nat) (s : struct) : pyres unit :=
  cycle_loop p (s_name s) fuel
    (rev (filter (fun t => mem t (p_structs p)) (map v_type (s_members s)))).

(** protocol.py:148-150, [protocol_data[key]] with the default [[]]. *)
Definition section (key : string) (data : list (string * toml)) : toml :=
  match lookup key data with Some v => v | None => TArr [] end.

(** protocol.py:133-187: everything before validation. *)
Definition build (data : list (string * toml)) : pyres protocol :=
  meta <- load_meta data ;;
  sl <- py_iter (section "structs" data) ;;
  structs <- load_structs false sl [] ;;
  ml <- py_iter (section "messages" data) ;;
  messages <- load_structs true ml [] ;;
  el <- py_iter (section "enums" data) ;;
  enums <- load_enums el [] ;;
  let '(ns, ls, ss) := meta in
  Ret (MkProtocol ns ls ss structs messages enums).

(** protocol.py:234-255: validation. *)
Definition validate (fuel : nat) (p : protocol) : pyres unit :=
  for_each (validate_struct p) (map snd (p_structs p)) ;;;
  for_each (validate_struct p) (map snd (p_messages p)) ;;;
  for_each (validate_enum p) (map snd (p_enums p)) ;;;
  raise_if (Nat.ltb 255 (List.length (p_messages p))) ValueError ;;;
  for_each (check_for_cycles p fuel) (map snd (p_structs p)) ;;;
  for_each (check_for_cycles p fuel) (map snd (p_messages p)).

(** protocol.py:119-255, Protocol.__init__ on a parsed document.  [fuel] bounds
    the number of iterations of each cycle check. *)
Definition load (fuel : nat) (data : list (string * toml)) : pyres protocol :=
  p <- build data ;;
  validate fuel p ;;;
  Ret p.

(** ** Queries used by the generators *)

(** protocol.py:49-63 and 115-116, Variable.is_simple and Struct.is_simple, by
    recursion on the nesting depth.  [OutOfSteps] stands for the Python
    recursion limit; [is_simple_total] (ProtocolFacts.v) shows that it does not
    happen for accepted protocols with the depth used below. *)
Fixpoint simple_type (p : protocol) (depth : nat) (t : string) : pyres bool :=
  if mem t NUMERIC_TYPE_SIZES then Ret true
  else if String.eqb t "string" then Ret false
  else if mem t (p_enums p) then Ret true
  else
    let members s d :=
      (fix all (ms : list var) : pyres bool :=
         match ms with
         | [] => Ret true
         | m :: r =>
             a <- (if v_list m then Ret false else simple_type p d (v_type m)) ;;
             b <- all r ;;              (* the list is built before [all] *)
             Ret (a && b)
         end) (s_members s) in
    match lookup t (p_structs p) with
    | Some s => match depth with O => OutOfSteps | S d => members s d end
    | None =>
        match lookup t (p_messages p) with
        | Some s => match depth with O => OutOfSteps | S d => members s d end
        | None => Raise NotImplementedError
        end
    end.

(** protocol.py:260-277, Protocol.get_size_of *)
Fixpoint size_of_type (p : protocol) (depth : nat) (t : string) : pyres Z :=
  match lookup t NUMERIC_TYPE_SIZES with
  | Some n => Ret n
  | None =>
      match lookup t (p_enums p) with
      | Some e => match lookup (e_encoding e) NUMERIC_TYPE_SIZES with
                  | Some n => Ret n | None => Raise KeyError end
      | None =>
          if String.eqb t "string" then Raise NotImplementedError
          else
            let members s d :=
              (fix sum (ms : list var) : pyres Z :=
                 match ms with
                 | [] => Ret 0
                 | m :: r =>
                     if v_list m then Raise NotImplementedError
                     else a <- size_of_type p d (v_type m) ;;
                          b <- sum r ;;
                          Ret (a + b)
                 end) (s_members s) in
            match lookup t (p_structs p) with
            | Some s => match depth with O => OutOfSteps | S d => members s d end
            | None =>
                match lookup t (p_messages p) with
                | Some s => match depth with O => OutOfSteps | S d => members s d end
                | None => Raise KeyError
                end
            end
      end
  end.

(** Nesting depth that is always enough for an accepted protocol (a message
    around a chain of distinct structs). *)
Definition depth_of (p : protocol) : nat := S (List.length (p_structs p)).

(** The queries as the generators use them.  The defaults for the exception
    cases are never used for accepted protocols and declared types:
    [simple_type_ok] and [size_of_type_ok] in ProtocolFacts3.v. *)
Definition is_simple (p : protocol) (t : string) : bool :=
  match simple_type p (depth_of p) t with Ret b => b | _ => false end.
Definition size_of (p : protocol) (t : string) : Z :=
  match size_of_type p (depth_of p) t with Ret n => n | _ => 0 end.

(** protocol.py:49-51, Variable.is_simple() with [listed=False]. *)
Definition var_is_simple (p : protocol) (v : var) : bool :=
  if v_list v then false else is_simple p (v_type v).
