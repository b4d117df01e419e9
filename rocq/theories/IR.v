(** The statements that the generators print, and what they mean.

    A generator of a target language is modelled as a function that returns such
    statements, in the order in which the Python code prints the lines.  One
    constructor stands for one printed line, or for a group of lines that is
    always printed together (a call and the test of its error, an [if] around a
    [return]).  The interpreters below say what the target language does with
    them.  What differs between languages in the library calls is in the records
    [rt] (reading) and [wt] (writing). *)
From Verif Require Export Wire.

(** ** Reading *)

(** What a primitive read returns: a value and the new position; failure in the
    way the language reports it (with the position afterwards, because Go goes
    on reading after some errors); or a crash that the caller cannot handle. *)
Inductive got (A : Type) := Got (a : A) (pos : nat) | Miss (pos : nat) | Crash.
Arguments Got {A} a pos. Arguments Miss {A} pos. Arguments Crash {A}.

(** [n] bytes at position [pos], if that many are there. *)
Definition bytes_at (inp : list byte) (pos n : nat) : option (list byte) :=
  if (pos + n <=? List.length inp)%nat then Some (firstn n (skipn pos inp)) else None.

(** The value of [num_size k] bytes read as a number of kind [k]. *)
Definition num_val (k : num) (bs : list byte) : val :=
  match k with
  | NBool => VBool (negb (le_val bs =? 0))
  | NI16 | NI32 | NI64 => VInt (to_signed (num_size k) (le_val bs))
  | _ => VInt (le_val bs)
  end.

(** A checked little endian read that leaves the position alone when it fails. *)
Definition read_num (k : num) (inp : list byte) (pos : nat) : got val :=
  match bytes_at inp pos (num_size k) with
  | Some bs => Got (num_val k bs) (pos + num_size k)
  | None => Miss pos
  end.

(** A length of the string size type at [pos] of [inp], then that many bytes of
    [buf] ([inp] itself, except in TypeScript); [neg] is what happens for a
    negative length, [conv] what the language makes of the bytes ([None]: it
    reports that they are not text). *)
Definition sized_str (neg : got (list byte)) (conv : list byte -> option (list byte))
           (p : protocol) (buf inp : list byte) (pos : nat) : got (list byte) :=
  match num_of (p_string_size_type p) with
  | None => Crash
  | Some k =>
      match read_num k inp pos with
      | Got (VInt z) q =>
          if z <? 0 then neg
          else if Z.of_nat q + z <=? Z.of_nat (List.length buf) then
            match conv (firstn (Z.to_nat z) (skipn q buf)) with
            | Some s => Got s (q + Z.to_nat z)
            | None => Miss q
            end
          else Miss q
      | Got _ _ => Crash
      | Miss q => Miss q
      | Crash => Crash
      end
  end.

(** Where a statement stores its result: a member of the object being read, an
    element of a list member, a local variable. *)
Inductive dst := DField (f : string) | DElem (f i : string) | DLocal (x : string).

Inductive rstmt :=
| RNum (d : dst) (k : num)               (* d = read number *)
| RStr (d : dst)                         (* d = read string *)
| REnumCheck (x t : string)              (* test local x against enum t: fail, or change it *)
| RMove (d : dst) (x : string)           (* d = x *)
| RCall (d : dst) (t : string)           (* d = t.FromBytes(reader), failure passed on *)
| RCallInto (d : dst) (t : string) (checked : bool)
                                         (* t_FromBytes(reader, &d); failure passed on or not *)
| RRaw (d : dst) (t : string)            (* Go: binary.Read(data, order, &d), d a struct *)
| RNew (d : dst) (t : string) (n : option dst)
                                         (* d = new list of t: empty, or n elements *)
| RPush (d : dst) (x : string)           (* d.append(x) *)
| RFor (i : string) (n : dst) (body : list rstmt)
                                         (* for i = 0; i < n; i++ *)
| RBuild (fs : list (string * string))   (* return S { field: local, ... } *)
| RStrLen (d n : dst)                    (* C: ReadString(r, &d, &n) *)
| RList (d : dst) (t : string)           (* Zig: readList(T, allocator, local_offset, buffer) *)
| RNumAt (d : dst) (k : num) (off : Z)   (* Zig: readNumber(T, offset + off, buffer) *)
| REnumAt (d : dst) (t : string) (off : Z)  (* the same, T an enum *)
| RAdvance (n : Z)                       (* Zig: bytes_read of a simple struct *)
| RIllTyped.                             (* printed code that the target compiler rejects *)

(** The library of a language, for reading. *)
Record rt := {
  rt_num : num -> list byte -> nat -> got val;
  rt_str : protocol -> list byte -> nat -> got (list byte);
  (** Go: binary.Read of a whole struct *)
  rt_raw : protocol -> string -> list byte -> nat -> got val;
  (** what the test of an enum makes of a number; [None]: failure *)
  rt_enum : enum -> Z -> option Z;
  (** allocate a list of this element type and length *)
  rt_make : string -> Z -> got unit;
  (** run a loop from 0 up to this bound *)
  rt_for : Z -> got unit;
  (** initial elements of a list, by element type *)
  rt_zero : protocol -> string -> val;
  (** members of a fresh struct *)
  rt_init : protocol -> string -> list (string * val) }.

Record rstate := {
  r_pos : nat;
  r_obj : list (string * val);            (* the object being filled *)
  r_env : list (string * val) }.          (* local variables, by printed name *)

Definition set_pos (n : nat) (s : rstate) : rstate :=
  {| r_pos := n; r_obj := r_obj s; r_env := r_env s |}.
Definition set_obj (o : list (string * val)) (s : rstate) : rstate :=
  {| r_pos := r_pos s; r_obj := o; r_env := r_env s |}.
(** Declaring or assigning a local variable.  A variable declared in a loop body
    stays in the environment after the loop; no generated code uses it there. *)
Definition set_local (x : string) (v : val) (s : rstate) : rstate :=
  {| r_pos := r_pos s; r_obj := r_obj s; r_env := dict_set x v (r_env s) |}.

(** How a reader ends: normally; by reporting failure; by a crash (panic, trap,
    undefined behaviour); [Stuck] marks code that does not make sense in the
    target language (it would not compile); [NoFuel] is the step budget. *)
Inductive outcome :=
| Done (s : rstate)
| Fail (s : rstate)
| Trap
| Stuck
| NoFuel.

Definition obind (o : outcome) (k : rstate -> outcome) : outcome :=
  match o with Done s => k s | _ => o end.

Fixpoint set_nth {A} (n : nat) (a : A) (l : list A) : list A :=
  match l, n with
  | [], _ => []
  | _ :: r, O => a :: r
  | x :: r, S n' => x :: set_nth n' a r
  end.

(** The element number held by local [i]. *)
Definition index (env : list (string * val)) (i : string) (len : nat) : option nat :=
  match lookup i env with
  | Some (VInt j) => if (0 <=? j) && (j <? Z.of_nat len) then Some (Z.to_nat j) else None
  | _ => None
  end.

(** Store; [None] if there is no such member, element or index. *)
Definition store (d : dst) (v : val) (s : rstate) : option rstate :=
  match d with
  | DLocal x => Some (set_local x v s)
  | DField f => if mem f (r_obj s) then Some (set_obj (dict_set f v (r_obj s)) s) else None
  | DElem f i =>
      match lookup f (r_obj s) with
      | Some (VList l) =>
          match index (r_env s) i (List.length l) with
          | Some j => Some (set_obj (dict_set f (VList (set_nth j v l)) (r_obj s)) s)
          | None => None
          end
      | _ => None
      end
  end.

(** Current value. *)
Definition fetch (d : dst) (s : rstate) : option val :=
  match d with
  | DLocal x => lookup x (r_env s)
  | DField f => lookup f (r_obj s)
  | DElem f i =>
      match lookup f (r_obj s) with
      | Some (VList l) =>
          match index (r_env s) i (List.length l) with
          | Some j => nth_error l j
          | None => None
          end
      | _ => None
      end
  end.

Definition done_or_stuck (o : option rstate) : outcome :=
  match o with Some s => Done s | None => Stuck end.

(** The struct or message declared under a name. *)
Definition find_struct (p : protocol) (t : string) : option struct :=
  match lookup t (p_structs p) with
  | Some s => Some s
  | None => lookup t (p_messages p)
  end.

(** The usual test of an enum: declared numbers are let through. *)
Definition only_declared (e : enum) (z : Z) : option Z :=
  if existsb (Z.eqb z) (map snd (e_values e)) then Some z else None.

(** The number kind that stores an enum. *)
Definition enum_num (p : protocol) (t : string) : option num :=
  match lookup t (p_enums p) with Some e => num_of (e_encoding e) | None => None end.

Section Exec.
Variable R : rt.
Variable p : protocol.
Variable inp : list byte.
(** The reader function of a struct: initial members and position. *)
Variable call : string -> list (string * val) -> nat -> outcome.

(** [d] = result of a primitive read. *)
Definition store_got (d : dst) (g : got val) (s : rstate) : outcome :=
  match g with
  | Got v pos => done_or_stuck (store d v (set_pos pos s))
  | Miss pos => Fail (set_pos pos s)
  | Crash => Trap
  end.

Definition got_str (g : got (list byte)) : got val :=
  match g with Got s pos => Got (VStr s) pos | Miss pos => Miss pos | Crash => Crash end.

(** Continue, fail or crash. *)
Definition guard (g : got unit) (s : rstate) (k : outcome) : outcome :=
  match g with Got _ _ => k | Miss _ => Fail s | Crash => Trap end.

(** The callee filled its object; take over its result and position. *)
Definition returned (d : dst) (checked : bool) (s : rstate) (o : outcome) : outcome :=
  match o with
  | Done c => done_or_stuck (store d (VStruct (r_obj c)) (set_pos (r_pos c) s))
  | Fail c =>
      if checked then Fail (set_pos (r_pos c) s)
      else done_or_stuck (store d (VStruct (r_obj c)) (set_pos (r_pos c) s))
  | o => o
  end.

(** Zig.zig:103-169, the loop of readList: elements one after the other; numbers
    and enums through readNumber, strings through readString, structs through
    their fromBytes. *)
Definition list_elem (t : string) (pos : nat) : got val :=
  match num_of t with
  | Some k => rt_num R k inp pos
  | None =>
      match enum_num p t, lookup t (p_enums p) with
      | Some k, Some e =>
          match rt_num R k inp pos with
          | Got (VInt z) pos' => match rt_enum R e z with Some z' => Got (VInt z') pos' | None => Miss pos end
          | g => g
          end
      | _, _ => got_str (rt_str R p inp pos)
      end
  end.
Fixpoint list_loop (t : string) (n : nat) (acc : list val) (s : rstate) : outcome :=
  match n with
  | O => Done (set_local "" (VList acc) s)
  | S n' =>
      if (match num_of t, enum_num p t with None, None => negb (String.eqb t "string") | _, _ => false end)
      then match call t (rt_init R p t) (r_pos s) with
           | Done c => list_loop t n' (acc ++ [VStruct (r_obj c)]) (set_pos (r_pos c) s)
           | Fail c => Fail s
           | o => o
           end
      else match list_elem t (r_pos s) with
           | Got v pos => list_loop t n' (acc ++ [v]) (set_pos pos s)
           | Miss _ => Fail s
           | Crash => Trap
           end
  end.

Fixpoint exec_stmt (st : rstmt) (s : rstate) {struct st} : outcome :=
  match st with
  | RNum d k => store_got d (rt_num R k inp (r_pos s)) s
  | RStr d => store_got d (got_str (rt_str R p inp (r_pos s))) s
  | REnumCheck x t =>
      match lookup x (r_env s), lookup t (p_enums p) with
      | Some (VInt z), Some e =>
          match rt_enum R e z with Some z' => Done (set_local x (VInt z') s) | None => Fail s end
      | _, _ => Stuck
      end
  | RMove d x =>
      match lookup x (r_env s) with
      | Some v => done_or_stuck (store d v s)
      | None => Stuck
      end
  | RCall d t => returned d true s (call t (rt_init R p t) (r_pos s))
  | RCallInto d t checked =>
      match fetch d s with
      | Some (VStruct fs) => returned d checked s (call t fs (r_pos s))
      | _ => Stuck
      end
  | RRaw d t => store_got d (rt_raw R p t inp (r_pos s)) s
  | RNew d t None => done_or_stuck (store d (VList []) s)
  | RNew d t (Some n) =>
      match fetch n s with
      | Some (VInt z) =>
          guard (rt_make R t z) s (done_or_stuck (store d (VList (repeat (rt_zero R p t) (Z.to_nat z))) s))
      | _ => Stuck
      end
  | RPush d x =>
      match fetch d s, lookup x (r_env s) with
      | Some (VList l), Some v => done_or_stuck (store d (VList (l ++ [v])) s)
      | _, _ => Stuck
      end
  | RFor i n body =>
      match fetch n s with
      | Some (VInt z) =>
          guard (rt_for R z) s
            ((fix loop (k : nat) (j : Z) (s : rstate) : outcome :=
                match k with
                | O => Done s
                | S k' =>
                    obind ((fix go (l : list rstmt) (s : rstate) : outcome :=
                              match l with
                              | [] => Done s
                              | a :: r => obind (exec_stmt a s) (go r)
                              end) body (set_local i (VInt j) s))
                          (loop k' (j + 1))
                end) (Z.to_nat z) 0 s)
      | _ => Stuck
      end
  | RBuild fs =>
      (fix build (fs : list (string * string)) (acc : list (string * val)) : outcome :=
         match fs with
         | [] => Done (set_obj acc s)
         | (f, x) :: r =>
             match lookup x (r_env s) with
             | Some v => build r (acc ++ [(f, v)])
             | None => Stuck
             end
         end) fs []
  | RStrLen d n =>
      match got_str (rt_str R p inp (r_pos s)) with
      | Got (VStr b) pos =>
          match store n (VInt (Z.of_nat (List.length b))) (set_pos pos s) with
          | Some s' => done_or_stuck (store d (VStr b) s')
          | None => Stuck
          end
      | Got _ _ => Stuck
      | Miss pos => Fail (set_pos pos s)
      | Crash => Trap
      end
  | RList d t =>
      match num_of (p_list_size_type p) with
      | None => Stuck
      | Some k =>
          match rt_num R k inp (r_pos s) with
          | Got (VInt z) pos =>
              guard (rt_make R t z) s
                (obind (list_loop t (Z.to_nat z) [] (set_pos pos s))
                   (fun s' => match lookup "" (r_env s') with
                              | Some v => done_or_stuck (store d v s')
                              | None => Stuck
                              end))
          | Got _ _ => Stuck
          | Miss _ => Fail s
          | Crash => Trap
          end
      end
  | RNumAt d k off =>
      match rt_num R k inp (r_pos s + Z.to_nat off) with
      | Got v _ => done_or_stuck (store d v s)
      | Miss _ => Fail s
      | Crash => Trap
      end
  | REnumAt d t off =>
      match enum_num p t, lookup t (p_enums p) with
      | Some k, Some e =>
          match rt_num R k inp (r_pos s + Z.to_nat off) with
          | Got (VInt z) _ =>
              match rt_enum R e z with Some z' => done_or_stuck (store d (VInt z') s) | None => Fail s end
          | Got _ _ => Stuck
          | Miss _ => Fail s
          | Crash => Trap
          end
      | _, _ => Stuck
      end
  | RAdvance n => Done (set_pos (r_pos s + Z.to_nat n) s)
  | RIllTyped => Stuck
  end.

Fixpoint exec (l : list rstmt) (s : rstate) : outcome :=
  match l with
  | [] => Done s
  | a :: r => obind (exec_stmt a s) (exec r)
  end.
End Exec.

(** A generated reader function of struct or message [t]; [code] prints its body.
    [fuel] bounds the depth of nested calls. *)
Fixpoint run (R : rt) (p : protocol) (code : protocol -> struct -> list rstmt) (inp : list byte)
         (fuel : nat) (t : string) (fs : list (string * val)) (pos : nat) : outcome :=
  match fuel with
  | O => NoFuel
  | S f =>
      match find_struct p t with
      | Some s => exec R p inp (run R p code inp f) (code p s)
                       {| r_pos := pos; r_obj := fs; r_env := [] |}
      | None => Stuck
      end
  end.

(** What the caller of a reader sees. *)
Inductive res (A : Type) :=
| ROk (a : A) (pos : nat)       (* a value, and where reading stopped *)
| RErr                          (* failure, reported *)
| RTrap                         (* crash *)
| RStuck | RFuel.
Arguments ROk {A} a pos. Arguments RErr {A}. Arguments RTrap {A}.
Arguments RStuck {A}. Arguments RFuel {A}.

Definition seen (o : outcome) : res val :=
  match o with
  | Done s => ROk (VStruct (r_obj s)) (r_pos s)
  | Fail _ => RErr
  | Trap => RTrap
  | Stuck => RStuck
  | NoFuel => RFuel
  end.

(** FromBytes of message [t] at a position of the input. *)
Definition read_with (R : rt) (code : protocol -> struct -> list rstmt) (p : protocol) (t : string)
           (inp : list byte) (pos : nat) : res val :=
  seen (run R p code inp (depth_of p) t (rt_init R p t) pos).

(** ** Writing *)

(** Where a statement takes its operand. *)
Inductive src := SField (f : string) | SElem (f i : string) | SLocal (x : string).

(** Bound of an index loop. *)
Inductive bound := BVar (x : string) | BLen (s : src) | BMember (f : string).

Inductive wstmt :=
| WNum (k : num) (s : src)               (* write a number or an enum *)
| WStr (s : src)                         (* write length and bytes of a string *)
| WStrLen (s n : src)                    (* C: WriteString(w, &s, n) *)
| WCall (t : string) (s : src)           (* s.WriteBytes(writer) *)
| WRaw (t : string) (s : src)            (* Go: binary.Write(data, order, &s), s a struct *)
| WCount (k : num) (s : src)             (* write the length of a list as a number *)
| WLetCount (x : string) (k : num) (s : src)   (* x := (T)(len(s)) *)
| WLet (x : string) (s : src)            (* let x = s *)
| WForIdx (i : string) (b : bound) (body : list wstmt)
| WForEach (x : string) (s : src) (body : list wstmt)
| WIllTyped                              (* printed code that the target compiler rejects *)
| WNumAt (k : num) (s : src) (off : Z)   (* Zig: writeNumber(T, offset + off, buffer, s) *)
| WAdvance (n : Z)                       (* Zig: return n; *)
| WList (t : string) (s : src).          (* Zig: writeList(T, local_offset, buffer, s) *)

Record wstate := { w_buf : list byte; w_pos : nat }.

Inductive wout :=
| WDone (w : wstate)
| WFail (w : wstate)
| WTrap
| WStuck
| WNoFuel.

Definition wbind (o : wout) (k : wstate -> wout) : wout :=
  match o with WDone w => k w | _ => o end.

(** Appending to a growing buffer. *)
Definition put_append (bs : list byte) (w : wstate) : wout :=
  WDone {| w_buf := w_buf w ++ bs; w_pos := (w_pos w + List.length bs)%nat |}.

(** Overwriting a fixed buffer at the current position. *)
Definition overwrite (buf : list byte) (pos : nat) (bs : list byte) : list byte :=
  firstn pos buf ++ bs ++ skipn (pos + List.length bs) buf.
Definition put_fixed (bs : list byte) (w : wstate) : wout :=
  if (w_pos w + List.length bs <=? List.length (w_buf w))%nat
  then WDone {| w_buf := overwrite (w_buf w) (w_pos w) bs; w_pos := (w_pos w + List.length bs)%nat |}
  else WFail w.
(** The same for a language that checks bounds by crashing. *)
Definition put_checked (bs : list byte) (w : wstate) : wout :=
  match put_fixed bs w with WFail _ => WTrap | o => o end.

(** The library of a language, for writing. *)
Record wt := {
  wt_put : list byte -> wstate -> wout;
  (** size type that the string writer uses *)
  wt_strlen : protocol -> string;
  (** a length that does not fit its size type crashes, instead of losing bits *)
  wt_traps : bool;
  wt_raw : protocol -> string -> val -> option (list byte) }.

(** Bytes of a number; [None]: not a number of this kind. *)
Definition num_bytes (k : num) (v : val) : option (list byte) :=
  match k, v with
  | NBool, VBool b => Some [if b then x01 else x00]
  | NBool, _ => None
  | _, VInt z => Some (le_bytes (num_size k) z)
  | _, _ => None
  end.

Definition wenv := list (string * val).

Definition wfetch (s : src) (obj : list (string * val)) (env : wenv) : option val :=
  match s with
  | SLocal x => lookup x env
  | SField f => lookup f obj
  | SElem f i =>
      match lookup f obj with
      | Some (VList l) =>
          match index env i (List.length l) with
          | Some j => nth_error l j
          | None => None
          end
      | _ => None
      end
  end.

(** Conversion of a length to a number type: bits that do not fit are lost. *)
Definition wrap_num (k : num) (z : Z) : Z :=
  match num_val k (le_bytes (num_size k) z) with VInt z' => z' | _ => z end.

Definition bound_of (b : bound) (obj : list (string * val)) (env : wenv) : option Z :=
  match b with
  | BVar x => match lookup x env with Some (VInt z) => Some z | _ => None end
  | BMember f => match lookup f obj with Some (VInt z) => Some z | _ => None end
  | BLen s => match wfetch s obj env with Some (VList l) => Some (Z.of_nat (List.length l)) | _ => None end
  end.

Section WExec.
Variable T : wt.
Variable p : protocol.
(** The writer function of a struct. *)
Variable call : string -> val -> wstate -> wout.

Definition put_num (k : num) (v : val) (w : wstate) : wout :=
  match num_bytes k v with Some bs => wt_put T bs w | None => WStuck end.

(** The length of a list or string. *)
Definition len_fits (k : num) (n : nat) : bool := (num_min k <=? Z.of_nat n) && (Z.of_nat n <=? num_max k).
Definition put_len (k : num) (n : nat) (w : wstate) : wout :=
  if wt_traps T && negb (len_fits k n) then WTrap
  else wt_put T (le_bytes (num_size k) (Z.of_nat n)) w.

Definition put_str (v : val) (w : wstate) : wout :=
  match v, num_of (wt_strlen T p) with
  | VStr s, Some k =>
      wbind (put_len k (List.length s) w) (wt_put T s)
  | _, _ => WStuck
  end.

(** Elements of Zig's writeList. *)
Definition put_elem (t : string) (v : val) (w : wstate) : wout :=
  match num_of t with
  | Some k => put_num k v w
  | None =>
      match enum_num p t with
      | Some k => put_num k v w
      | None => if String.eqb t "string" then put_str v w else call t v w
      end
  end.
Fixpoint put_elems (t : string) (l : list val) (w : wstate) : wout :=
  match l with
  | [] => WDone w
  | v :: r => wbind (put_elem t v w) (put_elems t r)
  end.

(** Statements also extend the environment, so they return it. *)
Fixpoint wexec_stmt (st : wstmt) (obj : list (string * val)) (env : wenv) (w : wstate) {struct st}
  : wout * wenv :=
  match st with
  | WNum k s =>
      (match wfetch s obj env with Some v => put_num k v w | None => WStuck end, env)
  | WStr s =>
      (match wfetch s obj env with Some v => put_str v w | None => WStuck end, env)
  | WStrLen s n =>
      (match wfetch s obj env, wfetch n obj env, num_of (wt_strlen T p) with
       | Some (VStr b), Some (VInt z), Some k =>
           wbind (wt_put T (le_bytes (num_size k) z) w)
             (fun w' => if z <? 0 then WTrap
                        else if z <=? Z.of_nat (List.length b) then wt_put T (firstn (Z.to_nat z) b) w'
                        else WTrap)
       | _, _, _ => WStuck
       end, env)
  | WCall t s =>
      (match wfetch s obj env with Some v => call t v w | None => WStuck end, env)
  | WRaw t s =>
      (match wfetch s obj env with
       | Some v => match wt_raw T p t v with Some bs => wt_put T bs w | None => WStuck end
       | None => WStuck
       end, env)
  | WCount k s =>
      (match wfetch s obj env with
       | Some (VList l) => put_len k (List.length l) w
       | _ => WStuck
       end, env)
  | WLetCount x k s =>
      match wfetch s obj env with
      | Some (VList l) => (WDone w, dict_set x (VInt (wrap_num k (Z.of_nat (List.length l)))) env)
      | _ => (WStuck, env)
      end
  | WLet x s =>
      match wfetch s obj env with
      | Some v => (WDone w, dict_set x v env)
      | None => (WStuck, env)
      end
  | WForIdx i b body =>
      match bound_of b obj env with
      | Some z =>
          ((fix loop (k : nat) (j : Z) (w : wstate) : wout :=
              match k with
              | O => WDone w
              | S k' =>
                  wbind ((fix go (l : list wstmt) (env : wenv) (w : wstate) : wout :=
                            match l with
                            | [] => WDone w
                            | a :: r =>
                                let '(o, env') := wexec_stmt a obj env w in
                                wbind o (go r env')
                            end) body (dict_set i (VInt j) env) w)
                        (loop k' (j + 1))
              end) (Z.to_nat z) 0 w, env)
      | None => (WStuck, env)
      end
  | WForEach x s body =>
      match wfetch s obj env with
      | Some (VList l) =>
          ((fix loop (l : list val) (w : wstate) : wout :=
              match l with
              | [] => WDone w
              | v :: r =>
                  wbind ((fix go (l : list wstmt) (env : wenv) (w : wstate) : wout :=
                            match l with
                            | [] => WDone w
                            | a :: r =>
                                let '(o, env') := wexec_stmt a obj env w in
                                wbind o (go r env')
                            end) body (dict_set x v env) w)
                        (loop r)
              end) l w, env)
      | _ => (WStuck, env)
      end
  | WIllTyped => (WStuck, env)
  | WNumAt k s off =>
      (match wfetch s obj env with
       | Some v =>
           match put_num k v {| w_buf := w_buf w; w_pos := (w_pos w + Z.to_nat off)%nat |} with
           | WDone w' => WDone {| w_buf := w_buf w'; w_pos := w_pos w |}
           | o => o
           end
       | None => WStuck
       end, env)
  | WAdvance n => (WDone {| w_buf := w_buf w; w_pos := (w_pos w + Z.to_nat n)%nat |}, env)
  | WList t s =>
      (match wfetch s obj env, num_of (p_list_size_type p) with
       | Some (VList l), Some k =>
           wbind (put_len k (List.length l) w) (put_elems t l)
       | _, _ => WStuck
       end, env)
  end.

Fixpoint wexec (l : list wstmt) (obj : list (string * val)) (env : wenv) (w : wstate) : wout :=
  match l with
  | [] => WDone w
  | a :: r =>
      let '(o, env') := wexec_stmt a obj env w in
      wbind o (wexec r obj env')
  end.
End WExec.

(** A generated writer function of struct or message [t]. *)
Fixpoint wrun (T : wt) (p : protocol) (code : protocol -> struct -> list wstmt)
         (fuel : nat) (t : string) (v : val) (w : wstate) : wout :=
  match fuel with
  | O => WNoFuel
  | S f =>
      match find_struct p t, v with
      | Some s, VStruct fs => wexec T p (wrun T p code f) (code p s) fs [] w
      | _, _ => WStuck
      end
  end.

(** WriteBytes(tag = false) of message [t]. *)
Definition write_with (T : wt) (code : protocol -> struct -> list wstmt) (p : protocol) (t : string)
           (v : val) (w : wstate) : wout :=
  wrun T p code (depth_of p) t v w.
