(** The memory that Zig code allocates and releases.

    The statements of Zig.v once more, with another meaning: it keeps track of the
    blocks that are allocated and of those that are released.  (That it agrees with the
    meaning in IR.v otherwise is a theorem, C39.)  Blocks are numbered in the order in
    which they are allocated.  A slice is modelled together with its block.

    The simplifications of Zig.v apply: memory runs out only for lists.  An ArrayList
    releases its own blocks in its deinit (zig.py:359) and keeps none after
    toOwnedSlice, so the blocks that it uses while it grows are left out. *)
From Verif Require Export Zig Blocks.
Open Scope string_scope.
Open Scope Z_scope.
Open Scope list_scope.

(** Contents of a variable.  An empty slice has no block: alloc does not allocate no
    bytes, and the defaults of members (zig.py:29-42, 165-166) are empty. *)
Inductive zval :=
| ZVal (v : val)                                   (* a number, a bool or an enum *)
| ZStr (b : option nat) (data : list byte)
| ZList (b : option nat) (l : list zval)
| ZObj (fs : list (string * zval)).
Definition zfields : Type := list (string * zval).

(** The value, without the blocks. *)
Fixpoint zig_value_of (v : zval) : val :=
  match v with
  | ZVal v => v
  | ZStr _ s => VStr s
  | ZList _ l => VList (map zig_value_of l)
  | ZObj fs => VStruct (map (fun f => (fst f, zig_value_of (snd f))) fs)
  end.

(** ** Releasing *)

Inductive zlv := ZSelf (f : string) | ZItem.       (* self.f, the item of the loop *)
Inductive zdstmt :=
| ZFree (x : zlv)                                  (* allocator.free(x); *)
| ZDeinit (x : zlv)                                (* x.deinit(allocator); *)
| ZEach (f : string) (ptr : bool) (body : list zdstmt).  (* for (self.f) |item| or |*item| *)

(** zig.py:134-150, destructor, for what is not a list. *)
Definition zig_release_one (p : protocol) (x : zlv) (t : string) : list zdstmt :=
  if is_simple p t then []
  else if String.eqb t "string" then [ZFree x] else [ZDeinit x].
(** zig.py:134-150, destructor. *)
Definition zig_release (p : protocol) (m : var) : list zdstmt :=
  let n := v_name m in
  let t := v_type m in
  if v_list m then
    (if is_simple p t then [] else [ZEach n (negb (String.eqb t "string")) (zig_release_one p ZItem t)]) ++
    [ZFree (ZSelf n)]
  else zig_release_one p (ZSelf n) t.

(** allocator.free; the blocks that are released. *)
Definition zig_free (v : zval) : option (list nat) :=
  match v with
  | ZStr b _ | ZList b _ => Some (match b with Some i => [i] | None => [] end)
  | _ => None
  end.

Section Release.
Variable p : protocol.
(** x.deinit(allocator) *)
Variable deinit : zval -> option (list nat).
Definition zget (fs : zfields) (item : option zval) (x : zlv) : option zval :=
  match x with ZSelf f => lookup f fs | ZItem => item end.
Definition zon (v : option zval) (f : zval -> option (list nat)) : option (list nat) :=
  match v with Some v => f v | None => None end.
(** The blocks that are released, in order; [None]: the code makes no sense. *)
Fixpoint zrelease_stmt (fs : zfields) (item : option zval) (st : zdstmt) {struct st} : option (list nat) :=
  match st with
  | ZFree x => zon (zget fs item x) zig_free
  | ZDeinit x => zon (zget fs item x) deinit
  | ZEach f _ body =>
      match lookup f fs with
      | Some (ZList _ l) =>
          oconcat (map (fun v =>
            (fix go (b : list zdstmt) : option (list nat) :=
               match b with [] => Some [] | a :: r => oapp (zrelease_stmt fs (Some v) a) (go r) end) body) l)
      | _ => None
      end
  end.
Definition zrelease (fs : zfields) (l : list zdstmt) : option (list nat) :=
  oconcat (map (zrelease_stmt fs None) l).
End Release.

(** zig.py:270-276, deinit of struct or message [t].  [fuel] bounds the nesting. *)
Fixpoint zig_deinit (p : protocol) (fuel : nat) (t : string) (v : zval) : option (list nat) :=
  match fuel, find_struct p t, v with
  | S f, Some s, ZObj fs =>
      oconcat (map (fun m => zrelease (zig_deinit p f (v_type m)) fs (zig_release p m)) (s_members s))
  | _, _, _ => None
  end.

(** Zig.zig:129-148, the errdefer of readList: one element. *)
Definition zig_drop (p : protocol) (fuel : nat) (t : string) (v : zval) : option (list nat) :=
  if is_simple p t then Some []
  else if String.eqb t "string" then zig_free v else zig_deinit p fuel t v.

(** ** Reading *)

Record zstate := {
  z_pos : nat;
  z_obj : zfields;
  z_env : zfields;                       (* local variables, by printed name *)
  z_next : nat;                          (* number of the next block *)
  z_freed : list nat }.                  (* blocks that have been released, in order *)
Definition z_at (n : nat) (s : zstate) : zstate :=
  {| z_pos := n; z_obj := z_obj s; z_env := z_env s; z_next := z_next s; z_freed := z_freed s |}.
Definition z_let (x : string) (v : zval) (s : zstate) : zstate :=
  {| z_pos := z_pos s; z_obj := z_obj s; z_env := dict_set x v (z_env s); z_next := z_next s; z_freed := z_freed s |}.
Definition z_built (o : zfields) (s : zstate) : zstate :=
  {| z_pos := z_pos s; z_obj := o; z_env := z_env s; z_next := z_next s; z_freed := z_freed s |}.
(** The memory after a call. *)
Definition z_after (c s : zstate) : zstate :=
  {| z_pos := z_pos s; z_obj := z_obj s; z_env := z_env s; z_next := z_next c; z_freed := z_freed c |}.
Definition z_free (ids : list nat) (s : zstate) : zstate :=
  {| z_pos := z_pos s; z_obj := z_obj s; z_env := z_env s; z_next := z_next s; z_freed := z_freed s ++ ids |}.
(** allocator.alloc; [none]: of no bytes. *)
Definition z_alloc (none : bool) (s : zstate) : option nat * zstate :=
  if none then (None, s)
  else (Some (z_next s),
        {| z_pos := z_pos s; z_obj := z_obj s; z_env := z_env s; z_next := S (z_next s); z_freed := z_freed s |}).

Inductive zout := ZDone (s : zstate) | ZFail (s : zstate) | ZTrap | ZStuck | ZFuel.
Definition zbind (o : zout) (k : zstate -> zout) : zout := match o with ZDone s => k s | _ => o end.

Section Exec.
(** As in Zig.v; types whose values have no bytes (structs without members). *)
Variable room : string -> Z.
Variable hollow : string -> bool.
Variable p : protocol.
Variable inp : list byte.
(** fromBytes of a struct, and its deinit. *)
Variable call : string -> zstate -> zout.
Variable drop : string -> zval -> option (list nat).

(** A number at a position. *)
Definition z_number (x : string) (k : num) (pos : nat) (s : zstate) (next : nat -> nat) : zout :=
  match read_num k inp pos with
  | Got v q => ZDone (z_let x (ZVal v) (z_at (next q) s))
  | Miss _ => ZFail s
  | Crash => ZTrap
  end.

(** Zig.zig:101-114, readString. *)
Definition z_string (s : zstate) : zout * zval :=
  match zig_str p inp (z_pos s) with
  | Got b q =>
      let (i, s') := z_alloc (match b with [] => true | _ => false end) (z_at q s) in (ZDone s', ZStr i b)
  | Miss _ => (ZFail s, ZVal VUndef)
  | Crash => (ZTrap, ZVal VUndef)
  end.

(** Zig.zig:150-176, the loop of readList; the elements that have been made. *)
Fixpoint z_loop (t : string) (n : nat) (acc : list zval) (s : zstate) : zout * list zval :=
  match n with
  | O => (ZDone s, acc)
  | S n' =>
      match num_of t, enum_num p t, lookup t (p_enums p) with
      | Some k, _, _ =>
          match read_num k inp (z_pos s) with
          | Got v q => z_loop t n' (acc ++ [ZVal v]) (z_at q s)
          | Miss _ => (ZFail s, acc)
          | Crash => (ZTrap, acc)
          end
      | None, Some k, Some e =>
          match read_num k inp (z_pos s) with
          | Got (VInt z) q =>
              match only_declared e z with
              | Some z' => z_loop t n' (acc ++ [ZVal (VInt z')]) (z_at q s)
              | None => (ZFail s, acc)
              end
          | Got v q => z_loop t n' (acc ++ [ZVal v]) (z_at q s)
          | Miss _ => (ZFail s, acc)
          | Crash => (ZTrap, acc)
          end
      | _, _, _ =>
          if String.eqb t "string" then
            match z_string s with
            | (ZDone s', v) => z_loop t n' (acc ++ [v]) s'
            | (o, _) => (o, acc)
            end
          else match call t s with
          | ZDone c => z_loop t n' (acc ++ [ZObj (z_obj c)]) (z_after c (z_at (z_pos c) s))
          | ZFail c => (ZFail (z_after c s), acc)
          | o => (o, acc)
          end
      end
  end.

(** Zig.zig:116-178, readList.  (In IR.v the list is kept in a local variable without a
    name for a moment; here, too, so that both agree.) *)
Definition z_list (x : string) (t : string) (s : zstate) : zout :=
  match num_of (p_list_size_type p) with
  | None => ZStuck
  | Some k =>
      match read_num k inp (z_pos s) with
      | Got (VInt z) q =>
          match zig_make room t z with
          | Got _ _ =>
              let (b, s1) := z_alloc ((z =? 0) || hollow t) (z_at q s) in
              match z_loop t (Z.to_nat z) [] s1 with
              | (ZDone s2, l) => ZDone (z_let x (ZList b l) (z_let "" (ZList b l) s2))
              | (ZFail s2, made) =>
                  match oapp (oconcat (map (drop t) made)) (zig_free (ZList b [])) with
                  | Some ids => ZFail (z_free ids s2)
                  | None => ZStuck
                  end
              | (o, _) => o
              end
          | Miss _ => ZFail s
          | Crash => ZTrap
          end
      | Got _ _ => ZStuck
      | Miss _ => ZFail s
      | Crash => ZTrap
      end
  end.

(** zig.py:209-211, the literal that builds the result. *)
Fixpoint z_build (env : zfields) (fs : list (string * string)) (acc : zfields) : option zfields :=
  match fs with
  | [] => Some acc
  | (f, x) :: r => match lookup x env with Some v => z_build env r (acc ++ [(f, v)]) | None => None end
  end.

Definition zexec_stmt (st : rstmt) (s : zstate) : zout :=
  match st with
  | RNum (DLocal x) k => z_number x k (z_pos s) s (fun q => q)
  | RNumAt (DLocal x) k off => z_number x k (z_pos s + Z.to_nat off) s (fun _ => z_pos s)
  | REnumCheck x t =>
      match lookup x (z_env s), lookup t (p_enums p) with
      | Some (ZVal (VInt z)), Some e =>
          match only_declared e z with Some z' => ZDone (z_let x (ZVal (VInt z')) s) | None => ZFail s end
      | _, _ => ZStuck
      end
  | REnumAt (DLocal x) t off =>
      match enum_num p t, lookup t (p_enums p) with
      | Some k, Some e =>
          match read_num k inp (z_pos s + Z.to_nat off) with
          | Got (VInt z) _ =>
              match only_declared e z with Some z' => ZDone (z_let x (ZVal (VInt z')) s) | None => ZFail s end
          | Got _ _ => ZStuck
          | Miss _ => ZFail s
          | Crash => ZTrap
          end
      | _, _ => ZStuck
      end
  | RStr (DLocal x) =>
      match z_string s with (ZDone s', v) => ZDone (z_let x v s') | (o, _) => o end
  | RCall (DLocal x) t =>
      match call t s with
      | ZDone c => ZDone (z_let x (ZObj (z_obj c)) (z_after c (z_at (z_pos c) s)))
      | ZFail c => ZFail (z_after c s)
      | o => o
      end
  | RList (DLocal x) t => z_list x t s
  | RBuild fs => match z_build (z_env s) fs [] with Some o => ZDone (z_built o s) | None => ZStuck end
  | RAdvance n => ZDone (z_at (z_pos s + Z.to_nat n) s)
  | _ => ZStuck
  end.
Fixpoint zexec (l : list rstmt) (s : zstate) : zout :=
  match l with [] => ZDone s | a :: r => zbind (zexec_stmt a s) (zexec r) end.
End Exec.

(** zig.py:193-220, fromBytes of struct or message [t]: it starts at the position of
    [s] with the memory of [s]. *)
Fixpoint zrun (room : string -> Z) (hollow : string -> bool) (p : protocol) (inp : list byte) (fuel : nat)
         (t : string) (s : zstate) : zout :=
  match fuel with
  | O => ZFuel
  | S f =>
      match find_struct p t with
      | Some d =>
          zexec room hollow p inp (zrun room hollow p inp f) (zig_drop p f) (zig_reader p d)
            {| z_pos := z_pos s; z_obj := []; z_env := []; z_next := z_next s; z_freed := z_freed s |}
      | None => ZStuck
      end
  end.

(** T.fromBytes(allocator, pos, buffer) when [next] is the number of the next block:
    the object and where reading stopped, or an error; the number of the next block
    afterwards, and the blocks that have been released. *)
Inductive zmem (A : Type) :=
| ZOk (a : A) (pos next : nat) (freed : list nat)
| ZErr (next : nat) (freed : list nat)
| ZOther.                                (* a panic, or code that does not compile *)
Arguments ZOk {A} a pos next freed. Arguments ZErr {A} next freed. Arguments ZOther {A}.

Definition zig_from_bytes_memory (room : string -> Z) (hollow : string -> bool) (p : protocol) (t : string)
           (inp : list byte) (pos next : nat) : zmem zval :=
  if zig_compiles p && zig_reads p then
    match zrun room hollow p inp (depth_of p) t
            {| z_pos := pos; z_obj := []; z_env := []; z_next := next; z_freed := [] |} with
    | ZDone s => ZOk (ZObj (z_obj s)) (z_pos s) (z_next s) (z_freed s)
    | ZFail s => ZErr (z_next s) (z_freed s)
    | _ => ZOther
    end
  else ZOther.

(** ** Streams *)

(** zig.py:355-394, processRawBytes.  When it fails, only the ArrayList is released. *)
Fixpoint zig_process_memory_from (fuel : nat) (room : string -> Z) (hollow : string -> bool) (p : protocol) (max : Z)
         (inp : list byte) (pos next : nat) (freed : list nat) (acc : list (string * zval))
  : zmem (option nat * list (string * zval)) :=
  (* toOwnedSlice *)
  let done q := match acc with
                | [] => ZOk (None, acc) q next freed
                | _ => ZOk (Some next, acc) q (S next) freed
                end in
  match fuel with
  | O => ZOther
  | S f =>
      if (List.length inp <=? pos)%nat || negb ((max <? 0) || (Z.of_nat (List.length acc) <? max)) then done pos
      else match read_num NByte inp pos with
      | Got (VInt b) q =>
          if b =? 0 then done q
          else match tag_case (b - 1) (zig_message_type p) with
          | None => ZErr next freed
          | Some t =>
              match zig_from_bytes_memory room hollow p t inp q next with
              | ZOk v q' next' fr => zig_process_memory_from f room hollow p max inp q' next' (freed ++ fr) (acc ++ [(t, v)])
              | ZErr next' fr => ZErr next' (freed ++ fr)
              | ZOther => ZOther
              end
          end
      | _ => ZOther
      end
  end.
Definition zig_process_memory (room : string -> Z) (hollow : string -> bool) (p : protocol) (max : Z)
           (inp : list byte) (pos next : nat) : zmem (option nat * list (string * zval)) :=
  if zig_compiles p && zig_reads p then
    if max =? 0 then ZOk (None, []) pos next []
    else zig_process_memory_from (S (S (List.length inp))) room hollow p max inp pos next [] []
  else ZOther.

(** Zig.zig:264-286, unpackMessages.  The errdefer releases the list only. *)
Definition zig_unpack_memory (room : string -> Z) (hollow : string -> bool) (p : protocol) (data : list byte) (next : nat)
  : zmem (option nat * list (string * zval)) :=
  if zig_compiles p && zig_reads p then
    if (List.length data <? 4)%nat then ZOther
    else if list_eq_dec Byte.byte_eq_dec (firstn 4 data) header then
      match read_num NU32 data 4 with
      | Got (VInt n) q =>
          if 2 ^ 31 <=? n then ZOther
          else if n =? 0 then ZOk (None, []) q next []
          else match zig_process_memory room hollow p n (skipn q data) 0 next with
          | ZOk (b, ms) q' next' freed =>
              if (List.length ms =? 0)%nat || negb (Z.of_nat (List.length ms) =? n)
              then match zig_free (ZList b []) with
                   | Some ids => ZErr next' (freed ++ ids)
                   | None => ZOther
                   end
              else ZOk (b, ms) (q + q') next' freed
          | r => r
          end
      | Got _ _ => ZOther
      | Miss _ => ZErr next []
      | Crash => ZOther
      end
    else ZErr next []
  else ZOther.

(** What a caller of processRawBytes does with the result: deinit of every message that
    has one, and free of the list.  (There is no function for it.) *)
Definition zig_release_messages (p : protocol) (b : option nat) (ms : list (string * zval)) : option (list nat) :=
  oapp (oconcat (map (fun m => zig_drop p (depth_of p) (fst m) (snd m)) ms)) (zig_free (ZList b [])).
Definition zig_release_message (p : protocol) (t : string) (v : zval) : option (list nat) :=
  zig_drop p (depth_of p) t v.

(** ** Fresh objects *)

(** An object of which no slice has a block. *)
Fixpoint zig_plain (v : val) : zval :=
  match v with
  | VStr s => ZStr None s
  | VList l => ZList None (map zig_plain l)
  | VStruct fs => ZObj (map (fun f => (fst f, zig_plain (snd f))) fs)
  | v => ZVal v
  end.
(** zig.py:164-175: T{}.  Its slices are empty ([&.{}] and [""]). *)
Definition zig_fresh_object (p : protocol) (t : string) : zval := zig_plain (VStruct (zig_default p (depth_of p) t)).
