(** Size computation of generated code.

    The gen_measurement methods of the writers are alike.  They are modelled once,
    over the statements below; what differs is in [style].  C is separate (C.v),
    because it reads lengths from struct fields. *)
From Verif Require Export IR Utf8.

(** An expression such as [this.a.b[b_i].c], built from an accessor and names. *)
Inductive mpath := MRoot | MVar (x : string) | MField (q : mpath) (f : string) | MElem (q : mpath) (i : string).

Inductive mstmt :=
| MInit                                  (* size = 0 *)
| MAdd (z : Z)                           (* size += z *)
| MAddLen (q : mpath) (z : Z)            (* size += len(q) * z *)
| MAddStr (q : mpath) (z : Z)            (* size += z + number of UTF-8 bytes of q *)
| MAddStr16 (q : mpath)                  (* C#: size += q.Length *)
| MForIdx (i : string) (q : mpath) (body : list mstmt)   (* for (i = 0; i < len(q); i++) *)
| MForEach (x : string) (q : mpath) (body : list mstmt)  (* for x in q *)
| MReturn (z : Z)                        (* return z *)
| MReturnSize.                           (* return size *)

(** Result of running statements: go on with this size (if [size] is declared);
    returned; code that makes no sense; a loop that did not end in time; a crash. *)
Inductive mout := MOk (z : option Z) | MRet (z : Z) | MStuck | MNoFuel | MCrash.

Definition mbind (o : mout) (k : option Z -> mout) : mout := match o with MOk z => k z | _ => o end.

Definition grow (n : Z) (sz : option Z) : mout :=
  match sz with Some z => MOk (Some (z + n)) | None => MStuck end.

(** Number of nodes of a value; bounds the length of every list inside it. *)
Fixpoint val_nodes (v : val) : nat :=
  match v with
  | VList l => S ((fix go (l : list val) := match l with [] => O | x :: r => (val_nodes x + go r)%nat end) l)
  | VStruct fs => S ((fix go (l : list (string * val)) :=
                        match l with [] => O | (_, x) :: r => (val_nodes x + go r)%nat end) fs)
  | _ => 1%nat
  end.

Section MExec.
Variable root : val.

Fixpoint meval (env : list (string * val)) (q : mpath) : option val :=
  match q with
  | MRoot => Some root
  | MVar x => lookup x env
  | MField q f => match meval env q with Some (VStruct fs) => lookup f fs | _ => None end
  | MElem q i =>
      match meval env q with
      | Some (VList l) =>
          match IR.index env i (List.length l) with Some j => nth_error l j | None => None end
      | _ => None
      end
  end.

(** Local variables are scoped: what a loop binds is forgotten after it.  The
    condition of an index loop is evaluated before every turn, with the loop's own
    variable in scope. *)
Fixpoint mexec_stmt (fuel : nat) (st : mstmt) (env : list (string * val)) (sz : option Z) {struct st} : mout :=
  match st with
  | MInit => MOk (Some 0)
  | MAdd z => grow z sz
  | MAddLen q z =>
      match meval env q with
      | Some (VList l) => grow (Z.of_nat (List.length l) * z) sz
      | _ => MStuck
      end
  | MAddStr q z =>
      match meval env q with
      | Some (VStr s) => grow (z + Z.of_nat (List.length s)) sz
      | _ => MStuck
      end
  | MAddStr16 q =>
      match meval env q with
      | Some (VStr s) => grow (Z.of_nat (utf16_length s)) sz
      | _ => MStuck
      end
  | MForIdx i q body =>
      (fix loop (k : nat) (j : Z) (sz : option Z) : mout :=
         match k with
         | O => MNoFuel
         | S k' =>
             match meval (dict_set i (VInt j) env) q with
             | Some (VList l) =>
                 if j <? Z.of_nat (List.length l) then
                   mbind ((fix go (b : list mstmt) (sz : option Z) : mout :=
                             match b with
                             | [] => MOk sz
                             | a :: r => mbind (mexec_stmt fuel a (dict_set i (VInt j) env) sz) (go r)
                             end) body sz)
                         (loop k' (j + 1))
                 else MOk sz
             | _ => MStuck
             end
         end) fuel 0 sz
  | MForEach x q body =>
      match meval env q with
      | Some (VList l) =>
          (fix loop (l : list val) (sz : option Z) : mout :=
             match l with
             | [] => MOk sz
             | v :: r =>
                 mbind ((fix go (b : list mstmt) (sz : option Z) : mout :=
                           match b with
                           | [] => MOk sz
                           | a :: r => mbind (mexec_stmt fuel a (dict_set x v env) sz) (go r)
                           end) body sz)
                       (loop r)
             end) l sz
      | _ => MStuck
      end
  | MReturn z => MRet z
  | MReturnSize => match sz with Some z => MRet z | None => MStuck end
  end.

Fixpoint mexec (fuel : nat) (b : list mstmt) (env : list (string * val)) (sz : option Z) : mout :=
  match b with
  | [] => MOk sz
  | a :: r => mbind (mexec_stmt fuel a env sz) (mexec fuel r env)
  end.
End MExec.

(** How a language writes the loops over a list whose elements need looking at:
    by index or by element, and under which name.  The name may depend on the
    nesting level and on the member. *)
Inductive mloop := LIdx (i : string) | LEach (x : string).
Record style := {
  st_loop : nat -> string -> mloop;      (* list of structs *)
  st_strs : nat -> string -> mloop;      (* list of strings *)
  st_deeper : nat;                       (* level added by a nested struct that is no list *)
  st_utf16 : bool }.                     (* plain strings measured in UTF-16 units *)

(** typescript.py:161-210, csharp.py:107-151, swift.py:94-133, rust.py:104-144,
    zig.py:92-132, go.py:138-177: gen_measurement(st, accessor).  [None] is a
    KeyError of [self.protocol.structs] or running out of depth.  The lines are
    returned with the accumulated constant. *)
Section Gen.
Variable S : style.
Variable p : protocol.

(** How the loop body refers to the current element of [q]. *)
Definition elem_of (l : mloop) (q : mpath) : mpath :=
  match l with LIdx i => MElem q i | LEach x => MVar x end.
Definition mfor (l : mloop) (q : mpath) (body : mpath -> list mstmt) : mstmt :=
  match l with
  | LIdx i => MForIdx i q (body (elem_of l q))
  | LEach x => MForEach x q (body (elem_of l q))
  end.

(** [if clines[0] == size_init: clines = clines[1:]] *)
Definition drop_init (l : list mstmt) : list mstmt := match l with MInit :: r => r | _ => l end.

Definition num_size_of (t : string) : Z := match lookup t NUMERIC_TYPE_SIZES with Some z => z | None => 0 end.

(** The loop over the members; [rec] is the recursive call. *)
Fixpoint measure_members (rec : nat -> struct -> mpath -> option (list mstmt * Z)) (lvl : nat) (acc : mpath)
         (ms : list var) (lines : list mstmt) (accum : Z) : option (list mstmt * Z) :=
  match ms with
  | [] => Some (lines, accum)
  | m :: r =>
      let q := MField acc (v_name m) in
      if v_list m then
        let accum := accum + num_size_of (p_list_size_type p) in
        if is_simple p (v_type m) then
          measure_members rec lvl acc r (lines ++ [MAddLen q (size_of p (v_type m))]) accum
        else if String.eqb (v_type m) "string" then
          measure_members rec lvl acc r
            (lines ++ [mfor (st_strs S lvl (v_name m)) q
                         (fun e => [MAddStr e (num_size_of (p_string_size_type p))])]) accum
        else
          let l := st_loop S lvl (v_name m) in
          match lookup (v_type m) (p_structs p) with
          | None => None
          | Some s =>
              match rec (1 + lvl)%nat s (elem_of l q) with
              | None => None
              | Some (clines, caccum) =>
                  measure_members rec lvl acc r
                    (lines ++ [mfor l q (fun _ => drop_init clines ++ [MAdd caccum])]) accum
              end
          end
      else if is_simple p (v_type m) then
        measure_members rec lvl acc r lines (accum + size_of p (v_type m))
      else if String.eqb (v_type m) "string" then
        measure_members rec lvl acc r
          (lines ++ [if st_utf16 S then MAddStr16 q else MAddStr q 0])
          (accum + num_size_of (p_string_size_type p))
      else
        match lookup (v_type m) (p_structs p) with
        | None => None
        | Some s =>
            match rec (st_deeper S + lvl)%nat s q with
            | None => None
            | Some (clines, caccum) =>
                measure_members rec lvl acc r (lines ++ drop_init clines) (accum + caccum)
            end
        end
  end.

Fixpoint measure (d : nat) (lvl : nat) (s : struct) (acc : mpath) {struct d} : option (list mstmt * Z) :=
  if is_simple p (s_name s) then Some ([MReturn (size_of p (s_name s))], 0)
  else
    match d with
    | O => None
    | Datatypes.S d' =>
        match measure_members (measure d') lvl acc (s_members s) [] 0 with
        | Some (lines, accum) => Some (MInit :: lines, accum)
        | None => None
        end
    end.

(** The body of GetSizeInBytes in gen_struct (typescript.py:258-263,
    csharp.py:192-197, swift.py:181-186, rust.py:216-221, zig.py:184-189,
    go.py:251-256): the lines, the accumulated constant if positive, and
    [return size] if there is more than one line. *)
Definition gen_size (lvl : nat) (s : struct) : option (list mstmt) :=
  match measure (depth_of p) lvl s MRoot with
  | Some (lines, accum) =>
      Some (lines ++ (if accum >? 0 then [MAdd accum] else []) ++
            (if (1 <? List.length lines)%nat then [MReturnSize] else []))
  | None => None
  end.
End Gen.

(** What GetSizeInBytes returns for a value.  The loop bound is larger than every
    list inside the value, so an index loop that counts up to a list length ends
    within it.  Sizes are unbounded integers here; a language with a narrow result
    type converts the result with [returning]. *)
Definition size_with (S : style) (p : protocol) (lvl : nat) (t : string) (v : val) : mout :=
  match find_struct p t with
  | Some s =>
      match gen_size S p lvl s with
      | Some b => mexec v (Datatypes.S (val_nodes v)) b [] None
      | None => MStuck
      end
  | None => MStuck
  end.

(** Conversion of the result; [None] is a crash. *)
Definition returning (f : Z -> option Z) (o : mout) : mout :=
  match o with
  | MRet z => match f z with Some z' => MRet z' | None => MCrash end
  | _ => o
  end.
(** 32 bits, with overflow. *)
Definition wrap_int (z : Z) : option Z := Some (to_signed 4 (z mod 2 ^ 32)).
