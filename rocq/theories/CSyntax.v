(** How the statements of C.v are written in C.  A specification: it does not look at the
    generator. *)
From Verif Require Export Syntax C ProtocolSpec.
Open Scope string_scope.
Open Scope Z_scope.
Open Scope list_scope.

Definition c_number (k : num) : string :=
  match k with
  | NByte => "uint8_t" | NBool => "bool" | NU16 => "uint16_t" | NI16 => "int16_t" | NU32 => "uint32_t" | NI32 => "int32_t"
  | NU64 => "uint64_t" | NI64 => "int64_t" | NF32 => "float" | NF64 => "double"
  end.
(** In the names of functions. *)
Definition c_word (k : num) : string :=
  match k with
  | NByte => "UInt8" | NBool => "Bool" | NU16 => "UInt16" | NI16 => "Int16" | NU32 => "UInt32" | NI32 => "Int32"
  | NU64 => "UInt64" | NI64 => "Int64" | NF32 => "Float" | NF64 => "Double"
  end.

Section Syntax.
Variable p : protocol.
(** The prefix of all names, and that of macros. *)
Variables pre mac : string.

(** A type: a number type, a string, or the declared name with the prefix. *)
Definition c_type_name (t : string) : string :=
  match num_of t with Some k => c_number k | None => if String.eqb t "string" then "char*" else cat [pre; t] end.

Definition c_function (head : string) (body : list out_line) : list out_line := [(0, head)] ++ body ++ [(0, "}")].
(** Returning an error code; doing so when the last call failed. *)
Definition c_code (lvl : Z) (code : string) : out_line := (lvl, cat ["return "; mac; code; ";"]).
Definition c_check (lvl : Z) : list out_line :=
  [(lvl, cat ["if (err != "; mac; "ERR_OK) {"]); (lvl + 1, "return err;"); (lvl, "}")].
Definition c_call (lvl : Z) (f args : string) : list out_line := (lvl, cat ["err = "; pre; f; "("; args; ");"]) :: c_check lvl.
(** The head of a loop that counts up to a length. *)
Definition c_loop (i len : string) : string :=
  cat ["for ("; c_type_name (p_list_size_type p); " "; i; " = 0; "; i; " < "; len; "; "; i; "++) {"].

(** ** Reading and writing: the members of [obj], and the element [i] *)

Definition c_place (obj i : string) (x : clv) : string :=
  match x with LField f => cat [obj; f] | LElem f => cat [obj; f; "["; i; "]"] end.
(** The variable for the value of an enum. *)
Definition c_local (x : clv) : string := match x with LField f => cat ["_"; f] | LElem f => cat ["_"; f] end.

Fixpoint c_stmt (lvl : Z) (st : cstmt) : list out_line :=
  let at_ := c_place "dst->" "i1" in
  match st with
  | CRead x k => c_call lvl (cat ["Read"; c_word k]) (cat ["r, &("; at_ x; ")"])
  | CReadStr x n => c_call lvl "ReadString" (cat ["r, &("; at_ x; "), &("; at_ n; ")"])
  | CReadEnum x t k =>
      [(lvl, cat [c_number k; " "; c_local x; ";"])] ++
      c_call lvl (cat ["Read"; c_word k]) (cat ["r, &("; c_local x; ")"]) ++
      [(lvl, cat ["if (!"; pre; "IsValid"; t; "("; c_local x; ")) {"]); c_code (lvl + 1) "ERR_INVALID_DATA"; (lvl, "}");
       (lvl, cat [at_ x; " = ("; pre; t; ")"; c_local x; ";"])]
  | CFrom x t => c_call lvl (cat [t; "_FromBytes"]) (cat ["r, &("; at_ x; ")"])
  | CMalloc f t n =>
      [(lvl, cat [at_ (LField f); " = ("; c_type_name t; "*)"; mac; "MALLOC(sizeof("; c_type_name t; ") * "; at_ (LField n); ");"])]
  | CIfNull f => [(lvl, cat ["if ("; at_ (LField f); " == NULL) { return "; mac; "ERR_ALLOCATION_FAILURE; }"])]
  | CFor n body =>
      [(lvl, c_loop "i1" (at_ (LField n)))] ++ flat_map (c_stmt (lvl + 1)) body ++ [(lvl, "}")] ++ c_check lvl
  | CIllTyped => [(lvl, "?")]                  (* not used *)
  end.

Fixpoint c_pstmt (lvl : Z) (st : pstmt) : list out_line :=
  let at_ := c_place "src->" "i1" in
  match st with
  | PNum x k => c_call lvl (cat ["Write"; c_word k]) (cat ["w, ("; at_ x; ")"])
  | PStr x n => c_call lvl "WriteString" (cat ["w, &("; at_ x; "), ("; at_ n; ")"])
  | PEnum x k => c_call lvl (cat ["Write"; c_word k]) (cat ["w, ("; c_number k; ")("; at_ x; ")"])
  | PCall x t => c_call lvl (cat [t; "_WriteBytes"]) (cat ["w, &("; at_ x; ")"])
  | PFor n body =>
      [(lvl, c_loop "i1" (at_ (LField n)))] ++ flat_map (c_pstmt (lvl + 1)) body ++ [(lvl, "}")] ++ c_check lvl
  | PIllTyped => [(lvl, "?")]                  (* not used *)
  end.

(** ** Measuring the members of [obj], with [tab] for indentation; [n] numbers the loops *)

Definition c_index (n : nat) : string := cat ["i"; dec_str n].
Fixpoint c_lstmt (tab : string) (n : nat) (obj : string) (st : lstmt) : list string :=
  let i := c_index n in
  match st with
  | LSet z => [cat ["*size = "; str_of_Z z; ";"]]
  | LAdd z => [cat ["*size += "; str_of_Z z; ";"]]
  | LAddLen f z => [cat ["*size += "; obj; c_len f; " * "; str_of_Z z; ";"]]
  | LAddStr f => [cat ["*size += "; obj; c_len f; ";"]]
  | LForStr f z =>
      [c_loop i (cat [obj; c_len f]); tab +++ cat ["*size += "; str_of_Z z; " + "; obj; c_els_len f; "["; i; "];"]; "}"]
  | LFor f body =>
      [c_loop i (cat [obj; c_len f])] ++
      map (fun l => tab +++ l) (flat_map (c_lstmt tab (S n) (cat [obj; f; "["; i; "]."])) body) ++ ["}"]
  | LIn f body => flat_map (c_lstmt tab n (cat [obj; f; "."])) body
  end.

(** ** Releasing the members of [obj]; [lvl] numbers the loops, too; [i] is the index of
    the loop around *)

Fixpoint c_dstmt (lvl : nat) (obj i : string) (st : dstmt) : list out_line :=
  match st with
  | DFree x => [(Z.of_nat lvl, cat [mac; "FREE("; c_place obj i x; ");"])]
  | DFor f body =>
      [(Z.of_nat lvl, c_loop (c_index lvl) (cat [obj; c_len f]))] ++
      flat_map (c_dstmt (S lvl) obj (c_index lvl)) body ++
      [(Z.of_nat lvl, "}")]
  | DIn x body => flat_map (c_dstmt lvl (cat [c_place obj i x; "."]) "") body
  | DIllTyped => [(Z.of_nat lvl, "?")]         (* not used *)
  end.

(** ** Fresh objects *)

(** A number or an enum of type [t]. *)
Definition c_literal (t : string) (v : val) : string :=
  match lookup t (p_enums p), v with
  | Some e, VInt z =>
      match find (fun x => snd x =? z) (e_values e) with Some (n, _) => cat [pre; t; "_"; n] | None => "?" end
  | None, VInt z =>
      match num_of t with
      | Some NF32 => cat [str_of_Z z; ".0f"]
      | Some NF64 => cat [str_of_Z z; ".0"]
      | _ => str_of_Z z
      end
  | None, VBool b => if b then "true" else "false"
  | _, _ => "?"
  end.
(** What a member [m] has at first: itself, and lengths. *)
Fixpoint c_init_text (d : nat) (lvl : Z) (m : var) : list out_line :=
  flat_map (fun f =>
    let '(n, v) := f in
    let set x := [(lvl, cat ["."; n; " = "; x; ","])] in
    match v with
    | CNum v => set (if String.eqb n (v_name m) then c_literal (v_type m) v else match v with VInt z => str_of_Z z | _ => "?" end)
    | CStr None _ => set "(char*)"""""
    | CNull => set "NULL"
    | CStruct _ =>
        [(lvl, cat ["."; n; " = {"])] ++
        (match d, lookup (v_type m) (p_structs p) with
         | S d', Some s => flat_map (c_init_text d' (lvl + 1)) (s_members s)
         | _, _ => []
         end) ++
        [(lvl, "},")]
    | _ => [(lvl, "?")]                        (* not used *)
    end) (c_default_members p d [m]).

(** ** Declarations *)

Definition c_field_text (m : var) : list out_line :=
  let lt := c_type_name (p_list_size_type p) in
  let t := c_type_name (v_type m) in
  if v_list m then
    [(1, cat [lt; " "; c_len (v_name m); ";"])] ++
    (if String.eqb (v_type m) "string" then [(1, cat [lt; "* "; c_els_len (v_name m); ";"])] else []) ++
    [(1, cat [t; "* "; v_name m; ";"])]
  else
    (if String.eqb (v_type m) "string" then [(1, cat [c_type_name (p_string_size_type p); " "; c_len (v_name m); ";"])] else []) ++
    [(1, cat [t; " "; v_name m; ";"])].
Definition c_fields_text (s : struct) : list out_line :=
  [(0, "typedef struct {")] ++
  (if s_is_message s then [(1, cat [pre; "MessageType _mt;"])] else []) ++
  flat_map c_field_text (s_members s) ++
  [(0, cat ["} "; pre; s_name s; ";"])].

(** Enumerators are separated by commas. *)
Fixpoint c_enumerators (l : list (string * Z)) : list out_line :=
  match l with
  | [] => []
  | [(n, z)] => [(1, cat [pre; n; " = "; str_of_Z z])]
  | (n, z) :: r => (1, cat [pre; n; " = "; str_of_Z z; ","]) :: c_enumerators r
  end.
Definition c_enum_text (n : string) (e : enum) : list out_line :=
  [(0, cat ["typedef enum "; pre; n; " {"])] ++
  c_enumerators (map (fun v => (cat [n; "_"; fst v], snd v)) (e_values e)) ++
  [(0, cat ["} "; pre; n; ";"])].
Definition c_valid_text (n : string) (e : enum) : list out_line :=
  c_function (cat ["bool "; pre; "IsValid"; n; "("; c_type_name (e_encoding e); " value) {"])
    ([(1, "switch (value) {")] ++
     map (fun v => (2, cat ["case "; pre; n; "_"; v; ":"])) (map fst (e_values e)) ++
     [(3, "return true;"); (2, "default:"); (3, "return false;"); (1, "}")]).

(** ** A struct or message *)

Definition c_head (s : struct) (name args : string) : string := cat [pre; "err_t "; pre; s_name s; "_"; name; "("; args; ") {"].
Definition c_size_text (s : struct) (tab : string) (size : list lstmt) : list out_line :=
  c_function (c_head s "GetSizeInBytes" (cat ["const "; pre; s_name s; "* m, size_t* size"]))
    (at_lvl 1 (flat_map (c_lstmt tab 1 "m->") size) ++ [c_code 1 "ERR_OK"]).
Definition c_default_text (s : struct) : list out_line :=
  [(0, cat ["const "; pre; s_name s; " "; pre; s_name s; "_default = {"]);
   (1, cat ["._mt = "; pre; "MessageType_"; s_name s; ","])] ++
  flat_map (c_init_text (depth_of p) 1) (s_members s) ++
  [(0, "};")].
Definition c_create_text (s : struct) : list out_line :=
  let t := cat [pre; s_name s] in
  c_function (cat [t; "* "; t; "_Create(void) {"])
    ([(1, cat [t; "* out = ("; t; "*)"; mac; "MALLOC(sizeof("; t; "));"]);
      (1, "if (out == NULL) { return NULL; }");
      (1, cat ["out->_mt = "; pre; "MessageType_"; s_name s; ";"])] ++
     map (fun m => (1, cat ["out->"; v_name m; " = "; pre; s_name s; "_default."; v_name m; ";"])) (s_members s) ++
     [(1, "return out;")]).
Definition c_cleanup_text (s : struct) (release : var -> list dstmt) : list out_line :=
  c_function (cat ["void "; pre; s_name s; "_Cleanup("; pre; s_name s; " *m) {"])
    (flat_map (fun m => flat_map (c_dstmt 1 "m->" "") (release m)) (s_members s)).
Definition c_destroy_text (s : struct) : list out_line :=
  c_function (cat ["void "; pre; s_name s; "_Destroy("; pre; s_name s; " *m) {"])
    [(1, cat [pre; s_name s; "_Cleanup(m);"]); (1, cat [mac; "FREE(m);"])].
Definition c_from_bytes_text (s : struct) (read : var -> list cstmt) : list out_line :=
  c_function (c_head s "FromBytes" (cat [pre; "DataAccess* r, "; pre; s_name s; "* dst"]))
    ((if s_is_message s then [(1, cat ["dst->_mt = "; pre; "MessageType_"; s_name s; ";"])] else []) ++
     match s_members s with [] => [] | _ => [(1, cat [pre; "err_t err;"])] end ++
     flat_map (fun m => flat_map (c_stmt 1) (read m)) (s_members s) ++
     [c_code 1 "ERR_OK"]).
Definition c_write_bytes_text (s : struct) (write : var -> list pstmt) : list out_line :=
  c_function
    (c_head s "WriteBytes" (cat [pre; "DataAccess* w, const "; pre; s_name s; "* src"; (if s_is_message s then ", bool tag" else "")]))
    ([(1, cat [pre; "err_t err;"])] ++
     (if s_is_message s then [(1, "if (tag) {")] ++ c_call 2 "WriteUInt8" "w, (uint8_t)(src->_mt)" ++ [(1, "}")] else []) ++
     flat_map (fun m => flat_map (c_pstmt 1) (write m)) (s_members s) ++
     [c_code 1 "ERR_OK"]).

(** ** The messages *)

Section Messages.
Variable tags : list (Z * string).

Definition c_tags_text : list out_line :=
  [(0, "typedef enum {"); (1, cat [pre; "MessageType_BuiltIn_NullMessage = 0,"])] ++
  c_enumerators (map (fun t => (cat ["MessageType_"; snd t], fst t)) tags) ++
  [(0, cat ["} "; pre; "MessageType;"])].
(** The switch over the type of a message; [null] and [other] are done for 0 and for a
    number that no message has.  The case for 0 comes first or last. *)
Definition c_switch (lvl : Z) (first : bool) (f : string -> list out_line) (null other : list out_line) : list out_line :=
  let zero := (lvl, cat ["case "; pre; "MessageType_BuiltIn_NullMessage:"]) :: null in
  [(lvl, "switch (msgType) {")] ++
  (if first then zero else []) ++
  flat_map (fun t => (lvl, cat ["case "; pre; "MessageType_"; snd t; ":"]) :: f (snd t)) tags ++
  (if first then [] else zero) ++
  [(lvl, "default:")] ++ other ++
  [(lvl, "}")].
Definition c_invalid (lvl : Z) : list out_line := [c_code lvl "ERR_INVALID_DATA"].
Definition c_get_type (lvl : Z) (m : string) : out_line :=
  (lvl, cat [pre; "MessageType msgType = "; pre; "GetMessageType("; m; ");"]).

Definition c_message_text (head : string) (f : string -> list out_line) : list out_line :=
  c_function (cat [pre; "err_t "; pre; head; " {"])
    ([c_get_type 1 "m"] ++ c_switch 1 true f (c_invalid 2) (c_invalid 2)).

Definition c_messages_text : list (list out_line) :=
  [c_function (cat [pre; "MessageType "; pre; "GetMessageType(const void* m) {"])
     [(1, "const uint8_t* buffer = (const uint8_t*)m;");
      (1, "uint8_t msgType = buffer[0];");
      (1, cat ["if (msgType > "; str_of_Z (Z.of_nat (List.length tags)); ") {"]);
      (2, cat ["return "; pre; "MessageType_BuiltIn_NullMessage;"]);
      (1, "}");
      (1, cat ["return ("; pre; "MessageType)msgType;"])];
   c_message_text "GetSizeInBytes(const void* m, size_t* len)" (fun t =>
     [(2, cat ["return "; pre; t; "_GetSizeInBytes((const "; pre; t; "*)m, len);"])]);
   c_message_text (cat ["WriteBytes("; pre; "DataAccess* w, const void* m, bool tag)"]) (fun t =>
     [(2, cat ["return "; pre; t; "_WriteBytes(w, (const "; pre; t; "*)m, tag);"])]);
   c_message_text "Destroy(void* m)" (fun t =>
     [(2, cat [pre; t; "_Destroy(("; pre; t; "*)m);"]); c_code 2 "ERR_OK"]);
   c_function (cat [pre; "err_t "; pre; "ProcessRawBytes("; pre; "DataAccess* r, int32_t max, void*** msgListDst, size_t* len) {"])
     ([(1, cat [pre; "err_t err = "; mac; "ERR_OK;"]);
       (1, "size_t currCapacity = 8;");
       (1, cat ["*msgListDst = (void**)"; mac; "MALLOC(sizeof(void*) * currCapacity);"]);
       (1, cat ["if (*msgListDst == NULL) { return "; mac; "ERR_ALLOCATION_FAILURE; }"]);
       (1, "*len = 0;");
       (1, "if (max == 0) {"); c_code 2 "ERR_OK"; (1, "}");
       (1, cat ["while (!"; pre; "IsFinished(r) && (max < 0 || *len < (size_t)max)) {"]);
       (2, "while (*len >= currCapacity) {");
       (3, "currCapacity *= 2;");
       (3, cat ["*msgListDst = (void**)"; mac; "REALLOC(*msgListDst, (sizeof(void*) * currCapacity));"]);
       (3, cat ["if (*msgListDst == NULL) { return "; mac; "ERR_ALLOCATION_FAILURE; }"]);
       (2, "}");
       (2, "uint8_t msgType;");
       (2, cat [pre; "ReadUInt8(r, &msgType);"])] ++
      c_check 2 ++
      [(2, ""); (2, "void* out;")] ++
      c_switch 2 true (fun t =>
        [(3, cat ["out = "; mac; "MALLOC(sizeof("; pre; t; "));"]);
         (3, cat ["if (out == NULL) { return "; mac; "ERR_ALLOCATION_FAILURE; }"]);
         (3, cat ["err = "; pre; t; "_FromBytes(r, ("; pre; t; "*)out);"]);
         (3, "(*msgListDst)[*len] = out;");
         (3, "*len += 1;")] ++ c_check 3 ++ [(3, "break;")])
        [c_code 3 "ERR_OK"] [c_code 3 "ERR_INVALID_DATA"; (3, "break;")] ++
      [(1, "}"); c_code 1 "ERR_OK"]);
   c_function (cat [pre; "err_t "; pre; "DestroyMessageList(void** msgList, size_t len) {"])
     ([(1, "for (size_t i = 0; i < len; i++) {"); c_get_type 2 "msgList[i]"] ++
      c_switch 2 false (fun t => [(3, cat [pre; t; "_Destroy(("; pre; t; "*)msgList[i]);"]); (3, "break;")])
        (c_invalid 3) (c_invalid 3) ++
      [(1, "}"); (1, cat [mac; "FREE(msgList);"]); c_code 1 "ERR_OK"]);
   c_function (cat [pre; "err_t "; pre; "GetPackedSize(void** msgList, size_t len, size_t* packedSize) {"])
     ([(1, "*packedSize = 0;");
       (1, "for (size_t i = 0; i < len; i++) {"); (2, "size_t individualSize = 0;"); c_get_type 2 "msgList[i]"] ++
      c_switch 2 false (fun t =>
        [(3, cat [pre; t; "_GetSizeInBytes(("; pre; t; "*)msgList[i], &individualSize);"]);
         (3, "*packedSize += individualSize;"); (3, "break;")])
        (c_invalid 3) (c_invalid 3) ++
      [(1, "}"); (1, "*packedSize += len;"); (1, "*packedSize += 9;"); c_code 1 "ERR_OK"]);
   c_function (cat [pre; "err_t "; pre; "PackMessages(void** msgList, size_t len, "; pre; "DataAccess* w) {"])
     ([(1, cat [pre; "err_t err = "; mac; "ERR_OK;"]);
       (1, "if (msgList == NULL) {"); c_code 2 "ERR_INVALID_DATA"; (1, "}");
       (1, "const char header[] = ""BSCI"";");
       (1, "memcpy(w->buffer, header, 4);");
       (1, "w->position += 4;")] ++
      c_call 1 "WriteUInt32" "w, (uint32_t)len" ++
      [(1, "for (size_t i = 0; i < len; i++) {"); c_get_type 2 "msgList[i]"] ++
      c_switch 2 false (fun t => c_call 3 (cat [t; "_WriteBytes"]) (cat ["w, ("; pre; t; "*)msgList[i], true"]) ++ [(3, "break;")])
        (c_invalid 3) (c_invalid 3) ++
      [(1, "}"); (1, cat [pre; "WriteUInt8(w, 0);"]); (1, ""); c_code 1 "ERR_OK"]);
   c_function (cat [pre; "err_t "; pre; "UnpackMessages("; pre; "DataAccess* r, void*** msgListOut, size_t* len) {"])
     ([(1, cat [pre; "err_t err = "; mac; "ERR_OK;"]);
       (1, "if (memcmp(r->buffer, ""BSCI"", 4) != 0) {"); c_code 2 "ERR_INVALID_DATA"; (1, "}");
       (1, "r->position += 4;");
       (1, "uint32_t msgCount;")] ++
      c_call 1 "ReadUInt32" "r, &msgCount" ++
      c_call 1 "ProcessRawBytes" "r, (int32_t)msgCount, msgListOut, len" ++
      [(1, "if (len == 0) {"); (2, cat [mac; "FREE(*msgListOut);"]); (2, "*msgListOut = NULL;"); c_code 2 "ERR_INVALID_DATA"; (1, "}");
       (1, "if (*len != (size_t)msgCount) {"); (2, cat [pre; "DestroyMessageList(*msgListOut, *len);"]);
       (2, "*msgListOut = NULL;"); (2, "*len = 0;"); c_code 2 "ERR_INVALID_DATA"; (1, "}");
       (1, ""); c_code 1 "ERR_OK"])].
End Messages.

(** ** The whole file *)

Definition c_class (tab : string) (s : struct) : list (list out_line) :=
  (if s_is_message s then
     [c_default_text s;
      c_size_text s tab
        (match c_measure p (depth_of p) s with Some (l, a) => l ++ (if 0 <? a then [LAdd a] else []) | None => [] end);
      c_create_text s;
      c_cleanup_text s (c_release p (depth_of p));
      c_destroy_text s]
   else []) ++
  [c_from_bytes_text s (c_read p); c_write_bytes_text s (c_write p)].
End Syntax.

Definition c_file (p : protocol) (g : settings) : list (list out_line) :=
  let pre := match g_namespace g with Some n => cat [n; "_"] | None => "beschi_" end in
  let mac := upper pre in
  let types := p_structs p ++ p_messages p in
  [c_tags_text pre (c_message_types p)] ++
  map (fun e => c_enum_text pre (fst e) (snd e)) (p_enums p) ++
  map (fun s => c_fields_text p pre (snd s)) types ++
  c_messages_text pre mac (c_message_types p) ++
  map (fun e => c_valid_text pre (fst e) (snd e)) (p_enums p) ++
  flat_map (fun s => c_class p pre mac (g_tab g) (snd s)) types.

(** No bracket in the name of a member. *)
Definition no_brackets (p : protocol) : Prop :=
  forall n s m, declares p n s -> In m (s_members s) -> ~ In "]"%char (str_chars (v_name m)).
