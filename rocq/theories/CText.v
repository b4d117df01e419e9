(** Model of the text that beschi/writers/c.py prints.

    The statements inside the generated functions are modelled a second time, as
    programs, in C.v; PropPrinted.v shows that this text is the text of those
    programs. *)
From Verif Require Export Lines C.
Open Scope string_scope.
Open Scope Z_scope.
Open Scope list_scope.

(** c.py:44-55, base_defaults, as text. *)
Definition ct_defaults : list (string * string) :=
  [("byte", "0"); ("bool", "false"); ("uint16", "0"); ("int16", "0"); ("uint32", "0"); ("int32", "0");
   ("uint64", "0"); ("int64", "0"); ("float", "0.0f"); ("double", "0.0")].

(** c.py:104 and 142, the groups of [re.match] for a name that ends with an index,
    such as [x[i3]].  Backwards: perhaps a line feed, a bracket, digits, [i], a
    bracket, and no line feed in the rest. *)
Fixpoint string_rev (s acc : string) : string :=
  match s with EmptyString => acc | String c r => string_rev r (String c acc) end.
Fixpoint has_line_feed (s : string) : bool :=
  match s with EmptyString => false | String c r => is_byte 10 c || has_line_feed r end.
Fixpoint digits_back (s ds : string) : string * string :=
  match s with
  | String c r => if is_digit c then digits_back r (String c ds) else (ds, s)
  | EmptyString => (ds, s)
  end.
Definition ct_idx_search (name : string) : option (string * string) :=
  let back := match string_rev name "" with
              | String c r => if is_byte 10 c then r else String c r
              | EmptyString => ""
              end in
  match back with
  | String "]" r =>
      match digits_back r "" with
      | (String d ds, String "i" (String "[" name)) =>
          if has_line_feed name then None else Some (string_rev name "", String "i" (String d ds))
      | _ => None
      end
  | _ => None
  end.

Section Text.
Variable p : protocol.
Variable g : settings.
Let tab := g_tab g.
(** c.py:57-61, [self.prefix] and [self.subs]. *)
Definition ct_prefix : string := match g_namespace g with Some ns => ns +++ "_" | None => "beschi_" end.
Let prefix := ct_prefix.
Definition ct_subs : list (string * substitute_by) :=
  match g_namespace g with Some ns => [("beschi", Text ns); ("BESCHI", Text (upper ns))] | None => [] end.
Let subs := ct_subs.
(** c.py:416-420 and 449-452, the substitutions in the first two files. *)
Definition ct_substitutions_0 (string_size native_size : string) : list (string * substitute_by) :=
  subs ++ [("{# STRING_SIZE_TYPE #}", Text string_size);
           ("{# STRING_SIZE_TYPE_LOWER #}", Text (lower string_size));
           ("{# STRING_SIZE_TYPE_NATIVE #}", Text native_size)].
Definition ct_substitutions_1 (string_size : string) : list (string * substitute_by) :=
  subs ++ [("{# STRING_SIZE_TYPE #}", Text string_size);
           ("{# STRING_SIZE_TYPE_LOWER #}", Text (lower string_size))].

(** c.py:19-29, type_mapping, and 31-42, base_serializers. *)
Definition ct_types : string -> ptext := mapping p (("string", "char*") :: c_types).
Let types := ct_types.
Definition ct_serializers : string -> ptext := item c_serializers.
Let serializers := ct_serializers.
Let defaults : string -> ptext := item ct_defaults.

(** c.py:63-68, err_check_return. *)
Definition ct_err_check_return : gtext :=
  block [
    line [| "if (err != "; upper prefix; "ERR_OK) {" |];
    indent;
    line "return err;";
    dedent;
    line "}"].

(** c.py:70-128, deserializer. *)
Definition ct_deserializer_with (rec : var -> string -> gtext) (m : var) (accessor : string) : gtext :=
  (if (v_list m) then
     block [
       line [| "err = "; prefix; "Read"; serializers (p_list_size_type p); "(r, &("; accessor;
               v_name m; "_len));" |];
       ct_err_check_return;
       (let pref := if mem (v_type m) NUMERIC_TYPE_SIZES || String.eqb (v_type m) "string" then "" else prefix in
        block [
         line [| accessor; v_name m; " = ("; pref; types (v_type m); "*)"; upper prefix;
                 "MALLOC(sizeof("; pref; types (v_type m); ") * "; accessor; v_name m; "_len);" |];
         line [| "if ("; accessor; v_name m; " == NULL) { return "; upper prefix;
                 "ERR_ALLOCATION_FAILURE; }" |]]);
       when (String.eqb (v_type m) "string") (
         block [
           line [| accessor; v_name m; "_els_len = ("; types (p_string_size_type p); "*)";
                   upper prefix; "MALLOC(sizeof("; types (p_string_size_type p); ") * ";
                   accessor; v_name m; "_len);" |];
           line [| "if ("; accessor; v_name m; " == NULL) { return "; upper prefix;
                   "ERR_ALLOCATION_FAILURE; }" |]]);
       at_level (fun idx =>
         block [
           line [| "for ("; types (p_list_size_type p); " i"; str_of_Z idx; " = 0; i"; str_of_Z idx; " < ";
                   accessor; v_name m; "_len; i"; str_of_Z idx; "++) {" |];
           indent;
           (if mem (v_type m) (p_enums p) then
              given (get_enum p (v_type m)) (fun e =>
                block [
                  line [| types (e_encoding e); " _"; v_name m; ";" |];
                  line [| "err = "; prefix; "Read"; serializers (e_encoding e); "(r, &(_";
                          v_name m; "));" |];
                  ct_err_check_return;
                  line [| "if (!"; prefix; "IsValid"; v_type m; "(_"; v_name m; ")) {" |];
                  indent;
                  line [| "return "; upper prefix; "ERR_INVALID_DATA;" |];
                  dedent;
                  line "}";
                  line [| accessor; v_name m; "[i"; str_of_Z idx; "] = ("; prefix; v_type m; ")_";
                          v_name m; ";" |]])
            else (let inner := MkVar (v_name m +++ "[i" +++ str_of_Z idx +++ "]") (v_type m) false in
               rec inner accessor));
           dedent;
           line "}";
           ct_err_check_return])]
   else if String.eqb (v_type m) "string" then
     (let idx_search := ct_idx_search (v_name m) in
      block [
      match idx_search with
        | Some (name, idx) =>
            line [| "err = "; prefix; "ReadString(r, &("; accessor; v_name m; "), &("; accessor; name;
                    "_els_len["; idx; "]));" |]
        | None =>
            line [| "err = "; prefix; "ReadString(r, &("; accessor; v_name m; "), &("; accessor; v_name m; "_len));" |]
        end;
        ct_err_check_return])
   else if mem (v_type m) (p_enums p) then
     given (get_enum p (v_type m)) (fun e =>
       block [
         line [| types (e_encoding e); " _"; v_name m; ";" |];
         line [| "err = "; prefix; "Read"; serializers (e_encoding e); "(r, &(_"; v_name m; "));" |];
         ct_err_check_return;
         line [| "if (!"; prefix; "IsValid"; v_type m; "(_"; v_name m; ")) {" |];
         indent;
         line [| "return "; upper prefix; "ERR_INVALID_DATA;" |];
         dedent;
         line "}";
         line [| accessor; v_name m; " = ("; prefix; v_type m; ")_"; v_name m; ";" |]])
   else if mem (v_type m) NUMERIC_TYPE_SIZES then
     block [
       line [| "err = "; prefix; "Read"; serializers (v_type m); "(r, &("; accessor; v_name m;
               "));" |];
       ct_err_check_return]
   else block [
       line [| "err = "; prefix; v_type m; "_FromBytes(r, &("; accessor; v_name m; "));" |];
       ct_err_check_return]).
Definition ct_deserializer : var -> string -> gtext := ct_deserializer_with (ct_deserializer_with no_more).

(** c.py:130-156, serializer. *)
Definition ct_serializer_with (rec : var -> string -> gtext) (m : var) (accessor : string) : gtext :=
  block [
    (if (v_list m) then
       block [
         line [| "err = "; prefix; "Write"; serializers (p_list_size_type p); "(w, ("; accessor;
                 v_name m; "_len));" |];
         ct_err_check_return;
         at_level (fun idx =>
           block [
             line [| "for ("; types (p_list_size_type p); " i"; str_of_Z idx; " = 0; i"; str_of_Z idx; " < ";
                     accessor; v_name m; "_len; i"; str_of_Z idx; "++) {" |];
             indent;
             (let inner := MkVar (v_name m +++ "[i" +++ str_of_Z idx +++ "]") (v_type m) false in
              block [rec inner accessor; dedent; line "}"])])]
     else if String.eqb (v_type m) "string" then
       (let idx_search := ct_idx_search (v_name m) in
      match idx_search with
      | Some (name, idx) =>
          line [| "err = "; prefix; "WriteString(w, &("; accessor; v_name m; "), ("; accessor; name;
                  "_els_len["; idx; "]));" |]
      | None =>
          line [| "err = "; prefix; "WriteString(w, &("; accessor; v_name m; "), ("; accessor; v_name m; "_len));" |]
      end)
     else if mem (v_type m) (p_enums p) then
       given (get_enum p (v_type m)) (fun e =>
         line [| "err = "; prefix; "Write"; serializers (e_encoding e); "(w, (";
                 types (e_encoding e); ")("; accessor; v_name m; "));" |])
     else if mem (v_type m) NUMERIC_TYPE_SIZES then
       line [| "err = "; prefix; "Write"; serializers (v_type m); "(w, ("; accessor; v_name m;
               "));" |]
     else line [| "err = "; prefix; v_type m; "_WriteBytes(w, &("; accessor; v_name m; "));" |]);
    ct_err_check_return].
Definition ct_serializer : var -> string -> gtext := ct_serializer_with (ct_serializer_with no_more).

(** c.py:158-200, gen_measurement: the lines and the accumulated constant.  First the
    loop over the members; [rec] is the recursive call, [level] is
    [self.indent_level]. *)
Definition ct_size_init : string := "*size = 0;".
Fixpoint ct_measure_members (rec : Z -> struct -> string -> pyres (list string * Z)) (level : Z)
         (accessor : string) (ms : list var) (lines : list string) (accum : Z) : pyres (list string * Z) :=
  match ms with
  | [] => Ret (lines, accum)
  | m :: r =>
      let next := ct_measure_members rec level accessor r in
      if v_list m then
        a <- numeric_size (p_list_size_type p) ;;
        let accum := accum + a in
        let idx := level in
        if is_simple p (v_type m) then
          l <- [| "*size += "; accessor; v_name m; "_len * "; str_of (get_size_of p (v_type m)); ";" |] ;;
          next (lines ++ [l]) accum
        else if String.eqb (v_type m) "string" then
          l1 <- [| "for ("; types (p_list_size_type p); " i"; str_of_Z idx; " = 0; i"; str_of_Z idx; " < "; accessor;
                   v_name m; "_len; i"; str_of_Z idx; "++) {" |] ;;
          l2 <- [| tab; "*size += "; str_of (numeric_size (p_string_size_type p)); " + "; accessor; v_name m;
                   "_els_len[i"; str_of_Z idx; "];" |] ;;
          next (lines ++ [l1; l2; "}"]) accum
        else
          l <- [| "for ("; types (p_list_size_type p); " i"; str_of_Z idx; " = 0; i"; str_of_Z idx; " < "; accessor;
                  v_name m; "_len; i"; str_of_Z idx; "++) {" |] ;;
          s <- get_struct p (v_type m) ;;
          c <- rec (level + 1) s (accessor +++ v_name m +++ "[i" +++ str_of_Z idx +++ "].") ;;
          clines <- drop_first_if ct_size_init (fst c) ;;
          l' <- [| "*size += "; str_of_Z (snd c); ";" |] ;;
          next (lines ++ [l] ++ map (fun l => tab +++ l) (clines ++ [l']) ++ ["}"]) accum
      else if is_simple p (v_type m) then
        a <- get_size_of p (v_type m) ;; next lines (accum + a)
      else if String.eqb (v_type m) "string" then
        a <- numeric_size (p_string_size_type p) ;;
        l <- [| "*size += "; accessor; v_name m; "_len;" |] ;;
        next (lines ++ [l]) (accum + a)
      else
        s <- get_struct p (v_type m) ;;
        c <- rec level s (accessor +++ v_name m +++ ".") ;;
        clines <- drop_first_if ct_size_init (fst c) ;;
        next (lines ++ clines) (accum + snd c)
  end.
(** [d] bounds the nesting of structs. *)
Fixpoint ct_measure (d : nat) (level : Z) (s : struct) (accessor : string) : pyres (list string * Z) :=
  match d with
  | O => OutOfSteps
  | S d' =>
      if is_simple p (s_name s) then
        l <- [| "*size = "; str_of (get_size_of p (s_name s)); ";" |] ;; Ret ([l], 0)
      else ct_measure_members (ct_measure d') level accessor (s_members s) [ct_size_init] 0
  end.
Definition ct_gen_measurement : Z -> struct -> string -> pyres (list string * Z) := ct_measure (depth_of p).

(** c.py:202-222, gen_default; [d] bounds the nesting of structs. *)
Fixpoint ct_gen_default (d : nat) (members : list var) : gtext :=
  each members (fun m =>
    (if v_list m then
       block [
         line [| "."; v_name m; "_len = 0," |];
         when (String.eqb (v_type m) "string") (line [| "."; v_name m; "_els_len = NULL," |]);
         line [| "."; v_name m; " = NULL," |]]
     else if mem (v_type m) ct_defaults then
       line [| "."; v_name m; " = "; defaults (v_type m); "," |]
     else if String.eqb (v_type m) "string" then
       block [line [| "."; v_name m; "_len = 0," |]; line [| "."; v_name m; " = (char*)""""," |]]
     else if mem (v_type m) (p_enums p) then
       given (get_enum p (v_type m)) (fun e =>
         line [| "."; v_name m; " = "; prefix; e_name e; "_"; default_name e; "," |])
     else block [
         line [| "."; v_name m; " = {" |];
         indent;
         match d with
         | O => fun _ => OutOfSteps
         | S d' => given (get_struct p (v_type m)) (fun s => ct_gen_default d' (s_members s))
         end;
         dedent;
         line "},"])).

(** c.py:224-244, destructor: [of_member] is the recursive call for the members of a
    struct, [rec] for the elements of a list. *)
Definition ct_destructor_with (of_member rec : var -> string -> gtext) (m : var) (accessor : string) : gtext :=
  if var_is_simple p m then skip
  else if v_list m then
    (if is_simple p (v_type m) then
       line [| upper prefix; "FREE("; accessor; v_name m; ");" |]
     else at_level (fun idx =>
         block [
           line [| "for ("; types (p_list_size_type p); " i"; str_of_Z idx; " = 0; i"; str_of_Z idx; " < ";
                   accessor; v_name m; "_len; i"; str_of_Z idx; "++) {" |];
           indent;
           (let inner := MkVar (v_name m +++ "[i" +++ str_of_Z idx +++ "]") (v_type m) false in
            block [
              rec inner accessor;
              dedent;
              line "}";
              when (String.eqb (v_type m) "string") (
                line [| upper prefix; "FREE("; accessor; v_name m; "_els_len);" |]);
              line [| upper prefix; "FREE("; accessor; v_name m; ");" |]])]))
  else if String.eqb (v_type m) "string" then
    line [| upper prefix; "FREE("; accessor; v_name m; ");" |]
  else given (get_struct p (v_type m)) (fun s =>
         each (s_members s) (fun mem => of_member mem (accessor +++ v_name m +++ "."))).
(** [d] bounds the nesting of structs. *)
Fixpoint ct_destructor (d : nat) : var -> string -> gtext :=
  match d with
  | O => no_more
  | S d' => ct_destructor_with (ct_destructor d') (ct_destructor_with (ct_destructor d') no_more)
  end.

(** c.py:246-254, gen_enum. *)
Definition ct_gen_enum (ename : string) (e : enum) : gtext :=
  block [
    line [| "typedef enum "; prefix; ename; " {" |];
    indent;
    each (index_from 0 (e_values e)) (fun '(ei, (v, vi)) =>
      line [| prefix; ename; "_"; v; " = "; str_of_Z vi;
              (if ei <? Z.of_nat (List.length (e_values e)) - 1 then "," else "") |]);
    dedent;
    line [| "} "; prefix; ename; ";" |];
    line [| "bool "; prefix; "IsValid"; ename; "("; types (e_encoding e); " value);" |];
    blank].

(** c.py:256-296, gen_struct. *)
Definition ct_gen_struct (sname : string) (s : struct) : gtext :=
  block [
    line "typedef struct {";
    indent;
    when (s_is_message s) (line [| prefix; "MessageType _mt;" |]);
    each (s_members s) (fun m =>
      (if (v_list m) then
         block [
           line [| types (p_list_size_type p); " "; v_name m; "_len;" |];
           when (String.eqb (v_type m) "string") (
             line [| types (p_list_size_type p); "* "; v_name m; "_els_len;" |]);
           (if (mem (v_type m) NUMERIC_TYPE_SIZES) || (String.eqb (v_type m) "string") then
              line [| types (v_type m); "* "; v_name m; ";" |]
            else when ((mem (v_type m) (p_structs p)) || (mem (v_type m) (p_enums p))) (
                line [| prefix; v_type m; "* "; v_name m; ";" |]))]
       else if String.eqb (v_type m) "string" then
         block [
           line [| types (p_string_size_type p); " "; v_name m; "_len;" |];
           line [| types (v_type m); " "; v_name m; ";" |]]
       else if mem (v_type m) NUMERIC_TYPE_SIZES then
         line [| types (v_type m); " "; v_name m; ";" |]
       else if mem (v_type m) (p_enums p) then
         line [| prefix; v_type m; " "; v_name m; ";" |]
       else when (mem (v_type m) (p_structs p)) (line [| prefix; v_type m; " "; v_name m; ";" |])));
    dedent;
    line [| "} "; prefix; sname; ";" |];
    when (s_is_message s) (
      line [| "extern const "; prefix; sname; " "; prefix; sname; "_default;" |]);
    blank;
    (if (s_is_message s) then
       line [| prefix; "err_t "; prefix; sname; "_WriteBytes("; prefix;
               "DataAccess* w, const "; prefix; sname; "* src, bool tag);" |]
     else line [| prefix; "err_t "; prefix; sname; "_WriteBytes("; prefix;
               "DataAccess* w, const "; prefix; sname; "* src);" |]);
    line [| prefix; "err_t "; prefix; sname; "_FromBytes("; prefix;
            "DataAccess* r, "; prefix; sname; "* dst);" |];
    when (s_is_message s) (
      block [
        line [| prefix; "err_t "; prefix; sname; "_GetSizeInBytes(const ";
                prefix; sname; "* m, size_t* size);" |];
        line [| prefix; sname; "* "; prefix; sname; "_Create(void);" |];
        line [| "void "; prefix; sname; "_Cleanup("; prefix; sname; " *m);" |];
        line [| "void "; prefix; sname; "_Destroy("; prefix; sname; " *m);" |]]);
    blank;
    blank].

(** c.py:298-315, gen_enum_implementation. *)
Definition ct_gen_enum_implementation (ename : string) (e : enum) : gtext :=
  block [
    line [| "bool "; prefix; "IsValid"; ename; "("; types (e_encoding e); " value) {" |];
    indent;
    line "switch (value) {";
    indent;
    each (map fst (e_values e)) (fun entry =>
      line [| "case "; prefix; ename; "_"; entry; ":" |]);
    indent;
    line "return true;";
    dedent;
    line "default:";
    indent;
    line "return false;";
    dedent;
    dedent;
    line "}";
    dedent;
    line "}";
    blank].

(** c.py:317-394, gen_implementation. *)
Definition ct_gen_implementation (sname : string) (s : struct) : gtext :=
  block [
    when (s_is_message s) (
      block [
        line [| "const "; prefix; sname; " "; prefix; sname; "_default = {" |];
        indent;
        line [| "._mt = "; prefix; "MessageType_"; sname; "," |];
        ct_gen_default (depth_of p) (s_members s);
        dedent;
        line "};";
        blank;
        line [| prefix; "err_t "; prefix; sname; "_GetSizeInBytes(const ";
                prefix; sname; "* m, size_t* size) {" |];
        indent;
        at_level (fun lev => given (ct_gen_measurement lev s "m->") (fun '(measure_lines, accumulator) =>
          block [
            each measure_lines (fun s => line s);
            when (accumulator >? 0) (line [| "*size += "; str_of_Z accumulator; ";" |]);
            line [| "return "; upper prefix; "ERR_OK;" |];
            dedent;
            line "}";
            blank;
            line [| prefix; sname; "* "; prefix; sname; "_Create(void) {" |];
            indent;
            line [| prefix; sname; "* out = ("; prefix; sname; "*)";
                    upper prefix; "MALLOC(sizeof("; prefix; sname; "));" |];
            line [| "if (out == NULL) { return NULL; }" |];
            line [| "out->_mt = "; prefix; "MessageType_"; sname; ";" |];
            each (s_members s) (fun m =>
              line [| "out->"; v_name m; " = "; prefix; sname; "_default."; v_name m; ";" |]);
            line "return out;";
            dedent;
            line "}";
            blank;
            line [| "void "; prefix; sname; "_Cleanup("; prefix; sname; " *m) {" |];
            indent;
            each (s_members s) (fun m => ct_destructor (depth_of p) m "m->");
            dedent;
            line "}";
            blank;
            line [| "void "; prefix; sname; "_Destroy("; prefix; sname; " *m) {" |];
            indent;
            line [| prefix; sname; "_Cleanup(m);" |];
            line [| upper prefix; "FREE(m);" |];
            dedent;
            line "}";
            blank]))]);
    line [| prefix; "err_t "; prefix; sname; "_FromBytes("; prefix;
            "DataAccess* r, "; prefix; sname; "* dst) {" |];
    indent;
    when (s_is_message s) (line [| "dst->_mt = "; prefix; "MessageType_"; sname; ";" |]);
    when (Z.of_nat (List.length (s_members s)) >? 0) (line [| prefix; "err_t err;" |]);
    each (s_members s) (fun m => ct_deserializer m "dst->");
    line [| "return "; upper prefix; "ERR_OK;" |];
    dedent;
    line "}";
    blank;
    (if (s_is_message s) then
       line [| prefix; "err_t "; prefix; sname; "_WriteBytes("; prefix;
               "DataAccess* w, const "; prefix; sname; "* src, bool tag) {" |]
     else line [| prefix; "err_t "; prefix; sname; "_WriteBytes("; prefix;
               "DataAccess* w, const "; prefix; sname; "* src) {" |]);
    indent;
    line [| prefix; "err_t err;" |];
    when (s_is_message s) (
      block [
        line "if (tag) {";
        indent;
        line [| "err = "; prefix; "WriteUInt8(w, (uint8_t)(src->_mt));" |];
        ct_err_check_return;
        dedent;
        line "}"]);
    each (s_members s) (fun m => ct_serializer m "src->");
    line [| "return "; upper prefix; "ERR_OK;" |];
    dedent;
    line "}";
    blank].

(** c.py:396-739, generate. *)
Definition ct_generate : gtext :=
  block [
    line "/*";
    line [| "   This file was automatically generated by "; LIB_NAME; " v"; LIB_VERSION |];
    line "   <https://github.com/sjml/beschi>";
    line "   Do not edit directly.";
    line "*/";
    blank;
    when (g_embed g) (
      block [
        line "/*";
        line "DATA PROTOCOL";
        line "-----------------";
        each (splitlines (g_source g)) (fun l => line [| l |]);
        line "-----------------";
        line "END DATA PROTOCOL";
        line "*/";
        blank;
        blank]);
    given (serializers (p_string_size_type p)) (fun string_size =>
      given (types (p_string_size_type p)) (fun native_size =>
        add_boilerplate "    " tab
          (ct_substitutions_0 string_size native_size)
          (g_files g 0)));
    line "typedef enum {";
    indent;
    line [| prefix; "MessageType_BuiltIn_NullMessage = 0," |];
    each (enumerate (p_messages p)) (fun '(i, k) =>
      line [| prefix; "MessageType_"; k; " = "; str_of_Z (i + 1);
              (if i <? Z.of_nat (List.length (p_messages p)) - 1 then "," else "") |]);
    dedent;
    line [| "} "; prefix; "MessageType;" |];
    blank;
    line [| prefix; "MessageType "; prefix; "GetMessageType(const void* m);" |];
    line [| prefix; "err_t "; prefix; "GetSizeInBytes(const void* m, size_t* len);" |];
    line [| prefix; "err_t "; prefix; "WriteBytes("; prefix;
            "DataAccess* w, const void* m, bool tag);" |];
    line [| prefix; "err_t "; prefix; "ProcessRawBytes("; prefix;
            "DataAccess* r, int32_t max, void*** msgListOut, size_t* len);" |];
    line [| prefix; "err_t "; prefix; "Destroy(void* m);" |];
    line [| prefix; "err_t "; prefix;
            "DestroyMessageList(void** msgList, size_t len);" |];
    line [| prefix; "err_t "; prefix;
            "GetPackedSize(void** msgList, size_t len, size_t* packedSize);" |];
    line [| prefix; "err_t "; prefix; "PackMessages(void** msgList, size_t len, ";
            prefix; "DataAccess* w);" |];
    line [| prefix; "err_t "; prefix; "UnpackMessages("; prefix;
            "DataAccess* r, void*** msgListOut, size_t* len);" |];
    blank;
    each (p_enums p) (fun '(ename, e) => ct_gen_enum ename e);
    each (p_structs p) (fun '(sname, s) => ct_gen_struct sname s);
    each (p_messages p) (fun '(mname, mdata) => ct_gen_struct mname mdata);
    given (serializers (p_string_size_type p)) (fun string_size =>
      add_boilerplate "    " tab
        (ct_substitutions_1 string_size)
        (g_files g 1));
    line [| prefix; "MessageType "; prefix; "GetMessageType(const void* m) {" |];
    indent;
    line "const uint8_t* buffer = (const uint8_t*)m;";
    line "uint8_t msgType = buffer[0];";
    line [| "if (msgType > "; str_of_Z (Z.of_nat (List.length (p_messages p))); ") {" |];
    indent;
    line [| "return "; prefix; "MessageType_BuiltIn_NullMessage;" |];
    dedent;
    line "}";
    line [| "return ("; prefix; "MessageType)msgType;" |];
    dedent;
    line "}";
    blank;
    line [| prefix; "err_t "; prefix; "GetSizeInBytes(const void* m, size_t* len) {" |];
    indent;
    line [| prefix; "MessageType msgType = "; prefix; "GetMessageType(m);" |];
    line "switch (msgType) {";
    line [| "case "; prefix; "MessageType_BuiltIn_NullMessage:" |];
    indent;
    line [| "return "; upper prefix; "ERR_INVALID_DATA;" |];
    dedent;
    each (map fst (p_messages p)) (fun mt =>
      block [
        line [| "case "; prefix; "MessageType_"; mt; ":" |];
        indent;
        line [| "return "; prefix; mt; "_GetSizeInBytes((const "; prefix; mt;
                "*)m, len);" |];
        dedent]);
    line "default:";
    indent;
    line [| "return "; upper prefix; "ERR_INVALID_DATA;" |];
    dedent;
    line "}";
    dedent;
    line "}";
    blank;
    line [| prefix; "err_t "; prefix; "WriteBytes("; prefix;
            "DataAccess* w, const void* m, bool tag) {" |];
    indent;
    line [| prefix; "MessageType msgType = "; prefix; "GetMessageType(m);" |];
    line "switch (msgType) {";
    line [| "case "; prefix; "MessageType_BuiltIn_NullMessage:" |];
    indent;
    line [| "return "; upper prefix; "ERR_INVALID_DATA;" |];
    dedent;
    each (map fst (p_messages p)) (fun mt =>
      block [
        line [| "case "; prefix; "MessageType_"; mt; ":" |];
        indent;
        line [| "return "; prefix; mt; "_WriteBytes(w, (const "; prefix; mt;
                "*)m, tag);" |];
        dedent]);
    line "default:";
    indent;
    line [| "return "; upper prefix; "ERR_INVALID_DATA;" |];
    dedent;
    line "}";
    dedent;
    line "}";
    blank;
    line [| prefix; "err_t "; prefix; "Destroy(void* m) {" |];
    indent;
    line [| prefix; "MessageType msgType = "; prefix; "GetMessageType(m);" |];
    line "switch (msgType) {";
    line [| "case "; prefix; "MessageType_BuiltIn_NullMessage:" |];
    indent;
    line [| "return "; upper prefix; "ERR_INVALID_DATA;" |];
    dedent;
    each (map fst (p_messages p)) (fun mt =>
      block [
        line [| "case "; prefix; "MessageType_"; mt; ":" |];
        indent;
        line [| prefix; mt; "_Destroy(("; prefix; mt; "*)m);" |];
        line [| "return "; upper prefix; "ERR_OK;" |];
        dedent]);
    line "default:";
    indent;
    line [| "return "; upper prefix; "ERR_INVALID_DATA;" |];
    dedent;
    line "}";
    dedent;
    line "}";
    blank;
    line [| prefix; "err_t "; prefix; "ProcessRawBytes("; prefix;
            "DataAccess* r, int32_t max, void*** msgListDst, size_t* len) {" |];
    indent;
    line [| prefix; "err_t err = "; upper prefix; "ERR_OK;" |];
    line "size_t currCapacity = 8;";
    line [| "*msgListDst = (void**)"; upper prefix; "MALLOC(sizeof(void*) * currCapacity);" |];
    line [| "if (*msgListDst == NULL) { return "; upper prefix; "ERR_ALLOCATION_FAILURE; }" |];
    line "*len = 0;";
    line "if (max == 0) {";
    indent;
    line [| "return "; upper prefix; "ERR_OK;" |];
    dedent;
    line "}";
    line [| "while (!"; prefix; "IsFinished(r) && (max < 0 || *len < (size_t)max)) {" |];
    indent;
    line "while (*len >= currCapacity) {";
    indent;
    line "currCapacity *= 2;";
    line [| "*msgListDst = (void**)"; upper prefix;
            "REALLOC(*msgListDst, (sizeof(void*) * currCapacity));" |];
    line [| "if (*msgListDst == NULL) { return "; upper prefix; "ERR_ALLOCATION_FAILURE; }" |];
    dedent;
    line "}";
    line "uint8_t msgType;";
    line [| prefix; "ReadUInt8(r, &msgType);" |];
    ct_err_check_return;
    blank;
    line "void* out;";
    line "switch (msgType) {";
    line [| "case "; prefix; "MessageType_BuiltIn_NullMessage:" |];
    indent;
    line [| "return "; upper prefix; "ERR_OK;" |];
    dedent;
    each (map fst (p_messages p)) (fun mt =>
      block [
        line [| "case "; prefix; "MessageType_"; mt; ":" |];
        indent;
        line [| "out = "; upper prefix; "MALLOC(sizeof("; prefix; mt; "));" |];
        line [| "if (out == NULL) { return "; upper prefix; "ERR_ALLOCATION_FAILURE; }" |];
        line [| "err = "; prefix; mt; "_FromBytes(r, ("; prefix; mt; "*)out);" |];
        line "(*msgListDst)[*len] = out;";
        line "*len += 1;";
        ct_err_check_return;
        line "break;";
        dedent]);
    line "default:";
    indent;
    line [| "return "; upper prefix; "ERR_INVALID_DATA;" |];
    line "break;";
    dedent;
    line "}";
    dedent;
    line "}";
    line [| "return "; upper prefix; "ERR_OK;" |];
    dedent;
    line "}";
    blank;
    line [| prefix; "err_t "; prefix;
            "DestroyMessageList(void** msgList, size_t len) {" |];
    indent;
    line "for (size_t i = 0; i < len; i++) {";
    indent;
    line [| prefix; "MessageType msgType = "; prefix; "GetMessageType(msgList[i]);" |];
    line "switch (msgType) {";
    each (map fst (p_messages p)) (fun mt =>
      block [
        line [| "case "; prefix; "MessageType_"; mt; ":" |];
        indent;
        line [| prefix; mt; "_Destroy(("; prefix; mt; "*)msgList[i]);" |];
        line "break;";
        dedent]);
    line [| "case "; prefix; "MessageType_BuiltIn_NullMessage:" |];
    indent;
    line [| "return "; upper prefix; "ERR_INVALID_DATA;" |];
    dedent;
    line "default:";
    indent;
    line [| "return "; upper prefix; "ERR_INVALID_DATA;" |];
    dedent;
    line "}";
    dedent;
    line "}";
    line [| upper prefix; "FREE(msgList);" |];
    line [| "return "; upper prefix; "ERR_OK;" |];
    dedent;
    line "}";
    blank;
    line [| prefix; "err_t "; prefix;
            "GetPackedSize(void** msgList, size_t len, size_t* packedSize) {" |];
    indent;
    line "*packedSize = 0;";
    line "for (size_t i = 0; i < len; i++) {";
    indent;
    line "size_t individualSize = 0;";
    line [| prefix; "MessageType msgType = "; prefix; "GetMessageType(msgList[i]);" |];
    line "switch (msgType) {";
    each (map fst (p_messages p)) (fun mt =>
      block [
        line [| "case "; prefix; "MessageType_"; mt; ":" |];
        indent;
        line [| prefix; mt; "_GetSizeInBytes(("; prefix; mt;
                "*)msgList[i], &individualSize);" |];
        line "*packedSize += individualSize;";
        line "break;";
        dedent]);
    line [| "case "; prefix; "MessageType_BuiltIn_NullMessage:" |];
    indent;
    line [| "return "; upper prefix; "ERR_INVALID_DATA;" |];
    dedent;
    line "default:";
    indent;
    line [| "return "; upper prefix; "ERR_INVALID_DATA;" |];
    dedent;
    line "}";
    dedent;
    line "}";
    line "*packedSize += len;";
    line "*packedSize += 9;";
    line [| "return "; upper prefix; "ERR_OK;" |];
    dedent;
    line "}";
    blank;
    line [| prefix; "err_t "; prefix; "PackMessages(void** msgList, size_t len, ";
            prefix; "DataAccess* w) {" |];
    indent;
    line [| prefix; "err_t err = "; upper prefix; "ERR_OK;" |];
    line "if (msgList == NULL) {";
    indent;
    line [| "return "; upper prefix; "ERR_INVALID_DATA;" |];
    dedent;
    line "}";
    line "const char header[] = ""BSCI"";";
    line "memcpy(w->buffer, header, 4);";
    line "w->position += 4;";
    line [| "err = "; prefix; "WriteUInt32(w, (uint32_t)len);" |];
    ct_err_check_return;
    line "for (size_t i = 0; i < len; i++) {";
    indent;
    line [| prefix; "MessageType msgType = "; prefix; "GetMessageType(msgList[i]);" |];
    line "switch (msgType) {";
    each (map fst (p_messages p)) (fun mt =>
      block [
        line [| "case "; prefix; "MessageType_"; mt; ":" |];
        indent;
        line [| "err = "; prefix; mt; "_WriteBytes(w, ("; prefix; mt;
                "*)msgList[i], true);" |];
        ct_err_check_return;
        line "break;";
        dedent]);
    line [| "case "; prefix; "MessageType_BuiltIn_NullMessage:" |];
    indent;
    line [| "return "; upper prefix; "ERR_INVALID_DATA;" |];
    dedent;
    line "default:";
    indent;
    line [| "return "; upper prefix; "ERR_INVALID_DATA;" |];
    dedent;
    line "}";
    dedent;
    line "}";
    line [| prefix; "WriteUInt8(w, 0);" |];
    blank;
    line [| "return "; upper prefix; "ERR_OK;" |];
    dedent;
    line "}";
    blank;
    line [| prefix; "err_t "; prefix; "UnpackMessages("; prefix;
            "DataAccess* r, void*** msgListOut, size_t* len) {" |];
    indent;
    line [| prefix; "err_t err = "; upper prefix; "ERR_OK;" |];
    line "if (memcmp(r->buffer, ""BSCI"", 4) != 0) {";
    indent;
    line [| "return "; upper prefix; "ERR_INVALID_DATA;" |];
    dedent;
    line "}";
    line "r->position += 4;";
    line "uint32_t msgCount;";
    line [| "err = "; prefix; "ReadUInt32(r, &msgCount);" |];
    ct_err_check_return;
    line [| "err = "; prefix; "ProcessRawBytes(r, (int32_t)msgCount, msgListOut, len);" |];
    ct_err_check_return;
    line "if (len == 0) {";
    indent;
    line [| upper prefix; "FREE(*msgListOut);" |];
    line "*msgListOut = NULL;";
    line [| "return "; upper prefix; "ERR_INVALID_DATA;" |];
    dedent;
    line "}";
    line "if (*len != (size_t)msgCount) {";
    indent;
    line [| prefix; "DestroyMessageList(*msgListOut, *len);" |];
    line "*msgListOut = NULL;";
    line "*len = 0;";
    line [| "return "; upper prefix; "ERR_INVALID_DATA;" |];
    dedent;
    line "}";
    blank;
    line [| "return "; upper prefix; "ERR_OK;" |];
    dedent;
    line "}";
    blank;
    each (p_enums p) (fun '(ename, e) => ct_gen_enum_implementation ename e);
    each (p_structs p) (fun '(sname, s) => ct_gen_implementation sname s);
    each (p_messages p) (fun '(mname, mdata) => ct_gen_implementation mname mdata);
    add_boilerplate "    " tab subs (g_files g 2)].

End Text.
