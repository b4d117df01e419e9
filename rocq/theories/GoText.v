(** Model of the text that beschi/writers/go.py prints.

    The statements inside the generated functions are modelled a second time, as
    programs, in Go.v; PropPrinted.v shows that this text is the text of those
    programs.  [p] has the names that the printed code uses, [go_protocol rename p];
    [g_flag] is --go-no-rename. *)
From Verif Require Export Lines Go.
Open Scope string_scope.
Open Scope Z_scope.
Open Scope list_scope.

(** go.py:35 *)
Definition got_tab : string := String "009"%char EmptyString.

(** [max(len(e) for e in l)] *)
Definition longest (l : list string) : pyres nat :=
  match l with
  | [] => Raise ValueError
  | x :: r => Ret (fold_left (fun n y => Nat.max n (String.length y)) r (String.length x))
  end.
(** [f"{v:<{n}}"] *)
Definition pad (n : nat) (v : string) : string := v +++ repeat_str (n - String.length v) " ".

Section Text.
Variable p : protocol.
Variable g : settings.
Let tab := g_tab g.
Let rename : bool := negb (g_flag g).

(** go.py:38-47, type_mapping. *)
Definition got_types : string -> ptext := mapping p go_types.
Let types := got_types.

(** go.py:59-115, deserializer. *)
Definition got_deserializer_with (rec : var -> string -> gtext) (by_ref declare_err : bool) (m : var) (accessor : string) : gtext :=
  (if (v_list m) then
     block [
       line [| "var "; v_name m; "_Len "; types (p_list_size_type p) |];
       line [| "if err "; (if declare_err then ":" else ""); "= binary.Read(data, binary.LittleEndian, &";
               v_name m; "_Len); err != nil {" |];
       indent;
       line [| "return "; (if by_ref then "" else "nil, "); "fmt.Errorf(""could not read "; v_name m;
               "_Len at offset %d (%w)"", getDataOffset(data), err)" |];
       dedent;
       line "}";
       line [| accessor; "."; v_name m; " = make([]"; types (v_type m); ", "; v_name m; "_Len)" |];
       at_level (fun idx =>
         block [
           line [| "for i"; str_of_Z idx; " := ("; types (p_list_size_type p); ")(0); i"; str_of_Z idx; " < ";
                   v_name m; "_Len; i"; str_of_Z idx; "++ {" |];
           indent;
           (if mem (v_type m) (p_enums p) then
              block [
                line [| "var _"; v_name m; " "; v_type m |];
                line [| "if err "; (if declare_err then ":" else "");
                        "= binary.Read(data, binary.LittleEndian, &_"; v_name m; "); err != nil {" |];
                indent;
                line [| "return "; (if by_ref then "" else "nil, "); "fmt.Errorf(""could not read "; accessor;
                        "."; v_name m; " at offset %d (%w)"", getDataOffset(data), err)" |];
                dedent;
                line "}";
                line [| "if !isValid"; v_type m; "(_"; v_name m; ") {" |];
                indent;
                line [| "return "; (if by_ref then "" else "nil, "); "fmt.Errorf(""enum %d out of range for ";
                        v_type m; """, _"; v_name m; ")" |];
                dedent;
                line "}";
                line [| accessor; "."; v_name m; "[i"; str_of_Z idx; "] = _"; v_name m |]]
            else (let inner := MkVar (v_name m +++ "[i" +++ str_of_Z idx +++ "]") (v_type m) false in
               rec inner accessor));
           dedent;
           line "}"])]
   else if String.eqb (v_type m) "string" then
     block [
       line [| "if err "; (if declare_err then ":" else ""); "= readString(data, &"; accessor; "."; v_name m;
               "); err != nil {" |];
       indent;
       line [| "return "; (if by_ref then "" else "nil, ");
               "fmt.Errorf(""could not read string at offset %d (%w)"", getDataOffset(data), err)" |];
       dedent;
       line "}"]
   else if mem (v_type m) (p_enums p) then
     block [
       line [| "var _"; v_name m; " "; v_type m |];
       line [| "if err "; (if declare_err then ":" else ""); "= binary.Read(data, binary.LittleEndian, &_";
               v_name m; "); err != nil {" |];
       indent;
       line [| "return "; (if by_ref then "" else "nil, "); "fmt.Errorf(""could not read "; accessor; ".";
               v_name m; " at offset %d (%w)"", getDataOffset(data), err)" |];
       dedent;
       line "}";
       line [| "if !isValid"; v_type m; "(_"; v_name m; ") {" |];
       indent;
       line [| "return "; (if by_ref then "" else "nil, "); "fmt.Errorf(""enum %d out of range for "; v_type m;
               """, _"; v_name m; ")" |];
       dedent;
       line "}";
       line [| accessor; "."; v_name m; " = _"; v_name m |]]
   else if var_is_simple p m then
     block [
       line [| "if err "; (if declare_err then ":" else ""); "= binary.Read(data, binary.LittleEndian, &";
               accessor; "."; v_name m; "); err != nil {" |];
       indent;
       line [| "return "; (if by_ref then "" else "nil, "); "fmt.Errorf(""could not read "; accessor; ".";
               v_name m; " at offset %d (%w)"", getDataOffset(data), err)" |];
       dedent;
       line "}"]
   else line [| v_type m; "FromBytes(data, &"; accessor; "."; v_name m; ")" |]).
Definition got_deserializer (m : var) (accessor : string) (by_ref declare_err : bool) : gtext :=
  got_deserializer_with (got_deserializer_with no_more by_ref declare_err) by_ref declare_err m accessor.

(** go.py:117-136, serializer. *)
Definition got_serializer_with (rec : var -> string -> gtext) (m : var) (accessor : string) : gtext :=
  (if (v_list m) then
     block [
       line [| v_name m; "_Len := ("; types (p_list_size_type p); ")(len("; accessor; "."; v_name m; "))" |];
       line [| "binary.Write(data, binary.LittleEndian, "; v_name m; "_Len)" |];
       at_level (fun idx =>
         block [
           line [| "for i"; str_of_Z idx; " := ("; types (p_list_size_type p); ")(0); i"; str_of_Z idx; " < ";
                   v_name m; "_Len; i"; str_of_Z idx; "++ {" |];
           indent;
           (let inner := MkVar (v_name m +++ "[i" +++ str_of_Z idx +++ "]") (v_type m) false in
            block [rec inner accessor; dedent; line "}"])])]
   else if String.eqb (v_type m) "string" then
     line [| "writeString(data, &"; accessor; "."; v_name m; ")" |]
   else if mem (v_type m) (p_enums p) then
     given (get_enum p (v_type m)) (fun e =>
       line [| "binary.Write(data, binary.LittleEndian, &"; accessor; "."; v_name m; ")" |])
   else if var_is_simple p m then
     line [| "binary.Write(data, binary.LittleEndian, &"; accessor; "."; v_name m; ")" |]
   else line [| accessor; "."; v_name m; ".WriteBytes(data)" |]).
Definition got_serializer : var -> string -> gtext := got_serializer_with (got_serializer_with no_more).

(** go.py:138-177, gen_measurement: the lines and the accumulated constant.  First
    the loop over the members; [rec] is the recursive call. *)
Definition got_size_init : string := "size := 0".
Fixpoint got_measure_members (rec : struct -> string -> pyres (list string * Z)) (accessor : string)
         (ms : list var) (lines : list string) (accum : Z) : pyres (list string * Z) :=
  match ms with
  | [] => Ret (lines, accum)
  | m :: r =>
      let next := got_measure_members rec accessor r in
      if v_list m then
        a <- numeric_size (p_list_size_type p) ;;
        let accum := accum + a in
        if is_simple p (v_type m) then
          l <- [| "size += len("; accessor; v_name m; ") * "; str_of (get_size_of p (v_type m)) |] ;;
          next (lines ++ [l]) accum
        else if String.eqb (v_type m) "string" then
          l1 <- [| "for _, s := range "; accessor; v_name m; " {" |] ;;
          l2 <- [| tab; "size += "; str_of (numeric_size (p_string_size_type p)); " + len(s)" |] ;;
          next (lines ++ [l1; l2; "}"]) accum
        else
          l <- [| "for _, el := range "; accessor; v_name m; " {" |] ;;
          s <- get_struct p (v_type m) ;;
          c <- rec s "el." ;;
          clines <- drop_first_if got_size_init (fst c) ;;
          l' <- [| "size += "; str_of_Z (snd c) |] ;;
          next (lines ++ [l] ++ map (fun l => tab +++ l) (clines ++ [l']) ++ ["}"]) accum
      else if is_simple p (v_type m) then
        a <- get_size_of p (v_type m) ;; next lines (accum + a)
      else if String.eqb (v_type m) "string" then
        a <- numeric_size (p_string_size_type p) ;;
        l <- [| "size += len("; accessor; v_name m; ")" |] ;;
        next (lines ++ [l]) (accum + a)
      else
        s <- get_struct p (v_type m) ;;
        c <- rec s (accessor +++ v_name m +++ ".") ;;
        clines <- drop_first_if got_size_init (fst c) ;;
        next (lines ++ clines) (accum + snd c)
  end.
(** [d] bounds the nesting of structs. *)
Fixpoint got_measure (d : nat) (s : struct) (accessor : string) : pyres (list string * Z) :=
  match d with
  | O => OutOfSteps
  | S d' =>
      if is_simple p (s_name s) then
        l <- [| "return "; str_of (get_size_of p (s_name s)) |] ;; Ret ([l], 0)
      else got_measure_members (got_measure d') accessor (s_members s) [got_size_init] 0
  end.
Definition got_gen_measurement : struct -> string -> pyres (list string * Z) := got_measure (depth_of p).

(** go.py:179-204, gen_enum. *)
Definition got_gen_enum (ename : string) (e : enum) : gtext :=
  given (longest (map fst (e_values e))) (fun longest_entry =>
   block [
     line [| "type "; ename; " "; types (e_encoding e) |];
     blank;
     line "const (";
     indent;
     each (e_values e) (fun '(v, vi) => line [| ename; pad longest_entry v; " "; ename; " = "; str_of_Z vi |]);
     dedent;
     line ")";
     blank;
     line [| "func isValid"; ename; "(value "; ename; ") bool {" |];
     indent;
     line "switch value {";
     line [| "case "; String.concat ", " (map (fun d => ename +++ fst d) (e_values e)); ":" |];
     indent;
     line "return true";
     dedent;
     line "default:";
     indent;
     line "return false";
     dedent;
     line "}";
     dedent;
     line "}";
     blank]).

(** go.py:206-297, gen_struct. *)
Definition got_gen_struct (sname : string) (s : struct) : gtext :=
  block [
    line [| "type "; sname; " struct {" |];
    indent;
    each (s_members s) (fun m =>
      (if (v_list m) then
         line [| v_name m; " []"; types (v_type m) |]
       else line [| v_name m; " "; types (v_type m) |]));
    dedent;
    line "}";
    blank;
    line [| "func New"; sname; "Default() "; sname; " {" |];
    indent;
    (if negb (go_has_enums p (depth_of p) s) then
       line [| "return "; sname; "{}" |]
     else block [
         line [| "return "; sname; "{" |];
         indent;
         each (s_members s) (fun m =>
           (if (mem (v_type m) (p_enums p)) && (negb (v_list m)) then
              given (get_enum p (v_type m)) (fun e =>
                line [| v_name m; ": "; v_type m; default_name e; "," |])
            else when ((mem (v_type m) (p_structs p)) && (negb (v_list m))) (
                given (get_struct p (v_type m)) (fun s =>
                  when (go_has_enums p (depth_of p) s) (
                    line [| v_name m; ": New"; v_type m; "Default()," |])))));
         dedent;
         line "}"]);
    dedent;
    line "}";
    blank;
    (if (s_is_message s) then
       block [
         line [| "func (output "; sname; ") GetMessageType() MessageType {" |];
         indent;
         line [| "return "; sname; "Type" |];
         dedent;
         line "}";
         blank;
         line [| "func (output "; sname; ") GetSizeInBytes() int {" |];
         indent;
         given (got_gen_measurement s "output.") (fun '(measure_lines, accumulator) =>
           block [
             each measure_lines (fun s => line s);
             when (accumulator >? 0) (line [| "size += "; str_of_Z accumulator |]);
             when (Z.of_nat (List.length measure_lines) >? 1) (line [| "return size" |]);
             dedent;
             line "}";
             blank;
             line [| "func "; s_name s; "FromBytes(data io.Reader) (*"; sname; ", error) {" |];
             indent;
             line [| "msg := &"; s_name s; "{}" |];
             blank;
             each (s_members s) (fun m => got_deserializer m "msg" false true);
             blank;
             line "return msg, nil"])]
     else block [
         line [| "func "; sname; "FromBytes(data io.Reader, input *"; sname; ") error {" |];
         indent;
         each (s_members s) (fun m => got_deserializer m "input" true true);
         line "return nil"]);
    dedent;
    line "}";
    blank;
    (if (s_is_message s) then
       block [
         line [| "func (output "; sname; ") WriteBytes(data io.Writer, tag bool) {" |];
         indent;
         line "if tag {";
         indent;
         line [| "binary.Write(data, binary.LittleEndian, "; sname; "Type)" |];
         dedent;
         line "}"]
     else block [line [| "func (output "; sname; ") WriteBytes(data io.Writer) {" |]; indent]);
    each (s_members s) (fun m => got_serializer m "output");
    dedent;
    line "}";
    blank].

(** go.py:315-325, the substitutions. *)
Definition got_substitutions (string_size : string) : list (string * substitute_by) :=
  ("{# STRING_SIZE_TYPE #}", Text string_size)
  :: (if has_namespace g then
        ("Beschi", Text (or_none (g_namespace g)))
        :: (if rename then [("beschi", Text (snake (or_none (g_namespace g))))] else [])
      else []).

(** go.py:299-404, generate. *)
Definition got_generate : gtext :=
  block [
    line [| "// This file was automatically generated by "; LIB_NAME; " v"; LIB_VERSION |];
    line "// <https://github.com/sjml/beschi>";
    line "// Do not edit directly.";
    blank;
    when (g_embed g) (
      block [
        line "/*";
        line "DATA PROTOCOL";
        line "-----------------";
        each (splitlines (g_source g)) (fun l => line [| l |]);
        line "-----------------";
        line "END DATA PROTOCOL";
        line "*/";
        blank;
        blank]);
    given (types (p_string_size_type p)) (fun string_size =>
      add_boilerplate got_tab tab
        (got_substitutions string_size)
        (g_files g (-1)));
    blank;
    line "type MessageType byte";
    line "const (";
    indent;
    each (enumerate (p_messages p)) (fun '(i, msg_name) =>
      line [| msg_name; "Type MessageType = "; str_of_Z (i + 1) |]);
    dedent;
    line ")";
    blank;
    line "type Message interface {";
    indent;
    line "GetMessageType() MessageType";
    line "WriteBytes(data io.Writer, tag bool)";
    line "GetSizeInBytes() int";
    dedent;
    line "}";
    blank;
    line "func ProcessRawBytes(data io.Reader, max int) ([]Message, error) {";
    indent;
    line "var msgList []Message";
    line "if max == 0 {";
    indent;
    line "return msgList, nil";
    dedent;
    line "}";
    line "var err error";
    line "for (err != io.EOF) && (max < 0 || len(msgList) < max) {";
    indent;
    line "var msgType MessageType";
    line "err = binary.Read(data, binary.LittleEndian, &msgType)";
    line "if err == io.EOF {";
    indent;
    line "break";
    dedent;
    line "}";
    line "if msgType == 0 {";
    indent;
    line "return msgList, nil";
    dedent;
    line "}";
    line "switch msgType {";
    each (map fst (p_messages p)) (fun mt =>
      block [
        line [| "case "; mt; "Type:" |];
        indent;
        line [| "msg, err := "; mt; "FromBytes(data)" |];
        line "if err != nil {";
        indent;
        line [| "return nil, fmt.Errorf(""err in "; mt; " read (%w)"", err)" |];
        dedent;
        line "}";
        line [| "msgList = append(msgList, msg)" |];
        dedent]);
    line "default:";
    indent;
    line [| "return nil, fmt.Errorf(""unknown message type: %d"", msgType)" |];
    dedent;
    line "}";
    dedent;
    line "}";
    line "return msgList, nil";
    dedent;
    line "}";
    blank;
    each (p_enums p) (fun '(ename, e) => got_gen_enum ename e);
    each (p_structs p) (fun '(sname, s) => got_gen_struct sname s);
    each (p_messages p) (fun '(mname, mdata) => got_gen_struct mname mdata);
    blank;
    check_level].

End Text.
