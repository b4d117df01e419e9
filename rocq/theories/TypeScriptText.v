(** Model of the text that beschi/writers/typescript.py and assemblyscript.py print.

    The statements inside the generated methods are modelled a second time, as
    programs, in TypeScript.v and AssemblyScript.v; PropPrinted.v shows that
    this text is the text of those programs. *)
From Verif Require Export Lines AssemblyScript.
Open Scope string_scope.
Open Scope Z_scope.
Open Scope list_scope.

(** typescript.py:27-34 and assemblyscript.py:21-31, type_mapping. *)
Definition ts_numbers : list (string * string) :=
  map (fun e => (fst e, if String.eqb (fst e) "bool" then "boolean"
                        else if in_strs (fst e) ["int64"; "uint64"] then "bigint" else "number"))
      NUMERIC_TYPE_SIZES.

Section Text.
Variable p : protocol.
Variable g : settings.
(** [self.is_assembly_script]; then assemblyscript.py:19 sets [self.use_namespace] to
    False. *)
Variable asm : bool.
Let tab := g_tab g.
Let use_namespace : bool := g_flag g && negb asm.

Definition tst_types : string -> ptext := mapping p (if asm then as_types else ts_numbers).
Let types := tst_types.
(** typescript.py:36-47, assemblyscript.py:33-44, base_serializers. *)
Definition tst_serializers : string -> ptext := item (if asm then as_serializers else ts_serializers).
Let serializers := tst_serializers.

(** typescript.py:51-124, deserializer. *)
Definition tst_deserializer_with (rec : var -> string -> gtext) (m : var) (accessor : string) : gtext :=
  (let var_clean := var_clean (v_name m) in
   (if v_list m then
      block [
        line [| "const "; var_clean; "_Length = da.get"; serializers (p_list_size_type p); "();" |];
        when asm (line "if (da.hasError) { return null; }");
        line [| accessor; v_name m; " = new Array<"; types (v_type m); ">("; var_clean; "_Length);" |];
        at_level (fun idx =>
          block [
            line [| "for (let i"; str_of_Z idx; ": "; types (p_list_size_type p); " = 0; i"; str_of_Z idx;
                    " < "; var_clean; "_Length; i"; str_of_Z idx; "++) {" |];
            indent;
            (if mem (v_type m) (p_enums p) then
               given (get_enum p (v_type m)) (fun e =>
                 block [
                   (if negb asm then
                      block [
                        line [| "const _"; v_name m; " = da.get"; serializers (e_encoding e); "();" |];
                        line [| "if ("; v_type m; "[_"; v_name m; "] === undefined) {" |];
                        indent;
                        line [| "throw new Error(`Enum (${_"; v_name m; "}) out of range for "; v_type m;
                                "`);" |];
                        dedent;
                        line "}"]
                    else block [
                        line [| "let _"; v_name m; " = da.get"; serializers (e_encoding e); "();" |];
                        line "if (da.hasError) { return null; }";
                        line [| "if (_"; v_name m; " < "; str_of (minimum_value e); " || _"; v_name m; " >= (";
                                v_type m; "._Unknown as "; types (e_encoding e); ")) {" |];
                        indent;
                        line [| "_"; v_name m; " = "; v_type m; "._Unknown as "; types (e_encoding e); ";" |];
                        dedent;
                        line "}"]);
                   line [| accessor; v_name m; "[i"; str_of_Z idx; "] = _"; v_name m; ";" |]])
             else (let inner := MkVar (v_name m +++ "[i" +++ str_of_Z idx +++ "]") (v_type m) false in
                rec inner accessor));
            dedent;
            line "}"])]
    else if String.eqb (v_type m) "string" then
      block [
        line [| accessor; v_name m; " = da.getString();" |];
        when asm (line "if (da.hasError) { return null; }")]
    else if mem (v_type m) (p_enums p) then
      given (get_enum p (v_type m)) (fun e =>
        block [
          (if negb asm then
             block [
               line [| "const _"; v_name m; " = da.get"; serializers (e_encoding e); "();" |];
               line [| "if ("; v_type m; "[_"; v_name m; "] === undefined) {" |];
               indent;
               line [| "throw new Error(`Enum (${_"; v_name m; "}) out of range for "; v_type m; "`);" |];
               dedent;
               line "}"]
           else block [
               line [| "let _"; v_name m; " = da.get"; serializers (e_encoding e); "();" |];
               line "if (da.hasError) { return null; }";
               line [| "if (_"; v_name m; " < "; str_of (minimum_value e); " || _"; v_name m; " >= (";
                       v_type m; "._Unknown as "; types (e_encoding e); ")) {" |];
               indent;
               line [| "_"; v_name m; " = "; v_type m; "._Unknown as "; types (e_encoding e); ";" |];
               dedent;
               line "}"]);
          line [| accessor; v_name m; " = _"; v_name m; ";" |]])
    else if mem (v_type m) NUMERIC_TYPE_SIZES then
      block [
        line [| accessor; v_name m; " = da.get"; serializers (v_type m); "();" |];
        when asm (line "if (da.hasError) { return null; }")]
    else if negb asm then
      line [| accessor; v_name m; " = "; v_type m; ".fromBytes(da);" |]
    else block [
        line [| "const _"; var_clean; " = "; v_type m; ".fromBytes(da);" |];
        line [| "if (_"; var_clean; " == null) {" |];
        indent;
        line "return null;";
        dedent;
        line "}";
        line "else {";
        indent;
        line [| accessor; v_name m; " = _"; var_clean; ";" |];
        dedent;
        line "}"])).
Definition tst_deserializer : var -> string -> gtext := tst_deserializer_with (tst_deserializer_with no_more).

(** typescript.py:126-159, serializer. *)
Definition tst_serializer_with (rec : var -> string -> gtext) (m : var) (accessor : string) : gtext :=
  (if v_list m then
     block [
       (if negb asm then
          line [| "da.set"; serializers (p_list_size_type p); "("; accessor; v_name m; ".length);" |]
        else block [
            line [| "da.set"; serializers (p_list_size_type p); "("; accessor; v_name m; ".length as ";
                    types (p_list_size_type p); ");" |];
            line "if (da.hasError) { return false; }"]);
       line [| "for (let i = 0; i < "; accessor; v_name m; ".length; i++) {" |];
       indent;
       line [| "let el = "; accessor; v_name m; "[i];" |];
       (let inner := (MkVar "el" (v_type m) false) in block [rec inner ""; dedent; line "}"])]
   else if String.eqb (v_type m) "string" then
     block [
       line [| "da.setString("; accessor; v_name m; ");" |];
       when asm (line "if (da.hasError) { return false; }")]
   else if mem (v_type m) (p_enums p) then
     given (get_enum p (v_type m)) (fun e =>
       (if negb asm then
          line [| "da.set"; serializers (e_encoding e); "("; accessor; v_name m; ");" |]
        else block [
            line [| "da.set"; serializers (e_encoding e); "("; accessor; v_name m; " as ";
                    types (e_encoding e); ");" |];
            line "if (da.hasError) { return false; }"]))
   else if mem (v_type m) NUMERIC_TYPE_SIZES then
     block [
       line [| "da.set"; serializers (v_type m); "("; accessor; v_name m; ");" |];
       when asm (line "if (da.hasError) { return false; }")]
   else if negb asm then
     line [| accessor; v_name m; ".writeBytes(da);" |]
   else line [| "if (!"; accessor; v_name m; ".writeBytes(da)) { return false; };" |]).
Definition tst_serializer : var -> string -> gtext := tst_serializer_with (tst_serializer_with no_more).

(** typescript.py:161-210, gen_measurement: the lines and the accumulated constant.
    First the loop over the members; [rec] is the recursive call. *)
Definition tst_size_init : string := if asm then "let size: usize = 0;" else "let size: number = 0;".
Fixpoint tst_measure_members (rec : struct -> string -> pyres (list string * Z)) (accessor : string)
         (ms : list var) (lines : list string) (accum : Z) : pyres (list string * Z) :=
  match ms with
  | [] => Ret (lines, accum)
  | m :: r =>
      let next := tst_measure_members rec accessor r in
      if v_list m then
        a <- numeric_size (p_list_size_type p) ;;
        let accum := accum + a in
        if is_simple p (v_type m) then
          l <- [| "size += "; accessor; v_name m; ".length * "; str_of (get_size_of p (v_type m)); ";" |] ;;
          next (lines ++ [l]) accum
        else if String.eqb (v_type m) "string" then
          l1 <- [| "for (let "; v_name m; "_i=0; "; v_name m; "_i < "; accessor; v_name m; ".length; "; v_name m; "_i++) {" |] ;;
          l2 <- (if negb asm then
                   [| tab; "size += "; str_of (numeric_size (p_string_size_type p)); " + _textEnc.encode("; accessor; v_name m;
                      "["; v_name m; "_i]).byteLength;" |]
                 else
                   [| tab; "size += "; str_of (numeric_size (p_string_size_type p)); " + String.UTF8.encode("; accessor; v_name m;
                      "["; v_name m; "_i], false).byteLength;" |]) ;;
          next (lines ++ [l1; l2; "}"]) accum
        else
          let var_clean := var_clean (v_name m) in
          l <- [| "for (let "; var_clean; "_i=0; "; var_clean; "_i < "; accessor; v_name m; ".length; "; var_clean; "_i++) {" |] ;;
          s <- get_struct p (v_type m) ;;
          c <- rec s (accessor +++ v_name m +++ "[" +++ var_clean +++ "_i].") ;;
          clines <- drop_first_if tst_size_init (fst c) ;;
          l' <- [| "size += "; str_of_Z (snd c); ";" |] ;;
          next (lines ++ [l] ++ map (fun l => tab +++ l) (clines ++ [l']) ++ ["}"]) accum
      else if is_simple p (v_type m) then
        a <- get_size_of p (v_type m) ;; next lines (accum + a)
      else if String.eqb (v_type m) "string" then
        a <- numeric_size (p_string_size_type p) ;;
        l <- (if negb asm then [| "size += _textEnc.encode("; accessor; v_name m; ").byteLength;" |]
              else [| "size += String.UTF8.encode("; accessor; v_name m; ", false).byteLength;" |]) ;;
        next (lines ++ [l]) (accum + a)
      else
        s <- get_struct p (v_type m) ;;
        c <- rec s (accessor +++ v_name m +++ ".") ;;
        clines <- drop_first_if tst_size_init (fst c) ;;
        next (lines ++ clines) (accum + snd c)
  end.
(** [d] bounds the nesting of structs. *)
Fixpoint tst_measure (d : nat) (s : struct) (accessor : string) : pyres (list string * Z) :=
  match d with
  | O => OutOfSteps
  | S d' =>
      if is_simple p (s_name s) then
        l <- [| "return "; str_of (get_size_of p (s_name s)); ";" |] ;; Ret ([l], 0)
      else tst_measure_members (tst_measure d') accessor (s_members s) [tst_size_init] 0
  end.
Definition tst_gen_measurement : struct -> string -> pyres (list string * Z) := tst_measure (depth_of p).

(** typescript.py:212-221, gen_enum. *)
Definition tst_gen_enum (ename : string) (e : enum) : gtext :=
  block [
    line [| "export enum "; ename; " {" |];
    indent;
    each (e_values e) (fun '(v, vi) => line [| v; " = "; str_of_Z vi; "," |]);
    when asm (line "_Unknown,");
    dedent;
    line "}";
    blank].

(** typescript.py:223-378, gen_struct. *)
Definition tst_gen_struct (sname : string) (s : struct) : gtext :=
  block [
    (if s_is_message s then
       line [| "export class "; sname; " extends Message {" |]
     else line [| "export class "; sname; " {" |]);
    indent;
    each (s_members s) (fun m =>
      (if v_list m then
         line [| v_name m; ": "; types (v_type m); "[] = [];" |]
       else given (types (v_type m)) (fun ty =>
         given (if String.eqb ty "bigint" then lit "0n"
                else if String.eqb ty "boolean" then lit "false"
                else if String.eqb ty "string" then lit """"""
                else if mem (v_type m) (p_enums p) then
                  e <- get_enum p (v_type m) ;; [| v_type m; "."; default_name e |]
                else if mem (v_type m) (p_structs p) then [| "new "; v_type m; "()" |]
                else lit "0") (fun default_value =>
           line [| v_name m; ": "; types (v_type m);
                   (if String.eqb default_value "" then lit "" else [| " = "; default_value |]); ";" |]))));
    blank;
    when (s_is_message s) (
      block [
        line [| "getMessageType() : MessageType { return MessageType."; sname; "Type; }" |];
        blank;
        (if negb asm then line "getSizeInBytes(): number {" else line "getSizeInBytes(): usize {");
        indent;
        given (tst_gen_measurement s "this.") (fun '(measure_lines, accumulator) =>
          block [
            each measure_lines (fun s => line s);
            when (accumulator >? 0) (line [| "size += "; str_of_Z accumulator; ";" |]);
            when (Z.of_nat (List.length measure_lines) >? 1) (line [| "return size;" |]);
            dedent;
            line "}";
            blank])]);
    (if s_is_message s then
       (if negb asm then
          block [
            line [| "static override fromBytes(data: DataView|DataAccess|ArrayBuffer): "; sname; " {" |];
            indent;
            line "let da: DataAccess;";
            line "if (data instanceof DataView) {";
            indent;
            line "da = new DataAccess(data);";
            dedent;
            line "}";
            line "else if (data instanceof ArrayBuffer) {";
            indent;
            line "da = new DataAccess(new DataView(data));";
            dedent;
            line "}";
            line "else {";
            indent;
            line "da = data;";
            dedent;
            line "}"]
        else block [
            line [| "static override fromBytes(data: DataView): "; sname; " | null {" |];
            indent;
            line "const da = new DataAccess(data);";
            line [| "return "; sname; ".fromBytesDA(da);" |];
            dedent;
            line "}";
            blank;
            line [| "static override fromBytesDA(da: DataAccess): "; sname; " | null {" |];
            indent])
     else block [
         (if negb asm then
            line [| "static fromBytes(da: DataAccess): "; sname; " {" |]
          else line [| "static fromBytes(da: DataAccess): "; sname; " | null {" |]);
         indent]);
    when ((s_is_message s) && (negb asm)) (block [line "try {"; indent]);
    line [| "const n"; sname; " = new "; types sname; "();" |];
    each (s_members s) (fun m => given ([| "n"; sname; "." |]) (fun x => tst_deserializer m x));
    line [| "return n"; sname; ";" |];
    when ((s_is_message s) && (negb asm)) (
      block [
        dedent;
        line "}";
        line "catch (err) {";
        indent;
        line "let errMsg = ""[Unknown error]"";";
        line "if (err instanceof Error) {";
        indent;
        line "errMsg = `${err.name} -- ${err.message}`;";
        dedent;
        line "}";
        line [| "throw new Error(`Could not read "; sname; " from offset ${da.currentOffset} (${errMsg})`);" |];
        dedent;
        line "}"]);
    dedent;
    line "}";
    blank;
    (if s_is_message s then
       (if negb asm then
          block [
            line "writeBytes(data: DataView|DataAccess, tag: boolean): void {";
            indent;
            line "let da: DataAccess;";
            line "if (data instanceof DataView) {";
            indent;
            line "da = new DataAccess(data);";
            dedent;
            line "}";
            line "else {";
            indent;
            line "da = data;";
            dedent;
            line "}";
            line "if (tag) {";
            indent;
            line [| "da.setByte(MessageType."; sname; "Type);" |];
            dedent;
            line "}"]
        else block [
            line "writeBytes(data: DataView, tag: boolean): bool {";
            indent;
            line "const da = new DataAccess(data);";
            line [| "return this.writeBytesDA(da, tag);" |];
            dedent;
            line "}";
            blank;
            line "writeBytesDA(da: DataAccess, tag: boolean): bool {";
            indent;
            line "if (tag) {";
            indent;
            line [| "da.setByte(MessageType."; sname; "Type as u8);" |];
            line "if (da.hasError) { return false; }";
            dedent;
            line "}"])
     else block [
         (if negb asm then
            line "writeBytes(da: DataAccess): void {"
          else line "writeBytes(da: DataAccess): bool {");
         indent]);
    each (s_members s) (fun m => tst_serializer m "this.");
    when asm (line "return true;");
    dedent;
    line "}";
    dedent;
    line "}";
    blank].

(** typescript.py:403-406 (assemblyscript.py uses the same method), the substitutions. *)
Definition tst_substitutions (string_size native_string_size : string) : list (string * substitute_by) :=
  [("{# STRING_SIZE_TYPE #}", Text string_size); ("{# NATIVE_STRING_SIZE_TYPE #}", Text native_string_size)].

(** typescript.py:380-518, generate. *)
Definition tst_generate : gtext :=
  block [
    line [| "// This file was automatically generated by "; LIB_NAME; " v"; LIB_VERSION |];
    line "// <https://github.com/sjml/beschi>";
    line "// Do not edit directly.";
    blank;
    when (g_embed g) (
      block [
        line "/*";
        line "DATA PROTOCOL";
        line "-----------------";
        each (splitlines (g_source g)) (fun l => line [| l |]);
        line "-----------------";
        line "END DATA PROTOCOL";
        line "*/";
        blank;
        blank]);
    when use_namespace (block [line [| "namespace "; or_none (g_namespace g); " {" |]; indent]);
    given (serializers (p_string_size_type p)) (fun string_size =>
      given (types (p_string_size_type p)) (fun native_string_size =>
        add_boilerplate "  " tab
          (tst_substitutions string_size native_string_size)
          (g_files g (-1))));
    line "export enum MessageType {";
    indent;
    each (enumerate (p_messages p)) (fun '(i, k) => line [| k; "Type = "; str_of_Z (i + 1); "," |]);
    when asm (line "_Unknown,");
    dedent;
    line "}";
    blank;
    (if negb asm then
       block [
         line "export function ProcessRawBytes(data: DataView|DataAccess, max: number): Message[] {";
         indent;
         line "if (max === undefined) {";
         indent;
         line "max = -1;";
         dedent;
         line "}";
         line "let da: DataAccess;";
         line "if (data instanceof DataView) {";
         indent;
         line "da = new DataAccess(data);";
         dedent;
         line "}";
         line "else {";
         indent;
         line "da = data;";
         dedent;
         line "}"]
     else block [
         line "export function ProcessRawBytes(data: DataView, max: number): Message[] {";
         indent;
         line "const da = new DataAccess(data);";
         line "return ProcessRawBytesDA(da, max);";
         dedent;
         line "}";
         blank;
         line "export function ProcessRawBytesDA(da: DataAccess, max: number): Message[] {";
         indent]);
    line "const msgList: Message[] = [];";
    line "if (max == 0) {";
    indent;
    line "return msgList;";
    dedent;
    line "}";
    line "while (!da.isFinished() && (max < 0 || msgList.length < max)) {";
    indent;
    line [| "const msgType: "; types "byte"; " = da.getByte();" |];
    line [| "let newMsg: Message | null;" |];
    line [| "switch (msgType"; (if asm then " as i32" else ""); ") {" |];
    indent;
    line "case 0:";
    indent;
    line "return msgList;";
    dedent;
    each (map fst (p_messages p)) (fun mt =>
      block [
        line [| "case MessageType."; mt; "Type:" |];
        indent;
        (if asm then
           block [
             line [| "newMsg = "; mt; ".fromBytesDA(da);" |];
             line "if (newMsg == null) {";
             indent;
             line "return msgList;";
             dedent;
             line "}"]
         else line [| "newMsg = "; mt; ".fromBytes(da);" |]);
        line "msgList.push(newMsg);";
        line "break;";
        dedent]);
    line "default:";
    indent;
    (if negb asm then
       line "throw new Error(`Unknown message type: ${msgType}`);"
     else line "return msgList;");
    dedent;
    dedent;
    line "}";
    dedent;
    line "}";
    line "return msgList;";
    dedent;
    line "}";
    blank;
    each (p_enums p) (fun '(ename, e) => tst_gen_enum ename e);
    each (p_structs p) (fun '(sname, s) => tst_gen_struct sname s);
    each (p_messages p) (fun '(mname, s) => tst_gen_struct mname s);
    when (negb asm) (
      block [
        line "export const MessageTypeMap = new Map<MessageType, { new(): Message }>([";
        indent;
        each (map fst (p_messages p)) (fun mname =>
          line [| "[MessageType."; mname; "Type, "; mname; "]," |]);
        dedent;
        line "]);";
        blank]);
    when use_namespace (block [dedent; line "}"]);
    blank;
    check_level].
End Text.
