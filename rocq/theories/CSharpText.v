(** Model of the text that beschi/writers/csharp.py prints.

    The statements inside the generated methods are modelled a second time, as
    programs, in CSharp.v; PropPrinted.v shows that this text is the text of
    those programs. *)
From Verif Require Export Lines CSharp.
Open Scope string_scope.
Open Scope Z_scope.
Open Scope list_scope.

Section Text.
Variable p : protocol.
Variable g : settings.
Let tab := g_tab g.

(** csharp.py:17-26, type_mapping, and 28-39, base_deserializers. *)
Definition cst_types : string -> ptext := mapping p cs_types.
Let types := cst_types.
Definition cst_deserializers : string -> ptext := item cs_deserializers.
Let deserializers := cst_deserializers.

(** csharp.py:41-83, deserializer. *)
Definition cst_deserializer_with (rec : var -> string -> gtext) (m : var) (accessor : string) : gtext :=
  (let var_clean := cs_clean (v_name m) in
   (if (v_list m) then
      block [
        line [| types (p_list_size_type p); " "; var_clean; "_Length = br.";
                deserializers (p_list_size_type p); "();" |];
        line [| accessor; v_name m; " = new List<"; types (v_type m); ">();" |];
        at_level (fun idx =>
          block [
            line [| "for (int i"; str_of_Z idx; " = 0; i"; str_of_Z idx; " < "; var_clean; "_Length; i";
                    str_of_Z idx; "++)" |];
            line "{";
            indent;
            (if mem (v_type m) (p_enums p) then
               given (get_enum p (v_type m)) (fun e =>
                 block [
                   line [| types (e_encoding e); " _"; v_name m; " = br."; deserializers (e_encoding e);
                           "();" |];
                   line [| "if (!Enum.IsDefined(typeof("; v_type m; "), _"; v_name m; "))" |];
                   line "{";
                   indent;
                   line [| "throw new DataReadErrorException(String.Format(""Enum {0} out of range for ";
                           v_type m; """, _"; v_name m; "));" |];
                   dedent;
                   line "}";
                   line [| accessor; v_name m; ".Add(("; v_type m; ")_"; v_name m; ");" |]])
             else given (types (v_type m)) (fun ty =>
               let inner := MkVar (ty +++ " _el") (v_type m) false in
               block [rec inner ""; line [| accessor; v_name m; ".Add(_el);" |]]));
            dedent;
            line "}"])]
    else if String.eqb (v_type m) "string" then
      block [
        line [| types (p_string_size_type p); " "; var_clean; "_Length = br.";
                deserializers (p_string_size_type p); "();" |];
        line [| "byte[] "; var_clean; "_Buffer = br.ReadBytes((int)"; var_clean; "_Length);" |];
        line [| accessor; v_name m; " = System.Text.Encoding.UTF8.GetString("; var_clean; "_Buffer);" |]]
    else if mem (v_type m) (p_enums p) then
      given (get_enum p (v_type m)) (fun e =>
        block [
          line [| types (e_encoding e); " _"; v_name m; " = br."; deserializers (e_encoding e); "();" |];
          line [| "if (!Enum.IsDefined(typeof("; v_type m; "), _"; v_name m; "))" |];
          line "{";
          indent;
          line [| "throw new DataReadErrorException(String.Format(""Enum {0} out of range for "; v_type m;
                  """, _"; v_name m; "));" |];
          dedent;
          line "}";
          line [| accessor; v_name m; " = ("; v_type m; ")_"; v_name m; ";" |]])
    else if mem (v_type m) cs_deserializers then
      line [| accessor; v_name m; " = br."; deserializers (v_type m); "();" |]
    else line [| accessor; v_name m; " = "; v_type m; ".FromBytes(br);" |])).
Definition cst_deserializer : var -> string -> gtext := cst_deserializer_with (cst_deserializer_with no_more).

(** csharp.py:85-105, serializer. *)
Definition cst_serializer_with (rec : var -> string -> gtext) (m : var) (accessor : string) : gtext :=
  (if (v_list m) then
     block [
       line [| "bw.Write(("; types (p_list_size_type p); ")"; accessor; v_name m; ".Count);" |];
       line [| "foreach ("; types (v_type m); " el in "; accessor; v_name m; ")" |];
       line "{";
       indent;
       (let inner := (MkVar "el" (v_type m) false) in block [rec inner ""; dedent; line "}"])]
   else if String.eqb (v_type m) "string" then
     block [
       line [| "byte[] "; v_name m; "_Buffer = System.Text.Encoding.UTF8.GetBytes("; accessor; v_name m; ");" |];
       line [| "bw.Write(("; types (p_string_size_type p); ")"; v_name m; "_Buffer.Length);" |];
       line [| "bw.Write("; v_name m; "_Buffer);" |]]
   else if mem (v_type m) (p_enums p) then
     given (get_enum p (v_type m)) (fun e =>
       line [| "bw.Write(("; types (e_encoding e); ")"; accessor; v_name m; ");" |])
   else if mem (v_type m) NUMERIC_TYPE_SIZES then
     line [| "bw.Write("; accessor; v_name m; ");" |]
   else line [| accessor; v_name m; ".WriteBytes(bw);" |]).
Definition cst_serializer : var -> string -> gtext := cst_serializer_with (cst_serializer_with no_more).

(** csharp.py:107-151, gen_measurement: the lines and the accumulated constant.
    First the loop over the members; [rec] is the recursive call, [level] is
    [self.indent_level]. *)
Definition cst_size_init : string := "int size = 0;".
Fixpoint cst_measure_members (rec : Z -> struct -> string -> pyres (list string * Z)) (level : Z)
         (accessor : string) (ms : list var) (lines : list string) (accum : Z) : pyres (list string * Z) :=
  match ms with
  | [] => Ret (lines, accum)
  | m :: r =>
      let next := cst_measure_members rec level accessor r in
      if v_list m then
        a <- numeric_size (p_list_size_type p) ;;
        let accum := accum + a in
        if is_simple p (v_type m) then
          l <- [| "size += "; accessor; v_name m; ".Count * "; str_of (get_size_of p (v_type m)); ";" |] ;;
          next (lines ++ [l]) accum
        else if String.eqb (v_type m) "string" then
          l1 <- [| "foreach (string s in "; accessor; v_name m; ")" |] ;;
          l2 <- [| tab; "size += "; str_of (numeric_size (p_string_size_type p));
                   " + System.Text.Encoding.UTF8.GetBytes(s).Length;" |] ;;
          next (lines ++ [l1; "{"; l2; "}"]) accum
        else
          let idx := level in
          l <- [| "foreach ("; types (v_type m); " el"; str_of_Z idx; " in "; accessor; v_name m; ")" |] ;;
          s <- get_struct p (v_type m) ;;
          c <- rec (level + 1) s ("el" +++ str_of_Z idx +++ ".") ;;
          clines <- drop_first_if cst_size_init (fst c) ;;
          l' <- [| "size += "; str_of_Z (snd c); ";" |] ;;
          next (lines ++ [l; "{"] ++ map (fun l => tab +++ l) (clines ++ [l']) ++ ["}"]) accum
      else if is_simple p (v_type m) then
        a <- get_size_of p (v_type m) ;; next lines (accum + a)
      else if String.eqb (v_type m) "string" then
        a <- numeric_size (p_string_size_type p) ;;
        l <- [| "size += "; accessor; v_name m; ".Length;" |] ;;
        next (lines ++ [l]) (accum + a)
      else
        s <- get_struct p (v_type m) ;;
        c <- rec level s (accessor +++ v_name m +++ ".") ;;
        clines <- drop_first_if cst_size_init (fst c) ;;
        next (lines ++ clines) (accum + snd c)
  end.
(** [d] bounds the nesting of structs. *)
Fixpoint cst_measure (d : nat) (level : Z) (s : struct) (accessor : string) : pyres (list string * Z) :=
  match d with
  | O => OutOfSteps
  | S d' =>
      if is_simple p (s_name s) then
        l <- [| "return "; str_of (get_size_of p (s_name s)); ";" |] ;; Ret ([l], 0)
      else cst_measure_members (cst_measure d') level accessor (s_members s) [cst_size_init] 0
  end.
Definition cst_gen_measurement : Z -> struct -> string -> pyres (list string * Z) := cst_measure (depth_of p).

(** csharp.py:153-161, gen_enum. *)
Definition cst_gen_enum (ename : string) (e : enum) : gtext :=
  block [
    line [| "public enum "; ename; " : "; types (e_encoding e) |];
    line "{";
    indent;
    each (e_values e) (fun '(v, vi) => line [| v; " = "; str_of_Z vi; "," |]);
    dedent;
    line "}";
    blank].

(** csharp.py:163-246, gen_struct. *)
Definition cst_gen_struct (sname : string) (s : struct) : gtext :=
  block [
    (if (s_is_message s) then
       line [| "public class "; sname; " : Message" |]
     else line [| "public class "; sname |]);
    line "{";
    indent;
    each (s_members s) (fun m =>
      (if (v_list m) then
         line [| "public List<"; types (v_type m); "> "; v_name m; " = new List<"; types (v_type m); ">();" |]
       else given (if String.eqb (v_type m) "string" then Ret (Some """""")
                  else if mem (v_type m) (p_enums p) then
                    e <- get_enum p (v_type m) ;; d <- [| v_type m; "."; default_name e |] ;; Ret (Some d)
                  else if mem (v_type m) (p_structs p) then d <- [| "new "; v_type m; "()" |] ;; Ret (Some d)
                  else Ret None) (fun default =>
           line [| "public "; types (v_type m); " "; v_name m;
                   match default with Some d => [| " = "; d |] | None => lit "" end; ";" |])));
    when (s_is_message s) (
      block [
        blank;
        line [| "public override MessageType GetMessageType() { return MessageType."; sname; "Type; }" |];
        blank;
        line "public override int GetSizeInBytes()";
        line "{";
        indent;
        at_level (fun lev => given (cst_gen_measurement lev s "this.") (fun '(measure_lines, accumulator) =>
          block [
            each measure_lines (fun s => line s);
            when (accumulator >? 0) (line [| "size += "; str_of_Z accumulator; ";" |]);
            when (Z.of_nat (List.length measure_lines) >? 1) (line [| "return size;" |]);
            dedent;
            line "}"]))]);
    blank;
    line [| "public static "; sname; " FromBytes(BinaryReader br)" |];
    line "{";
    indent;
    when (s_is_message s) (block [line "try"; line "{"; indent]);
    line [| sname; " _n"; sname; " = new "; sname; "();" |];
    each (s_members s) (fun m => given ([| "_n"; sname; "." |]) (fun x => cst_deserializer m x));
    line [| "return _n"; sname; ";" |];
    when (s_is_message s) (
      block [
        dedent;
        line "}";
        line "catch (System.IO.EndOfStreamException)";
        line "{";
        indent;
        line [| "throw new DataReadErrorException(String.Format(""Could not read "; sname;
                " from offset {0}"", br.BaseStream.Position));" |];
        dedent;
        line "}"]);
    dedent;
    line "}";
    blank;
    (if (s_is_message s) then
       block [
         line [| "public override void WriteBytes(BinaryWriter bw, bool tag)" |];
         line "{";
         indent;
         line "if (tag)";
         line "{";
         indent;
         line [| "bw.Write((byte)MessageType."; sname; "Type);" |];
         dedent;
         line "}"]
     else block [line [| "public void WriteBytes(BinaryWriter bw)" |]; line "{"; indent]);
    each (s_members s) (fun m => cst_serializer m "this.");
    dedent;
    line "}";
    blank;
    dedent;
    line "}";
    blank].

(** csharp.py:273-278, the lines for the messages. *)
Definition cst_message_cases : list string :=
  flat_map (fun mt => ["                case (byte)MessageType." +++ mt +++ "Type:";
                       "                    msgList.Add(" +++ mt +++ ".FromBytes(br));";
                       "                    break;"]) (map fst (p_messages p)).

(** csharp.py:274-282, the substitutions. *)
Definition cst_substitutions : list (string * substitute_by) :=
  [("{# MESSAGE_TYPE_CASES #}", Lines cst_message_cases)].

(** csharp.py:248-308, generate. *)
Definition cst_generate : gtext :=
  block [
    line [| "// This file was automatically generated by "; LIB_NAME; " v"; LIB_VERSION |];
    line "// <https://github.com/sjml/beschi>";
    line "// Do not edit directly.";
    blank;
    when (g_embed g) (
      block [
        line "/*";
        line "DATA PROTOCOL";
        line "-----------------";
        each (splitlines (g_source g)) (fun l => line [| l |]);
        line "-----------------";
        line "END DATA PROTOCOL";
        line "*/";
        blank;
        blank]);
    add_boilerplate "    " tab [] (g_files g 0);
    when (has_namespace g) (block [line [| "namespace "; or_none (g_namespace g) |]; line "{"; indent]);
    add_boilerplate "    " tab cst_substitutions (g_files g 1);
    line "public enum MessageType";
    line "{";
    indent;
    each (enumerate (p_messages p)) (fun '(i, k) => line [| k; "Type = "; str_of_Z (i + 1); "," |]);
    dedent;
    line "}";
    blank;
    each (p_enums p) (fun '(ename, e) => cst_gen_enum ename e);
    each (p_structs p) (fun '(sname, s) => cst_gen_struct sname s);
    each (p_messages p) (fun '(mname, mdata) => cst_gen_struct mname mdata);
    when (has_namespace g) (block [dedent; line "}"]);
    blank;
    check_level].

End Text.
