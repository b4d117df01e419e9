(** The code that is generated for the eight languages, side by side. *)
From Verif Require Export TypeScript CSharp Swift Rust Go AssemblyScript Zig C.
From Verif Require Export CSpec.

(** With or without --rust-no-rename, --go-no-rename. *)
Inductive code :=
| TypeScriptCode | CSharpCode | SwiftCode | RustCode (rename : bool) | GoCode (rename : bool)
| AssemblyScriptCode | ZigCode | CCode.

(** What the languages' run-time systems leave open; see the files of the languages. *)
Record world := {
  w_namespace : bool;
  w_strip : bool;
  w_lossy : list byte -> list byte;
  w_room : string -> Z;
  w_machine : machine;
  w_block : nat }.

(** A value with the names that the code uses. *)
Definition renamed (c : code) (v : val) : val :=
  match c with RustCode r => rs_val r v | GoCode r => go_val r v | _ => v end.
Definition renamed_message (c : code) (m : string * val) : string * val := (fst m, renamed c (snd m)).

(** Reading a struct or message, streams and packed buffers. *)
Definition read_in (c : code) (e : world) (p : protocol) : reader :=
  match c with
  | TypeScriptCode => ts_from_bytes (w_namespace e) [] [] p
  | CSharpCode => cs_from_bytes (w_namespace e) p
  | SwiftCode => sw_from_bytes 0 (w_strip e) p
  | RustCode r => rs_from_bytes (rs_protocol r p)
  | GoCode r => go_from_bytes (w_room e) (go_protocol r p)
  | AssemblyScriptCode => as_from_bytes (w_lossy e) (w_room e) p
  | ZigCode => zig_from_bytes (w_room e) p
  | CCode => c_reader (w_machine e) p (w_block e)
  end.
Definition process_in (c : code) (e : world) (p : protocol) : stream_reader :=
  match c with
  | TypeScriptCode => ts_process (w_namespace e) [] [] p
  | CSharpCode => cs_process (w_namespace e) p
  | SwiftCode => sw_process 0 (w_strip e) p
  | RustCode r => rs_process (rs_protocol r p)
  | GoCode r => go_process (w_room e) (go_protocol r p)
  | AssemblyScriptCode => as_process (w_lossy e) (w_room e) p
  | ZigCode => zig_process (w_room e) p
  | CCode => c_processor (w_machine e) p (w_block e)
  end.
Definition unpack_in (c : code) (e : world) (p : protocol) : unpacker :=
  match c with
  | TypeScriptCode => ts_unpack (w_namespace e) [] [] p
  | CSharpCode => cs_unpack (w_namespace e) p
  | SwiftCode => sw_unpack (w_strip e) p
  | RustCode r => rs_unpack (rs_protocol r p)
  | GoCode r => go_unpack (w_room e) (go_protocol r p)
  | AssemblyScriptCode => as_unpack (w_lossy e) (w_room e) p
  | ZigCode => zig_unpack (w_room e) p
  | CCode => c_unpacker (w_machine e) p (w_block e)
  end.

(** Writing a struct or message: exactly these bytes, appended to a growing buffer or
    put into a fixed one.  In C, for every object that stands for the value. *)
Definition sends (c : code) (p : protocol) (t : string) (v : val) (bs : list byte) : Prop :=
  match c with
  | TypeScriptCode => fills (ts_write_bytes p t v) bs
  | CSharpCode => appends (cs_write_bytes p t v) bs
  | SwiftCode => appends (sw_write_bytes p t v) bs
  | RustCode r => appends (rs_write_bytes (rs_protocol r p) t (rs_val r v)) bs
  | GoCode r => appends (go_write_bytes (go_protocol r p) t (go_val r v)) bs
  | AssemblyScriptCode => fills (as_write_bytes p t v) bs
  | ZigCode => fills (zig_write_bytes p t v) bs
  | CCode => forall fs, stands_for p t fs v -> fills (c_write_bytes p t fs) bs
  end.
(** The same with the number of the message in front. *)
Definition sends_tagged (c : code) (p : protocol) (m : string * val) (bs : list byte) : Prop :=
  match c with
  | TypeScriptCode => fills (ts_write_tagged p (fst m) (snd m)) bs
  | CSharpCode => appends (cs_write_tagged p (fst m) (snd m)) bs
  | SwiftCode => appends (sw_write_tagged p (fst m) (snd m)) bs
  | RustCode r => appends (rs_write_tagged (rs_protocol r p) (fst m) (rs_val r (snd m))) bs
  | GoCode r => appends (go_write_tagged (go_protocol r p) (fst m) (go_val r (snd m))) bs
  | AssemblyScriptCode => fills (as_write_tagged p (fst m) (snd m)) bs
  | ZigCode => fills (zig_write_tagged p (fst m) (snd m)) bs
  | CCode => forall fs, message_for p fs m -> fills (c_write_tagged p (fst m) fs) bs
  end.
(** Packing messages.  In C, at the start of a buffer. *)
Definition sends_packed (c : code) (p : protocol) (ms : message_list) (bs : list byte) : Prop :=
  match c with
  | TypeScriptCode => fills (fun w => snd (fst (ts_pack [] [] p ms w))) bs
  | CSharpCode => appends (cs_pack p ms) bs
  | SwiftCode => appends (sw_pack p ms) bs
  | RustCode r => appends (rs_pack (rs_protocol r p) (map (renamed_message c) ms)) bs
  | GoCode r => appends (go_pack (go_protocol r p) (map (renamed_message c) ms)) bs
  | AssemblyScriptCode => fills (as_pack p ms) bs
  | ZigCode => fills (zig_pack p ms) bs
  | CCode => forall fss old after, Forall2 (message_for p) fss ms -> List.length old = List.length bs ->
      c_pack p fss {| w_buf := old ++ after; w_pos := 0 |} = WDone {| w_buf := bs ++ after; w_pos := List.length bs |}
  end.

(** Reading gives the value back, wherever its bytes stand. *)
Definition receives (c : code) (e : world) (p : protocol) (t : string) (v : val) (bs : list byte) : Prop :=
  forall before after,
    read_in c e p t (before ++ bs ++ after) (List.length before)
    = ROk (renamed c v) (List.length before + List.length bs).
Definition receives_stream (c : code) (e : world) (p : protocol) (ms : message_list) (bs : list byte) : Prop :=
  forall before,
    process_in c e p (-1) (before ++ bs) (List.length before)
    = ROk (map (renamed_message c) ms) (List.length before + List.length bs).
Definition receives_packed (c : code) (e : world) (p : protocol) (ms : message_list) (bs : list byte) : Prop :=
  forall before after, (c = AssemblyScriptCode -> (12 <= List.length (bs ++ after))%nat) ->
    unpack_in c e p (before ++ bs ++ after) (List.length before)
    = ROk (map (renamed_message c) ms) (List.length before + List.length bs - 1).

(** ** When that can be expected *)

Definition can_write (c : code) (p : protocol) : Prop :=
  match c with
  | TypeScriptCode | AssemblyScriptCode => size_types_32 p
  | CSharpCode => p_list_size_type p <> "uint64"%string
  | SwiftCode => True
  | RustCode r => rust_names (rs_protocol r p)
  | GoCode r => go_names (go_protocol r p)
  | ZigCode => zig_names p /\ numbers_only p /\ same_sizes p
  | CCode => c_builds p
  end.
Definition can_read (c : code) (e : world) (p : protocol) : Prop :=
  match c with
  | TypeScriptCode => size_types_32 p
  | CSharpCode => p_list_size_type p <> "uint64"%string
  | SwiftCode => True
  | RustCode r => rust_names (rs_protocol r p)
  | GoCode r => go_names (go_protocol r p) /\ capitals (go_protocol r p) /\ has_room (w_room e)
  | AssemblyScriptCode => size_types_32 p /\ enums_count_up p /\ has_room (w_room e)
  | ZigCode => zig_names p /\ unsigned_sizes p /\ flat p /\ has_room (w_room e)
  | CCode => c_builds p
  end.
(** The strings and lists of a value are such that the language can hold them. *)
Definition keeps (c : code) (e : world) (p : protocol) (v : val) : Prop :=
  match c with
  | TypeScriptCode => strings plain_text v
  | CSharpCode => strings short_text v
  | SwiftCode => strings (bom_text (w_strip e)) v
  | RustCode _ => strings utf8 v
  | GoCode _ => lists modest v
  | AssemblyScriptCode => utf8_modest v
  | ZigCode => zig_value p v
  | CCode => c_fits (w_machine e) v
  end.

(** A message that the format can hold. *)
Definition encodable_message (p : protocol) (m : string * val) : Prop :=
  is_message_name p (fst m) /\ in_range p (fst m) (snd m).
