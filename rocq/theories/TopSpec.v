(** The names that a generated file declares at its top level, as a reader of the text
    finds them. *)
From Verif Require Export IndentSpec ProtocolSpec.
Open Scope string_scope.
Open Scope Z_scope.
Open Scope list_scope.

(** Letters, digits and the underscore. *)
Definition word_char (c : ascii) : bool :=
  let n := nat_of_ascii c in
  (Nat.leb 48 n && Nat.leb n 57) || (Nat.leb 65 n && Nat.leb n 90) || (Nat.leb 97 n && Nat.leb n 122) || Nat.eqb n 95.
Fixpoint word (s : string) : bool :=
  match s with EmptyString => true | String c r => word_char c && word r end.
(** The word at the start of a text. *)
Fixpoint first_word (s : string) : string :=
  match s with
  | EmptyString => EmptyString
  | String c r => if word_char c then String c (first_word r) else EmptyString
  end.

(** What follows [i] in [s], if [s] starts with [i]. *)
Fixpoint rest_after (i s : string) : option string :=
  match i, s with
  | EmptyString, _ => Some s
  | String a i', String b s' => if Ascii.eqb a b then rest_after i' s' else None
  | String _ _, EmptyString => None
  end.
(** A line that starts with one of [intros] declares the word behind it. *)
Fixpoint declared (intros : list string) (l : string) : list string :=
  match intros with
  | [] => []
  | i :: r => match rest_after i l with Some t => [first_word t] | None => declared r l end
  end.
(** The lines at level [n] count. *)
Definition tops (intros : list string) (n : Z) (ls : list out_line) : list string :=
  flat_map (fun l => if fst l =? n then declared intros (snd l) else []) ls.

(** What declarations begin with. *)
Definition intros_of (lang : string) : list string :=
  if in_strs lang ["typescript"; "assemblyscript"] then
    ["export class "; "export abstract class "; "export enum "; "export function "; "export const "; "const "]
  else if String.eqb lang "csharp" then ["public class "; "public abstract class "; "public enum "]
  else if String.eqb lang "swift" then
    ["public class "; "class "; "public struct "; "public enum "; "public func "; "public static func "]
  else if String.eqb lang "rust" then
    ["use std::error::"; "use std::"; "pub enum "; "pub struct "; "pub trait "; "pub fn "]
  else ["pub const "; "const "; "pub fn "; "fn "].

(** The level of the declarations: inside of a namespace, if there is one. *)
Definition inside_namespace (lang : string) (g : settings) : bool :=
  if String.eqb lang "typescript" then g_flag g
  else if String.eqb lang "csharp" then has_namespace g
  else if String.eqb lang "swift" then match g_namespace g with Some _ => true | None => false end
  else false.

(** The text that is generated declares these names, in this order. *)
Definition file_declares (lang : string) (p : protocol) (g : settings) (names : list string) : Prop :=
  exists ls, generate lang p g 0 = Ret (ls, 0) /\
    tops (intros_of lang) (if inside_namespace lang g then 1 else 0) ls = names.

(** The names of the types, in the order in which they are printed. *)
Definition types_in_order (p : protocol) : list string :=
  map fst (p_enums p) ++ map fst (p_structs p) ++ map fst (p_messages p).

(** The other names: those before the types, and those behind them. *)
Definition names_before (lang : string) (g : settings) : list string :=
  if String.eqb lang "typescript" then
    ["_textDec"; "_textEnc"; "DataAccess"; "Message"; "GetPackedSize"; "PackMessages"; "UnpackMessages";
     "MessageType"; "ProcessRawBytes"]
  else if String.eqb lang "assemblyscript" then
    ["DataAccess"; "Message"; "GetPackedSize"; "PackMessages"; "UnpackMessages";
     "MessageType"; "ProcessRawBytes"; "ProcessRawBytesDA"]
  else if String.eqb lang "csharp" then
    ["DataReadErrorException"; "UnknownMessageTypeException"; "Message"; "MessageType"]
  else if String.eqb lang "swift" then
    ["DataReaderError"; "DataReader"; "DataWriter"; "Message"; "MessageType"; "ProcessRawBytes"]
  else if String.eqb lang "rust" then
    ["fmt"; "Error"; match g_namespace g with Some ns => ns +++ "Error" | None => "BeschiError" end;
     "BufferReader"; "MessageCodec"; "get_packed_size"; "pack_messages"; "unpack_messages";
     "MessageType"; "Message"; "process_raw_bytes"]
  else
    ["std"; "DataReaderError"; "numberTypeIsValid"; "simpleTypes"; "enumTypes"; "typeIsSimple"; "typeIsEnum"; "isValidEnum";
     "readNumber"; "readString"; "readList"; "writeNumber"; "writeString"; "writeList"; "writeBytes";
     "getPackedSize"; "packMessages"; "unpackMessages"; "MessageType"; "Message"; "processRawBytes"].
Definition names_after (lang : string) : list string :=
  if String.eqb lang "typescript" then ["MessageTypeMap"] else [].

(** The writers that are looked at. *)
Definition top_writers : list string := ["typescript"; "assemblyscript"; "csharp"; "swift"; "rust"; "zig"].

(** The names of the types, and a namespace, are words. *)
Definition word_types (p : protocol) : Prop := forall t, In t (types_in_order p) -> word t = true.
Definition word_namespace (g : settings) : Prop := forall ns, g_namespace g = Some ns -> word ns = true.

(** The settings: no comment with the protocol file, an indentation of spaces or tabs,
    and the boilerplate files that come with the program. *)
Definition usual (lang : string) (g : settings) : Prop :=
  g_embed g = false /\ g_tab g <> "" /\ blanks (g_tab g) = true /\ g_files g = writer_files lang.

(** Every name at the top of the file. *)
Definition own_names (lang : string) (g : settings) : list string := names_before lang g ++ names_after lang.
Definition top_names (lang : string) (p : protocol) (g : settings) : list string :=
  names_before lang g ++ types_in_order p ++ names_after lang.
(** No name is declared twice. *)
Definition tops_distinct (lang : string) (p : protocol) (g : settings) : Prop :=
  exists names, file_declares lang p g names /\ NoDup names.
(** A protocol that the theorems are about. *)
Definition readable (lang : string) (p : protocol) (g : settings) : Prop :=
  accepted p /\ usual lang g /\ word_types p /\ word_namespace g.
