(** Renaming of members, which two writers do before anything else.

    rust.py:21-30 and go.py:22-33: [var.name = f(var.name)] for every member of
    every struct and message; names of types stay.  (go.py:23-26 also computes new
    enum value names, and throws them away.) *)
From Verif Require Export Wire TextUtil.

Definition rename_var (f : string -> string) (m : var) : var := MkVar (f (v_name m)) (v_type m) (v_list m).
Definition rename_struct (f : string -> string) (s : struct) : struct :=
  MkStruct (s_name s) (map (rename_var f) (s_members s)) (s_is_message s).
Definition rename_members (f : string -> string) (p : protocol) : protocol :=
  MkProtocol (p_namespace p) (p_list_size_type p) (p_string_size_type p)
    (map (fun ns => (fst ns, rename_struct f (snd ns))) (p_structs p))
    (map (fun ns => (fst ns, rename_struct f (snd ns))) (p_messages p))
    (p_enums p).

(** The same value with renamed members, for statements. *)
Fixpoint rename_val (f : string -> string) (v : val) : val :=
  match v with
  | VList l => VList (map (rename_val f) l)
  | VStruct fs => VStruct (map (fun nv => (f (fst nv), rename_val f (snd nv))) fs)
  | _ => v
  end.
