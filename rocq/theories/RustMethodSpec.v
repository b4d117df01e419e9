(** The functions that the trait of a generated Rust file demands, and those that its
    implementations offer, as a reader of the text finds them. *)
From Verif Require Export GoMethodSpec Rust.
Open Scope string_scope.
Open Scope Z_scope.
Open Scope list_scope.

Inductive rplace := Beyond | Trait | Implementation (type : string).
(** The functions are listed up to the brace that ends the trait or implementation; in an
    implementation, only those one level in. *)
Definition rust_look (at_ : rplace) (l : out_line) : rplace * list mpart :=
  match at_ with
  | Beyond =>
      if fst l =? 0 then
        if String.eqb (snd l) "pub trait MessageCodec {" then (Trait, [])
        else match head_name ("impl MessageCodec for ", "", " {") (snd l) with
             | Some t => (Implementation t, [])
             | None => (Beyond, [])
             end
      else (Beyond, [])
  | Trait =>
      if String.eqb (snd l) "}" then (Beyond, [])
      else (Trait, map (Demands "MessageCodec") (declared ["fn "] (without_blanks (snd l))))
  | Implementation t =>
      if (fst l =? 0) && String.eqb (snd l) "}" then (Beyond, [])
      else if fst l =? 1 then (Implementation t, map (Offers t) (declared ["fn "] (snd l)))
      else (Implementation t, [])
  end.
Fixpoint rust_looks (at_ : rplace) (ls : list out_line) : rplace * list mpart :=
  match ls with
  | [] => (at_, [])
  | l :: r => let (a, n) := rust_look at_ l in let (a', n') := rust_looks a r in (a', n ++ n')
  end.
(** The text has this trait and these implementations, in this order. *)
Definition rust_file_methods (p : protocol) (g : settings) (parts : list mpart) : Prop :=
  exists ls, generate "rust" p g 0 = Ret (ls, 0) /\ rust_looks Beyond ls = (Beyond, parts).

(** What is expected: all messages, and the enum of them, have all of the functions. *)
Definition codec_functions : list string := ["get_message_type"; "get_size_in_bytes"; "from_bytes"; "write_bytes"].
Definition rust_method_parts (p : protocol) : list mpart :=
  map (Demands "MessageCodec") codec_functions ++
  flat_map (fun t => map (Offers t) codec_functions) ("Message" :: map fst (p_messages p)).
