(** Decoding of UTF-8 as done by the string libraries of the target languages.

    Not part of beschi.  Models [TextDecoder] (WHATWG encoding standard, UTF-8
    decoder: every maximal invalid part becomes U+FFFD), [Encoding.UTF8.GetString]
    (.NET, the same replacement rule), [String::from_utf8] (Rust) and
    [String(data:encoding:)] (Swift), which check only.  The independent
    definition of well formed text is [utf8] in Wire.v. *)
From Verif Require Export Wire.

Definition byte_span (lo hi : Z) (b : byte) : bool := (lo <=? Z_of_byte b) && (Z_of_byte b <=? hi).

(** Allowed second bytes after a lead byte of three or four byte characters. *)
Definition second (a : byte) : Z * Z :=
  let z := Z_of_byte a in
  if z =? 224 then (160, 191)
  else if z =? 237 then (128, 159)
  else if z =? 240 then (144, 191)
  else if z =? 244 then (128, 143)
  else (128, 191).

(** First character: is it well formed, and how many bytes does it take (for an
    ill formed one: how many bytes are replaced by one U+FFFD). *)
Definition scan (a : byte) (r : list byte) : bool * nat :=
  let (lo, hi) := second a in
  if byte_span 0 127 a then (true, 1%nat)
  else if byte_span 194 223 a then
    match r with
    | b :: _ => if byte_span 128 191 b then (true, 2%nat) else (false, 1%nat)
    | [] => (false, 1%nat)
    end
  else if byte_span 224 239 a then
    match r with
    | b :: r' =>
        if byte_span lo hi b then
          match r' with
          | c :: _ => if byte_span 128 191 c then (true, 3%nat) else (false, 2%nat)
          | [] => (false, 2%nat)
          end
        else (false, 1%nat)
    | [] => (false, 1%nat)
    end
  else if byte_span 240 244 a then
    match r with
    | b :: r' =>
        if byte_span lo hi b then
          match r' with
          | c :: r'' =>
              if byte_span 128 191 c then
                match r'' with
                | d :: _ => if byte_span 128 191 d then (true, 4%nat) else (false, 3%nat)
                | [] => (false, 3%nat)
                end
              else (false, 2%nat)
          | [] => (false, 2%nat)
          end
        else (false, 1%nat)
    | [] => (false, 1%nat)
    end
  else (false, 1%nat).

(** U+FFFD. *)
Definition replacement : list byte := [xef; xbf; xbd].
(** U+FEFF, the byte order mark. *)
Definition bom : list byte := [xef; xbb; xbf].

Fixpoint lossy_from (fuel : nat) (s : list byte) : list byte :=
  match fuel, s with
  | _, [] => []
  | O, _ => []
  | S f, a :: r =>
      let (ok, n) := scan a r in
      (if ok then firstn n s else replacement) ++ lossy_from f (skipn n s)
  end.
Definition utf8_lossy (s : list byte) : list byte := lossy_from (List.length s) s.

Fixpoint valid_from (fuel : nat) (s : list byte) : bool :=
  match fuel, s with
  | _, [] => true
  | O, _ => false
  | S f, a :: r => let (ok, n) := scan a r in if ok then valid_from f (skipn n s) else false
  end.
Definition utf8_valid (s : list byte) : bool := valid_from (List.length s) s.

(** TextDecoder with default options removes one leading byte order mark. *)
Definition strip_bom (s : list byte) : list byte :=
  match s with
  | xef :: xbb :: xbf :: r => r
  | _ => s
  end.

(** Number of UTF-16 code units of well formed text: two for a four byte
    character, one for any other. *)
Fixpoint utf16_from (fuel : nat) (s : list byte) : nat :=
  match fuel, s with
  | _, [] => 0
  | O, _ => 0
  | S f, a :: r =>
      let n := snd (scan a r) in
      ((if (n =? 4)%nat then 2 else 1) + utf16_from f (skipn n s))%nat
  end.
Definition utf16_length (s : list byte) : nat := utf16_from (List.length s) s.
