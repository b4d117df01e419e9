(** C36: the name conversions of TextUtil (model: TextUtil.v, vocabulary: TextSpec.v). *)
From Verif Require Import TextUtil TextSpec PropTextFacts.
Open Scope string_scope.
Open Scope list_scope.

(** convert_to_lower_snake_case leaves no capital letter. *)
Theorem C36_snake_lower s c :
  In c (str_chars (snake s)) -> ~ capital c.
Proof. exact (snake_lower s c). Qed.
Print Assumptions C36_snake_lower.
Example C36_snake_lower_met :
  snake "characterID" = "character_id".
Proof. exact (eq_refl). Qed.

(** Apart from capitals it changes nothing: it only adds underscores. *)
Theorem C36_snake_keeps s :
  exists l, lowered s l /\ spaced l (snake s).
Proof. exact (snake_keeps s). Qed.
Print Assumptions C36_snake_keeps.

(** Where it adds underscores: exactly in front of every capital that starts a new word. *)
Theorem C36_snake_words s :
  exists b, words s b /\ lowered b (snake s).
Proof. exact (snake_words s). Qed.
Print Assumptions C36_snake_words.
Example C36_snake_words_met :
  snake "HTTPServer2Port" = "http_server2_port".
Proof. exact (eq_refl). Qed.

(** Names without capitals stay as they are. *)
Theorem C36_snake_same s :
  (forall c, In c (str_chars s) -> ~ capital c) -> snake s = s.
Proof. exact (snake_kept s). Qed.
Print Assumptions C36_snake_same.
Example C36_snake_same_met :
  forall c, In c (str_chars "gold_in_wallet") -> ~ capital c.
Proof. exact (gold_in_wallet). Qed.

(** A second conversion changes nothing. *)
Theorem C36_snake_twice s :
  snake (snake s) = snake s.
Proof. exact (snake_twice s). Qed.
Print Assumptions C36_snake_twice.

(** capitalize only touches the first character. *)
Theorem C36_capitalize_tail c s :
  exists d, capitalize (String c s) = String d s.
Proof. exact (capitalize_tail c s). Qed.
Print Assumptions C36_capitalize_tail.

(** A lower case letter becomes its capital, anything else stays. *)
Theorem C36_capitalize_letter c s :
  capitalize (String c s) = String c s /\ ~ (97 <= nat_of_ascii c <= 122)%nat \/
  exists d, capitalize (String c s) = String d s /\ nat_of_ascii c = (nat_of_ascii d + 32)%nat /\ capital d.
Proof. exact (capitalize_letter c s). Qed.
Print Assumptions C36_capitalize_letter.
Example C36_capitalize_letter_met :
  capitalize "fooBar" = "FooBar".
Proof. exact (eq_refl). Qed.

(** A second time changes nothing. *)
Theorem C36_capitalize_twice s :
  capitalize (capitalize s) = capitalize s.
Proof. exact (capitalize_twice s). Qed.
Print Assumptions C36_capitalize_twice.

(** C32.  Different names may become the same. *)
Theorem C32_snake_collides_refuted :
  exists a b, a <> b /\ snake a = snake b.
Proof. exact (snake_collides). Qed.
Print Assumptions C32_snake_collides_refuted.

Theorem C32_capitalize_collides_refuted :
  exists a b, a <> b /\ capitalize a = capitalize b.
Proof. exact (capitalize_collides). Qed.
Print Assumptions C32_capitalize_collides_refuted.
