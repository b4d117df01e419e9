(** Lemmas for PropGrow.v. *)
From Verif Require Import GrowSpec GrowFacts GrowFileFacts PropProtocolFacts Cross PropCrossFacts PropWireFacts LangSampleFacts.
Open Scope string_scope.
Open Scope Z_scope.
Open Scope list_scope.

(** ** Later versions *)

Lemma grows_same p q t v : accepted q -> newer p q -> (exists bs, wire p t v bs) ->
  forall bs, wire p t v bs <-> wire q t v bs.
Proof.
  intros A G (b & W) bs; split; intro H; [now apply (grows_wire p q G)|].
  rewrite (C09_one_encoding_proof q t v bs b A H (grows_wire p q G strict t v b W)); exact W.
Qed.
Lemma grows_range p q t v : accepted p -> accepted q -> newer p q -> in_range p t v -> in_range q t v.
Proof.
  intros A B G R; apply (C09_encodable_proof p t v A) in R as (bs & W); apply (C09_encodable_proof q t v B).
  exists bs; exact (grows_wire p q G strict t v bs W).
Qed.

Lemma C49_format p q t v : accepted p -> accepted q -> newer p q -> in_range p t v ->
  in_range q t v /\ forall bs, wire p t v bs <-> wire q t v bs.
Proof.
  intros A B G R; split; [exact (grows_range p q t v A B G R)|].
  apply (grows_same p q t v B G), (C09_encodable_proof p t v A), R.
Qed.
Lemma C49_loose md p q t v bs : newer p q -> wire_in md p t v bs -> wire_in md q t v bs.
Proof. intro G; exact (grows_wire p q G md t v bs). Qed.
Lemma C49_stream md p q ms bs : newer p q ->
  (wire_stream md p ms bs -> wire_stream md q ms bs) /\ (wire_packed md p ms bs -> wire_packed md q ms bs).
Proof. intro G; split; [apply (grows_stream p q G)|apply (grows_packed p q G)]. Qed.

Lemma C49_exchange e p q t s v : accepted p -> accepted q -> newer p q -> declares p t s -> in_range p t v ->
  exists bs,
    (forall c, can_write c p -> sends c p t v bs) /\ (forall c, can_write c q -> sends c q t v bs) /\
    (forall c, can_read c e p -> keeps c e p v -> receives c e p t v bs) /\
    (forall c, can_read c e q -> keeps c e q v -> receives c e q t v bs).
Proof.
  intros A B G D R; apply (C09_encodable_proof p t v A) in R as (bs & W); exists bs.
  pose proof (grows_wire p q G strict t v bs W) as W'; pose proof (grows_declares p q G t s D) as D'.
  split; [|split; [|split]]; intros c K.
  - exact (cross_sends c p t s v bs A K D W).
  - exact (cross_sends c q t s v bs B K D' W').
  - exact (cross_receives c e p A K t s v bs D W).
  - exact (cross_receives c e q B K t s v bs D' W').
Qed.

Lemma C49_streams e p q ms : accepted p -> accepted q -> newer p q -> Forall (encodable_message p) ms ->
  exists bss,
    Forall2 (fun m bs => (forall c, can_write c p -> sends_tagged c p m bs) /\
                         (forall c, can_write c q -> sends_tagged c q m bs)) ms bss /\
    (forall c, can_read c e p -> all_values (keeps c e p) ms -> receives_stream c e p ms (List.concat bss)) /\
    (forall c, can_read c e q -> all_values (keeps c e q) ms -> receives_stream c e q ms (List.concat bss)).
Proof.
  intros A B G F; destruct (stream_encodes p ms A F) as (bss & F2 & WS); exists bss.
  split; [|split].
  - clear - A B G F2; induction F2 as [|m bs ms bss H _ IH]; constructor; [|exact IH].
    split; intros c K; [exact (cross_sends_tagged c p m bs A K H)|].
    exact (cross_sends_tagged c q m bs B K (grows_tagged p q G strict m bs H)).
  - intros c K KE; exact (cross_receives_stream c e p A K ms _ WS KE).
  - intros c K KE; exact (cross_receives_stream c e q B K ms _ (grows_stream p q G strict ms _ WS) KE).
Qed.

Lemma C49_packed e p q ms : accepted p -> accepted q -> newer p q -> Forall (encodable_message p) ms ->
  Z.of_nat (List.length ms) < 2 ^ 31 ->
  exists bs,
    (forall c, can_write c p -> sends_packed c p ms bs) /\ (forall c, can_write c q -> sends_packed c q ms bs) /\
    (forall c, can_read c e p -> all_values (keeps c e p) ms -> receives_packed c e p ms bs) /\
    (forall c, can_read c e q -> all_values (keeps c e q) ms -> receives_packed c e q ms bs).
Proof.
  intros A B G F L; destruct (packed_encodes p ms A F) as (bs & W); [lia|]; exists bs.
  pose proof (grows_packed p q G strict ms bs W) as W'.
  split; [|split; [|split]]; intros c K.
  - exact (cross_sends_packed c p ms bs A K W).
  - exact (cross_sends_packed c q ms bs B K W').
  - intro KE; exact (cross_receives_packed c e p A K ms bs W KE L).
  - intro KE; exact (cross_receives_packed c e q B K ms bs W' KE L).
Qed.

(** ** Other names *)

Lemma named_same ns f g h p t v : accepted (named ns f g h p) -> keeps_base_types g -> (exists bs, wire p t v bs) ->
  forall bs, wire p t v bs <-> wire (named ns f g h p) (g t) (named_val f v) bs.
Proof.
  intros A B (b & W) bs; split; intro H; [now apply named_wire|].
  rewrite (C09_one_encoding_proof _ _ _ bs b A H (named_wire ns f g h p B strict t v b W)); exact W.
Qed.
Lemma C50_format ns f g h p t v : accepted p -> accepted (named ns f g h p) -> keeps_base_types g -> in_range p t v ->
  in_range (named ns f g h p) (g t) (named_val f v) /\
  forall bs, wire p t v bs <-> wire (named ns f g h p) (g t) (named_val f v) bs.
Proof.
  intros A B G R; apply (C09_encodable_proof p t v A) in R; split; [|now apply named_same].
  apply (C09_encodable_proof _ _ _ B); destruct R as (bs & W); exists bs; now apply named_wire.
Qed.
Lemma C50_stream ns f g h md p ms bs : keeps_base_types g ->
  (wire_stream md p ms bs -> wire_stream md (named ns f g h p) (map (named_message f g) ms) bs) /\
  (wire_packed md p ms bs -> wire_packed md (named ns f g h p) (map (named_message f g) ms) bs).
Proof. intro G; split; [now apply named_stream|now apply named_packed]. Qed.

Lemma C50_exchange e ns f g h p t s v :
  accepted p -> accepted (named ns f g h p) -> keeps_base_types g -> declares p t s -> in_range p t v ->
  exists bs,
    (forall c, can_write c p -> sends c p t v bs) /\
    (forall c, can_write c (named ns f g h p) -> sends c (named ns f g h p) (g t) (named_val f v) bs) /\
    (forall c, can_read c e p -> keeps c e p v -> receives c e p t v bs) /\
    (forall c, can_read c e (named ns f g h p) -> keeps c e (named ns f g h p) (named_val f v) ->
       receives c e (named ns f g h p) (g t) (named_val f v) bs).
Proof.
  intros A B G D R; apply (C09_encodable_proof p t v A) in R as (bs & W); exists bs.
  pose proof (named_wire ns f g h p G strict t v bs W) as W'; pose proof (named_declares ns f g h p t s D) as D'.
  split; [|split; [|split]]; intros c K.
  - exact (cross_sends c p t s v bs A K D W).
  - exact (cross_sends c _ _ _ _ bs B K D' W').
  - exact (cross_receives c e p A K t s v bs D W).
  - exact (cross_receives c e _ B K _ _ _ bs D' W').
Qed.
Lemma C50_streams e ns f g h p ms :
  accepted p -> accepted (named ns f g h p) -> keeps_base_types g -> Forall (encodable_message p) ms ->
  exists bss,
    Forall2 (fun m bs => (forall c, can_write c p -> sends_tagged c p m bs) /\
                         (forall c, can_write c (named ns f g h p) ->
                            sends_tagged c (named ns f g h p) (named_message f g m) bs)) ms bss /\
    (forall c, can_read c e p -> all_values (keeps c e p) ms -> receives_stream c e p ms (List.concat bss)) /\
    (forall c, can_read c e (named ns f g h p) ->
       all_values (keeps c e (named ns f g h p)) (map (named_message f g) ms) ->
       receives_stream c e (named ns f g h p) (map (named_message f g) ms) (List.concat bss)).
Proof.
  intros A B G F; destruct (stream_encodes p ms A F) as (bss & F2 & WS); exists bss.
  split; [|split].
  - clear - A B G F2; induction F2 as [|m bs ms bss H _ IH]; constructor; [|exact IH].
    split; intros c K; [exact (cross_sends_tagged c p m bs A K H)|].
    exact (cross_sends_tagged c _ _ bs B K (named_tagged ns f g h p G strict m bs H)).
  - intros c K KE; exact (cross_receives_stream c e p A K ms _ WS KE).
  - intros c K KE; exact (cross_receives_stream c e _ B K _ _ (named_stream ns f g h p G strict ms _ WS) KE).
Qed.
Lemma C50_packed e ns f g h p ms :
  accepted p -> accepted (named ns f g h p) -> keeps_base_types g -> Forall (encodable_message p) ms ->
  Z.of_nat (List.length ms) < 2 ^ 31 ->
  exists bs,
    (forall c, can_write c p -> sends_packed c p ms bs) /\
    (forall c, can_write c (named ns f g h p) -> sends_packed c (named ns f g h p) (map (named_message f g) ms) bs) /\
    (forall c, can_read c e p -> all_values (keeps c e p) ms -> receives_packed c e p ms bs) /\
    (forall c, can_read c e (named ns f g h p) ->
       all_values (keeps c e (named ns f g h p)) (map (named_message f g) ms) ->
       receives_packed c e (named ns f g h p) (map (named_message f g) ms) bs).
Proof.
  intros A B G F L; destruct (packed_encodes p ms A F) as (bs & W); [lia|]; exists bs.
  pose proof (named_packed ns f g h p G strict ms bs W) as W'.
  split; [|split; [|split]]; intros c K.
  - exact (cross_sends_packed c p ms bs A K W).
  - exact (cross_sends_packed c _ _ bs B K W').
  - intro KE; exact (cross_receives_packed c e p A K ms bs W KE L).
  - intro KE; apply (cross_receives_packed c e _ B K _ bs W' KE); now rewrite map_length.
Qed.

(** ** Samples *)

(** Photos with another mood, another struct and another message. *)
Definition albums_toml : list (string * toml) :=
  [("meta", tab [("list_size_type", "uint32"); ("string_size_type", "uint32")]);
   ("enums", TArr [TTab [("_name", TStr "Mood"); ("_values", TArr [TStr "Calm"; TStr "Happy"; TStr "Sad"])];
                   TTab [("_name", TStr "Order"); ("_values", TArr [TStr "Up"; TStr "Down"])]]);
   ("structs", TArr [tab [("_name", "Point"); ("x", "int16"); ("y", "int16")];
                     tab [("_name", "Face"); ("label", "string"); ("at", "Point")];
                     tab [("_name", "Page"); ("caption", "string"); ("order", "Order")]]);
   ("messages", TArr [tab [("_name", "Photo"); ("title", "string"); ("moods", "[Mood]"); ("faces", "[Face]")];
                      tab [("_name", "Album"); ("pages", "[Page]")]])].
Definition albums : protocol :=
  MkProtocol None "uint32" "uint32"
    [("Point", MkStruct "Point" [MkVar "x" "int16" false; MkVar "y" "int16" false] false);
     ("Face", MkStruct "Face" [MkVar "label" "string" false; MkVar "at" "Point" false] false);
     ("Page", MkStruct "Page" [MkVar "caption" "string" false; MkVar "order" "Order" false] false)]
    [("Photo", MkStruct "Photo" [MkVar "title" "string" false; MkVar "moods" "Mood" true; MkVar "faces" "Face" true] true);
     ("Album", MkStruct "Album" [MkVar "pages" "Page" true] true)]
    [("Mood", MkEnum "Mood" [("Calm", 0); ("Happy", 1); ("Sad", 2)] "byte");
     ("Order", MkEnum "Order" [("Up", 0); ("Down", 1)] "byte")].
Lemma albums_accepted : accepted albums.
Proof. accepted_tac albums_toml. Qed.
Lemma photos_grow : newer photos albums.
Proof.
  split; [reflexivity|]; split; [reflexivity|]; split; [|split].
  - intros t e [E|[]]; injection E as <- <-; eexists; split; [left; reflexivity|]; split; [reflexivity|].
    intros x [<-|[<-|[]]]; cbn; tauto.
  - intros x [<-|[<-|[]]]; cbn; tauto.
  - eexists; reflexivity.
Qed.
Lemma albums_read : can_write SwiftCode albums /\ can_read SwiftCode somewhere albums /\
  can_write (RustCode true) albums /\ can_read (RustCode true) somewhere albums /\
  can_write TypeScriptCode albums /\ can_read TypeScriptCode somewhere albums.
Proof.
  assert (R : rust_names (rs_protocol true albums)) by (apply rust_names_ok; vm_compute; reflexivity).
  assert (Z : size_types_32 albums) by (split; intros [H|[H|[]]]; discriminate).
  exact (conj Logic.I (conj Logic.I (conj R (conj R (conj Z Z))))).
Qed.

(** Photos in other words. *)
Definition in_german (s : string) : string :=
  match lookup s [("Photo", "Bild"); ("Face", "Gesicht"); ("Point", "Punkt"); ("Mood", "Laune");
                  ("title", "titel"); ("moods", "launen"); ("faces", "gesichter"); ("label", "name"); ("at", "ort");
                  ("Calm", "Ruhig"); ("Happy", "Froh")] with
  | Some w => w
  | None => s
  end.
Definition bilder_toml : list (string * toml) :=
  [("meta", tab [("namespace", "Bilder"); ("list_size_type", "uint32"); ("string_size_type", "uint32")]);
   ("enums", TArr [TTab [("_name", TStr "Laune"); ("_values", TArr [TStr "Ruhig"; TStr "Froh"])]]);
   ("structs", TArr [tab [("_name", "Punkt"); ("x", "int16"); ("y", "int16")];
                     tab [("_name", "Gesicht"); ("name", "string"); ("ort", "Punkt")]]);
   ("messages", TArr [tab [("_name", "Bild"); ("titel", "string"); ("launen", "[Laune]"); ("gesichter", "[Gesicht]")]])].
Definition bilder : protocol := named (Some (TStr "Bilder")) in_german in_german in_german photos.
Lemma bilder_accepted : accepted bilder.
Proof. accepted_tac bilder_toml. Qed.
Lemma in_german_base : keeps_base_types in_german.
Proof. intros t [I|E]; [|now subst]; cbn in I; repeat (destruct I as [<-|I]; [reflexivity|]); destruct I. Qed.

Lemma bilder_read : can_write SwiftCode bilder /\ can_read SwiftCode somewhere bilder /\
  keeps SwiftCode somewhere bilder (named_val in_german photo) /\
  can_write (RustCode true) bilder /\ can_read (RustCode true) somewhere bilder.
Proof.
  assert (R : rust_names (rs_protocol true bilder)) by (apply rust_names_ok; vm_compute; reflexivity).
  split; [exact Logic.I|]; split; [exact Logic.I|]; split; [|now split].
  cbn [keeps]; let v := eval vm_compute in (named_val in_german photo) in change (named_val in_german photo) with v.
  strings_tac; (split; [apply utf8_valid_spec; reflexivity|discriminate]).
Qed.

(** ** What is not growth *)

(** A message in front moves the numbers: the old data is read as another message. *)
Definition front_toml : list (string * toml) :=
  [("messages", TArr [tab [("_name", "Bye"); ("code", "byte")]; tab [("_name", "Hello"); ("age", "byte")]])].
Definition back_toml : list (string * toml) := [("messages", TArr [tab [("_name", "Hello"); ("age", "byte")]])].
Definition hello : string * struct := ("Hello", MkStruct "Hello" [MkVar "age" "byte" false] true).
Definition bye : string * struct := ("Bye", MkStruct "Bye" [MkVar "code" "byte" false] true).
Definition hello_only : protocol := MkProtocol None "uint32" "uint32" [] [hello] [].
Definition bye_first : protocol := MkProtocol None "uint32" "uint32" [] [bye; hello] [].
Lemma C49_front : exists p q d m m' bs, accepted p /\ accepted q /\
  p_structs q = p_structs p /\ p_enums q = p_enums p /\ p_messages q = d :: p_messages p /\
  p_list_size_type q = p_list_size_type p /\ p_string_size_type q = p_string_size_type p /\
  sends_tagged SwiftCode p m bs /\ fst m <> fst m' /\
  forall e, receives_stream SwiftCode e q [m'] bs.
Proof.
  set (mh := ("Hello", VStruct [("age", VInt 7)])); set (mb := ("Bye", VStruct [("code", VInt 7)])).
  assert (A : accepted hello_only) by accepted_tac back_toml.
  assert (B : accepted bye_first) by accepted_tac front_toml.
  assert (W : wire_tagged strict hello_only mh [x01; x07]).
  { econstructor; [apply (numbered_at _ _ 0 (snd hello)); reflexivity|reflexivity|wire_tac]. }
  assert (V : wire_stream strict bye_first [mb] [x01; x07]).
  { change [x01; x07] with ([x01; x07] ++ []); constructor; [|constructor].
    econstructor; [apply (numbered_at _ _ 0 (snd bye)); reflexivity|reflexivity|wire_tac]. }
  exists hello_only, bye_first, bye, mh, mb, [x01; x07].
  do 2 (split; [assumption|]); do 5 (split; [reflexivity|]).
  split; [exact (cross_sends_tagged SwiftCode hello_only mh _ A I W)|]; split; [discriminate|].
  intro e; apply (cross_receives_stream SwiftCode e bye_first B I _ _ V).
  constructor; [|constructor]; cbn [keeps snd mb]; strings_tac.
Qed.

(** A new value that does not fit changes the encoding of the old ones. *)
Definition more_grades_toml : list (string * toml) :=
  [("enums", TArr [TTab [("_name", TStr "Grade");
      ("_values", TArr (map (fun v => TTab [("_name", TStr (fst v)); ("_value", TInt (snd v))]) [("Low", 1); ("Top", 2); ("Odd", 300)]))]]);
   ("messages", TArr [tab [("_name", "Mark"); ("grade", "Grade")]])].
Definition few_grades_toml : list (string * toml) :=
  [("enums", TArr [TTab [("_name", TStr "Grade");
      ("_values", TArr (map (fun v => TTab [("_name", TStr (fst v)); ("_value", TInt (snd v))]) [("Low", 1); ("Top", 2)]))]]);
   ("messages", TArr [tab [("_name", "Mark"); ("grade", "Grade")]])].
Definition grades (values : list (string * Z)) (encoding : string) : protocol :=
  MkProtocol None "uint32" "uint32" []
    [("Mark", MkStruct "Mark" [MkVar "grade" "Grade" false] true)]
    [("Grade", MkEnum "Grade" values encoding)].
Lemma C49_encoding : exists p q x t v bs bs', accepted p /\ accepted q /\
  p_structs q = p_structs p /\ p_messages q = p_messages p /\
  (exists n e e', p_enums p = [(n, e)] /\ p_enums q = [(n, e')] /\ e_values e' = e_values e ++ [x]) /\
  p_list_size_type q = p_list_size_type p /\ p_string_size_type q = p_string_size_type p /\
  wire p t v bs /\ wire q t v bs' /\ bs <> bs'.
Proof.
  exists (grades [("Low", 1); ("Top", 2)] "byte"), (grades [("Low", 1); ("Top", 2); ("Odd", 300)] "int16"),
    ("Odd", 300), "Mark", (VStruct [("grade", VInt 2)]), [x02], [x02; x00].
  split; [accepted_tac few_grades_toml|]; split; [accepted_tac more_grades_toml|].
  do 2 (split; [reflexivity|]).
  split; [exists "Grade", (MkEnum "Grade" [("Low", 1); ("Top", 2)] "byte"),
    (MkEnum "Grade" [("Low", 1); ("Top", 2); ("Odd", 300)] "int16"); repeat split|].
  do 2 (split; [reflexivity|]); split; [wire_tac|]; split; [wire_tac|discriminate].
Qed.

(** A member at the end of a message: no value of the new protocol has the old bytes. *)
Definition hello_more : protocol :=
  MkProtocol None "uint32" "uint32" [] [("Hello", MkStruct "Hello" [MkVar "age" "byte" false; MkVar "size" "byte" false] true)] [].
Lemma C49_member : exists p q t s m v bs, accepted p /\ accepted q /\
  p_structs q = p_structs p /\ p_enums q = p_enums p /\
  p_messages p = [(t, s)] /\ p_messages q = [(t, MkStruct (s_name s) (s_members s ++ [m]) (s_is_message s))] /\
  p_list_size_type q = p_list_size_type p /\ p_string_size_type q = p_string_size_type p /\
  wire p t v bs /\ forall v', ~ wire q t v' bs.
Proof.
  exists hello_only, hello_more, "Hello", (snd hello), (MkVar "size" "byte" false), (VStruct [("age", VInt 7)]), [x07].
  split; [accepted_tac back_toml|].
  assert (B : accepted hello_more)
    by accepted_tac [("messages", TArr [tab [("_name", "Hello"); ("age", "byte"); ("size", "byte")]])].
  split; [exact B|]; do 6 (split; [reflexivity|]); split; [wire_tac|].
  intros v' W; apply (C08_size_proof hello_more "Hello" v' _ B) in W; [discriminate| |reflexivity].
  right; eexists; left; reflexivity.
Qed.

(** ** Files *)

Lemma photos_described : describes photos_toml photos.
Proof.
  split.
  - eexists; split; [left; reflexivity|]; split; [left; reflexivity|]; split; [left; reflexivity|reflexivity].
  - do 3 eexists; split; [left; reflexivity|split; [left; reflexivity|split; [left; reflexivity|]]].
    split; [|split].
    + repeat (constructor; [doc_struct_tac|]); constructor.
    + repeat (constructor; [doc_struct_tac|]); constructor.
    + constructor; [|constructor]; do 2 eexists; repeat split; left; split; reflexivity.
Qed.
Lemma albums_described : describes albums_toml albums.
Proof.
  split.
  - eexists; split; [left; reflexivity|]; split; [left; reflexivity|]; split; [left; reflexivity|reflexivity].
  - do 3 eexists; split; [left; reflexivity|split; [left; reflexivity|split; [left; reflexivity|]]].
    split; [|split].
    + repeat (constructor; [doc_struct_tac|]); constructor.
    + repeat (constructor; [doc_struct_tac|]); constructor.
    + repeat (constructor; [do 2 eexists; repeat split; left; split; reflexivity|]); constructor.
Qed.
Lemma section_fun key data l l' : lookup key data = Some (TArr l') -> doc_section key data l -> l = l'.
Proof. intros E [H|[H _]]; congruence. Qed.
Lemma albums_extend : extends photos_toml albums_toml.
Proof.
  split; [reflexivity|]; split; [|split]; intros l l' D D';
    (eapply section_fun in D; [|reflexivity]); (eapply section_fun in D'; [|reflexivity]); subst l l'.
  - do 2 eexists; split; [|repeat (constructor; [reflexivity|]); constructor]; reflexivity.
  - do 2 eexists; split; [|repeat (constructor; [reflexivity|]); constructor]; reflexivity.
  - do 2 eexists; split; [|constructor; [right|constructor]]; [reflexivity|].
    do 2 eexists; exists [TStr "Calm"; TStr "Happy"], [TStr "Sad"]; repeat split.
Qed.
Lemma albums_encodings t e e' : In (t, e) (p_enums photos) -> In (t, e') (p_enums albums) -> e_encoding e' = e_encoding e.
Proof. intros [E|[]] [F|[F|[]]]; injection E as <- <-; injection F; intros; subst; try reflexivity; discriminate. Qed.
