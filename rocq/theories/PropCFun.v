(** C56: the functions that the text for C declares and defines (models: Lines.v, CText.v, Cli.v; specification: CFunSpec.v). *)
From Coq Require Import Permutation.
From Verif Require Import CSpec TopSpec CDeclSpec CFunSpec PropTopFacts LangSampleFacts PropCFunFacts.
Open Scope string_scope.
Open Scope Z_scope.
Open Scope list_scope.

(** The text for C declares the functions of the boilerplate, the check of every enum, and the functions of every
    struct and message, in that order; it defines each of them once, with the same types for the result and the
    parameters, and defines nothing else. The names of the types and the namespace are words; no
    --embed-protocol; no BESCHI in the namespace. *)
Theorem C56_c_functions_partial p g :
  c_usual p g -> exists declared defined, c_text_functions p g declared defined /\
  Permutation declared defined /\ map fst declared = map (fun f => c_prefix g +++ f) (c_function_names p).
Proof. exact (c_functions p g). Qed.
Print Assumptions C56_c_functions_partial.
Example C56_c_functions_partial_met :
  c_usual (two_types "Item" "Note") (plain_settings "c" None) /\ c_function_names (two_types "Item" "Note") =
  c_own_functions ++ ["Item_WriteBytes"; "Item_FromBytes"; "Note_WriteBytes"; "Note_FromBytes"; "Note_GetSizeInBytes";
    "Note_Create"; "Note_Cleanup"; "Note_Destroy"].
Proof. exact (two_types_functions). Qed.

(** No name is declared twice among the types and functions of the text for C, if the names that c.py makes up
    are all different. *)
Theorem C56_c_names_partial p g parts declared defined :
  c_usual p g -> c_names p -> c_declares p g parts -> c_text_functions p g declared defined ->
  NoDup (c_type_list parts ++ map fst declared).
Proof. exact (c_names_distinct p g parts declared defined). Qed.
Print Assumptions C56_c_names_partial.
Example C56_c_names_partial_met :
  c_usual annotated (plain_settings "c" None) /\ c_names annotated.
Proof. exact (annotated_functions). Qed.

(** A struct may be called IsFinished, like a function of the boilerplate. *)
Theorem C56_c_names_refuted :
  exists p g parts declared defined, c_usual p g /\ c_declares p g parts /\ c_text_functions p g declared defined /\
  ~ NoDup (c_type_list parts ++ map fst declared).
Proof. exact (c_name_twice). Qed.
Print Assumptions C56_c_names_refuted.
