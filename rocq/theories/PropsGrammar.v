(** Property C118: reading JSON follows the grammar. Theorem statements only; the proofs are in [GrammarThms]. *)
From Coq Require Import String.
From Coq Require Import NArith ZArith QArith Bool List.
From Verif Require Import Base Json SpecJson SpecPrims SpecCounter SpecGrammar GrammarThms BaseFacts.
Import ListNotations.
Open Scope N_scope.

(** Exactly which texts are read, and as what: the texts of the JSON grammar with arrays and objects nested at most 127 deep. Every escape denotes its character, integers of
   64 bits are kept exactly, and of a repeated label the last value counts, at the place of the first. Loading panics exactly if a number in the document cannot be loaded. Every other text is an error. *)
Theorem C118_reading_follows_the_grammar :
  forall (canon : bytes -> option bytes) (t : bytes),
  (forall v, value_of_text canon t = Ok v <-> exists j, text_of canon t j /\ loads j v) /\
  (value_of_text canon t = Panic <-> exists j, text_of canon t j /\ unloadable j).
Proof. exact C118_l. Qed.
Print Assumptions C118_reading_follows_the_grammar.

Example C118_case : let t := s! " {""a"" : [1, -2,""é😀\/""], ""b"":null ,""a"":true}" in
  value_of_text (fun _ => None) t = Ok (VObj [(s! "a", VBool true); (s! "b", VNull)]) /\ (exists j, text_of (fun _ => None) t j /\ loads j (VObj [(s! "a", VBool true); (s! "b", VNull)])) /\
  value_of_text (fun _ => None) (s! "[01]") = Err EForeign /\ value_of_text (fun _ => None) (s! "18446744073709551615") = Panic.
Proof.
  intros t. assert (value_of_text (fun _ => None) t = Ok (VObj [(s! "a", VBool true); (s! "b", VNull)])) as H by (vm_compute; reflexivity). split; [exact H|]. split; [apply C118_l in H; exact H|]. split; vm_compute; reflexivity.
Qed.
