(** Property C73: exactly what stripping a root gives. Theorem statements only; the proofs are in [StripThms]. *)
From Coq Require Import String.
From Coq Require Import NArith ZArith QArith Bool List.
From Verif Require Import Base Tables Matter Prims Json Pather Spec SpecPrims SpecSadder SpecPather SpecStrip StripThms BaseFacts.
Import ListNotations.
Open Scope N_scope.

(** The outcome of stripping any root from any path: nothing is done if the root is longer; otherwise each element of the root, from the last, takes away what stands
   where it last stood, and the text of what is left is the path made; it has those elements exactly if they can be told apart. If an element of the root is missing, or
   it stood after what is left, stripping panics. *)
Theorem C73_strip_exactly :
  forall (self root : matter) (q r : list bytes),
  elements self q -> elements root r -> len (path_text q) <= 67108860 ->
  (len q < len r -> path_strip self root = Ok self) /\
  (len r <= len q -> (forall p, ~ strips q r p) -> path_strip self root = Panic) /\
  (forall p, len r <= len q -> strips q r p ->
     (Forall (over base64url_alphabet) p -> exists m, path_strip self root = Ok m /\ bext_of m = Ok (path_text p) /\ (elements m p <-> separable p)) /\
     (~ Forall (over base64url_alphabet) p -> is_err (path_strip self root) = true)).
Proof. exact C73_exactly_l. Qed.
Print Assumptions C73_strip_exactly.

Example C73_strip_case : exists p r m, pather_of_bext (s! "-a-b-a") = Ok p /\ pather_of_bext (s! "-a") = Ok r /\ elements p [s! "a"; s! "b"; s! "a"] /\ elements r [s! "a"] /\
  strips [s! "a"; s! "b"; s! "a"] [s! "a"] [s! "a"; s! "b"] /\ path_strip p r = Ok m /\ elements m [s! "a"; s! "b"].
Proof.
  eexists. eexists. eexists. split; [vm_compute; reflexivity|]. split; [vm_compute; reflexivity|]. split; [vm_compute; reflexivity|]. split; [vm_compute; reflexivity|]. split.
  - apply (strips_one _ _ _ [s! "a"; s! "b"] [] [s! "a"; s! "b"] (s! "a") []); [constructor|reflexivity|intros []|reflexivity].
  - split; [vm_compute; reflexivity|]. vm_compute; reflexivity.
Qed.
