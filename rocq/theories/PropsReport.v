(** Properties C18, C67: exactly which keys are reported transferable. Theorem statements only; the proofs are in [ReportThms]. *)
From Coq Require Import String.
From Coq Require Import NArith ZArith QArith Bool List.
From Verif Require Import Base Tables Matter Prims Signer Spec SpecPrims SpecSigner ReportThms BaseFacts.
Import ListNotations.
Open Scope N_scope.

(** Exactly which codes are reported non-transferable: B, 1AAA and 1AAC, whatever the rest of the primitive. *)
Theorem C18_transferability_exactly :
  forall (m : matter),
  (transferable m = false <-> In (m_code m) [s! "B"; s! "1AAA"; s! "1AAC"]) /\ (transferable m = true <-> ~ In (m_code m) [s! "B"; s! "1AAA"; s! "1AAC"]).
Proof. exact C18_exactly_l. Qed.
Print Assumptions C18_transferability_exactly.

Example C18_exactly_case : transferable (Mt (s! "1AAC") 0 (repeat x07 57)) = false /\ transferable (Mt (s! "1AAI") 0 (repeat x07 33)) = true.
Proof. split; reflexivity. Qed.

(** The key of a signer is reported transferable exactly if the signer was asked to be, or its seed is of the scheme secp256r1. *)
Theorem C67_reported_exactly :
  forall (cr : crypto) (transferable : option bool) (code raw qb64b qb64 qb2 : option bytes) (g : signer),
  correct cr -> signer_new cr transferable code raw qb64b qb64 qb2 = Ok g ->
  (Matter.transferable (g_verfer g) = true <-> transferable <> Some false \/ m_code (g_seed g) = s! "Q").
Proof. exact C67_exactly_l. Qed.
Print Assumptions C67_reported_exactly.

Example C67_exactly_case : exists g, signer_new toy (Some false) (Some (s! "A")) (Some (repeat x07 32)) None None None = Ok g /\ Matter.transferable (g_verfer g) = false.
Proof. eexists. split; [vm_compute; reflexivity|reflexivity]. Qed.
