(** Exactly which keys are reported transferable: C18, C67. *)
From Coq Require Import String.
From Coq Require Import NArith ZArith Lia Bool List.
From Verif Require Import Base BaseFacts Tables Matter MatterFacts MatterThms Prims PrimsFacts Signer Spec SpecIndexer SpecPrims SpecSigner SignerThms.
Import ListNotations.
Open Scope N_scope.

(*# C18_transferability_exactly
   Exactly which codes are reported non-transferable: B, 1AAA and 1AAC, whatever the rest of the primitive.
##
Example C18_exactly_case : transferable (Mt (s! "1AAC") 0 (repeat x07 57)) = false /\ transferable (Mt (s! "1AAI") 0 (repeat x07 33)) = true.
Proof. split; reflexivity. Qed.
#*)
Lemma C18_exactly_l (m : matter) : (transferable m = false <-> In (m_code m) [s! "B"; s! "1AAA"; s! "1AAC"]) /\ (transferable m = true <-> ~ In (m_code m) [s! "B"; s! "1AAA"; s! "1AAC"]).
Proof.
  assert (transferable m = false <-> In (m_code m) [s! "B"; s! "1AAA"; s! "1AAC"]) as K.
  { unfold transferable. rewrite negb_false_iff, existsb_exists. split.
    - intros (c & Hin & E). apply beq_eq in E. rewrite E. exact Hin.
    - intros Hin. exists (m_code m). split; [exact Hin|apply beq_refl]. }
  split; auto. rewrite <- K. destruct (transferable m); split; congruence.
Qed.

(*# C67_reported_exactly
   The key of a signer is reported transferable exactly if the signer was asked to be, or its seed is of the scheme secp256r1.
##
Example C67_exactly_case : exists g, signer_new toy (Some false) (Some (s! "A")) (Some (repeat x07 32)) None None None = Ok g /\ Matter.transferable (g_verfer g) = false.
Proof. eexists. split; [vm_compute; reflexivity|reflexivity]. Qed.
#*)
Lemma C67_exactly_l (cr : crypto) (transferable : option bool) (code raw qb64b qb64 qb2 : option bytes) (g : signer) :
  correct cr -> signer_new cr transferable code raw qb64b qb64 qb2 = Ok g ->
  (Matter.transferable (g_verfer g) = true <-> transferable <> Some false \/ m_code (g_seed g) = s! "Q").
Proof.
  intros CR H. destruct (signer_shape _ _ _ _ _ _ _ _ CR H) as (s & d & b & sg & pk & Row & P & L & V). rewrite V. clear -Row. cbn in Row.
  destruct Row as [X|[X|[X|[]]]]; injection X as <- _ <- <- _; destruct transferable as [[|]|]; cbn [or_else]; (split; [intros Y; first [left; discriminate|right; reflexivity|vm_compute in Y; discriminate]|intros Y; first [reflexivity|destruct Y as [Y|Y]; [congruence|discriminate Y]]]).
Qed.
