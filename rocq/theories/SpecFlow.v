(** Vocabulary of the statements about whole exchanges: an event made, signed and sent by one party and read and checked by another. *)
From Coq Require Import String.
From Coq Require Import NArith List Bool.
From Verif Require Import Base Matter Indexer Signer.
Import ListNotations.
Open Scope N_scope.

(** Signers as the constructor makes them. *)
Definition a_signer (cr : crypto) (g : signer) : Prop := exists transferable code raw qb64b qb64 qb2, signer_new cr transferable code raw qb64b qb64 qb2 = Ok g.
(** A request to sign: the position of the key, whether the signature is for the current keys only, the position in the other list, the randomness used. *)
Record pick := Pick { p_index : N; p_only : bool; p_other : option N; p_rng : bytes }.
(** The request names one of [n] keys and its positions can be written. *)
Definition fair (n : N) (p : pick) : Prop := p_index p < n /\ p_index p < 4096 /\ (p_only p = false -> forall o, p_other p = Some o -> o < 4096).
(** The signature is what the signer at that position answers to the request. *)
Definition answers (cr : crypto) (gs : list signer) (ser : bytes) (p : pick) (sig : indexer * matter) : Prop :=
  exists g, nth_error gs (N.to_nat (p_index p)) = Some g /\ sign_indexed cr (p_rng p) g ser (p_only p) (p_index p) (p_other p) = Ok sig.
(** The signature verifies under the key at its index. *)
Definition checks (cr : crypto) (keys : list matter) (ser : bytes) (x : indexer) : Prop :=
  exists key, nth_error keys (N.to_nat (i_index x)) = Some key /\ verfer_verify cr key (i_raw x) ser = Ok true.
