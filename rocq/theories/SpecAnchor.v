(** Vocabulary of the statements about the key events that anchor registry events. *)
From Coq Require Import String.
From Coq Require Import NArith List.
From Verif Require Import Base Sadder Short Verify Ingest SpecCred.
Import ListNotations.
Open Scope N_scope.

(** A place in the registry logs, a prefix and a number below 2^32, that holds an event whose registry is owned by [owner]. *)
Definition of_owner (canon : bytes -> option bytes) (l : ledger) (owner : bytes) (place : bytes * nat) : Prop :=
  N.of_nat (snd place) < 2 ^ 32 /\ exists text e, nth_error (l_tel l (fst place)) (snd place) = Some text /\ serder_with_raw canon text = Ok e /\ owned canon (view canon l) e owner.
