(** Vocabulary of the statement about logs that part. *)
From Coq Require Import String.
From Coq Require Import NArith List Bool.
From Verif Require Import Base Matter Indexer Json Tholder Signer Sadder Short Verify SpecTholder SpecSadder SpecLog.
Import ListNotations.
Open Scope N_scope.

(** Two events set the same keys: signing keys, their threshold, the digests of the next keys and their threshold. *)
Definition same_keys (canon : bytes -> option bytes) (a b : sadder) : Prop :=
  serder_verfers a = serder_verfers b /\ serder_tholder canon a = serder_tholder canon b /\ serder_digers a = serder_digers b /\ serder_ntholder canon a = serder_ntholder canon b.
(** Enough of the signatures on [e] are by the signing keys that [a] sets. *)
Definition signed_by (canon : bytes -> option bytes) (cr : crypto) (a e : sadder) (sigs : list indexer) : Prop :=
  exists keys t good, serder_verfers a = Ok keys /\ serder_tholder canon a = Ok (Some t) /\ those (verifies cr keys (d_raw e)) sigs good /\ fulfilled t (map i_index good).
(** Enough of the signatures on [e] are by keys whose digests [a] announced. *)
Definition signed_next (canon : bytes -> option bytes) (hash : bytes -> bytes -> bytes) (cr : crypto) (a e : sadder) (sigs : list indexer) : Prop :=
  exists keys good digests nt shown, serder_verfers e = Ok keys /\ those (verifies cr keys (d_raw e)) sigs good /\ serder_digers a = Ok digests /\ serder_ntholder canon a = Ok (Some nt) /\
    those (reveals hash keys digests) good shown /\ fulfilled nt (map i_ondex shown).
(** The event was signed with what [a] set: an interaction with the signing keys, a rotation with the next keys. *)
Definition continued (canon : bytes -> option bytes) (hash : bytes -> bytes -> bytes) (cr : crypto) (a e : sadder) (g : list group) : Prop :=
  exists sigs, attached g sigs /\ (of_type (d_ked e) (s! "ixn") /\ signed_by canon cr a e sigs \/ of_type (d_ked e) (s! "rot") /\ signed_next canon hash cr a e sigs).
